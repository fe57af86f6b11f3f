(* Property theorems, part 23: local cubic interpolation, changing two neighbouring weights, normals carried along a curve. *)
From Coq Require Import ZArith List Bool Reals Lra Lia.
From Verif Require Import Base Num Vec Tac Spec Spec2 Spec3 Spec4 Spec5 Spec9 Spec10 Spec16 M_MathUtils M_XYZ M_Bspline M_NurbsCurve M_Geom M_Shape M_Curve3
  P_MathUtils P_Vec P_VSum P_Curve P_Bspline P_Decomp P_Make P_Geom P_Shape P_Surf5 P_Local P_Neigh P_Swung P_ProjNorm2.
Import ListNotations.
Open Scope Z_scope.

(** * C115 *)
Theorem C115_cubic : forall Q, 5 <= len Q <= 100000 -> bends Q ->
  returns (CubicLocalInterpolation Q) (fun r => exists T U P, r = Some (mkCurve 3 U P) /\
    len T = len Q /\ (forall k, 0 <= k < len Q -> direction_of (heading Q k) (pt T k)) /\
    joined Q T P /\ even_knots 3 (3 * (len Q - 1)) U /\
    NurbsPoint (mkCurve 3 U P) 0%R = Ok (pt Q 0) /\ NurbsPoint (mkCurve 3 U P) 1%R = Ok (pt Q (len Q - 1))).
Proof.
  intros Q HQ HB. destruct (Cubic_full Q ltac:(lia) HB) as (r & E & T & U & P & -> & HT & HD & J & HE). exists (Some (mkCurve 3 U P)). split; [exact E|].
  exists T, U, P. split; [reflexivity|]. split; [exact HT|]. split; [exact HD|]. split; [exact J|]. split; [exact HE|]. exact (Cubic_ends Q U P T HQ J HE).
Qed.
Print Assumptions C115_cubic.

Theorem C115_few : forall Q, 2 <= len Q <= 4 -> CubicLocalInterpolation Q = Ok None.
Proof. exact Cubic_few. Qed.
Print Assumptions C115_few.

(* an inner point that the curve never meets *)
Theorem C115_misses_refuted : exists Q, 5 <= len Q /\ bends Q /\ exists r, CubicLocalInterpolation Q = Ok (Some r) /\ forall t, (0 <= t <= 1)%R -> NurbsPoint r t <> Ok (pt Q 2).
Proof.
  exists zigzag. split; [cbn; lia|]. split; [exact zz_bends|]. destruct (Cubic_full zigzag ltac:(cbn; lia) zz_bends) as (r & E & T & U & P & -> & _).
  exists (mkCurve 3 U P). split; [exact E|]. exact (zz_misses _ E).
Qed.
Print Assumptions C115_misses_refuted.

(* the first five points on one line *)
Theorem C115_line_refuted : forall Q a v s, 5 <= len Q -> (forall k, 0 <= k < 5 -> pt Q k = line_at a v (s k)) -> CubicLocalInterpolation Q = NonFin.
Proof. exact Cubic_line. Qed.
Print Assumptions C115_line_refuted.

Example C115_ex : 5 <= len zigzag <= 100000 /\ bends zigzag.
Proof. split; [cbn; lia|exact zz_bends]. Qed.

(** * C116 *)
Section Neigh.
Variables (p n : Z) (U : list R) (H : list (XYZW R)) (t : R) (k : Z) (d scale : R).
Let P := proj (curve_point p n U H t).
Let R0 := proj (rest p n U H k t).
Let q := (share p n U H k t + share p n U H (k + 1) t)%R.
Let both := (0 < share p n U H k t /\ 0 < share p n U H (k + 1) t /\ 0 < dist3 P R0 + d)%R.

Lemma share_q : movable p n U H t k d scale -> q = ((N (val U) (val U (n + 1)) (Z.to_nat p) k t * ww (pt H k) + N (val U) (val U (n + 1)) (Z.to_nat p) (k + 1) t * ww (pt H (k + 1))) /
  (ww (rest p n U H k t) + N (val U) (val U (n + 1)) (Z.to_nat p) k t * ww (pt H k) + N (val U) (val U (n + 1)) (Z.to_nat p) (k + 1) t * ww (pt H (k + 1))))%R.
Proof.
  intros (HK & H7 & HH & HD & HW & Hk & Hs & _). unfold q, share. rewrite (total p n U H t k Hk). unfold tot. unfold Rdiv. rewrite <- Rmult_plus_distr_r. reflexivity.
Qed.
Lemma share_pos i : movable p n U H t k d scale -> 0 <= i <= n -> (0 < share p n U H i t)%R -> (0 < N (val U) (val U (n + 1)) (Z.to_nat p) i t)%R.
Proof.
  intros M Hi Hp. pose proof M as (HK & H7 & HH & HD & HW & Hk & Hs & _).
  destruct (Rle_lt_or_eq_dec 0 (N (val U) (val U (n + 1)) (Z.to_nat p) i t)) as [L|E]; [apply N_nonneg; assumption|exact L|].
  exfalso. unfold share in Hp. rewrite <- E in Hp. unfold Rdiv in Hp. rewrite !Rmult_0_l in Hp. lra.
Qed.

Lemma neigh_both : movable p n U H t k d scale -> both -> (q * (dist3 P R0 + d) / dist3 P R0 <> 1)%R -> exists f H',
  NeighborWeightsModification (mkCurve p U H) t k d scale = Ok (Some (mkCurve p U H')) /\
  reweighted H H' (fun i => if (i =? k) || (i =? k + 1) then f else 1%R) /\
  ((q * (dist3 P R0 + d) / dist3 P R0 < 1)%R -> (0 < f)%R /\ exists u, direction_of (minus3 P R0) u /\ NurbsPoint (mkCurve p U H') t = Ok (line_at P u d)) /\
  ((1 < q * (dist3 P R0 + d) / dist3 P R0)%R -> (f < 0)%R).
Proof.
  intros M (B1 & B2 & B3) Hq. pose proof M as (HK & H7 & HH & HD & HW & Hk & Hs & Ho & Hd & Hsc).
  pose proof (share_pos k M ltac:(lia) B1) as N1. pose proof (share_pos (k + 1) M ltac:(lia) B2) as N2. rewrite (share_q M) in *.
  destruct (Neigh_ok p n U H t k HK H7 HH HD HW Hk Hs Ho d scale Hd Hsc N1 N2 B3 Hq) as (H' & E & RW).
  exists (beta p n U H t k d), H'. split; [exact E|]. split; [exact RW|]. split.
  - intros L. destruct (Neigh_point p n U H t k HK H7 HH HD HW Hk Hs Ho d H' B3 L RW) as (u & Du & Eu & Bp). split; [exact Bp|]. exists u. split; [exact Du|exact Eu].
  - intros L. apply (Neigh_negative p n U H t k HK HH HD HW Hk Hs Ho d L).
Qed.

(* the point moves by exactly d away from where the rest of the curve pulls it, and both weights are multiplied by the same positive number *)
Theorem C116_moves : movable p n U H t k d scale -> both -> (q * (dist3 P R0 + d) / dist3 P R0 < 1)%R -> exists f H',
  NeighborWeightsModification (mkCurve p U H) t k d scale = Ok (Some (mkCurve p U H')) /\
  reweighted H H' (fun i => if (i =? k) || (i =? k + 1) then f else 1%R) /\ (0 < f)%R /\
  exists u, direction_of (minus3 P R0) u /\ NurbsPoint (mkCurve p U H') t = Ok (line_at P u d).
Proof. intros M B L. destruct (neigh_both M B ltac:(lra)) as (f & H' & E & RW & A & _). exists f, H'. split; [exact E|]. split; [exact RW|]. exact (A L). Qed.

(* a distance that would take the point beyond the line of the two control points: negative weights, and it answers that all is well *)
Theorem C116_negative_refuted : movable p n U H t k d scale -> both -> (1 < q * (dist3 P R0 + d) / dist3 P R0)%R -> exists f H',
  NeighborWeightsModification (mkCurve p U H) t k d scale = Ok (Some (mkCurve p U H')) /\
  reweighted H H' (fun i => if (i =? k) || (i =? k + 1) then f else 1%R) /\ (f < 0)%R.
Proof. intros M B L. destruct (neigh_both M B ltac:(lra)) as (f & H' & E & RW & _ & A). exists f, H'. split; [exact E|]. split; [exact RW|]. exact (A L). Qed.

(* where one of the two has no influence *)
Theorem C116_zero_refuted : movable p n U H t k d scale -> share p n U H k t = 0%R \/ share p n U H (k + 1) t = 0%R -> NeighborWeightsModification (mkCurve p U H) t k d scale = NonFin.
Proof.
  intros M HB. pose proof M as (HK & H7 & HH & HD & HW & Hk & Hs & Ho & Hd & Hsc). apply (Neigh_zero p n U H t k HK H7 HH HD HW Hk Hs Ho d scale Hd Hsc).
  assert (WP : ww (curve_point p n U H t) <> 0%R). { pose proof (total p n U H t k Hk) as ->. pose proof (tot_pos p n U H t k HK HH HD HW Hk Hs). lra. }
  assert (Z : forall i, 0 <= i <= n -> share p n U H i t = 0%R -> N (val U) (val U (n + 1)) (Z.to_nat p) i t = 0%R).
  { intros i Hi S0. pose proof (w_pos n H HH HW i Hi). unfold share in S0. apply Rmult_integral in S0. destruct S0 as [S0|S0]; [|exfalso; exact (Rinv_neq_0_compat _ WP S0)]. apply Rmult_integral in S0. destruct S0; [assumption|lra]. }
  destruct HB as [HB|HB]; [left|right]; apply Z; (lia || assumption).
Qed.
End Neigh.
Print Assumptions C116_moves.
Print Assumptions C116_negative_refuted.
Print Assumptions C116_zero_refuted.

(* the last control point is accepted as the first of the two *)
Theorem C116_last_refuted : forall p n U H t d scale, curve_knots p n U -> len H = n + 1 -> in_domain p n U t -> heavy H -> ~ small d -> ~ small scale ->
  NeighborWeightsModification (mkCurve p U H) t n d scale = UB.
Proof. exact Neigh_last. Qed.
Print Assumptions C116_last_refuted.

(* the last argument has no effect *)
Theorem C116_scale_refuted : forall (c : Curve R (XYZW R)) t k d s s', ~ small s -> ~ small s' -> NeighborWeightsModification c t k d s = NeighborWeightsModification c t k d s'.
Proof. exact Neigh_scale. Qed.
Print Assumptions C116_scale_refuted.

(** * C117 *)
(* three control points in the plane, the point at 1/2 *)
Definition hill : list (XYZW R) := [mkXYZW 0 0 0 1; mkXYZW 0 5 0 1; mkXYZW 4 (-2) 0 1]%R.
Lemma bez_N p i u : 0 <= i <= p -> (0 <= u <= 1)%R -> N (val (bezier_knots p)) (val (bezier_knots p) (p + 1)) (Z.to_nat p) i u = bern p i u.
Proof.
  intros Hi Hu. pose (f := fun j : Z => mkXYZW 0%R 0%R 0%R (if (j =? i)%Z then 1 else 0)%R). pose proof (bez_curve p (mklist (p + 1) f) u 3 ltac:(lia) Hu) as E.
  unfold curve_point in E. rewrite co_comb in E.
  rewrite (rsum_single 0 (p + 1) i) in E; [|lia|intros j Hj Nj; rewrite pt_mklist by lia; change (co 3 (f j)) with (if (j =? i)%Z then 1 else 0)%R; zcase; try lia; ring].
  rewrite (rsum_single 0 (p + 1) i) in E; [|lia|intros j Hj Nj; rewrite pt_mklist by lia; change (co 3 (f j)) with (if (j =? i)%Z then 1 else 0)%R; zcase; try lia; ring].
  rewrite !pt_mklist in E by lia. change (co 3 (f i)) with (if (i =? i)%Z then 1 else 0)%R in E. rewrite Z.eqb_refl in E. lra.
Qed.
Lemma hill_N i : 0 <= i <= 2 -> N (val (bezier_knots 2)) (val (bezier_knots 2) (2 + 1)) (Z.to_nat 2) i (1 / 2)%R = (if (i =? 1)%Z then 1 / 2 else 1 / 4)%R.
Proof. intros Hi. rewrite bez_N by (lia || lra). destruct (bern2 (1 / 2)) as (E0 & E1 & E2). assert (i = 0 \/ i = 1 \/ i = 2) as [-> | [-> | ->]] by lia; [rewrite E0|rewrite E1|rewrite E2]; cbn; field. Qed.
Lemma hill_at : curve_point 2 2 (bezier_knots 2) hill (1 / 2) = (mkXYZW 1 2 0 1)%R.
Proof. apply co_ext. intros c. unfold curve_point. rewrite co_comb, rsum_3, !hill_N by lia. cbn [Z.eqb Pos.eqb]. change (pt hill 0) with (mkXYZW 0 0 0 1)%R. change (pt hill 1) with (mkXYZW 0 5 0 1)%R. change (pt hill 2) with (mkXYZW 4 (-2) 0 1)%R. destruct c as [|[|[|c]]]; cbn; field. Qed.
Lemma hill_rest : rest 2 2 (bezier_knots 2) hill 0 (1 / 2) = (mkXYZW 1 (-1 / 2) 0 (1 / 4))%R.
Proof. apply co_ext. intros c. unfold rest. rewrite co_comb, rsum_3, !hill_N by lia. cbn [Z.eqb Pos.eqb orb Z.add]. change (pt hill 0) with (mkXYZW 0 0 0 1)%R. change (pt hill 1) with (mkXYZW 0 5 0 1)%R. change (pt hill 2) with (mkXYZW 4 (-2) 0 1)%R. destruct c as [|[|[|c]]]; cbn; field. Qed.
Lemma hill_share i : 0 <= i <= 1 -> share 2 2 (bezier_knots 2) hill i (1 / 2) = (if (i =? 1)%Z then 1 / 2 else 1 / 4)%R.
Proof. intros Hi. unfold share. rewrite hill_N, hill_at by lia. assert (i = 0 \/ i = 1) as [-> | ->] by lia; [change (ww (pt hill 0)) with 1%R|change (ww (pt hill 1)) with 1%R]; cbn [Z.eqb Pos.eqb ww]; field. Qed.
(* moving by 1 is possible, moving by 2 gives negative weights *)
Example C116_ex : forall d, (1 <= d <= 2)%R -> movable 2 2 (bezier_knots 2) hill (1 / 2) 0 d 1 /\
  let P := proj (curve_point 2 2 (bezier_knots 2) hill (1 / 2)) in let R0 := proj (rest 2 2 (bezier_knots 2) hill 0 (1 / 2)) in
  (0 < share 2 2 (bezier_knots 2) hill 0 (1 / 2) /\ 0 < share 2 2 (bezier_knots 2) hill (0 + 1) (1 / 2) /\ 0 < dist3 P R0 + d)%R /\
  ((share 2 2 (bezier_knots 2) hill 0 (1 / 2) + share 2 2 (bezier_knots 2) hill (0 + 1) (1 / 2)) * (dist3 P R0 + d) / dist3 P R0 = 3 / 4 * (5 + d) / 5)%R.
Proof.
  intros d Hd. rewrite hill_at, hill_rest. cbv zeta. rewrite (hill_share 0), (hill_share (0 + 1)) by lia.
  assert (EP : proj (mkXYZW 1 2 0 1)%R = (mkXYZ 1 2 0)%R) by (unfold proj; cbn [wx wy wz ww]; f_equal; field).
  assert (ER : proj (mkXYZW 1 (-1 / 2) 0 (1 / 4))%R = (mkXYZ 4 (-2) 0)%R) by (unfold proj; cbn [wx wy wz ww]; f_equal; field).
  assert (ED : dist3 (mkXYZ 1 2 0)%R (mkXYZ 4 (-2) 0)%R = 5%R). { unfold dist3, norm3, dot3, minus3. cbn [gx gy gz]. replace (_ + _)%R with (5 * 5)%R by ring. apply sqrt_square. lra. }
  split.
  - unfold movable. rewrite hill_at, hill_rest, EP, ER. cbn [ww]. split; [apply bez_knots_ok; lia|]. split; [lia|]. split; [reflexivity|]. split; [apply bez_dom; lia || lra|].
    split; [|split; [lia|]]. { intros i Hi. change (len hill) with 3 in Hi. assert (T : (tol 1 0 < 1)%R) by (unfold tol; rewrite Rabs_R0, Rabs_R1, Rmax_left by lra; lra). assert (i = 0 \/ i = 1 \/ i = 2) as [-> | [-> | ->]] by lia; exact T. }
    split; [unfold tol; rewrite Rabs_R0, (Rabs_right (1 / 4)), Rmax_left by lra; lra|].
    assert (E0 : proj (pt hill 0) = (mkXYZ 0 0 0)%R) by (change (pt hill 0) with (mkXYZW 0 0 0 1)%R; unfold proj; cbn [wx wy wz ww]; f_equal; field).
    assert (E1 : proj (pt hill (0 + 1)) = (mkXYZ 0 5 0)%R) by (change (pt hill (0 + 1)) with (mkXYZW 0 5 0 1)%R; unfold proj; cbn [wx wy wz ww]; f_equal; field). rewrite E0, E1.
    split; [|split; intros S; unfold small in S; rewrite Rabs_right in S by lra; lra].
    assert (T12 : (0 < 1 / 10 ^ 12 < 1)%R) by (cbn; lra).
    split; [|split; [|split]]; unfold minus3, dot3; cbn [gx gy gz].
    + intros ((A & _) & _). unfold minus3 in A. cbn [gx gy gz] in A. unfold tol in A. replace (0 - 0 - (4 - 1))%R with (- 3)%R in A by ring. replace (0 - 0)%R with 0%R in A by ring. replace (4 - 1)%R with 3%R in A by ring.
      rewrite Rabs_R0, (Rabs_right 3), (Rabs_left (-3)) in A by lra. rewrite Rmax_right in A by lra. lra.
    + lra.
    + lra.
    + intros S. unfold small in S. match type of S with (Rabs ?x <= _)%R => replace x with 225%R in S by ring end. rewrite Rabs_right in S by lra. lra.
  - rewrite EP, ER, ED. cbn [Z.add Z.eqb Pos.eqb]. split; [lra|field].
Qed.

(* an open curve: a result is a list of unit vectors normal to the curve, each the projection of the one before *)
Theorem C117_open : forall p n U H, curve_knots p n U -> p <= 7 -> len H = n + 1 -> heavy H -> clamped_knots p n U -> forall fuel angles,
  IsClosed (mkCurve p U H) = Ok false ->
  ProjectNormal fuel angles (mkCurve p U H) = OutOfFuel \/ exists L, ProjectNormal fuel angles (mkCurve p U H) = Ok L /\ carried p n U H L.
Proof. exact Project_any. Qed.
Print Assumptions C117_open.

(* a straight segment that is not parallel to (1,-1,1): one and the same normal, whatever the drawn angles *)
Theorem C117_line : forall a b fuel angles, (1 / 1000 <= dist3 a b)%R -> ~ Spec3.near b a -> (forall s, minus3 b a <> times3 s (mkXYZ 1 (-1) 1)%R) ->
  exists w, dot3 w w = 1%R /\ dot3 w (minus3 b a) = 0%R /\ ProjectNormal (S fuel) angles (mkCurve 1 (bezier_knots 1) [hom a 1; hom b 1]) = Ok [w; w; w; w].
Proof. exact Project_bar. Qed.
Print Assumptions C117_line.

(* a curve that ends where it began never gives a result *)
Theorem C117_closed_refuted : forall p n U H, curve_knots p n U -> p <= 7 -> len H = n + 1 -> heavy H -> clamped_knots p n U -> forall fuel angles,
  close (dist3 (proj (curve_point p n U H (val U 0))) (proj (curve_point p n U H (val U (n + 1))))) 0 ->
  ProjectNormal fuel angles (mkCurve p U H) = OutOfFuel \/ ProjectNormal fuel angles (mkCurve p U H) = UB.
Proof. exact Project_round. Qed.
Print Assumptions C117_closed_refuted.

(* a curve that starts in the direction (1,-1,1), or with a zero derivative: it draws angles for ever *)
Theorem C117_skew_refuted : forall p n U H, curve_knots p n U -> p <= 7 -> len H = n + 1 -> heavy H -> clamped_knots p n U ->
  exists g, curve_derivs p n U H 1 (val U 0) g /\ ((exists s, g 1 = times3 s (mkXYZ 1 (-1) 1)%R) ->
    forall fuel angles, ProjectNormal fuel angles (mkCurve p U H) = OutOfFuel).
Proof. exact Project_skew. Qed.
Print Assumptions C117_skew_refuted.

(* a segment along the x axis, and one in the direction (1,-1,1) *)
Example C117_ex : (1 / 1000 <= dist3 (mkXYZ 0 0 0) (mkXYZ 1 0 0))%R /\ ~ Spec3.near (mkXYZ 1 0 0)%R (mkXYZ 0 0 0)%R /\ (forall s, minus3 (mkXYZ 1 0 0) (mkXYZ 0 0 0) <> times3 s (mkXYZ 1 (-1) 1))%R /\
  IsClosed (mkCurve 1 (bezier_knots 1) [hom (mkXYZ 0 0 0) 1; hom (mkXYZ 1 0 0) 1])%R = Ok false /\
  (forall fuel angles, ProjectNormal fuel angles (mkCurve 1 (bezier_knots 1) [hom (mkXYZ 0 0 0) 1; hom (mkXYZ 1 (-1) 1) 1])%R = OutOfFuel).
Proof.
  assert (D : (1 / 1000 <= dist3 (mkXYZ 0 0 0) (mkXYZ 1 0 0))%R). { unfold dist3, norm3, dot3, minus3. cbn [gx gy gz]. replace (_ + _)%R with (1 * 1)%R by ring. rewrite sqrt_square by lra. lra. }
  assert (Nn : ~ Spec3.near (mkXYZ 1 0 0)%R (mkXYZ 0 0 0)%R). { intros (A & _). cbn [gx gy gz] in A. unfold tol in A. rewrite Rminus_0_r, Rabs_R0, Rabs_R1, Rmax_left in A by lra. lra. }
  split; [exact D|]. split; [exact Nn|]. split.
  { intros s E. pose proof (f_equal gx E) as E1. pose proof (f_equal gy E) as E2. unfold minus3, times3 in E1, E2. cbn [gx gy gz] in E1, E2. lra. }
  split; [apply (bar_open (mkXYZ 0 0 0)%R (mkXYZ 1 0 0)%R); assumption|]. intros fuel angles. exact (Project_bar_never (mkXYZ 0 0 0)%R (mkXYZ 1 (-1) 1)%R 1%R ltac:(unfold minus3, times3; cbn [gx gy gz]; f_equal; ring) fuel angles).
Qed.
