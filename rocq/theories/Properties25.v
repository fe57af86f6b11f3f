(* Property theorems, part 25: lengths of curves and the parameter of a length. *)
From Coq Require Import ZArith List Bool Reals Lra Lia Floats.
From Verif Require Import Base Num Vec Tac Spec Spec2 Spec3 Spec4 Spec5 Spec9 Spec10 M_MathUtils M_XYZ M_Bspline M_NurbsCurve M_Curve2 M_Geom M_Shape M_Curve4
  P_MathUtils P_Vec P_VSum P_Curve P_Bspline P_Decomp P_Make P_Nurbs P_Cox P_Geom P_Shape P_Surf5 P_Surf6 P_Swung P_ParamOn P_Length P_Length2.
Import ListNotations.
Open Scope Z_scope.

(* The tables of the second rule and the whole third rule are arbitrary in these theorems. *)

(** * C121 *)
Theorem C121_straight : forall ab we cl p n U H fuel type, curve_knots p n U -> len H = n + 1 -> heavy H -> 1 <= n -> collinear H ->
  ApproximateLength ab we cl fuel (mkCurve p U H) type = Ok (dist3 (proj (pt H 0)) (proj (pt H n))).
Proof. intros ab we cl p n U H fuel type HU HH Hw. exact (Len_collinear ab we cl p n U H HU HH Hw fuel type). Qed.
Print Assumptions C121_straight.

(* a polyline with corners is refused *)
Theorem C121_polyline : forall ab we cl n U H fuel type, curve_knots 1 n U -> len H = n + 1 -> heavy H ->
  (forall a u, dot3 u u = 1%R -> exists i, 0 <= i <= n /\ (2 / 999999 < norm3 (cross3 (minus3 (proj (pt H i)) a) u))%R) ->
  ApproximateLength ab we cl fuel (mkCurve 1 U H) type = Throw.
Proof. intros ab we cl n U H fuel type HU HH Hw Hs. exact (Len_corner ab we cl 1 n U H HU HH Hw fuel type eq_refl Hs). Qed.
Print Assumptions C121_polyline.

(* the first rule always ends *)
Theorem C121_simpson_ends : forall ab we cl p n U H, curve_knots p n U -> p <= 7 -> len H = n + 1 -> heavy H -> clamped_knots p n U -> val U p = 0%R -> val U (n + 1) = 1%R -> 2 <= p ->
  (forall a u, dot3 u u = 1%R -> exists i, 0 <= i <= n /\ (2 / 999999 < norm3 (cross3 (minus3 (proj (pt H i)) a) u))%R) ->
  exists N L, forall fuel, (N <= fuel)%nat -> ApproximateLength ab we cl fuel (mkCurve p U H) It_Simpson = Ok L.
Proof. intros ab we cl p n U H HU Hp HH Hw HC E0 E1 H2 Hs. destruct (Len_ends ab we cl p n U H HU Hp HH Hw HC E0 E1 H2 Hs) as (N & L & E & _). exists N, L. exact E. Qed.
Print Assumptions C121_simpson_ends.

(* and its result is bounded by the speeds of the curve *)
Theorem C121_simpson : forall ab we cl p n U H lo hi, curve_knots p n U -> p <= 7 -> len H = n + 1 -> heavy H -> clamped_knots p n U -> val U p = 0%R -> val U (n + 1) = 1%R -> 2 <= p ->
  (forall a u, dot3 u u = 1%R -> exists i, 0 <= i <= n /\ (2 / 999999 < norm3 (cross3 (minus3 (proj (pt H i)) a) u))%R) ->
  (forall t g, in_domain p n U t -> curve_derivs p n U H 1 t g -> (lo <= norm3 (g 1%Z) <= hi)%R) ->
  exists N L, (forall fuel, (N <= fuel)%nat -> ApproximateLength ab we cl fuel (mkCurve p U H) It_Simpson = Ok L) /\ (lo - (hi - lo) / 15 <= L <= hi + (hi - lo) / 15)%R.
Proof. intros ab we cl p n U H lo hi HU Hp HH Hw HC E0 E1 H2 Hs Hb. exact (Len_simpson ab we cl p n U H HU Hp HH Hw lo hi Hb HC E0 E1 H2 Hs). Qed.
Print Assumptions C121_simpson.

(* a curve that runs back on itself: its ends are 1 apart, and one of its points is 21/4 away from the start *)
Theorem C121_folded_refuted : exists H, heavy H /\ proj (curve_point 2 2 (bezier_knots 2) H 0%R) = (mkXYZ 0 0 0)%R /\ proj (curve_point 2 2 (bezier_knots 2) H (1 / 2)%R) = (mkXYZ (21 / 4) 0 0)%R /\
  forall ab we cl fuel type, ApproximateLength ab we cl fuel (mkCurve 2 (bezier_knots 2) H) type = Ok 1%R.
Proof.
  set (H := [mkXYZW 0 0 0 1; mkXYZW 10 0 0 1; mkXYZW 1 0 0 1]%R). assert (HW : heavy H).
  { intros i Hi. change (len H) with 3 in Hi. assert (T : (tol 1 0 < 1)%R) by (unfold tol; rewrite Rabs_R0, Rabs_R1, Rmax_left by lra; lra). assert (i = 0 \/ i = 1 \/ i = 2) as [-> | [-> | ->]] by lia; exact T. }
  assert (At : forall t, (0 <= t <= 1)%R -> curve_point 2 2 (bezier_knots 2) H t = hom (mkXYZ (20 * t * (1 - t) + t * t) 0 0)%R 1%R).
  { intros t Ht. apply co_ext. intros c. rewrite (bez_curve 2) by (lia || assumption). rewrite rsum_3. destruct (bern2 t) as (-> & -> & ->).
    change (pt H 0) with (mkXYZW 0 0 0 1)%R. change (pt H 1) with (mkXYZW 10 0 0 1)%R. change (pt H 2) with (mkXYZW 1 0 0 1)%R. destruct c as [|[|[|c]]]; cbn; ring. }
  exists H. split; [exact HW|]. split; [rewrite At, hom_proj by lra; f_equal; ring|]. split; [rewrite At, hom_proj by lra; f_equal; field|].
  intros ab we cl fuel type. rewrite (C121_straight ab we cl 2 2 (bezier_knots 2) H fuel type); [|apply bez_knots_ok; lia|reflexivity|exact HW|lia|].
  - f_equal. change (pt H 0) with (mkXYZW 0 0 0 1)%R. change (pt H 2) with (mkXYZW 1 0 0 1)%R. unfold dist3, norm3, dot3, minus3, proj. cbn [gx gy gz wx wy wz ww]. match goal with |- R_sqrt.sqrt ?x = _ => replace x with 1%R by field end. apply sqrt_1.
  - exists (mkXYZ 0 0 0)%R, (mkXYZ 1 0 0)%R, (fun i => wx (pt H i)). intros i Hi. change (len H) with 3 in Hi. unfold line_at, plus3, times3, proj. cbn [gx gy gz].
    assert (i = 0 \/ i = 1 \/ i = 2) as [-> | [-> | ->]] by lia; [change (pt H 0) with (mkXYZW 0 0 0 1)%R|change (pt H 1) with (mkXYZW 10 0 0 1)%R|change (pt H 2) with (mkXYZW 1 0 0 1)%R]; cbn [wx wy wz ww]; f_equal; field.
Qed.
Print Assumptions C121_folded_refuted.

(* the ends of this curve are 100 apart; in binary64 the length is reported as just below 1 *)
Theorem C121_blind_refuted : forall ab we cl, ApproximateLength ab we cl 10 (mkCurve 2 [0; 0; 0; 0.125; 0.25; 1; 1; 1]
  [mkXYZW 0 0 0 1; mkXYZW 0.0625 0 0 1; mkXYZW 0.1875 100 0 1; mkXYZW 0.625 100 0 1; mkXYZW 1 100 0 1])%float It_Simpson = Ok (0x1.fffffffffffffp-1)%float.
Proof. intros. vm_compute. reflexivity. Qed.
Print Assumptions C121_blind_refuted.

Lemma abs_inv x y : (Rabs x <= y)%R -> (- y <= x <= y)%R.
Proof. intros H. pose proof (Rle_abs x). pose proof (Rle_abs (- x)). rewrite Rabs_Ropp in *. lra. Qed.
(* the parabola (t, t^2): speeds between 1 and 9/4 *)
Definition arch : list (XYZW R) := [mkXYZW 0 0 0 1; mkXYZW (1 / 2) 0 0 1; mkXYZW 1 1 0 1]%R.
Lemma arch_span x : span_curve 2 2 (bezier_knots 2) arch x = hom (mkXYZ x (x * x) 0)%R 1%R.
Proof.
  apply co_ext. intros c. unfold span_curve. rewrite co_comb. change (2 - 2) with 0. change (2 + 1) with 3. rewrite rsum_3.
  change (pt arch 0) with (mkXYZW 0 0 0 1)%R. change (pt arch 1) with (mkXYZW (1 / 2) 0 0 1)%R. change (pt arch 2) with (mkXYZW 1 1 0 1)%R.
  assert (V : val (bezier_knots 2) 0 = 0%R /\ val (bezier_knots 2) 1 = 0%R /\ val (bezier_knots 2) 2 = 0%R /\ val (bezier_knots 2) 3 = 1%R /\ val (bezier_knots 2) 4 = 1%R /\ val (bezier_knots 2) 5 = 1%R) by (repeat split; reflexivity).
  destruct V as (V0 & V1 & V2 & V3 & V4 & V5).
  assert (N0 : Nspan (val (bezier_knots 2)) 2 (Z.to_nat 2) 0 x = ((1 - x) * (1 - x))%R).
  { change (Z.to_nat 2) with 2%nat. unfold Nspan. cbn [Nrec]. change (Z.of_nat 2) with 2. change (Z.of_nat 1) with 1. cbn [Z.eqb Z.add Pos.eqb Pos.add Pos.succ]. rewrite ?V0, ?V1, ?V2, ?V3, ?V4, ?V5. rewrite !(sdiv_ok _ (1 - 0)%R) by lra. field. }
  assert (N1 : Nspan (val (bezier_knots 2)) 2 (Z.to_nat 2) 1 x = (2 * x * (1 - x))%R).
  { change (Z.to_nat 2) with 2%nat. unfold Nspan. cbn [Nrec]. change (Z.of_nat 2) with 2. change (Z.of_nat 1) with 1. cbn [Z.eqb Z.add Pos.eqb Pos.add Pos.succ]. rewrite ?V0, ?V1, ?V2, ?V3, ?V4, ?V5. rewrite !(sdiv_ok _ (1 - 0)%R) by lra. field. }
  assert (N2 : Nspan (val (bezier_knots 2)) 2 (Z.to_nat 2) 2 x = (x * x)%R).
  { change (Z.to_nat 2) with 2%nat. unfold Nspan. cbn [Nrec]. change (Z.of_nat 2) with 2. change (Z.of_nat 1) with 1. cbn [Z.eqb Z.add Pos.eqb Pos.add Pos.succ]. rewrite ?V0, ?V1, ?V2, ?V3, ?V4, ?V5. rewrite !(sdiv_ok _ (1 - 0)%R) by lra. field. }
  rewrite N0, N1, N2. destruct c as [|[|[|c]]]; cbn; field.
Qed.
Lemma arch_heavy : heavy arch.
Proof. intros i Hi. change (len arch) with 3 in Hi. assert (T : (tol 1 0 < 1)%R) by (unfold tol; rewrite Rabs_R0, Rabs_R1, Rmax_left by lra; lra). assert (i = 0 \/ i = 1 \/ i = 2) as [-> | [-> | ->]] by lia; exact T. Qed.
Lemma arch_speed t g : in_domain 2 2 (bezier_knots 2) t -> curve_derivs 2 2 (bezier_knots 2) arch 1 t g -> (1 <= norm3 (g 1%Z) <= 9 / 4)%R.
Proof.
  intros Dt (k & Hk & G). assert (k = 2) as -> by (destruct Hk; lia). destruct (G 1 ltac:(lia)) as (F & (X & Y & Z0) & <-). change (Z.to_nat 1) with 1%nat in *.
  assert (W : forall x, ww (span_curve 2 2 (bezier_knots 2) arch x) <> 0%R) by (intros; rewrite arch_span; unfold hom; cbn; lra).
  destruct Dt as (D0 & D1). change (val (bezier_knots 2) 2) with 0%R in D0. change (val (bezier_knots 2) (2 + 1)) with 1%R in D1.
  destruct X as (hx & Dx & Ex), Y as (hy & Dy & Ey), Z0 as (hz & Dz & Ez). specialize (Dx t (W t)). specialize (Dy t (W t)). specialize (Dz t (W t)). rewrite Ex in Dx by apply W. rewrite Ey in Dy by apply W. rewrite Ez in Dz by apply W.
  assert (E1 : gx (F t) = 1%R). { apply (uniqueness_limite _ t _ _ Dx). apply (P_Deriv.der_ext id); [intros x; rewrite arch_span, hom_proj; reflexivity|]. apply derivable_pt_lim_id. }
  assert (E2 : gy (F t) = (2 * t)%R). { apply (uniqueness_limite _ t _ _ Dy). apply (P_Deriv.der_ext Rsqr); [intros x; rewrite arch_span, hom_proj; reflexivity|]. apply derivable_pt_lim_Rsqr. }
  assert (E3 : gz (F t) = 0%R). { apply (uniqueness_limite _ t _ _ Dz). apply (P_Deriv.der_ext (fct_cte 0%R)); [intros x; rewrite arch_span, hom_proj; reflexivity|]. apply derivable_pt_lim_const. }
  unfold norm3, dot3. rewrite E1, E2, E3. split.
  - rewrite <- sqrt_1 at 1. apply sqrt_le_1_alt. nra.
  - rewrite <- (sqrt_square (9 / 4)) by lra. apply sqrt_le_1_alt. nra.
Qed.
Lemma arch_spread a u : dot3 u u = 1%R -> exists i, 0 <= i <= 2 /\ (2 / 999999 < norm3 (cross3 (minus3 (proj (pt arch i)) a) u))%R.
Proof.
  intros Hu. set (d i := cross3 (minus3 (proj (pt arch i)) a) u). assert (B : forall i, (Rabs (gx (d i)) <= norm3 (d i) /\ Rabs (gy (d i)) <= norm3 (d i) /\ Rabs (gz (d i)) <= norm3 (d i))%R).
  { intros i. assert (Q : forall x, (x * x <= dot3 (d i) (d i))%R -> (Rabs x <= norm3 (d i))%R). { intros x Hx. unfold norm3. rewrite <- sqrt_Rsqr_abs. apply sqrt_le_1_alt. exact Hx. } unfold dot3 in Q. repeat split; apply Q; nra. }
  destruct (Rlt_le_dec (2 / 999999) (norm3 (d 0))) as [L0|L0]; [exists 0; split; [lia|exact L0]|]. destruct (Rlt_le_dec (2 / 999999) (norm3 (d 1))) as [L1|L1]; [exists 1; split; [lia|exact L1]|]. destruct (Rlt_le_dec (2 / 999999) (norm3 (d 2))) as [L2|L2]; [exists 2; split; [lia|exact L2]|].
  exfalso. pose proof (B 0) as (X0 & Y0 & Z0). pose proof (B 1) as (X1 & Y1 & Z1). pose proof (B 2) as (X2 & Y2 & Z2). unfold d in *. revert X0 Y0 Z0 X1 Y1 Z1 X2 Y2 Z2 L0 L1 L2.
  change (proj (pt arch 0)) with (proj (mkXYZW 0 0 0 1)%R). change (proj (pt arch 1)) with (proj (mkXYZW (1 / 2) 0 0 1)%R). change (proj (pt arch 2)) with (proj (mkXYZW 1 1 0 1)%R).
  unfold proj. cbn [wx wy wz ww]. destruct a as [a1 a2 a3], u as [u1 u2 u3]. unfold cross3, minus3, dot3 in *. cbn [gx gy gz] in *. intros.
  repeat match goal with H : (Rabs ?x <= ?n)%R, L : (?n <= _)%R |- _ => assert (Rabs x <= 2 / 999999)%R by lra; clear H end.
  repeat match goal with H : (Rabs ?x <= 2 / 999999)%R |- _ => apply abs_inv in H end.
  assert (Q2 : (-1 / 100 <= u2 <= 1 / 100)%R) by lra. assert (Q3 : (-1 / 100 <= u3 <= 1 / 100)%R) by lra. assert (Q1 : (-1 / 50 <= u1 <= 1 / 50)%R) by lra. clear - Hu Q1 Q2 Q3. nra.
Qed.
Example C121_ex : forall ab we cl, exists N L, (forall fuel, (N <= fuel)%nat -> ApproximateLength ab we cl fuel (mkCurve 2 (bezier_knots 2) arch) It_Simpson = Ok L) /\ (9 / 10 <= L <= 47 / 20)%R.
Proof.
  intros ab we cl. destruct (C121_simpson ab we cl 2 2 (bezier_knots 2) arch 1%R (9 / 4)%R) as (N & L & E & B); [apply bez_knots_ok; lia|lia|reflexivity|exact arch_heavy|split; reflexivity|reflexivity|reflexivity|lia|exact arch_spread|exact arch_speed|].
  exists N, L. split; [exact E|lra].
Qed.

(** * C122 *)
(* the length of the part before r, as the library splits it off and measures it *)
Definition part_length (ab we : list R) cl type fuel (c : Curve R (XYZW R)) (r l : R) : Prop :=
  exists left_ right_, SplitAt c r = Ok (Some (left_, right_)) /\ ApproximateLength ab we cl fuel left_ type = Ok l.

(* for every curve at all: the last parameter if the curve is too short; or a parameter where the part before it has the
   given length; or one where halving the rest hits the ends of the domain *)
Theorem C122_length : forall ab we cl type fuel c g r first last, GetParamOnCurve_length ab we cl fuel c g type = Ok r ->
  get (KnotVector c) 0 = Ok first -> get (KnotVector c) (len (KnotVector c) - 1) = Ok last ->
  (exists total, ApproximateLength ab we cl fuel c type = Ok total /\ (total < g)%R /\ r = last) \/
  (exists l, part_length ab we cl type fuel c r l /\ (Rabs (l - g) <= 1 / 10000 * (1 + Rmax (Rabs l) (Rabs g)))%R) \/
  (exists e, SplitAt c ((r + e) / 2)%R = Ok None /\ (r = first \/ exists l, part_length ab we cl type fuel c r l /\ (l < g)%R) /\ (e = last \/ exists l, part_length ab we cl type fuel c e l /\ (g < l)%R)).
Proof. intros ab we cl type fuel c g r first last. exact (ByLength_ok ab we cl type fuel c g r first last). Qed.
Print Assumptions C122_length.

Theorem C122_segment : forall ab we cl type a b g fuel, (0 <= g <= dist3 a b)%R -> (dist3 a b <= 10)%R -> (17 <= fuel)%nat ->
  exists r, GetParamOnCurve_length ab we cl fuel (mkCurve 1 (bezier_knots 1) [hom a 1; hom b 1]) g type = Ok r /\ (0 < r < 1)%R /\ (Rabs (r * dist3 a b - g) <= 1 / 10000 * (1 + dist3 a b))%R.
Proof. intros ab we cl type a b g fuel Hg HL Hf. exact (bar_by_length ab we cl type a b g Hg HL fuel Hf). Qed.
Print Assumptions C122_segment.
Example C122_ex : forall ab we cl, exists r, GetParamOnCurve_length ab we cl 20 (mkCurve 1 (bezier_knots 1) [hom (mkXYZ 0 0 0)%R 1%R; hom (mkXYZ 3 4 0)%R 1%R]) 2%R It_Simpson = Ok r /\ (0.3998 <= r <= 0.4002)%R.
Proof.
  intros ab we cl. assert (D : dist3 (mkXYZ 0 0 0)%R (mkXYZ 3 4 0)%R = 5%R) by (unfold dist3, norm3, dot3, minus3; cbn [gx gy gz]; match goal with |- R_sqrt.sqrt ?x = _ => replace x with (5 * 5)%R by ring end; apply sqrt_square; lra).
  destruct (C122_segment ab we cl It_Simpson (mkXYZ 0 0 0)%R (mkXYZ 3 4 0)%R 2%R 20) as (r & E & B & H); [rewrite D; lra|rewrite D; lra|lia|]. rewrite D in H. exists r. split; [exact E|]. apply abs_inv in H. lra.
Qed.

Definition unit_bar := (mkCurve 1 [0; 0; 1; 1] [mkXYZW 0 0 0 1; mkXYZW 1 0 0 1])%float.
(* on a long segment (here of length 2^20) the start is returned for the length 1/2 *)
Theorem C122_long_refuted : forall ab we cl d, GetParamOnCurve_length ab we cl (64 + d) (mkCurve 1 [0; 0; 1; 1] [mkXYZW 0 0 0 1; mkXYZW 1048576 0 0 1])%float 0.5%float It_Simpson = Ok 0%float.
Proof. intros. vm_compute. reflexivity. Qed.
Print Assumptions C122_long_refuted.
(* cutting a segment of length 1 into pieces of length 1/2 gives a second cut just before the end *)
Theorem C122_extra_cut_refuted : forall ab we cl d, GetParamsOnCurve_length ab we cl (8 + d) (64 + d) unit_bar 0.5%float It_Simpson = Ok [0.5; 0.9998779296875]%float.
Proof. intros. vm_compute. reflexivity. Qed.
Print Assumptions C122_extra_cut_refuted.
(* cutting with a negative length never ends *)
Theorem C122_negative_refuted : forall ab we cl steps d, GetParamsOnCurve_length ab we cl steps (64 + d) unit_bar (-1)%float It_Simpson = OutOfFuel.
Proof.
  intros. assert (E : GetParamOnCurve_length ab we cl (64 + d) unit_bar (-1)%float It_Simpson = Ok 0%float) by (vm_compute; reflexivity).
  unfold GetParamsOnCurve_length. rewrite E. change (get (KnotVector unit_bar) (len (KnotVector unit_bar) - 1)) with (Ok 1%float). cbn [bind]. clear E.
  generalize (@nil float). induction steps as [|k IH]; intros l; [reflexivity|]. cbn [params_loop]. assert (A : IsAlmostEqualTo 0%float 1%float = false) by (vm_compute; reflexivity). rewrite A.
  assert (S : SplitAt unit_bar 0%float = Ok None) by (vm_compute; reflexivity). rewrite S. cbn [bind]. apply IH.
Qed.
Print Assumptions C122_negative_refuted.
