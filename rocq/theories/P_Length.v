(* Lengths of curves. *)
From Coq Require Import ZArith List Bool Reals Lra Lia.
From Verif Require Import Base Num Vec Tac Spec Spec2 Spec3 Spec4 Spec5 Spec9 Spec10 Spec17 M_MathUtils M_XYZ M_Bspline M_NurbsCurve M_Curve2 M_Geom M_Knots M_Shape M_Curve4
  P_MathUtils P_XYZ P_Vec P_VSum P_Curve P_Bspline P_Decomp P_Loop P_Insert P_Geom P_Matrix P_Nurbs P_Cox P_Span P_Insert2 P_KnotMap2 P_Shape P_Shape2 P_Shape3 P_Surf5 P_Surf6 P_Surf7 P_Make P_Swung P_ParamOn.
Import ListNotations.
Open Scope Z_scope.

Section Len.
Variables (abscissae weights : list R) (clenshaw : (R -> res R) -> R -> R -> res R).
Variables (p n : Z) (U : list R) (H : list (XYZW R)).
Hypothesis HU : curve_knots p n U.
Hypothesis Hp : p <= 7.
Hypothesis HH : len H = n + 1.
Hypothesis Hw : heavy H.
Let c := mkCurve p U H.
Let PP i := proj (pt H i).

Lemma Len_linear fuel type : IsLinear c = Ok true -> ApproximateLength abscissae weights clenshaw fuel c type = Ok (dist3 (PP 0) (PP n)).
Proof.
  intros E. pose proof (ck_n _ _ _ HU). pose proof (ck_p _ _ _ HU). unfold ApproximateLength. rewrite E. cbn [bind ControlPoints c]. rewrite HH. replace (n + 1 - 1) with n by lia.
  destruct (to_xyz n H HH Hw 0 ltac:(lia)) as (-> & E0). destruct (to_xyz n H HH Hw n ltac:(lia)) as (-> & E1). cbn [bind]. rewrite E0. cbn [bind]. rewrite E1. cbn [bind]. apply Distance_eq.
Qed.
Lemma Len_collinear fuel type : 1 <= n -> collinear H -> ApproximateLength abscissae weights clenshaw fuel c type = Ok (dist3 (PP 0) (PP n)).
Proof.
  intros Hn Hc. apply Len_linear. destruct (wp_elim _ _ (IsLinear_ok p n U H HU HH Hw Hn)) as (b & E & _ & B). unfold c. rewrite E. f_equal. destruct b; [reflexivity|]. exfalso. exact (B eq_refl Hc).
Qed.

(* no straight line passes within 2/999999 of all control points *)
Definition spread : Prop := forall a u, dot3 u u = 1%R -> exists i, 0 <= i <= n /\ (2 / 999999 < norm3 (cross3 (minus3 (PP i) a) u))%R.
Lemma spread_linear : 1 <= n -> spread -> IsLinear c = Ok false.
Proof.
  intros Hn Hs. destruct (wp_elim _ _ (IsLinear_ok p n U H HU HH Hw Hn)) as (b & E & B & _). unfold c. rewrite E. f_equal. destruct b; [|reflexivity]. exfalso. destruct (B eq_refl) as (a & u & Hu & Hb). destruct (Hs a u Hu) as (i & Hi & L). specialize (Hb i Hi). unfold PP in L. lra.
Qed.
Lemma Len_corner fuel type : p = 1 -> spread -> ApproximateLength abscissae weights clenshaw fuel c type = Throw.
Proof.
  intros E1 Hs. pose proof (ck_n _ _ _ HU). unfold ApproximateLength. rewrite spread_linear by (lia || assumption). cbn [bind Degree c]. rewrite E1. reflexivity.
Qed.

Lemma speed_at t : in_domain p n U t -> exists g, curve_derivs p n U H 1 t g /\ speed c t = Ok (norm3 (g 1)).
Proof.
  intros Dt. pose proof (curve_weight p n U H t HU HH Hw Dt) as W. destruct (derivs_at p n U H t HU Hp HH Dt ltac:(lra) 1 ltac:(lia)) as (g & D & G & E & HD). exists g. split; [exact G|].
  unfold speed, c. rewrite E. cbn [bind]. rewrite HD by lia. cbn [bind]. apply Length_eq.
Qed.

Section Bounds.
Variables (lo hi : R).
Hypothesis Hb : forall t g, in_domain p n U t -> curve_derivs p n U H 1 t g -> (lo <= norm3 (g 1%Z) <= hi)%R.

Lemma speed_in t : in_domain p n U t -> returns (speed c t) (fun x => lo <= x <= hi)%R.
Proof. intros Dt. destruct (speed_at t Dt) as (g & G & E). exists (norm3 (g 1)). split; [exact E|]. exact (Hb t g Dt G). Qed.
Lemma simpson_in s e : in_domain p n U s -> in_domain p n U e -> (s <= e)%R -> returns (simpson_speed c s e) (fun x => lo * (e - s) <= x <= hi * (e - s))%R.
Proof.
  intros Ds De Hse. assert (Dm : in_domain p n U ((s + e) / 2)%R) by (destruct Ds, De; split; lra). unfold simpson_speed. num.
  destruct (speed_in s Ds) as (x1 & -> & B1). cbn [bind]. rewrite Rdiv_ok by lra. cbn [bind]. destruct (speed_in _ Dm) as (x2 & -> & B2). cbn [bind]. destruct (speed_in e De) as (x3 & -> & B3). cbn [bind].
  rewrite Rdiv_ok by lra. cbn [bind]. eexists. split; [reflexivity|]. nra.
Qed.
Lemma adaptive k : forall s e simpson tl, in_domain p n U s -> in_domain p n U e -> (s <= e)%R -> ((hi - lo) * (e - s) <= 2 ^ k * (1 / 1000000))%R ->
  (lo * (e - s) <= simpson <= hi * (e - s))%R ->
  ample (fun f => simpson_length f c s e simpson tl) (fun L => (lo - (hi - lo) / 15) * (e - s) <= L <= (hi + (hi - lo) / 15) * (e - s))%R.
Proof.
  induction k as [|k IH]; intros s e sm tl Ds De Hse Hk Hsm.
  all: assert (Dm : in_domain p n U ((s + e) / 2)%R) by (destruct Ds, De; split; lra).
  all: destruct (simpson_in s ((s + e) / 2)%R Ds Dm ltac:(lra)) as (L & EL & BL).
  all: destruct (simpson_in ((s + e) / 2)%R e Dm De ltac:(lra)) as (R0 & ER & BR).
  all: assert (BD : (- (hi - lo) * (e - s) <= L + R0 - sm <= (hi - lo) * (e - s))%R) by nra.
  all: assert (BS : (lo * (e - s) <= L + R0 <= hi * (e - s))%R) by nra.
  all: set (stop := IsAlmostEqualTo (L + R0 - sm)%R 0%R || IsLessThan (Rabs (L + R0 - sm) / 15)%R tl).
  all: assert (RUN : forall f, simpson_length (Datatypes.S f) c s e sm tl = if stop then Ok (L + R0 + (L + R0 - sm) / 15)%R else let! a := simpson_length f c s ((s + e) / 2)%R L (tl / 2)%R in let! b := simpson_length f c ((s + e) / 2)%R e R0 (tl / 2)%R in Ok (a + b)%R).
  all: try (intros f; cbn [simpson_length]; num; rewrite Rdiv_ok by lra; cbn [bind]; rewrite EL; cbn [bind]; rewrite ER; cbn [bind]; rewrite Rdiv_ok by lra; cbn [bind]; fold stop; destruct stop; rewrite Rdiv_ok by lra; reflexivity).
  all: assert (DONE : ((lo - (hi - lo) / 15) * (e - s) <= L + R0 + (L + R0 - sm) / 15 <= (hi + (hi - lo) / 15) * (e - s))%R) by nra.
  - exists 1%nat, (L + R0 + (L + R0 - sm) / 15)%R. split; [|exact DONE]. intros [|f] Hf; [lia|]. rewrite RUN. replace stop with true; [reflexivity|]. symmetry. unfold stop. apply orb_true_iff. left. apply close_iff.
    unfold close, tol. rewrite Rminus_0_r, Rabs_R0. pose proof (Rmax_l (Rabs (L + R0 - sm)) 0). cbn [pow] in Hk. assert (Rabs (L + R0 - sm) <= 1 / 1000000)%R by (apply Rabs_le; nra). pose proof (Rabs_pos (L + R0 - sm)). lra.
  - destruct stop.
    + exists 1%nat, (L + R0 + (L + R0 - sm) / 15)%R. split; [|exact DONE]. intros [|f] Hf; [lia|]. apply RUN.
    + cbn [pow] in Hk. destruct (IH s ((s + e) / 2)%R L (tl / 2)%R Ds Dm ltac:(lra)) as (N1 & a & E1 & B1); [nra|nra|]. destruct (IH ((s + e) / 2)%R e R0 (tl / 2)%R Dm De ltac:(lra)) as (N2 & b & E2 & B2); [nra|nra|].
      exists (Datatypes.S (Nat.max N1 N2)), (a + b)%R. split; [|nra]. intros [|f] Hf; [lia|]. rewrite RUN, E1 by lia. cbn [bind]. rewrite E2 by lia. reflexivity.
Qed.

Lemma Len_simpson : clamped_knots p n U -> val U p = 0%R -> val U (n + 1) = 1%R -> 2 <= p -> spread ->
  ample (fun f => ApproximateLength abscissae weights clenshaw f c It_Simpson) (fun L => lo - (hi - lo) / 15 <= L <= hi + (hi - lo) / 15)%R.
Proof.
  intros HC E0 E1 H2 Hs. pose proof HU as [P0 N0 LU SU _ _]. destruct (domain_ends p n U HU HC) as (G0 & G1). rewrite E0 in G0. rewrite E1 in G1.
  assert (D0 : in_domain p n U 0%R) by (split; rewrite ?E0, ?E1; lra). assert (D1 : in_domain p n U 1%R) by (split; rewrite ?E0, ?E1; lra).
  destruct (simpson_in 0 1 D0 D1 ltac:(lra)) as (x & Ex & Bx). rewrite Rminus_0_r, !Rmult_1_r in Bx.
  assert (K : exists k, ((hi - lo) * (1 - 0) <= 2 ^ k * (1 / 1000000))%R).
  { destruct (Pow_x_infinity 2 ltac:(rewrite Rabs_right; lra) ((hi - lo) * 1000000)%R) as (k & Hk). exists k. specialize (Hk k (Nat.le_refl k)). rewrite Rabs_right in Hk by (apply Rle_ge, pow_le; lra). lra. }
  destruct K as (k & Hk). destruct (adaptive k 0%R 1%R x DistanceEpsilon D0 D1 ltac:(lra) Hk ltac:(lra)) as (N & L & EL & BL).
  exists N, L. split; [|lra]. intros f Hf. unfold ApproximateLength. rewrite spread_linear by (lia || assumption). cbn [bind Degree c]. destruct (Z.eqb_spec p 1); [lia|]. cbn [negb validate bind].
  unfold Reparametrize, c. cbn [KnotVector]. rewrite G0, G1. cbn [bind]. num.
  assert (Z0 : forall y, IsAlmostEqualTo y y = true) by (intros y; apply close_iff; unfold close; rewrite Rminus_eq_0, Rabs_R0; apply Rlt_le, tol_pos). rewrite !Z0. cbn [andb bind KnotVector]. rewrite G0, G1. cbn [bind]. fold c. rewrite Ex. cbn [bind]. apply EL, Hf.
Qed.
End Bounds.
End Len.

(* the speed of a curve is bounded *)
Lemma bounded_deriv (h : R -> R) a b : (a <= b)%R -> (forall x, (a <= x <= b)%R -> exists l, derivable_pt_lim h x l) -> exists B, forall x, (a <= x <= b)%R -> (Rabs (h x) <= B)%R.
Proof.
  intros Hab Hd. assert (Hc : forall x, (a <= x <= b)%R -> continuity_pt h x). { intros x Hx. destruct (Hd x Hx) as (l & Hl). apply derivable_continuous_pt. exists l. exact Hl. }
  destruct (continuity_ab_maj h a b Hab Hc) as (u & Hu & _). destruct (continuity_ab_min h a b Hab Hc) as (v & Hv & _). exists (Rmax (Rabs (h u)) (Rabs (h v))). intros x Hx. specialize (Hu x Hx). specialize (Hv x Hx).
  pose proof (Rmax_l (Rabs (h u)) (Rabs (h v))). pose proof (Rmax_r (Rabs (h u)) (Rabs (h v))). apply Rabs_le. pose proof (Rle_abs (h u)). pose proof (Rle_abs (- h v)). rewrite Rabs_Ropp in H2. lra.
Qed.
(* first derivatives that can be derived once more, and any other function that is a first derivative *)
Lemma second_bound (D : R -> Prop) f g2 a b : (a <= b)%R -> (forall x, (a <= x <= b)%R -> D x) -> nth_deriv_on D 2 f g2 ->
  exists B, forall x g1, (a <= x <= b)%R -> nth_deriv_on D 1 f g1 -> (Rabs (g1 x) <= B)%R.
Proof.
  intros Hab HD (h & Dh & h2 & Dh2 & _). destruct (bounded_deriv h a b Hab) as (B & HB). { intros x Hx. exists (h2 x). apply Dh2, HD, Hx. }
  exists B. intros x g1 Hx (k & Dk & Ek). rewrite <- Ek by apply HD, Hx. rewrite (uniqueness_limite f x (k x) (h x)); [apply HB, Hx|apply Dk, HD, Hx|apply Dh, HD, Hx].
Qed.
Lemma norm_sum v : (norm3 v <= Rabs (gx v) + Rabs (gy v) + Rabs (gz v))%R.
Proof.
  unfold norm3. rewrite <- (sqrt_square (Rabs (gx v) + Rabs (gy v) + Rabs (gz v))) by (pose proof (Rabs_pos (gx v)); pose proof (Rabs_pos (gy v)); pose proof (Rabs_pos (gz v)); lra).
  apply sqrt_le_1_alt. unfold dot3. pose proof (Rabs_pos (gx v)). pose proof (Rabs_pos (gy v)). pose proof (Rabs_pos (gz v)).
  replace (gx v * gx v)%R with (Rabs (gx v) * Rabs (gx v))%R by (rewrite <- Rabs_mult; apply Rabs_right; nra). replace (gy v * gy v)%R with (Rabs (gy v) * Rabs (gy v))%R by (rewrite <- Rabs_mult; apply Rabs_right; nra). replace (gz v * gz v)%R with (Rabs (gz v) * Rabs (gz v))%R by (rewrite <- Rabs_mult; apply Rabs_right; nra). nra.
Qed.
Section Bounded.
Variables (p n : Z) (U : list R) (H : list (XYZW R)).
Hypothesis HU : curve_knots p n U.
Hypothesis HH : len H = n + 1.
Hypothesis Hw : heavy H.
Lemma closed_weight k t : p <= k <= n -> (val U k < val U (k + 1))%R -> (val U k <= t <= val U (k + 1))%R -> (0 < ww (span_curve k p U H t))%R.
Proof.
  intros Hk Hlt Ht. pose proof HU as [P0 N0 LU SU _ _]. assert (Hg : good (val U) k p) by (split; [exact Hlt|intros i j Hi Hij Hj; apply SU; lia]).
  change (ww (span_curve k p U H t)) with (co 3 (span_curve k p U H t)). unfold span_curve. rewrite co_comb.
  apply (rsum_gt (k - p) (k + 1) (fun i => Nspan (val U) k (Z.to_nat p) i t) (fun i => co 3 (pt H i)) 0%R).
  - exact (NS_sum (val U) k p t P0 Hg).
  - intros i Hi. apply (NS_nonneg (val U) k p i t P0 Hg Ht).
  - intros i Hi _. change (0 < ww (pt H i))%R. specialize (Hw i ltac:(lia)). unfold tol in Hw. pose proof (Rmax_r (Rabs (ww (pt H i))) (Rabs 0)). pose proof (Rabs_pos 0). lra.
Qed.
Lemma span_bound k : p <= k <= n -> (val U k < val U (k + 1))%R -> exists B, forall t G, (val U k <= t <= val U (k + 1))%R ->
  xyz_deriv_on (fun x => ww (span_curve k p U H x) <> 0%R) 1 (fun x => proj (span_curve k p U H x)) G -> (norm3 (G t) <= B)%R.
Proof.
  intros Hk Hlt. pose proof HU as [P0 N0 LU SU _ _]. assert (Hg : good (val U) k p) by (split; [exact Hlt|intros i j Hi Hij Hj; apply SU; lia]).
  destruct (rder_deriv k p U H 2 P0 ltac:(lia) Hg) as (X & Y & Z). change (Z.to_nat 2) with 2%nat in *.
  assert (HD : forall x, (val U k <= x <= val U (k + 1))%R -> ww (span_curve k p U H x) <> 0%R) by (intros x Hx; pose proof (closed_weight k x Hk Hlt Hx); lra).
  destruct (second_bound _ _ _ _ _ (Rlt_le _ _ Hlt) HD X) as (B1 & H1). destruct (second_bound _ _ _ _ _ (Rlt_le _ _ Hlt) HD Y) as (B2 & H2). destruct (second_bound _ _ _ _ _ (Rlt_le _ _ Hlt) HD Z) as (B3 & H3).
  exists (B1 + B2 + B3)%R. intros t G Ht (GX & GY & GZ). change (Z.to_nat 1) with 1%nat in *. specialize (H1 t _ Ht GX). specialize (H2 t _ Ht GY). specialize (H3 t _ Ht GZ). cbv beta in *. pose proof (norm_sum (G t)). lra.
Qed.
Lemma speed_bound : exists B, forall t g, in_domain p n U t -> curve_derivs p n U H 1 t g -> (0 <= norm3 (g 1%Z) <= B)%R.
Proof.
  pose proof HU as [P0 N0 LU SU _ _].
  assert (K : forall m, exists B, forall k t G, p <= k < p + Z.of_nat m -> k <= n -> (val U k < val U (k + 1))%R -> (val U k <= t <= val U (k + 1))%R ->
    xyz_deriv_on (fun x => ww (span_curve k p U H x) <> 0%R) 1 (fun x => proj (span_curve k p U H x)) G -> (norm3 (G t) <= B)%R).
  { induction m as [|m (B & IH)]; [exists 0%R; intros; lia|]. destruct (Z_le_gt_dec (p + Z.of_nat m) n) as [L|L].
    - destruct (Rlt_le_dec (val U (p + Z.of_nat m)) (val U (p + Z.of_nat m + 1))) as [Hlt|Hge].
      + destruct (span_bound (p + Z.of_nat m) ltac:(lia) Hlt) as (B' & HB'). exists (Rmax B B'). intros k t G Hk Hn Hl Ht HG. pose proof (Rmax_l B B'). pose proof (Rmax_r B B').
        destruct (Z.eq_dec k (p + Z.of_nat m)) as [->|]; [specialize (HB' t G Ht HG); lra|]. specialize (IH k t G ltac:(lia) Hn Hl Ht HG). lra.
      + exists B. intros k t G Hk Hn Hl Ht HG. destruct (Z.eq_dec k (p + Z.of_nat m)) as [->|]; [lra|]. apply (IH k t G); auto. lia.
    - exists B. intros k t G Hk Hn Hl Ht HG. apply (IH k t G); auto. lia. }
  destruct (K (Z.to_nat (n - p + 1))) as (B & HB). exists B. intros t g Dt (k & Hk & Hg). split; [apply norm_pos|]. destruct (Hg 1 ltac:(lia)) as (G & HG & <-). destruct Hk as (K1 & K2 & K3 & K4). apply (HB k t G); auto; [lia|lia|]. destruct K4 as [K4|(-> & ->)]; lra.
Qed.
End Bounded.

(* the first rule always ends *)
Lemma Len_ends ab we cl p n U H : curve_knots p n U -> p <= 7 -> len H = n + 1 -> heavy H -> clamped_knots p n U -> val U p = 0%R -> val U (n + 1) = 1%R -> 2 <= p -> spread n H ->
  ample (fun f => ApproximateLength ab we cl f (mkCurve p U H) It_Simpson) (fun _ => True).
Proof.
  intros HU Hp HH Hw HC E0 E1 H2 Hs. destruct (speed_bound p n U H HU HH Hw) as (B & HB). destruct (Len_simpson ab we cl p n U H HU Hp HH Hw 0%R B HB HC E0 E1 H2 Hs) as (N & L & E & _). exists N, L. split; [exact E|exact I].
Qed.
