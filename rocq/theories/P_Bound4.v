(* Cases for the error bound of the removal of a knot. *)
From Coq Require Import ZArith List Bool Reals Lra Lia.
From Verif Require Import Base Num Vec Tac Spec Spec2 Spec3 Spec4 Spec5 Spec6 Spec24 M_MathUtils M_Polynomials M_Knots M_XYZ M_Bspline M_NurbsCurve M_Curve2 M_Interp M_Bound
  P_MathUtils P_Span P_Cox P_Vec P_VSum P_Curve P_Basis P_OneBasis P_Bspline P_Make P_Reduce P_Surf5 P_Bound P_Bound2.
Import ListNotations.
Open Scope Z_scope.

(* the first indices *)
Lemma Bound_low p n U (P : list (XYZW R)) r : curve_knots p n U -> len P = n + 1 -> 0 <= r <= p -> ComputerRemoveKnotErrorBound (mkCurve p U P) r = UB.
Proof.
  intros HU HP Hr. pose proof HU as [Hp Hn HL HS _ _]. unfold ComputerRemoveKnotErrorBound. cbn [Degree KnotVector ControlPoints].
  destruct (Z.eqb_spec (len U) 0); [lia|]. unfold validate_int_range. destruct (Z.ltb_spec r 0); [lia|]. destruct (Z.ltb_spec (len U - 1) r); [lia|]. cbn [orb negb validate bind].
  rewrite (get_val U r) by lia. cbn [bind].
  assert (In0 : (val U 0 <= val U r <= val U (len U - 1))%R) by (split; apply HS; lia).
  rewrite (GetKnotMultiplicity_spec U (val U r) ltac:(lia) HS In0). cbn [bind].
  unfold mkvec. destruct (Z.ltb_spec (len U) 0); [lia|]. cbn [bind]. unfold get at 1. destruct (Z.ltb_spec (r - p - 1) 0); [|lia]. reflexivity.
Qed.

(* exact values *)
Lemma Bound_linear n U P k : curve_knots 1 n U -> len P = n + 1 -> 1 < k <= n -> (val U 1 < val U k < val U (k + 1))%R -> (forall x, In x U -> (Rabs (val U k - x) <= tol (val U k) x)%R -> x = val U k) -> occ U (val U k) = 1 ->
  let a := ((val U k - val U (k - 1)) / (val U (k + 1) - val U (k - 1)))%R in
  ComputerRemoveKnotErrorBound (mkCurve 1 U P) k = Ok (dist4 (pt P (k - 1)) (vadd (vscale a (pt P k)) (vscale (1 - a)%R (pt P (k - 2))))).
Proof.
  intros HU HP Hk Hu Hsep Ho. pose proof HU as [Hp Hn HL HS _ _]. assert (Hs : span_of 1 n U (val U k) k) by (split; [lia|]; split; [lra|]; split; [lra|left; lra]).
  assert (Hi : (val U 1 < val U k < val U (n + 1))%R) by (split; [lra|]; pose proof (HS (k + 1) (n + 1) ltac:(lia) ltac:(lia) ltac:(lia)); lra).
  rewrite (Bound_eq 1 n U P (val U k) k 1 HU HP Hs Hi Hsep (eq_sym Ho) ltac:(lia) 0 ltac:(lia) ltac:(lia)). cbn [Z.sub Z.eqb Z.mul Z.to_nat]. change (1 - 1 =? 2 * 0) with true. cbv iota. cbn [lft rgt]. unfold wgt.
  replace (k - 1 - 1 + 0 + 1) with (k - 1) by lia. replace (k - 1 + (1 + 1)) with (k + 1) by lia. replace (k - 1 + 1) with k by lia. replace (k - 1 - 1) with (k - 2) by lia. reflexivity.
Qed.

Lemma Bound_quadratic n U P k : curve_knots 2 n U -> len P = n + 1 -> 2 < k <= n -> (val U 2 < val U k < val U (k + 1))%R -> (forall x, In x U -> (Rabs (val U k - x) <= tol (val U k) x)%R -> x = val U k) -> occ U (val U k) = 1 ->
  let a i := ((val U k - val U i) / (val U (i + 3) - val U i))%R in
  ComputerRemoveKnotErrorBound (mkCurve 2 U P) k = Ok (dist4 (vscale (/ a (k - 2)%Z) (vsub (pt P (k - 2)) (vscale (1 - a (k - 2)%Z) (pt P (k - 3))))) (vscale (/ (1 - a (k - 1)%Z)) (vsub (pt P (k - 1)) (vscale (a (k - 1)%Z) (pt P k)))))%R.
Proof.
  intros HU HP Hk Hu Hsep Ho a. pose proof HU as [Hp Hn HL HS _ _]. assert (Hs : span_of 2 n U (val U k) k) by (split; [lia|]; split; [lra|]; split; [lra|left; lra]).
  assert (Hi : (val U 2 < val U k < val U (n + 1))%R) by (split; [lra|]; pose proof (HS (k + 1) (n + 1) ltac:(lia) ltac:(lia) ltac:(lia)); lra).
  rewrite (Bound_eq 2 n U P (val U k) k 1 HU HP Hs Hi Hsep (eq_sym Ho) ltac:(lia) 1 ltac:(lia) ltac:(lia)). change (2 - 1 =? 2 * 1) with false. cbv iota. change (Z.to_nat 1) with 1%nat. cbn [lft rgt]. unfold wgt, a. change (Z.of_nat 1) with 1. change (2 + 1) with 3.
  replace (k - 2 - 1 + 1) with (k - 2) by lia. replace (k - 1 + 1 - 1) with (k - 1) by lia. replace (k - 2 - 1) with (k - 3) by lia. replace (k - 1 + 1) with k by lia. reflexivity.
Qed.

(* a roof of light points *)
Definition roofU : list R := [0; 0; 1 / 2; 1; 1]%R.
Definition roofH : list (XYZW R) := [mkXYZW 0 0 0 (1 / 8); mkXYZW (1 / 8) 1 0 (1 / 8); mkXYZW (1 / 4) 0 0 (1 / 8)]%R.
Lemma roof_val : val roofU 0 = 0%R /\ val roofU 1 = 0%R /\ val roofU 2 = (1 / 2)%R /\ val roofU 3 = 1%R /\ val roofU 4 = 1%R.
Proof. repeat split. Qed.
Lemma roof_knots : curve_knots 1 2 roofU /\ clamped_knots 1 2 roofU.
Proof.
  assert (T : forall a b, (0 <= a <= 1 -> 0 <= b <= 1 -> tol a b <= 2 / 1000000)%R). { intros a b Ha Hb. pose proof (tol_le a b 1 ltac:(rewrite Rabs_pos_eq; lra) ltac:(rewrite Rabs_pos_eq; lra)). lra. }
  split; [|split; reflexivity]. constructor; try (cbn; lia).
  - unfold roofU. sorted_tac.
  - change (0 + tol 0 (1 / 2) < 1 / 2)%R. specialize (T 0%R (1 / 2)%R ltac:(lra) ltac:(lra)). lra.
  - change (1 / 2 + tol (1 / 2) 1 < 1)%R. specialize (T (1 / 2)%R 1%R ltac:(lra) ltac:(lra)). lra.
Qed.
Lemma roof_sep x : In x roofU -> (Rabs (1 / 2 - x) <= tol (1 / 2) x)%R -> x = (1 / 2)%R.
Proof.
  intros Hx Ha. assert (Hx1 : (x = 1 / 2 \/ x = 0 \/ x = 1)%R) by (cbn in Hx; intuition). destruct Hx1 as [H|H]; [exact H|exfalso].
  pose proof (tol_le (1 / 2) x 1 ltac:(rewrite Rabs_pos_eq; lra) ltac:(destruct H as [-> | ->]; rewrite Rabs_pos_eq; lra)). revert Ha. unfold Rabs. destruct Rcase_abs, H as [-> | ->]; lra.
Qed.
Lemma roof_occ : occ roofU (1 / 2) = 1.
Proof. unfold occ, roofU. cbn [count_occ]. repeat match goal with |- context [Req_EM_T ?x ?y] => destruct (Req_EM_T x y); [try (exfalso; lra)|try (exfalso; lra)] end; reflexivity. Qed.

Lemma roof_bound : ComputerRemoveKnotErrorBound (mkCurve 1 roofU roofH) 2 = Ok 1%R.
Proof.
  destruct roof_val as (V0 & V1 & V2 & V3 & V4). rewrite (Bound_linear 2 roofU roofH 2); try reflexivity; try lia.
  - f_equal. change (2 - 1) with 1. change (2 + 1) with 3. change (2 - 2) with 0. rewrite V1, V2, V3. change (pt roofH 0) with (mkXYZW 0 0 0 (1 / 8))%R. change (pt roofH 1) with (mkXYZW (1 / 8) 1 0 (1 / 8))%R. change (pt roofH 2) with (mkXYZW (1 / 4) 0 0 (1 / 8))%R.
    replace (vadd _ _) with (mkXYZW (1 / 8) 0 0 (1 / 8))%R by (cbn; unfold xyzw_add, xyzw_scale; cbn [wx wy wz ww]; num; f_equal; field). unfold dist4. cbn [wx wy wz ww]. match goal with |- sqrt ?x = _ => replace x with 1%R by ring end. apply sqrt_1.
  - apply roof_knots.
  - change (2 + 1) with 3. rewrite V1, V2, V3. lra.
  - rewrite V2. apply roof_sep.
  - rewrite V2. apply roof_occ.
Qed.

Lemma roof_top : curve_point 1 2 roofU roofH (1 / 2) = (mkXYZW (1 / 8) 1 0 (1 / 8))%R.
Proof.
  destruct roof_val as (V0 & V1 & V2 & V3 & V4). apply co_ext. intros c. unfold curve_point. rewrite co_comb. change (val roofU (2 + 1)) with 1%R. change (2 + 1) with 3. rewrite !rsum_first by lia. rewrite rsum_nil by lia. change (0 + 1) with 1. change (1 + 1) with 2.
  change (Z.to_nat 1) with 1%nat.
  assert (F : forall i, N (val roofU) 1 1 i (1 / 2) = (sdiv (1 / 2 - val roofU i) (val roofU (i + 1) - val roofU i) * NB (val roofU) 1 0 i (1 / 2) + sdiv (val roofU (i + 2) - 1 / 2) (val roofU (i + 2) - val roofU (i + 1)) * NB (val roofU) 1 0 (i + 1) (1 / 2))%R).
  { intros i. change (N (val roofU) 1 1 i (1 / 2)) with (NB (val roofU) 1 1 i (1 / 2)). rewrite NB_succ by lia. replace (i + 1 + 1) with (i + 2) by lia. reflexivity. }
  rewrite !F. rewrite !(NB_0 _ _ _ (1 / 2)%R) by lra. change (0 + 1) with 1. change (0 + 2) with 2. change (1 + 1) with 2. change (1 + 2) with 3. change (2 + 1) with 3. change (2 + 2) with 4. change (3 + 1) with 4. rewrite V0, V1, V2, V3, V4.
  repeat match goal with |- context [Rle_dec ?a ?b] => destruct (Rle_dec a b); [try lra|try lra] | |- context [Rlt_dec ?a ?b] => destruct (Rlt_dec a b); [try lra|try lra] end.
  rewrite (sdiv_ok (1 - 1 / 2) (1 - 1 / 2)), (sdiv_ok (1 / 2 - 1 / 2) (1 - 1 / 2)) by lra. change (pt roofH 1) with (mkXYZW (1 / 8) 1 0 (1 / 8))%R. match goal with |- context [co c (mkXYZW ?a ?b ?d ?e)] => generalize (co c (mkXYZW a b d e)) end. intros. field.
Qed.

(* no line is near the roof *)
Lemma roof_line Q : len Q = 2 -> (0 < ww (pt Q 0))%R -> (0 < ww (pt Q 1))%R ->
  exists t, (0 <= t <= 1)%R /\ (1 < dist3 (proj (curve_point 1 1 (bezier_knots 1) Q t)) (proj (curve_point 1 2 roofU roofH t)))%R.
Proof.
  intros LQ W0 W1.
  assert (B : forall t, (0 <= t <= 1)%R -> curve_point 1 1 (bezier_knots 1) Q t = vadd (vscale (1 - t)%R (pt Q 0)) (vscale t (pt Q 1))).
  { intros t Ht. apply co_ext. intros c. rewrite bez_curve by (auto; lia). change (1 + 1) with 2. rewrite !rsum_first by lia. rewrite rsum_nil by lia. rewrite co_add, !co_scale. change (0 + 1) with 1. rewrite (proj1 (bern1 t)), (proj2 (bern1 t)). ring. }
  assert (D : forall a b, (gy b - gy a <= dist3 a b)%R /\ (gy a - gy b <= dist3 a b)%R).
  { intros [a1 a2 a3] [b1 b2 b3]. unfold dist3, norm3, minus3, dot3. cbn [gx gy gz]. assert (Rabs (a2 - b2) <= sqrt ((a1 - b1) * (a1 - b1) + (a2 - b2) * (a2 - b2) + (a3 - b3) * (a3 - b3)))%R.
    { rewrite <- sqrt_Rsqr_abs. apply sqrt_le_1_alt. unfold Rsqr. pose proof (Rle_0_sqr (a1 - b1)). pose proof (Rle_0_sqr (a3 - b3)). unfold Rsqr in *. lra. }
    revert H. unfold Rabs. destruct Rcase_abs; lra. }
  destruct roof_knots as (K & C).
  assert (E0 : curve_point 1 2 roofU roofH 0 = pt roofH 0) by exact (curve_point_first 1 2 roofU roofH K ltac:(lia) eq_refl C).
  assert (E1 : curve_point 1 2 roofU roofH 1 = pt roofH 2) by exact (curve_point_last 1 2 roofU roofH K ltac:(lia) eq_refl C).
  pose proof (B 0%R ltac:(lra)) as B0. pose proof (B 1%R ltac:(lra)) as B1. pose proof (B (1 / 2)%R ltac:(lra)) as B2. clear B.
  set (f t := dist3 (proj (curve_point 1 1 (bezier_knots 1) Q t)) (proj (curve_point 1 2 roofU roofH t))).
  destruct (Rlt_dec 1 (f 0%R)) as [L0|L0]; [exists 0%R; split; [lra|exact L0]|]. destruct (Rlt_dec 1 (f 1%R)) as [L1|L1]; [exists 1%R; split; [lra|exact L1]|].
  exists (1 / 2)%R. split; [lra|]. fold (f (1 / 2)%R). unfold f in *. rewrite E0, B0 in L0. rewrite E1, B1 in L1. rewrite roof_top, B2. clear f B0 B1 B2 E0 E1.
  destruct (pt Q 0) as [x0 y0 z0 w0], (pt Q 1) as [x1 y1 z1 w1]. cbn [ww] in W0, W1. change (pt roofH 0) with (mkXYZW 0 0 0 (1 / 8))%R in L0. change (pt roofH 2) with (mkXYZW (1 / 4) 0 0 (1 / 8))%R in L1.
  match type of L0 with ~ (1 < dist3 ?a ?b)%R => pose proof (proj2 (D a b)) as D0 end. match type of L1 with ~ (1 < dist3 ?a ?b)%R => pose proof (proj2 (D a b)) as D1 end. match goal with |- (1 < dist3 ?a ?b)%R => pose proof (proj1 (D a b)) as D2 end.
  apply Rnot_lt_le in L0, L1. eapply Rlt_le_trans; [|exact D2]. unfold proj in *. cbn in D0, D1 |- *.
  assert (Y0 : (y0 <= w0)%R). { replace (((1 - 0) * y0 + 0 * y1) / ((1 - 0) * w0 + 0 * w1))%R with (y0 / w0)%R in D0 by (field; lra). assert (y0 / w0 <= 1)%R by (eapply Rle_trans; [|exact L0]; eapply Rle_trans; [|exact D0]; right; field; lra). apply Rmult_le_reg_r with (/ w0)%R; [apply Rinv_0_lt_compat; lra|]. rewrite Rinv_r by lra. exact H. }
  assert (Y1 : (y1 <= w1)%R). { replace (((1 - 1) * y0 + 1 * y1) / ((1 - 1) * w0 + 1 * w1))%R with (y1 / w1)%R in D1 by (field; lra). assert (y1 / w1 <= 1)%R by (eapply Rle_trans; [|exact L1]; eapply Rle_trans; [|exact D1]; right; field; lra). apply Rmult_le_reg_r with (/ w1)%R; [apply Rinv_0_lt_compat; lra|]. rewrite Rinv_r by lra. exact H. }
  assert (YM : (((1 - 1 / 2) * y0 + 1 / 2 * y1) / ((1 - 1 / 2) * w0 + 1 / 2 * w1) <= 1)%R) by (apply Rmult_le_reg_r with ((1 - 1 / 2) * w0 + 1 / 2 * w1)%R; [lra|]; unfold Rdiv; rewrite Rmult_assoc, Rinv_l by lra; lra).
  replace (y0 * (1 - 1 / 2) + y1 * (1 / 2))%R with ((1 - 1 / 2) * y0 + 1 / 2 * y1)%R by ring. replace (w0 * (1 - 1 / 2) + w1 * (1 / 2))%R with ((1 - 1 / 2) * w0 + 1 / 2 * w1)%R by ring. replace (1 / (1 / 8))%R with 8%R by field. lra.
Qed.
