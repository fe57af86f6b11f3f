(* When a derivative can be computed: the test that compares the difference quotients on both sides. *)
From Coq Require Import ZArith List Bool Reals Lra Lia.
From Verif Require Import Base Num Vec Tac Spec Spec2 Spec3 Spec4 Spec5 Spec9 Spec10 M_MathUtils M_XYZ M_Bspline M_NurbsCurve M_Geom M_Shape M_Curve3
  P_MathUtils P_Span P_Cox P_Vec P_XYZ P_VSum P_Curve P_Basis P_Bspline P_Decomp P_Fit P_Loop P_Nurbs P_Make P_Matrix P_Geom P_Interp P_Interp2 P_Shape P_Shape2 P_Shape3 P_Surf5 P_Surf6 P_Surf7 P_Swung P_ProjNorm2.
Import ListNotations.
Open Scope Z_scope.

Definition tiny : R := (1 / 100000000)%R.
Section Can.
Variables (p n : Z) (U : list R) (H : list (XYZW R)).
Hypothesis HU : curve_knots p n U.
Hypothesis Hp : p <= 7.
Hypothesis HH : len H = n + 1.
Hypothesis Hw : heavy H.
Hypothesis Hcl : clamped_knots p n U.
Let C t := proj (curve_point p n U H t).

Lemma Can_end t : close t (val U 0) \/ close t (val U (n + 1)) -> CanComputeDerivative (mkCurve p U H) t = Ok true.
Proof.
  intros Ht. pose proof HU as [P0 N0 L S _ _]. destruct Hcl as (C1 & C2). unfold CanComputeDerivative. cbn [KnotVector]. rewrite !(get_at 0%R) by lia. cbn [bind]. fold (val U 0) (val U (len U - 1)).
  replace (len U - 1) with (n + p + 1) by lia. rewrite <- C2. destruct Ht as [Ht|Ht]; apply close_iff in Ht; rewrite Ht, ?orb_true_r; reflexivity.
Qed.
Lemma away t : in_domain p n U t -> ~ close t (val U 0) -> ~ close t (val U (n + 1)) -> in_domain p n U (t - tiny)%R /\ in_domain p n U (t + tiny)%R.
Proof.
  intros (D1 & D2) A B. destruct Hcl as (C1 & C2). rewrite <- C1 in D1. unfold in_domain. rewrite <- C1. unfold close, tol in A, B.
  pose proof (Rabs_pos t). pose proof (Rmax_l (Rabs t) (Rabs (val U 0))). pose proof (Rmax_l (Rabs t) (Rabs (val U (n + 1)))).
  rewrite Rabs_right in A by lra. rewrite Rabs_left1 in B by lra. unfold tiny. lra.
Qed.
Lemma Can_inside t : in_domain p n U t -> ~ close t (val U 0) -> ~ close t (val U (n + 1)) ->
  exists b, CanComputeDerivative (mkCurve p U H) t = Ok b /\
  (b = true <-> Spec3.near (times3 (/ - tiny) (minus3 (C (t - tiny)) (C t))) (times3 (/ tiny) (minus3 (C (t + tiny)) (C t)))).
Proof.
  intros D A B. destruct (away t D A B) as (D1 & D2). pose proof HU as [P0 N0 L S _ _]. destruct Hcl as (C1 & C2). unfold CanComputeDerivative. cbn [KnotVector]. rewrite !(get_at 0%R) by lia. cbn [bind]. fold (val U 0) (val U (len U - 1)).
  replace (len U - 1) with (n + p + 1) by lia. rewrite <- C2. apply close_false in A. apply close_false in B. rewrite A, B. cbn [orb].
  num. change (1 / 100000000)%R with tiny. rewrite !(point_at p n U H HU Hp HH Hw) by assumption. cbn [bind]. fold (C t) (C (t - tiny)) (C (t + tiny)).
  assert (tiny <> 0)%R by (unfold tiny; lra). rewrite !sub_eq, !xyz_div_ok by lra. cbn [bind]. eexists. split; [reflexivity|]. apply near_iff.
Qed.
End Can.

(* points of a polyline *)
Lemma poly_point n U (Q : list (XYZ R)) (H : list (XYZW R)) j t : curve_knots 1 n U -> (forall i, 0 <= i <= n -> pt H i = hom (pt Q i) 1%R) -> 1 <= j <= n -> (val U j <= t < val U (j + 1))%R ->
  curve_point 1 n U H t = hom (lerp3 (pt Q (j - 1)) (pt Q j) ((t - val U j) / (val U (j + 1) - val U j))) 1%R.
Proof.
  intros HU HQ Hj Ht. assert (HS : span_of 1 n U t j). { split; [lia|]. split; [lra|]. split; [lra|]. left. lra. }
  rewrite (curve_point_span 1 n U H t j HU HS). apply co_ext. intros c. unfold span_curve. rewrite co_comb. replace (j + 1) with (j - 1 + 2) at 1 by lia.
  rewrite rsum_first by lia. rewrite rsum_first by lia. rewrite rsum_nil by lia. replace (j - 1 + 1) with j by lia. rewrite !HQ by lia.
  assert (N0 : Nspan (val U) j (Z.to_nat 1) (j - 1) t = (1 - (t - val U j) / (val U (j + 1) - val U j))%R).
  { change (Z.to_nat 1) with 1%nat. unfold Nspan. cbn [Nrec]. change (Z.of_nat 1) with 1. replace (j - 1 + 1 + 1) with (j + 1) by lia. replace (j - 1 + 1) with j by lia. rewrite Z.eqb_refl. destruct (Z.eqb_spec (j - 1) j); [lia|]. rewrite (sdiv_ok _ (val U (j + 1) - val U j)) by lra. field. lra. }
  assert (N1 : Nspan (val U) j (Z.to_nat 1) j t = ((t - val U j) / (val U (j + 1) - val U j))%R).
  { change (Z.to_nat 1) with 1%nat. unfold Nspan. cbn [Nrec]. change (Z.of_nat 1) with 1. rewrite Z.eqb_refl. destruct (Z.eqb_spec (j + 1) j); [lia|]. rewrite (sdiv_ok _ (val U (j + 1) - val U j)) by lra. field. lra. }
  rewrite N0, N1. generalize ((t - val U j) / (val U (j + 1) - val U j))%R. intros x. destruct (pt Q (j - 1)) as [a1 a2 a3], (pt Q j) as [b1 b2 b3]. destruct c as [|[|[|c]]]; cbn; ring.
Qed.
Lemma unit_heavy (Q : list (XYZ R)) (H : list (XYZW R)) n : len H = n + 1 -> (forall i, 0 <= i <= n -> pt H i = hom (pt Q i) 1%R) -> heavy H.
Proof. intros L HQ i Hi. rewrite HQ by lia. unfold hom. cbn [ww]. unfold tol. rewrite Rabs_R0, Rabs_R1, Rmax_left by lra. lra. Qed.
(* at a corner of a polyline the two quotients are the slopes of the two legs *)
Lemma Can_corner n U Q H j : curve_knots 1 n U -> clamped_knots 1 n U -> len H = n + 1 -> (forall i, 0 <= i <= n -> pt H i = hom (pt Q i) 1%R) -> 2 <= j <= n ->
  (val U (j - 1) + tiny <= val U j)%R -> (val U j + tiny < val U (j + 1))%R -> ~ close (val U j) (val U 0) -> ~ close (val U j) (val U (n + 1)) ->
  exists b, CanComputeDerivative (mkCurve 1 U H) (val U j) = Ok b /\
  (b = true <-> Spec3.near (times3 (/ (val U j - val U (j - 1))) (minus3 (pt Q (j - 1)) (pt Q (j - 2)))) (times3 (/ (val U (j + 1) - val U j)) (minus3 (pt Q j) (pt Q (j - 1))))).
Proof.
  intros HU Hcl HH HQ Hj G1 G2 A B. assert (T : (0 < tiny)%R) by (unfold tiny; lra). pose proof HU as [P0 N0 L S _ _].
  assert (D : in_domain 1 n U (val U j)) by (split; apply S; lia).
  destruct (Can_inside 1 n U H HU ltac:(lia) HH (unit_heavy Q H n HH HQ) Hcl (val U j) D A B) as (b & E & I). exists b. split; [exact E|]. rewrite I.
  pose proof (poly_point n U Q H (j - 1) (val U j - tiny) HU HQ ltac:(lia)) as X1. replace (j - 1 + 1) with j in X1 by lia. replace (j - 1 - 1) with (j - 2) in X1 by lia. rewrite X1 by lra.
  rewrite (poly_point n U Q H j (val U j) HU HQ ltac:(lia)) by lra. rewrite (poly_point n U Q H j (val U j + tiny) HU HQ ltac:(lia)) by lra. rewrite !hom_proj.
  assert (X : forall a b c d : XYZ R, a = c -> b = d -> Spec3.near a b <-> Spec3.near c d) by (intros; subst; tauto). apply X.
  - replace ((val U j - val U j) / (val U (j + 1) - val U j))%R with 0%R by (field; lra). destruct (lerp_ends (pt Q (j - 1)) (pt Q j)) as (-> & _).
    destruct (pt Q (j - 2)) as [a1 a2 a3], (pt Q (j - 1)) as [b1 b2 b3]. unfold lerp3, plus3, minus3, times3. cbn [gx gy gz]. f_equal; field; lra.
  - replace ((val U j - val U j) / (val U (j + 1) - val U j))%R with 0%R by (field; lra). destruct (lerp_ends (pt Q (j - 1)) (pt Q j)) as (-> & _).
    destruct (pt Q j) as [a1 a2 a3], (pt Q (j - 1)) as [b1 b2 b3]. unfold lerp3, plus3, minus3, times3. cbn [gx gy gz]. f_equal; field; lra.
Qed.

(* on a segment the quotients agree *)
Lemma near_refl a : Spec3.near a a.
Proof. unfold Spec3.near. rewrite !Rminus_eq_0, !Rabs_R0. unfold tol. pose proof (Rabs_pos (gx a)). pose proof (Rabs_pos (gy a)). pose proof (Rabs_pos (gz a)). rewrite !Rmax_left by lra. lra. Qed.
Lemma Can_bar a b t : (0 <= t <= 1)%R -> CanComputeDerivative (mkCurve 1 (bezier_knots 1) [hom a 1; hom b 1]) t = Ok true.
Proof.
  intros Ht. destruct bar_knots as (K & CK). fold (bar a b).
  destruct (Req_dec 0 0) as [_|]; [|tauto]. destruct (IsAlmostEqualTo t (val (bezier_knots 1) 0)) eqn:E0; [apply (Can_end 1 1); auto; left; apply close_iff; exact E0|].
  destruct (IsAlmostEqualTo t (val (bezier_knots 1) (1 + 1))) eqn:E1; [apply (Can_end 1 1); auto; right; apply close_iff; exact E1|].
  apply close_false in E0. apply close_false in E1. destruct (away 1 1 (bezier_knots 1) CK t (bar_dom t Ht) E0 E1) as (D1 & D2).
  assert (DD : forall x, in_domain 1 1 (bezier_knots 1) x -> (0 <= x <= 1)%R) by (intros x (X1 & X2); split; assumption).
  destruct (Can_inside 1 1 (bezier_knots 1) (bar a b) K ltac:(lia) eq_refl (bar_heavy a b) CK t (bar_dom t Ht) E0 E1) as (r & E & I). rewrite E. f_equal. apply I.
  rewrite !bar_at by auto. rewrite !hom_proj. assert (T : (0 < tiny)%R) by (unfold tiny; lra).
  assert (X : forall c d : XYZ R, c = d -> Spec3.near c d) by (intros; subst; apply near_refl). apply X.
  destruct a as [a1 a2 a3], b as [b1 b2 b3]. unfold lerp3, plus3, minus3, times3. cbn [gx gy gz]. f_equal; field; lra.
Qed.

(* a parabola, at its vertex *)
Definition bowl : list (XYZW R) := [mkXYZW 50 0 0 1; mkXYZW (-50) (1 / 2) 0 1; mkXYZW 50 1 0 1]%R.
Lemma bowl_at t : (0 <= t <= 1)%R -> curve_point 2 2 (bezier_knots 2) bowl t = hom (mkXYZ (200 * (t - 1 / 2) * (t - 1 / 2)) t 0)%R 1%R.
Proof.
  intros Ht. apply co_ext. intros c. rewrite (bez_curve 2) by (lia || assumption). rewrite rsum_3. destruct (bern2 t) as (-> & -> & ->).
  change (pt bowl 0) with (mkXYZW 50 0 0 1)%R. change (pt bowl 1) with (mkXYZW (-50) (1 / 2) 0 1)%R. change (pt bowl 2) with (mkXYZW 50 1 0 1)%R. destruct c as [|[|[|c]]]; cbn; field.
Qed.
Lemma bowl_heavy : heavy bowl.
Proof. intros i Hi. change (len bowl) with 3 in Hi. assert (T : (tol 1 0 < 1)%R) by (unfold tol; rewrite Rabs_R0, Rabs_R1, Rmax_left by lra; lra). assert (i = 0 \/ i = 1 \/ i = 2) as [-> | [-> | ->]] by lia; exact T. Qed.
Lemma bowl_rejected : CanComputeDerivative (mkCurve 2 (bezier_knots 2) bowl) (1 / 2)%R = Ok false.
Proof.
  assert (K : curve_knots 2 2 (bezier_knots 2)) by (apply bez_knots_ok; lia). assert (CK : clamped_knots 2 2 (bezier_knots 2)) by (split; reflexivity).
  assert (D : in_domain 2 2 (bezier_knots 2) (1 / 2)%R) by (apply bez_dom; lia || lra). assert (T : (0 < tiny <= 1 / 100)%R) by (unfold tiny; lra).
  destruct (Can_inside 2 2 (bezier_knots 2) bowl K ltac:(lia) eq_refl bowl_heavy CK (1 / 2)%R D) as (r & E & I).
  - change (val (bezier_knots 2) 0) with 0%R. unfold close, tol. rewrite Rabs_R0, Rminus_0_r, (Rabs_right (1 / 2)), Rmax_left by lra. lra.
  - change (val (bezier_knots 2) (2 + 1)) with 1%R. unfold close, tol. rewrite (Rabs_left (1 / 2 - 1)), (Rabs_right (1 / 2)), Rabs_R1, Rmax_right by lra. lra.
  - rewrite E. f_equal. destruct r; [exfalso|reflexivity]. destruct (proj1 I eq_refl) as (A & _). rewrite !bowl_at, !hom_proj in A by lra. revert A. unfold minus3, times3. cbn [gx gy gz].
    match goal with |- (Rabs (?a - ?b) <= _)%R -> _ => replace a with (- (200 * tiny))%R by (field; lra); replace b with (200 * tiny)%R by (field; lra) end. intros A.
    unfold tol in A. rewrite Rabs_left, (Rabs_left (- (200 * tiny))), (Rabs_right (200 * tiny)) in A by lra. rewrite Rmax_left in A by lra. unfold tiny in A. lra.
Qed.
