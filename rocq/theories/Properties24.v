(* Property theorems, part 24: the test for a derivative, the parameter of a point and of a length, lengths, adaptive tessellation. *)
From Coq Require Import ZArith List Bool Reals Lra Lia Floats.
From Verif Require Import Base Num Vec Tac Spec Spec2 Spec3 Spec4 Spec5 Spec9 Spec10 Spec17 M_MathUtils M_XYZ M_Bspline M_NurbsCurve M_Geom M_Shape M_Curve3 M_Curve4
  P_MathUtils P_Vec P_VSum P_Curve P_Bspline P_Decomp P_Make P_Geom P_Shape P_Surf5 P_Swung P_ProjNorm2 P_CanDeriv P_ParamOn P_Tess.
Import ListNotations.
Open Scope Z_scope.

(** * C118 *)
Theorem C118_ends : forall p n U H t, curve_knots p n U -> clamped_knots p n U ->
  close t (val U 0) \/ close t (val U (n + 1)) -> CanComputeDerivative (mkCurve p U H) t = Ok true.
Proof. intros p n U H t HU HC. exact (Can_end p n U H HU HC t). Qed.
Print Assumptions C118_ends.

(* elsewhere: whether the difference quotients of width 1/100000000 agree *)
Theorem C118_inside : forall p n U H t, curve_knots p n U -> p <= 7 -> len H = n + 1 -> heavy H -> clamped_knots p n U ->
  in_domain p n U t -> ~ close t (val U 0) -> ~ close t (val U (n + 1)) ->
  let C := fun t => proj (curve_point p n U H t) in let h := (1 / 100000000)%R in
  exists b, CanComputeDerivative (mkCurve p U H) t = Ok b /\
  (b = true <-> Spec3.near (times3 (/ - h) (minus3 (C (t - h)%R) (C t))) (times3 (/ h) (minus3 (C (t + h)%R) (C t)))).
Proof. intros p n U H t HU Hp HH Hw HC. exact (Can_inside p n U H HU Hp HH Hw HC t). Qed.
Print Assumptions C118_inside.

(* at an inner vertex of a polyline: whether the slopes of the two legs agree within tolerance *)
Theorem C118_corner : forall n U Q H j, curve_knots 1 n U -> clamped_knots 1 n U -> len H = n + 1 -> (forall i, 0 <= i <= n -> pt H i = hom (pt Q i) 1%R) -> 2 <= j <= n ->
  (val U (j - 1) + 1 / 100000000 <= val U j)%R -> (val U j + 1 / 100000000 < val U (j + 1))%R -> ~ close (val U j) (val U 0) -> ~ close (val U j) (val U (n + 1)) ->
  exists b, CanComputeDerivative (mkCurve 1 U H) (val U j) = Ok b /\
  (b = true <-> Spec3.near (times3 (/ (val U j - val U (j - 1))) (minus3 (pt Q (j - 1)) (pt Q (j - 2)))) (times3 (/ (val U (j + 1) - val U j)) (minus3 (pt Q j) (pt Q (j - 1))))).
Proof. exact Can_corner. Qed.
Print Assumptions C118_corner.

Theorem C118_straight : forall a b t, (0 <= t <= 1)%R -> CanComputeDerivative (mkCurve 1 (bezier_knots 1) [hom a 1; hom b 1]) t = Ok true.
Proof. exact Can_bar. Qed.
Print Assumptions C118_straight.

(* a parabola, which has all derivatives everywhere *)
Theorem C118_parabola_refuted : exists H, heavy H /\
  (forall t, (0 <= t <= 1)%R -> curve_point 2 2 (bezier_knots 2) H t = hom (mkXYZ (200 * (t - 1 / 2) * (t - 1 / 2)) t 0)%R 1%R) /\
  CanComputeDerivative (mkCurve 2 (bezier_knots 2) H) (1 / 2)%R = Ok false.
Proof. exists bowl. split; [exact bowl_heavy|]. split; [exact bowl_at|exact bowl_rejected]. Qed.
Print Assumptions C118_parabola_refuted.

(* in binary64 the quotients cancel: a straight segment of length 1 is refused *)
Theorem C118_rounding_refuted : CanComputeDerivative (mkCurve 1 [0; 0; 1; 1] [mkXYZW 1000 0 0 1; mkXYZW 1001 0 0 1])%float 0.5%float = Ok false.
Proof. vm_compute. reflexivity. Qed.
Print Assumptions C118_rounding_refuted.

Definition roof : list (XYZW R) := [mkXYZW 0 0 0 1; mkXYZW 1 1 0 1; mkXYZW 2 0 0 1]%R.
Definition roof_knots : list R := [0; 0; 1; 2; 2]%R.
Lemma tol_small x y : (Rabs x <= 10)%R -> (Rabs y <= 10)%R -> (0 < tol x y <= 11 / 1000000)%R.
Proof. intros Hx Hy. unfold tol. pose proof (Rmax_lub _ _ _ Hx Hy). pose proof (Rmax_l (Rabs x) (Rabs y)). pose proof (Rabs_pos x). lra. Qed.
Ltac small_tol x y := let H := fresh in pose proof (tol_small x y ltac:(unfold Rabs; destruct Rcase_abs; lra) ltac:(unfold Rabs; destruct Rcase_abs; lra)) as H.
Lemma roof_ok : curve_knots 1 2 roof_knots.
Proof.
  constructor; try (cbn; lia); [unfold roof_knots; sorted_tac| |].
  - change (0 + tol 0 1 < 1)%R. small_tol 0%R 1%R. lra.
  - change (1 + tol 1 2 < 2)%R. small_tol 1%R 2%R. lra.
Qed.
Example C118_ex : CanComputeDerivative (mkCurve 1 roof_knots roof) 1%R = Ok false.
Proof.
  destruct (C118_corner 2 roof_knots [mkXYZ 0 0 0; mkXYZ 1 1 0; mkXYZ 2 0 0]%R roof 2 roof_ok) as (b & E & I).
  - split; reflexivity.
  - reflexivity.
  - intros i Hi. assert (i = 0 \/ i = 1 \/ i = 2) as [-> | [-> | ->]] by lia; [change (mkXYZW 0 0 0 1 = hom (mkXYZ 0 0 0) 1)%R|change (mkXYZW 1 1 0 1 = hom (mkXYZ 1 1 0) 1)%R|change (mkXYZW 2 0 0 1 = hom (mkXYZ 2 0 0) 1)%R]; unfold hom; cbn [gx gy gz]; f_equal; ring.
  - lia.
  - change (0 + 1 / 100000000 <= 1)%R. lra.
  - change (1 + 1 / 100000000 < 2)%R. lra.
  - change (~ close 1 0). unfold close, tol. rewrite Rminus_0_r, Rabs_R1, Rabs_R0, Rmax_left by lra. lra.
  - change (~ close 1 2). unfold close, tol. rewrite (Rabs_left (1 - 2)), Rabs_R1, (Rabs_right 2), Rmax_right by lra. lra.
  - change (val roof_knots 2) with 1%R in E. rewrite E. f_equal. destruct b; [exfalso|reflexivity]. destruct (proj1 I eq_refl) as (_ & A & _). revert A.
    change (Rabs (/ (1 - 0) * (1 - 0) - / (2 - 1) * (0 - 1)) <= tol (/ (1 - 0) * (1 - 0)) (/ (2 - 1) * (0 - 1)) -> False)%R.
    replace (/ (1 - 0) * (1 - 0))%R with 1%R by lra. replace (/ (2 - 1) * (0 - 1))%R with (-1)%R by lra. unfold tol.
    replace (1 - -1)%R with 2%R by lra. rewrite (Rabs_right 2), Rabs_R1, (Rabs_left (-1)), Rmax_left by lra. lra.
Qed.

(** * C119 *)
(* open or closed; for a closed curve the parameter is moved back into the domain by adding or subtracting the length of
   the domain repeatedly, which ends after finitely many steps *)
Theorem C119_found : forall p n U H P, curve_knots p n U -> p <= 7 -> len H = n + 1 -> heavy H -> clamped_knots p n U ->
  exists N t, (forall fuel, (N <= fuel)%nat -> GetParamOnCurve fuel (mkCurve p U H) P = Ok t) /\ found_at p n U H P t.
Proof. intros p n U H P HU Hp HH Hw HC. exact (GetParam_ok p n U H HU Hp HH Hw HC P). Qed.
Print Assumptions C119_found.

(* straight segments: at most 1/10000 beyond the ends, and nearest, or within 1/10000 of the point *)
Theorem C119_segment : forall a b P fuel, (1 / 1000 <= dist3 a b)%R -> ~ Spec3.near b a ->
  returns (GetParamOnCurve fuel (mkCurve 1 (bezier_knots 1) [hom a 1; hom b 1]%R) P) (fun r =>
  (exists t, (0 <= t <= 1)%R /\ (dist3 (lerp3 a b t) (lerp3 a b r) < 1 / 10000)%R) /\
  ((dist3 P (lerp3 a b r) < 1 / 10000)%R \/ forall s, (0 <= s <= 1)%R -> (dist3 P (lerp3 a b r) <= dist3 P (lerp3 a b s))%R)).
Proof. intros a b P fuel Hab Hne. exact (seg_nearest a b P Hab Hne fuel). Qed.
Print Assumptions C119_segment.

(* the parameter returned for a point beside the end of a segment is one that the evaluation refuses *)
Theorem C119_outside_refuted : exists c P t, (forall fuel, GetParamOnCurve fuel c P = Ok t) /\ c = mkCurve 1 (bezier_knots 1) [hom (mkXYZ 0 0 0) 1; hom (mkXYZ 1 0 0) 1]%R /\ NurbsPoint c t = Throw.
Proof.
  exists (mkCurve 1 (bezier_knots 1) (bar (mkXYZ 0 0 0) (mkXYZ 1 0 0)))%R, (mkXYZ (- (1 / 20000)) 1 0)%R, (- (1 / 20000))%R. split; [exact outside|]. split; [reflexivity|]. apply outside_rejected.
Qed.
Print Assumptions C119_outside_refuted.

Example C119_ex : curve_knots 1 2 roof_knots /\ 1 <= 7 /\ len roof = 2 + 1 /\ heavy roof /\ clamped_knots 1 2 roof_knots /\ (1 / 1000 <= dist3 (mkXYZ 0 0 0) (mkXYZ 1 0 0))%R /\ ~ Spec3.near (mkXYZ 1 0 0)%R (mkXYZ 0 0 0)%R.
Proof.
  split; [exact roof_ok|]. split; [lia|]. split; [reflexivity|]. split.
  { intros i Hi. change (len roof) with 3 in Hi. small_tol 1%R 0%R. assert (T : (tol 1 0 < 1)%R) by lra. assert (i = 0 \/ i = 1 \/ i = 2) as [-> | [-> | ->]] by lia; exact T. }
  split; [split; reflexivity|]. split.
  - replace (dist3 _ _) with 1%R; [lra|]. unfold dist3, norm3. replace (dot3 _ _) with 1%R by (unfold dot3, minus3; cbn [gx gy gz]; ring). symmetry. apply sqrt_1.
  - intros (A & _). unfold tol in A. cbn [gx] in A. rewrite Rminus_0_r, Rabs_R0, Rabs_R1, Rmax_left in A by lra. lra.
Qed.

(** * C120 *)
Theorem C120_points : forall p n U H, curve_knots p n U -> 2 <= p <= 7 -> len H = n + 1 -> heavy H -> clamped_knots p n U ->
  returns (Tessellate (mkCurve p U H)) (fun Q => exists T, len T = len Q /\ 2 <= len T /\ increasing T /\
  val T 0 = val U p /\ close (val T (len T - 1)) (val U (n + 1)) /\
  (forall k, 0 <= k < len T -> in_domain p n U (val T k) /\ get Q k = Ok (proj (curve_point p n U H (val T k)))) /\
  ((forall x y, In x U -> In y U -> apart x y) -> forall x, In x U -> exists k, 0 <= k < len T /\ close x (val T k))).
Proof. intros p n U H HU Hp HH Hw HC. apply (Tess_ok p n U H HU); tauto || lia. Qed.
Print Assumptions C120_points.

Theorem C120_polyline : forall n U H, curve_knots 1 n U -> len H = n + 1 -> heavy H ->
  returns (Tessellate (mkCurve 1 U H)) (fun Q => len Q = n + 1 /\ forall i, 0 <= i <= n -> get Q i = Ok (proj (pt H i))).
Proof. intros n U H HU HH Hw. exact (line_ok 1 n U H HU HH Hw eq_refl). Qed.
Print Assumptions C120_polyline.

(* the curve bends to both sides by any height h, the points returned are on one line *)
Theorem C120_flat_refuted : forall h, exists c, Tessellate c = Ok [mkXYZ 0 0 0; mkXYZ (3 / 2) 0 0; mkXYZ 3 0 0]%R /\
  NurbsPoint c (1 / 4)%R = Ok (mkXYZ (3 / 4) (9 / 32 * h) 0)%R /\ NurbsPoint c (3 / 4)%R = Ok (mkXYZ (9 / 4) (- (9 / 32 * h)) 0)%R.
Proof. intros h. exists (mkCurve 3 (bezier_knots 3) (ess h)). split; [exact (ess_flat h)|]. rewrite !ess_at by lra. split; do 2 f_equal; field. Qed.
Print Assumptions C120_flat_refuted.

Example C120_ex : curve_knots 2 2 (bezier_knots 2) /\ 2 <= 2 <= 7 /\ len bowl = 2 + 1 /\ heavy bowl /\ clamped_knots 2 2 (bezier_knots 2) /\ forall x y, In x (bezier_knots 2) -> In y (bezier_knots 2) -> apart x y.
Proof.
  split; [apply bez_knots_ok; lia|]. split; [lia|]. split; [reflexivity|]. split; [exact bowl_heavy|]. split; [split; reflexivity|].
  intros x y Hx Hy. change (bezier_knots 2) with [0; 0; 0; 1; 1; 1]%R in Hx, Hy. assert (Z : forall x, In x [0; 0; 0; 1; 1; 1]%R -> x = 0%R \/ x = 1%R) by (intros z Hz; cbn [In] in Hz; intuition).
  small_tol 0%R 1%R. small_tol 1%R 0%R. destruct (Z x Hx) as [-> | ->], (Z y Hy) as [-> | ->]; [left; reflexivity|right|right|left; reflexivity]; unfold Rabs; destruct Rcase_abs; lra.
Qed.
