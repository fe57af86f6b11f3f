(* Property theorems, part 22: surfaces swung along a trajectory. *)
From Coq Require Import ZArith List Bool Reals Lra Lia.
From Verif Require Import Base Num Vec Tac Spec Spec2 Spec3 Spec4 Spec6 Spec9 Spec10 Spec15 M_MathUtils M_XYZ M_Bspline M_Surface M_Surface2
  P_MathUtils P_Vec P_VSum P_Curve P_Bspline P_Decomp P_Make P_Fit P_Shape P_Surf5 P_Swung.
Import ListNotations.
Open Scope Z_scope.

(** * C114 *)
(* for every trajectory: as long as no scaled weight is within tolerance of zero, the scale has no effect on the outcome *)
Theorem C114_scale_refuted : forall solve (profile trajectory : Curve R (XYZW R)) s1 s2,
  (forall i, 0 <= i < len (ControlPoints profile) -> ~ close (ww (pt (ControlPoints profile) i) * s1)%R 0%R) ->
  (forall i, 0 <= i < len (ControlPoints profile) -> ~ close (ww (pt (ControlPoints profile) i) * s2)%R 0%R) ->
  CreateSwungSurface solve profile trajectory s1 = CreateSwungSurface solve profile trajectory s2.
Proof.
  intros solve pr tr s1 s2 H1 H2. apply Swung_scale; intros i Hi; rewrite Rmult_comm; apply close_false; auto.
Qed.
Print Assumptions C114_scale_refuted.

(* a straight trajectory from a to b: the curve of the profile's control points without their weights, in a frame at right angles to the trajectory,
   moved along it and by 1 along the z axis *)
Theorem C114_straight : forall solve a b p n U P s, exact_solver solve -> (1 / 1000 <= dist3 a b)%R -> curve_knots p n U -> p <= 7 -> len P = n + 1 ->
  (forall i, 0 <= i <= n -> ~ close (ww (pt P i) * s)%R 0%R) ->
  returns (CreateSwungSurface solve (mkCurve p U P) (mkCurve 1 (bezier_knots 1) [hom a 1; hom b 1]) s) (fun S =>
    valid_surface n 1 S /\ DegreeU S = p /\ DegreeV S = 1 /\ KnotVectorU S = U /\ KnotVectorV S = bezier_knots 1 /\
    exists x y z, orthonormal x y z /\ direction_of (minus3 b a) x /\ forall u v, in_domain p n U u -> (0 <= v <= 1)%R ->
      GetPointOnSurface S u v = Ok (hom (plus3 (placed x y z (lerp3 a b v) (curve_point p n U (map proj P) u)) (mkXYZ 0 0 1)%R) 1)).
Proof.
  intros solve a b p n U P s Hs Hab HU H7 HP HW. apply (Swung_straight solve Hs a b Hab p n U P s HU HP); [|exact H7]. intros i Hi. apply close_false. auto.
Qed.
Print Assumptions C114_straight.

(* so the profile's origin does not move along the trajectory *)
Theorem C114_origin_refuted : forall solve a b p n U P s, exact_solver solve -> (1 / 1000 <= dist3 a b)%R -> curve_knots p n U -> clamped_knots p n U -> p <= 7 -> len P = n + 1 ->
  (forall i, 0 <= i <= n -> ~ close (ww (pt P i) * s)%R 0%R) -> proj (pt P 0) = zero3 ->
  returns (CreateSwungSurface solve (mkCurve p U P) (mkCurve 1 (bezier_knots 1) [hom a 1; hom b 1]) s) (fun S =>
    forall v, (0 <= v <= 1)%R -> GetPointOnSurface S (val U p) v = Ok (hom (plus3 (lerp3 a b v) (mkXYZ 0 0 1)%R) 1)).
Proof.
  intros solve a b p n U P s Hs Hab HU HC H7 HP HW H0. destruct (C114_straight solve a b p n U P s Hs Hab HU H7 HP HW) as (S & E & _ & _ & _ & _ & _ & x & y & z & _ & _ & G).
  exists S. split; [exact E|]. intros v Hv. assert (Hp : in_domain p n U (val U p)). { pose proof HU as [Hp Hn HL HS _ _]. split; [lra|]. apply HS; lia. }
  rewrite G by assumption. f_equal. f_equal. f_equal.
  assert (LM : len (map proj P) = n + 1) by (unfold len in *; rewrite map_length; exact HP).
  rewrite curve_point_first by assumption. pose proof HU as [Hp' Hn HL HS _ _].
  assert (EP : pt (map proj P) 0 = proj (pt P 0)). { unfold pt, at_. rewrite (nth_indep _ vzero (proj vzero)) by (rewrite map_length; unfold len in HP; lia). apply map_nth. }
  rewrite EP, H0. unfold placed, plus3, times3, zero3. cbn [gx gy gz]. destruct (lerp3 a b v) as [l1 l2 l3]. cbn [gx gy gz]. f_equal; ring.
Qed.
Print Assumptions C114_origin_refuted.

(* a straight profile from the origin, its second control point of weight 2 *)
Definition rib : list (XYZW R) := [mkXYZW 0 0 0 1; mkXYZW 2 0 0 2]%R.
Example C114_ex : (exists solve, exact_solver solve) /\ (1 / 1000 <= dist3 (mkXYZ 0 0 0) (mkXYZ 0 1 0))%R /\ curve_knots 1 1 (bezier_knots 1) /\ clamped_knots 1 1 (bezier_knots 1) /\ len rib = 1 + 1 /\
  (forall s i, (1 / 2 <= s)%R -> 0 <= i <= 1 -> ~ close (ww (pt rib i) * s)%R 0%R) /\ proj (pt rib 0) = zero3.
Proof.
  split; [exists gauss_solver; exact gauss_exact|]. split.
  { unfold dist3, norm3, minus3, dot3. cbn [gx gy gz]. replace ((0 - 0) * (0 - 0) + (0 - 1) * (0 - 1) + (0 - 0) * (0 - 0))%R with 1%R by ring. rewrite R_sqrt.sqrt_1. lra. }
  split; [apply bez_knots_ok; lia|]. split; [split; reflexivity|]. split; [reflexivity|]. split.
  - intros s i Hs Hi. assert (W : (1 <= ww (pt rib i))%R) by (assert (i = 0 \/ i = 1) as [-> | ->] by lia; [change (ww (pt rib 0)) with 1%R|change (ww (pt rib 1)) with 2%R]; lra).
    assert (1 / 2 <= ww (pt rib i) * s)%R by nra. unfold close, tol. rewrite Rminus_0_r, Rabs_R0, (Rabs_right (ww (pt rib i) * s)) by lra. rewrite Rmax_left by lra. lra.
  - change (pt rib 0) with (mkXYZW 0 0 0 1)%R. unfold proj, zero3. cbn [wx wy wz ww]. f_equal; field.
Qed.
