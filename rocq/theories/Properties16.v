(* Property theorems, part 16: rational surfaces. *)
From Coq Require Import ZArith List Bool Reals Lra Lia Floats.
From Verif Require Import Base Num Vec Tac Spec Spec2 Spec3 Spec4 Spec8 M_MathUtils M_Polynomials M_XYZ M_Bspline M_NurbsCurve M_Surface
  P_Decomp P_RSurf P_RSurf2.
Import ListNotations.
Open Scope Z_scope.

(* a quarter of a cylinder of radius 1, height 2: the surface used to show that hypotheses can be met *)
Definition qP : list (list (XYZ R)) := [[mkXYZ 1 0 0; mkXYZ 1 1 0; mkXYZ 0 1 0]; [mkXYZ 1 0 1; mkXYZ 1 1 1; mkXYZ 0 1 1]; [mkXYZ 1 0 2; mkXYZ 1 1 2; mkXYZ 0 1 2]]%R.
Definition qW : list (list R) := [[1; 1; 2]; [1; 1; 2]; [1; 1; 2]]%R.
Definition qH : list (list (XYZW R)) := [[mkXYZW 1 0 0 1; mkXYZW 1 1 0 1; mkXYZW 0 2 0 2]; [mkXYZW 1 0 1 1; mkXYZW 1 1 1 1; mkXYZW 0 2 2 2]; [mkXYZW 1 0 2 1; mkXYZW 1 1 2 1; mkXYZW 0 2 4 2]]%R.
Lemma three i : 0 <= i < 2 + 1 -> i = 0 \/ i = 1 \/ i = 2.
Proof. lia. Qed.
Example quarter_hypotheses : curve_knots 2 2 (bezier_knots 2) /\ clamped_knots 2 2 (bezier_knots 2) /\ in_domain 2 2 (bezier_knots 2) (1 / 3)%R /\
  weighted_net (2 + 1) (2 + 1) qP qW qH /\ len (bezier_knots 2) - 1 <= len (bezier_knots 2) /\
  (forall i j, 0 <= i <= 2 -> 0 <= j <= 2 -> (tol (val2 qW i j) 0 < val2 qW i j)%R) /\
  (forall i j, 0 <= i <= 2 -> 0 <= j <= 2 -> (0 < val2 qW i j)%R).
Proof.
  assert (HV : forall i j, 0 <= i <= 2 -> 0 <= j <= 2 -> val2 qW i j = 1%R \/ val2 qW i j = 2%R).
  { intros i j Hi Hj. destruct (three i ltac:(lia)) as [-> | [-> | ->]], (three j ltac:(lia)) as [-> | [-> | ->]]; cbv [val2 val at_ qW nth Z.to_nat Pos.to_nat Pos.iter_op Init.Nat.add]; tauto. }
  split; [apply bez_knots_ok; lia|]. split; [split; rewrite !bez_val by lia; reflexivity|]. split; [unfold in_domain; rewrite !bez_val by lia; cbn; lra|].
  split; [|split; [lia|split]].
  - split; [split; [reflexivity|]|split; [split; [reflexivity|]|]].
    + intros i Hi. destruct (three i Hi) as [-> | [-> | ->]]; reflexivity.
    + intros i Hi. destruct (three i Hi) as [-> | [-> | ->]]; reflexivity.
    + intros i j Hi Hj. destruct (three i Hi) as [-> | [-> | ->]], (three j Hj) as [-> | [-> | ->]];
        cbv [hom pt2 pt val2 val at_ qW qP qH nth Z.to_nat Pos.to_nat Pos.iter_op Init.Nat.add gx gy gz]; f_equal; lra.
  - intros i j Hi Hj. unfold tol. rewrite Rabs_R0. destruct (HV i j Hi Hj) as [-> | ->]; rewrite Rabs_pos_eq by lra; rewrite Rmax_left by lra; lra.
  - intros i j Hi Hj. destruct (HV i j Hi Hj) as [-> | ->]; lra.
Qed.

(** * C58 *)
Theorem C58_box : forall p n U q m V P W H, curve_knots p n U -> curve_knots q m V -> p <= 7 -> q <= 7 -> weighted_net (n + 1) (m + 1) P W H ->
  (forall i j, 0 <= i <= n -> 0 <= j <= m -> (tol (val2 W i j) 0 < val2 W i j)%R) -> clamped_knots p n U -> clamped_knots q m V -> len U - 1 <= len V ->
  returns (GetBoundingBox (mkSurface p q U V H)) (fun b =>
    (forall i, 0 <= i < len U - 1 -> in_box (MinPoint b) (MaxPoint b) (rational_surface_point p n U q m V P W (val U i) (val V i))) /\
    (forall lo hi, (forall i j, 0 <= i <= n -> 0 <= j <= m -> in_box lo hi (pt2 P i j)) -> in_box lo hi (MinPoint b) /\ in_box lo hi (MaxPoint b))).
Proof. exact BoundingBox_ok. Qed.
Print Assumptions C58_box.

(* a corner of the surface lies outside the box *)
Theorem C58_corner_outside_refuted : (exists s b, GetBoundingBox s = Ok b /\ NurbsSurfacePoint s 0 1 = Ok (mkXYZ 0 1 1) /\ gz (MaxPoint b) = 0)%float.
Proof.
  exists (mkSurface 1 1 [0; 0; 1; 1] [0; 0; 1; 1] [[mkXYZW 0 0 0 1; mkXYZW 0 1 1 1]; [mkXYZW 1 0 0 1; mkXYZW 1 1 0 1]])%float.
  eexists. split; [vm_compute; reflexivity|]. split; vm_compute; reflexivity.
Qed.
Print Assumptions C58_corner_outside_refuted.

(* with more knots in U than in V the list of V knots is read past its end *)
Theorem C58_more_u_knots_refuted : (exists s, NurbsSurfacePoint s 0.25 1 = Ok (mkXYZ 0.4375 0 1) /\ GetBoundingBox s = UB)%float.
Proof.
  exists (mkSurface 2 1 [0; 0; 0; 1; 1; 1] [0; 0; 1; 1] [[mkXYZW 0 0 0 1; mkXYZW 0 0 1 1]; [mkXYZW 1 0 0 1; mkXYZW 1 0 1 1]; [mkXYZW 1 0 0 1; mkXYZW 1 0 1 1]])%float.
  split; vm_compute; reflexivity.
Qed.
Print Assumptions C58_more_u_knots_refuted.

(** * C69 *)
Theorem C69_point : forall p n U q m V P W H u v, curve_knots p n U -> curve_knots q m V -> p <= 7 -> q <= 7 -> weighted_net (n + 1) (m + 1) P W H ->
  in_domain p n U u -> in_domain q m V v -> (forall i j, 0 <= i <= n -> 0 <= j <= m -> (tol (val2 W i j) 0 < val2 W i j)%R) ->
  NurbsSurfacePoint (mkSurface p q U V H) u v = Ok (rational_surface_point p n U q m V P W u v).
Proof. intros p n U q m V P W H u v HU HV Hp Hq HW Du Dv Hh. exact (Surface_point p n U q m V HU HV Hp Hq P W H HW u v Du Dv Hh). Qed.
Print Assumptions C69_point.

(* inside every half space, hence inside every box, that holds the control points *)
Theorem C69_hull : forall p n U q m V P W H u v f c, curve_knots p n U -> curve_knots q m V -> p <= 7 -> q <= 7 -> weighted_net (n + 1) (m + 1) P W H ->
  in_domain p n U u -> in_domain q m V v -> (forall i j, 0 <= i <= n -> 0 <= j <= m -> (tol (val2 W i j) 0 < val2 W i j)%R) ->
  affine f -> (forall i j, 0 <= i <= n -> 0 <= j <= m -> (c <= f (pt2 P i j))%R) ->
  returns (NurbsSurfacePoint (mkSurface p q U V H) u v) (fun x => (c <= f x)%R).
Proof.
  intros p n U q m V P W H u v f c HU HV Hp Hq HW Du Dv Hh Hf Hc. eexists. split; [exact (Surface_point p n U q m V HU HV Hp Hq P W H HW u v Du Dv Hh)|].
  exact (Surface_hull p n U q m V HU HV P W u v f c Du Dv Hh Hf Hc).
Qed.
Print Assumptions C69_hull.

(* weights that are all tiny and equal are not divided out: the point is 2^-21 times the right one *)
Theorem C69_tiny_weights_refuted : (exists s s', NurbsSurfacePoint s 0.5 0.5 = Ok (mkXYZ 0.5 0.5 1) /\ NurbsSurfacePoint s' 0.5 0.5 = Ok (mkXYZ 0x1p-22 0x1p-22 0x1p-21) /\
  s = mkSurface 1 1 [0; 0; 1; 1] [0; 0; 1; 1] [[mkXYZW 0 0 1 1; mkXYZW 0 1 1 1]; [mkXYZW 1 0 1 1; mkXYZW 1 1 1 1]] /\
  s' = mkSurface 1 1 [0; 0; 1; 1] [0; 0; 1; 1] (map (map (fun h => mkXYZW (wx h * 0x1p-21) (wy h * 0x1p-21) (wz h * 0x1p-21) (ww h * 0x1p-21))) (SControlPoints s)))%float.
Proof. eexists. eexists. split; [|split; [|split; reflexivity]]; vm_compute; reflexivity. Qed.
Print Assumptions C69_tiny_weights_refuted.

(** * C70 *)
Theorem C70_derivatives : forall p n U q m V H u v d, curve_knots p n U -> curve_knots q m V -> p <= 7 -> q <= 7 -> net (n + 1) (m + 1) H ->
  in_domain p n U u -> in_domain q m V v -> ww (surface_point p n U q m V H u v) <> 0%R -> 0 < d -> d <= p -> d <= q ->
  exists g, surface_partials p n U q m V H d u v g /\
  returns (ComputeRationalSurfaceDerivatives (mkSurface p q U V H) d u v) (fun D => forall k l, 0 <= k -> 0 <= l -> k + l <= d -> get2 D k l = Ok (g k l)).
Proof. intros p n U q m V H u v d HU HV Hp Hq HH Du Dv Hw. exact (Ders_dom p n U q m V H u v HU HV Hp Hq HH Du Dv Hw d). Qed.
Print Assumptions C70_derivatives.

Theorem C70_first_order : forall p n U q m V H u v, curve_knots p n U -> curve_knots q m V -> p <= 7 -> q <= 7 -> net (n + 1) (m + 1) H ->
  in_domain p n U u -> in_domain q m V v -> ww (surface_point p n U q m V H u v) <> 0%R -> 1 <= p -> 1 <= q ->
  exists g, surface_partials p n U q m V H 1 u v g /\ ComputeRationalSurfaceFirstOrderDerivative (mkSurface p q U V H) u v = Ok (g 0 0, g 1 0, g 0 1).
Proof. intros p n U q m V H u v HU HV Hp Hq HH Du Dv Hw. exact (First_dom p n U q m V H u v HU HV Hp Hq HH Du Dv Hw). Qed.
Print Assumptions C70_first_order.

(* positive weights are enough for the hypothesis on the weight *)
Example positive_weights : forall p n U q m V P W H u v, curve_knots p n U -> curve_knots q m V -> weighted_net (n + 1) (m + 1) P W H ->
  in_domain p n U u -> in_domain q m V v -> (forall i j, 0 <= i <= n -> 0 <= j <= m -> (0 < val2 W i j)%R) ->
  net (n + 1) (m + 1) H /\ (0 < ww (surface_point p n U q m V H u v))%R.
Proof. intros p n U q m V P W H u v HU HV HW Du Dv Hw. split; [apply HW|]. eapply positive_weight; eauto. Qed.

(* an order above one of the degrees is refused, although those derivatives are defined *)
Theorem C70_order_above_degree_refuted : forall p n U q m V (H : list (list (XYZW R))) u v d, curve_knots p n U -> curve_knots q m V -> p <= 7 -> q <= 7 ->
  in_domain p n U u -> in_domain q m V v -> 0 < d -> p < d \/ q < d -> ComputeRationalSurfaceDerivatives (mkSurface p q U V H) d u v = Throw.
Proof. exact RSurfDers_reject. Qed.
Print Assumptions C70_order_above_degree_refuted.

(** * C71 *)
Theorem C71_normal : forall p n U q m V H u v, curve_knots p n U -> curve_knots q m V -> p <= 7 -> q <= 7 -> net (n + 1) (m + 1) H ->
  in_domain p n U u -> in_domain q m V v -> ww (surface_point p n U q m V H u v) <> 0%R -> 1 <= p -> 1 <= q ->
  exists g x, surface_partials p n U q m V H 1 u v g /\ Normal (mkSurface p q U V H) u v = Ok x /\
  (cross3 (g 1 0) (g 0 1) <> zero3 -> direction_of (cross3 (g 1 0) (g 0 1)) x) /\ (cross3 (g 1 0) (g 0 1) = zero3 -> x = zero3).
Proof. intros p n U q m V H u v HU HV Hp Hq HH Du Dv Hw. exact (Normal_dom p n U q m V H u v HU HV Hp Hq HH Du Dv Hw). Qed.
Print Assumptions C71_normal.

(* a direction of the cross product has length 1 and is orthogonal to both factors *)
Example direction_orthogonal : forall a b x, direction_of (cross3 a b) x -> dot3 x x = 1%R /\ dot3 x a = 0%R /\ dot3 x b = 0%R.
Proof.
  intros a b x (H1 & s & Hs & E). split; [exact H1|].
  assert (E1 : (s * dot3 x a = 0)%R). { replace (s * dot3 x a)%R with (dot3 (times3 s x) a) by (unfold dot3, times3; cbn [gx gy gz]; ring). rewrite <- E. unfold dot3, cross3. cbn [gx gy gz]. ring. }
  assert (E2 : (s * dot3 x b = 0)%R). { replace (s * dot3 x b)%R with (dot3 (times3 s x) b) by (unfold dot3, times3; cbn [gx gy gz]; ring). rewrite <- E. unfold dot3, cross3. cbn [gx gy gz]. ring. }
  split; apply (Rmult_eq_reg_l s); lra.
Qed.

(* binary64: the tangents of the patch z = x^2 at its middle are (1,0,1) and (0,1,0) *)
Definition parabolic (k : float) : Surface float (XYZW float) := (mkSurface 2 2 [0; 0; 0; 1; 1; 1] [0; 0; 0; 1; 1; 1]
  [[mkXYZW 0 0 0 1; mkXYZW 0 (k / 2) 0 1; mkXYZW 0 k 0 1]; [mkXYZW (k / 2) 0 0 1; mkXYZW (k / 2) (k / 2) 0 1; mkXYZW (k / 2) k 0 1]; [mkXYZW k 0 k 1; mkXYZW k (k / 2) k 1; mkXYZW k k k 1]])%float.
Example parabolic_tangents : (exists D, ComputeRationalSurfaceDerivatives (parabolic 1) 2 0.5 0.5 = Ok D /\
  get2 D 1 0 = Ok (mkXYZ 1 0 1) /\ get2 D 0 1 = Ok (mkXYZ 0 1 0) /\ get2 D 2 0 = Ok (mkXYZ 0 0 2))%float.
Proof. eexists. split; [vm_compute; reflexivity|]. split; [|split]; vm_compute; reflexivity. Qed.

(** * C72 *)
Theorem C72_projection : forall p n U q m V H u v x, curve_knots p n U -> curve_knots q m V -> p <= 7 -> q <= 7 -> net (n + 1) (m + 1) H ->
  in_domain p n U u -> in_domain q m V v -> ww (surface_point p n U q m V H u v) <> 0%R -> 1 <= p -> 1 <= q ->
  exists g, surface_partials p n U q m V H 1 u v g /\ let a := g 1 0 in let b := g 0 1 in
  let det := (dot3 a a * dot3 b b)%R in let off := (dot3 a b * dot3 a b)%R in
  ((tol det off < Rabs (det - off))%R -> exists r s, GetUVTangent (mkSurface p q U V H) u v x = Ok (Some (r, s)) /\
     let y := minus3 x (plus3 (times3 r a) (times3 s b)) in dot3 y a = 0%R /\ dot3 y b = 0%R) /\
  ((Rabs (det - off) <= tol det off)%R -> GetUVTangent (mkSurface p q U V H) u v x = Ok None).
Proof. intros p n U q m V H u v x HU HV Hp Hq HH Du Dv Hw. exact (UVTangent_dom p n U q m V H u v HU HV Hp Hq HH Du Dv Hw x). Qed.
Print Assumptions C72_projection.

(* what this means for a vector of the tangent plane: its coordinates are returned *)
Example tangent_vector : forall a b x r s, (dot3 a a * dot3 b b - dot3 a b * dot3 a b <> 0)%R -> x = plus3 (times3 r a) (times3 s b) ->
  forall r' s', (let y := minus3 x (plus3 (times3 r' a) (times3 s' b)) in dot3 y a = 0%R /\ dot3 y b = 0%R) -> r' = r /\ s' = s.
Proof.
  intros a b x r s Hd -> r' s' [E1 E2].
  assert (F1 : ((r - r') * dot3 a a + (s - s') * dot3 a b = 0)%R) by (rewrite <- E1; unfold dot3, minus3, plus3, times3; cbn [gx gy gz]; ring).
  assert (F2 : ((r - r') * dot3 a b + (s - s') * dot3 b b = 0)%R) by (rewrite <- E2; unfold dot3, minus3, plus3, times3; cbn [gx gy gz]; ring).
  assert (G1 : ((dot3 a a * dot3 b b - dot3 a b * dot3 a b) * (r - r') = 0)%R).
  { replace (_ * _)%R with (dot3 b b * ((r - r') * dot3 a a + (s - s') * dot3 a b) - dot3 a b * ((r - r') * dot3 a b + (s - s') * dot3 b b))%R by ring. rewrite F1, F2. ring. }
  assert (G2 : ((dot3 a a * dot3 b b - dot3 a b * dot3 a b) * (s - s') = 0)%R).
  { replace (_ * _)%R with (dot3 a a * ((r - r') * dot3 a b + (s - s') * dot3 b b) - dot3 a b * ((r - r') * dot3 a a + (s - s') * dot3 a b))%R by ring. rewrite F1, F2. ring. }
  destruct (Rmult_integral _ _ G1), (Rmult_integral _ _ G2); try contradiction. split; lra.
Qed.

Example parabolic_uv : (GetUVTangent (parabolic 1) 0.5 0.5 (mkXYZ 3 5 3) = Ok (Some (3, 5)) /\ GetUVTangent (parabolic 1) 0.5 0.5 (mkXYZ 1 5 3) = Ok (Some (2, 5)))%float.
Proof. split; vm_compute; reflexivity. Qed.

(* the same patch, 64 times smaller: its tangents are taken for dependent, as small patches always are *)
Theorem C72_small_patch_refuted : (GetUVTangent (parabolic 0x1p-6) 0.5 0.5 (mkXYZ 3 5 3) = Ok None /\
  exists D, ComputeRationalSurfaceDerivatives (parabolic 0x1p-6) 1 0.5 0.5 = Ok D /\ get2 D 1 0 = Ok (mkXYZ 0x1p-6 0 0x1p-6) /\ get2 D 0 1 = Ok (mkXYZ 0 0x1p-6 0))%float.
Proof. split; [vm_compute; reflexivity|]. eexists. split; [vm_compute; reflexivity|]. split; vm_compute; reflexivity. Qed.
Print Assumptions C72_small_patch_refuted.

(** * C73 *)
Theorem C73_curvatures : forall p n U q m V H u v, curve_knots p n U -> curve_knots q m V -> p <= 7 -> q <= 7 -> net (n + 1) (m + 1) H ->
  in_domain p n U u -> in_domain q m V v -> ww (surface_point p n U q m V H u v) <> 0%R -> 2 <= p -> 2 <= q ->
  exists g, surface_partials p n U q m V H 2 u v g /\
  let c := cross3 (g 1 0) (g 0 1) in
  ((1 / 999999 < dot3 c c)%R -> exists x, direction_of c x /\
  let E := dot3 (g 1 0) (g 1 0) in let F := dot3 (g 1 0) (g 0 1) in let G := dot3 (g 0 1) (g 0 1) in
  let L := dot3 (g 2 0) x in let M := dot3 (g 1 1) x in let N := dot3 (g 0 2) x in
  exists k1 k2, (k2 <= k1)%R /\ principal E F G L M N k1 /\ principal E F G L M N k2 /\ (forall k, principal E F G L M N k -> k = k1 \/ k = k2) /\
  let S := mkSurface p q U V H in
  SurfaceCurvatureAt S Maximum u v = Ok k1 /\ SurfaceCurvatureAt S Minimum u v = Ok k2 /\
  SurfaceCurvatureAt S Gauss u v = Ok (((L * N - M * M) / (E * G - F * F))%R) /\ ((L * N - M * M) / (E * G - F * F) = k1 * k2)%R /\ SurfaceCurvatureAt S Mean u v = Ok ((k1 + k2) / 2)%R /\
  SurfaceCurvatureAt S Abs u v = Ok (Rabs k1 + Rabs k2)%R /\ SurfaceCurvatureAt S Rms u v = Ok (R_sqrt.sqrt (k1 * k1 + k2 * k2))) /\
  ((dot3 c c <= 1 / 999999)%R -> forall cv, SurfaceCurvatureAt (mkSurface p q U V H) cv u v = Ok 0%R).
Proof. intros p n U q m V H u v HU HV Hp Hq HH Du Dv Hw. exact (Curvature_dom p n U q m V H u v HU HV Hp Hq HH Du Dv Hw). Qed.
Print Assumptions C73_curvatures.

(* a unit cylinder: E = G = 1, F = 0, L = 1, M = N = 0 has principal curvatures 1 and 0 *)
Example cylinder_principal : principal 1 0 1 1 0 0 1 /\ principal 1 0 1 1 0 0 0.
Proof. split; [exists 1%R, 0%R|exists 0%R, 1%R]; (split; [lra|split; ring]). Qed.

Theorem C73_low_degree_refuted : forall p n U q m V (H : list (list (XYZW R))) u v cv,
  curve_knots p n U -> curve_knots q m V -> p <= 7 -> q <= 7 -> in_domain p n U u -> in_domain q m V v -> p < 2 \/ q < 2 ->
  SurfaceCurvatureAt (mkSurface p q U V H) cv u v = Throw.
Proof. exact Curvature_low_degree. Qed.
Print Assumptions C73_low_degree_refuted.

(* curvature 2 at the bottom of z = x^2; the patch 64 times smaller has curvature 128 there, but zero is returned *)
Theorem C73_small_patch_refuted : (SurfaceCurvatureAt (parabolic 1) Maximum 0 0.5 = Ok 2 /\ SurfaceCurvatureAt (parabolic 0x1p-6) Maximum 0 0.5 = Ok 0 /\
  SurfaceCurvatureAt (parabolic 0x1p-4) Maximum 0 0.5 = Ok 32)%float.
Proof. split; [|split]; vm_compute; reflexivity. Qed.
Print Assumptions C73_small_patch_refuted.
