(* Property theorems, part 35: the area of a surface by Simpson's rule. *)
From Coq Require Import ZArith List Bool Reals Lra Lia.
From Verif Require Import Base Num Vec Tac Spec Spec2 Spec3 Spec4 Spec5 Spec8 M_MathUtils M_XYZ M_Bspline M_NurbsCurve M_Curve2 M_Geom M_Surface M_Curve4 M_Area
  P_Vec P_XYZ P_Geom P_Surface P_Area P_Area2.
Import ListNotations.
Open Scope Z_scope.

(** * C137 *)
(* S is reparametrised over the unit square first; the loop ends and the value lies between all bounds of the area element of the result *)
Theorem C137_bounds : forall ab we cl S p n U q m V H, SurfaceReparametrize S 0%R 1%R 0%R 1%R = Ok (mkSurface p q U V H) ->
  curve_knots p n U -> curve_knots q m V -> 1 <= p <= 7 -> 1 <= q <= 7 -> net (n + 1) (m + 1) H ->
  (forall u v, in_domain p n U u -> in_domain q m V v -> ww (surface_point p n U q m V H u v) <> 0%R) ->
  (forall t, (0 <= t <= 1)%R -> in_domain p n U t) -> (forall t, (0 <= t <= 1)%R -> in_domain q m V t) ->
  forall lo hi, (forall u v g, (0 <= u <= 1)%R -> (0 <= v <= 1)%R -> surface_partials p n U q m V H 1 u v g -> (lo <= norm3 (cross3 (g 1%Z 0%Z) (g 0%Z 1%Z)) <= hi)%R) ->
  exists fuel0, forall fuel, (fuel0 <= fuel)%nat -> returns (ApproximateArea ab we cl fuel S It_Simpson) (fun a => (lo <= a <= hi)%R).
Proof.
  intros ab we cl S p n U q m V H HS HU HV Hp Hq HH Hw DU DV lo hi HB.
  exact (area_bounds ab we cl p n U q m V H HU HV Hp Hq HH Hw S HS lo hi DU DV HB).
Qed.
Print Assumptions C137_bounds.

(* the parallelogram with corner a and sides x and y, over the unit square *)
Theorem C137_flat : forall ab we cl a x y, exists fuel0, forall fuel, (fuel0 <= fuel)%nat ->
  ApproximateArea ab we cl fuel (mkSurface 1 1 [0; 0; 1; 1] [0; 0; 1; 1] [[hom a 1; hom (plus3 a y) 1]; [hom (plus3 a x) 1; hom (plus3 (plus3 a x) y) 1]])%R It_Simpson = Ok (norm3 (cross3 x y)).
Proof.
  intros ab we cl a x y. destruct (flat_area ab we cl a x y 1%R ltac:(lra)) as (f0 & H). exists f0. intros fuel Hf. specialize (H fuel Hf). unfold Rdiv in H. rewrite Rinv_1, Rmult_1_r in H. exact H.
Qed.
Print Assumptions C137_flat.

(* the same parallelogram, its second parameter over [0,k], k >= 1: only the part with parameter up to 1 is measured *)
Theorem C137_range_refuted : forall ab we cl a x y k, (1 <= k <= 1000)%R -> exists fuel0, forall fuel, (fuel0 <= fuel)%nat ->
  ApproximateArea ab we cl fuel (mkSurface 1 1 [0; 0; 1; 1] [0; 0; k; k] [[hom a 1; hom (plus3 a y) 1]; [hom (plus3 a x) 1; hom (plus3 (plus3 a x) y) 1]])%R It_Simpson = Ok (norm3 (cross3 x y) / k)%R.
Proof. exact flat_area. Qed.
Print Assumptions C137_range_refuted.

Lemma norm_axis r : (0 <= r)%R -> norm3 (mkXYZ 0 0 r)%R = r.
Proof. intros Hr. unfold norm3, dot3. cbn. replace (0 * 0 + 0 * 0 + r * r)%R with (Rsqr r) by (unfold Rsqr; ring). apply sqrt_Rsqr. exact Hr. Qed.
(* a rectangle of sides 2 and 3 has area 6; over [0,1] x [0,2] the library says 3 *)
Example C137_ex ab we cl : exists fuel0, forall fuel, (fuel0 <= fuel)%nat ->
  ApproximateArea ab we cl fuel (flat_surface (mkXYZ 0 0 0) (mkXYZ 2 0 0) (mkXYZ 0 3 0) 1)%R It_Simpson = Ok 6%R /\
  ApproximateArea ab we cl fuel (flat_surface (mkXYZ 0 0 0) (mkXYZ 2 0 0) (mkXYZ 0 3 0) 2)%R It_Simpson = Ok 3%R.
Proof.
  destruct (flat_area ab we cl (mkXYZ 0 0 0) (mkXYZ 2 0 0) (mkXYZ 0 3 0) 1 ltac:(lra))%R as (f1 & H1). destruct (flat_area ab we cl (mkXYZ 0 0 0) (mkXYZ 2 0 0) (mkXYZ 0 3 0) 2 ltac:(lra))%R as (f2 & H2).
  exists (Nat.max f1 f2). intros fuel Hf. rewrite H1, H2 by lia.
  replace (cross3 (mkXYZ 2 0 0) (mkXYZ 0 3 0))%R with (mkXYZ 0 0 6)%R by (v3h; apply xyz_eq; cbn [gx gy gz]; ring). rewrite norm_axis by lra. split; f_equal; lra.
Qed.
(* the premises of C137_bounds are met by it *)
Example C137_bounds_ex : SurfaceReparametrize (flat_surface (mkXYZ 0 0 0) (mkXYZ 2 0 0) (mkXYZ 0 3 0) 1)%R 0%R 1%R 0%R 1%R = Ok (flat_surface (mkXYZ 0 0 0) (mkXYZ 2 0 0) (mkXYZ 0 3 0) 1)%R /\
  valid_surface 1 1 (flat_surface (mkXYZ 0 0 0) (mkXYZ 2 0 0) (mkXYZ 0 3 0) 1)%R.
Proof. split; [apply flat_skip; lra | apply flat_valid; lra]. Qed.
