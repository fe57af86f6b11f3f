(* Meshes of a parallelogram, signed distances. *)
From Coq Require Import ZArith List Bool Reals Lra Lia.
From Verif Require Import Base Num Vec Tac Spec Spec2 Spec3 Spec4 Spec5 Spec8 Spec12 Spec26 M_MathUtils M_XYZ M_Bspline M_NurbsCurve M_Surface M_Surface2 M_Mesh
  P_MathUtils P_Vec P_XYZ P_Geom P_Curve P_BsplineS P_Nurbs P_Surface P_RSurf2 P_Surf5 P_Surf6 P_Surf8 P_Swung P_Loop P_Area2 P_Mesh P_Mesh2.
Import ListNotations.
Open Scope Z_scope.

Lemma flat_heavy a x y k : heavy_net 1 1 (SControlPoints (flat_surface a x y k)).
Proof.
  intros i j Hi Hj. cbv zeta. apply heavy_iff. assert (D : forall z, 0 <= z <= 1 -> z = 0 \/ z = 1) by lia.
  destruct (D i Hi) as [-> | ->], (D j Hj) as [-> | ->]; change (1 / 999999 < 1)%R; lra.
Qed.
Lemma flat_surface_at a x y k u v : (1 / 1000 <= k <= 1000)%R -> (0 <= u <= 1)%R -> (0 <= v <= k)%R -> surface_at 1 1 (flat_surface a x y k) u v = flat_at a x y k u v.
Proof.
  intros Hk Hu Hv. unfold surface_at. cbn [DegreeU DegreeV KnotVectorU KnotVectorV SControlPoints flat_surface].
  rewrite (surface_point_span 1 1 (knots_to 1) 1 1 (knots_to k) _ u v 1 1); [|apply knots_to_ok; lra|apply knots_to_ok; exact Hk|apply span_to; [lra|exact Hu]|apply span_to; [lra|exact Hv]].
  rewrite P_Area2.flat_patch by lra. apply P_Swung.hom_proj.
Qed.

Lemma flat_mesh o x y k a c : (1 <= k <= 1000)%R -> 2 <= a -> 2 <= c -> returns (TriangulateGrid (flat_surface o x y k) a c) (fun M => len (Vertices M) = a * c /\
  forall i j, 0 <= i < a -> 0 <= j < c -> get (Vertices M) (i * c + j) = Ok (plus3 o (plus3 (times3 (IZR i / IZR (a - 1)) x) (times3 (IZR j / IZR (c - 1) / k) y)))).
Proof.
  intros Hk Ha Hc. destruct (mesh_ok 1 1 (flat_surface o x y k) a c) as (M & E & L1 & _ & HG & _); try assumption.
  - apply P_Area2.flat_valid; lra.
  - apply flat_heavy.
  - intros t Ht. exact Ht.
  - intros t Ht. unfold v_domain, in_domain. cbn [KnotVectorV DegreeV flat_surface]. change (val (knots_to k) 1) with 0%R. change (val (knots_to k) (1 + 1)) with k. lra.
  - exists M. split; [exact E|]. split; [exact L1|]. intros i j Hi Hj. rewrite (proj1 (HG i j Hi Hj)). f_equal. 
    assert (A : (0 <= g_u a i <= 1)%R) by (apply frac_unit; lia). assert (B : (0 <= g_v c j <= 1)%R) by (apply frac_unit; lia).
    rewrite flat_surface_at by lra. reflexivity.
Qed.

Lemma sdf_value fuel n m (S : Surface R (XYZW R)) P u v : valid_surface n m S -> heavy_net n m (SControlPoints S) -> 1 <= DegreeU S -> 1 <= DegreeV S ->
  GetParamOnSurface fuel S P = Ok (u, v) -> u_domain n S u -> v_domain m S v ->
  exists g x, surface_partials (DegreeU S) n (KnotVectorU S) (DegreeV S) m (KnotVectorV S) (SControlPoints S) 1 u v g /\
  (cross3 (g 1 0) (g 0 1) <> zero3 -> direction_of (cross3 (g 1 0) (g 0 1)) x) /\ (cross3 (g 1 0) (g 0 1) = zero3 -> x = zero3) /\
  let Q := surface_at n m S u v in let h := dot3 (minus3 P Q) x in
  ((- (1 / 10 ^ 6 * (1 + Rabs h)) <= h)%R -> ComputeSignedDistanceFunction fuel S P = Ok (dist3 P Q)) /\
  ((h < - (1 / 10 ^ 6 * (1 + Rabs h)))%R -> ComputeSignedDistanceFunction fuel S P = Ok (- dist3 P Q)%R).
Proof.
  intros HS HH Hp Hq E Du Dv. pose proof HS as (HU & HW & HN & H7 & H77). pose proof (surface_heavy n m S u v HS HH Du Dv) as Hw.
  destruct (Normal_dom (DegreeU S) n (KnotVectorU S) (DegreeV S) m (KnotVectorV S) (SControlPoints S) u v HU HW H7 H77 HN Du Dv ltac:(lra) Hp Hq) as (g & x & G & En & X1 & X2).
  exists g, x. split; [exact G|]. split; [exact X1|]. split; [exact X2|]. intros Q h.
  replace (mkSurface (DegreeU S) (DegreeV S) (KnotVectorU S) (KnotVectorV S) (SControlPoints S)) with S in En by (destruct S; reflexivity).
  unfold ComputeSignedDistanceFunction. rewrite E. cbn [bind fst snd]. rewrite (surface_eval3 n m S u v HS HH Du Dv). cbn [bind]. rewrite En. cbn [bind]. rewrite Length_eq. cbn [bind].
  change (DotProduct (xyz_sub P (surface_at n m S u v)) x) with h. change (norm3 (xyz_sub P (surface_at n m S u v))) with (dist3 P Q).
  assert (T : thr eps h 0 = (1 / 10 ^ 6 * (1 + Rabs h))%R). { unfold thr, eps. rewrite Rabs_R0, Rmax_left by apply Rabs_pos. lra. }
  split; intros H; num.
  - assert (B : IsGreaterThanOrEqual h 0%R = true) by (apply ge_iff; rewrite T; lra). rewrite B. reflexivity.
  - destruct (IsGreaterThanOrEqual h 0%R) eqn:B; [|reflexivity]. apply ge_iff in B. rewrite T in B. lra.
Qed.

(* a single row, or column, of samples: the parameter is zero divided by zero *)
Lemma one_row (S : Surface R (XYZW R)) c : 0 <= c -> TriangulateGrid S 1 c = NonFin.
Proof.
  intros Hc. unfold TriangulateGrid, mesh_grid, mkvec. destruct (Z.ltb_spec c 0); [lia|]. cbn [bind Z.ltb Z.compare].
  rewrite for_up_first by lia. num. change (IZR (1 - 1)) with 0%R. rewrite Rdiv_zero by reflexivity. reflexivity.
Qed.
Lemma one_column (S : Surface R (XYZW R)) a : 2 <= a -> TriangulateGrid S a 1 = NonFin.
Proof.
  intros Ha. unfold TriangulateGrid, mesh_grid, mkvec. cbn [bind Z.ltb Z.compare]. destruct (Z.ltb_spec a 0); [lia|]. cbn [bind].
  rewrite for_up_first by lia. num. rewrite Rdiv_ok by (apply not_0_IZR; lia). cbn [bind]. rewrite for_up_first by lia. change (IZR (1 - 1)) with 0%R. rewrite Rdiv_zero by reflexivity. reflexivity.
Qed.

(* the searched parameters may lie outside the surface, which the evaluation refuses *)
Lemma sdf_throw fuel (S : Surface R (XYZW R)) P u v : GetParamOnSurface fuel S P = Ok (u, v) -> NurbsSurfacePoint S u v = Throw -> ComputeSignedDistanceFunction fuel S P = Throw.
Proof. intros E E2. unfold ComputeSignedDistanceFunction. rewrite E. cbn [bind fst snd]. rewrite E2. reflexivity. Qed.
