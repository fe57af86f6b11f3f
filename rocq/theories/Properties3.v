(* Property theorems, part 3: Bezier and polynomial B-spline curves and surfaces.
   Specifications (comb, bern, curve_point, span_curve, surface_point, span_patch,
   affine, vderiv, pderiv, dpt) are in Spec.v; model functions are in M_Bezier.v
   and M_Bspline.v. T is any type of control points that is a real vector space:
   instances are R, XYZ R and XYZW R. *)
From Coq Require Import ZArith List Bool Reals Lra Lia.
From Verif Require Import Base Num Vec Spec M_MathUtils M_XYZ M_Polynomials M_Bezier M_Bspline
  P_Vec P_Curve P_VSum P_Bezier P_Bspline P_BsplineS.
Import ListNotations.
Open Scope Z_scope.

Definition Pex3 : list (XYZ R) := [mkXYZ 0 0 0; mkXYZ 1 2 0; mkXYZ 3 2 1; mkXYZ 4 0 (-1)]%R.
Definition Pex8 : list (XYZ R) :=
  [mkXYZ 0 0 0; mkXYZ 1 2 0; mkXYZ 3 2 1; mkXYZ 4 0 (-1); mkXYZ 5 1 0; mkXYZ 6 0 0; mkXYZ 7 3 2; mkXYZ 8 0 0]%R.
(* a linear functional and an affine map that are not trivial *)
Definition fex (x : XYZ R) : R := (2 * gx x - gy x + 3)%R.
Definition gex (x : XYZ R) : XYZ R := (mkXYZ (gy x + 1) (gx x - 2 * gz x) 5)%R.

Example bezier_hypotheses : 0 <= 3 /\ len Pex3 = 3 + 1 /\ (0 <= 1 / 3 <= 1)%R /\ affine fex /\ affine gex /\
  (forall i, 0 <= i <= 3 -> (3 <= fex (pt Pex3 i))%R).
Proof.
  split; [lia|]. split; [reflexivity|]. split; [lra|]. split; [|split].
  - intros a b x y Hab. unfold fex. cbn. num. replace 3%R with (a * 3 + b * 3)%R at 1 by (replace (a * 3 + b * 3)%R with ((a + b) * 3)%R by ring; rewrite Hab; ring). ring.
  - intros a b x y Hab. unfold gex. cbn. unfold xyz_add, xyz_scale. cbn. f_equal; num.
    + replace 1%R with (a + b)%R at 1. ring.
    + ring.
    + replace (5 * a + 5 * b)%R with (5 * (a + b))%R by ring. rewrite Hab. ring.
  - intros i Hi. assert (C : i = 0 \/ i = 1 \/ i = 2 \/ i = 3) by lia.
    destruct C as [->|[->|[->| ->]]].
    + change (3 <= 2 * 0 - 0 + 3)%R. lra.
    + change (3 <= 2 * 1 - 2 + 3)%R. lra.
    + change (3 <= 2 * 3 - 2 + 3)%R. lra.
    + change (3 <= 2 * 4 - 0 + 3)%R. lra.
Qed.

(** * C14 *)
Theorem C14_bezier_evaluators_agree : forall T (V : Vec R T) (L : VecL T) p (P : list T) (t : R), 0 <= p -> len P = p + 1 ->
  GetPointOnCurveByBernstein (mkBezier p P) t = GetPointOnCurveByDeCasteljau (mkBezier p P) t.
Proof. intros T V L. exact bezier_same. Qed.
Print Assumptions C14_bezier_evaluators_agree.

Theorem C14_bezier_point : forall T (V : Vec R T) (L : VecL T) p (P : list T) (t : R), 0 <= p -> len P = p + 1 -> (0 <= t <= 1)%R ->
  GetPointOnCurveByDeCasteljau (mkBezier p P) t = Ok (comb 0 (p + 1) (fun i => bern p i t) (pt P)).
Proof. intros T V L. exact bezier_point. Qed.
Print Assumptions C14_bezier_point.

(** * C15 *)
Theorem C15_bezier_ends : forall T (V : Vec R T) (L : VecL T) p (P : list T), 0 <= p -> len P = p + 1 ->
  GetPointOnCurveByDeCasteljau (mkBezier p P) 0%R = Ok (pt P 0) /\
  GetPointOnCurveByDeCasteljau (mkBezier p P) 1%R = Ok (pt P p).
Proof. intros T V L. exact bezier_ends. Qed.
Print Assumptions C15_bezier_ends.

(* every half-space containing the control points contains the curve *)
Theorem C15_bezier_hull : forall T (V : Vec R T) (L : VecL T) (f : T -> R) p (P : list T) t c,
  0 <= p -> len P = p + 1 -> (0 <= t <= 1)%R -> affine f ->
  (forall i, 0 <= i <= p -> (c <= f (pt P i))%R) ->
  returns (GetPointOnCurveByDeCasteljau (mkBezier p P) t) (fun x => (c <= f x)%R).
Proof. intros T V L. exact bezier_hull. Qed.
Print Assumptions C15_bezier_hull.

Theorem C15_bezier_affine : forall T T' (V : Vec R T) (L : VecL T) (V' : Vec R T') (L' : VecL T') (f : T -> T') p (P : list T) t,
  0 <= p -> len P = p + 1 -> (0 <= t <= 1)%R -> affine f ->
  returns (GetPointOnCurveByDeCasteljau (mkBezier p P) t)
    (fun x => GetPointOnCurveByDeCasteljau (mkBezier p (map f P)) t = Ok (f x)).
Proof. intros T T' V L V' L'. exact bezier_affine. Qed.
Print Assumptions C15_bezier_affine.

(** * C16 *)
Theorem C16_bezier_surface : forall T (V : Vec R T) (L : VecL T) p q (P : list (list T)) u v,
  0 <= p -> 0 <= q -> net (p + 1) (q + 1) P -> (0 <= u <= 1)%R -> (0 <= v <= 1)%R ->
  GetPointOnSurfaceByDeCasteljau (mkBezierS p q P) u v =
  Ok (comb 0 (p + 1) (fun i => bern p i u) (fun i => comb 0 (q + 1) (fun j => bern q j v) (pt2 P i))).
Proof. intros T V L. exact bezier_surface_point. Qed.
Print Assumptions C16_bezier_surface.

Definition netex : list (list (XYZ R)) := repeat Pex8 8.
Example net_hypotheses : net (1 + 1) (3 + 1) [Pex3; Pex3] /\ net (7 + 1) (7 + 1) netex.
Proof.
  split; (split; [reflexivity|]); intros i Hi.
  - assert (C : i = 0 \/ i = 1) by lia. destruct C as [->| ->]; reflexivity.
  - assert (C : i = 0 \/ i = 1 \/ i = 2 \/ i = 3 \/ i = 4 \/ i = 5 \/ i = 6 \/ i = 7) by lia.
    repeat (destruct C as [->|C]; [reflexivity|]). subst i. reflexivity.
Qed.

(** * C17 *)
Example curve_hypotheses : curve_knots 2 7 Uex /\ 1 <= 2 <= 7 /\ len Pex8 = 7 + 1 /\
  in_domain 2 7 Uex (7 / 2) /\ span_of 2 7 Uex (7 / 2) 5 /\
  (forall i, 0 <= i <= 2 -> val Uex i = val Uex 0) /\ (forall i, 7 + 1 <= i <= 7 + 2 + 1 -> val Uex i = val Uex (7 + 2 + 1)).
Proof.
  split; [exact Uex_ok|]. split; [lia|]. split; [reflexivity|]. split; [apply Uex_dom|]. split; [|split].
  - unfold span_of. change (val Uex 5) with 3%R. change (val Uex (5 + 1)) with 4%R. change (val Uex (7 + 1)) with 5%R.
    split; [lia|]. split; [lra|]. split; [lra|]. left. lra.
  - intros i Hi. assert (C : i = 0 \/ i = 1 \/ i = 2) by lia. destruct C as [->|[->| ->]]; reflexivity.
  - intros i Hi. assert (C : i = 8 \/ i = 9 \/ i = 10) by lia. destruct C as [->|[->| ->]]; reflexivity.
Qed.

Theorem C17_curve_point : forall T (V : Vec R T) (L : VecL T) p n U (P : list T) t,
  curve_knots p n U -> p <= 7 -> len P = n + 1 -> in_domain p n U t ->
  GetPointOnCurve (mkCurve p U P) t = Ok (curve_point p n U P t).
Proof. intros T V L. exact GetPointOnCurve_ok. Qed.
Print Assumptions C17_curve_point.

(* only the p+1 control points of the span matter *)
Theorem C17_curve_local : forall T (V : Vec R T) (L : VecL T) p n U (P Q : list T) t k,
  curve_knots p n U -> p <= 7 -> len P = n + 1 -> len Q = n + 1 ->
  span_of p n U t k -> (forall i, k - p <= i <= k -> pt P i = pt Q i) ->
  GetPointOnCurve (mkCurve p U P) t = GetPointOnCurve (mkCurve p U Q) t.
Proof. intros T V L. exact GetPointOnCurve_local. Qed.
Print Assumptions C17_curve_local.

Theorem C17_curve_affine : forall T T' (V : Vec R T) (L : VecL T) (V' : Vec R T') (L' : VecL T') (f : T -> T') p n U (P : list T) t,
  curve_knots p n U -> p <= 7 -> len P = n + 1 -> in_domain p n U t -> affine f ->
  returns (GetPointOnCurve (mkCurve p U P) t) (fun x => GetPointOnCurve (mkCurve p U (map f P)) t = Ok (f x)).
Proof. intros T T' V L V' L'. exact curve_affine. Qed.
Print Assumptions C17_curve_affine.

(** * C18 *)
Theorem C18_clamped_ends : forall T (V : Vec R T) (L : VecL T) p n U (P : list T),
  curve_knots p n U -> p <= 7 -> len P = n + 1 ->
  ((forall i, 0 <= i <= p -> val U i = val U 0) -> GetPointOnCurve (mkCurve p U P) (val U 0) = Ok (pt P 0)) /\
  ((forall i, n + 1 <= i <= n + p + 1 -> val U i = val U (n + p + 1)) ->
     GetPointOnCurve (mkCurve p U P) (val U (n + p + 1)) = Ok (pt P n)).
Proof. intros T V L. exact clamped_ends. Qed.
Print Assumptions C18_clamped_ends.

Theorem C18_curve_hull : forall T (V : Vec R T) (L : VecL T) p n U (P : list T) t k f c,
  curve_knots p n U -> p <= 7 -> len P = n + 1 -> span_of p n U t k ->
  affine f -> (forall i, k - p <= i <= k -> (c <= f (pt P i))%R) ->
  returns (GetPointOnCurve (mkCurve p U P) t) (fun x => (c <= f x)%R).
Proof. intros T V L. exact curve_hull. Qed.
Print Assumptions C18_curve_hull.

(** * C19 *)
Theorem C19_derivatives : forall T (V : Vec R T) (L : VecL T) p n U (P : list T) t d,
  curve_knots p n U -> p <= 7 -> len P = n + 1 -> in_domain p n U t -> 0 < d ->
  returns (ComputeDerivatives (mkCurve p U P) d t) (fun D => len D = d + 1 /\
    exists k, span_of p n U t k /\ forall m, 0 <= m <= d ->
      exists G, vderiv m (span_curve k p U P) G /\ get D m = Ok (G t) /\ (p < m -> G t = vzero)).
Proof. intros T V L. exact ComputeDerivatives_ok. Qed.
Print Assumptions C19_derivatives.

(* the polynomial differentiated in C19 is the curve on the whole span *)
Theorem C19_span_curve_is_curve : forall T (V : Vec R T) (L : VecL T) p n U (P : list T) t k,
  curve_knots p n U -> span_of p n U t k -> curve_point p n U P t = span_curve k p U P t.
Proof. intros T V L. exact curve_point_span. Qed.
Print Assumptions C19_span_curve_is_curve.

(* and its derivatives are determined *)
Theorem C19_derivative_unique : forall T (V : Vec R T) (L : VecL T) m (f g g' : R -> T),
  vderiv m f g -> vderiv m f g' -> forall t, g t = g' t.
Proof. intros T V L. exact vderiv_unique. Qed.
Print Assumptions C19_derivative_unique.

(** * C20 *)
Theorem C20_derivative_control_points : forall T (V : Vec R T) (L : VecL T) p U (P : list T) d lo hi,
  0 <= p -> 0 < d -> 0 <= lo <= hi -> hi < len P -> hi + p < len U ->
  (forall m i, 1 <= m <= d -> lo <= i <= hi - m -> val U (i + p + 1) <> val U (i + m)) ->
  d <= p + 1 ->
  returns (ComputeControlPointsOfDerivatives (mkCurve p U P) d lo hi)
     (fun PK => is_mat PK (d + 1) (hi - lo + 1)
        (fun m i => if i <=? hi - lo - m then dpt (val U) p (pt P) (Z.to_nat m) (lo + i) else vzero)).
Proof. intros T V L p U P d lo hi H1 H2 H3 H4 H5 H6 H7. exact (wp_elim _ _ (DerivativePoints_ok p U P d lo hi H1 H2 H3 H4 H5 H6 H7)). Qed.
Print Assumptions C20_derivative_control_points.

Example C20_nonvacuous : 0 <= 2 /\ 0 < 2 /\ 0 <= 3 <= 5 /\ 5 < len Pex8 /\ 5 + 2 < len Uex /\ 2 <= 2 + 1 /\
  (forall m i, 1 <= m <= 2 -> 3 <= i <= 5 - m -> val Uex (i + 2 + 1) <> val Uex (i + m)).
Proof.
  repeat (split; [try reflexivity; lia|]). intros m i Hm Hi.
  assert (C : (m = 1 /\ i = 3) \/ (m = 1 /\ i = 4) \/ (m = 2 /\ i = 3)) by lia.
  destruct C as [[-> ->]|[[-> ->]|[-> ->]]].
  - change (4 <> 2)%R. lra.
  - change (4 <> 3)%R. lra.
  - change (4 <> 3)%R. lra.
Qed.

Theorem C20_same_derivatives : forall T (V : Vec R T) (L : VecL T) p n U (P : list T) t d,
  curve_knots p n U -> 1 <= p <= 7 -> len P = n + 1 -> in_domain p n U t -> 0 < d ->
  returns (ComputeDerivatives (mkCurve p U P) d t) (fun D => ComputeDerivativesByAllBasisFunctions (mkCurve p U P) d t = Ok D).
Proof. intros T V L. exact ByAllBasis_same. Qed.
Print Assumptions C20_same_derivatives.

(** * C21 *)
Theorem C21_surface_point : forall T (V : Vec R T) (L : VecL T) p n U q m W (P : list (list T)) u v,
  curve_knots p n U -> curve_knots q m W -> p <= 7 -> q <= 7 -> net (n + 1) (m + 1) P ->
  in_domain p n U u -> in_domain q m W v ->
  GetPointOnSurface (mkSurface p q U W P) u v = Ok (surface_point p n U q m W P u v).
Proof. intros T V L. exact GetPointOnSurface_ok. Qed.
Print Assumptions C21_surface_point.

(* evaluating every row at v, then the curve through the results at u *)
Theorem C21_rows_first : forall T (V : Vec R T) (L : VecL T) p n U q m W (P : list (list T)) u v rows,
  curve_knots p n U -> curve_knots q m W -> p <= 7 -> q <= 7 -> net (n + 1) (m + 1) P ->
  in_domain p n U u -> in_domain q m W v -> len rows = n + 1 ->
  (forall i, 0 <= i <= n -> GetPointOnCurve (mkCurve q W (at_ nil P i)) v = Ok (pt rows i)) ->
  GetPointOnSurface (mkSurface p q U W P) u v = GetPointOnCurve (mkCurve p U rows) u.
Proof. intros T V L. exact surface_rows. Qed.
Print Assumptions C21_rows_first.

(* evaluating every column at u, then the curve through the results at v *)
Theorem C21_columns_first : forall T (V : Vec R T) (L : VecL T) p n U q m W (P : list (list T)) u v cols,
  curve_knots p n U -> curve_knots q m W -> p <= 7 -> q <= 7 -> net (n + 1) (m + 1) P ->
  in_domain p n U u -> in_domain q m W v -> len cols = m + 1 ->
  (forall j col, 0 <= j <= m -> len col = n + 1 -> (forall i, 0 <= i <= n -> pt col i = pt2 P i j) ->
     GetPointOnCurve (mkCurve p U col) u = Ok (pt cols j)) ->
  GetPointOnSurface (mkSurface p q U W P) u v = GetPointOnCurve (mkCurve q W cols) v.
Proof. intros T V L. exact surface_cols. Qed.
Print Assumptions C21_columns_first.

(** * C22 *)
Theorem C22_surface_derivatives : forall T (V : Vec R T) (L : VecL T) p n U q m W (P : list (list T)) u v d,
  curve_knots p n U -> curve_knots q m W -> p <= 7 -> q <= 7 -> net (n + 1) (m + 1) P ->
  in_domain p n U u -> in_domain q m W v -> 0 < d -> d <= p -> d <= q ->
  returns (SurfaceComputeDerivatives (mkSurface p q U W P) d u v) (fun D =>
    len D = d + 1 /\ exists ku kv, span_of p n U u ku /\ span_of q m W v kv /\
    forall k l, 0 <= k <= d -> 0 <= l <= d ->
      exists G, pderiv k l (span_patch ku p U kv q W P) G /\ get2 D k l = Ok (G u v)).
Proof. intros T V L. exact SurfaceDerivatives_spec. Qed.
Print Assumptions C22_surface_derivatives.

Theorem C22_first_order : forall T (V : Vec R T) (L : VecL T) p n U q m W (P : list (list T)) u v D0,
  curve_knots p n U -> curve_knots q m W -> 1 <= p <= 7 -> 1 <= q <= 7 -> net (n + 1) (m + 1) P ->
  in_domain p n U u -> in_domain q m W v -> is_mat D0 2 2 (fun _ _ => vzero) ->
  returns (SurfaceComputeFirstOrderDerivative (mkSurface p q U W P) u v D0) (fun D =>
    exists ku kv, span_of p n U u ku /\ span_of q m W v kv /\
    forall k l, 0 <= k <= 1 -> 0 <= l <= 1 ->
      exists G, pderiv k l (span_patch ku p U kv q W P) G /\ get2 D k l = Ok (G u v)).
Proof. intros T V L. exact FirstOrder_surface_spec. Qed.
Print Assumptions C22_first_order.

(* the patch differentiated in C22 is the surface on the whole span rectangle *)
Theorem C22_patch_is_surface : forall T (V : Vec R T) (L : VecL T) p n U q m W (P : list (list T)) u v ku kv,
  curve_knots p n U -> curve_knots q m W -> span_of p n U u ku -> span_of q m W v kv ->
  surface_point p n U q m W P u v = span_patch ku p U kv q W P u v.
Proof. intros T V L. exact surface_point_span. Qed.
Print Assumptions C22_patch_is_surface.

Theorem C22_order_above_degree_throws : forall T (V : Vec R T) (L : VecL T) p n U q m W (P : list (list T)) u v d,
  curve_knots p n U -> curve_knots q m W -> p <= 7 -> q <= 7 ->
  in_domain p n U u -> in_domain q m W v -> 0 < d -> p < d \/ q < d ->
  SurfaceComputeDerivatives (mkSurface p q U W P) d u v = Throw.
Proof. intros T V L. exact SurfaceDerivatives_reject. Qed.
Print Assumptions C22_order_above_degree_throws.

(* the variant through derivative control points always divides by zero *)
Theorem C22_by_all_basis_functions_refuted : forall T (V : Vec R T) (L : VecL T) p n U q m W (P : list (list T)) u v d,
  curve_knots p n U -> curve_knots q m W -> 1 <= p <= 7 -> 1 <= q <= 7 -> net (n + 1) (m + 1) P ->
  in_domain p n U u -> in_domain q m W v -> 0 < d ->
  SurfaceComputeDerivativesByAllBasisFunctions (mkSurface p q U W P) d u v = NonFin.
Proof. intros T V L. exact surface_by_all_basis_nonfin. Qed.
Print Assumptions C22_by_all_basis_functions_refuted.

(** * C61 *)
Theorem C61_arc_equal_weights : forall (P0 P1 P2 : XYZ R) w t, w <> 0%R -> (0 <= t <= 1)%R ->
  GetPointOnQuadraticArc (mkW P0 w) (mkW P1 w) (mkW P2 w) t = Ok (comb 0 (2 + 1) (fun i => bern 2 i t) (pt [P0; P1; P2])).
Proof. exact quadratic_arc_equal. Qed.
Print Assumptions C61_arc_equal_weights.

Theorem C61_arc_weights_refuted : exists (P0 P1 P2 : XYZ R) w0 w1 w2, (0 < w0)%R /\ (0 < w1)%R /\ (0 < w2)%R /\
  exists x, GetPointOnQuadraticArc (mkW P0 w0) (mkW P1 w1) (mkW P2 w2) 1%R = Ok x /\ x <> P2.
Proof. exact quadratic_arc_wrong. Qed.
Print Assumptions C61_arc_weights_refuted.
