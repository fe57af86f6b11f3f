(* Specification vocabulary, part 10: the shape of a curve. Only the record types are taken from the model. *)
From Coq Require Import ZArith List Reals.
From Verif Require Import Base Num Vec Spec Spec2 Spec3 M_XYZ.
Open Scope Z_scope.

(* g m is the m-th derivative at t, for m <= d, of the curve with homogeneous control points H, on the span of t *)
Definition curve_derivs (p n : Z) (U : list R) (H : list (XYZW R)) (d : Z) (t : R) (g : Z -> XYZ R) : Prop :=
  exists k, span_of p n U t k /\ forall m, 0 <= m <= d -> exists G,
    xyz_deriv_on (fun x => ww (span_curve k p U H x) <> 0%R) m (fun x => proj (span_curve k p U H x)) G /\ G t = g m.

(* equal up to the tolerance of the library's comparisons *)
Definition close (x y : R) : Prop := (Rabs (x - y) <= tol x y)%R.

(* the i-th rational basis function at t *)
Definition share (p n : Z) (U : list R) (H : list (XYZW R)) (i : Z) (t : R) : R :=
  (N (val U) (val U (n + 1)) (Z.to_nat p) i t * ww (pt H i) / ww (curve_point p n U H t))%R.

(* the control points H' are the control points H, the i-th moved by D i, with the same weights *)
Definition moved (H H' : list (XYZW R)) (D : Z -> XYZ R) : Prop :=
  len H' = len H /\ forall i, 0 <= i < len H -> pt H' i = hom (plus3 (proj (pt H i)) (D i)) (ww (pt H i)).

(* the control points H' are the control points H, the i-th with weight multiplied by f i *)
Definition reweighted (H H' : list (XYZW R)) (f : Z -> R) : Prop :=
  len H' = len H /\ forall i, 0 <= i < len H -> pt H' i = hom (proj (pt H i)) (ww (pt H i) * f i).

(* all control points lie on one line *)
Definition collinear (H : list (XYZW R)) : Prop := exists a v s, forall i, 0 <= i < len H -> proj (pt H i) = line_at a v (s i).

(* the parameter of the k-th of 100 equally spaced samples in each knot interval; both ends of an interval are samples *)
Definition sample_at (V : list R) (k : Z) : R := (val V (k / 100) + (val V (k / 100 + 1) - val V (k / 100)) * (IZR (k mod 100) / 99))%R.

Definition midway (x y : R) : R := (1 / 2 * x + 1 / 2 * y)%R.

(* parameters that increase by more than the tolerance of the library's comparisons *)
Definition stepped (u : list R) : Prop := forall i, 0 <= i < len u - 1 -> (val u i + tol (val u i) (val u (i + 1)) < val u (i + 1))%R.
