(* Specification vocabulary, part 12: a surface seen along one of its directions. The direction is U (true) or V (false);
   degree_along b S and knots_along b S are the degree and the knots of S in the direction b, as in the model. *)
From Coq Require Import ZArith List Reals.
From Verif Require Import Base Num Vec Spec Spec2 Spec4 Spec5 M_XYZ M_Bspline M_Surface2.
Import ListNotations.
Open Scope Z_scope.

Section Along.
Context {T : Type} {V : Vec R T}.

(* the control point i of the line a along b *)
Definition on_line2 (b : bool) (P : list (list T)) (a i : Z) : T := if b then pt2 P i a else pt2 P a i.
(* H is the line a along b of a net P, with len points *)
Definition is_line2 (b : bool) (l : Z) (P : list (list T)) (a : Z) (H : list T) : Prop :=
  len H = l /\ forall i, 0 <= i < l -> pt H i = on_line2 b P a i.
End Along.

(* S' is S with k + 1 control points on the lines along b instead of the present number, n and m being the sizes of S:
   it is valid and has the degree and the knots of S in the other direction *)
Definition resized (b : bool) (n m k : Z) (S S' : Surface R (XYZW R)) : Prop :=
  valid_surface (if b then k else n) (if b then m else k) S' /\
  degree_along (negb b) S' = degree_along (negb b) S /\ knots_along (negb b) S' = knots_along (negb b) S.

(* S' has the points of S *)
Definition same_points (n m : Z) (S S' : Surface R (XYZW R)) : Prop :=
  forall u v, u_domain n S u -> v_domain m S v -> GetPointOnSurface S' u v = GetPointOnSurface S u v.

(* all weights clearly above zero *)
Definition heavy_net (n m : Z) (P : list (list (XYZW R))) : Prop :=
  forall i j, 0 <= i <= n -> 0 <= j <= m -> let w := ww (pt2 P i j) in (tol w 0 < w)%R.

(* the point of S at (u, v) *)
Definition surface_at (n m : Z) (S : Surface R (XYZW R)) (u v : R) : XYZ R :=
  proj (surface_point (DegreeU S) n (KnotVectorU S) (DegreeV S) m (KnotVectorV S) (SControlPoints S) u v).

(* the k-th of 100 equally spaced parameters in each knot interval, the end of the interval not among them *)
Definition grid_at (V : list R) (k : Z) : R := (val V (k / 100) + (val V (k / 100 + 1) - val V (k / 100)) * (IZR (k mod 100) / 100))%R.
