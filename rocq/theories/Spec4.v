(* Specifications about multisets of knots, curve pieces and surfaces. *)
From Coq Require Import ZArith List Reals.
From Verif Require Import Base Num Vec Spec Spec2 M_XYZ M_Bspline.
Open Scope Z_scope.

(* how often x occurs in l *)
Definition occ (l : list R) (x : R) : Z := Z.of_nat (count_occ Req_EM_T l x).

(* strictly increasing *)
Definition increasing (l : list R) : Prop :=
  forall i j, 0 <= i -> i < j -> j < len l -> (val l i < val l j)%R.

(* m is the largest of the numbers f v, v in the list l *)
Definition largest {X} (l : list X) (f : X -> Z) (m : Z) : Prop :=
  (exists v, In v l /\ f v = m) /\ forall v, In v l -> f v <= m.

(* U with its distinct values K in increasing order: the end knots have equal multiplicity,
   so have all inner knots among themselves, and all gaps agree within the tolerance *)
Definition uniform (U K : list R) : Prop :=
  occ U (val K 0) = occ U (val K (len K - 1)) /\
  (forall i, 1 <= i -> i + 1 < len K -> (Rabs (val K (i + 1) - val K i - (val K 1 - val K 0)) <= tol (val K (i + 1) - val K i) (val K 1 - val K 0))%R) /\
  (forall i, 1 <= i -> i + 2 < len K -> occ U (val K i) = occ U (val K (i + 1))).

(* LN_NurbsSurface with (n+1) x (m+1) control points: two valid knot vectors, a full net, and
   degrees the fixed-size work arrays of the library admit *)
Definition valid_surface {T} (n m : Z) (S : Surface R T) : Prop :=
  curve_knots (DegreeU S) n (KnotVectorU S) /\ curve_knots (DegreeV S) m (KnotVectorV S) /\
  net (n + 1) (m + 1) (SControlPoints S) /\ DegreeU S <= 7 /\ DegreeV S <= 7.

Definition u_domain {T} (n : Z) (S : Surface R T) (u : R) : Prop := in_domain (DegreeU S) n (KnotVectorU S) u.
Definition v_domain {T} (m : Z) (S : Surface R T) (v : R) : Prop := in_domain (DegreeV S) m (KnotVectorV S) v.

(* t moved into [lo, hi] *)
Definition clamped (lo hi t : R) : R := Rmax lo (Rmin t hi).

(* the mirror image of t in the interval spanned by a knot vector *)
Definition mirrored (U : list R) (t : R) : R := (val U 0 + val U (len U - 1) - t)%R.

(* the affine map of the interval spanned by U to [a, b] *)
Definition stretch (U : list R) (a b t : R) : R :=
  ((b - a) / (val U (len U - 1) - val U 0) * (t - val U 0) + a)%R.

(* new knots X for the knots U: in order, inside the domain, each equal to or clearly apart from
   every other knot *)
Definition refinable p n (U X : list R) : Prop := 0 < len X /\ sorted X /\
  (forall x, In x X -> (val U p < x < val U (n + 1))%R) /\ (forall x y, In x X -> In y (X ++ U) -> apart x y).

(* a and b are the ends of U within the tolerance *)
Definition at_ends (U : list R) (a b : R) : Prop :=
  (Rabs (a - val U 0) <= tol a (val U 0) /\ Rabs (b - val U (len U - 1)) <= tol b (val U (len U - 1)))%R.

(* the range of U is exactly [0,1], or not even within the tolerance *)
Definition unit_or_away (U : list R) : Prop := (val U 0 = 0%R /\ val U (len U - 1) = 1%R) \/ ~ at_ends U 0 1.

(* the span [x,y] is still wider than the tolerance after the affine map f *)
Definition stays_wide (f : R -> R) (x y : R) : Prop := (f x + tol (f x) (f y) < f y)%R.

(* the knots of a Bezier curve on [0,1] *)
Definition bezier_knots (p : Z) : list R := repeat 0%R (Z.to_nat (p + 1)) ++ repeat 1%R (Z.to_nat (p + 1)).

(* the first and the last p+1 knots are equal *)
Definition clamped_knots (p n : Z) (U : list R) : Prop := val U 0 = val U p /\ val U (n + 1) = val U (n + p + 1).
