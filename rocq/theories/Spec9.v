(* Specification vocabulary, part 9: surfaces made from points, arcs and curves. Only the record types are taken from
   the model. *)
From Coq Require Import ZArith List Reals.
From Verif Require Import Base Num Vec Spec Spec2 Spec3 M_XYZ.
Open Scope Z_scope.

(* the point that divides the segment from a to b in the ratio t : 1 - t *)
Definition lerp3 (a b : XYZ R) (t : R) : XYZ R := plus3 (times3 (1 - t) a) (times3 t b).

(* x scaled by fx, fy, fz along the coordinate axes, c staying where it is *)
Definition scaled3 (fx fy fz : R) (c x : XYZ R) : XYZ R :=
  mkXYZ (gx c + fx * (gx x - gx c))%R (gy c + fy * (gy x - gy c))%R (gz c + fz * (gz x - gz c))%R.

(* the inner knots are distinct *)
Definition simple_inside (p n : Z) (U : list R) : Prop := forall i, p <= i <= n -> (val U i < val U (i + 1))%R.

(* the foot of the perpendicular from p to the line through o with unit direction a, and the vector from it to p *)
Definition foot_on (o a p : XYZ R) : XYZ R := plus3 o (times3 (dot3 a (minus3 p o)) a).
Definition arm (o a p : XYZ R) : XYZ R := minus3 p (foot_on o a p).
