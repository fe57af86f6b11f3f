(* Specification vocabulary, part 15: profiles moved along a trajectory. *)
From Coq Require Import ZArith List Reals.
From Verif Require Import Base Num Vec Spec Spec2 Spec3 M_XYZ.
Import ListNotations.
Open Scope Z_scope.

(* three unit vectors at right angles *)
Definition orthonormal (x y z : XYZ R) : Prop := dot3 x x = 1%R /\ dot3 z z = 1%R /\ dot3 z x = 0%R /\ y = cross3 z x.
(* the point with the coordinates of q along y, x and z from the origin o *)
Definition placed (x y z o q : XYZ R) : XYZ R := plus3 o (plus3 (times3 (gx q) y) (plus3 (times3 (gy q) x) (times3 (gz q) z))).
