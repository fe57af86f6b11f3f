(* Specifications about affine maps given by matrices. Only the record types are taken
   from the model. *)
From Coq Require Import ZArith List Reals.
From Verif Require Import Base Num Vec Spec M_XYZ M_Matrix.
Open Scope Z_scope.

(* the last row is (0, 0, 0, 1) *)
Definition is_affine (M : Matrix4d R) : Prop := m30 M = 0%R /\ m31 M = 0%R /\ m32 M = 0%R /\ m33 M = 1%R.

(* the affine map x |-> A x + b with A the upper left 3x3 block, b the last column *)
Definition mat_apply (M : Matrix4d R) (p : XYZ R) : XYZ R :=
  mkXYZ (m00 M * gx p + m01 M * gy p + m02 M * gz p + m03 M)%R
        (m10 M * gx p + m11 M * gy p + m12 M * gz p + m13 M)%R
        (m20 M * gx p + m21 M * gy p + m22 M * gz p + m23 M)%R.

(* two points whose coordinates agree within the tolerance *)
Definition near (a b : XYZ R) : Prop :=
  (Rabs (gx a - gx b) <= tol (gx a) (gx b) /\ Rabs (gy a - gy b) <= tol (gy a) (gy b) /\
   Rabs (gz a - gz b) <= tol (gz a) (gz b))%R.

(* vectors of space, written out *)
Definition dot3 (a b : XYZ R) : R := (gx a * gx b + gy a * gy b + gz a * gz b)%R.
Definition plus3 (a b : XYZ R) : XYZ R := mkXYZ (gx a + gx b)%R (gy a + gy b)%R (gz a + gz b)%R.
Definition minus3 (a b : XYZ R) : XYZ R := mkXYZ (gx a - gx b)%R (gy a - gy b)%R (gz a - gz b)%R.
Definition times3 (k : R) (a : XYZ R) : XYZ R := mkXYZ (k * gx a)%R (k * gy a)%R (k * gz a)%R.
Definition cross3 (a b : XYZ R) : XYZ R :=
  mkXYZ (gy a * gz b - gz a * gy b)%R (gz a * gx b - gx a * gz b)%R (gx a * gy b - gy a * gx b)%R.

(* the rotation of v by the angle th about the line through 0 with unit direction u:
   the part of v along u stays, the part across turns from itself towards u x v *)
Definition rotate (u : XYZ R) (th : R) (v : XYZ R) : XYZ R :=
  let along := times3 (dot3 u v) u in
  let across := minus3 v along in
  plus3 along (plus3 (times3 (cos th) across) (times3 (sin th) (cross3 u v))).

(* mirror image of p in the plane of the points x with u.x = c, u a unit vector *)
Definition mirror (u : XYZ R) (c : R) (p : XYZ R) : XYZ R := minus3 p (times3 (2 * (dot3 u p - c))%R u).

Definition zero3 : XYZ R := mkXYZ 0%R 0%R 0%R.
(* u is the unit vector in the direction of a *)
Definition direction_of (a u : XYZ R) : Prop := dot3 u u = 1%R /\ exists k, (0 < k)%R /\ a = times3 k u.

(* what the tolerant comparison with 0 accepts *)
Definition small (x : R) : Prop := (Rabs x <= 1 / 999999)%R.

Definition norm3 (a : XYZ R) : R := sqrt (dot3 a a).
Definition dist3 (a b : XYZ R) : R := norm3 (minus3 a b).
(* the point with parameter s on the line through a with direction v *)
Definition line_at (a v : XYZ R) (s : R) : XYZ R := plus3 a (times3 s v).

(* all p+1 first knots are 0, all p+1 last knots are 1, and they never decrease *)
Definition clamped_unit (p n : Z) (U : list R) : Prop :=
  len U = n + p + 2 /\ sorted U /\
  (forall i, 0 <= i <= p -> val U i = 0%R) /\ (forall i, n + 1 <= i <= n + p + 1 -> val U i = 1%R).

(* length of the polygon f 0, f 1, ... up to point k *)
Definition chord_length (f : Z -> XYZ R) (k : Z) : R := rsum 1 (k + 1) (fun j => dist3 (f j) (f (j - 1))).
(* the same with the square roots of the distances *)
Definition centripetal_length (f : Z -> XYZ R) (k : Z) : R := rsum 1 (k + 1) (fun j => sqrt (dist3 (f j) (f (j - 1)))).

(* u are count parameters, averaged over those of the lines f 0, f 1, ... that are not degenerate *)
Definition small_dec x : {small x} + {~ small x} := Rle_dec _ _.
Definition line_weight (f : Z -> Z -> XYZ R) (count l : Z) : R :=
  if small_dec (chord_length (f l) (count - 1)) then 0%R else 1%R.
Definition line_share (f : Z -> Z -> XYZ R) (count l k : Z) : R :=
  if small_dec (chord_length (f l) (count - 1)) then 0%R else (chord_length (f l) k / chord_length (f l) (count - 1))%R.
Definition averaged_parameters (f : Z -> Z -> XYZ R) (lines count : Z) (u : list R) : Prop :=
  len u = count /\ val u 0 = 0%R /\ val u (count - 1) = 1%R /\ sorted u /\
  (forall k l, 0 <= k < count - 1 -> 0 <= l < lines -> ~ small (chord_length (f l) (count - 1)) -> f l k <> f l (k + 1) -> (val u k < val u (k + 1))%R) /\
  (forall k, 0 <= k < count -> (val u k * rsum 0 lines (line_weight f count) = rsum 0 lines (fun l => line_share f count l k))%R).

(* the point at the given angle on the circle with centre c and radius r in the plane of u, v *)
Definition circle_at (c u v : XYZ R) (r angle : R) : XYZ R :=
  plus3 c (plus3 (times3 (r * cos angle) u) (times3 (r * sin angle) v)).

(* the polygon through the points V 0, ..., V n *)
Definition on_polygon (V : Z -> XYZ R) (n : Z) (x : XYZ R) : Prop :=
  exists j l, 0 <= j < n /\ (0 <= l <= 1)%R /\ x = line_at (V j) (minus3 (V (j + 1)) (V j)) l.
