(* Specifications about fitting with a conic or a cubic. *)
From Coq Require Import ZArith List Reals.
From Verif Require Import Base Num Vec Spec Spec2 Spec3 Spec24 M_XYZ M_Bspline M_NurbsCurve.
Import ListNotations.
Open Scope Z_scope.

(* the denominator and the point at u of the conic arc from a to e with corner q of weight w *)
Definition conic_weight (w u : R) : R := ((1 - u) * (1 - u) + 2 * u * (1 - u) * w + u * u)%R.
Definition conic_at (a q e : XYZ R) (w u : R) : XYZ R :=
  times3 (/ conic_weight w u) (plus3 (times3 ((1 - u) * (1 - u)) a) (plus3 (times3 (2 * u * (1 - u) * w) q) (times3 (u * u) e))).
Definition conic_curve (a q e : XYZ R) (w : R) : Curve R (XYZW R) := mkCurve 2 [0; 0; 0; 1; 1; 1]%R [hom a 1; hom q w; hom e 1].

(* the middle of two points *)
Definition middle3 (a b : XYZ R) : XYZ R := times3 (1 / 2) (plus3 a b).

(* evaluation of the arc returns a point that is within the error of x; on the arc proper that point is the one at parameter u *)
Definition on_conic (a q e : XYZ R) (w err : R) (x : XYZ R) : Prop :=
  exists u y, NurbsPoint (conic_curve a q e w) u = Ok y /\ within (dist3 x y) err /\
    ((0 <= u <= 1)%R -> ~ small (conic_weight w u) -> y = conic_at a q e w u).

(* q is where the lines from a along ta and from e along te meet, ahead of a and behind e *)
Definition corner (a ta e te q : XYZ R) : Prop :=
  exists s t, (0 < s)%R /\ (t < 0)%R /\ small (dist3 (line_at a ta s) (line_at e te t)) /\ q = middle3 (line_at a ta s) (line_at e te t).

(* the lines through a along ta and through e along te pass x within the tolerance *)
Definition meets (a ta e te x : XYZ R) : Prop :=
  exists s t, small (dist3 (line_at a ta s) (line_at e te t)) /\ x = middle3 (line_at a ta s) (line_at e te t).
(* v and d point in the same or in opposite directions, within the tolerance *)
Definition aligned (v d : XYZ R) : Prop := exists x y, direction_of v x /\ direction_of d y /\ (near x y \/ near x (times3 (-1) y)).

(* the middle control points of one or two conic arcs from a, leaving along ta, to e, arriving along te *)
Inductive tangent_arcs (a ta e te : XYZ R) : list (XYZW R) -> Prop :=
| one_arc q w : corner a ta e te q -> tangent_arcs a ta e te [hom q w]
| two_arcs s t w1 w2 r1 r2 q : (0 < s)%R -> (0 < t)%R -> r1 = line_at a ta s -> r2 = line_at e te (- t) ->
    q = line_at r1 (minus3 r2 r1) (s / (s + t)) -> tangent_arcs a ta e te [hom r1 w1; hom q 1; hom r2 w2].

(* the straight segment, with the reason for it *)
Definition straight_arc (a ta e te : XYZ R) (l : list (XYZW R)) : Prop := exists w, l = [hom (middle3 a e) w] /\
  ((w = 1%R /\ aligned ta (minus3 e a) /\ aligned ta te) \/ (exists x, meets a ta e te x /\ (near a x \/ near e x)) \/
   (exists u, direction_of (minus3 e a) u /\ near u ta /\ near u te)).

(* the two points that divide the segment from a to e in three *)
Definition thirds (a e : XYZ R) : list (XYZW R) := [hom (line_at a (minus3 e a) (1 / 3)) 1; hom (line_at a (minus3 e a) (2 / 3)) 1].
