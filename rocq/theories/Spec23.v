(* Vocabulary for offset curves. *)
From Coq Require Import ZArith List Reals.
From Verif Require Import Base Num Vec Spec Spec2 Spec3 Spec4 Spec10 M_XYZ M_Bspline M_NurbsCurve M_Curve2 M_Shape M_Curve4.
Import ListNotations.
Open Scope Z_scope.

(* control point i of the curve c, moved by the distance d along the unit normal at the parameter found for it, or against it: against
   it when it points clearly away from n0, along it when it does not point away *)
Definition moved (fuel : nat) (c : Curve R (XYZW R)) (d : R) (n0 : XYZ R) (i : Z) (x : XYZ R) : Prop :=
  exists t v s, GetParamOnCurve fuel c (proj (pt (ControlPoints c) i)) = Ok t /\ CurveNormalAt c CN_Normal t = Ok v /\ dot3 v v = 1%R /\
    (s = 1 \/ s = -1)%R /\ (0 <= dot3 n0 v -> s = 1)%R /\ (dot3 n0 v <= - (1 / 10) -> s = -1)%R /\
    x = plus3 (proj (pt (ControlPoints c) i)) (times3 (d * s)%R v).

(* the distance point of the curve c at t *)
Definition offset_at (c : Curve R (XYZW R)) (d t : R) (x : XYZ R) : Prop :=
  exists q v, NurbsPoint c t = Ok q /\ CurveNormalAt c CN_Normal t = Ok v /\ dot3 v v = 1%R /\ x = plus3 q (times3 d v).

(* no knot between the least and the greatest is repeated *)
Definition unrepeated (U : list R) : Prop :=
  forall x, In x U -> (exists y, In y U /\ y < x)%R -> (exists y, In y U /\ x < y)%R -> occ U x = 1.

(* the number m of samples of a curve: as many as 100 times the root of an eighth of the length of the second derivative at some knot,
   rounded down, whichever is the most, and at least 2 (p + 1) *)
Definition amount (x : XYZ R) : R := (100 * sqrt (norm3 x / 8))%R.
Definition sample_number (p n : Z) (U : list R) (H : list (XYZW R)) (m : Z) : Prop :=
  2 * (p + 1) <= m /\ (forall i, 0 <= i < len U -> exists g, curve_derivs p n U H 2 (val U i) g /\ (amount (g 2%Z) < IZR m + 1)%R) /\
  (m = 2 * (p + 1) \/ exists i g, 0 <= i < len U /\ curve_derivs p n U H 2 (val U i) g /\ (IZR m <= amount (g 2%Z))%R).

(* Q holds the distance points at evenly spaced parameters from the first knot a to the last b *)
Definition samples (c : Curve R (XYZW R)) (d a b : R) (Q : list (XYZ R)) : Prop :=
  forall j, 0 <= j < len Q -> offset_at c d (a + (b - a) / IZR (len Q - 1) * IZR j) (pt Q j).

(* no two points in succession agree, and the first and the last are not too near to theirs *)
Definition spread_points (Q : list (XYZ R)) : Prop :=
  (forall i, 0 <= i < len Q - 1 -> pt Q i <> pt Q (i + 1)) /\ ~ small (chord_length (pt Q) (len Q - 1)) /\
  (2 / 1000000 * chord_length (pt Q) (len Q - 1) < dist3 (pt Q 1) (pt Q 0))%R /\
  (2 / 1000000 * chord_length (pt Q) (len Q - 1) < dist3 (pt Q (len Q - 1)) (pt Q (len Q - 2)%Z))%R.

(* u is a repeated knot between the least and the greatest *)
Definition repeated_inside (U : list R) (u : R) : Prop :=
  2 <= occ U u /\ (exists y, In y U /\ y < u)%R /\ (exists y, In y U /\ u < y)%R.
(* c' is what is left of c after removing repeated inner knots, one at a time *)
Inductive trimmed : Curve R (XYZW R) -> Curve R (XYZW R) -> Prop :=
| trimmed_same c : trimmed c c
| trimmed_step c u c1 c2 : repeated_inside (KnotVector c) u -> RemoveKnot c u 1 = Ok (Some c1) -> trimmed c1 c2 -> trimmed c c2.
