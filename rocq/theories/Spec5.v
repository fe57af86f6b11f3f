(* Specification vocabulary for degree reduction and knot removal. *)
From Coq Require Import ZArith List Reals.
From Verif Require Import Base Num Vec Spec Spec2 Spec3 M_XYZ.
Open Scope Z_scope.

(* distance of homogeneous points *)
Definition dist4 (a b : XYZW R) : R :=
  sqrt ((wx b - wx a) ^ 2 + (wy b - wy a) ^ 2 + (wz b - wz a) ^ 2 + (ww b - ww a) ^ 2).

(* w is the least of 1 and the weights *)
Definition least_weight (P : list (XYZW R)) (w : R) : Prop :=
  (w <= 1)%R /\ (forall i, 0 <= i < len P -> (w <= ww (pt P i))%R) /\ (w = 1%R \/ exists i, 0 <= i < len P /\ w = ww (pt P i)).
(* d is the largest distance of a control point from the origin *)
Definition greatest_distance (P : list (XYZW R)) (d : R) : Prop :=
  (0 <= d)%R /\ (forall i, 0 <= i < len P -> (norm3 (proj (pt P i)) <= d)%R) /\ (d = 0%R \/ exists i, 0 <= i < len P /\ d = norm3 (proj (pt P i))).
(* the tolerance on homogeneous points for changing a curve *)
Definition modify_tolerance (P : list (XYZW R)) (e : R) : Prop :=
  exists w d, least_weight P w /\ greatest_distance P d /\ e = (1 / 10000 * w / (1 + d))%R.

(* weights clearly above zero *)
Definition heavy (P : list (XYZW R)) : Prop := forall i, 0 <= i < len P -> (tol (ww (pt P i)) 0 < ww (pt P i))%R.

(* the knots of a Bezier curve of degree p on the interval from a to b *)
Definition bezier_on (p : Z) (a b : R) : list R := repeat a (Z.to_nat (p + 1)) ++ repeat b (Z.to_nat (p + 1)).
