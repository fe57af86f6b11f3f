(* Specification vocabulary, part 21: fitting curves between fixed ends. Only the record types are taken from the model. *)
From Coq Require Import ZArith List Reals.
From Verif Require Import Base Num Vec Spec Spec3 Spec6 M_XYZ P_Vec.
Import ListNotations.
Open Scope Z_scope.

(* a decomposition that reports success for every regular system A X = B and solves it exactly *)
Definition exact_lu (lu : list (list R) -> list (list R) -> res (option (list (list R)))) : Prop :=
  forall m k A B fA fB, 0 < m -> 0 < k -> is_mat A m m fA -> is_mat B m k fB -> regular m fA ->
  exists X fX, lu A B = Ok (Some X) /\ is_mat X m k fX /\
    forall i j, 0 <= i < m -> 0 <= j < k -> rsum 0 m (fun l => fA i l * fX l j)%R = fB i j.

(* sum of the squares of the distances from the points between the first and the last to the curve points at their parameters *)
Definition inner_error (p n : Z) (U : list R) (P : list (XYZ R)) (us : list R) (Q : list (XYZ R)) : R :=
  rsum 1 (len Q - 1) (fun k => dot3 (minus3 (curve_point p n U P (val us k)) (pt Q k)) (minus3 (curve_point p n U P (val us k)) (pt Q k)))%R.

(* the first m - 1 of the inner parameters determine the inner control points *)
Definition inner_determined (p n : Z) (U us : list R) (m : Z) : Prop :=
  forall P : list (XYZ R), len P = n + 1 -> pt P 0 = zero3 -> pt P n = zero3 ->
  (forall k, 0 < k < m -> curve_point p n U P (val us k) = zero3) -> forall l, 0 <= l <= n -> pt P l = zero3.
