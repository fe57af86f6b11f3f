(* Specification vocabulary, part 19: inverses of matrices. *)
From Coq Require Import ZArith List Reals.
From Verif Require Import Base Num Vec Spec Spec6.
Import ListNotations.
Open Scope Z_scope.

(* whatever the routine returns is an inverse of the square matrix it was given, and it returns for every regular matrix *)
Definition exact_inverse (inverse : list (list R) -> res (list (list R))) : Prop :=
  (forall m A Y fA, 0 < m -> is_mat A m m fA -> inverse A = Ok Y -> exists fY, is_mat Y m m fY /\
    forall i j, 0 <= i < m -> 0 <= j < m -> rsum 0 m (fun l => fA i l * fY l j)%R = if i =? j then 1%R else 0%R) /\
  (forall m A fA, 0 < m -> is_mat A m m fA -> regular m fA -> exists Y, inverse A = Ok Y).
