(* Specification vocabulary, part 6: linear systems. Independent of the model. *)
From Coq Require Import ZArith List Reals.
From Verif Require Import Base Vec Spec.
Import ListNotations.
Open Scope Z_scope.

(* A has only the zero vector in its kernel *)
Definition regular (m : Z) (A : Z -> Z -> R) : Prop :=
  forall c : Z -> R, (forall i, 0 <= i < m -> rsum 0 m (fun l => A i l * c l)%R = 0%R) -> forall l, 0 <= l < m -> c l = 0%R.

(* a function that solves every regular system A X = B exactly *)
Definition exact_solver (solve : list (list R) -> list (list R) -> res (list (list R))) : Prop :=
  forall m k A B fA fB, 0 < m -> 0 < k -> is_mat A m m fA -> is_mat B m k fB -> regular m fA ->
  returns (solve A B) (fun X => exists fX, is_mat X m k fX /\
    forall i j, 0 <= i < m -> 0 <= j < k -> rsum 0 m (fun l => fA i l * fX l j)%R = fB i j).
