(* Specification vocabulary, part 27: a quadrature rule. *)
From Coq Require Import ZArith List Reals.
From Verif Require Import Base Num Vec Spec.
Open Scope Z_scope.

(* the rule with the given nodes in [-1,1] and weights, applied to f on [a,b] *)
Definition gauss_rule (nodes weights : list R) (a b : R) (f : R -> R) : R :=
  ((b - a) / 2 * rsum 0 (len nodes) (fun k => val weights k * f ((a + b) / 2 + (b - a) / 2 * val nodes k)))%R.
