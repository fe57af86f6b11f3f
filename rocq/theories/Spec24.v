(* Specifications about removing knots within an error bound. *)
From Coq Require Import ZArith List Reals.
From Verif Require Import Base Num Vec Spec M_XYZ M_Bspline M_Curve2.
Open Scope Z_scope.

(* c' is what is left of c after removing some knots with RemoveKnot, one at a time *)
Inductive stripped : Curve R (XYZW R) -> Curve R (XYZW R) -> Prop :=
| stripped_same c : stripped c c
| stripped_step c u c1 c2 : In u (KnotVector c) -> RemoveKnot c u 1 = Ok (Some c1) -> stripped c1 c2 -> stripped c c2.

(* e does not exceed the bound m by more than the tolerance *)
Definition within (e m : R) : Prop := (e <= m + tol e m)%R.
