(* Property theorems, part 5: operations on curves built on knot insertion. *)
From Coq Require Import ZArith List Bool Reals Lra Lia Permutation.
From Coq Require Import Floats.
From Verif Require Import Base Num Vec Spec Spec2 M_MathUtils M_XYZ M_Polynomials M_Bspline M_NurbsCurve
  P_Vec P_Curve P_VSum P_MathUtils P_Bspline P_Refine.
Import ListNotations.
Open Scope Z_scope.

(** * C28 *)
(* new knots 1/2, 2, 2, 9/2 into Uex = 0 0 0 1 2 3 4 4 5 5 5 *)
Definition Xex : list R := [1 / 2; 2; 2; 9 / 2]%R.

Ltac apart_tac := first [left; lra | right; unfold Rminus; match goal with |- (2 * tol ?x ?y < _)%R =>
  let E := fresh in pose proof (tol_le x y 5) as E; rewrite !Rabs_right in E by lra; specialize (E ltac:(lra) ltac:(lra));
  first [rewrite Rabs_right by lra; lra | rewrite Rabs_left by lra; lra] end].

Example refine_hypotheses : curve_knots 2 7 Uex /\ 0 < len Xex /\ sorted Xex /\
  (forall x, In x Xex -> (val Uex 2 < x < val Uex (7 + 1))%R) /\ (forall x y, In x Xex -> In y (Xex ++ Uex) -> apart x y).
Proof.
  split; [exact Uex_ok|]. split; [reflexivity|]. split; [unfold Xex; sorted_tac|]. split.
  - intros x Hx. change (0 < x < 5)%R. unfold Xex in Hx. cbn [In] in Hx. intuition (subst; lra).
  - intros x y Hx Hy. unfold Xex, Uex in Hx, Hy. cbn [In app] in Hx, Hy.
    repeat match goal with H : _ \/ _ |- _ => destruct H as [<-|H] end; try tauto; apart_tac.
Qed.

Theorem C28_refine_preserves : forall T (V : Vec R T) (L : VecL T) p n U (P : list T) X,
  curve_knots p n U -> len P = n + 1 -> 0 < len X -> sorted X ->
  (forall x, In x X -> (val U p < x < val U (n + 1))%R) -> (forall x y, In x X -> In y (X ++ U) -> apart x y) ->
  returns (RefineKnotVector (mkCurve p U P) X) (fun c => exists U' Q, c = mkCurve p U' Q /\
    curve_knots p (n + len X) U' /\ len Q = n + len X + 1 /\ Permutation U' (X ++ U) /\
    (forall t, in_domain p n U t <-> in_domain p (n + len X) U' t) /\
    (forall t, in_domain p n U t -> curve_point p (n + len X) U' Q t = curve_point p n U P t)).
Proof. intros T V L. exact RefineKnotVector_preserves. Qed.
Print Assumptions C28_refine_preserves.

(* new knots out of order: the new knot vector is not sorted (binary64) *)
Theorem C28_refine_unsorted_refuted : exists c,
  RefineKnotVector (mkCurve 1 [0; 0; 1; 1]%float [0; 1]%float) [0.75; 0.25]%float = Ok c /\
  KnotVector c = [0; 0; 0.75; 0.25; 1; 1]%float.
Proof. eexists. split; vm_compute; reflexivity. Qed.
Print Assumptions C28_refine_unsorted_refuted.
