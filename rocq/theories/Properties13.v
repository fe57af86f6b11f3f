(* Property theorems, part 13: removing knots. *)
From Coq Require Import ZArith List Bool Reals Lra Lia Floats.
From Verif Require Import Base Num Vec Tac Spec Spec2 Spec3 Spec4 Spec5 M_MathUtils M_Polynomials M_XYZ M_Bspline M_NurbsCurve M_Curve2
  P_Curve P_Remove P_Remove2 Properties5 Properties6.
Import ListNotations.
Open Scope Z_scope.

(** * C30 *)
(* an insertion that brings the knot to multiplicity p is undone *)
Theorem C30_insert_remove : forall p n U P u res0, curve_knots p n U -> len P = n + 1 -> heavy P -> (val U p < u < val U (n + 1))%R ->
  (forall x, In x U -> (Rabs (u - x) <= tol u x)%R -> x = u) -> occ U u = p - 1 -> 1 <= p ->
  (let! r := InsertKnot (mkCurve p U P) u 1 res0 in RemoveKnot (snd r) u 1) = Ok (Some (mkCurve p U P)).
Proof. exact insert_remove. Qed.
Print Assumptions C30_insert_remove.

(* multiplicity p: the knot at the end of the run and the control point on the curve go, the rest stays *)
Theorem C30_full_multiplicity : forall p n U P u k, curve_knots p n U -> len P = n + 1 -> heavy P -> span_of p n U u k -> (val U p < u < val U (n + 1))%R ->
  (forall x, In x U -> (Rabs (u - x) <= tol u x)%R -> x = u) -> occ U u = p -> 1 <= p ->
  returns (RemoveKnot (mkCurve p U P) u 1) (fun o => exists U' Q, o = Some (mkCurve p U' Q) /\ arr U' (n + p + 1) (fun i => if i <? k then val U i else val U (i + 1)) /\
    arr Q n (fun i => if i <? k - p then pt P i else pt P (i + 1))).
Proof. exact RemoveKnot_full. Qed.
Print Assumptions C30_full_multiplicity.

(* degree 2, knot 1 of multiplicity 1 *)
Example remove_hypotheses : let U := [0; 0; 0; 1; 3; 3; 3]%R in let P := [mkXYZW 0 0 0 1; mkXYZW 1 2 0 2; mkXYZW 3 0 0 1; mkXYZW 4 1 0 1]%R in
  curve_knots 2 3 U /\ len P = 4 /\ heavy P /\ (val U 2 < 1 < val U 4)%R /\ (forall x, In x U -> (Rabs (1 - x) <= tol 1 x)%R -> x = 1%R) /\ occ U 1 = 1.
Proof.
  cbv zeta. split; [|split; [reflexivity|split; [|split; [|split]]]].
  - assert (0 + tol 0 3 < 3)%R by (pose proof (tol_le 0 3 3 ltac:(rewrite Rabs_R0; lra) ltac:(rewrite Rabs_pos_eq; lra)); lra).
    assert (0 + tol 0 1 < 1)%R by (pose proof (tol_le 0 1 1 ltac:(rewrite Rabs_R0; lra) ltac:(rewrite Rabs_R1; lra)); lra).
    assert (1 + tol 1 3 < 3)%R by (pose proof (tol_le 1 3 3 ltac:(rewrite Rabs_R1; lra) ltac:(rewrite Rabs_pos_eq; lra)); lra).
    constructor; try (cbn; lia); [sorted_tac|assumption|assumption].
  - intros i Hi. change (0 <= i < 4) in Hi. assert (i = 0 \/ i = 1 \/ i = 2 \/ i = 3) as [->|[->|[->| ->]]] by lia; [change (tol 1 0 < 1)%R|change (tol 2 0 < 2)%R|change (tol 1 0 < 1)%R|change (tol 1 0 < 1)%R].
    all: first [pose proof (tol_le 1 0 1 ltac:(rewrite Rabs_R1; lra) ltac:(rewrite Rabs_R0; lra)); lra|
      pose proof (tol_le 2 0 2 ltac:(rewrite Rabs_pos_eq; lra) ltac:(rewrite Rabs_R0; lra)); lra].
  - change (0 < 1 < 3)%R. lra.
  - intros x Hx Ha. cbn [In] in Hx. repeat match goal with H : _ \/ _ |- _ => destruct H as [<-|H] end; try tauto; exfalso; revert Ha; apply Rlt_not_le.
    all: first [pose proof (tol_le 1 0 1 ltac:(rewrite Rabs_R1; lra) ltac:(rewrite Rabs_R0; lra)); unfold Rabs; destruct Rcase_abs; lra|
      pose proof (tol_le 1 3 3 ltac:(rewrite Rabs_R1; lra) ltac:(rewrite Rabs_pos_eq; lra)); unfold Rabs; destruct Rcase_abs; lra].
  - unfold occ. cbn [count_occ]. repeat match goal with |- context [Req_EM_T ?x ?y] => destruct (Req_EM_T x y); [try (exfalso; lra)|try (exfalso; lra)] end; reflexivity.
Qed.

(* degree and multiplicity of the same parity: the test for removability is void, removal is never refused *)
Theorem C30_never_refused_refuted : forall p n U P u, curve_knots p n U -> len P = n + 1 -> heavy P -> (val U p < u < val U (n + 1))%R ->
  (forall x, In x U -> (Rabs (u - x) <= tol u x)%R -> x = u) -> 1 <= occ U u <= p -> Z.even (p - occ U u) = true ->
  returns (RemoveKnot (mkCurve p U P) u 1) (fun o => exists U' Q, o = Some (mkCurve p U' Q) /\ len U' = n + p + 1 /\ len Q = n).
Proof. exact RemoveKnot_unchecked. Qed.
Print Assumptions C30_never_refused_refuted.

(* a curve with a corner at 0.5: the corner point is at (16, 8), the curve after removal passes 8 units away *)
Theorem C30_corner_removed_refuted : (exists c, let U := [0; 0; 0; 0.5; 0.5; 1; 1; 1] in
  let P := [mkXYZW 0 0 0 1; mkXYZW 8 0 0 1; mkXYZW 16 8 0 1; mkXYZW 8 80 0 1; mkXYZW 0 0 0 1] in
  RemoveKnot (mkCurve 2 U P) 0.5 1 = Ok (Some c) /\ GetPointOnCurve (mkCurve 2 U P) 0.5 = Ok (mkXYZW 16 8 0 1) /\ GetPointOnCurve c 0.5 = Ok (mkXYZW 8 40 0 1))%float.
Proof. eexists. cbv zeta. split; [vm_compute; reflexivity|]. split; vm_compute; reflexivity. Qed.
Print Assumptions C30_corner_removed_refuted.

(* lower multiplicities: the removal succeeds, the points are wrong *)
Theorem C30_quadratic_refuted : (exists c d, let U := [0; 0; 0; 1; 1; 1] in
  let P := [mkXYZW 0 0 0 1; mkXYZW 8 0 0 1; mkXYZW 16 8 0 1] in
  InsertKnot (mkCurve 2 U P) 0.5 1 (mkCurve 2 U P) = Ok (1%Z, c) /\ RemoveKnot c 0.5 1 = Ok (Some d) /\ KnotVector d = U /\
  ControlPoints d = [mkXYZW 0 0 0 1; mkXYZW 12 4 0 1; mkXYZW 16 8 0 1])%float.
Proof. eexists. eexists. cbv zeta. split; [vm_compute; reflexivity|]. split; [vm_compute; reflexivity|]. split; vm_compute; reflexivity. Qed.
Print Assumptions C30_quadratic_refuted.

Theorem C30_cubic_refuted : (exists c d, let U := [0; 0; 0; 0; 1; 1; 1; 1] in
  let P := [mkXYZW 0 0 0 1; mkXYZW 8 0 0 1; mkXYZW 16 8 0 1; mkXYZW 0 16 0 1] in
  InsertKnot (mkCurve 3 U P) 0.5 1 (mkCurve 3 U P) = Ok (1%Z, c) /\ RemoveKnot c 0.5 1 = Ok (Some d) /\ KnotVector d = U /\
  ControlPoints d = [mkXYZW 0 0 0 1; mkXYZW 8 0 0 1; mkXYZW 8 12 0 1; mkXYZW 0 16 0 1])%float.
Proof. eexists. eexists. cbv zeta. split; [vm_compute; reflexivity|]. split; [vm_compute; reflexivity|]. split; vm_compute; reflexivity. Qed.
Print Assumptions C30_cubic_refuted.

(* two removals asked for, one done: two knots and one control point are dropped *)
Theorem C30_sizes_refuted : (exists c, let U := [0; 0; 0; 0.5; 0.5; 1; 1; 1] in
  let P := [mkXYZW 0 0 0 1; mkXYZW 8 0 0 1; mkXYZW 16 8 0 1; mkXYZW 8 80 0 1; mkXYZW 0 0 0 1] in
  RemoveKnot (mkCurve 2 U P) 0.5 2 = Ok (Some c) /\ Degree c = 2%Z /\ KnotVector c = [0; 0; 0; 1; 1; 1] /\ len (ControlPoints c) = 4%Z)%float.
Proof. eexists. cbv zeta. split; [vm_compute; reflexivity|]. split; [reflexivity|]. split; reflexivity. Qed.
Print Assumptions C30_sizes_refuted.

(* a parameter that is no knot *)
Theorem C30_no_knot_refuted : (RemoveKnot (mkCurve 2 [0; 0; 0; 0.25; 0.5; 1; 1; 1]
  [mkXYZW 0 0 0 1; mkXYZW 8 0 0 1; mkXYZW 16 8 0 1; mkXYZW 8 80 0 1; mkXYZW 0 0 0 1]) 0.75 1 = UB)%float.
Proof. vm_compute. reflexivity. Qed.
Print Assumptions C30_no_knot_refuted.

(* the first span, or the start of the curve: a control point before the first is read *)
Theorem C30_first_span_refuted : forall p n U P u times, curve_knots p n U -> len P = n + 1 -> heavy P -> span_of p n U u p -> 0 < times <= p + 1 ->
  RemoveKnot (mkCurve p U P) u times = UB.
Proof. exact RemoveKnot_first. Qed.
Print Assumptions C30_first_span_refuted.
