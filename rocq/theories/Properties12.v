(* Property theorems, part 12: changing the degree of a curve. *)
From Coq Require Import ZArith List Bool Reals Lra Lia Floats.
From Verif Require Import Base Num Vec Tac Spec Spec2 Spec3 Spec4 Spec5 M_MathUtils M_Polynomials M_XYZ M_Bspline M_NurbsCurve M_Curve2
  P_Curve P_Elevate P_Reduce P_Reduce2 Properties5 Properties6.
Import ListNotations.
Open Scope Z_scope.

(** * C31 *)
Theorem C31_elevate : forall T (V : Vec R T) (L : VecL T) p n U (P : list T) t, curve_knots p n U -> len P = n + 1 ->
  clamped_knots p n U -> (forall x y, In x U -> In y U -> apart x y) -> 1 <= p -> 1 <= t ->
  (forall i, p <= i <= n -> (val U i < val U (i + 1))%R) ->
  returns (ElevateDegree (mkCurve p U P) t) (fun c => exists n' U' Q, c = mkCurve (p + t) U' Q /\
    curve_knots (p + t) n' U' /\ len Q = n' + 1 /\ clamped_knots (p + t) n' U' /\
    (forall x, In x U' <-> In x U) /\ (forall x, In x U -> occ U' x = occ U x + t) /\
    forall s, in_domain p n U s -> curve_point (p + t) n' U' Q s = curve_point p n U P s).
Proof. exact @ElevateDegree_ok. Qed.
Print Assumptions C31_elevate.

(* degree 2, inner knots 1 and 3 *)
Example elevate_hypotheses : let U := [0; 0; 0; 1; 3; 4; 4; 4]%R in
  curve_knots 2 4 U /\ clamped_knots 2 4 U /\ (forall x y, In x U -> In y U -> apart x y) /\
  (forall i, 2 <= i <= 4 -> (val U i < val U (i + 1))%R).
Proof.
  cbv zeta. split; [|split; [split; reflexivity|split]].
  - constructor; try (cbn; lia).
    + sorted_tac.
    + change (0 + tol 0 1 < 1)%R. pose proof (tol_le 0 1 1 ltac:(rewrite Rabs_R0; lra) ltac:(rewrite Rabs_pos_eq; lra)). lra.
    + change (3 + tol 3 4 < 4)%R. pose proof (tol_le 3 4 4 ltac:(rewrite Rabs_pos_eq; lra) ltac:(rewrite Rabs_pos_eq; lra)). lra.
  - intros x y Hx Hy. cbn [In] in Hx, Hy. repeat match goal with H : _ \/ _ |- _ => destruct H as [<-|H] end; try tauto; apart_tac.
  - intros i Hi. assert (i = 2 \/ i = 3 \/ i = 4) as [->|[->| ->]] by lia; [change (0 < 1)%R|change (1 < 3)%R|change (3 < 4)%R]; lra.
Qed.

(* a double inner knot: unused zeros are left at the end of both arrays, the result cannot be evaluated *)
Theorem C31_repeated_knot_refuted : (exists c, ElevateDegree (mkCurve 2 [0; 0; 0; 1; 1; 2; 2; 2] [1; 2; -1; 5; 3]) 1 = Ok c /\
  KnotVector c = [0; 0; 0; 0; 1; 1; 1; 2; 2; 2; 2; 0] /\ GetPointOnCurve c 1.5 = Throw /\
  GetPointOnCurve (mkCurve 2 [0; 0; 0; 1; 1; 2; 2; 2] [1; 2; -1; 5; 3]) 1.5 = Ok 3)%float.
Proof. eexists. split; [vm_compute; reflexivity|]. split; [vm_compute; reflexivity|]. split; vm_compute; reflexivity. Qed.
Print Assumptions C31_repeated_knot_refuted.

(* degree 0: a vector of size -1 is requested *)
Theorem C31_degree_zero_refuted : (ElevateDegree (mkCurve 0 [0; 1] [1]) 1 = Throw /\ GetPointOnCurve (mkCurve 0 [0; 1] [1]) 0.5 = Ok 1)%float.
Proof. split; vm_compute; reflexivity. Qed.
Print Assumptions C31_degree_zero_refuted.

(** * C32 *)
Theorem C32_reduce_exact : forall p U P Q, 2 <= p -> curve_knots p p U -> clamped_knots p p U -> len P = p + 1 -> heavy P -> len Q = p ->
  (forall s, in_domain p p U s -> curve_point p p U P s = curve_point (p - 1) (p - 1) (bezier_on (p - 1) (val U p) (val U (p + 1))) Q s) ->
  ReduceDegree (mkCurve p U P) = Ok (Some (mkCurve (p - 1) (bezier_on (p - 1) (val U p) (val U (p + 1))) Q)).
Proof. exact ReduceDegree_exact. Qed.
Print Assumptions C32_reduce_exact.

Theorem C32_elevate_reduce : forall p U P, 1 <= p -> curve_knots p p U -> clamped_knots p p U -> (forall x y, In x U -> In y U -> apart x y) ->
  len P = p + 1 -> heavy P ->
  (let! c := ElevateDegree (mkCurve p U P) 1 in ReduceDegree c) = Ok (Some (mkCurve p U P)).
Proof. exact elevate_reduce. Qed.
Print Assumptions C32_elevate_reduce.

(* a curve that is returned is close to the given one *)
Theorem C32_reduce_close : forall p U P, 2 <= p -> curve_knots p p U -> clamped_knots p p U -> len P = p + 1 -> heavy P ->
  returns (ReduceDegree (mkCurve p U P)) (fun o => match o with
    | None => True
    | Some c => Degree c = p - 1 /\ KnotVector c = bezier_on (p - 1) (val U p) (val U (p + 1)) /\ len (ControlPoints c) = p /\
        pt (ControlPoints c) 0 = pt P 0 /\ pt (ControlPoints c) (p - 1) = pt P p /\
        forall s, in_domain p p U s ->
          (0 < ww (curve_point (p - 1) (p - 1) (KnotVector c) (ControlPoints c) s))%R /\
          (dist3 (proj (curve_point p p U P s)) (proj (curve_point (p - 1) (p - 1) (KnotVector c) (ControlPoints c) s)) <= if Z.even p then 1 / 9999 else 1 / 4999)%R
    end).
Proof. exact ReduceDegree_close. Qed.
Print Assumptions C32_reduce_close.

Theorem C32_not_bezier : forall p U P, len P <> p + 1 -> heavy P -> ReduceDegree (mkCurve p U P) = Ok None.
Proof. exact ReduceDegree_other. Qed.
Print Assumptions C32_not_bezier.

(* a degree 2 curve with weights 1, 2 and 1 on the interval from 0 to 2 *)
Example reduce_hypotheses : let U := [0; 0; 0; 2; 2; 2]%R in let P := [mkXYZW 0 0 0 1; mkXYZW 1 2 0 2; mkXYZW 3 0 0 1]%R in
  curve_knots 2 2 U /\ clamped_knots 2 2 U /\ (forall x y, In x U -> In y U -> apart x y) /\ len P = 3 /\ heavy P.
Proof.
  cbv zeta. split; [|split; [split; reflexivity|split; [|split; [reflexivity|]]]].
  - assert (0 + tol 0 2 < 2)%R by (pose proof (tol_le 0 2 2 ltac:(rewrite Rabs_R0; lra) ltac:(rewrite Rabs_pos_eq; lra)); lra).
    constructor; try (cbn; lia); [sorted_tac|exact H|exact H].
  - intros x y Hx Hy. cbn [In] in Hx, Hy. repeat match goal with H : _ \/ _ |- _ => destruct H as [<-|H] end; try tauto; apart_tac.
  - intros i Hi. change (0 <= i < 3) in Hi. assert (i = 0 \/ i = 1 \/ i = 2) as [->|[->| ->]] by lia; [change (tol 1 0 < 1)%R|change (tol 2 0 < 2)%R|change (tol 1 0 < 1)%R].
    + pose proof (tol_le 1 0 1 ltac:(rewrite Rabs_R1; lra) ltac:(rewrite Rabs_R0; lra)). lra.
    + pose proof (tol_le 2 0 2 ltac:(rewrite Rabs_pos_eq; lra) ltac:(rewrite Rabs_R0; lra)). lra.
    + pose proof (tol_le 1 0 1 ltac:(rewrite Rabs_R1; lra) ltac:(rewrite Rabs_R0; lra)). lra.
Qed.

(* odd degree: the error is taken too small, a curve further away than the tolerance 1/10000 is returned *)
Theorem C32_odd_tolerance_refuted : (exists c y z, let U := [0; 0; 0; 0; 1; 1; 1; 1] in
  let P := [mkXYZW 0 0 0 1; mkXYZW 0 0x1.8p-12 0 1; mkXYZW 0 (-0x1.8p-12) 0 1; mkXYZW 0 0 0 1] in
  ReduceDegree (mkCurve 3 U P) = Ok (Some c) /\ GetPointOnCurve c 0.21875 = Ok (mkXYZW 0 z 0 1) /\
  GetPointOnCurve (mkCurve 3 U P) 0.21875 = Ok (mkXYZW 0 y 0 1) /\ (0x1.a4p-14 <? y - z) = true)%float.
Proof. eexists. eexists. eexists. cbv zeta. split; [vm_compute; reflexivity|]. split; [vm_compute; reflexivity|]. split; vm_compute; reflexivity. Qed.
Print Assumptions C32_odd_tolerance_refuted.

(* degree 1: control point -1 is read *)
Theorem C32_degree_one_refuted : (ReduceDegree (mkCurve 1 [0; 0; 1; 1] [mkXYZW 1 0 0 1; mkXYZW 1 0 0 1]) = UB)%float.
Proof. vm_compute. reflexivity. Qed.
Print Assumptions C32_degree_one_refuted.

(* knots that are not clamped are thrown away *)
Theorem C32_unclamped_refuted : (exists Q, ReduceDegree (mkCurve 2 [0; 1; 2; 3; 4; 5] [mkXYZW 1 0 0 1; mkXYZW 1 0 0 1; mkXYZW 1 0 0 1]) = Ok (Some (mkCurve 1 [] Q)))%float.
Proof. eexists. vm_compute. reflexivity. Qed.
Print Assumptions C32_unclamped_refuted.
