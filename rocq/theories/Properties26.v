(* Property theorems, part 26: all parameters of a point. *)
From Coq Require Import ZArith List Bool Reals Lra Lia Floats.
From Verif Require Import Base Num Vec Tac Spec Spec2 Spec3 Spec4 Spec5 Spec9 Spec10 Spec17 M_MathUtils M_XYZ M_Bspline M_NurbsCurve M_Curve2 M_Geom M_Shape M_Curve4
  P_MathUtils P_Vec P_VSum P_Curve P_Bspline P_Decomp P_Make P_Nurbs P_Cox P_Geom P_Shape P_Surf5 P_Surf6 P_Swung P_ProjNorm2 P_ParamOn P_ParamAll.
Import ListNotations.
Open Scope Z_scope.

(** * C123 *)
(* open curves, unless the curve is recognised as a circle around the point or the recognition fails *)
Theorem C123_found : forall p n U H P fuel, curve_knots p n U -> p <= 7 -> len H = n + 1 -> heavy H -> clamped_knots p n U ->
  match IsArc (mkCurve p U H) with Ok (Some (_, o, true)) => ~ Spec3.near o P | Ok _ => True | Err _ => False end -> IsClosed (mkCurve p U H) = Ok false ->
  returns (GetAllParamsOnCurve fuel (mkCurve p U H) P) (fun l => 1 <= len l /\ (forall i, 0 <= i < len l -> found_at p n U H P (val l i)) /\
    forall i j, 0 <= i < len l -> 0 <= j < len l -> i <> j -> ~ close (Rabs (val l i - val l j)) 0).
Proof. intros p n U H P fuel HU Hp HH Hw HC HA HO. exact (GetAll_ok p n U H HU Hp HH Hw HC fuel P HA HO). Qed.
Print Assumptions C123_found.

(* straight segments: each parameter at most 1/10000 beyond the ends, and nearest, or within 1/10000 of the point *)
Theorem C123_segment : forall a b P fuel, (1 / 100 <= dist3 a b)%R -> ~ Spec3.near b a ->
  returns (GetAllParamsOnCurve fuel (mkCurve 1 (bezier_knots 1) [hom a 1; hom b 1]%R) P) (fun l => 1 <= len l /\ forall i, 0 <= i < len l ->
  (exists t, (0 <= t <= 1)%R /\ (dist3 (lerp3 a b t) (lerp3 a b (val l i)) < 1 / 10000)%R) /\
  ((dist3 P (lerp3 a b (val l i)) < 1 / 10000)%R \/ forall s, (0 <= s <= 1)%R -> (dist3 P (lerp3 a b (val l i)) <= dist3 P (lerp3 a b s))%R)).
Proof. intros a b P fuel Hab Hne. exact (seg_all a b P Hab Hne fuel). Qed.
Print Assumptions C123_segment.

Example C123_ex : let c := mkCurve 1 (bezier_knots 1) [hom (mkXYZ 0 0 0) 1; hom (mkXYZ 1 0 0) 1]%R in
  curve_knots 1 1 (bezier_knots 1) /\ heavy (ControlPoints c) /\ clamped_knots 1 1 (bezier_knots 1) /\ IsArc c = Ok None /\ IsClosed c = Ok false /\ (1 / 100 <= dist3 (mkXYZ 0 0 0) (mkXYZ 1 0 0))%R /\ ~ Spec3.near (mkXYZ 1 0 0)%R (mkXYZ 0 0 0)%R.
Proof.
  intros c. destruct bar_knots as (K & CK). assert (D : dist3 (mkXYZ 0 0 0)%R (mkXYZ 1 0 0)%R = 1%R).
  { unfold dist3, norm3. replace (dot3 _ _) with 1%R by (unfold dot3, minus3; cbn [gx gy gz]; ring). apply sqrt_1. }
  assert (F : ~ Spec3.near (mkXYZ 1 0 0)%R (mkXYZ 0 0 0)%R). { intros (A & _). unfold tol in A. cbn [gx] in A. rewrite Rminus_0_r, Rabs_R0, Rabs_R1, Rmax_left in A by lra. lra. }
  split; [exact K|]. split; [apply bar_heavy|]. split; [exact CK|]. split; [reflexivity|]. split; [apply bar_open; [rewrite D; lra|exact F]|]. split; [rewrite D; lra|exact F].
Qed.

(* an open cubic with a small loop: it passes through the point (12, 0, 0) twice *)
Definition loop := (mkCurve 3 [0; 0; 0; 0; 1; 1; 1; 1] [mkXYZW 786432 (-393210) 0 1; mkXYZW (-262144) 393218 0 1; mkXYZW (-262144) (-393218) 0 1; mkXYZW 786432 393210 0 1])%float.
(* only one of the two parameters is found *)
Theorem C123_missed_refuted : exists t s P, NurbsPoint loop t = Ok P /\ NurbsPoint loop s = Ok P /\ (t <? 0.4990234375)%float = true /\ (0.5009765625 <? s)%float = true /\
  forall d, exists r, GetAllParamsOnCurve (64 + d) loop P = Ok [r] /\ (0.5009765625 <? r)%float = true.
Proof.
  exists 0.498046875%float, 0.501953125%float, (mkXYZ 12 0 0)%float. repeat split; try (vm_compute; reflexivity).
  intros d. exists 0x1.00fffffffffefp-1%float. split; vm_compute; reflexivity.
Qed.
Print Assumptions C123_missed_refuted.

(* a closed triangle: the parameter of a point beside the common end is moved back into the domain with a tolerance wider
   than that of the evaluation, so that the evaluation refuses it in the next step *)
Definition triangle := (mkCurve 1 [0; 0; 0.25; 0.5; 1; 1] [mkXYZW 0 0 0 1; mkXYZW 100 100 0 1; mkXYZW 100 0 0 1; mkXYZW 0 0 0 1])%float.
Theorem C123_closed_refuted : exists P, forall d, GetAllParamsOnCurve (64 + d) triangle P = Throw.
Proof. exists (mkXYZ (-0x1.4p-12) (-1) 0)%float. intros d. vm_compute. reflexivity. Qed.
Print Assumptions C123_closed_refuted.

(* the single search does not find the point at all: its result is at a distance of 12 *)
Theorem C119_missed_refuted : exists t P r, NurbsPoint loop t = Ok P /\ (forall d, GetParamOnCurve (64 + d) loop P = Ok r) /\ P = (mkXYZ 12 0 0)%float /\ NurbsPoint loop r = Ok (mkXYZ 0 0 0)%float.
Proof. exists 0.501953125%float, (mkXYZ 12 0 0)%float, 0.5%float. repeat split; vm_compute; reflexivity. Qed.
Print Assumptions C119_missed_refuted.
