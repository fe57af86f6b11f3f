(* The area of a surface by Simpson's rule. *)
From Coq Require Import ZArith List Bool Reals Lra Lia.
From Verif Require Import Base Num Vec Tac Spec Spec2 Spec3 Spec4 Spec8 M_MathUtils M_XYZ M_Bspline M_NurbsCurve M_Curve2 M_Geom M_Surface M_Curve4 M_Area
  P_MathUtils P_XYZ P_Vec P_VSum P_Curve P_Bspline P_Loop P_Geom P_Matrix P_Nurbs P_Cox P_Surface P_RSurf2.
Import ListNotations.
Open Scope Z_scope.

(** * The rounds of the loop, for any function with values between lo and hi *)
Section Rounds.
Variables (f : R -> R -> res R) (lo hi : R).
Hypothesis Hf : forall u v, (0 <= u <= 1)%R -> (0 <= v <= 1)%R -> exists y, f u v = Ok y /\ (lo <= y <= hi)%R.

Lemma simpson_between u1 u2 v1 v2 : (0 <= u1 <= u2)%R -> (u2 <= 1)%R -> (0 <= v1 <= v2)%R -> (v2 <= 1)%R ->
  exists x, simpson_area f u1 u2 v1 v2 = Ok x /\ (lo * ((u2 - u1) * (v2 - v1)) <= x <= hi * ((u2 - u1) * (v2 - v1)))%R.
Proof.
  intros Hu Hu2 Hv Hv2. unfold simpson_area. num. set (h := (1 / 2 * (u2 - u1))%R). set (g := (1 / 2 * (v2 - v1))%R).
  assert (H0 : (0 <= h)%R) by (unfold h; lra). assert (G0 : (0 <= g)%R) by (unfold g; lra). assert (EH : u2 = (u1 + 2 * h)%R) by (unfold h; lra). assert (EG : v2 = (v1 + 2 * g)%R) by (unfold g; lra). clearbody h g. subst u2 v2.
  destruct (Hf u1 v1 ltac:(lra) ltac:(lra)) as (y1 & E1 & B1). destruct (Hf u1 (v1 + g)%R ltac:(lra) ltac:(lra)) as (y2 & E2 & B2). destruct (Hf u1 (v1 + 2 * g)%R ltac:(lra) ltac:(lra)) as (y3 & E3 & B3).
  destruct (Hf (u1 + h)%R v1 ltac:(lra) ltac:(lra)) as (y4 & E4 & B4). destruct (Hf (u1 + h)%R (v1 + g)%R ltac:(lra) ltac:(lra)) as (y5 & E5 & B5). destruct (Hf (u1 + h)%R (v1 + 2 * g)%R ltac:(lra) ltac:(lra)) as (y6 & E6 & B6).
  destruct (Hf (u1 + 2 * h)%R v1 ltac:(lra) ltac:(lra)) as (y7 & E7 & B7). destruct (Hf (u1 + 2 * h)%R (v1 + g)%R ltac:(lra) ltac:(lra)) as (y8 & E8 & B8). destruct (Hf (u1 + 2 * h)%R (v1 + 2 * g)%R ltac:(lra) ltac:(lra)) as (y9 & E9 & B9).
  cbn [fold_left bind]. rewrite E1. cbn [bind]. rewrite E2. cbn [bind]. rewrite E3. cbn [bind]. rewrite E4. cbn [bind]. rewrite E5. cbn [bind]. rewrite E6. cbn [bind]. rewrite E7. cbn [bind]. rewrite E8. cbn [bind]. rewrite E9. cbn [bind].
  rewrite Rdiv_ok by (apply not_0_IZR; lia). cbn [bind]. eexists. split; [reflexivity|]. change (IZR (9 * 4)) with 36%R.
  set (s := (0 + 1 * y1 + 4 * y2 + 1 * y3 + 4 * y4 + 16 * y5 + 4 * y6 + 1 * y7 + 4 * y8 + 1 * y9)%R). assert (BS : (36 * lo <= s <= 36 * hi)%R) by (unfold s; lra). clearbody s.
  replace ((u1 + 2 * h - u1) * (v1 + 2 * g - v1))%R with (4 * (h * g))%R by ring. assert (P0 : (0 <= h * g)%R) by (apply Rmult_le_pos; assumption).
  split; unfold Rdiv; nra.
Qed.

Definition rect_area (r : UVA R) : R := ((a_u2 r - a_u1 r) * (a_v2 r - a_v1 r))%R.
Definition rect_ok (r : UVA R) : Prop := (0 <= a_u1 r <= a_u2 r)%R /\ (a_u2 r <= 1)%R /\ (0 <= a_v1 r <= a_v2 r)%R /\ (a_v2 r <= 1)%R /\ (lo * rect_area r <= a_area r <= hi * rect_area r)%R.
Lemma make_ok u1 u2 v1 v2 : (0 <= u1 <= u2)%R -> (u2 <= 1)%R -> (0 <= v1 <= v2)%R -> (v2 <= 1)%R ->
  exists r, make_UVA f u1 u2 v1 v2 = Ok r /\ rect_ok r /\ rect_area r = ((u2 - u1) * (v2 - v1))%R.
Proof.
  intros H1 H2 H3 H4. destruct (simpson_between u1 u2 v1 v2 H1 H2 H3 H4) as (x & E & B). unfold make_UVA. rewrite E. cbn [bind]. eexists. split; [reflexivity|].
  split; [|reflexivity]. unfold rect_ok, rect_area. cbn [a_u1 a_u2 a_v1 a_v2 a_area]. tauto.
Qed.

Lemma round_cases r st ar : rect_ok r ->
  (exists x, area_round f (r :: st, ar) = Ok (st, (ar + x)%R) /\ (lo * rect_area r <= x <= hi * rect_area r)%R) \/
  ((1 / 10000 <= (hi - lo) * rect_area r)%R /\ exists r1 r2 r3 r4, area_round f (r :: st, ar) = Ok (r4 :: r3 :: r2 :: r1 :: st, ar) /\ rect_ok r1 /\ rect_ok r2 /\ rect_ok r3 /\ rect_ok r4 /\
    rect_area r1 = (rect_area r / 4)%R /\ rect_area r2 = (rect_area r / 4)%R /\ rect_area r3 = (rect_area r / 4)%R /\ rect_area r4 = (rect_area r / 4)%R).
Proof.
  intros (Hu & Hu2 & Hv & Hv2 & Ha). unfold area_round. num. set (h := (1 / 2 * (a_u2 r - a_u1 r))%R). set (g := (1 / 2 * (a_v2 r - a_v1 r))%R).
  assert (H0 : (0 <= h)%R) by (unfold h; lra). assert (G0 : (0 <= g)%R) by (unfold g; lra).
  assert (EH : a_u2 r = (a_u1 r + 2 * h)%R) by (unfold h; lra). assert (EG : a_v2 r = (a_v1 r + 2 * g)%R) by (unfold g; lra). clearbody h g.
  assert (ER : rect_area r = (4 * (h * g))%R) by (unfold rect_area; rewrite EH, EG; ring).
  destruct (make_ok (a_u1 r) (a_u1 r + h) (a_v1 r) (a_v1 r + g) ltac:(lra) ltac:(lra) ltac:(lra) ltac:(lra)) as (r1 & E1 & O1 & A1).
  destruct (make_ok (a_u1 r + h) (a_u2 r) (a_v1 r) (a_v1 r + g) ltac:(lra) ltac:(lra) ltac:(lra) ltac:(lra)) as (r2 & E2 & O2 & A2).
  destruct (make_ok (a_u1 r) (a_u1 r + h) (a_v1 r + g) (a_v2 r) ltac:(lra) ltac:(lra) ltac:(lra) ltac:(lra)) as (r3 & E3 & O3 & A3).
  destruct (make_ok (a_u1 r + h) (a_u2 r) (a_v1 r + g) (a_v2 r) ltac:(lra) ltac:(lra) ltac:(lra) ltac:(lra)) as (r4 & E4 & O4 & A4).
  rewrite E1. cbn [bind]. rewrite E2. cbn [bind]. rewrite E3. cbn [bind]. rewrite E4. cbn [bind]. rewrite EH in A2, A4. rewrite EG in A3, A4.
  replace ((a_u1 r + h - a_u1 r) * (a_v1 r + g - a_v1 r))%R with (h * g)%R in A1 by ring. replace ((a_u1 r + 2 * h - (a_u1 r + h)) * (a_v1 r + g - a_v1 r))%R with (h * g)%R in A2 by ring.
  replace ((a_u1 r + h - a_u1 r) * (a_v1 r + 2 * g - (a_v1 r + g)))%R with (h * g)%R in A3 by ring. replace ((a_u1 r + 2 * h - (a_u1 r + h)) * (a_v1 r + 2 * g - (a_v1 r + g)))%R with (h * g)%R in A4 by ring.
  pose proof O1 as (_ & _ & _ & _ & B1). pose proof O2 as (_ & _ & _ & _ & B2). pose proof O3 as (_ & _ & _ & _ & B3). pose proof O4 as (_ & _ & _ & _ & B4). rewrite A1 in B1. rewrite A2 in B2. rewrite A3 in B3. rewrite A4 in B4. rewrite ER in *.
  set (x := (a_area r1 + a_area r2 + a_area r3 + a_area r4)%R). assert (BX : (lo * (4 * (h * g)) <= x <= hi * (4 * (h * g)))%R) by (unfold x; lra). 
  destruct (Rltb_spec (Rabs (x - a_area r)) DistanceEpsilon) as [C|C].
  - left. exists x. split; [reflexivity|exact BX].
  - right. split. { unfold DistanceEpsilon in C. num. assert (Rabs (x - a_area r) <= (hi - lo) * (4 * (h * g)))%R by (apply Rabs_le; lra). lra. }
    exists r1, r2, r3, r4. split; [reflexivity|]. do 4 (split; [assumption|]). rewrite A1, A2, A3, A4. repeat split; field.
Qed.

Fixpoint rounds (k : nat) : nat := match k with O => 1%nat | S k => S (rounds k + (rounds k + (rounds k + rounds k)))%nat end.

Lemma drain : forall k r st ar fu, rect_ok r -> ((hi - lo) * rect_area r < 4 ^ k * (1 / 10000))%R -> (rounds k <= fu)%nat ->
  exists x fu', (lo * rect_area r <= x <= hi * rect_area r)%R /\ (fu <= rounds k + fu')%nat /\ area_loop fu f (r :: st, ar) = area_loop fu' f (st, (ar + x)%R).
Proof.
  induction k as [|k IH]; intros r st ar fu HO HB HF; (destruct fu as [|fu]; [cbn [rounds] in HF; lia|]); destruct (round_cases r st ar HO) as [(x & E & Bx)|(HC & r1 & r2 & r3 & r4 & E & O1 & O2 & O3 & O4 & A1 & A2 & A3 & A4)].
  - exists x, fu. split; [exact Bx|]. split; [cbn; lia|]. unfold area_loop at 1. cbn [while_ bind]. rewrite E. reflexivity.
  - exfalso. rewrite pow_O in HB. lra.
  - exists x, fu. split; [exact Bx|]. split; [cbn [rounds]; lia|]. unfold area_loop at 1. cbn [while_ bind]. rewrite E. reflexivity.
  - cbn [pow] in HB. cbn [rounds] in HF |- *.
    destruct (IH r4 (r3 :: r2 :: r1 :: st) ar fu O4 ltac:(rewrite A4; lra) ltac:(lia)) as (x4 & f4 & B4 & F4 & L4).
    destruct (IH r3 (r2 :: r1 :: st) (ar + x4)%R f4 O3 ltac:(rewrite A3; lra) ltac:(lia)) as (x3 & f3 & B3 & F3 & L3).
    destruct (IH r2 (r1 :: st) (ar + x4 + x3)%R f3 O2 ltac:(rewrite A2; lra) ltac:(lia)) as (x2 & f2 & B2 & F2 & L2).
    destruct (IH r1 st (ar + x4 + x3 + x2)%R f2 O1 ltac:(rewrite A1; lra) ltac:(lia)) as (x1 & f1 & B1 & F1 & L1).
    exists (x4 + x3 + x2 + x1)%R, f1. rewrite A1 in B1. rewrite A2 in B2. rewrite A3 in B3. rewrite A4 in B4. split; [lra|]. split; [lia|].
    replace (ar + (x4 + x3 + x2 + x1))%R with (ar + x4 + x3 + x2 + x1)%R by ring. rewrite <- L1, <- L2, <- L3, <- L4. unfold area_loop at 1. cbn [while_ bind]. rewrite E. reflexivity.
Qed.

(* the loop from the unit square ends, and the sum is between the bounds *)
Lemma loop_total : (lo <= hi)%R -> exists fuel0, forall fuel, (fuel0 <= fuel)%nat -> exists init a, make_UVA f 0%R 1%R 0%R 1%R = Ok init /\ area_loop fuel f ([init], 0%R) = Ok ([], a) /\ (lo <= a <= hi)%R.
Proof.
  intros HLH. destruct (make_ok 0%R 1%R 0%R 1%R ltac:(lra) ltac:(lra) ltac:(lra) ltac:(lra)) as (r & E & O & A). replace ((1 - 0) * (1 - 0))%R with 1%R in A by ring.
  destruct (Pow_x_infinity 4 ltac:(rewrite Rabs_pos_eq; lra) ((hi - lo) * 10000 + 1)%R) as (k & Hk). specialize (Hk k (le_n _)). rewrite Rabs_pos_eq in Hk by (apply pow_le; lra).
  exists (rounds k). intros fuel HF. destruct (drain k r [] 0%R fuel O ltac:(rewrite A; lra) HF) as (x & f' & B & _ & L). exists r, x. split; [exact E|]. rewrite A in B. split; [|lra].
  rewrite L. replace (0 + x)%R with x by ring. destruct f'; reflexivity.
Qed.
End Rounds.
