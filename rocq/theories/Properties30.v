(* Property theorems, part 30: least squares approximation between fixed ends. *)
From Coq Require Import ZArith List Bool Reals Lra Lia.
From Verif Require Import Base Num Vec Tac Spec Spec2 Spec3 Spec4 Spec6 Spec21 M_MathUtils M_Polynomials M_XYZ M_Bspline M_NurbsCurve M_Interp M_Fit M_Fit3
  P_MathUtils P_Span P_Cox P_Vec P_VSum P_Curve P_Basis P_OneBasis P_Fit P_Interp2 P_Interp P_Ls3.
Import ListNotations.
Open Scope Z_scope.

(** * C127 *)
(* the curve starts and ends in the first and the last point, and no curve of that kind on the same knots is closer to the other points *)
Theorem C127_optimum : forall lu p n Q us U, exact_lu lu -> 1 <= p <= 7 -> 2 <= n -> n - p + 1 <= len Q -> 2 <= len Q ->
  GetChordParameterization Q = Ok us -> ComputeKnotVector p (n + 1) us = Ok U -> curve_knots p n U ->
  (forall k, 0 < k < len Q - 1 -> (val us k < 1)%R /\ knots_apart U (val us k) /\ values_apart U 1 p 0 (val us k) /\ values_apart U 1 p n (val us k)) ->
  inner_determined p n U us (len Q - 1) ->
  exists cps P, LeastSquaresApproximation lu p Q (n + 1) = Ok (Some (mkCurve p U cps)) /\ len cps = n + 1 /\ len P = n + 1 /\ (forall l, 0 <= l <= n -> pt cps l = hom (pt P l) 1) /\
    pt P 0 = pt Q 0 /\ pt P n = pt Q (len Q - 1) /\
    forall P', len P' = n + 1 -> pt P' 0 = pt Q 0 -> pt P' n = pt Q (len Q - 1) -> (inner_error p n U P us Q <= inner_error p n U P' us Q)%R.
Proof. exact Ls_optimum. Qed.
Print Assumptions C127_optimum.

(* all inner parameters lie after the support of the second basis function: the call reports failure *)
Theorem C127_failure : forall lu p n Q us U, 1 <= p <= 7 -> 2 <= n -> n - p + 1 <= len Q -> 3 <= len Q ->
  GetChordParameterization Q = Ok us -> ComputeKnotVector p (n + 1) us = Ok U -> curve_knots p n U ->
  p + 2 <= n -> (forall k, 0 < k < len Q - 1 -> (val U (p + 2)%Z <= val us k)%R) ->
  LeastSquaresApproximation lu p Q (n + 1) = Ok None.
Proof. exact Ls_failure. Qed.
Print Assumptions C127_failure.

(* two control points are accepted, and a write to an empty vector follows *)
Theorem C127_two_refuted : forall lu Q, 2 <= len Q -> LeastSquaresApproximation lu 1 Q 2 = UB.
Proof. exact Ls_two. Qed.
Print Assumptions C127_two_refuted.

(* so is a number of control points that exceeds the sum of the number of points and the degree, and a parameter before the first is read *)
Theorem C127_many_refuted : forall lu p n (Q : list (XYZ R)), 0 <= p <= 7 -> 2 <= len Q -> len Q < n - p + 1 -> LeastSquaresApproximation lu p Q (n + 1) = UB.
Proof. exact Ls_many. Qed.
Print Assumptions C127_many_refuted.

(* elimination as a decomposition *)
Definition gauss_lu (A B : list (list R)) : res (option (list (list R))) := let! X := gauss_solver A B in Ok (Some X).
Lemma gauss_lu_exact : exact_lu gauss_lu.
Proof. intros m k A B fA fB Hm Hk HA HB Hr. destruct (gauss_exact m k A B fA fB Hm Hk HA HB Hr) as (X & E & fX & HX & HS). exists X, fX. unfold gauss_lu. rewrite E. split; [reflexivity|]. split; assumption. Qed.

Lemma rsum_few f : rsum 1 2 f = f 1 /\ rsum 1 3 f = (f 1%Z + f 2%Z)%R /\ rsum 1 4 f = (f 1%Z + f 2%Z + f 3%Z)%R /\ rsum 0 3 f = (f 0%Z + f 1%Z + f 2%Z)%R.
Proof.
  assert (A : rsum 1 2 f = f 1). { change 2 with (1 + 1) at 1. rewrite rsum_last, rsum_nil by lia. ring. }
  assert (B : rsum 1 3 f = (f 1%Z + f 2%Z)%R). { change 3 with (2 + 1) at 1. rewrite rsum_last, A by lia. ring. }
  split; [exact A|]. split; [exact B|]. split.
  - change 4 with (3 + 1) at 1. rewrite rsum_last, B by lia. ring.
  - rewrite (rsum_split 0 1 3), B by lia. change 1 with (0 + 1) at 1. rewrite rsum_last, rsum_nil by lia. ring.
Qed.
Lemma chord4 (a b c d : XYZ R) d1 d2 d3 : dist3 b a = d1 -> dist3 c b = d2 -> dist3 d c = d3 -> (1 <= d1 + d2 + d3)%R ->
  GetChordParameterization [a; b; c; d] = Ok [0; d1 / (d1 + d2 + d3); (d1 + d2) / (d1 + d2 + d3); 1]%R.
Proof.
  intros E1 E2 E3 HT. destruct (Chord_returns [a; b; c; d] ltac:(change (len [a; b; c; d]) with 4; lia)) as (u & -> & Lu & U0 & U1 & _ & _ & G). change (len [a; b; c; d]) with 4 in *. change (4 - 1) with 3 in *.
  assert (C1 : chord_length (pt [a; b; c; d]) 1 = d1). { unfold chord_length. change (1 + 1) with 2. rewrite (proj1 (rsum_few _)). exact E1. }
  assert (C2 : chord_length (pt [a; b; c; d]) 2 = (d1 + d2)%R). { unfold chord_length. change (2 + 1) with 3. rewrite (proj1 (proj2 (rsum_few _))). change (dist3 b a + dist3 c b = d1 + d2)%R. lra. }
  assert (C3 : chord_length (pt [a; b; c; d]) 3 = (d1 + d2 + d3)%R). { unfold chord_length. change (3 + 1) with 4. rewrite (proj1 (proj2 (proj2 (rsum_few _)))). change (dist3 b a + dist3 c b + dist3 d c = d1 + d2 + d3)%R. lra. }
  assert (NS : ~ small (chord_length (pt [a; b; c; d]) 3)). { rewrite C3. unfold small. rewrite Rabs_pos_eq by lra. lra. } specialize (G NS).
  pose proof (G 1 ltac:(lia)) as G1. pose proof (G 2 ltac:(lia)) as G2. rewrite C1, C3 in G1. rewrite C2, C3 in G2.
  destruct u as [|u0 [|u1 [|u2 [|u3 [|]]]]]; try (unfold len in Lu; cbn [length] in Lu; lia). change (u0 = 0%R) in U0. change (u3 = 1%R) in U1. change (u1 = d1 / (d1 + d2 + d3))%R in G1. change (u2 = (d1 + d2) / (d1 + d2 + d3))%R in G2. subst. reflexivity.
Qed.
Lemma step_one (a b : XYZ R) : dot3 (minus3 a b) (minus3 a b) = 1%R -> dist3 a b = 1%R.
Proof. intros H. unfold dist3, norm3. rewrite H. apply sqrt_1. Qed.

Definition Qx : list (XYZ R) := [mkXYZ 0 0 0; mkXYZ 1 0 0; mkXYZ 1 1 0; mkXYZ 2 1 0]%R.
Definition usx : list R := [0; 1 / (1 + 1 + 1); (1 + 1) / (1 + 1 + 1); 1]%R.
Definition Ux : list R := [0; 0; 1 / 3; 1; 1]%R.
Lemma Qx_chord : GetChordParameterization Qx = Ok usx.
Proof. apply chord4; try (apply step_one; unfold dot3, minus3; cbn; ring). lra. Qed.
Lemma usx_sorted : sorted usx.
Proof. unfold usx. sorted_tac. Qed.
Lemma Qx_knots : ComputeKnotVector 1 3 usx = Ok Ux.
Proof.
  destruct (Fit_returns 1 2 usx ltac:(lia) ltac:(lia)) as (U & E & (LU & _ & C0 & C1) & G); try (change (len usx) with 4; lia).
  - exact usx_sorted.
  - change (0 <= 0)%R. lra.
  - change (1 <= 1)%R. lra.
  - change (2 + 1) with 3 in E. rewrite E. f_equal. destruct (G 1 ltac:(lia)) as (i & a & Ha & Ei & Hi & Ev). change (len usx) with 4 in *. change (2 - 1 + 1) with 2 in Ei.
    assert (i = 2) as -> by (assert (A1 : (IZR i < IZR 3)%R) by lra; assert (A2 : (IZR 1 < IZR i)%R) by lra; apply lt_IZR in A1, A2; lia). assert (a = 0)%R as -> by lra.
    change (val usx (2 - 1)) with (1 / (1 + 1 + 1))%R in Ev. change (val usx 2) with ((1 + 1) / (1 + 1 + 1))%R in Ev. change (2 + 2) with 4 in *.
    destruct U as [|u0 [|u1 [|u2 [|u3 [|u4 [|]]]]]]; try (unfold len in LU; cbn [length] in LU; lia).
    pose proof (C0 0 ltac:(lia)) as A0. pose proof (C0 1 ltac:(lia)) as A1. pose proof (C1 3 ltac:(lia)) as A3. pose proof (C1 4 ltac:(lia)) as A4. change (u0 = 0%R) in A0. change (u1 = 0%R) in A1. change (u3 = 1%R) in A3. change (u4 = 1%R) in A4. change (1 + 1)%Z with 2 in Ev. change (u2 = (1 - 0) * (1 / (1 + 1 + 1)) + 0 * ((1 + 1) / (1 + 1 + 1)))%R in Ev.
    subst. unfold Ux. repeat (f_equal; try lra).
Qed.
Lemma Ux_val : val Ux 0 = 0%R /\ val Ux 1 = 0%R /\ val Ux 2 = (1 / 3)%R /\ val Ux 3 = 1%R /\ val Ux 4 = 1%R.
Proof. repeat split; reflexivity. Qed.
Lemma Ux_ok : curve_knots 1 2 Ux.
Proof.
  assert (T : forall a b, (0 <= a <= 1 -> 0 <= b <= 1 -> tol a b <= 2 / 1000000)%R). { intros a b Ha Hb. pose proof (tol_le a b 1 ltac:(rewrite Rabs_pos_eq; lra) ltac:(rewrite Rabs_pos_eq; lra)). lra. }
  destruct Ux_val as (V0 & V1 & V2 & V3 & V4). constructor; try lia; try reflexivity.
  - unfold Ux. sorted_tac.
  - change (1 + 1) with 2. rewrite V1, V2. pose proof (T 0 (1 / 3) ltac:(lra) ltac:(lra))%R. lra.
  - change (2 + 1) with 3. rewrite V2, V3. pose proof (T (1 / 3) 1 ltac:(lra) ltac:(lra))%R. lra.
Qed.
Lemma N_zero_apart U b p i t : (t < b)%R -> p = 1 -> values_apart U b p i t.
Proof.
  intros Ht -> q j Hq Hj. assert (q = 0) as -> by lia. cbv zeta. change (N (val U) b (Z.to_nat 0) j t) with (NB (val U) b 0 j t). rewrite NB_0 by exact Ht.
  assert (T : (tol 1 0 < Rabs 1)%R) by (unfold tol; rewrite Rabs_R0, Rabs_R1, Rmax_left by lra; lra). destruct (Rle_dec _ _); [destruct (Rlt_dec _ _)|]; [right; exact T|left; reflexivity|left; reflexivity].
Qed.
Lemma Ux_apart t : t = (1 / 3)%R \/ t = (2 / 3)%R -> knots_apart Ux t.
Proof.
  intros Ht i Hi. change (len Ux) with 5 in Hi.
  assert (W : forall u, (0 <= u <= 1)%R -> (t = u \/ 1 / 100 < Rabs (t - u))%R -> (t = u \/ tol t u < Rabs (t - u))%R).
  { intros u Hu [->|H]; [left; reflexivity|right]. pose proof (tol_le t u 1 ltac:(rewrite Rabs_pos_eq; lra) ltac:(rewrite Rabs_pos_eq; lra)). lra. }
  destruct Ux_val as (V0 & V1 & V2 & V3 & V4). assert (i = 0 \/ i = 1 \/ i = 2 \/ i = 3 \/ i = 4) as [->|[->|[->|[->| ->]]]] by lia; rewrite ?V0, ?V1, ?V2, ?V3, ?V4; apply W; try lra; unfold Rabs; destruct (Rcase_abs _); lra.
Qed.

(* four points, three control points, lines: there is a result *)
Example C127_ex : exists cps P, LeastSquaresApproximation gauss_lu 1 Qx 3 = Ok (Some (mkCurve 1 Ux cps)) /\ len cps = 3 /\ pt cps 1 = hom (pt P 1) 1 /\
  pt P 0 = (mkXYZ 0 0 0)%R /\ pt P 2 = (mkXYZ 2 1 0)%R /\ forall P', len P' = 3 -> pt P' 0 = (mkXYZ 0 0 0)%R -> pt P' 2 = (mkXYZ 2 1 0)%R -> (inner_error 1 2 Ux P usx Qx <= inner_error 1 2 Ux P' usx Qx)%R.
Proof.
  destruct (C127_optimum gauss_lu 1 2 Qx usx Ux) as (cps & P & E & Lc & LP & Hc & P0 & Pn & Opt); try (change (len Qx) with 4; lia); try lia.
  - exact gauss_lu_exact.
  - exact Qx_chord.
  - exact Qx_knots.
  - exact Ux_ok.
  - change (len Qx - 1) with 3. intros k Hk. assert (K : val usx k = (1 / 3)%R \/ val usx k = (2 / 3)%R). { assert (k = 1 \/ k = 2) as [-> | ->] by lia; [left; change (1 / (1 + 1 + 1) = 1 / 3)%R|right; change ((1 + 1) / (1 + 1 + 1) = 2 / 3)%R]; field. }
    assert (L : (val usx k < 1)%R) by (destruct K as [-> | ->]; lra). split; [exact L|]. split; [apply Ux_apart, K|]. split; apply N_zero_apart; try exact L; reflexivity.
  - intros P LP P0 Pn Hz l Hl. assert (l = 0 \/ l = 1 \/ l = 2) as [->|[->| ->]] by lia; [exact P0| |exact Pn]. specialize (Hz 1 ltac:(change (len Qx - 1) with 3; lia)). apply co_ext. intros c. apply (f_equal (co c)) in Hz. unfold curve_point in Hz. rewrite co_comb in Hz. change (2 + 1) with 3 in Hz. rewrite (proj2 (proj2 (proj2 (rsum_few _)))) in Hz.
    rewrite P0, Pn in Hz. assert (ZZ : co c zero3 = 0%R) by (destruct c as [|[|c]]; reflexivity). rewrite ZZ in Hz |- *.
    assert (E : N (val Ux) (val Ux 3) (Z.to_nat 1) 1 (val usx 1) = 1%R).
    { destruct Ux_val as (V0 & V1 & V2 & V3 & V4). rewrite V3. change (val usx 1) with (1 / (1 + 1 + 1))%R. replace (1 / (1 + 1 + 1))%R with (1 / 3)%R by field. change (NB (val Ux) 1 1 1 (1 / 3) = 1%R). rewrite NB_succ by lia. change (1 - 1) with 0. rewrite !NB_0 by lra. change (1 + 1) with 2. change (1 + 1 + 1) with 3. change (2 + 1) with 3. rewrite V1, V2, V3.
      destruct (Rle_dec 0 (1 / 3)); [|lra]. destruct (Rlt_dec (1 / 3) (1 / 3)); [lra|]. destruct (Rle_dec (1 / 3) (1 / 3)); [|lra]. destruct (Rlt_dec (1 / 3) 1); [|lra]. rewrite (sdiv_ok (1 - 1 / 3)) by lra. field. }
    rewrite E in Hz. lra.
  - change (len Qx - 1) with 3 in *. change (2 + 1) with 3 in *. exists cps, P. split; [exact E|]. split; [exact Lc|]. split; [apply Hc; lia|]. split; [exact P0|]. split; [exact Pn|]. exact Opt.
Qed.

Definition Qy : list (XYZ R) := [mkXYZ 0 0 0; mkXYZ 1 0 0; mkXYZ 1 0 0; mkXYZ 1 1 0]%R.
Definition usy : list R := [0; 1 / (1 + 0 + 1); (1 + 0) / (1 + 0 + 1); 1]%R.
Definition Uy : list R := [0; 0; 1 / 6; 1 / 2; 1; 1]%R.
Lemma Qy_chord : GetChordParameterization Qy = Ok usy.
Proof. apply chord4; try (apply step_one; unfold dot3, minus3; cbn; ring); [|lra]. unfold dist3, norm3. replace (dot3 _ _) with 0%R by (unfold dot3, minus3; cbn; ring). apply sqrt_0. Qed.
Lemma Qy_knots : ComputeKnotVector 1 4 usy = Ok Uy.
Proof.
  destruct (Fit_returns 1 3 usy ltac:(lia) ltac:(lia)) as (U & E & (LU & _ & C0 & C1) & G); try (change (len usy) with 4; lia).
  - unfold usy. sorted_tac.
  - change (0 <= 0)%R. lra.
  - change (1 <= 1)%R. lra.
  - change (3 + 1) with 4 in *. rewrite E. f_equal. destruct (G 1 ltac:(lia)) as (i & a & Ha & Ei & Hi & Ev). destruct (G 2 ltac:(lia)) as (i' & a' & Ha' & Ei' & Hi' & Ev'). change (len usy) with 4 in *. change (3 - 1 + 1) with 3 in Ei, Ei'.
    assert (i = 1) as -> by (assert (A1 : (IZR i < IZR 2)%R) by lra; assert (A2 : (IZR 0 < IZR i)%R) by lra; apply lt_IZR in A1, A2; lia). assert (a = 1 / 3)%R as -> by lra.
    assert (i' = 2) as -> by (assert (A1 : (IZR i' < IZR 3)%R) by lra; assert (A2 : (IZR 1 < IZR i')%R) by lra; apply lt_IZR in A1, A2; lia). assert (a' = 2 / 3)%R as -> by lra.
    change (val usy (1 - 1)) with 0%R in Ev. change (val usy 1) with (1 / (1 + 0 + 1))%R in Ev. change (val usy (2 - 1)) with (1 / (1 + 0 + 1))%R in Ev'. change (val usy 2) with ((1 + 0) / (1 + 0 + 1))%R in Ev'. change (4 + 1) with 5 in *.
    destruct U as [|u0 [|u1 [|u2 [|u3 [|u4 [|u5 [|]]]]]]]; try (unfold len in LU; cbn [length] in LU; lia).
    pose proof (C0 0 ltac:(lia)) as A0. pose proof (C0 1 ltac:(lia)) as A1. pose proof (C1 4 ltac:(lia)) as A4. pose proof (C1 5 ltac:(lia)) as A5. change (u0 = 0%R) in A0. change (u1 = 0%R) in A1. change (u4 = 1%R) in A4. change (u5 = 1%R) in A5.
    change (val [u0; u1; u2; u3; u4; u5] (1 + 1)) with u2 in Ev. change (val [u0; u1; u2; u3; u4; u5] (1 + 2)) with u3 in Ev'. subst. unfold Uy. repeat (f_equal; try lra).
Qed.
(* the second and the third point agree, four control points: failure is reported *)
Example C127_failure_ex : LeastSquaresApproximation gauss_lu 1 Qy 4 = Ok None.
Proof.
  apply (C127_failure gauss_lu 1 3 Qy usy Uy); try (change (len Qy) with 4; lia); try lia.
  - exact Qy_chord.
  - exact Qy_knots.
  - assert (T : forall a b, (0 <= a <= 1 -> 0 <= b <= 1 -> tol a b <= 2 / 1000000)%R). { intros a b Ha Hb. pose proof (tol_le a b 1 ltac:(rewrite Rabs_pos_eq; lra) ltac:(rewrite Rabs_pos_eq; lra)). lra. }
    constructor; try lia; try reflexivity.
    + unfold Uy. sorted_tac.
    + change (0 + tol 0 (1 / 6) < 1 / 6)%R. pose proof (T 0 (1 / 6) ltac:(lra) ltac:(lra))%R. lra.
    + change (1 / 2 + tol (1 / 2) 1 < 1)%R. pose proof (T (1 / 2) 1 ltac:(lra) ltac:(lra))%R. lra.
  - change (len Qy - 1) with 3. intros k Hk. change (val Uy (1 + 2)) with (1 / 2)%R. assert (k = 1 \/ k = 2) as [-> | ->] by lia; [change (1 / 2 <= 1 / (1 + 0 + 1))%R|change (1 / 2 <= (1 + 0) / (1 + 0 + 1))%R]; lra.
Qed.
Example C127_two_ex : LeastSquaresApproximation gauss_lu 1 Qx 2 = UB.
Proof. apply C127_two_refuted. change (len Qx) with 4. lia. Qed.
Example C127_many_ex : LeastSquaresApproximation gauss_lu 1 Qx 6 = UB.
Proof. apply (C127_many_refuted gauss_lu 1 5); try (change (len Qx) with 4; lia); lia. Qed.
