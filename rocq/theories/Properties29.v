(* Property theorems, part 29: weighted least squares with constraints. *)
From Coq Require Import ZArith List Bool Reals Lra Lia.
From Verif Require Import Base Num Vec Tac Spec Spec2 Spec3 Spec4 Spec6 Spec20 M_MathUtils M_XYZ M_Bspline M_NurbsCurve M_Interp M_Fit M_Fit2
  P_MathUtils P_Vec P_Curve P_Fit P_Swung P_ProjNorm2 P_Lsq4 P_Lsq5 P_Lsq6.
Import ListNotations.
Open Scope Z_scope.

(** * C126 *)
(* data with a negative weight are met; among all curves that meet them, the result minimises the weighted sum of the squares of the distances to the targets multiplied by their weights *)
Theorem C126_optimum : forall solve p n Q W D J Wt us U, exact_solver solve -> 1 <= p <= 7 -> p < len Q -> len W = len Q -> len J = len D -> len Wt = len D ->
  (forall j, In j J -> 0 <= j < len Q) -> NoDup J -> GetChordParameterization Q = Ok us -> ComputeKnotVector p (n + 1) us = Ok U -> curve_knots p n U -> clamped_unit p n U ->
  let m := len Q + len D in let data := fit_data us Q W D J Wt in
  0 < number m (fun r => is_counted (data r)) -> number m (fun r => is_held (data r)) <= n -> determined p n U m data -> independent p n U m data ->
  exists cps P v, WeightedLeastSquares solve p Q W D J Wt (n + 1) = Ok (Some (mkCurve p U cps)) /\ len cps = n + 1 /\ len P = n + 1 /\ (forall l, 0 <= l <= n -> pt cps l = hom (pt P l) 1) /\
    shows p n U P m data v /\ holds m data v /\
    forall P' v', len P' = n + 1 -> shows p n U P' m data v' -> holds m data v' ->
      (misfit m data (fun r => times3 (d_weight (data r)) (d_target (data r))) v <= misfit m data (fun r => times3 (d_weight (data r)) (d_target (data r))) v')%R.
Proof. exact Wls_optimum. Qed.
Print Assumptions C126_optimum.

(* weights 1: the result is the best fit to the data themselves *)
Theorem C126_unit_weights : forall solve p n Q W D J Wt us U, exact_solver solve -> 1 <= p <= 7 -> p < len Q -> len W = len Q -> len J = len D -> len Wt = len D ->
  (forall j, In j J -> 0 <= j < len Q) -> NoDup J -> GetChordParameterization Q = Ok us -> ComputeKnotVector p (n + 1) us = Ok U -> curve_knots p n U -> clamped_unit p n U ->
  let m := len Q + len D in let data := fit_data us Q W D J Wt in
  0 < number m (fun r => is_counted (data r)) -> number m (fun r => is_held (data r)) <= n -> determined p n U m data -> independent p n U m data ->
  (forall r, 0 <= r < m -> is_counted (data r) = true -> d_weight (data r) = 1%R) ->
  exists cps P v, WeightedLeastSquares solve p Q W D J Wt (n + 1) = Ok (Some (mkCurve p U cps)) /\ len cps = n + 1 /\ len P = n + 1 /\ (forall l, 0 <= l <= n -> pt cps l = hom (pt P l) 1) /\
    shows p n U P m data v /\ holds m data v /\
    forall P' v', len P' = n + 1 -> shows p n U P' m data v' -> holds m data v' -> (misfit m data (fun r => d_target (data r)) v <= misfit m data (fun r => d_target (data r)) v')%R.
Proof.
  intros solve p n Q W D J Wt us U H1 H2 H3 H4 H5 H6 H7 H8 H9 H10 H11 H12 m data H13 H14 H15 H16 One.
  destruct (Wls_optimum solve p n Q W D J Wt us U H1 H2 H3 H4 H5 H6 H7 H8 H9 H10 H11 H12 H13 H14 H15 H16) as (cps & P & v & A1 & A2 & A3 & A4 & A5 & A6 & A7).
  exists cps, P, v. repeat (split; [assumption|]). intros P' v' B1 B2 B3. specialize (A7 P' v' B1 B2 B3). fold m data in A7.
  assert (E : forall x, misfit m data (fun r => times3 (d_weight (data r)) (d_target (data r))) x = misfit m data (fun r => d_target (data r)) x).
  { intros x. unfold misfit. apply rsum_ext. intros r Hr. destruct (is_counted (data r)) eqn:K; [|reflexivity]. rewrite (One r Hr K). replace (times3 1 (d_target (data r))) with (d_target (data r)); [reflexivity|]. destruct (d_target (data r)). unfold times3. cbn. f_equal; ring. }
  rewrite !E in A7. exact A7.
Qed.
Print Assumptions C126_unit_weights.

(* nothing to approximate, or more data to meet than control points but one: the call reports failure *)
Theorem C126_failure : forall solve p n Q W D J Wt us, 1 <= p -> p < len Q -> len W = len Q -> len J = len D -> len Wt = len D -> (forall j, In j J -> 0 <= j < len Q) ->
  let m := len Q + len D in let data := fit_data us Q W D J Wt in
  number m (fun r => is_counted (data r)) = 0 \/ n < number m (fun r => is_held (data r)) \/ n < 0 -> WeightedLeastSquares solve p Q W D J Wt (n + 1) = Ok None.
Proof. intros solve p n Q W D J Wt us H1 H2 H3 H4 H5 H6 m data H. exact (Wls_none solve p n us Q D W Wt J H1 H2 H3 H4 H5 H6 H). Qed.
Print Assumptions C126_failure.

Lemma two_counted (a b : XYZ R) wa wb : (1 / 1000 <= wa)%R -> (1 / 1000 <= wb)%R -> forall r, 0 <= r < 2 ->
  is_counted (fit_data [0; 1]%R [a; b] [wa; wb] [] [] [] r) = true /\ is_held (fit_data [0; 1]%R [a; b] [wa; wb] [] [] [] r) = false.
Proof.
  intros Ha Hb r Hr. pose proof (pos_tol wa Ha). pose proof (pos_tol wb Hb). pose proof (tol_pos wa 0). pose proof (tol_pos wb 0). assert (r = 0 \/ r = 1) as [-> | ->] by lia; unfold is_counted, is_held.
  - change (d_weight (fit_data [0; 1]%R [a; b] [wa; wb] [] [] [] 0)) with wa. destruct (Rlt_dec (tol wa 0) wa); [|lra]. destruct (Rlt_dec (tol wa 0) (- wa)); [lra|]. split; reflexivity.
  - change (d_weight (fit_data [0; 1]%R [a; b] [wa; wb] [] [] [] 1)) with wb. destruct (Rlt_dec (tol wb 0) wb); [|lra]. destruct (Rlt_dec (tol wb 0) (- wb)); [lra|]. split; reflexivity.
Qed.
Lemma two_ends (a b : XYZ R) wa wb P v : shows 1 1 (bezier_knots 1) P 2 (fit_data [0; 1]%R [a; b] [wa; wb] [] [] []) v -> v 0 = pt P 0 /\ v 1 = pt P 1.
Proof.
  intros Sv. destruct (seg_shows P 2 _ v 0 Sv ltac:(lia)) as (E0 & _). destruct (seg_shows P 2 _ v 1 Sv ltac:(lia)) as (E1 & _).
  rewrite E0, E1 by reflexivity. change (d_par (fit_data [0; 1]%R [a; b] [wa; wb] [] [] [] 0)) with 0%R. change (d_par (fit_data [0; 1]%R [a; b] [wa; wb] [] [] [] 1)) with 1%R. split; [apply seg_at0|apply seg_at1].
Qed.
Lemma two_par (a b : XYZ R) wa wb : forall r, 0 <= r < 2 -> (0 <= d_par (fit_data [0; 1] [a; b] [wa; wb] [] [] [] r) <= 1)%R /\ 0 <= d_ord (fit_data [0; 1]%R [a; b] [wa; wb] [] [] [] r) <= 1.
Proof. intros r Hr. assert (r = 0 \/ r = 1) as [-> | ->] by lia; (split; [|cbn; lia]); [change (0 <= 0 <= 1)%R|change (0 <= 1 <= 1)%R]; lra. Qed.

Lemma dot_zero (x : XYZ R) : dot3 x x = 0%R -> x = zero3.
Proof. destruct x as [x y z]. unfold dot3, zero3. cbn. intros H. f_equal; nra. Qed.

(* two points, degree 1: the ends of the curve are the points multiplied by their weights, although the line through the points fits exactly *)
Theorem C126_weights_refuted : forall solve (a b : XYZ R) wa wb, exact_solver solve -> (1 / 1000 <= wa)%R -> (1 / 1000 <= wb)%R ->
  WeightedLeastSquares solve 1 [a; b] [wa; wb] [] [] [] 2 = Ok (Some (mkCurve 1 (bezier_knots 1) [hom (times3 wa a) 1; hom (times3 wb b) 1])).
Proof.
  intros solve a b wa wb Hs Ha Hb. set (data := fit_data [0; 1]%R [a; b] [wa; wb] [] [] []).
  pose proof (two_counted a b wa wb Ha Hb) as C. fold data in C.
  assert (Ec : number 2 (fun r => is_counted (data r)) = 2). { unfold number. change (map Z.of_nat (seq 0 (Z.to_nat 2))) with [0; 1]. cbn [filter]. rewrite (proj1 (C 0 ltac:(lia))), (proj1 (C 1 ltac:(lia))). reflexivity. }
  assert (Eh : number 2 (fun r => is_held (data r)) = 0). { unfold number. change (map Z.of_nat (seq 0 (Z.to_nat 2))) with [0; 1]. cbn [filter]. rewrite (proj2 (C 0 ltac:(lia))), (proj2 (C 1 ltac:(lia))). reflexivity. }
  destruct (C126_optimum solve 1 1 [a; b] [wa; wb] [] [] [] [0; 1]%R (bezier_knots 1)) as (cps & P & v & E & Lc & LP & Hc & Sv & _ & Opt); try reflexivity; try assumption; try (change (len [a; b]) with 2; lia).
  - intros j [].
  - constructor.
  - exact knots2.
  - apply bar_knots.
  - exact bez1_clamped.
  - change (len [a; b] + len (@nil (XYZ R))) with 2. fold data. lia.
  - change (len [a; b] + len (@nil (XYZ R))) with 2. fold data. lia.
  - intros P v LP Sv Hz l Hl. change (len [a; b] + len (@nil (XYZ R))) with 2 in *. destruct (two_ends a b wa wb P v Sv) as (E0 & E1). assert (l = 0 \/ l = 1) as [-> | ->] by lia; [rewrite <- E0|rewrite <- E1]; apply Hz; try lia; left; apply C; lia.
  - intros f. change (len [a; b] + len (@nil (XYZ R))) with 2. destruct (seg_has [zero3; zero3] 2 data (two_par a b wa wb)) as (v & Sv). exists [zero3; zero3], v. split; [reflexivity|]. split; [exact Sv|]. intros r Hr K. fold data in K. rewrite (proj2 (C r Hr)) in K. discriminate.
  - change (len [a; b] + len (@nil (XYZ R))) with 2 in *. fold data in Sv, Opt. change (1 + 1) with 2 in *. rewrite E. do 3 f_equal.
    set (P' := [times3 wa a; times3 wb b]). destruct (seg_has P' 2 data (two_par a b wa wb)) as (v' & Sv'). destruct (two_ends a b wa wb P v Sv) as (E0 & E1). destruct (two_ends a b wa wb P' v' Sv') as (F0 & F1).
    specialize (Opt P' v' eq_refl Sv' ltac:(intros r Hr K; rewrite (proj2 (C r Hr)) in K; discriminate)).
    assert (M : forall x, misfit 2 data (fun r => times3 (d_weight (data r)) (d_target (data r))) x = (wa * dot3 (minus3 (x 0%Z) (times3 wa a)) (minus3 (x 0%Z) (times3 wa a)) + wb * dot3 (minus3 (x 1%Z) (times3 wb b)) (minus3 (x 1%Z) (times3 wb b)))%R).
    { intros x. unfold misfit. rewrite P_Make.rsum_2. rewrite (proj1 (C 0 ltac:(lia))), (proj1 (C 1 ltac:(lia))). reflexivity. }
    rewrite !M, E0, E1, F0, F1 in Opt. change (pt P' 0) with (times3 wa a) in Opt. change (pt P' 1) with (times3 wb b) in Opt.
    assert (Z0 : forall x, dot3 (minus3 x x) (minus3 x x) = 0%R) by (intros x; unfold dot3, minus3; cbn; ring). rewrite !Z0 in Opt.
    assert (N0 : forall x, (0 <= dot3 x x)%R) by (intros x; unfold dot3; nra).
    assert (Q0 : dot3 (minus3 (pt P 0) (times3 wa a)) (minus3 (pt P 0) (times3 wa a)) = 0%R /\ dot3 (minus3 (pt P 1) (times3 wb b)) (minus3 (pt P 1) (times3 wb b)) = 0%R).
    { pose proof (N0 (minus3 (pt P 0) (times3 wa a))). pose proof (N0 (minus3 (pt P 1) (times3 wb b))). split; nra. }
    assert (D0 : forall x y, dot3 (minus3 x y) (minus3 x y) = 0%R -> x = y). { intros x y H. apply dot_zero in H. destruct x, y. unfold minus3, zero3 in H. cbn in H. injection H as X1 X2 X3. f_equal; lra. }
    destruct Q0 as (Q1 & Q2). apply D0 in Q1, Q2. destruct cps as [|c0 [|c1 [|]]]; try (unfold len in Lc; cbn [length] in Lc; lia).
    pose proof (Hc 0 ltac:(lia)) as G0. pose proof (Hc 1 ltac:(lia)) as G1. change (c0 = hom (pt P 0) 1) in G0. change (c1 = hom (pt P 1) 1) in G1. rewrite G0, G1, Q1, Q2. reflexivity.
Qed.
Print Assumptions C126_weights_refuted.

(* points to approximate and a tangent to meet: there is a result, and it has the tangent asked for *)
Example C126_ex : forall (a b d : XYZ R), exact_solver gauss_solver /\ exists cps P, WeightedLeastSquares gauss_solver 1 [a; b] [1; 1]%R [d] [0] [-1]%R 2 = Ok (Some (mkCurve 1 (bezier_knots 1) cps)) /\
  pt cps 0 = hom (pt P 0) 1 /\ pt cps 1 = hom (pt P 1) 1 /\ minus3 (pt P 1) (pt P 0) = d.
Proof.
  intros a b d. split; [exact gauss_exact|]. set (data := fit_data [0; 1]%R [a; b] [1; 1]%R [d] [0] [-1]%R).
  assert (T1 : (tol 1 0 < 1)%R) by (apply pos_tol; lra). assert (T2 : (tol (-1) 0 < 1)%R) by (unfold tol; rewrite Rabs_R0, (Rabs_left (-1)), Rmax_left by lra; lra). assert (T3 : (0 < tol (-1) 0)%R) by apply tol_pos. pose proof (tol_pos 1 0) as T4.
  assert (C0 : is_counted (data 0) = true /\ is_held (data 0) = false). { unfold is_counted, is_held. change (d_weight (data 0)) with 1%R. destruct (Rlt_dec (tol 1 0) 1); [|lra]. destruct (Rlt_dec (tol 1 0) (- (1))); [lra|]. split; reflexivity. }
  assert (C1 : is_counted (data 1) = true /\ is_held (data 1) = false). { unfold is_counted, is_held. change (d_weight (data 1)) with 1%R. destruct (Rlt_dec (tol 1 0) 1); [|lra]. destruct (Rlt_dec (tol 1 0) (- (1))); [lra|]. split; reflexivity. }
  assert (C2 : is_counted (data 2) = false /\ is_held (data 2) = true). { unfold is_counted, is_held. change (d_weight (data 2)) with (-1)%R. destruct (Rlt_dec (tol (-1) 0) (-1)); [lra|]. destruct (Rlt_dec (tol (-1) 0) (- (-1))); [|lra]. split; reflexivity. }
  assert (Ec : number 3 (fun r => is_counted (data r)) = 2). { unfold number. change (map Z.of_nat (seq 0 (Z.to_nat 3))) with [0; 1; 2]. cbn [filter]. rewrite (proj1 C0), (proj1 C1), (proj1 C2). reflexivity. }
  assert (Eh : number 3 (fun r => is_held (data r)) = 1). { unfold number. change (map Z.of_nat (seq 0 (Z.to_nat 3))) with [0; 1; 2]. cbn [filter]. rewrite (proj2 C0), (proj2 C1), (proj2 C2). reflexivity. }
  assert (Pr : forall r, 0 <= r < 3 -> (0 <= d_par (data r) <= 1)%R /\ 0 <= d_ord (data r) <= 1). { intros r Hr. assert (r = 0 \/ r = 1 \/ r = 2) as [-> | [-> | ->]] by lia; (split; [|cbn; lia]); [change (0 <= 0 <= 1)%R|change (0 <= 1 <= 1)%R|change (0 <= 0 <= 1)%R]; lra. }
  assert (Sh : forall P v, shows 1 1 (bezier_knots 1) P 3 data v -> v 0 = pt P 0 /\ v 1 = pt P 1 /\ v 2 = minus3 (pt P 1) (pt P 0)).
  { intros P v Sv. destruct (seg_shows P 3 _ v 0 Sv ltac:(lia)) as (E0 & _). destruct (seg_shows P 3 _ v 1 Sv ltac:(lia)) as (E1 & _). destruct (seg_shows P 3 _ v 2 Sv ltac:(lia)) as (_ & E2).
    rewrite E0, E1, E2 by reflexivity. change (d_par (data 0)) with 0%R. change (d_par (data 1)) with 1%R. split; [apply seg_at0|]. split; [apply seg_at1|reflexivity]. }
  destruct (C126_unit_weights gauss_solver 1 1 [a; b] [1; 1]%R [d] [0] [-1]%R [0; 1]%R (bezier_knots 1)) as (cps & P & v & E & Lc & LP & Hc & Sv & Hv & _); try reflexivity; try (change (len [a; b]) with 2; lia).
  - exact gauss_exact.
  - intros j [<- | []]. change (len [a; b]) with 2. lia.
  - repeat constructor. intros [].
  - exact knots2.
  - apply bar_knots.
  - exact bez1_clamped.
  - change (len [a; b] + len [d]) with 3. fold data. lia.
  - change (len [a; b] + len [d]) with 3. fold data. lia.
  - intros P v LP Sv Hz l Hl. change (len [a; b] + len [d]) with 3 in *. fold data in Sv, Hz. destruct (Sh P v Sv) as (E0 & E1 & _). assert (l = 0 \/ l = 1) as [-> | ->] by lia; [rewrite <- E0|rewrite <- E1]; apply Hz; try lia; left; [apply C0|apply C1].
  - intros f. change (len [a; b] + len [d]) with 3. destruct (seg_has [zero3; f 2] 3 data Pr) as (v & Sv). exists [zero3; f 2], v. split; [reflexivity|]. split; [exact Sv|]. destruct (Sh _ _ Sv) as (_ & _ & E2). intros r Hr K. fold data in K.
    assert (r = 0 \/ r = 1 \/ r = 2) as [-> | [-> | ->]] by lia; [rewrite (proj2 C0) in K; discriminate|rewrite (proj2 C1) in K; discriminate|]. rewrite E2. change (pt [zero3; f 2] 1) with (f 2). change (pt [zero3; f 2] 0) with zero3. destruct (f 2). unfold minus3, zero3. cbn. f_equal; ring.
  - intros r Hr K. change (len [a; b] + len [d]) with 3 in *. fold data in K |- *. assert (r = 0 \/ r = 1 \/ r = 2) as [-> | [-> | ->]] by lia; [reflexivity|reflexivity|]. rewrite (proj1 C2) in K. discriminate.
  - change (len [a; b] + len [d]) with 3 in *. fold data in Sv, Hv. exists cps, P. split; [exact E|]. split; [apply Hc; lia|]. split; [apply Hc; lia|]. destruct (Sh P v Sv) as (_ & _ & <-). apply (Hv 2 ltac:(lia)). apply C2.
Qed.
Example C126_failure_ex : WeightedLeastSquares gauss_solver 1 [mkXYZ 0 0 0; mkXYZ 1 0 0]%R [0; 0]%R [] [] [] 2 = Ok None.
Proof.
  apply (C126_failure gauss_solver 1 1 _ _ _ _ _ [0; 1]%R); try reflexivity; try lia; [intros j []|]. left. unfold number. change (map Z.of_nat (seq 0 (Z.to_nat _))) with [0; 1]. cbn [filter].
  assert (T : forall w, w = 0%R -> (if Rlt_dec (tol w 0) w then true else false) = false) by (intros w ->; pose proof (tol_pos 0 0); destruct (Rlt_dec (tol 0 0) 0); [lra|reflexivity]). unfold is_counted. rewrite !T by reflexivity. reflexivity.
Qed.
