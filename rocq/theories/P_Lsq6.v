(* Least squares with weights and constraints: lines through two points. *)
From Coq Require Import ZArith List Bool Reals Lra Lia.
From Verif Require Import Base Num Vec Tac Spec Spec2 Spec3 Spec4 Spec6 Spec20 M_MathUtils M_Polynomials M_XYZ M_Bspline M_NurbsCurve M_Interp M_Fit M_Fit2
  P_MathUtils P_Math2 P_Span P_Cox P_Deriv P_XYZ P_Vec P_VSum P_Curve P_Bspline P_BsplineS P_Fit P_Make P_Interp2 P_Interp P_Shape P_Swung P_ProjNorm2 P_Lsq P_Lsq3 P_Lsq5.
Import ListNotations.
Open Scope Z_scope.

Lemma seg_span (P : list (XYZ R)) x : span_curve 1 1 (bezier_knots 1) P x = plus3 (times3 (1 - x) (pt P 0)) (times3 x (pt P 1)).
Proof.
  apply co_ext. intros c. unfold span_curve. rewrite co_comb. change (1 - 1) with 0. change (1 + 1) with 2. rewrite rsum_2.
  assert (V : val (bezier_knots 1) 0 = 0%R /\ val (bezier_knots 1) 1 = 0%R /\ val (bezier_knots 1) 2 = 1%R /\ val (bezier_knots 1) 3 = 1%R) by (repeat split; reflexivity). destruct V as (V0 & V1 & V2 & V3).
  assert (N0 : Nspan (val (bezier_knots 1)) 1 (Z.to_nat 1) 0 x = (1 - x)%R).
  { change (Z.to_nat 1) with 1%nat. unfold Nspan. cbn [Nrec]. change (Z.of_nat 1) with 1. cbn [Z.eqb Z.add Pos.eqb Pos.add Pos.succ]. rewrite ?V0, ?V1, ?V2. rewrite !(sdiv_ok _ (1 - 0)%R) by lra. field. }
  assert (N1 : Nspan (val (bezier_knots 1)) 1 (Z.to_nat 1) 1 x = x%R).
  { change (Z.to_nat 1) with 1%nat. unfold Nspan. cbn [Nrec]. change (Z.of_nat 1) with 1. cbn [Z.eqb Z.add Pos.eqb Pos.add Pos.succ]. rewrite ?V0, ?V1, ?V2, ?V3. rewrite !(sdiv_ok _ (1 - 0)%R) by lra. field. }
  rewrite N0, N1. destruct (pt P 0) as [a1 a2 a3], (pt P 1) as [b1 b2 b3]. destruct c as [|[|c]]; cbn; ring.
Qed.

Lemma seg_deriv (P : list (XYZ R)) g x : vderiv 1 (span_curve 1 1 (bezier_knots 1) P) g -> g x = minus3 (pt P 1) (pt P 0).
Proof.
  intros Hg. apply (vderiv_unique 1 (span_curve 1 1 (bezier_knots 1) P) g (fun _ => minus3 (pt P 1) (pt P 0)) Hg). intros c. change (Z.to_nat 1) with 1%nat. cbn [nth_deriv]. exists (fun _ => co c (minus3 (pt P 1) (pt P 0))). split; [|reflexivity].
  intros t. set (p0 := co c (pt P 0)). set (p1 := co c (pt P 1)). assert (E : co c (minus3 (pt P 1) (pt P 0)) = (p1 - p0)%R) by (unfold p0, p1; destruct (pt P 0), (pt P 1); destruct c as [|[|c]]; reflexivity). rewrite E.
  apply (der_ext (fun x => (p0 + (p1 - p0) * x)%R)). { intros y. rewrite seg_span. unfold p0, p1. destruct (pt P 0), (pt P 1); destruct c as [|[|c]]; cbn; ring. }
  pose proof (derivable_pt_lim_plus (fct_cte p0) (mult_real_fct (p1 - p0) id) t _ _ (derivable_pt_lim_const p0 t) (derivable_pt_lim_scal id (p1 - p0) t 1 (derivable_pt_lim_id t))) as G. replace (0 + (p1 - p0) * 1)%R with (p1 - p0)%R in G by ring. exact G.
Qed.

Lemma chord2 (a b : XYZ R) : GetChordParameterization [a; b] = Ok [0%R; 1%R].
Proof.
  destruct (Chord_returns [a; b] ltac:(change (len [a; b]) with 2; lia)) as (u & -> & Lu & U0 & U1 & _). change (len [a; b]) with 2 in *. destruct u as [|u0 [|u1 [|]]]; try (unfold len in Lu; cbn [length] in Lu; lia). change (u0 = 0%R) in U0. change (u1 = 1%R) in U1. subst. reflexivity.
Qed.
Lemma knots2 : ComputeKnotVector 1 2 [0%R; 1%R] = Ok (bezier_knots 1).
Proof.
  assert (V : val [0%R; 1%R] 0 = 0%R /\ val [0%R; 1%R] 1 = 1%R) by (split; reflexivity). destruct V as (V0 & V1).
  destruct (Fit_returns 1 1 [0%R; 1%R]) as (U & E & (LU & _ & C0 & C1) & _); try lia; try (change (len [0%R; 1%R]) with 2).
  - lia.
  - intros i j Hi Hij Hj. change (len [0%R; 1%R]) with 2 in Hj. assert (i = j \/ i = 0 /\ j = 1) as [->|(-> & ->)] by lia; [lra|]. rewrite V0, V1. lra.
  - rewrite V0. lra.
  - change (2 - 1) with 1. rewrite V1. lra.
  - change (1 + 1) with 2 in E. rewrite E. f_equal. destruct U as [|u0 [|u1 [|u2 [|u3 [|]]]]]; try (unfold len in LU; cbn [length] in LU; lia).
    pose proof (C0 0 ltac:(lia)) as A0. pose proof (C0 1 ltac:(lia)) as A1. pose proof (C1 2 ltac:(lia)) as A2. pose proof (C1 3 ltac:(lia)) as A3. change (u0 = 0%R) in A0. change (u1 = 0%R) in A1. change (u2 = 1%R) in A2. change (u3 = 1%R) in A3. subst. reflexivity.
Qed.
Lemma bez1_clamped : clamped_unit 1 1 (bezier_knots 1).
Proof.
  split; [reflexivity|]. destruct bar_knots as ([_ _ _ S0 _ _] & _). split; [exact S0|]. split; intros i Hi.
  - assert (i = 0 \/ i = 1) as [-> | ->] by lia; reflexivity.
  - assert (i = 2 \/ i = 3) as [-> | ->] by lia; reflexivity.
Qed.

Lemma pos_tol (w : R) : (1 / 1000 <= w)%R -> (tol w 0 < w)%R.
Proof. intros H. unfold tol. rewrite Rabs_R0, (Rabs_right w), Rmax_left by lra. lra. Qed.

(* what a line shows at its ends *)
Lemma seg_shows (P : list (XYZ R)) m data v r : shows 1 1 (bezier_knots 1) P m data v -> 0 <= r < m ->
  (d_ord (data r) = 0 -> v r = plus3 (times3 (1 - d_par (data r)) (pt P 0)) (times3 (d_par (data r)) (pt P 1))) /\ (d_ord (data r) = 1 -> v r = minus3 (pt P 1) (pt P 0)).
Proof.
  intros Hs Hr. destruct (Hs r Hr) as (k & g & Hk & Hg & ->). assert (k = 1) as -> by (destruct Hk; lia). split; intros Eo; rewrite Eo in Hg.
  - rewrite <- seg_span. symmetry. apply co_ext. intros c. apply (Hg c).
  - apply seg_deriv, Hg.
Qed.
Lemma seg_at0 (P : list (XYZ R)) : plus3 (times3 (1 - 0) (pt P 0)) (times3 0 (pt P 1)) = pt P 0.
Proof. destruct (pt P 0), (pt P 1). unfold plus3, times3. cbn. f_equal; ring. Qed.
Lemma seg_at1 (P : list (XYZ R)) : plus3 (times3 (1 - 1) (pt P 0)) (times3 1 (pt P 1)) = pt P 1.
Proof. destruct (pt P 0), (pt P 1). unfold plus3, times3. cbn. f_equal; ring. Qed.
(* and there is something it shows *)
Lemma seg_has (P : list (XYZ R)) m data : (forall r, 0 <= r < m -> (0 <= d_par (data r) <= 1)%R /\ 0 <= d_ord (data r) <= 1) -> exists v, shows 1 1 (bezier_knots 1) P m data v.
Proof.
  intros Hd. exists (fun r => if d_ord (data r) =? 0 then span_curve 1 1 (bezier_knots 1) P (d_par (data r)) else minus3 (pt P 1) (pt P 0)). intros r Hr. destruct (Hd r Hr) as (Hp & Ho).
  destruct (find_span 1 1 (bezier_knots 1) (d_par (data r)) (proj1 bar_knots)) as (k & _ & Hk); [apply bar_dom, Hp|]. assert (k = 1) as -> by (destruct Hk; lia).
  exists 1. destruct (Z.eqb_spec (d_ord (data r)) 0) as [Eo|Eo].
  - exists (span_curve 1 1 (bezier_knots 1) P). rewrite Eo. split; [exact Hk|]. split; [intros c; cbn; reflexivity|reflexivity].
  - replace (d_ord (data r)) with 1 by lia. exists (fun t => comb (1 - 1) (1 + 1) (fun i => GN (val (bezier_knots 1)) 1 1 i 1 t) (pt P)). split; [exact Hk|].
    assert (G : vderiv 1 (span_curve 1 1 (bezier_knots 1) P) (fun t => comb (1 - 1) (1 + 1) (fun i => GN (val (bezier_knots 1)) 1 1 i 1 t) (pt P))). { apply vderiv_comb; [lia|]. intros i Hi. apply (GN_is_deriv 1 1 _ (d_par (data r)) 1 i 1 (proj1 bar_knots) Hk). lia. }
    split; [exact G|]. symmetry. exact (seg_deriv P _ (d_par (data r)) G).
Qed.
