(* Least squares with weights and constraints: what the curve shows of the data. *)
From Coq Require Import ZArith List Bool Reals Lra Lia Permutation.
From Verif Require Import Base Num Vec Tac Spec Spec2 Spec3 Spec6 Spec20 M_MathUtils M_Polynomials M_XYZ M_Bspline M_NurbsCurve M_Interp M_Fit M_Fit2
  P_MathUtils P_Math2 P_Span P_Cox P_Deriv P_Ders P_XYZ P_Vec P_VSum P_Curve P_Bspline P_BsplineS P_Loop P_Basis P_Fit P_Interp2 P_Interp P_Local P_Lsq P_Lsq2 P_Lsq3 P_Lsq4.
Import ListNotations.
Open Scope Z_scope.

Lemma cof_ext (v v' : XYZ R) : (forall a, 0 <= a < 3 -> cof v a = cof v' a) -> v = v'.
Proof.
  intros H. pose proof (H 0 ltac:(lia)) as H0. pose proof (H 1 ltac:(lia)) as H1'. pose proof (H 2 ltac:(lia)) as H2'. cbn in H0, H1', H2'. destruct v, v'. cbn in *. congruence.
Qed.
Lemma cof_comb lo hi w (P : Z -> XYZ R) a : 0 <= a < 3 -> cof (comb lo hi w P) a = rsum lo hi (fun i => w i * cof (P i) a)%R.
Proof.
  intros Ha. assert (E : a = 0 \/ a = 1 \/ a = 2) by lia. destruct E as [->|[->| ->]]; unfold cof; cbn [Z.eqb Pos.eqb].
  - exact (co_comb 0%nat lo hi w P).
  - exact (co_comb 1%nat lo hi w P).
  - exact (co_comb 2%nat lo hi w P).
Qed.

Section Show.
Variables (p n : Z) (U us : list R) (Q D : list (XYZ R)) (W Wt : list R) (J : list Z).
Hypothesis HU : curve_knots p n U.
Hypothesis Hp1 : 1 <= p.
Hypothesis Hdom : forall i, 0 <= i < len Q -> in_domain p n U (val us i).
Hypothesis HJ : len J = len D.
Hypothesis HJr : forall j, In j J -> 0 <= j < len Q.
Let m := len Q + len D.
Let data := fit_data us Q W D J Wt.
Let cf := coef p U us Q D W Wt J.

Lemma ord_in r : 0 <= d_ord (data r) <= p.
Proof. unfold data, fit_data. destruct (r <? len Q); cbn [d_ord]; lia. Qed.

Lemma span_at r : 0 <= r < m -> span_of p n U (d_par (data r)) (spx p U us Q D W Wt J r).
Proof. intros Hr. apply (spx_ok p n U us Q D W Wt J HU Hdom HJ HJr r Hr). Qed.

(* the row of coefficients gives the value the curve shows *)
Lemma shown P r k g : 0 <= r < m -> span_of p n U (d_par (data r)) k -> vderiv (d_ord (data r)) (span_curve k p U P) g ->
  forall a, 0 <= a < 3 -> cof (g (d_par (data r))) a = dotl n (cf r) (fun l => cof (pt P l) a).
Proof.
  intros Hr Hk Hg a Ha. pose proof (span_at r Hr) as Hk'. pose proof (find_span_eq _ _ _ _ _ HU Hk) as E1. pose proof (find_span_eq _ _ _ _ _ HU Hk') as E2. rewrite E1 in E2. injection E2 as ->.
  set (k' := spx p U us Q D W Wt J r) in *. pose proof Hk' as (Kn & _). pose proof (ord_in r) as Ho.
  assert (G : vderiv (d_ord (data r)) (span_curve k' p U P) (fun t => comb (k' - p) (k' + 1) (fun i => GN (val U) k' p i (d_ord (data r)) t) (pt P))).
  { apply vderiv_comb; [lia|]. intros i Hi. apply (GN_is_deriv p n U (d_par (data r)) k' i _ HU Hk' Ho). }
  rewrite (vderiv_unique _ _ _ _ Hg G (d_par (data r))). rewrite cof_comb by exact Ha. unfold dotl. rewrite (rsum_split 0 (k' - p) (n + 1)) by lia. rewrite (rsum_split (k' - p) (k' + 1) (n + 1)) by lia.
  rewrite (rsum_zero 0 (k' - p)), (rsum_zero (k' + 1) (n + 1)).
  - rewrite Rplus_0_l, Rplus_0_r. apply rsum_ext. intros i Hi. unfold cf, coef. fold k'. destruct (Z.leb_spec (k' - p) i), (Z.leb_spec i k'); try lia. reflexivity.
  - intros i Hi. unfold cf, coef. fold k'. destruct (Z.leb_spec (k' - p) i), (Z.leb_spec i k'); try lia; cbn [andb]; ring.
  - intros i Hi. unfold cf, coef. fold k'. destruct (Z.leb_spec (k' - p) i), (Z.leb_spec i k'); try lia; cbn [andb]; ring.
Qed.

Definition shows_of (P : list (XYZ R)) (r : Z) : XYZ R := mkXYZ (dotl n (cf r) (fun l => cof (pt P l) 0)) (dotl n (cf r) (fun l => cof (pt P l) 1)) (dotl n (cf r) (fun l => cof (pt P l) 2)).
Lemma shows_of_cof P r a : 0 <= a < 3 -> cof (shows_of P r) a = dotl n (cf r) (fun l => cof (pt P l) a).
Proof. intros Ha. assert (E : a = 0 \/ a = 1 \/ a = 2) by lia. destruct E as [->|[->| ->]]; reflexivity. Qed.

Lemma shows_ex P : shows p n U P m data (shows_of P).
Proof.
  intros r Hr. pose proof (span_at r Hr) as Hk. set (k := spx p U us Q D W Wt J r) in *. pose proof (ord_in r) as Ho.
  assert (G : vderiv (d_ord (data r)) (span_curve k p U P) (fun t => comb (k - p) (k + 1) (fun i => GN (val U) k p i (d_ord (data r)) t) (pt P))).
  { apply vderiv_comb; [lia|]. intros i Hi. apply (GN_is_deriv p n U (d_par (data r)) k i _ HU Hk Ho). }
  exists k. eexists. split; [exact Hk|]. split; [exact G|]. apply cof_ext. intros a Ha. rewrite shows_of_cof by exact Ha. symmetry. exact (shown P r k _ Hr Hk G a Ha).
Qed.
Lemma shows_eq P v r a : shows p n U P m data v -> 0 <= r < m -> 0 <= a < 3 -> cof (v r) a = dotl n (cf r) (fun l => cof (pt P l) a).
Proof. intros S Hr Ha. destruct (S r Hr) as (k & g & Hk & Hg & ->). apply (shown P r k g); assumption. Qed.

(* control points with given coordinates *)
Definition pts_of (X : Z -> R) : list (XYZ R) := map (fun l => mkXYZ (X l) (X l) (X l)) (zseq (n + 1)).
Lemma pts_of_ok X : len (pts_of X) = n + 1 /\ forall l a, 0 <= l <= n -> 0 <= a < 3 -> cof (pt (pts_of X) l) a = X l.
Proof.
  pose proof HU as [Hp Hn _ _ _ _]. unfold pts_of. assert (L : len (map (fun l => mkXYZ (X l) (X l) (X l)) (zseq (n + 1))) = n + 1) by (unfold len; rewrite map_length; fold (len (zseq (n + 1))); apply len_zseq; lia). split; [exact L|].
  intros l a Hl Ha. unfold pt, at_. rewrite (nth_indep _ vzero (mkXYZ (X 0) (X 0) (X 0))) by (unfold len in L; lia). rewrite (map_nth (fun l => mkXYZ (X l) (X l) (X l))). fold (at_ 0 (zseq (n + 1)) l). rewrite at_zseq by lia.
  assert (E : a = 0 \/ a = 1 \/ a = 2) by lia. destruct E as [->|[->| ->]]; reflexivity.
Qed.

Lemma dotl_pts x X a : 0 <= a < 3 -> dotl n (cf x) (fun l => cof (pt (pts_of X) l) a) = dotl n (cf x) X.
Proof. intros Ha. unfold dotl. apply rsum_ext. intros l Hl. rewrite (proj2 (pts_of_ok X) l a) by lia. reflexivity. Qed.

Lemma det_coef : determined p n U m data -> forall P : Z -> R, (forall x, 0 <= x < m -> is_counted (data x) = true \/ is_held (data x) = true -> dotl n (cf x) P = 0%R) -> forall l, 0 <= l <= n -> P l = 0%R.
Proof.
  intros Det X H l Hl. specialize (Det (pts_of X) (shows_of (pts_of X)) (proj1 (pts_of_ok X)) (shows_ex _)).
  rewrite <- (proj2 (pts_of_ok X) l 0 Hl ltac:(lia)). rewrite Det; [reflexivity| |exact Hl].
  intros r Hr K. apply cof_ext. intros a Ha. rewrite shows_of_cof, dotl_pts by exact Ha. rewrite H by assumption. assert (E : a = 0 \/ a = 1 \/ a = 2) by lia. destruct E as [->|[->| ->]]; reflexivity.
Qed.
Lemma ind_coef : independent p n U m data -> forall f : Z -> R, exists P : Z -> R, forall x, 0 <= x < m -> is_held (data x) = true -> dotl n (cf x) P = f x.
Proof.
  intros Ind f. destruct (Ind (fun x => mkXYZ (f x) 0 0)%R) as (P & v & _ & Sv & Hv). exists (fun l => cof (pt P l) 0). intros x Hx K. rewrite <- (shows_eq P v x 0 Sv Hx ltac:(lia)). rewrite Hv by assumption. reflexivity.
Qed.

(* the weighted sum of squares, coordinate by coordinate *)
Lemma misfit_cof tg v : misfit m data tg v = (rsum 0 m (fun x => if is_counted (data x) then d_weight (data x) * ((cof (v x) 0 - cof (tg x) 0) * (cof (v x) 0 - cof (tg x) 0)) else 0)%R +
  rsum 0 m (fun x => if is_counted (data x) then d_weight (data x) * ((cof (v x) 1%Z - cof (tg x) 1%Z) * (cof (v x) 1%Z - cof (tg x) 1%Z)) else 0)%R +
  rsum 0 m (fun x => if is_counted (data x) then d_weight (data x) * ((cof (v x) 2%Z - cof (tg x) 2%Z) * (cof (v x) 2%Z - cof (tg x) 2%Z)) else 0)%R)%R.
Proof.
  unfold misfit. rewrite <- !rsum_plus. apply rsum_ext. intros x Hx. destruct (is_counted (data x)); [|ring]. unfold dot3, minus3. cbn. ring.
Qed.
End Show.

(** * The optimum *)
Theorem Wls_optimum : forall solve p n Q W D J Wt us U, exact_solver solve -> 1 <= p <= 7 -> p < len Q -> len W = len Q -> len J = len D -> len Wt = len D ->
  (forall j, In j J -> 0 <= j < len Q) -> NoDup J -> GetChordParameterization Q = Ok us -> ComputeKnotVector p (n + 1) us = Ok U -> curve_knots p n U -> clamped_unit p n U ->
  let m := len Q + len D in let data := fit_data us Q W D J Wt in
  0 < number m (fun r => is_counted (data r)) -> number m (fun r => is_held (data r)) <= n -> determined p n U m data -> independent p n U m data ->
  exists cps P v, WeightedLeastSquares solve p Q W D J Wt (n + 1) = Ok (Some (mkCurve p U cps)) /\ len cps = n + 1 /\ len P = n + 1 /\ (forall l, 0 <= l <= n -> pt cps l = hom (pt P l) 1) /\
    shows p n U P m data v /\ holds m data v /\
    forall P' v', len P' = n + 1 -> shows p n U P' m data v' -> holds m data v' ->
      (misfit m data (fun r => times3 (d_weight (data r)) (d_target (data r))) v <= misfit m data (fun r => times3 (d_weight (data r)) (d_target (data r))) v')%R.
Proof.
  intros solve p n Q W D J Wt us U Hs (Hp1 & Hp7) HpQ HW HJ HWt HJr HJn Eus EU HU CU m data Hmu Hmc Det Ind. pose proof HU as [_ Hn Hl Hso _ _].
  assert (Lus : len us = len Q /\ forall i, 0 <= i < len Q -> (0 <= val us i <= 1)%R).
  { destruct (Chord_returns Q ltac:(lia)) as (u & Eu & Lu & U0 & U1 & Us & _). rewrite Eu in Eus. injection Eus as ->. split; [exact Lu|]. intros i Hi. pose proof (Us 0 i ltac:(lia) ltac:(lia) ltac:(lia)). pose proof (Us i (len Q - 1) ltac:(lia) ltac:(lia) ltac:(lia)). lra. }
  destruct Lus as (Lus & Rus).
  assert (Hdom : forall i, 0 <= i < len Q -> in_domain p n U (val us i)). { intros i Hi. destruct CU as (_ & _ & C0 & C1). unfold in_domain. rewrite (C0 p), (C1 (n + 1)) by lia. apply Rus, Hi. }
  destruct (Wls_run solve Hs p n U us Q D W Wt J Hp1 HpQ HW HJ HWt HJr HU Hp7 Eus EU Lus Hdom HJn Hmu Hmc (det_coef p n U us Q D W Wt J HU Hp1 Hdom HJ HJr Det) (ind_coef p n U us Q D W Wt J HU Hp1 Hdom HJ HJr Ind)) as (r & -> & cps & X & -> & Ac & Hold & Opt).
  set (P := map (fun l => mkXYZ (X l 0) (X l 1) (X l 2)) (zseq (n + 1))).
  assert (LP : len P = n + 1) by (unfold P, len; rewrite map_length; fold (len (zseq (n + 1))); apply len_zseq; lia).
  assert (HP : forall l, 0 <= l <= n -> pt P l = mkXYZ (X l 0) (X l 1) (X l 2)). { intros l Hl'. unfold pt, at_, P. rewrite (nth_indep _ vzero (mkXYZ (X 0 0) (X 0 1) (X 0 2))) by (unfold len in LP; unfold P in LP; lia). rewrite (map_nth (fun l => mkXYZ (X l 0) (X l 1) (X l 2))). fold (at_ 0 (zseq (n + 1)) l). rewrite at_zseq by lia. reflexivity. }
  assert (HPc : forall l a, 0 <= l <= n -> 0 <= a < 3 -> cof (pt P l) a = X l a). { intros l a Hl' Ha. rewrite HP by exact Hl'. assert (E : a = 0 \/ a = 1 \/ a = 2) by lia. destruct E as [->|[->| ->]]; reflexivity. }
  assert (HPd : forall x a, 0 <= a < 3 -> dotl n (coef p U us Q D W Wt J x) (fun l => cof (pt P l) a) = dotl n (coef p U us Q D W Wt J x) (fun l => X l a)). { intros x a Ha. unfold dotl. apply rsum_ext. intros l Hl'. rewrite HPc by lia. reflexivity. }
  exists cps, P, (shows_of p n U us Q D W Wt J P). split; [reflexivity|]. split; [apply Ac|]. split; [exact LP|]. split; [intros l Hl'; rewrite HP by exact Hl'; apply (arr_at_eq vzero _ _ _ _ Ac); lia|]. split; [apply shows_ex; assumption|]. split.
  - intros x Hx K. apply cof_ext. intros a Ha. rewrite shows_of_cof by exact Ha. rewrite HPd by exact Ha. apply (Hold x a Hx K Ha).
  - intros P' v' LP' Sv' Hv'.
    assert (One : forall a, 0 <= a < 3 -> (rsum 0 m (fun x => if is_counted (data x) then d_weight (data x) * ((cof (shows_of p n U us Q D W Wt J P x) a - cof (times3 (d_weight (data x)) (d_target (data x))) a) * (cof (shows_of p n U us Q D W Wt J P x) a - cof (times3 (d_weight (data x)) (d_target (data x))) a)) else 0) <=
       rsum 0 m (fun x => if is_counted (data x) then d_weight (data x) * ((cof (v' x) a - cof (times3 (d_weight (data x)) (d_target (data x))) a) * (cof (v' x) a - cof (times3 (d_weight (data x)) (d_target (data x))) a)) else 0))%R).
    { intros a Ha. rewrite (rsum_ext 0 m (fun x => if is_counted (data x) then d_weight (data x) * ((cof (shows_of p n U us Q D W Wt J P x) a - cof (times3 (d_weight (data x)) (d_target (data x))) a) * (cof (shows_of p n U us Q D W Wt J P x) a - cof (times3 (d_weight (data x)) (d_target (data x))) a)) else 0)%R _ (fun x Hx => eq_trans (f_equal (fun y => if is_counted (data x) then d_weight (data x) * ((y - cof (times3 (d_weight (data x)) (d_target (data x))) a) * (y - cof (times3 (d_weight (data x)) (d_target (data x))) a)) else 0)%R (eq_trans (shows_of_cof p n U us Q D W Wt J P x a Ha) (HPd x a Ha))) eq_refl)).
      rewrite (rsum_ext 0 m (fun x => if is_counted (data x) then d_weight (data x) * ((cof (v' x) a - cof (times3 (d_weight (data x)) (d_target (data x))) a) * (cof (v' x) a - cof (times3 (d_weight (data x)) (d_target (data x))) a)) else 0)%R _ (fun x Hx => f_equal (fun y => if is_counted (data x) then d_weight (data x) * ((y - cof (times3 (d_weight (data x)) (d_target (data x))) a) * (y - cof (times3 (d_weight (data x)) (d_target (data x))) a)) else 0)%R (shows_eq p n U us Q D W Wt J HU Hp1 Hdom HJ HJr P' v' x a Sv' Hx Ha))).
      apply (Opt a (fun l => cof (pt P' l) a) Ha). intros x Hx K. rewrite (Hold x a Hx K Ha). rewrite <- (shows_eq p n U us Q D W Wt J HU Hp1 Hdom HJ HJr P' v' x a Sv' Hx Ha). rewrite (Hv' x Hx K). reflexivity. }
    unfold data, m. rewrite !misfit_cof. fold data m. pose proof (One 0 ltac:(lia)). pose proof (One 1 ltac:(lia)). pose proof (One 2 ltac:(lia)). lra.
Qed.
