(* Degree elevation of curves with simple inner knots. *)
From Coq Require Import ZArith List Bool Reals Lra Lia Permutation.
From Verif Require Import Base Num Vec Tac Spec Spec2 Spec4 M_MathUtils M_Polynomials M_Bspline M_Knots M_NurbsCurve M_Curve2
  P_MathUtils P_Bern P_Cox P_Curve P_VSum P_Bspline P_Blossom P_Insert P_Insert2 P_Refine P_Reverse P_Loop P_Merge P_Decomp P_PolarElev.
Import ListNotations.
Open Scope Z_scope.

(* ------------------------------------------------------------------ *)
(** * The coefficients *)

Definition erange (p t : Z) (i j : Z) : Prop := Z.max 0 (i - t) <= j <= Z.min p i.

Lemma ecoef_sym p t i j : 0 <= p -> 0 <= t -> 0 <= i <= p + t -> erange p t i j -> ecoef p t (p + t - i) (p - j) = ecoef p t i j.
Proof.
  intros Hp Ht Hi Hj. unfold erange in Hj. unfold ecoef, Cbz. rewrite <- (Cb_sym (p + t) i), <- (Cb_sym p j) by lia. f_equal.
  replace (p + t - i - (p - j)) with (t - (i - j)) by lia. rewrite !(proj2 (Z.leb_le _ _)) by lia. cbn [andb]. rewrite <- Cb_sym by lia. reflexivity.
Qed.

Lemma elevate_coefs_ok p t (Q : list (list R) -> Prop) : 1 <= p -> 1 <= t ->
  (forall B, arr2D B (p + t + 1) (p + 1) (erange p t) (ecoef p t) -> Q B) -> wp (elevate_coefs p t) Q.
Proof.
  intros Hp Ht HQ. unfold elevate_coefs. set (ph := p + t). set (ph2 := Z.quot ph 2).
  assert (H2 : 2 * ph2 <= ph < 2 * ph2 + 2) by (unfold ph2; rewrite Z.quot_div_nonneg by (unfold ph; lia); pose proof (Z.div_mod ph 2 ltac:(lia)); pose proof (Z.mod_pos_bound ph 2 ltac:(lia)); lia).
  apply wp_bind, wp_mkvec; [lia|]. intros row Hrow. apply wp_bind. apply (wp_mkvec2 0%R (ph + 1) (p + 1) row); [lia|exact Hrow|]. intros b0 Hb0.
  assert (B1 : arr2D b0 (ph + 1) (p + 1) (fun _ _ => False) (ecoef p t)).
  { eapply arr2D_ext; [apply (arr2_D _ _ _ (fun _ _ => False)); exact Hb0|]. tauto. }
  assert (Ein : forall i j, 0 <= i <= ph -> erange p t i j -> ecoef p t i j = (/ Cb ph i * Cb p j * Cb t (i - j))%R).
  { intros i j Hi Hj. unfold erange in Hj. unfold ecoef, Cbz. rewrite !(proj2 (Z.leb_le _ _)) by lia. reflexivity. }
  apply wp_bind. eapply arr2D_set with (D' := fun i j => i = ph /\ j = p); [exact B1|unfold ph in *; lia|lia| |dl|].
  { rewrite Ein by (unfold erange, ph; lia). unfold ph. rewrite !Cb_n by lia. replace (p + t - p) with t by lia. rewrite Cb_n by lia. rewrite Rinv_1. numg. ring. }
  intros b2 B2. apply wp_bind. eapply arr2D_set with (D' := fun i j => erange p t i j /\ (i = ph \/ i < 1)); [exact B2|unfold ph in *; lia|lia| | |].
  { rewrite Ein by (unfold erange, ph; lia). rewrite !Z.sub_diag, !Cb_0 by (unfold ph; lia). rewrite Rinv_1. numg. ring. }
  { intros i j Hi Hj [He Hor]. unfold erange, ph in *. lia. }
  intros b3 B3. apply wp_bind.
  apply wp_for_up with (P := fun h b => arr2D b (ph + 1) (p + 1) (fun i j => erange p t i j /\ (i = ph \/ i < h)) (ecoef p t)); [unfold ph in *; lia|exact B3| |].
  { intros i b Hi Hb. assert (Hph : i < ph \/ i = ph) by lia. rewrite Binomial_ok by lia. cbn [bind]. num.
    pose proof (Cb_pos ph i ltac:(lia)). rewrite Rdiv_ok by lra. cbn [bind].
    apply wp_for_up with (P := fun h b => arr2D b (ph + 1) (p + 1) (fun x j => erange p t x j /\ (x = ph \/ x < i \/ (x = i /\ j < h))) (ecoef p t)); [lia| | |].
    - eapply arr2D_ext; [exact Hb|]. intros x j Hx Hj [He Hor]. split; [|reflexivity]. split; [exact He|]. unfold erange in He. lia.
    - intros j v Hj Hv. rewrite !Binomial_ok by lia. cbn [bind]. eapply arr2D_set; [exact Hv|lia|lia| | |intros v' Hv'; exact Hv'].
      + rewrite Ein by (unfold erange; lia). field. lra.
      + intros x y Hx Hy [He Hor]. unfold erange in *. lia.
    - intros v Hv. eapply arr2D_ext; [exact Hv|]. intros x j Hx Hj [He Hor]. split; [|reflexivity]. split; [exact He|]. unfold erange in He. lia. }
  intros b4 B4.
  apply wp_for_up with (P := fun h b => arr2D b (ph + 1) (p + 1) (fun i j => erange p t i j /\ (i = ph \/ i < h)) (ecoef p t)); [unfold ph in *; lia|exact B4| |].
  { intros i b Hi Hb.
    apply wp_for_up with (P := fun h b => arr2D b (ph + 1) (p + 1) (fun x j => erange p t x j /\ (x = ph \/ x < i \/ (x = i /\ j < h))) (ecoef p t)); [lia| | |].
    - eapply arr2D_ext; [exact Hb|]. intros x j Hx Hj [He Hor]. split; [|reflexivity]. split; [exact He|]. unfold erange in He. lia.
    - intros j v Hj Hv. rewrite (arr2D_get _ _ _ _ _ (ph - i) (p - j) Hv) by (unfold erange, ph in *; lia). cbn [bind]. eapply arr2D_set; [exact Hv|lia|lia| | |intros v' Hv'; exact Hv'].
      + unfold ph. apply ecoef_sym; unfold erange, ph in *; lia.
      + intros x y Hx Hy [He Hor]. unfold erange in *. lia.
    - intros v Hv. eapply arr2D_ext; [exact Hv|]. intros x j Hx Hj [He Hor]. split; [|reflexivity]. split; [exact He|]. unfold erange in He. lia. }
  intros b5 B5. apply HQ. eapply arr2D_ext; [exact B5|]. intros x j Hx Hj He. split; [|reflexivity]. split; [exact He|]. unfold ph in *. lia.
Qed.

(* ------------------------------------------------------------------ *)
(** * The new knots and the polar forms of the segments *)

Section Elevate.
Context {T : Type} {V : Vec R T} {L : VecL T}.
Variables (p n t : Z) (U : list R) (P : list T).
Hypothesis HU : curve_knots p n U.
Hypothesis HP : len P = n + 1.
Hypothesis Hcl : clamped_knots p n U.
Hypothesis Hap : forall x y, In x U -> In y U -> apart x y.
Hypothesis Hp1 : 1 <= p.
Hypothesis Ht1 : 1 <= t.
Hypothesis Hsim : forall i, p <= i <= n -> (val U i < val U (i + 1))%R.
Let m := n + p + 1.
Let ph := p + t.
Let M := n - p + 1.
Let nu := ck_n _ _ _ HU.
Let HL := ck_len _ _ _ HU.
Let HS := ck_sorted _ _ _ HU.

Definition brk (j : Z) := val U (p + j).
Definition KK (j : Z) := ph + j * (t + 1).
Definition seg (i : Z) := if i <=? ph then 0 else (i - ph - 1) / (t + 1) + 1.
(* the knots while segment j is at the end *)
Definition WW (j i : Z) : R := brk (Z.min j (seg i)).
Definition FF (j : Z) : list R -> T := elev p (Z.to_nat t) (fun l => bl (val U) p (pt P) l (p + j)).

Lemma seg_le i j : 0 <= j -> (seg i <= j <-> i <= KK j).
Proof.
  intros Hj. unfold seg, KK. destruct (Z.leb_spec i ph).
  - split; intros; nia.
  - pose proof (Z.div_mod (i - ph - 1) (t + 1) ltac:(lia)). pose proof (Z.mod_pos_bound (i - ph - 1) (t + 1) ltac:(lia)). set (d := (i - ph - 1) / (t + 1)) in *. split; intros; nia.
Qed.
Lemma seg_eq i j : 1 <= j -> KK (j - 1) < i <= KK j -> seg i = j.
Proof. intros Hj Hi. pose proof (seg_le i j ltac:(lia)). pose proof (seg_le i (j - 1) ltac:(lia)). lia. Qed.
Lemma seg_pos i : 0 <= seg i.
Proof. unfold seg. destruct (Z.leb_spec i ph); [lia|]. pose proof (Z.div_pos (i - ph - 1) (t + 1) ltac:(lia) ltac:(lia)). lia. Qed.
Lemma seg_mono i i' : i <= i' -> seg i <= seg i'.
Proof. intros H. apply (seg_le i (seg i') (seg_pos i')). pose proof (proj1 (seg_le i' (seg i') (seg_pos i')) ltac:(lia)). lia. Qed.
Lemma KK_succ j : KK (j + 1) = KK j + (t + 1).
Proof. unfold KK. ring. Qed.
Lemma KK_mono j j' : j <= j' -> KK j <= KK j'.
Proof. unfold KK. nia. Qed.

Lemma brk_lt j : 0 <= j < M -> (brk j < brk (j + 1))%R.
Proof. intros Hj. unfold brk. replace (p + (j + 1)) with (p + j + 1) by lia. apply Hsim. unfold M in *. lia. Qed.
Lemma brk_mono j j' : 0 <= j -> j <= j' -> j' <= M -> (brk j <= brk j')%R.
Proof. intros H1 H2 H3. unfold brk. apply HS; rewrite ?HL; unfold M in *; lia. Qed.
Lemma brk_strict j j' : 0 <= j -> j < j' -> j' <= M -> (brk j < brk j')%R.
Proof. intros H1 H2 H3. pose proof (brk_lt j ltac:(lia)). pose proof (brk_mono (j + 1) j' ltac:(lia) ltac:(lia) ltac:(lia)). lra. Qed.

Lemma seg_good j : 0 <= j < M -> good (val U) (p + j) p.
Proof. intros Hj. apply (span_good p n); [exact HU|unfold M in *; lia|apply Hsim; unfold M in *; lia]. Qed.

Lemma FF_polar j : 0 <= j < M -> polar ph (FF j).
Proof.
  intros Hj. unfold FF, ph. replace t with (Z.of_nat (Z.to_nat t)) at 1 by lia. apply elev_polar; [lia|]. apply bl_polar; [lia|]. apply seg_good. exact Hj.
Qed.
Lemma FF_diag j x : FF j (repeat x (Z.to_nat ph)) = bl (val U) p (pt P) (repeat x (Z.to_nat p)) (p + j).
Proof.
  unfold FF. transitivity (elev p (Z.to_nat t) (fun l => bl (val U) p (pt P) l (p + j)) (repeat x (Z.to_nat (p + Z.of_nat (Z.to_nat t))))).
  - do 3 f_equal. unfold ph. lia.
  - apply (elev_diag p (Z.to_nat t) (fun l => bl (val U) p (pt P) l (p + j))). lia.
Qed.

Lemma FF_joint j s : 1 <= j < M -> len s = p - 1 ->
  FF (j - 1) (repeat (brk j) (Z.to_nat (t + 1)) ++ s) = FF j (repeat (brk j) (Z.to_nat (t + 1)) ++ s).
Proof.
  intros Hj Hs. unfold FF. replace (t + 1) with (1 + Z.of_nat (Z.to_nat t)) by lia. apply elev_joint; [lia|lia| |exact Hs].
  clear s Hs. intros s Hs. change (Z.to_nat 1) with 1%nat. cbn [repeat app].
  assert (HG : forall k, k = j - 1 \/ k = j -> bl (val U) p (pt P) (brk j :: s) (p + k) = bl (val U) p (pt P) s (p + j - 1)).
  { intros k Hk. pose proof (seg_good k ltac:(lia)) as G.
    rewrite <- (bl_part (val U) (p + k) p (pt P) s (p + j - 1)) by (auto; lia).
    apply (bl_perm (val U) (p + k)); [|exact G|rewrite len_cons; lia]. rewrite Hs. replace (p - (p - 1)) with 1 by lia.
    rewrite win_cons by lia. rewrite win_nil by lia. replace (p + j - 1 + 1) with (p + j) by lia. apply Permutation_cons_append. }
  rewrite !HG by lia. reflexivity.
Qed.

(* the forms of neighbouring segments agree where the window holds all copies of the breaks between them *)
Lemma FF_chain w i j j' : 0 <= j -> j <= j' -> j' < M -> i <= KK j -> KK j' <= i + ph ->
  (forall x, KK j < x <= KK j' -> w x = brk (seg x)) -> FF j (win w i ph) = FF j' (win w i ph).
Proof.
  intros Hj Hjj. revert Hjj. apply (Zrange_ind j (fun j' => j' < M -> i <= KK j -> KK j' <= i + ph ->
    (forall x, KK j < x <= KK j' -> w x = brk (seg x)) -> FF j (win w i ph) = FF j' (win w i ph))); [reflexivity|].
  intros k Hk IH HM Hi Hi' Hw. pose proof (KK_succ k) as HK. pose proof (KK_mono j k ltac:(lia)).
  rewrite IH; [|lia|exact Hi|lia|intros x Hx; apply Hw; lia]. clear IH.
  set (A := win w i (KK k - i)). set (B := win w (KK (k + 1)) (i + ph - KK (k + 1))).
  assert (E : win w i ph = A ++ repeat (brk (k + 1)) (Z.to_nat (t + 1)) ++ B).
  { replace ph with ((KK k - i) + ((t + 1) + (i + ph - KK (k + 1)))) at 1 by lia. rewrite win_app by lia. rewrite win_app by lia. unfold A, B. f_equal.
    f_equal; [|f_equal; lia]. apply win_const. intros r Hr. rewrite Hw by lia. f_equal. apply seg_eq; [lia|]. replace (k + 1 - 1) with k by lia. lia. }
  assert (Lw : len (A ++ B) = p - 1) by (unfold A, B; rewrite len_app, !len_win by lia; unfold ph; lia).
  assert (Pm : Permutation (win w i ph) (repeat (brk (k + 1)) (Z.to_nat (t + 1)) ++ (A ++ B))).
  { rewrite E. rewrite !app_assoc. apply Permutation_app_tail. apply Permutation_app_comm. }
  assert (Lw' : len (win w i ph) = ph) by (apply len_win; unfold ph; lia).
  rewrite (proj1 (FF_polar k ltac:(lia)) _ _ Pm Lw'), (proj1 (FF_polar (k + 1) ltac:(lia)) _ _ Pm Lw').
  replace k with (k + 1 - 1) at 1 by lia. apply FF_joint; [lia|exact Lw].
Qed.

(* ------------------------------------------------------------------ *)
(** * Removing the copies of the break between segments j - 1 and j *)

Section Remove.
Variables (j : Z).
Hypothesis Hj : 1 <= j < M.
Let K := KK (j - 1).
Let ua := brk j.
Let ub := brk (j + 1).
(* q copies removed *)
Definition RR (q i : Z) : R := if i <=? K + ph - q then WW j i else ub.

Lemma uab : (ua < ub)%R.
Proof. apply brk_lt. lia. Qed.
Lemma WW_low i : i <= K -> (WW j i < ua)%R.
Proof.
  intros Hi. unfold WW, ua. pose proof (proj2 (seg_le i (j - 1) ltac:(lia)) Hi). pose proof (seg_pos i).
  rewrite Z.min_r by lia. apply brk_strict; lia.
Qed.
Lemma WW_high i : K < i -> WW j i = ua.
Proof.
  intros Hi. unfold WW, ua. f_equal. pose proof (seg_le i (j - 1) ltac:(lia)) as [H _]. fold K in H. destruct (Z_le_gt_dec j (seg i)); [lia|]. specialize (H ltac:(lia)). lia.
Qed.
Lemma RR_final i : RR (p - 1) i = WW (j + 1) i.
Proof.
  unfold RR. assert (EK : K + ph - (p - 1) = KK j) by (unfold K; replace j with (j - 1 + 1) at 2 by lia; rewrite KK_succ; unfold ph; lia).
  rewrite EK. pose proof (seg_le i j ltac:(lia)) as HS1. unfold WW, ub. destruct (Z.leb_spec i (KK j)).
  - f_equal. lia.
  - f_equal. assert (~ seg i <= j) by (rewrite HS1; lia). lia.
Qed.

(* one removal changes one argument from ua to ub *)
Lemma rem_perm q i : 1 <= q -> q + 1 <= ph -> K - q <= i <= K ->
  win (RR (q + 1)) i ph = win (RR (q + 1)) i (ph - 1) ++ [ub] /\
  Permutation (win (RR q) i ph) (ua :: win (RR (q + 1)) i (ph - 1)).
Proof.
  intros Hq Hq' Hi. assert (Hph : 1 <= ph) by lia. split.
  - rewrite win_snoc by lia. do 2 f_equal. unfold RR. destruct (Z.leb_spec (i + ph) (K + ph - (q + 1))); [lia|reflexivity].
  - set (a := K + ph - q - 1 - i). set (b := i + q - K).
    replace ph with (a + (1 + b)) at 1 by (unfold a, b; lia). rewrite win_app by (unfold a, b; lia). rewrite win_app by (unfold b; lia).
    replace (ph - 1) with (a + b) by (unfold a, b; lia). rewrite win_app by (unfold a, b; lia).
    assert (E1 : win (RR q) (i + a) 1 = [ua]).
    { rewrite win_cons, win_nil by lia. f_equal. unfold RR. destruct (Z.leb_spec (i + a + 1) (K + ph - q)); [apply WW_high|]; unfold a in *; lia. }
    assert (E2 : win (RR q) (i + a + 1) b = win (RR (q + 1)) (i + a) b).
    { rewrite (win_const _ _ _ ub), (win_const _ _ _ ub); [reflexivity| |]; intros r Hr; unfold RR.
      - destruct (Z.leb_spec (i + a + r) (K + ph - (q + 1))); [unfold a in *; lia|reflexivity].
      - destruct (Z.leb_spec (i + a + 1 + r) (K + ph - q)); [unfold a in *; lia|reflexivity]. }
    assert (E3 : win (RR q) i a = win (RR (q + 1)) i a).
    { apply win_ext. intros r Hr. unfold RR. destruct (Z.leb_spec (i + r) (K + ph - q)), (Z.leb_spec (i + r) (K + ph - (q + 1))); unfold a in *; try lia; reflexivity. }
    rewrite E1, E2, E3. cbn [app]. symmetry. apply Permutation_middle.
Qed.

Lemma left_step q i : 1 <= q -> q + 1 <= ph -> K - q <= i <= K ->
  let al := ((ub - WW j i) / (ua - WW j i))%R in
  vadd (vscale al (FF (j - 1) (win (RR q) i ph))) (vscale (1 - al)%R (FF (j - 1) (win (RR (q + 1)) (i - 1) ph))) =
  FF (j - 1) (win (RR (q + 1)) i ph).
Proof.
  intros Hq Hq' Hi al. destruct (rem_perm q i Hq Hq' Hi) as [E1 E2]. destruct (FF_polar (j - 1) ltac:(lia)) as [Sy Af].
  set (c := win (RR (q + 1)) i (ph - 1)) in *. assert (Lc : len c = ph - 1) by (apply len_win; lia).
  rewrite (Sy _ _ E2) by (apply len_win; lia).
  assert (E3 : win (RR (q + 1)) (i - 1) ph = WW j i :: c).
  { rewrite win_cons by lia. replace (i - 1 + 1) with i by lia. f_equal. unfold RR. destruct (Z.leb_spec i (K + ph - (q + 1))); [reflexivity|lia]. }
  rewrite E3, E1. rewrite (Sy (c ++ [ub]) (ub :: c)) by (try (symmetry; apply Permutation_cons_append); rewrite len_app, Lc; cbn; lia).
  rewrite <- Af; [|ring|exact Lc]. f_equal. f_equal. unfold al. pose proof (WW_low i ltac:(lia)). field. lra.
Qed.

Lemma right_step q i : 1 <= q -> q + 1 <= ph -> K - q <= i <= K ->
  let ga := ((ub - WW j i) / (ub - ua))%R in
  vadd (vscale ga (FF j (win (RR q) i ph))) (vscale (1 - ga)%R (FF j (win (RR (q + 1)) i ph))) =
  FF j (win (RR (q + 1)) (i - 1) ph).
Proof.
  intros Hq Hq' Hi ga. destruct (rem_perm q i Hq Hq' Hi) as [E1 E2]. destruct (FF_polar j ltac:(lia)) as [Sy Af].
  set (c := win (RR (q + 1)) i (ph - 1)) in *. assert (Lc : len c = ph - 1) by (apply len_win; lia).
  rewrite (Sy _ _ E2) by (apply len_win; lia).
  assert (E3 : win (RR (q + 1)) (i - 1) ph = WW j i :: c).
  { rewrite win_cons by lia. replace (i - 1 + 1) with i by lia. f_equal. unfold RR. destruct (Z.leb_spec i (K + ph - (q + 1))); [reflexivity|lia]. }
  rewrite E3, E1. rewrite (Sy (c ++ [ub]) (ub :: c)) by (try (symmetry; apply Permutation_cons_append); rewrite len_app, Lc; cbn; lia).
  rewrite <- Af; [|ring|exact Lc]. f_equal. f_equal. unfold ga. pose proof uab. field. lra.
Qed.

Lemma left_same q i : i < K - q -> win (RR (q + 1)) i ph = win (RR q) i ph.
Proof.
  intros Hi. apply win_ext. intros r Hr. unfold RR. destruct (Z.leb_spec (i + r) (K + ph - (q + 1))), (Z.leb_spec (i + r) (K + ph - q)); try lia; reflexivity.
Qed.

(* points of the new segment: ua..ua ub..ub *)
Lemma right_start q k : 0 <= q -> q <= k <= ph -> win (RR q) (K + k - q) ph = repeat ua (Z.to_nat (ph - k)) ++ repeat ub (Z.to_nat k).
Proof.
  intros Hq Hk. replace ph with ((ph - k) + k) at 1 by lia. rewrite win_app by lia. f_equal; apply win_const; intros r Hr; unfold RR.
  - destruct (Z.leb_spec (K + k - q + r) (K + ph - q)); [apply WW_high|]; lia.
  - destruct (Z.leb_spec (K + k - q + (ph - k) + r) (K + ph - q)); [lia|reflexivity].
Qed.

Lemma WW_same i : i <= K -> WW M i = WW j i.
Proof. intros Hi. unfold WW. f_equal. pose proof (proj2 (seg_le i (j - 1) ltac:(lia)) Hi). lia. Qed.

Variables (h2 NQ NV : Z) (g0 : Z -> T) (Uv : list R).
Hypothesis Hh2 : 2 * h2 <= p <= 2 * h2 + 1.
Hypothesis Hp3 : 3 <= p.
Let cind := K + 1 - h2.
Let lbz := p - h2.
Hypothesis HNQ : cind <= NQ.
Hypothesis HUv : arrD Uv NV (fun i => i <= K) (WW M).
Hypothesis HNV : K < NV.

Definition gl (q i : Z) : T := if i <? K - ph then g0 i else FF (j - 1) (win (RR q) i ph).
Definition gr (q k : Z) : T := FF j (win (RR q) (K + k - q) ph).

Lemma K_big : ph <= K.
Proof. unfold K, KK. nia. Qed.

Lemma remove_round tr Q eb bet : 1 <= tr <= p - 2 ->
  arrD Q NQ (fun i => i < cind) (gl tr) -> arrD eb (ph + 1) (fun k => lbz <= k) (gr tr) -> bet = ((ub - WW j K) / (ub - ua))%R ->
  wp (elevate_remove ub ua (ub - ua)%R bet (K + 1) cind lbz ph (p - 1) tr Uv (K - tr) (K + tr) (Q, eb))
     (fun s => arrD (fst s) NQ (fun i => i < cind) (gl (tr + 1)) /\ arrD (snd s) (ph + 1) (fun k => lbz <= k) (gr (tr + 1))).
Proof.
  intros Htr HQ He Hbet. pose proof K_big as HK. pose proof uab as Hab. unfold elevate_remove. cbn [fst snd]. apply wp_bind.
  apply wp_while with (mu := fun '(_, _, i, jx, _) => Z.to_nat (jx - i)) (I := fun '(Q, eb, i, jx, kj) => exists s, 0 <= s <= tr /\ i = K - tr + s /\ jx = K + tr - s /\ kj = tr - s /\
    arrD Q NQ (fun x => x < cind) (fun x => if x <? i then gl (tr + 1) x else gl tr x) /\
    arrD eb (ph + 1) (fun k => lbz <= k) (fun k => if kj <? k then gr (tr + 1) k else gr tr k)).
  - exists 0. split; [lia|]. split; [lia|]. split; [lia|]. split; [lia|]. split.
    + eapply arrD_ext; [exact HQ|]. intros i Hi Hd. split; [exact Hd|]. cbv beta. destruct (Z.ltb_spec i (K - tr)); [|reflexivity].
      unfold gl. destruct (Z.ltb_spec i (K - ph)); [reflexivity|]. rewrite left_same by lia. reflexivity.
    + eapply arrD_ext; [exact He|]. intros k Hk Hd. split; [exact Hd|]. cbv beta. replace (K + tr - (K + 1) + 1) with tr by lia. destruct (Z.ltb_spec tr k); [|reflexivity].
      unfold gr. rewrite !right_start by lia. reflexivity.
  - lia.
  - intros [[[[Q1 e1] i] jx] kj] (s & Hs & -> & -> & -> & HQ1 & He1). cbn [wp]. destruct (Z.ltb_spec tr (K + tr - s - (K - tr + s))) as [Hlt|Hge].
    + set (i := K - tr + s) in *.
      assert (Hi : K - tr <= i <= K) by (unfold i; lia).
      apply wp_bind. eapply wp_mono with (P := fun Q' => arrD Q' NQ (fun x => x < cind) (fun x => if x <? i + 1 then gl (tr + 1) x else gl tr x)).
      { destruct (Z.ltb_spec i cind).
        - rewrite (arrD_get _ _ _ _ i HUv) by lia. cbn [bind]. rewrite WW_same by lia. num. pose proof (WW_low i ltac:(lia)). rewrite Rdiv_ok by lra. cbn [bind].
          rewrite (arrD_get _ _ _ _ i HQ1) by lia. cbn [bind]. rewrite (arrD_get _ _ _ _ (i - 1) HQ1) by lia. cbn [bind].
          eapply arrD_upd; [exact HQ1|lia|]. intros Q' HQ'. eapply arrD_ext; [exact HQ'|]. intros x Hx Hd. split; [lia|]. cbv beta.
          destruct (Z.eqb_spec x i) as [->|Hne].
          + destruct (Z.ltb_spec i i); [lia|]. destruct (Z.ltb_spec (i - 1) i); [|lia]. destruct (Z.ltb_spec i (i + 1)); [|lia].
            unfold gl. destruct (Z.ltb_spec i (K - ph)); [unfold ph in *; lia|]. destruct (Z.ltb_spec (i - 1) (K - ph)); [unfold ph in *; lia|].
            rewrite <- (left_step tr i) by (unfold ph in *; lia). reflexivity.
          + destruct (Z.ltb_spec x i), (Z.ltb_spec x (i + 1)); try lia; reflexivity.
        - cbn [wp]. eapply arrD_ext; [exact HQ1|]. intros x Hx Hd. split; [exact Hd|]. cbv beta. destruct (Z.ltb_spec x i), (Z.ltb_spec x (i + 1)); try lia; reflexivity. }
      intros Q' HQ'. apply wp_bind. set (k := tr - s) in *.
      eapply wp_mono with (P := fun e' => arrD e' (ph + 1) (fun x => lbz <= x) (fun x => if k - 1 <? x then gr (tr + 1) x else gr tr x)).
      { rewrite (proj2 (Z.leb_le lbz (K + tr - s))) by (unfold lbz, ph in *; lia).
        set (ga := ((ub - WW j (K - s)) / (ub - ua))%R).
        assert (Hset : forall al e', al = ga -> (forall x y, get e1 k = Ok x -> get e1 (k + 1) = Ok y -> wp (upd e1 k (blend ga x y)) e') ->
          wp (let! x := get e1 k in let! y := get e1 (k + 1) in upd e1 k (blend al x y)) e').
        { intros al e' -> H. destruct He1 as [Hl _]. rewrite (get_at vzero e1 k) by (unfold k, ph in *; lia). cbn [bind]. rewrite (get_at vzero e1 (k + 1)) by (unfold k, ph in *; lia). cbn [bind].
          apply H; apply get_at; unfold k, ph in *; lia. }
        assert (Hw : forall x y, get e1 k = Ok x -> get e1 (k + 1) = Ok y ->
          wp (upd e1 k (blend ga x y)) (fun e' => arrD e' (ph + 1) (fun x => lbz <= x) (fun x => if k - 1 <? x then gr (tr + 1) x else gr tr x))).
        { intros x y Gx Gy. eapply arrD_upd; [exact He1|unfold k, ph in *; lia|]. intros e' He'. eapply arrD_ext; [exact He'|]. intros z Hz Hd. split; [lia|]. cbv beta.
          destruct (Z.eqb_spec z k) as [->|Hne].
          - destruct (Z.ltb_spec (k - 1) k); [|lia].
            rewrite (arrD_get _ _ _ _ k He1) in Gx by (unfold k, ph in *; lia). destruct (Z.ltb_spec k k); [lia|]. injection Gx as <-.
            rewrite (arrD_get _ _ _ _ (k + 1) He1) in Gy by (unfold k, ph in *; lia). destruct (Z.ltb_spec k (k + 1)); [|lia]. injection Gy as <-.
            unfold gr. replace (K + k - (tr + 1)) with (K - s - 1) by (unfold k; lia). rewrite <- (right_step tr (K - s)) by (unfold ph in *; lia).
            replace (K + k - tr) with (K - s) by (unfold k; lia). replace (K + (k + 1) - (tr + 1)) with (K - s) by (unfold k; lia). reflexivity.
          - destruct (Z.ltb_spec (k - 1) z), (Z.ltb_spec k z); try lia; reflexivity. }
        replace (K + tr - s - tr) with (K - s) by lia. replace (K + 1 - ph + (p - 1)) with (K - t) by (unfold ph; lia).
        destruct (Z.leb_spec (K - s) (K - t)).
        - rewrite (arrD_get _ _ _ _ (K - s) HUv) by (unfold ph in *; lia). cbn [bind]. rewrite WW_same by lia. num. rewrite Rdiv_ok by lra. cbn [bind].
          apply Hset; [reflexivity|exact Hw].
        - apply Hset; [|exact Hw]. rewrite Hbet. unfold ga. do 2 f_equal. unfold WW. f_equal. f_equal.
          destruct (Z.eq_dec j 1) as [E|E].
          + assert (EK : K = KK 0) by (unfold K; f_equal; lia). pose proof (proj2 (seg_le K 0 ltac:(lia)) ltac:(lia)). pose proof (proj2 (seg_le (K - s) 0 ltac:(lia)) ltac:(lia)). pose proof (seg_pos K). pose proof (seg_pos (K - s)). lia.
          + assert (EK : K = KK (j - 1 - 1) + (t + 1)) by (unfold K; rewrite <- KK_succ; f_equal; lia). rewrite (seg_eq K (j - 1)), (seg_eq (K - s) (j - 1)); try lia; fold K; lia. }
      intros e' He'. cbn [wp]. split; [|lia]. exists (s + 1). split; [lia|]. split; [unfold i; lia|]. split; [lia|]. split; [unfold k; lia|]. split; [|exact He'].
      exact HQ'.
    + cbn [wp fst snd]. split.
      * eapply arrD_ext; [exact HQ1|]. intros x Hx Hd. split; [exact Hd|]. cbv beta. destruct (Z.ltb_spec x (K - tr + s)); [reflexivity|unfold cind in *; lia].
      * eapply arrD_ext; [exact He1|]. intros x Hx Hd. split; [exact Hd|]. cbv beta. destruct (Z.ltb_spec (tr - s) x); [reflexivity|unfold lbz in *; lia].
Qed.
End Remove.

(* ------------------------------------------------------------------ *)
(** * One pass of the main loop *)

Variable h2 : Z.
Hypothesis Hh2 : 2 * h2 <= p <= 2 * h2 + 1.

Definition ekind (j : Z) := if j =? 0 then ph + 1 else KK (j - 1) + 1.
Definition eci (j : Z) := if j =? 0 then 1 else KK (j - 1) + 1 - h2.
Definition eoldr (j : Z) := if j =? 0 then -1 else p - 1.
Definition elbz (j : Z) := if j =? 0 then 1 else p - h2.
Let NQ := KK M - t.
Let NV := KK M + p + 1.

Lemma seg_points a k : fin p U P a k = bl (val U) p (pt P) (repeat (val U a) (Z.to_nat (p - k)) ++ repeat (val U (a + 1)) (Z.to_nat k)) a.
Proof. reflexivity. Qed.

(* the elevated Bezier points *)
Lemma ebpts_ok j lbz B bpts (Q : list T -> Prop) : 0 <= lbz -> lbz <= ph + 1 ->
  arr2D B (ph + 1) (p + 1) (erange p t) (ecoef p t) -> arr bpts (p + 1) (fin p U P (p + j)) ->
  (forall eb, arrD eb (ph + 1) (fun k => lbz <= k) (fun k => FF j (repeat (brk j) (Z.to_nat (ph - k)) ++ repeat (brk (j + 1)) (Z.to_nat k))) -> Q eb) ->
  wp (let! ebpts := mkvec (ph + 1) vzero in
      for_up lbz (ph + 1) ebpts (fun i ebpts =>
        let! ebpts := upd ebpts i vzero in
        let mpi := Z.min p i in
        for_up (Z.max 0 (i - t)) (mpi + 1) ebpts (fun j ebpts =>
          let! c := get2 B i j in
          let! x := get bpts j in
          let! e := get ebpts i in
          upd ebpts i (vadd e (vscale c x))))) Q.
Proof.
  intros Hl Hl' HB Hb HQ. apply wp_bind, wp_mkvec; [unfold ph; lia|]. intros e0 He0.
  set (G := fun k => FF j (repeat (brk j) (Z.to_nat (ph - k)) ++ repeat (brk (j + 1)) (Z.to_nat k))).
  assert (EG : forall k, 0 <= k <= ph -> G k = comb (Z.max 0 (k - t)) (Z.min p k + 1) (ecoef p t k) (fin p U P (p + j))).
  { intros k Hk. unfold G, FF. pose proof (elev_two p (Z.to_nat t) (fun l => bl (val U) p (pt P) l (p + j)) (brk j) (brk (j + 1)) k ltac:(lia) ltac:(unfold ph in *; lia)) as E.
    rewrite Z2Nat.id in E by lia. fold ph in E. rewrite E. rewrite (comb_restrict 0 (p + 1) (Z.max 0 (k - t)) (Z.min p k + 1)); [|lia|unfold ph in *; lia|lia|].
    - apply comb_ext. intros i Hi. split; [reflexivity|]. unfold fin, brk. replace (p + (j + 1)) with (p + j + 1) by lia. reflexivity.
    - intros i Hi Hor. unfold ecoef, Cbz. destruct (Z.leb_spec 0 (k - i)), (Z.leb_spec (k - i) t); cbn [andb]; try lia; ring. }
  apply wp_for_up with (P := fun i e => arrD e (ph + 1) (fun k => lbz <= k < i) G); [lia| | |].
  - eapply arrD_ext; [apply arrD_of_arr; exact He0|]. instantiate (1 := fun _ => False). intros; lia.
  - intros i e Hi He. apply wp_bind. eapply arrD_upd; [exact He|lia|]. intros e1 He1.
    apply wp_for_up with (P := fun h e => arrD e (ph + 1) (fun k => lbz <= k <= i) (fun k => if k =? i then comb (Z.max 0 (i - t)) h (ecoef p t i) (fin p U P (p + j)) else G k)); [unfold ph in *; lia| | |].
    + eapply arrD_ext; [exact He1|]. intros k Hk Hd. split; [lia|]. cbv beta. destruct (Z.eqb_spec k i); [|reflexivity]. unfold comb. rewrite vsum_nil by lia. reflexivity.
    + intros x e2 Hx He2. rewrite (arr2D_get _ _ _ _ _ i x HB) by (unfold erange; lia). cbn [bind]. wget Hb. rewrite (arrD_get _ _ _ _ i He2) by lia. cbn [bind].
      rewrite Z.eqb_refl. eapply arrD_upd; [exact He2|lia|]. intros e3 He3. eapply arrD_ext; [exact He3|]. intros k Hk Hd. split; [lia|]. cbv beta.
      destruct (Z.eqb_spec k i) as [->|]; [|reflexivity]. unfold comb. rewrite vsum_last by lia. reflexivity.
    + intros e2 He2. eapply arrD_ext; [exact He2|]. intros k Hk Hd. split; [lia|]. cbv beta. destruct (Z.eqb_spec k i) as [->|]; [|reflexivity]. symmetry. apply EG. lia.
  - intros e He. apply HQ. eapply arrD_ext; [exact He|]. intros k Hk Hd. split; [lia|reflexivity].
Qed.

(* all rounds of removal *)
Lemma removal_ok j Q eb g Uv (Qp : list T * list T -> Prop) : 1 <= j < M ->
  arrD Q NQ (fun i => i < eci j) g -> (forall i, KK (j - 1) - ph <= i < eci j -> g i = FF (j - 1) (win (WW j) i ph)) ->
  arrD eb (ph + 1) (fun k => elbz j <= k) (fun k => FF j (repeat (brk j) (Z.to_nat (ph - k)) ++ repeat (brk (j + 1)) (Z.to_nat k))) ->
  arrD Uv NV (fun i => i < ekind j) (WW M) ->
  (forall Q' eb', arrD Q' NQ (fun i => i < eci j) (fun i => if i <? KK (j - 1) - ph then g i else FF (j - 1) (win (WW (j + 1)) i ph)) ->
     arrD eb' (ph + 1) (fun k => elbz j <= k) (fun k => FF j (win (WW (j + 1)) (eci j + k - elbz j) ph)) -> Qp (Q', eb')) ->
  wp (if 1 <? p - 1 then
    let first := ekind j - 2 in
    let last := ekind j in
    let den := nsub (brk (j + 1)) (brk j) in
    let! uk := get Uv (ekind j - 1) in
    let! bet := ndiv (nsub (brk (j + 1)) uk) den in
    let! s2 := for_up 1 (p - 1) (Q, eb, first, last) (fun tr '(Q, ebpts, first, last) =>
      let! s' := elevate_remove (brk (j + 1)) (brk j) den bet (ekind j) (eci j) (elbz j) ph (p - 1) tr Uv first last (Q, ebpts) in
      Ok (fst s', snd s', first - 1, last + 1)) in
    let '(Q, ebpts, _, _) := s2 in
    Ok (Q, ebpts)
    else Ok (Q, eb)) Qp.
Proof.
  intros Hj HQ Hg He HUv HQp. set (K := KK (j - 1)) in *.
  assert (Ek : ekind j = K + 1) by (unfold ekind; destruct (Z.eqb_spec j 0); [lia|reflexivity]).
  assert (Ec : eci j = K + 1 - h2) by (unfold eci; destruct (Z.eqb_spec j 0); [lia|reflexivity]).
  assert (El : elbz j = p - h2) by (unfold elbz; destruct (Z.eqb_spec j 0); [lia|reflexivity]).
  pose proof (K_big j Hj h2 Hh2) as HK. fold K in HK.
  assert (HKM : K + (t + 1) <= KK M) by (unfold K; rewrite <- KK_succ; apply KK_mono; lia).
  assert (Ek' : forall k, eci j + k - elbz j = K + k - (p - 1)) by (intros; lia).
  set (q0 := Z.min 1 (p - 1)).
  assert (HQ0 : arrD Q NQ (fun i => i < eci j) (gl j g q0)).
  { eapply arrD_ext; [exact HQ|]. intros i Hi Hd. split; [exact Hd|]. unfold gl. fold K. destruct (Z.ltb_spec i (K - ph)); [reflexivity|]. rewrite Hg by lia. f_equal.
    apply win_ext. intros r Hr. unfold RR. fold K. destruct (Z.leb_spec (i + r) (K + ph - q0)); [reflexivity|unfold q0 in *; lia]. }
  assert (HE0 : arrD eb (ph + 1) (fun k => elbz j <= k) (gr j q0)).
  { eapply arrD_ext; [exact He|]. intros k Hk Hd. split; [exact Hd|]. unfold gr. fold K. rewrite right_start by (unfold q0, ph in *; lia). reflexivity. }
  assert (Hend : forall Q' eb', arrD Q' NQ (fun i => i < eci j) (gl j g (p - 1)) -> arrD eb' (ph + 1) (fun k => elbz j <= k) (gr j (p - 1)) -> Qp (Q', eb')).
  { intros Q' eb' H1 H2. apply HQp.
    - eapply arrD_ext; [exact H1|]. intros i Hi Hd. split; [exact Hd|]. unfold gl. fold K. destruct (Z.ltb_spec i (K - ph)); [reflexivity|]. f_equal. apply win_ext. intros r Hr. apply RR_final. lia.
    - eapply arrD_ext; [exact H2|]. intros k Hk Hd. split; [exact Hd|]. unfold gr. fold K. rewrite (Ek' k). f_equal. apply win_ext. intros r Hr. apply RR_final. lia. }
  destruct (Z.ltb_spec 1 (p - 1)) as [Hp2|Hp2].
  2:{ cbn [wp]. replace q0 with (p - 1) in * by (unfold q0; lia). apply Hend; assumption. }
  replace q0 with 1 in * by (unfold q0; lia). pose proof (uab j Hj) as Hab.
  assert (HUv' : arrD Uv NV (fun i => i <= K) (WW M)) by (eapply arrD_ext; [exact HUv|]; intros i Hi Hd; split; [lia|reflexivity]).
  rewrite Ek, Ec, El in *. cbv zeta. replace (K + 1 - 1) with K by lia. rewrite (arrD_get _ _ _ _ K HUv') by (unfold NV; lia). cbn [bind]. rewrite (WW_same j Hj) by (fold K; lia). num. rewrite Rdiv_ok by lra. cbn [bind].
  apply wp_bind. apply wp_for_up with (P := fun tr '(Q, eb, first, last) => first = K - tr /\ last = K + tr /\ arrD Q NQ (fun i => i < K + 1 - h2) (gl j g tr) /\ arrD eb (ph + 1) (fun k => p - h2 <= k) (gr j tr)).
  - lia.
  - split; [lia|]. split; [lia|]. split; assumption.
  - intros tr [[[Q1 e1] first] last] Htr (-> & -> & HQ1 & He1). apply wp_bind. eapply wp_mono.
    { apply (remove_round j Hj h2 NQ NV g Uv Hh2 ltac:(lia)); [fold K; unfold NQ; lia|exact HUv'|fold K; unfold NV; lia|lia|exact HQ1|exact He1|reflexivity]. }
    cbv beta. intros [Q2 e2] [H1 H2]. cbn [wp fst snd] in *. split; [lia|]. split; [lia|]. split; assumption.
  - intros [[[Q1 e1] first] last] (_ & _ & H1 & H2). cbn [wp]. apply Hend; assumption.
Qed.

(* the knots of a run *)
Lemma erun_ok j (Q : Z -> Prop) : 0 <= j < M -> (j < M - 1 -> Q (p + j + 1)) -> (j = M - 1 -> Q m) ->
  wp (while_ (length U) (fun b => if b <? m then let! x := get U b in let! y := get U (b + 1) in Ok (IsAlmostEqualTo x y) else Ok false)
    (p + j + 1) (fun b => Ok (b + 1))) Q.
Proof.
  intros Hj HQ HQ'. assert (Hend : forall x, p + j + 1 <= x <= m -> (forall i, p + j + 1 <= i <= x -> val U i = val U (p + j + 1)) -> x = m \/ (x < m /\ (val U x < val U (x + 1))%R) -> Q x).
  { intros x Hx He Hx'. destruct (run_cases p n U HU Hcl (p + j) x) as [[E1 E2]|(E1 & E2 & E3 & E4)]; [unfold M in *; lia|apply Hsim; unfold M in *; lia|exact Hx|exact He|exact Hx'| |].
    - unfold m. rewrite E1. apply HQ'. unfold M. lia.
    - destruct (Z.eq_dec x (p + j + 1)) as [->|]; [apply HQ; unfold M in *; lia|]. exfalso. pose proof (Hsim (p + j + 1) ltac:(lia)). rewrite (He (p + j + 1 + 1)) in H by lia. lra. }
  apply wp_while with (I := fun x => p + j + 1 <= x <= m /\ forall i, p + j + 1 <= i <= x -> val U i = val U (p + j + 1)) (mu := fun x => Z.to_nat (m - x)).
  - split; [unfold m, M in *; lia|]. intros i Hi. replace i with (p + j + 1) by lia. reflexivity.
  - unfold len in HL. unfold m, M in *. lia.
  - intros x [Hx He]. destruct (Z.ltb_spec x m).
    + pose proof (AU p n U HU) as AU. fold m in AU. wget AU. wget AU. rewrite (knot_aeq p n U HU Hap) by (fold m; lia). destruct (Req_EM_T (val U x) (val U (x + 1))) as [E|E]; cbn [wp].
      * split; [|lia]. split; [lia|]. intros i Hi. destruct (Z.eq_dec i (x + 1)) as [->|]; [rewrite <- E; apply He; lia|apply He; lia].
      * apply Hend; auto. right. split; [lia|]. pose proof (HS x (x + 1) ltac:(lia) ltac:(lia) ltac:(rewrite HL; unfold m in *; lia)). lra.
    + cbn [wp]. apply Hend; auto. left. lia.
Qed.

(* the Bezier points of a segment, and the first points of the next one *)
Lemma extract_ok j bpts next (Q : list T * list T -> Prop) : 0 <= j < M - 1 ->
  arr bpts (p + 1) (cur p U P (p + j)) -> len next = p - 1 ->
  (forall b' nx', arr b' (p + 1) (fin p U P (p + j)) -> arr nx' (p - 1) (cur p U P (p + j + 1)) -> Q (b', nx')) ->
  wp (if 0 <? p - 1 then
    let numer := nsub (val U (p + j + 1)) (brk j) in
    let! alfs := mkvec (p - 1) n0 in
    let! alfs := for_down p (1 + 1) alfs (fun k alfs =>
      let! x := get U (p + j + k) in
      let! q := ndiv numer (nsub x (brk j)) in
      upd alfs (k - 1 - 1) q) in
    for_up 1 (p - 1 + 1) (bpts, next) (fun j '(bpts, nextbpts) =>
      let save := p - 1 - j in
      let s := 1 + j in
      let! bpts := for_down p s bpts (fun k bpts =>
        let! al := get alfs (k - s) in
        let! x := get bpts k in
        let! y := get bpts (k - 1) in
        upd bpts k (blend al x y)) in
      let! x := get bpts p in
      let! nextbpts := upd nextbpts save x in
      Ok (bpts, nextbpts))
    else Ok (bpts, next)) Q.
Proof.
  intros Hj Hb Hn HQ. set (a := p + j) in *.
  assert (Ha : p <= a <= n) by (unfold a, M in *; lia).
  assert (Hlt : (val U a < val U (a + 1))%R) by (apply Hsim; lia).
  assert (Hb1 : a + 1 <= a + 1 <= n) by (unfold a, M in *; lia).
  assert (He : forall i, a + 1 <= i <= a + 1 -> val U i = val U (a + 1)) by (intros i Hi; f_equal; lia).
  assert (Hlt' : (val U (a + 1) < val U (a + 1 + 1))%R) by (apply Hsim; lia).
  pose proof (mid_step p n U P HU a (a + 1) Ha Hlt Hb1 He) as MS. pose proof (mid_next p n U P HU a (a + 1) Ha Hlt Hb1 He Hlt') as MN.
  pose proof (mid_0 p n U P a (a + 1) Hb1 He) as M0. pose proof (mid_end p n U P a (a + 1)) as ME. pose proof (mid_low p n U P a (a + 1)) as ML.
  replace (a + 1 - a) with 1 in * by lia.
  destruct (Z.ltb_spec 0 (p - 1)) as [Hp|Hp].
  2:{ cbn [wp]. apply HQ.
      - eapply arr_ext; [exact Hb|]. intros k Hk. rewrite <- M0, <- ME by lia. f_equal. lia.
      - split; [lia|]. intros k Hk. lia. }
  pose proof (AU p n U HU) as AU. fold m in AU. cbv zeta. num. change (brk j) with (val U a).
  set (alf := fun x => ((val U (a + 1) - val U a) / (val U (a + (x + 1 + 1)) - val U a))%R).
  apply wp_bind. apply wp_mkvec; [lia|]. intros v0 Hv0. apply wp_bind.
  apply wp_for_down with (P := fun k v => arrD v (p - 1) (fun x => k - 1 <= x <= p - 2) alf); [lia| | |].
  { eapply arrD_ext; [apply arrD_of_arr; exact Hv0|]. instantiate (1 := fun _ => False). intros; lia. }
  { intros k v Hk Hv. assert (Hm' : a + k <= m) by (unfold m; lia). wget AU.
    pose proof (HS (a + 1) (a + k) ltac:(lia) ltac:(lia) ltac:(rewrite HL; lia)). rewrite Rdiv_ok by lra. cbn [bind].
    eapply arrD_set; [exact Hv|lia| | |intros v' Hv'; exact Hv'].
    - unfold alf. replace (k - 1 - 1 + 1 + 1) with k by lia. reflexivity.
    - dl. }
  intros al Hal.
  apply wp_for_up with (P := fun h '(b, nx) => arr b (p + 1) (mid p U P a (a + 1) (h - 1)) /\ arrD nx (p - 1) (fun x => p - h <= x) (cur p U P (a + 1))); [lia| | |].
  { split; [|split; [exact Hn|]; intros; lia]. eapply arr_ext; [exact Hb|]. intros k Hk. symmetry. apply M0. lia. }
  { intros h [b nx] Hh [Hb' Hnx]. apply wp_bind.
    apply wp_for_down with (P := fun k b => arr b (p + 1) (fun x => if k <? x then mid p U P a (a + 1) h x else mid p U P a (a + 1) (h - 1) x)); [lia| | |].
    { eapply arr_ext; [exact Hb'|]. intros k Hk. cbv beta. destruct (Z.ltb_spec p k); [lia|reflexivity]. }
    { intros k b2 Hk Hb2. rewrite (arrD_get _ _ _ _ (k - (1 + h)) Hal) by lia. cbn [bind]. wget Hb2. wget Hb2. rewrite Z.ltb_irrefl. destruct (Z.ltb_spec k (k - 1)); [lia|].
      eapply arr_upd; [exact Hb2|lia|]. intros b3 Hb3. eapply arr_ext; [exact Hb3|]. intros x Hx. cbv beta.
      destruct (Z.eqb_spec x k) as [->|Hne].
      - destruct (Z.ltb_spec (k - 1) k); [|lia]. rewrite <- (MS h k) by lia. unfold alf, blend. replace (k - (1 + h) + 1 + 1) with (k - h + 1) by lia. reflexivity.
      - destruct (Z.ltb_spec (k - 1) x), (Z.ltb_spec k x); try lia; reflexivity. }
    intros b2 Hb2. wget Hb2. destruct (Z.ltb_spec (1 + h - 1) p); [|lia]. apply wp_bind.
    eapply arrD_set with (D' := fun x => p - (h + 1) <= x); [exact Hnx|lia| | |].
    - rewrite MN by lia. f_equal.
    - dl.
    - intros nx' Hnx'. cbn [wp]. split; [|exact Hnx']. eapply arr_ext; [exact Hb2|]. intros k Hk. cbv beta. replace (h + 1 - 1) with h by lia. destruct (Z.ltb_spec (1 + h - 1) k); [reflexivity|].
      rewrite !ML by lia. reflexivity. }
  intros [b nx] [H1 H2]. apply HQ.
  - eapply arr_ext; [exact H1|]. intros k Hk. rewrite <- (ME k) by lia. f_equal. lia.
  - eapply arr_of_arrD; [exact H2|]. intros i Hi. cbv beta. lia.
Qed.

Definition Qok (j : Z) (g : Z -> T) : Prop :=
  (j = 0 -> g 0 = pt P 0) /\
  forall jj i, 0 <= jj < j -> KK jj - ph <= i <= KK jj -> i < eci j -> g i = FF jj (win (WW j) i ph).

Lemma eci_pos j : 0 <= j -> 1 <= eci j.
Proof. intros Hj. unfold eci. destruct (Z.eqb_spec j 0); [lia|]. unfold KK, ph. nia. Qed.

(* the written points are the right ones *)
Lemma Qok_next j g c : 0 <= j < M -> Qok j g ->
  (forall jj i, 0 <= jj < j + 1 -> KK jj - ph <= i <= KK jj -> i < c ->
     (if i <? eci j then (if j =? 0 then g i else if i <? KK (j - 1) - ph then g i else FF (j - 1) (win (WW (j + 1)) i ph)) else FF j (win (WW (j + 1)) i ph))
     = FF jj (win (WW (j + 1)) i ph)).
Proof.
  intros Hj [Q0 Q1] jj i Hjj Hi Hc. pose proof (eci_pos j ltac:(lia)) as Hec.
  assert (HWx : forall x, seg x <= j -> WW (j + 1) x = brk (seg x)) by (intros x Hx; unfold WW; f_equal; lia).
  assert (HSx : forall x k, 0 <= k -> x <= KK k -> seg x <= k) by (intros x k Hk Hx; apply seg_le; lia).
  destruct (Z.eqb_spec j 0) as [->|Hj0].
  - assert (jj = 0) as -> by lia. destruct (Z.ltb_spec i (eci 0)) as [Hi0|]; [|reflexivity]. unfold eci in Hi0. cbn in Hi0. assert (i = 0) as -> by (unfold KK in *; lia).
    rewrite Q0 by reflexivity. rewrite (win_const _ 0 ph (brk 0)).
    + rewrite FF_diag. rewrite <- (bl_knots (val U) (p + 0) p (pt P) 0) at 1; [|lia|apply seg_good; lia|lia]. f_equal. apply win_const. intros r Hr. unfold brk. rewrite Z.add_0_r. apply (first_run p n U HU Hcl). lia.
    + intros r Hr. rewrite HWx; [f_equal|]; pose proof (HSx (0 + r) 0 ltac:(lia) ltac:(unfold KK; lia)); pose proof (seg_pos (0 + r)); lia.
  - assert (Ec : eci j = KK (j - 1) + 1 - h2) by (unfold eci; destruct (Z.eqb_spec j 0); [lia|reflexivity]).
    assert (EK : KK j = KK (j - 1) + (t + 1)) by (rewrite <- KK_succ; f_equal; lia).
    destruct (Z.ltb_spec i (eci j)) as [Hi1|Hi1].
    + destruct (Z.ltb_spec i (KK (j - 1) - ph)) as [Hi2|Hi2].
      * assert (Hjj' : jj < j) by (destruct (Z.eq_dec jj j) as [->|]; lia). rewrite (Q1 jj i) by lia. f_equal. apply win_ext. intros r Hr.
        pose proof (HSx (i + r) (j - 1) ltac:(lia) ltac:(lia)). unfold WW. f_equal. lia.
      * destruct (Z.eq_dec jj j) as [->|Hne].
        -- apply FF_chain; try lia. intros x Hx. apply HWx. apply HSx; lia.
        -- symmetry. pose proof (KK_mono jj (j - 1) ltac:(lia)). apply FF_chain; try lia. intros x Hx. apply HWx. apply HSx; lia.
    + symmetry. apply FF_chain; try lia. intros x Hx. apply HWx. apply HSx; lia.
Qed.

(* from the segment's Bezier points to the written knots and points *)
Lemma core_ok {X} j rbz B bpts Qs Us g (kont : list T -> Z -> list R -> Z -> res X) (G : X -> Prop) : 0 <= j < M ->
  elbz j <= rbz + 1 -> rbz <= ph -> eci j + (rbz + 1 - elbz j) <= NQ ->
  arr2D B (ph + 1) (p + 1) (erange p t) (ecoef p t) -> arr bpts (p + 1) (fin p U P (p + j)) ->
  arrD Us NV (fun i => i < ekind j) (WW M) -> arrD Qs NQ (fun i => i < eci j) g -> Qok j g ->
  (forall Q U', let c := eci j + (rbz + 1 - elbz j) in
     arrD U' NV (fun i => i < KK j + 1) (WW M) ->
     (exists g', arrD Q NQ (fun i => i < c) g' /\ forall jj i, 0 <= jj < j + 1 -> KK jj - ph <= i <= KK jj -> i < c -> g' i = FF jj (win (WW (j + 1)) i ph)) ->
     wp (kont Q c U' (KK j + 1)) G) ->
  wp (let! ebpts := mkvec (ph + 1) vzero in
      let! ebpts := for_up (elbz j) (ph + 1) ebpts (fun i ebpts =>
        let! ebpts := upd ebpts i vzero in
        let mpi := Z.min p i in
        for_up (Z.max 0 (i - t)) (mpi + 1) ebpts (fun j ebpts =>
          let! c := get2 B i j in
          let! x := get bpts j in
          let! e := get ebpts i in
          upd ebpts i (vadd e (vscale c x)))) in
      let! s2 := (if 1 <? eoldr j then
        let first := ekind j - 2 in
        let last := ekind j in
        let den := nsub (brk (j + 1)) (brk j) in
        let! uk := get Us (ekind j - 1) in
        let! bet := ndiv (nsub (brk (j + 1)) uk) den in
        let! s2 := for_up 1 (eoldr j) (Qs, ebpts, first, last) (fun tr '(Q, ebpts, first, last) =>
          let! s' := elevate_remove (brk (j + 1)) (brk j) den bet (ekind j) (eci j) (elbz j) ph (eoldr j) tr Us first last (Q, ebpts) in
          Ok (fst s', snd s', first - 1, last + 1)) in
        let '(Q, ebpts, _, _) := s2 in
        Ok (Q, ebpts)
        else Ok (Qs, ebpts)) in
      let '(Q, ebpts) := s2 in
      let! s3 := (if negb (p + j =? p)
        then for_up 0 (ph - eoldr j) (Us, ekind j) (fun _ '(U, kind) =>
          let! U := upd U kind (brk j) in Ok (U, kind + 1))
        else Ok (Us, ekind j)) in
      let '(U, kind) := s3 in
      let! s4 := for_up (elbz j) (rbz + 1) (Q, eci j) (fun j '(Q, cind) =>
        let! x := get ebpts j in
        let! Q := upd Q cind x in
        Ok (Q, cind + 1)) in
      let '(Q, cind) := s4 in kont Q cind U kind) G.
Proof.
  intros Hj Hr1 Hr2 Hc HB Hb HUs HQs HQok HG. pose proof (eci_pos j ltac:(lia)) as Hec.
  assert (Hlb : 1 <= elbz j <= p) by (unfold elbz; destruct (Z.eqb_spec j 0); lia).
  rewrite <- bind_assoc. apply wp_bind. apply (ebpts_ok j (elbz j) B bpts); [lia|unfold ph; lia|exact HB|exact Hb|]. intros eb Heb.
  set (gq := fun i => if j =? 0 then g i else if i <? KK (j - 1) - ph then g i else FF (j - 1) (win (WW (j + 1)) i ph)).
  apply wp_bind. eapply wp_mono with (P := fun s => arrD (fst s) NQ (fun i => i < eci j) gq /\ arrD (snd s) (ph + 1) (fun k => elbz j <= k) (fun k => FF j (win (WW (j + 1)) (eci j + k - elbz j) ph))).
  { destruct (Z.eq_dec j 0) as [->|Hj0].
    - change (eoldr 0) with (-1). cbn [Z.ltb Z.compare wp fst snd]. split.
      + eapply arrD_ext; [exact HQs|]. intros i Hi Hd. split; [exact Hd|]. reflexivity.
      + eapply arrD_ext; [exact Heb|]. intros k Hk Hd. split; [exact Hd|]. cbv beta. f_equal. change (eci 0) with 1. change (elbz 0) with 1. replace (1 + k - 1) with k by lia.
        replace ph with ((ph - k) + k) at 2 by lia. rewrite win_app by lia. symmetry. f_equal; apply win_const; intros r Hr; unfold WW; f_equal.
        * pose proof (proj2 (seg_le (k + r) 0 ltac:(lia)) ltac:(unfold KK; lia)). pose proof (seg_pos (k + r)). lia.
        * pose proof (proj1 (seg_le (k + (ph - k) + r) 0 ltac:(lia))) as H. destruct (Z_le_gt_dec 1 (seg (k + (ph - k) + r))); [lia|]. specialize (H ltac:(lia)). unfold KK in H. lia.
    - assert (Eo : eoldr j = p - 1) by (unfold eoldr; destruct (Z.eqb_spec j 0); [lia|reflexivity]). rewrite Eo.
      apply (removal_ok j Qs eb g Us); [lia|exact HQs| |exact Heb|exact HUs|].
      + intros i Hi. apply (proj2 HQok); [lia| |lia]. destruct Hi as [H1 H2]. unfold eci in H2. destruct (Z.eqb_spec j 0); lia.
      + intros Q' eb' H1 H2. cbn [fst snd]. split; [|exact H2]. eapply arrD_ext; [exact H1|]. intros i Hi Hd. split; [exact Hd|]. unfold gq. destruct (Z.eqb_spec j 0); [lia|reflexivity]. }
  cbv beta. intros [Q1 eb1] [HQ1 He1]. cbn [fst snd] in HQ1, He1.
  apply wp_bind. eapply wp_mono with (P := fun s => snd s = KK j + 1 /\ arrD (fst s) NV (fun i => i < KK j + 1) (WW M)).
  { destruct (Z.eqb_spec (p + j) p) as [E|E]; cbn [negb].
    - assert (j = 0) as -> by lia. cbn [wp fst snd]. unfold ekind in *. cbn [Z.eqb] in *. split; [unfold KK; lia|]. eapply arrD_ext; [exact HUs|]. intros i Hi Hd. split; [|reflexivity]. unfold KK in Hd. lia.
    - assert (Ek : ekind j = KK (j - 1) + 1) by (unfold ekind; destruct (Z.eqb_spec j 0); [lia|reflexivity]).
      assert (Eo : eoldr j = p - 1) by (unfold eoldr; destruct (Z.eqb_spec j 0); [lia|reflexivity]). rewrite Eo, Ek in *. clear Ek Eo.
      assert (EK : KK j = KK (j - 1) + (t + 1)) by (rewrite <- KK_succ; f_equal; lia). pose proof (KK_mono j M ltac:(lia)). assert (0 <= KK (j - 1)) by (unfold KK, ph; nia).
      apply wp_for_up with (P := fun h '(U, kind) => kind = KK (j - 1) + 1 + h /\ arrD U NV (fun i => i < KK (j - 1) + 1 + h) (WW M)).
      + unfold ph. lia.
      + split; [lia|]. eapply arrD_ext; [exact HUs|]. intros i Hi Hd. split; [lia|reflexivity].
      + intros h [U1 k1] Hh [-> HU1]. apply wp_bind. eapply arrD_set with (D' := fun i => i < KK (j - 1) + 1 + (h + 1)); [exact HU1|unfold NV, ph in *; lia| |dl|].
        * unfold WW. rewrite (seg_eq _ j) by (unfold ph in *; lia). f_equal. lia.
        * intros U2 HU2. cbn [wp]. split; [lia|exact HU2].
      + intros [U1 k1] [-> HU1]. cbn [fst snd]. replace (KK (j - 1) + 1 + (ph - (p - 1))) with (KK j + 1) in * by (unfold ph; lia). split; [reflexivity|exact HU1]. }
  cbv beta. intros [U1 k1] [Ek HU1]. cbn [fst snd] in Ek, HU1. subst k1.
  set (g' := fun i => if i <? eci j then gq i else FF j (win (WW (j + 1)) i ph)).
  apply wp_bind. apply wp_for_up with (P := fun h '(Q, c) => c = eci j + (h - elbz j) /\ arrD Q NQ (fun i => i < eci j + (h - elbz j)) g').
  - exact Hr1.
  - split; [lia|]. eapply arrD_ext; [exact HQ1|]. intros i Hi Hd. split; [lia|]. unfold g'. destruct (Z.ltb_spec i (eci j)); [reflexivity|lia].
  - intros h [Q2 c] Hh [-> HQ2]. rewrite (arrD_get _ _ _ _ h He1) by lia. cbn [bind]. apply wp_bind.
    eapply arrD_set with (D' := fun i => i < eci j + (h + 1 - elbz j)); [exact HQ2|lia| |dl|].
    + unfold g'. destruct (Z.ltb_spec (eci j + (h - elbz j)) (eci j)); [lia|]. do 2 f_equal. lia.
    + intros Q3 HQ3. cbn [wp]. split; [lia|exact HQ3].
  - intros [Q2 c] [-> HQ2]. apply HG; [exact HU1|]. exists g'. split; [exact HQ2|]. intros jj i H1 H2 H3. apply (Qok_next j g (eci j + (rbz + 1 - elbz j))); auto.
Qed.

Definition Inv (j : Z) (s : @estate R T) : Prop :=
  e_a s = p + j /\ e_b s = p + j + 1 /\ e_ua s = brk j /\ e_kind s = ekind j /\ e_r s = eoldr j /\ e_cind s = eci j /\
  arrD (e_U s) NV (fun i => i < ekind j) (WW M) /\ (exists g, arrD (e_Q s) NQ (fun i => i < eci j) g /\ Qok j g) /\
  arr (e_bpts s) (p + 1) (cur p U P (p + j)) /\ len (e_next s) = p - 1.

Definition Fin (s : @estate R T) : Prop :=
  e_b s = m /\ arr (e_U s) NV (WW M) /\
  exists g, arr (e_Q s) NQ g /\ forall jj i, 0 <= jj < M -> KK jj - ph <= i <= KK jj -> i < NQ -> g i = FF jj (win (WW M) i ph).

Lemma quot_half x : 0 <= x -> 2 * Z.quot x 2 <= x <= 2 * Z.quot x 2 + 1.
Proof. clear. intros Hx. rewrite Z.quot_div_nonneg by lia. pose proof (Z.div_mod x 2 ltac:(lia)). pose proof (Z.mod_pos_bound x 2 ltac:(lia)). lia. Qed.

Lemma body_ok j B s : 0 <= j < M -> arr2D B (ph + 1) (p + 1) (erange p t) (ecoef p t) -> Inv j s ->
  wp (elevate_body p t m B U P s) (fun s' => (j < M - 1 /\ Inv (j + 1) s') \/ (j = M - 1 /\ Fin s')).
Proof.
  intros Hj HB HI. destruct s as [mh kind r a b ci ua Q Us bpts next]. unfold Inv in HI. cbn [e_a e_b e_ua e_kind e_r e_cind e_U e_Q e_bpts e_next] in HI.
  destruct HI as (-> & -> & -> & -> & -> & -> & HUs & (g & HQ & Hg) & Hb & Hn). unfold elevate_body. cbn [e_mh e_a e_b e_ua e_kind e_r e_cind e_U e_Q e_bpts e_next].
  assert (El : (if 0 <? eoldr j then Z.quot (eoldr j + 2) 2 else 1) = elbz j).
  { unfold eoldr, elbz. destruct (Z.eqb_spec j 0); [reflexivity|]. destruct (Z.ltb_spec 0 (p - 1)); [|lia]. pose proof (quot_half (p - 1 + 2) ltac:(lia)). lia. }
  cbv zeta. rewrite El. clear El. pose proof (AU p n U HU) as AU. fold m in AU.
  assert (HMn : n = p + (M - 1)) by (unfold M; lia). assert (Hm : m = n + p + 1) by reflexivity.
  apply wp_bind. apply (erun_ok j); [exact Hj| |]; intros Hjl.
  - (* an inner break follows *)
    replace (p + j + 1 - (p + j + 1) + 1) with 1 by lia. wget AU. apply wp_bind.
    apply (extract_ok j bpts next); [lia|exact Hb|exact Hn|]. intros b1 n1 Hb1 Hn1.
    assert (Hrb : exists rbz, (if 0 <? p - 1 then p + t - Z.quot (p - 1 + 1) 2 else p + t) = rbz /\ rbz = ph - h2).
    { eexists. split; [reflexivity|]. destruct (Z.ltb_spec 0 (p - 1)); [pose proof (quot_half (p - 1 + 1) ltac:(lia))|]; unfold ph; lia. }
    destruct Hrb as (rbz & -> & Erb).
    assert (Ec : eci j + (rbz + 1 - elbz j) = eci (j + 1)).
    { unfold eci, elbz. destruct (Z.eqb_spec (j + 1) 0); [lia|]. replace (j + 1 - 1) with j by lia. destruct (Z.eqb_spec j 0) as [->|].
      - unfold KK. lia.
      - replace j with (j - 1 + 1) at 2 by lia. rewrite KK_succ. unfold ph in *. lia. }
    assert (Ek : ekind (j + 1) = KK j + 1) by (unfold ekind; destruct (Z.eqb_spec (j + 1) 0); [lia|]; do 2 f_equal; lia).
    replace (val U (p + j + 1)) with (brk (j + 1)) by (unfold brk; f_equal; lia).
    apply (core_ok j rbz B b1 Q Us g); try assumption.
    + unfold elbz, ph in *. destruct (Z.eqb_spec j 0); lia.
    + lia.
    + rewrite Ec. unfold NQ, eci. destruct (Z.eqb_spec (j + 1) 0); [lia|]. pose proof (KK_mono (j + 1 - 1 + 1) M ltac:(lia)). rewrite KK_succ in *. lia.
    + intros Q2 U2 c HU2 (g' & HQ2 & Hg'). unfold c in *. clear c. rewrite Ec in *.
      rewrite (proj2 (Z.ltb_lt (p + j + 1) m)) by lia.
      pose proof (arr_pt P _ HP) as AP.
      assert (Hcn : forall k, p - 1 <= k <= p -> cur p U P (p + j + 1) k = pt P (p + j + 1 - p + k)).
      { intros k Hk. apply (cur_next p n U P HU (p + j)); [lia|lia|intros i Hi; f_equal; lia|apply Hsim; lia|lia|]. lia. }
      apply wp_bind. apply wp_for_up with (P := fun h v => arrD v (p + 1) (fun i => i < h) (cur p U P (p + j + 1))); [lia| | |].
      { split; [apply (arr_len _ _ _ Hb1)|]. intros; lia. }
      { intros h v Hh Hv. wget Hn1. eapply arrD_set; [exact Hv|lia|reflexivity| |intros v' Hv'; exact Hv']. dl. }
      intros v Hv. apply wp_bind. apply wp_for_up with (P := fun h v => arrD v (p + 1) (fun i => i < h) (cur p U P (p + j + 1))); [lia|exact Hv| |].
      { intros h v2 Hh Hv2. wget AP. eapply arrD_set; [exact Hv2|lia| | |intros v' Hv'; exact Hv']; [symmetry; apply Hcn; lia|dl]. }
      intros v2 Hv2. cbn [wp]. left. split; [exact Hjl|]. unfold Inv. cbn [e_a e_b e_ua e_kind e_r e_cind e_U e_Q e_bpts e_next].
      split; [lia|]. split; [lia|]. split; [reflexivity|]. split; [symmetry; exact Ek|]. split; [unfold eoldr; destruct (Z.eqb_spec (j + 1) 0); [lia|reflexivity]|]. split; [reflexivity|].
      split; [rewrite Ek; exact HU2|]. split; [exists g'; split; [exact HQ2|]|].
      * split; [intros; lia|]. exact Hg'.
      * split; [|apply (arr_len _ _ _ Hn1)]. replace (p + (j + 1)) with (p + j + 1) by lia. eapply arr_of_arrD; [exact Hv2|]. intros i Hi. cbv beta. lia.
  - (* the last segment *)
    replace (p - (m - (p + j + 1) + 1)) with (-1) by lia. change (0 <? -1) with false. cbn [bind]. wget AU.
    assert (Hb1 : arr bpts (p + 1) (fin p U P (p + j))).
    { eapply arr_ext; [exact Hb|]. intros k Hk. unfold cur, fin. do 2 f_equal. apply win_const. intros r Hr.
      rewrite (last_run p n U HU Hcl (p + j + r)), (last_run p n U HU Hcl (p + j + 1)) by lia. reflexivity. }
    replace (val U m) with (brk (j + 1)) by (unfold brk; rewrite (last_run p n U HU Hcl) by lia; reflexivity).
    assert (EM : KK M = KK j + (t + 1)) by (replace M with (j + 1) by lia; apply KK_succ).
    assert (Ec : eci j + (ph + 1 - elbz j) = NQ).
    { unfold NQ, eci, elbz. destruct (Z.eqb_spec j 0) as [->|].
      - unfold KK in *. lia.
      - replace (KK j) with (KK (j - 1 + 1)) in EM by (f_equal; lia). rewrite KK_succ in EM. unfold ph in *. lia. }
    apply (core_ok j ph B bpts Q Us g); try assumption.
    + unfold elbz, ph in *. destruct (Z.eqb_spec j 0); lia.
    + lia.
    + lia.
    + intros Q2 U2 c HU2 (g' & HQ2 & Hg'). unfold c in *. clear c. rewrite Ec in *.
      rewrite (proj2 (Z.ltb_ge m m)) by lia. assert (0 <= KK j) by (unfold KK, ph; nia).
      apply wp_bind. apply wp_for_up with (P := fun h v => arrD v NV (fun i => i < KK j + 1 + h) (WW M)); [unfold ph; lia| | |].
      { eapply arrD_ext; [exact HU2|]. intros i Hi Hd. split; [lia|reflexivity]. }
      { intros h v Hh Hv. eapply arrD_set; [exact Hv|unfold NV, ph in *; lia| | |intros v' Hv'; exact Hv']; [|dl].
        unfold WW. f_equal. pose proof (proj1 (seg_le (KK j + 1 + h) j ltac:(lia))) as H1. destruct (Z_le_gt_dec (j + 1) (seg (KK j + 1 + h))); [lia|]. specialize (H1 ltac:(lia)). lia. }
      intros U3 HU3. cbn [wp]. right. split; [exact Hjl|]. unfold Fin. cbn [e_a e_b e_ua e_kind e_r e_cind e_U e_Q e_bpts e_next]. split; [reflexivity|].
      split; [eapply arr_of_arrD; [exact HU3|]; intros i Hi; cbv beta; unfold NV, ph in *; lia|].
      exists g'. split; [eapply arr_of_arrD; [exact HQ2|]; intros i Hi; cbv beta; lia|].
      intros jj i H1 H2 H3. replace (j + 1) with M in Hg' by lia. apply Hg'; lia.
Qed.

Lemma elevate_loop_ok : 
  wp (ElevateDegree (mkCurve p U P) t) (fun c => exists V' Q' g, c = mkCurve ph V' Q' /\ arr V' NV (WW M) /\ arr Q' NQ g /\
     forall jj i, 0 <= jj < M -> KK jj - ph <= i <= KK jj -> i < NQ -> g i = FF jj (win (WW M) i ph)).
Proof.
  unfold ElevateDegree. cbn [Degree KnotVector ControlPoints]. rewrite (proj2 (Z.ltb_lt 0 t)) by lia. cbn [validate bind]. cbv zeta.
  pose proof (AU p n U HU) as AU. fold m in AU. pose proof (arr_pt P _ HP) as AP. assert (Hm : m = n + p + 1) by reflexivity. assert (HM : M = n - p + 1) by reflexivity.
  apply wp_bind. apply elevate_coefs_ok; [exact Hp1|exact Ht1|]. intros B HB. wget AU. rewrite HP, HL.
  replace (n + 1 - 1) with n by lia. fold m. replace (n + p + 2 - (p + 1) - (p + 1) + 1) with M by lia.
  assert (EQ : n + M * t + 1 = NQ) by (unfold NQ, KK, ph; rewrite HM; ring).
  assert (EV : n + M * t + 1 + (p + t) + 1 = NV) by (unfold NV; rewrite EQ; unfold NQ; ring).
  assert (HKM : ph + (t + 1) <= KK M) by (replace (ph + (t + 1)) with (KK 1) by (unfold KK; ring); apply KK_mono; lia).
  rewrite EV, EQ. apply wp_bind, wp_mkvec; [unfold NQ, ph in *; lia|]. intros Q0 HQ0. wget AP. apply wp_bind. eapply arr_upd; [exact HQ0|unfold NQ, ph in *; lia|]. intros Q1 HQ1.
  apply wp_bind, wp_mkvec; [unfold NV, ph in *; lia|]. intros V0 HV0. apply wp_bind.
  assert (E0 : val U 0 = brk 0) by (unfold brk; rewrite Z.add_0_r; apply (first_run p n U HU Hcl); lia). rewrite E0.
  apply wp_for_up with (P := fun h v => arrD v NV (fun i => i < h) (WW M)); [unfold ph; lia| | |].
  { split; [apply (arr_len _ _ _ HV0)|]. intros; lia. }
  { intros h v Hh Hv. eapply arrD_set; [exact Hv|unfold NV, ph in *; lia| | |intros v' Hv'; exact Hv']; [|dl]. unfold WW. f_equal.
    pose proof (proj2 (seg_le h 0 ltac:(lia)) ltac:(unfold KK, ph; lia)). pose proof (seg_pos h). lia. }
  intros V1 HV1. apply wp_bind, wp_mkvec; [lia|]. intros b0 Hb0. apply wp_bind. apply wp_fill_all with (f := pt P); [lia|apply (arr_len _ _ _ Hb0)| |].
  { intros i v' Hi _. wget AP. reflexivity. }
  intros b1 Hb1. apply wp_bind, wp_mkvec; [lia|]. intros nx Hnx. apply wp_bind.
  apply wp_while with (I := fun s => (exists j, 0 <= j < M /\ Inv j s) \/ Fin s) (mu := fun s => Z.to_nat (m - e_b s)).
  - left. exists 0. split; [lia|]. unfold Inv. cbn [e_a e_b e_ua e_kind e_r e_cind e_U e_Q e_bpts e_next].
    split; [lia|]. split; [lia|]. split; [reflexivity|]. split; [reflexivity|]. split; [reflexivity|]. split; [reflexivity|]. split; [exact HV1|].
    split; [|split; [|apply (arr_len _ _ _ Hnx)]].
    + exists (fun i => if i =? 0 then pt P 0 else vzero). split; [apply arrD_of_arr; exact HQ1|]. split; [reflexivity|]. intros; lia.
    + rewrite Z.add_0_r. eapply arr_ext; [exact Hb1|]. intros k Hk. unfold cur. pose proof (seg_good 0 ltac:(lia)) as G0. rewrite Z.add_0_r in G0. rewrite <- (bl_knots (val U) p p (pt P) k) by (try assumption; lia). f_equal.
      replace (win (val U) k p) with (win (val U) k (p - k + k)) by (f_equal; lia). rewrite win_app by lia. f_equal; [|f_equal; lia]. apply win_const. intros r Hr. rewrite (first_run p n U HU Hcl) by lia. reflexivity.
  - cbn [e_b]. unfold len in HL. lia.
  - intros s [(j & Hj & HI)|HF].
    + pose proof (proj1 (proj2 HI)) as Eb. rewrite Eb. rewrite (proj2 (Z.ltb_lt (p + j + 1) m)) by lia. cbn [wp].
      eapply wp_mono; [apply (body_ok j B s Hj HB HI)|]. cbv beta. intros s' [[H1 H2]|[H1 H2]].
      * split; [left; exists (j + 1); split; [lia|exact H2]|]. pose proof (proj1 (proj2 H2)). lia.
      * split; [right; exact H2|]. pose proof (proj1 H2). lia.
    + destruct HF as (Eb & HV & g & HQ & Hg). rewrite Eb, Z.ltb_irrefl. cbn [wp]. exists (e_U s), (e_Q s), g. split; [reflexivity|]. split; [exact HV|]. split; [exact HQ|exact Hg].
Qed.

Lemma WW_in i : exists j, 0 <= j <= M /\ WW M i = brk j.
Proof. unfold WW. exists (Z.min M (seg i)). pose proof (seg_pos i). split; [unfold M; lia|reflexivity]. Qed.
Lemma WW_mono i i' : i <= i' -> (WW M i <= WW M i')%R.
Proof. intros Hi. unfold WW. pose proof (seg_mono i i' Hi). pose proof (seg_pos i). apply brk_mono; lia. Qed.

(* the positions of a break among the new knots *)
Lemma WW_eq i j : 0 <= j <= M -> (WW M i = brk j <-> (j = 0 \/ KK (j - 1) < i) /\ (j = M \/ i <= KK j)).
Proof.
  intros Hj. pose proof (seg_pos i) as Hs. assert (HM : 1 <= M) by (unfold M; lia).
  assert (E : WW M i = brk j <-> Z.min M (seg i) = j).
  { unfold WW. split; [|intros ->; reflexivity]. intros E. destruct (Z.lt_trichotomy (Z.min M (seg i)) j) as [H|[H|H]]; [|exact H|].
    - pose proof (brk_strict (Z.min M (seg i)) j ltac:(lia) H ltac:(lia)). lra.
    - pose proof (brk_strict j (Z.min M (seg i)) ltac:(lia) H ltac:(lia)). lra. }
  rewrite E. clear E. destruct (Z.eq_dec j 0) as [->|H0].
  - pose proof (seg_le i 0 ltac:(lia)). lia.
  - pose proof (seg_le i (j - 1) ltac:(lia)). pose proof (seg_le i j ltac:(lia)). lia.
Qed.

Lemma occ_old j : 0 <= j <= M -> occ U (brk j) = if (j =? 0) || (j =? M) then p + 1 else 1.
Proof.
  intros Hj. assert (HM : M = n - p + 1) by reflexivity. unfold occ.
  destruct (Z.eqb_spec j 0) as [->|H0]; [|destruct (Z.eqb_spec j M) as [->|H1]]; cbn [orb].
  - rewrite (count_range U (brk 0) 0 (p + 1)); try (rewrite ?HL; lia); intros i Hi; unfold brk; rewrite Z.add_0_r.
    + apply (first_run p n U HU Hcl). lia.
    + pose proof (Hsim p ltac:(lia)). pose proof (HS (p + 1) i ltac:(lia) ltac:(lia) ltac:(lia)). lra.
  - rewrite (count_range U (brk M) (n + 1) (n + p + 2)); try (rewrite ?HL; lia); intros i Hi; unfold brk; replace (p + M) with (n + 1) by lia.
    + pose proof (Hsim n ltac:(lia)). pose proof (HS i n ltac:(lia) ltac:(lia) ltac:(lia)). lra.
    + rewrite (last_run p n U HU Hcl i), (last_run p n U HU Hcl (n + 1)) by lia. reflexivity.
  - rewrite (count_range U (brk j) (p + j) (p + j + 1)); try (rewrite ?HL; lia); intros i Hi; unfold brk.
    + pose proof (Hsim (p + j - 1) ltac:(lia)). replace (p + j - 1 + 1) with (p + j) in * by lia. pose proof (HS i (p + j - 1) ltac:(lia) ltac:(lia) ltac:(lia)). lra.
    + f_equal. lia.
    + pose proof (Hsim (p + j) ltac:(lia)). pose proof (HS (p + j + 1) i ltac:(lia) ltac:(lia) ltac:(lia)). lra.
Qed.

Lemma occ_new V' j : arr V' NV (WW M) -> 0 <= j <= M -> occ V' (brk j) = if (j =? 0) || (j =? M) then ph + 1 else t + 1.
Proof.
  intros HV Hj. assert (HM : 1 <= M) by (unfold M; lia). pose proof (arr_len _ _ _ HV) as LV. pose proof (fun i => arr_val V' NV _ i HV) as VV.
  set (lo := if j =? 0 then 0 else KK (j - 1) + 1). set (hi := if j =? M then NV else KK j + 1).
  assert (HK0 : KK 0 = ph) by (unfold KK; lia). pose proof (KK_mono 0 j ltac:(lia)). pose proof (KK_mono j M ltac:(lia)).
  assert (HKj : 1 <= j -> KK j = KK (j - 1) + (t + 1) /\ 0 <= KK (j - 1)) by (intros H1; rewrite <- KK_succ; split; [f_equal; lia|unfold KK, ph in *; nia]).
  assert (HPh : ph = p + t) by reflexivity.
  unfold occ. rewrite (count_range V' (brk j) lo hi).
  - unfold lo, hi. destruct (Z.eqb_spec j 0) as [->|Hz0]; [|destruct (Z.eqb_spec j M) as [->|Hz1]]; cbn [orb].
    + destruct (Z.eqb_spec 0 M); lia.
    + unfold NV. lia.
    + lia.
  - unfold lo, hi, NV. destruct (Z.eqb_spec j 0), (Z.eqb_spec j M); lia.
  - unfold lo, hi, NV in *. destruct (Z.eqb_spec j M); lia.
  - intros i Hi E. rewrite VV in E by (unfold lo, NV in *; destruct (Z.eqb_spec j 0); lia). apply (WW_eq i j Hj) in E. unfold lo in Hi. destruct (Z.eqb_spec j 0); lia.
  - intros i Hi. rewrite VV by (unfold lo, hi, NV in *; destruct (Z.eqb_spec j 0), (Z.eqb_spec j M); lia). apply (WW_eq i j Hj). unfold lo, hi in Hi. destruct (Z.eqb_spec j 0), (Z.eqb_spec j M); lia.
  - intros i Hi E. rewrite VV in E by (unfold hi, NV in *; destruct (Z.eqb_spec j M); lia). apply (WW_eq i j Hj) in E. unfold hi in Hi. destruct (Z.eqb_spec j M); lia.
Qed.
Lemma old_in x : In x U <-> exists j, 0 <= j <= M /\ x = brk j.
Proof.
  assert (HM : M = n - p + 1) by reflexivity. split.
  - intros Hx. destruct (In_val x U Hx) as (i & Hi & <-). rewrite HL in Hi.
    destruct (Z_le_gt_dec i p); [exists 0; split; [lia|]; unfold brk; rewrite Z.add_0_r; apply (first_run p n U HU Hcl); lia|].
    destruct (Z_le_gt_dec i (n + 1)); [exists (i - p); split; [lia|]; unfold brk; f_equal; lia|].
    exists M. split; [lia|]. unfold brk. rewrite (last_run p n U HU Hcl i), (last_run p n U HU Hcl (p + M)) by lia. reflexivity.
  - intros (j & Hj & ->). apply val_In. rewrite HL. lia.
Qed.
End Elevate.

Theorem ElevateDegree_full {T} {V : Vec R T} {L : VecL T} p n U (P : list T) t : curve_knots p n U -> len P = n + 1 -> clamped_knots p n U ->
  (forall x y, In x U -> In y U -> apart x y) -> 1 <= p -> 1 <= t -> (forall i, p <= i <= n -> (val U i < val U (i + 1))%R) ->
  returns (ElevateDegree (mkCurve p U P) t) (fun c => exists n' U' Q, c = mkCurve (p + t) U' Q /\ n' = n + (n - p + 1) * t /\
    curve_knots (p + t) n' U' /\ len Q = n' + 1 /\ clamped_knots (p + t) n' U' /\
    (forall x, In x U' <-> In x U) /\ (forall x, In x U -> occ U' x = occ U x + t) /\
    forall s, in_domain p n U s -> curve_point (p + t) n' U' Q s = curve_point p n U P s).
Proof.
  intros HU HP Hcl Hap Hp1 Ht1 Hsim. pose proof (quot_half p ltac:(lia)) as Hh2.
  pose proof (ck_n _ _ _ HU) as Hn. pose proof (ck_len _ _ _ HU) as HL. pose proof (ck_sorted _ _ _ HU) as HS.
  apply wp_elim. eapply wp_mono; [apply (elevate_loop_ok p n t U P HU HP Hcl Hap Hp1 Ht1 Hsim (Z.quot p 2) Hh2)|].
  cbv beta. intros c (V' & Q & g & -> & HV & HQ & Hg).
  set (M := n - p + 1) in *. set (ph := p + t) in *.
  set (KKM := KK p t M) in *. assert (EK : KKM = ph + M * (t + 1)) by reflexivity.
  set (n' := KKM - t - 1). exists n', V', Q. split; [reflexivity|]. split; [unfold n', KKM, KK, M; ring|].
  pose proof (arr_len _ _ _ HV) as LV. pose proof (fun i => arr_val V' _ _ i HV) as VV.
  set (w := WW p t U M) in *.
  assert (HM : 1 <= M) by (unfold M; lia).
  assert (Hw0 : forall i, 0 <= i <= ph -> w i = val U p).
  { intros i Hi. unfold w. replace (val U p) with (brk p U 0) by (unfold brk; f_equal; lia). apply (WW_eq p n t U P HU HP Hp1 Ht1 Hsim); [fold M; lia|]. unfold KK. lia. }
  assert (Hwj : forall j i, 0 <= j < M -> KK p t j < i <= KK p t (j + 1) -> w i = val U (p + (j + 1))).
  { intros j i Hj Hi. unfold w. apply (WW_eq p n t U P HU HP Hp1 Ht1 Hsim); [fold M; lia|]. replace (j + 1 - 1) with j by lia. lia. }
  assert (HwM : forall i, KK p t (M - 1) < i -> w i = val U (n + 1)).
  { intros i Hi. unfold w. replace (val U (n + 1)) with (brk p U M) by (unfold brk, M; f_equal; lia). apply (WW_eq p n t U P HU HP Hp1 Ht1 Hsim); [fold M; lia|]. lia. }
  assert (EKM : KK p t (M - 1) = KKM - (t + 1)) by (unfold KKM, KK; ring).
  assert (Hbig : ph + (t + 1) <= KKM) by (rewrite EK; nia).
  assert (HVs : sorted V').
  { intros i j Hi Hij Hj. rewrite !VV by lia. apply (WW_mono p n t U P HU HP Hp1 Ht1). exact Hij. }
  assert (E0 : val V' ph = val U p) by (rewrite VV by lia; apply Hw0; lia).
  assert (E1 : val V' (ph + 1) = val U (p + 1)).
  { rewrite VV by lia. rewrite (Hwj 0); [f_equal; lia|lia|unfold KK; lia]. }
  assert (E2 : val V' (n' + 1) = val U (n + 1)) by (rewrite VV by (unfold n'; lia); apply HwM; unfold n'; lia).
  assert (E3 : val V' n' = val U n).
  { rewrite VV by (unfold n'; lia). destruct (Z.eq_dec M 1) as [H1|H1].
    - rewrite Hw0 by (unfold n'; rewrite EK, H1; lia). f_equal. unfold M in *. lia.
    - rewrite (Hwj (M - 2)); [f_equal; unfold M; lia|lia|]. replace (M - 2 + 1) with (M - 1) by lia. rewrite EKM. unfold n'. split; [|lia].
      assert (KK p t (M - 2) = KKM - 2 * (t + 1)) by (unfold KKM, KK; ring). lia. }
  assert (HU' : curve_knots ph n' V').
  { constructor; [unfold ph; lia|unfold n'; lia|unfold n', KKM in *; unfold ph in *; lia|exact HVs| |].
    - rewrite E0, E1. apply (ck_first _ _ _ HU).
    - rewrite E3, E2. apply (ck_last _ _ _ HU). }
  split; [exact HU'|]. split; [rewrite (arr_len _ _ _ HQ); unfold n', KKM, M; lia|].
  split; [split; [rewrite E0, VV by lia; apply Hw0; unfold ph; lia|]|].
  { rewrite E2. rewrite VV by (unfold n', ph in *; lia). symmetry. apply HwM. unfold n', ph in *. lia. }
  assert (HIn : forall x, In x V' -> exists j, 0 <= j <= M /\ x = brk p U j).
  { intros x Hx. destruct (In_val x V' Hx) as (i & Hi & <-). rewrite VV by lia. destruct (WW_in p n t U HU Ht1 i) as (j & Hj & E). exists j. split; [exact Hj|exact E]. }
  assert (Hocc : forall j, 0 <= j <= M -> occ V' (brk p U j) = occ U (brk p U j) + t).
  { intros j Hj. rewrite (occ_new p n t U P HU HP Hp1 Ht1 Hsim V' j HV Hj), (occ_old p n t U HU Hcl Hp1 Hsim j Hj). fold M. destruct ((j =? 0) || (j =? M)); lia. }
  split; [|split].
  { intros x. rewrite (old_in p n t U HU Hcl Hp1 x). split; [apply HIn|]. intros (j & Hj & ->). apply (count_occ_In Req_EM_T). pose proof (Hocc j Hj) as E. unfold occ in E. lia. }
  { intros x Hx. apply (old_in p n t U HU Hcl Hp1 x) in Hx. destruct Hx as (j & Hj & ->). apply Hocc. exact Hj. }
  intros s Hs. destruct (find_span p n U s HU Hs) as (k & _ & Hk). rewrite (curve_point_span p n U P s k HU Hk).
  destruct Hk as (K1 & K2 & K3 & K4). set (j := k - p).
  assert (Ek : KK p t j + (t + 1) = KK p t (j + 1)) by (unfold KK; ring). assert (HKj : ph <= KK p t j <= KKM - (t + 1)).
  { rewrite <- EKM. unfold KK. fold ph. unfold j, M. nia. }
  assert (V1 : val V' (KK p t j) = val U k).
  { rewrite VV by lia. destruct (Z.eq_dec j 0) as [H0|H0].
    - rewrite Hw0 by (rewrite H0; unfold KK; fold ph; lia). f_equal. unfold j in H0. lia.
    - rewrite (Hwj (j - 1)); [f_equal; unfold j; lia|unfold j, M in *; lia|]. replace (j - 1 + 1) with j by lia. unfold KK in *. nia. }
  assert (V2 : val V' (KK p t j + 1) = val U (k + 1)).
  { rewrite VV by lia. rewrite (Hwj j); [f_equal; unfold j; lia|unfold j, M in *; lia|]. lia. }
  assert (Hk' : span_of ph n' V' s (KK p t j)).
  { split; [unfold n'; lia|]. rewrite V1, V2, E2. split; [exact K2|]. split; [exact K3|]. destruct K4 as [K4|[-> K4]]; [left; exact K4|right]. split; [|exact K4].
    unfold n'. replace j with (M - 1) by (unfold j, M; lia). lia. }
  rewrite (curve_point_span ph n' V' Q s _ HU' Hk'). rewrite !span_curve_bl; try (unfold ph; lia).
  2:{ apply (span_of_good p n U s k); [exact HU|]. split; [exact K1|]. split; [exact K2|]. split; [exact K3|exact K4]. }
  2:{ apply (span_of_good ph n' V' s); assumption. }
  replace k with (p + j) by (unfold j; lia).
  rewrite <- (FF_diag p n t U P Hp1 Ht1 j s).
  apply (bl_of_polar (val V') (KK p t j) ph ltac:(unfold ph; lia)).
  - apply (FF_polar p n t U P HU Hp1 Ht1 Hsim). unfold j. lia.
  - apply (span_of_good ph n' V' s); assumption.
  - intros i Hi. rewrite (arr_pt_eq Q _ g i HQ) by (fold M KKM; unfold KK in *; lia). rewrite (Hg j i); [|unfold j, M; lia|exact Hi|fold M KKM; unfold KK in *; lia].
    fold ph. f_equal. apply win_ext. intros r Hr. symmetry. apply VV. unfold KK in *. lia.
  - rewrite len_rep; unfold ph; lia.
Qed.

Theorem ElevateDegree_ok {T} {V : Vec R T} {L : VecL T} p n U (P : list T) t : curve_knots p n U -> len P = n + 1 -> clamped_knots p n U ->
  (forall x y, In x U -> In y U -> apart x y) -> 1 <= p -> 1 <= t -> (forall i, p <= i <= n -> (val U i < val U (i + 1))%R) ->
  returns (ElevateDegree (mkCurve p U P) t) (fun c => exists n' U' Q, c = mkCurve (p + t) U' Q /\
    curve_knots (p + t) n' U' /\ len Q = n' + 1 /\ clamped_knots (p + t) n' U' /\
    (forall x, In x U' <-> In x U) /\ (forall x, In x U -> occ U' x = occ U x + t) /\
    forall s, in_domain p n U s -> curve_point (p + t) n' U' Q s = curve_point p n U P s).
Proof.
  intros H1 H2 H3 H4 H5 H6 H7. destruct (ElevateDegree_full p n U P t H1 H2 H3 H4 H5 H6 H7) as (c & E & n' & U' & Q & Ec & _ & H).
  exists c. split; [exact E|]. exists n', U', Q. split; [exact Ec|exact H].
Qed.
