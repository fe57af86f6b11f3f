(* Parameter values and knot vectors for interpolation. *)
From Coq Require Import ZArith List Bool Reals Lra Lia.
From Verif Require Import Base Num Vec Tac Spec Spec3 M_MathUtils M_XYZ M_Geom M_Interp P_MathUtils P_Loop P_VSum P_XYZ P_Matrix P_Geom P_Insert2.
Import ListNotations.
Open Scope Z_scope.

Lemma rsum_nonneg lo hi f : (forall i, lo <= i < hi -> (0 <= f i)%R) -> (0 <= rsum lo hi f)%R.
Proof.
  intros H. destruct (Z.le_gt_cases lo hi) as [Hl|Hl]; [|rewrite rsum_nil by lia; lra].
  revert H. pattern hi. apply Zlt_lower_bound_ind with (z := lo); [|exact Hl]. clear hi Hl. intros hi IH Hl H.
  destruct (Z.eq_dec lo hi) as [->|]; [rewrite rsum_nil by lia; lra|].
  replace hi with (hi - 1 + 1) by lia. rewrite rsum_last by lia.
  assert (0 <= rsum lo (hi - 1) f)%R by (apply IH; [lia|]; intros; apply H; lia). assert (0 <= f (hi - 1)%Z)%R by (apply H; lia). lra.
Qed.

Lemma rsum_le lo hi f g : (forall i, lo <= i < hi -> (f i <= g i)%R) -> (rsum lo hi f <= rsum lo hi g)%R.
Proof.
  intros H. assert (0 <= rsum lo hi (fun i => g i - f i))%R as HN by (apply rsum_nonneg; intros i Hi; specialize (H i Hi); lra).
  assert (E : rsum lo hi g = (rsum lo hi (fun i => g i - f i) + rsum lo hi f)%R) by (rewrite <- rsum_plus; apply rsum_ext; intros; ring).
  lra.
Qed.

Lemma rsum_mono lo a b f : lo <= a -> a <= b -> (forall i, lo <= i < b -> (0 <= f i)%R) -> (rsum lo a f <= rsum lo b f)%R.
Proof.
  intros Hl Hab H. rewrite (rsum_split lo a b) by lia. assert (0 <= rsum a b f)%R by (apply rsum_nonneg; intros; apply H; lia). lra.
Qed.

Lemma for_up_acc_R lo hi f x0 body : lo <= hi -> (forall i x, lo <= i < hi -> body i x = Ok (x + f i)%R) ->
  for_up lo hi x0 body = Ok (x0 + rsum lo hi f)%R.
Proof.
  intros Hl Hb. apply wp_eq. apply wp_for_up with (P := fun h x => x = (x0 + rsum lo h f)%R); [exact Hl| | |auto].
  - rewrite rsum_nil by lia. ring.
  - intros i x Hi ->. rewrite Hb by exact Hi. apply wp_ok. rewrite rsum_last by lia. ring.
Qed.

Lemma sorted_arr l n f : arr l n f -> (forall i, 0 <= i -> i + 1 < n -> (f i <= f (i + 1)%Z)%R) -> sorted l.
Proof.
  intros Hl Hs i j Hi Hij Hj. rewrite (arr_len _ _ _ Hl) in Hj. rewrite (arr_val _ _ _ _ Hl), (arr_val _ _ _ _ Hl) by lia.
  revert Hj. pattern j. apply Zlt_lower_bound_ind with (z := i); [|exact Hij]. clear j Hij. intros j IH Hij Hj.
  destruct (Z.eq_dec i j) as [->|]; [lra|]. apply Rle_trans with (f (j - 1)%Z); [apply IH; lia|].
  replace j with (j - 1 + 1) at 2 by lia. apply Hs; lia.
Qed.

(** * Chord-length and centripetal parameters *)
Definition partial_sums (d : XYZ R -> XYZ R -> R) (Q : list (XYZ R)) (i : Z) : R := rsum 1 (i + 1) (fun k => d (pt Q k) (pt Q (k - 1))).

Definition good_parameters (d : XYZ R -> XYZ R -> R) (Q : list (XYZ R)) (u : list R) : Prop :=
  len u = len Q /\ val u 0 = 0%R /\ val u (len Q - 1) = 1%R /\ sorted u /\
  (forall i, 0 <= i < len Q - 1 -> (0 < d (pt Q (i + 1)) (pt Q i))%R -> (val u i < val u (i + 1))%R) /\
  (~ small (partial_sums d Q (len Q - 1)) -> forall i, 0 <= i < len Q -> val u i = (partial_sums d Q i / partial_sums d Q (len Q - 1))%R).

Lemma pos_of_not_small x : (0 <= x)%R -> ~ small x -> (0 < x)%R.
Proof. intros H Hs. destruct (Rle_lt_or_eq_dec _ _ H) as [|<-]; [assumption|]. exfalso. apply Hs, small_0. Qed.

Lemma good_of_sums d Q u : (forall a b, (0 <= d a b)%R) -> 2 <= len Q -> ~ small (partial_sums d Q (len Q - 1)) ->
  arr u (len Q) (fun i => partial_sums d Q i / partial_sums d Q (len Q - 1))%R -> good_parameters d Q u.
Proof.
  intros Hd HQ Hs Hu. set (T := partial_sums d Q (len Q - 1)) in *.
  assert (HT : (0 < T)%R). { apply pos_of_not_small; [|exact Hs]. apply rsum_nonneg. intros; apply Hd. }
  assert (HS : forall i, 0 <= i -> partial_sums d Q (i + 1) = (partial_sums d Q i + d (pt Q (i + 1)) (pt Q i))%R).
  { intros i Hi. unfold partial_sums. rewrite (rsum_last 1 (i + 1)) by lia. replace (i + 1 - 1) with i by lia. reflexivity. }
  assert (Hi : (0 < / T)%R) by (apply Rinv_0_lt_compat; exact HT).
  repeat match goal with |- good_parameters _ _ _ => split | |- _ /\ _ => split end.
  - exact (arr_len _ _ _ Hu).
  - rewrite (arr_val _ _ _ _ Hu) by lia. cbv beta. unfold partial_sums at 1. rewrite rsum_nil by lia. unfold Rdiv. ring.
  - rewrite (arr_val _ _ _ _ Hu) by lia. fold T. field. lra.
  - apply (sorted_arr _ _ _ Hu). intros i H1 H2. cbv beta. rewrite HS by lia. unfold Rdiv. apply Rmult_le_compat_r; [lra|]. pose proof (Hd (pt Q (i + 1)) (pt Q i)). lra.
  - intros i Hr Hp. rewrite (arr_val _ _ _ _ Hu), (arr_val _ _ _ _ Hu) by lia. cbv beta. rewrite HS by lia. unfold Rdiv. apply Rmult_lt_compat_r; lra.
  - intros _ i Hr. exact (arr_val _ _ _ _ Hu Hr).
Qed.

Lemma parameters_ok seg d Q : (forall a b, seg a b = Ok (d a b)) -> (forall a b, (0 <= d a b)%R) -> 2 <= len Q ->
  wp (parameters seg Q) (good_parameters d Q).
Proof.
  intros Hseg Hd HQ. pose proof (arr_pt Q _ eq_refl) as HA. unfold parameters. num.
  destruct (Z.eqb_spec (len Q) 0); [lia|]. destruct (Z.eqb_spec (len Q) 1); [lia|]. destruct (Z.eqb_spec (len Q) 2) as [E2|N2].
  { apply wp_ok. destruct (Rle_lt_dec (Rabs (partial_sums d Q (len Q - 1))) (1 / 999999)) as [S|S].
    - split; [|split; [|split; [|split; [|split]]]]; rewrite ?E2; try reflexivity.
      + apply (sorted_arr _ 2 (fun i => IZR i)).
        * split; [reflexivity|]. intros i Hi. assert (i = 0 \/ i = 1) as [-> | ->] by lia; reflexivity.
        * intros i H1 H2. apply IZR_le. lia.
      + intros i Hi _. assert (i = 0) as -> by lia. change (0 < 1)%R. lra.
      + intros H. exfalso. apply H. unfold small. rewrite E2 in S. exact S.
    - assert (Hs : ~ small (partial_sums d Q (len Q - 1))) by (unfold small; lra).
      apply good_of_sums; [exact Hd|lia|exact Hs|]. rewrite E2 in *. split; [reflexivity|]. intros i Hi.
      assert (i = 0 \/ i = 1) as [-> | ->] by lia.
      + change (get [0%R; 1%R] 0) with (Ok 0%R). f_equal. unfold partial_sums at 1. rewrite rsum_nil by lia. unfold Rdiv. ring.
      + change (get [0%R; 1%R] 1) with (Ok 1%R). f_equal. change (2 - 1) with 1 in *. symmetry. apply Rinv_r. intros E. apply Hs. rewrite E. apply small_0. }
  apply wp_bind.
  apply wp_for_up with (P := fun i s => arr (fst s) (i - 1) (fun j => d (pt Q (j + 1)) (pt Q j)) /\ snd s = partial_sums d Q (i - 1)); [lia| | |].
  { split; [apply arr_nil|]. cbn [snd]. unfold partial_sums. rewrite rsum_nil by lia. reflexivity. }
  { intros i [sl tot] Hi [H1 H2]. cbn [fst snd] in H1, H2. wget HA. wget HA. rewrite Hseg. cbn [bind]. apply wp_ok. cbn [fst snd]. split.
    - replace (i + 1 - 1) with (i - 1 + 1) by lia. apply arr_snoc; [exact H1|]. f_equal. f_equal. lia.
    - rewrite H2. unfold partial_sums. replace (i + 1 - 1 + 1) with (i - 1 + 1 + 1) by lia. rewrite (rsum_last 1 (i - 1 + 1)) by lia. replace (i - 1 + 1) with i by lia. reflexivity. }
  intros [sl T] [Hsl HT]. cbn [fst snd] in *. destruct (IsAlmostEqualTo T 0%R) eqn:E.
  - apply small_iff in E. subst T. apply wp_bind. apply wp_mkvec; [lia|]. intros v Hv.
    apply (wp_fill_all (len Q) (fun i => IZR i / IZR (len Q - 1))%R); [lia|exact (arr_len _ _ _ Hv)| |].
    + intros i v' Hi _. rewrite Rdiv_ok by (apply not_0_IZR; lia). reflexivity.
    + intros u Hu. assert (HN : (0 < IZR (len Q - 1))%R) by (apply IZR_lt; lia). assert (HI := Rinv_0_lt_compat _ HN).
      split; [|split; [|split; [|split; [|split]]]].
      * exact (arr_len _ _ _ Hu).
      * rewrite (arr_val _ _ _ _ Hu) by lia. unfold Rdiv. ring.
      * rewrite (arr_val _ _ _ _ Hu) by lia. field. lra.
      * apply (sorted_arr _ _ _ Hu). intros i H1 H2. cbv beta. apply Rmult_le_compat_r; [lra|]. apply IZR_le. lia.
      * intros i Hi _. rewrite (arr_val _ _ _ _ Hu), (arr_val _ _ _ _ Hu) by lia. apply Rmult_lt_compat_r; [lra|]. apply IZR_lt. lia.
      * intros H. exfalso. apply H. exact E.
  - apply small_false in E. subst T. assert (HT : partial_sums d Q (len Q - 1) <> 0%R) by (intros Z0; apply E; rewrite Z0; apply small_0).
    apply wp_bind. apply wp_mkvec; [lia|]. intros v Hv.
    set (f := fun i => (partial_sums d Q i / partial_sums d Q (len Q - 1))%R).
    assert (F0 : f 0 = 0%R) by (unfold f; unfold partial_sums at 1; rewrite rsum_nil by lia; unfold Rdiv; ring).
    assert (F1 : f (len Q - 1) = 1%R) by (unfold f; field; exact HT).
    assert (Hv0 : arrD v (len Q) (fun _ => False) f) by (split; [exact (arr_len _ _ _ Hv)|tauto]).
    apply wp_bind. apply (arrD_set _ _ _ (fun j => j = 0) _ _ _ _ Hv0); [lia|symmetry; exact F0|tauto|]. intros v1 Hv1.
    apply wp_bind. apply (arrD_set _ _ _ (fun j => j = 0 \/ j = len Q - 1) _ _ _ _ Hv1); [lia|symmetry; exact F1|tauto|]. intros v2 Hv2.
    apply wp_bind.
    apply wp_for_up with (P := fun i s => arrD (fst s) (len Q) (fun j => j < i \/ j = len Q - 1) f /\ snd s = partial_sums d Q (i - 1)); [lia| | |].
    + cbn [fst snd]. split; [eapply arrD_ext; [exact Hv2|]; intros; split; [lia|reflexivity]|]. unfold partial_sums. rewrite rsum_nil by lia. reflexivity.
    + intros i [uk acc] Hi [H1 H2]. cbn [fst snd] in *. wget Hsl. rewrite Rdiv_ok by exact HT. cbn [bind].
      assert (EQ : (acc + d (pt Q (i - 1 + 1)) (pt Q (i - 1)) = partial_sums d Q i)%R).
      { rewrite H2. unfold partial_sums. replace (i - 1 + 1) with i by lia. rewrite rsum_last by lia. reflexivity. }
      apply wp_bind. apply (arrD_set _ _ _ (fun j => j < i + 1 \/ j = len Q - 1) _ _ _ _ H1); [lia|unfold f; rewrite <- EQ; reflexivity|lia|].
      intros uk' Hu'. apply wp_ok. cbn [fst snd]. split; [exact Hu'|]. rewrite EQ. f_equal. lia.
    + intros [u acc] [H1 _]. cbn [fst] in *. apply wp_ok. apply good_of_sums; [exact Hd|lia|exact E|].
      eapply arr_of_arrD; [exact H1|]. cbv beta. intros; lia.
Qed.

Lemma dist_nonneg a b : (0 <= dist3 a b)%R.
Proof. apply sqrt_pos. Qed.
Lemma dist_pos a b : a <> b -> (0 < dist3 a b)%R.
Proof.
  intros H. unfold dist3, norm3. apply sqrt_lt_R0. pose proof (dot_pos (minus3 a b)) as [Hp|Hz]; [exact Hp|]. exfalso. apply H.
  destruct a as [a1 a2 a3], b as [b1 b2 b3]. unfold dot3, minus3 in Hz. cbn [gx gy gz] in Hz.
  assert ((a1 - b1) = 0 /\ (a2 - b2) = 0 /\ (a3 - b3) = 0)%R as (Z1 & Z2 & Z3).
  { assert (H1 := Rle_0_sqr (a1 - b1)%R). assert (H2 := Rle_0_sqr (a2 - b2)%R). assert (H3 := Rle_0_sqr (a3 - b3)%R). unfold Rsqr in *.
    split; [|split]; apply Rsqr_0_uniq; unfold Rsqr; lra. }
  f_equal; lra.
Qed.

Lemma Chord_ok Q : 2 <= len Q -> wp (GetChordParameterization Q) (good_parameters dist3 Q).
Proof. intros H. apply parameters_ok; [apply Distance_eq|apply dist_nonneg|exact H]. Qed.
Lemma Centripetal_ok Q : 2 <= len Q -> wp (GetCentripetalParameterization Q) (good_parameters (fun a b => sqrt (dist3 a b)) Q).
Proof.
  intros H. apply parameters_ok; [|intros; apply sqrt_pos|exact H]. intros a b. rewrite Distance_eq. cbn [bind]. num. rewrite Rsqrt_ok by apply dist_nonneg. reflexivity.
Qed.

(** * Averaged knots *)
Lemma Average_ok p us : 1 <= p -> p <= len us - 1 ->
  wp (AverageKnotVector p us) (fun U => arr U (len us + p + 1) (fun i => if i <=? p then 0 else if i <? len us then rsum (i - p) i (val us) / IZR p else 1)%R).
Proof.
  intros Hp Hn. pose proof (P_Bern.arr_val us) as HA. unfold AverageKnotVector. num. set (n := len us - 1) in *.
  set (f := fun i => (if i <=? p then 0 else if i <? len us then rsum (i - p) i (val us) / IZR p else 1)%R).
  apply wp_bind. apply wp_mkvec; [lia|]. intros v Hv. replace (n + p + 1 + 1) with (len us + p + 1) in * by lia.
  apply wp_bind. apply (wp_fill (n + p + 1 - p) (len us + p + 1) 0 (len us + p + 1) (fun i => i <= p) f).
  { apply arrD_ext with (D := fun _ => True) (f := fun _ => 0%R); [apply arrD_of_arr; exact Hv|]. intros i Hi Hd. split; [exact I|]. unfold f. zcase; try lia; reflexivity. }
  { lia. }
  { intros i v' Hi _. rewrite Z.add_0_r. f_equal. unfold f. zcase; try lia; reflexivity. }
  intros v1 Hv1. assert (Hpz : IZR p <> 0%R) by (apply not_0_IZR; lia).
  destruct (Z.leb_spec n p) as [Hnp|Hnp].
  { apply wp_ok. eapply arr_of_arrD; [exact Hv1|]. cbv beta. intros; lia. }
  rewrite (for_up_acc_R 1 (p + 1) (val us)) by (lia || (intros i w Hi; wget HA; reflexivity)). cbn [bind]. rewrite Rdiv_ok by exact Hpz. cbn [bind].
  apply wp_bind. apply (arrD_set _ _ _ (fun j => j <= p + 1 \/ n + 1 <= j) _ _ _ _ Hv1).
  { lia. } { unfold f. zcase; try lia. f_equal. rewrite Rplus_0_l. f_equal. lia. } { lia. }
  intros v2 Hv2. apply wp_bind.
  apply wp_for_up with (P := fun j s => arrD (fst s) (len us + p + 1) (fun i => i < p + j \/ n + 1 <= i) f /\ snd s = rsum (j - 1) (j - 1 + p) (val us)); [lia| | |].
  - cbn [fst snd]. split; [eapply arrD_ext; [exact Hv2|]; intros; split; [lia|reflexivity]|]. rewrite Rplus_0_l. f_equal. lia.
  - intros j [w s] Hj [H1 H2]. cbn [fst snd] in *. wget HA. wget HA. rewrite Rdiv_ok by exact Hpz. cbn [bind].
    assert (E : (s - val us (j - 1) + val us (j + p - 1) = rsum j (j + p) (val us))%R).
    { rewrite H2. rewrite (rsum_first (j - 1)) by lia. replace (j - 1 + 1) with j by lia.
      replace (rsum j (j + p) (val us)) with (rsum j (j + p - 1 + 1) (val us)) by (f_equal; lia). rewrite (rsum_last j (j + p - 1)) by lia.
      replace (j - 1 + p) with (j + p - 1) by lia. ring. }
    apply wp_bind. apply (arrD_set _ _ _ (fun i => i < p + (j + 1) \/ n + 1 <= i) _ _ _ _ H1).
    { lia. } { rewrite E. unfold f. zcase; try lia. f_equal. f_equal; lia. } { lia. }
    intros w' Hw'. apply wp_ok. cbn [fst snd]. split; [exact Hw'|]. rewrite E. f_equal; lia.
  - intros [w s] [H1 _]. apply wp_ok. cbn [fst] in *. eapply arr_of_arrD; [exact H1|]. cbv beta. intros; lia.
Qed.

Lemma rsum_const lo hi c : lo <= hi -> rsum lo hi (fun _ => c) = (IZR (hi - lo) * c)%R.
Proof.
  intros H. pattern hi. apply Zlt_lower_bound_ind with (z := lo); [|exact H]. clear hi H. intros hi IH H.
  destruct (Z.eq_dec lo hi) as [->|]; [rewrite rsum_nil by lia; rewrite Z.sub_diag; ring|].
  replace (rsum lo hi (fun _ => c)) with (rsum lo (hi - 1 + 1) (fun _ => c)) by (f_equal; lia). rewrite rsum_last, IH by lia.
  replace (hi - lo) with (hi - 1 - lo + 1) by lia. rewrite plus_IZR. ring.
Qed.

Lemma rsum_lt lo hi f g : lo < hi -> (forall i, lo <= i < hi -> (f i < g i)%R) -> (rsum lo hi f < rsum lo hi g)%R.
Proof.
  intros Hl H. rewrite (rsum_first lo hi f), (rsum_first lo hi g) by lia.
  assert (rsum (lo + 1) hi f <= rsum (lo + 1) hi g)%R by (apply rsum_le; intros i Hi; left; apply H; lia).
  assert (f lo < g lo)%R by (apply H; lia). lra.
Qed.

Lemma mean_le p lo us c : 1 <= p -> (forall i, lo <= i < lo + p -> (val us i <= c)%R) -> (rsum lo (lo + p) (val us) / IZR p <= c)%R.
Proof.
  intros Hp H. assert (HZ : (0 < IZR p)%R) by (apply IZR_lt; lia). apply (Rmult_le_reg_r (IZR p)); [exact HZ|]. unfold Rdiv. rewrite Rmult_assoc, Rinv_l, Rmult_1_r by lra.
  apply Rle_trans with (rsum lo (lo + p) (fun _ => c)); [apply rsum_le; exact H|]. rewrite rsum_const by lia. replace (lo + p - lo) with p by lia. lra.
Qed.
Lemma mean_ge p lo us c : 1 <= p -> (forall i, lo <= i < lo + p -> (c <= val us i)%R) -> (c <= rsum lo (lo + p) (val us) / IZR p)%R.
Proof.
  intros Hp H. assert (HZ : (0 < IZR p)%R) by (apply IZR_lt; lia). apply (Rmult_le_reg_r (IZR p)); [exact HZ|]. unfold Rdiv. rewrite Rmult_assoc, Rinv_l, Rmult_1_r by lra.
  apply Rle_trans with (rsum lo (lo + p) (fun _ => c)); [|apply rsum_le; exact H]. rewrite rsum_const by lia. replace (lo + p - lo) with p by lia. lra.
Qed.
Lemma mean_lt p lo us c : 1 <= p -> (forall i, lo <= i < lo + p -> (val us i < c)%R) -> (rsum lo (lo + p) (val us) / IZR p < c)%R.
Proof.
  intros Hp H. assert (HZ : (0 < IZR p)%R) by (apply IZR_lt; lia). apply (Rmult_lt_reg_r (IZR p)); [exact HZ|]. unfold Rdiv. rewrite Rmult_assoc, Rinv_l, Rmult_1_r by lra.
  apply Rlt_le_trans with (rsum lo (lo + p) (fun _ => c)); [apply rsum_lt; [lia|exact H]|]. rewrite rsum_const by lia. replace (lo + p - lo) with p by lia. lra.
Qed.
Lemma mean_gt p lo us c : 1 <= p -> (forall i, lo <= i < lo + p -> (c < val us i)%R) -> (c < rsum lo (lo + p) (val us) / IZR p)%R.
Proof.
  intros Hp H. assert (HZ : (0 < IZR p)%R) by (apply IZR_lt; lia). apply (Rmult_lt_reg_r (IZR p)); [exact HZ|]. unfold Rdiv. rewrite Rmult_assoc, Rinv_l, Rmult_1_r by lra.
  apply Rle_lt_trans with (rsum lo (lo + p) (fun _ => c)); [|apply rsum_lt; [lia|exact H]]. rewrite rsum_const by lia. replace (lo + p - lo) with p by lia. lra.
Qed.

Definition avg_knot (p : Z) (us : list R) (i : Z) : R := (if i <=? p then 0 else if i <? len us then rsum (i - p) i (val us) / IZR p else 1)%R.

Lemma avg_mid p us i : p < i < len us -> avg_knot p us i = (rsum (i - p) (i - p + p) (val us) / IZR p)%R.
Proof. intros H. unfold avg_knot. zcase; try lia. do 2 f_equal. lia. Qed.

Lemma Average_clamped p us U : 1 <= p -> p <= len us - 1 -> sorted us -> (0 <= val us 0)%R -> (val us (len us - 1) <= 1)%R ->
  arr U (len us + p + 1) (avg_knot p us) -> clamped_unit p (len us - 1) U.
Proof.
  intros Hp Hn Hs H0 H1 HU.
  assert (B0 : forall i, 0 <= i < len us -> (0 <= val us i)%R). { intros i Hi. apply Rle_trans with (val us 0); [exact H0|]. apply Hs; lia. }
  assert (B1 : forall i, 0 <= i < len us -> (val us i <= 1)%R). { intros i Hi. apply Rle_trans with (val us (len us - 1)); [|exact H1]. apply Hs; lia. }
  split; [rewrite (arr_len _ _ _ HU); lia|]. split; [|split].
  - apply (sorted_arr _ _ _ HU). intros i Hi Hi1.
    assert (i < p \/ i = p \/ p < i /\ i + 1 < len us \/ p < i /\ i + 1 = len us \/ len us <= i) as [h|[h|[h|[h|h]]]] by lia.
    + unfold avg_knot. zcase; try lia. lra.
    + subst i. unfold avg_knot at 1. zcase; try lia. destruct (Z.lt_ge_cases (p + 1) (len us)).
      * rewrite avg_mid by lia. apply mean_ge; [lia|]. intros; apply B0; lia.
      * unfold avg_knot. zcase; try lia. lra.
    + rewrite !avg_mid by lia. unfold Rdiv. apply Rmult_le_compat_r; [left; apply Rinv_0_lt_compat, IZR_lt; lia|].
      replace (rsum (i + 1 - p) (i + 1 - p + p) (val us)) with (rsum (i - p + 1) (i - p + p + 1) (fun j => val us (j - 1 + 1))) by (rewrite (rsum_ext _ _ _ (val us)) by (intros; f_equal; lia); f_equal; lia).
      rewrite <- (rsum_shift 1 (i - p) (i - p + p) (fun j => val us (j + 1))). apply rsum_le. intros j Hj. apply Hs; lia.
    + rewrite avg_mid by lia. unfold avg_knot. zcase; try lia. apply mean_le; [lia|]. intros; apply B1; lia.
    + unfold avg_knot. zcase; try lia. lra.
  - intros i Hi. rewrite (arr_val _ _ _ _ HU) by lia. unfold avg_knot. zcase; try lia; reflexivity.
  - intros i Hi. rewrite (arr_val _ _ _ _ HU) by lia. unfold avg_knot. zcase; try lia; reflexivity.
Qed.

(* the condition under which interpolation at the parameters is possible *)
Lemma Average_interlaces p us U : 1 <= p -> p <= len us - 1 -> (forall i j, 0 <= i < j -> j < len us -> (val us i < val us j)%R) -> val us 0 = 0%R -> val us (len us - 1) = 1%R ->
  arr U (len us + p + 1) (avg_knot p us) -> forall i, 0 < i < len us - 1 -> (val U i < val us i < val U (i + p + 1))%R.
Proof.
  intros Hp Hn Hs H0 H1 HU i Hi. rewrite (arr_val _ _ _ _ HU), (arr_val _ _ _ _ HU) by lia. split.
  - destruct (Z.le_gt_cases i p) as [h|h].
    + unfold avg_knot. zcase; try lia. rewrite <- H0. apply Hs; lia.
    + rewrite avg_mid by lia. apply mean_lt; [lia|]. intros j Hj. apply Hs; lia.
  - destruct (Z.lt_ge_cases (i + p + 1) (len us)) as [h|h].
    + rewrite avg_mid by lia. apply mean_gt; [lia|]. intros j Hj. apply Hs; lia.
    + unfold avg_knot. zcase; try lia. rewrite <- H1. apply Hs; lia.
Qed.

(** * Knots for approximation *)
Lemma floor_spec x : (IZR (Int_part x) <= x < IZR (Int_part x) + 1)%R.
Proof. destruct (base_Int_part x). lra. Qed.

Definition fit_knot (p n : Z) (us : list R) (i : Z) : R :=
  (if i <=? p then 0 else if n <? i then 1 else
   let x := IZR (i - p) * (IZR (len us) / IZR (n - p + 1)) in let k := Int_part x in (1 - (x - IZR k)) * val us (k - 1) + (x - IZR k) * val us k)%R.

Lemma fit_range p n (us : list R) j : p <= n -> n - p + 1 <= len us -> 1 <= j <= n - p ->
  1 <= Int_part (IZR j * (IZR (len us) / IZR (n - p + 1))) < len us.
Proof.
  intros Hn Hk Hj. set (x := (IZR j * (IZR (len us) / IZR (n - p + 1)))%R). pose proof (floor_spec x) as [F1 F2].
  assert (HK : (0 < IZR (n - p + 1))%R) by (apply IZR_lt; lia).
  assert (HM : (IZR (n - p + 1) <= IZR (len us))%R) by (apply IZR_le; lia).
  assert (HQ : (1 <= IZR (len us) / IZR (n - p + 1))%R). { apply (Rmult_le_reg_r _ _ _ HK). unfold Rdiv. rewrite Rmult_assoc, Rinv_l by lra. lra. }
  assert (X1 : (1 <= x)%R). { unfold x. assert (1 <= IZR j)%R by (apply IZR_le; lia). nra. }
  assert (X2 : (x < IZR (len us))%R).
  { unfold x. apply (Rmult_lt_reg_r _ _ _ HK). replace (IZR j * (IZR (len us) / IZR (n - p + 1)) * IZR (n - p + 1))%R with (IZR j * IZR (len us))%R by (field; lra).
    rewrite Rmult_comm. apply Rmult_lt_compat_l; [lra|]. apply IZR_lt. lia. }
  split.
  - assert (0 < Int_part x) by (apply lt_IZR; lra). lia.
  - apply lt_IZR. lra.
Qed.

Lemma ComputeKnotVector_ok p n us : 0 <= p -> p <= n -> n - p + 1 <= len us ->
  wp (ComputeKnotVector p (n + 1) us) (fun U => arr U (n + p + 2) (fit_knot p n us)).
Proof.
  intros Hp Hn Hk. pose proof (P_Bern.arr_val us) as HA. unfold ComputeKnotVector. num. cbn [nfloor Floor_R].
  replace (n + 1 - 1) with n by lia. replace (len us - 1 + 1) with (len us) by lia.
  apply wp_bind. apply wp_mkvec; [lia|]. intros v Hv. assert (HZ : IZR (n - p + 1) <> 0%R) by (apply not_0_IZR; lia). rewrite Rdiv_ok by exact HZ. cbn [bind].
  apply wp_bind. apply (wp_fill 1 (n - p + 1) p (n + p + 2) (fun _ => False) (fit_knot p n us)).
  { split; [exact (arr_len _ _ _ Hv)|tauto]. } { lia. }
  { intros j v' Hj _. pose proof (fit_range p n us j Hn Hk ltac:(lia)) as HR. wget HA. wget HA. replace (p + j) with (j + p) by lia. f_equal.
    unfold fit_knot. zcase; try lia. replace (j + p - p) with j by lia. reflexivity. }
  intros v1 Hv1.
  apply wp_for_up with (P := fun i v => arrD v (n + p + 2) (fun j => j < i \/ 1 + p <= j < n - p + 1 + p) (fit_knot p n us)); [lia| | |].
  - eapply arrD_ext; [exact Hv1|]. cbv beta. intros i Hi Hd. split; [lia|reflexivity].
  - intros i w Hi Hw. destruct (Z.leb_spec i p).
    + apply (arrD_set _ _ _ (fun j => j < i + 1 \/ 1 + p <= j < n - p + 1 + p) _ _ _ _ Hw); [lia|unfold fit_knot; zcase; try lia; reflexivity|lia|auto].
    + destruct (Z.leb_spec (n + p + 2 - 1 - p) i).
      * apply (arrD_set _ _ _ (fun j => j < i + 1 \/ 1 + p <= j < n - p + 1 + p) _ _ _ _ Hw); [lia|unfold fit_knot; zcase; try lia; reflexivity|lia|auto].
      * apply wp_ok. eapply arrD_ext; [exact Hw|]. cbv beta. intros j Hj Hd. split; [lia|reflexivity].
  - intros U HU. eapply arr_of_arrD; [exact HU|]. cbv beta. intros; lia.
Qed.

Lemma fit_clamped p n us U : 0 <= p -> p <= n -> n - p + 1 <= len us -> sorted us -> (0 <= val us 0)%R -> (val us (len us - 1) <= 1)%R ->
  arr U (n + p + 2) (fit_knot p n us) -> clamped_unit p n U.
Proof.
  intros Hp Hn Hk Hs H0 H1 HU.
  assert (B0 : forall i, 0 <= i < len us -> (0 <= val us i)%R). { intros i Hi. apply Rle_trans with (val us 0); [exact H0|]. apply Hs; lia. }
  assert (B1 : forall i, 0 <= i < len us -> (val us i <= 1)%R). { intros i Hi. apply Rle_trans with (val us (len us - 1)); [|exact H1]. apply Hs; lia. }
  assert (HM : forall i, p < i <= n -> let x := (IZR (i - p) * (IZR (len us) / IZR (n - p + 1)))%R in let k := Int_part x in
     1 <= k < len us /\ (val us (k - 1) <= fit_knot p n us i <= val us k)%R /\ fit_knot p n us i = (val us (k - 1) + (x - IZR k) * (val us k - val us (k - 1)))%R).
  { intros i Hi x k. pose proof (fit_range p n us (i - p) Hn Hk ltac:(lia)) as HR. fold x in HR. fold k in HR. split; [exact HR|].
    assert (E : fit_knot p n us i = (val us (k - 1) + (x - IZR k) * (val us k - val us (k - 1)))%R).
    { unfold fit_knot. zcase; try lia. fold x. cbv zeta. fold k. ring. }
    split; [|exact E]. rewrite E. pose proof (floor_spec x) as [F1 F2]. fold k in F1, F2. assert (val us (k - 1) <= val us k)%R by (apply Hs; lia). nra. }
  split; [exact (arr_len _ _ _ HU)|]. split; [|split].
  - apply (sorted_arr _ _ _ HU). intros i Hi Hi1.
    assert (i < p \/ i = p /\ p < n \/ i = p /\ n = p \/ p < i < n \/ p < i /\ i = n \/ n < i) as [h|[[h h']|[[h h']|[h|[[h' h]|h]]]]] by lia.
    + unfold fit_knot. zcase; try lia. lra.
    + subst i. destruct (HM (p + 1)) as (HR & [HL _] & _); [lia|]. unfold fit_knot at 1. zcase; try lia. eapply Rle_trans; [|exact HL]. apply B0. lia.
    + subst i. unfold fit_knot. zcase; try lia. lra.
    + destruct (HM i) as (HR & [HL HU1] & E); [lia|]. destruct (HM (i + 1)) as (HR' & [HL' HU'] & E'); [lia|]. cbv zeta in *.
      set (x := (IZR (i - p) * (IZR (len us) / IZR (n - p + 1)))%R) in *. set (x' := (IZR (i + 1 - p) * (IZR (len us) / IZR (n - p + 1)))%R) in *.
      assert (HX : (x <= x')%R).
      { unfold x, x'. apply Rmult_le_compat_r; [|apply IZR_le; lia]. apply Rmult_le_pos; [apply IZR_le; lia|]. left. apply Rinv_0_lt_compat, IZR_lt. lia. }
      pose proof (floor_spec x). pose proof (floor_spec x'). assert (Int_part x <= Int_part x') by (apply Z.lt_succ_r, lt_IZR; rewrite succ_IZR; lra).
      destruct (Z.eq_dec (Int_part x) (Int_part x')) as [EQ|NE].
      * rewrite E, E', <- EQ. assert (val us (Int_part x - 1) <= val us (Int_part x))%R by (apply Hs; lia). nra.
      * eapply Rle_trans; [exact HU1|]. eapply Rle_trans; [|exact HL']. apply Hs; lia.
    + subst i. destruct (HM n) as (HR & [_ HU1] & _); [lia|]. unfold fit_knot at 2. zcase; try lia. eapply Rle_trans; [exact HU1|]. apply B1. lia.
    + unfold fit_knot. zcase; try lia. lra.
  - intros i Hi. rewrite (arr_val _ _ _ _ HU) by lia. unfold fit_knot. zcase; try lia; reflexivity.
  - intros i Hi. rewrite (arr_val _ _ _ _ HU) by lia. unfold fit_knot. zcase; try lia; reflexivity.
Qed.

(* too few parameters: the first interior knot reads the element before the first *)
Lemma ComputeKnotVector_few p n (us : list R) : 0 <= p -> p < n -> len us < n - p + 1 -> ComputeKnotVector p (n + 1) us = UB.
Proof.
  intros Hp Hn Hk. unfold ComputeKnotVector. num. cbn [nfloor Floor_R]. replace (n + 1 - 1) with n by lia. replace (len us - 1 + 1) with (len us) by lia.
  unfold mkvec. destruct (Z.ltb_spec (n + p + 2) 0); [lia|]. cbn [bind]. assert (HZ : (0 < IZR (n - p + 1))%R) by (apply IZR_lt; lia). rewrite Rdiv_ok by lra. cbn [bind].
  rewrite for_up_first by lia. set (x := (1 * (IZR (len us) / IZR (n - p + 1)))%R).
  assert (F : Int_part x = 0).
  { pose proof (floor_spec x) as [F1 F2]. assert (0 <= len us) by apply len_nonneg.
    assert (X0 : (0 <= x)%R). { unfold x. rewrite Rmult_1_l. apply Rmult_le_pos; [apply IZR_le; lia|]. left. apply Rinv_0_lt_compat. exact HZ. }
    assert (X1 : (x < 1)%R). { unfold x. rewrite Rmult_1_l. apply (Rmult_lt_reg_r _ _ _ HZ). unfold Rdiv. rewrite Rmult_assoc, Rinv_l by lra. rewrite Rmult_1_r, Rmult_1_l. apply IZR_lt. lia. }
    assert (Int_part x < 1) by (apply lt_IZR; lra). assert (-1 < Int_part x) by (apply lt_IZR; lra). lia. }
  rewrite F. reflexivity.
Qed.

(* the piecewise linear function the knots are read from *)
Definition lin (us : list R) (x : R) : R :=
  (val us (Int_part x - 1) + (x - IZR (Int_part x)) * (val us (Int_part x) - val us (Int_part x - 1)))%R.

Lemma floor_IZR c : Int_part (IZR c) = c.
Proof.
  pose proof (floor_spec (IZR c)) as [F1 F2]. assert (Int_part (IZR c) <= c) by (apply le_IZR; lra).
  assert (c < Int_part (IZR c) + 1) by (apply lt_IZR; rewrite plus_IZR; lra). lia.
Qed.
Lemma lin_IZR us c : lin us (IZR c) = val us (c - 1).
Proof. unfold lin. rewrite floor_IZR. ring. Qed.

Definition increasing (us : list R) : Prop := forall i j, 0 <= i < j -> j < len us -> (val us i < val us j)%R.

Lemma lin_lt us x y : increasing us -> (1 <= x)%R -> (x < y)%R -> (y <= IZR (len us))%R -> (lin us x < lin us y)%R.
Proof.
  intros Hs H1 Hxy H2. pose proof (floor_spec x) as [F1 F2]. pose proof (floor_spec y) as [G1 G2]. unfold lin. set (k := Int_part x) in *. set (l := Int_part y) in *.
  assert (1 <= k) by (apply Z.lt_succ_r, lt_IZR; rewrite succ_IZR; lra). assert (k <= l) by (apply Z.lt_succ_r, lt_IZR; rewrite succ_IZR; lra).
  assert (l <= len us) by (apply le_IZR; lra).
  destruct (Z.eq_dec k l) as [E|E].
  - rewrite <- E. assert (k < len us) by (apply lt_IZR; lra). assert (val us (k - 1) < val us k)%R by (apply Hs; lia). nra.
  - assert (A1 : (val us (k - 1) < val us k)%R) by (apply Hs; lia).
    assert (A2 : (val us k <= val us (l - 1))%R). { destruct (Z.eq_dec k (l - 1)) as [->|]; [lra|]. left. apply Hs; lia. }
    assert (A3 : (0 <= (y - IZR l) * (val us l - val us (l - 1)))%R).
    { destruct (Z.eq_dec l (len us)) as [El|]; [replace (y - IZR l)%R with 0%R by (rewrite El in *; lra); lra|]. apply Rmult_le_pos; [lra|]. assert (val us (l - 1) < val us l)%R by (apply Hs; lia). lra. }
    assert (A4 : ((x - IZR k) * (val us k - val us (k - 1)) < val us k - val us (k - 1))%R) by nra. lra.
Qed.

Lemma fit_covers p n us U : 0 <= p -> p <= n -> n - p + 1 < len us -> increasing us -> val us 0 = 0%R -> val us (len us - 1) = 1%R ->
  arr U (n + p + 2) (fit_knot p n us) -> forall i, p <= i <= n -> exists k, 0 <= k < len us /\ (val U i <= val us k < val U (i + 1))%R.
Proof.
  intros Hp Hn Hk Hs H0 H1 HU i Hi. set (d := (IZR (len us) / IZR (n - p + 1))%R).
  assert (HK : (0 < IZR (n - p + 1))%R) by (apply IZR_lt; lia).
  assert (Hd : (1 < d)%R). { unfold d. apply (Rmult_lt_reg_r _ _ _ HK). unfold Rdiv. rewrite Rmult_assoc, Rinv_l, Rmult_1_r, Rmult_1_l by lra. apply IZR_lt. lia. }
  assert (HN : forall j, p < j <= n + 1 -> val U j = lin us (IZR (j - p) * d)).
  { intros j Hj. rewrite (arr_val _ _ _ _ HU) by lia. destruct (Z.eq_dec j (n + 1)) as [->|].
    - replace (IZR (n + 1 - p) * d)%R with (IZR (len us)). 2:{ unfold d. replace (n + 1 - p) with (n - p + 1) by lia. field. lra. }
      rewrite lin_IZR, H1. unfold fit_knot. zcase; try lia. reflexivity.
    - unfold fit_knot. zcase; try lia. fold d. unfold lin. ring. }
  assert (HM : forall j, p < j <= n + 1 -> (IZR (j - p) * d <= IZR (len us))%R).
  { intros j Hj. apply Rle_trans with (IZR (n - p + 1) * d)%R. - apply Rmult_le_compat_r; [lra|]. apply IZR_le. lia. - right. unfold d. field. lra. }
  destruct (Z.eq_dec i p) as [->|Hne].
  - exists 0. split; [lia|]. rewrite (HN (p + 1)) by lia. rewrite (arr_val _ _ _ _ HU) by lia. unfold fit_knot at 1. zcase; try lia. rewrite H0. split; [lra|].
    rewrite <- H0. change 0 with (1 - 1). rewrite <- lin_IZR. apply lin_lt; [exact Hs|lra| |].
    + replace (p + 1 - p) with 1 by lia. lra.
    + apply HM. lia.
  - rewrite (HN i), (HN (i + 1)) by lia. set (x := (IZR (i - p) * d)%R). assert (Ex : (IZR (i + 1 - p) * d = x + d)%R) by (unfold x; replace (i + 1 - p) with (i - p + 1) by lia; rewrite plus_IZR; ring).
    assert (HX : (x + d <= IZR (len us))%R) by (rewrite <- Ex; apply HM; lia). rewrite Ex.
    assert (X1 : (1 <= x)%R). { unfold x. assert (1 <= IZR (i - p))%R by (apply IZR_le; lia). nra. }
    assert (exists c, (x <= IZR c < x + d)%R) as (c & C1 & C2).
    { pose proof (floor_spec x) as [F1 F2]. destruct (Req_dec x (IZR (Int_part x))) as [E|E]; [exists (Int_part x); lra|]. exists (Int_part x + 1). rewrite plus_IZR. lra. }
    assert (1 <= c) by (apply le_IZR; lra). assert (c < len us) by (apply lt_IZR; lra).
    exists (c - 1). split; [lia|]. rewrite <- lin_IZR. split.
    + destruct (Req_dec x (IZR c)) as [->|]; [lra|]. left. apply lin_lt; [exact Hs|lra|lra|lra].
    + apply lin_lt; [exact Hs|lra|lra|lra].
Qed.
