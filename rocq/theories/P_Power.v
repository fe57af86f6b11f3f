(* Bezier <-> power basis conversion matrices. *)
From Coq Require Import ZArith List Lia Bool Reals Lra Psatz Binomial.
From Verif Require Import Base Num Vec Tac Spec M_MathUtils M_Polynomials P_MathUtils P_Bern.
Import ListNotations.
Open Scope Z_scope.

Definition sgn (n : Z) : R := ((-1) ^ Z.to_nat n)%R.
Lemma sgn_0 : sgn 0 = 1%R. Proof. reflexivity. Qed.
Lemma sgn_succ n : 0 <= n -> sgn (n + 1) = (- sgn n)%R.
Proof. intros H. unfold sgn. rewrite pow_succ by lia. ring. Qed.

(* the entry of the Bezier-to-power matrix: coefficient of t^j in B_{k,p} *)
Definition Mbp (p j k : Z) : R :=
  if k <=? j then (sgn (j - k) * Cb p k * Cb (p - k) (j - k))%R else 0%R.
(* the entry of its inverse: coefficient of B_{j,p} in t^k *)
Definition Mpb (p j k : Z) : R := if k <=? j then (Cb j k / Cb p k)%R else 0%R.

Lemma Cb_neq0 n k : 0 <= k <= n -> Cb n k <> 0%R.
Proof. intros H. pose proof (Cb_pos n k H). lra. Qed.

Lemma Cb_trinomial p j k : 0 <= k <= j -> j <= p ->
  (Cb p k * Cb (p - k) (j - k) = Cb p j * Cb j k)%R.
Proof.
  intros H1 H2. unfold Cb, C.
  replace (Z.to_nat (p - k)) with (Z.to_nat p - Z.to_nat k)%nat by lia.
  replace (Z.to_nat (j - k)) with (Z.to_nat j - Z.to_nat k)%nat by lia.
  set (P := Z.to_nat p). set (J := Z.to_nat j). set (K := Z.to_nat k).
  assert (K <= J <= P)%nat by (subst P J K; lia).
  replace (P - K - (J - K))%nat with (P - J)%nat by lia.
  pose proof (INR_fact_neq_0 P). pose proof (INR_fact_neq_0 J). pose proof (INR_fact_neq_0 K).
  pose proof (INR_fact_neq_0 (P - J)). pose proof (INR_fact_neq_0 (P - K)). pose proof (INR_fact_neq_0 (J - K)).
  field. repeat split; assumption.
Qed.

Lemma Mbp_reflect p j k : 0 <= k <= j -> j <= p -> Mbp p (p - k) (p - j) = Mbp p j k.
Proof.
  intros H1 H2. unfold Mbp. zcase; try lia.
  replace (p - k - (p - j)) with (j - k) by lia. replace (p - (p - j)) with j by lia.
  rewrite !Rmult_assoc. f_equal. rewrite (Cb_trinomial p j k) by lia.
  rewrite <- (Cb_sym p j) by lia. f_equal. rewrite (Cb_sym j k) by lia. reflexivity.
Qed.

Lemma Mpb_reflect p j k : 0 <= k <= j -> j <= p -> Mpb p (p - k) (p - j) = Mpb p j k.
Proof.
  intros H1 H2. unfold Mpb. zcase; try lia.
  pose proof (Cb_neq0 p k ltac:(lia)). pose proof (Cb_neq0 p j ltac:(lia)).
  rewrite <- (Cb_sym p j) by lia.
  replace (Cb (p - k) (p - j)) with (Cb (p - k) (j - k)).
  2:{ rewrite (Cb_sym (p - k) (j - k)) by lia. f_equal. lia. }
  apply Rmult_eq_reg_r with (Cb p j * Cb p k)%R; [|apply Rmult_integral_contrapositive; auto].
  pose proof (Cb_trinomial p j k H1 H2). field_simplify; try lra; auto.
Qed.

Lemma sgn_1 : sgn 1 = (-1)%R.
Proof. unfold sgn. change (Z.to_nat 1) with 1%nat. cbn [pow]. ring. Qed.

Lemma rem2_sgn p : 0 <= p -> (if Z.rem p 2 =? 0 then 1 else - (1))%R = sgn p.
Proof.
  intros Hp. unfold sgn. rewrite Z.rem_mod_nonneg by lia.
  pose proof (Z.div_mod p 2 ltac:(lia)) as E. pose proof (Z.mod_pos_bound p 2 ltac:(lia)).
  set (q := p / 2) in *. assert (0 <= q) by (subst q; apply Z.div_pos; lia).
  destruct (Z.eqb_spec (p mod 2) 0) as [Hz|Hz].
  - replace (Z.to_nat p) with (2 * Z.to_nat q)%nat by lia. rewrite pow_mult.
    replace ((-1) ^ 2)%R with 1%R by ring. rewrite pow1. reflexivity.
  - replace (Z.to_nat p) with (S (2 * Z.to_nat q))%nat by lia. cbn [pow]. rewrite pow_mult.
    replace ((-1) ^ 2)%R with 1%R by ring. rewrite pow1. ring.
Qed.

Lemma Mbp_diag p i : 0 <= i <= p -> Mbp p i i = Cb p i.
Proof.
  intros H. unfold Mbp. zcase; [|lia]. rewrite Z.sub_diag, sgn_0, (Cb_0 (p - i)) by lia. ring.
Qed.
Lemma Mbp_col0 p i : 0 <= i <= p -> Mbp p i 0 = (sgn i * Cb p i)%R.
Proof. intros H. unfold Mbp. zcase; [|lia]. rewrite !Z.sub_0_r, Cb_0 by lia. ring. Qed.
Lemma Mbp_rowp p i : 0 <= i <= p -> Mbp p p (p - i) = (sgn i * Cb p i)%R.
Proof.
  intros H. rewrite <- Mbp_col0 by lia.
  rewrite <- (Mbp_reflect p i 0) by lia. rewrite Z.sub_0_r. reflexivity.
Qed.
Lemma Mbp_low p j k : 0 <= k <= j -> Mbp p j k = (sgn (j - k) * Cb p k * Cb (p - k) (j - k))%R.
Proof. intros H. unfold Mbp. zcase; [reflexivity|lia]. Qed.

Lemma BezierToPowerMatrix_ok p : 0 <= p ->
  wp (BezierToPowerMatrix (A := R) p) (fun m => arr2 m (p + 1) (p + 1) (Mbp p)).
Proof.
  intros Hp. unfold BezierToPowerMatrix. apply wp_bind, wp_mkvec; [lia|]. intros row Hrow.
  apply wp_bind. apply (wp_mkvec2 n0 (p + 1) (p + 1) row); [lia|exact Hrow|]. intros m0 H0.
  assert (U0 : arr2D m0 (p + 1) (p + 1) (fun a b => a < b) (Mbp p)).
  { eapply arr2D_ext; [apply arr2_D with (D := fun _ _ => True); exact H0|].
    intros a b Ha Hb HD. split; [exact I|]. unfold Mbp. zcase; [lia|reflexivity]. }
  apply wp_bind.
  apply wp_for_up with (P := fun _ m => arr2D m (p + 1) (p + 1) (fun a b => a < b) (Mbp p)).
  { lia. } { exact U0. }
  { intros i m Hi Hm.
    apply wp_for_up with (P := fun _ m => arr2D m (p + 1) (p + 1) (fun a b => a < b) (Mbp p)); try lia.
    - exact Hm.
    - intros j m' Hj Hm'. eapply arr2D_set with (D' := fun a b => a < b); [exact Hm'|lia|lia| |dl|auto].
      unfold Mbp. zcase; [lia|reflexivity].
    - auto. }
  intros m1 H1. apply wp_bind.
  eapply arr2D_set with (D' := fun a b => a < b \/ (a = p /\ b = p)); [exact H1|lia|lia| |dl|].
  { rewrite Mbp_diag, Cb_n by lia. reflexivity. }
  intros m2 H2. apply wp_bind.
  eapply arr2D_set with (D' := fun a b => a < b \/ (a = p /\ b = p) \/ (a = 0 /\ b = 0)); [exact H2|lia|lia| |dl|].
  { rewrite Mbp_diag, Cb_0 by lia. reflexivity. }
  intros m3 H3. apply wp_bind.
  set (D1 := fun i a b => a < b \/ (a = p /\ b = p) \/ (a = 0 /\ b = 0) \/ (a = p /\ b = 0) \/
                     (1 <= a < i /\ (b = a \/ b = 0)) \/ (a = p /\ p - i < b < p)).
  eapply arr2D_set with (D' := D1 1); [exact H3|lia|lia| |unfold D1; dl|].
  { rewrite Mbp_col0, Cb_n by lia. rewrite <- rem2_sgn by lia. numg. ring. }
  intros m4 H4. apply wp_bind.
  apply wp_for_up' with (P := fun i '(m, s) =>
     arr2D m (p + 1) (p + 1) (D1 i) (Mbp p) /\ s = sgn i).
  { split; [exact H4|]. rewrite sgn_1. numg. ring. }
  { intros i [m s] Hi [Hm ->]. rewrite Binomial_ok by lia. cbn [bind]. apply wp_bind.
    eapply arr2D_set with (D' := fun a b => D1 i a b \/ (a = i /\ b = i)); [exact Hm|lia|lia| |dl|].
    { rewrite Mbp_diag by lia. reflexivity. }
    intros m5 H5. wget H5. rewrite Mbp_diag by lia. apply wp_bind.
    eapply arr2D_set with (D' := fun a b => D1 i a b \/ (a = i /\ b = i) \/ (a = p /\ b = p - i));
      [exact H5|lia|lia| |dl|].
    { rewrite Mbp_rowp by lia. reflexivity. }
    intros m6 H6. apply wp_bind.
    eapply arr2D_set with (D' := D1 (i + 1)); [exact H6|lia|lia| |unfold D1; dl|].
    { rewrite Mbp_col0 by lia. reflexivity. }
    intros m7 H7. cbn [wp]. split; [exact H7|]. rewrite sgn_succ by lia. reflexivity. }
  intros [m5 s] [H5 _]. apply wp_bind.
  set (D2 := fun k a b => D1 (Z.max 1 p) a b \/ (1 <= b < k /\ b < a <= p - b) \/
                          (p - k < a < p /\ p - a <= b < a)).
  assert (Hk1 : 2 * ((p + 1) / 2) <= p + 1 < 2 * ((p + 1) / 2) + 2).
  { pose proof (Z.div_mod (p + 1) 2 ltac:(lia)). pose proof (Z.mod_pos_bound (p + 1) 2 ltac:(lia)). lia. }
  set (k1 := (p + 1) / 2) in *.
  apply wp_for_up' with (P := fun k '(m, pk) =>
     arr2D m (p + 1) (p + 1) (D2 k) (Mbp p) /\ pk = p - k).
  { split; [|lia]. eapply arr2D_ext; [exact H5|]. intros a b Ha Hb HD. split; [|reflexivity].
    unfold D2, D1 in *. dl. }
  { intros k [m pk] Hk [Hm ->]. apply wp_bind.
    apply wp_for_up' with (P := fun j '(m, s) =>
      arr2D m (p + 1) (p + 1)
        (fun a b => D2 k a b \/ (b = k /\ k < a < j) \/ (a = p - k /\ p - j < b < p - k)) (Mbp p) /\
      s = sgn (j - k)).
    - split.
      + eapply arr2D_ext; [exact Hm|]. intros a b Ha Hb HD. split; [dl|reflexivity].
      + replace (k + 1 - k) with 1 by lia. rewrite sgn_1. numg. ring.
    - intros j [m' s'] Hj [Hm' ->]. rewrite !Binomial_ok by lia. cbn [bind]. numg.
      assert (EV : (sgn (j - k) * Cb p k * Cb (p - k) (j - k))%R = Mbp p j k).
      { symmetry. apply Mbp_low. lia. }
      rewrite EV. apply wp_bind.
      eapply arr2D_set with (D' := fun a b => D2 k a b \/ (b = k /\ k < a < j) \/ (a = p - k /\ p - j - 1 < b < p - k));
        [exact Hm'|lia|lia| |dl|].
      { symmetry. apply Mbp_reflect; lia. }
      intros m6 H6. apply wp_bind.
      eapply arr2D_set with (D' := fun a b => D2 k a b \/ (b = k /\ k < a < j + 1) \/ (a = p - k /\ p - (j + 1) < b < p - k));
        [exact H6|lia|lia|reflexivity|dl|].
      intros m7 H7. cbn [wp]. split; [exact H7|].
      replace (j + 1 - k) with (j - k + 1) by lia. rewrite sgn_succ by lia. reflexivity.
    - intros [m' s'] [Hm' _]. cbn [wp]. split; [|lia].
      eapply arr2D_ext; [exact Hm'|]. intros a b Ha Hb HD. split; [|reflexivity].
      unfold D2 in *. cbv beta in *. destruct HD as [HD|[HD|HD]]; [left; left; exact HD| |].
      + destruct (Z_lt_dec b k); [left; right; left; lia|right; left; lia].
      + destruct (Z_lt_dec (p - k) a); [left; right; right; lia|right; right; lia]. }
  intros [m6 pk] [H6 _]. cbn [wp]. eapply arr2_of_D; [exact H6|].
  intros a b Ha Hb. unfold D2, D1. lia.
Qed.

(* ------------------------------------------------------------------ *)
Lemma rsum_sum_f n f : rsum 0 (Z.of_nat n + 1) f = sum_f_R0 (fun i => f (Z.of_nat i)) n.
Proof.
  induction n as [|n IH].
  - change (Z.of_nat 0) with 0. rewrite (rsum_one 0). reflexivity.
  - replace (Z.of_nat (S n) + 1) with ((Z.of_nat n + 1) + 1) by lia.
    rewrite rsum_last, IH by lia. cbn [sum_f_R0]. do 2 f_equal. lia.
Qed.

(* (1 - t)^n expanded *)
Lemma binom_expand n t : 0 <= n ->
  rsum 0 (n + 1) (fun i => sgn i * Cb n i * t ^ Z.to_nat i)%R = ((1 - t) ^ Z.to_nat n)%R.
Proof.
  intros Hn. replace n with (Z.of_nat (Z.to_nat n)) at 1 by lia. rewrite rsum_sum_f.
  replace (1 - t)%R with ((- t) + 1)%R by ring. rewrite binomial.
  apply sum_eq. intros i Hi. unfold sgn, Cb. rewrite Nat2Z.id, pow1.
  replace (- t)%R with ((-1) * t)%R by ring. rewrite Rpow_mult_distr. ring.
Qed.

(* column k of the matrix is the power form of B_{k,p} *)
Lemma Mbp_column p k t : 0 <= k <= p -> poly (fun j => Mbp p j k) p t = bern p k t.
Proof.
  intros Hk. unfold poly. rewrite (rsum_split 0 k) by lia.
  rewrite (rsum_zero 0 k).
  2:{ intros i Hi. unfold Mbp. zcase; [lia|ring]. }
  rewrite (rsum_shift (- k)). replace (k + - k) with 0 by lia. replace (p + 1 + - k) with (p - k + 1) by lia.
  rewrite bern_in by lia. rewrite <- (binom_expand (p - k)) by lia.
  rewrite Rplus_0_l, <- rsum_scal. apply rsum_ext. intros i Hi.
  replace (i - - k) with (i + k) by lia. rewrite Mbp_low by lia.
  replace (i + k - k) with i by lia. replace (Z.to_nat (i + k)) with (Z.to_nat i + Z.to_nat k)%nat by lia.
  rewrite pow_add. ring.
Qed.

(* M Mpb = identity *)
Lemma Mbp_Mpb p j k : 0 <= j <= p -> 0 <= k <= p ->
  rsum 0 (p + 1) (fun i => Mbp p j i * Mpb p i k)%R = if j =? k then 1%R else 0%R.
Proof.
  intros Hj Hk.
  destruct (Z_lt_dec j k) as [Hlt|Hge].
  { destruct (Z.eqb_spec j k); [lia|]. apply rsum_zero. intros i Hi. unfold Mbp, Mpb. zcase; try lia; ring. }
  rewrite (rsum_split 0 k) by lia. rewrite (rsum_zero 0 k).
  2:{ intros i Hi. unfold Mpb. zcase; [lia|ring]. }
  rewrite (rsum_split k (j + 1)) by lia. rewrite (rsum_zero (j + 1)).
  2:{ intros i Hi. unfold Mbp. zcase; [lia|ring]. }
  pose proof (Cb_neq0 p k Hk).
  rewrite (rsum_ext k (j + 1) _ (fun i => (Cb p j * Cb j k / Cb p k * sgn (j - k)) *
     (sgn (i - k) * Cb (j - k) (i - k) * 1 ^ Z.to_nat (i - k))))%R.
  2:{ intros i Hi. unfold Mpb. rewrite Mbp_low by lia. destruct (Z.leb_spec k i); [|lia]. rewrite pow1.
      replace (sgn (j - i)) with (sgn (j - k) * sgn (i - k))%R.
      2:{ unfold sgn. replace (Z.to_nat (j - k)) with (Z.to_nat (j - i) + Z.to_nat (i - k))%nat by lia.
          rewrite pow_add. rewrite Rmult_assoc, <- Rpow_mult_distr.
          replace (-1 * -1)%R with 1%R by ring. rewrite pow1. ring. }
      pose proof (Cb_trinomial p j i ltac:(lia) ltac:(lia)) as T1.
      pose proof (Cb_trinomial j i k ltac:(lia) ltac:(lia)) as T2.
      replace (sgn (j - k) * sgn (i - k) * Cb p i * Cb (p - i) (j - i) * (Cb i k / Cb p k))%R
        with (sgn (j - k) * sgn (i - k) * (Cb p i * Cb (p - i) (j - i)) * (Cb i k / Cb p k))%R by ring.
      rewrite T1.
      replace (Cb p j * Cb j k / Cb p k * sgn (j - k) * (sgn (i - k) * Cb (j - k) (i - k) * 1))%R
        with (Cb p j * (Cb j k * Cb (j - k) (i - k)) / Cb p k * sgn (j - k) * sgn (i - k))%R by (field; auto).
      rewrite T2. field. auto. }
  rewrite rsum_scal, (rsum_shift (- k)).
  replace (k + - k) with 0 by lia. replace (j + 1 + - k) with (j - k + 1) by lia.
  rewrite (rsum_ext 0 (j - k + 1) _ (fun i => sgn i * Cb (j - k) i * 1 ^ Z.to_nat i)%R).
  2:{ intros i Hi. replace (i - - k - k) with i by lia. reflexivity. }
  rewrite binom_expand by lia. replace (1 - 1)%R with 0%R by ring.
  destruct (Z.eqb_spec j k) as [->|Hne].
  - rewrite Z.sub_diag, sgn_0, Cb_n by lia. cbn. field. auto.
  - rewrite pow_i by lia. ring.
Qed.

(* Mpb M = identity *)
Lemma Mpb_Mbp p j k : 0 <= j <= p -> 0 <= k <= p ->
  rsum 0 (p + 1) (fun i => Mpb p j i * Mbp p i k)%R = if j =? k then 1%R else 0%R.
Proof.
  intros Hj Hk.
  (* reflect both factors: Mpb p j i = Mpb p (p-i) (p-j) *)
  assert (E1 : forall i, 0 <= i <= p -> Mpb p j i = Mpb p (p - i) (p - j)).
  { intros i Hi. destruct (Z_le_dec i j); [symmetry; apply Mpb_reflect; lia|].
    unfold Mpb. zcase; try lia. reflexivity. }
  assert (E2 : forall i, 0 <= i <= p -> Mbp p i k = Mbp p (p - k) (p - i)).
  { intros i Hi. destruct (Z_le_dec k i); [symmetry; apply Mbp_reflect; lia|].
    unfold Mbp. zcase; try lia. reflexivity. }
  rewrite (rsum_ext 0 (p + 1) _ (fun i => Mbp p (p - k) (p - i) * Mpb p (p - i) (p - j))%R).
  2:{ intros i Hi. rewrite E1, E2 by lia. ring. }
  rewrite rsum_rev.
  rewrite (rsum_ext 0 (p + 1) _ (fun i => Mbp p (p - k) i * Mpb p i (p - j))%R).
  2:{ intros i Hi. cbv beta. replace (p - (0 + (p + 1) - 1 - i)) with i by lia. reflexivity. }
  rewrite Mbp_Mpb by lia. zcase; try reflexivity; lia.
Qed.

Lemma PowerToBezierMatrix_ok p m : 0 <= p -> arr2 m (p + 1) (p + 1) (Mbp p) ->
  wp (PowerToBezierMatrix (A := R) p m) (fun m' => arr2 m' (p + 1) (p + 1) (Mpb p)).
Proof.
  intros Hp HM. unfold PowerToBezierMatrix. apply wp_bind, wp_mkvec; [lia|]. intros row Hrow.
  apply wp_bind. apply (wp_mkvec2 n0 (p + 1) (p + 1) row); [lia|exact Hrow|]. intros m0 H0.
  assert (U0 : arr2D m0 (p + 1) (p + 1) (fun a b => a < b) (Mpb p)).
  { eapply arr2D_ext; [apply arr2_D with (D := fun _ _ => True); exact H0|].
    intros a b Ha Hb HD. split; [exact I|]. unfold Mpb. zcase; [lia|reflexivity]. }
  apply wp_bind.
  apply wp_for_up with (P := fun _ m => arr2D m (p + 1) (p + 1) (fun a b => a < b) (Mpb p)).
  { lia. } { exact U0. }
  { intros i m1 Hi Hm.
    apply wp_for_up with (P := fun _ m => arr2D m (p + 1) (p + 1) (fun a b => a < b) (Mpb p)); try lia.
    - exact Hm.
    - intros j m' Hj Hm'. eapply arr2D_set with (D' := fun a b => a < b); [exact Hm'|lia|lia| |dl|auto].
      unfold Mpb. zcase; [lia|reflexivity].
    - auto. }
  intros m1 H1. apply wp_bind.
  set (D1 := fun i a b => a < b \/ (a = p /\ b < i) \/ (a < i /\ b = 0) \/ (a < i /\ b = a)).
  apply wp_for_up with (P := fun i m => arr2D m (p + 1) (p + 1) (D1 i) (Mpb p)).
  { lia. }
  { eapply arr2D_ext; [exact H1|]. intros a b Ha Hb HD. split; [|reflexivity]. unfold D1 in HD. lia. }
  { intros i m2 Hi H2. apply wp_bind.
    eapply arr2D_set with (D' := fun a b => D1 i a b \/ (a = p /\ b = i)); [exact H2|lia|lia| |dl|].
    { unfold Mpb. zcase; [|lia]. pose proof (Cb_neq0 p i ltac:(lia)). numg. field. auto. }
    intros m3 H3. apply wp_bind.
    eapply arr2D_set with (D' := fun a b => D1 i a b \/ (a = p /\ b = i) \/ (a = i /\ b = 0)); [exact H3|lia|lia| |dl|].
    { unfold Mpb. zcase; [|lia]. rewrite !Cb_0 by lia. numg. field. }
    intros m4 H4. wget HM. rewrite Mbp_diag by lia. numg.
    rewrite Rdiv_ok by (apply Cb_neq0; lia). cbn [bind].
    eapply arr2D_set with (D' := D1 (i + 1)); [exact H4|lia|lia| |unfold D1; dl|auto].
    unfold Mpb. zcase; [|lia]. rewrite Cb_n by lia. reflexivity. }
  intros m5 H5.
  apply wp_bind.
  set (D2 := fun k a b => D1 (p + 1) a b \/ (1 <= b < k /\ b < a <= p - b) \/
                          (p - k < a < p /\ p - a <= b < a)).
  assert (Hk1 : 2 * ((p + 1) / 2) <= p + 1 < 2 * ((p + 1) / 2) + 2).
  { pose proof (Z.div_mod (p + 1) 2 ltac:(lia)). pose proof (Z.mod_pos_bound (p + 1) 2 ltac:(lia)). lia. }
  set (k1 := (p + 1) / 2) in *.
  apply wp_for_up' with (P := fun k '(m, pk) =>
     arr2D m (p + 1) (p + 1) (D2 k) (Mpb p) /\ pk = p - k).
  { split; [|lia]. eapply arr2D_ext; [exact H5|]. intros a b Ha Hb HD. split; [|reflexivity].
    unfold D2, D1 in *. dl. }
  { intros k [m6 pk] Hk [Hm ->]. apply wp_bind.
    apply wp_for_up' with (P := fun j m =>
      arr2D m (p + 1) (p + 1)
        (fun a b => D2 k a b \/ (b = k /\ k < a < j) \/ (a = p - k /\ p - j < b < p - k)) (Mpb p)).
    - eapply arr2D_ext; [exact Hm|]. intros a b Ha Hb HD. split; [dl|reflexivity].
    - intros j m7 Hj H7. apply wp_bind.
      apply wp_for_up with (P := fun i (d : R) => d = (- rsum k i (fun i => Mbp p j i * Mpb p i k))%R).
      + lia.
      + rewrite rsum_nil by lia. numg. ring.
      + intros i d Hi ->. wget HM.
        rewrite (arr2D_get _ _ _ _ _ _ _ H7) by (try lia; unfold D2, D1; lia). cbn [bind wp].
        numg. rewrite rsum_last by lia. ring.
      + intros d ->. wget HM. rewrite Mbp_diag by lia. numg.
        rewrite Rdiv_ok by (apply Cb_neq0; lia). cbn [bind].
        assert (EV : (- rsum k j (fun i => Mbp p j i * Mpb p i k) / Cb p j)%R = Mpb p j k).
        { pose proof (Mbp_Mpb p j k ltac:(lia) ltac:(lia)) as E.
          destruct (Z.eqb_spec j k); [lia|].
          rewrite (rsum_split 0 k) in E by lia. rewrite (rsum_zero 0 k) in E.
          2:{ intros i Hi. unfold Mpb. zcase; [lia|ring]. }
          rewrite (rsum_split k (j + 1)) in E by lia. rewrite (rsum_zero (j + 1)) in E.
          2:{ intros i Hi. unfold Mbp. zcase; [lia|ring]. }
          rewrite rsum_last, Mbp_diag in E by lia.
          pose proof (Cb_neq0 p j ltac:(lia)). apply Rmult_eq_reg_r with (Cb p j); [|auto].
          field_simplify; [lra|auto]. }
        rewrite EV. apply wp_bind.
        eapply arr2D_set with (D' := fun a b => D2 k a b \/ (b = k /\ k < a < j + 1) \/ (a = p - k /\ p - j < b < p - k));
          [exact H7|lia|lia|reflexivity|dl|].
        intros m8 H8. wget H8.
        eapply arr2D_set with (D' := fun a b => D2 k a b \/ (b = k /\ k < a < j + 1) \/ (a = p - k /\ p - (j + 1) < b < p - k));
          [exact H8|lia|lia| |dl|auto].
        symmetry. apply Mpb_reflect; lia.
    - intros m7 H7. cbn [wp]. split; [|lia].
      eapply arr2D_ext; [exact H7|]. intros a b Ha Hb HD. split; [|reflexivity].
      unfold D2 in *. cbv beta in *. destruct HD as [HD|[HD|HD]]; [left; left; exact HD| |].
      + destruct (Z_lt_dec b k); [left; right; left; lia|right; left; lia].
      + destruct (Z_lt_dec (p - k) a); [left; right; right; lia|right; right; lia]. }
  intros [m6 pk] [H6 _]. cbn [wp]. eapply arr2_of_D; [exact H6|].
  intros a b Ha Hb. unfold D2, D1. lia.
Qed.
