(* Horner's scheme, Bernstein polynomials. *)
From Coq Require Import ZArith List Lia Bool Reals Lra Psatz Binomial.
From Verif Require Import Base Num Vec Tac Spec M_MathUtils M_Polynomials P_MathUtils.
Import ListNotations.
Open Scope Z_scope.

Lemma pow_succ (t : R) n : 0 <= n -> (t ^ Z.to_nat (n + 1) = t * t ^ Z.to_nat n)%R.
Proof. intros H. replace (Z.to_nat (n + 1)) with (S (Z.to_nat n)) by lia. reflexivity. Qed.

Lemma arr_val l : arr l (len l) (val l).
Proof. apply arr_at. Qed.

(* ------------------------------------------------------------------ *)
(** * Horner *)

Lemma Horner_ok p a t : 0 < p -> len a = p + 1 -> Horner p a t = Ok (poly (val a) p t).
Proof.
  intros Hp Ha. pose proof (arr_val a) as Aa. rewrite Ha in Aa.
  assert (W : wp (Horner p a t) (fun r => r = poly (val a) p t)).
  { unfold Horner. wval. unfold IsValidBezier. wval. wget Aa.
    apply wp_for_down with (P := fun i r =>
      r = rsum (i + 1) (p + 1) (fun j => val a j * t ^ Z.to_nat (j - (i + 1)))%R).
    - lia.
    - replace (p - 1 + 1) with p by lia. rewrite rsum_one.
      replace (p - p) with 0 by lia. cbn. ring.
    - intros i r Hi ->. wget Aa. cbn [wp]. numg. replace (i - 1 + 1) with i by lia.
      rewrite (rsum_first i) by lia. replace (i - i) with 0 by lia.
      rewrite <- rsum_scal_r. cbn [Z.to_nat pow]. rewrite Rmult_1_r, Rplus_comm. f_equal.
      apply rsum_ext. intros j Hj.
      replace (j - i) with (j - (i + 1) + 1) by lia. rewrite pow_succ by lia. ring.
    - intros s ->. unfold poly. replace (0 - 1 + 1) with 0 by lia. apply rsum_ext. intros j Hj.
      do 2 f_equal. f_equal. lia. }
  destruct (wp_elim _ _ W) as (x & Hx & ->). exact Hx.
Qed.

Lemma Horner_reject p a t : ~ (0 < p /\ len a = p + 1) -> Horner (A := R) p a t = Throw.
Proof.
  intros H. unfold Horner. destruct (Z.ltb_spec 0 p); [|reflexivity]. cbn [validate bind].
  unfold IsValidBezier. destruct (Z.eqb_spec (len a) (p + 1)); [lia|reflexivity].
Qed.

(* the two-variable polynomial *)
Definition poly2 (a : Z -> Z -> R) (p q : Z) (u v : R) : R :=
  rsum 0 (p + 1) (fun i => rsum 0 (q + 1) (fun j => a i j * u ^ Z.to_nat i * v ^ Z.to_nat j)%R).

Lemma Horner2_ok p q m f u v : 0 < p -> 0 < q ->
  arr2 m (p + 1) (q + 1) f -> validate_range u 0%R 1%R = Ok tt -> validate_range v 0%R 1%R = Ok tt ->
  Horner2 p q m u v = Ok (poly2 f p q u v).
Proof.
  intros Hp Hq Hm Hu Hv.
  assert (W : wp (Horner2 p q m u v) (fun r => r = poly2 f p q u v)).
  { unfold Horner2. wval. wval. rewrite (arr2_len _ _ _ _ Hm).
    wval. unfold IsValidBezier. wval.
    destruct (arr2_row _ _ _ _ 0 Hm) as (r0 & Hr0 & Hr0'); [lia|]. rewrite Hr0. cbn [bind].
    rewrite (arr_len _ _ _ Hr0'). wval. num. rewrite Hu, Hv. cbn [bind].
    apply wp_bind, wp_mkvec; [lia|]. intros temp Ht. apply wp_bind.
    apply wp_for_up with (P := fun i temp => arr temp (p + 1)
      (fun k => if k <? i then poly (f k) q v else 0%R)).
    - lia.
    - eapply arr_ext; [exact Ht|]. intros k Hk. zcase; [lia|reflexivity].
    - intros i temp1 Hi H1.
      destruct (arr2_row _ _ _ _ i Hm) as (r & Hr & Hr'); [lia|]. rewrite Hr. cbn [bind].
      rewrite Horner_ok; [|lia|apply (arr_len _ _ _ Hr')]. cbn [bind].
      wupd H1. intros temp2 H2. eapply arr_ext; [exact H2|]. intros k Hk.
      assert (poly (val r) q v = poly (f i) q v).
      { apply rsum_ext. intros j Hj. f_equal. apply (arr_at_eq 0%R _ _ _ _ Hr'). lia. }
      zcase; subst; try reflexivity; try lia. assumption.
    - intros temp1 H1. rewrite Horner_ok; [|lia|apply (arr_len _ _ _ H1)]. cbn [wp].
      unfold poly, poly2. apply rsum_ext. intros i Hi.
      unfold val. rewrite (arr_at_eq 0%R _ _ _ _ H1) by lia. zcase; [|lia].
      unfold poly. rewrite <- rsum_scal_r. apply rsum_ext. intros j Hj. ring. }
  destruct (wp_elim _ _ W) as (x & Hx & ->). exact Hx.
Qed.

(* ------------------------------------------------------------------ *)
(** * Bernstein polynomials *)

Lemma bern_out p i t : i < 0 \/ p < i -> bern p i t = 0%R.
Proof. intros H. unfold bern. zcase; try reflexivity; lia. Qed.

Lemma bern_in p i t : 0 <= i <= p ->
  bern p i t = (Cb p i * t ^ Z.to_nat i * (1 - t) ^ Z.to_nat (p - i))%R.
Proof. intros H. unfold bern. zcase; try reflexivity; lia. Qed.

Lemma bern_0 p t : 0 <= p -> bern p 0 t = ((1 - t) ^ Z.to_nat p)%R.
Proof. intros H. rewrite bern_in, Cb_0, Z.sub_0_r by lia. cbn. ring. Qed.

Lemma bern_n p t : 0 <= p -> bern p p t = (t ^ Z.to_nat p)%R.
Proof. intros H. rewrite bern_in, Cb_n, Z.sub_diag by lia. cbn. ring. Qed.

Lemma bern_rec p i t : 0 < p ->
  bern p i t = ((1 - t) * bern (p - 1) i t + t * bern (p - 1) (i - 1) t)%R.
Proof.
  intros Hp. destruct (Z_lt_dec i 0) as [H|H]; [rewrite !bern_out by lia; ring|].
  destruct (Z_lt_dec p i) as [H'|H']; [rewrite !bern_out by lia; ring|].
  destruct (Z.eq_dec i 0) as [->|Hi0].
  { rewrite (bern_out _ (0 - 1)) by lia. rewrite !bern_0 by lia.
    replace p with (p - 1 + 1) at 1 by lia. rewrite pow_succ by lia. ring. }
  destruct (Z.eq_dec i p) as [->|Hip].
  { rewrite (bern_out (p - 1) p) by lia. rewrite !bern_n by lia.
    replace p with (p - 1 + 1) at 1 by lia. rewrite pow_succ by lia. ring. }
  rewrite !bern_in by lia. rewrite Cb_pascal by lia.
  replace (p - i) with (p - 1 - i + 1) by lia. replace (p - 1 - (i - 1)) with (p - 1 - i + 1) by lia.
  rewrite pow_succ by lia.
  replace (t ^ Z.to_nat i)%R with (t * t ^ Z.to_nat (i - 1))%R.
  2:{ rewrite <- pow_succ by lia. do 2 f_equal. lia. }
  ring.
Qed.

Lemma Cb_pos n k : 0 <= k <= n -> (0 < Cb n k)%R.
Proof.
  intros H. unfold Cb, C. apply Rdiv_lt_0_compat; [apply INR_fact_lt_0|].
  apply Rmult_lt_0_compat; apply INR_fact_lt_0.
Qed.

Lemma bern_nonneg p i t : (0 <= t <= 1)%R -> (0 <= bern p i t)%R.
Proof.
  intros Ht. unfold bern. zcase; try lra.
  pose proof (Cb_pos p i ltac:(lia)). assert (0 <= t ^ Z.to_nat i)%R by (apply pow_le; lra).
  assert (0 <= (1 - t) ^ Z.to_nat (p - i))%R by (apply pow_le; lra).
  apply Rmult_le_pos; [|assumption]. apply Rmult_le_pos; lra.
Qed.

Lemma bern_sum p t : 0 <= p -> rsum 0 (p + 1) (fun i => bern p i t) = 1%R.
Proof.
  intros Hp. revert p Hp. apply Zrange_ind.
  - rewrite rsum_one. rewrite bern_0 by lia. reflexivity.
  - intros p Hp IH.
    rewrite (rsum_ext _ _ _ (fun i => (1 - t) * bern p i t + t * bern p (i - 1) t)%R).
    2:{ intros i Hi. rewrite bern_rec by lia. replace (p + 1 - 1) with p by lia. reflexivity. }
    rewrite rsum_plus, !rsum_scal.
    rewrite (rsum_last 0 (p + 1)) by lia. rewrite IH.
    rewrite (bern_out p (p + 1)) by lia.
    rewrite (rsum_first 0 (p + 1 + 1)) by lia. rewrite (bern_out p (0 - 1)) by lia.
    rewrite (rsum_shift (-1) (0 + 1)).
    replace (0 + 1 + -1) with 0 by lia. replace (p + 1 + 1 + -1) with (p + 1) by lia.
    rewrite (rsum_ext 0 (p + 1) _ (fun i => bern p i t)).
    2:{ intros i Hi. f_equal. lia. }
    rewrite IH. ring.
Qed.

Lemma AllBernstein_ok p t : 0 <= p -> validate_range t 0%R 1%R = Ok tt ->
  wp (AllBernstein p t) (fun l => arr l (p + 1) (fun i => bern p i t)).
Proof.
  intros Hp Ht. unfold AllBernstein. wval. num. rewrite Ht. cbn [bind].
  apply wp_bind, wp_mkvec; [lia|]. intros l Hl. wupd Hl. intros l1 H1.
  destruct (Z.eqb_spec p 0) as [->|Hne].
  - cbn [wp]. eapply arr_ext; [exact H1|]. intros i Hi. zcase; [|lia]. subst.
    rewrite bern_0 by lia. reflexivity.
  - apply wp_for_up with (P := fun j l => arrD l (p + 1) (fun i => i < j) (fun i => bern (j - 1) i t)).
    + lia.
    + eapply arrD_ext; [apply arrD_of_arr with (D := fun _ => True); exact H1|].
      intros i Hi Hd. split; [exact I|]. zcase; [|lia]. subst. rewrite bern_0 by lia. reflexivity.
    + intros j l2 Hj H2. apply wp_bind.
      apply wp_for_up with (P := fun k '(l, saved) =>
        arrD l (p + 1) (fun i => i < j) (fun i => if i <? k then bern j i t else bern (j - 1) i t) /\
        saved = (t * bern (j - 1) (k - 1) t)%R).
      * lia.
      * split; [|rewrite bern_out by lia; numg; ring].
        eapply arrD_ext; [exact H2|]. intros i Hi Hd. split; [lia|]. zcase; [lia|reflexivity].
      * intros k [l3 saved] Hk [H3 ->]. wget H3.
        wupd H3. intros l4 H4. cbn [wp]. split.
        -- eapply arrD_ext; [exact H4|]. intros i Hi Hd. split; [lia|]. numg.
           zcase; subst; try reflexivity; try lia. rewrite (bern_rec j) by lia. ring.
        -- zcase; [lia|]. numg. do 2 f_equal. lia.
      * intros [l3 saved] [H3 ->]. wupd H3. intros l4 H4.
        eapply arrD_ext; [exact H4|]. intros i Hi Hd. split; [lia|].
        replace (j + 1 - 1) with j by lia.
        zcase; subst; try reflexivity; try lia.
        rewrite (bern_rec j j) by lia. rewrite (bern_out (j - 1) j) by lia. ring.
    + intros s Hs. eapply arr_of_arrD.
      * eapply arrD_ext; [exact Hs|]. intros i Hi Hd. split; [exact Hd|].
        replace (p + 1 - 1) with p by lia. reflexivity.
      * intros i Hi. cbv beta. lia.
Qed.

(* what Bernstein really returns: the end indices are right, the interior ones
   are evaluated with degree p - i + 1 instead of p *)
Lemma Bernstein_ends p i t : 0 <= i <= p -> i = 0 \/ i = p ->
  validate_range t 0%R 1%R = Ok tt -> Bernstein i p t = Ok (bern p i t).
Proof.
  intros Hp Hi Ht. unfold Bernstein. num. rewrite Ht.
  destruct (Z.leb_spec 0 i); [|lia]. destruct (Z.leb_spec i p); [|lia].
  destruct (Z.leb_spec 0 p); [|lia]. cbn [andb validate bind].
  destruct (Z.eqb_spec p 0) as [->|].
  - f_equal. replace i with 0 by lia. rewrite bern_0 by lia. reflexivity.
  - destruct (Z.eqb_spec i 0) as [->|].
    + rewrite npow_R, bern_0 by lia. reflexivity.
    + destruct (Z.eqb_spec i p) as [->|]; [|lia]. rewrite npow_R, bern_n by lia. reflexivity.
Qed.

Lemma Bernstein_interior p i t : 0 < i < p ->
  validate_range t 0%R 1%R = Ok tt -> Bernstein i p t = Ok (bern (p - i + 1) i t).
Proof.
  intros Hi Ht.
  assert (W : wp (Bernstein i p t) (fun r => r = bern (p - i + 1) i t)).
  { unfold Bernstein. num. wval. wval. rewrite Ht. cbn [bind].
    destruct (Z.eqb_spec p 0); [lia|]. destruct (Z.eqb_spec i 0); [lia|].
    destruct (Z.eqb_spec i p); [lia|].
    apply wp_bind, wp_mkvec; [lia|]. intros l Hl. wupd Hl. intros l1 H1. apply wp_bind.
    apply wp_for_up with (P := fun k l =>
      arrD l (p + 1) (fun j => k - 1 <= j) (fun j => bern (k - i) (j - (p - i)) t)).
    - lia.
    - eapply arrD_ext; [apply arrD_of_arr with (D := fun _ => True); exact H1|].
      intros j Hj _. split; [exact I|]. replace (i - i) with 0 by lia.
      zcase; subst.
      + replace (p - i - (p - i)) with 0 by lia. rewrite bern_0 by lia. reflexivity.
      + rewrite bern_out by lia. reflexivity.
    - intros k l2 Hk H2.
      apply wp_for_down with (P := fun j' l =>
        arrD l (p + 1) (fun j => k - 1 <= j)
          (fun j => if j' <? j then bern (k + 1 - i) (j - (p - i)) t else bern (k - i) (j - (p - i)) t)).
      + lia.
      + eapply arrD_ext; [exact H2|]. intros j Hj Hd. split; [exact Hd|]. zcase; [lia|reflexivity].
      + intros j l3 Hj H3. wget H3. wget H3. wupd H3. intros l4 H4.
        eapply arrD_ext; [exact H4|]. intros x Hx Hd. split; [lia|]. numg.
        zcase; subst; try reflexivity; try lia.
        rewrite (bern_rec (k + 1 - i)) by lia.
        replace (k + 1 - i - 1) with (k - i) by lia.
        replace (j - 1 - (p - i)) with (j - (p - i) - 1) by lia. reflexivity.
      + intros l3 H3. eapply arrD_ext; [exact H3|]. intros j Hj Hd. split; [lia|].
        zcase; [reflexivity|lia].
    - intros l2 H2. rewrite (arrD_get _ _ _ _ _ H2) by lia. cbn [wp].
      f_equal; lia. }
  destruct (wp_elim _ _ W) as (x & Hx & ->). exact Hx.
Qed.

(* for interior indices >= 2 the returned value is wrong at t = 1/2 or t = 1/4 *)
Lemma Bernstein_interior_wrong p i : 2 <= i < p ->
  exists t, (0 < t < 1)%R /\ exists v, Bernstein i p t = Ok v /\ v <> bern p i t.
Proof.
  intros Hi.
  assert (HR : forall t, (0 < t < 1)%R -> Bernstein i p t = Ok (bern (p - i + 1) i t)).
  { intros t Ht. apply Bernstein_interior; [lia|]. apply range_iff. lra. }
  assert (HE : forall t, (0 < t < 1)%R -> bern (p - i + 1) i t = bern p i t ->
     exists c, c = (if i <=? p - i + 1 then Cb (p - i + 1) i else 0)%R /\
       (c = Cb p i * (1 - t) ^ Z.to_nat (i - 1) \/ (c = 0 /\ (p - i + 1 < i)%Z))%R).
  { intros t Ht HE. eexists. split; [reflexivity|]. destruct (Z.leb_spec i (p - i + 1)) as [Hle|Hgt].
    - left. rewrite !bern_in in HE by lia.
      assert (Hti : (0 < t ^ Z.to_nat i)%R) by (apply pow_lt; lra).
      assert (Ht1 : (0 < (1 - t) ^ Z.to_nat (p - i + 1 - i))%R) by (apply pow_lt; lra).
      replace (Z.to_nat (p - i)) with (Z.to_nat (p - i + 1 - i) + Z.to_nat (i - 1))%nat in HE by lia.
      rewrite pow_add in HE.
      apply Rmult_eq_reg_r with (t ^ Z.to_nat i * (1 - t) ^ Z.to_nat (p - i + 1 - i))%R; [|nra].
      lra.
    - right. split; [reflexivity|lia]. }
  pose proof (Cb_pos p i ltac:(lia)) as HC.
  destruct (Req_EM_T (bern (p - i + 1) i (1/2)) (bern p i (1/2))) as [E1|E1].
  2:{ exists (1/2)%R. split; [lra|]. eexists. split; [apply HR; lra|exact E1]. }
  destruct (Req_EM_T (bern (p - i + 1) i (1/4)) (bern p i (1/4))) as [E2|E2].
  2:{ exists (1/4)%R. split; [lra|]. eexists. split; [apply HR; lra|exact E2]. }
  exfalso. destruct (HE (1/2)%R ltac:(lra) E1) as (c1 & Hc1 & D1).
  destruct (HE (1/4)%R ltac:(lra) E2) as (c2 & Hc2 & D2).
  assert (Hcc : c1 = c2) by congruence.
  destruct D1 as [D1|[D1 Hlt]].
  - destruct D2 as [D2|[D2 Hlt]].
    + assert (HP : ((1 - 1/2) ^ Z.to_nat (i - 1) < (1 - 1/4) ^ Z.to_nat (i - 1))%R).
      { replace (Z.to_nat (i - 1)) with (S (Z.to_nat (i - 2))) by lia.
        generalize (Z.to_nat (i - 2)). intros n. cbn [pow].
        assert ((1 - 1/2) ^ n <= (1 - 1/4) ^ n)%R by (apply pow_incr; lra).
        assert (0 < (1 - 1/2) ^ n)%R by (apply pow_lt; lra). nra. }
      nra.
    + rewrite bern_out in E2 by lia. rewrite bern_in in E2 by lia.
      assert (0 < (1/4) ^ Z.to_nat i)%R by (apply pow_lt; lra).
      assert (0 < (1 - 1/4) ^ Z.to_nat (p - i))%R by (apply pow_lt; lra).
      assert (0 < Cb p i * (1/4) ^ Z.to_nat i * (1 - 1/4) ^ Z.to_nat (p - i))%R.
      { apply Rmult_lt_0_compat; [apply Rmult_lt_0_compat|]; assumption. }
      lra.
  - rewrite bern_out in E1 by lia. rewrite bern_in in E1 by lia.
    assert (0 < (1/2) ^ Z.to_nat i)%R by (apply pow_lt; lra).
    assert (0 < (1 - 1/2) ^ Z.to_nat (p - i))%R by (apply pow_lt; lra).
    assert (0 < Cb p i * (1/2) ^ Z.to_nat i * (1 - 1/2) ^ Z.to_nat (p - i))%R.
    { apply Rmult_lt_0_compat; [apply Rmult_lt_0_compat|]; assumption. }
    lra.
Qed.

Lemma Bernstein_reject p i t : ~ (0 <= i <= p) -> Bernstein (A := R) i p t = Throw.
Proof.
  intros H. unfold Bernstein. destruct (Z.leb_spec 0 i), (Z.leb_spec i p); try reflexivity. lia.
Qed.
