(* Raising the degree of a polar form. *)
From Coq Require Import ZArith List Bool Reals Lra Lia Permutation.
From Verif Require Import Base Num Vec Tac Spec P_MathUtils P_Bern P_VSum P_Blossom P_Insert P_Decomp.
Import ListNotations.
Open Scope Z_scope.

Section PolarElev.
Context {T : Type} {V : Vec R T} {L : VecL T}.

(* the sum of f over the lists with one element left out *)
Fixpoint drop_sum (f : list R -> T) (l : list R) : T :=
  match l with [] => vzero | x :: r => vadd (f r) (drop_sum (fun s => f (x :: s)) r) end.

Lemma drop_ext l : forall f g, (forall s, len s = len l - 1 -> f s = g s) -> drop_sum f l = drop_sum g l.
Proof.
  induction l as [|x l IH]; intros f g H; [reflexivity|]. cbn [drop_sum]. rewrite len_cons in H. rewrite (H l) by lia. f_equal.
  apply IH. intros s Hs. apply H. rewrite len_cons. lia.
Qed.

Lemma drop_linear l : forall a b f g, drop_sum (fun s => vadd (vscale a (f s)) (vscale b (g s))) l =
  vadd (vscale a (drop_sum f l)) (vscale b (drop_sum g l)).
Proof.
  induction l as [|x l IH]; intros a b f g; cbn [drop_sum]; [vring|]. rewrite IH. vring.
Qed.

Lemma drop_perm l l' : Permutation l l' -> forall f, (forall s s', Permutation s s' -> len s = len l - 1 -> f s = f s') ->
  drop_sum f l = drop_sum f l'.
Proof.
  induction 1 as [|x l l' Hp IH|x y l|l1 l2 l3 H1 IH1 H2 IH2]; intros f Hf.
  - reflexivity.
  - cbn [drop_sum]. rewrite len_cons in Hf. f_equal; [apply Hf; [exact Hp|lia]|]. apply IH. intros s s' Hs Hl. apply Hf; [constructor; exact Hs|rewrite len_cons; lia].
  - cbn [drop_sum]. rewrite !len_cons in Hf.
    rewrite (drop_ext l (fun s => f (y :: x :: s)) (fun s => f (x :: y :: s))).
    + vring.
    + intros s Hs. apply Hf; [constructor|rewrite !len_cons; lia].
  - rewrite IH1 by exact Hf. apply IH2. intros s s' Hs Hl. apply Hf; [exact Hs|]. unfold len in *. rewrite (Permutation_length H1). exact Hl.
Qed.

Lemma drop_app l r : forall f, drop_sum f (l ++ r) = vadd (drop_sum (fun s => f (s ++ r)) l) (drop_sum (fun s => f (l ++ s)) r).
Proof.
  induction l as [|x l IH]; intros f; cbn [drop_sum app].
  - rewrite vadd_0_l. reflexivity.
  - rewrite IH. vring.
Qed.

Lemma drop_repeat x k : forall f, drop_sum f (repeat x k) = vscale (IZR (Z.of_nat k)) (f (repeat x (k - 1))).
Proof.
  induction k as [|k IH]; intros f; cbn [drop_sum repeat].
  - cbn. vring.
  - rewrite IH. replace (S k - 1)%nat with k by lia. destruct k as [|k].
    + cbn. vring.
    + replace (x :: repeat x (S k - 1)) with (repeat x (S k)) by (cbn [repeat]; rewrite Nat.sub_succ, Nat.sub_0_r; reflexivity).
      replace (Z.of_nat (S (S k))) with (Z.of_nat (S k) + 1) by lia. rewrite plus_IZR. vring.
Qed.

Definition elev1 (p : Z) (f : list R -> T) (l : list R) : T := vscale (/ IZR (p + 1))%R (drop_sum f l).

Lemma elev1_polar p f : 0 <= p -> polar p f -> polar (p + 1) (elev1 p f).
Proof.
  intros Hp [Sy Af]. split.
  - intros l l' H Hl. unfold elev1. f_equal. apply drop_perm; [exact H|]. intros s s' Hs Hs'. apply Sy; [exact Hs|lia].
  - intros a b x y l Hab Hl. unfold elev1. cbn [drop_sum].
    rewrite (drop_ext l (fun s => f ((a * x + b * y)%R :: s)) (fun s => vadd (vscale a (f (x :: s))) (vscale b (f (y :: s))))).
    2:{ intros s Hs. apply Af; [exact Hab|lia]. }
    rewrite drop_linear. apply co_ext. intros i. rewrite ?co_scale, ?co_add, ?co_scale, ?co_add, ?co_scale, ?co_add. replace b with (1 - a)%R by lra. ring.
Qed.

Lemma elev1_two p f x y k : 0 <= p -> 0 <= k <= p + 1 ->
  elev1 p f (repeat x (Z.to_nat (p + 1 - k)) ++ repeat y (Z.to_nat k)) =
  vadd (vscale (IZR (p + 1 - k) / IZR (p + 1))%R (f (repeat x (Z.to_nat (p - k)) ++ repeat y (Z.to_nat k))))
       (vscale (IZR k / IZR (p + 1))%R (f (repeat x (Z.to_nat (p + 1 - k)) ++ repeat y (Z.to_nat (k - 1))))).
Proof.
  intros Hp Hk. unfold elev1. rewrite drop_app, !drop_repeat. rewrite !Z2Nat.id by lia.
  replace (Z.to_nat (p + 1 - k) - 1)%nat with (Z.to_nat (p - k)) by lia. replace (Z.to_nat k - 1)%nat with (Z.to_nat (k - 1)) by lia.
  unfold Rdiv. vring.
Qed.

Lemma elev1_diag p f x : 0 <= p -> elev1 p f (repeat x (Z.to_nat (p + 1))) = f (repeat x (Z.to_nat p)).
Proof.
  intros Hp. unfold elev1. rewrite drop_repeat. rewrite Z2Nat.id by lia. replace (Z.to_nat (p + 1) - 1)%nat with (Z.to_nat p) by lia.
  apply co_ext. intros i. rewrite !co_scale. assert (IZR (p + 1) <> 0)%R by (apply not_0_IZR; lia). field. assumption.
Qed.

(* two forms that agree on lists with c arguments x agree after elevation on lists with c + 1 of them *)
Lemma elev1_joint p f g x c : 0 <= p -> 0 <= c <= p ->
  (forall s, len s = p - c -> f (repeat x (Z.to_nat c) ++ s) = g (repeat x (Z.to_nat c) ++ s)) ->
  forall s, len s = p - c -> elev1 p f (repeat x (Z.to_nat (c + 1)) ++ s) = elev1 p g (repeat x (Z.to_nat (c + 1)) ++ s).
Proof.
  intros Hp Hc H s Hs. unfold elev1. f_equal. rewrite !drop_app, !drop_repeat. replace (Z.to_nat (c + 1) - 1)%nat with (Z.to_nat c) by lia.
  rewrite H by exact Hs. f_equal. apply drop_ext. intros s' Hs'.
  rewrite !repeat_snoc by lia. rewrite <- !app_assoc. apply H. cbn [app]. rewrite len_cons. lia.
Qed.

Fixpoint elev (p : Z) (t : nat) (f : list R -> T) : list R -> T :=
  match t with O => f | S t' => elev1 (p + Z.of_nat t') (elev p t' f) end.

Lemma elev_polar p t f : 0 <= p -> polar p f -> polar (p + Z.of_nat t) (elev p t f).
Proof.
  intros Hp Hf. induction t as [|t IH]; cbn [elev].
  - rewrite Z.add_0_r. exact Hf.
  - replace (p + Z.of_nat (S t)) with (p + Z.of_nat t + 1) by lia. apply elev1_polar; [lia|exact IH].
Qed.

Lemma elev_diag p t f x : 0 <= p -> elev p t f (repeat x (Z.to_nat (p + Z.of_nat t))) = f (repeat x (Z.to_nat p)).
Proof.
  intros Hp. induction t as [|t IH]; cbn [elev].
  - rewrite Z.add_0_r. reflexivity.
  - replace (p + Z.of_nat (S t)) with (p + Z.of_nat t + 1) by lia. rewrite elev1_diag by lia. exact IH.
Qed.

Lemma elev_joint p t f g x c : 0 <= p -> 0 <= c <= p ->
  (forall s, len s = p - c -> f (repeat x (Z.to_nat c) ++ s) = g (repeat x (Z.to_nat c) ++ s)) ->
  forall s, len s = p - c -> elev p t f (repeat x (Z.to_nat (c + Z.of_nat t)) ++ s) = elev p t g (repeat x (Z.to_nat (c + Z.of_nat t)) ++ s).
Proof.
  intros Hp Hc H. induction t as [|t IH]; cbn [elev].
  - rewrite Z.add_0_r. exact H.
  - intros s Hs. replace (c + Z.of_nat (S t)) with (c + Z.of_nat t + 1) by lia. apply (elev1_joint _ _ _ x (c + Z.of_nat t)); [lia|lia| |lia].
    intros s' Hs'. apply IH. lia.
Qed.

(* the coefficients of Bezier degree elevation *)
Definition Cbz (t i : Z) : R := if (0 <=? i) && (i <=? t) then Cb t i else 0%R.
Definition ecoef (p t k j : Z) : R := (/ Cb (p + t) k * Cb p j * Cbz t (k - j))%R.

Lemma Cbz_pascal t i : 0 <= t -> Cbz (t + 1) i = (Cbz t (i - 1) + Cbz t i)%R.
Proof.
  intros Ht. unfold Cbz. destruct (Z.leb_spec 0 i), (Z.leb_spec i (t + 1)), (Z.leb_spec 0 (i - 1)), (Z.leb_spec (i - 1) t), (Z.leb_spec i t); cbn [andb]; try lia; try ring.
  - rewrite Cb_pascal by lia. replace (t + 1 - 1) with t by lia. ring.
  - assert (i = t + 1) as -> by lia. replace (t + 1 - 1) with t by lia. rewrite !Cb_n by lia. ring.
  - assert (i = 0) as -> by lia. rewrite !Cb_0 by lia. ring.
Qed.

Lemma Cb_down n k : 0 <= k < n -> (Cb n k * IZR (n - k) = IZR n * Cb (n - 1) k)%R.
Proof.
  intros H. unfold Cb, C. replace (Z.to_nat n) with (S (Z.to_nat (n - 1))) by lia. set (N := Z.to_nat (n - 1)). set (K := Z.to_nat k).
  assert (HK : (K <= N)%nat) by (subst N K; lia). replace (S N - K)%nat with (S (N - K)) by lia.
  rewrite !fact_simpl, !mult_INR. replace (IZR (n - k)) with (INR (S (N - K))) by (rewrite INR_IZR_INZ; f_equal; subst N K; lia).
  replace (IZR n) with (INR (S N)) by (rewrite INR_IZR_INZ; f_equal; subst N; lia). field. repeat split; try apply INR_fact_neq_0. apply not_0_INR. lia.
Qed.

Lemma Cb_down' n k : 0 < k <= n -> (Cb n k * IZR k = IZR n * Cb (n - 1) (k - 1))%R.
Proof.
  intros H. rewrite (Cb_sym n k), (Cb_sym (n - 1) (k - 1)) by lia. pose proof (Cb_down n (n - k) ltac:(lia)) as E.
  replace (n - (n - k)) with k in E by lia. rewrite E. do 2 f_equal. lia.
Qed.

Lemma ecoef_step p t k j : 0 <= p -> 0 <= t -> 0 <= j <= p -> 0 <= k <= p + t + 1 ->
  ecoef p (t + 1) k j = (IZR (p + t + 1 - k) / IZR (p + t + 1) * (if k <=? p + t then ecoef p t k j else 0) +
                         IZR k / IZR (p + t + 1) * (if 1 <=? k then ecoef p t (k - 1) j else 0))%R.
Proof.
  intros Hp Ht Hj Hk. assert (Hn : (0 < IZR (p + t + 1))%R) by (apply IZR_lt; lia). pose proof (Cb_pos (p + t + 1) k ltac:(lia)) as Hc.
  assert (E1 : (IZR (p + t + 1 - k) / IZR (p + t + 1) * (if k <=? p + t then ecoef p t k j else 0) = / Cb (p + t + 1) k * Cb p j * Cbz t (k - j))%R).
  { destruct (Z.leb_spec k (p + t)) as [H|H].
    - unfold ecoef. pose proof (Cb_down (p + t + 1) k ltac:(lia)) as E. replace (p + t + 1 - 1) with (p + t) in E by lia.
      pose proof (Cb_pos (p + t) k ltac:(lia)).
      replace (IZR (p + t + 1 - k)) with (IZR (p + t + 1) * Cb (p + t) k / Cb (p + t + 1) k)%R by (rewrite <- E; field; lra). field. lra.
    - unfold Cbz. destruct (Z.leb_spec (k - j) t); [lia|]. rewrite andb_false_r. ring. }
  assert (E2 : (IZR k / IZR (p + t + 1) * (if 1 <=? k then ecoef p t (k - 1) j else 0) = / Cb (p + t + 1) k * Cb p j * Cbz t (k - j - 1))%R).
  { destruct (Z.leb_spec 1 k) as [H|H].
    - unfold ecoef. pose proof (Cb_down' (p + t + 1) k ltac:(lia)) as E. replace (p + t + 1 - 1) with (p + t) in E by lia.
      pose proof (Cb_pos (p + t) (k - 1) ltac:(lia)). replace (k - 1 - j) with (k - j - 1) by lia.
      replace (IZR k) with (IZR (p + t + 1) * Cb (p + t) (k - 1) / Cb (p + t + 1) k)%R by (rewrite <- E; field; lra). field. lra.
    - unfold Cbz. destruct (Z.leb_spec 0 (k - j - 1)); [lia|]. cbn [andb]. ring. }
  rewrite E1, E2. unfold ecoef. rewrite Cbz_pascal, Z.add_assoc by lia. ring.
Qed.

Lemma elev_two p t f x y k : 0 <= p -> 0 <= k <= p + Z.of_nat t ->
  elev p t f (repeat x (Z.to_nat (p + Z.of_nat t - k)) ++ repeat y (Z.to_nat k)) =
  comb 0 (p + 1) (ecoef p (Z.of_nat t) k) (fun j => f (repeat x (Z.to_nat (p - j)) ++ repeat y (Z.to_nat j))).
Proof.
  intros Hp. revert k. induction t as [|t IH]; intros k Hk; cbn [elev].
  - rewrite Z.add_0_r in *. unfold comb. rewrite (vsum_single 0 (p + 1) k).
    + unfold ecoef, Cbz. cbn [Z.of_nat]. rewrite Z.sub_diag, Z.add_0_r, Cb_0 by lia. cbn [Z.leb Z.compare andb]. pose proof (Cb_pos p k Hk). rewrite Rinv_l by lra. vring.
    + lia.
    + intros i Hi Hne. unfold ecoef, Cbz. cbn [Z.of_nat]. destruct (Z.leb_spec 0 (k - i)), (Z.leb_spec (k - i) 0); cbn [andb]; try lia; rewrite Rmult_0_r; vring.
  - replace (p + Z.of_nat (S t) - k) with (p + Z.of_nat t + 1 - k) by lia. rewrite elev1_two by lia.
    replace (Z.of_nat (S t)) with (Z.of_nat t + 1) by lia. set (ph := p + Z.of_nat t) in *.
    apply co_ext. intros i. rewrite co_add, !co_scale, co_comb.
    set (g := fun j => co i (f (repeat x (Z.to_nat (p - j)) ++ repeat y (Z.to_nat j)))).
    assert (E1 : (IZR (ph + 1 - k) / IZR (ph + 1) * co i (elev p t f (repeat x (Z.to_nat (ph - k)) ++ repeat y (Z.to_nat k))) =
       rsum 0 (p + 1) (fun j => IZR (ph + 1 - k) / IZR (ph + 1) * (if k <=? ph then ecoef p (Z.of_nat t) k j else 0) * g j))%R).
    { destruct (Z.leb_spec k ph).
      - rewrite IH, co_comb by lia. rewrite <- rsum_scal. apply rsum_ext. intros j Hj. unfold g. ring.
      - assert (k = ph + 1) as -> by lia. rewrite Z.sub_diag. rewrite rsum_zero; [unfold Rdiv; ring|]. intros j Hj. unfold Rdiv. ring. }
    assert (E2 : (IZR k / IZR (ph + 1) * co i (elev p t f (repeat x (Z.to_nat (ph + 1 - k)) ++ repeat y (Z.to_nat (k - 1)))) =
       rsum 0 (p + 1) (fun j => IZR k / IZR (ph + 1) * (if 1 <=? k then ecoef p (Z.of_nat t) (k - 1) j else 0) * g j))%R).
    { destruct (Z.leb_spec 1 k).
      - replace (ph + 1 - k) with (ph - (k - 1)) by lia. rewrite IH, co_comb by lia. rewrite <- rsum_scal. apply rsum_ext. intros j Hj. unfold g. ring.
      - assert (k = 0) as -> by lia. rewrite rsum_zero; [unfold Rdiv; ring|]. intros j Hj. unfold Rdiv. ring. }
    rewrite E1, E2, <- rsum_plus. apply rsum_ext. intros j Hj. rewrite (ecoef_step p (Z.of_nat t) k j) by (unfold ph in *; lia). fold ph. unfold g. ring.
Qed.
End PolarElev.
