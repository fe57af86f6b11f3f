(* Polar forms: the de Boor table with a different argument in every step. *)
From Coq Require Import ZArith List Bool Reals Lra Lia Permutation.
From Verif Require Import Base Num Vec Tac Spec P_Cox P_VSum.
Import ListNotations.
Open Scope Z_scope.

(* the knots U_{i+1} .. U_{i+p} *)
Definition win (U : Z -> R) (i p : Z) : list R := map (fun r => U (i + 1 + Z.of_nat r)) (seq 0 (Z.to_nat p)).

Lemma win_len U i p : length (win U i p) = Z.to_nat p.
Proof. unfold win. rewrite map_length, seq_length. reflexivity. Qed.

Lemma win_nil U i p : p <= 0 -> win U i p = [].
Proof. intros H. unfold win. replace (Z.to_nat p) with 0%nat by lia. reflexivity. Qed.

Lemma win_cons U i p : 0 < p -> win U i p = U (i + 1) :: win U (i + 1) (p - 1).
Proof.
  intros H. unfold win. replace (Z.to_nat p) with (S (Z.to_nat (p - 1))) by lia. cbn [seq map].
  f_equal; [f_equal; lia|]. rewrite <- seq_shift, map_map. apply map_ext. intros r. f_equal. lia.
Qed.

Lemma win_snoc U i p : 0 < p -> win U i p = win U i (p - 1) ++ [U (i + p)].
Proof.
  intros H. unfold win. replace (Z.to_nat p) with (Z.to_nat (p - 1) + 1)%nat by lia.
  rewrite seq_app, map_app. f_equal. cbn. f_equal. f_equal. lia.
Qed.

Lemma win_app U i a b : 0 <= a -> 0 <= b -> win U i (a + b) = win U i a ++ win U (i + a) b.
Proof.
  intros Ha Hb. unfold win. replace (Z.to_nat (a + b)) with (Z.to_nat a + Z.to_nat b)%nat by lia.
  rewrite seq_app, map_app. f_equal. replace (0 + Z.to_nat a)%nat with (Z.to_nat a + 0)%nat by lia.
  generalize (Z.to_nat b). intros n. rewrite <- (Nat2Z.id (Z.to_nat a)) at 1. rewrite Nat2Z.id.
  revert Ha. generalize 0%nat at 1 2. induction n as [|n IH]; intros z Ha; [reflexivity|]. cbn [seq map]. f_equal; [f_equal; lia|].
  replace (S (Z.to_nat a + z)) with (Z.to_nat a + S z)%nat by lia. apply IH. exact Ha.
Qed.

Lemma win_ext U U' i i' p : (forall r, 1 <= r <= p -> U (i + r) = U' (i' + r)) -> win U i p = win U' i' p.
Proof.
  intros H. unfold win. apply map_ext_in. intros r Hr. apply in_seq in Hr.
  replace (i + 1 + Z.of_nat r) with (i + (1 + Z.of_nat r)) by lia. rewrite H by lia. f_equal. lia.
Qed.

Lemma win_const U i p c : (forall r, 1 <= r <= p -> U (i + r) = c) -> win U i p = repeat c (Z.to_nat p).
Proof.
  intros H. rewrite (win_ext U (fun _ => c) i i p) by exact H. unfold win. generalize 0%nat.
  induction (Z.to_nat p) as [|n IH]; intros z; [reflexivity|]. cbn [seq map repeat]. f_equal. apply IH.
Qed.

Lemma win_snoc_perm U i p : 0 < p -> Permutation (win U i p) (U (i + p) :: win U i (p - 1)).
Proof. intros H. rewrite win_snoc by exact H. symmetry. apply Permutation_cons_append. Qed.

Section Blossom.
Context {T : Type} {V : Vec R T} {L : VecL T}.

(* one de Boor step of degree m at parameter t *)
Definition deB (U : Z -> R) (m : Z) (d : Z -> T) (t : R) (i : Z) : T :=
  let a := ((t - U i) / (U (i + m)%Z - U i))%R in
  vadd (vscale a (d i)) (vscale (1 - a)%R (d (i - 1))).

Fixpoint bl (U : Z -> R) (m : Z) (d : Z -> T) (ts : list R) : Z -> T :=
  match ts with
  | [] => d
  | t :: l => bl U (m - 1) (deB U m d t) l
  end.

Lemma bl_ext U ts : forall m d d' lo hi, (forall i, lo - len ts <= i <= hi -> d i = d' i) ->
  forall i, lo <= i <= hi -> bl U m d ts i = bl U m d' ts i.
Proof.
  induction ts as [|t l IH]; intros m d d' lo hi H i Hi; cbn [bl].
  - apply H. unfold len. cbn. lia.
  - apply (IH (m - 1) _ _ lo hi); [|exact Hi]. intros x Hx. unfold deB.
    assert (E : len (t :: l) = len l + 1) by (unfold len; cbn [length]; lia).
    rewrite !H by lia. reflexivity.
Qed.

Lemma bl_knots_ext ts : forall U U' m d lo hi, 0 <= m -> (forall i, lo - len ts < i <= hi + m -> U i = U' i) ->
  len ts <= m ->
  forall i, lo <= i <= hi -> bl U m d ts i = bl U' m d ts i.
Proof.
  induction ts as [|t l IH]; intros U U' m d lo hi Hm H Hl i Hi; cbn [bl]; [reflexivity|].
  assert (E : len (t :: l) = len l + 1) by (unfold len; cbn [length]; lia). rewrite E in *. pose proof (len_nonneg l).
  rewrite (IH U U' (m - 1) _ lo hi); try lia.
  - apply (bl_ext _ _ _ _ _ lo hi); [|exact Hi]. intros x Hx. unfold deB. rewrite !H by lia. reflexivity.
  - intros x Hx. apply H. lia.
Qed.

Lemma bl_app U l l' : forall m d, bl U m d (l ++ l') = bl U (m - len l) (bl U m d l) l'.
Proof.
  induction l as [|t l IH]; intros m d; cbn [bl app].
  - unfold len. cbn. rewrite Z.sub_0_r. reflexivity.
  - rewrite IH. f_equal. unfold len. cbn [length]. lia.
Qed.

Lemma deB_swap U k m d s t x : good U k m -> k - m + 2 <= x -> x <= k ->
  deB U (m - 1) (deB U m d s) t x = deB U (m - 1) (deB U m d t) s x.
Proof.
  intros Hg H1 H2. unfold deB.
  pose proof (good_den U k m x (x + m) Hg ltac:(lia) ltac:(lia) ltac:(lia) ltac:(lia)) as D1.
  pose proof (good_den U k m (x - 1) (x - 1 + m) Hg ltac:(lia) ltac:(lia) ltac:(lia) ltac:(lia)) as D2.
  pose proof (good_den U k m x (x + (m - 1)) Hg ltac:(lia) ltac:(lia) ltac:(lia) ltac:(lia)) as D3.
  replace (x - 1 + m) with (x + (m - 1)) in * by lia.
  revert D1 D2 D3. generalize (U (x + m)) (U (x + (m - 1))) (U x) (U (x - 1)). intros b c a e D1 D2 D3.
  apply co_ext. intros j. rewrite !co_add, !co_scale, !co_add, !co_scale. field. lra.
Qed.

Lemma bl_swap U k m d s t ts i : good U k m -> k - (m - len ts - 2) <= i <= k ->
  bl U m d (s :: t :: ts) i = bl U m d (t :: s :: ts) i.
Proof.
  intros Hg Hi. cbn [bl]. apply (bl_ext _ _ _ _ _ i i); [|lia]. intros x Hx. apply (deB_swap U k m); auto; lia.
Qed.

Lemma bl_perm U k ts ts' : Permutation ts ts' -> forall m d i, good U k m -> k - (m - len ts) <= i <= k ->
  bl U m d ts i = bl U m d ts' i.
Proof.
  induction 1 as [|x l l' Hp IH|x y l|l1 l2 l3 H1 IH1 H2 IH2]; intros m d i Hg Hi.
  - reflexivity.
  - cbn [bl]. apply IH; [apply (good_le U k m); [exact Hg|lia]|]. unfold len in *. cbn [length] in Hi. lia.
  - apply (bl_swap U k); [exact Hg|]. unfold len in *. cbn [length] in Hi. lia.
  - rewrite IH1 by auto. apply IH2; auto. unfold len in *. rewrite <- (Permutation_length H1). exact Hi.
Qed.

Lemma bl_linear U ts : forall m (a b : R) d d' i,
  bl U m (fun i => vadd (vscale a (d i)) (vscale b (d' i))) ts i = vadd (vscale a (bl U m d ts i)) (vscale b (bl U m d' ts i)).
Proof.
  induction ts as [|t l IH]; intros m a b d d' i; cbn [bl]; [reflexivity|].
  rewrite <- IH. apply (bl_ext _ _ _ _ _ i i); [|lia]. intros x _. unfold deB. vring.
Qed.

Lemma bl_affine U m d ts a b x y i : (a + b = 1)%R ->
  bl U m d ((a * x + b * y)%R :: ts) i = vadd (vscale a (bl U m d (x :: ts) i)) (vscale b (bl U m d (y :: ts) i)).
Proof.
  intros H. cbn [bl]. rewrite <- bl_linear. apply (bl_ext _ _ _ _ _ i i); [|lia]. intros j _. unfold deB.
  assert (b = 1 - a)%R as -> by lra. vec. unfold Rdiv. ring.
Qed.

(* at equal arguments: the B-spline polynomial of the span *)
Lemma bl_diag U k p d t : 0 <= p -> good U k p ->
  comb (k - p) (k + 1) (fun i => NS U k p i t) d = bl U p d (repeat t (Z.to_nat p)) k.
Proof.
  intros Hp. revert p Hp d.
  apply (Zrange_ind 0 (fun p => forall d, good U k p -> comb (k - p) (k + 1) (fun i => NS U k p i t) d = bl U p d (repeat t (Z.to_nat p)) k)).
  - intros d _. change (Z.to_nat 0) with 0%nat. cbn [repeat bl]. apply co_ext. intros j. rewrite co_comb, Z.sub_0_r, rsum_one, NS_0, Z.eqb_refl. ring.
  - intros p Hp IH d Hg. replace (Z.to_nat (p + 1)) with (S (Z.to_nat p)) by lia. cbn [repeat bl].
    replace (p + 1 - 1) with p by lia. rewrite <- IH by (apply (good_le U k (p + 1)); [exact Hg|lia]).
    apply co_ext. intros j. rewrite !co_comb.
    rewrite (rsum_ext (k - (p + 1)) (k + 1) _ (fun i => sdiv (t - U i) (U (i + (p + 1))%Z - U i) * NS U k p i t * co j (d i) +
       sdiv (U (i + (p + 1) + 1)%Z - t) (U (i + (p + 1) + 1)%Z - U (i + 1)%Z) * NS U k p (i + 1) t * co j (d i))%R).
    2:{ intros i Hi. rewrite NS_succ by lia. replace (p + 1 - 1) with p by lia. ring. }
    rewrite rsum_plus. rewrite (rsum_first (k - (p + 1)) (k + 1)) by lia. rewrite (NS_out U k p (k - (p + 1))) by lia.
    rewrite (rsum_last (k - (p + 1)) k) by lia. rewrite (NS_out U k p (k + 1)) by lia.
    rewrite (rsum_shift 1 (k - (p + 1)) k). replace (k - (p + 1) + 1) with (k - p) by lia.
    rewrite !Rmult_0_r, !Rmult_0_l, Rplus_0_l, Rplus_0_r, <- rsum_plus. apply rsum_ext. intros i Hi.
    unfold deB. rewrite co_add, !co_scale. replace (i - 1 + 1) with i by lia.
    replace (i - 1 + (p + 1) + 1) with (i + (p + 1)) by lia.
    pose proof (good_den U k (p + 1) i (i + (p + 1)) Hg ltac:(lia) ltac:(lia) ltac:(lia) ltac:(lia)) as D.
    rewrite !sdiv_ok by lra. field. lra.
Qed.

(* at consecutive knots: the control point *)
Lemma bl_knots U k p d i : 0 <= p -> good U k p -> k - p <= i <= k -> bl U p d (win U i p) k = d i.
Proof.
  intros Hp. revert p Hp d i.
  apply (Zrange_ind 0 (fun p => forall d i, good U k p -> k - p <= i <= k -> bl U p d (win U i p) k = d i)).
  - intros d i _ Hi. rewrite win_nil by lia. cbn. f_equal. lia.
  - intros p Hp IH d i Hg Hi. pose proof (good_le U k (p + 1) p Hg ltac:(lia)) as Hg'.
    destruct (Z.eq_dec i (k - (p + 1))) as [->|Hne].
    + rewrite win_cons by lia. cbn [bl]. replace (p + 1 - 1) with p by lia. rewrite IH by (auto; lia).
      unfold deB. replace (k - (p + 1) + 1 - 1) with (k - (p + 1)) by lia.
      replace (U (k - (p + 1) + 1)%Z - U (k - (p + 1) + 1)%Z)%R with 0%R by ring. unfold Rdiv. rewrite Rmult_0_l. vring.
    + rewrite (bl_perm U k _ _ (win_snoc_perm U i (p + 1) ltac:(lia))); [|exact Hg|].
      2:{ unfold len. rewrite win_len. lia. }
      cbn [bl]. replace (p + 1 - 1) with p by lia. rewrite IH by (auto; lia). unfold deB.
      pose proof (good_den U k (p + 1) i (i + (p + 1)) Hg ltac:(lia) ltac:(lia) ltac:(lia) ltac:(lia)) as D.
      replace ((U (i + (p + 1))%Z - U i) / (U (i + (p + 1))%Z - U i))%R with 1%R by (field; lra). vring.
Qed.

(* symmetric multi-affine functions of p arguments *)
Definition polar (p : Z) (F : list R -> T) : Prop :=
  (forall l l', Permutation l l' -> len l = p -> F l = F l') /\
  (forall a b x y l, (a + b = 1)%R -> len l = p - 1 ->
     F ((a * x + b * y)%R :: l) = vadd (vscale a (F (x :: l))) (vscale b (F (y :: l)))).

Lemma bl_polar U k p d : 0 <= p -> good U k p -> polar p (fun ts => bl U p d ts k).
Proof.
  intros Hp Hg. split.
  - intros l l' H Hl. apply (bl_perm U k); auto. lia.
  - intros a b x y l Hab Hl. apply bl_affine. exact Hab.
Qed.

(* control points read off a polar form reproduce it *)
Lemma bl_of_polar U k p : 0 <= p -> forall F d ts, polar p F -> good U k p ->
  (forall i, k - p <= i <= k -> d i = F (win U i p)) -> len ts = p -> bl U p d ts k = F ts.
Proof.
  intros Hp. revert p Hp.
  apply (Zrange_ind 0 (fun p => forall F d ts, polar p F -> good U k p ->
    (forall i, k - p <= i <= k -> d i = F (win U i p)) -> len ts = p -> bl U p d ts k = F ts)).
  - intros F d ts HF Hg Hd Hts. destruct ts; [|unfold len in Hts; cbn in Hts; lia]. cbn. rewrite Hd by lia. rewrite win_nil by lia. reflexivity.
  - intros p Hp IH F d ts HF Hg Hd Hts. destruct ts as [|t l]; [unfold len in Hts; cbn in Hts; lia|].
    assert (Hl : len l = p) by (unfold len in *; cbn [length] in Hts; lia).
    cbn [bl]. replace (p + 1 - 1) with p by lia. destruct HF as [HS HA].
    apply (IH (fun l => F (t :: l))); [| |intros i Hi|exact Hl].
    + split.
      * intros l1 l2 H Hl1. apply HS; [constructor; exact H|]. unfold len in *. cbn [length]. lia.
      * intros a b x y l1 Hab Hl1.
        assert (E : forall z, F (t :: z :: l1) = F (z :: t :: l1)).
        { intros z. apply HS; [constructor|]. unfold len in *. cbn [length]. lia. }
        rewrite !E. apply HA; [exact Hab|]. unfold len in *. cbn [length]. lia.
    + apply (good_le U k (p + 1)); [exact Hg|lia].
    + unfold deB. rewrite !Hd by lia.
      rewrite (HS (win U i (p + 1)) (U (i + (p + 1)) :: win U i p)).
      2:{ replace (win U i p) with (win U i (p + 1 - 1)) by (f_equal; lia). apply win_snoc_perm. lia. }
      2:{ unfold len. rewrite win_len. lia. }
      rewrite (win_cons U (i - 1) (p + 1)) by lia. replace (i - 1 + 1) with i by lia. replace (p + 1 - 1) with p by lia.
      pose proof (good_den U k (p + 1) i (i + (p + 1)) Hg ltac:(lia) ltac:(lia) ltac:(lia) ltac:(lia)) as D.
      rewrite <- HA.
      * f_equal. f_equal. field. lra.
      * ring.
      * unfold len. rewrite win_len. lia.
Qed.

Lemma polar_same U k p d U' k' d' ts : 0 <= p -> good U k p -> good U' k' p ->
  (forall i, k' - p <= i <= k' -> d' i = bl U p d (win U' i p) k) -> len ts = p ->
  bl U' p d' ts k' = bl U p d ts k.
Proof.
  intros Hp Hg Hg' Hd Hts. apply (bl_of_polar U' k' p Hp (fun ts => bl U p d ts k)); auto. apply bl_polar; auto.
Qed.

(* part of the arguments given, the others consecutive knots *)
Lemma bl_part U k p d ts i : 0 <= p -> good U k p -> len ts <= p -> k - (p - len ts) <= i <= k ->
  bl U p d (ts ++ win U i (p - len ts)) k = bl U p d ts i.
Proof.
  intros Hp Hg Hts Hi. rewrite bl_app. apply bl_knots; [lia| |exact Hi].
  apply (good_le U k p); [exact Hg|]. pose proof (len_nonneg ts). lia.
Qed.

End Blossom.
