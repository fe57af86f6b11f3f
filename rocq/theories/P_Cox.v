(* Theory of the Cox-de Boor basis (Spec.v); no model functions here. *)
From Coq Require Import ZArith List Bool Reals Lra Lia.
From Verif Require Import Base Num Vec Tac Spec.
Open Scope Z_scope.

Lemma sdiv_ok x y : y <> 0%R -> sdiv x y = (x / y)%R.
Proof. intros H. unfold sdiv. destruct (Req_EM_T y 0); [tauto|reflexivity]. Qed.
Lemma sdiv_0 x y : y = 0%R -> sdiv x y = 0%R.
Proof. intros H. unfold sdiv. destruct (Req_EM_T y 0); [reflexivity|tauto]. Qed.
Lemma sdiv_nonneg x y : (0 <= x)%R -> (0 <= y)%R -> (0 <= sdiv x y)%R.
Proof.
  intros Hx Hy. unfold sdiv. destruct (Req_EM_T y 0); [lra|].
  apply Rmult_le_pos; [exact Hx|]. left. apply Rinv_0_lt_compat. lra.
Qed.

(* degree as an integer *)
Definition NS (U : Z -> R) (k p i : Z) (t : R) : R := Nspan U k (Z.to_nat p) i t.
Definition NB (U : Z -> R) (b : R) (p i : Z) (t : R) : R := N U b (Z.to_nat p) i t.

Lemma Nrec_succ B U p i t : 0 < p ->
  Nrec B U (Z.to_nat p) i t =
  (sdiv (t - U i) (U (i + p)%Z - U i) * Nrec B U (Z.to_nat (p - 1)) i t +
   sdiv (U (i + p + 1)%Z - t) (U (i + p + 1)%Z - U (i + 1)%Z) * Nrec B U (Z.to_nat (p - 1)) (i + 1) t)%R.
Proof.
  intros Hp. replace (Z.to_nat p) with (S (Z.to_nat (p - 1))) by lia. cbn [Nrec].
  replace (Z.of_nat (S (Z.to_nat (p - 1)))) with p by lia. reflexivity.
Qed.

Lemma NS_succ U k p i t : 0 < p ->
  NS U k p i t =
  (sdiv (t - U i) (U (i + p)%Z - U i) * NS U k (p - 1) i t +
   sdiv (U (i + p + 1)%Z - t) (U (i + p + 1)%Z - U (i + 1)%Z) * NS U k (p - 1) (i + 1) t)%R.
Proof. intros Hp. unfold NS, Nspan. apply Nrec_succ. exact Hp. Qed.

Lemma NS_0 U k i t : NS U k 0 i t = if i =? k then 1%R else 0%R.
Proof. reflexivity. Qed.

Lemma NS_out U k p i t : 0 <= p -> i < k - p \/ k < i -> NS U k p i t = 0%R.
Proof.
  intros Hp. revert p Hp i. apply (Zrange_ind 0 (fun p => forall i, i < k - p \/ k < i -> NS U k p i t = 0%R)).
  - intros i Hi. rewrite NS_0. destruct (Z.eqb_spec i k); [lia|reflexivity].
  - intros p Hp IH i Hi. rewrite NS_succ by lia. replace (p + 1 - 1) with p by lia.
    rewrite !IH by lia. ring.
Qed.

(* equality of bases gives equality of the recursion *)
Lemma Nrec_ext B B' U U' p i t : (forall j, i <= j <= i + Z.of_nat p -> B j t = B' j t) ->
  (forall j, i <= j <= i + Z.of_nat p + 1 -> U j = U' j) ->
  Nrec B U p i t = Nrec B' U' p i t.
Proof.
  revert i. induction p as [|p IH]; intros i H HU.
  - cbn. apply H. lia.
  - cbn [Nrec]. rewrite (IH i), (IH (i + 1)) by (intros; (apply H || apply HU); lia).
    rewrite !HU by lia. reflexivity.
Qed.

(* on span k the basis function is the span polynomial *)
Lemma N_on_span U b k p i t :
  0 <= p ->
  (forall j, i <= j <= i + p -> j < k -> (U (j + 1)%Z <= U k)%R) ->
  (forall j, i <= j <= i + p -> k < j -> (U (k + 1)%Z <= U j)%R) ->
  ((t < b)%R /\ (U k <= t < U (k + 1)%Z)%R) \/ ((b <= t)%R /\ (U k < t <= U (k + 1)%Z)%R) ->
  NB U b p i t = NS U k p i t.
Proof.
  intros Hp HL HR Ht. unfold NB, NS, N, Nspan. apply Nrec_ext; [|reflexivity].
  intros j Hj. assert (Hj' : i <= j <= i + p) by lia. unfold N0.
  destruct (Z.eqb_spec j k) as [->|Hne].
  - destruct Ht as [[Hb Ht]|[Hb Ht]]; destruct (Rlt_dec t b); try lra.
    + destruct (Rle_dec (U k) t); [|lra]. destruct (Rlt_dec t (U (k + 1))); [reflexivity|lra].
    + destruct (Rlt_dec (U k) t); [|lra]. destruct (Rle_dec t (U (k + 1))); [reflexivity|lra].
  - destruct (Z_lt_dec j k) as [Hlt|Hge].
    + pose proof (HL j Hj' Hlt).
      destruct Ht as [[Hb Ht]|[Hb Ht]]; destruct (Rlt_dec t b); try lra.
      * destruct (Rle_dec (U j) t); [|reflexivity]. destruct (Rlt_dec t (U (j + 1))); [lra|reflexivity].
      * destruct (Rlt_dec (U j) t); [|reflexivity]. destruct (Rle_dec t (U (j + 1))); [lra|reflexivity].
    + pose proof (HR j Hj' ltac:(lia)).
      destruct Ht as [[Hb Ht]|[Hb Ht]]; destruct (Rlt_dec t b); try lra.
      * destruct (Rle_dec (U j) t); [lra|reflexivity].
      * destruct (Rlt_dec (U j) t); [lra|reflexivity].
Qed.

(* the span k is not empty and the knots are sorted around it *)
Definition good (U : Z -> R) (k p : Z) : Prop :=
  (U k < U (k + 1)%Z)%R /\ forall i j, k + 1 - p <= i -> i <= j -> j <= k + p -> (U i <= U j)%R.

Lemma good_le U k p q : good U k p -> q <= p -> good U k q.
Proof. intros [H1 H2] Hq. split; [exact H1|]. intros i j Hi Hij Hj. apply H2; lia. Qed.

(* every denominator met on the span is positive *)
Lemma good_den U k p i j : good U k p -> k + 1 - p <= i -> i <= k -> k + 1 <= j -> j <= k + p ->
  (U i < U j)%R.
Proof.
  intros [H1 H2] Hi Hik Hj Hjk.
  assert (U i <= U k)%R by (apply H2; lia). assert (U (k + 1)%Z <= U j)%R by (apply H2; lia). lra.
Qed.

Lemma NS_nonneg U k p i t : 0 <= p -> good U k p -> (U k <= t <= U (k + 1)%Z)%R -> (0 <= NS U k p i t)%R.
Proof.
  intros Hp. revert p Hp i.
  apply (Zrange_ind 0 (fun p => forall i, good U k p -> (U k <= t <= U (k + 1)%Z)%R -> (0 <= NS U k p i t)%R)).
  - intros i _ _. rewrite NS_0. destruct (i =? k); lra.
  - intros p Hp IH i Hg Ht. rewrite NS_succ by lia. replace (p + 1 - 1) with p by lia.
    assert (Hg' : good U k p) by (eapply good_le; [exact Hg|lia]).
    pose proof (IH i Hg' Ht) as P1. pose proof (IH (i + 1) Hg' Ht) as P2. destruct Hg as [G1 G2].
    apply Rplus_le_le_0_compat.
    + destruct (Z_lt_dec i (k - p)); [rewrite NS_out by lia; lra|].
      destruct (Z_lt_dec k i); [rewrite NS_out by lia; lra|].
      apply Rmult_le_pos; [|exact P1]. assert (U i <= U k)%R by (apply G2; lia).
      assert (U (k + 1)%Z <= U (i + (p + 1))%Z)%R by (apply G2; lia). apply sdiv_nonneg; lra.
    + destruct (Z_lt_dec (i + 1) (k - p)); [rewrite NS_out by lia; lra|].
      destruct (Z_lt_dec k (i + 1)); [rewrite (NS_out U k p (i + 1)) by lia; lra|].
      apply Rmult_le_pos; [|exact P2]. assert (U (i + 1)%Z <= U k)%R by (apply G2; lia).
      assert (U (k + 1)%Z <= U (i + (p + 1) + 1)%Z)%R by (apply G2; lia). apply sdiv_nonneg; lra.
Qed.

(* partition of unity, as an identity of polynomials on the span *)
Lemma NS_sum U k p t : 0 <= p -> good U k p -> rsum (k - p) (k + 1) (fun i => NS U k p i t) = 1%R.
Proof.
  intros Hp. revert p Hp. apply (Zrange_ind 0 (fun p => good U k p -> rsum (k - p) (k + 1) (fun i => NS U k p i t) = 1%R)).
  - intros _. rewrite Z.sub_0_r, rsum_one, NS_0, Z.eqb_refl. reflexivity.
  - intros p Hp IH Hg. specialize (IH (good_le _ _ (p + 1) p Hg ltac:(lia))).
    rewrite (rsum_ext _ _ _ (fun i =>
      sdiv (t - U i) (U (i + (p + 1))%Z - U i) * NS U k p i t +
      sdiv (U (i + (p + 1) + 1)%Z - t) (U (i + (p + 1) + 1)%Z - U (i + 1)%Z) * NS U k p (i + 1) t)%R).
    2:{ intros i Hi. rewrite NS_succ by lia. replace (p + 1 - 1) with p by lia. reflexivity. }
    rewrite rsum_plus.
    rewrite (rsum_first (k - (p + 1))) by lia. rewrite (NS_out U k p (k - (p + 1))) by lia.
    rewrite (rsum_shift 1 (k - (p + 1)) (k + 1)
       (fun i => sdiv (U (i + (p + 1) + 1)%Z - t) (U (i + (p + 1) + 1)%Z - U (i + 1)%Z) * NS U k p (i + 1) t)%R).
    rewrite (rsum_last (k - (p + 1) + 1) (k + 1)) by lia. replace (k + 1 - 1 + 1) with (k + 1) by lia. rewrite (NS_out U k p (k + 1)) by lia.
    replace (k - (p + 1) + 1) with (k - p) by lia.
    rewrite Rmult_0_r, Rplus_0_l, Rmult_0_r, Rplus_0_r, <- rsum_plus, <- IH.
    apply rsum_ext. intros i Hi.
    replace (i - 1 + (p + 1) + 1) with (i + (p + 1)) by lia. replace (i - 1 + 1) with i by lia.
    pose proof (good_den U k (p + 1) i (i + (p + 1)) Hg ltac:(lia) ltac:(lia) ltac:(lia) ltac:(lia)) as D.
    rewrite !sdiv_ok by lra. field. lra.
Qed.
