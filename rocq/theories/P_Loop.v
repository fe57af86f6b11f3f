(* Loops that fill a range of an array. *)
From Coq Require Import ZArith List Bool Lia.
From Verif Require Import Base Tac.
Open Scope Z_scope.

Lemma wp_fill {X} lo hi off n (D : Z -> Prop) (f : Z -> X) v body (Q : list X -> Prop) :
  arrD v n D f -> (lo < hi -> 0 <= lo + off /\ hi + off <= n) ->
  (forall i v', lo <= i < hi -> arrD v' n (fun j => D j \/ lo + off <= j < i + off) f -> body i v' = upd v' (i + off) (f (i + off))) ->
  (forall v', arrD v' n (fun j => D j \/ lo + off <= j < hi + off) f -> Q v') ->
  wp (for_up lo hi v body) Q.
Proof.
  intros Hv Hr Hb HQ.
  apply wp_for_up' with (P := fun h v => arrD v n (fun j => D j \/ lo + off <= j < h + off) f).
  - eapply arrD_ext; [exact Hv|]. intros i Hi [H|H]; [auto|lia].
  - intros i v' Hi Hv'. rewrite Hb by auto. eapply arrD_set; [exact Hv'|lia|reflexivity| |intros v'' H; exact H].
    cbv beta. intros j Hj [H|H]; [tauto|]. destruct (Z.eq_dec j (i + off)); [auto|right; right; lia].
  - intros v' Hv'. apply HQ. eapply arrD_ext; [exact Hv'|]. cbv beta. intros i Hi [H|H]; [auto|]. split; [right; lia|reflexivity].
Qed.

(* the whole of a fresh vector *)
Lemma wp_fill_all {X} n (f : Z -> X) v body (Q : list X -> Prop) : 0 <= n -> len v = n ->
  (forall i v', 0 <= i < n -> arrD v' n (fun j => j < i) f -> body i v' = upd v' i (f i)) ->
  (forall v', arr v' n f -> Q v') -> wp (for_up 0 n v body) Q.
Proof.
  intros Hn Hl Hb HQ. apply (wp_fill 0 n 0 n (fun _ => False) f v).
  - split; [exact Hl|tauto].
  - lia.
  - intros i v' Hi Hv'. rewrite Z.add_0_r. apply Hb; [exact Hi|]. eapply arrD_ext; [exact Hv'|]. cbv beta. intros j Hj H. split; [right; lia|reflexivity].
  - intros v' Hv'. apply HQ. eapply arr_of_arrD; [exact Hv'|]. cbv beta. intros; lia.
Qed.

(* a vector built by push_back *)
Lemma wp_push {X} lo hi (f : Z -> X) body (Q : list X -> Prop) : lo <= hi ->
  (forall i v', lo <= i < hi -> arr v' (i - lo) (fun j => f (j + lo)) -> body i v' = Ok (v' ++ (f i :: nil))) ->
  (forall v', arr v' (hi - lo) (fun j => f (j + lo)) -> Q v') -> wp (for_up lo hi nil body) Q.
Proof.
  intros Hl Hb HQ. apply wp_for_up with (P := fun h v => arr v (h - lo) (fun j => f (j + lo))); [exact Hl| | |exact HQ].
  - rewrite Z.sub_diag. apply arr_nil.
  - intros i v Hi Hv. rewrite Hb by auto. cbv beta. replace (i + 1 - lo) with (i - lo + 1) by lia. apply arr_snoc; [exact Hv|]. f_equal. lia.
Qed.

Lemma wp_eq {X} (m : res X) x : wp m (fun y => y = x) -> m = Ok x.
Proof. intros H. destruct (wp_elim _ _ H) as (y & -> & ->). reflexivity. Qed.

Lemma for_up_first {S} lo hi (s : S) body : lo < hi -> for_up lo hi s body = bind (body lo s) (fun s' => for_up (lo + 1) hi s' body).
Proof.
  intros H. unfold for_up. replace (Z.to_nat (hi - lo)) with (Datatypes.S (Z.to_nat (hi - (lo + 1)))) by lia. reflexivity.
Qed.
