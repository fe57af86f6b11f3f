(* Outcomes, checked containers, loops, and the total-correctness calculus. *)
From Coq Require Import ZArith List Lia Bool.
Import ListNotations.
Open Scope Z_scope.

(* ------------------------------------------------------------------ *)
(** * Outcomes of a C++ call *)

Inductive err : Type :=
| EThrow    (* a C++ exception *)
| EUB       (* undefined behaviour: out-of-range access, uninitialised read *)
| ENonFin   (* exact instance only: division by zero / root of a negative *)
| EFuel.    (* a while loop was cut off by the model's fuel *)

Inductive res (A : Type) : Type :=
| Ok (a : A)
| Err (e : err).
Arguments Ok {A} a.
Arguments Err {A} e.

Notation Throw := (Err EThrow).
Notation UB := (Err EUB).
Notation NonFin := (Err ENonFin).
Notation OutOfFuel := (Err EFuel).

Definition bind {A B} (m : res A) (f : A -> res B) : res B :=
  match m with Ok a => f a | Err e => Err e end.

Notation "'let!' x ':=' m 'in' k" := (bind m (fun x => k))
  (at level 200, x pattern, m at level 100, k at level 200, right associativity).
Notation "m ';;' k" := (bind m (fun _ => k)) (at level 199, right associativity).

(* VALIDATE_ARGUMENT(cond, ...): include/LNLibExceptions.h:16-19 *)
Definition validate (b : bool) : res unit := if b then Ok tt else Throw.

(* ------------------------------------------------------------------ *)
(** * std::vector *)

Definition len {X} (l : list X) : Z := Z.of_nat (length l).

(* v[i] as an rvalue *)
Definition get {X} (l : list X) (i : Z) : res X :=
  if i <? 0 then UB
  else match nth_error l (Z.to_nat i) with Some x => Ok x | None => UB end.

Fixpoint upd_nat {X} (l : list X) (n : nat) (v : X) : list X :=
  match l, n with
  | [], _ => []
  | _ :: t, O => v :: t
  | h :: t, S n' => h :: upd_nat t n' v
  end.

(* v[i] = x *)
Definition upd {X} (l : list X) (i : Z) (v : X) : res (list X) :=
  if (0 <=? i) && (i <? len l) then Ok (upd_nat l (Z.to_nat i) v) else UB.

(* std::vector<X> v(n, x): a negative count becomes a huge size_t and throws *)
Definition mkvec {X} (n : Z) (x : X) : res (list X) :=
  if n <? 0 then Throw else Ok (repeat x (Z.to_nat n)).

(* v[i][j] and v[i][j] = x *)
Definition get2 {X} (m : list (list X)) (i j : Z) : res X :=
  let! r := get m i in get r j.
Definition upd2 {X} (m : list (list X)) (i j : Z) (v : X) : res (list (list X)) :=
  let! r := get m i in
  let! r' := upd r j v in
  upd m i r'.

(* uninitialised C array of n elements; reading before writing is UB *)
Definition uninit {X} (n : Z) : list (option X) := repeat None (Z.to_nat n).
Definition getu {X} (l : list (option X)) (i : Z) : res X :=
  let! o := get l i in match o with Some v => Ok v | None => UB end.
Definition updu {X} (l : list (option X)) (i : Z) (v : X) : res (list (option X)) :=
  upd l i (Some v).

(* ------------------------------------------------------------------ *)
(** * Loops *)

Fixpoint iter_up {S} (n : nat) (i : Z) (body : Z -> S -> res S) (s : S) : res S :=
  match n with
  | O => Ok s
  | Datatypes.S n' => let! s' := body i s in iter_up n' (i + 1) body s'
  end.

(* for (int i = lo; i < hi; i++) s = body(i, s) *)
Definition for_up {S} (lo hi : Z) (s : S) (body : Z -> S -> res S) : res S :=
  iter_up (Z.to_nat (hi - lo)) lo body s.

Fixpoint iter_down {S} (n : nat) (i : Z) (body : Z -> S -> res S) (s : S) : res S :=
  match n with
  | O => Ok s
  | Datatypes.S n' => let! s' := body i s in iter_down n' (i - 1) body s'
  end.

(* for (int i = hi; i >= lo; i--) s = body(i, s) *)
Definition for_down {S} (hi lo : Z) (s : S) (body : Z -> S -> res S) : res S :=
  iter_down (Z.to_nat (hi - lo + 1)) hi body s.

(* loops whose body may leave the loop: break, or return from the function *)
Inductive ctl (S R : Type) : Type :=
| Next (s : S)
| Stop (r : R).
Arguments Next {S R} s.
Arguments Stop {S R} r.

Fixpoint iter_upc {S R} (n : nat) (i : Z) (body : Z -> S -> res (ctl S R)) (s : S)
  : res (ctl S R) :=
  match n with
  | O => Ok (Next s)
  | Datatypes.S n' =>
      let! c := body i s in
      match c with
      | Next s' => iter_upc n' (i + 1) body s'
      | Stop r => Ok (Stop r)
      end
  end.
Definition for_upc {S R} (lo hi : Z) (s : S) (body : Z -> S -> res (ctl S R))
  : res (ctl S R) := iter_upc (Z.to_nat (hi - lo)) lo body s.

(* while (cond(s)) s = body(s), cut off after [fuel] iterations *)
Fixpoint while_ {S} (fuel : nat) (cond : S -> res bool) (s : S) (body : S -> res S)
  : res S :=
  let! b := cond s in
  if b then
    match fuel with
    | O => OutOfFuel
    | Datatypes.S f => let! s' := body s in while_ f cond s' body
    end
  else Ok s.

(* ------------------------------------------------------------------ *)
(** * Total correctness: [wp m Q] says m returns normally, in Q *)

Definition wp {A} (m : res A) (Q : A -> Prop) : Prop :=
  match m with Ok a => Q a | Err _ => False end.

Lemma wp_ok {A} (a : A) (Q : A -> Prop) : Q a -> wp (Ok a) Q.
Proof. exact (fun H => H). Qed.

Lemma wp_bind {A B} (m : res A) (f : A -> res B) (Q : B -> Prop) :
  wp m (fun a => wp (f a) Q) -> wp (bind m f) Q.
Proof. destruct m; simpl; auto. Qed.

Lemma wp_bind_inv {A B} (m : res A) (f : A -> res B) (Q : B -> Prop) :
  wp (bind m f) Q -> wp m (fun a => wp (f a) Q).
Proof. destruct m; simpl; auto. Qed.

Lemma wp_mono {A} (m : res A) (P Q : A -> Prop) :
  wp m P -> (forall a, P a -> Q a) -> wp m Q.
Proof. destruct m; simpl; auto. Qed.

Lemma wp_elim {A} (m : res A) (Q : A -> Prop) :
  wp m Q -> exists a, m = Ok a /\ Q a.
Proof. destruct m as [a|e]; simpl; [intros H; exists a; auto | tauto]. Qed.

Lemma wp_intro {A} (m : res A) (Q : A -> Prop) a : m = Ok a -> Q a -> wp m Q.
Proof. intros -> H. exact H. Qed.

Lemma wp_conj {A} (m : res A) (P Q : A -> Prop) :
  wp m P -> wp m Q -> wp m (fun a => P a /\ Q a).
Proof. destruct m; simpl; auto. Qed.

Lemma wp_validate b (Q : unit -> Prop) : b = true -> Q tt -> wp (validate b) Q.
Proof. intros -> H. exact H. Qed.

(* ------------------------------------------------------------------ *)
(** * Loop rules *)

Lemma iter_up_wp {S} (P : Z -> S -> Prop) body n :
  forall i s, P i s ->
  (forall k s, i <= k < i + Z.of_nat n -> P k s -> wp (body k s) (P (k + 1))) ->
  wp (iter_up n i body s) (P (i + Z.of_nat n)).
Proof.
  induction n as [|n IH]; intros i s Hs Hb.
  - simpl. replace (i + 0) with i by lia. exact Hs.
  - cbn [iter_up]. apply wp_bind.
    eapply wp_mono. { apply Hb; [lia|exact Hs]. }
    intros s' Hs'. replace (i + Z.of_nat (Datatypes.S n)) with (i + 1 + Z.of_nat n) by lia.
    apply IH; [exact Hs'|]. intros k s0 Hk. apply Hb. lia.
Qed.

Lemma wp_for_up {S} (P : Z -> S -> Prop) lo hi s body (Q : S -> Prop) :
  lo <= hi ->
  P lo s ->
  (forall k s, lo <= k < hi -> P k s -> wp (body k s) (P (k + 1))) ->
  (forall s, P hi s -> Q s) ->
  wp (for_up lo hi s body) Q.
Proof.
  intros Hle H0 Hb HQ. unfold for_up.
  eapply wp_mono with (P := P (lo + Z.of_nat (Z.to_nat (hi - lo)))).
  - apply iter_up_wp; [exact H0|]. intros k s0 Hk. apply Hb. lia.
  - intros a Ha. apply HQ. replace hi with (lo + Z.of_nat (Z.to_nat (hi - lo))) by lia. exact Ha.
Qed.

Lemma for_up_nil {S} lo hi (s : S) body : hi <= lo -> for_up lo hi s body = Ok s.
Proof. intros H. unfold for_up. replace (Z.to_nat (hi - lo)) with 0%nat by lia. reflexivity. Qed.

(* same rule without the lo <= hi side condition *)
Lemma wp_for_up' {S} (P : Z -> S -> Prop) lo hi s body (Q : S -> Prop) :
  P lo s ->
  (forall k s, lo <= k < hi -> P k s -> wp (body k s) (P (k + 1))) ->
  (forall s, P (Z.max lo hi) s -> Q s) ->
  wp (for_up lo hi s body) Q.
Proof.
  intros H0 Hb HQ. destruct (Z.le_gt_cases lo hi) as [H|H].
  - apply wp_for_up with (P := P); auto.
    intros s' Hs'. apply HQ. rewrite Z.max_r by lia. exact Hs'.
  - rewrite for_up_nil by lia. apply HQ. rewrite Z.max_l by lia. exact H0.
Qed.

Lemma iter_down_wp {S} (P : Z -> S -> Prop) body n :
  forall i s, P i s ->
  (forall k s, i - Z.of_nat n < k <= i -> P k s -> wp (body k s) (P (k - 1))) ->
  wp (iter_down n i body s) (P (i - Z.of_nat n)).
Proof.
  induction n as [|n IH]; intros i s Hs Hb.
  - simpl. replace (i - 0) with i by lia. exact Hs.
  - cbn [iter_down]. apply wp_bind.
    eapply wp_mono. { apply Hb; [lia|exact Hs]. }
    intros s' Hs'. replace (i - Z.of_nat (Datatypes.S n)) with (i - 1 - Z.of_nat n) by lia.
    apply IH; [exact Hs'|]. intros k s0 Hk. apply Hb. lia.
Qed.

Lemma for_down_nil {S} hi lo (s : S) body : hi < lo -> for_down hi lo s body = Ok s.
Proof. intros H. unfold for_down. replace (Z.to_nat (hi - lo + 1)) with 0%nat by lia. reflexivity. Qed.

Lemma wp_for_down {S} (P : Z -> S -> Prop) hi lo s body (Q : S -> Prop) :
  lo - 1 <= hi ->
  P hi s ->
  (forall k s, lo <= k <= hi -> P k s -> wp (body k s) (P (k - 1))) ->
  (forall s, P (lo - 1) s -> Q s) ->
  wp (for_down hi lo s body) Q.
Proof.
  intros Hle H0 Hb HQ. unfold for_down.
  eapply wp_mono with (P := P (hi - Z.of_nat (Z.to_nat (hi - lo + 1)))).
  - apply iter_down_wp; [exact H0|]. intros k s0 Hk. apply Hb. lia.
  - intros a Ha. apply HQ. replace (lo - 1) with (hi - Z.of_nat (Z.to_nat (hi - lo + 1))) by lia. exact Ha.
Qed.

Lemma wp_for_down' {S} (P : Z -> S -> Prop) hi lo s body (Q : S -> Prop) :
  P hi s ->
  (forall k s, lo <= k <= hi -> P k s -> wp (body k s) (P (k - 1))) ->
  (forall s, P (Z.min hi (lo - 1)) s -> Q s) ->
  wp (for_down hi lo s body) Q.
Proof.
  intros H0 Hb HQ. destruct (Z.le_gt_cases lo hi) as [H|H].
  - apply wp_for_down with (P := P); auto; try lia.
    intros s' Hs'. apply HQ. rewrite Z.min_r by lia. exact Hs'.
  - rewrite for_down_nil by lia. apply HQ. rewrite Z.min_l by lia. exact H0.
Qed.

Lemma iter_upc_wp {S R} (P : Z -> S -> Prop) (F : R -> Prop) body n :
  forall i s, P i s ->
  (forall k s, i <= k < i + Z.of_nat n -> P k s ->
     wp (body k s) (fun c => match c with Next s' => P (k + 1) s' | Stop r => F r end)) ->
  wp (iter_upc n i body s)
     (fun c => match c with Next s' => P (i + Z.of_nat n) s' | Stop r => F r end).
Proof.
  induction n as [|n IH]; intros i s Hs Hb.
  - simpl. replace (i + 0) with i by lia. exact Hs.
  - cbn [iter_upc]. apply wp_bind.
    eapply wp_mono. { apply Hb; [lia|exact Hs]. }
    intros [s'|r] H; [|exact H].
    replace (i + Z.of_nat (Datatypes.S n)) with (i + 1 + Z.of_nat n) by lia.
    apply IH; [exact H|]. intros k s0 Hk. apply Hb. lia.
Qed.

Lemma wp_for_upc {S R} (P : Z -> S -> Prop) (F : R -> Prop) lo hi s body
  (Q : ctl S R -> Prop) :
  P lo s ->
  (forall k s, lo <= k < hi -> P k s ->
     wp (body k s) (fun c => match c with Next s' => P (k + 1) s' | Stop r => F r end)) ->
  (forall s, P (Z.max lo hi) s -> Q (Next s)) ->
  (forall r, F r -> Q (Stop r)) ->
  wp (for_upc lo hi s body) Q.
Proof.
  intros H0 Hb HQ HF. unfold for_upc.
  eapply wp_mono.
  - apply iter_upc_wp with (P := P) (F := F); [exact H0|].
    intros k s0 Hk. apply Hb. lia.
  - intros [s'|r] H; [|auto]. apply HQ.
    replace (Z.max lo hi) with (lo + Z.of_nat (Z.to_nat (hi - lo))) by lia. exact H.
Qed.

(* a while loop with an invariant and a natural-number variant *)
Lemma wp_while {S} (I : S -> Prop) (mu : S -> nat) cond body fuel s (Q : S -> Prop) :
  I s ->
  (mu s <= fuel)%nat ->
  (forall s, I s -> wp (cond s) (fun b : bool =>
     if b then wp (body s) (fun s' => I s' /\ (mu s' < mu s)%nat) else Q s)) ->
  wp (while_ fuel cond s body) Q.
Proof.
  revert s. induction fuel as [|f IH]; intros s Hs Hmu Hb.
  - cbn [while_]. apply wp_bind. eapply wp_mono. { exact (Hb s Hs). }
    intros [|] Hc; [|exact Hc].
    destruct (wp_elim _ _ Hc) as (s' & _ & _ & Hlt). lia.
  - cbn [while_]. apply wp_bind. eapply wp_mono. { exact (Hb s Hs). }
    intros [|] Hc; [|exact Hc].
    apply wp_bind. eapply wp_mono; [exact Hc|].
    intros s' [Hs' Hlt]. apply IH; [exact Hs'|lia|exact Hb].
Qed.

(* ------------------------------------------------------------------ *)
(** * Vectors described by index functions *)

(* l has length n and its element at i is f i *)
Definition arr {X} (l : list X) (n : Z) (f : Z -> X) : Prop :=
  len l = n /\ forall i, 0 <= i < n -> get l i = Ok (f i).

(* total lookup, only for specifications and only used in range *)
Definition at_ {X} (d : X) (l : list X) (i : Z) : X := nth (Z.to_nat i) l d.

Lemma len_nonneg {X} (l : list X) : 0 <= len l.
Proof. unfold len. lia. Qed.

Lemma get_at {X} (d : X) l i : 0 <= i < len l -> get l i = Ok (at_ d l i).
Proof.
  intros H. unfold get, at_. unfold len in H.
  destruct (Z.ltb_spec i 0); [lia|].
  rewrite (nth_error_nth' l d) by lia. reflexivity.
Qed.

Lemma arr_at {X} (d : X) l : arr l (len l) (at_ d l).
Proof. split; [reflexivity|]. intros i Hi. apply get_at. exact Hi. Qed.

Lemma get_inv {X} (l : list X) i x : get l i = Ok x -> 0 <= i < len l.
Proof.
  unfold get, len. destruct (Z.ltb_spec i 0); [discriminate|].
  destruct (nth_error l (Z.to_nat i)) eqn:E; [|discriminate].
  intros _. assert (Z.to_nat i < length l)%nat by (apply nth_error_Some; congruence). lia.
Qed.

Lemma length_upd_nat {X} (l : list X) n v : length (upd_nat l n v) = length l.
Proof. revert n; induction l as [|h t IH]; intros [|n]; simpl; auto. Qed.

Lemma nth_upd_nat_same {X} (l : list X) n v :
  (n < length l)%nat -> nth_error (upd_nat l n v) n = Some v.
Proof.
  revert n; induction l as [|h t IH]; intros n Hn; simpl in Hn; [lia|].
  destruct n; simpl; [reflexivity|]. apply IH. lia.
Qed.

Lemma nth_upd_nat_other {X} (l : list X) n m v :
  n <> m -> nth_error (upd_nat l n v) m = nth_error l m.
Proof.
  revert n m; induction l as [|h t IH]; intros n m Hn; [destruct n; reflexivity|].
  destruct n, m; simpl; try reflexivity; try lia. apply IH. lia.
Qed.

Lemma upd_ok {X} (l : list X) i v : 0 <= i < len l ->
  upd l i v = Ok (upd_nat l (Z.to_nat i) v).
Proof.
  intros H. unfold upd.
  destruct (Z.leb_spec 0 i); [|lia]. destruct (Z.ltb_spec i (len l)); [|lia]. reflexivity.
Qed.

Lemma arr_upd {X} (l : list X) n f i v (Q : list X -> Prop) :
  arr l n f -> 0 <= i < n ->
  (forall l', arr l' n (fun k => if k =? i then v else f k) -> Q l') ->
  wp (upd l i v) Q.
Proof.
  intros [Hn Hf] Hi HQ. rewrite upd_ok by lia. apply HQ. split.
  - unfold len. rewrite length_upd_nat. exact Hn.
  - intros k Hk. cbv beta. unfold get. unfold len in Hn.
    destruct (Z.ltb_spec k 0); [lia|].
    destruct (Z.eqb_spec k i) as [->|Hne].
    + rewrite nth_upd_nat_same by lia. reflexivity.
    + rewrite nth_upd_nat_other by lia.
      specialize (Hf k Hk). unfold get in Hf.
      destruct (Z.ltb_spec k 0); [lia|]. exact Hf.
Qed.

Lemma arr_ext {X} (l : list X) n f g :
  arr l n f -> (forall i, 0 <= i < n -> f i = g i) -> arr l n g.
Proof. intros [Hn Hf] H. split; [exact Hn|]. intros i Hi. rewrite Hf, H; auto. Qed.

Lemma arr_get {X} (l : list X) n f i : arr l n f -> 0 <= i < n -> get l i = Ok (f i).
Proof. intros [_ H] Hi. apply H. exact Hi. Qed.

Lemma len_repeat {X} (x : X) n : len (repeat x n) = Z.of_nat n.
Proof. unfold len. rewrite repeat_length. reflexivity. Qed.

Lemma arr_repeat {X} (x : X) n : 0 <= n -> arr (repeat x (Z.to_nat n)) n (fun _ => x).
Proof.
  intros Hn. split; [rewrite len_repeat; lia|].
  intros i Hi. unfold get. destruct (Z.ltb_spec i 0); [lia|].
  rewrite nth_error_repeat by lia. reflexivity.
Qed.

Lemma wp_mkvec {X} (x : X) n (Q : list X -> Prop) :
  0 <= n -> (forall l, arr l n (fun _ => x) -> Q l) -> wp (mkvec n x) Q.
Proof.
  intros Hn HQ. unfold mkvec. destruct (Z.ltb_spec n 0); [lia|].
  apply HQ. apply arr_repeat. exact Hn.
Qed.

Lemma arr_len {X} (l : list X) n f : arr l n f -> len l = n.
Proof. intros [H _]. exact H. Qed.

Lemma nth_error_at {X} (d : X) l i : 0 <= i < len l ->
  nth_error l (Z.to_nat i) = Some (at_ d l i).
Proof. intros H. unfold len in H. unfold at_. apply nth_error_nth'. lia. Qed.

Lemma list_ext {X} (l : list X) : forall l', (forall k, nth_error l k = nth_error l' k) -> l = l'.
Proof.
  induction l as [|h t IH]; intros [|h' t'] H; [reflexivity|specialize (H O); discriminate..|].
  pose proof (H O) as H0. simpl in H0. injection H0 as ->. f_equal.
  apply IH. intros k. exact (H (S k)).
Qed.

(* two vectors with the same description are equal *)
Lemma arr_inj {X} (l l' : list X) n f : arr l n f -> arr l' n f -> l = l'.
Proof.
  intros [H1 F1] [H2 F2]. apply list_ext. intros k.
  destruct (Nat.lt_ge_cases k (length l)) as [Hk|Hk].
  - assert (E : 0 <= Z.of_nat k < n) by (unfold len in H1; lia).
    pose proof (F1 _ E) as G1. pose proof (F2 _ E) as G2.
    unfold get in G1, G2. destruct (Z.ltb_spec (Z.of_nat k) 0); [lia|].
    rewrite Nat2Z.id in G1, G2.
    destruct (nth_error l k), (nth_error l' k); congruence.
  - unfold len in *.
    rewrite (proj2 (nth_error_None l k)) by lia.
    symmetry. apply nth_error_None. lia.
Qed.

(* ------------------------------------------------------------------ *)
(** * Tactics *)

Ltac wp_bind := apply wp_bind.
(* use a known element *)
Ltac wp_get H := first [ rewrite H by lia | erewrite (arr_get _ _ _ _ H) by lia ]; cbn [bind].
