(* Proof automation for the model: partial descriptions of arrays, stepping. *)
From Coq Require Import ZArith List Lia Bool Reals Lra.
From Verif Require Import Base Num.
Import ListNotations.
Open Scope Z_scope.

Lemma bind_assoc {A B C} (m : res A) (f : A -> res B) (g : B -> res C) :
  bind (bind m f) g = bind m (fun a => bind (f a) g).
Proof. destruct m; reflexivity. Qed.

Lemma bind_ret {A} (m : res A) : bind m (fun a => Ok a) = m.
Proof. destruct m; reflexivity. Qed.

(* l has length n and on the indices in D its element at i is f i *)
Definition arrD {X} (l : list X) (n : Z) (D : Z -> Prop) (f : Z -> X) : Prop :=
  len l = n /\ forall i, 0 <= i < n -> D i -> get l i = Ok (f i).

Lemma arrD_of_arr {X} (l : list X) n D f : arr l n f -> arrD l n D f.
Proof. intros [Hn Hf]. split; [exact Hn|]. intros i Hi _. apply Hf. exact Hi. Qed.

Lemma arr_of_arrD {X} (l : list X) n (D : Z -> Prop) f :
  arrD l n D f -> (forall i, 0 <= i < n -> D i) -> arr l n f.
Proof. intros [Hn Hf] H. split; [exact Hn|]. intros i Hi. apply Hf; auto. Qed.

Lemma arrD_get {X} (l : list X) n D f i : arrD l n D f -> 0 <= i < n -> D i -> get l i = Ok (f i).
Proof. intros [_ H]. apply H. Qed.

Lemma arrD_ext {X} (l : list X) n (D D' : Z -> Prop) f g :
  arrD l n D f -> (forall i, 0 <= i < n -> D' i -> D i /\ f i = g i) -> arrD l n D' g.
Proof.
  intros [Hn Hf] H. split; [exact Hn|]. intros i Hi Hd.
  destruct (H i Hi Hd) as [H1 <-]. auto.
Qed.

Lemma upd_wp {X} (l : list X) n i v (Q : list X -> Prop) :
  len l = n -> 0 <= i < n ->
  (forall l', len l' = n -> get l' i = Ok v ->
     (forall k, k <> i -> get l' k = get l k) -> Q l') ->
  wp (upd l i v) Q.
Proof.
  intros Hn Hi HQ. rewrite upd_ok by lia. apply HQ.
  - unfold len in *. rewrite length_upd_nat. exact Hn.
  - unfold get. destruct (Z.ltb_spec i 0); [lia|].
    rewrite nth_upd_nat_same by (unfold len in Hn; lia). reflexivity.
  - intros k Hk. unfold get. destruct (Z.ltb_spec k 0); [reflexivity|].
    rewrite nth_upd_nat_other by lia. reflexivity.
Qed.

Lemma arrD_upd {X} (l : list X) n D f i v (Q : list X -> Prop) :
  arrD l n D f -> 0 <= i < n ->
  (forall l', arrD l' n (fun k => k = i \/ D k) (fun k => if k =? i then v else f k) -> Q l') ->
  wp (upd l i v) Q.
Proof.
  intros [Hn Hf] Hi HQ. apply upd_wp with (n := n); auto.
  intros l' Hl Hs Ho. apply HQ. split; [exact Hl|].
  intros k Hk Hd. destruct (Z.eqb_spec k i) as [->|Hne]; [exact Hs|].
  rewrite Ho by auto. apply Hf; auto. destruct Hd; [contradiction|assumption].
Qed.

(* writing the right value extends the described domain *)
Lemma arrD_set {X} (l : list X) n (D D' : Z -> Prop) f i v (Q : list X -> Prop) :
  arrD l n D f -> 0 <= i < n -> v = f i ->
  (forall k, 0 <= k < n -> D' k -> k = i \/ D k) ->
  (forall l', arrD l' n D' f -> Q l') -> wp (upd l i v) Q.
Proof.
  intros H Hi -> HD HQ. apply (arrD_upd _ _ _ _ _ _ _ H Hi). intros l' H'. apply HQ.
  eapply arrD_ext; [exact H'|]. intros k Hk Hd. split; [auto|]. cbv beta.
  destruct (Z.eqb_spec k i) as [->|]; reflexivity.
Qed.

(* option arrays *)
Lemma getu_of {X} (l : list (option X)) i v : get l i = Ok (Some v) -> getu l i = Ok v.
Proof. intros H. unfold getu. rewrite H. reflexivity. Qed.

Lemma len_uninit {X} n : 0 <= n -> len (@uninit X n) = n.
Proof. intros H. unfold uninit. rewrite len_repeat. lia. Qed.

Lemma arrD_uninit {X} n (f : Z -> option X) : 0 <= n -> arrD (@uninit X n) n (fun _ => False) f.
Proof. intros H. split; [apply len_uninit; exact H|]. tauto. Qed.

(* ---------------- 2D ---------------- *)
Definition arr2 {X} (m : list (list X)) (r c : Z) (f : Z -> Z -> X) : Prop :=
  len m = r /\ forall i, 0 <= i < r -> exists row, get m i = Ok row /\ arr row c (f i).

Definition arr2D {X} (m : list (list X)) (r c : Z) (D : Z -> Z -> Prop) (f : Z -> Z -> X) : Prop :=
  len m = r /\ forall i, 0 <= i < r -> exists row, get m i = Ok row /\ arrD row c (D i) (f i).

Lemma arr2_get {X} (m : list (list X)) r c f i j :
  arr2 m r c f -> 0 <= i < r -> 0 <= j < c -> get2 m i j = Ok (f i j).
Proof.
  intros [_ H] Hi Hj. destruct (H i Hi) as (row & Hr & Ha). unfold get2. rewrite Hr. cbn [bind].
  apply (arr_get _ _ _ _ Ha Hj).
Qed.

Lemma arr2D_get {X} (m : list (list X)) r c D f i j :
  arr2D m r c D f -> 0 <= i < r -> 0 <= j < c -> D i j -> get2 m i j = Ok (f i j).
Proof.
  intros [_ H] Hi Hj Hd. destruct (H i Hi) as (row & Hr & Ha). unfold get2. rewrite Hr. cbn [bind].
  apply (arrD_get _ _ _ _ _ Ha Hj Hd).
Qed.

Lemma arr2_upd {X} (m : list (list X)) r c f i j v (Q : list (list X) -> Prop) :
  arr2 m r c f -> 0 <= i < r -> 0 <= j < c ->
  (forall m', arr2 m' r c (fun a b => if (a =? i) && (b =? j) then v else f a b) -> Q m') ->
  wp (upd2 m i j v) Q.
Proof.
  intros [Hn Hf] Hi Hj HQ. unfold upd2. destruct (Hf i Hi) as (row & Hr & Ha).
  rewrite Hr. cbn [bind]. apply wp_bind. apply (arr_upd _ _ _ _ _ _ Ha Hj).
  intros row' Ha'. apply upd_wp with (n := r); auto.
  intros m' Hl Hs Ho. apply HQ. split; [exact Hl|]. intros a Ha2.
  destruct (Z.eqb_spec a i) as [->|Hne].
  - exists row'. split; [exact Hs|]. eapply arr_ext; [exact Ha'|]. intros b Hb. reflexivity.
  - destruct (Hf a Ha2) as (row2 & Hr2 & Ha3). exists row2. split; [rewrite Ho; auto|exact Ha3].
Qed.

Lemma arr2D_upd {X} (m : list (list X)) r c D f i j v (Q : list (list X) -> Prop) :
  arr2D m r c D f -> 0 <= i < r -> 0 <= j < c ->
  (forall m', arr2D m' r c (fun a b => (a = i /\ b = j) \/ D a b)
                 (fun a b => if (a =? i) && (b =? j) then v else f a b) -> Q m') ->
  wp (upd2 m i j v) Q.
Proof.
  intros [Hn Hf] Hi Hj HQ. unfold upd2. destruct (Hf i Hi) as (row & Hr & Ha).
  rewrite Hr. cbn [bind]. apply wp_bind. apply (arrD_upd _ _ _ _ _ _ _ Ha Hj).
  intros row' Ha'. apply upd_wp with (n := r); auto.
  intros m' Hl Hs Ho. apply HQ. split; [exact Hl|]. intros a Ha2.
  destruct (Z.eqb_spec a i) as [->|Hne].
  - exists row'. split; [exact Hs|]. eapply arrD_ext; [exact Ha'|].
    intros b Hb HD. cbn [andb]. split; [|reflexivity]. tauto.
  - destruct (Hf a Ha2) as (row2 & Hr2 & Ha3). exists row2. split; [rewrite Ho; auto|].
    eapply arrD_ext; [exact Ha3|]. intros b Hb HD. split; [|reflexivity]. tauto.
Qed.

Lemma arr2D_set {X} (m : list (list X)) r c (D D' : Z -> Z -> Prop) f i j v (Q : list (list X) -> Prop) :
  arr2D m r c D f -> 0 <= i < r -> 0 <= j < c -> v = f i j ->
  (forall a b, 0 <= a < r -> 0 <= b < c -> D' a b -> (a = i /\ b = j) \/ D a b) ->
  (forall m', arr2D m' r c D' f -> Q m') -> wp (upd2 m i j v) Q.
Proof.
  intros H Hi Hj -> HD HQ. apply (arr2D_upd _ _ _ _ _ _ _ _ _ H Hi Hj).
  intros m' [Hl Hm']. apply HQ. split; [exact Hl|]. intros a Ha.
  destruct (Hm' a Ha) as (row & Hr & Hrow). exists row. split; [exact Hr|].
  eapply arrD_ext; [exact Hrow|]. intros b Hb Hd. split; [auto|]. cbv beta.
  destruct (Z.eqb_spec a i) as [->|]; destruct (Z.eqb_spec b j) as [->|]; reflexivity.
Qed.

Lemma arr2_ext {X} (m : list (list X)) r c f g :
  arr2 m r c f -> (forall i j, 0 <= i < r -> 0 <= j < c -> f i j = g i j) -> arr2 m r c g.
Proof.
  intros [Hn Hf] H. split; [exact Hn|]. intros i Hi. destruct (Hf i Hi) as (row & Hr & Ha).
  exists row. split; [exact Hr|]. eapply arr_ext; [exact Ha|]. intros j Hj. apply H; auto.
Qed.

Lemma arr2D_ext {X} (m : list (list X)) r c (D D' : Z -> Z -> Prop) f g :
  arr2D m r c D f ->
  (forall i j, 0 <= i < r -> 0 <= j < c -> D' i j -> D i j /\ f i j = g i j) -> arr2D m r c D' g.
Proof.
  intros [Hn Hf] H. split; [exact Hn|]. intros i Hi. destruct (Hf i Hi) as (row & Hr & Ha).
  exists row. split; [exact Hr|]. eapply arrD_ext; [exact Ha|]. intros j Hj. apply H; auto.
Qed.

Lemma arr2_D {X} (m : list (list X)) r c D f : arr2 m r c f -> arr2D m r c D f.
Proof.
  intros [Hn Hf]. split; [exact Hn|]. intros i Hi. destruct (Hf i Hi) as (row & Hr & Ha).
  exists row. split; [exact Hr|]. apply arrD_of_arr. exact Ha.
Qed.

Lemma arr2_of_D {X} (m : list (list X)) r c (D : Z -> Z -> Prop) f :
  arr2D m r c D f -> (forall i j, 0 <= i < r -> 0 <= j < c -> D i j) -> arr2 m r c f.
Proof.
  intros [Hn Hf] H. split; [exact Hn|]. intros i Hi. destruct (Hf i Hi) as (row & Hr & Ha).
  exists row. split; [exact Hr|]. eapply arr_of_arrD; [exact Ha|]. intros j Hj. apply H; auto.
Qed.

Lemma arr2_len {X} (m : list (list X)) r c f : arr2 m r c f -> len m = r.
Proof. intros [H _]. exact H. Qed.

Lemma arr2_repeat {X} (x : X) r c (row : list X) : 0 <= r -> arr row c (fun _ => x) ->
  arr2 (repeat row (Z.to_nat r)) r c (fun _ _ => x).
Proof.
  intros Hr Ha. split; [rewrite len_repeat; lia|]. intros i Hi. exists row. split; [|exact Ha].
  apply (arr_get _ _ _ _ (arr_repeat row r Hr) Hi).
Qed.

Lemma wp_mkvec2 {X} (x : X) r c (row : list X) (Q : list (list X) -> Prop) :
  0 <= r -> arr row c (fun _ => x) ->
  (forall m, arr2 m r c (fun _ _ => x) -> Q m) -> wp (mkvec r row) Q.
Proof.
  intros Hr Ha HQ. unfold mkvec. destruct (Z.ltb_spec r 0); [lia|]. apply HQ.
  apply arr2_repeat; auto.
Qed.

Lemma arr2_row {X} (m : list (list X)) r c f i :
  arr2 m r c f -> 0 <= i < r -> exists row, get m i = Ok row /\ arr row c (f i).
Proof. intros [_ H]. apply H. Qed.

(* appending *)
Lemma get_app_l {X} (l l' : list X) i : 0 <= i < len l -> get (l ++ l') i = get l i.
Proof.
  intros H. unfold get, len in *. destruct (Z.ltb_spec i 0); [lia|].
  rewrite nth_error_app1 by lia. reflexivity.
Qed.
Lemma get_app_r {X} (l l' : list X) i : len l <= i -> get (l ++ l') i = get l' (i - len l).
Proof.
  intros H. unfold get, len in *. destruct (Z.ltb_spec i 0); [lia|].
  destruct (Z.ltb_spec (i - Z.of_nat (length l)) 0); [lia|].
  rewrite nth_error_app2 by lia. do 2 f_equal.
  replace (Z.to_nat (i - Z.of_nat (length l))) with (Z.to_nat i - length l)%nat by lia. reflexivity.
Qed.
Lemma len_app {X} (l l' : list X) : len (l ++ l') = len l + len l'.
Proof. unfold len. rewrite app_length. lia. Qed.

Lemma arr_nil {X} (f : Z -> X) : arr [] 0 f.
Proof. split; [reflexivity|]. lia. Qed.

Lemma arr_snoc {X} (l : list X) n f x : arr l n f -> f n = x -> arr (l ++ [x]) (n + 1) f.
Proof.
  intros [Hn Hf] Hx. split; [rewrite len_app; cbn; lia|]. intros i Hi.
  destruct (Z.eq_dec i n) as [->|Hne].
  - rewrite get_app_r by lia. replace (n - len l) with 0 by lia. rewrite Hx. reflexivity.
  - rewrite get_app_l by lia. apply Hf. lia.
Qed.

Lemma arr_app {X} (l l' : list X) n n' f g :
  arr l n f -> arr l' n' g -> arr (l ++ l') (n + n') (fun i => if i <? n then f i else g (i - n)).
Proof.
  intros [Hn Hf] [Hn' Hg]. split; [rewrite len_app; lia|]. intros i Hi.
  destruct (Z.ltb_spec i n).
  - rewrite get_app_l by lia. apply Hf. lia.
  - rewrite get_app_r by lia. rewrite Hn. apply Hg. lia.
Qed.

(* the list described by a function *)
Definition mklist {X} (n : Z) (f : Z -> X) : list X :=
  map (fun k => f (Z.of_nat k)) (seq 0 (Z.to_nat n)).

Lemma arr_mklist {X} n (f : Z -> X) : 0 <= n -> arr (mklist n f) n f.
Proof.
  intros Hn. unfold mklist. split.
  - unfold len. rewrite map_length, seq_length. lia.
  - intros i Hi. unfold get. destruct (Z.ltb_spec i 0); [lia|].
    rewrite nth_error_map, nth_error_nth' with (d := O) by (rewrite seq_length; lia).
    cbn. rewrite seq_nth by lia. do 2 f_equal. lia.
Qed.

Lemma arr_at_eq {X} (d : X) l n f i : arr l n f -> 0 <= i < n -> at_ d l i = f i.
Proof.
  intros [Hn Hf] Hi. pose proof (Hf i Hi) as H. rewrite (get_at d) in H by lia. congruence.
Qed.

(* ---------------- stepping ---------------- *)

Ltac wnorm := repeat rewrite bind_assoc; cbn [bind].

(* read an element of a described array *)
Ltac wget H :=
  let T := type of H in
  lazymatch T with
  | arr ?l ?n ?f => rewrite (arr_get _ _ _ _ H) by lia; cbn [bind]
  | arrD ?l ?n ?D ?f => rewrite (arrD_get _ _ _ _ _ H) by (try lia); cbn [bind]
  | arr2 ?l ?r ?c ?f => rewrite (arr2_get _ _ _ _ _ _ H) by lia; cbn [bind]
  | arr2D ?l ?r ?c ?D ?f => rewrite (arr2D_get _ _ _ _ _ _ _ H) by (try lia); cbn [bind]
  end.

Ltac wbind := lazymatch goal with |- wp (bind _ _) _ => apply wp_bind | _ => idtac end.

(* write an element; H is replaced by the new description *)
Ltac wupd H :=
  let T := type of H in
  lazymatch T with
  | arr ?l ?n ?f =>
      wbind; apply (arr_upd _ _ _ _ _ _ H); [lia|]
  | arrD ?l ?n ?D ?f =>
      wbind; apply (arrD_upd _ _ _ _ _ _ _ H); [lia|]
  | arr2 ?l ?r ?c ?f =>
      wbind; apply (arr2_upd _ _ _ _ _ _ _ _ H); [lia|lia|]
  | arr2D ?l ?r ?c ?D ?f =>
      wbind; apply (arr2D_upd _ _ _ _ _ _ _ _ _ H); [lia|lia|]
  end.

(* case split on integer boolean tests in the goal *)
Ltac zcase :=
  cbv beta; repeat match goal with
  | |- context [?a =? ?b] => destruct (Z.eqb_spec a b)
  | |- context [?a <? ?b] => destruct (Z.ltb_spec a b)
  | |- context [?a <=? ?b] => destruct (Z.leb_spec a b)
  end; cbn [andb orb negb].

Ltac zb :=
  repeat match goal with
  | H : context [?a =? ?b] |- _ => destruct (Z.eqb_spec a b)
  | H : context [?a <? ?b] |- _ => destruct (Z.ltb_spec a b)
  | H : context [?a <=? ?b] |- _ => destruct (Z.leb_spec a b)
  end; cbn [andb orb negb] in *.

(* boolean facts about Z, by lia *)
Ltac blia :=
  repeat match goal with
  | |- (_ && _) = true => apply andb_true_intro; split
  | |- (_ =? _) = true => apply Z.eqb_eq
  | |- (_ <? _) = true => apply Z.ltb_lt
  | |- (_ <=? _) = true => apply Z.leb_le
  | |- (_ =? _) = false => apply Z.eqb_neq
  | |- (_ <? _) = false => apply Z.ltb_ge
  | |- (_ <=? _) = false => apply Z.leb_gt
  end; lia.

(* pass a validate *)
Ltac wval := apply wp_bind; apply wp_validate; [try blia|].

(* linear arithmetic below beta-redexes and quantifiers *)
Ltac dl := intros; cbv beta in *; first [tauto | lia | intuition lia].
