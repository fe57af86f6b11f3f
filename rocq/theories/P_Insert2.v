(* Knot insertion leaves the curve unchanged. *)
From Coq Require Import ZArith List Bool Reals Lra Lia Permutation.
From Verif Require Import Base Num Vec Tac Spec M_MathUtils M_Polynomials M_Bspline M_NurbsCurve
  P_MathUtils P_Span P_Cox P_VSum P_Curve P_Bspline P_Blossom P_Insert.
Import ListNotations.
Open Scope Z_scope.

Lemma val_In l i : 0 <= i < len l -> In (val l i) l.
Proof. intros H. apply nth_In. unfold len in H. lia. Qed.

Lemma arr_val l n f i : arr l n f -> 0 <= i < n -> val l i = f i.
Proof. intros H Hi. exact (arr_at_eq 0%R l n f i H Hi). Qed.

Lemma arr_pt_eq {T} {V : Vec R T} (l : list T) n f i : arr l n f -> 0 <= i < n -> pt l i = f i.
Proof. intros H Hi. exact (arr_at_eq vzero l n f i H Hi). Qed.

Lemma tol_sym a b : tol a b = tol b a.
Proof. unfold tol. rewrite Rmax_comm. reflexivity. Qed.

Lemma sep_lt U u i : (forall x, In x U -> (Rabs (u - x) <= tol u x)%R -> x = u) -> 0 <= i < len U -> (val U i < u)%R ->
  (val U i + tol (val U i) u < u)%R.
Proof.
  intros Hsep Hi Hlt. destruct (Rle_lt_dec (Rabs (u - val U i)) (tol u (val U i))) as [C|C].
  - specialize (Hsep _ (val_In U i Hi) C). lra.
  - rewrite Rabs_right in C by lra. rewrite tol_sym in C. lra.
Qed.

Lemma sep_gt U u i : (forall x, In x U -> (Rabs (u - x) <= tol u x)%R -> x = u) -> 0 <= i < len U -> (u < val U i)%R ->
  (u + tol u (val U i) < val U i)%R.
Proof.
  intros Hsep Hi Hlt. destruct (Rle_lt_dec (Rabs (u - val U i)) (tol u (val U i))) as [C|C].
  - specialize (Hsep _ (val_In U i Hi) C). lra.
  - rewrite Rabs_left1 in C by lra. lra.
Qed.

Lemma arr_firstn {X} (d : X) (l : list X) k : 0 <= k <= len l -> arr (firstn (Z.to_nat k) l) k (at_ d l).
Proof.
  intros H. unfold len in H. split.
  - unfold len. rewrite firstn_length. lia.
  - intros i Hi. unfold get, at_. destruct (Z.ltb_spec i 0); [lia|].
    rewrite <- (firstn_skipn (Z.to_nat k) l) at 2. rewrite app_nth1 by (rewrite firstn_length; lia).
    rewrite (nth_error_nth' _ d) by (rewrite firstn_length; lia). reflexivity.
Qed.

Lemma arr_skipn {X} (d : X) (l : list X) k : 0 <= k <= len l -> arr (skipn (Z.to_nat k) l) (len l - k) (fun i => at_ d l (k + i)).
Proof.
  intros H. unfold len in *. split.
  - unfold len. rewrite skipn_length. lia.
  - intros i Hi. unfold get, at_. destruct (Z.ltb_spec i 0); [lia|].
    rewrite (nth_error_nth' _ d) by (rewrite skipn_length; lia). f_equal.
    rewrite <- (firstn_skipn (Z.to_nat k) l) at 2. rewrite app_nth2 by (rewrite firstn_length; lia).
    f_equal. rewrite firstn_length. lia.
Qed.

(* the inserted knot vector, as a multiset *)
Lemma insU_perm U U' k r u : 0 <= r -> 0 <= k < len U -> arr U' (len U + r) (insU (val U) k r u) ->
  Permutation U' (repeat u (Z.to_nat r) ++ U).
Proof.
  intros Hr Hk H.
  assert (E : U' = firstn (Z.to_nat (k + 1)) U ++ repeat u (Z.to_nat r) ++ skipn (Z.to_nat (k + 1)) U).
  { apply (arr_inj _ _ _ _ H). pose proof (arr_firstn 0%R U (k + 1) ltac:(lia)) as A1.
    pose proof (arr_repeat u r Hr) as A2. pose proof (arr_skipn 0%R U (k + 1) ltac:(lia)) as A3.
    pose proof (arr_app _ _ _ _ _ _ A1 (arr_app _ _ _ _ _ _ A2 A3)) as A.
    replace (k + 1 + (r + (len U - (k + 1)))) with (len U + r) in A by lia.
    eapply arr_ext; [exact A|]. intros i Hi. cbv beta. unfold insU, val.
    destruct (Z.ltb_spec i (k + 1)), (Z.leb_spec i k); try lia; try reflexivity.
    destruct (Z.ltb_spec (i - (k + 1)) r), (Z.leb_spec i (k + r)); try lia; try reflexivity. f_equal. lia. }
  rewrite E. rewrite <- (firstn_skipn (Z.to_nat (k + 1)) U) at 3.
  rewrite !app_assoc. apply Permutation_app_tail. apply Permutation_app_comm.
Qed.

Section Ins.
Context {T : Type} {V : Vec R T} {L : VecL T}.

Section One.
Variables (p n : Z) (U : list R) (u : R) (k r : Z) (U' : list R).
Hypothesis Hc : curve_knots p n U.
Hypothesis Hu : (val U p < u < val U (n + 1))%R.
Hypothesis Hsep : forall x, In x U -> (Rabs (u - x) <= tol u x)%R -> x = u.
Hypothesis Hk : span_of p n U u k.
Hypothesis Hr : 1 <= r.
Hypothesis HU' : arr U' (n + p + 2 + r) (insU (val U) k r u).

Lemma ins_sorted : sorted U'.
Proof.
  pose proof Hc as [Hp Hn Hl Hs _ _]. pose proof Hk as (Hkr & Hlt & Hku & Hku').
  assert (Hku1 : (u < val U (k + 1))%R) by (destruct Hku' as [?|[-> ->]]; lra).
  intros i j Hi Hij Hj. rewrite (arr_len _ _ _ HU') in Hj. rewrite !(arr_val _ _ _ _ HU') by lia. unfold insU.
  destruct (Z.leb_spec i k), (Z.leb_spec j k); try lia; [apply Hs; lia| |].
  - destruct (Z.leb_spec j (k + r)); [|apply Hs; lia]. pose proof (Hs i k ltac:(lia) ltac:(lia) ltac:(lia)). lra.
  - destruct (Z.leb_spec i (k + r)), (Z.leb_spec j (k + r)); try lia; [lra| |apply Hs; lia].
    pose proof (Hs (k + 1) (j - r) ltac:(lia) ltac:(lia) ltac:(lia)). lra.
Qed.

Lemma ins_low i : 0 <= i <= k -> val U' i = val U i.
Proof.
  pose proof Hc as [Hp Hn Hl Hs _ _]. pose proof Hk as (Hkr & _). intros Hi. rewrite (arr_val _ _ _ _ HU') by lia. unfold insU.
  destruct (Z.leb_spec i k); [reflexivity|lia].
Qed.
Lemma ins_mid i : k < i <= k + r -> val U' i = u.
Proof.
  pose proof Hc as [Hp Hn Hl Hs _ _]. pose proof Hk as (Hkr & _). intros Hi. rewrite (arr_val _ _ _ _ HU') by lia. unfold insU.
  destruct (Z.leb_spec i k); [lia|]. destruct (Z.leb_spec i (k + r)); [reflexivity|lia].
Qed.
Lemma ins_high i : k + r < i < n + p + 2 + r -> val U' i = val U (i - r).
Proof.
  pose proof Hc as [Hp Hn Hl Hs _ _]. pose proof Hk as (Hkr & _). intros Hi. rewrite (arr_val _ _ _ _ HU') by lia. unfold insU.
  destruct (Z.leb_spec i k); [lia|]. destruct (Z.leb_spec i (k + r)); [lia|reflexivity].
Qed.

Lemma ins_knots : curve_knots p (n + r) U'.
Proof.
  pose proof Hc as [Hp Hn Hl Hs H1 H2]. pose proof Hk as (Hkr & Hlt & Hku & Hku').
  assert (Hku1 : (u < val U (k + 1))%R) by (destruct Hku' as [?|[-> ->]]; lra).
  split; try lia.
  - rewrite (arr_len _ _ _ HU'). lia.
  - apply ins_sorted.
  - rewrite (ins_low p) by lia. destruct (Z.eq_dec k p) as [E|E].
    + rewrite (ins_mid (p + 1)) by lia. apply sep_lt; auto; [lia|lra].
    + rewrite (ins_low (p + 1)) by lia. exact H1.
  - rewrite (ins_high (n + r + 1)) by lia. replace (n + r + 1 - r) with (n + 1) by lia. destruct (Z.eq_dec k n) as [E|E].
    + rewrite (ins_mid (n + r)) by lia. apply sep_gt; auto; [lia|lra].
    + rewrite (ins_high (n + r)) by lia. replace (n + r - r) with n by lia. exact H2.
Qed.

Lemma ins_first : val U' p = val U p.
Proof. pose proof Hk as (Hkr & _). pose proof Hc as [Hp _ _ _ _ _]. apply ins_low. lia. Qed.
Lemma ins_last : val U' (n + r + 1) = val U (n + 1).
Proof.
  pose proof Hk as (Hkr & _). pose proof Hc as [Hp _ _ _ _ _]. rewrite ins_high by lia. f_equal. lia.
Qed.
Lemma ins_domain t : in_domain p n U t <-> in_domain p (n + r) U' t.
Proof. unfold in_domain. rewrite ins_first, ins_last. tauto. Qed.

Lemma ins_span t kk' : span_of p (n + r) U' t kk' ->
  exists kk, span_of p n U t kk /\ ((kk <= k /\ kk' = kk) \/ (k <= kk /\ kk' = kk + r)).
Proof.
  pose proof Hc as [Hp Hn Hl Hs H1 H2]. pose proof Hk as (Hkr & Hlt & Hku & Hku').
  assert (Hku1 : (u < val U (k + 1))%R) by (destruct Hku' as [?|[-> ->]]; lra).
  intros (A & B & C & D).
  destruct (Z_lt_dec kk' k) as [E|E].
  { exists kk'. rewrite (ins_low kk'), (ins_low (kk' + 1)) in * by lia. split; [|lia].
    split; [lia|]. split; [exact B|]. split; [exact C|]. left. destruct D as [D|[D _]]; [exact D|lia]. }
  destruct (Z.eq_dec kk' k) as [->|E1].
  { exists k. rewrite (ins_low k) in * by lia. rewrite (ins_mid (k + 1)) in * by lia. split; [|lia].
    split; [lia|]. split; [exact Hlt|]. split; [exact C|]. left. destruct D as [D|[D _]]; [lra|lia]. }
  destruct (Z_lt_dec kk' (k + r)) as [E2|E2].
  { rewrite !ins_mid in B by lia. lra. }
  destruct (Z.eq_dec kk' (k + r)) as [->|E3].
  { exists k. rewrite (ins_mid (k + r)) in * by lia. rewrite (ins_high (k + r + 1)) in * by lia.
    replace (k + r + 1 - r) with (k + 1) in * by lia. split; [|lia].
    split; [lia|]. split; [exact Hlt|]. split; [lra|]. destruct D as [D|[D D']]; [left; exact D|right].
    rewrite ins_last in D'. split; [lia|exact D']. }
  exists (kk' - r). rewrite (ins_high kk') in * by lia. rewrite (ins_high (kk' + 1)) in * by lia.
  replace (kk' + 1 - r) with (kk' - r + 1) in * by lia. split; [|lia].
  split; [lia|]. split; [exact B|]. split; [exact C|]. destruct D as [D|[D D']]; [left; exact D|right].
  rewrite ins_last in D'. split; [lia|exact D'].
Qed.
End One.

Lemma ins_curve p n U (P Q : list T) u k s r U' t : curve_knots p n U -> (val U p < u < val U (n + 1))%R ->
  (forall x, In x U -> (Rabs (u - x) <= tol u x)%R -> x = u) -> span_of p n U u k ->
  1 <= r -> 0 <= s -> s + r <= p + 1 -> (forall i, k - s < i <= k -> val U i = u) ->
  arr U' (n + p + 2 + r) (insU (val U) k r u) -> arr Q (n + 1 + r) (insP (val U) (pt P) p k s r u) ->
  in_domain p n U t -> curve_point p (n + r) U' Q t = curve_point p n U P t.
Proof.
  intros Hc Hu Hsep Hk Hr Hs Hsr Hsu HU' HQ Hd. pose proof Hc as [Hp Hn Hl Hsort _ _].
  pose proof (ins_knots p n U u k r U' Hc Hu Hsep Hk Hr HU') as Hc'.
  assert (Hd' : in_domain p (n + r) U' t) by (apply (ins_domain p n U u k r U'); auto).
  destruct (find_span _ _ _ _ Hc' Hd') as (kk' & _ & Hkk').
  destruct (ins_span p n U u k r U' Hc Hu Hsep Hk Hr HU' t kk' Hkk') as (kk & Hkk & Hrel).
  apply (refine_point p n U P (n + r) U' Q t kk kk'); auto. intros m Hm.
  pose proof Hkk as (A & _). pose proof Hkk' as (A' & _).
  rewrite (arr_pt_eq _ _ _ _ HQ) by lia.
  rewrite (insP_bl (val U) (pt P) p k s r u Hp Hr ltac:(lia) Hsr Hsu kk kk' m); auto; [|apply (span_of_good p n U t); auto].
  f_equal. apply win_ext. intros x Hx. symmetry. apply (arr_val _ _ _ _ HU'). lia.
Qed.

Lemma InsertKnot_preserves p n U (P : list T) u times res0 : curve_knots p n U -> len P = n + 1 -> 0 < times ->
  (val U p < u < val U (n + 1))%R -> (forall x, In x U -> (Rabs (u - x) <= tol u x)%R -> x = u) ->
  let s := Z.of_nat (count_occ Req_EM_T U u) in
  let r := inserted p s times in
  (r <= 0 -> InsertKnot (mkCurve p U P) u times res0 = Ok (0, res0)) /\
  (0 < r -> returns (InsertKnot (mkCurve p U P) u times res0) (fun '(r', c) => r' = r /\
     exists U' Q, c = mkCurve p U' Q /\ curve_knots p (n + r) U' /\ len Q = n + r + 1 /\
       Permutation U' (repeat u (Z.to_nat r) ++ U) /\
       (forall t, in_domain p n U t <-> in_domain p (n + r) U' t) /\
       (forall t, in_domain p n U t -> curve_point p (n + r) U' Q t = curve_point p n U P t))).
Proof.
  intros Hc HP Ht Hu Hsep s r. pose proof Hc as [Hp Hn Hl Hsort _ _].
  destruct (find_span p n U u Hc ltac:(unfold in_domain; lra)) as (k & _ & Hk).
  destruct (InsertKnot_arr p n U P u times k res0 Hc HP Ht Hk ltac:(lra) Hsep) as (A & B). fold s r in A, B.
  split; [exact A|]. intros Hr. destruct (wp_elim _ _ (B Hr)) as ([r' c] & E & U' & Q & -> & -> & HU' & HQ).
  exists (r, mkCurve p U' Q). split; [exact E|]. split; [reflexivity|]. exists U', Q. split; [reflexivity|].
  pose proof Hk as (Hkr & Hlt & Hku & Hku'). assert (Hku1 : (u < val U (k + 1))%R) by (destruct Hku' as [?|[-> ->]]; lra).
  destruct (count_sorted U u k Hsort ltac:(lia) Hku Hku1) as (Hs1 & Hs2 & Hs3). fold s in Hs1, Hs2, Hs3.
  assert (Hsr : s + r <= p + 1) by (unfold r, inserted in *; destruct (Z.ltb_spec (p + 1) (s + times)); lia).
  split; [apply (ins_knots p n U u k r U'); auto; lia|]. split; [rewrite (arr_len _ _ _ HQ); lia|].
  split; [apply (insU_perm U U' k r u); [lia|lia|rewrite Hl; exact HU']|].
  split; [apply (ins_domain p n U u k r U'); auto; lia|].
  intros t Hd. apply (ins_curve p n U P Q u k s r U' t); auto; lia.
Qed.
End Ins.
