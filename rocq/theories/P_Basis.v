(* BasisFunctions and the triangular tables compute the Cox-de Boor basis. *)
From Coq Require Import ZArith List Bool Reals Lra Lia.
From Verif Require Import Base Num Vec Tac Spec M_MathUtils M_Polynomials P_MathUtils P_Bern P_Span P_Cox.
Import ListNotations.
Open Scope Z_scope.

(* read from an array described with Some *)
Lemma getu_D {X} (l : list (option X)) n D f i v :
  arrD l n D f -> 0 <= i < n -> D i -> f i = Some v -> getu l i = Ok v.
Proof. intros H Hi HD E. apply getu_of. rewrite (arrD_get _ _ _ _ _ H Hi HD), E. reflexivity. Qed.

(* the hypotheses on a knot vector and a span needed by the local algorithms *)
Record span_ok (U : list R) (p k : Z) : Prop := {
  so_p : 0 <= p;
  so_k : 0 <= k;
  so_lo : p - 1 <= k;
  so_hi : k + p < len U;
  so_k1 : k + 1 < len U;
  so_sorted : sorted U;
  so_lt : (val U k < val U (k + 1))%R }.

Lemma span_good U p k : span_ok U p k -> good (val U) k p.
Proof.
  intros [H1 H2 H3 H4 H5 H6 H7]. split; [exact H7|]. intros i j Hi Hij Hj. apply H6; lia.
Qed.

(* one step of the triangular scheme *)
Lemma NS_step U k p j r t : good U k p -> 0 < j <= p -> 0 <= r < j ->
  (sdiv (t - U (k - j + r)%Z) (U (k + r)%Z - U (k - j + r)%Z) * NS U k (j - 1) (k - j + r) t +
   (U (k + r + 1)%Z - t) * (NS U k (j - 1) (k - j + 1 + r) t / ((U (k + r + 1)%Z - t) + (t - U (k + 1 - j + r)%Z))))%R
  = NS U k j (k - j + r) t.
Proof.
  intros Hg Hj Hr. rewrite (NS_succ U k j) by lia.
  replace (k - j + r + j) with (k + r) by lia. replace (k - j + r + 1) with (k - j + 1 + r) by lia.
  replace (k + 1 - j + r) with (k - j + 1 + r) by lia.
  pose proof (good_den U k p (k - j + 1 + r) (k + r + 1) Hg ltac:(lia) ltac:(lia) ltac:(lia) ltac:(lia)).
  rewrite (sdiv_ok (U (k + r + 1)%Z - t)) by lra. field. lra.
Qed.

Lemma NS_saved U k p j r t : good U k p -> 0 < j <= p -> 0 <= r < j ->
  ((t - U (k + 1 - j + r)%Z) * (NS U k (j - 1) (k - j + 1 + r) t / ((U (k + r + 1)%Z - t) + (t - U (k + 1 - j + r)%Z))))%R
  = (sdiv (t - U (k - j + (r + 1))%Z) (U (k + r + 1)%Z - U (k - j + (r + 1))%Z) * NS U k (j - 1) (k - j + (r + 1)) t)%R.
Proof.
  intros Hg Hj Hr. replace (k - j + (r + 1)) with (k - j + 1 + r) by lia.
  replace (k + 1 - j + r) with (k - j + 1 + r) by lia.
  pose proof (good_den U k p (k - j + 1 + r) (k + r + 1) Hg ltac:(lia) ltac:(lia) ltac:(lia) ltac:(lia)).
  rewrite sdiv_ok by lra. field. lra.
Qed.

Lemma NS_last U k p j t : good U k p -> 0 < j <= p ->
  (sdiv (t - U (k - j + j)%Z) (U (k + j)%Z - U (k - j + j)%Z) * NS U k (j - 1) (k - j + j) t)%R = NS U k j k t.
Proof.
  intros Hg Hj. rewrite (NS_succ U k j) by lia. rewrite (NS_out U k (j - 1) (k + 1)) by lia.
  replace (k - j + j) with k by lia. ring.
Qed.

Lemma NS_saved0 U k j t : 0 < j ->
  (sdiv (t - U (k - j + 0)%Z) (U (k + 0)%Z - U (k - j + 0)%Z) * NS U k (j - 1) (k - j + 0) t)%R = 0%R.
Proof. intros Hj. rewrite NS_out by lia. ring. Qed.

Lemma BasisFunctions_ok (U : list R) p k t :
  span_ok U p k -> p <= 7 -> accepted U t ->
  wp (BasisFunctions k p U t) (fun l => arrD l 8 (fun r => r <= p) (fun r => Some (NS (val U) k p (k - p + r) t))).
Proof.
  intros Hs Hp7 Ha. pose proof (span_good _ _ _ Hs) as Hg. destruct Hs as [Hp Hk Hlo Hhi Hk1 Hsort Hlt].
  unfold BasisFunctions, NMax1, NURBSMaxDegree. wval. wval.
  rewrite check_knots_ok by (try assumption; lia). cbn [bind].
  apply wp_bind. unfold updu at 1.
  eapply (arrD_set _ 8 (fun _ => False) (fun r => r <= 0) (fun r => Some (NS (val U) k 0 (k - 0 + r) t))).
  { apply arrD_uninit. lia. } { lia. }
  { rewrite NS_0. destruct (Z.eqb_spec (k - 0 + 0) k); [reflexivity|lia]. }
  { intros; lia. }
  intros bf0 H0. apply wp_bind.
  apply wp_for_up with (P := fun j '(bf, lft, rgt) =>
    arrD bf 8 (fun r => r <= j - 1) (fun r => Some (NS (val U) k (j - 1) (k - (j - 1) + r) t)) /\
    arrD lft 8 (fun i => 1 <= i < j) (fun i => Some (t - val U (k + 1 - i)%Z)%R) /\
    arrD rgt 8 (fun i => 1 <= i < j) (fun i => Some (val U (k + i)%Z - t)%R)).
  - lia.
  - split; [exact H0|]. split; (split; [apply len_uninit; lia|intros; lia]).
  - intros j [[bf lft] rgt] Hj (Hbf & HL & HR).
    rewrite (get_val U (k + 1 - j)) by lia. cbn [bind]. apply wp_bind. unfold updu at 1. numg.
    eapply (arrD_set _ _ _ (fun i => 1 <= i < j + 1)); [exact HL|lia|reflexivity|dl|].
    intros lft' HL'. rewrite (get_val U (k + j)) by lia. cbn [bind]. apply wp_bind. unfold updu at 1. numg.
    eapply (arrD_set _ _ _ (fun i => 1 <= i < j + 1)); [exact HR|lia|reflexivity|dl|].
    intros rgt' HR'. apply wp_bind.
    apply wp_for_up with (P := fun r '(bf, saved) =>
      arrD bf 8 (fun r' => r' <= j - 1)
        (fun r' => Some (if r' <? r then NS (val U) k j (k - j + r') t else NS (val U) k (j - 1) (k - j + 1 + r') t)) /\
      saved = (sdiv (t - val U (k - j + r)%Z) (val U (k + r)%Z - val U (k - j + r)%Z) * NS (val U) k (j - 1) (k - j + r) t)%R).
    + lia.
    + split.
      * eapply arrD_ext; [exact Hbf|]. intros r Hr HD. cbv beta. split; [lia|]. zcase; [lia|]. do 2 f_equal. lia.
      * rewrite NS_saved0 by lia. reflexivity.
    + intros r [bf1 saved] Hr [Hb ->].
      rewrite (getu_D _ _ _ _ r (NS (val U) k (j - 1) (k - j + 1 + r) t) Hb) by (try lia; cbv beta; try lia; zcase; first [lia|reflexivity]).
      cbn [bind]. rewrite (getu_D _ _ _ _ (r + 1) _ HR') by (try lia; reflexivity). cbn [bind].
      rewrite (getu_D _ _ _ _ (j - r) _ HL') by (try lia; reflexivity). cbn [bind]. numg.
      replace (k + (r + 1)) with (k + r + 1) by lia. replace (k + 1 - (j - r)) with (k + 1 - j + r) by lia.
      pose proof (good_den (val U) k p (k + 1 - j + r) (k + r + 1) Hg ltac:(lia) ltac:(lia) ltac:(lia) ltac:(lia)).
      rewrite Rdiv_ok by lra. cbn [bind]. apply wp_bind. unfold updu.
      apply (arrD_upd _ _ _ _ _ _ _ Hb); [lia|]. intros bf2 H2. cbn [wp]. split.
      * eapply arrD_ext; [exact H2|]. intros r' Hr' HD. cbv beta. split; [lia|].
        destruct (Z.eqb_spec r' r) as [->|].
        -- destruct (Z.ltb_spec r (r + 1)); [|lia]. f_equal. eapply NS_step; [exact Hg|lia|lia].
        -- destruct (Z.ltb_spec r' r), (Z.ltb_spec r' (r + 1)); try reflexivity; lia.
      * eapply NS_saved; [exact Hg|lia|lia].
    + intros [bf1 saved] [Hb ->]. rewrite (NS_last (val U) k p j t Hg) by lia. apply wp_bind. unfold updu.
      apply (arrD_upd _ _ _ _ _ _ _ Hb); [lia|]. intros bf2 H2. cbn [wp]. split; [|split; [exact HL'|exact HR']].
      eapply arrD_ext; [exact H2|]. intros r' Hr' HD. cbv beta in *.
      replace (j + 1 - 1) with j in * by lia.
      split; [lia|]. destruct (Z.eqb_spec r' j) as [->|]; [do 2 f_equal; lia|].
      destruct (Z.ltb_spec r' j); [reflexivity|lia].
  - intros [[bf lft] rgt] (Hbf & _ & _). cbn [wp]. eapply arrD_ext; [exact Hbf|].
    intros r Hr HD. cbv beta in *. split; [lia|]. do 2 f_equal; lia.
Qed.

(* ------------------------------------------------------------------ *)
(** * The triangular table ndu *)

(* upper triangle: values of degree j; lower triangle: knot differences *)
Definition ndu_fn (U : Z -> R) (k : Z) (t : R) (r j : Z) : R :=
  if r <=? j then NS U k j (k - j + r) t else (U (k + j + 1)%Z - U (k + 1 - r + j)%Z)%R.

Lemma ndu_table_ok (U : list R) p k t :
  span_ok U p k -> p <= 7 ->
  wp (ndu_table k p U t) (fun m => arr2 m (p + 1) (p + 1) (ndu_fn (val U) k t)).
Proof.
  intros Hs Hp7. pose proof (span_good _ _ _ Hs) as Hg. destruct Hs as [Hp Hk Hlo Hhi Hk1 Hsort Hlt].
  unfold ndu_table, NMax1, NURBSMaxDegree. apply wp_bind, wp_mkvec; [lia|]. intros row Hrow.
  apply wp_bind. apply (wp_mkvec2 n0 (p + 1) (p + 1) row); [lia|exact Hrow|]. intros m0 H0.
  apply wp_bind.
  eapply (arr2D_set _ _ _ (fun _ _ => False) (fun a b => a < 1 /\ b < 1) (ndu_fn (val U) k t)).
  { split; [exact (arr2_len _ _ _ _ H0)|]. intros i Hi. destruct (arr2_row _ _ _ _ i H0 Hi) as (row' & Hr' & Ar').
    exists row'. split; [exact Hr'|]. split; [exact (arr_len _ _ _ Ar')|tauto]. }
  { lia. } { lia. }
  { unfold ndu_fn. zcase; [|lia]. rewrite NS_0. zcase; [reflexivity|lia]. }
  { intros; lia. }
  intros m1 H1. apply wp_bind.
  apply wp_for_up with (P := fun j '(m, lft, rgt) =>
    arr2D m (p + 1) (p + 1) (fun a b => a < j /\ b < j) (ndu_fn (val U) k t) /\
    arrD lft 8 (fun i => 1 <= i < j) (fun i => Some (t - val U (k + 1 - i)%Z)%R) /\
    arrD rgt 8 (fun i => 1 <= i < j) (fun i => Some (val U (k + i)%Z - t)%R)).
  - lia.
  - split; [exact H1|]. split; (split; [apply len_uninit; lia|intros; lia]).
  - intros j [[m lft] rgt] Hj (Hm & HL & HR).
    rewrite (get_val U (k + 1 - j)) by lia. cbn [bind]. apply wp_bind. unfold updu at 1. numg.
    eapply (arrD_set _ _ _ (fun i => 1 <= i < j + 1)); [exact HL|lia|reflexivity|dl|].
    intros lft' HL'. rewrite (get_val U (k + j)) by lia. cbn [bind]. apply wp_bind. unfold updu at 1. numg.
    eapply (arrD_set _ _ _ (fun i => 1 <= i < j + 1)); [exact HR|lia|reflexivity|dl|].
    intros rgt' HR'. apply wp_bind.
    apply wp_for_up with (P := fun r '(m, saved) =>
      arr2D m (p + 1) (p + 1) (fun a b => (a < j /\ b < j) \/ (a = j /\ b < r) \/ (a < r /\ b = j)) (ndu_fn (val U) k t) /\
      saved = (sdiv (t - val U (k - j + r)%Z) (val U (k + r)%Z - val U (k - j + r)%Z) * NS (val U) k (j - 1) (k - j + r) t)%R).
    + lia.
    + split.
      * eapply arr2D_ext; [exact Hm|]. intros a b Hra Hrb HD. split; [lia|reflexivity].
      * rewrite NS_saved0 by lia. reflexivity.
    + intros r [m2 saved] Hr [H2 ->].
      rewrite (getu_D _ _ _ _ (r + 1) _ HR') by (try lia; reflexivity). cbn [bind].
      rewrite (getu_D _ _ _ _ (j - r) _ HL') by (try lia; reflexivity). cbn [bind]. numg.
      replace (k + (r + 1)) with (k + r + 1) by lia. replace (k + 1 - (j - r)) with (k + 1 - j + r) by lia.
      pose proof (good_den (val U) k p (k + 1 - j + r) (k + r + 1) Hg ltac:(lia) ltac:(lia) ltac:(lia) ltac:(lia)).
      apply wp_bind.
      assert (EJ : ndu_fn (val U) k t j r = (val U (k + r + 1)%Z - t + (t - val U (k + 1 - j + r)%Z))%R).
      { unfold ndu_fn. zcase; [lia|]. ring. }
      eapply (arr2D_set _ _ _ _ (fun a b => (a < j /\ b < j) \/ (a = j /\ b < r + 1) \/ (a < r /\ b = j)));
        [exact H2|lia|lia|symmetry; exact EJ|dl|].
      intros m3 H3.
      rewrite (arr2D_get _ _ _ _ _ r (j - 1) H3) by lia. cbn [bind].
      rewrite (arr2D_get _ _ _ _ _ j r H3) by lia. cbn [bind].
      assert (EX : ndu_fn (val U) k t r (j - 1) = NS (val U) k (j - 1) (k - j + 1 + r) t).
      { unfold ndu_fn. zcase; [|lia]. f_equal. lia. }
      rewrite EJ, EX.
      rewrite Rdiv_ok by lra. cbn [bind]. apply wp_bind.
      eapply (arr2D_set _ _ _ _ (fun a b => (a < j /\ b < j) \/ (a = j /\ b < r + 1) \/ (a < r + 1 /\ b = j)));
        [exact H3|lia|lia| |dl|].
      { unfold ndu_fn. zcase; [|lia]. eapply NS_step; [exact Hg|lia|lia]. }
      intros m4 H4. cbn [wp]. split; [exact H4|]. eapply NS_saved; [exact Hg|lia|lia].
    + intros [m2 saved] [H2 ->]. rewrite (NS_last (val U) k p j t Hg) by lia. apply wp_bind.
      eapply (arr2D_set _ _ _ _ (fun a b => a < j + 1 /\ b < j + 1)); [exact H2|lia|lia| |dl|].
      { unfold ndu_fn. zcase; [|lia]. do 2 f_equal; lia. }
      intros m3 H3. cbn [wp]. auto.
  - intros [[m lft] rgt] (Hm & _ & _). cbn [wp]. eapply arr2_of_D; [exact Hm|]. dl.
Qed.

Lemma AllBasisFunctions_ok (U : list R) p k t :
  span_ok U p k -> p <= 7 -> accepted U t ->
  wp (AllBasisFunctions k p U t) (fun m => arr2 m (p + 1) (p + 1) (ndu_fn (val U) k t)).
Proof.
  intros Hs Hp7 Ha. pose proof Hs as [Hp Hk Hlo Hhi Hk1 Hsort Hlt].
  unfold AllBasisFunctions, NURBSMaxDegree. wval. wval.
  rewrite check_knots_ok by (try assumption; lia). cbn [bind]. apply ndu_table_ok; assumption.
Qed.
