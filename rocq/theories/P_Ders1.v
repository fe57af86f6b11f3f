(* BasisFunctionsFirstOrderDerivative: the variant with raw arrays. *)
From Coq Require Import ZArith List Bool Reals Lra Lia.
From Verif Require Import Base Num Vec Tac Spec M_MathUtils M_Polynomials P_MathUtils P_Bern P_Span P_Cox P_Basis P_Deriv P_Ders.
Import ListNotations.
Open Scope Z_scope.

Lemma getu2_D {X} (m : list (list (option X))) r c D f i j v :
  arr2D m r c D f -> 0 <= i < r -> 0 <= j < c -> D i j -> f i j = Some v -> getu2 m i j = Ok v.
Proof.
  intros [_ H] Hi Hj Hd E. destruct (H i Hi) as (row & Hr & Ha). unfold getu2. rewrite Hr. cbn [bind].
  apply (getu_D _ _ _ _ _ _ Ha Hj Hd E).
Qed.

Lemma arr2D_uninit {X} r n (f : Z -> Z -> option X) : 0 <= r -> 0 <= n ->
  arr2D (repeat (@uninit X n) (Z.to_nat r)) r n (fun _ _ => False) f.
Proof.
  intros Hr Hn. split; [rewrite len_repeat; lia|]. intros i Hi. exists (uninit n).
  split; [apply (arr_get _ _ _ _ (arr_repeat _ r Hr) Hi)|]. split; [apply len_uninit; exact Hn|tauto].
Qed.

Lemma BasisFunctionsFirstOrderDerivative_ok (U : list R) p k t :
  span_ok U p k -> 1 <= p <= 7 -> accepted U t ->
  wp (BasisFunctionsFirstOrderDerivative k p U t)
     (fun m => arr2D m 2 8 (fun _ r => r <= p) (fun m r => Some (GN (val U) k p (k - p + r) m t))).
Proof.
  intros Hs Hp7 Ha. pose proof (span_good _ _ _ Hs) as Hg. pose proof Hs as [Hp Hk Hlo Hhi Hk1 Hsort Hlt].
  unfold BasisFunctionsFirstOrderDerivative, NMax1, NURBSMaxDegree. wval. wval. wval.
  rewrite check_knots_ok by (try assumption; lia). cbn [bind].
  change (7 + 1) with 8. change (repeat (@uninit R 8) 2) with (repeat (@uninit R 8) (Z.to_nat 2)).
  apply wp_bind. unfold updu2 at 1.
  eapply (arr2D_set _ 8 8 (fun _ _ => False) (fun a b => a < 1 /\ b < 1) (fun a b => Some (ndu_fn (val U) k t a b))).
  { apply arr2D_uninit; lia. }
  { lia. } { lia. }
  { unfold ndu_fn. zcase; [|lia]. rewrite NS_0. zcase; [reflexivity|lia]. }
  { intros; lia. }
  intros m1 H1. apply wp_bind.
  apply wp_for_up with (P := fun j '(m, lft, rgt) =>
    arr2D m 8 8 (fun a b => a < j /\ b < j) (fun a b => Some (ndu_fn (val U) k t a b)) /\
    arrD lft 8 (fun i => 1 <= i < j) (fun i => Some (t - val U (k + 1 - i)%Z)%R) /\
    arrD rgt 8 (fun i => 1 <= i < j) (fun i => Some (val U (k + i)%Z - t)%R)).
  { lia. }
  { split; [exact H1|]. split; (split; [apply len_uninit; lia|intros; lia]). }
  { intros j [[m lft] rgt] Hj (Hm & HL & HR).
    rewrite (get_val U (k + 1 - j)) by lia. cbn [bind]. apply wp_bind. unfold updu at 1. numg.
    eapply (arrD_set _ _ _ (fun i => 1 <= i < j + 1)); [exact HL|lia|reflexivity|dl|].
    intros lft' HL'. rewrite (get_val U (k + j)) by lia. cbn [bind]. apply wp_bind. unfold updu at 1. numg.
    eapply (arrD_set _ _ _ (fun i => 1 <= i < j + 1)); [exact HR|lia|reflexivity|dl|].
    intros rgt' HR'. apply wp_bind.
    apply wp_for_up with (P := fun r '(m, saved) =>
      arr2D m 8 8 (fun a b => (a < j /\ b < j) \/ (a = j /\ b < r) \/ (a < r /\ b = j)) (fun a b => Some (ndu_fn (val U) k t a b)) /\
      saved = (sdiv (t - val U (k - j + r)%Z) (val U (k + r)%Z - val U (k - j + r)%Z) * NS (val U) k (j - 1) (k - j + r) t)%R).
    + lia.
    + split.
      * eapply arr2D_ext; [exact Hm|]. intros a b Hra Hrb HD. split; [lia|reflexivity].
      * rewrite NS_saved0 by lia. reflexivity.
    + intros r [m2 saved] Hr [H2 ->].
      rewrite (getu_D _ _ _ _ (r + 1) _ HR') by (try lia; reflexivity). cbn [bind].
      rewrite (getu_D _ _ _ _ (j - r) _ HL') by (try lia; reflexivity). cbn [bind]. numg.
      replace (k + (r + 1)) with (k + r + 1) by lia. replace (k + 1 - (j - r)) with (k + 1 - j + r) by lia.
      pose proof (good_den (val U) k p (k + 1 - j + r) (k + r + 1) Hg ltac:(lia) ltac:(lia) ltac:(lia) ltac:(lia)).
      apply wp_bind. unfold updu2 at 1.
      assert (EJ : ndu_fn (val U) k t j r = (val U (k + r + 1)%Z - t + (t - val U (k + 1 - j + r)%Z))%R).
      { unfold ndu_fn. zcase; [lia|]. ring. }
      eapply (arr2D_set _ _ _ _ (fun a b => (a < j /\ b < j) \/ (a = j /\ b < r + 1) \/ (a < r /\ b = j)));
        [exact H2|lia|lia|cbv beta; rewrite EJ; reflexivity|dl|].
      intros m3 H3.
      rewrite (getu2_D _ _ _ _ _ r (j - 1) _ H3) by (try lia; reflexivity). cbn [bind].
      rewrite (getu2_D _ _ _ _ _ j r _ H3) by (try lia; reflexivity). cbn [bind].
      assert (EX : ndu_fn (val U) k t r (j - 1) = NS (val U) k (j - 1) (k - j + 1 + r) t).
      { unfold ndu_fn. zcase; [|lia]. f_equal. lia. }
      rewrite EJ, EX.
      rewrite Rdiv_ok by lra. cbn [bind]. apply wp_bind. unfold updu2 at 1.
      eapply (arr2D_set _ _ _ _ (fun a b => (a < j /\ b < j) \/ (a = j /\ b < r + 1) \/ (a < r + 1 /\ b = j)));
        [exact H3|lia|lia| |dl|].
      { unfold ndu_fn. zcase; [|lia]. f_equal. eapply NS_step; [exact Hg|lia|lia]. }
      intros m4 H4. cbn [wp]. split; [exact H4|]. eapply NS_saved; [exact Hg|lia|lia].
    + intros [m2 saved] [H2 ->]. rewrite (NS_last (val U) k p j t Hg) by lia. apply wp_bind. unfold updu2 at 1.
      eapply (arr2D_set _ _ _ _ (fun a b => a < j + 1 /\ b < j + 1)); [exact H2|lia|lia| |dl|].
      { unfold ndu_fn. zcase; [|lia]. do 3 f_equal; lia. }
      intros m3 H3. cbn [wp]. auto. }
  intros [[ndu lft] rgt] (Hndu & _ & _).
  set (F := fun m r => GS (val U) k p (k - p + r) m t).
  assert (F0 : forall r, F 0 r = NS (val U) k p (k - p + r) t).
  { intros r. pose proof (GN_0 (val U) k p (k - p + r) t) as G. unfold GN in G. cbn [Z.to_nat ffac] in G.
    unfold F. lra. }
  assert (ndu_lo : forall x y, 0 <= y < x -> x <= p -> getu2 ndu x y = Ok (val U (k + y + 1) - val U (k + 1 - x + y))%R).
  { intros x y Hy Hx. rewrite (getu2_D _ _ _ _ _ x y _ Hndu) by (try lia; reflexivity). f_equal. unfold ndu_fn. zcase; [lia|reflexivity]. }
  assert (ndu_up : forall x y, 0 <= x <= y -> y <= p -> getu2 ndu x y = Ok (NS (val U) k y (k - y + x) t)).
  { intros x y Hx Hy. rewrite (getu2_D _ _ _ _ _ x y _ Hndu) by (try lia; reflexivity). f_equal. unfold ndu_fn. zcase; [reflexivity|lia]. }
  apply wp_bind.
  apply wp_for_up with (P := fun j m => arr2D m 2 8 (fun a b => a = 0 /\ b < j) (fun a b => Some (F a b))).
  { lia. }
  { eapply arr2D_ext; [apply arr2D_uninit with (f := fun a b => Some (F a b)); lia|]. intros; lia. }
  { intros j m Hj Hm. rewrite ndu_up by lia. cbn [bind]. unfold updu2 at 1.
    eapply (arr2D_set _ _ _ _ (fun a b => a = 0 /\ b < j + 1)); [exact Hm|lia|lia| |dl|auto].
    cbv beta; rewrite F0. reflexivity. }
  intros m2 H2. apply wp_bind.
  apply wp_for_up with (P := fun r '(m, a) =>
    arr2D m 2 8 (fun x y => y <= p /\ (x = 0 \/ y < r)) (fun x y => Some (F x y)) /\
    arr2D a 2 8 (fun _ _ => False) (fun _ _ => Some 0%R)).
  { lia. }
  { split; [eapply arr2D_ext; [exact H2|]; dl|]. apply arr2D_uninit; lia. }
  { intros r [m a] Hr [Hm Ha1]. set (i := k - p + r).
    set (T := fun j => (al (val U) p i 1 j * NS (val U) k (p - 1) (i + j) t)%R).
    assert (ET : F 1 r = (T 0%Z + T 1%Z)%R).
    { unfold F, GS. fold i. change (1 + 1) with (0 + 1 + 1). rewrite rsum_last, rsum_one by lia. reflexivity. }
    assert (A0 : al (val U) p i 1 0 = inv0 (val U (i + p) - val U i)%R).
    { rewrite al_succ by lia. rewrite (al_out _ _ _ (1 - 1) (0 - 1)) by lia. change (1 - 1) with 0. rewrite al_0. cbn [Z.eqb].
      replace (i + p + 0 - 1 + 1) with (i + p) by lia. rewrite Z.add_0_r. ring. }
    assert (A1 : al (val U) p i 1 1 = (- inv0 (val U (i + p + 1)%Z - val U (i + 1)%Z))%R).
    { rewrite al_succ by lia. change (1 - 1) with 0. rewrite !al_0. cbn [Z.eqb].
      replace (i + p + 1 - 1 + 1) with (i + p + 1) by lia. ring. }
    apply wp_bind. unfold updu2 at 1.
    eapply (arr2D_set _ _ _ _ (fun row j => row = 0 /\ j = 0) (fun _ _ => Some 1%R)).
    { eapply arr2D_ext; [exact Ha1|]. cbv beta. intros ? ? _ _ F'. exact (False_ind _ F'). }
    { lia. } { lia. } { reflexivity. } { dl. }
    intros a2 Ha2. apply wp_bind.
    assert (W1 : wp (if 1 <=? r
      then
       let! x := getu2 a2 0 0 in
       let! y := getu2 ndu (p - 1 + 1) (r - 1) in
       let! q := ndiv x y in
       let! a0 := updu2 a2 1 0 q in let! z := getu2 ndu (r - 1) (p - 1) in Ok (a0, nmul q z)
      else Ok (a2, n0)) (fun '(a', d) => arr2D a' 2 8 (fun row j => row = 0 /\ j = 0) (fun _ _ => Some 1%R) /\ d = T 0)).
    { destruct (Z.leb_spec 1 r) as [C|C].
      - rewrite (getu2_D _ _ _ _ _ 0 0 _ Ha2) by (try lia; reflexivity). cbn [bind].
        rewrite ndu_lo by lia. cbn [bind]. numg.
        replace (k + (r - 1) + 1) with (i + p) by (unfold i; lia).
        replace (k + 1 - (p - 1 + 1) + (r - 1)) with i by (unfold i; lia).
        pose proof (good_den (val U) k p i (i + p) Hg ltac:(lia) ltac:(lia) ltac:(lia) ltac:(lia)).
        rewrite Rdiv_ok by lra. cbn [bind]. apply wp_bind. unfold updu2.
        apply (arr2D_upd _ _ _ _ _ _ _ _ _ Ha2); [lia|lia|]. intros a3 Ha3.
        rewrite ndu_up by lia. cbn [bind wp]. split.
        + eapply arr2D_ext; [exact Ha3|]. intros x y _ _ [-> ->]. split; [auto|reflexivity].
        + unfold T. rewrite A0, inv0_div by lra. rewrite Rmult_1_l. do 2 f_equal. unfold i; lia.
      - cbn [wp]. split; [exact Ha2|]. unfold T. rewrite NS_out by (unfold i; lia). rewrite Rmult_0_r. reflexivity. }
    eapply wp_mono; [exact W1|]. clear W1. intros [a3 d] [Ha3 ->].
    assert (EJ1 : (if -1 <=? r - 1 then 1 else - (r - 1)) = 1) by (zcase; lia).
    assert (EJ2 : (if r - 1 <=? p - 1 then 1 - 1 else p - r) + 1 = 1) by (zcase; lia).
    cbv zeta. rewrite EJ1, EJ2. rewrite for_up_nil by lia. cbn [bind].
    apply wp_bind.
    assert (W2 : wp (if r <=? p - 1 then
          let! x := getu2 a3 0 (1 - 1) in
          let! y := getu2 ndu (p - 1 + 1) r in
          let! q := ndiv (nopp x) y in
          let! a := updu2 a3 1 1 q in
          let! z := getu2 ndu r (p - 1) in
          Ok (a, nadd (T 0) (nmul q z))
        else Ok (a3, T 0)) (fun '(a', d) => arr2D a' 2 8 (fun _ _ => False) (fun _ _ => Some 0%R) /\ d = F 1 r)).
    { rewrite ET. destruct (Z.leb_spec r (p - 1)) as [C|C].
      - rewrite (getu2_D _ _ _ _ _ 0 (1 - 1) _ Ha3) by (try lia; reflexivity). cbn [bind].
        rewrite ndu_lo by lia. cbn [bind]. numg.
        replace (k + r + 1) with (i + p + 1) by (unfold i; lia).
        replace (k + 1 - (p - 1 + 1) + r) with (i + 1) by (unfold i; lia).
        pose proof (good_den (val U) k p (i + 1) (i + p + 1) Hg ltac:(lia) ltac:(lia) ltac:(lia) ltac:(lia)).
        rewrite Rdiv_ok by lra. cbn [bind]. apply wp_bind. unfold updu2.
        apply (arr2D_upd _ _ _ _ _ _ _ _ _ Ha3); [lia|lia|]. intros a4 Ha4.
        rewrite ndu_up by lia. cbn [bind wp]. split.
        + eapply arr2D_ext; [exact Ha4|]. tauto.
        + f_equal. unfold T. rewrite A1, inv0_div by lra. replace (k - (p - 1) + r) with (i + 1) by (unfold i; lia). ring.
      - cbn [wp]. split; [eapply arr2D_ext; [exact Ha3|]; tauto|]. unfold T at 3. rewrite (NS_out _ _ _ (i + 1)) by (unfold i; lia). ring. }
    eapply wp_mono; [exact W2|]. clear W2. intros [a4 d] [Ha4 ->]. apply wp_bind. unfold updu2.
    eapply (arr2D_set _ _ _ _ (fun x y => y <= p /\ (x = 0 \/ y < r + 1))); [exact Hm|lia|lia|reflexivity|dl|].
    intros m3 Hm3. cbn [wp]. auto. }
  intros [m3 a3] [Hm3 _].
  apply wp_for_up with (P := fun j m => arr2D m 2 8 (fun _ y => y <= p)
     (fun x y => Some (if (x =? 0) || (y <? j) then GN (val U) k p (k - p + y) x t else F x y))).
  { lia. }
  { eapply arr2D_ext; [exact Hm3|]. intros x y Hx Hy Hyp. cbv beta. split; [lia|].
    destruct (Z.eqb_spec x 0) as [->|]; cbn [orb]; [rewrite F0, GN_0; reflexivity|]. zcase; [lia|reflexivity]. }
  { intros j m Hj Hm. rewrite (getu2_D _ _ _ _ _ 1 j (F 1 j) Hm) by (try lia; zcase; first [lia|reflexivity]). cbn [bind].
    unfold updu2. apply (arr2D_upd _ _ _ _ _ _ _ _ _ Hm); [lia|lia|]. intros m4 Hm4.
    eapply arr2D_ext; [exact Hm4|]. intros x y Hx Hy HD. cbv beta. split; [auto|].
    destruct (Z.eqb_spec x 1) as [->|]; [destruct (Z.eqb_spec y j) as [->|]|].
    + zcase; try lia. f_equal. unfold GN. change (ffac p (Z.to_nat 1)) with (1 * (p - 0)).
      replace (1 * (p - 0)) with p by lia. numg. unfold F. ring.
    + zcase; try lia; reflexivity.
    + assert (x = 0) as -> by lia. reflexivity. }
  intros m Hm. eapply arr2D_ext; [exact Hm|]. intros x y Hx Hy HD. cbv beta. split; [exact HD|].
  zcase; try reflexivity; lia.
Qed.
