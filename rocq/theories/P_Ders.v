(* BasisFunctionsDerivatives computes the derivatives of the span polynomials. *)
From Coq Require Import ZArith List Bool Reals Lra Lia.
From Verif Require Import Base Num Vec Tac Spec M_MathUtils M_Polynomials P_MathUtils P_Bern P_Span P_Cox P_Basis P_Deriv.
Import ListNotations.
Open Scope Z_scope.

Lemma inv0_div x y : y <> 0%R -> (x / y = x * inv0 y)%R.
Proof. intros H. rewrite <- sdiv_ok by exact H. apply sdiv_inv0. Qed.

Section Step.
Context (U : Z -> R) (p s r : Z) (t : R).
Hypothesis Hg : good U s p.
Hypothesis Hr : 0 <= r <= p.
Let i := s - p + r.
Let T m j := (al U p i m j * NS U s (p - m) (i + j) t)%R.

(* entries of the coefficient rows that are used *)
Let J m j := 0 <= j <= m /\ m - r <= j <= p - r.

Lemma T_out m j : 0 <= m <= p -> 0 <= j <= m -> ~ J m j -> T m j = 0%R.
Proof. intros Hm Hj HJ. unfold T, J in *. rewrite NS_out by lia. ring. Qed.

Lemma T_zero m lo hi : 0 <= m <= p -> 0 <= lo -> hi <= m + 1 -> (forall j, lo <= j < hi -> ~ J m j) ->
  rsum lo hi (T m) = 0%R.
Proof.
  intros Hm Hlo Hhi HJ. apply rsum_zero. intros j Hj. apply T_out; [lia|lia|apply HJ; lia].
Qed.

Lemma den m j : 0 < m <= p -> J m j -> (U (i + p + j - m + 1)%Z - U (i + j)%Z <> 0)%R.
Proof.
  intros Hm HJ. unfold J in HJ.
  assert (U (i + j)%Z < U (i + p + j - m + 1)%Z)%R; [|lra].
  eapply good_den; [exact Hg| | | |]; unfold i; lia.
Qed.

Lemma ders_step_ok (ndu derivatives a : list (list R)) k s1 s2 d (Dd : Z -> Z -> Prop) fd
  (Q : list (list R) * list (list R) * Z * Z -> Prop) :
  arr2 ndu (p + 1) (p + 1) (ndu_fn U s t) ->
  arr2D derivatives (d + 1) (p + 1) Dd fd ->
  1 <= k <= d -> d <= p -> 0 <= s1 <= 1 -> s2 = 1 - s1 ->
  arr2D a 2 (p + 1) (fun row j => row = s1 /\ J (k - 1) j) (fun _ j => al U p i (k - 1) j) ->
  fd k r = GS U s p i k t ->
  (forall derivatives' a',
     arr2D derivatives' (d + 1) (p + 1) (fun x y => (x = k /\ y = r) \/ Dd x y) fd ->
     arr2D a' 2 (p + 1) (fun row j => row = s2 /\ J k j) (fun _ j => al U p i k j) ->
     Q (derivatives', a', s2, s1)) ->
  wp (ders_step p r ndu k (derivatives, a, s1, s2)) Q.
Proof.
  intros Hndu Hder Hk Hd Hs1 -> Ha Hfd HQ.
  set (F := fun row j => if row =? s1 then al U p i (k - 1) j else al U p i k j).
  assert (ndu_lo : forall x y, 0 <= y < x -> x <= p -> get2 ndu x y = Ok (U (s + y + 1) - U (s + 1 - x + y))%R).
  { intros x y Hy Hx. rewrite (arr2_get _ _ _ _ _ _ Hndu) by lia. f_equal. unfold ndu_fn. zcase; [lia|reflexivity]. }
  assert (ndu_up : forall x y, 0 <= x <= y -> y <= p -> get2 ndu x y = Ok (NS U s y (s - y + x) t)).
  { intros x y Hx Hy. rewrite (arr2_get _ _ _ _ _ _ Hndu) by lia. f_equal. unfold ndu_fn. zcase; [reflexivity|lia]. }
  assert (Ha0 : arr2D a 2 (p + 1) (fun row j => row = s1 /\ J (k - 1) j) F).
  { eapply arr2D_ext; [exact Ha|]. intros row j _ _ [-> HJ]. split; [auto|]. unfold F. rewrite Z.eqb_refl. reflexivity. }
  unfold ders_step. apply wp_bind.
  (* j = 0 *)
  assert (W1 : forall (K : list (list R) * R -> Prop),
     (forall a', arr2D a' 2 (p + 1) (fun row j => (row = s1 /\ J (k - 1) j) \/ (row = 1 - s1 /\ J k j /\ j < 1)) F ->
        K (a', rsum 0 1 (T k))) ->
     wp (if k <=? r then
      let! x := get2 a s1 0 in
      let! y := get2 ndu (p - k + 1) (r - k) in
      let! q := ndiv x y in
      let! a := upd2 a (1 - s1) 0 q in
      let! z := get2 ndu (r - k) (p - k) in
      Ok (a, nmul q z)
    else Ok (a, n0)) K).
  { intros K HK. change 1 with (0 + 1) in HK. rewrite rsum_one in HK. change (0 + 1) with 1 in HK.
    destruct (Z.leb_spec k r) as [C|C].
    - assert (J0 : J k 0) by (unfold J; lia).
      rewrite (arr2D_get _ _ _ _ _ s1 0 Ha0) by (unfold J; lia). cbn [bind].
      rewrite ndu_lo by lia. cbn [bind]. numg.
      pose proof (den k 0 ltac:(lia) J0) as D.
      replace (s + (r - k) + 1) with (i + p + 0 - k + 1) by (unfold i; lia).
      replace (s + 1 - (p - k + 1) + (r - k)) with (i + 0) by (unfold i; lia).
      assert (E : (F s1 0%Z / (U (i + p + 0 - k + 1) - U (i + 0)) = al U p i k 0)%R).
      { rewrite inv0_div by exact D. rewrite (al_succ U p i k) by lia. unfold F. rewrite Z.eqb_refl.
        rewrite (al_out U p i (k - 1) (0 - 1)) by lia. ring. }
      rewrite Rdiv_ok by exact D. cbn [bind]. rewrite E. apply wp_bind.
      eapply (arr2D_set _ _ _ _ (fun row j => (row = s1 /\ J (k - 1) j) \/ (row = 1 - s1 /\ J k j /\ j < 1))); [exact Ha0|lia|lia| |unfold J; dl|].
      { unfold F. zcase; [lia|reflexivity]. }
      intros a' Ha'. rewrite ndu_up by lia. cbn [bind wp].
      replace (al U p i k 0 * NS U s (p - k) (s - (p - k) + (r - k)) t)%R with (T k 0).
      { apply HK. exact Ha'. }
      unfold T. do 2 f_equal. unfold i. lia.
    - cbn [wp]. replace n0 with (T k 0).
      2:{ rewrite T_out by (unfold J; lia). reflexivity. }
      apply HK. eapply arr2D_ext; [exact Ha0|]. unfold J. intros; split; [lia|reflexivity]. }
  apply W1. clear W1. intros a1 Ha1.
  (* middle loop *)
  set (j1 := if -1 <=? r - k then 1 else - (r - k)).
  set (j2 := if r - 1 <=? p - k then k - 1 else p - r).
  assert (Hj : 1 <= j1 /\ j1 <= j2 + 1 /\ j2 < k /\ (forall j, j1 <= j <= j2 -> J k j) /\
    (forall j, 1 <= j < j1 -> ~ J k j) /\ (forall j, j2 < j < k -> ~ J k j)).
  { unfold j1, j2, J. zcase; repeat split; try lia; intros; lia. }
  destruct Hj as (Hj1 & Hj12 & Hj2 & HJ & HJ1 & HJ2). clearbody j1 j2.
  apply wp_bind.
  apply wp_for_up with (P := fun j '(a, dd) =>
    arr2D a 2 (p + 1) (fun row j' => (row = s1 /\ J (k - 1) j') \/ (row = 1 - s1 /\ J k j' /\ j' < j)) F /\
    dd = rsum 0 j (T k)).
  - lia.
  - split.
    + eapply arr2D_ext; [exact Ha1|]. intros row j' Hrow Hj' Hd'. split; [|reflexivity].
      destruct Hd' as [Hd'|(E & HJ' & Hl)]; [left; exact Hd'|right]. split; [exact E|]. split; [exact HJ'|].
      destruct (Z_lt_dec j' 1); [lia|]. exfalso. apply (HJ1 j'); [lia|exact HJ'].
    + rewrite (rsum_split 0 1 j1) by lia. rewrite (T_zero k 1 j1) by (try lia; intros; apply HJ1; lia). ring.
  - intros j [a2 dd] Hj [Ha2 ->]. assert (JJ : J k j) by (apply HJ; lia).
    rewrite (arr2D_get _ _ _ _ _ s1 j Ha2) by (unfold J in *; lia). cbn [bind].
    rewrite (arr2D_get _ _ _ _ _ s1 (j - 1) Ha2) by (unfold J in *; lia). cbn [bind].
    rewrite ndu_lo by (unfold J in *; lia). cbn [bind]. numg.
    pose proof (den k j ltac:(lia) JJ) as D.
    replace (s + (r - k + j) + 1) with (i + p + j - k + 1) by (unfold i; lia).
    replace (s + 1 - (p - k + 1) + (r - k + j)) with (i + j) by (unfold i; lia).
    assert (E : ((F s1 j - F s1 (j - 1)%Z) / (U (i + p + j - k + 1) - U (i + j)) = al U p i k j)%R).
    { rewrite inv0_div by exact D. rewrite (al_succ U p i k) by lia. unfold F. rewrite Z.eqb_refl. ring. }
    rewrite Rdiv_ok by exact D. cbn [bind]. rewrite E. apply wp_bind.
    eapply (arr2D_set _ _ _ _ (fun row j' => (row = s1 /\ J (k - 1) j') \/ (row = 1 - s1 /\ J k j' /\ j' < j + 1))); [exact Ha2|lia|unfold J in *; lia| |unfold J; dl|].
    { unfold F. zcase; [lia|reflexivity]. }
    intros a' Ha'. rewrite ndu_up by (unfold J in *; lia). cbn [bind wp]. split; [exact Ha'|].
    rewrite rsum_last by lia. f_equal. unfold T. do 2 f_equal. unfold i. lia.
  - intros [a2 dd] [Ha2 ->]. apply wp_bind.
    assert (Hsum : rsum 0 (j2 + 1) (T k) = rsum 0 k (T k)).
    { rewrite (rsum_split 0 (j2 + 1) k) by lia. rewrite (T_zero k (j2 + 1) k) by (try lia; intros; apply HJ2; lia). ring. }
    rewrite Hsum.
    assert (Ha3 : arr2D a2 2 (p + 1) (fun row j' => (row = s1 /\ J (k - 1) j') \/ (row = 1 - s1 /\ J k j' /\ j' < k)) F).
    { eapply arr2D_ext; [exact Ha2|]. intros row j' Hrow Hj' Hd'. split; [|reflexivity].
      destruct Hd' as [Hd'|(E & HJ' & Hl)]; [left; exact Hd'|right]. split; [exact E|]. split; [exact HJ'|].
      destruct (Z_lt_dec j' (j2 + 1)); [lia|]. exfalso. apply (HJ2 j'); [lia|exact HJ']. }
    (* j = k *)
    assert (W3 : forall (K : list (list R) * R -> Prop),
       (forall a', arr2D a' 2 (p + 1) (fun row j => row = 1 - s1 /\ J k j) F -> K (a', rsum 0 (k + 1) (T k))) ->
       wp (if r <=? p - k then
        let! x := get2 a2 s1 (k - 1) in
        let! y := get2 ndu (p - k + 1) r in
        let! q := ndiv (nopp x) y in
        let! a := upd2 a2 (1 - s1) k q in
        let! z := get2 ndu r (p - k) in
        Ok (a, nadd (rsum 0 k (T k)) (nmul q z))
      else Ok (a2, rsum 0 k (T k))) K).
    { intros K HK. rewrite rsum_last in HK by lia. destruct (Z.leb_spec r (p - k)) as [C|C].
      - assert (Jk : J k k) by (unfold J; lia).
        rewrite (arr2D_get _ _ _ _ _ s1 (k - 1) Ha3) by (unfold J; lia). cbn [bind].
        rewrite ndu_lo by lia. cbn [bind]. numg.
        pose proof (den k k ltac:(lia) Jk) as D.
        replace (s + r + 1) with (i + p + k - k + 1) by (unfold i; lia).
        replace (s + 1 - (p - k + 1) + r) with (i + k) by (unfold i; lia).
        assert (E : (- F s1 (k - 1)%Z / (U (i + p + k - k + 1)%Z - U (i + k)%Z) = al U p i k k)%R).
        { rewrite inv0_div by exact D. rewrite (al_succ U p i k k) by lia. unfold F. rewrite Z.eqb_refl.
          rewrite (al_out U p i (k - 1) k) by lia. ring. }
        rewrite Rdiv_ok by exact D. cbn [bind]. rewrite E. apply wp_bind.
        eapply (arr2D_set _ _ _ _ (fun row j' => row = 1 - s1 /\ J k j')); [exact Ha3|lia|lia| | |].
        { unfold F. zcase; [lia|reflexivity]. }
        { intros row b _ _ [E1 HJ']. destruct (Z.eq_dec b k); [left; auto|right; right]. split; [auto|]. split; [exact HJ'|].
          unfold J in HJ'. lia. }
        intros a' Ha'. rewrite ndu_up by lia. cbn [bind wp].
        replace (al U p i k k * NS U s (p - k) (s - (p - k) + r) t)%R with (T k k).
        { apply HK. exact Ha'. }
        unfold T. do 2 f_equal. unfold i. lia.
      - cbn [wp]. replace (rsum 0 k (T k)) with (rsum 0 k (T k) + T k k)%R.
        2:{ rewrite (T_out k k) by (unfold J; lia). ring. }
        apply HK. eapply arr2D_ext; [exact Ha3|]. intros row b _ _ [E1 HJ']. split; [|reflexivity].
        right. split; [exact E1|]. split; [exact HJ'|]. unfold J in HJ'. lia. }
    apply W3. clear W3. intros a3 Ha4. apply wp_bind.
    eapply (arr2D_set _ _ _ _ (fun x y => (x = k /\ y = r) \/ Dd x y)); [exact Hder|lia|lia| |tauto|].
    { rewrite Hfd. reflexivity. }
    intros der' Hder'. cbn [wp]. apply HQ; [exact Hder'|].
    eapply arr2D_ext; [exact Ha4|]. intros row j _ _ [-> HJ']. split; [auto|]. unfold F. zcase; [lia|reflexivity].
Qed.
End Step.

Lemma BasisFunctionsDerivatives_ok (U : list R) p k d t :
  span_ok U p k -> p <= 7 -> 0 <= d <= p -> accepted U t ->
  wp (BasisFunctionsDerivatives k p d U t) (fun m => arr2 m (d + 1) (p + 1) (fun m r => GN (val U) k p (k - p + r) m t)).
Proof.
  intros Hs Hp7 Hd Ha. pose proof (span_good _ _ _ Hs) as Hg. pose proof Hs as [Hp Hk Hlo Hhi Hk1 Hsort Hlt].
  unfold BasisFunctionsDerivatives, NURBSMaxDegree. wval. wval. wval.
  rewrite check_knots_ok by (try assumption; lia). cbn [bind].
  apply wp_bind, wp_mkvec; [lia|]. intros drow Hdrow.
  apply wp_bind. apply (wp_mkvec2 n0 (d + 1) (p + 1) drow); [lia|exact Hdrow|]. intros m0 H0.
  apply wp_bind. eapply wp_mono; [apply (ndu_table_ok U p k t Hs Hp7)|]. intros ndu Hndu. cbv beta.
  set (F := fun m r => GS (val U) k p (k - p + r) m t).
  assert (F0 : forall r, F 0 r = NS (val U) k p (k - p + r) t).
  { intros r. pose proof (GN_0 (val U) k p (k - p + r) t) as G. unfold GN in G. cbn [Z.to_nat ffac] in G.
    unfold F. lra. }
  apply wp_bind.
  apply wp_for_up with (P := fun j m => arr2D m (d + 1) (p + 1) (fun a b => a = 0 /\ b < j) F).
  { lia. }
  { eapply arr2D_ext; [apply (arr2_D _ _ _ (fun _ _ => True)); exact H0|]. intros; lia. }
  { intros j m Hj Hm. rewrite (arr2_get _ _ _ _ _ _ Hndu) by lia. cbn [bind].
    eapply (arr2D_set _ _ _ _ (fun a b => a = 0 /\ b < j + 1)); [exact Hm|lia|lia| |dl|auto].
    rewrite F0. unfold ndu_fn. zcase; [reflexivity|lia]. }
  intros m1 H1. apply wp_bind, wp_mkvec; [lia|]. intros arow Harow.
  apply wp_bind. apply (wp_mkvec2 n0 2 (p + 1) arow); [lia|exact Harow|]. intros a0 Ha0.
  apply wp_bind.
  apply wp_for_up with (P := fun r '(m, a) =>
    arr2D m (d + 1) (p + 1) (fun x y => x = 0 \/ y < r) F /\
    arr2D a 2 (p + 1) (fun _ _ => False) (fun _ _ => 0%R)).
  { lia. }
  { split; [eapply arr2D_ext; [exact H1|]; dl|].
    eapply arr2D_ext; [apply (arr2_D _ _ _ (fun _ _ => True)); exact Ha0|]. tauto. }
  { intros r [m a] Hr [Hm Ha1]. apply wp_bind.
    eapply (arr2D_set _ _ _ _ (fun row j => row = 0 /\ j = 0) (fun _ j => al (val U) p (k - p + r) 0 j)).
    { eapply arr2D_ext; [exact Ha1|]. cbv beta. intros i j _ _ F'. exact (False_ind _ F'). }
    { lia. } { lia. } { reflexivity. } { dl. }
    intros a2 Ha2. apply wp_bind.
    apply wp_for_up with (P := fun q '(m, a, s1, s2) =>
      arr2D m (d + 1) (p + 1) (fun x y => x = 0 \/ y < r \/ (y = r /\ x < q)) F /\
      0 <= s1 <= 1 /\ s2 = 1 - s1 /\
      arr2D a 2 (p + 1) (fun row j => row = s1 /\ (0 <= j <= q - 1 /\ (q - 1) - r <= j <= p - r)) (fun _ j => al (val U) p (k - p + r) (q - 1) j)).
    { lia. }
    { split; [eapply arr2D_ext; [exact Hm|]; dl|]. split; [lia|]. split; [lia|].
      eapply arr2D_ext; [exact Ha2|]. dl. }
    { intros q [[[m3 a3] s1] s2] Hq (Hm3 & Hs1 & -> & Ha3).
      eapply (ders_step_ok (val U) p k r t Hg ltac:(lia) ndu m3 a3 q s1 (1 - s1) d _ F); [exact Hndu|exact Hm3|lia|lia|lia|reflexivity|exact Ha3|reflexivity|].
      intros m4 a4 Hm4 Ha4. cbv beta iota. split; [eapply arr2D_ext; [exact Hm4|]; dl|]. split; [lia|]. split; [lia|].
      replace (q + 1 - 1) with q by lia. exact Ha4. }
    intros [[[m3 a3] s1] s2] (Hm3 & _ & _ & Ha3). cbn [wp]. split.
    { eapply arr2D_ext; [exact Hm3|]. dl. }
    eapply arr2D_ext; [exact Ha3|]. cbv beta. intros i j _ _ F'. exact (False_ind _ F'). }
  intros [m2 a2] [H2 _]. apply wp_bind.
  apply wp_for_up with (P := fun q '(m, f) =>
    arr2D m (d + 1) (p + 1) (fun _ _ => True) (fun x y => if x <? q then (IZR (ffac p (Z.to_nat x)) * F x y)%R else F x y) /\
    f = ffac p (Z.to_nat q)).
  { lia. }
  { split.
    - eapply arr2D_ext; [exact H2|]. intros x y Hx Hy _. split; [dl|]. destruct (Z.ltb_spec x 1); [|reflexivity].
      assert (x = 0) as -> by lia. cbn [Z.to_nat ffac]. ring.
    - change (ffac p (Z.to_nat 1)) with (1 * (p - 0)). lia. }
  { intros q [m f] Hq [Hm ->]. apply wp_bind.
    apply wp_for_up with (P := fun j m => arr2D m (d + 1) (p + 1) (fun _ _ => True)
      (fun x y => if (x <? q) || ((x =? q) && (y <? j)) then (IZR (ffac p (Z.to_nat x)) * F x y)%R else F x y)).
    - lia.
    - eapply arr2D_ext; [exact Hm|]. intros x y Hx Hy _. split; [exact I|]. zcase; try reflexivity; lia.
    - intros j m3 Hj Hm3. rewrite (arr2D_get _ _ _ _ _ q j Hm3) by (try lia; exact I). cbn [bind].
      apply (arr2D_upd _ _ _ _ _ _ _ _ _ Hm3); [lia|lia|]. intros m4 Hm4.
      eapply arr2D_ext; [exact Hm4|]. intros x y Hx Hy _. cbv beta. split; [auto|].
      destruct (Z.eqb_spec x q) as [->|]; [destruct (Z.eqb_spec y j) as [->|]|].
      + zcase; try lia. numg. ring.
      + zcase; try lia; reflexivity.
      + zcase; try lia; reflexivity.
    - intros m3 Hm3. cbn [wp]. split.
      + eapply arr2D_ext; [exact Hm3|]. intros x y Hx Hy _. split; [exact I|]. zcase; try reflexivity; lia.
      + replace (Z.to_nat (q + 1)) with (S (Z.to_nat q)) by lia. cbn [ffac]. f_equal. lia. }
  intros [m3 f] [Hm3 _]. cbn [wp]. eapply arr2_ext; [eapply arr2_of_D; [exact Hm3|tauto]|].
  intros x y Hx Hy. cbv beta. zcase; [|lia]. reflexivity.
Qed.
