(* Proofs about M_Knots: evenly inserted knots, uniform knot vectors, clamping. *)
From Coq Require Import ZArith List Bool Reals Lra Lia Permutation.
From Verif Require Import Base Num Vec Tac Spec Spec2 Spec4 M_MathUtils M_Polynomials M_NurbsCurve M_Knots
  P_MathUtils P_Curve P_Insert P_KnotMap.
Import ListNotations.
Open Scope Z_scope.

Lemma get_val (l : list R) i : 0 <= i < len l -> get l i = Ok (val l i).
Proof. apply get_at. Qed.
Lemma val_in (l : list R) i : 0 <= i < len l -> In (val l i) l.
Proof. intros H. unfold val, at_. apply nth_In. unfold len in H. lia. Qed.
Lemma in_val (l : list R) x : In x l -> exists i, 0 <= i < len l /\ val l i = x.
Proof.
  intros H. destruct (In_nth _ _ 0%R H) as (i & Hi & <-). exists (Z.of_nat i). unfold len. split; [lia|].
  unfold val, at_. rewrite Nat2Z.id. reflexivity.
Qed.

Lemma increasing_sorted l : increasing l -> sorted l.
Proof. intros H i j Hi Hij Hj. destruct (Z.eq_dec i j) as [->|]; [lra|]. left. apply H; lia. Qed.
Lemma sorted_nodup_increasing l : sorted l -> NoDup l -> increasing l.
Proof.
  intros Hs Hn i j Hi Hij Hj. destruct (Rle_lt_or_eq_dec _ _ (Hs i j Hi ltac:(lia) Hj)) as [C|C]; [exact C|]. exfalso.
  unfold val, at_ in C. unfold len in Hj. apply (proj1 (NoDup_nth l 0%R) Hn) in C; lia.
Qed.
Lemma increasing_nodup l : increasing l -> NoDup l.
Proof.
  intros H. apply (NoDup_nth l 0%R). intros i j Hi Hj E.
  destruct (Nat.lt_trichotomy i j) as [C|[C|C]]; [|exact C|]; exfalso.
  - pose proof (H (Z.of_nat i) (Z.of_nat j) ltac:(lia) ltac:(lia) ltac:(unfold len; lia)) as G. unfold val, at_ in G. rewrite !Nat2Z.id in G. lra.
  - pose proof (H (Z.of_nat j) (Z.of_nat i) ltac:(lia) ltac:(lia) ltac:(unfold len; lia)) as G. unfold val, at_ in G. rewrite !Nat2Z.id in G. lra.
Qed.

(* ---------------- std::unique ---------------- *)
Lemma std_unique_in (l : list R) x : In x (std_unique l) <-> In x l.
Proof.
  induction l as [|y l IH]; [reflexivity|]. cbn [std_unique]. destruct (std_unique l) as [|z r].
  - cbn [In] in *. tauto.
  - num. destruct (Reqb_spec y z) as [->|N0]; cbn [In] in *; tauto.
Qed.
Lemma std_unique_inc (l : list R) : sorted l -> sorted (std_unique l) /\ NoDup (std_unique l).
Proof.
  induction l as [|y l IH]; intros H; [split; [exact H|constructor]|]. apply sorted_cons_iff in H. destruct H as [H1 H2].
  destruct (IH H2) as [I1 I2]. cbn [std_unique]. pose proof (std_unique_in l) as J. destruct (std_unique l) as [|z r].
  - split; [apply sorted_one|]. constructor; [intros []|constructor].
  - num. destruct (Reqb_spec y z) as [->|N0]; [split; assumption|]. split.
    + apply sorted_cons_iff. split; [|exact I1]. intros w Hw. apply H1, J. exact Hw.
    + constructor; [|exact I2]. intros Hy. apply sorted_cons_iff in I1. destruct I1 as [K1 K2].
      pose proof (H1 z (proj1 (J z) (or_introl eq_refl))). destruct Hy as [->|Hy]; [tauto|]. specialize (K1 y Hy). apply N0. lra.
Qed.

(* ---------------- InsertMidKnotCore ---------------- *)
Record inserting (a b : R) (l : list R) : Prop := {
  in_sorted : sorted l;
  in_nodup : NoDup l;
  in_a : In a l;
  in_b : In b l;
  in_range : forall x, In x l -> (a <= x <= b)%R }.

Lemma inserting_ends a b l : inserting a b l -> val l 0 = a /\ val l (len l - 1) = b.
Proof.
  intros [Hs Hn Ha Hb Hr]. assert (L : 0 < len l) by (destruct l; [destruct Ha|rewrite len_cons; pose proof (len_nonneg l); lia]).
  destruct (in_val _ _ Ha) as (i & Hi & Ei), (in_val _ _ Hb) as (j & Hj & Ej). split.
  - pose proof (Hs 0 i ltac:(lia) ltac:(lia) ltac:(lia)). pose proof (Hr _ (val_in l 0 ltac:(lia))). lra.
  - pose proof (Hs j (len l - 1) ltac:(lia) ltac:(lia) ltac:(lia)). pose proof (Hr _ (val_in l (len l - 1) ltac:(lia))). lra.
Qed.

Definition passes (d : R) : Prop := (thr eps d eps < d - eps)%R.
Lemma passes_wide d : (3 / 1000000 <= d)%R -> passes d.
Proof.
  intros H. unfold passes, thr, eps. rewrite !Rabs_right by lra. unfold Rmax. destruct (Rle_dec d (1 / 1000000)); lra.
Qed.
Lemma passes_pos d x : (0 <= x)%R -> (thr eps d x < d - x)%R -> (0 < d)%R.
Proof. intros Hx H. pose proof (thr_eps_nonneg d x). lra. Qed.

Lemma gap_loop (l : list R) : 1 <= len l ->
  wp (for_up 0 (len l - 1) (DoubleEpsilon, -1) (fun i '(standard, index) =>
          let! b := get l (i + 1) in
          let! a := get l i in
          let delta := nsub b a in
          Ok (if IsGreaterThan delta standard then (delta, i) else (standard, index))))
     (fun '(standard, index) =>
        (index = -1 /\ forall j, 0 <= j < len l - 1 -> ~ passes (val l (j + 1)%Z - val l j)%R) \/
        (0 <= index < len l - 1 /\ (standard = val l (index + 1)%Z - val l index /\ 0 < standard)%R)).
Proof.
  intros Hl. eapply wp_for_up with (P := fun i '(standard, index) =>
     (index = -1 /\ standard = eps /\ forall j, 0 <= j < i -> ~ passes (val l (j + 1)%Z - val l j)%R) \/
        (0 <= index < i /\ (standard = val l (index + 1)%Z - val l index /\ 0 < standard)%R)).
  - lia.
  - left. split; [reflexivity|]. split; [reflexivity|]. intros j Hj. lia.
  - intros i [st ix] Hi H. rewrite !get_val by lia. cbn [bind wp]. num.
    destruct (IsGreaterThan (val l (i + 1) - val l i)%R st) eqn:E.
    + right. split; [lia|]. split; [reflexivity|]. apply gt_iff in E. eapply passes_pos; [|exact E].
      destruct H as [(_ & -> & _)|(_ & _ & H)]; [unfold eps; lra|lra].
    + destruct H as [(H1 & H2 & H3)|(H1 & H2)].
      * left. split; [exact H1|]. split; [exact H2|]. intros j Hj. destruct (Z.eq_dec j i) as [->|]; [|apply H3; lia].
        intros P0. unfold passes in P0. subst st. apply gt_iff in P0. congruence.
      * right. split; [lia|exact H2].
  - intros [st ix] [(H1 & H2 & H3)|(H1 & H2 & H3)]; [left; split; [exact H1|exact H3]|right; split; [exact H1|split; assumption]].
Qed.

Lemma gaps_sum (l : list R) d : (forall j, 0 <= j < len l - 1 -> (val l (j + 1) - val l j <= d)%R) ->
  forall n, 0 <= Z.of_nat n < len l -> (val l (Z.of_nat n) - val l 0 <= INR n * d)%R.
Proof.
  intros H n. induction n as [|n IH]; intros Hn; [cbn [INR]; change (Z.of_nat 0) with 0; lra|].
  specialize (IH ltac:(lia)). specialize (H (Z.of_nat n) ltac:(lia)). rewrite S_INR. replace (Z.of_nat (S n)) with (Z.of_nat n + 1) by lia. lra.
Qed.

Lemma mid_step a b l i c : inserting a b l -> 0 <= i < len l - 1 -> (val l i < c < val l (i + 1))%R ->
  inserting a b (std_sort (l ++ [c])) /\ len (std_sort (l ++ [c])) = len l + 1 /\ ~ In c l /\ (a < c < b)%R.
Proof.
  intros H Hi Hc. destruct (inserting_ends _ _ _ H) as [E1 E2]. destruct H as [Hs Hn Ha Hb Hr].
  assert (Nin : ~ In c l).
  { intros Hin. destruct (in_val _ _ Hin) as (j & Hj & <-). destruct (Z.le_gt_cases j i) as [C|C].
    - pose proof (Hs j i ltac:(lia) ltac:(lia) ltac:(lia)). lra.
    - pose proof (Hs (i + 1) j ltac:(lia) ltac:(lia) ltac:(lia)). lra. }
  assert (Rc : (a < c < b)%R).
  { pose proof (Hs 0 i ltac:(lia) ltac:(lia) ltac:(lia)). pose proof (Hs (i + 1) (len l - 1) ltac:(lia) ltac:(lia) ltac:(lia)). lra. }
  pose proof (std_sort_perm (l ++ [c])) as Hp.
  assert (Hin : forall x, In x (std_sort (l ++ [c])) <-> In x l \/ x = c).
  { intros x. split.
    - intros Hx. apply (Permutation_in _ Hp) in Hx. apply in_app_or in Hx. destruct Hx as [Hx|[Hx|[]]]; auto.
    - intros Hx. apply (Permutation_in _ (Permutation_sym Hp)). apply in_or_app. destruct Hx as [Hx| ->]; [left; exact Hx|right; left; reflexivity]. }
  split; [|split; [|split; assumption]].
  - constructor.
    + apply std_sort_is_sorted.
    + apply (Permutation_NoDup (Permutation_sym Hp)). apply NoDup_rev in Hn. rewrite <- (rev_involutive (l ++ [c])). apply NoDup_rev. rewrite rev_app_distr.
      cbn. constructor; [|exact Hn]. rewrite <- in_rev. exact Nin.
    + apply Hin. auto.
    + apply Hin. auto.
    + intros x Hx. apply Hin in Hx. destruct Hx as [Hx| ->]; [auto|lra].
  - unfold len. rewrite (Permutation_length Hp), app_length. cbn. lia.
Qed.

Lemma core_ok a b (U : list R) n : forall fuel (l ins : list R), (a < b)%R -> inserting a b l -> len ins + Z.of_nat fuel = n ->
  NoDup ins -> (forall x, In x ins -> In x l /\ ~ In x U /\ a < x < b)%R -> (forall x, In x U -> In x l) ->
  (3 / 1000000 * IZR (len l + n - len ins) <= b - a)%R ->
  returns (InsertMidKnotCore fuel l ins n) (fun e => len e = n /\ NoDup e /\ forall x, In x e -> (~ In x U /\ a < x < b)%R).
Proof.
  induction fuel as [|fuel IH]; intros l ins Hab Hl Hn Hd Hin HU Hw.
  - exists ins. cbn [InsertMidKnotCore]. destruct (Z.eqb_spec (len ins) n); [|lia]. split; [reflexivity|].
    split; [lia|]. split; [exact Hd|]. intros x Hx. apply Hin in Hx. tauto.
  - cbn [InsertMidKnotCore]. destruct (Z.eqb_spec (len ins) n); [lia|].
    assert (L : 1 < len l).
    { destruct Hl as [_ _ Ha Hb _]. destruct l as [|x [|y l]]; [destruct Ha| |rewrite !len_cons; pose proof (len_nonneg l); lia].
      destruct Ha as [->|[]], Hb as [->|[]]. lra. }
    destruct (Z.eqb_spec (len l) 0); [lia|]. cbn [bind].
    match goal with |- returns (bind ?m _) _ => destruct (wp_elim m _ (gap_loop l ltac:(lia))) as ([st ix] & Em & G); rewrite Em; clear Em end. cbn [bind].
    destruct G as [[-> G]|(G1 & G2 & G3)].
    + exfalso. destruct (inserting_ends _ _ _ Hl) as [E1 E2].
      assert (Hg : forall j, 0 <= j < len l - 1 -> (val l (j + 1) - val l j <= 3 / 1000000)%R).
      { intros j Hj. destruct (Rle_lt_dec (val l (j + 1) - val l j) (3 / 1000000)) as [C|C]; [exact C|].
        exfalso. apply (G j Hj). apply passes_wide. lra. }
      pose proof (gaps_sum l _ Hg (Z.to_nat (len l - 1)) ltac:(lia)) as S0. rewrite Z2Nat.id in S0 by lia.
      rewrite INR_IZR_INZ, Z2Nat.id in S0 by lia.
      assert (IZR (len l - 1) < IZR (len l + n - len ins))%R by (apply IZR_lt; lia). lra.
    + rewrite get_val by lia. cbn [bind]. num. rewrite Rdiv_ok by lra. cbn [bind].
      set (c := (val l ix + st / 2)%R). destruct (mid_step a b l ix c Hl G1 ltac:(unfold c; lra)) as (M1 & M2 & M3 & M4).
      assert (Hp : forall x, In x (std_sort (l ++ [c])) <-> In x l \/ x = c).
      { intros x. pose proof (std_sort_perm (l ++ [c])) as Hp. split.
        - intros Hx. apply (Permutation_in _ Hp) in Hx. apply in_app_or in Hx. destruct Hx as [Hx|[Hx|[]]]; auto.
        - intros Hx. apply (Permutation_in _ (Permutation_sym Hp)). apply in_or_app. destruct Hx as [Hx| ->]; [left; exact Hx|right; left; reflexivity]. }
      assert (El : len (ins ++ [c]) = len ins + 1) by (unfold len; rewrite app_length; cbn; lia).
      apply IH; [exact Hab|exact M1|rewrite El; lia| | | |].
      * rewrite <- (rev_involutive (ins ++ [c])). apply NoDup_rev. rewrite rev_app_distr. cbn. constructor; [|apply NoDup_rev; exact Hd].
        rewrite <- in_rev. intros X. apply M3. apply Hin. exact X.
      * intros x Hx. apply in_app_or in Hx. destruct Hx as [Hx|[<-|[]]].
        -- destruct (Hin x Hx) as (X1 & X2 & X3). split; [apply Hp; auto|]. split; assumption.
        -- split; [apply Hp; auto|]. split; [|exact M4]. intros X. apply M3, HU, X.
      * intros x Hx. apply Hp. left. apply HU. exact Hx.
      * rewrite M2, El. replace (len l + 1 + n - (len ins + 1)) with (len l + n - len ins) by lia. exact Hw.
Qed.

Lemma GetInsertedKnotElements_number_ok (U : list R) n : 0 <= n -> 0 < len U -> sorted U -> (val U 0 < val U (len U - 1))%R ->
  (3 / 1000000 * IZR (len U + n) <= val U (len U - 1) - val U 0)%R ->
  returns (GetInsertedKnotElements_number n U) (fun e => len e = n /\ increasing e /\
     forall x, In x e -> (~ In x U /\ val U 0 < x < val U (len U - 1))%R).
Proof.
  intros Hn Hl Hs Hab Hw. unfold GetInsertedKnotElements_number. destruct (std_unique_inc U Hs) as [S1 S2].
  assert (Hi : inserting (val U 0) (val U (len U - 1)) (std_unique U)).
  { constructor; try assumption; try (apply std_unique_in; apply val_in; lia).
    intros x Hx. apply (proj1 (std_unique_in U x)) in Hx. destruct (in_val _ _ Hx) as (i & Hi & <-). split; apply Hs; lia. }
  assert (Hlu : len (std_unique U) <= len U).
  { unfold len. apply inj_le. apply NoDup_incl_length; [exact S2|]. intros x. apply std_unique_in. }
  destruct (core_ok (val U 0) (val U (len U - 1)) U n (Z.to_nat n) (std_unique U) [] Hab Hi) as (e & -> & E1 & E2 & E3).
  - cbn. lia.
  - constructor.
  - intros x [].
  - intros x Hx. apply std_unique_in. exact Hx.
  - assert (IZR (len (std_unique U) + n - len (@nil R)) <= IZR (len U + n))%R by (apply IZR_le; cbn; lia). lra.
  - cbn [bind]. exists (std_sort e). split; [reflexivity|]. pose proof (std_sort_perm e) as Hp. split; [|split].
    + unfold len in *. rewrite (Permutation_length Hp). exact E1.
    + apply sorted_nodup_increasing; [apply std_sort_is_sorted|]. apply (Permutation_NoDup (Permutation_sym Hp)). exact E2.
    + intros x Hx. apply E3. apply (Permutation_in _ Hp). exact Hx.
Qed.

(* without a gap wider than the tolerance index -1 is read *)
Lemma std_unique_cons (x : R) l : std_unique (x :: l) = match std_unique l with [] => [x] | y :: r => if neqb x y then x :: r else x :: y :: r end.
Proof. reflexivity. Qed.
Lemma std_unique_repeat (x : R) n : std_unique (repeat x (S n)) = [x].
Proof.
  induction n as [|n IH]; [reflexivity|]. change (repeat x (S (S n))) with (x :: repeat x (S n)). rewrite std_unique_cons, IH.
  num. destruct (Reqb_spec x x); [reflexivity|tauto].
Qed.
Lemma GetInsertedKnotElements_number_flat (x : R) m n : 0 < n -> GetInsertedKnotElements_number n (repeat x (S m)) = UB.
Proof.
  intros Hn. unfold GetInsertedKnotElements_number. rewrite std_unique_repeat.
  destruct (Z.to_nat n) as [|k] eqn:E; [lia|]. cbn [InsertMidKnotCore]. change (len (@nil R)) with 0.
  destruct (Z.eqb_spec 0 n); [lia|]. reflexivity.
Qed.

(* ---------------- IsUniform ---------------- *)
Lemma mult_get U x : kmap_get (GetKnotMultiplicityMap U) x = occ U x.
Proof. apply mult_map. Qed.

Lemma IsUniform_ok U a b : In a U -> In b U -> a <> b ->
  exists K, increasing K /\ (forall x, In x K <-> In x U) /\
    returns (IsUniform U) (fun r => r = true <-> uniform U K).
Proof.
  intros Ha Hb Hab. destruct (GetKnotMultiplicityMap_ok U) as [H1 H2]. pose proof (mult_get U) as Hget. unfold IsUniform.
  set (m := GetKnotMultiplicityMap U) in *. clearbody m. remember (map fst m) as K eqn:EK.
  assert (HK : forall x, In x K <-> In x U).
  { intros x. rewrite EK, in_map_iff. split.
    - intros ([k c] & <- & Hq). apply H2 in Hq. tauto.
    - intros Hx. exists (x, occ U x). split; [reflexivity|]. apply H2. auto. }
  exists K. split; [exact H1|]. split; [exact HK|].
  assert (L : 1 < len K).
  { apply HK in Ha. apply HK in Hb. clear EK. destruct K as [|x [|y l]]; [destruct Ha| |rewrite !len_cons; pose proof (len_nonneg l); lia].
    destruct Ha as [<-|[]], Hb as [<-|[]]. tauto. }
  destruct m as [|q m']; [rewrite EK in L; cbn in L; lia|]. set (m := q :: m') in *. clearbody m.
  cbv zeta. rewrite std_sort_sorted by (apply increasing_sorted; exact H1). clear EK.
  rewrite !get_val by lia. cbn [bind]. rewrite !Hget.
  destruct (Z.eqb_spec (occ U (val K 0)) (occ U (val K (len K - 1)))) as [E|E]; cbn [negb].
  2: { exists false. split; [reflexivity|]. split; [discriminate|]. intros (X & _). contradiction. }
  cbn [bind]. num. unfold returns.
  match goal with |- exists x, bind ?b ?f = Ok x /\ ?Q => cut (wp b (fun c => wp (f c) (fun r => r = true <-> uniform U K))) end.
  { intros W. apply wp_bind in W. apply wp_elim in W. exact W. }
  eapply wp_for_upc with
    (P := fun i _ => (forall j, 1 <= j < i -> (Rabs (val K (j + 1) - val K j - (val K 1 - val K 0)) <= tol (val K (j + 1) - val K j) (val K 1 - val K 0))%R) /\
                     (forall j, 1 <= j < i -> j + 2 < len K -> occ U (val K j) = occ U (val K (j + 1))))
    (F := fun r => r = false /\ ~ uniform U K).
  - split; intros j Hj; lia.
  - intros i _ Hi [P1 P2]. rewrite !get_val by lia. cbn [bind]. num. rewrite !Hget.
    destruct (IsAlmostEqualTo _ _) eqn:Ea; cbn [negb].
    + apply aeq_iff in Ea. rewrite <- tol_thr in Ea. change (DoubleEpsilon : R) with eps.
      destruct (Z.eqb_spec (occ U (val K i)) (occ U (val K (i + 1)))) as [Ec|Ec]; cbn [negb].
      * cbn [wp]. split; intros j Hj; (destruct (Z.eq_dec j i) as [->|]; [auto|]). { apply P1; lia. } intros. apply P2; lia.
      * destruct (Z.eqb_spec (i + 1) (len K - 1)); cbn [wp].
        -- split; intros j Hj; (destruct (Z.eq_dec j i) as [->|]; [auto|]). { apply P1; lia. } { intros. lia. } intros. apply P2; lia.
        -- split; [reflexivity|]. intros (_ & _ & X). apply Ec. apply X; lia.
    + apply aeq_false in Ea. rewrite <- tol_thr in Ea. cbn [wp]. split; [reflexivity|]. intros (_ & X & _). specialize (X i ltac:(lia) ltac:(lia)). lra.
  - intros _ [P1 P2]. cbn [wp]. split; [intros _|reflexivity]. split; [exact E|]. split; intros i Hi Hi2; [apply P1; lia|apply P2; lia].
  - intros r [-> X]. cbn [wp]. split; [discriminate|]. intros Y. contradiction.
Qed.

Lemma IsUniform_single (x : R) n : IsUniform (repeat x (S n)) = UB.
Proof.
  assert (E : GetKnotMultiplicityMap (repeat x (S n)) = [(x, 1 + Z.of_nat n)]).
  { unfold GetKnotMultiplicityMap. cbn [repeat fold_left kmap_incr]. apply fold_incr_repeat. }
  unfold IsUniform. rewrite E. cbn [map fst std_sort sort_insert]. change (len [x] - 1) with 0.
  change (get [x] 0) with (Ok x). cbn [bind]. rewrite Z.eqb_refl. reflexivity.
Qed.

(* ---------------- clamping ---------------- *)
Lemma leading_ok (l : list R) x : 0 <= leading l x <= len l /\
  (forall i, 0 <= i < leading l x -> (Rabs (val l i - x) <= tol (val l i) x)%R) /\
  (leading l x < len l -> (tol (val l (leading l x)) x < Rabs (val l (leading l x) - x))%R).
Proof.
  induction l as [|y l IH]; [cbn; repeat split; try lia; intros; lia|]. cbn [leading]. rewrite len_cons. destruct IH as (I1 & I2 & I3).
  destruct (IsAlmostEqualTo y x) eqn:E.
  - apply aeq_iff in E. rewrite <- tol_thr in E. split; [lia|]. split.
    + intros i Hi. destruct (Z.eq_dec i 0) as [->|]; [exact E|]. rewrite val_cons by lia. apply I2. lia.
    + intros Hlt. rewrite val_cons by lia. replace (1 + leading l x - 1) with (leading l x) by lia. apply I3. lia.
  - apply aeq_false in E. rewrite <- tol_thr in E. split; [lia|]. split; [intros; lia|]. intros _. exact E.
Qed.

Fixpoint front (l : list R) (x : R) : Prop :=
  match l with [] => True | y :: l' => (y <> x -> ~ In x l') /\ front l' x end.

Lemma leading_occ (l : list R) x : front l x -> (forall y, In y l -> (Rabs (y - x) <= tol y x)%R -> y = x) -> leading l x = occ l x.
Proof.
  induction l as [|y l IH]; intros H Ha; [reflexivity|]. cbn [leading]. destruct H as [H1 H2]. rewrite occ_cons.
  destruct (IsAlmostEqualTo y x) eqn:E.
  - apply aeq_iff in E. rewrite <- tol_thr in E. pose proof (Ha y (or_introl eq_refl) E) as ->.
    destruct (Req_EM_T x x); [|tauto]. rewrite IH; auto. intros z Hz. apply Ha. right. exact Hz.
  - apply aeq_false in E. rewrite <- tol_thr in E. destruct (Req_EM_T y x) as [->|N0].
    + exfalso. replace (x - x)%R with 0%R in E by ring. rewrite Rabs_R0 in E. pose proof (tol_pos x x). lra.
    + specialize (H1 N0). pose proof (occ_nonneg l x). pose proof (occ_pos l x) as [Q _].
      destruct (Z.eq_dec (occ l x) 0); [lia|]. exfalso. apply H1, Q. lia.
Qed.

Lemma front_sorted (l : list R) x : sorted l -> (forall y, In y l -> (x <= y)%R) -> front l x.
Proof.
  induction l as [|y l IH]; intros H Hx; [exact I|]. apply sorted_cons_iff in H. destruct H as [H1 H2]. split.
  - intros N0 Hin. pose proof (H1 x Hin). pose proof (Hx y (or_introl eq_refl)). apply N0. lra.
  - apply IH; [exact H2|]. intros z Hz. apply Hx. right. exact Hz.
Qed.
Lemma front_rev (l : list R) x : sorted l -> (forall y, In y l -> (y <= x)%R) -> front (rev l) x.
Proof.
  induction l as [|y l IH] using rev_ind; intros H Hx; [exact I|]. rewrite rev_app_distr. cbn [rev app front].
  assert (Hl : sorted l /\ forall z, In z l -> (z <= y)%R).
  { clear IH Hx. induction l as [|z l IHl]; [split; [intros i j Hi Hij Hj; cbn in Hj; lia|intros z []]|]. cbn [app] in H. apply sorted_cons_iff in H.
    destruct H as [H1 H2]. destruct (IHl H2) as [J1 J2]. split.
    - apply sorted_cons_iff. split; [|exact J1]. intros w Hw. apply H1. apply in_or_app. left. exact Hw.
    - intros w [<-|Hw]; [apply H1; apply in_or_app; right; left; reflexivity|auto]. }
  destruct Hl as [Hl1 Hl2]. split.
  - intros N0 Hin. apply in_rev in Hin. specialize (Hl2 _ Hin). pose proof (Hx y ltac:(apply in_or_app; right; left; reflexivity)). apply N0. lra.
  - apply IH; [exact Hl1|]. intros z Hz. apply Hx. apply in_or_app. left. exact Hz.
Qed.

Lemma occ_rev l x : occ (rev l) x = occ l x.
Proof. apply occ_perm. symmetry. apply Permutation_rev. Qed.

(* clamping raises the multiplicities of the two end knots to degree + 1 *)
Lemma clamp_ok d (U : list R) : 0 <= d -> 0 < len U -> sorted U -> (val U 0 < val U (len U - 1))%R ->
  (forall x y, In x U -> In y U -> apart x y) ->
  returns (GetInsertedKnotElement_clamp d U (val U 0) (val U (len U - 1))) (fun e => sorted e /\ forall x,
    occ (U ++ e) x = if Req_EM_T x (val U 0) then Z.max (d + 1) (occ U x)
                     else if Req_EM_T x (val U (len U - 1)) then Z.max (d + 1) (occ U x) else occ U x).
Proof.
  intros Hd Hl Hs Hab Hap. unfold GetInsertedKnotElement_clamp. destruct (Z.leb_spec 0 d); [|lia]. destruct (Z.ltb_spec 0 (len U)); [|lia].
  set (a := val U 0) in *. set (b := val U (len U - 1)) in *. num.
  destruct (Rleb_spec a b); [|lra]. rewrite (proj2 (P_Span.IsValidKnotVector_sorted U) Hs). cbn [validate bind].
  assert (Hr : forall y, In y U -> (a <= y <= b)%R).
  { intros y Hy. destruct (in_val _ _ Hy) as (i & Hi & <-). split; apply Hs; lia. }
  assert (Ea : leading U a = occ U a).
  { apply leading_occ; [apply front_sorted; [exact Hs|intros y Hy; apply Hr; exact Hy]|].
    intros y Hy Ht. destruct (Hap y a Hy (val_in U 0 ltac:(lia))) as [E|E]; [exact E|]. pose proof (tol_pos y a). lra. }
  assert (Eb : leading (rev U) b = occ U b).
  { rewrite leading_occ; [apply occ_rev|apply front_rev; [exact Hs|intros y Hy; apply Hr; exact Hy]|].
    intros y Hy Ht. apply in_rev in Hy. destruct (Hap y b Hy (val_in U (len U - 1) ltac:(lia))) as [E|E]; [exact E|]. pose proof (tol_pos y b). lra. }
  rewrite Ea, Eb.
  assert (El : forall n (x : R), (if n <? d + 1 then repeat x (Z.to_nat (d + 1 - n)) else []) = repeat x (Z.to_nat (d + 1 - n))).
  { intros n x. destruct (Z.ltb_spec n (d + 1)); [reflexivity|]. replace (Z.to_nat (d + 1 - n)) with O by lia. reflexivity. }
  eexists. split; [reflexivity|]. rewrite El.
  assert (Er : (if occ U b <? d + 1 then repeat a (Z.to_nat (d + 1 - occ U a)) ++ repeat b (Z.to_nat (d + 1 - occ U b)) else repeat a (Z.to_nat (d + 1 - occ U a)))
    = repeat a (Z.to_nat (d + 1 - occ U a)) ++ repeat b (Z.to_nat (d + 1 - occ U b))).
  { destruct (Z.ltb_spec (occ U b) (d + 1)); [reflexivity|]. replace (Z.to_nat (d + 1 - occ U b)) with O by lia. cbn [repeat]. rewrite app_nil_r. reflexivity. }
  rewrite Er. split.
  - apply sorted_app; try apply sorted_repeat. intros x y X Y. apply repeat_spec in X. apply repeat_spec in Y. subst. lra.
  - intros x. rewrite !occ_app, !occ_repeat. destruct (Req_EM_T x a) as [->|Na]; destruct (Req_EM_T a a); try tauto.
    + destruct (Req_EM_T b a); [lra|]. lia.
    + destruct (Req_EM_T a x); [subst; tauto|]. destruct (Req_EM_T x b) as [->|Nb].
      * destruct (Req_EM_T b b); [lia|tauto].
      * destruct (Req_EM_T b x); [subst; tauto|]. lia.
Qed.
