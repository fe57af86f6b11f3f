(* Proofs about the knot multiplicity maps of M_Knots. *)
From Coq Require Import ZArith List Bool Reals Lra Lia Permutation.
From Verif Require Import Base Num Vec Tac Spec Spec4 M_MathUtils M_Polynomials M_NurbsCurve M_Knots
  P_MathUtils P_Curve P_Insert.
Import ListNotations.
Open Scope Z_scope.

Notation KM := (@kmap R).

(* keys strictly increasing *)
Fixpoint kok (m : KM) : Prop :=
  match m with
  | [] => True
  | (k, _) :: m' => (forall q, In q m' -> (k < fst q)%R) /\ kok m'
  end.

Lemma Rltb_refl x : Rltb x x = false.
Proof. apply Rltb_false. lra. Qed.

Lemma find_none_lt (m : KM) x : (forall q, In q m -> (x < fst q)%R) -> kmap_find m x = None.
Proof.
  destruct m as [|[k c] m]; intros H; [reflexivity|]. cbn [kmap_find]. num.
  pose proof (H (k, c) (or_introl eq_refl)) as G. cbn [fst] in G.
  destruct (Rltb_spec k x); [lra|]. destruct (Rltb_spec x k); [reflexivity|lra].
Qed.

Lemma find_in (m : KM) x c : kok m -> (kmap_find m x = Some c <-> In (x, c) m).
Proof.
  induction m as [|[k d] m IH]; intros H; [cbn; split; [discriminate|tauto]|].
  destruct H as [H1 H2]. specialize (IH H2). cbn [kmap_find In]. num. destruct (Rltb_spec k x) as [C|C].
  - rewrite IH. split; [auto|]. intros [E|E]; [|exact E]. injection E as -> ->. lra.
  - destruct (Rltb_spec x k) as [D|D].
    + split; [discriminate|]. intros [E|E]; [injection E as -> ->; lra|]. specialize (H1 _ E). cbn in H1. lra.
    + assert (k = x) by lra. subst k. split; [intros E; injection E as ->; auto|].
      intros [E|E]; [injection E as ->; reflexivity|]. specialize (H1 _ E). cbn in H1. lra.
Qed.

Lemma incr_keys (m : KM) key q : In q (kmap_incr m key) -> fst q = key \/ exists r, In r m /\ fst r = fst q.
Proof.
  induction m as [|[k d] m IH]; cbn [kmap_incr]; num.
  - intros [<-|[]]. left. reflexivity.
  - destruct (Rltb k key).
    + intros [<-|H]; [right; exists (k, d); split; [left|]; reflexivity|].
      destruct (IH H) as [E|(r & R1 & R2)]; [auto|]. right. exists r. split; [right|]; assumption.
    + destruct (Rltb key k).
      * intros [<-|H]; [left; reflexivity|]. right. exists q. split; [exact H|reflexivity].
      * intros [<-|H]; [right; exists (k, d); split; [left|]; reflexivity|]. right. exists q. split; [right; exact H|reflexivity].
Qed.

Lemma set_keys (m : KM) key c q : In q (kmap_set m key c) -> fst q = key \/ exists r, In r m /\ fst r = fst q.
Proof.
  induction m as [|[k d] m IH]; cbn [kmap_set]; num.
  - intros [<-|[]]. left. reflexivity.
  - destruct (Rltb k key).
    + intros [<-|H]; [right; exists (k, d); split; [left|]; reflexivity|].
      destruct (IH H) as [E|(r & R1 & R2)]; [auto|]. right. exists r. split; [right|]; assumption.
    + destruct (Rltb key k).
      * intros [<-|H]; [left; reflexivity|]. right. exists q. split; [exact H|reflexivity].
      * intros [<-|H]; [right; exists (k, d); split; [left|]; reflexivity|]. right. exists q. split; [right; exact H|reflexivity].
Qed.

Lemma incr_ok (m : KM) key : kok m -> kok (kmap_incr m key).
Proof.
  induction m as [|[k d] m IH]; intros H; cbn [kmap_incr]; num.
  - cbn. tauto.
  - destruct H as [H1 H2]. destruct (Rltb_spec k key) as [C|C].
    + split; [|auto]. intros q Hq. destruct (incr_keys _ _ _ Hq) as [->|(r & R1 & <-)]; auto.
    + destruct (Rltb_spec key k) as [D|D]; [|split; auto].
      split; [|split; auto]. intros q [<-|Hq]; [exact D|]. specialize (H1 q Hq). lra.
Qed.

Lemma set_ok (m : KM) key c : kok m -> kok (kmap_set m key c).
Proof.
  induction m as [|[k d] m IH]; intros H; cbn [kmap_set]; num.
  - cbn. tauto.
  - destruct H as [H1 H2]. destruct (Rltb_spec k key) as [C|C].
    + split; [|auto]. intros q Hq. destruct (set_keys _ _ _ _ Hq) as [->|(r & R1 & <-)]; auto.
    + destruct (Rltb_spec key k) as [D|D]; [|split; auto].
      split; [|split; auto]. intros q [<-|Hq]; [exact D|]. specialize (H1 q Hq). lra.
Qed.

Lemma find_incr (m : KM) key x : kok m ->
  kmap_find (kmap_incr m key) x = if Req_EM_T key x then Some (kmap_get m x + 1) else kmap_find m x.
Proof.
  unfold kmap_get. induction m as [|[k d] m IH]; intros H; cbn [kmap_incr kmap_find]; num.
  - destruct (Req_EM_T key x) as [->|N0]; [rewrite !Rltb_refl; reflexivity|].
    destruct (Rltb_spec key x); [reflexivity|]. destruct (Rltb_spec x key); [reflexivity|]. exfalso. apply N0. lra.
  - destruct H as [H1 H2]. specialize (IH H2). destruct (Rltb_spec k key) as [C|C].
    + cbn [kmap_find]. num. rewrite IH. destruct (Req_EM_T key x) as [->|]; [|reflexivity].
      destruct (Rltb_spec k x); [reflexivity|lra].
    + destruct (Rltb_spec key k) as [D|D]; cbn [kmap_find]; num.
      * destruct (Req_EM_T key x) as [->|].
        -- rewrite !Rltb_refl. destruct (Rltb_spec k x); [lra|]. destruct (Rltb_spec x k); [reflexivity|lra].
        -- destruct (Rltb_spec key x) as [E|E]; [reflexivity|]. destruct (Rltb_spec x key) as [F|F]; [|exfalso; lra].
           destruct (Rltb_spec k x); [lra|]. destruct (Rltb_spec x k); [reflexivity|lra].
      * assert (k = key) by lra. subst k. destruct (Req_EM_T key x) as [->|]; [rewrite !Rltb_refl; reflexivity|].
        destruct (Rltb_spec key x) as [E|E]; [reflexivity|]. destruct (Rltb_spec x key) as [F|F]; [reflexivity|exfalso; lra].
Qed.

Lemma find_set (m : KM) key c x : kok m ->
  kmap_find (kmap_set m key c) x = if Req_EM_T key x then Some c else kmap_find m x.
Proof.
  induction m as [|[k d] m IH]; intros H; cbn [kmap_set kmap_find]; num.
  - destruct (Req_EM_T key x) as [->|N0]; [rewrite !Rltb_refl; reflexivity|].
    destruct (Rltb_spec key x); [reflexivity|]. destruct (Rltb_spec x key); [reflexivity|]. exfalso. apply N0. lra.
  - destruct H as [H1 H2]. specialize (IH H2). destruct (Rltb_spec k key) as [C|C].
    + cbn [kmap_find]. num. rewrite IH. destruct (Req_EM_T key x) as [->|]; [|reflexivity].
      destruct (Rltb_spec k x); [reflexivity|lra].
    + destruct (Rltb_spec key k) as [D|D]; cbn [kmap_find]; num.
      * destruct (Req_EM_T key x) as [->|]; [rewrite !Rltb_refl; reflexivity|].
        destruct (Rltb_spec key x) as [E|E]; [reflexivity|]. destruct (Rltb_spec x key) as [F|F]; [|exfalso; lra].
        destruct (Rltb_spec k x); [lra|]. destruct (Rltb_spec x k); [reflexivity|lra].
      * assert (k = key) by lra. subst k. destruct (Req_EM_T key x) as [->|]; [rewrite !Rltb_refl; reflexivity|].
        destruct (Rltb_spec key x) as [E|E]; [reflexivity|]. destruct (Rltb_spec x key) as [F|F]; [reflexivity|exfalso; lra].
Qed.

(* ---------------- multiplicities ---------------- *)

Lemma occ_nonneg l x : 0 <= occ l x. Proof. unfold occ. lia. Qed.
Lemma occ_app l l' x : occ (l ++ l') x = occ l x + occ l' x.
Proof. unfold occ. rewrite count_occ_app. lia. Qed.
Lemma occ_cons y l x : occ (y :: l) x = (if Req_EM_T y x then 1 else 0) + occ l x.
Proof. unfold occ. cbn [count_occ]. destruct (Req_EM_T y x); lia. Qed.
Lemma occ_repeat y n x : occ (repeat y (Z.to_nat n)) x = if Req_EM_T y x then Z.max 0 n else 0.
Proof.
  destruct (Z.le_gt_cases 0 n) as [H|H].
  - rewrite Z.max_r by lia. assert (E : n = Z.of_nat (Z.to_nat n)) by lia. revert E. generalize (Z.to_nat n). clear H. intros k ->. rename k into n.
    induction n as [|n IH]; [cbn; destruct (Req_EM_T y x); reflexivity|]. cbn [repeat]. rewrite occ_cons, IH. destruct (Req_EM_T y x); lia.
  - rewrite Z.max_l by lia. replace (Z.to_nat n) with O by lia. cbn. destruct (Req_EM_T y x); reflexivity.
Qed.
Lemma occ_pos l x : 0 < occ l x <-> In x l.
Proof. unfold occ. rewrite (count_occ_In Req_EM_T). lia. Qed.

Definition kocc (m : KM) x : Z := kmap_get m x.

Lemma kmap_get_in (m : KM) x c : kok m -> In (x, c) m -> kmap_get m x = c.
Proof. intros H Hi. unfold kmap_get. rewrite (proj2 (find_in m x c H) Hi). reflexivity. Qed.

(* all stored counts are positive *)
Definition kpos (m : KM) : Prop := forall x c, kmap_find m x = Some c -> 0 < c.

Lemma map_fold l : forall m, kok m -> kpos m ->
  let r := fold_left kmap_incr l m in kok r /\ kpos r /\ forall x, kmap_get r x = kmap_get m x + occ l x.
Proof.
  induction l as [|y l IH]; intros m Hm Hp; cbn [fold_left]; cbv zeta.
  - split; [exact Hm|]. split; [exact Hp|]. intros x. cbn. lia.
  - assert (P0 : forall x, 0 <= kmap_get m x).
    { intros x. unfold kmap_get. destruct (kmap_find m x) eqn:E; [|lia]. specialize (Hp _ _ E). lia. }
    assert (P1 : kpos (kmap_incr m y)).
    { intros x c E. rewrite find_incr in E by exact Hm. destruct (Req_EM_T y x); [injection E as <-; specialize (P0 x); lia|].
      apply (Hp _ _ E). }
    destruct (IH _ (incr_ok m y Hm) P1) as (I1 & I2 & I3). split; [exact I1|]. split; [exact I2|].
    intros x. rewrite I3, occ_cons. unfold kmap_get at 1. rewrite find_incr by exact Hm.
    destruct (Req_EM_T y x); [lia|]. unfold kmap_get. lia.
Qed.

Lemma mult_map U : kok (GetKnotMultiplicityMap U) /\ kpos (GetKnotMultiplicityMap U) /\
  forall x, kmap_get (GetKnotMultiplicityMap U) x = occ U x.
Proof.
  destruct (map_fold U [] I) as (H1 & H2 & H3); [intros x c E; discriminate|]. split; [exact H1|]. split; [exact H2|].
  intros x. unfold GetKnotMultiplicityMap. rewrite H3. reflexivity.
Qed.

Lemma mult_find U x c : kmap_find (GetKnotMultiplicityMap U) x = Some c <-> 0 < c /\ c = occ U x.
Proof.
  destruct (mult_map U) as (H1 & H2 & H3). specialize (H3 x). unfold kmap_get in H3. split.
  - intros E. rewrite E in H3. specialize (H2 _ _ E). auto.
  - intros [P ->]. destruct (kmap_find (GetKnotMultiplicityMap U) x); [congruence|lia].
Qed.

Lemma kok_increasing (m : KM) : kok m -> increasing (map fst m).
Proof.
  induction m as [|[k c] m IH]; intros H i j Hi Hij Hj; [cbn in Hj; lia|]. destruct H as [H1 H2]. cbn [map fst] in *.
  rewrite len_cons in Hj. destruct (Z.eq_dec i 0) as [->|Hi0].
  - rewrite (val_cons _ _ j) by lia. change (val (k :: map fst m) 0) with k.
    assert (Hin : In (val (map fst m) (j - 1)) (map fst m)).
    { unfold val, at_. apply nth_In. unfold len in Hj. lia. }
    apply in_map_iff in Hin. destruct Hin as (q & <- & Hq). apply H1. exact Hq.
  - rewrite !val_cons by lia. apply (IH H2); lia.
Qed.

(* the map lists the distinct knots in increasing order with their multiplicities *)
Lemma GetKnotMultiplicityMap_ok U : increasing (map fst (GetKnotMultiplicityMap U)) /\
  forall x c, In (x, c) (GetKnotMultiplicityMap U) <-> In x U /\ c = occ U x.
Proof.
  destruct (mult_map U) as (H1 & _ & _). split; [apply kok_increasing; exact H1|].
  intros x c. rewrite <- (find_in _ _ _ H1), mult_find, <- occ_pos. intuition lia.
Qed.

(* ---------------- internal knots ---------------- *)

Lemma kok_app (m : KM) q : kok (m ++ [q]) -> kok m /\ forall r, In r m -> (fst r < fst q)%R.
Proof.
  induction m as [|[k c] m IH]; intros H; [split; [exact I|intros r []]|]. destruct H as [H1 H2].
  destruct (IH H2) as [I1 I2]. split.
  - split; [|exact I1]. intros r Hr. apply H1. apply in_or_app. left. exact Hr.
  - intros r [<-|Hr]; [apply H1; apply in_or_app; right; left; reflexivity|auto].
Qed.

Lemma GetInternal_ok U a b : In a U -> In b U -> (a < b)%R ->
  returns (GetInternalKnotMultiplicityMap U) (fun m => increasing (map fst m) /\
    forall x c, In (x, c) m <-> In x U /\ c = occ U x /\ (exists y, In y U /\ y < x)%R /\ (exists y, In y U /\ x < y)%R).
Proof.
  intros Ha Hb Hab. destruct (mult_map U) as (H1 & _ & _). destruct (GetKnotMultiplicityMap_ok U) as [_ G].
  unfold GetInternalKnotMultiplicityMap. set (m := GetKnotMultiplicityMap U) in *. clearbody m.
  assert (Ga : In (a, occ U a) m) by (apply G; auto). assert (Gb : In (b, occ U b) m) by (apply G; auto).
  destruct m as [|[k0 c0] m]; [destruct Ga|]. destruct H1 as [H1 H2].
  destruct m as [|q0 m0] eqn:Em.
  { destruct Ga as [E|[]], Gb as [E'|[]]. injection E as -> _. injection E' as -> _. lra. }
  rewrite <- Em in *. destruct (exists_last (l := m)) as (m' & [kl cl] & E); [rewrite Em; discriminate|].
  exists m'. split; [rewrite E, removelast_last; reflexivity|].
  rewrite E in H2. destruct (kok_app _ _ H2) as [K1 K2]. split; [apply kok_increasing; exact K1|].
  assert (Key : forall x, In x U <-> (exists d, In (x, d) ((k0, c0) :: m))).
  { intros x. split; [intros Hx; exists (occ U x); apply G; auto|]. intros [d Hd]. apply G in Hd. tauto. }
  intros x c. split.
  - intros Hx. assert (Hm : In (x, c) m) by (rewrite E; apply in_or_app; auto).
    destruct (proj1 (G x c) (or_intror Hm)) as [X1 X2]. split; [exact X1|]. split; [exact X2|]. split.
    + exists k0. split; [apply Key; exists c0; left; reflexivity|]. apply (H1 _ Hm).
    + exists kl. split; [apply Key; exists cl; right; rewrite E; apply in_or_app; right; left; reflexivity|]. apply (K2 _ Hx).
  - intros (X1 & X2 & (y & Y1 & Y2) & (z & Z1 & Z2)).
    destruct (proj2 (G x c) (conj X1 X2)) as [Q|Q].
    + exfalso. injection Q as -> ->. apply Key in Y1. destruct Y1 as [d [Y1|Y1]]; [injection Y1 as -> ->; lra|].
      specialize (H1 _ Y1). cbn in H1. lra.
    + rewrite E in Q. apply in_app_or in Q. destruct Q as [Q|[Q|[]]]; [exact Q|]. exfalso. injection Q as -> ->.
      apply Key in Z1. destruct Z1 as [d [Z1|Z1]]; [injection Z1 as -> ->; pose proof (H1 (x, c) ltac:(rewrite E; apply in_or_app; right; left; reflexivity)) as F; cbn in F; lra|].
      rewrite E in Z1. apply in_app_or in Z1. destruct Z1 as [Z1|[Z1|[]]]; [specialize (K2 _ Z1); cbn in K2; lra|injection Z1 as -> ->; lra].
Qed.

Lemma fold_incr_repeat n : forall (x : R) c, fold_left kmap_incr (repeat x n) [(x, c)] = [(x, c + Z.of_nat n)].
Proof.
  induction n as [|n IH]; intros x c; [cbn; f_equal; f_equal; lia|]. cbn [repeat fold_left kmap_incr]. num.
  rewrite !Rltb_refl, IH. f_equal. f_equal. lia.
Qed.

Lemma GetInternal_single x n : GetInternalKnotMultiplicityMap (repeat x (S n)) = (UB : res KM).
Proof.
  unfold GetInternalKnotMultiplicityMap, GetKnotMultiplicityMap. cbn [repeat fold_left kmap_incr]. rewrite fold_incr_repeat. reflexivity.
Qed.

(* ---------------- making knot vectors compatible ---------------- *)

Lemma fold_find (f : list R -> R * Z -> list R) (g : R -> Z -> R -> Z) :
  (forall e k c x, occ (f e (k, c)) x = occ e x + (if Req_EM_T k x then g k c x else 0)) ->
  forall (m : KM) e x, kok m ->
  occ (fold_left f m e) x = occ e x + match kmap_find m x with Some c => g x c x | None => 0 end.
Proof.
  intros Hf m. induction m as [|[k c] m IH]; intros e x H; [cbn; lia|]. destruct H as [H1 H2].
  cbn [fold_left kmap_find]. num. rewrite IH, Hf by exact H2. destruct (Req_EM_T k x) as [->|N0].
  - rewrite !Rltb_refl, find_none_lt by exact H1. lia.
  - destruct (Rltb_spec k x); [lia|]. destruct (Rltb_spec x k) as [D|D]; [|exfalso; apply N0; lra].
    rewrite find_none_lt; [lia|]. intros q Hq. specialize (H1 _ Hq). lra.
Qed.

(* the element list is sorted when it is appended in key order *)
Lemma sorted_app (l l' : list R) : sorted l -> sorted l' -> (forall x y, In x l -> In y l' -> (x <= y)%R) -> sorted (l ++ l').
Proof.
  intros H H' Hx i j Hi Hij Hj. unfold len in Hj. rewrite app_length in Hj.
  unfold val, at_. destruct (Z.lt_ge_cases j (len l)) as [C|C]; unfold len in C.
  - rewrite !app_nth1 by lia. apply (H i j); unfold len; lia.
  - destruct (Z.lt_ge_cases i (len l)) as [D|D]; unfold len in D.
    + rewrite app_nth1, (app_nth2 l) by lia. apply Hx; apply nth_In; lia.
    + rewrite !app_nth2 by lia. pose proof (H' (i - len l) (j - len l) ltac:(unfold len; lia) ltac:(unfold len; lia) ltac:(unfold len; lia)) as G.
      unfold val, at_, len in G. replace (Z.to_nat (i - Z.of_nat (length l))) with (Z.to_nat i - length l)%nat in G by lia.
      replace (Z.to_nat (j - Z.of_nat (length l))) with (Z.to_nat j - length l)%nat in G by lia. exact G.
Qed.

Lemma sorted_repeat (x : R) n : sorted (repeat x n).
Proof.
  intros i j Hi Hij Hj. unfold len in Hj. rewrite repeat_length in Hj. unfold val, at_.
  rewrite !(nth_indep _ 0%R x) by (rewrite repeat_length; lia). rewrite !nth_repeat. lra.
Qed.

Lemma fold_sorted (g : R -> Z -> nat) (m : KM) : kok m -> forall e, sorted e -> (forall x q, In x e -> In q m -> (x <= fst q)%R) ->
  sorted (fold_left (fun e '(k, c) => e ++ repeat k (g k c)) m e).
Proof.
  induction m as [|[k c] m IH]; intros H e He Hx; [exact He|]. destruct H as [H1 H2]. cbn [fold_left]. apply IH; [exact H2| |].
  - apply sorted_app; [exact He|apply sorted_repeat|]. intros x y X Y. apply repeat_spec in Y. subst y. apply (Hx x (k, c)); [exact X|left; reflexivity].
  - intros x q X Q. apply in_app_or in X. destruct X as [X|X]; [apply Hx; [exact X|right; exact Q]|].
    apply repeat_spec in X. subst x. specialize (H1 _ Q). lra.
Qed.

Lemma fold_ext {X Y} (f g : X -> Y -> X) l : (forall a b, f a b = g a b) -> forall a, fold_left f l a = fold_left g l a.
Proof. intros H. induction l as [|y l IH]; intros a; [reflexivity|]. cbn. rewrite H. apply IH. Qed.

Definition merge1 (finalMap : KM) (kc : R * Z) : KM := let '(key, count) := kc in
  match kmap_find finalMap key with
  | None => kmap_set finalMap key count
  | Some currentCount => if currentCount <? count then kmap_set finalMap key count else finalMap
  end.

Lemma merge1_ok m q : kok m -> kpos m -> 0 < snd q -> kok (merge1 m q) /\ kpos (merge1 m q) /\
  forall x, kmap_get (merge1 m q) x = if Req_EM_T (fst q) x then Z.max (kmap_get m x) (snd q) else kmap_get m x.
Proof.
  intros Hm Hp Hq. destruct q as [k c]. cbn [fst snd merge1] in *.
  assert (S0 : kpos (kmap_set m k c)).
  { intros x d. rewrite find_set by exact Hm. destruct (Req_EM_T k x); [intros E; injection E as <-; exact Hq|apply Hp]. }
  destruct (kmap_find m k) as [d|] eqn:E; [destruct (Z.ltb_spec d c)|].
  - split; [apply set_ok; exact Hm|]. split; [exact S0|]. intros x. unfold kmap_get. rewrite find_set by exact Hm.
    destruct (Req_EM_T k x) as [<-|]; [rewrite E; lia|reflexivity].
  - split; [exact Hm|]. split; [exact Hp|]. intros x. unfold kmap_get. destruct (Req_EM_T k x) as [<-|]; [rewrite E; lia|reflexivity].
  - split; [apply set_ok; exact Hm|]. split; [exact S0|]. intros x. unfold kmap_get. rewrite find_set by exact Hm.
    destruct (Req_EM_T k x) as [<-|]; [rewrite E; lia|reflexivity].
Qed.

Lemma merge_fold (m : KM) : kok m -> kpos m -> forall f, kok f -> kpos f ->
  let r := fold_left merge1 m f in kok r /\ kpos r /\ forall x, kmap_get r x = Z.max (kmap_get f x) (kmap_get m x).
Proof.
  induction m as [|[k c] m IH]; intros Hm Hp f Hf Hfp; cbv zeta.
  - cbn [fold_left]. split; [exact Hf|]. split; [exact Hfp|]. intros x. change (kmap_get [] x) with 0.
    unfold kmap_get. destruct (kmap_find f x) eqn:E; [specialize (Hfp _ _ E); lia|reflexivity].
  - assert (Hc : 0 < c). { apply (Hp k). apply find_in; [exact Hm|left; reflexivity]. }
    assert (Hp' : kpos m). { intros x d E. apply (Hp x). destruct Hm as [M1 M2]. apply find_in; [split; assumption|].
      right. apply find_in; assumption. }
    pose proof Hm as [M1 M2]. destruct (merge1_ok f (k, c) Hf Hfp Hc) as (A1 & A2 & A3). cbn [fst snd] in A3.
    cbn [fold_left]. destruct (IH M2 Hp' _ A1 A2) as (B1 & B2 & B3). split; [exact B1|]. split; [exact B2|].
    intros x. rewrite B3, A3. unfold kmap_get at 5. cbn [kmap_find]. num. destruct (Req_EM_T k x) as [<-|N0].
    + rewrite !Rltb_refl. unfold kmap_get at 2. rewrite (find_none_lt m k) by exact M1. lia.
    + destruct (Rltb_spec k x); [reflexivity|]. destruct (Rltb_spec x k) as [D|D]; [|exfalso; apply N0; lra].
      unfold kmap_get at 2. rewrite find_none_lt; [reflexivity|]. intros q Hq. specialize (M1 _ Hq). lra.
Qed.

Lemma final_fold (vs : list (list R)) : forall f, kok f -> kpos f ->
  let r := fold_left (fun f kv => fold_left merge1 (GetKnotMultiplicityMap kv) f) vs f in
  kok r /\ kpos r /\ forall x, (forall v, In v vs -> occ v x <= kmap_get r x) /\ kmap_get f x <= kmap_get r x /\
    (kmap_get r x = kmap_get f x \/ exists v, In v vs /\ occ v x = kmap_get r x).
Proof.
  induction vs as [|v vs IH]; intros f Hf Hp; cbv zeta; cbn [fold_left].
  - split; [exact Hf|]. split; [exact Hp|]. intros x. split; [intros v []|]. split; [lia|left; reflexivity].
  - destruct (mult_map v) as (V1 & V2 & V3). destruct (merge_fold _ V1 V2 f Hf Hp) as (M1 & M2 & M3).
    destruct (IH _ M1 M2) as (I1 & I2 & I3). split; [exact I1|]. split; [exact I2|]. intros x.
    destruct (I3 x) as (J1 & J2 & J3). rewrite M3, V3 in J2, J3. split; [|split; [lia|]].
    + intros w [<-|Hw]; [lia|auto].
    + destruct J3 as [J3|(w & W1 & W2)]; [|right; exists w; split; [right|]; assumption].
      destruct (Z.max_spec (kmap_get f x) (occ v x)) as [[A B]|[A B]]; rewrite B in J3; [right; exists v; split; [left; reflexivity|lia]|left; exact J3].
Qed.

Lemma GetInsertedKnotElements_ok (vs : list (list R)) :
  Forall2 (fun v e => sorted e /\ forall x, largest vs (fun w => occ w x) (occ (v ++ e) x)) vs (GetInsertedKnotElements vs).
Proof.
  unfold GetInsertedKnotElements. set (F := final_map vs).
  destruct (final_fold vs [] I) as (F1 & F2 & F3); [intros x c E; discriminate|].
  assert (EF : F = fold_left (fun f kv => fold_left merge1 (GetKnotMultiplicityMap kv) f) vs []).
  { unfold F, final_map. apply fold_ext. intros a b. apply fold_ext. intros c [k d]. reflexivity. }
  rewrite <- EF in F1, F2, F3. clearbody F. clear EF.
  assert (H : forall v, In v vs -> let e := fold_left (fun (insertElements : list R) '(key, count) =>
      match kmap_find (GetKnotMultiplicityMap v) key with
      | None => insertElements ++ repeat key (Z.to_nat count)
      | Some currentCount => insertElements ++ repeat key (Z.to_nat (count - currentCount))
      end) F [] in sorted e /\ forall x, largest vs (fun w => occ w x) (occ (v ++ e) x)).
  { intros v Hv e. unfold e. clear e.
    rewrite (fold_ext _ (fun e '(k, c) => e ++ repeat k (Z.to_nat (c - occ v k)))).
    2: { intros e [k c]. pose proof (mult_find v k) as G. destruct (kmap_find (GetKnotMultiplicityMap v) k) as [d|] eqn:E.
         - destruct (proj1 (G d) eq_refl) as [_ ->]. reflexivity.
         - assert (O0 : occ v k = 0). { pose proof (occ_nonneg v k). destruct (Z.eq_dec (occ v k) 0); [assumption|].
             assert (X : None = Some (occ v k)) by (apply G; lia). discriminate X. }
           rewrite O0, Z.sub_0_r. reflexivity. }
    split.
    - apply (fold_sorted (fun k c => Z.to_nat (c - occ v k))); [exact F1| |intros x q []]. intros i j Hi Hij Hj. cbn in Hj. lia.
    - intros x. destruct (F3 x) as (G1 & G2 & G3). rewrite occ_app.
      rewrite (fold_find _ (fun k c x => Z.max 0 (c - occ v k))) by
        first [exact F1 | intros e k c y; rewrite occ_app, occ_repeat; destruct (Req_EM_T k y); reflexivity].
      assert (E : occ v x + (occ [] x + match kmap_find F x with Some c => Z.max 0 (c - occ v x) | None => 0 end) = kmap_get F x).
      { specialize (G1 v Hv). change (occ [] x) with 0. unfold kmap_get in *. destruct (kmap_find F x); pose proof (occ_nonneg v x); lia. }
      rewrite E. split; [|exact G1]. destruct G3 as [G3|G3]; [|exact G3].
      change (kmap_get [] x) with 0 in G3. exists v. split; [exact Hv|]. specialize (G1 v Hv). pose proof (occ_nonneg v x). lia. }
  match goal with |- Forall2 _ vs (map ?g vs) => set (f := g) end.
  assert (H' : forall v, In v vs -> sorted (f v) /\ forall x, largest vs (fun w => occ w x) (occ (v ++ f v) x)) by exact H.
  clearbody f. clear H F3 F1 F2.
  assert (G : forall l, (forall v, In v l -> In v vs) -> (forall v, In v vs -> sorted (f v) /\ forall x, largest vs (fun w => occ w x) (occ (v ++ f v) x)) ->
    Forall2 (fun v e => sorted e /\ forall x, largest vs (fun w => occ w x) (occ (v ++ e) x)) l (map f l)).
  { clear. intros l Hl H. induction l as [|v l IH]; [constructor|]. cbn [map]. constructor; [apply H, Hl; left; reflexivity|].
    apply IH. intros w Hw. apply Hl. right. exact Hw. }
  apply G; auto.
Qed.

(* ---------------- std::sort ---------------- *)

Lemma sort_insert_perm x (l : list R) : Permutation (sort_insert x l) (x :: l).
Proof.
  induction l as [|y l IH]; [reflexivity|]. cbn [sort_insert]. destruct (nltb y x); [|reflexivity].
  rewrite IH. apply perm_swap.
Qed.
Lemma std_sort_perm (l : list R) : Permutation (std_sort l) l.
Proof. induction l as [|y l IH]; [reflexivity|]. cbn [std_sort]. rewrite sort_insert_perm, IH. reflexivity. Qed.

Lemma sorted_cons_iff x l : sorted (x :: l) <-> (forall y, In y l -> (x <= y)%R) /\ sorted l.
Proof.
  split.
  - intros H. split; [|apply (sorted_tail x); exact H]. intros y Hy. destruct (In_nth _ _ 0%R Hy) as (i & Hi & <-).
    pose proof (H 0 (Z.of_nat i + 1) ltac:(lia) ltac:(lia) ltac:(rewrite len_cons; unfold len; lia)) as G.
    rewrite (val_cons _ _ (Z.of_nat i + 1)) in G by lia. replace (Z.of_nat i + 1 - 1) with (Z.of_nat i) in G by lia.
    unfold val at 2, at_ in G. rewrite Nat2Z.id in G. exact G.
  - intros [H1 H2]. change (x :: l) with ([x] ++ l). apply sorted_app; [|exact H2|].
    + intros i j Hi Hij Hj. cbn in Hj. replace j with i by lia. lra.
    + intros a b [<-|[]] Hb. auto.
Qed.

Lemma sort_insert_sorted x (l : list R) : sorted l -> sorted (sort_insert x l).
Proof.
  induction l as [|y l IH]; intros H.
  - cbn [sort_insert]. apply sorted_cons_iff. split; [intros y []|exact H].
  - cbn [sort_insert]. num. apply sorted_cons_iff in H. destruct H as [H1 H2]. destruct (Rltb_spec y x) as [C|C].
    + apply sorted_cons_iff. split; [|auto]. intros z Hz. apply (Permutation_in _ (sort_insert_perm x l)) in Hz. destruct Hz as [<-|Hz]; [lra|auto].
    + apply sorted_cons_iff. split; [|apply sorted_cons_iff; auto]. intros z [<-|Hz]; [exact C|]. specialize (H1 _ Hz). lra.
Qed.
Lemma std_sort_is_sorted (l : list R) : sorted (std_sort l).
Proof. induction l as [|y l IH]; [intros i j Hi Hij Hj; cbn in Hj; lia|]. cbn [std_sort]. apply sort_insert_sorted. exact IH. Qed.
Lemma occ_perm l l' x : Permutation l l' -> occ l x = occ l' x.
Proof. intros H. unfold occ. rewrite (proj1 (Permutation_count_occ Req_EM_T l l') H x). reflexivity. Qed.

(* the two-vector version appends to its output arguments *)
Lemma GetInsertedKnotElement_ok (v0 v1 a0 a1 : list R) :
  let '(e0, e1) := GetInsertedKnotElement v0 v1 a0 a1 in sorted e0 /\ sorted e1 /\
  forall x, occ (v0 ++ e0) x = occ a0 x + Z.max (occ v0 x) (occ v1 x) /\
            occ (v1 ++ e1) x = occ a1 x + Z.max (occ v0 x) (occ v1 x).
Proof.
  unfold GetInsertedKnotElement. destruct (mult_map v0) as (M1 & M2 & M3), (mult_map v1) as (W1 & W2 & W3).
  pose proof (mult_find v0) as G0. pose proof (mult_find v1) as G1.
  set (map0 := GetKnotMultiplicityMap v0) in *. set (map1 := GetKnotMultiplicityMap v1) in *. clearbody map0 map1.
  assert (N1 : forall x, kmap_find map1 x = None -> occ v1 x = 0).
  { intros x E. rewrite <- W3. unfold kmap_get. rewrite E. reflexivity. }
  assert (N00 : forall x, kmap_find map0 x = None -> occ v0 x = 0).
  { intros x E. rewrite <- M3. unfold kmap_get. rewrite E. reflexivity. }
  set (body := fun '(e0, e1) '(key0, count0) => _).
  assert (H : forall (m : KM) e0 e1, kok m -> (forall q, In q m -> snd q = occ v0 (fst q)) ->
     let '(f0, f1) := fold_left body m (e0, e1) in
     forall x, occ f0 x = occ e0 x + (match kmap_find m x with Some c => if kmap_find map1 x then Z.max 0 (occ v1 x - c) else 0 | None => 0 end) /\
               occ f1 x = occ e1 x + match kmap_find m x with Some c => Z.max 0 (c - occ v1 x) | None => 0 end).
  { induction m as [|[k c] m IH]; intros e0 e1 Hm Hq; [cbn; intros x; split; lia|]. destruct Hm as [H1 H2]. cbn [fold_left].
    pose proof (Hq _ (or_introl eq_refl)) as Hc. cbn [fst snd] in Hc. pose proof (occ_nonneg v0 k) as P0. pose proof (occ_nonneg v1 k) as P1.
    destruct (body (e0, e1) (k, c)) as [g0 g1] eqn:Eb.
    specialize (IH g0 g1 H2 (fun q Hq' => Hq q (or_intror Hq'))). destruct (fold_left body m (g0, g1)) as [f0 f1].
    intros x. destruct (IH x) as [I1 I2]. rewrite I1, I2. clear I1 I2 IH.
    assert (B : occ g0 x = occ e0 x + (if Req_EM_T k x then if kmap_find map1 x then Z.max 0 (occ v1 x - c) else 0 else 0) /\
                occ g1 x = occ e1 x + (if Req_EM_T k x then Z.max 0 (c - occ v1 x) else 0)).
    { unfold body in Eb. destruct (kmap_find map1 k) as [d|] eqn:E.
      - destruct (proj1 (G1 k d) E) as [D1 D2]. destruct (Z.ltb_spec d c) as [C|C]; injection Eb as <- <-; rewrite ?occ_app, ?occ_repeat;
          destruct (Req_EM_T k x) as [<-|]; rewrite ?E; lia.
      - injection Eb as <- <-. rewrite ?occ_app, ?occ_repeat. destruct (Req_EM_T k x) as [<-|]; rewrite ?E, ?(N1 _ E); lia. }
    destruct B as [-> ->]. cbn [kmap_find]. num. destruct (Req_EM_T k x) as [<-|X0].
    - rewrite !Rltb_refl, (find_none_lt m) by exact H1. destruct (kmap_find map1 k); lia.
    - destruct (Rltb_spec k x); [lia|]. destruct (Rltb_spec x k) as [D|D]; [|exfalso; apply X0; lra].
      rewrite (find_none_lt m); [lia|]. intros q Hq'. specialize (H1 _ Hq'). lra. }
  specialize (H map0 a0 a1 M1). destruct (fold_left body map0 (a0, a1)) as [f0 f1].
  assert (Hq : forall q, In q map0 -> snd q = occ v0 (fst q)).
  { intros [k c] Hq. cbn. apply (find_in map0 k c M1) in Hq. apply G0 in Hq. tauto. }
  specialize (H Hq). clear Hq.
  split; [apply std_sort_is_sorted|]. split; [apply std_sort_is_sorted|]. intros x. rewrite !occ_app.
  rewrite !(occ_perm _ _ x (std_sort_perm _)).
  rewrite (fold_find _ (fun k c x => if kmap_find map0 k then 0 else Z.max 0 c)).
  2: { intros e k c y. destruct (kmap_find map0 k); [destruct (Req_EM_T k y); lia|]. rewrite occ_app, occ_repeat. reflexivity. }
  2: exact W1.
  destruct (H x) as [-> ->]. pose proof (occ_nonneg v0 x) as P0. pose proof (occ_nonneg v1 x) as P1.
  destruct (kmap_find map0 x) as [c0|] eqn:E0; destruct (kmap_find map1 x) as [c1|] eqn:E1;
    try (apply G0 in E0; destruct E0 as [A0 ->]); try (apply G1 in E1; destruct E1 as [A1 ->]);
    try apply N1 in E1; try apply N00 in E0; split; lia.
Qed.
