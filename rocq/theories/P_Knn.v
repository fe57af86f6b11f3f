(* The k-nearest-neighbour result set. *)
From Coq Require Import ZArith List Bool Reals Lra Lia Permutation Sorting.Sorted.
From Verif Require Import Base Num Vec Tac Spec Spec3 Spec7 M_MathUtils M_XYZ M_Octree P_Loop P_MathUtils P_Geom P_Octree P_OctSearch P_OctTop.
Import ListNotations.
Open Scope Z_scope.

Definition le1 (x y : R * Z) : Prop := (fst x <= fst y)%R.
Notation SS := (StronglySorted le1).

Lemma SS_app a b : SS (a ++ b) <-> SS a /\ SS b /\ forall x y, In x a -> In y b -> le1 x y.
Proof.
  induction a as [|u a IH]; cbn [app].
  - split; [intros H; split; [constructor|split; [exact H|intros x y []]]|tauto].
  - split.
    + intros H. apply StronglySorted_inv in H as [H1 H2]. apply IH in H1 as (A1 & A2 & A3). rewrite Forall_forall in H2. split.
      * constructor; [exact A1|]. apply Forall_forall. intros x Hx. apply H2, in_or_app. left. exact Hx.
      * split; [exact A2|]. intros x y [<-|Hx] Hy; [apply H2, in_or_app; right; exact Hy|apply A3; assumption].
    + intros (A1 & A2 & A3). apply StronglySorted_inv in A1 as [A4 A5]. rewrite Forall_forall in A5. constructor.
      * apply IH. split; [exact A4|]. split; [exact A2|]. intros x y Hx Hy. apply A3; [right; exact Hx|exact Hy].
      * apply Forall_forall. intros x Hx. apply in_app_or in Hx as [Hx|Hx]; [apply A5, Hx|apply A3; [left; reflexivity|exact Hx]].
Qed.

Lemma SS_at (d : R * Z) l : SS l -> forall i j, 0 <= i <= j -> j < len l -> (fst (at_ d l i) <= fst (at_ d l j))%R.
Proof.
  intros H i j Hij Hj. destruct (Z.eq_dec i j) as [->|Hne]; [lra|].
  assert (E : l = firstn (Z.to_nat j) l ++ skipn (Z.to_nat j) l) by (symmetry; apply firstn_skipn).
  assert (Hlf : length (firstn (Z.to_nat j) l) = Z.to_nat j) by (apply firstn_length_le; unfold len in Hj; lia).
  rewrite E in H. apply SS_app in H as (_ & _ & H).
  assert (Ei : at_ d l i = nth (Z.to_nat i) (firstn (Z.to_nat j) l) d) by (unfold at_; rewrite E at 1; apply app_nth1; lia).
  assert (Ej : at_ d l j = nth 0 (skipn (Z.to_nat j) l) d) by (unfold at_; rewrite E at 1; rewrite app_nth2 by lia; rewrite Hlf, Nat.sub_diag; reflexivity).
  rewrite Ei, Ej. apply H; apply nth_In; [lia|]. rewrite skipn_length. unfold len in Hj. lia.
Qed.

Lemma get_mid {X} (a : list X) y b : get (a ++ y :: b) (len a) = Ok y.
Proof. unfold get, len. destruct (Z.ltb_spec (Z.of_nat (length a)) 0); [lia|]. rewrite Nat2Z.id, nth_error_app2, Nat.sub_diag by lia. reflexivity. Qed.
Lemma upd_nat_mid {X} (a : list X) y b v : upd_nat (a ++ y :: b) (length a) v = a ++ v :: b.
Proof. induction a as [|u a IH]; [reflexivity|]. cbn [app length upd_nat]. rewrite IH. reflexivity. Qed.
Lemma upd_mid {X} (a : list X) y b v : upd (a ++ y :: b) (len a) v = Ok (a ++ v :: b).
Proof.
  unfold upd. assert (H : ((0 <=? len a) && (len a <? len (a ++ y :: b))) = true).
  { unfold len. rewrite app_length. cbn [length]. apply andb_true_intro. split; [apply Z.leb_le; lia|apply Z.ltb_lt; lia]. }
  rewrite H. unfold len. rewrite Nat2Z.id, upd_nat_mid. reflexivity.
Qed.

(* shifting down the entries that are farther than dist *)
Lemma shift_ok (dist : R) (K : list (R * Z)) i0 pre z tail : K = pre ++ z :: tail -> len pre = i0 ->
  wp (while_ (length K)
        (fun '(i, l) => if 0 <? i then let! e := get l (i - 1) in Ok (IsGreaterThan (fst e) dist) else Ok false)
        (i0, K)
        (fun '(i, l) => let! e := get l (i - 1) in let! l := upd l i e in Ok (i - 1, l)))
     (fun '(i, L) => exists a b junk, pre = a ++ b /\ L = a ++ junk :: b ++ tail /\ len a = i /\
        (forall y, In y b -> IsGreaterThan (fst y) dist = true) /\
        (a = [] \/ exists a' y, a = a' ++ [y] /\ IsGreaterThan (fst y) dist = false)).
Proof.
  intros HK Hp.
  apply wp_while with (I := fun '(i, L) => exists a b junk, pre = a ++ b /\ L = a ++ junk :: b ++ tail /\ len a = i /\
        (forall y, In y b -> IsGreaterThan (fst y) dist = true)) (mu := fun '(i, _) => Z.to_nat i).
  - exists pre, [], z. rewrite app_nil_r. split; [reflexivity|]. split; [exact HK|]. split; [exact Hp|intros y []].
  - rewrite HK, app_length. subst i0. unfold len. cbn [length]. lia.
  - intros [i L] (a & b & junk & E1 & E2 & E3 & E4). destruct (Z.ltb_spec 0 i) as [Hi|Hi].
    + destruct (exists_last (l := a)) as (a' & y & Ea); [intros ->; unfold len in E3; cbn in E3; lia|].
      assert (Hl : len a' = i - 1) by (subst a; unfold len in *; rewrite app_length in E3; cbn [length] in E3; lia).
      assert (Hg : get L (i - 1) = Ok y) by (rewrite E2, Ea, <- app_assoc, <- Hl; apply get_mid).
      rewrite Hg. cbn [bind]. apply wp_ok. destruct (IsGreaterThan (fst y) dist) eqn:Eg.
      * assert (Hu : upd L i y = Ok (a' ++ y :: y :: b ++ tail)).
        { rewrite E2, <- E3. rewrite upd_mid. rewrite Ea, <- app_assoc. reflexivity. }
        rewrite Hu. cbn [bind]. apply wp_ok. split; [|lia]. exists a', (y :: b), y. split; [rewrite E1, Ea, <- app_assoc; reflexivity|].
        split; [reflexivity|]. split; [exact Hl|]. intros u [<-|Hu2]; [exact Eg|apply E4, Hu2].
      * exists a, b, junk. split; [exact E1|]. split; [exact E2|]. split; [exact E3|]. split; [exact E4|]. right. exists a', y. split; [exact Ea|exact Eg].
    + apply wp_ok. exists a, b, junk. split; [exact E1|]. split; [exact E2|]. split; [exact E3|]. split; [exact E4|]. left.
      destruct a; [reflexivity|]. unfold len in E3. cbn [length] in E3. lia.
Qed.

Lemma far_eq : knn_far (A := R) = far.
Proof. unfold knn_far, far. num. lra. Qed.

(* what the set holds after the insertions h *)
Definition knn_inv (k : Z) (h : list (R * Z)) (s : KnnSet R) : Prop :=
  kCapacity s = k /\ kCount s = Z.min k (len h) /\
  exists l rest, Permutation h (l ++ rest) /\ len l = Z.min k (len h) /\ SS l /\
    (forall x y, In x l -> In y rest -> le1 x y) /\
    kList s = l ++ repeat (far, 0) (Z.to_nat (k - len l)) /\
    kWorst s = fst (at_ (far, 0) (kList s) (k - 1)).

Lemma knn_new k : 1 <= k -> exists s, KnnResultSet (A := R) k = Ok s /\ knn_inv k [] s.
Proof.
  intros Hk. unfold KnnResultSet, mkvec. destruct (Z.ltb_spec k 0); [lia|]. cbn [bind]. eexists. split; [reflexivity|].
  split; [reflexivity|]. split; [unfold len; cbn [kCount length]; lia|]. exists [], []. cbn [kList kWorst app]. rewrite far_eq.
  assert (E0 : len (@nil (R * Z)) = 0) by reflexivity. split; [reflexivity|]. split; [rewrite E0; lia|]. split; [constructor|]. split; [intros x y []|].
  split; [f_equal; rewrite E0; lia|]. unfold at_. destruct (nth_in_or_default (Z.to_nat (k - 1)) (repeat (far, 0) (Z.to_nat k)) (far, 0)) as [H0|E]; [|rewrite E; reflexivity].
  apply repeat_spec in H0. rewrite H0. reflexivity.
Qed.

Lemma gt_distinguishable x y : distinguishable x y -> (IsGreaterThan x y = true <-> (y < x)%R).
Proof.
  intros H. rewrite gt_iff. unfold distinguishable, tol in H. unfold thr. rewrite eps_val.
  pose proof (Rmax_l (Rabs x) (Rabs y)). pose proof (Rabs_pos x). split; [lra|]. destruct H as [H|[H|H]]; lra.
Qed.

Lemma at_last {X} (d : X) a y : at_ d (a ++ [y]) (len a) = y.
Proof. unfold at_, len. rewrite Nat2Z.id, app_nth2, Nat.sub_diag by lia. reflexivity. Qed.
Lemma at_far l m i : len l <= i -> at_ (far, 0) (l ++ repeat (far, 0) m) i = (far, 0).
Proof.
  intros H. unfold at_, len in *. rewrite app_nth2 by lia.
  destruct (nth_in_or_default (Z.to_nat i - length l) (repeat (far, 0) m) (far, 0)) as [H0|E]; [|exact E]. apply repeat_spec in H0. exact H0.
Qed.

Lemma at_app_l {X} (d : X) l1 l2 i : 0 <= i < len l1 -> at_ d (l1 ++ l2) i = at_ d l1 i.
Proof. intros H. unfold at_, len in *. apply app_nth1. lia. Qed.

Lemma knn_add k h s d j : 1 <= k -> knn_inv k h s -> (d + tol d far < far)%R ->
  (forall x, In x h -> (fst x + tol (fst x) far < far)%R /\ distinguishable (fst x) d) ->
  exists s', KnnAddPoint s d j = Ok s' /\ knn_inv k (h ++ [(d, j)]) s' /\ (kWorst s' <= kWorst s)%R.
Proof.
  intros Hk (Hc & Hn & l & rest & HP & Hl & HS & HR & HL & HW) Hd Hh.
  assert (Htp : forall x y, (0 <= tol x y)%R) by (intros x y; unfold tol; pose proof (Rmax_l (Rabs x) (Rabs y)); pose proof (Rabs_pos x); lra).
  assert (Hlh : forall x, In x l -> In x h) by (intros x Hx; apply (Permutation_in x (Permutation_sym HP)), in_or_app; left; exact Hx).
  assert (Hlfar : forall x, In x l -> (fst x < far)%R) by (intros x Hx; destruct (Hh x (Hlh x Hx)) as [H _]; pose proof (Htp (fst x) far); lra).
  assert (Hdf : (d < far)%R) by (pose proof (Htp d far); lra).
  assert (Hnh : len (h ++ [(d, j)]) = len h + 1) by (unfold len; rewrite app_length; cbn [length]; lia).
  assert (Hh0 : 0 <= len h) by (unfold len; lia).
  (* the value of the worst distance *)
  assert (Hfull : k <= len h -> exists l0 z, l = l0 ++ [z] /\ len l0 = k - 1 /\ kWorst s = fst z).
  { intros Hf. assert (Hlk : len l = k) by lia. destruct (exists_last (l := l)) as (l0 & z & E); [intros ->; unfold len in Hlk; cbn in Hlk; lia|].
    assert (Hl0 : len l0 = k - 1) by (rewrite E in Hlk; unfold len in *; rewrite app_length in Hlk; cbn [length] in Hlk; lia).
    exists l0, z. split; [exact E|]. split; [exact Hl0|]. rewrite HW, HL, Hlk. replace (Z.to_nat (k - k)) with 0%nat by lia. cbn [repeat]. rewrite app_nil_r, E, <- Hl0, at_last. reflexivity. }
  assert (Hnot : len h < k -> kWorst s = far).
  { intros Hf. rewrite HW, HL, at_far by lia. reflexivity. }
  unfold KnnAddPoint. destruct (IsGreaterThan d (kWorst s)) eqn:Eg.
  - (* farther than the worst *)
    destruct (Z_lt_le_dec (len h) k) as [Hf|Hf].
    { rewrite (Hnot Hf) in Eg. apply gt_iff in Eg. assert (0 <= thr eps d far)%R by (unfold thr; rewrite eps_val; pose proof (Rmax_l (Rabs d) (Rabs far)); pose proof (Rabs_pos d); lra). lra. }
    destruct (Hfull Hf) as (l0 & z & El & Hl0 & Ez). exists s. split; [reflexivity|]. split; [|lra].
    split; [exact Hc|]. split; [rewrite Hnh; lia|]. exists l, (rest ++ [(d, j)]). split; [rewrite app_assoc; apply Permutation_app_tail, HP|].
    split; [lia|]. split; [exact HS|]. split; [|split; assumption]. intros x y Hx Hy. apply in_app_or in Hy as [Hy|[<-|[]]]; [apply HR; assumption|].
    unfold le1. cbn [fst]. apply gt_iff in Eg. assert (0 <= thr eps d (kWorst s))%R by (unfold thr; rewrite eps_val; pose proof (Rmax_l (Rabs d) (Rabs (kWorst s))); pose proof (Rabs_pos d); lra).
    assert (Hxz : (fst x <= fst z)%R).
    { rewrite El in HS, Hx. apply SS_app in HS as (_ & _ & HS). apply in_app_or in Hx as [Hx|[<-|[]]]; [apply HS; [exact Hx|left; reflexivity]|lra]. }
    lra.
  - (* inserted *)
    assert (Hins : exists i0 count pre z tail, (if kCount s <? kCapacity s then (kCount s + 1, kCount s) else (kCount s, kCapacity s - 1)) = (count, i0) /\
       count = Z.min k (len h + 1) /\ kList s = pre ++ z :: tail /\ len pre = i0 /\ count = i0 + 1 /\
       tail = repeat (far, 0) (Z.to_nat (k - count)) /\ SS pre /\ (fst z <= kWorst s)%R /\
       exists rest', Permutation h (pre ++ rest') /\ (forall x y, In x pre -> In y rest' -> le1 x y) /\ (forall y, In y rest' -> (d <= fst y)%R) /\
         (count = k -> kWorst s = far \/ kWorst s = fst z /\ In z rest')).
    { rewrite Hc, Hn. destruct (Z.ltb_spec (Z.min k (len h)) k) as [Hf|Hf].
      - exists (Z.min k (len h)), (Z.min k (len h) + 1), l, (far, 0), (repeat (far, 0) (Z.to_nat (k - (Z.min k (len h) + 1)))).
        split; [reflexivity|]. split; [lia|]. split.
        { rewrite HL, Hl. f_equal. replace (Z.to_nat (k - Z.min k (len h))) with (S (Z.to_nat (k - (Z.min k (len h) + 1)))) by lia. reflexivity. }
        split; [exact Hl|]. split; [reflexivity|]. split; [reflexivity|]. split; [exact HS|]. rewrite (Hnot ltac:(lia)). split; [cbn; lra|].
        exists rest. split; [exact HP|]. split; [exact HR|]. split; [|intros _; left; reflexivity].
        assert (Er : rest = []).
        { apply Permutation_length in HP. rewrite app_length in HP. unfold len in *. destruct rest; [reflexivity|cbn [length] in HP; lia]. }
        rewrite Er. intros y [].
      - destruct (Hfull ltac:(lia)) as (l0 & z & El & Hl0 & Ez). exists (k - 1), (Z.min k (len h)), l0, z, [].
        split; [reflexivity|]. split; [lia|]. split.
        { rewrite HL, Hl. replace (Z.to_nat (k - Z.min k (len h))) with 0%nat by lia. cbn [repeat]. rewrite app_nil_r. exact El. }
        split; [exact Hl0|]. split; [lia|]. split; [replace (Z.to_nat (k - Z.min k (len h))) with 0%nat by lia; reflexivity|].
        rewrite El in HS. apply SS_app in HS as (S1 & _ & S2). split; [exact S1|]. rewrite Ez. split; [lra|].
        exists (z :: rest). split; [rewrite HP, El, <- app_assoc; reflexivity|].
        assert (Hzr : forall y, In y rest -> (fst z <= fst y)%R) by (intros y Hy; apply HR; [rewrite El; apply in_or_app; right; left; reflexivity|exact Hy]).
        assert (Hdz : (d <= fst z)%R).
        { destruct (Rle_lt_dec d (fst z)) as [H|H]; [exact H|]. exfalso. rewrite Ez in Eg.
          destruct (Hh z) as [_ Hdi]; [apply Hlh; rewrite El; apply in_or_app; right; left; reflexivity|].
          assert (Hdi' : distinguishable d (fst z)) by (unfold distinguishable, tol in *; rewrite Rmax_comm; destruct Hdi as [->|[?|?]]; [left; reflexivity|right; right; assumption|right; left; assumption]).
          apply (gt_distinguishable _ _ Hdi') in H. congruence. }
        split; [intros x y Hx [<-|Hy]; [apply S2; [exact Hx|left; reflexivity]|apply HR; [rewrite El; apply in_or_app; left; exact Hx|exact Hy]]|].
        split; [intros y [<-|Hy]; [exact Hdz|specialize (Hzr y Hy); lra]|]. intros _. right. split; [reflexivity|left; reflexivity]. }
    destruct Hins as (i0 & count & pre & z & tail & Ec & Ecount & EK & Epre & Eci & Etail & Spre & Hz & rest' & HP' & HR' & Hdr & Hwz).
    rewrite Ec. destruct (wp_elim _ _ (shift_ok d (kList s) i0 pre z tail EK Epre)) as ([i L] & EW & a & b & junk & E1 & E2 & E3 & E4 & E5).
    rewrite EW. cbn [bind]. rewrite E2, <- E3, upd_mid. cbn [bind].
    set (l' := a ++ (d, j) :: b). assert (EL : a ++ (d, j) :: b ++ tail = l' ++ tail) by (unfold l'; rewrite <- app_assoc; reflexivity). rewrite EL.
    assert (Hl' : len l' = count) by (unfold l', len in *; rewrite E1, app_length in Epre; rewrite app_length; cbn [length]; lia).
    assert (Hlt : len (l' ++ tail) = k) by (unfold len in *; rewrite app_length, Etail, repeat_length; lia).
    rewrite Hc. rewrite (get_at (far, 0)) by lia. cbn [bind]. eexists. split; [reflexivity|].
    assert (Hpreh : forall x, In x pre -> In x h) by (intros x Hx; apply (Permutation_in x (Permutation_sym HP')), in_or_app; left; exact Hx).
    assert (Ha : forall x, In x a -> (fst x <= d)%R).
    { destruct E5 as [->|(a' & y & Ea & Ey)]; [intros x []|]. 
      assert (Hy : (fst y <= d)%R).
      { destruct (Rle_lt_dec (fst y) d) as [H|H]; [exact H|]. exfalso. destruct (Hh y) as [_ Hdi]; [apply Hpreh; rewrite E1, Ea; apply in_or_app; left; apply in_or_app; right; left; reflexivity|].
        apply (gt_distinguishable _ _ Hdi) in H. congruence. }
      intros x Hx. rewrite E1 in Spre. apply SS_app in Spre as (Sa & _ & _). rewrite Ea in Sa, Hx. apply SS_app in Sa as (_ & _ & Sa).
      apply in_app_or in Hx as [Hx|[<-|[]]]; [|exact Hy]. specialize (Sa x y Hx (or_introl eq_refl)). unfold le1 in Sa. lra. }
    assert (Hb : forall y, In y b -> (d <= fst y)%R).
    { intros y Hy. specialize (E4 y Hy). apply gt_iff in E4. assert (0 <= thr eps (fst y) d)%R by (unfold thr; rewrite eps_val; pose proof (Rmax_l (Rabs (fst y)) (Rabs d)); pose proof (Rabs_pos (fst y)); lra). lra. }
    assert (Sl' : SS l').
    { rewrite E1 in Spre. apply SS_app in Spre as (Sa & Sb & Sab). unfold l'. apply SS_app. split; [exact Sa|]. split.
      - constructor; [exact Sb|]. apply Forall_forall. intros y Hy. apply Hb, Hy.
      - intros x y Hx [<-|Hy]; [apply Ha, Hx|apply Sab; assumption]. }
    assert (Hl'r : forall x y, In x l' -> In y rest' -> le1 x y).
    { intros x y Hx Hy. unfold l' in Hx. apply in_app_or in Hx as [Hx|[<-|Hx]]; [apply HR'; [rewrite E1; apply in_or_app; left; exact Hx|exact Hy]|apply Hdr, Hy|apply HR'; [rewrite E1; apply in_or_app; right; exact Hx|exact Hy]]. }
    assert (Hl'far : forall x, In x l' -> (fst x < far)%R).
    { intros x Hx. unfold l' in Hx. apply in_app_or in Hx as [Hx|[<-|Hx]]; [|exact Hdf|];
        (destruct (Hh x) as [H _]; [apply Hpreh; rewrite E1; apply in_or_app; tauto|]; pose proof (Htp (fst x) far); lra). }
    split.
    + split; [reflexivity|]. cbn [kCapacity kCount kList kWorst]. split; [rewrite Hnh; exact Ecount|]. exists l', rest'. split.
      { unfold l'. rewrite HP', E1. etransitivity; [apply Permutation_sym, Permutation_cons_append|]. rewrite <- !app_assoc. cbn [app]. apply Permutation_middle. }
      split; [rewrite Hnh; lia|]. split; [exact Sl'|]. split; [exact Hl'r|]. split; [rewrite Hl', <- Etail; reflexivity|]. reflexivity.
    + cbn [kWorst]. destruct (Z.eq_dec count k) as [Ek|Ek].
      * rewrite at_app_l by lia. assert (HIn : In (at_ (far, 0) l' (k - 1)) l') by (apply nth_In; unfold len in Hl'; lia).
        destruct (Hwz Ek) as [-> | [-> Hzr]]; [apply Rlt_le, Hl'far, HIn|apply Hl'r; assumption].
      * rewrite Etail, at_far by lia. cbn [fst]. rewrite Hnot by lia. lra.
Qed.

(* ---------------- histories ---------------- *)
Lemma knn_history_gen k h : 1 <= k -> forall h0 s, knn_inv k h0 s -> clear (h0 ++ h) ->
  exists s', knn_adds s h = Ok s' /\ knn_inv k (h0 ++ h) s'.
Proof.
  intros Hk. induction h as [|[d j] h IH]; intros h0 s Hs Hc.
  - exists s. rewrite app_nil_r. split; [reflexivity|exact Hs].
  - assert (Hdj : In (d, j) (h0 ++ (d, j) :: h)) by (apply in_or_app; right; left; reflexivity).
    destruct Hc as [H1 H2]. destruct (knn_add k h0 s d j Hk Hs (H1 _ Hdj)) as (s1 & E & Hs1 & _).
    { intros x Hx. assert (Hx' : In x (h0 ++ (d, j) :: h)) by (apply in_or_app; left; exact Hx). split; [apply H1, Hx'|apply (H2 _ _ Hx' Hdj)]. }
    cbn [knn_adds]. rewrite E. cbn [bind]. replace (h0 ++ (d, j) :: h) with ((h0 ++ [(d, j)]) ++ h) in * by (rewrite <- app_assoc; reflexivity).
    apply IH; [exact Hs1|split; assumption].
Qed.

Lemma knn_inv_nearest k h s : 1 <= k -> knn_inv k h s ->
  KnnSize s = Z.min k (len h) /\ (KnnFull s = true <-> k <= len h) /\
  exists l, nearest (Z.min k (len h)) h l /\ kList s = l ++ repeat (far, 0) (Z.to_nat (k - len l)) /\
    KnnWorstDist s = if k <=? len h then fst (at_ (0%R, 0) l (k - 1)) else far.
Proof.
  intros Hk (Hc & Hn & l & rest & HP & Hl & HS & HR & HL & HW). assert (Hh0 : 0 <= len h) by (unfold len; lia). split; [exact Hn|]. split.
  - unfold KnnFull. rewrite Hn, Hc, Z.eqb_eq. lia.
  - exists l. split; [|split; [exact HL|]].
    + split; [exact Hl|]. split; [intros i j Hij Hj; apply SS_at; [exact HS|exact Hij|lia]|]. exists rest. split; [exact HP|exact HR].
    + unfold KnnWorstDist. rewrite HW, HL. destruct (Z.leb_spec k (len h)).
      * rewrite at_app_l by lia. unfold at_. f_equal. apply nth_indep. unfold len in *. lia.
      * rewrite at_far by lia. reflexivity.
Qed.

Lemma knn_history k h : 1 <= k -> clear h ->
  wp (let! s := KnnResultSet k in knn_adds s h) (fun s =>
    KnnSize s = Z.min k (len h) /\ (KnnFull s = true <-> k <= len h) /\
    exists l, nearest (Z.min k (len h)) h l /\ kList s = l ++ repeat (far, 0) (Z.to_nat (k - len l)) /\
      KnnWorstDist s = if k <=? len h then fst (at_ (0%R, 0) l (k - 1)) else far).
Proof.
  intros Hk Hc. destruct (knn_new k Hk) as (s0 & -> & H0). cbn [bind].
  destruct (knn_history_gen k h Hk [] s0 H0 Hc) as (s & -> & Hs). apply wp_ok. apply knn_inv_nearest; assumption.
Qed.

(* ---------------- nearest neighbour search ---------------- *)
Section KnnSearch.
Variable db : list (XYZ R).
Variable q : XYZ R.
Variable k : Z.
Hypothesis Hk : 1 <= k.
Hypothesis Hfar : forall j, 0 <= j < len db -> (delta db q j <= 8000000000)%R.
Hypothesis Hdist : forall i j, 0 <= i < len db -> 0 <= j < len db -> distinguishable (delta db q i) (delta db q j).

Definition entry (j : Z) : R * Z := (delta db q j, j).
Definition kInv (s : KnnSet R) : Prop := exists L, (forall j, In j L -> 0 <= j < len db) /\ knn_inv k (map entry L) s.

Lemma delta_far j : 0 <= j < len db -> (delta db q j + tol (delta db q j) far < far)%R.
Proof.
  intros Hj. specialize (Hfar j Hj). pose proof (dist3_pos q (dpt db j)) as Hp. fold (delta db q j) in Hp. unfold tol. rewrite Rmax_right; unfold far in *.
  - rewrite (Rabs_pos_eq 10000000000) by lra. lra.
  - rewrite !Rabs_pos_eq by lra. lra.
Qed.

Lemma knn_add_entry L s j : (forall j, In j L -> 0 <= j < len db) -> knn_inv k (map entry L) s -> 0 <= j < len db ->
  exists s', KnnAddPoint s (delta db q j) j = Ok s' /\ knn_inv k (map entry (L ++ [j])) s' /\ (kWorst s' <= kWorst s)%R.
Proof.
  intros HL Hs Hj. rewrite map_app. apply (knn_add k (map entry L) s); [exact Hk|exact Hs|apply delta_far, Hj|].
  intros x Hx. apply in_map_iff in Hx as (i & <- & Hi). cbn [entry fst]. split; [apply delta_far, HL, Hi|apply Hdist; [apply HL, Hi|exact Hj]].
Qed.

Lemma kAdd_ok s j : kInv s -> 0 <= j < len db ->
  exists s', KnnAddPoint s (delta db q j) j = Ok s' /\ kInv s' /\ (KnnWorstDist s' <= KnnWorstDist s)%R.
Proof.
  intros (L & HL & Hs) Hj. destruct (knn_add_entry L s j HL Hs Hj) as (s' & E & H1 & H2). exists s'. split; [exact E|]. split; [|exact H2].
  exists (L ++ [j]). split; [|exact H1]. intros i Hi. apply in_app_or in Hi as [Hi|[<-|[]]]; [apply HL, Hi|exact Hj].
Qed.

Lemma knn_runs L : forall L0 s s', (forall j, In j (L0 ++ L) -> 0 <= j < len db) -> knn_inv k (map entry L0) s -> runs KnnAddPoint db q s L s' ->
  knn_inv k (map entry (L0 ++ L)) s'.
Proof.
  induction L as [|j L IH]; intros L0 s s' HL Hs H; cbn [runs] in H.
  - subst. rewrite app_nil_r. exact Hs.
  - destruct H as (s1 & E & H). destruct (knn_add_entry L0 s j) as (s2 & E2 & H2 & _); [intros; apply HL, in_or_app; left; assumption|exact Hs|apply HL, in_or_app; right; left; reflexivity|].
    rewrite E in E2. injection E2 as <-. replace (L0 ++ j :: L) with ((L0 ++ [j]) ++ L) in * by (rewrite <- app_assoc; reflexivity).
    apply (IH _ s1); [exact HL|exact H2|exact H].
Qed.

Lemma upto_length n : length (upto n) = Z.to_nat n.
Proof. unfold upto. rewrite map_length, seq_length. reflexivity. Qed.

Lemma NoDup_app_l {X} (a b : list X) : NoDup (a ++ b) -> NoDup a.
Proof.
  induction a as [|u a IH]; cbn [app]; intros H; [constructor|]. inversion H; subst. constructor; [|apply IH; assumption].
  intros Hu. apply H2, in_or_app. left. exact Hu.
Qed.

Lemma KnnSearch_ok fuel ls (me : R) t B : OctreeConstruction fuel db ls me = Ok t -> (B <= 1000000000)%R -> within B db ->
  wp (let! s := KnnResultSet k in OctreeKnnSearch t db s q) (fun r => knn_result db q k B (snd r)).
Proof.
  intros HC HB Hw. apply construction_Built in HC. destruct (knn_new k Hk) as (s0 & -> & H0). cbn [bind].
  assert (Hdb0 : 0 <= len db) by (unfold len; lia).
  assert (K0 : kInv s0) by (exists []; split; [intros j []|exact H0]).
  set (B' := if len db =? 0 then 0%R else B).
  assert (HB0 : (0 <= B')%R).
  { unfold B'. destruct (Z.eqb_spec (len db) 0) as [E|E]; [lra|]. destruct db as [|p db']; [unfold len in E; cbn in E; lia|].
    destruct (Hw p (or_introl eq_refl)) as [H1 _]. pose proof (Rabs_pos (gx p)). lra. }
  pose proof (search_ok KnnWorstDist KnnAddPoint db q kInv kAdd_ok (3 * B') _ ltac:(lra) eq_refl _ _ _ _ HC (upto_valid db) (upto_NoDup _) s0 K0) as W.
  eapply wp_mono; [exact W|]. intros [b s] (L & R1 & N1 & I1 & V1 & W1 & G1). cbn [fst snd] in *.
  assert (HLr : forall j, In j L -> 0 <= j < len db) by (intros j Hj; apply upto_In, I1, Hj).
  pose proof (knn_runs L [] s0 s HLr H0 R1) as Hs. cbn [app] in Hs.
  assert (Hmiss : forall j, 0 <= j < len db -> ~ In j L -> ~ near (1 / 1000000 * (1 + 3 * B)) (delta db q j) (KnnWorstDist s)).
  { intros j Hj HjL. assert (Ene : len db <> 0) by lia. assert (EB : B' = B) by (unfold B'; destruct (Z.eqb_spec (len db) 0); [lia|reflexivity]). rewrite EB in *.
    apply G1; [|apply upto_In, Hj|exact HjL]. apply root_geom; [|exact Hw|intros E; apply Ene; rewrite E; reflexivity].
    eapply Rle_trans; [exact HB|]. replace 1000%nat with (30 + 970)%nat by reflexivity. rewrite pow_add.
    assert (1 <= 2 ^ 970)%R by (apply pow_R1_Rle; lra). assert (2 ^ 30 = 1073741824)%R by (cbn [pow]; lra). rewrite H1. set (P := (2 ^ 970)%R) in *. lra. }
  assert (Hlen : len (map entry L) = len L) by (unfold len; rewrite map_length; reflexivity).
  assert (HLn : len L <= len db).
  { unfold len. assert (H := NoDup_incl_length N1 I1). rewrite upto_length in H. unfold len in H. lia. }
  destruct (knn_inv_nearest k _ s Hk Hs) as (S1 & S2 & l & (M1 & M2 & rest & M3 & M4) & S3 & S4). rewrite Hlen in *.
  assert (Hmin : Z.min k (len L) = Z.min k (len db)).
  { destruct (Z_lt_le_dec (len L) (Z.min k (len db))) as [Hlt|Hge]; [|lia]. exfalso.
    assert (Hex : exists j, 0 <= j < len db /\ ~ In j L).
    { destruct (Forall_Exists_dec (fun j => In j L) (fun j => in_dec Z.eq_dec j L) (upto (len db))) as [F|F].
      - exfalso. rewrite Forall_forall in F. assert (H := NoDup_incl_length (upto_NoDup (len db)) F). rewrite upto_length in H. unfold len in *. lia.
      - apply Exists_exists in F as (j & Hj & Hn). exists j. split; [apply upto_In, Hj|exact Hn]. }
    destruct Hex as (j & Hj & HjL). apply (Hmiss j Hj HjL). rewrite S4. destruct (Z.leb_spec k (len L)); [lia|].
    pose proof (Hfar j Hj). pose proof (dist3_pos q (dpt db j)) as Hp. fold (delta db q j) in Hp.
    assert (HBp : (0 <= B)%R) by (unfold B' in HB0; destruct (Z.eqb_spec (len db) 0); [lia|exact HB0]).
    unfold near, far. split; [lra|]. 
    assert ((delta db q j + 2 * (1 / 1000000 * (1 + 3 * B))) * (delta db q j + 2 * (1 / 1000000 * (1 + 3 * B))) <= 9000000000 * 9000000000)%R by (apply Rmult_le_compat; lra). lra. }
  rewrite Hmin in *.
  assert (Hle : forall x, In x l -> (fst x <= KnnWorstDist s)%R).
  { intros x Hx. rewrite S4. destruct (Z.leb_spec k (len L)) as [Hf|Hf].
    - destruct (In_nth l x (0%R, 0) Hx) as (n & Hn & <-). change (nth n l (0%R, 0)) with (at_ (0%R, 0) l 0) || idtac.
      replace (nth n l (0%R, 0)) with (at_ (0%R, 0) l (Z.of_nat n)) by (unfold at_; rewrite Nat2Z.id; reflexivity). unfold len in *. apply M2; lia.
    - assert (Hxh : In x (map entry L)) by (apply (Permutation_in x (Permutation_sym M3)), in_or_app; left; exact Hx).
      apply in_map_iff in Hxh as (i & <- & Hi). cbn [entry fst]. pose proof (Hfar i (HLr i Hi)). unfold far. lra. }
  assert (Hent : map snd (map entry L) = L) by (rewrite map_map; cbn [entry snd]; apply map_id).
  split; [exact S1|]. exists l. split; [exact S3|]. split; [exact M1|]. split.
  { apply (NoDup_app_l _ (map snd rest)). rewrite <- map_app. apply (Permutation_NoDup (Permutation_map snd M3)). rewrite Hent. exact N1. }
  split.
  { intros d j Hdj. split; [|split; [|apply (Hle _ Hdj)]];
      (assert (Hx : In (d, j) (map entry L)) by (apply (Permutation_in _ (Permutation_sym M3)), in_or_app; left; exact Hdj);
       apply in_map_iff in Hx as (i & E & Hi); injection E as <- ->); [apply HLr, Hi|reflexivity]. }
  split; [intros i j Hij Hj; apply M2; [exact Hij|lia]|].
  intros j Hj Hnl. destruct (in_dec Z.eq_dec j L) as [HjL|HjL]; [|exact (Hmiss j Hj HjL)].
  (* offered, but not among the best *)
  assert (Hx : In (entry j) (l ++ rest)) by (apply (Permutation_in _ M3), in_map, HjL).
  apply in_app_or in Hx as [Hx|Hx]; [exfalso; apply Hnl; apply in_map_iff; exists (entry j); split; [reflexivity|exact Hx]|].
  assert (Hbig : (KnnWorstDist s <= delta db q j)%R).
  { rewrite S4. destruct (Z.leb_spec k (len L)) as [Hf|Hf].
    - apply (M4 _ (entry j)); [|exact Hx]. apply nth_In. unfold len in *. lia.
    - exfalso. assert (Hr : rest = []); [|rewrite Hr in Hx; exact Hx]. apply Permutation_length in M3. rewrite app_length, map_length in M3. unfold len in *. destruct rest; [reflexivity|cbn [length] in M3; lia]. }
  intros Hn. assert (HBp : (0 <= B)%R) by (unfold B' in HB0; destruct (Z.eqb_spec (len db) 0); [lia|exact HB0]).
  pose proof (near_lt (1 / 1000000 * (1 + 3 * B)) _ _ ltac:(lra) (dist3_pos _ _) Hn). unfold delta in Hbig. lra.
Qed.
End KnnSearch.
