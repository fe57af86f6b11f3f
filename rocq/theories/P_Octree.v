(* Octree construction. *)
From Coq Require Import ZArith List Bool Reals Lra Lia Permutation.
From Verif Require Import Base Num Vec Tac Spec Spec3 Spec7 M_MathUtils M_XYZ M_Octree P_Loop.
Import ListNotations.
Open Scope Z_scope.

Section Built.
Context {A : Type} {NA : Num A}.
Notation pt3 := (XYZ A).
Variable db : list pt3.
Notation dpt := (dpt db).
Definition inb (c : pt3) (i : Z) (idx : list Z) : list Z := filter (fun j => morton (dpt j) c =? i) idx.

(* the trees that construction returns *)
Inductive Built : pt3 -> A -> list Z -> octree A -> Prop :=
| B_null c e : Built c e [] ONull
| B_leaf c e idx : idx <> [] -> Built c e idx (ONode c e idx true (repeat ONull 8))
| B_node c e idx ch : idx <> [] -> len ch = 8 ->
    (forall i, 0 <= i < 8 -> Built (child_center c e i) (nmul (nlit 1 2) e) (inb c i idx) (at_ ONull ch i)) ->
    Built c e idx (ONode c e idx false ch).

Lemma morton_range (p c : pt3) : 0 <= morton p c < 8.
Proof. unfold morton. destruct (IsGreaterThan _ _), (IsGreaterThan _ _), (IsGreaterThan _ _); lia. Qed.

Definition valid_idx (idx : list Z) : Prop := forall j, In j idx -> 0 <= j < len db.

Lemma inb_valid c i idx : valid_idx idx -> valid_idx (inb c i idx).
Proof. intros H j Hj. apply filter_In in Hj. apply H, Hj. Qed.

Lemma firstn_snoc {X} (d : X) l k : 0 <= k < len l -> firstn (Z.to_nat (k + 1)) l = firstn (Z.to_nat k) l ++ [at_ d l k].
Proof.
  intros H. unfold at_. replace (Z.to_nat (k + 1)) with (S (Z.to_nat k)) by lia. assert (Hk : (Z.to_nat k < length l)%nat) by (unfold len in H; lia).
  clear H. revert l Hk. generalize (Z.to_nat k) as m. induction m as [|m IH]; intros [|x l] Hk; cbn in Hk; try lia; [reflexivity|].
  change (firstn (S (S m)) (x :: l)) with (x :: firstn (S m) l). change (firstn (S m) (x :: l)) with (x :: firstn m l).
  cbn [app]. f_equal. rewrite IH by lia. reflexivity.
Qed.

Lemma distribute_ok c idx : valid_idx idx -> wp (distribute db c idx) (fun b => arr b 8 (fun i => inb c i idx)).
Proof.
  intros Hv. unfold distribute. apply wp_bind. apply wp_mkvec; [lia|]. intros b Hb.
  assert (Hl : 0 <= len idx) by (unfold len; lia).
  apply wp_for_up with (P := fun k b => arr b 8 (fun i => inb c i (firstn (Z.to_nat k) idx))); [lia|exact Hb| |].
  - intros k b' Hk Hb'. rewrite (get_at 0) by lia. cbn [bind]. set (j := at_ 0 idx k).
    assert (Hj : 0 <= j < len db). { apply Hv. unfold j, at_. apply nth_In. unfold len in Hk. lia. }
    rewrite (get_at xyz0) by lia. cbn [bind]. fold (dpt j). pose proof (morton_range (dpt j) c) as Hm.
    rewrite (arr_get _ _ _ _ Hb' Hm). cbn [bind]. apply (arr_upd _ _ _ _ _ _ Hb' Hm). intros b2 Hb2. eapply arr_ext; [exact Hb2|].
    intros i Hi. cbv beta. unfold inb. rewrite (firstn_snoc 0) by lia. rewrite filter_app. cbn [filter]. fold j. fold (dpt j).
    destruct (Z.eqb_spec i (morton (dpt j) c)) as [->|Hne]; [rewrite Z.eqb_refl; reflexivity|].
    destruct (Z.eqb_spec (morton (dpt j) c) i); [lia|]. rewrite app_nil_r. reflexivity.
  - intros b' Hb'. eapply arr_ext; [exact Hb'|]. intros i Hi. cbv beta. rewrite firstn_all2 by (unfold len; lia). reflexivity.
Qed.

Lemma len_nil_iff {X} (l : list X) : len l = 0 <-> l = [].
Proof. unfold len. destruct l; cbn; split; intros H; try reflexivity; try discriminate; lia. Qed.

(* whatever construction returns is such a tree *)
Lemma build_Built fuel : forall c e idx leafSize minE t, valid_idx idx ->
  OctreeRecursiveBuild fuel db c e idx leafSize minE = Ok t -> Built c e idx t.
Proof.
  induction fuel as [|fuel IH]; intros c e idx ls me t Hv; [discriminate|]. cbn [OctreeRecursiveBuild].
  destruct (Z.eqb_spec (len idx) 0) as [E|E]; [intros H; injection H as <-; apply len_nil_iff in E as ->; constructor|].
  assert (Hne : idx <> []) by (intros ->; apply E; reflexivity).
  destruct ((len idx <=? ls) || nleb e me); [intros H; injection H as <-; constructor; exact Hne|].
  destruct (wp_elim _ _ (distribute_ok c idx Hv)) as (b & -> & Hb). cbn [bind]. intros H.
  match type of H with bind ?m _ = _ => destruct m as [ch|] eqn:Ech; [|discriminate] end. cbn [bind] in H. injection H as <-.
  assert (G : forall n ch0, (n <= 8)%nat -> len ch0 = 8 ->
     (forall i, 0 <= i < 8 - Z.of_nat n -> Built (child_center c e i) (nmul (nlit 1 2) e) (inb c i idx) (at_ ONull ch0 i)) ->
     iter_up n (8 - Z.of_nat n) (fun i children =>
          let! childIndices := get b i in
          let! c := OctreeRecursiveBuild fuel db (child_center c e i) (nmul (nlit 1 2) e) childIndices ls me in
          upd children i c) ch0 = Ok ch -> len ch = 8 /\ forall i, 0 <= i < 8 -> Built (child_center c e i) (nmul (nlit 1 2) e) (inb c i idx) (at_ ONull ch i)).
  { induction n as [|n IHn]; intros ch0 Hn L0 H0 E0.
    - cbn [iter_up] in E0. injection E0 as <-. split; [exact L0|]. intros i Hi. apply H0. lia.
    - cbn [iter_up] in E0. set (k := 8 - Z.of_nat (S n)) in *. rewrite (arr_get _ _ _ k Hb) in E0 by lia. cbn [bind] in E0.
      destruct (OctreeRecursiveBuild fuel db (child_center c e k) (nmul (nlit 1 2) e) (inb c k idx) ls me) as [tk|] eqn:Ek; [|discriminate]. cbn [bind] in E0.
      destruct (wp_elim _ _ (upd_wp ch0 8 k tk (fun m => len m = 8 /\ get m k = Ok tk /\ forall a, 0 <= a < 8 -> a <> k -> get m a = get ch0 a) L0 ltac:(lia) (fun l' h1 h2 h3 => conj h1 (conj h2 (fun a _ => h3 a))))) as (ch1 & E1 & L1 & G1 & G2).
      rewrite E1 in E0. cbn [bind] in E0. replace (k + 1) with (8 - Z.of_nat n) in E0 by lia. apply (IHn ch1); [lia|exact L1| |exact E0].
      intros i Hi. destruct (Z.eq_dec i k) as [->|Hik].
      + rewrite (get_at ONull) in G1 by lia. injection G1 as ->. apply (IH _ _ _ _ _ _ (inb_valid c k idx Hv) Ek).
      + specialize (G2 i ltac:(lia) Hik). rewrite !(get_at ONull) in G2 by lia. injection G2 as ->. apply H0. lia. }
  destruct (G 8%nat (repeat ONull 8)) as [G1 G2]; [lia|reflexivity|intros; lia|exact Ech|]. constructor; assumption.
Qed.

Lemma filter_or {X} (p q : X -> bool) l : (forall x, p x = true -> q x = true -> False) ->
  Permutation (filter p l ++ filter q l) (filter (fun x => p x || q x) l).
Proof.
  intros H. induction l as [|x l IH]; [reflexivity|]. cbn [filter]. specialize (H x). destruct (p x), (q x); cbn [orb].
  - exfalso. auto.
  - cbn [app]. constructor. exact IH.
  - rewrite <- Permutation_middle. constructor. exact IH.
  - exact IH.
Qed.

Lemma filter_buckets {X} (f : X -> Z) l ks : NoDup ks ->
  Permutation (flat_map (fun i => filter (fun x => f x =? i) l) ks) (filter (fun x => existsb (Z.eqb (f x)) ks) l).
Proof.
  intros Hks. induction Hks as [|k ks Hk Hks IH].
  - cbn [flat_map existsb]. induction l as [|x l IHl]; [reflexivity|exact IHl].
  - cbn [flat_map existsb]. rewrite IH. apply (filter_or (fun x => f x =? k) (fun x => existsb (Z.eqb (f x)) ks)).
    intros x H1 H2. apply Z.eqb_eq in H1. apply existsb_exists in H2 as (y & Hy & E). apply Z.eqb_eq in E. apply Hk. congruence.
Qed.

Lemma filter_all {X} (p : X -> bool) l : (forall x, p x = true) -> filter p l = l.
Proof. intros H. induction l as [|x l IH]; [reflexivity|]. cbn. rewrite H, IH. reflexivity. Qed.

Lemma inb_partition c idx : Permutation (flat_map (fun i => inb c i idx) [0; 1; 2; 3; 4; 5; 6; 7]) idx.
Proof.
  unfold inb. rewrite (filter_buckets (fun j => morton (dpt j) c)).
  - rewrite filter_all; [reflexivity|]. intros x. pose proof (morton_range (dpt x) c). cbn [existsb]. rewrite !orb_true_iff, !Z.eqb_eq. lia.
  - repeat constructor; cbn; lia.
Qed.

Lemma eight {X} (d : X) l : len l = 8 -> l = map (at_ d l) [0; 1; 2; 3; 4; 5; 6; 7].
Proof. intros H. unfold len in H. do 8 (destruct l as [|? l]; [cbn in H; lia|]). destruct l; [reflexivity|cbn in H; lia]. Qed.

Lemma flat_map_perm {X Y} (f g : X -> list Y) l : (forall x, In x l -> Permutation (f x) (g x)) -> Permutation (flat_map f l) (flat_map g l).
Proof.
  induction l as [|x l IH]; intros H; [reflexivity|]. cbn [flat_map]. apply Permutation_app; [apply H; left; reflexivity|].
  apply IH. intros y Hy. apply H. right. exact Hy.
Qed.

Lemma flat_map_map {X Y Z'} (f : Y -> list Z') (g : X -> Y) l : flat_map f (map g l) = flat_map (fun x => f (g x)) l.
Proof. induction l as [|x l IH]; [reflexivity|]. cbn. rewrite IH. reflexivity. Qed.

Lemma octants i : In i [0; 1; 2; 3; 4; 5; 6; 7] -> 0 <= i < 8.
Proof. cbn. lia. Qed.

Lemma Built_stored c e idx t : Built c e idx t -> Permutation (stored t) idx.
Proof.
  induction 1 as [c e|c e idx Hne|c e idx ch Hne Hl Hc IH]; [reflexivity|reflexivity|]. cbn [stored].
  rewrite (eight ONull ch Hl), flat_map_map. etransitivity; [|apply (inb_partition c)]. apply flat_map_perm.
  intros i Hi. apply IH, octants, Hi.
Qed.

Lemma Built_consistent c e idx t : Built c e idx t -> consistent t.
Proof.
  induction 1 as [c e|c e idx Hne|c e idx ch Hne Hl Hc IH]; [exact I|exact I|]. cbn [consistent]. split.
  - apply (Built_stored c e idx (ONode c e idx false ch)). constructor; assumption.
  - rewrite (eight ONull ch Hl). cbn [map fold_right]. repeat split; apply IH; lia.
Qed.

Lemma upto_arr n : 0 <= n -> arr (upto n) n (fun i => i).
Proof.
  intros Hn. split.
  - unfold upto, len. rewrite map_length, seq_length. lia.
  - intros i Hi. unfold get. assert (Hb : (0 <=? i) = true) by (apply Z.leb_le; lia).
    unfold upto. destruct (Z.ltb_spec i 0); [lia|]. rewrite nth_error_map, (nth_error_nth' _ 0%nat) by (rewrite seq_length; lia).
    cbn [option_map]. rewrite seq_nth by lia. f_equal. lia.
Qed.
Lemma upto_In n j : In j (upto n) <-> 0 <= j < n.
Proof.
  unfold upto. rewrite in_map_iff. split.
  - intros (k & <- & Hk). apply in_seq in Hk. lia.
  - intros H. exists (Z.to_nat j). split; [lia|]. apply in_seq. lia.
Qed.
Lemma upto_NoDup n : NoDup (upto n).
Proof. unfold upto. apply (FinFun.Injective_map_NoDup (f := Z.of_nat)); [intros x y; lia|apply seq_NoDup]. Qed.
Lemma upto_valid : valid_idx (upto (len db)).
Proof. intros j. apply upto_In. Qed.

Definition root_extent : A := let '(mn, mx) := bounds db in half_extent mn mx.
Definition root_center : pt3 := let '(mn, mx) := bounds db in let e := half_extent mn mx in
  mkXYZ (nadd (gx mn) e) (nadd (gy mn) e) (nadd (gz mn) e).

Lemma construction_eq fuel ls me : OctreeConstruction fuel db ls me =
  if len db =? 0 then Ok ONull else OctreeRecursiveBuild fuel db root_center root_extent (upto (len db)) ls me.
Proof.
  unfold OctreeConstruction, root_center, root_extent. destruct (Z.eqb_spec (len db) 0) as [E|E]; [reflexivity|].
  destruct (bounds db) as [mn mx]. assert (Hn : 0 <= len db) by (unfold len; lia).
  assert (H : (let! indices := mkvec (len db) 0 in for_up 0 (len db) indices (fun i v => upd v i i)) = Ok (upto (len db))).
  { destruct (wp_elim (let! indices := mkvec (len db) 0 in for_up 0 (len db) indices (fun i v => upd v i i)) (fun l => arr l (len db) (fun i => i))) as (l & -> & Hl).
    - apply wp_bind. apply wp_mkvec; [lia|]. intros v Hv.
      apply wp_for_up with (P := fun k v => arr v (len db) (fun i => if i <? k then i else 0)); [lia| | |].
      + eapply arr_ext; [exact Hv|]. intros i Hi. cbv beta. destruct (Z.ltb_spec i 0); [lia|reflexivity].
      + intros k v' Hk Hv'. apply (arr_upd _ _ _ _ _ _ Hv'); [lia|]. intros v2 H2. eapply arr_ext; [exact H2|]. intros i Hi. cbv beta.
        destruct (Z.eqb_spec i k), (Z.ltb_spec i k), (Z.ltb_spec i (k + 1)); lia.
      + intros v' Hv'. eapply arr_ext; [exact Hv'|]. intros i Hi. cbv beta. destruct (Z.ltb_spec i (len db)); lia.
    - f_equal. eapply (arr_inj l (upto (len db))); [exact Hl|apply upto_arr; lia]. }
  rewrite <- bind_assoc. rewrite H. reflexivity.
Qed.

Lemma construction_Built fuel ls me t : OctreeConstruction fuel db ls me = Ok t -> Built root_center root_extent (upto (len db)) t.
Proof.
  rewrite construction_eq. destruct (Z.eqb_spec (len db) 0) as [E|E].
  - intros H. injection H as <-. rewrite E. constructor.
  - apply build_Built, upto_valid.
Qed.

Lemma construction_stored fuel ls me t : OctreeConstruction fuel db ls me = Ok t ->
  Permutation (stored t) (upto (len db)) /\ consistent t.
Proof. intros H. apply construction_Built in H. split; [apply (Built_stored _ _ _ _ H)|apply (Built_consistent _ _ _ _ H)]. Qed.
End Built.

(* ---------------- termination ---------------- *)
Lemma build_terminates db ls (me : R) (k : nat) : (0 < me)%R -> forall fuel c (e : R) idx, (k + 2 <= fuel)%nat -> (e <= me * 2 ^ k)%R -> valid_idx db idx ->
  exists t, OctreeRecursiveBuild fuel db c e idx ls me = Ok t.
Proof.
  intros Hme. induction k as [|k IH]; intros fuel c e idx Hf He Hv; (destruct fuel as [|fuel]; [lia|]); cbn [OctreeRecursiveBuild].
  - destruct (len idx =? 0); [eexists; reflexivity|]. assert (Hb : nleb e me = true) by (cbn in He; num; apply Rleb_true; lra).
    rewrite Hb, orb_true_r. eexists; reflexivity.
  - destruct (len idx =? 0); [eexists; reflexivity|]. destruct ((len idx <=? ls) || nleb e me); [eexists; reflexivity|].
    destruct (wp_elim _ _ (distribute_ok db c idx Hv)) as (b & -> & Hb). cbn [bind].
    match goal with |- exists t, bind ?m _ = _ => assert (W : wp m (fun ch => len ch = 8)) end.
    { apply wp_for_up with (P := fun _ ch => len ch = 8); [lia|reflexivity| |auto].
      intros i ch Hi Hch. rewrite (arr_get _ _ _ i Hb) by lia. cbn [bind].
      destruct (IH fuel (child_center c e i) (nmul (nlit 1 2) e) (inb db c i idx)) as (t & ->).
      - lia.
      - cbn [pow] in He. num. lra.
      - apply inb_valid, Hv.
      - cbn [bind]. apply (upd_wp ch 8); [exact Hch|lia|auto]. }
    destruct (wp_elim _ _ W) as (ch & -> & _). eexists; reflexivity.
Qed.

Lemma construction_terminates (db : list (XYZ R)) ls (me : R) : (0 < me)%R ->
  exists fuel0, forall fuel, (fuel0 <= fuel)%nat -> exists t, OctreeConstruction fuel db ls me = Ok t.
Proof.
  intros Hme. destruct (archimed (root_extent db / me)) as [H1 _]. set (z := up (root_extent db / me)) in *.
  exists (Z.to_nat z + 2)%nat. intros fuel Hf. rewrite construction_eq. destruct (len db =? 0); [eexists; reflexivity|].
  apply build_terminates with (k := Z.to_nat z); [exact Hme|exact Hf| |apply upto_valid].
  assert (G : forall k : nat, (INR k <= 2 ^ k)%R).
  { induction k as [|k IHk]; [cbn; lra|]. rewrite S_INR. cbn [pow]. assert (1 <= 2 ^ k)%R by (apply pow_R1_Rle; lra). lra. }
  assert (H2 : (root_extent db / me <= 2 ^ Z.to_nat z)%R).
  { eapply Rle_trans; [|apply G]. rewrite INR_IZR_INZ. apply Rlt_le. eapply Rlt_le_trans; [exact H1|]. apply IZR_le. lia. }
  apply (Rmult_le_compat_r me) in H2; [|lra]. unfold Rdiv in H2. rewrite Rmult_assoc, Rinv_l, Rmult_1_r in H2 by lra. lra.
Qed.
