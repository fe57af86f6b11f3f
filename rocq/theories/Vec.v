(* The template parameter T of LNLib's curve and surface classes. *)
From Coq Require Import ZArith Reals List Lia Lra Bool.
From Verif Require Import Base Num.
Open Scope Z_scope.

Class Vec (A T : Type) : Type := {
  vzero : T;
  vadd : T -> T -> T;
  vsub : T -> T -> T;
  vscale : A -> T -> T;
  vdiv : T -> A -> res T
}.

(* laws at the exact instance: T is a real vector space given by coordinates *)
Class VecL (T : Type) {V : Vec R T} : Type := {
  co : nat -> T -> R;
  co_ext : forall x y, (forall k, co k x = co k y) -> x = y;
  co_zero : forall k, co k vzero = 0%R;
  co_add : forall k x y, co k (vadd x y) = (co k x + co k y)%R;
  co_sub : forall k x y, co k (vsub x y) = (co k x - co k y)%R;
  co_scale : forall k a x, co k (vscale a x) = (a * co k x)%R;
  vdiv_ok : forall x a, a <> 0%R -> vdiv x a = Ok (vscale (/ a)%R x);
  vdiv_zero : forall x, vdiv x 0%R = NonFin
}.

(* reduce an equation between vectors to equations between reals *)
Ltac vec := apply co_ext; intros ?k; repeat first [rewrite co_add | rewrite co_sub | rewrite co_scale | rewrite co_zero].
Ltac vring := vec; ring.
Ltac vfield := vec; field.

(* scalars are vectors *)
Global Instance Vec_scalar {A} `{Num A} : Vec A A := {|
  vzero := n0; vadd := nadd; vsub := nsub;
  vscale := fun a x => nmul x a; vdiv := ndiv |}.

Global Instance VecL_scalar : VecL R.
Proof.
  refine {| co := fun _ x => x |}; cbn; intros; auto.
  - exact (H 0%nat).
  - ring.
  - rewrite Rdiv_ok by auto. f_equal.
  - apply Rdiv_zero. reflexivity.
Defined.

(* ------------------------------------------------------------------ *)
(** * Finite sums over integer ranges: sum of f i for lo <= i < hi *)

Fixpoint rsum_n (n : nat) (lo : Z) (f : Z -> R) : R :=
  match n with O => 0%R | S n' => (rsum_n n' lo f + f (lo + Z.of_nat n')%Z)%R end.
Definition rsum (lo hi : Z) (f : Z -> R) : R := rsum_n (Z.to_nat (hi - lo)) lo f.

Lemma rsum_nil lo hi f : hi <= lo -> rsum lo hi f = 0%R.
Proof. intros H. unfold rsum. replace (Z.to_nat (hi - lo)) with O by lia. reflexivity. Qed.

Lemma rsum_last lo hi f : lo <= hi -> rsum lo (hi + 1) f = (rsum lo hi f + f hi)%R.
Proof.
  intros H. unfold rsum. replace (Z.to_nat (hi + 1 - lo)) with (S (Z.to_nat (hi - lo))) by lia.
  cbn [rsum_n]. f_equal. f_equal. lia.
Qed.

Lemma rsum_last' lo hi f : lo < hi -> rsum lo hi f = (rsum lo (hi - 1) f + f (hi - 1)%Z)%R.
Proof. intros H. replace hi with (hi - 1 + 1) at 1 by lia. apply rsum_last. lia. Qed.

(* induction on the upper bound *)
Lemma Zrange_ind (lo : Z) (P : Z -> Prop) :
  P lo -> (forall h, lo <= h -> P h -> P (h + 1)) -> forall hi, lo <= hi -> P hi.
Proof.
  intros H0 HS hi Hle. replace hi with (lo + Z.of_nat (Z.to_nat (hi - lo))) by lia.
  generalize (Z.to_nat (hi - lo)). induction n as [|n IH].
  - replace (lo + Z.of_nat 0) with lo by lia. exact H0.
  - replace (lo + Z.of_nat (S n)) with (lo + Z.of_nat n + 1) by lia. apply HS; [lia|exact IH].
Qed.

Lemma rsum_ext lo hi f g :
  (forall i, lo <= i < hi -> f i = g i) -> rsum lo hi f = rsum lo hi g.
Proof.
  destruct (Z.le_gt_cases lo hi) as [H|H]; [|rewrite !rsum_nil by lia; auto].
  revert hi H. apply (Zrange_ind lo (fun hi => (forall i, lo <= i < hi -> f i = g i) -> rsum lo hi f = rsum lo hi g)).
  - rewrite !rsum_nil by lia. auto.
  - intros h Hh IH He. rewrite !rsum_last by lia. rewrite IH, He; auto; intros; try apply He; lia.
Qed.

Lemma rsum_zero lo hi f : (forall i, lo <= i < hi -> f i = 0%R) -> rsum lo hi f = 0%R.
Proof.
  intros H. rewrite (rsum_ext lo hi f (fun _ => 0%R)) by exact H.
  destruct (Z.le_gt_cases lo hi) as [Hl|Hl]; [|apply rsum_nil; lia].
  clear H. revert hi Hl. apply Zrange_ind.
  - apply rsum_nil. lia.
  - intros h Hh IH. rewrite rsum_last, IH by lia. ring.
Qed.

Lemma rsum_plus lo hi f g :
  rsum lo hi (fun i => f i + g i)%R = (rsum lo hi f + rsum lo hi g)%R.
Proof.
  destruct (Z.le_gt_cases lo hi) as [Hl|Hl]; [|rewrite !rsum_nil by lia; ring].
  revert hi Hl. apply Zrange_ind.
  - rewrite !rsum_nil by lia. ring.
  - intros h Hh IH. rewrite !rsum_last, IH by lia. ring.
Qed.

Lemma rsum_scal lo hi c f : rsum lo hi (fun i => c * f i)%R = (c * rsum lo hi f)%R.
Proof.
  destruct (Z.le_gt_cases lo hi) as [Hl|Hl]; [|rewrite !rsum_nil by lia; ring].
  revert hi Hl. apply Zrange_ind.
  - rewrite !rsum_nil by lia. ring.
  - intros h Hh IH. rewrite !rsum_last, IH by lia. ring.
Qed.

Lemma rsum_scal_r lo hi c f : rsum lo hi (fun i => f i * c)%R = (rsum lo hi f * c)%R.
Proof. rewrite Rmult_comm, <- rsum_scal. apply rsum_ext. intros. ring. Qed.

Lemma rsum_minus lo hi f g :
  rsum lo hi (fun i => f i - g i)%R = (rsum lo hi f - rsum lo hi g)%R.
Proof.
  destruct (Z.le_gt_cases lo hi) as [Hl|Hl]; [|rewrite !rsum_nil by lia; ring].
  revert hi Hl. apply Zrange_ind.
  - rewrite !rsum_nil by lia. ring.
  - intros h Hh IH. rewrite !rsum_last, IH by lia. ring.
Qed.

Lemma rsum_split lo mid hi f : lo <= mid <= hi ->
  rsum lo hi f = (rsum lo mid f + rsum mid hi f)%R.
Proof.
  intros [H1 H2]. revert hi H2. apply Zrange_ind.
  - rewrite (rsum_nil mid mid) by lia. ring.
  - intros h Hh IH. rewrite !rsum_last by lia. rewrite IH. ring.
Qed.

Lemma rsum_one lo f : rsum lo (lo + 1) f = f lo.
Proof. rewrite rsum_last, rsum_nil by lia. ring. Qed.

Lemma rsum_first lo hi f : lo < hi -> rsum lo hi f = (f lo + rsum (lo + 1) hi f)%R.
Proof. intros H. rewrite (rsum_split lo (lo + 1) hi) by lia. rewrite rsum_one. reflexivity. Qed.

Lemma rsum_shift d lo hi f : rsum lo hi f = rsum (lo + d) (hi + d) (fun i => f (i - d)).
Proof.
  destruct (Z.le_gt_cases lo hi) as [Hl|Hl]; [|rewrite !rsum_nil by lia; ring].
  revert hi Hl. apply Zrange_ind.
  - rewrite !rsum_nil by lia. reflexivity.
  - intros h Hh IH. replace (h + 1 + d) with (h + d + 1) by lia.
    rewrite !rsum_last, IH by lia. f_equal. f_equal. lia.
Qed.

Lemma rsum_rev lo hi f : rsum lo hi f = rsum lo hi (fun i => f (lo + hi - 1 - i)).
Proof.
  destruct (Z.le_gt_cases lo hi) as [Hl|Hl]; [|rewrite !rsum_nil by lia; ring].
  revert lo hi Hl f. apply (fun P H => H : P).
  intros lo hi Hl. revert hi Hl.
  apply (Zrange_ind lo (fun hi => forall f, rsum lo hi f = rsum lo hi (fun i => f (lo + hi - 1 - i)))).
  - intros f. rewrite !rsum_nil by lia. reflexivity.
  - intros h Hh IH f. rewrite rsum_last by lia. rewrite (rsum_first lo (h + 1)) by lia.
    replace (lo + (h + 1) - 1 - lo) with h by lia. rewrite Rplus_comm. f_equal.
    rewrite IH. rewrite (rsum_shift 1). apply rsum_ext. intros i Hi. f_equal. lia.
Qed.

Lemma rsum_nonneg lo hi f : (forall i, lo <= i < hi -> (0 <= f i)%R) -> (0 <= rsum lo hi f)%R.
Proof.
  destruct (Z.le_gt_cases lo hi) as [H|H]; [|rewrite !rsum_nil by lia; intros; lra].
  revert hi H. apply (Zrange_ind lo (fun hi => (forall i, lo <= i < hi -> (0 <= f i)%R) -> (0 <= rsum lo hi f)%R)).
  - rewrite !rsum_nil by lia. intros; lra.
  - intros h Hh IH He. rewrite rsum_last by lia.
    assert (0 <= f h)%R by (apply He; lia).
    assert (0 <= rsum lo h f)%R by (apply IH; intros; apply He; lia). lra.
Qed.

Lemma rsum_le lo hi f g : (forall i, lo <= i < hi -> (f i <= g i)%R) -> (rsum lo hi f <= rsum lo hi g)%R.
Proof.
  intros H. assert (0 <= rsum lo hi (fun i => g i - f i))%R.
  { apply rsum_nonneg. intros i Hi. specialize (H i Hi). lra. }
  rewrite rsum_minus in H0. lra.
Qed.

Lemma rsum_swap lo hi lo' hi' (f : Z -> Z -> R) :
  rsum lo hi (fun i => rsum lo' hi' (fun j => f i j)) =
  rsum lo' hi' (fun j => rsum lo hi (fun i => f i j)).
Proof.
  destruct (Z.le_gt_cases lo hi) as [Hl|Hl].
  2:{ rewrite rsum_nil by lia. symmetry. apply rsum_zero. intros. apply rsum_nil. lia. }
  revert hi Hl. apply Zrange_ind.
  - rewrite rsum_nil by lia. symmetry. apply rsum_zero. intros. apply rsum_nil. lia.
  - intros h Hh IH. rewrite rsum_last, IH by lia. rewrite <- rsum_plus.
    apply rsum_ext. intros i Hi. rewrite rsum_last by lia. reflexivity.
Qed.

Lemma rsum_single lo hi j f : lo <= j < hi ->
  (forall i, lo <= i < hi -> i <> j -> f i = 0%R) -> rsum lo hi f = f j.
Proof.
  intros Hj H. rewrite (rsum_split lo j hi) by lia. rewrite (rsum_first j hi) by lia.
  rewrite (rsum_zero lo j) by (intros; apply H; lia).
  rewrite (rsum_zero (j + 1) hi) by (intros; apply H; lia). ring.
Qed.

(* ------------------------------------------------------------------ *)
(** * Vector sums *)
Section VSum.
  Context {T : Type} {V : Vec R T} {L : VecL T}.

  Fixpoint vsum_n (n : nat) (lo : Z) (f : Z -> T) : T :=
    match n with O => vzero | S n' => vadd (vsum_n n' lo f) (f (lo + Z.of_nat n')) end.
  (* sum of f i for lo <= i < hi *)
  Definition vsum (lo hi : Z) (f : Z -> T) : T := vsum_n (Z.to_nat (hi - lo)) lo f.

  Lemma co_vsum k lo hi f : co k (vsum lo hi f) = rsum lo hi (fun i => co k (f i)).
  Proof.
    unfold vsum, rsum. generalize (Z.to_nat (hi - lo)). induction n as [|n IH]; cbn.
    - apply co_zero.
    - rewrite co_add, IH. reflexivity.
  Qed.

  Lemma vsum_nil lo hi f : hi <= lo -> vsum lo hi f = vzero.
  Proof. intros H. unfold vsum. replace (Z.to_nat (hi - lo)) with O by lia. reflexivity. Qed.

  Lemma vsum_last lo hi f : lo <= hi -> vsum lo (hi + 1) f = vadd (vsum lo hi f) (f hi).
  Proof.
    intros H. unfold vsum. replace (Z.to_nat (hi + 1 - lo)) with (S (Z.to_nat (hi - lo))) by lia.
    cbn [vsum_n]. f_equal. f_equal. lia.
  Qed.

  Lemma vsum_ext lo hi f g :
    (forall i, lo <= i < hi -> f i = g i) -> vsum lo hi f = vsum lo hi g.
  Proof.
    intros H. apply co_ext. intros k. rewrite !co_vsum. apply rsum_ext.
    intros i Hi. rewrite H; auto.
  Qed.

  Lemma vsum_split lo mid hi f : lo <= mid <= hi ->
    vsum lo hi f = vadd (vsum lo mid f) (vsum mid hi f).
  Proof.
    intros H. apply co_ext. intros k. rewrite co_add, !co_vsum. apply rsum_split. exact H.
  Qed.

  Lemma vsum_first lo hi f : lo < hi -> vsum lo hi f = vadd (f lo) (vsum (lo + 1) hi f).
  Proof.
    intros H. apply co_ext. intros k. rewrite co_add, !co_vsum. apply rsum_first. exact H.
  Qed.

  Lemma vsum_shift d lo hi f : vsum lo hi f = vsum (lo + d) (hi + d) (fun i => f (i - d)).
  Proof. apply co_ext. intros k. rewrite !co_vsum. apply rsum_shift. Qed.

  Lemma vsum_rev lo hi f : vsum lo hi f = vsum lo hi (fun i => f (lo + hi - 1 - i)).
  Proof.
    apply co_ext. intros k. rewrite !co_vsum.
    exact (rsum_rev lo hi (fun i => co k (f i))).
  Qed.

  Lemma vsum_single lo hi j f : lo <= j < hi ->
    (forall i, lo <= i < hi -> i <> j -> f i = vzero) -> vsum lo hi f = f j.
  Proof.
    intros Hj H. apply co_ext. intros k. rewrite co_vsum.
    apply (rsum_single lo hi j (fun i => co k (f i))); auto.
    intros i Hi Hne. rewrite H by auto. apply co_zero.
  Qed.

  Lemma vsum_plus lo hi f g :
    vsum lo hi (fun i => vadd (f i) (g i)) = vadd (vsum lo hi f) (vsum lo hi g).
  Proof.
    apply co_ext. intros k. rewrite co_add, !co_vsum, <- rsum_plus.
    apply rsum_ext. intros. apply co_add.
  Qed.

  Lemma vsum_scale lo hi c f :
    vsum lo hi (fun i => vscale c (f i)) = vscale c (vsum lo hi f).
  Proof.
    apply co_ext. intros k. rewrite co_scale, !co_vsum, <- rsum_scal.
    apply rsum_ext. intros. apply co_scale.
  Qed.
End VSum.
