(* Derivatives of the span polynomials; no model functions here. *)
From Coq Require Import ZArith List Bool Reals Lra Lia.
From Verif Require Import Base Num Vec Tac Spec P_Cox.
Open Scope Z_scope.

Definition der (f : R -> R) (t l : R) : Prop := derivable_pt_lim f t l.

Lemma der_ext f g t l : (forall x, f x = g x) -> der f t l -> der g t l.
Proof.
  intros H D eps He. destruct (D eps He) as [d Hd]. exists d. intros h H1 H2. rewrite <- !H. apply Hd; assumption.
Qed.
Lemma der_eq f t l l' : l = l' -> der f t l -> der f t l'.
Proof. intros ->. auto. Qed.
Lemma der_const c t : der (fun _ => c) t 0%R.
Proof. apply (derivable_pt_lim_const c t). Qed.
Lemma der_id t : der (fun x => x) t 1%R.
Proof. apply derivable_pt_lim_id. Qed.
Lemma der_plus f g t a b : der f t a -> der g t b -> der (fun x => f x + g x)%R t (a + b)%R.
Proof. intros H1 H2. apply (derivable_pt_lim_plus f g t a b H1 H2). Qed.
Lemma der_minus f g t a b : der f t a -> der g t b -> der (fun x => f x - g x)%R t (a - b)%R.
Proof. intros H1 H2. apply (derivable_pt_lim_minus f g t a b H1 H2). Qed.
Lemma der_mult f g t a b : der f t a -> der g t b -> der (fun x => f x * g x)%R t (a * g t + f t * b)%R.
Proof. intros H1 H2. apply (derivable_pt_lim_mult f g t a b H1 H2). Qed.
Lemma der_scal c f t a : der f t a -> der (fun x => c * f x)%R t (c * a)%R.
Proof. intros H. apply (derivable_pt_lim_scal f c t a H). Qed.
Lemma der_scal_r c f t a : der f t a -> der (fun x => f x * c)%R t (a * c)%R.
Proof.
  intros H. apply der_ext with (fun x => c * f x)%R; [intros; ring|].
  apply der_eq with (c * a)%R; [ring|]. apply der_scal. exact H.
Qed.
Lemma der_rsum lo hi (f : Z -> R -> R) (g : Z -> R) t :
  (forall i, lo <= i < hi -> der (f i) t (g i)) -> der (fun x => rsum lo hi (fun i => f i x)) t (rsum lo hi g).
Proof.
  destruct (Z.le_gt_cases lo hi) as [Hl|Hl].
  2:{ intros _. apply der_ext with (fun _ => 0%R); [intros; rewrite rsum_nil by lia; reflexivity|].
      rewrite rsum_nil by lia. apply der_const. }
  revert hi Hl.
  apply (Zrange_ind lo (fun hi => (forall i, lo <= i < hi -> der (f i) t (g i)) ->
    der (fun x => rsum lo hi (fun i => f i x)) t (rsum lo hi g))).
  - intros _. apply der_ext with (fun _ => 0%R); [intros; rewrite rsum_nil by lia; reflexivity|].
    rewrite rsum_nil by lia. apply der_const.
  - intros h Hh IH H. apply der_ext with (fun x => rsum lo h (fun i => f i x) + f h x)%R.
    { intros x. rewrite rsum_last by lia. reflexivity. }
    rewrite rsum_last by lia. apply der_plus; [apply IH; intros; apply H; lia|apply H; lia].
Qed.

(* 1/y with 1/0 = 0 *)
Definition inv0 (y : R) : R := sdiv 1 y.
Lemma sdiv_inv0 x y : sdiv x y = (x * inv0 y)%R.
Proof. unfold inv0, sdiv. destruct (Req_EM_T y 0); field; auto. Qed.
Lemma inv0_ok y : y <> 0%R -> (y * inv0 y = 1)%R.
Proof. intros H. unfold inv0. rewrite sdiv_ok by exact H. field. exact H. Qed.

Lemma NS_succ' U k p i t : 0 < p ->
  NS U k p i t =
  ((t - U i) * inv0 (U (i + p)%Z - U i) * NS U k (p - 1) i t +
   (U (i + p + 1)%Z - t) * inv0 (U (i + p + 1)%Z - U (i + 1)%Z) * NS U k (p - 1) (i + 1) t)%R.
Proof. intros H. rewrite NS_succ by exact H. rewrite !sdiv_inv0. reflexivity. Qed.

(* first derivative *)
Definition dNS (U : Z -> R) (k p i : Z) (t : R) : R :=
  (IZR p * (NS U k (p - 1) i t * inv0 (U (i + p)%Z - U i) -
            NS U k (p - 1) (i + 1) t * inv0 (U (i + p + 1)%Z - U (i + 1)%Z)))%R.

Lemma der_NS U k p i t : 0 <= p -> good U k p -> der (fun x => NS U k p i x) t (dNS U k p i t).
Proof.
  intros Hp. revert p Hp i.
  apply (Zrange_ind 0 (fun p => forall i, good U k p -> der (fun x => NS U k p i x) t (dNS U k p i t))).
  - intros i _. apply der_ext with (fun _ => if i =? k then 1%R else 0%R); [intros; rewrite NS_0; reflexivity|].
    unfold dNS. apply der_eq with 0%R; [ring|]. apply der_const.
  - intros p Hp IH i Hg. assert (Hg' : good U k p) by (apply (good_le U k (p + 1)); [exact Hg|lia]).
    set (D1 := inv0 (U (i + (p + 1))%Z - U i)).
    set (D2 := inv0 (U (i + (p + 1) + 1)%Z - U (i + 1)%Z)).
    apply der_ext with (fun x => ((x - U i) * D1) * NS U k p i x + ((U (i + (p + 1) + 1)%Z - x) * D2) * NS U k p (i + 1) x)%R.
    { intros x. rewrite (NS_succ' U k (p + 1)) by lia. replace (p + 1 - 1) with p by lia. reflexivity. }
    eapply der_eq.
    2:{ apply der_plus; apply der_mult.
        - apply der_scal_r. apply der_minus; [apply der_id|apply der_const].
        - apply IH. exact Hg'.
        - apply der_scal_r. apply der_minus; [apply der_const|apply der_id].
        - apply IH. exact Hg'. }
    cbv beta. unfold dNS. replace (p + 1 - 1) with p by lia. fold D1 D2.
    replace (i + 1 + p) with (i + (p + 1)) by lia. replace (i + (p + 1) + 1) with (i + 1 + p + 1) in * by lia.
    destruct (Z.eq_dec p 0) as [->|Hp0]; [ring_simplify; replace (0 + 1) with 1 by lia; ring|].
    rewrite (NS_succ' U k p i), (NS_succ' U k p (i + 1)) by lia.
    replace (i + 1 + p) with (i + (p + 1)) by lia. replace (i + p + 1) with (i + (p + 1)) by lia.
    replace (i + 1 + p + 1) with (i + (p + 1) + 1) in * by lia. fold D2.
    replace (i + 1 + 1) with (i + 2) by lia.
    set (A := NS U k (p - 1) i t). set (B := NS U k (p - 1) (i + 1) t). set (C := NS U k (p - 1) (i + 2) t).
    set (X := inv0 (U (i + p)%Z - U i)). set (Y := inv0 (U (i + (p + 1))%Z - U (i + 1)%Z)).
    set (Z0 := inv0 (U (i + (p + 1) + 1)%Z - U (i + 2)%Z)).
    rewrite plus_IZR.
    assert (K : (B * ((U (i + (p + 1))%Z - U i) * D1) = B * ((U (i + (p + 1) + 1)%Z - U (i + 1)%Z) * D2))%R).
    { destruct (Z_lt_dec (i + 1) (k - (p - 1))) as [Hlt|Hge].
      { subst B. rewrite (NS_out U k (p - 1) (i + 1)) by lia. ring. }
      destruct (Z_lt_dec k (i + 1)) as [Hlt|Hge'].
      { subst B. rewrite (NS_out U k (p - 1) (i + 1)) by lia. ring. }
      pose proof (good_den U k (p + 1) i (i + (p + 1)) Hg ltac:(lia) ltac:(lia) ltac:(lia) ltac:(lia)).
      pose proof (good_den U k (p + 1) (i + 1) (i + (p + 1) + 1) Hg ltac:(lia) ltac:(lia) ltac:(lia) ltac:(lia)).
      subst D1 D2. rewrite !inv0_ok by lra. reflexivity. }
    generalize dependent D1. generalize dependent D2. intros D2 D1 K.
    apply Rminus_diag_uniq.
    match goal with |- ?E = 0%R =>
      replace E with (IZR p * Y * (B * ((U (i + (p + 1) + 1)%Z - U (i + 1)%Z) * D2) - B * ((U (i + (p + 1))%Z - U i) * D1)))%R by ring end.
    rewrite K. ring.
Qed.

(* coefficients of the higher derivatives in lower degree functions *)
Fixpoint alpha (U : Z -> R) (p i : Z) (m : nat) (j : Z) : R :=
  match m with
  | O => if j =? 0 then 1%R else 0%R
  | S m' => ((alpha U p i m' j - alpha U p i m' (j - 1)) *
             inv0 (U (i + p + j - Z.of_nat m')%Z - U (i + j)%Z))%R
  end.

Lemma alpha_out U p i m j : j < 0 \/ Z.of_nat m < j -> alpha U p i m j = 0%R.
Proof.
  revert j. induction m as [|m IH]; intros j Hj; cbn [alpha].
  - destruct (Z.eqb_spec j 0); [lia|reflexivity].
  - rewrite !IH by lia. ring.
Qed.

Definition al (U : Z -> R) (p i m j : Z) : R := alpha U p i (Z.to_nat m) j.

Lemma al_0 U p i j : al U p i 0 j = if j =? 0 then 1%R else 0%R.
Proof. reflexivity. Qed.
Lemma al_succ U p i m j : 0 < m ->
  al U p i m j = ((al U p i (m - 1) j - al U p i (m - 1) (j - 1)) * inv0 (U (i + p + j - m + 1)%Z - U (i + j)%Z))%R.
Proof.
  intros H. unfold al. replace (Z.to_nat m) with (S (Z.to_nat (m - 1))) by lia. cbn [alpha].
  replace (i + p + j - Z.of_nat (Z.to_nat (m - 1))) with (i + p + j - m + 1) by lia. reflexivity.
Qed.
Lemma al_out U p i m j : 0 <= m -> j < 0 \/ m < j -> al U p i m j = 0%R.
Proof. intros Hm H. apply alpha_out. lia. Qed.

(* p (p-1) ... (p-m+1) *)
Fixpoint ffac (p : Z) (m : nat) : Z :=
  match m with O => 1 | S m' => ffac p m' * (p - Z.of_nat m') end.

(* m-th derivative of the span polynomial, without and with the factor *)
Definition GS (U : Z -> R) (k p i m : Z) (t : R) : R :=
  rsum 0 (m + 1) (fun j => al U p i m j * NS U k (p - m) (i + j) t)%R.
Definition GN (U : Z -> R) (k p i m : Z) (t : R) : R :=
  (IZR (ffac p (Z.to_nat m)) * GS U k p i m t)%R.

Lemma GN_0 U k p i t : GN U k p i 0 t = NS U k p i t.
Proof.
  unfold GN, GS. cbn [ffac Z.to_nat]. change (0 + 1) with (0 + 1). rewrite rsum_one, al_0. cbn [Z.eqb].
  rewrite Z.sub_0_r, Z.add_0_r. ring.
Qed.

Lemma der_GN U k p i m t : 0 <= m < p -> good U k p ->
  der (fun x => GN U k p i m x) t (GN U k p i (m + 1) t).
Proof.
  intros Hm Hg. unfold GN. replace (Z.to_nat (m + 1)) with (S (Z.to_nat m)) by lia. cbn [ffac].
  rewrite mult_IZR, Rmult_assoc. apply der_scal. unfold GS.
  eapply der_eq.
  2:{ apply der_rsum with (g := fun j => (al U p i m j * dNS U k (p - m) (i + j) t)%R). intros j Hj.
      apply der_scal. apply der_NS; [lia|]. apply (good_le U k p); [exact Hg|lia]. }
  replace (Z.of_nat (Z.to_nat m)) with m by lia.
  unfold dNS. replace (p - m - 1) with (p - (m + 1)) by lia.
  rewrite (rsum_ext 0 (m + 1) _ (fun j =>
    IZR (p - m) * ((al U p i m j * inv0 (U (i + j + (p - m))%Z - U (i + j)%Z)) * NS U k (p - (m + 1)) (i + j) t -
     (al U p i m j * inv0 (U (i + j + (p - m) + 1)%Z - U (i + j + 1)%Z)) * NS U k (p - (m + 1)) (i + j + 1) t))%R).
  2:{ intros j Hj. ring. }
  rewrite rsum_scal. f_equal. rewrite rsum_minus.
  rewrite (rsum_ext 0 (m + 1 + 1) _ (fun j =>
     (al U p i m j * inv0 (U (i + j + (p - m))%Z - U (i + j)%Z)) * NS U k (p - (m + 1)) (i + j) t -
     (al U p i m (j - 1) * inv0 (U (i + j + (p - m))%Z - U (i + j)%Z)) * NS U k (p - (m + 1)) (i + j) t)%R).
  2:{ intros j Hj. rewrite (al_succ U p i (m + 1)) by lia. replace (m + 1 - 1) with m by lia.
      replace (i + p + j - (m + 1) + 1) with (i + j + (p - m)) by lia. ring. }
  rewrite rsum_minus. f_equal.
  - rewrite (rsum_last 0 (m + 1)) by lia. rewrite (al_out U p i m (m + 1)) by lia. ring.
  - rewrite (rsum_first 0 (m + 1 + 1)) by lia. rewrite (al_out U p i m (0 - 1)) by lia.
    rewrite (rsum_shift 1 0 (m + 1)). rewrite Rmult_0_l, Rmult_0_l, Rplus_0_l. apply rsum_ext. intros j Hj.
    replace (i + (j - 1) + (p - m) + 1) with (i + j + (p - m)) by lia.
    replace (i + (j - 1) + 1) with (i + j) by lia. reflexivity.
Qed.

Lemma GN_deriv U k p i m d : 0 <= m -> m + Z.of_nat d <= p -> good U k p ->
  nth_deriv d (fun x => GN U k p i m x) (fun x => GN U k p i (m + Z.of_nat d) x).
Proof.
  revert m. induction d as [|d IH]; intros m Hm Hd Hg; cbn [nth_deriv].
  - intros t. rewrite Z.add_0_r. reflexivity.
  - exists (fun x => GN U k p i (m + 1) x). split.
    + intros t. apply der_GN; [lia|exact Hg].
    + replace (m + Z.of_nat (S d)) with (m + 1 + Z.of_nat d) by lia. apply IH; [lia|lia|exact Hg].
Qed.

Lemma nth_deriv_ext d f f' g : (forall t, f t = f' t) -> nth_deriv d f g -> nth_deriv d f' g.
Proof.
  destruct d as [|d]; cbn [nth_deriv]; intros H D.
  - intros t. rewrite <- H. apply D.
  - destruct D as (h & Hh & D). exists h. split; [|exact D]. intros t.
    eapply der_ext; [exact H|]. apply Hh.
Qed.
Lemma nth_deriv_ext_r d f g g' : (forall t, g t = g' t) -> nth_deriv d f g -> nth_deriv d f g'.
Proof.
  intros H. revert f. induction d as [|d IH]; cbn [nth_deriv]; intros f D.
  - intros t. rewrite <- H. apply D.
  - destruct D as (h & Hh & D). exists h. split; [exact Hh|]. apply IH. exact D.
Qed.

Lemma NS_nth_deriv U k p i d : 0 <= d <= p -> good U k p ->
  nth_deriv (Z.to_nat d) (fun x => NS U k p i x) (fun x => GN U k p i d x).
Proof.
  intros Hd Hg. apply nth_deriv_ext with (fun x => GN U k p i 0 x); [intros; apply GN_0|].
  pose proof (GN_deriv U k p i 0 (Z.to_nat d) ltac:(lia) ltac:(lia) Hg) as D.
  replace (0 + Z.of_nat (Z.to_nat d)) with d in D by lia. exact D.
Qed.

(* derivatives are unique *)
Lemma nth_deriv_unique d f g g' : nth_deriv d f g -> nth_deriv d f g' -> forall t, g t = g' t.
Proof.
  revert f. induction d as [|d IH]; cbn [nth_deriv]; intros f D D' t.
  - rewrite <- D, <- D'. reflexivity.
  - destruct D as (h & Hh & D). destruct D' as (h' & Hh' & D').
    apply (IH h); [exact D|]. apply nth_deriv_ext with h'; [|exact D'].
    intros x. eapply uniqueness_limite; [apply Hh'|apply Hh].
Qed.

Lemma nth_deriv_S_r d f g h : nth_deriv d f g -> (forall t, derivable_pt_lim g t (h t)) -> nth_deriv (S d) f h.
Proof.
  revert f. induction d as [|d IH]; intros f D H.
  - cbn [nth_deriv] in *. exists h. split; [|reflexivity]. intros t.
    eapply der_ext; [intros x; symmetry; apply D|]. apply H.
  - destruct D as (f1 & H1 & D). exists f1. split; [exact H1|]. apply (IH f1); assumption.
Qed.

(* linear combinations *)
Lemma nth_deriv_rsum d lo hi (f g : Z -> R -> R) (c : Z -> R) :
  (forall i, lo <= i < hi -> nth_deriv d (f i) (g i)) ->
  nth_deriv d (fun x => rsum lo hi (fun i => f i x * c i)%R) (fun x => rsum lo hi (fun i => g i x * c i)%R).
Proof.
  revert f. induction d as [|d IH]; intros f H; cbn [nth_deriv] in *.
  - intros t. apply rsum_ext. intros i Hi. rewrite (H i Hi). reflexivity.
  - (* choose the derivative of each term *)
    assert (Hh : exists h : Z -> R -> R, forall i, lo <= i < hi ->
       (forall t, derivable_pt_lim (f i) t (h i t)) /\ nth_deriv d (h i) (g i)).
    { clear IH. destruct (Z.le_gt_cases lo hi) as [Hl|Hl]; [|exists f; intros; lia].
      revert hi Hl H. apply (Zrange_ind lo (fun hi => (forall i, lo <= i < hi ->
         exists h, (forall t, derivable_pt_lim (f i) t (h t)) /\ nth_deriv d h (g i)) ->
         exists h : Z -> R -> R, forall i, lo <= i < hi ->
         (forall t, derivable_pt_lim (f i) t (h i t)) /\ nth_deriv d (h i) (g i))).
      - intros _. exists f. intros; lia.
      - intros n Hn IHn H. destruct IHn as [h Hh]; [intros; apply H; lia|].
        destruct (H n ltac:(lia)) as [hn Hhn].
        exists (fun i => if i =? n then hn else h i). intros i Hi.
        destruct (Z.eqb_spec i n) as [->|]; [exact Hhn|apply Hh; lia]. }
    destruct Hh as [h Hh]. exists (fun x => rsum lo hi (fun i => h i x * c i)%R). split.
    + intros t. apply (der_rsum lo hi (fun i x => f i x * c i)%R (fun i => h i t * c i)%R). intros i Hi.
      apply der_scal_r. apply (Hh i Hi).
    + apply IH. intros i Hi. apply (Hh i Hi).
Qed.
