(* Accumulation loops, affine maps, combinations of points. *)
From Coq Require Import ZArith List Bool Reals Lra Lia.
From Verif Require Import Base Num Vec Tac Spec.
Import ListNotations.
Open Scope Z_scope.

Section L.
Context {T : Type} {V : Vec R T} {L : VecL T}.

Lemma vadd_0_l x : vadd vzero x = x.
Proof. vring. Qed.

Lemma arr_pt (P : list T) n : len P = n -> arr P n (pt P).
Proof. intros <-. apply arr_at. Qed.

(* acc += f i *)
Lemma acc_loop lo hi (x0 : T) f body : lo <= hi ->
  (forall i x, lo <= i < hi -> body i x = Ok (vadd x (f i))) ->
  for_up lo hi x0 body = Ok (vadd x0 (vsum lo hi f)).
Proof.
  intros Hl Hb.
  assert (W : wp (for_up lo hi x0 body) (fun r => r = vadd x0 (vsum lo hi f))).
  { apply wp_for_up with (P := fun h x => x = vadd x0 (vsum lo h f)); [exact Hl| | |auto].
    - rewrite vsum_nil by lia. vring.
    - intros i x Hi ->. rewrite Hb by lia. cbn [wp]. rewrite vsum_last by lia. vring. }
  destruct (wp_elim _ _ W) as (r & E & ->). exact E.
Qed.

Lemma acc_loop0 lo hi f body : lo <= hi ->
  (forall i x, lo <= i < hi -> body i x = Ok (vadd x (f i))) ->
  for_up lo hi vzero body = Ok (vsum lo hi f).
Proof. intros Hl Hb. rewrite (acc_loop lo hi vzero f body Hl Hb), vadd_0_l. reflexivity. Qed.

(* v[k] += f i *)
Lemma acc_arr lo hi k n (l : list T) g f body (Q : list T -> Prop) : lo <= hi -> arr l n g -> 0 <= k < n ->
  (forall i l, lo <= i < hi -> body i l = (let! x := get l k in upd l k (vadd x (f i)))) ->
  (forall l', arr l' n (fun a => if a =? k then vadd (g k) (vsum lo hi f) else g a) -> Q l') ->
  wp (for_up lo hi l body) Q.
Proof.
  intros Hl Ha Hk Hb HQ.
  apply wp_for_up with (P := fun h l => arr l n (fun a => if a =? k then vadd (g k) (vsum lo h f) else g a)); [exact Hl| | |exact HQ].
  - eapply arr_ext; [exact Ha|]. intros a Ha'. cbv beta. destruct (Z.eqb_spec a k) as [->|]; [|reflexivity].
    rewrite vsum_nil by lia. vring.
  - intros i l' Hi Hl'. rewrite Hb by lia. wget Hl'. wupd Hl'. intros l'' H''.
    eapply arr_ext; [exact H''|]. intros a Ha'. cbv beta. destruct (Z.eqb_spec a k) as [->|]; [|reflexivity].
    rewrite Z.eqb_refl. rewrite vsum_last by lia. vring.
Qed.

(* m[k][l] += f i *)
Lemma acc_arr2 lo hi k l r c (m : list (list T)) g f body (Q : list (list T) -> Prop) :
  lo <= hi -> arr2 m r c g -> 0 <= k < r -> 0 <= l < c ->
  (forall i m, lo <= i < hi -> body i m = (let! x := get2 m k l in upd2 m k l (vadd x (f i)))) ->
  (forall m', arr2 m' r c (fun a b => if (a =? k) && (b =? l) then vadd (g k l) (vsum lo hi f) else g a b) -> Q m') ->
  wp (for_up lo hi m body) Q.
Proof.
  intros Hl Ha Hk Hll Hb HQ.
  apply wp_for_up with (P := fun h m => arr2 m r c (fun a b => if (a =? k) && (b =? l) then vadd (g k l) (vsum lo h f) else g a b));
    [exact Hl| | |exact HQ].
  - eapply arr2_ext; [exact Ha|]. intros a b Ha' Hb'. cbv beta.
    destruct (Z.eqb_spec a k) as [->|]; destruct (Z.eqb_spec b l) as [->|]; cbn [andb]; try reflexivity.
    rewrite vsum_nil by lia. vring.
  - intros i m' Hi Hm'. rewrite Hb by lia. wget Hm'. wupd Hm'. intros m'' H''.
    eapply arr2_ext; [exact H''|]. intros a b Ha' Hb'. cbv beta.
    destruct (Z.eqb_spec a k) as [->|]; destruct (Z.eqb_spec b l) as [->|]; cbn [andb]; try reflexivity.
    rewrite !Z.eqb_refl. cbn [andb]. rewrite vsum_last by lia. vring.
Qed.

Lemma co_comb k lo hi w (P : Z -> T) : co k (comb lo hi w P) = rsum lo hi (fun i => w i * co k (P i))%R.
Proof. unfold comb. rewrite co_vsum. apply rsum_ext. intros. apply co_scale. Qed.

Lemma comb_ext lo hi w w' (P P' : Z -> T) : (forall i, lo <= i < hi -> w i = w' i /\ P i = P' i) ->
  comb lo hi w P = comb lo hi w' P'.
Proof. intros H. apply vsum_ext. intros i Hi. destruct (H i Hi) as [-> ->]. reflexivity. Qed.

(* terms with zero weight may be dropped *)
Lemma comb_restrict lo hi lo' hi' w (P : Z -> T) : lo <= lo' -> lo' <= hi' -> hi' <= hi ->
  (forall i, lo <= i < hi -> i < lo' \/ hi' <= i -> w i = 0%R) -> comb lo hi w P = comb lo' hi' w P.
Proof.
  intros H1 H2 H3 H. apply co_ext. intros k. rewrite !co_comb.
  rewrite (rsum_split lo lo' hi) by lia. rewrite (rsum_split lo' hi' hi) by lia.
  rewrite (rsum_zero lo lo') by (intros; rewrite H by lia; ring).
  rewrite (rsum_zero hi' hi) by (intros; rewrite H by lia; ring). ring.
Qed.

Lemma comb_shift d lo hi w (P : Z -> T) : comb lo hi w P = comb (lo + d) (hi + d) (fun i => w (i - d)) (fun i => P (i - d)).
Proof. unfold comb. rewrite (vsum_shift d). reflexivity. Qed.

Lemma comb_const lo hi w (x : T) : comb lo hi w (fun _ => x) = vscale (rsum lo hi w) x.
Proof. apply co_ext. intros k. rewrite co_comb, co_scale. apply rsum_scal_r. Qed.
End L.

Section Affine.
Context {T : Type} {V : Vec R T} {L : VecL T} {T' : Type} {V' : Vec R T'} {L' : VecL T'}.

Lemma affine_comb (f : T -> T') lo hi w P : affine f -> rsum lo hi w = 1%R ->
  f (comb lo hi w P) = comb lo hi w (fun i => f (P i)).
Proof.
  intros Hf.
  assert (G : forall (a : R) x, f (vscale a x) = vadd (vscale a (f x)) (vscale (1 - a)%R (f vzero))).
  { intros a x. rewrite <- (Hf a (1 - a)%R x vzero) by ring. f_equal. vring. }
  assert (S : forall x y, f (vadd x y) = vsub (vadd (f x) (f y)) (f vzero)).
  { intros x y. replace (vadd x y) with (vadd (vscale (1/2)%R (vscale 2%R x)) (vscale (1/2)%R (vscale 2%R y))) by (vec; field).
    rewrite (Hf (1/2)%R (1/2)%R) by field. rewrite !G. vec. field. }
  assert (M : f (comb lo hi w P) = vadd (comb lo hi w (fun i => f (P i))) (vscale (1 - rsum lo hi w)%R (f vzero))).
  { destruct (Z.le_gt_cases lo hi) as [H|H].
    - revert hi H. apply Zrange_ind.
      + unfold comb. rewrite !vsum_nil, rsum_nil by lia. vring.
      + intros h Hh IH. unfold comb in *. rewrite !vsum_last, rsum_last by lia. rewrite S, IH, G. vring.
    - unfold comb. rewrite !vsum_nil, rsum_nil by lia. vring. }
  intros H. rewrite M, H. vring.
Qed.

End Affine.

Section Hull.
Context {T : Type} {V : Vec R T} {L : VecL T}.

(* every closed half-space that contains the points contains the combination *)
Lemma hull_comb (f : T -> R) lo hi w P c : affine f -> rsum lo hi w = 1%R ->
  (forall i, lo <= i < hi -> (0 <= w i)%R) -> (forall i, lo <= i < hi -> (c <= f (P i))%R) ->
  (c <= f (comb lo hi w P))%R.
Proof.
  intros Hf Hw Hn Hc. rewrite (affine_comb f lo hi w P Hf Hw).
  replace (comb lo hi w (fun i => f (P i))) with (rsum lo hi (fun i => w i * f (P i))%R).
  2:{ symmetry. change (comb lo hi w (fun i => f (P i))) with (co 0 (comb lo hi w (fun i => f (P i)))). rewrite co_comb. reflexivity. }
  replace c with (rsum lo hi (fun i => w i * c)%R) by (rewrite rsum_scal_r, Hw; ring).
  apply rsum_le. intros i Hi. apply Rmult_le_compat_l; [apply Hn; lia|apply Hc; lia].
Qed.
End Hull.
