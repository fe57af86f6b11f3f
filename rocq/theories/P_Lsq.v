(* Least squares with constraints: linear algebra. *)
From Coq Require Import ZArith List Bool Reals Lra Lia.
From Verif Require Import Base Num Vec Tac Spec Spec6 P_MathUtils P_Cox P_VSum P_Interp P_Local.
Import ListNotations.
Open Scope Z_scope.

Section KKT.
Variables (n mu mc : Z) (b e : Z -> Z -> R) (w s t : Z -> R).
Hypothesis Hn : 0 <= n.
Hypothesis Hmu : 0 <= mu.
Hypothesis Hmc : 0 <= mc.
Hypothesis Hw : forall r, 0 <= r < mu -> (0 < w r)%R.

Definition dotl (a P : Z -> R) : R := rsum 0 (n + 1) (fun l => a l * P l)%R.
Definition gram (i j : Z) : R := rsum 0 mu (fun r => b r i * w r * b r j)%R.
Definition kkt (i j : Z) : R := if i <=? n then (if j <=? n then gram i j else e (j - (n + 1)) i) else (if j <=? n then e (i - (n + 1)) j else 0%R).

Lemma gram_dot i P : rsum 0 (n + 1) (fun l => gram i l * P l)%R = rsum 0 mu (fun r => b r i * w r * dotl (b r) P)%R.
Proof.
  unfold gram, dotl. rewrite (rsum_ext 0 (n + 1) _ (fun l => rsum 0 mu (fun r => (b r i * w r) * (b r l * P l))%R)).
  - rewrite rsum_swap. apply rsum_ext. intros r Hr. apply rsum_scal.
  - intros l Hl. rewrite <- rsum_scal_r. apply rsum_ext. intros r Hr. ring.
Qed.

Lemma sum_dot m (a : Z -> Z -> R) (g : Z -> R) P : rsum 0 (n + 1) (fun l => P l * rsum 0 m (fun r => a r l * g r))%R = rsum 0 m (fun r => g r * dotl (a r) P)%R.
Proof.
  unfold dotl. rewrite (rsum_ext 0 (n + 1) _ (fun l => rsum 0 m (fun r => g r * (a r l * P l))%R)).
  - rewrite rsum_swap. apply rsum_ext. intros r Hr. apply rsum_scal.
  - intros l Hl. rewrite <- rsum_scal. apply rsum_ext. intros r Hr. ring.
Qed.

(* the sum of squares is smallest where its gradient is a combination of the constraints *)
Lemma optimal P P' lam : (forall l, 0 <= l <= n -> (rsum 0 mu (fun r => b r l * (w r * (dotl (b r) P - s r))) + rsum 0 mc (fun q => e q l * lam q) = 0)%R) ->
  (forall q, 0 <= q < mc -> dotl (e q) P = dotl (e q) P') ->
  (rsum 0 mu (fun r => w r * ((dotl (b r) P - s r) * (dotl (b r) P - s r))) <= rsum 0 mu (fun r => w r * ((dotl (b r) P' - s r) * (dotl (b r) P' - s r))))%R.
Proof.
  intros G E. set (d l := (P' l - P l)%R).
  assert (Hd : forall a, dotl a P' = (dotl a P + dotl a d)%R). { intros a. unfold dotl, d. rewrite <- rsum_plus. apply rsum_ext. intros. ring. }
  assert (X : rsum 0 mu (fun r => (w r * (dotl (b r) P - s r)) * dotl (b r) d)%R = 0%R).
  { rewrite <- sum_dot. rewrite (rsum_ext 0 (n + 1) _ (fun l => (-1) * (d l * rsum 0 mc (fun q => e q l * lam q)))%R).
    - rewrite rsum_scal, sum_dot, rsum_zero; [ring|]. intros q Hq. specialize (E q Hq). rewrite Hd in E. replace (dotl (e q) d) with 0%R by lra. ring.
    - intros l Hl. specialize (G l ltac:(lia)). nra. }
  rewrite (rsum_ext 0 mu (fun r => w r * ((dotl (b r) P' - s r) * (dotl (b r) P' - s r)))%R (fun r => (w r * ((dotl (b r) P - s r) * (dotl (b r) P - s r)) + (2 * ((w r * (dotl (b r) P - s r)) * dotl (b r) d) + w r * (dotl (b r) d * dotl (b r) d)))%R)) by (intros r Hr; rewrite Hd; ring).
  rewrite !rsum_plus, rsum_scal, X. assert (0 <= rsum 0 mu (fun r => w r * (dotl (b r) d * dotl (b r) d)))%R; [|lra].
  apply rsum_nonneg. intros r Hr. specialize (Hw r Hr). pose proof (Rle_0_sqr (dotl (b r) d)) as Q. unfold Rsqr in Q. nra.
Qed.

Hypothesis Det : forall P, (forall r, 0 <= r < mu -> dotl (b r) P = 0%R) -> (forall q, 0 <= q < mc -> dotl (e q) P = 0%R) -> forall l, 0 <= l <= n -> P l = 0%R.
Hypothesis Ind : forall lam, (forall l, 0 <= l <= n -> rsum 0 mc (fun q => e q l * lam q)%R = 0%R) -> forall q, 0 <= q < mc -> lam q = 0%R.

Lemma kkt_top i P : 0 <= i <= n -> rsum 0 (n + 1 + mc) (fun l => kkt i l * P l)%R = (rsum 0 mu (fun r => b r i * w r * dotl (b r) P) + rsum 0 mc (fun q => e q i * P (n + 1 + q)%Z))%R.
Proof using Hn Hmc.
  clear Det Ind Hw Hmu. intros Hi. rewrite (rsum_split 0 (n + 1) (n + 1 + mc)) by lia. f_equal.
  - rewrite <- gram_dot. apply rsum_ext. intros l Hl. unfold kkt. destruct (Z.leb_spec i n); [|lia]. destruct (Z.leb_spec l n); [|lia]. reflexivity.
  - rewrite (rsum_shift (- (n + 1)) (n + 1) (n + 1 + mc)). replace (n + 1 + - (n + 1)) with 0 by lia. replace (n + 1 + mc + - (n + 1)) with mc by lia. apply rsum_ext. intros q Hq. unfold kkt.
    destruct (Z.leb_spec i n); [|lia]. destruct (Z.leb_spec (q - - (n + 1)) n); [lia|]. replace (q - - (n + 1) - (n + 1)) with q by lia. replace (q - - (n + 1)) with (n + 1 + q) by lia. reflexivity.
Qed.
Lemma kkt_bottom q P : 0 <= q < mc -> rsum 0 (n + 1 + mc) (fun l => kkt (n + 1 + q) l * P l)%R = dotl (e q) P.
Proof using Hn Hmc.
  clear Det Ind Hw Hmu. intros Hq. rewrite (rsum_split 0 (n + 1) (n + 1 + mc)) by lia. rewrite (rsum_zero (n + 1)); [|intros l Hl; unfold kkt; destruct (Z.leb_spec (n + 1 + q) n); [lia|]; destruct (Z.leb_spec l n); [lia|]; ring].
  rewrite Rplus_0_r. apply rsum_ext. intros l Hl. unfold kkt. destruct (Z.leb_spec (n + 1 + q) n); [lia|]. destruct (Z.leb_spec l n); [|lia]. replace (n + 1 + q - (n + 1)) with q by lia. reflexivity.
Qed.

Lemma kkt_regular : regular (n + 1 + mc) kkt.
Proof.
  intros c Hc. assert (E0 : forall q, 0 <= q < mc -> dotl (e q) c = 0%R). { intros q Hq. rewrite <- kkt_bottom by exact Hq. apply Hc. lia. }
  assert (T0 : forall l, 0 <= l <= n -> (rsum 0 mu (fun r => b r l * w r * dotl (b r) c) + rsum 0 mc (fun q => e q l * c (n + 1 + q)%Z) = 0)%R). { intros l Hl. rewrite <- kkt_top by exact Hl. apply Hc. lia. }
  assert (S0 : rsum 0 mu (fun r => w r * (dotl (b r) c * dotl (b r) c))%R = 0%R).
  { rewrite (rsum_ext 0 mu _ (fun r => (w r * dotl (b r) c) * dotl (b r) c)%R) by (intros; ring). rewrite <- sum_dot.
    rewrite (rsum_ext 0 (n + 1) _ (fun l => (-1) * (c l * rsum 0 mc (fun q => e q l * c (n + 1 + q)%Z)))%R).
    - rewrite rsum_scal, (sum_dot mc e (fun q => c (n + 1 + q))), rsum_zero; [ring|]. intros q Hq. rewrite E0 by exact Hq. ring.
    - intros l Hl. specialize (T0 l ltac:(lia)). rewrite (rsum_ext 0 mu _ (fun r => b r l * w r * dotl (b r) c)%R) by (intros; ring). nra. }
  assert (B0 : forall r, 0 <= r < mu -> dotl (b r) c = 0%R).
  { intros r Hr. assert (Q : (w r * (dotl (b r) c * dotl (b r) c) = 0)%R).
    { apply (rsum_all_zero 0 mu (fun r => w r * (dotl (b r) c * dotl (b r) c))%R); [|exact S0|exact Hr]. intros x Hx. pose proof (Rle_0_sqr (dotl (b x) c)) as Q. unfold Rsqr in Q. apply Rmult_le_pos; [left; apply Hw; exact Hx|exact Q]. }
    pose proof (Hw r Hr). apply Rmult_integral in Q. destruct Q as [Q|Q]; [lra|]. apply Rmult_integral in Q. tauto. }
  assert (C0 := Det c B0 E0). intros l Hl. destruct (Z.le_gt_cases l n) as [Hln|Hln]; [apply C0; lia|].
  replace l with (n + 1 + (l - (n + 1))) by lia. apply (Ind (fun q => c (n + 1 + q))); [|lia].
  intros i Hi. specialize (T0 i Hi). rewrite (rsum_zero 0 mu) in T0; [lra|]. intros r Hr. rewrite B0 by exact Hr. ring.
Qed.
End KKT.
