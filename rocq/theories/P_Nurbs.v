(* Rational curves: points, derivatives, corner cutting. *)
From Coq Require Import ZArith List Bool Reals Lra Lia.
From Verif Require Import Base Num Vec Tac Spec Spec2 M_MathUtils M_Polynomials M_XYZ M_Bspline M_NurbsCurve
  P_MathUtils P_Bern P_Span P_Cox P_Deriv P_Vec P_XYZ P_VSum P_Curve P_Bspline P_Blossom P_Insert P_Insert2 P_Loop.
Import ListNotations.
Open Scope Z_scope.

(* ---------------- weights ---------------- *)

Lemma heavy_iff w : (tol w 0 < w)%R <-> (1 / 999999 < w)%R.
Proof.
  unfold tol. rewrite Rabs_R0. split; intros H.
  - assert (0 < w)%R. { pose proof (Rmax_r (Rabs w) 0). lra. }
    rewrite Rmax_left in H by (apply Rabs_pos). rewrite Rabs_right in H by lra. lra.
  - rewrite Rmax_left by (apply Rabs_pos). rewrite Rabs_right by lra. lra.
Qed.

Lemma heavy_aeq w : (tol w 0 < w)%R -> IsAlmostEqualTo w 0%R = false.
Proof.
  intros H. apply aeq_false. rewrite <- tol_thr, Rminus_0_r. pose proof (tol_pos w 0). rewrite Rabs_right by lra. exact H.
Qed.

Lemma rsum_gt lo hi w x c : rsum lo hi w = 1%R -> (forall i, lo <= i < hi -> (0 <= w i)%R) ->
  (forall i, lo <= i < hi -> w i <> 0%R -> (c < x i)%R) -> (c < rsum lo hi (fun i => w i * x i))%R.
Proof.
  intros Hw Hn Hx.
  assert (G : (rsum lo hi w = 0 \/ 0 < rsum lo hi (fun i => w i * (x i - c)))%R).
  { clear Hw. destruct (Z.le_gt_cases lo hi) as [H|H]; [|left; apply rsum_nil; lia].
    assert (G : (rsum lo hi w = 0 /\ rsum lo hi (fun i => w i * (x i - c)) = 0)%R \/ (0 < rsum lo hi (fun i => w i * (x i - c)))%R).
    { revert hi H Hn Hx. apply (Zrange_ind lo (fun hi => (forall i, lo <= i < hi -> (0 <= w i)%R) -> (forall i, lo <= i < hi -> w i <> 0%R -> (c < x i)%R) ->
        (rsum lo hi w = 0 /\ rsum lo hi (fun i => w i * (x i - c)) = 0)%R \/ (0 < rsum lo hi (fun i => w i * (x i - c)))%R)).
      - intros _ _. left. rewrite !rsum_nil by lia. auto.
      - intros h Hh IH Hn Hx. rewrite !rsum_last by lia.
        specialize (IH ltac:(intros; apply Hn; lia) ltac:(intros i Hi; apply Hx; lia)).
        pose proof (Hn h ltac:(lia)) as Hwh. destruct (Req_dec (w h) 0) as [E|E].
        + rewrite E. destruct IH as [[I1 I2]|I]; [left|right; lra]. rewrite I1, I2. split; ring.
        + right. pose proof (Hx h ltac:(lia) E) as Hxh. assert (0 < w h * (x h - c))%R by (apply Rmult_lt_0_compat; lra).
          destruct IH as [[I1 I2]|I]; lra. }
    tauto. }
  destruct G as [G|G]; [lra|].
  rewrite (rsum_ext lo hi _ (fun i => w i * x i - w i * c)%R) in G by (intros; ring).
  rewrite rsum_minus, rsum_scal_r, Hw in G. lra.
Qed.

Lemma hull_weight p n U W t : curve_knots p n U -> in_domain p n U t ->
  (forall i, 0 <= i <= n -> (tol (val W i) 0 < val W i)%R) ->
  (tol (rational_weight p n U W t) 0 < rational_weight p n U W t)%R.
Proof.
  intros Hc Hd HW. apply heavy_iff. unfold rational_weight. apply rsum_gt.
  - apply N_sum; auto.
  - intros i Hi. apply N_nonneg; auto; lia.
  - intros i Hi _. apply heavy_iff, HW. lia.
Qed.

Lemma NurbsPoint_ok p n U H t : curve_knots p n U -> p <= 7 -> len H = n + 1 -> in_domain p n U t ->
  NurbsPoint (mkCurve p U H) t = ToXYZ (curve_point p n U H t) true.
Proof. intros Hc Hp HH Hd. unfold NurbsPoint. rewrite (GetPointOnCurve_ok p n U H t) by auto. reflexivity. Qed.

Lemma weighted_pt P W H i : weighted P W H -> 0 <= i < len H -> pt H i = hom (pt P i) (val W i).
Proof. intros (_ & _ & G) Hi. specialize (G i Hi). rewrite (get_at vzero) in G by lia. injection G. auto. Qed.

Lemma weighted_curve p n U P W H t : weighted P W H -> len H = n + 1 ->
  ww (curve_point p n U H t) = rational_weight p n U W t /\
  wx (curve_point p n U H t) = rsum 0 (n + 1) (fun i => N (val U) (val U (n + 1)) (Z.to_nat p) i t * (gx (pt P i) * val W i))%R /\
  wy (curve_point p n U H t) = rsum 0 (n + 1) (fun i => N (val U) (val U (n + 1)) (Z.to_nat p) i t * (gy (pt P i) * val W i))%R /\
  wz (curve_point p n U H t) = rsum 0 (n + 1) (fun i => N (val U) (val U (n + 1)) (Z.to_nat p) i t * (gz (pt P i) * val W i))%R.
Proof.
  intros HW HH. unfold curve_point, rational_weight.
  set (w := fun i => N (val U) (val U (n + 1)) (Z.to_nat p) i t).
  change (ww (comb 0 (n + 1) w (pt H))) with (co 3 (comb 0 (n + 1) w (pt H))).
  change (wx (comb 0 (n + 1) w (pt H))) with (co 0 (comb 0 (n + 1) w (pt H))).
  change (wy (comb 0 (n + 1) w (pt H))) with (co 1 (comb 0 (n + 1) w (pt H))).
  change (wz (comb 0 (n + 1) w (pt H))) with (co 2 (comb 0 (n + 1) w (pt H))).
  rewrite !co_comb. repeat split; apply rsum_ext; intros i Hi; rewrite (weighted_pt P W H i) by (auto; lia); reflexivity.
Qed.

Lemma Nurbs_point p n U P W H t : curve_knots p n U -> p <= 7 -> weighted P W H -> len H = n + 1 -> in_domain p n U t ->
  (forall i, 0 <= i <= n -> (tol (val W i) 0 < val W i)%R) ->
  NurbsPoint (mkCurve p U H) t = Ok (rational_point p n U P W t).
Proof.
  intros Hc Hp HW HH Hd Hw. rewrite (NurbsPoint_ok p n) by auto.
  destruct (weighted_curve p n U P W H t HW HH) as (E & Ex & Ey & Ez).
  pose proof (hull_weight p n U W t Hc Hd Hw) as Hh. rewrite ToXYZ_div by (rewrite E; apply heavy_aeq; exact Hh).
  f_equal. rewrite E, Ex, Ey, Ez. set (ws := rational_weight p n U W t) in *.
  assert (ws <> 0)%R by (pose proof (tol_pos ws 0); lra).
  unfold rational_point. fold ws. apply (co_ext (VecL := VecL_XYZ)). intros c. rewrite co_comb.
  destruct c as [|[|c]]; cbn [co VecL_XYZ co_xyz gx gy gz]; unfold Rdiv; rewrite <- rsum_scal_r; apply rsum_ext; intros i Hi; ring.
Qed.

Lemma rational_sum p n U W t : curve_knots p n U -> in_domain p n U t -> (forall i, 0 <= i <= n -> (tol (val W i) 0 < val W i)%R) ->
  rsum 0 (n + 1) (fun i => N (val U) (val U (n + 1)) (Z.to_nat p) i t * val W i / rational_weight p n U W t)%R = 1%R.
Proof.
  intros Hc Hd Hw. pose proof (hull_weight p n U W t Hc Hd Hw). pose proof (tol_pos (rational_weight p n U W t) 0).
  unfold Rdiv. rewrite rsum_scal_r. fold (rational_weight p n U W t). field. lra.
Qed.

(* every half-space containing the active control points contains the curve point *)
Lemma Nurbs_hull p n U P W H t k f c : curve_knots p n U -> p <= 7 -> weighted P W H -> len H = n + 1 -> span_of p n U t k ->
  (forall i, 0 <= i <= n -> (tol (val W i) 0 < val W i)%R) -> affine f ->
  (forall i, k - p <= i <= k -> (c <= f (pt P i))%R) ->
  returns (NurbsPoint (mkCurve p U H) t) (fun x => (c <= f x)%R).
Proof.
  intros Hc Hp HW HH Hk Hw Hf Hb. pose proof (span_of_dom _ _ _ _ _ Hc Hk) as Hd. pose proof Hc as [Hp0 Hn Hl Hs _ _]. pose proof Hk as (Hkr & _).
  eexists. split; [apply (Nurbs_point p n U P W); auto|]. unfold rational_point.
  pose proof (hull_weight p n U W t Hc Hd Hw) as HWt. pose proof (tol_pos (rational_weight p n U W t) 0) as Htp.
  pose proof (rational_sum p n U W t Hc Hd Hw) as Hsum.
  assert (Z0 : forall i, 0 <= i < n + 1 -> i < k - p \/ k + 1 <= i ->
    (N (val U) (val U (n + 1)) (Z.to_nat p) i t * val W i / rational_weight p n U W t = 0)%R).
  { intros i Hi Ho. change (N (val U) (val U (n + 1)) (Z.to_nat p) i t) with (NB (val U) (val U (n + 1)) p i t).
    rewrite (NB_span p n U t k p i) by (auto; lia). rewrite NS_out by lia. unfold Rdiv. ring. }
  rewrite (comb_restrict 0 (n + 1) (k - p) (k + 1)) by (auto; lia).
  apply hull_comb; auto.
  - rewrite (rsum_split 0 (k - p) (n + 1)) in Hsum by lia. rewrite (rsum_split (k - p) (k + 1) (n + 1)) in Hsum by lia.
    rewrite (rsum_zero 0 (k - p)) in Hsum by (intros; apply Z0; lia). rewrite (rsum_zero (k + 1) (n + 1)) in Hsum by (intros; apply Z0; lia). lra.
  - intros i Hi. pose proof (N_nonneg p n U t i Hc Hd ltac:(lia)). pose proof (Hw i ltac:(lia)). pose proof (tol_pos (val W i) 0).
    apply Rmult_le_pos; [apply Rmult_le_pos; lra|]. left. apply Rinv_0_lt_compat. lra.
  - intros i Hi. apply Hb. lia.
Qed.

(* scaling all weights by a common factor changes nothing *)
Lemma Nurbs_scale p n U P W W' H H' t l : curve_knots p n U -> p <= 7 -> weighted P W H -> weighted P W' H' -> len H = n + 1 ->
  (forall i, 0 <= i <= n -> val W' i = (l * val W i)%R) ->
  (forall i, 0 <= i <= n -> (tol (val W i) 0 < val W i)%R) -> (forall i, 0 <= i <= n -> (tol (val W' i) 0 < val W' i)%R) ->
  in_domain p n U t -> NurbsPoint (mkCurve p U H') t = NurbsPoint (mkCurve p U H) t.
Proof.
  intros Hc Hp HW HW' HH Hl Hw Hw' Hd.
  assert (HH' : len H' = n + 1) by (destruct HW as (A & _), HW' as (A' & _); lia).
  rewrite (Nurbs_point p n U P W' H'), (Nurbs_point p n U P W H) by auto. f_equal. unfold rational_point.
  assert (E : rational_weight p n U W' t = (l * rational_weight p n U W t)%R).
  { unfold rational_weight. rewrite <- rsum_scal. apply rsum_ext. intros i Hi. rewrite Hl by lia. ring. }
  pose proof (hull_weight p n U W t Hc Hd Hw) as B1. pose proof (hull_weight p n U W' t Hc Hd Hw') as B2.
  pose proof (tol_pos (rational_weight p n U W t) 0). pose proof (tol_pos (rational_weight p n U W' t) 0).
  assert (l <> 0)%R by (intros ->; rewrite E in *; lra).
  apply comb_ext. intros i Hi. split; [|reflexivity]. rewrite E, Hl by lia. field. split; lra.
Qed.

(* weights within the tolerance of zero are not divided out *)
Lemma Nurbs_tiny : exists p n U P W H t, curve_knots p n U /\ p <= 7 /\ weighted P W H /\ len H = n + 1 /\
  in_domain p n U t /\ (forall i, 0 <= i <= n -> (0 < val W i)%R) /\
  NurbsPoint (mkCurve p U H) t <> Ok (rational_point p n U P W t).
Proof.
  set (P := [mkXYZ 1 0 0; mkXYZ 1 0 0]%R). set (W := [1 / 10000000; 1 / 10000000]%R). set (U := [0; 0; 1; 1]%R).
  set (H := [hom (mkXYZ 1 0 0)%R (1 / 10000000)%R; hom (mkXYZ 1 0 0)%R (1 / 10000000)%R]).
  exists 1, 1, U, P, W, H, 0%R.
  assert (Hc : curve_knots 1 1 U).
  { split; try lia; try reflexivity.
    - sorted_tac.
    - change (0 + tol 0 1 < 1)%R. pose proof (tol_le 0 1 1) as E. rewrite Rabs_R0, Rabs_R1 in E. lra.
    - change (0 + tol 0 1 < 1)%R. pose proof (tol_le 0 1 1) as E. rewrite Rabs_R0, Rabs_R1 in E. lra. }
  assert (HW : weighted P W H).
  { split; [reflexivity|]. split; [reflexivity|]. intros i Hi. change (len H) with 2 in Hi.
    assert (i = 0 \/ i = 1) as [-> | ->] by lia; reflexivity. }
  assert (Hd : in_domain 1 1 U 0%R) by (unfold in_domain; change (0 <= 0 <= 1)%R; lra).
  split; [exact Hc|]. split; [lia|]. split; [exact HW|]. split; [reflexivity|]. split; [exact Hd|]. split.
  { intros i Hi. assert (i = 0 \/ i = 1) as [-> | ->] by lia; [change (0 < 1 / 10000000)%R|change (0 < 1 / 10000000)%R]; lra. }
  rewrite (NurbsPoint_ok 1 1 U H 0%R Hc) by (try lia; auto).
  destruct (weighted_curve 1 1 U P W H 0%R HW eq_refl) as (E & Ex & _).
  pose proof (N_sum 1 1 U 0%R Hc Hd) as Hsum.
  assert (Ew : rational_weight 1 1 U W 0 = (1 / 10000000)%R).
  { unfold rational_weight. rewrite (rsum_ext 0 (1 + 1) _ (fun i => N (val U) (val U (1 + 1)) (Z.to_nat 1) i 0 * (1 / 10000000))%R).
    - rewrite rsum_scal_r, Hsum. lra.
    - intros i Hi. assert (i = 0 \/ i = 1) as [-> | ->] by lia; reflexivity. }
  assert (Exx : wx (curve_point 1 1 U H 0) = (1 / 10000000)%R).
  { rewrite Ex. rewrite (rsum_ext 0 (1 + 1) _ (fun i => N (val U) (val U (1 + 1)) (Z.to_nat 1) i 0 * (1 / 10000000))%R).
    - rewrite rsum_scal_r, Hsum. lra.
    - intros i Hi. assert (i = 0 \/ i = 1) as [-> | ->] by lia; (match goal with |- (?x * _ = _)%R => change (x * (1 * (1 / 10000000)) = x * (1 / 10000000))%R end; ring). }
  rewrite ToXYZ_small.
  2:{ rewrite E, Ew. apply aeq_iff. rewrite <- tol_thr. unfold tol. rewrite Rabs_R0, Rminus_0_r, Rmax_left by (apply Rabs_pos).
      rewrite Rabs_right by lra. lra. }
  rewrite Exx. intros G. injection G as G _ _. unfold rational_point in G.
  change (1 / 10000000 = co 0 (comb 0 (1 + 1) (fun i => N (val U) (val U (1 + 1)) (Z.to_nat 1) i 0 * val W i / rational_weight 1 1 U W 0)%R (pt P)))%R in G.
  rewrite co_comb, Ew in G.
  rewrite (rsum_ext 0 (1 + 1) _ (fun i => N (val U) (val U (1 + 1)) (Z.to_nat 1) i 0 * 1)%R) in G.
  - rewrite rsum_scal_r, Hsum in G. lra.
  - intros i Hi. assert (i = 0 \/ i = 1) as [-> | ->] by lia; (match goal with |- (?x * _ / _ * _ = _)%R => change (x * (1 / 10000000) / (1 / 10000000) * 1 = x * 1)%R end; field).
Qed.

(* ---------------- derivatives of a quotient ---------------- *)

Section Quotient.
Variables (a w : Z -> R -> R).

(* table of the quotients of index below n *)
Fixpoint qtab (n : nat) : Z -> R -> R := fun k t =>
  match n with
  | O => 0%R
  | S n' => if k =? Z.of_nat n'
            then ((a k t - rsum 1 (k + 1) (fun i => Cb k i * w i t * qtab n' (k - i)%Z t)) / w 0 t)%R
            else qtab n' k t
  end.
Definition quo (k : Z) (t : R) : R := qtab (Z.to_nat k + 1) k t.

Lemma qtab_quo n k t : 0 <= k < Z.of_nat n -> qtab n k t = quo k t.
Proof.
  intros Hk. induction n as [|n IH]; [lia|].
  destruct (Z.eq_dec k (Z.of_nat n)) as [->|E].
  - unfold quo. f_equal. lia.
  - cbn [qtab]. replace (k =? Z.of_nat n) with false by (symmetry; apply Z.eqb_neq; lia). apply IH. lia.
Qed.

Lemma quo_eq k t : 0 <= k -> quo k t = ((a k t - rsum 1 (k + 1) (fun i => Cb k i * w i t * quo (k - i)%Z t)) / w 0 t)%R.
Proof.
  intros Hk. unfold quo at 1. replace (Z.to_nat k + 1)%nat with (S (Z.to_nat k)) by lia. cbn [qtab].
  replace (k =? Z.of_nat (Z.to_nat k)) with true by (symmetry; apply Z.eqb_eq; lia). f_equal. f_equal. apply rsum_ext. intros i Hi. rewrite qtab_quo by lia. reflexivity.
Qed.

Hypothesis Ha : forall k t, 0 <= k -> w 0 t <> 0%R -> der (a k) t (a (k + 1) t).
Hypothesis Hw : forall k t, 0 <= k -> w 0 t <> 0%R -> der (w k) t (w (k + 1) t).

Lemma pascal_sum k (W G : Z -> R) : 0 <= k ->
  (rsum 1 (k + 2) (fun i => Cb (k + 1) i * W i * G (k + 1 - i)%Z) =
   rsum 1 (k + 1) (fun i => Cb k i * (W (i + 1)%Z * G (k - i)%Z + W i * G (k + 1 - i)%Z)) + W 1%Z * G k)%R.
Proof.
  intros Hk.
  rewrite (rsum_ext 1 (k + 1) _ (fun i => Cb k i * W (i + 1)%Z * G (k - i)%Z + Cb k i * W i * G (k + 1 - i)%Z)%R) by (intros; ring).
  rewrite rsum_plus.
  replace (rsum 1 (k + 1) (fun i => Cb k i * W (i + 1)%Z * G (k - i)%Z) + rsum 1 (k + 1) (fun i => Cb k i * W i * G (k + 1 - i)%Z) + W 1%Z * G k)%R
    with (rsum 0 (k + 1) (fun i => Cb k i * W (i + 1)%Z * G (k - i)%Z) + rsum 1 (k + 1) (fun i => Cb k i * W i * G (k + 1 - i)%Z))%R.
  2:{ rewrite (rsum_split 0 1 (k + 1)) by lia. rewrite (rsum_last' 0 1), (rsum_nil 0) by lia. change (1 - 1) with 0.
      rewrite Cb_0 by lia. change (0 + 1) with 1. rewrite Z.sub_0_r. ring. }
  rewrite (rsum_shift 1 0). change (0 + 1) with 1. replace (k + 1 + 1) with (k + 2) by lia.
  rewrite (rsum_last' 1 (k + 2)) by lia. rewrite (rsum_last' 1 (k + 2) (fun i => _)) by lia. replace (k + 2 - 1) with (k + 1) by lia.
  rewrite (rsum_ext 1 (k + 1) (fun i => Cb (k + 1) i * W i * G (k + 1 - i)%Z)%R (fun i => (Cb k (i - 1)%Z * W (i - 1 + 1)%Z * G (k - (i - 1))%Z) + Cb k i * W i * G (k + 1 - i)%Z)%R).
  - rewrite rsum_plus. replace (k + 1 - 1 + 1) with (k + 1) by lia. replace (k - (k + 1 - 1)) with (k + 1 - (k + 1)) by lia.
    replace (k + 1 - 1) with k by lia. rewrite !Cb_n by lia. ring.
  - intros i Hi. replace (i - 1 + 1) with i by lia. replace (k - (i - 1)) with (k + 1 - i) by lia.
    rewrite (Cb_pascal (k + 1) i) by lia. replace (k + 1 - 1) with k by lia. ring.
Qed.

Lemma quo_der_aux M t : w 0 t <> 0%R -> forall k, 0 <= k < Z.of_nat M -> der (quo k) t (quo (k + 1) t).
Proof.
  intros Hwt. induction M as [|M IH]; intros k Hk; [lia|].
  apply der_ext with (fun x => (a k x - rsum 1 (k + 1) (fun i => Cb k i * w i x * quo (k - i)%Z x)) / w 0 x)%R.
  { intros x. symmetry. apply quo_eq. lia. }
  set (num := fun x => (a k x - rsum 1 (k + 1) (fun i => Cb k i * w i x * quo (k - i)%Z x))%R).
  assert (Dn : der num t (a (k + 1) t - rsum 1 (k + 1) (fun i => Cb k i * (w (i + 1)%Z t * quo (k - i)%Z t + w i t * quo (k + 1 - i)%Z t)))%R).
  { apply der_minus; [apply Ha; [lia|exact Hwt]|].
    apply (der_rsum 1 (k + 1) (fun i x => (Cb k i * w i x * quo (k - i)%Z x)%R)). intros i Hi.
    apply der_ext with (fun x => (Cb k i * (w i x * quo (k - i)%Z x))%R); [intros; ring|].
    apply der_scal. apply der_mult; [apply Hw; [lia|exact Hwt]|].
    replace (k + 1 - i) with (k - i + 1) by lia. apply IH. lia. }
  eapply der_eq; [|exact (derivable_pt_lim_div num (w 0) t _ _ Dn (Hw 0 t ltac:(lia) Hwt) Hwt)].
  change (0 + 1) with 1. rewrite (quo_eq (k + 1)) by lia. replace (k + 1 + 1) with (k + 2) by lia.
  rewrite (pascal_sum k (fun i => w i t) (fun i => quo i t)) by lia.
  assert (En : num t = (quo k t * w 0 t)%R). { rewrite (quo_eq k) by lia. unfold num. field. exact Hwt. }
  rewrite En. unfold Rsqr. field. exact Hwt.
Qed.

Lemma quo_der k t : 0 <= k -> w 0 t <> 0%R -> der (quo k) t (quo (k + 1) t).
Proof. intros Hk Hwt. apply (quo_der_aux (S (Z.to_nat k))); [exact Hwt|lia]. Qed.

Lemma quo_nth_deriv m : nth_deriv_on (fun t => w 0 t <> 0%R) m (fun t => (a 0 t / w 0 t)%R) (quo (Z.of_nat m)).
Proof.
  enough (G : forall j, 0 <= j -> nth_deriv_on (fun t => w 0 t <> 0%R) m (quo j) (quo (j + Z.of_nat m))).
  { specialize (G 0 ltac:(lia)). rewrite Z.add_0_l in G.
    assert (E : forall t, quo 0 t = (a 0 t / w 0 t)%R) by (intros t; rewrite quo_eq, rsum_nil by lia; f_equal; ring).
    destruct m as [|m]; cbn [nth_deriv_on] in *.
    - intros t Ht. rewrite <- E. apply G. exact Ht.
    - destruct G as (h & G1 & G2). exists h. split; [|exact G2]. intros t Ht. apply (der_ext (quo 0)); [exact E|]. apply G1. exact Ht. }
  induction m as [|m IH]; intros j Hj; cbn [nth_deriv_on].
  - intros t _. f_equal. lia.
  - exists (quo (j + 1)). split; [intros t Ht; apply quo_der; auto|].
    replace (j + Z.of_nat (S m)) with (j + 1 + Z.of_nat m) by lia. apply IH. lia.
Qed.

End Quotient.

(* ---------------- the code's derivatives ---------------- *)

Lemma dcurve_der k p U (P : list (XYZW R)) m t c : 0 <= p -> 0 <= m -> good (val U) k p ->
  der (fun x => co c (dcurve k p U P m x)) t (co c (dcurve k p U P (m + 1) t)).
Proof.
  intros Hp Hm Hg. destruct (Z.lt_ge_cases m p) as [Hmp|Hmp].
  - apply der_ext with (fun x => co c (dcurve2 k p (val U) (pt P) m x)).
    { intros x. rewrite dcurve_eq by (auto; lia). reflexivity. }
    rewrite dcurve_eq by (auto; lia). apply dcurve2_der; [lia|exact Hg].
  - (* above the degree everything is constant *)
    rewrite dcurve_above by lia. rewrite co_zero.
    destruct (Z.eq_dec m p) as [->|Hne].
    + apply der_ext with (fun x => co c (dcurve2 k p (val U) (pt P) p x)).
      { intros x. rewrite dcurve_eq by (auto; lia). reflexivity. }
      apply der_ext with (fun _ => co c (dcurve2 k p (val U) (pt P) p 0%R)); [|apply der_const].
      intros x. unfold dcurve2. rewrite !co_comb. apply rsum_ext. intros i Hi. replace (p - p) with 0 by lia. rewrite !NS_0. reflexivity.
    + apply der_ext with (fun _ => 0%R); [|apply der_const]. intros x. rewrite dcurve_above by lia. rewrite co_zero. reflexivity.
Qed.

Definition rquo (k p : Z) (U : list R) (H : list (XYZW R)) (c : nat) (m : Z) (t : R) : R :=
  quo (fun j x => co c (dcurve k p U H j x)) (fun j x => ww (dcurve k p U H j x)) m t.
Definition rder (k p : Z) (U : list R) (H : list (XYZW R)) (m : Z) (t : R) : XYZ R :=
  mkXYZ (rquo k p U H 0 m t) (rquo k p U H 1 m t) (rquo k p U H 2 m t).

Lemma dcurve_0 k p U (P : list (XYZW R)) t : 0 <= p -> good (val U) k p -> dcurve k p U P 0 t = span_curve k p U P t.
Proof.
  intros Hp Hg. pose proof (dcurve_deriv k p U P 0 Hp (Z.le_refl 0) Hg) as E. apply co_ext. intros c. symmetry. apply (E c t).
Qed.

Lemma rder_deriv k p U H m : 0 <= p -> 0 <= m -> good (val U) k p ->
  xyz_deriv_on (fun t => ww (span_curve k p U H t) <> 0%R) m (fun t => proj (span_curve k p U H t)) (rder k p U H m).
Proof.
  intros Hp Hm Hg.
  assert (G : forall c, nth_deriv_on (fun t => ww (span_curve k p U H t) <> 0%R) (Z.to_nat m)
     (fun t => (co c (span_curve k p U H t) / ww (span_curve k p U H t))%R) (rquo k p U H c m)).
  { intros c. pose proof (quo_nth_deriv (fun j x => co c (dcurve k p U H j x)) (fun j x => ww (dcurve k p U H j x))
      (fun j t Hj _ => dcurve_der k p U H j t c Hp Hj Hg) (fun j t Hj _ => dcurve_der k p U H j t 3 Hp Hj Hg) (Z.to_nat m)) as E.
    rewrite Z2Nat.id in E by lia. cbv beta in E. unfold rquo.
    assert (E0 : (fun t => ww (dcurve k p U H 0 t)) = (fun t => ww (span_curve k p U H t))).
    { apply FunctionalExtensionality.functional_extensionality. intros t. rewrite dcurve_0; auto. }
    assert (E1 : (fun t => (co c (dcurve k p U H 0 t) / ww (dcurve k p U H 0 t))%R) = (fun t => (co c (span_curve k p U H t) / ww (span_curve k p U H t))%R)).
    { apply FunctionalExtensionality.functional_extensionality. intros t. rewrite dcurve_0; auto. }
    rewrite E1 in E. revert E. generalize (quo (fun j x => co c (dcurve k p U H j x)) (fun j x => ww (dcurve k p U H j x)) m) as q.
    intros q. change (fun t => ww (dcurve k p U H 0 t) <> 0%R) with (fun t => (fun t => ww (dcurve k p U H 0 t)) t <> 0%R). rewrite E0. auto. }
  repeat split; [apply (G 0%nat)|apply (G 1%nat)|apply (G 2%nat)].
Qed.

Lemma Rational_derivatives p n U H t k d : curve_knots p n U -> p <= 7 -> len H = n + 1 -> span_of p n U t k -> 0 < d ->
  ww (span_curve k p U H t) <> 0%R ->
  wp (ComputeRationalCurveDerivatives (mkCurve p U H) d t) (fun l => arr l (d + 1) (fun m => rder k p U H m t)).
Proof.
  intros Hc Hp HH Hk Hd Hw. pose proof Hc as [Hp0 _ _ _ _ _]. pose proof (span_of_good _ _ _ _ _ Hc Hk) as Hg.
  unfold ComputeRationalCurveDerivatives. apply wp_bind. apply wp_mkvec; [lia|]. intros D0 HD0.
  apply wp_bind. eapply wp_mono; [apply (ComputeDerivatives_span p n U H t k d); auto|]. intros ders Hders. cbv beta in Hders.
  pose proof (arr_len _ _ _ Hders) as Eld.
  apply wp_bind. apply wp_mkvec; [lia|]. intros A0 HA0. apply wp_bind. rewrite Eld.
  set (a := fun m => mkXYZ (wx (dcurve k p U H m t)) (wy (dcurve k p U H m t)) (wz (dcurve k p U H m t))).
  apply (wp_fill_all (d + 1) a); [lia|apply (arr_len _ _ _ HA0)| |].
  { intros i v Hi _. wget Hders. reflexivity. }
  intros A HA. apply wp_bind. apply wp_mkvec; [lia|]. intros W0 HW0. apply wp_bind.
  apply (wp_fill_all (d + 1) (fun m => ww (dcurve k p U H m t))); [lia|apply (arr_len _ _ _ HW0)| |].
  { intros i v Hi _. wget Hders. reflexivity. }
  intros W HW.
  apply (wp_fill_all (d + 1) (fun m => rder k p U H m t)); [lia|apply (arr_len _ _ _ HD0)| |auto].
  intros m D Hm HD. wget HA.
  set (S := fun c h => rsum 1 h (fun i => Cb m i * ww (dcurve k p U H i t) * rquo k p U H c (m - i)%Z t)%R).
  assert (E : for_up 1 (m + 1) (a m) (fun i v => let! b := Binomial m i in let! w := get W i in let! d := get D (m - i) in
      Ok (xyz_sub v (xyz_scale (nmul b w) d))) =
    Ok (mkXYZ (gx (a m) - S 0%nat (m + 1)%Z) (gy (a m) - S 1%nat (m + 1)%Z) (gz (a m) - S 2%nat (m + 1)%Z))%R).
  { eapply wp_eq. apply wp_for_up with (P := fun h v => v = mkXYZ (gx (a m) - S 0%nat h)%R (gy (a m) - S 1%nat h)%R (gz (a m) - S 2%nat h)%R); [lia| | |].
    - unfold S. rewrite !rsum_nil by lia. rewrite !Rminus_0_r. reflexivity.
    - intros i v Hi ->. rewrite Binomial_ok by lia. cbn [bind]. wget HW. wget HD. cbn [wp].
      unfold S. rewrite !rsum_last by lia. unfold xyz_sub, xyz_scale, rder. cbn [gx gy gz]. num. f_equal; ring.
    - intros v ->. reflexivity. }
  rewrite E. cbn [bind]. wget HW. rewrite dcurve_0 by auto.
  unfold xyz_div. num. cbn [gx gy gz]. rewrite !Rdiv_ok by exact Hw. cbn [bind]. f_equal.
  unfold rder, rquo. rewrite !quo_eq by lia. rewrite dcurve_0 by auto. reflexivity.
Qed.

(* ---------------- corner cutting ---------------- *)

Section Corner.
Context {T : Type} {V : Vec R T} {L : VecL T}.

Lemma CornerCut_interior p n U (P : list T) t k : curve_knots p n U -> len P = n + 1 ->
  span_of p n U t k -> (val U 0 < t)%R -> (t < val U (n + 1))%R ->
  (forall x, In x U -> (Rabs (t - x) <= tol t x)%R -> x = t) ->
  let s := Z.of_nat (count_occ Req_EM_T U t) in
  (s <= p -> CornerCut (mkCurve p U P) t = Ok (curve_point p n U P t)) /\
  (p + 1 = s -> CornerCut (mkCurve p U P) t = UB).
Proof.
  intros Hc HP Hk Ht0 Htn Hsep s. pose proof Hc as [Hp Hn Hl Hsort _ _]. pose proof Hk as (Hkr & Hlt & Hku & Hku').
  assert (Hku1 : (t < val U (k + 1))%R) by (destruct Hku' as [?|[-> ->]]; lra). clear Hku'.
  pose proof (Hsort 0 k ltac:(lia) ltac:(lia) ltac:(lia)) as H0k. pose proof (Hsort (k + 1) (len U - 1) ltac:(lia) ltac:(lia) ltac:(lia)) as Hkl.
  assert (EM : GetKnotMultiplicity U t = Ok s) by (apply GetKnotMultiplicity_exact; auto; [lia|lra]).
  assert (ES : GetKnotSpanIndex p U t = Ok k) by (apply (find_span_eq p n); auto).
  destruct (count_sorted U t k Hsort ltac:(lia) Hku Hku1) as (Hs1 & Hs2 & Hs3). fold s in Hs1, Hs2, Hs3.
  pose proof (span_of_dom _ _ _ _ _ Hc Hk) as Hd. pose proof (span_of_good _ _ _ _ _ Hc Hk) as Hg.
  assert (AU : arr U (n + p + 2) (val U)) by (rewrite <- Hl; apply arr_at). pose proof (arr_pt P _ HP) as AP.
  assert (Hne : forall i, 0 <= i < n + p + 2 -> val U i <> t -> IsAlmostEqualTo t (val U i) = false).
  { intros i Hi Hne. apply aeq_false. rewrite <- tol_thr. apply Rnot_le_lt. intros C. apply Hne. apply Hsep; [apply val_In; lia|exact C]. }
  unfold CornerCut. cbn [Degree KnotVector ControlPoints].
  rewrite (domain_ok p n U t Hc Hd). cbn [bind]. wget AU. rewrite Hne by (try lia; lra). rewrite HP.
  replace (n + 1 - 1 + p + 1) with (n + p + 1) by lia. wget AU. rewrite Hne by (try lia; replace (n + p + 1) with (len U - 1) by lia; lra).
  rewrite ES. cbn [bind]. rewrite EM. cbn [bind].
  split.
  2:{ intros Hs. replace (p - s + 1) with 0 by lia. reflexivity. }
  intros Hsp. eapply wp_eq. apply wp_bind. apply wp_mkvec; [lia|]. intros w Hw. apply wp_bind.
  set (tb := tab (val U) (pt P) p t).
  apply (wp_fill_all (p - s + 1) (fun i => tb 0 (k - p + i))); [lia|apply (arr_len _ _ _ Hw)| |].
  { intros i v Hi _. wget AP. unfold tb. rewrite tab_0. reflexivity. }
  clear w Hw. intros w Hw. apply wp_bind.
  apply wp_for_up with (P := fun j w => arrD w (p - s + 1) (fun i => i <= p - s - (j - 1)) (fun i => tb (j - 1) (k - p + i + (j - 1)))); [lia| | |].
  { apply arrD_of_arr. eapply arr_ext; [exact Hw|]. intros i Hi. cbv beta. f_equal; lia. }
  - clear w Hw. intros j w Hj Hw. replace (j + 1 - 1) with j in * by lia.
    apply wp_for_up with (P := fun h w => arrD w (p - s + 1) (fun i => i <= p - s - (j - 1))
       (fun i => if i <? h then tb j (k - p + i + j) else tb (j - 1) (k - p + i + (j - 1)))); [lia| | |].
    + eapply arrD_ext; [exact Hw|]. intros i Hi Hi'. cbv beta in *. split; [lia|]. zcase; [lia|reflexivity].
    + clear w Hw. intros i w Hi Hw. wget AU. wget AU.
      assert (Hdd : (val U (k - p + j + i) < val U (i + k + 1))%R).
      { destruct Hg as [G1 G2]. pose proof (Hsort (k - p + j + i) k ltac:(lia) ltac:(lia) ltac:(lia)). pose proof (Hsort (k + 1) (i + k + 1) ltac:(lia) ltac:(lia) ltac:(lia)). lra. }
      num. rewrite Rdiv_ok by lra. cbn [bind]. rewrite (arrD_get _ _ _ _ _ Hw) by lia. cbn [bind]. rewrite (arrD_get _ _ _ _ _ Hw) by lia. cbn [bind].
      replace (i + 1 <? i) with false by (symmetry; apply Z.ltb_ge; lia). rewrite Z.ltb_irrefl.
      eapply arrD_upd; [exact Hw|lia|]. intros w' Hw'. eapply arrD_ext; [exact Hw'|]. cbv beta. intros m Hm Hm'. split; [right; lia|].
      destruct (Z.eqb_spec m i) as [->|Hmi]; [|zcase; try lia; reflexivity].
      destruct (Z.ltb_spec i (i + 1)); [|lia]. unfold tb at 3. rewrite tab_succ by lia. fold tb. rewrite <- blend_deB.
      f_equal; [|f_equal; lia|f_equal; lia]. replace (k - p + i + j) with (k - p + j + i) by lia. replace (k - p + j + i + (p + 1 - j)) with (i + k + 1) by lia. reflexivity.
    + intros w' Hw'. eapply arrD_ext; [exact Hw'|]. intros i Hi Hi'. cbv beta in *. split; [lia|]. zcase; [reflexivity|lia].
  - clear w Hw. intros w Hw. wget Hw. cbn [wp]. replace (p - s + 1 - 1) with (p - s) by lia. unfold tb.
    rewrite (tab_bl (val U) (pt P) p t Hp (p - s) _ k) by (auto; lia).
    rewrite (curve_point_span p n U P t k) by auto. rewrite span_curve_bl by (auto; lia).
    rewrite (win_const _ _ _ t).
    + rewrite <- repeat_app. do 2 f_equal. lia.
    + intros i Hi. apply Hs2. lia.
Qed.

Lemma CornerCut_ok p n U (P : list T) t : curve_knots p n U -> p <= 7 -> len P = n + 1 -> in_domain p n U t ->
  (forall i, 0 <= i <= p -> val U i = val U 0) -> (forall i, n + 1 <= i <= n + p + 1 -> val U i = val U (n + p + 1)) ->
  (forall x, In x U -> (Rabs (t - x) <= tol t x)%R -> x = t) ->
  ((val U 0 < t < val U (n + p + 1))%R -> Z.of_nat (count_occ Req_EM_T U t) <= p) ->
  CornerCut (mkCurve p U P) t = Ok (curve_point p n U P t).
Proof.
  intros Hc Hp7 HP Hd E0 E1 Hsep Hs. pose proof Hc as [Hp Hn Hl Hsort _ _].
  destruct (clamped_ends p n U P Hc Hp7 HP) as [C0 C1]. specialize (C0 E0). specialize (C1 E1).
  pose proof Hd as Hd'. unfold in_domain in Hd'. rewrite (E0 p) in Hd' by lia. rewrite (E1 (n + 1)) in Hd' by lia.
  assert (AU : arr U (n + p + 2) (val U)) by (rewrite <- Hl; apply arr_at). pose proof (arr_pt P _ HP) as AP.
  destruct (Req_dec t (val U 0)) as [->|N0].
  { rewrite <- GetPointOnCurve_ok in * by auto. rewrite C0.
    unfold CornerCut. cbn [Degree KnotVector ControlPoints]. rewrite (domain_ok p n U _ Hc Hd). cbn [bind]. wget AU. rewrite aeq_refl. wget AP. reflexivity. }
  destruct (Req_dec t (val U (n + p + 1))) as [->|N1].
  { rewrite <- GetPointOnCurve_ok in * by auto. rewrite C1.
    unfold CornerCut. cbn [Degree KnotVector ControlPoints]. rewrite (domain_ok p n U _ Hc Hd). cbn [bind]. wget AU.
    replace (IsAlmostEqualTo (val U (n + p + 1)) (val U 0)) with false.
    - rewrite HP. replace (n + 1 - 1 + p + 1) with (n + p + 1) by lia. wget AU. rewrite aeq_refl. replace (n + 1 - 1) with n by lia. wget AP. reflexivity.
    - symmetry. apply aeq_false. rewrite <- tol_thr. apply Rnot_le_lt. intros C. apply N0. symmetry. apply Hsep; [apply val_In; lia|exact C]. }
  destruct (find_span p n U t Hc Hd) as (k & _ & Hk).
  apply (CornerCut_interior p n U P t k); auto; try lra; [rewrite (E1 (n + 1)) by lia; lra|apply Hs; lra].
Qed.

End Corner.

Lemma CornerCut_same p n U H t : curve_knots p n U -> p <= 7 -> len H = n + 1 -> in_domain p n U t ->
  (forall i, 0 <= i <= p -> val U i = val U 0) -> (forall i, n + 1 <= i <= n + p + 1 -> val U i = val U (n + p + 1)) ->
  (forall x, In x U -> (Rabs (t - x) <= tol t x)%R -> x = t) ->
  ((val U 0 < t < val U (n + p + 1))%R -> Z.of_nat (count_occ Req_EM_T U t) <= p) ->
  GetPointOnCurveByCornerCut (mkCurve p U H) t = NurbsPoint (mkCurve p U H) t.
Proof.
  intros Hc Hp HH Hd E0 E1 Hsep Hs. rewrite (NurbsPoint_ok p n) by auto. unfold GetPointOnCurveByCornerCut.
  rewrite (CornerCut_ok p n) by auto. reflexivity.
Qed.

(* an interior knot of multiplicity degree + 1 *)
Definition Ufull : list R := [0; 0; 1; 1; 2; 2]%R.
Lemma Ufull_ok : curve_knots 1 3 Ufull.
Proof.
  split; try (unfold Ufull, len; cbn; lia).
  - unfold Ufull. sorted_tac.
  - change (0 + tol 0 1 < 1)%R. pose proof (tol_le 0 1 1) as E. rewrite Rabs_R0, Rabs_R1 in E. lra.
  - change (1 + tol 1 2 < 2)%R. pose proof (tol_le 1 2 2) as E. rewrite Rabs_R1, (Rabs_right 2) in E by lra. lra.
Qed.

Lemma CornerCut_full (H : list (XYZW R)) : len H = 4 -> GetPointOnCurveByCornerCut (mkCurve 1 Ufull H) 1%R = UB.
Proof.
  intros HH. unfold GetPointOnCurveByCornerCut.
  assert (Hk : span_of 1 3 Ufull 1%R 3).
  { split; [lia|]. change ((1 < 2)%R /\ (1 <= 1)%R /\ ((1 < 2)%R \/ 3 = 3 /\ 1%R = 2%R)). repeat split; try lra; left; lra. }
  destruct (CornerCut_interior 1 3 Ufull H 1%R 3 Ufull_ok ltac:(lia) Hk) as [_ E].
  - change (0 < 1)%R. lra.
  - change (1 < 2)%R. lra.
  - unfold Ufull. intros x Hx Hn. unfold tol in Hn. rewrite Rabs_R1 in Hn. cbn [In] in Hx.
    assert (G : (x = 0 \/ x = 1 \/ x = 2)%R) by (repeat (destruct Hx as [<-|Hx]; [auto|]); contradiction).
    destruct G as [-> | [-> | ->]]; [exfalso|reflexivity|exfalso]; revert Hn; apply Rlt_not_le.
    + rewrite Rabs_R0, Rmax_left by lra. rewrite Rabs_right by lra. lra.
    + rewrite (Rabs_right 2), Rmax_right by lra. rewrite Rabs_left by lra. lra.
  - rewrite E; [reflexivity|]. unfold Ufull. cbn [count_occ].
    destruct (Req_EM_T 0 1) as [G|_]; [lra|]. destruct (Req_EM_T 1 1) as [_|G]; [|lra]. destruct (Req_EM_T 2 1) as [G|_]; [lra|]. reflexivity.
Qed.

Lemma Rational_derivatives_ok p n U H t d : curve_knots p n U -> p <= 7 -> len H = n + 1 -> in_domain p n U t -> 0 < d ->
  exists k, span_of p n U t k /\ (ww (span_curve k p U H t) <> 0%R ->
    returns (ComputeRationalCurveDerivatives (mkCurve p U H) d t) (fun D => len D = d + 1 /\
      forall m, 0 <= m <= d -> exists G,
        xyz_deriv_on (fun x => ww (span_curve k p U H x) <> 0%R) m (fun x => proj (span_curve k p U H x)) G /\
        get D m = Ok (G t))).
Proof.
  intros Hc Hp HH Hd Hd0. destruct (find_span _ _ _ _ Hc Hd) as (k & _ & Hk). exists k. split; [exact Hk|]. intros Hw.
  pose proof Hc as [Hp0 _ _ _ _ _].
  destruct (wp_elim _ _ (Rational_derivatives p n U H t k d Hc Hp HH Hk Hd0 Hw)) as (D & E & HD).
  exists D. split; [exact E|]. split; [apply (arr_len _ _ _ HD)|]. intros m Hm. exists (rder k p U H m). split.
  - apply rder_deriv; auto; [lia|]. eapply span_of_good; eauto.
  - apply (arr_get _ _ _ _ HD). lia.
Qed.

(* positive weights: the denominator does not vanish *)
Lemma span_weight_pos p n U P W H t k : curve_knots p n U -> weighted P W H -> len H = n + 1 -> span_of p n U t k ->
  (forall i, 0 <= i <= n -> (0 < val W i)%R) -> (0 < ww (span_curve k p U H t))%R.
Proof.
  intros Hc HW HH Hk Hw. pose proof (span_of_dom _ _ _ _ _ Hc Hk) as Hd.
  rewrite <- (curve_point_span p n) by auto. destruct (weighted_curve p n U P W H t HW HH) as (-> & _).
  apply rsum_gt; [apply N_sum; auto|intros; apply N_nonneg; auto; lia|intros; apply Hw; lia].
Qed.

Lemma Rational_derivatives_positive p n U P W H t d : curve_knots p n U -> p <= 7 -> weighted P W H -> len H = n + 1 ->
  (forall i, 0 <= i <= n -> (0 < val W i)%R) -> in_domain p n U t -> 0 < d ->
  exists k, span_of p n U t k /\
    returns (ComputeRationalCurveDerivatives (mkCurve p U H) d t) (fun D => len D = d + 1 /\
      forall m, 0 <= m <= d -> exists G,
        xyz_deriv_on (fun x => ww (span_curve k p U H x) <> 0%R) m (fun x => proj (span_curve k p U H x)) G /\
        get D m = Ok (G t)).
Proof.
  intros Hc Hp HW HH Hw Hd Hd0. destruct (Rational_derivatives_ok p n U H t d Hc Hp HH Hd Hd0) as (k & Hk & G).
  exists k. split; [exact Hk|]. apply G. pose proof (span_weight_pos p n U P W H t k Hc HW HH Hk Hw). lra.
Qed.

(* an undivided curve with vanishing weight function: the quotients are not finite *)
Lemma Rational_derivatives_zero p n U H t k d : curve_knots p n U -> p <= 7 -> len H = n + 1 -> span_of p n U t k -> 0 < d ->
  ww (span_curve k p U H t) = 0%R -> ComputeRationalCurveDerivatives (mkCurve p U H) d t = NonFin.
Proof.
  intros Hc Hp HH Hk Hd Hw. pose proof Hc as [Hp0 _ _ _ _ _]. pose proof (span_of_good _ _ _ _ _ Hc Hk) as Hg.
  unfold ComputeRationalCurveDerivatives.
  destruct (wp_elim (mkvec (d + 1) (xyz0 (A := R))) (fun l => len l = d + 1) ltac:(apply wp_mkvec; [lia|intros l [Hl _]; exact Hl])) as (D0 & -> & HD0). cbn [bind].
  destruct (wp_elim _ _ (ComputeDerivatives_span p n U H t k d Hc Hp HH Hk Hd)) as (ders & -> & Hders). cbn [bind].
  pose proof (arr_len _ _ _ Hders) as ->.
  set (a := fun m => mkXYZ (wx (dcurve k p U H m t)) (wy (dcurve k p U H m t)) (wz (dcurve k p U H m t))).
  assert (EA : exists A, for_up 0 (d + 1) D0 (fun i A => let! d := get ders i in let! x := ToXYZ d false in upd A i x) = Ok A /\ arr A (d + 1) a).
  { apply wp_elim. apply (wp_fill_all (d + 1) a); [lia|exact HD0| |auto]. intros i v Hi _. wget Hders. reflexivity. }
  destruct EA as (A & -> & HA). cbn [bind].
  destruct (wp_elim (mkvec (d + 1) (n0 (A := R))) (fun l => len l = d + 1) ltac:(apply wp_mkvec; [lia|intros l [Hl _]; exact Hl])) as (W0 & -> & HW0). cbn [bind].
  assert (EW : exists W, for_up 0 (d + 1) W0 (fun i W => let! d := get ders i in upd W i (ww d)) = Ok W /\ arr W (d + 1) (fun m => ww (dcurve k p U H m t))).
  { apply wp_elim. apply (wp_fill_all (d + 1) (fun m => ww (dcurve k p U H m t))); [lia|exact HW0| |auto]. intros i v Hi _. wget Hders. reflexivity. }
  destruct EW as (W & -> & HW). cbn [bind].
  rewrite for_up_first by lia. wget HA. change (0 + 1) with 1. rewrite for_up_nil by lia. cbn [bind]. wget HW.
  rewrite dcurve_0, Hw by auto. unfold xyz_div. num. rewrite Rdiv_zero by reflexivity. reflexivity.
Qed.
