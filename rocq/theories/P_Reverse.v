(* Continuity at knots, reversal, affine and rational reparametrisation. *)
From Coq Require Import ZArith List Bool Reals Lra Lia Permutation.
From Verif Require Import Base Num Vec Tac Spec Spec2 M_MathUtils M_Polynomials M_XYZ M_Bspline M_NurbsCurve M_Knots M_Curve2
  P_MathUtils P_Span P_Cox P_Vec P_VSum P_Curve P_Bspline P_Blossom P_Insert P_Insert2 P_Loop P_Refine P_Nurbs.
Import ListNotations.
Open Scope Z_scope.

Section Cont.
Context {T : Type} {V : Vec R T} {L : VecL T}.

(* the polynomials left and right of a knot of multiplicity at most p agree there *)
Lemma bl_cont (U : Z -> R) p (d : Z -> T) kl kr t : 0 <= p -> good U kl p -> good U kr p -> kl <= kr <= kl + p ->
  (forall i, kl < i <= kr -> U i = t) ->
  bl U p d (repeat t (Z.to_nat p)) kl = bl U p d (repeat t (Z.to_nat p)) kr.
Proof.
  intros Hp Gl Gr Hk He. set (s := kr - kl).
  assert (E : repeat t (Z.to_nat p) = repeat t (Z.to_nat (p - s)) ++ win U kl (p - len (repeat t (Z.to_nat (p - s))))).
  { unfold len. rewrite repeat_length. rewrite (win_const U kl _ t) by (intros; apply He; unfold s in *; lia).
    rewrite <- repeat_app. f_equal. unfold s. lia. }
  rewrite E. assert (Ll : len (repeat t (Z.to_nat (p - s))) = p - s) by (unfold len, s; rewrite repeat_length; lia).
  rewrite (bl_part U kl p d) by (try assumption; rewrite ?Ll; unfold s; lia).
  rewrite (bl_part U kr p d) by (try assumption; rewrite ?Ll; unfold s; lia). reflexivity.
Qed.

Lemma span_good p n U k : curve_knots p n U -> p <= k <= n -> (val U k < val U (k + 1))%R -> good (val U) k p.
Proof.
  intros H Hk Hlt. split; [exact Hlt|]. intros i j Hi Hij Hj. pose proof (ck_len _ _ _ H). apply (ck_sorted _ _ _ H); lia.
Qed.

(* a value on the right end of a span: the curve is also given by that span's polynomial *)
Lemma curve_point_left p n U (P : list T) t k : curve_knots p n U -> p <= k <= n ->
  (val U k < t)%R -> (t <= val U (k + 1))%R ->
  Z.of_nat (count_occ Req_EM_T U t) <= p \/ t = val U (n + 1) ->
  curve_point p n U P t = span_curve k p U P t.
Proof.
  intros H Hk H1 H2 Hm. pose proof (ck_len _ _ _ H) as HL. pose proof (ck_sorted _ _ _ H) as HS. pose proof (ck_n _ _ _ H). pose proof (ck_p _ _ _ H).
  destruct (Rlt_le_dec t (val U (k + 1))) as [Hlt|Hge].
  { apply curve_point_span; [exact H|]. split; [lia|]. split; [lra|]. split; [lra|]. left. exact Hlt. }
  assert (Et : t = val U (k + 1)) by lra.
  destruct (Req_EM_T t (val U (n + 1))) as [En|En].
  { assert (k = n).
    { pose proof (ck_last _ _ _ H). pose proof (tol_pos (val U n) (val U (n + 1))).
      destruct (Z.eq_dec k n); [assumption|]. assert (val U (k + 1) <= val U n)%R by (apply HS; lia). lra. }
    subst k. apply curve_point_span; [exact H|]. split; [lia|]. split; [lra|]. split; [lra|]. right. auto. }
  destruct Hm as [Hm|Hm]; [|contradiction].
  assert (Hd : in_domain p n U t). { split; [|rewrite Et; apply HS; lia]. assert (val U p <= val U k)%R by (apply HS; lia). lra. }
  destruct (find_span p n U t H Hd) as (kr & _ & Hs). rewrite (curve_point_span _ _ _ _ _ kr H Hs).
  destruct Hs as (Hr1 & Hr2 & Hr3 & Hr4). destruct Hr4 as [Hr4|[_ Hr4]]; [|contradiction].
  destruct (count_sorted U t kr HS ltac:(lia) Hr3 Hr4) as (C1 & C2 & C3). set (s := Z.of_nat _) in *.
  assert (kr - s = k).
  { destruct (Z.lt_trichotomy (kr - s) k) as [Hc|[Hc|Hc]]; [|assumption|].
    - destruct (Z_le_gt_dec k kr). { rewrite (C2 k) in H1 by lia. lra. }
      assert (val U (kr + 1) <= val U k)%R by (apply HS; lia). lra.
    - specialize (C3 (k + 1) ltac:(lia)). lra. }
  assert (Gl : good (val U) k p) by (apply (span_good p n); [exact H|lia|lra]).
  assert (Gr : good (val U) kr p) by (apply (span_good p n); [exact H|lia|lra]).
  rewrite !span_curve_bl by (assumption || lia). symmetry. apply bl_cont; try assumption; try lia. intros i Hi. apply C2. lia.
Qed.

(** * Reversal *)
Lemma NS_rev (U V' : Z -> R) m c k t q : 0 <= q -> forall i,
  (forall j, i <= j <= i + q + 1 -> V' (m - j) = (c - U j)%R) ->
  NS V' (m - 1 - k) q (m - i - q - 1) (c - t)%R = NS U k q i t.
Proof.
  intros Hq. revert q Hq. apply (Zrange_ind 0 (fun q => forall i, (forall j, i <= j <= i + q + 1 -> V' (m - j) = (c - U j)%R) ->
    NS V' (m - 1 - k) q (m - i - q - 1) (c - t)%R = NS U k q i t)).
  - intros i _. rewrite !NS_0. destruct (Z.eqb_spec (m - i - 0 - 1) (m - 1 - k)), (Z.eqb_spec i k); (reflexivity || lia).
  - intros q Hq IH i HV. rewrite (NS_succ V'), (NS_succ U) by lia. replace (q + 1 - 1) with q by lia.
    replace (m - i - (q + 1) - 1) with (m - (i + 1) - q - 1) by lia.
    replace (m - (i + 1) - q - 1 + 1) with (m - i - q - 1) by lia.
    rewrite (IH i), (IH (i + 1)) by (intros; apply HV; lia).
    replace (m - (i + 1) - q - 1) with (m - (i + q + 2)) by lia.
    replace (m - (i + q + 2) + (q + 1)) with (m - (i + 1)) by lia.
    replace (m - (i + 1) + 1) with (m - i) by lia. replace (m - i - q - 1) with (m - (i + q + 1)) by lia.
    rewrite !HV by lia. replace (i + (q + 1)) with (i + q + 1) by lia. replace (i + q + 1 + 1) with (i + q + 2) by lia.
    replace (c - t - (c - U (i + q + 2)%Z))%R with (U (i + q + 2)%Z - t)%R by ring.
    replace (c - U (i + 1)%Z - (c - U (i + q + 2)%Z))%R with (U (i + q + 2)%Z - U (i + 1)%Z)%R by ring.
    replace (c - U i - (c - t))%R with (t - U i)%R by ring.
    replace (c - U i - (c - U (i + q + 1)%Z))%R with (U (i + q + 1)%Z - U i)%R by ring. ring.
Qed.

Lemma comb_rev lo hi w (P : Z -> T) : comb lo hi w P = comb lo hi (fun i => w (lo + hi - 1 - i)) (fun i => P (lo + hi - 1 - i)).
Proof. unfold comb. apply (vsum_rev lo hi (fun i => vscale (w i) (P i))). Qed.

Section Rev.
Variables (p n : Z) (U W : list R) (P Q : list T).
Let c := (val U 0 + val U (n + p + 1))%R.
Hypothesis HU : curve_knots p n U.
Hypothesis HW : arr W (n + p + 2) (fun i => (c - val U (n + p + 1 - i))%R).
Hypothesis HP : len P = n + 1.
Hypothesis HQ : arr Q (n + 1) (fun i => pt P (n - i)).

Lemma rev_val i : 0 <= i <= n + p + 1 -> val W i = (c - val U (n + p + 1 - i))%R.
Proof. intros. apply (arr_val _ _ _ _ HW). lia. Qed.

Lemma rev_span_curve k t : p <= k <= n -> span_curve (n + p - k) p W Q (c - t) = span_curve k p U P t.
Proof.
  intros Hk. pose proof (ck_p _ _ _ HU). unfold span_curve. rewrite (comb_rev (n + p - k - p)).
  rewrite (comb_shift (2 * k - n - p)). replace (n + p - k - p + (2 * k - n - p)) with (k - p) by lia.
  replace (n + p - k + 1 + (2 * k - n - p)) with (k + 1) by lia. apply comb_ext. intros i Hi.
  replace (n + p - k - p + (n + p - k + 1) - 1 - (i - (2 * k - n - p))) with (n - i) by lia. split.
  - pose proof (NS_rev (val U) (val W) (n + p + 1) c k t p ltac:(lia) i) as E.
    replace (n + p + 1 - 1 - k) with (n + p - k) in E by lia. replace (n + p + 1 - i - p - 1) with (n - i) in E by lia.
    apply E. intros j Hj. rewrite rev_val by lia. do 2 f_equal. lia.
  - rewrite (arr_pt_eq _ _ _ _ HQ) by lia. f_equal. lia.
Qed.

Lemma rev_sorted : sorted W.
Proof.
  intros i j Hi Hij Hj. pose proof (arr_len _ _ _ HW). rewrite !rev_val by lia.
  pose proof (ck_len _ _ _ HU). assert (val U (n + p + 1 - j) <= val U (n + p + 1 - i))%R by (apply (ck_sorted _ _ _ HU); lia). lra.
Qed.

Lemma rev_abs i : 0 <= i <= n + p + 1 -> (Rabs (val W i) <= Rmax (Rabs (val U 0)) (Rabs (val U (n + p + 1))))%R.
Proof.
  intros Hi. rewrite rev_val by lia. pose proof (ck_len _ _ _ HU). pose proof (ck_sorted _ _ _ HU) as HS.
  assert (val U 0 <= val U (n + p + 1 - i))%R by (apply HS; lia).
  assert (val U (n + p + 1 - i) <= val U (n + p + 1))%R by (apply HS; lia). unfold c.
  pose proof (Rmax_l (Rabs (val U 0)) (Rabs (val U (n + p + 1)))). pose proof (Rmax_r (Rabs (val U 0)) (Rabs (val U (n + p + 1)))).
  apply Rabs_le. unfold Rabs in *. destruct (Rcase_abs (val U 0)), (Rcase_abs (val U (n + p + 1))); split; lra.
Qed.

Lemma rev_knots : wide_ends p n U -> curve_knots p n W.
Proof.
  intros [W1 W2]. pose proof (ck_p _ _ _ HU). pose proof (ck_n _ _ _ HU). constructor; try assumption.
  - exact (arr_len _ _ _ HW).
  - exact rev_sorted.
  - pose proof (tol_le (val W p) (val W (p + 1)) _ (rev_abs p ltac:(lia)) (rev_abs (p + 1) ltac:(lia))).
    rewrite (rev_val p), (rev_val (p + 1)) in * by lia. replace (n + p + 1 - p) with (n + 1) in * by lia.
    replace (n + p + 1 - (p + 1)) with n in * by lia. lra.
  - pose proof (tol_le (val W n) (val W (n + 1)) _ (rev_abs n ltac:(lia)) (rev_abs (n + 1) ltac:(lia))).
    rewrite (rev_val n), (rev_val (n + 1)) in * by lia. replace (n + p + 1 - n) with (p + 1) in * by lia.
    replace (n + p + 1 - (n + 1)) with p in * by lia. lra.
Qed.

Lemma rev_point t : curve_knots p n W -> in_domain p n U t ->
  Z.of_nat (count_occ Req_EM_T U t) <= p \/ t = val U p \/ t = val U (n + 1) ->
  curve_point p n W Q (c - t) = curve_point p n U P t.
Proof.
  intros KW Ht Hm. pose proof (ck_p _ _ _ HU). pose proof (ck_n _ _ _ HU). pose proof (ck_len _ _ _ HU).
  destruct (Req_EM_T t (val U p)) as [Ep|Ep].
  - subst t. assert (S1 : span_of p n U (val U p) p).
    { pose proof (ck_first _ _ _ HU). pose proof (tol_pos (val U p) (val U (p + 1))). split; [lia|]. split; [lra|]. split; [lra|]. left; lra. }
    rewrite (curve_point_span _ _ _ _ _ p HU S1). replace n with (n + p - p) at 2 by lia.
    rewrite <- (rev_span_curve p) by lia. replace (n + p - p) with n by lia. apply curve_point_span; [exact KW|].
    pose proof (ck_last _ _ _ KW). pose proof (tol_pos (val W n) (val W (n + 1))).
    assert (E : val W (n + 1) = (c - val U p)%R) by (rewrite rev_val by lia; do 2 f_equal; lia).
    split; [lia|]. split; [lra|]. split; [lra|]. right. split; [reflexivity|lra].
  - assert (Hd : exists k, p <= k <= n /\ (val U k < t)%R /\ (t <= val U (k + 1))%R).
    { destruct (find_span p n U t HU Ht) as (kr & _ & Hs). destruct Hs as (Hr1 & Hr2 & Hr3 & Hr4).
      destruct (Rlt_le_dec (val U kr) t). { exists kr. split; [lia|]. split; [assumption|]. destruct Hr4 as [|[-> ->]]; lra. }
      destruct Hr4 as [Hr4|[-> Hr4]]; [|lra].
      destruct (count_sorted U t kr (ck_sorted _ _ _ HU) ltac:(lia) Hr3 Hr4) as (C1 & C2 & C3). set (s := Z.of_nat _) in *.
      assert (p <= kr - s).
      { destruct (Z_le_gt_dec p (kr - s)); [assumption|]. rewrite (C2 p) in Ep by lia. contradiction. }
      exists (kr - s). split; [lia|]. split; [apply C3; lia|].
      destruct (Z.eq_dec s 0) as [E0|E0]; [|rewrite C2 by lia; lra]. rewrite E0. replace (kr - 0) with kr by lia. lra. }
    destruct Hd as (k & Hk & G1 & G2).
    rewrite (curve_point_left p n U P t k HU Hk G1 G2) by intuition. rewrite <- (rev_span_curve k) by lia.
    apply curve_point_span; [exact KW|]. split; [lia|]. rewrite !rev_val by lia.
    replace (n + p + 1 - (n + p - k)) with (k + 1) by lia. replace (n + p + 1 - (n + p - k + 1)) with k by lia.
    split; [lra|]. split; [lra|]. left. lra.
Qed.
End Rev.

Lemma arr_rev {X} (d : X) (l : list X) n : len l = n -> arr (rev l) n (fun i => at_ d l (n - 1 - i)).
Proof.
  intros Hl. assert (Hr : len (rev l) = n) by (unfold len in *; rewrite rev_length; exact Hl). split; [exact Hr|]. intros i Hi.
  rewrite (get_at d) by lia. f_equal. unfold len in Hl. unfold at_. rewrite rev_nth by lia. f_equal. lia.
Qed.

Lemma Reverse_arr p n U (P : list T) : curve_knots p n U ->
  exists W, Reverse (mkCurve p U P) = Ok (mkCurve p W (rev P)) /\
    arr W (n + p + 2) (fun i => (val U 0 + val U (n + p + 1) - val U (n + p + 1 - i))%R).
Proof.
  intros HU. pose proof (ck_p _ _ _ HU). pose proof (ck_n _ _ _ HU). pose proof (ck_len _ _ _ HU) as HL.
  assert (AU : arr U (n + p + 2) (val U)) by (rewrite <- HL; apply arr_at).
  set (f := fun i => (val U 0 + val U (n + p + 1) - val U (n + p + 1 - i))%R).
  enough (E : wp (Reverse (mkCurve p U P)) (fun r => exists W, r = mkCurve p W (rev P) /\ arr W (n + p + 2) f)).
  { destruct (wp_elim _ _ E) as (r & Er & W & -> & HW). exists W. split; assumption. }
  unfold Reverse. cbn [Degree KnotVector ControlPoints]. rewrite HL.
  apply wp_bind. apply wp_mkvec; [lia|]. intros v Hv. wget AU. wget AU.
  apply wp_bind. eapply (arrD_set _ _ (fun _ => False) (fun i => i < 1) f).
  { split; [exact (arr_len _ _ _ Hv)|tauto]. }
  1: lia.
  { unfold f. replace (n + p + 1 - 0) with (n + p + 1) by lia. ring. }
  { lia. }
  intros v1 Hv1. apply wp_bind. apply wp_for_up with (P := fun h v => arrD v (n + p + 2) (fun i => i < h) f); [lia|exact Hv1| |].
  - intros i v' Hi Hv'. rewrite (arrD_get _ _ _ _ (i - 1) Hv') by lia. cbn [bind]. wget AU. wget AU.
    eapply arrD_set; [exact Hv'|lia| | |intros v'' H''; exact H''].
    + unfold f. num. replace (n + p + 1 - (i - 1)) with (n + p + 2 - i) by lia. replace (n + p + 2 - i - 1) with (n + p + 1 - i) by lia. ring.
    + cbv beta. lia.
  - intros v2 Hv2. cbn [wp]. exists v2. split; [reflexivity|]. eapply arr_of_arrD; [exact Hv2|]. cbv beta. lia.
Qed.

Lemma Reverse_ok p n U (P : list T) : curve_knots p n U -> wide_ends p n U -> p <= 7 -> len P = n + 1 ->
  returns (Reverse (mkCurve p U P)) (fun c => exists W Q, c = mkCurve p W Q /\ curve_knots p n W /\ len Q = n + 1 /\
    Reverse c = Ok (mkCurve p U P) /\
    (forall i, 0 <= i <= n + p + 1 -> val W i = (val U 0 + val U (n + p + 1) - val U (n + p + 1 - i))%R) /\
    (forall t, in_domain p n U t -> Z.of_nat (count_occ Req_EM_T U t) <= p \/ t = val U p \/ t = val U (n + 1) ->
       GetPointOnCurve c (val U 0 + val U (n + p + 1) - t)%R = GetPointOnCurve (mkCurve p U P) t)).
Proof.
  intros HU Hw H7 HP. pose proof (ck_p _ _ _ HU). pose proof (ck_n _ _ _ HU). pose proof (ck_len _ _ _ HU) as HL.
  destruct (Reverse_arr p n U P HU) as (W & E & HW). exists (mkCurve p W (rev P)). split; [exact E|].
  assert (KW : curve_knots p n W) by (apply (rev_knots p n U W HU HW Hw)).
  assert (HQ : arr (rev P) (n + 1) (fun i => pt P (n - i))).
  { eapply arr_ext; [apply (arr_rev vzero); exact HP|]. intros i Hi. cbv beta. unfold pt. f_equal. lia. }
  pose proof (arr_len _ _ _ HQ) as LQ.
  exists W, (rev P). split; [reflexivity|]. split; [exact KW|]. split; [exact LQ|]. split; [|split].
  - destruct (Reverse_arr p n W (rev P) KW) as (W2 & E2 & HW2). rewrite E2, rev_involutive. do 2 f_equal.
    apply (arr_inj _ _ (n + p + 2) (val U)); [|rewrite <- HL; apply arr_at]. eapply arr_ext; [exact HW2|]. intros i Hi. cbv beta.
    rewrite !(arr_val _ _ _ _ HW) by lia. replace (n + p + 1 - (n + p + 1 - i)) with i by lia.
    replace (n + p + 1 - 0) with (n + p + 1) by lia. replace (n + p + 1 - (n + p + 1)) with 0 by lia. ring.
  - intros i Hi. rewrite (arr_val _ _ _ _ HW) by lia. reflexivity.
  - intros t Ht Hm. rewrite (GetPointOnCurve_ok p n U P t) by assumption. rewrite (GetPointOnCurve_ok p n W (rev P)) ; try assumption.
    + f_equal. apply (rev_point p n U W P (rev P)); assumption.
    + destruct Ht. unfold in_domain. rewrite !(arr_val _ _ _ _ HW) by lia. replace (n + p + 1 - p) with (n + 1) by lia.
      replace (n + p + 1 - (n + 1)) with p by lia. lra.
Qed.

End Cont.
