(* Joining two clamped curves of the same degree. *)
From Coq Require Import ZArith List Bool Reals Lra Lia Permutation.
From Verif Require Import Base Num Vec Tac Spec Spec2 Spec3 Spec4 M_MathUtils M_Polynomials M_XYZ M_Bspline M_NurbsCurve M_Knots M_Curve2
  P_MathUtils P_Span P_Cox P_Basis P_VSum P_Curve P_Bspline P_Loop P_Blossom P_Insert P_Insert2 P_Refine P_Reverse P_Nurbs P_Reparam P_XYZ P_Matrix P_Surface P_Split.
Import ListNotations.
Open Scope Z_scope.

Lemma NS_affine (U W : Z -> R) lo k a c t : (0 < a)%R -> forall p, 0 <= p -> forall i,
  (forall j, i <= j <= i + p + 1 -> W (lo + j) = (a * U j + c)%R) ->
  NS W (lo + k) p (lo + i) (a * t + c)%R = NS U k p i t.
Proof.
  intros Ha.
  assert (Hd : forall x y z w, sdiv (a * x + c - (a * y + c)) (a * z + c - (a * w + c)) = sdiv (x - y) (z - w)).
  { intros x y z w. replace (a * x + c - (a * y + c))%R with (a * (x - y))%R by ring. replace (a * z + c - (a * w + c))%R with (a * (z - w))%R by ring.
    unfold sdiv. destruct (Req_EM_T (z - w) 0) as [E|E], (Req_EM_T (a * (z - w)) 0) as [E'|E']; try reflexivity.
    - exfalso. apply E'. rewrite E. ring.
    - exfalso. apply E. apply Rmult_integral in E'. destruct E'; [lra|assumption].
    - field. split; [assumption|lra]. }
  apply (Zrange_ind 0 (fun p => forall i, (forall j, i <= j <= i + p + 1 -> W (lo + j) = (a * U j + c)%R) -> NS W (lo + k) p (lo + i) (a * t + c)%R = NS U k p i t)).
  - intros i _. rewrite !NS_0. destruct (Z.eqb_spec i k), (Z.eqb_spec (lo + i) (lo + k)); try reflexivity; lia.
  - intros p Hp IH i H. rewrite (NS_succ U k), (NS_succ W (lo + k)) by lia. replace (p + 1 - 1) with p by lia.
    rewrite (IH i) by (intros; apply H; lia). replace (lo + i + 1) with (lo + (i + 1)) by lia. rewrite (IH (i + 1)) by (intros; apply H; lia).
    replace (lo + i + (p + 1)) with (lo + (i + (p + 1))) by lia. replace (lo + (i + (p + 1)) + 1) with (lo + (i + (p + 1) + 1)) by lia.
    rewrite !H by lia. rewrite !Hd. reflexivity.
Qed.

Section Mrg.
Context {T : Type} {V : Vec R T} {L : VecL T}.

Lemma span_curve_affine p U (P : list T) K (D : list T) lo k a c t : 0 <= p -> (0 < a)%R ->
  (forall j, k - p <= j <= k + p + 1 -> val K (lo + j) = (a * val U j + c)%R) -> (forall j, k - p <= j <= k -> pt D (lo + j) = pt P j) ->
  span_curve (lo + k) p K D (a * t + c) = span_curve k p U P t.
Proof.
  intros Hp Ha HK HD. unfold span_curve. replace (lo + k - p) with (k - p + lo) by lia. replace (lo + k + 1) with (k + 1 + lo) by lia.
  rewrite (comb_shift lo (k - p) (k + 1) (fun i => NS (val U) k p i t) (pt P)). apply comb_ext. intros i Hi. split.
  - replace i with (lo + (i - lo)) at 1 by lia. apply (NS_affine (val U) (val K) lo k a c t Ha p Hp (i - lo)). intros j Hj. apply HK. lia.
  - replace i with (lo + (i - lo)) at 1 by lia. apply HD. lia.
Qed.

(* U, mapped by x -> a x + c, is the stretch of K that starts at lo *)
Lemma part_point p n U (P : list T) N K (D : list T) lo a c t : curve_knots p n U -> curve_knots p N K -> (0 < a)%R -> 0 <= lo -> lo + n <= N ->
  (forall j, 0 <= j <= n + p + 1 -> val K (lo + j) = (a * val U j + c)%R) -> (forall j, 0 <= j <= n -> pt D (lo + j) = pt P j) ->
  in_domain p n U t -> (t < val U (n + 1))%R \/ lo + n = N ->
  in_domain p N K (a * t + c) /\ curve_point p N K D (a * t + c) = curve_point p n U P t.
Proof.
  intros HU HK Ha Hlo Hhi EK ED Hd Ht. pose proof HU as [Hp Hn HlU HsU _ _]. pose proof HK as [_ HN HlK HsK _ _].
  destruct (find_span p n U t HU Hd) as (k & _ & Hk). pose proof Hk as (K1 & K2 & K3 & K4).
  assert (Hmono : forall x y, (x <= y)%R -> (a * x + c <= a * y + c)%R) by (intros x y H; apply Rplus_le_compat_r, Rmult_le_compat_l; lra).
  assert (Hs : span_of p N K (a * t + c) (lo + k)).
  { split; [lia|]. replace (lo + k + 1) with (lo + (k + 1)) by lia. rewrite !EK by lia.
    split; [apply Rplus_lt_compat_r, Rmult_lt_compat_l; lra|]. split; [apply Hmono; exact K3|].
    destruct K4 as [K4|[-> K4]]; [left; apply Rplus_lt_compat_r, Rmult_lt_compat_l; lra|].
    destruct Ht as [Ht|Ht]; [lra|]. right. split; [lia|]. replace (N + 1) with (lo + (n + 1)) by lia. rewrite EK by lia. rewrite K4. reflexivity. }
  split; [apply (span_of_dom p N K _ (lo + k)); assumption|].
  rewrite (curve_point_span _ _ _ _ _ _ HU Hk), (curve_point_span _ _ _ _ _ _ HK Hs). apply span_curve_affine; auto; intros j Hj; [apply EK|apply ED]; lia.
Qed.

Lemma Reparam_unit p n U (P : list T) : curve_knots p n U -> unit_or_away U ->
  exists U1, Reparametrize (mkCurve p U P) 0%R 1%R = Ok (mkCurve p U1 P) /\ arr U1 (n + p + 2) (fun i => stretch U 0 1 (val U i)).
Proof.
  intros HU Hu. pose proof HU as [Hp Hn HlU HsU H1 _]. assert (AU : arr U (len U) (val U)) by apply arr_at.
  unfold Reparametrize. cbn [Degree KnotVector ControlPoints]. wget AU. wget AU.
  destruct (IsAlmostEqualTo 0%R (val U 0) && IsAlmostEqualTo 1%R (val U (len U - 1))) eqn:E.
  - apply at_ends_iff in E. destruct Hu as [[E0 E1]|Hu]; [|contradiction].
    exists U. split; [reflexivity|]. eapply arr_ext; [rewrite <- HlU; exact AU|]. intros i Hi. unfold stretch. rewrite E0, E1. field.
  - assert (Hab : (0 < 1)%R) by lra. destruct (Rescale_curve p n U 0 1 HU Hab) as (W & EW & LW & VW & _). rewrite EW. cbn [bind].
    exists W. split; [reflexivity|]. eapply arr_ext; [rewrite <- LW; apply (arr_at 0%R)|]. intros i Hi. apply VW. lia.
Qed.
End Mrg.

Lemma stretch_affine U a b x : stretch U a b x = ((b - a) / (val U (len U - 1) - val U 0) * x + (a - (b - a) / (val U (len U - 1) - val U 0) * val U 0))%R.
Proof. unfold stretch. ring. Qed.

Lemma range_pos p n U : curve_knots p n U -> (0 < val U (len U - 1) - val U 0)%R.
Proof.
  intros [Hp Hn HL HS H1 _]. rewrite HL. replace (n + p + 2 - 1) with (n + p + 1) by lia. pose proof (tol_pos (val U p) (val U (p + 1))).
  assert (val U 0 <= val U p)%R by (apply HS; lia). assert (val U (p + 1) <= val U (n + p + 1))%R by (apply HS; lia). lra.
Qed.

Lemma Merge_ok p n U (P : list (XYZW R)) m W (Q : list (XYZW R)) :
  curve_knots p n U -> len P = n + 1 -> curve_knots p m W -> len Q = m + 1 ->
  unit_or_away U -> unit_or_away W -> val U (n + 1) = val U (n + p + 1) -> val W 0 = val W p ->
  (forall y, In y U -> apart 1 (stretch U 0 1 y)) -> (forall y, In y W -> apart 0 (stretch W 0 1 y)) ->
  stays_wide (stretch U 0 (1 / 2)) (val U p) (val U (p + 1)) -> stays_wide (stretch W (1 / 2) 1) (val W m) (val W (m + 1)) ->
  xyzw_IsAlmostEqualTo (pt P n) (pt Q 0) = Ok true ->
  returns (Merge (mkCurve p U P) (mkCurve p W Q)) (fun o => exists K, o = Some (mkCurve p K (P ++ Q)) /\
    curve_knots p (n + m + 1) K /\ val K 0 = 0%R /\ val K (len K - 1) = 1%R /\
    (forall t, in_domain p n U t -> (t < val U (n + 1))%R -> in_domain p (n + m + 1) K (stretch U 0 (1 / 2) t) /\
       curve_point p (n + m + 1) K (P ++ Q) (stretch U 0 (1 / 2) t) = curve_point p n U P t) /\
    (forall t, in_domain p m W t -> in_domain p (n + m + 1) K (stretch W (1 / 2) 1 t) /\
       curve_point p (n + m + 1) K (P ++ Q) (stretch W (1 / 2) 1 t) = curve_point p m W Q t)).
Proof.
  intros HU HP HW HQ Uu Uw Cu Cw Au Aw Wu Ww Hsame. pose proof HU as [Hp Hn HlU HsU U1 U2]. pose proof HW as [_ Hm HlW HsW W1 W2].
  pose proof (arr_pt P _ HP) as AP. pose proof (arr_pt Q _ HQ) as AQ.
  pose proof (range_pos p n U HU) as Ru. pose proof (range_pos p m W HW) as Rw.
  destruct (Reparam_unit p n U P HU Uu) as (X & EX & AX). destruct (Reparam_unit p m W Q HW Uw) as (Y & EY & AY).
  apply wp_elim. unfold Merge. cbn [Degree KnotVector ControlPoints]. rewrite HP. replace (n + 1 - 1) with n by lia. wget AP. wget AQ.
  rewrite Hsame. cbn [bind negb]. rewrite Z.max_id. unfold merge_prepare. cbn [Degree].
  change (n0 : R) with 0%R. change (n1 : R) with 1%R. rewrite EX. cbn [bind]. rewrite Z.ltb_irrefl. cbn [bind]. rewrite EY. cbn [bind KnotVector ControlPoints].
  assert (Su : forall x, stretch U 0 1 x = ((x - val U 0) / (val U (len U - 1) - val U 0))%R) by (intros x; unfold stretch; field; lra).
  assert (Sw : forall x, stretch W 0 1 x = ((x - val W 0) / (val W (len W - 1) - val W 0))%R) by (intros x; unfold stretch; field; lra).
  assert (Mu : forall x y, (x <= y)%R -> (stretch U 0 1 x <= stretch U 0 1 y)%R).
  { intros x y H. rewrite !Su. apply Rmult_le_compat_r; [apply Rlt_le, Rinv_0_lt_compat; lra|lra]. }
  assert (Mw : forall x y, (x <= y)%R -> (stretch W 0 1 x <= stretch W 0 1 y)%R).
  { intros x y H. rewrite !Sw. apply Rmult_le_compat_r; [apply Rlt_le, Rinv_0_lt_compat; lra|lra]. }
  assert (E1 : stretch U 0 1 (val U (n + p + 1)) = 1%R) by (rewrite Su, HlU in *; replace (n + p + 2 - 1) with (n + p + 1) in * by lia; field; lra).
  assert (E0 : stretch W 0 1 (val W 0) = 0%R) by (rewrite Sw; field; lra).
  assert (HlX : len X = n + p + 2) by apply (arr_len _ _ _ AX). assert (HlY : len Y = m + p + 2) by apply (arr_len _ _ _ AY).
  assert (VX : forall i, 0 <= i <= n + p + 1 -> val X i = stretch U 0 1 (val U i)) by (intros i Hi; apply (arr_val _ _ _ _ AX); lia).
  assert (VY : forall i, 0 <= i <= m + p + 1 -> val Y i = stretch W 0 1 (val W i)) by (intros i Hi; apply (arr_val _ _ _ _ AY); lia).
  assert (SX : sorted X) by (intros i j Hi Hij Hj; rewrite !VX by lia; apply Mu, HsU; lia).
  assert (SY : sorted Y) by (intros i j Hi Hij Hj; rewrite !VY by lia; apply Mw, HsW; lia).
  assert (AX' : arr X (n + p + 2) (val X)) by (rewrite <- HlX; apply arr_at). assert (AY' : arr Y (m + p + 2) (val Y)) by (rewrite <- HlY; apply arr_at).
  assert (X1 : val X (n + p + 1) = 1%R) by (rewrite VX by lia; exact E1). assert (Y0 : val Y 0 = 0%R) by (rewrite VY by lia; exact E0).
  rewrite HlX. replace (n + p + 2 - 1) with (n + p + 1) by lia. wget AX'. rewrite X1.
  assert (InX : forall y, In y X -> exists i, 0 <= i < n + p + 2 /\ y = stretch U 0 1 (val U i)).
  { intros y Hy. destruct (In_val _ _ Hy) as (i & Hi & <-). exists i. split; [lia|apply VX; lia]. }
  assert (InY : forall y, In y Y -> exists i, 0 <= i < m + p + 2 /\ y = stretch W 0 1 (val W i)).
  { intros y Hy. destruct (In_val _ _ Hy) as (i & Hi & <-). exists i. split; [lia|apply VY; lia]. }
  rewrite (GetKnotMultiplicity_exact X 1); [|lia|exact SX| |].
  2: { split; [rewrite <- X1; apply SX; lia|]. rewrite HlX. replace (n + p + 2 - 1) with (n + p + 1) by lia. lra. }
  2: { apply apart_exact. intros y Hy. destruct (InX y Hy) as (i & Hi & ->). apply Au. apply val_In. lia. }
  cbn [bind]. wget AY'. rewrite Y0.
  rewrite (GetKnotMultiplicity_exact Y 0); [|lia|exact SY| |].
  2: { split; [lra|]. rewrite <- Y0. apply SY; lia. }
  2: { apply apart_exact. intros y Hy. destruct (InY y Hy) as (i & Hi & ->). apply Aw. apply val_In. lia. }
  cbn [bind].
  assert (SlU : forall x y, (x < y)%R -> (stretch U 0 1 x < stretch U 0 1 y)%R).
  { intros x y H. rewrite !Su. apply Rmult_lt_compat_r; [apply Rinv_0_lt_compat; lra|lra]. }
  assert (SlW : forall x y, (x < y)%R -> (stretch W 0 1 x < stretch W 0 1 y)%R).
  { intros x y H. rewrite !Sw. apply Rmult_lt_compat_r; [apply Rinv_0_lt_compat; lra|lra]. }
  assert (Cn : forall i, n + 1 <= i <= n + p + 1 -> val U i = val U (n + p + 1)).
  { intros i Hi. pose proof (HsU (n + 1) i ltac:(lia) ltac:(lia) ltac:(lia)). pose proof (HsU i (n + p + 1) ltac:(lia) ltac:(lia) ltac:(lia)). lra. }
  assert (C0 : forall i, 0 <= i <= p -> val W i = val W 0).
  { intros i Hi. pose proof (HsW 0 i ltac:(lia) ltac:(lia) ltac:(lia)). pose proof (HsW i p ltac:(lia) ltac:(lia) ltac:(lia)). lra. }
  rewrite (count_range X 1 (n + 1) (n + p + 2)); try lia.
  2: { intros i Hi. rewrite VX by lia. pose proof (HsU i n ltac:(lia) ltac:(lia) ltac:(lia)). pose proof (tol_pos (val U n) (val U (n + 1))).
       specialize (SlU (val U i) (val U (n + p + 1)) ltac:(lra)). lra. }
  2: { intros i Hi. rewrite VX by lia. rewrite Cn by lia. exact E1. }
  rewrite (count_range Y 0 0 (p + 1)); try lia.
  2: { intros i Hi. rewrite VY by lia. rewrite C0 by lia. exact E0. }
  2: { intros i Hi. rewrite VY by lia. pose proof (HsW (p + 1) i ltac:(lia) ltac:(lia) ltac:(lia)). pose proof (tol_pos (val W p) (val W (p + 1))).
       specialize (SlW (val W 0) (val W i) ltac:(lra)). lra. }
  replace (n + p + 2 - (n + 1)) with (p + 1) by lia. replace (p + 1 - 0) with (p + 1) by lia. rewrite Z.eqb_refl. cbn [negb orb].
  (* the right part moved to [1,2] *)
  assert (Y1 : val Y (m + p + 1) = 1%R).
  { rewrite VY by lia. rewrite Sw, HlW in *. replace (m + p + 2 - 1) with (m + p + 1) in * by lia. field. lra. }
  unfold Reparametrize at 1. cbn [Degree KnotVector ControlPoints]. rewrite HlY. replace (m + p + 2 - 1) with (m + p + 1) by lia. wget AY'. wget AY'. rewrite Y0, Y1.
  change (nofZ 2 : R) with 2%R.
  assert (Ene : IsAlmostEqualTo 1%R 0%R = false).
  { apply aeq_false. rewrite <- tol_thr. pose proof (tol_le 1 0 1 ltac:(rewrite Rabs_R1; lra) ltac:(rewrite Rabs_R0; lra)). rewrite Rabs_pos_eq; lra. }
  rewrite Ene. cbn [andb].
  pose proof (Rescale_ok Y 1 2 ltac:(lia)) as RY. rewrite HlY in RY. replace (m + p + 2 - 1) with (m + p + 1) in RY by lia. rewrite Y0, Y1 in RY.
  destruct (wp_elim _ _ (RY ltac:(lra))) as (Z1 & EZ & AZ). rewrite EZ. cbn [bind KnotVector ControlPoints]. rewrite (arr_len _ _ _ AZ).
  apply wp_bind.
  set (kf := fun i => if i <? n + p + 2 then stretch U 0 1 (val U i) else (1 + stretch W 0 1 (val W (i - (n + 1))))%R).
  apply wp_for_up with (P := fun h v => arr v (n + p + 2 + (h - (p + 1))) kf); [lia| | |].
  { eapply arr_ext; [replace (n + p + 2 + (p + 1 - (p + 1))) with (n + p + 2) by lia; exact AX|]. intros i Hi. unfold kf. destruct (Z.ltb_spec i (n + p + 2)); [reflexivity|lia]. }
  { intros i v Hi Hv. wget AZ. replace (n + p + 2 + (i + 1 - (p + 1))) with (n + p + 2 + (i - (p + 1)) + 1) by lia. apply arr_snoc; [exact Hv|].
    unfold kf. destruct (Z.ltb_spec (n + p + 2 + (i - (p + 1))) (n + p + 2)); [lia|]. rewrite VY by lia. replace (n + p + 2 + (i - (p + 1)) - (n + 1)) with i by lia. field. }
  replace (n + p + 2 + (m + p + 2 - (p + 1))) with (n + m + 1 + p + 2) by lia. intros K1 AK1. apply wp_bind.
  assert (VK1 : forall i, 0 <= i < n + m + 1 + p + 2 -> val K1 i = kf i) by (intros i Hi; apply (arr_val _ _ _ _ AK1); lia).
  assert (K10 : val K1 0 = 0%R) by (rewrite VK1 by lia; unfold kf; destruct (Z.ltb_spec 0 (n + p + 2)); [|lia]; rewrite Su; field; lra).
  assert (K11 : val K1 (n + m + 1 + p + 1) = 2%R).
  { rewrite VK1 by lia. unfold kf. destruct (Z.ltb_spec (n + m + 1 + p + 1) (n + p + 2)); [lia|]. replace (n + m + 1 + p + 1 - (n + 1)) with (m + p + 1) by lia.
    rewrite <- (VY (m + p + 1)) by lia. rewrite Y1. ring. }
  pose proof (Rescale_ok K1 0 1 ltac:(rewrite (arr_len _ _ _ AK1); lia)) as RK. rewrite (arr_len _ _ _ AK1) in RK. replace (n + m + 1 + p + 2 - 1) with (n + m + 1 + p + 1) in RK by lia.
  rewrite K10, K11 in RK. eapply wp_mono; [apply RK; lra|]. clear RK. cbv beta. intros K AK.
  assert (VK : forall i, 0 <= i <= n + m + 1 + p + 1 -> val K i = (kf i / 2)%R) by (intros i Hi; rewrite (arr_val _ _ _ _ AK) by lia; rewrite VK1 by lia; field).
  assert (HlK : len K = n + m + 1 + p + 2) by apply (arr_len _ _ _ AK).
  set (al := ((1 / 2) / (val U (len U - 1) - val U 0))%R). set (ar := ((1 / 2) / (val W (len W - 1) - val W 0))%R).
  assert (Hal : (0 < al)%R) by (apply Rmult_lt_0_compat; [lra|apply Rinv_0_lt_compat; lra]).
  assert (Har : (0 < ar)%R) by (apply Rmult_lt_0_compat; [lra|apply Rinv_0_lt_compat; lra]).
  assert (SU2 : forall x, stretch U 0 (1 / 2) x = (al * x + (0 - al * val U 0))%R) by (intros x; unfold stretch, al; field; lra).
  assert (SW2 : forall x, stretch W (1 / 2) 1 x = (ar * x + (1 / 2 - ar * val W 0))%R) by (intros x; unfold stretch, ar; field; lra).
  assert (KL : forall j, 0 <= j <= n + p + 1 -> val K j = stretch U 0 (1 / 2) (val U j)).
  { intros j Hj. rewrite VK by lia. unfold kf. destruct (Z.ltb_spec j (n + p + 2)); [|lia]. rewrite Su. unfold stretch. field. lra. }
  assert (KR : forall j, 0 <= j <= m + p + 1 -> val K (n + 1 + j) = stretch W (1 / 2) 1 (val W j)).
  { intros j Hj. rewrite VK by lia. unfold kf. destruct (Z.ltb_spec (n + 1 + j) (n + p + 2)).
    - rewrite Cn by lia. rewrite E1. rewrite (C0 j) by lia. unfold stretch. field. lra.
    - replace (n + 1 + j - (n + 1)) with j by lia. rewrite Sw. unfold stretch. field. lra. }
  assert (KK : curve_knots p (n + m + 1) K).
  { split; try lia.
    - intros i j Hi Hij Hj. rewrite !VK by lia. apply Rmult_le_compat_r; [lra|]. unfold kf.
      destruct (Z.ltb_spec i (n + p + 2)), (Z.ltb_spec j (n + p + 2)); try lia.
      + apply Mu, HsU; lia.
      + assert (stretch U 0 1 (val U i) <= 1)%R by (apply Rle_trans with (stretch U 0 1 (val U (n + p + 1))); [apply Mu, HsU; lia|rewrite E1; lra]).
        assert (0 <= stretch W 0 1 (val W (j - (n + 1))))%R by (apply Rle_trans with (stretch W 0 1 (val W 0)); [rewrite E0; lra|apply Mw, HsW; lia]). lra.
      + apply Rplus_le_compat_l. apply Mw, HsW; lia.
    - rewrite !KL by lia. exact Wu.
    - replace (n + m + 1) with (n + 1 + m) by lia. replace (n + 1 + m + 1) with (n + 1 + (m + 1)) by lia. rewrite !KR by lia. exact Ww. }
  cbn [wp]. exists K. split; [reflexivity|]. split; [exact KK|]. split; [rewrite KL by lia; unfold stretch; field; lra|]. rewrite HlK.
  split; [replace (n + m + 1 + p + 2 - 1) with (n + 1 + (m + p + 1)) by lia; rewrite KR by lia; unfold stretch; rewrite HlW in *; replace (m + p + 2 - 1) with (m + p + 1) in * by lia; field; lra|].
  assert (DP : arr (P ++ Q) (n + 1 + (m + 1)) (fun i => if i <? n + 1 then pt P i else pt Q (i - (n + 1)))) by (apply arr_app; assumption).
  split.
  - intros t Hd Ht. rewrite SU2. apply (part_point p n U P (n + m + 1) K (P ++ Q) 0); auto; try lia.
    + intros j Hj. rewrite <- SU2. apply KL. lia.
    + intros j Hj. rewrite (arr_pt_eq _ _ _ _ DP) by lia. destruct (Z.ltb_spec (0 + j) (n + 1)); [f_equal|lia].
  - intros t Hd. rewrite SW2. apply (part_point p m W Q (n + m + 1) K (P ++ Q) (n + 1)); auto; try lia.
    + intros j Hj. rewrite <- SW2. apply KR. lia.
    + intros j Hj. rewrite (arr_pt_eq _ _ _ _ DP) by lia. destruct (Z.ltb_spec (n + 1 + j) (n + 1)); [lia|f_equal; lia].
Qed.

Lemma same_iff (a b : XYZW R) : (tol (ww a) 0 < ww a)%R -> (tol (ww b) 0 < ww b)%R -> exists c, xyzw_IsAlmostEqualTo a b = Ok c /\ (c = true <-> Spec3.near (proj a) (proj b)).
Proof.
  intros Ha Hb. unfold xyzw_IsAlmostEqualTo. rewrite !ToXYZ_div by (apply heavy_aeq; assumption). cbn [bind]. eexists. split; [reflexivity|]. apply near_iff.
Qed.

Lemma Merge_points p n U (P : list (XYZW R)) m W (Q : list (XYZW R)) :
  curve_knots p n U -> len P = n + 1 -> curve_knots p m W -> len Q = m + 1 ->
  unit_or_away U -> unit_or_away W -> val U (n + 1) = val U (n + p + 1) -> val W 0 = val W p ->
  (forall y, In y U -> apart 1 (stretch U 0 1 y)) -> (forall y, In y W -> apart 0 (stretch W 0 1 y)) ->
  stays_wide (stretch U 0 (1 / 2)) (val U p) (val U (p + 1)) -> stays_wide (stretch W (1 / 2) 1) (val W m) (val W (m + 1)) ->
  (tol (ww (pt P n)) 0 < ww (pt P n))%R -> (tol (ww (pt Q 0)) 0 < ww (pt Q 0))%R -> Spec3.near (proj (pt P n)) (proj (pt Q 0)) ->
  returns (Merge (mkCurve p U P) (mkCurve p W Q)) (fun o => exists K, o = Some (mkCurve p K (P ++ Q)) /\
    curve_knots p (n + m + 1) K /\ val K 0 = 0%R /\ val K (len K - 1) = 1%R /\
    (forall t, in_domain p n U t -> (t < val U (n + 1))%R -> in_domain p (n + m + 1) K (stretch U 0 (1 / 2) t) /\
       curve_point p (n + m + 1) K (P ++ Q) (stretch U 0 (1 / 2) t) = curve_point p n U P t) /\
    (forall t, in_domain p m W t -> in_domain p (n + m + 1) K (stretch W (1 / 2) 1 t) /\
       curve_point p (n + m + 1) K (P ++ Q) (stretch W (1 / 2) 1 t) = curve_point p m W Q t)).
Proof.
  intros. apply Merge_ok; auto. destruct (same_iff (pt P n) (pt Q 0)) as (c & E & Hc); auto. rewrite E. f_equal. apply Hc. assumption.
Qed.

Lemma Merge_apart (p q : Z) (U W : list R) (P Q : list (XYZW R)) : 0 < len P -> 0 < len Q ->
  (tol (ww (pt P (len P - 1))) 0 < ww (pt P (len P - 1)))%R -> (tol (ww (pt Q 0)) 0 < ww (pt Q 0))%R ->
  ~ Spec3.near (proj (pt P (len P - 1))) (proj (pt Q 0)) -> Merge (mkCurve p U P) (mkCurve q W Q) = Ok None.
Proof.
  intros HP HQ Hp Hq Hn. unfold Merge. cbn [ControlPoints Degree KnotVector]. pose proof (arr_pt P _ eq_refl) as AP. pose proof (arr_pt Q _ eq_refl) as AQ. wget AP. wget AQ.
  destruct (same_iff (pt P (len P - 1)) (pt Q 0)) as (c & E & Hc); auto. rewrite E. cbn [bind]. destruct c; [|reflexivity]. exfalso. apply Hn, Hc. reflexivity.
Qed.

Lemma count_few (l : list R) u lo : 0 <= lo <= len l -> (forall i, 0 <= i < lo -> val l i <> u) -> Z.of_nat (count_occ Req_EM_T l u) <= len l - lo.
Proof.
  intros Hlo H. replace (count_occ Req_EM_T l u) with (count_occ Req_EM_T (firstn (Z.to_nat lo) l ++ skipn (Z.to_nat lo) l) u) by (rewrite firstn_skipn; reflexivity). rewrite count_occ_app.
  assert (E : count_occ Req_EM_T (firstn (Z.to_nat lo) l) u = 0%nat).
  { apply count_occ_not_In. intros Hin. destruct (In_val _ _ Hin) as (i & Hi & E).
    assert (Hl : len (firstn (Z.to_nat lo) l) = lo) by (unfold len in *; rewrite firstn_length_le; lia).
    apply (H i); [lia|]. rewrite <- E. pose proof (arr_firstn 0%R l lo Hlo) as AF. symmetry. apply (arr_val _ _ _ _ AF). lia. }
  rewrite E. pose proof (count_occ_bound Req_EM_T u (skipn (Z.to_nat lo) l)) as B. rewrite skipn_length in B. unfold len in *. lia.
Qed.

(* an end that is not clamped is refused *)
Lemma Merge_unclamped p n U (P : list (XYZW R)) m W (Q : list (XYZW R)) :
  curve_knots p n U -> len P = n + 1 -> curve_knots p m W -> len Q = m + 1 -> unit_or_away U -> unit_or_away W ->
  (forall y, In y U -> apart 1 (stretch U 0 1 y)) -> (val U (n + 1) < val U (n + p + 1))%R ->
  (tol (ww (pt P n)) 0 < ww (pt P n))%R -> (tol (ww (pt Q 0)) 0 < ww (pt Q 0))%R ->
  Merge (mkCurve p U P) (mkCurve p W Q) = Ok None.
Proof.
  intros HU HP HW HQ Uu Uw Au Hlt Wp Wq. pose proof HU as [Hp Hn HlU HsU U1 U2]. pose proof HW as [_ Hm HlW HsW W1 W2].
  pose proof (arr_pt P _ HP) as AP. pose proof (arr_pt Q _ HQ) as AQ. pose proof (range_pos p n U HU) as Ru.
  destruct (Reparam_unit p n U P HU Uu) as (X & EX & AX). destruct (Reparam_unit p m W Q HW Uw) as (Y & EY & AY).
  unfold Merge. cbn [Degree KnotVector ControlPoints]. rewrite HP. replace (n + 1 - 1) with n by lia. wget AP. wget AQ.
  destruct (same_iff (pt P n) (pt Q 0)) as (c & E & _); auto. rewrite E. cbn [bind]. destruct c; [|reflexivity]. cbn [negb].
  rewrite Z.max_id. unfold merge_prepare. cbn [Degree]. change (n0 : R) with 0%R. change (n1 : R) with 1%R.
  rewrite EX. cbn [bind]. rewrite Z.ltb_irrefl. cbn [bind]. rewrite EY. cbn [bind KnotVector ControlPoints].
  assert (Su : forall x, stretch U 0 1 x = ((x - val U 0) / (val U (len U - 1) - val U 0))%R) by (intros x; unfold stretch; field; lra).
  assert (HlX : len X = n + p + 2) by apply (arr_len _ _ _ AX). assert (HlY : len Y = m + p + 2) by apply (arr_len _ _ _ AY).
  assert (VX : forall i, 0 <= i <= n + p + 1 -> val X i = stretch U 0 1 (val U i)) by (intros i Hi; apply (arr_val _ _ _ _ AX); lia).
  assert (Mu : forall x y, (x <= y)%R -> (stretch U 0 1 x <= stretch U 0 1 y)%R).
  { intros x y H. rewrite !Su. apply Rmult_le_compat_r; [apply Rlt_le, Rinv_0_lt_compat; lra|lra]. }
  assert (SlU : forall x y, (x < y)%R -> (stretch U 0 1 x < stretch U 0 1 y)%R).
  { intros x y H. rewrite !Su. apply Rmult_lt_compat_r; [apply Rinv_0_lt_compat; lra|lra]. }
  assert (E1 : stretch U 0 1 (val U (n + p + 1)) = 1%R) by (rewrite Su, HlU in *; replace (n + p + 2 - 1) with (n + p + 1) in * by lia; field; lra).
  assert (SX : sorted X) by (intros i j Hi Hij Hj; rewrite !VX by lia; apply Mu, HsU; lia).
  assert (AX' : arr X (n + p + 2) (val X)) by (rewrite <- HlX; apply arr_at). assert (AY' : arr Y (m + p + 2) (val Y)) by (rewrite <- HlY; apply arr_at).
  assert (X1 : val X (n + p + 1) = 1%R) by (rewrite VX by lia; exact E1).
  rewrite HlX. replace (n + p + 2 - 1) with (n + p + 1) by lia. wget AX'. rewrite X1.
  rewrite (GetKnotMultiplicity_exact X 1); [|lia|exact SX| |].
  2: { split; [rewrite <- X1; apply SX; lia|]. rewrite HlX. replace (n + p + 2 - 1) with (n + p + 1) by lia. lra. }
  2: { apply apart_exact. intros y Hy. destruct (In_val _ _ Hy) as (i & Hi & <-). rewrite VX by lia. apply Au. apply val_In. lia. }
  cbn [bind]. wget AY'. 
  assert (SY : sorted Y).
  { pose proof (range_pos p m W HW) as Rw. intros i j Hi Hij Hj. rewrite !(arr_val _ _ _ _ AY) by lia. unfold stretch.
    apply Rplus_le_compat_r, Rmult_le_compat_l; [apply Rmult_le_pos; [lra|apply Rlt_le, Rinv_0_lt_compat; lra]|]. pose proof (HsW i j ltac:(lia) ltac:(lia) ltac:(lia)). lra. }
  rewrite GetKnotMultiplicity_spec; [|lia|exact SY|split; [lra|apply SY; lia]]. cbn [bind].
  pose proof (count_few X 1 (n + 2) ltac:(lia)) as Hc. rewrite HlX in Hc.
  assert (Z.of_nat (count_occ Req_EM_T X 1%R) <= n + p + 2 - (n + 2)).
  { apply Hc. intros i Hi. rewrite VX by lia. pose proof (HsU i (n + 1) ltac:(lia) ltac:(lia) ltac:(lia)). specialize (SlU (val U i) (val U (n + p + 1)) ltac:(lra)). lra. }
  destruct (Z.eqb_spec (Z.of_nat (count_occ Req_EM_T X 1%R)) (p + 1)); [lia|]. reflexivity.
Qed.
