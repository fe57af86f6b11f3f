(* Splitting a curve: both pieces are pieces of the refined curve. *)
From Coq Require Import ZArith List Bool Reals Lra Lia Permutation.
From Verif Require Import Base Num Vec Tac Spec Spec2 Spec4 M_MathUtils M_Polynomials M_Bspline M_NurbsCurve M_Knots M_Curve2
  P_MathUtils P_Span P_Cox P_Basis P_VSum P_Curve P_Bspline P_Loop P_Blossom P_Insert P_Insert2 P_Refine P_Reverse.
Import ListNotations.
Open Scope Z_scope.

Section Split.
Context {T : Type} {V : Vec R T} {L : VecL T}.

Lemma refines_refl p n U (P : list T) : curve_knots p n U -> refines p n (val U) (pt P) n (val U) (pt P).
Proof.
  intros [Hp Hn Hl HsU _ _] z kk Hz Hlt Hkk Hg G1 G2 x Hx.
  assert (z = kk) as ->.
  { destruct (Z.lt_trichotomy z kk) as [C|[C|C]]; [|exact C|].
    - pose proof (HsU (z + 1) kk ltac:(lia) ltac:(lia) ltac:(lia)). destruct Hg as [Hg _]. lra.
    - pose proof (HsU (kk + 1) z ltac:(lia) ltac:(lia) ltac:(lia)). lra. }
  symmetry. apply bl_knots; auto.
Qed.

(* X is the stretch of W that starts at lo; its first and last knot may differ *)
Section Piece.
Context (p n : Z) (U : list R) (P : list T) (n' : Z) (W : list R) (Q : list T) (lo m : Z) (X : list R) (D : list T).
Hypothesis HU : curve_knots p n U.
Hypothesis HW : curve_knots p n' W.
Hypothesis HX : curve_knots p m X.
Hypothesis Hlo : 0 <= lo.
Hypothesis Hhi : lo + m <= n'.
Hypothesis EX : forall i, Z.min 1 p <= i <= m + Z.max 1 p -> val X i = val W (lo + i).
Hypothesis ED : forall i, 0 <= i <= m -> pt D i = pt Q (lo + i).
Hypothesis HR : refines p n (val U) (pt P) n' (val W) (pt Q).
Hypothesis Hin : forall x, In x U -> In x W.
Hypothesis Hf : val W p = val U p.
Hypothesis Hl : val W (n' + 1) = val U (n + 1).

Lemma piece_span q kk t : p <= q <= m -> (val X q < val X (q + 1))%R -> p <= kk <= n -> (val U kk <= val X q)%R -> (val X (q + 1) <= val U (kk + 1))%R ->
  span_curve q p X D t = span_curve kk p U P t.
Proof.
  intros Hq Hlt Hk G1 G2. pose proof HU as [Hp Hn HlU HsU _ _].
  assert (Gu : good (val U) kk p) by (apply (span_good p n); [exact HU|lia|lra]).
  assert (Gx : good (val X) q p) by (apply (span_good p m); [exact HX|lia|lra]).
  rewrite !span_curve_bl by auto. apply polar_same; auto; [|unfold len; rewrite repeat_length; lia].
  intros i Hi. rewrite ED by lia. rewrite (HR (lo + q) kk); auto; try lia.
  - f_equal. apply win_ext. intros r Hr. rewrite EX by lia. f_equal. lia.
  - replace (lo + q + 1) with (lo + (q + 1)) by lia. rewrite <- !EX by lia. exact Hlt.
  - rewrite <- EX by lia. exact G1.
  - replace (lo + q + 1) with (lo + (q + 1)) by lia. rewrite <- EX by lia. exact G2.
Qed.

(* knots of U are not strictly inside a span of X *)
Lemma piece_gap x q : In x U -> p <= q <= m -> (x <= val X q \/ val X (q + 1) <= x)%R.
Proof.
  intros Hx Hq. pose proof HU as [Hp _ _ _ _ _]. pose proof HW as [_ Hn' HlW HsW _ _]. destruct (In_val _ _ (Hin _ Hx)) as (i & Hi & <-). rewrite !EX by lia.
  destruct (Z.le_gt_cases i (lo + q)); [left; apply HsW; lia|right; apply HsW; lia].
Qed.

Lemma piece_point t : in_domain p m X t -> (t < val X (m + 1))%R \/ occ U t <= p \/ t = val U (n + 1) ->
  curve_point p m X D t = curve_point p n U P t.
Proof.
  intros Hd Ht. pose proof HU as [Hp Hn HlU HsU _ _]. pose proof HW as [_ Hn' HlW HsW _ _]. pose proof HX as [_ Hm HlX HsX _ _].
  assert (B1 : (val U p <= val X p)%R) by (rewrite EX, <- Hf by lia; apply HsW; lia).
  assert (B2 : (val X (m + 1) <= val U (n + 1))%R) by (rewrite EX, <- Hl by lia; apply HsW; lia).
  destruct (find_span p m X t HX Hd) as (q & _ & Hq). rewrite (curve_point_span _ _ _ _ _ _ HX Hq). destruct Hq as (Q1 & Q2 & Q3 & Q4).
  (* the span of U that contains this span of X *)
  assert (Hd0 : in_domain p n U (val X q)).
  { pose proof (HsX p q ltac:(lia) ltac:(lia) ltac:(lia)). pose proof (HsX q (m + 1) ltac:(lia) ltac:(lia) ltac:(lia)). split; lra. }
  destruct (find_span p n U (val X q) HU Hd0) as (kk & _ & K1 & K2 & K3 & K4).
  assert (K5 : (val X q < val U (kk + 1))%R).
  { destruct K4 as [K4|[K4 K6]]; [exact K4|]. pose proof (HsX (q + 1) (m + 1) ltac:(lia) ltac:(lia) ltac:(lia)). lra. }
  assert (K6 : (val X (q + 1) <= val U (kk + 1))%R).
  { destruct (piece_gap (val U (kk + 1)) q (val_In U (kk + 1) ltac:(lia)) Q1); lra. }
  rewrite (piece_span q kk t Q1 Q2 K1 K3 K6). symmetry.
  assert (Q5 : (t <= val X (q + 1))%R) by (destruct Q4 as [?|[-> ->]]; lra).
  destruct (Rlt_le_dec t (val X (q + 1))) as [C|C].
  - apply curve_point_span; [exact HU|]. split; [exact K1|]. split; [lra|]. split; [lra|]. left. lra.
  - apply curve_point_left; auto; [lra|lra|]. destruct Q4 as [Q4|[Q4 Q6]]; [lra|]. destruct Ht as [Ht|Ht]; [lra|]. unfold occ in Ht. exact Ht.
Qed.
End Piece.

Lemma copy_down {X} (l : list X) (d : X) off N v (f : Z -> X) (Q : list X -> Prop) : arr l N f -> 0 <= off -> forall c, 0 <= c -> off + c <= N -> len v = c ->
  (forall w, arr w c (fun i => f (off + i)) -> Q w) ->
  wp (for_down (c - 1) 0 v (fun j v => let! x := get l (off + j) in upd v j x)) Q.
Proof.
  intros Hl Ho c Hc HN Hv HQ.
  apply wp_for_down with (P := fun h v => arrD v c (fun i => h < i) (fun i => f (off + i))); [lia| | |].
  - split; [exact Hv|]. intros; lia.
  - intros j w Hj Hw. wget Hl. eapply arrD_set; [exact Hw|lia|reflexivity| |intros w' Hw'; exact Hw']. dl.
  - intros w Hw. apply HQ. eapply arr_of_arrD; [exact Hw|]. dl.
Qed.

Lemma resize_arr {X} (l : list X) N f c d (Q : list X -> Prop) : arr l N f -> 0 <= c <= N -> (forall w, arr w c f -> Q w) -> wp (resize l c d) Q.
Proof.
  intros Hl Hc HQ. unfold resize. destruct (Z.ltb_spec c 0); [lia|]. cbn [wp]. apply HQ.
  replace (Z.to_nat (c - len l)) with 0%nat by (rewrite (arr_len _ _ _ Hl); lia). cbn [repeat]. rewrite app_nil_r.
  eapply arr_ext; [apply (arr_firstn d); rewrite (arr_len _ _ _ Hl); lia|]. intros i Hi. apply (arr_at_eq d _ _ _ i Hl). lia.
Qed.

Lemma occ_perm l l' x : Permutation l l' -> occ l x = occ l' x.
Proof. intros H. unfold occ. f_equal. apply Permutation_count_occ. exact H. Qed.
Lemma occ_app l l' x : occ (l ++ l') x = occ l x + occ l' x.
Proof. unfold occ. rewrite count_occ_app. lia. Qed.
Lemma occ_repeat x k : 0 <= k -> occ (repeat x (Z.to_nat k)) x = k.
Proof.
  intros Hk. unfold occ. rewrite <- (Z2Nat.id k) at 2 by lia. f_equal. induction (Z.to_nat k) as [|j IH]; [reflexivity|].
  cbn [repeat count_occ]. destruct (Req_EM_T x x); [f_equal; exact IH|contradiction].
Qed.

Lemma apart_exact u l : (forall y, In y l -> apart u y) -> forall y, In y l -> (Rabs (u - y) <= tol u y)%R -> y = u.
Proof.
  intros H y Hy Ht. destruct (H y Hy) as [->|Ha]; [reflexivity|]. pose proof (tol_pos u y). lra.
Qed.

Lemma tol_sym x y : tol x y = tol y x.
Proof. unfold tol. rewrite Rmax_comm. reflexivity. Qed.

Lemma SplitAt_none p n U (P : list T) u : curve_knots p n U ->
  (u <= val U p + tol u (val U p))%R \/ (val U (n + 1) - tol u (val U (n + 1)) <= u)%R -> SplitAt (mkCurve p U P) u = Ok None.
Proof.
  intros [Hp Hn HlU HsU H1 H2] H. assert (AU : arr U (n + p + 2) (val U)) by (rewrite <- HlU; apply arr_at).
  unfold SplitAt. cbn [Degree KnotVector ControlPoints]. rewrite HlU. replace (n + p + 2 - p - 1) with (n + 1) by lia. wget AU. wget AU.
  assert (E : IsLessThanOrEqual u (val U p) || IsGreaterThanOrEqual u (val U (n + 1)) = true); [|rewrite E; reflexivity].
  apply orb_true_iff. rewrite le_iff, ge_iff, <- (tol_thr u (val U p)), <- (tol_thr u (val U (n + 1))). destruct H as [H|H]; [left|right]; lra.
Qed.

Lemma SplitAt_ok p n U (P : list T) u : curve_knots p n U -> len P = n + 1 -> (forall y, In y U -> apart u y) ->
  (val U p < u < val U (n + 1))%R -> occ U u <= p + 1 ->
  returns (SplitAt (mkCurve p U P) u) (fun o => exists nl Ul Pl nr Ur Pr,
    o = Some (mkCurve p Ul Pl, mkCurve p Ur Pr) /\
    curve_knots p nl Ul /\ len Pl = nl + 1 /\ curve_knots p nr Ur /\ len Pr = nr + 1 /\
    val Ul p = val U p /\ val Ul (nl + 1) = u /\ val Ur p = u /\ val Ur (nr + 1) = val U (n + 1) /\
    (forall t, in_domain p nl Ul t -> (t < u)%R \/ occ U u <= p -> curve_point p nl Ul Pl t = curve_point p n U P t) /\
    (forall t, in_domain p nr Ur t -> curve_point p nr Ur Pr t = curve_point p n U P t) /\
    nl + nr = n + p - occ U u /\ (clamped_knots p n U -> clamped_knots p nl Ul /\ clamped_knots p nr Ur)).
Proof.
  intros HU HP Hap Hu Ho. pose proof HU as [Hp Hn HlU HsU H1 H2].
  assert (AU : arr U (n + p + 2) (val U)) by (rewrite <- HlU; apply arr_at).
  pose proof (apart_exact u U Hap) as Hex.
  unfold SplitAt. cbn [Degree KnotVector ControlPoints]. rewrite HlU. replace (n + p + 2 - p - 1) with (n + 1) by lia.
  apply wp_elim. wget AU. wget AU.
  assert (E1 : IsLessThanOrEqual u (val U p) = false).
  { apply le_false. rewrite <- tol_thr. pose proof (apart_lt _ _ (apart_sym _ _ (Hap _ (val_In U p ltac:(lia)))) ltac:(lra)) as G.
    replace (tol u (val U p)) with (tol (val U p) u); [lra|]. unfold tol. rewrite Rmax_comm. reflexivity. }
  assert (E2 : IsGreaterThanOrEqual u (val U (n + 1)) = false).
  { apply ge_false. rewrite <- tol_thr. pose proof (apart_lt _ _ (Hap _ (val_In U (n + 1) ltac:(lia))) ltac:(lra)). lra. }
  rewrite E1, E2. cbn [orb].
  pose proof (HsU 0 p ltac:(lia) ltac:(lia) ltac:(lia)) as B1. pose proof (HsU (n + 1) (len U - 1) ltac:(lia) ltac:(lia) ltac:(lia)) as B2.
  rewrite (GetKnotMultiplicity_exact U u) by (auto; try lia; lra). cbn [bind]. fold (occ U u).
  (* the refined curve *)
  set (s := occ U u) in *. assert (Hs0 : 0 <= s) by (unfold s, occ; lia).
  assert (G : exists n' W Q, (let! insert := mkvec (p + 1 - s) u in if 0 <? len insert then RefineKnotVector (mkCurve p U P) insert else Ok (mkCurve p U P)) = Ok (mkCurve p W Q) /\
     curve_knots p n' W /\ len Q = n' + 1 /\ Permutation W (repeat u (Z.to_nat (p + 1 - s)) ++ U) /\ val W p = val U p /\ val W (n' + 1) = val U (n + 1) /\
     refines p n (val U) (pt P) n' (val W) (pt Q)).
  { unfold mkvec. destruct (Z.ltb_spec (p + 1 - s) 0); [lia|]. cbn [bind]. rewrite len_repeat. destruct (Z.ltb_spec 0 (Z.of_nat (Z.to_nat (p + 1 - s)))) as [C|C].
    - pose proof (len_repeat u (Z.to_nat (p + 1 - s))) as El. set (X := repeat u (Z.to_nat (p + 1 - s))) in *.
      assert (HXu : forall x, In x X -> x = u) by (intros x Hx; apply (repeat_spec _ _ _ Hx)).
      destruct (RefineKnotVector_refines p n U P X HU HP ltac:(lia)) as (c & E & W & Q & -> & KW & LQ & PW & F1 & F2 & HR).
      + intros i j Hi Hij Hj. rewrite (HXu _ (val_In X i ltac:(lia))), (HXu _ (val_In X j ltac:(lia))). lra.
      + intros x Hx. rewrite (HXu x Hx). exact Hu.
      + intros x y Hx Hy. rewrite (HXu x Hx). apply in_app_or in Hy. destruct Hy as [Hy|Hy]; [left; symmetry; apply HXu; exact Hy|apply Hap; exact Hy].
      + exists (n + len X), W, Q. split; [exact E|]. do 4 (split; [assumption|]). split; [exact F2|exact HR].
    - replace (Z.to_nat (p + 1 - s)) with 0%nat by lia. exists n, U, P. split; [reflexivity|]. do 2 (split; [assumption|]). split; [reflexivity|].
      do 2 (split; [reflexivity|]). apply refines_refl. exact HU. }
  destruct G as (n' & W & Q & EG & KW & LQ & PW & F1 & F2 & HR).
  rewrite <- bind_assoc. rewrite EG. cbn [bind Degree KnotVector ControlPoints]. clear EG.
  assert (Ou : occ W u = p + 1) by (rewrite (occ_perm _ _ _ PW), occ_app, occ_repeat by lia; fold s; lia).
  assert (HinU : forall x, In x U -> In x W) by (intros x Hx; apply (Permutation_in _ (Permutation_sym PW)); apply in_or_app; auto).
  assert (HinW : forall x, In x W -> x = u \/ In x U).
  { intros x Hx. apply (Permutation_in _ PW) in Hx. apply in_app_or in Hx. destruct Hx as [Hx|Hx]; [left; apply (repeat_spec _ _ _ Hx)|auto]. }
  pose proof KW as [_ Hn' HlW HsW W1 W2].
  destruct (find_span p n' W u KW ltac:(unfold in_domain; lra)) as (k & -> & K1 & K2 & K3 & K4). cbn [bind].
  assert (K5 : (u < val W (k + 1))%R) by (destruct K4 as [?|[-> ?]]; lra). clear K4.
  destruct (count_sorted W u k HsW ltac:(lia) K3 K5) as (C1 & C2 & C3). fold (occ W u) in C1, C2, C3. rewrite Ou in C1, C2, C3.
  assert (C0 : p + 1 <= k - p) by (destruct (Z.le_gt_cases (k - p) p) as [C|C]; [|lia]; specialize (C2 p ltac:(lia)); lra).
  assert (Hg1 : (val W (k - p - 1) + tol (val W (k - p - 1)) (val W (k - p)) < val W (k - p))%R).
  { rewrite (C2 (k - p)) by lia. specialize (C3 (k - p - 1) ltac:(lia)). apply apart_lt; [|exact C3]. apply apart_sym.
    destruct (HinW _ (val_In W (k - p - 1) ltac:(lia))) as [E|E]; [lra|apply Hap; exact E]. }
  assert (Hg2 : (val W k + tol (val W k) (val W (k + 1)) < val W (k + 1))%R).
  { rewrite (C2 k) by lia. apply apart_lt; [|exact K5].
    destruct (HinW _ (val_In W (k + 1) ltac:(lia))) as [E|E]; [lra|apply Hap; exact E]. }
  assert (AW : arr W (n' + p + 2) (val W)) by (rewrite <- HlW; apply arr_at). pose proof (arr_pt Q _ LQ) as AQ.
  rewrite LQ, HlW. set (nr := n' - (k - p)).
  replace (n' + 1 - (k - p)) with (nr + 1) by lia.
  apply wp_bind. apply wp_mkvec; [lia|]. intros v Hv. apply wp_bind. apply wp_mkvec; [lia|]. intros w Hw. apply wp_bind.
  replace (n' + 1 - (nr + 1)) with (k - p) by lia.
  apply (copy_down Q vzero (k - p) (n' + 1) v (pt Q) _ AQ ltac:(lia) (nr + 1) ltac:(lia) ltac:(lia) (arr_len _ _ _ Hv)). clear v Hv. intros Pr HPr.
  apply wp_bind. replace (n' + p + 2 - 1 - (nr + 1 + p)) with (k - p) by lia.
  replace (nr + 1 + p) with (nr + p + 2 - 1) by lia.
  apply (copy_down W 0%R (k - p) (n' + p + 2) w (val W) _ AW ltac:(lia) (nr + p + 2) ltac:(lia) ltac:(lia)); [rewrite (arr_len _ _ _ Hw); lia|]. clear w Hw. intros Ur HUr.
  apply wp_bind. apply (resize_arr Q (n' + 1) (pt Q) (k - p) _ _ AQ ltac:(lia)). intros Pl HPl.
  apply wp_bind. replace (k - p + p + 1) with (k + 1) by lia. apply (resize_arr W (n' + p + 2) (val W) (k + 1) _ _ AW ltac:(lia)). intros Ul HUl.
  cbn [wp]. set (nl := k - p - 1). exists nl, Ul, Pl, nr, Ur, Pr. split; [reflexivity|].
  assert (EUl : forall i, 0 <= i <= k -> val Ul i = val W i) by (intros i Hi; apply (arr_val _ _ _ _ HUl); lia).
  assert (EUr : forall i, 0 <= i <= nr + p + 1 -> val Ur i = val W (k - p + i)) by (intros i Hi; apply (arr_val _ _ _ _ HUr); lia).
  assert (KUl : curve_knots p nl Ul).
  { split; try lia.
    - rewrite (arr_len _ _ _ HUl). lia.
    - intros i j Hi Hij Hj. rewrite (arr_len _ _ _ HUl) in Hj. rewrite !EUl by lia. apply HsW; lia.
    - rewrite !EUl by lia. exact W1.
    - rewrite !EUl by lia. unfold nl. replace (k - p - 1 + 1) with (k - p) by lia. exact Hg1. }
  assert (KUr : curve_knots p nr Ur).
  { split; try lia.
    - rewrite (arr_len _ _ _ HUr). lia.
    - intros i j Hi Hij Hj. rewrite (arr_len _ _ _ HUr) in Hj. rewrite !EUr by lia. apply HsW; lia.
    - rewrite !EUr by lia. replace (k - p + p) with k by lia. replace (k - p + (p + 1)) with (k + 1) by lia. exact Hg2.
    - rewrite !EUr by lia. unfold nr. replace (k - p + (n' - (k - p))) with n' by lia. replace (k - p + (n' - (k - p) + 1)) with (n' + 1) by lia. exact W2. }
  split; [exact KUl|]. split; [rewrite (arr_len _ _ _ HPl); lia|]. split; [exact KUr|]. split; [rewrite (arr_len _ _ _ HPr); lia|].
  split; [rewrite EUl by lia; exact F1|]. split; [rewrite EUl by lia; apply C2; lia|]. split; [rewrite EUr by lia; apply C2; lia|].
  split; [rewrite EUr by lia; replace (k - p + (nr + 1)) with (n' + 1) by lia; exact F2|]. split; [|split; [|split]].
  - intros t Hd Ht. apply (piece_point p n U P n' W Q 0 nl Ul Pl); auto; try lia.
    + intros i Hi. rewrite EUl by lia. f_equal.
    + intros i Hi. rewrite (arr_pt_eq _ _ _ _ HPl) by lia. f_equal.
    + assert (E : val Ul (nl + 1) = u) by (rewrite EUl by lia; apply C2; lia). rewrite E. destruct Hd as [_ Hd]. rewrite E in Hd.
      destruct Ht as [Ht|Ht]; [left; exact Ht|]. destruct (Req_EM_T t u) as [->|Hne]; [right; left; exact Ht|left; lra].
  - intros t Hd. apply (piece_point p n U P n' W Q (k - p) nr Ur Pr); auto; try lia.
    + intros i Hi. apply EUr. lia.
    + intros i Hi. rewrite (arr_pt_eq _ _ _ _ HPr) by lia. reflexivity.
    + assert (E : val Ur (nr + 1) = val U (n + 1)) by (rewrite EUr by lia; replace (k - p + (nr + 1)) with (n' + 1) by lia; exact F2).
      destruct Hd as [_ Hd]. rewrite E in *. destruct (Req_EM_T t (val U (n + 1))) as [->|Hne]; [auto|left; lra].
  - pose proof (Permutation_length PW) as E. rewrite app_length, repeat_length in E. unfold len in HlW, HlU. unfold nl, nr. lia.
  - intros (Z0 & Z1). assert (HWb : forall x, In x W -> (val U 0 <= x <= val U (n + p + 1))%R).
    { intros x Hx. destruct (HinW x Hx) as [->|Hx']; [replace (n + p + 1) with (len U - 1) by lia; lra|]. destruct (In_val x U Hx') as (i & Hi & <-). split; apply HsU; lia. }
    assert (W0 : val W 0 = val W p). { apply Rle_antisym; [apply HsW; lia|]. rewrite F1, <- Z0. apply HWb, val_In. lia. }
    assert (WN : val W (n' + 1) = val W (n' + p + 1)). { apply Rle_antisym; [apply HsW; lia|]. rewrite F2, Z1. apply HWb, val_In. lia. }
    split; split.
    + rewrite !EUl by lia. exact W0.
    + rewrite !EUl by lia. rewrite !C2 by lia. reflexivity.
    + rewrite !EUr by lia. rewrite !C2 by lia. reflexivity.
    + rewrite !EUr by lia. replace (k - p + (nr + 1)) with (n' + 1) by lia. replace (k - p + (nr + p + 1)) with (n' + p + 1) by lia. exact WN.
Qed.
End Split.
