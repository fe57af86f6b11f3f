(* Extending a curve by its Taylor polynomial. *)
From Coq Require Import ZArith List Bool Reals Lra Lia.
From Verif Require Import Base Num Vec Tac Spec Spec2 Spec3 Spec4 Spec5 Spec9 Spec10 Spec18 M_MathUtils M_Polynomials M_Knots M_XYZ M_Bspline M_NurbsCurve M_Curve2 M_Geom M_Surface M_Shape M_Curve3
  P_MathUtils P_Span P_Cox P_Bern P_Power P_XYZ P_Vec P_VSum P_Curve P_Bspline P_Loop P_Insert P_Insert2 P_Refine P_Matrix P_Nurbs P_Reduce P_Remove P_Geom P_Shape P_Shape3 P_Surf5 P_Surf6 P_Surf7 P_Interp2.
Import ListNotations.
Open Scope Z_scope.

(* the polynomial on a span depends on 2p knots only *)
Lemma NS_local U W k t : forall p, 0 <= p -> (forall j, k - p < j <= k + p -> U j = W j) -> forall i, NS U k p i t = NS W k p i t.
Proof.
  apply (Zrange_ind 0 (fun p => (forall j, k - p < j <= k + p -> U j = W j) -> forall i, NS U k p i t = NS W k p i t)).
  - intros _ i. rewrite !NS_0. reflexivity.
  - intros p Hp IH E i. specialize (IH ltac:(intros; apply E; lia)). rewrite (NS_succ U), (NS_succ W) by lia. replace (p + 1 - 1) with p by lia. rewrite !IH.
    f_equal.
    + destruct (Z.le_gt_cases (k - p) i); [destruct (Z.le_gt_cases i k)|]; [rewrite !E by lia; reflexivity| |]; rewrite (NS_out W k p i) by lia; ring.
    + destruct (Z.le_gt_cases (k - p) (i + 1)); [destruct (Z.le_gt_cases (i + 1) k)|]; [rewrite !E by lia; reflexivity| |]; rewrite (NS_out W k p (i + 1)) by lia; ring.
Qed.

Lemma NS_move U W k d p i t : 0 <= p -> (forall j, k - p < j <= k + p -> U (d + j) = W j) -> NS U (d + k) p (d + i) t = NS W k p i t.
Proof.
  intros Hp E. rewrite <- (P_Merge.NS_affine W (fun j => W (j - d)) d k 1 0 t) with (p := p) (i := i); [|lra|exact Hp|intros; replace (d + j - d) with j by lia; ring].
  replace (1 * t + 0)%R with t by ring. apply NS_local; [exact Hp|]. intros j Hj. replace j with (d + (j - d)) at 1 by lia. apply E. lia.
Qed.

(* Bernstein coefficients of powers *)
Lemma bern_power p k s : 0 <= k <= p -> rsum 0 (p + 1) (fun i => bern p i s * (if k <=? i then Cb i k / Cb p k else 0))%R = (s ^ Z.to_nat k)%R.
Proof.
  intros Hk. rewrite (rsum_split 0 k) by lia. rewrite rsum_zero; [|intros i Hi; destruct (Z.leb_spec k i); [lia|ring]].
  rewrite (rsum_ext k (p + 1) _ (fun i => s ^ Z.to_nat k * bern (p - k) (i - k) s)%R).
  - rewrite rsum_scal. replace (rsum k (p + 1) (fun i => bern (p - k) (i - k) s)) with (rsum 0 (p - k + 1) (fun i => bern (p - k) i s)).
    + rewrite bern_sum by lia. ring.
    + rewrite (rsum_shift k). replace (0 + k) with k by lia. replace (p - k + 1 + k) with (p + 1) by lia. reflexivity.
  - intros i Hi. destruct (Z.leb_spec k i); [|lia]. rewrite !bern_in by lia. pose proof (Cb_neq0 p k Hk) as N. pose proof (Cb_trinomial p i k ltac:(lia) ltac:(lia)) as E.
    replace (p - k - (i - k)) with (p - i) by lia. replace (Z.to_nat i) with (Z.to_nat k + Z.to_nat (i - k))%nat by lia. rewrite pow_add.
    apply (Rmult_eq_reg_l (Cb p k)); [|exact N].
    transitivity (Cb p i * Cb i k * (s ^ Z.to_nat k * s ^ Z.to_nat (i - k) * (1 - s) ^ Z.to_nat (p - i)))%R; [field; exact N|]. rewrite <- E. ring.
Qed.

(* the points of the Bezier form of a polynomial *)
Definition tb (p : Z) (S : R) (a : Z -> R) (i : Z) : R := rsum 0 (i + 1) (fun k => S ^ Z.to_nat k * (Cb i k / Cb p k) * a k)%R.

Lemma bern_taylor p S a s : 0 <= p -> rsum 0 (p + 1) (fun i => bern p i s * tb p S a i)%R = rsum 0 (p + 1) (fun k => (S * s) ^ Z.to_nat k * a k)%R.
Proof.
  intros Hp. rewrite (rsum_ext 0 (p + 1) _ (fun i => rsum 0 (p + 1) (fun k => bern p i s * (if k <=? i then Cb i k / Cb p k else 0) * (S ^ Z.to_nat k * a k))%R)).
  - rewrite rsum_swap. apply rsum_ext. intros k Hk. rewrite rsum_scal_r, bern_power by lia. rewrite Rpow_mult_distr. ring.
  - intros i Hi. unfold tb. rewrite <- rsum_scal. rewrite (rsum_split 0 (i + 1) (p + 1)) by lia.
    rewrite (rsum_zero (i + 1)); [|intros k Hk; destruct (Z.leb_spec k i); [lia|ring]]. rewrite Rplus_0_r. apply rsum_ext. intros k Hk. destruct (Z.leb_spec k i); [ring|lia].
Qed.

Lemma tb_0 p S a : 0 <= p -> tb p S a 0 = a 0.
Proof. intros Hp. unfold tb. change (0 + 1) with (0 + 1). rewrite rsum_one. rewrite !Cb_0 by lia. change (Z.to_nat 0) with 0%nat. cbn [pow]. field. Qed.

Definition tbp (p : Z) (S : R) (f : Z -> XYZ R) (i : Z) : XYZ R := mkXYZ (tb p S (fun k => gx (f k)) i) (tb p S (fun k => gy (f k)) i) (tb p S (fun k => gz (f k)) i).

Lemma rsum_01 f : rsum 0 1 f = f 0.
Proof. exact (rsum_one 0 f). Qed.

Lemma tbezier_ok coeffs p f S w : 0 <= p -> arr coeffs (p + 1) f -> returns (taylor_bezier coeffs p S w) (fun l => arr l (p + 1) (fun i => hom (tbp p S f i) w)).
Proof.
  intros Hp Ac. apply wp_elim. unfold taylor_bezier. wget Ac. apply wp_for_up with (P := fun i l => arr l i (fun i => hom (tbp p S f i) w)); [lia|apply arr_nil| |intros l Al; exact Al].
  intros i l Hi Al. apply wp_bind.
  apply wp_for_up with (P := fun k q => let part a := rsum 0 k (fun k => S ^ Z.to_nat k * (Cb i k / Cb p k) * a k)%R in q = mkXYZ (part (fun k => gx (f k))) (part (fun k => gy (f k))) (part (fun k => gz (f k)))); [lia| | |].
  - cbv beta zeta. rewrite !rsum_01, !Cb_0 by lia. change (Z.to_nat 0) with 0%nat. cbn [pow]. destruct (f 0) as [x y z]. cbn [gx gy gz]. f_equal; field.
  - intros k q Hk ->. rewrite !Binomial_ok by lia. cbn [bind]. num. rewrite Rdiv_ok by (apply Cb_neq0; lia). cbn [bind]. wget Ac. apply wp_ok. cbv beta zeta. rewrite !rsum_last by lia. rewrite npow_R.
    unfold xyz_add, xyz_scale. cbn [gx gy gz]. num. f_equal; ring.
  - intros q ->. apply wp_ok. apply arr_snoc; [exact Al|]. reflexivity.
Qed.

Lemma velocity_ok coeffs p f t : 1 <= p -> arr coeffs (p + 1) f -> exists v, taylor_velocity coeffs p t = Ok v.
Proof.
  intros Hp Ac. assert (X : returns (taylor_velocity coeffs p t) (fun _ => True)); [|destruct X as (v & E & _); exists v; exact E]. apply wp_elim. unfold taylor_velocity. wget Ac.
  apply wp_for_down with (P := fun _ _ => True); [lia|exact I| |intros; exact I]. intros k v Hk _. wget Ac. apply wp_ok. exact I.
Qed.

Lemma natural_ok coeffs p f delta start : 1 <= p -> arr coeffs (p + 1) f -> exists x, natural_step coeffs p delta start = Ok x.
Proof.
  intros Hp Ac. assert (X : returns (natural_step coeffs p delta start) (fun _ => True)); [|destruct X as (v & E & _); exists v; exact E]. apply wp_elim. unfold natural_step. apply wp_bind.
  apply wp_for_upc with (P := fun _ _ => True) (F := fun _ => True); [exact I| |intros; apply wp_ok; exact I|intros; apply wp_ok; exact I].
  intros k x Hk _. cbv zeta.
  repeat match goal with |- context [taylor_velocity coeffs p ?t] => let v := fresh "v" in let E := fresh "E" in destruct (velocity_ok coeffs p f t Hp Ac) as (v & E); rewrite E; clear E end.
  cbn [bind]. rewrite !Length_eq. cbn [bind]. destruct (IsAlmostEqualTo (norm3 _) _) eqn:Es; [apply wp_ok; exact I|]. destruct (IsAlmostEqualTo (nabs _) _); [apply wp_ok; exact I|].
  num. rewrite Rdiv_ok; [cbn [bind]; apply wp_ok; exact I|]. apply close_false in Es. intros E0. apply Es. apply Rmult_integral in E0. destruct E0 as [->|E0].
  - unfold close. rewrite Rminus_diag_eq, Rabs_R0 by reflexivity. apply Rlt_le, tol_pos.
  - exfalso. destruct (Rltb 0 x); lra.
Qed.

Lemma bern_mirror p i s : 0 <= i <= p -> bern p (p - i) s = bern p i (1 - s).
Proof. intros Hi. rewrite !bern_in by lia. rewrite (Cb_sym p i) by lia. replace (p - (p - i)) with i by lia. replace (1 - (1 - s))%R with s by ring. ring. Qed.

Lemma deriv0 p n U H d t g : 0 <= d -> curve_knots p n U -> curve_derivs p n U H d t g -> (0 < ww (curve_point p n U H t))%R -> g 0 = proj (curve_point p n U H t).
Proof.
  intros Hd HU (k & Hk & G) Wt. destruct (G 0 ltac:(lia)) as (F & (X & Y & Z) & <-). rewrite (curve_point_span p n U H t k HU Hk) in *. change (Z.to_nat 0) with 0%nat in *. cbn [nth_deriv_on] in *.
  assert (W : ww (span_curve k p U H t) <> 0%R) by lra. specialize (X t W). specialize (Y t W). specialize (Z t W). destruct (F t) as [x y z]. cbn [gx gy gz] in *. destruct (proj (span_curve k p U H t)) as [x' y' z']. cbn [gx gy gz] in *. congruence.
Qed.

Section Ext.
Variables (p n : Z) (U : list R) (H : list (XYZW R)).
Hypothesis HU : curve_knots p n U.
Hypothesis Hp1 : 1 <= p.
Hypothesis Hp : p <= 7.
Hypothesis HH : len H = n + 1.
Hypothesis Hw : heavy H.
Hypothesis Hcl : clamped_knots p n U.
Let c := mkCurve p U H.
Let lo := val U p.
Let hi := val U (n + 1).

Lemma heavy_pos i : 0 <= i <= n -> (0 < ww (pt H i))%R.
Proof. intros Hi. pose proof (Hw i ltac:(lia)) as X. pose proof (tol_pos (ww (pt H i)) 0). unfold heavy in *. lra. Qed.
Lemma proj_hom P : (ww P <> 0)%R -> hom (proj P) (ww P) = P.
Proof. intros HP. destruct P as [x y z w]. unfold hom, proj. cbn [gx gy gz wx wy wz ww] in *. f_equal; field; exact HP. Qed.
Lemma low j : 0 <= j <= p -> val U j = lo.
Proof. intros Hj. pose proof HU as [_ Hn Hl Hs _ _]. destruct Hcl as (C0 & _). unfold lo. pose proof (Hs 0 j ltac:(lia) ltac:(lia) ltac:(lia)). pose proof (Hs j p ltac:(lia) ltac:(lia) ltac:(lia)). lra. Qed.
Lemma high j : n + 1 <= j <= n + p + 1 -> val U j = hi.
Proof. intros Hj. pose proof HU as [_ Hn Hl Hs _ _]. destruct Hcl as (_ & C1). unfold hi. pose proof (Hs (n + 1) j ltac:(lia) ltac:(lia) ltac:(lia)). pose proof (Hs j (n + p + 1) ltac:(lia) ltac:(lia) ltac:(lia)). lra. Qed.

Definition tcoef (g : Z -> XYZ R) (k : Z) : XYZ R := times3 (/ INR (fact (Z.to_nat k))) (g k).

(* a Bezier piece with the points of the Taylor polynomial *)
Lemma piece_eval g w t0 S s : hom (taylor p g t0 (t0 + S * s)%R) w = comb 0 (p + 1) (fun i => bern p i s) (fun i => hom (tbp p S (tcoef g) i) w).
Proof.
  apply co_ext. intros k. rewrite co_comb.
  assert (E : forall a, rsum 0 (p + 1) (fun i => bern p i s * (tb p S a i * w))%R = (rsum 0 (p + 1) (fun k => (S * s) ^ Z.to_nat k * a k) * w)%R).
  { intros a. rewrite <- bern_taylor by lia. rewrite <- rsum_scal_r. apply rsum_ext. intros; ring. }
  assert (F : forall b, rsum 0 (p + 1) (fun k => (t0 + S * s - t0) ^ Z.to_nat k / INR (fact (Z.to_nat k)) * b k)%R = rsum 0 (p + 1) (fun k => (S * s) ^ Z.to_nat k * (/ INR (fact (Z.to_nat k)) * b k))%R).
  { intros b. apply rsum_ext. intros j _. replace (t0 + S * s - t0)%R with (S * s)%R by ring. unfold Rdiv. ring. }
  destruct k as [|[|[|k]]].
  - transitivity (rsum 0 (p + 1) (fun i => bern p i s * (tb p S (fun k => gx (tcoef g k)) i * w))%R); [rewrite E; change (co 0 (hom ?q w)) with (gx q * w)%R; cbn [taylor gx]; rewrite F; reflexivity|apply rsum_ext; reflexivity].
  - transitivity (rsum 0 (p + 1) (fun i => bern p i s * (tb p S (fun k => gy (tcoef g k)) i * w))%R); [rewrite E; change (co 1 (hom ?q w)) with (gy q * w)%R; cbn [taylor gy]; rewrite F; reflexivity|apply rsum_ext; reflexivity].
  - transitivity (rsum 0 (p + 1) (fun i => bern p i s * (tb p S (fun k => gz (tcoef g k)) i * w))%R); [rewrite E; change (co 2 (hom ?q w)) with (gz q * w)%R; cbn [taylor gz]; rewrite F; reflexivity|apply rsum_ext; reflexivity].
  - transitivity (rsum 0 (p + 1) (fun i => bern p i s * w)%R); [rewrite rsum_scal_r, bern_sum by lia; rewrite Rmult_1_l; reflexivity|apply rsum_ext; reflexivity].
Qed.

Lemma tbp_0 g S : tbp p S (tcoef g) 0 = g 0.
Proof.
  unfold tbp. rewrite !tb_0 by lia. unfold tcoef. change (Z.to_nat 0) with 0%nat. cbn [fact INR]. destruct (g 0) as [x y z]. unfold times3. cbn [gx gy gz]. f_equal; field.
Qed.

(* extension at the end *)
Lemma ext_end K D g L : (0 <= L)%R -> len K = n + 2 * p + 2 -> (forall j, 0 <= j <= n + p -> val K j = val U j) -> (forall j, n + p < j <= n + 2 * p + 1 -> val K j = (hi + L)%R) ->
  len D = n + p + 1 -> (forall j, 0 <= j <= n -> pt D j = pt H j) -> (forall j, 1 <= j <= p -> pt D (n + j) = hom (tbp p L (tcoef g) j) (ww (pt H n))) ->
  g 0 = proj (pt H n) -> (tol hi (hi + L) < L)%R ->
  curve_knots p (n + p) K /\ clamped_knots p (n + p) K /\ (forall t, in_domain p n U t -> (t < hi)%R -> curve_point p (n + p) K D t = curve_point p n U H t) /\
  (forall t, (hi <= t <= hi + L)%R -> curve_point p (n + p) K D t = hom (taylor p g hi t) (ww (pt H n))).
Proof.
  intros HL LK K1 K2 LD D1 D2 G0 HG. pose proof HU as [_ Hn Hl Hs Hf Hlst].
  assert (HK : curve_knots p (n + p) K).
  { split; [lia|lia|lia| | |].
    - intros i j Hi Hij Hj. destruct (Z.le_gt_cases j (n + p)).
      + rewrite !K1 by lia. apply Hs; lia.
      + rewrite (K2 j) by lia. destruct (Z.le_gt_cases i (n + p)); [rewrite K1 by lia|rewrite K2 by lia; lra]. rewrite <- (high (n + p)) by lia. pose proof (Hs i (n + p) ltac:(lia) ltac:(lia) ltac:(lia)). lra.
    - rewrite !K1 by lia. exact Hf.
    - rewrite (K1 (n + p)), (K2 (n + p + 1)), (high (n + p)) by lia. lra. }
  split; [exact HK|]. split.
  { split; [rewrite !K1 by lia; exact (proj1 Hcl)|rewrite !K2 by lia; reflexivity]. }
  split.
  - intros t Dt Ht. destruct (find_span p n U t HU Dt) as (k & _ & Hk). pose proof Hk as (A1 & A2 & A3 & A4).
    assert (Hk' : span_of p (n + p) K t k). { split; [lia|]. rewrite !K1 by lia. split; [exact A2|]. split; [exact A3|]. destruct A4 as [A4|(_ & A4)]; [left; exact A4|]. unfold hi in Ht. lra. }
    rewrite (curve_point_span _ _ _ _ _ _ HU Hk), (curve_point_span _ _ _ _ _ _ HK Hk'). apply comb_ext. intros i Hi. split; [|apply D1; lia]. apply (NS_local (val K) (val U) k t p); [lia|]. intros j Hj. apply K1. lia.
  - intros t Ht. assert (Hk : span_of p (n + p) K t (n + p)).
    { split; [lia|]. rewrite (K1 (n + p)), (K2 (n + p + 1)), (high (n + p)) by lia. pose proof (tol_pos hi (hi + L)). split; [lra|]. split; [lra|]. destruct (Req_dec t (hi + L)); [right; split; [reflexivity|assumption]|left; lra]. }
    rewrite (curve_point_span _ _ _ _ _ _ HK Hk). unfold span_curve. pose proof (tol_pos hi (hi + L)) as TP. set (s := ((t - hi) / L)%R). replace (taylor p g hi t) with (taylor p g hi (hi + L * s)%R) by (f_equal; unfold s; field; lra). rewrite piece_eval.
    rewrite (comb_shift n 0 (p + 1)). replace (n + p - p) with (0 + n) by lia. replace (n + p + 1) with (p + 1 + n) by lia. apply comb_ext. intros i Hi. split.
    + change (Nspan (val K) (n + p) (Z.to_nat p) i t) with (NS (val K) (n + p) p i t).
      replace i with (n + (i - n)) at 1 by lia. rewrite (NS_move (val K) (fun j => if j <=? p then hi else (hi + L)%R) p n p (i - n) t); [|lia|].
      * pose proof (NS_bern (fun j => if j <=? p then hi else (hi + L)%R) hi (hi + L)%R p t ltac:(lra) ltac:(reflexivity) p ltac:(lia) ltac:(lia) (i - n)) as E. replace (p - p + (i - n)) with (i - n) in E by lia. rewrite E. f_equal. unfold s. f_equal. ring.
      * intros j Hj. destruct (Z.leb_spec j p); [rewrite K1 by lia; apply high; lia|apply K2; lia].
    + destruct (Z.eq_dec i n) as [->|].
      * rewrite D1 by lia. rewrite Z.sub_diag, tbp_0, G0. symmetry. apply proj_hom. pose proof (heavy_pos n ltac:(lia)). lra.
      * replace i with (n + (i - n)) at 1 by lia. apply D2. lia.
Qed.

(* extension at the start *)
Lemma ext_start K D g L : (0 <= L)%R -> len K = n + 2 * p + 2 -> (forall j, 0 <= j <= p -> val K j = (lo - L)%R) -> (forall j, p < j <= n + 2 * p + 1 -> val K j = val U (j - p)) ->
  len D = n + p + 1 -> (forall j, 0 <= j <= n -> pt D (p + j) = pt H j) -> (forall j, 0 <= j < p -> pt D j = hom (tbp p (- L) (tcoef g) (p - j)) (ww (pt H 0))) ->
  g 0 = proj (pt H 0) -> (tol (lo - L) lo < L)%R ->
  curve_knots p (n + p) K /\ clamped_knots p (n + p) K /\ (forall t, in_domain p n U t -> curve_point p (n + p) K D t = curve_point p n U H t) /\
  (forall t, (lo - L <= t < lo)%R -> curve_point p (n + p) K D t = hom (taylor p g lo t) (ww (pt H 0))).
Proof.
  intros HL LK K1 K2 LD D1 D2 G0 HG. pose proof HU as [_ Hn Hl Hs Hf Hlst]. pose proof (tol_pos (lo - L) lo) as TP.
  assert (HK : curve_knots p (n + p) K).
  { split; [lia|lia|lia| | |].
    - intros i j Hi Hij Hj. destruct (Z.le_gt_cases i p).
      + rewrite (K1 i) by lia. destruct (Z.le_gt_cases j p); [rewrite K1 by lia; lra|rewrite K2 by lia]. rewrite <- (low 0) by lia. pose proof (Hs 0 (j - p) ltac:(lia) ltac:(lia) ltac:(lia)). lra.
      + rewrite !K2 by lia. apply Hs; lia.
    - rewrite K1, K2, (low (p + 1 - p)) by lia. lra.
    - rewrite !K2 by lia. replace (n + p - p) with n by lia. replace (n + p + 1 - p) with (n + 1) by lia. exact Hlst. }
  split; [exact HK|]. split.
  { split; [rewrite !K1 by lia; reflexivity|rewrite !K2 by lia; replace (n + p + 1 - p) with (n + 1) by lia; replace (n + p + p + 1 - p) with (n + p + 1) by lia; exact (proj2 Hcl)]. }
  split.
  - intros t Dt. destruct (find_span p n U t HU Dt) as (k & _ & Hk). pose proof Hk as (A1 & A2 & A3 & A4).
    assert (E : forall j, 1 <= j <= n + p + 1 -> val K (p + j) = val U j) by (intros j Hj; rewrite K2 by lia; f_equal; lia).
    assert (Hk' : span_of p (n + p) K t (p + k)). { split; [lia|]. replace (p + k + 1) with (p + (k + 1)) by lia. rewrite !E by lia. split; [exact A2|]. split; [exact A3|]. destruct A4 as [A4|(-> & A4)]; [left; exact A4|]. right. split; [lia|]. replace (n + p + 1) with (p + (n + 1)) by lia. rewrite E by lia. exact A4. }
    rewrite (curve_point_span _ _ _ _ _ _ HU Hk), (curve_point_span _ _ _ _ _ _ HK Hk'). unfold span_curve. rewrite (comb_shift p (k - p) (k + 1)). replace (p + k - p) with (k - p + p) by lia. replace (p + k + 1) with (k + 1 + p) by lia. apply comb_ext. intros i Hi.
    split; [|replace i with (p + (i - p)) at 1 by lia; apply D1; lia]. replace i with (p + (i - p)) at 1 by lia. apply (NS_move (val K) (val U) k p p (i - p) t); [lia|]. intros j Hj. apply E. lia.
  - intros t Ht. assert (Hk : span_of p (n + p) K t p).
    { split; [lia|]. rewrite K1, K2, (low (p + 1 - p)) by lia. split; [lra|]. split; [lra|]. left. lra. }
    rewrite (curve_point_span _ _ _ _ _ _ HK Hk). unfold span_curve. set (s := ((t - (lo - L)) / L)%R). replace (taylor p g lo t) with (taylor p g lo (lo + (- L) * (1 - s))%R) by (f_equal; unfold s; field; lra). rewrite piece_eval.
    replace (p - p) with 0 by lia. apply co_ext. intros m. rewrite !co_comb. rewrite rsum_rev. apply rsum_ext. intros i Hi. replace (0 + (p + 1) - 1 - i) with (p - i) by lia. f_equal.
    + change (Nspan (val K) p (Z.to_nat p) (p - i) t) with (NS (val K) p p (p - i) t). rewrite <- bern_mirror by lia.
      rewrite (NS_local (val K) (fun j => if j <=? p then (lo - L)%R else lo) p t p); [|lia|].
      * pose proof (NS_bern (fun j => if j <=? p then (lo - L)%R else lo) (lo - L)%R lo p t ltac:(lra) ltac:(reflexivity) p ltac:(lia) ltac:(lia) (p - i)) as E. replace (p - p + (p - i)) with (p - i) in E by lia. rewrite E. f_equal. unfold s. f_equal. ring.
      * intros j Hj. destruct (Z.leb_spec j p); [apply K1; lia|rewrite K2 by lia; apply low; lia].
    + f_equal. destruct (Z.eq_dec i 0) as [->|].
      * replace (p - 0) with (p + 0) by lia. rewrite D1 by lia. rewrite tbp_0, G0. symmetry. apply proj_hom. pose proof (heavy_pos 0 ltac:(lia)). lra.
      * rewrite D2 by lia. replace (p - (p - i)) with i by lia. reflexivity.
Qed.

Lemma arr_cons {X} (x : X) l m f : arr l m f -> arr (x :: l) (m + 1) (fun j => if j <? 1 then x else f (j - 1)).
Proof. intros Al. change (x :: l) with ([x] ++ l). replace (m + 1) with (1 + m) by lia. apply (arr_app [x] l 1 m (fun _ => x) f); [|exact Al]. split; [reflexivity|]. intros i Hi. assert (i = 0) as -> by lia. reflexivity. Qed.

Lemma arr_tl (l : list R) m : 1 <= m -> len l = m -> arr (tl l) (m - 1) (fun j => val l (j + 1)).
Proof.
  intros Hm Hl. destruct l as [|x l]; [unfold len in Hl; cbn in Hl; lia|]. cbn [tl]. rewrite len_cons in Hl. split; [lia|]. intros i Hi. rewrite get_val by lia. f_equal.
  assert (E : get (x :: l) (i + 1) = get l i). { unfold get. destruct (Z.ltb_spec (i + 1) 0); [lia|]. destruct (Z.ltb_spec i 0); [lia|]. replace (Z.to_nat (i + 1)) with (S (Z.to_nat i)) by lia. reflexivity. }
  rewrite !get_val in E by (rewrite ?len_cons; lia). congruence.
Qed.

Lemma coeffs_ok t g D : in_domain p n U t -> (forall m, 0 <= m <= p -> get D m = Ok (g m)) ->
  returns (for_up 0 (p + 1)%Z ([], 1%R) (fun i '(coeffs, factorial) =>
        let factorial := if (0 <? i)%Z then (factorial * nofZ i)%num else factorial in
        let! d := get D i in
        let! a := xyz_div d factorial in
        Ok (coeffs ++ [a], factorial))) (fun s => arr (fst s) (p + 1) (tcoef g)).
Proof.
  intros Dt GD. apply wp_elim. apply wp_for_up with (P := fun i s => arr (fst s) i (tcoef g) /\ snd s = INR (fact (Z.to_nat (i - 1)))); [lia|split; [apply arr_nil|reflexivity]| |intros s (A & _); exact A].
  intros i [l f] Hi (Al & Ef). cbn [fst snd] in *. rewrite GD by lia. cbn [bind].
  assert (E : (if 0 <? i then (f * nofZ i)%num else f) = INR (fact (Z.to_nat i))).
  { destruct (Z.ltb_spec 0 i); [|assert (i = 0) as -> by lia; rewrite Ef; reflexivity]. num. rewrite Ef. replace (Z.to_nat i) with (S (Z.to_nat (i - 1))) by lia. rewrite fact_simpl, mult_INR. rewrite (INR_IZR_INZ (S (Z.to_nat (i - 1)))). replace (Z.of_nat (S (Z.to_nat (i - 1)))) with i by lia. ring. }
  cbv zeta. rewrite E. rewrite xyz_div_ok by apply INR_fact_neq_0. cbn [bind]. apply wp_ok. cbn [fst snd]. split; [apply arr_snoc; [exact Al|reflexivity]|]. f_equal. f_equal. lia.
Qed.

Lemma Extend_end delta : (tol delta 0 < delta)%R -> IsPeriodic c = Ok false -> exists g L K D, curve_derivs p n U H p hi g /\ (0 <= L)%R /\ Extend c delta false Ext_Natural = Ok (mkCurve p K D) /\
  len K = n + 2 * p + 2 /\ (forall j, 0 <= j <= n + p -> val K j = val U j) /\ (forall j, n + p < j <= n + 2 * p + 1 -> val K j = (hi + L)%R) /\
  len D = n + p + 1 /\ (forall j, 0 <= j <= n -> pt D j = pt H j) /\ (forall j, 1 <= j <= p -> pt D (n + j) = hom (tbp p L (tcoef g) j) (ww (pt H n))) /\ g 0 = proj (pt H n) /\
  (exists cs x, arr cs (p + 1) (tcoef g) /\ natural_step cs p delta (delta * 1)%R = Ok x /\ L = Rabs x).
Proof.
  intros Hd HP. pose proof HU as [Hp0 Hn Hl Hs Hf Hlst]. destruct (domain_ends p n U HU Hcl) as (E0 & E1). pose proof (last_dom p n U HU) as Dh.
  assert (Wt : (0 < ww (curve_point p n U H hi))%R) by (apply curve_weight; assumption).
  destruct (derivs_at p n U H hi HU Hp HH Dh ltac:(lra) 1 ltac:(lia)) as (g1 & D1 & _ & ED1 & GD1). fold c in ED1.
  destruct (derivs_at p n U H hi HU Hp HH Dh ltac:(lra) p ltac:(lia)) as (g & Dp & G & EDp & GDp). fold c in EDp.
  destruct (coeffs_ok hi g Dp Dh GDp) as (s & ES & As).
  destruct (natural_ok (fst s) p (tcoef g) delta (delta * 1)%R Hp1 As) as (x & EX).
  destruct (tbezier_ok (fst s) p (tcoef g) (Rabs x) (ww (pt H n)) ltac:(lia) As) as (B & EB & AB).
  assert (EP : returns (for_up 1 (p + 1)%Z H (fun i cps => let! y := get B i in Ok (cps ++ [y]))) (fun D => arr D (n + p + 1) (fun j => if j <=? n then pt H j else hom (tbp p (Rabs x) (tcoef g) (j - n)) (ww (pt H n))))).
  { apply wp_elim. apply wp_for_up with (P := fun i D => arr D (n + i) (fun j => if j <=? n then pt H j else hom (tbp p (Rabs x) (tcoef g) (j - n)) (ww (pt H n)))); [lia| | |].
    - rewrite <- HH. apply (arr_ext _ _ (pt H)); [apply arr_at|]. intros i Hi. destruct (Z.leb_spec i n); [reflexivity|lia].
    - intros i D Hi AD. wget AB. apply wp_ok. replace (n + (i + 1)) with (n + i + 1) by lia. apply arr_snoc; [exact AD|]. destruct (Z.leb_spec (n + i) n); [lia|]. replace (n + i - n) with i by lia. reflexivity.
    - intros D AD. replace (n + p + 1) with (n + (p + 1)) by lia. exact AD. }
  destruct EP as (D & ED & AD). destruct (pop_back_arr U (n + p + 1) (val U) ltac:(lia)) as (K0 & EK & AK). { replace (n + p + 1 + 1) with (len U) by lia. apply arr_at. }
  pose proof (arr_app K0 _ _ _ _ _ AK (arr_repeat (hi + Rabs x)%R (p + 1) ltac:(lia))) as AKK.
  exists g, (Rabs x), (K0 ++ repeat (hi + Rabs x)%R (Z.to_nat (p + 1))), D. split; [exact G|]. split; [apply Rabs_pos|]. split.
  - unfold Extend. assert (EL : IsLessThanOrEqual delta 0%R = false) by (apply le_false; rewrite <- tol_thr; lra). num. rewrite EL. rewrite HP. cbn [bind]. change (KnotVector c) with U. change (ControlPoints c) with H. change (Degree c) with p. rewrite E1. cbn [bind]. fold hi. rewrite ED1. cbn [bind]. rewrite !GD1 by lia. cbn [bind]. rewrite EDp. cbn [bind].
    num. etransitivity; [apply (f_equal (fun m => bind m _)), ES|]. cbn [bind]. rewrite EX. cbn [bind]. rewrite HH. replace (n + 1 - 1) with n by lia. rewrite (get_at vzero) by lia. cbn [bind]. fold (pt H n). rewrite EB. cbn [bind].
    rewrite ED. cbn [bind]. destruct (Z.ltb_spec p (len U)); [|lia]. rewrite EK. cbn [bind]. reflexivity.
  - split; [rewrite (arr_len _ _ _ AKK); lia|]. split; [intros j Hj; rewrite (arr_val _ _ _ j AKK) by lia; destruct (Z.ltb_spec j (n + p + 1)); [reflexivity|lia]|].
    split; [intros j Hj; rewrite (arr_val _ _ _ j AKK) by lia; destruct (Z.ltb_spec j (n + p + 1)); [lia|reflexivity]|].
    split; [apply (arr_len _ _ _ AD)|]. split; [intros j Hj; unfold pt; rewrite (arr_at_eq vzero _ _ _ j AD) by lia; destruct (Z.leb_spec j n); [reflexivity|lia]|].
    split; [intros j Hj; unfold pt; rewrite (arr_at_eq vzero _ _ _ (n + j) AD) by lia; destruct (Z.leb_spec (n + j) n); [lia|]; replace (n + j - n) with j by lia; reflexivity|].
    split; [|exists (fst s), x; split; [exact As|split; [exact EX|reflexivity]]].
    rewrite (deriv0 p n U H p hi g ltac:(lia) HU G Wt). unfold hi. rewrite curve_point_last by assumption. reflexivity.
Qed.

Lemma Extend_start delta : (tol delta 0 < delta)%R -> IsPeriodic c = Ok false -> exists g L K D, curve_derivs p n U H p lo g /\ (0 <= L)%R /\ Extend c delta true Ext_Natural = Ok (mkCurve p K D) /\
  len K = n + 2 * p + 2 /\ (forall j, 0 <= j <= p -> val K j = (lo - L)%R) /\ (forall j, p < j <= n + 2 * p + 1 -> val K j = val U (j - p)) /\
  len D = n + p + 1 /\ (forall j, 0 <= j <= n -> pt D (p + j) = pt H j) /\ (forall j, 0 <= j < p -> pt D j = hom (tbp p (- L) (tcoef g) (p - j)) (ww (pt H 0))) /\ g 0 = proj (pt H 0) /\
  (exists cs x, arr cs (p + 1) (tcoef g) /\ natural_step cs p delta (delta * Ropp 1)%R = Ok x /\ L = Rabs x).
Proof.
  intros Hd HP. pose proof HU as [Hp0 Hn Hl Hs Hf Hlst]. destruct (domain_ends p n U HU Hcl) as (E0 & E1). assert (Dh : in_domain p n U lo) by (split; [unfold lo; lra|apply Hs; lia]).
  assert (Wt : (0 < ww (curve_point p n U H lo))%R) by (apply curve_weight; assumption).
  destruct (derivs_at p n U H lo HU Hp HH Dh ltac:(lra) 1 ltac:(lia)) as (g1 & D1 & _ & ED1 & GD1). fold c in ED1.
  destruct (derivs_at p n U H lo HU Hp HH Dh ltac:(lra) p ltac:(lia)) as (g & Dp & G & EDp & GDp). fold c in EDp.
  destruct (coeffs_ok lo g Dp Dh GDp) as (s & ES & As).
  destruct (natural_ok (fst s) p (tcoef g) delta (delta * Ropp 1)%R Hp1 As) as (x & EX).
  destruct (tbezier_ok (fst s) p (tcoef g) (- Rabs x) (ww (pt H 0)) ltac:(lia) As) as (B & EB & AB).
  assert (EP : returns (for_up 1 (p + 1)%Z H (fun i cps => let! y := get B i in Ok (y :: cps))) (fun D => arr D (n + p + 1) (fun j => if j <? p then hom (tbp p (- Rabs x) (tcoef g) (p - j)) (ww (pt H 0)) else pt H (j - p)))).
  { apply wp_elim. apply wp_for_up with (P := fun i D => arr D (n + i) (fun j => if j <? i - 1 then hom (tbp p (- Rabs x) (tcoef g) (i - 1 - j)) (ww (pt H 0)) else pt H (j - (i - 1)))); [lia| | |].
    - rewrite <- HH. apply (arr_ext _ _ (pt H)); [apply arr_at|]. intros i Hi. destruct (Z.ltb_spec i (1 - 1)); [lia|]. f_equal. lia.
    - intros i D Hi AD. wget AB. apply wp_ok. replace (n + (i + 1)) with (n + i + 1) by lia. apply (arr_ext _ _ _ _ (arr_cons _ _ _ _ AD)). intros j Hj. destruct (Z.ltb_spec j 1), (Z.ltb_spec j (i + 1 - 1)); try lia.
      + assert (j = 0) as -> by lia. do 2 f_equal. lia.
      + destruct (Z.ltb_spec (j - 1) (i - 1)); [|lia]. do 2 f_equal. lia.
      + destruct (Z.ltb_spec (j - 1) (i - 1)); [lia|]. f_equal. lia.
    - intros D AD. replace (n + p + 1) with (n + (p + 1)) by lia. replace (p + 1 - 1) with p in AD by lia. exact AD. }
  destruct EP as (D & ED & AD). pose proof (arr_tl U (n + p + 2) ltac:(lia) Hl) as AK.
  pose proof (arr_app _ _ _ _ _ _ (arr_repeat (lo - Rabs x)%R (p + 1) ltac:(lia)) AK) as AKK.
  exists g, (Rabs x), (repeat (lo - Rabs x)%R (Z.to_nat (p + 1)) ++ tl U), D. split; [exact G|]. split; [apply Rabs_pos|]. split.
  - unfold Extend. assert (EL : IsLessThanOrEqual delta 0%R = false) by (apply le_false; rewrite <- tol_thr; lra). num. rewrite EL. rewrite HP. cbn [bind]. change (KnotVector c) with U. change (ControlPoints c) with H. change (Degree c) with p. rewrite E0. cbn [bind]. fold lo. rewrite ED1. cbn [bind]. rewrite !GD1 by lia. cbn [bind]. rewrite EDp. cbn [bind].
    num. etransitivity; [apply (f_equal (fun m => bind m _)), ES|]. cbn [bind]. rewrite EX. cbn [bind]. rewrite (get_at vzero) by lia. cbn [bind]. fold (pt H 0). rewrite EB. cbn [bind].
    rewrite ED. cbn [bind]. destruct (Z.ltb_spec p (len U)); [|lia]. reflexivity.
  - split; [rewrite (arr_len _ _ _ AKK); lia|]. split; [intros j Hj; rewrite (arr_val _ _ _ j AKK) by lia; destruct (Z.ltb_spec j (p + 1)); [reflexivity|lia]|].
    split; [intros j Hj; rewrite (arr_val _ _ _ j AKK) by lia; destruct (Z.ltb_spec j (p + 1)); [lia|f_equal; lia]|].
    split; [apply (arr_len _ _ _ AD)|]. split; [intros j Hj; unfold pt at 1; rewrite (arr_at_eq vzero _ _ _ (p + j) AD) by lia; destruct (Z.ltb_spec (p + j) p); [lia|f_equal; lia]|].
    split; [intros j Hj; unfold pt at 1; rewrite (arr_at_eq vzero _ _ _ j AD) by lia; destruct (Z.ltb_spec j p); [reflexivity|lia]|].
    split; [|exists (fst s), x; split; [exact As|split; [exact EX|reflexivity]]].
    rewrite (deriv0 p n U H p lo g ltac:(lia) HU G Wt). unfold lo. rewrite curve_point_first by assumption. reflexivity.
Qed.
End Ext.
