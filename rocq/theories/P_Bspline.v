(* B-spline curves: evaluation and derivatives. *)
From Coq Require Import ZArith List Bool Reals Lra Lia.
From Verif Require Import Base Num Vec Tac Spec M_MathUtils M_Polynomials M_Bspline
  P_MathUtils P_Bern P_Span P_Cox P_Basis P_Deriv P_Ders P_Curve P_VSum.
Import ListNotations.
Open Scope Z_scope.

(* derivatives of every order, also above the degree *)
Lemma ffac_zero p m : 0 <= p -> p < Z.of_nat m -> ffac p m = 0.
Proof.
  intros Hp. induction m as [|m IH]; intros H; [lia|]. cbn [ffac].
  destruct (Z.eq_dec p (Z.of_nat m)) as [->|]; [lia|]. rewrite IH by lia. lia.
Qed.

Lemma GN_above U k p i m t : 0 <= p < m -> GN U k p i m t = 0%R.
Proof. intros H. unfold GN. rewrite ffac_zero by lia. ring. Qed.

Lemma der_GN_all U k p i m t : 0 <= p -> 0 <= m -> good U k p ->
  der (fun x => GN U k p i m x) t (GN U k p i (m + 1) t).
Proof.
  intros Hp Hm Hg. destruct (Z_lt_dec m p); [apply der_GN; auto; lia|].
  rewrite (GN_above U k p i (m + 1)) by lia.
  destruct (Z.eq_dec m p) as [->|].
  - apply der_ext with (fun _ => GN U k p i p 0%R); [|apply der_const]. intros x. unfold GN, GS. f_equal.
    apply rsum_ext. intros j Hj. rewrite Z.sub_diag, !NS_0. reflexivity.
  - apply der_ext with (fun _ => 0%R); [|apply der_const]. intros x. rewrite GN_above by lia. reflexivity.
Qed.

Lemma GN_deriv_all U k p i m d : 0 <= p -> 0 <= m -> good U k p ->
  nth_deriv d (fun x => GN U k p i m x) (fun x => GN U k p i (m + Z.of_nat d) x).
Proof.
  intros Hp. revert m. induction d as [|d IH]; intros m Hm Hg; cbn [nth_deriv].
  - intros t. rewrite Z.add_0_r. reflexivity.
  - exists (fun x => GN U k p i (m + 1) x). split.
    + intros t. apply der_GN_all; auto.
    + replace (m + Z.of_nat (S d)) with (m + 1 + Z.of_nat d) by lia. apply IH; [lia|exact Hg].
Qed.

Lemma NS_nth_deriv_all U k p i d : 0 <= p -> 0 <= d -> good U k p ->
  nth_deriv (Z.to_nat d) (fun x => NS U k p i x) (fun x => GN U k p i d x).
Proof.
  intros Hp Hd Hg. apply nth_deriv_ext with (fun x => GN U k p i 0 x); [intros; apply GN_0|].
  pose proof (GN_deriv_all U k p i 0 (Z.to_nat d) Hp ltac:(lia) Hg) as D.
  replace (0 + Z.of_nat (Z.to_nat d)) with d in D by lia. exact D.
Qed.

Lemma domain_ok p n U t : curve_knots p n U -> in_domain p n U t -> validate_domain U t = Ok tt.
Proof.
  intros Hc Hd. pose proof (accepted_dom _ _ _ _ Hc Hd) as Ha. destruct Hc as [Hp Hn Hl _ _ _].
  unfold validate_domain. rewrite !(get_at 0%R) by lia. cbn [bind]. exact Ha.
Qed.

Section Spl.
Context {T : Type} {V : Vec R T} {L : VecL T}.

Lemma curve_point_span p n U (P : list T) t k : curve_knots p n U -> span_of p n U t k ->
  curve_point p n U P t = span_curve k p U P t.
Proof.
  intros Hc Hk. pose proof Hc as [Hp Hn Hl _ _ _]. pose proof Hk as (Hkn & _). unfold curve_point, span_curve.
  rewrite (comb_ext 0 (n + 1) _ (fun i => NS (val U) k p i t) (pt P) (pt P)).
  2:{ intros i Hi. split; [|reflexivity]. apply (NB_span p n U t k p i); auto; lia. }
  apply comb_restrict; try lia. intros i Hi Ho. apply NS_out; lia.
Qed.

Lemma GetPointOnCurve_span p n U (P : list T) t k : curve_knots p n U -> p <= 7 -> len P = n + 1 -> span_of p n U t k ->
  GetPointOnCurve (mkCurve p U P) t = Ok (span_curve k p U P t).
Proof.
  intros Hc Hp7 HP Hk. pose proof (span_of_dom _ _ _ _ _ Hc Hk) as Hd. pose proof Hc as [Hp Hn Hl _ _ _].
  unfold GetPointOnCurve. cbn [Degree KnotVector ControlPoints]. rewrite (domain_ok p n U t Hc Hd). cbn [bind].
  rewrite (find_span_eq p n U t k Hc Hk). cbn [bind].
  destruct (wp_elim _ _ (BasisFunctions_ok U p k t (span_of_ok _ _ _ _ _ Hc Hk) Hp7 (accepted_dom _ _ _ _ Hc Hd))) as (l & -> & Hla).
  cbn [bind]. pose proof (arr_pt P _ HP) as HPa. pose proof Hk as (Hkn & _).
  rewrite (acc_loop0 0 (p + 1) (fun i => vscale (NS (val U) k p (k - p + i) t) (pt P (k - p + i)))); [|lia|].
  - f_equal. unfold span_curve. rewrite (comb_shift (- (k - p))). unfold comb.
    replace (k - p + - (k - p)) with 0 by lia. replace (k + 1 + - (k - p)) with (p + 1) by lia.
    apply vsum_ext. intros i Hi. replace (i - - (k - p)) with (k - p + i) by lia. reflexivity.
  - intros i x Hi. rewrite (getu_arrD _ _ _ _ i Hla) by lia. cbn [bind]. wget HPa. reflexivity.
Qed.

Lemma GetPointOnCurve_ok p n U (P : list T) t : curve_knots p n U -> p <= 7 -> len P = n + 1 -> in_domain p n U t ->
  GetPointOnCurve (mkCurve p U P) t = Ok (curve_point p n U P t).
Proof.
  intros Hc Hp7 HP Hd. destruct (find_span p n U t Hc Hd) as (k & _ & Hk).
  rewrite (curve_point_span p n U P t k Hc Hk). apply (GetPointOnCurve_span p n); auto.
Qed.

(* only the p+1 active control points matter *)
Lemma GetPointOnCurve_local p n U (P Q : list T) t k : curve_knots p n U -> p <= 7 -> len P = n + 1 -> len Q = n + 1 ->
  span_of p n U t k -> (forall i, k - p <= i <= k -> pt P i = pt Q i) ->
  GetPointOnCurve (mkCurve p U P) t = GetPointOnCurve (mkCurve p U Q) t.
Proof.
  intros Hc Hp7 HP HQ Hk H. rewrite !(GetPointOnCurve_span p n U _ t k) by auto. f_equal.
  unfold span_curve. apply comb_ext. intros i Hi. split; [reflexivity|]. apply H. lia.
Qed.

(* ---------------- derivatives ---------------- *)

Definition dcurve (k p : Z) (U : list R) (P : list T) (m : Z) (t : R) : T :=
  comb (k - p) (k + 1) (fun i => GN (val U) k p i m t) (pt P).

Lemma dcurve_above k p U (P : list T) m t : 0 <= p < m -> dcurve k p U P m t = vzero.
Proof.
  intros H. apply co_ext. intros c. unfold dcurve. rewrite co_comb, co_zero. apply rsum_zero.
  intros i Hi. rewrite GN_above by lia. ring.
Qed.

Lemma dcurve_deriv k p U (P : list T) m : 0 <= p -> 0 <= m -> good (val U) k p ->
  vderiv m (span_curve k p U P) (dcurve k p U P m).
Proof.
  intros Hp Hm Hg c. unfold span_curve, dcurve.
  eapply nth_deriv_ext; [intros t; symmetry; apply co_comb|].
  eapply nth_deriv_ext_r; [intros t; symmetry; apply co_comb|].
  apply (nth_deriv_rsum (Z.to_nat m) (k - p) (k + 1) (fun i t => Nspan (val U) k (Z.to_nat p) i t) (fun i t => GN (val U) k p i m t) (fun i => co c (pt P i))).
  intros i Hi. apply (NS_nth_deriv_all (val U) k p i m); auto.
Qed.

Lemma ComputeDerivatives_span p n U (P : list T) t k d : curve_knots p n U -> p <= 7 -> len P = n + 1 -> span_of p n U t k -> 0 < d ->
  wp (ComputeDerivatives (mkCurve p U P) d t) (fun l => arr l (d + 1) (fun m => dcurve k p U P m t)).
Proof.
  intros Hc Hp7 HP Hk Hd0. pose proof (span_of_dom _ _ _ _ _ Hc Hk) as Hd. pose proof Hc as [Hp Hn Hl _ _ _].
  unfold ComputeDerivatives. cbn [Degree KnotVector ControlPoints]. wval. rewrite (domain_ok p n U t Hc Hd). cbn [bind].
  apply wp_bind. apply wp_mkvec; [lia|]. intros l0 Hl0. rewrite (find_span_eq p n U t k Hc Hk). cbn [bind].
  destruct (wp_elim _ _ (BasisFunctionsDerivatives_ok U p k (Z.min d p) t (span_of_ok _ _ _ _ _ Hc Hk) Hp7 ltac:(lia) (accepted_dom _ _ _ _ Hc Hd))) as (B & -> & HB).
  cbn [bind]. pose proof (arr_pt P _ HP) as HPa. pose proof Hk as (Hkn & _).
  apply wp_for_up with (P := fun a l => arr l (d + 1) (fun m => if m <? a then dcurve k p U P m t else vzero)); [lia| | |].
  - eapply arr_ext; [exact Hl0|]. intros m Hm. zcase; [lia|reflexivity].
  - intros a l Ha Hla.
    apply (acc_arr 0 (p + 1) a (d + 1) l _ (fun j => vscale (GN (val U) k p (k - p + j) a t) (pt P (k - p + j))) _ _ ltac:(lia) Hla ltac:(lia)).
    + intros j l' Hj. wget HB. wget HPa. reflexivity.
    + intros l' Hl'. eapply arr_ext; [exact Hl'|]. intros m Hm. cbv beta.
      destruct (Z.eqb_spec m a) as [->|]; [|zcase; try lia; reflexivity].
      destruct (Z.ltb_spec a a); [lia|]. destruct (Z.ltb_spec a (a + 1)); [|lia]. rewrite vadd_0_l.
      unfold dcurve. rewrite (comb_shift (- (k - p))). unfold comb.
      replace (k - p + - (k - p)) with 0 by lia. replace (k + 1 + - (k - p)) with (p + 1) by lia.
      apply vsum_ext. intros i Hi. replace (i - - (k - p)) with (k - p + i) by lia. reflexivity.
  - intros l Hl'. eapply arr_ext; [exact Hl'|]. intros m Hm. zcase; [reflexivity|]. symmetry. apply dcurve_above. lia.
Qed.

Lemma ComputeDerivatives_ok p n U (P : list T) t d : curve_knots p n U -> p <= 7 -> len P = n + 1 -> in_domain p n U t -> 0 < d ->
  returns (ComputeDerivatives (mkCurve p U P) d t) (fun D => len D = d + 1 /\
    exists k, span_of p n U t k /\ forall m, 0 <= m <= d ->
      exists G, vderiv m (span_curve k p U P) G /\ get D m = Ok (G t) /\ (p < m -> G t = vzero)).
Proof.
  intros Hc Hp7 HP Hd Hd0. destruct (find_span p n U t Hc Hd) as (k & _ & Hk). pose proof Hc as [Hp _ _ _ _ _].
  destruct (wp_elim _ _ (ComputeDerivatives_span p n U P t k d Hc Hp7 HP Hk Hd0)) as (D & E & HD).
  exists D. split; [exact E|]. split; [apply HD|]. exists k. split; [exact Hk|]. intros m Hm.
  exists (dcurve k p U P m). split; [|split].
  - apply dcurve_deriv; [lia|lia|]. apply span_good. eapply span_of_ok; eauto.
  - rewrite (arr_get _ _ _ _ HD) by lia. reflexivity.
  - intros H. apply dcurve_above. lia.
Qed.

(* ---------------- derivative control points ---------------- *)

Lemma dpt_succ U p P m i : 0 < m -> dpt U p P (Z.to_nat m) i =
  vscale (IZR (p - m + 1) / (U (i + p + 1)%Z - U (i + m)%Z))%R (vsub (dpt U p P (Z.to_nat (m - 1)) (i + 1)) (dpt U p P (Z.to_nat (m - 1)) i)).
Proof.
  intros H. replace (Z.to_nat m) with (S (Z.to_nat (m - 1))) by lia. cbn [dpt].
  replace (p - Z.of_nat (Z.to_nat (m - 1))) with (p - m + 1) by lia.
  replace (i + Z.of_nat (S (Z.to_nat (m - 1)))) with (i + m) by lia. reflexivity.
Qed.

Lemma DerivativePoints_ok p U (P : list T) d lo hi : 0 <= p -> 0 < d -> 0 <= lo <= hi -> hi < len P -> hi + p < len U ->
  (forall m i, 1 <= m <= d -> lo <= i <= hi - m -> val U (i + p + 1) <> val U (i + m)) ->
  d <= p + 1 ->
  wp (ComputeControlPointsOfDerivatives (mkCurve p U P) d lo hi)
     (fun PK => arr2 PK (d + 1) (hi - lo + 1) (fun m i => if i <=? hi - lo - m then dpt (val U) p (pt P) (Z.to_nat m) (lo + i) else vzero)).
Proof.
  intros Hp Hd Hlo Hhi HU Hne Hdp. unfold ComputeControlPointsOfDerivatives. cbn [Degree KnotVector ControlPoints]. wval.
  apply wp_bind. unfold validate_int_range. apply wp_validate.
  { destruct (Z.ltb_spec lo 0); [lia|]. destruct (Z.ltb_spec hi lo); [lia|reflexivity]. }
  apply wp_bind. apply wp_mkvec; [lia|]. intros row Hrow. apply wp_bind. eapply wp_mkvec2; [lia|exact Hrow|].
  intros PK0 HPK0. pose proof (arr_pt P _ eq_refl) as HPa. pose proof (arr_val U) as HUa.
  set (F := fun m i => if i <=? hi - lo - m then dpt (val U) p (pt P) (Z.to_nat m) (lo + i) else vzero).
  apply wp_bind.
  apply wp_for_up with (P := fun a PK => arr2 PK (d + 1) (hi - lo + 1) (fun m i => if (m <? 1) && (i <? a) then F m i else vzero)); [lia| | |].
  - eapply arr2_ext; [exact HPK0|]. intros m i Hm Hi. zcase; try lia; reflexivity.
  - intros i PK Hi HPK. wget HPa. wupd HPK. intros PK' HPK'. eapply arr2_ext; [exact HPK'|].
    intros m j Hm Hj. cbv beta. destruct (Z.eqb_spec m 0) as [->|]; destruct (Z.eqb_spec j i) as [->|]; cbn [andb]; try (zcase; try lia; reflexivity).
    destruct (Z.ltb_spec 0 1); [|lia]. destruct (Z.ltb_spec i (i + 1)); [|lia]. cbn [andb]. unfold F. destruct (Z.leb_spec i (hi - lo - 0)); [|lia]. reflexivity.
  - intros PK1 HPK1.
    apply wp_for_up with (P := fun a PK => arr2 PK (d + 1) (hi - lo + 1) (fun m i => if m <? a then F m i else vzero)); [lia| | |].
    + eapply arr2_ext; [exact HPK1|]. intros m i Hm Hi. zcase; try lia; reflexivity.
    + intros a PK Ha HPK. destruct (Z.le_gt_cases 0 (hi - lo - a + 1)) as [Hr|Hr].
      2:{ rewrite for_up_nil by lia. eapply arr2_ext; [exact HPK|]. intros m i Hm Hi. unfold F. zcase; try lia; reflexivity. }
      apply wp_for_up with (P := fun b PK => arr2 PK (d + 1) (hi - lo + 1) (fun m i => if (m <? a) || ((m =? a) && (i <? b)) then F m i else vzero)); [lia| | |].
      * eapply arr2_ext; [exact HPK|]. intros m i Hm Hi. zcase; try lia; reflexivity.
      * intros b PK' Hb HPK'. wget HPK'. wget HPK'. wget HUa. wget HUa. num. cbv beta.
        replace (lo + b + p + 1) with (lo + b + p + 1) by lia.
        rewrite vdiv_ok by (specialize (Hne a (lo + b) ltac:(lia) ltac:(lia)); lra). cbn [bind].
        destruct (Z.ltb_spec (a - 1) a); [|lia]. cbn [orb].
        wupd HPK'. intros PK'' HPK''. eapply arr2_ext; [exact HPK''|]. intros m i Hm Hi. cbv beta.
        destruct (Z.eqb_spec m a) as [->|]; destruct (Z.eqb_spec i b) as [->|]; cbn [andb orb]; try (zcase; try lia; reflexivity).
        destruct (Z.ltb_spec a a); [lia|]. destruct (Z.ltb_spec b (b + 1)); [|lia]. cbn [orb andb].
        unfold F. destruct (Z.leb_spec b (hi - lo - a)); [|lia]. destruct (Z.leb_spec b (hi - lo - (a - 1))); [|lia].
        destruct (Z.leb_spec (b + 1) (hi - lo - (a - 1))); [|lia].
        rewrite (dpt_succ (val U) p (pt P) a) by lia. replace (lo + b + 1) with (lo + (b + 1)) by lia.
        specialize (Hne a (lo + b) ltac:(lia) ltac:(lia)). vec. field. lra.
      * intros PK' HPK'. eapply arr2_ext; [exact HPK'|]. intros m i Hm Hi. cbv beta.
        destruct (Z.eqb_spec m a) as [->|]; cbn [andb]; [|zcase; try lia; reflexivity].
        destruct (Z.ltb_spec a a); [lia|]. destruct (Z.ltb_spec a (a + 1)); [|lia]. cbn [orb].
        unfold F. zcase; try lia; reflexivity.
    + intros PK HPK. eapply arr2_ext; [exact HPK|]. intros m i Hm Hi. zcase; [reflexivity|lia].
Qed.

(* the derivative curve in terms of the derivative points *)
Definition dcurve2 (k p : Z) (U : Z -> R) (P : Z -> T) (m : Z) (t : R) : T :=
  comb (k - p) (k - m + 1) (fun i => NS U k (p - m) (i + m) t) (fun i => dpt U p P (Z.to_nat m) i).

Lemma dcurve2_der k p U P m t c : 0 <= m < p -> good U k p ->
  der (fun x => co c (dcurve2 k p U P m x)) t (co c (dcurve2 k p U P (m + 1) t)).
Proof.
  intros Hm Hg. apply der_ext with (fun x => rsum (k - p) (k - m + 1) (fun i => NS U k (p - m) (i + m) x * co c (dpt U p P (Z.to_nat m) i))%R).
  { intros x. unfold dcurve2. rewrite co_comb. reflexivity. }
  eapply der_eq.
  2:{ apply der_rsum with (g := fun i => (dNS U k (p - m) (i + m) t * co c (dpt U p P (Z.to_nat m) i))%R).
      intros i Hi. apply der_scal_r. apply der_NS; [lia|]. apply (good_le U k p); [exact Hg|lia]. }
  unfold dcurve2. rewrite co_comb.
  set (q := p - m). set (Q := fun i => co c (dpt U p P (Z.to_nat m) i)).
  (* sum by parts *)
  rewrite (rsum_ext _ _ _ (fun i => IZR q * (NS U k (q - 1) (i + m) t * inv0 (U (i + p)%Z - U (i + m)%Z) * Q i) -
      IZR q * (NS U k (q - 1) (i + m + 1) t * inv0 (U (i + p + 1)%Z - U (i + m + 1)%Z) * Q i))%R).
  2:{ intros i Hi. unfold dNS. fold q. replace (i + m + q) with (i + p) by (unfold q; lia). unfold Q. ring. }
  rewrite rsum_minus, !rsum_scal.
  rewrite (rsum_first (k - p) (k - m + 1)) by lia.
  rewrite (NS_out U k (q - 1) (k - p + m)) by (unfold q; lia).
  rewrite (rsum_last (k - p) (k - m) (fun i => NS U k (q - 1) (i + m + 1) t * inv0 (U (i + p + 1)%Z - U (i + m + 1)%Z) * Q i)%R) by lia.
  rewrite (NS_out U k (q - 1) (k - m + m + 1)) by (unfold q; lia).
  rewrite (rsum_shift (-1) (k - p + 1) (k - m + 1)).
  replace (k - p + 1 + -1) with (k - p) by lia. replace (k - m + 1 + -1) with (k - m) by lia.
  replace (k - (m + 1) + 1) with (k - m) by lia.
  rewrite !Rmult_0_l, Rplus_0_l, Rplus_0_r, <- Rmult_minus_distr_l, <- rsum_minus, <- rsum_scal.
  apply rsum_ext. intros i Hi. replace (i - -1) with (i + 1) by lia.
  rewrite (dpt_succ U p P (m + 1)) by lia. replace (m + 1 - 1) with m by lia. rewrite co_scale, co_sub.
  fold (Q (i + 1)). fold (Q i). replace (p - (m + 1)) with (q - 1) by (unfold q; lia).
  replace (i + 1 + m) with (i + (m + 1)) by lia. replace (i + m + 1) with (i + (m + 1)) by lia.
  replace (i + 1 + p) with (i + p + 1) by lia. replace (q - 1 + 1) with q by lia.
  pose proof (good_den U k p (i + (m + 1)) (i + p + 1) Hg ltac:(lia) ltac:(lia) ltac:(lia) ltac:(lia)).
  unfold inv0. rewrite sdiv_ok by lra. generalize (NS U k (q - 1) (i + (m + 1)) t) (Q (i + 1)) (Q i). intros. field. lra.
Qed.

Lemma dcurve2_deriv k p U (P : list T) m : 0 <= m <= p -> good (val U) k p ->
  vderiv m (span_curve k p U P) (dcurve2 k p (val U) (pt P) m).
Proof.
  intros Hm Hg c. revert m Hm.
  assert (W : forall d, Z.of_nat d <= p -> nth_deriv d (fun t => co c (span_curve k p U P t)) (fun t => co c (dcurve2 k p (val U) (pt P) (Z.of_nat d) t))).
  { induction d as [|d IH]; intros Hd.
    - intros t. unfold span_curve, dcurve2. f_equal. replace (k - Z.of_nat 0 + 1) with (k + 1) by lia. apply comb_ext.
      intros i Hi. split; [|reflexivity]. replace (p - Z.of_nat 0) with p by lia. replace (i + Z.of_nat 0) with i by lia. reflexivity.
    - eapply nth_deriv_S_r; [apply IH; lia|]. intros t. replace (Z.of_nat (S d)) with (Z.of_nat d + 1) by lia.
      apply dcurve2_der; [lia|exact Hg]. }
  intros m Hm. specialize (W (Z.to_nat m) ltac:(lia)). replace (Z.of_nat (Z.to_nat m)) with m in W by lia. exact W.
Qed.

Lemma vderiv_unique m (f g g' : R -> T) : vderiv m f g -> vderiv m f g' -> forall t, g t = g' t.
Proof. intros H H' t. apply co_ext. intros c. exact (nth_deriv_unique _ _ _ _ (H c) (H' c) t). Qed.

Lemma dcurve_eq k p U (P : list T) m t : 0 <= m <= p -> good (val U) k p ->
  dcurve k p U P m t = dcurve2 k p (val U) (pt P) m t.
Proof.
  intros Hm Hg. apply (vderiv_unique m (span_curve k p U P)); [apply dcurve_deriv|apply dcurve2_deriv]; auto; lia.
Qed.

Lemma ByAllBasis_span p n U (P : list T) t k d : curve_knots p n U -> 1 <= p <= 7 -> len P = n + 1 -> span_of p n U t k -> 0 < d ->
  wp (ComputeDerivativesByAllBasisFunctions (mkCurve p U P) d t) (fun l => arr l (d + 1) (fun m => dcurve k p U P m t)).
Proof.
  intros Hc Hp7 HP Hk Hd0. pose proof (span_of_dom _ _ _ _ _ Hc Hk) as Hd. pose proof Hc as [Hp Hn Hl _ _ _].
  pose proof (span_of_ok _ _ _ _ _ Hc Hk) as Hso. pose proof (span_good _ _ _ Hso) as Hg.
  unfold ComputeDerivativesByAllBasisFunctions. cbn [Degree KnotVector ControlPoints]. wval. rewrite (domain_ok p n U t Hc Hd). cbn [bind].
  apply wp_bind. apply wp_mkvec; [lia|]. intros l0 Hl0. rewrite (find_span_eq p n U t k Hc Hk). cbn [bind].
  destruct (wp_elim _ _ (AllBasisFunctions_ok U p k t Hso ltac:(lia) (accepted_dom _ _ _ _ Hc Hd))) as (B & -> & HB). cbn [bind].
  pose proof Hk as (Hkn & _).
  destruct (wp_elim _ _ (DerivativePoints_ok p U P (Z.min d p) (k - p) k Hp ltac:(lia) ltac:(lia) ltac:(lia) ltac:(lia)
    ltac:(intros m i Hm Hi; pose proof (good_den (val U) k p (i + m) (i + p + 1) Hg ltac:(lia) ltac:(lia) ltac:(lia) ltac:(lia)); lra) ltac:(lia))) as (PK & -> & HPK).
  cbn [bind]. replace (k - (k - p)) with p in HPK by lia.
  apply wp_for_up with (P := fun a l => arr l (d + 1) (fun m => if m <? a then dcurve k p U P m t else vzero)); [lia| | |].
  - eapply arr_ext; [exact Hl0|]. intros m Hm. zcase; [lia|reflexivity].
  - intros a l Ha Hla.
    apply (acc_arr 0 (p - a + 1) a (d + 1) l _ (fun j => vscale (NS (val U) k (p - a) (k - (p - a) + j) t) (dpt (val U) p (pt P) (Z.to_nat a) (k - p + j))) _ _ ltac:(lia) Hla ltac:(lia)).
    + intros j l' Hj. wget HB. wget HPK. cbv beta. unfold ndu_fn.
      destruct (Z.leb_spec j (p - a)); [|lia]. reflexivity.
    + intros l' Hl'. eapply arr_ext; [exact Hl'|]. intros m Hm. cbv beta.
      destruct (Z.eqb_spec m a) as [->|]; [|zcase; try lia; reflexivity].
      destruct (Z.ltb_spec a a); [lia|]. destruct (Z.ltb_spec a (a + 1)); [|lia]. rewrite vadd_0_l.
      rewrite dcurve_eq by (auto; lia). unfold dcurve2. rewrite (comb_shift (- (k - p))). unfold comb.
      replace (k - p + - (k - p)) with 0 by lia. replace (k - a + 1 + - (k - p)) with (p - a + 1) by lia.
      apply vsum_ext. intros i Hi. replace (i - - (k - p) + a) with (k - (p - a) + i) by lia.
      replace (i - - (k - p)) with (k - p + i) by lia. reflexivity.
  - intros l Hl'. eapply arr_ext; [exact Hl'|]. intros m Hm. zcase; [reflexivity|]. symmetry. apply dcurve_above. lia.
Qed.

Lemma ByAllBasis_same p n U (P : list T) t d : curve_knots p n U -> 1 <= p <= 7 -> len P = n + 1 -> in_domain p n U t -> 0 < d ->
  returns (ComputeDerivatives (mkCurve p U P) d t) (fun D => ComputeDerivativesByAllBasisFunctions (mkCurve p U P) d t = Ok D).
Proof.
  intros Hc Hp7 HP Hd Hd0. destruct (find_span p n U t Hc Hd) as (k & _ & Hk).
  destruct (wp_elim _ _ (ComputeDerivatives_span p n U P t k d Hc ltac:(lia) HP Hk Hd0)) as (D & E & HD).
  destruct (wp_elim _ _ (ByAllBasis_span p n U P t k d Hc Hp7 HP Hk Hd0)) as (D' & E' & HD').
  exists D. split; [exact E|]. rewrite E'. f_equal. eapply arr_inj; eauto.
Qed.

(* ---------------- clamped curves ---------------- *)
Lemma NS_left U k p i : 0 <= p -> good U k p -> (forall j, k - p <= j <= k -> U j = U k) ->
  NS U k p i (U k) = if i =? k - p then 1%R else 0%R.
Proof.
  intros Hp. revert p Hp i.
  apply (Zrange_ind 0 (fun p => forall i, good U k p -> (forall j, k - p <= j <= k -> U j = U k) -> NS U k p i (U k) = if i =? k - p then 1%R else 0%R)).
  - intros i _ _. rewrite NS_0, Z.sub_0_r. reflexivity.
  - intros p Hp IH i Hg He. destruct (Z_lt_dec i (k - (p + 1))); [rewrite NS_out by lia; zcase; [lia|reflexivity]|].
    destruct (Z_lt_dec k i); [rewrite NS_out by lia; zcase; [lia|reflexivity]|].
    rewrite NS_succ by lia. replace (p + 1 - 1) with p by lia.
    rewrite !IH by (try (apply (good_le U k (p + 1)); [exact Hg|lia]); intros; apply He; lia).
    assert (E : U i = U k) by (apply He; lia). rewrite E.
    replace (U k - U k)%R with 0%R by ring.
    destruct (Z.eqb_spec i (k - (p + 1))) as [->|].
    + destruct (Z.eqb_spec (k - (p + 1)) (k - p)); [lia|]. destruct (Z.eqb_spec (k - (p + 1) + 1) (k - p)); [|lia].
      replace (k - (p + 1) + (p + 1) + 1) with (k + 1) by lia. rewrite (He (k - (p + 1) + 1)) by lia.
      destruct Hg as [Hg _]. rewrite (sdiv_ok (U (k + 1)%Z - U k)%R) by lra. field. lra.
    + destruct (Z.eqb_spec (i + 1) (k - p)); [lia|].
      assert (S : sdiv 0 (U (i + (p + 1))%Z - U k) = 0%R) by (unfold sdiv; destruct (Req_EM_T _ _); [reflexivity|field; auto]).
      rewrite S. ring.
Qed.

Lemma NS_right U k p i : 0 <= p -> good U k p -> (forall j, k + 1 <= j <= k + p + 1 -> U j = U (k + 1)) ->
  NS U k p i (U (k + 1)) = if i =? k then 1%R else 0%R.
Proof.
  intros Hp. revert p Hp i.
  apply (Zrange_ind 0 (fun p => forall i, good U k p -> (forall j, k + 1 <= j <= k + p + 1 -> U j = U (k + 1)) -> NS U k p i (U (k + 1)) = if i =? k then 1%R else 0%R)).
  - intros i _ _. rewrite NS_0. reflexivity.
  - intros p Hp IH i Hg He. destruct (Z_lt_dec i (k - (p + 1))); [rewrite NS_out by lia; zcase; [lia|reflexivity]|].
    destruct (Z_lt_dec k i); [rewrite NS_out by lia; zcase; [lia|reflexivity]|].
    rewrite NS_succ by lia. replace (p + 1 - 1) with p by lia.
    rewrite !IH by (try (apply (good_le U k (p + 1)); [exact Hg|lia]); intros; apply He; lia).
    assert (E : U (i + (p + 1) + 1) = U (k + 1)) by (apply He; lia). rewrite E.
    replace (U (k + 1)%Z - U (k + 1)%Z)%R with 0%R by ring.
    destruct (Z.eqb_spec i k) as [->|].
    + destruct (Z.eqb_spec (k + 1) k); [lia|]. rewrite (He (k + (p + 1))) by lia.
      destruct Hg as [Hg _]. rewrite (sdiv_ok (U (k + 1)%Z - U k)%R) by lra. field. lra.
    + assert (S : sdiv 0 (U (k + 1)%Z - U (i + 1)%Z) = 0%R) by (unfold sdiv; destruct (Req_EM_T _ _); [reflexivity|field; auto]).
      rewrite S. ring.
Qed.

Lemma clamped_ends p n U (P : list T) : curve_knots p n U -> p <= 7 -> len P = n + 1 ->
  ((forall i, 0 <= i <= p -> val U i = val U 0) -> GetPointOnCurve (mkCurve p U P) (val U 0) = Ok (pt P 0)) /\
  ((forall i, n + 1 <= i <= n + p + 1 -> val U i = val U (n + p + 1)) ->
     GetPointOnCurve (mkCurve p U P) (val U (n + p + 1)) = Ok (pt P n)).
Proof.
  intros Hc Hp7 HP. pose proof Hc as [Hp Hn Hl Hs H1 H2]. pose proof (tol_pos (val U p) (val U (p + 1))). pose proof (tol_pos (val U n) (val U (n + 1))).
  split; intros He.
  - assert (Hk : span_of p n U (val U 0) p).
    { split; [lia|]. split; [lra|]. rewrite (He p) in * by lia. split; [lra|]. left. lra. }
    rewrite (GetPointOnCurve_span p n U P _ p) by auto. f_equal. unfold span_curve.
    rewrite <- (He p) by lia. replace (p - p) with 0 by lia. unfold comb.
    pose proof (NS_left (val U) p p) as NL. unfold NS in NL.
    rewrite (vsum_single 0 (p + 1) 0); [|lia|].
    + rewrite NL; [|lia|apply span_good; eapply span_of_ok; eauto|intros; transitivity (val U 0); [|symmetry]; apply He; lia].
      rewrite Z.sub_diag, Z.eqb_refl. vring.
    + intros i Hi Hne. rewrite NL; [|lia|apply span_good; eapply span_of_ok; eauto|intros; transitivity (val U 0); [|symmetry]; apply He; lia].
      destruct (Z.eqb_spec i (p - p)); [lia|]. vring.
  - assert (Hk : span_of p n U (val U (n + p + 1)) n).
    { rewrite <- (He (n + 1)) by lia. split; [lia|]. split; [lra|]. split; [lra|]. right. auto. }
    rewrite (GetPointOnCurve_span p n U P _ n) by auto. f_equal. unfold span_curve.
    rewrite <- (He (n + 1)) by lia. unfold comb.
    pose proof (NS_right (val U) n p) as NL. unfold NS in NL.
    rewrite (vsum_single (n - p) (n + 1) n); [|lia|].
    + rewrite NL; [|lia|apply span_good; eapply span_of_ok; eauto|intros; transitivity (val U (n + p + 1)); [|symmetry]; apply He; lia].
      rewrite Z.eqb_refl. vring.
    + intros i Hi Hne. rewrite NL; [|lia|apply span_good; eapply span_of_ok; eauto|intros; transitivity (val U (n + p + 1)); [|symmetry]; apply He; lia].
      destruct (Z.eqb_spec i n); [lia|]. vring.
Qed.

Lemma curve_hull p n U (P : list T) t k f c : curve_knots p n U -> p <= 7 -> len P = n + 1 -> span_of p n U t k ->
  affine f -> (forall i, k - p <= i <= k -> (c <= f (pt P i))%R) ->
  returns (GetPointOnCurve (mkCurve p U P) t) (fun x => (c <= f x)%R).
Proof.
  intros Hc Hp7 HP Hk Hf Hb. eexists. split; [apply (GetPointOnCurve_span p n); eauto|].
  pose proof (span_good _ _ _ (span_of_ok _ _ _ _ _ Hc Hk)) as Hg. destruct Hc as [Hp _ _ _ _ _].
  apply hull_comb; [exact Hf|apply (NS_sum (val U) k p t Hp Hg)| |intros i Hi; apply Hb; lia].
  intros i Hi. apply (NS_nonneg (val U) k p i t Hp Hg). destruct Hk as (_ & H2 & H3 & H4). split; [lra|]. destruct H4 as [H4|[-> ->]]; lra.
Qed.
End Spl.

Lemma curve_affine {T T' : Type} {V : Vec R T} {L : VecL T} {V' : Vec R T'} {L' : VecL T'} (f : T -> T') p n U (P : list T) t :
  curve_knots p n U -> p <= 7 -> len P = n + 1 -> in_domain p n U t -> affine f ->
  returns (GetPointOnCurve (mkCurve p U P) t) (fun x => GetPointOnCurve (mkCurve p U (map f P)) t = Ok (f x)).
Proof.
  intros Hc Hp7 HP Hd Hf. eexists. split; [apply (GetPointOnCurve_ok p n); auto|].
  rewrite (GetPointOnCurve_ok p n) by (auto; unfold len in *; rewrite map_length; exact HP). f_equal. unfold curve_point at 2.
  rewrite (affine_comb f) by (auto; apply N_sum; auto). apply comb_ext. intros i Hi. split; [reflexivity|].
  unfold pt, at_. unfold len in HP. rewrite (nth_indep _ vzero (f vzero)) by (rewrite map_length; lia). apply map_nth.
Qed.
