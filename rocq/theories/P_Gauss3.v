(* The rule of Gauss and Legendre: lengths of curves, bounds, the tables. *)
From Coq Require Import ZArith List Bool Reals Lra Lia.
From Verif Require Import Base Num Vec Tac Spec Spec2 Spec3 Spec4 Spec5 Spec8 Spec10 Spec12 Spec27 M_MathUtils M_XYZ M_Bspline M_NurbsCurve M_Curve2 M_Geom M_Surface M_Curve4 M_Area M_Gauss
  P_MathUtils P_XYZ P_Vec P_VSum P_Curve P_Bspline P_Refine P_Insert2 P_BsplineS P_Geom P_Decomp P_Shape P_Surf6 P_Surf7 P_RSurf2 P_Area2 P_Length P_SDec2 P_Gauss P_Gauss2.
From Verif Require P_Interp.
Import ListNotations.
Open Scope Z_scope.

Section C.
Variables (ab we : list R).
Hypothesis Hab : forall k, 0 <= k < len ab -> (-1 < val ab k < 1)%R.
Hypothesis Hwe : len we = len ab.
Variables (p n : Z) (U : list R) (H : list (XYZW R)).
Hypotheses (HU : curve_knots p n U) (Hp : 2 <= p <= 7) (HH : len H = n + 1) (Hw : heavy H) (CU : clamped_knots p n U).

Definition sp t : R := match speed (mkCurve p U H) t with Ok d => d | Err _ => 0%R end.
Lemma sp_ok t : in_domain p n U t -> exists g, curve_derivs p n U H 1 t g /\ sp t = norm3 (g 1).
Proof. intros Dt. destruct (speed_at p n U H HU ltac:(lia) HH Hw t Dt) as (g & G & E). exists g. split; [exact G|]. unfold sp. rewrite E. reflexivity. Qed.

Section Cell.
Variables (B : list R) (j : Z) (Q : list (XYZW R)).
Hypotheses (B1 : increasing B) (B2 : forall x, In x B <-> In x U) (Hj : 0 <= j < len B - 1) (HQ : len Q = p + 1).
Definition ct s := ((1 - s) * val B j + s * val B (j + 1))%R.
Hypothesis Ev : forall s, (0 <= s <= 1)%R -> curve_point p p (bezier_knots p) Q s = curve_point p n U H (ct s).

Lemma cell_speed s : (0 < s < 1)%R -> speed (mkCurve p (bezier_knots p) Q) s = Ok ((val B (j + 1) - val B j) * sp (ct s))%R.
Proof.
  intros Hs. assert (Du : forall x, (0 <= x <= 1)%R -> in_domain p n U (ct x)) by (intros x Hx; exact (cell_domain p n U B j x HU CU B1 B2 Hj Hx)).
  assert (KP : curve_knots p p (bezier_knots p)) by (apply bez_knots_ok; lia).
  assert (HwU : forall x, in_domain p n U x -> ww (curve_point p n U H x) <> 0%R) by (intros x Hx; pose proof (curve_weight p n U H x HU HH Hw Hx); lra).
  assert (HwQ : forall x, in_domain p p (bezier_knots p) x -> ww (curve_point p p (bezier_knots p) Q x) <> 0%R).
  { intros x Hx. apply bez_domain in Hx; [|lia]. rewrite Ev by assumption. apply HwU; auto. }
  assert (Ds : in_domain p p (bezier_knots p) s) by (apply bez_domain; [lia|lra]).
  destruct (derivs_at p p (bezier_knots p) Q s KP ltac:(lia) HQ Ds (HwQ s Ds) 1 ltac:(lia)) as (g & D & G & E & HD).
  destruct (sp_ok (ct s) (Du s ltac:(lra))) as (g' & G' & E').
  pose proof (derivs_true _ _ _ Q s g KP HwQ (bez_off p s ltac:(lia) Hs) G) as P1.
  pose proof (derivs_true _ _ _ H (ct s) g' HU HwU (between_off B U j s B1 B2 Hj Hs) G') as P2. apply (pderiv_affine _ _ _ _ _) in P2.
  assert (X1 : g 1 = times3 (val B (j + 1) - val B j) (g' 1)).
  { eapply pderiv_unique; [exact P1|]. eapply (pderiv_local _ _ s 0%R 1%R); [exact Hs| |exact P2]. intros x Hx. cbv beta. rewrite Ev by lra. reflexivity. }
  unfold speed. rewrite E. cbn [bind]. rewrite HD by lia. cbn [bind]. rewrite Length_eq. rewrite X1, E'. pose proof (B1 j (j + 1) ltac:(lia) ltac:(lia) ltac:(lia)). rewrite norm_scale1 by lra. reflexivity.
Qed.

Definition piece_sum : R := rsum 0 (len ab) (fun k => val we k * sp (ct (node ab k)))%R.
Lemma gauss_piece : gauss_length ab we (mkCurve p (bezier_knots p) Q) = Ok ((val B (j + 1) - val B j) / 2 * piece_sum)%R.
Proof.
  assert (LP : len (bezier_knots p) = 2 * p + 2) by (rewrite (ck_len p p _ (bez_knots_ok p ltac:(lia))); lia).
  unfold gauss_length. cbn [KnotVector]. rewrite LP. rewrite !(get_at 0%R) by lia. cbn [bind]. change (@at_ R 0%R) with val. rewrite !bez_val by lia.
  destruct (Z.leb_spec 0 p); [|lia]. destruct (Z.leb_spec (2 * p + 2 - 1) p); [lia|]. num. rewrite !Rdiv_ok by lra. cbn [bind].
  set (D := (val B (j + 1) - val B j)%R) in *. set (f := fun k => (val we k * sp (ct (node ab k)))%R).
  match goal with |- bind ?X0 _ = _ => assert (E : wp X0 (fun r => r = (D * rsum 0 (len ab) f)%R)) end.
  { pose proof (len_nonneg ab). apply (wp_for_up (fun k r => r = (D * rsum 0 k f)%R)); [lia|rewrite rsum_nil by lia; num; ring| |intros r ->; reflexivity].
    intros k r Hk ->. rewrite (get_at 0%R) by lia. cbn [bind]. change (@at_ R 0%R) with val. num. rewrite ?Rdiv_ok by lra. cbn [bind].
    replace ((1 - 0) / 2 * val ab k + (0 + 1) / 2)%R with (node ab k) by (unfold node; field).
    rewrite cell_speed by (apply node_in; assumption). cbn [bind]. rewrite (get_at 0%R) by lia. cbn [bind wp]. change (@at_ R 0%R) with val. num. rewrite rsum_last by lia. change (f k) with (val we k * sp (ct (node ab k)))%R. fold D. ring. }
  apply wp_elim in E. destruct E as (r & E & ->). rewrite E. cbn [bind]. f_equal. unfold piece_sum, f. num. field.
Qed.
End Cell.

Lemma gauss_length_total cl fuel : val U p = 0%R -> val U (n + 1) = 1%R -> spread n H ->
  (forall x y, In x U -> In y U -> apart x y) -> (forall x, (val U p < x < val U (n + 1))%R -> occ U x < p \/ (p = 2 /\ occ U x = 2)) -> n <= Z.of_nat fuel ->
  returns (ApproximateLength ab we cl fuel (mkCurve p U H) It_GaussLegendre) (fun a => exists B, increasing B /\ (forall x, In x B <-> In x U) /\
    a = rsum 0 (len B - 1) (fun j => (val B (j + 1) - val B j) / 2 * piece_sum B j))%R.
Proof.
  intros E0 E1 Hs AU MU Hf. destruct (domain_ends p n U HU CU) as (G0 & G1). rewrite E0 in G0. rewrite E1 in G1. pose proof (ck_n _ _ _ HU).
  destruct (@Decompose_ok _ _ _ p n U H HU HH CU AU MU fuel Hf) as (cs & E & B & B1 & B2 & LS & HC).
  destruct (ends_of _ _ _ _ HU CU B1 B2) as (_ & _ & LB).
  assert (G : wp (ApproximateLength ab we cl fuel (mkCurve p U H) It_GaussLegendre) (fun a => a = rsum 0 (len B - 1) (fun j => (val B (j + 1) - val B j) / 2 * piece_sum B j)%R)).
  { unfold ApproximateLength. rewrite (spread_linear p n U H HU HH Hw) by (lia || assumption). cbn [bind Degree]. destruct (Z.eqb_spec p 1); [lia|]. cbn [negb validate bind].
    unfold Reparametrize. cbn [KnotVector]. rewrite G0, G1. cbn [bind]. num.
    assert (Z0 : forall y, IsAlmostEqualTo y y = true) by (intros y; apply close_iff; unfold close; rewrite Rminus_eq_0, Rabs_R0; apply Rlt_le, tol_pos). rewrite !Z0. cbn [andb bind]. rewrite E. cbn [bind]. rewrite LS.
    apply (wp_for_up (fun x a => a = rsum 0 x (fun j => (val B (j + 1) - val B j) / 2 * piece_sum B j)%R)); [lia|rewrite rsum_nil by lia; reflexivity| |intros a ->; reflexivity].
    intros x a Hx ->. destruct (HC x ltac:(lia)) as (Q & EQ & LQ & Ev). rewrite EQ. cbn [bind]. rewrite (gauss_piece B x Q B1 B2 ltac:(lia) LQ Ev). cbn [bind wp]. num. rewrite rsum_last by lia. reflexivity. }
  apply wp_elim in G. destruct G as (a & Ea & ->). eexists. split; [exact Ea|]. exists B. do 2 (split; [assumption|]). reflexivity.
Qed.
End C.

(** * Bounds *)
Section Bd.
Variables (ab we : list R).
Hypothesis Hpos : forall k, 0 <= k < len ab -> (0 <= val we k)%R.
Definition total_weight : R := rsum 0 (len ab) (val we).

Lemma weighted_between (f : Z -> R) lo hi : (forall k, 0 <= k < len ab -> (lo <= f k <= hi)%R) -> (lo * total_weight <= rsum 0 (len ab) (fun k => val we k * f k) <= hi * total_weight)%R.
Proof.
  intros Hf. unfold total_weight. rewrite <- !rsum_scal. split; apply P_Interp.rsum_le; intros k Hk; pose proof (Hf k Hk); pose proof (Hpos k Hk); nra.
Qed.
Lemma widths_between (B : list R) (f : Z -> R) lo hi : increasing B -> 0 < len B - 1 -> (forall j, 0 <= j < len B - 1 -> (lo <= f j <= hi)%R) ->
  (lo * (val B (len B - 1) - val B 0) <= rsum 0 (len B - 1) (fun j => (val B (j + 1) - val B j) * f j) <= hi * (val B (len B - 1) - val B 0))%R.
Proof.
  intros HB HL Hf. rewrite <- (rsum_tele (val B) (len B - 1)) by lia. rewrite <- !rsum_scal. split; apply P_Interp.rsum_le; intros j Hj; pose proof (Hf j Hj); pose proof (HB j (j + 1) ltac:(lia) ltac:(lia) ltac:(lia)); nra.
Qed.
End Bd.

(** * The tables *)
Lemma table_lens : len GaussLegendreAbscissae = 24 /\ len GaussLegendreWeights = 24.
Proof. split; reflexivity. Qed.
Lemma places_lt a b : (a < b)%Z -> (places40 a < places40 b)%R.
Proof. intros Hl. unfold places40. apply Rmult_lt_compat_r; [apply Rinv_0_lt_compat, IZR_lt; reflexivity|apply IZR_lt, Hl]. Qed.
Lemma places_one : places40 (10 ^ 40) = 1%R.
Proof. unfold places40. field. apply not_0_IZR. discriminate. Qed.
Lemma places_opp k : places40 (- k) = (- places40 k)%R.
Proof. unfold places40. rewrite opp_IZR. unfold Rdiv. ring. Qed.
Lemma places_plus a b : places40 (a + b) = (places40 a + places40 b)%R.
Proof. unfold places40. rewrite plus_IZR. unfold Rdiv. ring. Qed.
Lemma places_zero : places40 0 = 0%R.
Proof. unfold places40, Rdiv. ring. Qed.
Lemma val_map l k : 0 <= k < len l -> val (map places40 l) k = places40 (at_ 0 l k) /\ In (at_ 0 l k) l.
Proof.
  intros Hk. split.
  - unfold val, at_. rewrite <- (map_nth places40). apply nth_indep. rewrite map_length. unfold len in Hk. lia.
  - apply nth_In. unfold len in Hk. lia.
Qed.
Lemma table_abscissae k : 0 <= k < len GaussLegendreAbscissae -> (-1 < val GaussLegendreAbscissae k < 1)%R.
Proof.
  unfold GaussLegendreAbscissae. set (l := [_; _; _; _; _; _; _; _; _; _; _; _; _; _; _; _; _; _; _; _; _; _; _; _]). assert (F : forallb (fun x => (- 10 ^ 40 <? x) && (x <? 10 ^ 40)) l = true) by (vm_compute; reflexivity).
  intros Hk. assert (Hk' : 0 <= k < len l) by (unfold len in *; rewrite map_length in Hk; exact Hk). destruct (val_map l k Hk') as (-> & Hin). rewrite forallb_forall in F. specialize (F _ Hin). apply andb_true_iff in F. destruct F as (F1 & F2). apply Z.ltb_lt in F1, F2.
  pose proof (places_lt _ _ F1) as G1. pose proof (places_lt _ _ F2) as G2. rewrite places_opp in G1. rewrite places_one in *. lra.
Qed.
Lemma table_weights k : 0 <= k < len GaussLegendreAbscissae -> (0 <= val GaussLegendreWeights k)%R.
Proof.
  intros Hk. rewrite (proj1 table_lens) in Hk. revert Hk. unfold GaussLegendreWeights. set (l := [_; _; _; _; _; _; _; _; _; _; _; _; _; _; _; _; _; _; _; _; _; _; _; _]). assert (F : forallb (fun x => 0 <? x) l = true) by (vm_compute; reflexivity).
  intros Hk. destruct (val_map l k Hk) as (-> & Hin). rewrite forallb_forall in F. specialize (F _ Hin). apply Z.ltb_lt in F. pose proof (places_lt _ _ F). rewrite places_zero in *. lra.
Qed.
Definition zsum (l : list Z) : Z := fold_right Z.add 0 l.
Lemma rsum_places l : rsum 0 (len l) (val (map places40 l)) = places40 (zsum l).
Proof.
  induction l as [|x l IH]; [cbn [zsum fold_right]; rewrite places_zero; apply rsum_nil; cbn; lia|]. cbn [zsum fold_right map]. fold (zsum l). rewrite places_plus, <- IH.
  pose proof (len_nonneg l). replace (len (x :: l)) with (1 + len l) by (unfold len; cbn [length]; lia). rewrite (rsum_split 0 1) by lia. f_equal.
  - change 1 with (0 + 1). rewrite rsum_one. reflexivity.
  - unfold rsum. replace (Z.to_nat (1 + len l - 1)) with (Z.to_nat (len l - 0)) by lia. generalize (Z.to_nat (len l - 0)). 
    assert (K : forall k, rsum_n k 1 (val (places40 x :: map places40 l)) = rsum_n k 0 (val (map places40 l))).
    { induction k as [|k IHk]; [reflexivity|]. cbn [rsum_n]. rewrite IHk. f_equal. unfold val, at_. replace (Z.to_nat (1 + Z.of_nat k)) with (S (Z.to_nat (0 + Z.of_nat k))) by lia. reflexivity. }
    exact K.
Qed.
Lemma table_total : total_weight GaussLegendreAbscissae GaussLegendreWeights = (2 - 8 / 10 ^ 40)%R.
Proof.
  unfold total_weight. replace (len GaussLegendreAbscissae) with (len GaussLegendreWeights) by reflexivity. unfold GaussLegendreWeights. match goal with |- context [map places40 ?l] => replace (len (map places40 l)) with (len l) by (unfold len; rewrite map_length; reflexivity); rewrite (rsum_places l) end.
  replace (zsum _) with (2 * 10 ^ 40 - 8) by (vm_compute; reflexivity). unfold places40. rewrite minus_IZR, mult_IZR. replace (IZR (10 ^ 40)) with (10 ^ 40)%R by (rewrite pow_IZR; reflexivity). field.
Qed.

(** * In terms of the rule *)
Lemma rule_cell ab we p U q V H B C i j :
  ((val B (i + 1) - val B i) * (val C (j + 1) - val C j) / 4 * cell_sum ab we p U q V H B C i j)%R = gauss_rule ab we (val B i) (val B (i + 1)) (fun u => gauss_rule ab we (val C j) (val C (j + 1)) (el p U q V H u)).
Proof.
  unfold gauss_rule, cell_sum. set (b := (val B (i + 1) - val B i)%R). set (c := (val C (j + 1) - val C j)%R). replace (b * c / 4)%R with (b / 2 * (c / 2))%R by field. rewrite Rmult_assoc. f_equal. rewrite <- rsum_scal. apply rsum_ext. intros k Hk.
  rewrite <- !rsum_scal. apply rsum_ext. intros l Hl. replace (cu B i (node ab k)) with ((val B i + val B (i + 1)) / 2 + b / 2 * val ab k)%R by (unfold cu, node, b; field). replace (cv C j (node ab l)) with ((val C j + val C (j + 1)) / 2 + c / 2 * val ab l)%R by (unfold cv, node, c; field). ring.
Qed.
Lemma rule_piece ab we p U H B j : ((val B (j + 1) - val B j) / 2 * piece_sum ab we p U H B j)%R = gauss_rule ab we (val B j) (val B (j + 1)) (sp p U H).
Proof.
  unfold gauss_rule, piece_sum. f_equal. apply rsum_ext. intros k Hk. f_equal. f_equal. unfold ct, node. field.
Qed.
Lemma rule_between ab we a b f lo hi : (forall k, 0 <= k < len ab -> (-1 < val ab k < 1)%R) -> (forall k, 0 <= k < len ab -> (0 <= val we k)%R) -> (a <= b)%R ->
  (forall x, (a <= x <= b)%R -> (lo <= f x <= hi)%R) -> ((b - a) * (lo * (total_weight ab we / 2)) <= gauss_rule ab we a b f <= (b - a) * (hi * (total_weight ab we / 2)))%R.
Proof.
  intros Hab Hwe Hl Hf. unfold gauss_rule. destruct (weighted_between ab we Hwe (fun k => f ((a + b) / 2 + (b - a) / 2 * val ab k)%R) lo hi) as (W1 & W2).
  { intros k Hk. apply Hf. pose proof (Hab k Hk). nra. }
  split; [apply (Rmult_le_compat_l ((b - a) / 2)) in W1; lra|apply (Rmult_le_compat_l ((b - a) / 2)) in W2; lra].
Qed.
