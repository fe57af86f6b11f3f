(* Surfaces blended from four boundary curves. *)
From Coq Require Import ZArith List Bool Permutation Reals Lra Lia.
From Verif Require Import Base Num Vec Tac Spec Spec2 Spec3 Spec4 Spec5 Spec8 Spec9 Spec12 Spec14 M_MathUtils M_Polynomials M_XYZ M_Bspline M_Knots M_NurbsCurve M_Curve2 M_Geom M_Conic M_Surface M_Surface2
  P_MathUtils P_Bern P_Span P_Cox P_Basis P_Deriv P_Vec P_XYZ P_VSum P_Curve P_Bspline P_BsplineS P_Loop P_Nurbs P_Insert P_Insert2 P_Refine P_KnotMap P_Decomp P_Surface P_Elevate P_Make P_Matrix P_Ruled P_Reverse P_Surf3 P_Surf5 P_Surf7.
Import ListNotations Spec12.
Open Scope Z_scope.

Lemma unit_dom p n U t : unit_knots p n U -> in_domain p n U t <-> (0 <= t <= 1)%R.
Proof. intros (HU & Hc & H0 & H1). rewrite (ends_dom p n U Hc), H0, H1. tauto. Qed.
Lemma unit_between p n U x : unit_knots p n U -> In x U -> (0 <= x <= 1)%R.
Proof. intros (HU & Hc & H0 & H1) Hx. pose proof (ends_between p n U HU Hc x Hx). lra. Qed.
Lemma unit_occ p n U : unit_knots p n U -> occ U 0%R = p + 1 /\ occ U 1%R = p + 1.
Proof. intros (HU & Hc & H0 & H1). rewrite <- H0 at 1. rewrite <- H1. split; [apply (occ_first p n U HU Hc)|apply (occ_last p n U HU Hc)]. Qed.
Lemma unit_ends p n U : unit_knots p n U -> In 0%R U /\ In 1%R U.
Proof. intros H. pose proof (unit_occ p n U H) as (A & B). destruct H as (HU & _). pose proof (ck_p _ _ _ HU). split; apply occ_pos; lia. Qed.

(* knots with p + 1 zeros, p + 1 ones and all others between *)
Lemma unit_of_occ p n U : curve_knots p n U -> occ U 0%R = p + 1 -> occ U 1%R = p + 1 -> (forall x, In x U -> (0 <= x <= 1)%R) -> unit_knots p n U.
Proof.
  intros HU O0 O1 HI. pose proof (ck_n _ _ _ HU) as Hn. pose proof (ck_len _ _ _ HU) as HL. pose proof (ck_p _ _ _ HU) as Hp. pose proof (ck_sorted _ _ _ HU) as HS.
  assert (I : forall i, 0 <= i < len U -> (0 <= val U i <= 1)%R) by (intros i Hi; apply HI, val_In; lia).
  assert (Z0 : forall i, 0 <= i <= p -> val U i = 0%R).
  { intros i Hi. destruct (Req_dec (val U i) 0) as [|Hne]; [assumption|exfalso]. pose proof (I i ltac:(lia)).
    (* then at most i zeros *)
    assert (C : exists k, 0 <= k <= i /\ (forall j, 0 <= j < k -> val U j = 0%R) /\ (forall j, k <= j < len U -> val U j <> 0%R)).
    { clear -HS I Hi HL Hne Hp Hn. assert (G : forall k, (Z.to_nat k <= Z.to_nat i)%nat -> 0 <= k -> (forall j, k <= j < len U -> val U j <> 0%R) -> exists k', 0 <= k' <= k /\ (forall j, 0 <= j < k' -> val U j = 0%R) /\ (forall j, k' <= j < len U -> val U j <> 0%R)).
      { intros k. remember (Z.to_nat k) as a eqn:Ea. revert k Ea. induction a as [|a IH]; intros k Ea Hki Hk0 Hk.
        - exists 0. replace k with 0 in Hk by lia. split; [lia|]. split; [intros; lia|exact Hk].
        - destruct (Req_dec (val U (k - 1)) 0) as [E|E].
          + exists k. split; [lia|]. split; [|exact Hk]. intros j Hj. pose proof (HS j (k - 1) ltac:(lia) ltac:(lia) ltac:(lia)). pose proof (I j ltac:(lia)). lra.
          + destruct (IH (k - 1) ltac:(lia) ltac:(lia) ltac:(lia)) as (k' & A & B & C). { intros j Hj. destruct (Z.eq_dec j (k - 1)) as [->|]; [exact E|apply Hk; lia]. } exists k'. split; [lia|]. split; assumption. }
      destruct (G i ltac:(lia) ltac:(lia)) as (k' & A & B & C). { intros j Hj. pose proof (HS i j ltac:(lia) ltac:(lia) ltac:(lia)). pose proof (I i ltac:(lia)). lra. }
      exists k'. split; [lia|]. split; assumption. }
    destruct C as (k & Hk & B & C). unfold occ in O0. rewrite (count_range U 0%R 0 k) in O0; [lia|lia|lia|intros; lia|exact B|exact C]. }
  assert (Z1 : forall i, n + 1 <= i <= n + p + 1 -> val U i = 1%R).
  { intros i Hi. destruct (Req_dec (val U i) 1) as [|Hne]; [assumption|exfalso]. pose proof (I i ltac:(lia)).
    assert (C : exists k, i < k <= len U /\ (forall j, k <= j < len U -> val U j = 1%R) /\ (forall j, 0 <= j < k -> val U j <> 1%R)).
    { clear -HS I Hi HL Hne Hp Hn. assert (G : forall a k, a = Z.to_nat (len U - k) -> i < k <= len U -> (forall j, 0 <= j < k -> val U j <> 1%R) -> exists k', k <= k' <= len U /\ (forall j, k' <= j < len U -> val U j = 1%R) /\ (forall j, 0 <= j < k' -> val U j <> 1%R)).
      { induction a as [|a IH]; intros k Ea Hki Hk.
        - exists k. split; [lia|]. split; [intros; lia|exact Hk].
        - destruct (Req_dec (val U k) 1) as [E|E].
          + exists k. split; [lia|]. split; [|exact Hk]. intros j Hj. pose proof (HS k j ltac:(lia) ltac:(lia) ltac:(lia)). pose proof (I j ltac:(lia)). lra.
          + destruct (IH (k + 1) ltac:(lia) ltac:(lia)) as (k' & A & B & C). { intros j Hj. destruct (Z.eq_dec j k) as [->|]; [exact E|apply Hk; lia]. } exists k'. split; [lia|]. split; assumption. }
      destruct (G _ (i + 1) eq_refl ltac:(lia)) as (k' & A & B & C). { intros j Hj. pose proof (HS j i ltac:(lia) ltac:(lia) ltac:(lia)). pose proof (I i ltac:(lia)). lra. }
      exists k'. split; [lia|]. split; assumption. }
    destruct C as (k & Hk & B & C). unfold occ in O1. rewrite (count_range U 1%R k (len U)) in O1; [lia|lia|lia|exact C|exact B|intros; lia]. }
  split; [exact HU|]. split; [split; [rewrite !Z0 by lia; reflexivity|rewrite !Z1 by lia; reflexivity]|]. split; [apply Z0; lia|apply Z1; lia].
Qed.

Lemma nth_skip (l : list R) a j : nth j (skipn a l) 0%R = nth (a + j) l 0%R.
Proof. revert l. induction a as [|a IH]; intros [|x l]; cbn; try reflexivity; [destruct j; reflexivity|apply IH]. Qed.

Lemma simple_occ p n U : unit_knots p n U -> simple_inside p n U <-> (forall x, (0 < x < 1)%R -> occ U x <= 1).
Proof.
  intros HK. pose proof HK as (HU & Hc & H0 & H1). pose proof (ck_n _ _ _ HU) as Hn. pose proof (ck_len _ _ _ HU) as HL. pose proof (ck_p _ _ _ HU) as Hp. pose proof (ck_sorted _ _ _ HU) as HS. pose proof (unit_occ p n U HK) as (O0 & O1).
  split.
  - intros Hs x Hx. destruct (in_dec Req_EM_T x U) as [Hin|Hin]; [|pose proof (proj2 (Z.le_ngt (occ U x) 0) (fun H => Hin (proj1 (occ_pos U x) ltac:(lia)))); lia].
    destruct (In_val _ _ Hin) as (i & Hi & Ei). assert (p < i < n + 1).
    { split; [destruct (Z_lt_le_dec p i); [assumption|exfalso]|destruct (Z_lt_le_dec i (n + 1)); [assumption|exfalso]].
      - pose proof (HS i p ltac:(lia) ltac:(lia) ltac:(lia)). destruct Hc as [Hc0 _]. lra.
      - pose proof (HS (n + 1) i ltac:(lia) ltac:(lia) ltac:(lia)). lra. }
    unfold occ. rewrite (count_range U x i (i + 1)); try lia.
    + intros j Hj. pose proof (HS j (i - 1) ltac:(lia) ltac:(lia) ltac:(lia)). pose proof (Hs (i - 1) ltac:(lia)). replace (i - 1 + 1) with i in * by lia. lra.
    + intros j Hj. replace j with i by lia. exact Ei.
    + intros j Hj. pose proof (HS (i + 1) j ltac:(lia) ltac:(lia) ltac:(lia)). pose proof (Hs i ltac:(lia)). lra.
  - intros Ho i Hi. pose proof (HS i (i + 1) ltac:(lia) ltac:(lia) ltac:(lia)) as Hle. destruct (Rle_lt_or_eq_dec _ _ Hle) as [|He]; [assumption|exfalso].
    assert (TW : forall x a b, 0 <= a -> a < b -> b <= len U -> (forall j, a <= j < b -> val U j = x) -> b - a <= occ U x).
    { intros x a b Ha Hab Hb Hx. unfold occ. rewrite <- (firstn_skipn (Z.to_nat a) U), count_occ_app. set (V := skipn (Z.to_nat a) U). rewrite <- (firstn_skipn (Z.to_nat (b - a)) V), count_occ_app.
      enough (E : firstn (Z.to_nat (b - a)) V = repeat x (Z.to_nat (b - a))) by (rewrite E, count_occ_repeat_eq by reflexivity; lia).
      apply (arr_inj _ _ (b - a) (fun _ => x)); [|apply arr_repeat; lia]. 
      assert (LV : len V = len U - a) by (unfold V, len; rewrite skipn_length; unfold len in *; lia).
      pose proof (arr_firstn 0%R V (b - a) ltac:(lia)) as A1. eapply arr_ext; [exact A1|]. intros j Hj. cbv beta. unfold V, at_. rewrite <- (Hx (a + j)) by lia. unfold val, at_. rewrite nth_skip. f_equal. lia. }
    assert (B : (0 <= val U i <= 1)%R) by (apply (unit_between p n U _ HK), val_In; lia).
    destruct (Req_dec (val U i) 0) as [E0|N0]; [|destruct (Req_dec (val U i) 1) as [E1|N1]].
    + pose proof (TW 0%R 0 (i + 2) ltac:(lia) ltac:(lia) ltac:(lia)) as G. cbv beta in G. enough (i + 2 - 0 <= occ U 0%R) by lia. apply G. intros j Hj. pose proof (HS j (i + 1) ltac:(lia) ltac:(lia) ltac:(lia)). pose proof (unit_between p n U _ HK (val_In U j ltac:(lia))). lra.
    + pose proof (TW 1%R i (len U) ltac:(lia) ltac:(lia) ltac:(lia)) as G. enough (len U - i <= occ U 1%R) by lia. apply G. intros j Hj. pose proof (HS i j ltac:(lia) ltac:(lia) ltac:(lia)). pose proof (unit_between p n U _ HK (val_In U j ltac:(lia))). lra.
    + pose proof (TW (val U i) i (i + 2) ltac:(lia) ltac:(lia) ltac:(lia)) as G. pose proof (Ho (val U i) ltac:(lra)). enough (i + 2 - i <= occ U (val U i)) by lia. apply G. intros j Hj. assert (j = i \/ j = i + 1) as [-> | ->] by lia; [reflexivity|lra].
Qed.

(* ---------------- two opposite curves ---------------- *)
Lemma apart_app (U V : list R) : (forall x y, In x (U ++ V) -> In y (U ++ V) -> apart x y) -> forall x y, In x (V ++ U) -> In y (V ++ U) -> apart x y.
Proof. intros H x y Hx Hy. apply H; apply in_app_or in Hx; apply in_app_or in Hy; apply in_or_app; tauto. Qed.

Lemma pair_ok p0 m0 U0 (P0 : list (XYZW R)) p1 m1 U1 (P1 : list (XYZW R)) : unit_knots p0 m0 U0 -> len P0 = m0 + 1 -> unit_knots p1 m1 U1 -> len P1 = m1 + 1 ->
  (forall x y, In x (U0 ++ U1) -> In y (U0 ++ U1) -> apart x y) -> (p0 < p1 -> 1 <= p0 /\ simple_inside p0 m0 U0) -> (p1 < p0 -> 1 <= p1 /\ simple_inside p1 m1 U1) ->
  let d := Z.max p0 p1 in exists n W R0 R1, coons_match (mkCurve p0 U0 P0) (mkCurve p1 U1 P1) = Ok (mkCurve d W R0, mkCurve d W R1) /\
    unit_knots d n W /\ len R0 = n + 1 /\ len R1 = n + 1 /\ (forall x, In x W <-> In x (U0 ++ U1)) /\
    (forall u, (0 <= u <= 1)%R -> curve_point d n W R0 u = curve_point p0 m0 U0 P0 u /\ curve_point d n W R1 u = curve_point p1 m1 U1 P1 u) /\
    (p0 = p1 -> simple_inside p0 m0 U0 -> simple_inside p1 m1 U1 -> simple_inside d n W).
Proof.
  intros T0 L0 T1 L1 Hap S0 S1 d. pose proof T0 as (K0 & C0 & Z0 & O0). pose proof T1 as (K1 & C1 & Z1 & O1).
  destruct (raise_ok d p0 m0 U0 P0 ltac:(lia) K0 L0 C0) as (n0 & V0 & Q0 & R0 & KV0 & LQ0 & CV0 & I0 & F0 & E0 & H0).
  { intros x y Hx Hy. apply Hap; apply in_or_app; auto. } { intros H. apply S0. lia. }
  destruct (raise_ok d p1 m1 U1 P1 ltac:(lia) K1 L1 C1) as (n1 & V1 & Q1 & R1 & KV1 & LQ1 & CV1 & I1 & F1 & E1 & H1).
  { intros x y Hx Hy. apply Hap; apply in_or_app; auto. } { intros H. apply S1. lia. }
  assert (G0 : unit_knots d n0 V0) by (split; [exact KV0|]; split; [exact CV0|]; split; lra).
  assert (G1 : unit_knots d n1 V1) by (split; [exact KV1|]; split; [exact CV1|]; split; lra).
  assert (SAME : p0 = p1 -> V0 = U0 /\ V1 = U1 /\ n0 = m0 /\ n1 = m1).
  { intros <-. assert (d = p0) as Ed by (unfold d; lia). unfold ruled_raise in R0, R1. cbn [Degree] in R0, R1. rewrite Ed, Z.ltb_irrefl in R0, R1. injection R0 as <- <-. injection R1 as <- <-. split; [reflexivity|]. split; [reflexivity|].
    pose proof (ck_len _ _ _ K0). pose proof (ck_len _ _ _ K1). pose proof (ck_len _ _ _ KV0). pose proof (ck_len _ _ _ KV1). lia. }
  unfold coons_match. cbn [Degree].
  assert (B1 : (if p1 <? p0 then ElevateDegree (mkCurve p1 U1 P1) (p0 - p1) else Ok (mkCurve p1 U1 P1)) = Ok (mkCurve d V1 Q1)).
  { rewrite <- R1. unfold ruled_raise. cbn [Degree]. destruct (Z.ltb_spec p1 p0), (Z.ltb_spec p1 d); try lia; try reflexivity. unfold d. f_equal. lia. }
  assert (B0 : (if p0 <? p1 then ElevateDegree (mkCurve p0 U0 P0) (p1 - p0) else Ok (mkCurve p0 U0 P0)) = Ok (mkCurve d V0 Q0)).
  { rewrite <- R0. unfold ruled_raise. cbn [Degree]. destruct (Z.ltb_spec p0 p1), (Z.ltb_spec p0 d); try lia; try reflexivity. unfold d. f_equal. lia. }
  rewrite B1, B0. cbn [bind KnotVector]. clear B0 B1 R0 R1.
  assert (D0 : forall u, (0 <= u <= 1)%R -> curve_point d n0 V0 Q0 u = curve_point p0 m0 U0 P0 u) by (intros u Hu; apply H0, (unit_dom _ _ _ _ T0), Hu).
  assert (D1 : forall u, (0 <= u <= 1)%R -> curve_point d n1 V1 Q1 u = curve_point p1 m1 U1 P1 u) by (intros u Hu; apply H1, (unit_dom _ _ _ _ T1), Hu).
  destruct (vec_eqb V0 V1) eqn:EV.
  - apply vec_eqb_iff in EV. subst V1. assert (n1 = n0) as -> by (pose proof (ck_len _ _ _ KV0); pose proof (ck_len _ _ _ KV1); lia).
    exists n0, V0, Q0, Q1. split; [reflexivity|]. split; [exact G0|]. split; [exact LQ0|]. split; [exact LQ1|]. split; [intros x; rewrite in_app_iff, <- I0, <- I1; tauto|].
    split; [intros u Hu; split; [apply D0, Hu|apply D1, Hu]|]. intros E' S' _. destruct (SAME E') as (-> & _ & -> & _). unfold d. rewrite E', Z.max_id. rewrite <- E'. exact S'.
  - clear EV. pose proof (GetInsertedKnotElement_ok V0 V1 [] []) as GI. destruct (GetInsertedKnotElement V0 V1 [] []) as [X0 X1]. destruct GI as (SX0 & SX1 & HO).
    destruct (unit_occ _ _ _ G0) as (OA & OB), (unit_occ _ _ _ G1) as (OC & OD). pose proof G0 as (_ & _ & ZA & ZB). pose proof G1 as (_ & _ & ZC & ZD).
    assert (AP : forall x y, In x (V0 ++ V1) -> In y (V0 ++ V1) -> apart x y).
    { assert (II : forall x, In x (V0 ++ V1) -> In x (U0 ++ U1)) by (intros x Hx; apply in_or_app; apply in_app_or in Hx; destruct Hx as [Hx|Hx]; [left; apply I0, Hx|right; apply I1, Hx]).
      intros x y Hx Hy. apply Hap; apply II; assumption. }
    destruct (refine_to d n0 V0 Q0 V1 (fun _ => 0) X0 KV0 LQ0 CV0 AP SX0) as (a & W & R0 & ER0 & KW & LR0 & OW & HW); [intros x; rewrite (proj1 (HO x)); reflexivity| |rewrite ZA; exact OC|rewrite ZB; exact OD|].
    { intros x Hx. rewrite ZA, ZB. apply (unit_between _ _ _ _ G1 Hx). }
    destruct (refine_to d n1 V1 Q1 V0 (fun _ => 0) X1 KV1 LQ1 CV1) as (b & W' & R1 & ER1 & KW' & LR1 & OW' & HW'); [apply apart_app, AP|exact SX1|intros x; rewrite (proj2 (HO x)); rewrite Z.max_comm; reflexivity| |rewrite ZC; exact OA|rewrite ZD; exact OB|].
    { intros x Hx. rewrite ZC, ZD. apply (unit_between _ _ _ _ G0 Hx). }
    assert (W' = W). { apply occ_sorted_eq; [apply (ck_sorted _ _ _ KW')|apply (ck_sorted _ _ _ KW)|]. intros x. rewrite OW, OW'. apply Z.max_comm. }
    subst W'. assert (b = a) as -> by (pose proof (ck_len _ _ _ KW); pose proof (ck_len _ _ _ KW'); lia).
    assert (IW : forall x, In x W <-> In x (U0 ++ U1)) by (intros x; rewrite <- occ_pos, OW; rewrite in_app_iff, <- I0, <- I1, <- !occ_pos; lia).
    assert (GW : unit_knots d a W).
    { apply unit_of_occ; [exact KW|rewrite OW, OA, OC; lia|rewrite OW, OB, OD; lia|]. intros x Hx. apply IW, in_app_or in Hx. destruct Hx as [Hx|Hx]; [apply (unit_between _ _ _ _ T0 Hx)|apply (unit_between _ _ _ _ T1 Hx)]. }
    exists a, W, R0, R1. rewrite ER0, ER1. cbn [bind]. split; [reflexivity|]. split; [exact GW|]. split; [exact LR0|]. split; [exact LR1|]. split; [exact IW|]. split.
    + intros u Hu. destruct (HW u (proj2 (unit_dom _ _ _ _ G0) Hu)) as [_ ->], (HW' u (proj2 (unit_dom _ _ _ _ G1) Hu)) as [_ ->]. split; [apply D0, Hu|apply D1, Hu].
    + intros E' S' S''. destruct (SAME E') as (-> & -> & -> & ->). apply (simple_occ _ _ _ GW). intros x Hx. rewrite OW. pose proof (proj1 (simple_occ _ _ _ T0) S' x Hx). pose proof (proj1 (simple_occ _ _ _ T1) S'' x Hx). lia.
Qed.

(* ---------------- pieces of the blend ---------------- *)
Definition tile (X : Surface R (XYZW R)) (n m p : Z) (U : list R) (q : Z) (W : list R) (F : R -> R -> XYZW R) : Prop :=
  valid_surface n m X /\ DegreeU X = p /\ KnotVectorU X = U /\ DegreeV X = q /\ KnotVectorV X = W /\ unit_knots p n U /\ unit_knots q m W /\
  forall u v, (0 <= u <= 1)%R -> (0 <= v <= 1)%R -> surface_point p n U q m W (SControlPoints X) u v = F u v.

Lemma tile_get X n m p U q W F u v : tile X n m p U q W F -> (0 <= u <= 1)%R -> (0 <= v <= 1)%R -> GetPointOnSurface X u v = Ok (F u v).
Proof.
  intros (HV & H1 & H2 & H3 & H4 & HU & HW & HF) Hu Hv. rewrite (surface_eval n m X u v HV).
  - rewrite H1, H2, H3, H4, HF by assumption. reflexivity.
  - unfold u_domain. rewrite H1, H2. apply (unit_dom _ _ _ _ HU), Hu.
  - unfold v_domain. rewrite H3, H4. apply (unit_dom _ _ _ _ HW), Hv.
Qed.
Lemma tile_of X n m p U q W F : valid_surface n m X -> DegreeU X = p -> KnotVectorU X = U -> DegreeV X = q -> KnotVectorV X = W -> unit_knots p n U -> unit_knots q m W ->
  (forall u v, (0 <= u <= 1)%R -> (0 <= v <= 1)%R -> GetPointOnSurface X u v = Ok (F u v)) -> tile X n m p U q W F.
Proof.
  intros HV H1 H2 H3 H4 HU HW HF. split; [exact HV|]. do 4 (split; [assumption|]). split; [exact HU|]. split; [exact HW|]. intros u v Hu Hv. specialize (HF u v Hu Hv). rewrite (surface_eval n m X u v HV) in HF.
  - rewrite H1, H2, H3, H4 in HF. congruence.
  - unfold u_domain. rewrite H1, H2. apply (unit_dom _ _ _ _ HU), Hu.
  - unfold v_domain. rewrite H3, H4. apply (unit_dom _ _ _ _ HW), Hv.
Qed.

Lemma unit_raised p n U t n' U' : unit_knots p n U -> curve_knots (p + t) n' U' -> (forall x, In x U' <-> In x U) -> (forall x, In x U -> occ U' x = occ U x + t) -> unit_knots (p + t) n' U'.
Proof.
  intros HU HU' HI HO. destruct (unit_ends _ _ _ HU) as (I0 & I1). destruct (unit_occ _ _ _ HU) as (O0 & O1).
  apply unit_of_occ; [exact HU'|rewrite HO by exact I0; lia|rewrite HO by exact I1; lia|]. intros x Hx. apply (unit_between _ _ _ _ HU), HI, Hx.
Qed.

Lemma unit_refined p n U e n' U' : unit_knots p n U -> curve_knots p n' U' -> Permutation U' (e ++ U) -> (forall x, In x e -> (0 < x < 1)%R) -> unit_knots p n' U'.
Proof.
  intros HU HU' HP He. destruct (unit_occ _ _ _ HU) as (O0 & O1).
  assert (HO : forall x, occ U' x = occ e x + occ U x) by (intros x; unfold occ; rewrite (proj1 (Permutation_count_occ Req_EM_T _ _) HP x), count_occ_app; lia).
  assert (HZ : forall x, ~ (0 < x < 1)%R -> occ e x = 0) by (intros x Hx; pose proof (occ_nonneg e x); destruct (Z.eq_dec (occ e x) 0); [assumption|exfalso; apply Hx, He, occ_pos; lia]).
  apply unit_of_occ; [exact HU'|rewrite HO, HZ by lra; lia|rewrite HO, HZ by lra; lia|].
  intros x Hx. apply (Permutation_in _ HP), in_app_or in Hx. destruct Hx as [Hx|Hx]; [pose proof (He x Hx); lra|apply (unit_between _ _ _ _ HU Hx)].
Qed.

Lemma raise_u X n m p U q W F d : tile X n m p U q W F -> p <= d <= 7 -> (forall x y, In x U -> In y U -> apart x y) -> (p < d -> 1 <= p /\ simple_inside p n U) ->
  exists X' n' U', coons_raise X d true = Ok X' /\ tile X' n' m d U' q W F /\ (forall x, In x U' <-> In x U) /\ (forall x, In x U -> occ U' x = occ U x + (d - p)).
Proof.
  intros HT Hd Hap Hs. pose proof HT as (HV & H1 & H2 & H3 & H4 & HU & HW & HF). unfold coons_raise. cbn [degree_along]. rewrite H1. destruct (Z.ltb_spec p d) as [Hlt|Hge].
  - destruct (Hs Hlt) as (Hp & Hsim). pose proof (SurfaceElevateDegree_ok n m X true (d - p) HV) as G. cbv zeta in G. cbn [degree_along knots_along negb] in G. rewrite H1, H2 in G.
    destruct (G Hp ltac:(lia) ltac:(lia) (proj1 (proj2 HU)) Hap Hsim) as (X' & E & (V' & D' & K') & D2 & C2 & I2 & O2 & SP). cbn [degree_along knots_along negb] in *.
    replace (p + (d - p)) with d in * by lia. exists X', (n + (n - p + 1) * (d - p)), (KnotVectorU X'). split; [exact E|].
    assert (KU' : unit_knots d (n + (n - p + 1) * (d - p)) (KnotVectorU X')) by (replace d with (p + (d - p)) at 1 by lia; apply (unit_raised p n U (d - p)); auto; replace (p + (d - p)) with d by lia; pose proof (proj1 V') as KV; rewrite D2 in KV; exact KV).
    split; [|split; assumption]. apply tile_of; auto; try congruence.
    intros u v Hu Hv. rewrite SP; [apply (tile_get X n m p U q W F); assumption| |].
    + unfold u_domain. rewrite H1, H2. apply (unit_dom _ _ _ _ HU), Hu.
    + unfold v_domain. rewrite H3, H4. apply (unit_dom _ _ _ _ HW), Hv.
  - assert (d = p) as -> by lia. exists X, n, U. split; [reflexivity|]. split; [exact HT|]. split; [tauto|]. intros; lia.
Qed.
Lemma raise_v X n m p U q W F d : tile X n m p U q W F -> q <= d <= 7 -> (forall x y, In x W -> In y W -> apart x y) -> (q < d -> 1 <= q /\ simple_inside q m W) ->
  exists X' m' W', coons_raise X d false = Ok X' /\ tile X' n m' p U d W' F /\ (forall x, In x W' <-> In x W) /\ (forall x, In x W -> occ W' x = occ W x + (d - q)).
Proof.
  intros HT Hd Hap Hs. pose proof HT as (HV & H1 & H2 & H3 & H4 & HU & HW & HF). unfold coons_raise. cbn [degree_along]. rewrite H3. destruct (Z.ltb_spec q d) as [Hlt|Hge].
  - destruct (Hs Hlt) as (Hp & Hsim). pose proof (SurfaceElevateDegree_ok n m X false (d - q) HV) as G. cbv zeta in G. cbn [degree_along knots_along negb] in G. rewrite H3, H4 in G.
    destruct (G Hp ltac:(lia) ltac:(lia) (proj1 (proj2 HW)) Hap Hsim) as (X' & E & (V' & D' & K') & D2 & C2 & I2 & O2 & SP). cbn [degree_along knots_along negb] in *.
    replace (q + (d - q)) with d in * by lia. exists X', (m + (m - q + 1) * (d - q)), (KnotVectorV X'). split; [exact E|].
    assert (KW' : unit_knots d (m + (m - q + 1) * (d - q)) (KnotVectorV X')) by (replace d with (q + (d - q)) at 1 by lia; apply (unit_raised q m W (d - q)); auto; replace (q + (d - q)) with d by lia; pose proof (proj1 (proj2 V')) as KV; rewrite D2 in KV; exact KV).
    split; [|split; assumption]. apply tile_of; auto; try congruence.
    intros u v Hu Hv. rewrite SP; [apply (tile_get X n m p U q W F); assumption| |].
    + unfold u_domain. rewrite H1, H2. apply (unit_dom _ _ _ _ HU), Hu.
    + unfold v_domain. rewrite H3, H4. apply (unit_dom _ _ _ _ HW), Hv.
  - assert (d = q) as -> by lia. exists X, m, W. split; [reflexivity|]. split; [exact HT|]. split; [tauto|]. intros; lia.
Qed.

Lemma refine_u X n m p U q W F e : tile X n m p U q W F -> sorted e -> (forall x, In x e -> (0 < x < 1)%R) -> (forall x y, In x e -> In y (e ++ U) -> apart x y) ->
  exists X' n' U', coons_refine X e true = Ok X' /\ tile X' n' m p U' q W F /\ Permutation U' (e ++ U).
Proof.
  intros HT Hs He Hap. pose proof HT as (HV & H1 & H2 & H3 & H4 & HU & HW & HF). unfold coons_refine. destruct (Z.ltb_spec 0 (len e)) as [Hlt|Hge].
  - pose proof (SurfaceRefine_u n m X e HV) as G. rewrite H1, H2 in G. destruct G as (X' & E & V' & D1 & D2 & PU & KV & SP).
    { split; [exact Hlt|]. split; [exact Hs|]. split; [|exact Hap]. intros x Hx. destruct HU as (_ & (C0 & _) & Z0 & Z1). rewrite <- C0, Z0, Z1. apply He, Hx. }
    exists X', (n + len e), (KnotVectorU X'). split; [exact E|]. split; [|exact PU]. apply tile_of; auto; try congruence.
    + apply (unit_refined p n U e); auto. pose proof (proj1 V') as KV'. rewrite D1 in KV'. exact KV'.
    + intros u v Hu Hv. rewrite SP; [apply (tile_get X n m p U q W F); assumption| |].
      * unfold u_domain. rewrite H1, H2. apply (unit_dom _ _ _ _ HU), Hu.
      * unfold v_domain. rewrite H3, H4. apply (unit_dom _ _ _ _ HW), Hv.
  - exists X, n, U. assert (e = []) as -> by (destruct e; [reflexivity|rewrite len_cons in Hge; pose proof (len_nonneg e); lia]). auto.
Qed.
Lemma refine_v X n m p U q W F e : tile X n m p U q W F -> sorted e -> (forall x, In x e -> (0 < x < 1)%R) -> (forall x y, In x e -> In y (e ++ W) -> apart x y) ->
  exists X' m' W', coons_refine X e false = Ok X' /\ tile X' n m' p U q W' F /\ Permutation W' (e ++ W).
Proof.
  intros HT Hs He Hap. pose proof HT as (HV & H1 & H2 & H3 & H4 & HU & HW & HF). unfold coons_refine. destruct (Z.ltb_spec 0 (len e)) as [Hlt|Hge].
  - pose proof (SurfaceRefine_v n m X e HV) as G. rewrite H3, H4 in G. destruct G as (X' & E & V' & D1 & D2 & KU & PW & SP).
    { split; [exact Hlt|]. split; [exact Hs|]. split; [|exact Hap]. intros x Hx. destruct HW as (_ & (C0 & _) & Z0 & Z1). rewrite <- C0, Z0, Z1. apply He, Hx. }
    exists X', (m + len e), (KnotVectorV X'). split; [exact E|]. split; [|exact PW]. apply tile_of; auto; try congruence.
    + apply (unit_refined q m W e); auto. pose proof (proj1 (proj2 V')) as KV'. rewrite D2 in KV'. exact KV'.
    + intros u v Hu Hv. rewrite SP; [apply (tile_get X n m p U q W F); assumption| |].
      * unfold u_domain. rewrite H1, H2. apply (unit_dom _ _ _ _ HU), Hu.
      * unfold v_domain. rewrite H3, H4. apply (unit_dom _ _ _ _ HW), Hv.
  - exists X, m, W. assert (e = []) as -> by (destruct e; [reflexivity|rewrite len_cons in Hge; pose proof (len_nonneg e); lia]). auto.
Qed.

Lemma bez_unit p : 0 <= p -> unit_knots p p (bezier_knots p).
Proof.
  intros Hp. split; [apply bez_knots_ok, Hp|]. split; [split|split]; rewrite !bez_val by lia; rewrite ?(proj2 (Z.leb_le 0 p)), ?(proj2 (Z.leb_le p p)), ?(proj2 (Z.leb_gt (p + 1) p)), ?(proj2 (Z.leb_gt (p + p + 1) p)) by lia; reflexivity.
Qed.
Lemma bez_in p x : 0 <= p -> In x (bezier_knots p) -> (x = 0 \/ x = 1)%R.
Proof. intros Hp. unfold bezier_knots. rewrite in_app_iff. intros [H|H]; apply repeat_spec in H; auto. Qed.
Lemma bez_apart p x y : 0 <= p -> In x (bezier_knots p) -> In y (bezier_knots p) -> apart x y.
Proof.
  intros Hp Hx Hy. apply bez_in in Hx; [|lia]. apply bez_in in Hy; [|lia]. unfold apart, tol.
  destruct Hx as [-> | ->], Hy as [-> | ->]; [left; reflexivity|right|right|left; reflexivity]; rewrite ?Rabs_R0, ?Rabs_R1.
  - replace (Rabs (0 - 1)) with 1%R by (rewrite Rabs_left; lra). rewrite Rmax_right by lra. lra.
  - replace (Rabs (1 - 0)) with 1%R by (rewrite Rabs_right; lra). rewrite Rmax_left by lra. lra.
Qed.
Lemma bez_simple p : 0 <= p -> simple_inside p p (bezier_knots p).
Proof. intros Hp i Hi. replace i with p by lia. rewrite !bez_val by lia. rewrite (proj2 (Z.leb_le p p)), (proj2 (Z.leb_gt (p + 1) p)) by lia. lra. Qed.

Lemma Ruled_same d n W (R0 R1 : list (XYZW R)) : unit_knots d n W -> d <= 7 -> len R0 = n + 1 -> len R1 = n + 1 ->
  exists X, CreateRuledSurface (mkCurve d W R0) (mkCurve d W R1) = Ok X /\
    tile X n 1 d W 1 (bezier_knots 1) (fun u v => vadd (vscale (1 - v)%R (curve_point d n W R0 u)) (vscale v (curve_point d n W R1 u))).
Proof.
  intros HK H7 LR0 LR1. pose proof HK as (KW & CW & Z0 & Z1). pose proof (ck_n _ _ _ KW) as N. pose proof (ck_len _ _ _ KW) as LU. pose proof (ck_p _ _ _ KW) as D.
  set (F := fun u v => vadd (vscale (1 - v)%R (curve_point d n W R0 u)) (vscale v (curve_point d n W R1 u))).
  enough (G : returns (CreateRuledSurface (mkCurve d W R0) (mkCurve d W R1)) (fun X => tile X n 1 d W 1 (bezier_knots 1) F)) by exact G.
  apply wp_elim. assert (A0 : arr W (len W) (val W)) by apply arr_at.
  unfold CreateRuledSurface. cbn [Degree KnotVector ControlPoints]. wget A0. wget A0. cbn [bind]. rewrite !aeq_refl. cbn [andb validate bind].
  unfold ruled_raise. cbn [Degree]. rewrite Z.max_id, Z.ltb_irrefl. cbn [bind KnotVector ControlPoints]. rewrite (proj2 (vec_eqb_iff W W) eq_refl). cbn [bind]. rewrite LR0.
  pose proof (arr_pt R0 _ LR0) as AR0. pose proof (arr_pt R1 _ LR1) as AR1. set (f := fun i j => if j =? 0 then pt R0 i else pt R1 i).
  apply wp_bind. eapply wp_mkvec2 with (c := 2) (x := xyzw0); [lia| |].
  { split; [reflexivity|]. intros i Hi. assert (i = 0 \/ i = 1) as [-> | ->] by lia; reflexivity. }
  intros T0 HT0. apply wp_bind. apply wp_for_up with (P := fun k T => arr2D T (n + 1) 2 (fun i j => i < k) f); [lia| | |].
  - apply (arr2D_ext _ _ _ (fun _ _ => False) _ (fun _ _ => xyzw0) _ (arr2_D _ _ _ _ _ HT0)); intros; lia.
  - intros k T Hk HT. wget AR0. apply wp_bind. apply (arr2D_set _ _ _ _ (fun i j => i < k \/ (i = k /\ j = 0)) f k 0 _ _ HT); [lia|lia|reflexivity|intros; lia|].
    intros T1 HT1. wget AR1. apply (arr2D_set _ _ _ _ (fun i j => i < k + 1) f k 1 _ _ HT1); [lia|lia|reflexivity|intros; lia|auto].
  - intros T HT. cbn [wp]. assert (AT : arr2 T (n + 1) 2 f) by (eapply arr2_of_D; [exact HT|intros; cbv beta; lia]). pose proof (net_arr2 _ _ _ _ AT) as NT.
    pose proof (bez_unit 1 ltac:(lia)) as KB. change [n0; n0; n1; n1] with (bezier_knots 1).
    split. { split; [exact KW|]. split; [apply KB|]. split; [exact NT|]. cbn; lia. }
    do 4 (split; [reflexivity|]). split; [exact HK|]. split; [exact KB|]. cbn [SControlPoints]. intros u v Hu Hv. unfold F.
    apply co_ext. intros c. rewrite surface_as_curve by lia. rewrite co_add, !co_scale. unfold curve_point at 1 3 4. rewrite !co_comb.
    rewrite <- !rsum_scal, <- rsum_plus. apply rsum_ext. intros i Hi. rewrite pt_mklist by lia. rewrite (bez_curve 1) by (auto; lia).
    rewrite rsum_2. destruct (bern1 v) as (-> & ->).
    change (pt (at_ nil T i) 0) with (pt2 T i 0). change (pt (at_ nil T i) 1) with (pt2 T i 1). rewrite !(pt2_arr2 _ _ _ _ i _ AT) by lia. unfold f. cbn [Z.eqb]. ring.
Qed.

Lemma Swap_tile X n m p U q W F : tile X n m p U q W F -> exists X', Swap X = Ok X' /\ tile X' m n q W p U (fun u v => F v u).
Proof.
  intros HT. pose proof HT as (HV & H1 & H2 & H3 & H4 & HU & HW & HF). destruct (Swap_ok n m X HV) as (X' & E & V' & _ & HP). exists X'. split; [exact E|].
  assert (DK : DegreeU X' = DegreeV X /\ DegreeV X' = DegreeU X /\ KnotVectorU X' = KnotVectorV X /\ KnotVectorV X' = KnotVectorU X).
  { unfold Swap in E. destruct (Transpose (SControlPoints X)); [|discriminate]. cbn [bind] in E. injection E as <-. repeat split. }
  destruct DK as (D1 & D2 & D3 & D4). apply tile_of; auto; try congruence.
  intros u v Hu Hv. rewrite HP.
  - apply (tile_get X n m p U q W F); assumption.
  - unfold u_domain. rewrite H1, H2. apply (unit_dom _ _ _ _ HU), Hv.
  - unfold v_domain. rewrite H3, H4. apply (unit_dom _ _ _ _ HW), Hu.
Qed.

Lemma Bilinear_tile tl tr bl br : exists X, CreateBilinearSurface tl tr bl br = Ok X /\
  tile X 3 3 3 (bezier_knots 3) 3 (bezier_knots 3) (fun u v => hom (lerp3 (lerp3 tl bl u) (lerp3 tr br u) v) 1).
Proof.
  set (H := mklist 4 (fun i => mklist 4 (fun j => hom (lerp3 (lerp3 tl bl (IZR i / 3)) (lerp3 tr br (IZR i / 3)) (IZR j / 3)) 1))).
  exists (mkSurface 3 3 (bezier_knots 3) (bezier_knots 3) H). split.
  - assert (D : forall i, ndiv (A := R) (nofZ i) (nofZ 3) = Ok (IZR i / 3)%R) by (intros; num; apply Rdiv_ok; lra).
    unfold CreateBilinearSurface, for_up. change (Z.to_nat (3 + 1 - 0)) with 4%nat. cbn [iter_up bind]. repeat (rewrite D; cbn [iter_up bind app]).
    cbn [Z.add Pos.add Pos.succ]. f_equal. unfold H, mklist. change (Z.to_nat 4) with 4%nat. cbn [seq map].
    f_equal. cbn [Z.of_nat Pos.of_succ_nat Pos.succ].
    assert (E : forall i j : R, (mkW (xyz_add (xyz_scale (1 - j) (xyz_add (xyz_scale (1 - i) tl) (xyz_scale (1 - (1 - i)) bl))) (xyz_scale j (xyz_add (xyz_scale (1 - i) tr) (xyz_scale (1 - (1 - i)) br)))) 1 = hom (lerp3 (lerp3 tl bl i) (lerp3 tr br i) j) 1)%R).
    { intros i j. unfold mkW, xyz_add, xyz_scale, hom, lerp3, plus3, times3. num. cbn [gx gy gz]. f_equal; ring. }
    num. rewrite !E. reflexivity.
  - assert (HH : net (3 + 1) (3 + 1) H) by (apply net_arr2 with (f := fun i j => hom (lerp3 (lerp3 tl bl (IZR i / 3)) (lerp3 tr br (IZR i / 3)) (IZR j / 3)) 1); split; [reflexivity|]; intros i Hi; assert (i = 0 \/ i = 1 \/ i = 2 \/ i = 3) as [-> | [-> | [-> | ->]]] by lia; eexists; split; try reflexivity; apply arr_mklist; lia).
    pose proof (bez_unit 3 ltac:(lia)) as KB. split; [split; [apply KB|split; [apply KB|split; [exact HH|cbn; lia]]]|]. do 4 (split; [reflexivity|]). split; [exact KB|]. split; [exact KB|]. cbn [SControlPoints].
    intros u v Hu Hv. apply co_ext. intros c. rewrite bez_surface by (auto; lia). rewrite rsum_4. rewrite !bez_curve by (auto; lia). rewrite !rsum_4.
    destruct (bern3 u) as (-> & -> & -> & ->). destruct (bern3 v) as (-> & -> & -> & ->).
    assert (EP : forall i j, 0 <= i < 4 -> 0 <= j < 4 -> pt (at_ nil H i) j = hom (lerp3 (lerp3 tl bl (IZR i / 3)) (lerp3 tr br (IZR i / 3)) (IZR j / 3)) 1).
    { intros i j Hi Hj. unfold H. erewrite (arr_at_eq nil) by first [apply arr_mklist; lia|exact Hi]. cbv beta. rewrite pt_mklist by exact Hj. reflexivity. }
    rewrite !EP by lia. clear EP HH H. do 4 (destruct c as [|c]; [cbn [co VecL_XYZW co_xyzw]; unfold hom, lerp3, plus3, times3; cbn [gx gy gz wx wy wz ww]; field|]). cbn [co VecL_XYZW co_xyzw]; unfold hom, lerp3, plus3, times3; cbn [gx gy gz wx wy wz ww]; field.
Qed.

Lemma Forall2_3 {X Y} (P : X -> Y -> Prop) a b c l : Forall2 P [a; b; c] l -> exists x y z, l = [x; y; z] /\ P a x /\ P b y /\ P c z.
Proof. intros H. inversion H as [|? x ? l1 Hx H1]; subst. inversion H1 as [|? y ? l2 Hy H2]; subst. inversion H2 as [|? z ? l3 Hz H3]; subst. inversion H3; subst. exists x, y, z. auto. Qed.

(* three knot vectors brought together *)
Lemma merge3 d a0 V0 a1 V1 a2 V2 (W : list R) : unit_knots d a0 V0 -> unit_knots d a1 V1 -> unit_knots d a2 V2 -> (forall x, In x V0 \/ In x V1 \/ In x V2 -> In x W) ->
  (forall x y, In x W -> In y W -> apart x y) -> exists e0 e1 e2, GetInsertedKnotElements [V0; V1; V2] = [e0; e1; e2] /\
  (forall e V, (e = e0 /\ V = V0) \/ (e = e1 /\ V = V1) \/ (e = e2 /\ V = V2) -> sorted e /\ (forall x, In x e -> (0 < x < 1)%R) /\ (forall x y, In x e -> In y (e ++ V) -> apart x y)) /\
  forall K0 K1 K2, sorted K0 -> sorted K1 -> sorted K2 -> Permutation K0 (e0 ++ V0) -> Permutation K1 (e1 ++ V1) -> Permutation K2 (e2 ++ V2) -> K1 = K0 /\ K2 = K0.
Proof.
  intros H0 H1 H2 HW Hap. pose proof (GetInsertedKnotElements_ok [V0; V1; V2]) as G. set (vs := [V0; V1; V2]) in *. unfold vs in G at 2.
  destruct (Forall2_3 _ _ _ _ _ G) as (e0 & e1 & e2 & EQ & (S0 & M0) & (S1 & M1) & (S2 & M2)).
  exists e0, e1, e2. split; [exact EQ|].
  assert (UQ : forall x a b, largest vs (fun w => occ w x) a -> largest vs (fun w => occ w x) b -> a = b).
  { intros x a b ((v & Iv & <-) & La) ((w & Iw & <-) & Lb). pose proof (La w Iw). pose proof (Lb v Iv). lia. }
  assert (AL : forall V, In V vs -> exists a, unit_knots d a V) by (intros V [<- | [<- | [<- | []]]]; eexists; eassumption).
  assert (ALW : forall V, In V vs -> forall x, In x V -> In x W) by (intros V [<- | [<- | [<- | []]]] x Hx; apply HW; auto).
  assert (EL : forall V e, In V vs -> (forall x, largest vs (fun w => occ w x) (occ (V ++ e) x)) -> forall x, In x e -> (0 < x < 1)%R /\ In x W).
  { intros V e HV HM x Hx. destruct (AL V HV) as (a & Ka). destruct (unit_occ _ _ _ Ka) as (O0 & O1). pose proof (HM x) as ((v & Iv & Ev) & La). rewrite occ_app in Ev. pose proof (proj2 (occ_pos e x) Hx) as Po. pose proof (occ_nonneg V x).
    destruct (AL v Iv) as (b & Kb). destruct (unit_occ _ _ _ Kb) as (P0 & P1). assert (Iv' : In x v) by (apply occ_pos; lia). pose proof (unit_between _ _ _ _ Kb Iv') as B. split; [|apply (ALW v Iv x Iv')].
    assert (x <> 0)%R by (intros ->; lia). assert (x <> 1)%R by (intros ->; lia). lra. }
  split.
  - assert (GEN : forall V e, In V vs -> sorted e -> (forall x, largest vs (fun w => occ w x) (occ (V ++ e) x)) -> sorted e /\ (forall x, In x e -> (0 < x < 1)%R) /\ (forall x y, In x e -> In y (e ++ V) -> apart x y)).
    { intros V e HV Hs HM. split; [exact Hs|]. split; [intros x Hx; apply (EL V e HV HM x Hx)|]. intros x y Hx Hy. apply Hap; [apply (EL V e HV HM x Hx)|]. apply in_app_or in Hy. destruct Hy as [Hy|Hy]; [apply (EL V e HV HM y Hy)|apply (ALW V HV y Hy)]. }
    intros e V [(-> & ->) | [(-> & ->) | (-> & ->)]]; apply GEN; auto; unfold vs; cbn; auto.
  - intros K0 K1 K2 T0 T1 T2 P0 P1 P2.
    assert (OC : forall K e V, Permutation K (e ++ V) -> forall x, occ K x = occ (V ++ e) x) by (intros K e V HP x; rewrite occ_app; unfold occ; rewrite (proj1 (Permutation_count_occ Req_EM_T _ _) HP x), count_occ_app; lia).
    split; apply occ_sorted_eq; auto; intros x; rewrite (OC _ _ _ P0); [rewrite (OC _ _ _ P1)|rewrite (OC _ _ _ P2)]; apply (UQ x); auto.
Qed.

Lemma net_got r c (Q : list (list (XYZW R))) i j : net r c Q -> 0 <= i < r -> 0 <= j < c -> get2 Q i j = Ok (pt2 Q i j).
Proof. intros [L H] Hi Hj. unfold get2. rewrite (get_at nil) by lia. cbn [bind]. rewrite (get_at vzero) by (rewrite H by lia; lia). reflexivity. Qed.

Section Tail.
Variables (d0 n0 : Z) (W0 : list R) (R0 R2 : list (XYZW R)) (d1 n1 : Z) (W1 : list R) (R1 R3 : list (XYZW R)) (p00 p01 p10 p11 : XYZ R).
Hypothesis K0 : unit_knots d0 n0 W0.
Hypothesis K1 : unit_knots d1 n1 W1.
Hypothesis (L0 : len R0 = n0 + 1) (L2 : len R2 = n0 + 1) (L1 : len R1 = n1 + 1) (L3 : len R3 = n1 + 1).
Hypothesis (B0 : 1 <= d0 <= 7) (B1 : 1 <= d1 <= 7).
Hypothesis (A0 : forall x y, In x W0 -> In y W0 -> apart x y) (A1 : forall x y, In x W1 -> In y W1 -> apart x y).
Hypothesis (S0 : d0 < 3 -> simple_inside d0 n0 W0) (S1 : d1 < 3 -> simple_inside d1 n1 W1).
Hypothesis P00 : NurbsPoint (mkCurve d0 W0 R0) 0%R = Ok p00.
Hypothesis P01 : NurbsPoint (mkCurve d0 W0 R2) 0%R = Ok p01.
Hypothesis P10 : NurbsPoint (mkCurve d0 W0 R0) 1%R = Ok p10.
Hypothesis P11 : NurbsPoint (mkCurve d0 W0 R2) 1%R = Ok p11.

Lemma unit_get d n W : unit_knots d n W -> get W 0 = Ok 0%R /\ get W (len W - 1) = Ok 1%R.
Proof.
  intros (HU & (C0 & C1) & Z0 & Z1). pose proof (ck_n _ _ _ HU). pose proof (ck_len _ _ _ HU) as HL. pose proof (ck_p _ _ _ HU).
  rewrite !(get_at 0%R) by lia. split; f_equal; [exact Z0|]. rewrite HL. replace (n + d + 2 - 1) with (n + d + 1) by lia. change (at_ 0%R W (n + d + 1)) with (val W (n + d + 1)). rewrite <- C1. exact Z1.
Qed.

Lemma unit_size d n n' W : unit_knots d n W -> unit_knots d n' W -> n' = n.
Proof. intros (H & _) (H' & _). pose proof (ck_len _ _ _ H). pose proof (ck_len _ _ _ H'). lia. Qed.

Definition coons_tail (c0 c1 c2 c3 : Curve R (XYZW R)) : res (Surface R (XYZW R)) :=
  let! ruledSurface0 := CreateRuledSurface c0 c2 in
  let! ts := CreateRuledSurface c1 c3 in
  let! ruledSurface1 := Swap ts in
  let! a0 := get (KnotVector c0) 0 in
  let! point00 := NurbsPoint c0 a0 in
  let! a2 := get (KnotVector c2) 0 in
  let! point01 := NurbsPoint c2 a2 in
  let! b0 := get (KnotVector c0) (len (KnotVector c0) - 1)%Z in
  let! point10 := NurbsPoint c0 b0 in
  let! b2 := get (KnotVector c2) (len (KnotVector c2) - 1)%Z in
  let! point11 := NurbsPoint c2 b2 in
  let! bilinearSurface := CreateBilinearSurface point00 point01 point10 point11 in
  let degreeU := Z.max (DegreeU ruledSurface0) (Z.max (DegreeU ruledSurface1) (DegreeU bilinearSurface)) in
  let! ruledSurface0 := coons_raise ruledSurface0 degreeU true in
  let! ruledSurface1 := coons_raise ruledSurface1 degreeU true in
  let! bilinearSurface := coons_raise bilinearSurface degreeU true in
  let degreeV := Z.max (DegreeV ruledSurface0) (Z.max (DegreeV ruledSurface1) (DegreeV bilinearSurface)) in
  let! ruledSurface0 := coons_raise ruledSurface0 degreeV false in
  let! ruledSurface1 := coons_raise ruledSurface1 degreeV false in
  let! bilinearSurface := coons_raise bilinearSurface degreeV false in
  let insertElements := GetInsertedKnotElements [KnotVectorU ruledSurface0; KnotVectorU ruledSurface1; KnotVectorU bilinearSurface] in
  let! e0 := get insertElements 0 in
  let! e1 := get insertElements 1 in
  let! e2 := get insertElements 2 in
  let! ruledSurface0 := coons_refine ruledSurface0 e0 true in
  let! ruledSurface1 := coons_refine ruledSurface1 e1 true in
  let! bilinearSurface := coons_refine bilinearSurface e2 true in
  let insertElements := GetInsertedKnotElements [KnotVectorV ruledSurface0; KnotVectorV ruledSurface1; KnotVectorV bilinearSurface] in
  let! e0 := get insertElements 0 in
  let! e1 := get insertElements 1 in
  let! e2 := get insertElements 2 in
  let! ruledSurface0 := coons_refine ruledSurface0 e0 false in
  let! ruledSurface1 := coons_refine ruledSurface1 e1 false in
  let! bilinearSurface := coons_refine bilinearSurface e2 false in
  let row := len (SControlPoints ruledSurface0) in
  let! row0 := get (SControlPoints ruledSurface0) 0 in
  let column := len row0 in
  let! line := mkvec column xyzw0 in
  let! controlPoints := mkvec row line in
  let! controlPoints := for_up 0 row controlPoints (fun i controlPoints =>
    for_up 0 column controlPoints (fun j controlPoints =>
      let! x := get2 (SControlPoints ruledSurface0) i j in
      let! y := get2 (SControlPoints ruledSurface1) i j in
      let! z := get2 (SControlPoints bilinearSurface) i j in
      upd2 controlPoints i j (xyzw_sub (xyzw_add x y) z))) in
  Ok (mkSurface (DegreeU ruledSurface0) (DegreeV ruledSurface0) (KnotVectorU ruledSurface0) (KnotVectorV ruledSurface0) controlPoints).

Lemma coons_sum X Y Z n m p U q W F G H : tile X n m p U q W F -> tile Y n m p U q W G -> tile Z n m p U q W H ->
  wp (let row := len (SControlPoints X) in
      let! row0 := get (SControlPoints X) 0 in
      let column := len row0 in
      let! line := mkvec column xyzw0 in
      let! controlPoints := mkvec row line in
      let! controlPoints := for_up 0 row controlPoints (fun i controlPoints =>
        for_up 0 column controlPoints (fun j controlPoints =>
          let! x := get2 (SControlPoints X) i j in
          let! y := get2 (SControlPoints Y) i j in
          let! z := get2 (SControlPoints Z) i j in
          upd2 controlPoints i j (xyzw_sub (xyzw_add x y) z))) in
      Ok (mkSurface (DegreeU X) (DegreeV X) (KnotVectorU X) (KnotVectorV X) controlPoints))
    (fun S => tile S n m p U q W (fun u v => vsub (vadd (F u v) (G u v)) (H u v))).
Proof.
  intros ((KX1 & KX2 & NX & X1 & X2) & HX1 & HX2 & HX3 & HX4 & HU & HW & HF) ((KY1 & KY2 & NY & Y1 & Y2) & HY1 & HY2 & HY3 & HY4 & _ & _ & HG) ((KZ1 & KZ2 & NZ & Z1 & Z2) & HZ1 & HZ2 & HZ3 & HZ4 & _ & _ & HH).
  pose proof HU as (HU' & _). pose proof HW as (HW' & _). pose proof (ck_n _ _ _ HU'). pose proof (ck_p _ _ _ HU'). pose proof (ck_n _ _ _ HW'). pose proof (ck_p _ _ _ HW').
  cbv zeta. rewrite (proj1 NX). rewrite (get_at nil) by (rewrite (proj1 NX); lia). cbn [bind]. rewrite (proj2 NX) by lia.
  set (f := fun i j => vsub (vadd (pt2 (SControlPoints X) i j) (pt2 (SControlPoints Y) i j)) (pt2 (SControlPoints Z) i j)).
  apply wp_bind. apply wp_mkvec; [lia|]. intros row Hrow. apply wp_bind. eapply wp_mkvec2; [lia|exact Hrow|]. intros T0 HT0.
  apply wp_bind. apply (wp_fill2 (n + 1) (m + 1) f); [lia|lia| | |].
  - apply (arr2D_ext _ _ _ (fun _ _ => False) _ (fun _ _ => xyzw0) _ (arr2_D _ _ _ _ _ HT0)). intros; contradiction.
  - intros i j T Hi Hj. rewrite (net_got _ _ _ i j NX), (net_got _ _ _ i j NY), (net_got _ _ _ i j NZ) by lia. reflexivity.
  - intros T HT. apply wp_ok. split; [split; [rewrite HX1, HX2; exact HU'|split; [rewrite HX3, HX4; exact HW'|split; [exact (net_arr2 _ _ _ _ HT)|split; assumption]]]|]. do 4 (split; [assumption|]). split; [exact HU|]. split; [exact HW|].
    cbn [SControlPoints]. intros u v Hu Hv. rewrite <- HF, <- HG, <- HH by assumption. apply co_ext. intros c. rewrite co_sub, co_add. unfold surface_point. rewrite !co_comb.
    rewrite <- rsum_plus, <- rsum_minus. apply rsum_ext. intros i Hi. rewrite !co_comb. rewrite <- !Rmult_plus_distr_l, <- Rmult_minus_distr_l. f_equal. rewrite <- rsum_plus, <- rsum_minus. apply rsum_ext. intros j Hj.
    rewrite (pt2_arr2 _ _ _ _ i _ HT) by lia. unfold f. rewrite co_sub, co_add. ring.
Qed.

Lemma coons_tail_ok : exists X n m KU KV, coons_tail (mkCurve d0 W0 R0) (mkCurve d1 W1 R1) (mkCurve d0 W0 R2) (mkCurve d1 W1 R3) = Ok X /\
  tile X n m (Z.max d0 3) KU (Z.max d1 3) KV (coons_blend (curve_point d0 n0 W0 R0) (curve_point d1 n1 W1 R1) (curve_point d0 n0 W0 R2) (curve_point d1 n1 W1 R3) p00 p01 p10 p11).
Proof.
  unfold coons_tail. destruct (Ruled_same d0 n0 W0 R0 R2 K0 ltac:(lia) L0 L2) as (X & -> & TX). cbn [bind].
  destruct (Ruled_same d1 n1 W1 R1 R3 K1 ltac:(lia) L1 L3) as (Y' & -> & TY'). cbn [bind]. destruct (Swap_tile _ _ _ _ _ _ _ _ TY') as (Y & -> & TY). cbn [bind KnotVector]. clear TY' Y'.
  destruct (unit_get _ _ _ K0) as (G0 & G1). rewrite G0, G1. cbn [bind]. rewrite P00, P01, P10, P11. cbn [bind]. 
  destruct (Bilinear_tile p00 p01 p10 p11) as (Z & -> & TZ). cbn [bind]. cbv zeta.
  pose proof TX as (_ & EX & _). pose proof TY as (_ & EY & _). pose proof TZ as (_ & EZ & _). rewrite EX, EY, EZ. clear EX EY EZ. replace (Z.max d0 (Z.max 1 3)) with (Z.max d0 3) by lia. set (p := Z.max d0 3).
  destruct (raise_u _ _ _ _ _ _ _ _ p TX) as (X1 & a0 & U0 & -> & TX1 & IX & OX); [lia|exact A0|intros H; split; [lia|apply S0; lia]|]. cbn [bind].
  destruct (raise_u _ _ _ _ _ _ _ _ p TY) as (Y1 & a1 & U1 & -> & TY1 & IY & OY); [lia|intros; apply (bez_apart 1); auto; lia|intros H; split; [lia|apply (bez_simple 1); lia]|]. cbn [bind].
  destruct (raise_u _ _ _ _ _ _ _ _ p TZ) as (Z1 & a2 & U2 & -> & TZ1 & IZ & OZ); [lia|intros; apply (bez_apart 3); auto; lia|intros H; split; [lia|apply (bez_simple 3); lia]|]. cbn [bind].
  clear X Y Z TX TY TZ. pose proof TX1 as (_ & _ & _ & EX & _). pose proof TY1 as (_ & _ & _ & EY & _). pose proof TZ1 as (_ & _ & _ & EZ & _). rewrite EX, EY, EZ. clear EX EY EZ. replace (Z.max 1 (Z.max d1 3)) with (Z.max d1 3) by lia. set (q := Z.max d1 3).
  destruct (raise_v _ _ _ _ _ _ _ _ q TX1) as (X2 & b0 & V0 & -> & TX2 & JX & QX); [lia|intros; apply (bez_apart 1); auto; lia|intros H; split; [lia|apply (bez_simple 1); lia]|]. cbn [bind].
  destruct (raise_v _ _ _ _ _ _ _ _ q TY1) as (Y2 & b1 & V1 & -> & TY2 & JY & QY); [lia|exact A1|intros H; split; [lia|apply S1; lia]|]. cbn [bind].
  destruct (raise_v _ _ _ _ _ _ _ _ q TZ1) as (Z2 & b2 & V2 & -> & TZ2 & JZ & QZ); [lia|intros; apply (bez_apart 3); auto; lia|intros H; split; [lia|apply (bez_simple 3); lia]|]. cbn [bind].
  clear X1 Y1 Z1 TX1 TY1 TZ1.
  pose proof TX2 as (_ & _ & EX & _ & _ & KX & _). pose proof TY2 as (_ & _ & EY & _ & _ & KY & _). pose proof TZ2 as (_ & _ & EZ & _ & _ & KZ & _). rewrite EX, EY, EZ. clear EX EY EZ.
  destruct (unit_ends _ _ _ K0) as (M0 & M1). destruct (unit_ends _ _ _ K1) as (M2 & M3).
  destruct (merge3 p a0 U0 a1 U1 a2 U2 W0 KX KY KZ) as (e0 & e1 & e2 & -> & HE & HK); [|exact A0|].
  { intros x [H | [H | H]]; [apply IX, H|apply IY, bez_in in H; [|lia]|apply IZ, bez_in in H; [|lia]]; destruct H as [-> | ->]; assumption. }
  change (get [e0; e1; e2] 0) with (Ok e0). change (get [e0; e1; e2] 1) with (Ok e1). change (get [e0; e1; e2] 2) with (Ok e2). cbn [bind].
  destruct (HE e0 U0) as (F1 & F2 & F3); [tauto|]. destruct (refine_u _ _ _ _ _ _ _ _ e0 TX2 F1 F2 F3) as (X3 & c0 & T0 & -> & TX3 & PX). cbn [bind]. clear F1 F2 F3.
  destruct (HE e1 U1) as (F1 & F2 & F3); [tauto|]. destruct (refine_u _ _ _ _ _ _ _ _ e1 TY2 F1 F2 F3) as (Y3 & c1 & T1 & -> & TY3 & PY). cbn [bind]. clear F1 F2 F3.
  destruct (HE e2 U2) as (F1 & F2 & F3); [tauto|]. destruct (refine_u _ _ _ _ _ _ _ _ e2 TZ2 F1 F2 F3) as (Z3 & c2 & T2 & -> & TZ3 & PZ). cbn [bind]. clear F1 F2 F3.
  pose proof TX3 as (_ & _ & _ & _ & EX & KX3 & LX & _). pose proof TY3 as (_ & _ & _ & _ & EY & KY3 & LY & _). pose proof TZ3 as (_ & _ & _ & _ & EZ & KZ3 & LZ & _). rewrite EX, EY, EZ. clear EX EY EZ.
  destruct (HK T0 T1 T2) as (-> & ->); [apply KX3|apply KY3|apply KZ3|exact PX|exact PY|exact PZ|]. pose proof (unit_size _ _ _ _ KX3 KY3) as ->. pose proof (unit_size _ _ _ _ KX3 KZ3) as ->.
  clear HE HK X2 Y2 Z2 TX2 TY2 TZ2 PX PY PZ e0 e1 e2.
  destruct (merge3 q b0 V0 b1 V1 b2 V2 W1 LX LY LZ) as (e0 & e1 & e2 & -> & HE & HK); [|exact A1|].
  { intros x [H | [H | H]]; [apply JX, bez_in in H; [|lia]|apply JY, H|apply JZ, bez_in in H; [|lia]]; destruct H as [-> | ->]; assumption. }
  change (get [e0; e1; e2] 0) with (Ok e0). change (get [e0; e1; e2] 1) with (Ok e1). change (get [e0; e1; e2] 2) with (Ok e2). cbn [bind].
  destruct (HE e0 V0) as (F1 & F2 & F3); [tauto|]. destruct (refine_v _ _ _ _ _ _ _ _ e0 TX3 F1 F2 F3) as (X4 & c3 & N0 & -> & TX4 & PX). cbn [bind]. clear F1 F2 F3.
  destruct (HE e1 V1) as (F1 & F2 & F3); [tauto|]. destruct (refine_v _ _ _ _ _ _ _ _ e1 TY3 F1 F2 F3) as (Y4 & c4 & N1 & -> & TY4 & PY). cbn [bind]. clear F1 F2 F3.
  destruct (HE e2 V2) as (F1 & F2 & F3); [tauto|]. destruct (refine_v _ _ _ _ _ _ _ _ e2 TZ3 F1 F2 F3) as (Z4 & c5 & N2 & -> & TZ4 & PZ). cbn [bind]. clear F1 F2 F3.
  pose proof TX4 as (_ & _ & _ & _ & _ & _ & KX4 & _). pose proof TY4 as (_ & _ & _ & _ & _ & _ & KY4 & _). pose proof TZ4 as (_ & _ & _ & _ & _ & _ & KZ4 & _).
  destruct (HK N0 N1 N2) as (-> & ->); [apply KX4|apply KY4|apply KZ4|exact PX|exact PY|exact PZ|]. pose proof (unit_size _ _ _ _ KX4 KY4) as ->. pose proof (unit_size _ _ _ _ KX4 KZ4) as ->.
  destruct (wp_elim _ _ (coons_sum _ _ _ _ _ _ _ _ _ _ _ _ TX4 TY4 TZ4)) as (S & E & TS). exists S, c0, c3, T0, N0. split; [exact E|exact TS].
Qed.
End Tail.

Lemma unit_reparam p n U (P : list (XYZW R)) : unit_knots p n U -> Reparametrize (mkCurve p U P) 0%R 1%R = Ok (mkCurve p U P).
Proof. intros H. destruct (unit_get _ _ _ H) as (G0 & G1). unfold Reparametrize. cbn [KnotVector]. rewrite G0, G1. cbn [bind]. rewrite !aeq_refl. reflexivity. Qed.

Lemma unit_point p n U (P : list (XYZW R)) t : unit_knots p n U -> p <= 7 -> len P = n + 1 -> (0 <= t <= 1)%R -> NurbsPoint (mkCurve p U P) t = ToXYZ (curve_point p n U P t) true.
Proof. intros H H7 L Ht. apply NurbsPoint_ok; auto; [apply H|apply (unit_dom _ _ _ _ H), Ht]. Qed.

Section Coons.
Variables (p0 m0 : Z) (U0 : list R) (P0 : list (XYZW R)) (p1 m1 : Z) (U1 : list R) (P1 : list (XYZW R)) (p2 m2 : Z) (U2 : list R) (P2 : list (XYZW R)) (p3 m3 : Z) (U3 : list R) (P3 : list (XYZW R)).
Variables (right top : Curve R (XYZW R)) (a00 a01 a10 a11 b00 b01 b10 b11 : XYZ R).
Hypothesis E0 : edge p0 m0 U0 P0.
Hypothesis E1 : edge p1 m1 U1 P1.
Hypothesis E2 : edge p2 m2 U2 P2.
Hypothesis E3 : edge p3 m3 U3 P3.
Hypothesis HR : Reverse right = Ok (mkCurve p2 U2 P2).
Hypothesis HT : Reverse top = Ok (mkCurve p3 U3 P3).
Hypothesis H02 : matching_edges p0 m0 U0 p2 m2 U2.
Hypothesis H13 : matching_edges p1 m1 U1 p3 m3 U3.
Hypothesis A00 : NurbsPoint (mkCurve p0 U0 P0) 0%R = Ok a00.
Hypothesis B00 : NurbsPoint (mkCurve p3 U3 P3) 0%R = Ok b00.
Hypothesis A01 : NurbsPoint (mkCurve p2 U2 P2) 0%R = Ok a01.
Hypothesis B01 : NurbsPoint (mkCurve p3 U3 P3) 1%R = Ok b01.
Hypothesis A10 : NurbsPoint (mkCurve p0 U0 P0) 1%R = Ok a10.
Hypothesis B10 : NurbsPoint (mkCurve p1 U1 P1) 0%R = Ok b10.
Hypothesis A11 : NurbsPoint (mkCurve p2 U2 P2) 1%R = Ok a11.
Hypothesis B11 : NurbsPoint (mkCurve p1 U1 P1) 1%R = Ok b11.

Lemma coons_start : CreateCoonsSurface (mkCurve p0 U0 P0) (mkCurve p1 U1 P1) right top =
  if xyz_IsAlmostEqualTo a00 b00 && xyz_IsAlmostEqualTo a01 b01 && xyz_IsAlmostEqualTo a10 b10 && xyz_IsAlmostEqualTo a11 b11 then
    let! n02 := coons_match (mkCurve p0 U0 P0) (mkCurve p2 U2 P2) in
    let! n13 := coons_match (mkCurve p1 U1 P1) (mkCurve p3 U3 P3) in
    coons_tail (fst n02) (fst n13) (snd n02) (snd n13)
  else Throw.
Proof.
  destruct E0 as (K0 & L0 & D0 & _), E1 as (K1 & L1 & D1 & _), E2 as (K2 & L2 & D2 & _), E3 as (K3 & L3 & D3 & _).
  unfold CreateCoonsSurface. rewrite HR, HT. cbn [bind]. num.
  rewrite (unit_reparam _ _ _ _ K0), (unit_reparam _ _ _ _ K1), (unit_reparam _ _ _ _ K2), (unit_reparam _ _ _ _ K3). cbn [bind].
  rewrite A00, B00, A01, B01, A10, B10, A11, B11. cbn [bind].
  destruct (xyz_IsAlmostEqualTo a00 b00 && xyz_IsAlmostEqualTo a01 b01 && xyz_IsAlmostEqualTo a10 b10 && xyz_IsAlmostEqualTo a11 b11); [|reflexivity]. cbn [validate bind].
  destruct (coons_match (mkCurve p0 U0 P0) (mkCurve p2 U2 P2)) as [[c0 c2]|]; [|reflexivity]. cbn [bind fst snd]. destruct (coons_match (mkCurve p1 U1 P1) (mkCurve p3 U3 P3)) as [[c1 c3]|]; reflexivity.
Qed.

Lemma coons_apart : ~ (Spec3.near a00 b00 /\ Spec3.near a01 b01 /\ Spec3.near a10 b10 /\ Spec3.near a11 b11) -> CreateCoonsSurface (mkCurve p0 U0 P0) (mkCurve p1 U1 P1) right top = Throw.
Proof.
  intros Hn. rewrite coons_start. destruct (xyz_IsAlmostEqualTo a00 b00 && xyz_IsAlmostEqualTo a01 b01 && xyz_IsAlmostEqualTo a10 b10 && xyz_IsAlmostEqualTo a11 b11) eqn:E; [|reflexivity].
  exfalso. apply Hn. rewrite !andb_true_iff, !P_Matrix.near_iff in E. tauto.
Qed.

Lemma coons_ok : Spec3.near a00 b00 -> Spec3.near a01 b01 -> Spec3.near a10 b10 -> Spec3.near a11 b11 ->
  exists X n m KU KV, CreateCoonsSurface (mkCurve p0 U0 P0) (mkCurve p1 U1 P1) right top = Ok X /\
  tile X n m (Z.max (Z.max p0 p2) 3) KU (Z.max (Z.max p1 p3) 3) KV
    (coons_blend (curve_point p0 m0 U0 P0) (curve_point p1 m1 U1 P1) (curve_point p2 m2 U2 P2) (curve_point p3 m3 U3 P3) a00 a01 a10 a11).
Proof.
  intros N0 N1 N2 N3. rewrite coons_start. rewrite !(proj2 (P_Matrix.near_iff _ _)) by assumption. cbn [andb].
  destruct E0 as (K0 & L0 & D0 & _), E1 as (K1 & L1 & D1 & _), E2 as (K2 & L2 & D2 & _), E3 as (K3 & L3 & D3 & _). destruct H02 as (C02 & S0 & S2 & M02), H13 as (C13 & S1 & S3 & M13).
  destruct (pair_ok p0 m0 U0 P0 p2 m2 U2 P2 K0 L0 K2 L2 C02) as (a & W0 & R0 & R2 & -> & KW0 & LR0 & LR2 & IW0 & HW0 & SW0); [intros; split; [lia|apply S0; lia]|intros; split; [lia|apply S2; lia]|].
  destruct (pair_ok p1 m1 U1 P1 p3 m3 U3 P3 K1 L1 K3 L3 C13) as (b & W1 & R1 & R3 & -> & KW1 & LR1 & LR3 & IW1 & HW1 & SW1); [intros; split; [lia|apply S1; lia]|intros; split; [lia|apply S3; lia]|].
  cbn [bind fst snd].
  destruct (coons_tail_ok (Z.max p0 p2) a W0 R0 R2 (Z.max p1 p3) b W1 R1 R3 a00 a01 a10 a11 KW0 KW1 LR0 LR2 LR1 LR3) as (X & n & m & KU & KV & E & TX); try lia.
  { intros x y Hx Hy. apply C02; apply IW0; assumption. }
  { intros x y Hx Hy. apply C13; apply IW1; assumption. }
  { intros H. apply SW0; [apply M02; lia|apply S0; lia|apply S2; lia]. }
  { intros H. apply SW1; [apply M13; lia|apply S1; lia|apply S3; lia]. }
  { rewrite (unit_point _ a) by (auto; lia || lra). rewrite (proj1 (HW0 0%R ltac:(lra))). rewrite <- A00. symmetry. apply unit_point; auto; lia || lra. }
  { rewrite (unit_point _ a) by (auto; lia || lra). rewrite (proj2 (HW0 0%R ltac:(lra))). rewrite <- A01. symmetry. apply unit_point; auto; lia || lra. }
  { rewrite (unit_point _ a) by (auto; lia || lra). rewrite (proj1 (HW0 1%R ltac:(lra))). rewrite <- A10. symmetry. apply unit_point; auto; lia || lra. }
  { rewrite (unit_point _ a) by (auto; lia || lra). rewrite (proj2 (HW0 1%R ltac:(lra))). rewrite <- A11. symmetry. apply unit_point; auto; lia || lra. }
  exists X, n, m, KU, KV. split; [exact E|]. destruct TX as (V1 & V2 & V3 & V4 & V5 & V6 & V7 & V8). split; [exact V1|]. split; [exact V2|]. split; [exact V3|]. split; [exact V4|]. split; [exact V5|]. split; [exact V6|]. split; [exact V7|].
  intros u v Hu Hv. rewrite V8 by assumption. unfold coons_blend. destruct (HW0 u Hu) as (-> & ->), (HW1 v Hv) as (-> & ->). reflexivity.
Qed.
End Coons.

Lemma edge_ends p n U (P : list (XYZW R)) : edge p n U P -> curve_point p n U P 0%R = pt P 0 /\ curve_point p n U P 1%R = pt P n /\
  NurbsPoint (mkCurve p U P) 0%R = Ok (proj (pt P 0)) /\ NurbsPoint (mkCurve p U P) 1%R = Ok (proj (pt P n)) /\ pt P 0 = hom (proj (pt P 0)) 1 /\ pt P n = hom (proj (pt P n)) 1.
Proof.
  intros (K & L & D & W0 & W1). pose proof K as (HU & Hc & Z0 & Z1). 
  assert (C0 : curve_point p n U P 0%R = pt P 0) by (rewrite <- Z0, (proj1 Hc); apply curve_point_first; auto; lia).
  assert (C1 : curve_point p n U P 1%R = pt P n) by (rewrite <- Z1; apply curve_point_last; auto; lia).
  assert (T1 : (tol 1 0 < 1)%R) by (unfold tol; rewrite Rabs_R0, Rabs_R1, Rmax_left by lra; lra).
  assert (PH : forall x : XYZW R, ww x = 1%R -> x = hom (proj x) 1) by (intros [x1 x2 x3 x4]; cbn [ww]; intros ->; unfold hom, proj; cbn [wx wy wz ww gx gy gz]; f_equal; field).
  split; [exact C0|]. split; [exact C1|]. rewrite !(unit_point _ n) by (auto; lia || lra). rewrite C0, C1.
  split; [apply heavy_ToXYZ; rewrite W0; exact T1|]. split; [apply heavy_ToXYZ; rewrite W1; exact T1|]. split; apply PH; assumption.
Qed.

Lemma flip_edge p n U (P : list (XYZW R)) : edge p n U P -> (forall x y, In x (flipped U) -> In y (flipped U) -> apart x y) ->
  Reverse (mkCurve p U P) = Ok (mkCurve p (flipped U) (rev P)) /\ edge p n (flipped U) (rev P) /\ pt (rev P) 0 = pt P n /\ pt (rev P) n = pt P 0 /\
  (unbroken p U -> forall t, (0 <= t <= 1)%R -> curve_point p n (flipped U) (rev P) t = curve_point p n U P (1 - t)%R).
Proof.
  intros (K & L & D & W0 & W1) Ap. pose proof K as (HU & Hc & Z0 & Z1). pose proof HU as [Hp Hn HL HS Hf Hl].
  destruct (Reverse_arr p n U P HU) as (W & E & HW).
  assert (Zl : val U (n + p + 1) = 1%R) by (rewrite <- Z1; destruct Hc as (_ & C); rewrite <- C; f_equal; lia).
  assert (HF : arr (flipped U) (n + p + 2) (fun i => (val U 0 + val U (n + p + 1) - val U (n + p + 1 - i))%R)).
  { unfold flipped. assert (LM : len (map (fun x => (1 - x)%R) U) = n + p + 2) by (unfold len in *; rewrite map_length; exact HL).
    eapply arr_ext; [apply (arr_rev 1%R); exact LM|]. intros i Hi. cbv beta. unfold at_. 
    rewrite (nth_indep _ 1%R ((fun x => (1 - x)%R) 0%R)) by (unfold len in LM; lia). rewrite map_nth. rewrite Z0, Zl. unfold val, at_. f_equal; [ring|]. f_equal. f_equal. lia. }
  assert (EW : W = flipped U) by (eapply arr_inj; [exact HW|exact HF]). subst W.
  assert (HQ : arr (rev P) (n + 1) (fun i => pt P (n - i))).
  { eapply arr_ext; [apply (arr_rev vzero); exact L|]. intros i Hi. cbv beta. unfold pt. f_equal. lia. }
  assert (VF : forall i, 0 <= i <= n + p + 1 -> val (flipped U) i = (1 - val U (n + p + 1 - i))%R) by (intros i Hi; rewrite (arr_val _ _ _ _ HF) by lia; rewrite Z0, Zl; ring).
  assert (F0 : val (flipped U) p = 0%R) by (rewrite VF by lia; replace (n + p + 1 - p) with (n + 1) by lia; rewrite Z1; ring).
  assert (Zp : val U p = 0%R) by (rewrite <- Z0; symmetry; apply Hc).
  assert (F1 : val (flipped U) (n + 1) = 1%R) by (rewrite VF by lia; replace (n + p + 1 - (n + 1)) with p by lia; rewrite Zp; ring).
  pose proof (arr_len _ _ _ HF) as LF.
  assert (KF : curve_knots p n (flipped U)).
  { pose proof (tol_pos (val U p) (val U (p + 1))). pose proof (tol_pos (val U n) (val U (n + 1))). pose proof (tol_pos (val (flipped U) p) (val (flipped U) (p + 1))). pose proof (tol_pos (val (flipped U) n) (val (flipped U) (n + 1))). constructor; try assumption.
    - exact (rev_sorted p n U (flipped U) HU HF).
    - destruct (Ap (val (flipped U) p) (val (flipped U) (p + 1)) ltac:(apply val_In; lia) ltac:(apply val_In; lia)) as [A | A].
      + rewrite F0, VF in A by lia. replace (n + p + 1 - (p + 1)) with n in A by lia. lra.
      + assert (val (flipped U) (p + 1) = 1 - val U n)%R by (rewrite VF by lia; do 2 f_equal; lia). rewrite Rabs_left1 in A by lra. lra.
    - destruct (Ap (val (flipped U) n) (val (flipped U) (n + 1)) ltac:(apply val_In; lia) ltac:(apply val_In; lia)) as [A | A].
      + rewrite F1, VF in A by lia. replace (n + p + 1 - n) with (p + 1) in A by lia. lra.
      + assert (val (flipped U) n = 1 - val U (p + 1))%R by (rewrite VF by lia; do 2 f_equal; lia). rewrite Rabs_left1 in A by lra. lra. }
  assert (Q0 : pt (rev P) 0 = pt P n) by (rewrite (arr_pt_eq _ _ _ _ HQ) by lia; f_equal; lia).
  assert (Qn : pt (rev P) n = pt P 0) by (rewrite (arr_pt_eq _ _ _ _ HQ) by lia; f_equal; lia).
  split; [exact E|]. split; [|split; [exact Q0|split; [exact Qn|]]].
  - split; [|split; [exact (arr_len _ _ _ HQ)|split; [exact D|rewrite Q0, Qn; split; assumption]]].
    split; [exact KF|]. split; [|split; [|exact F1]].
    + split.
      * rewrite F0, VF by lia. replace (n + p + 1 - 0) with (n + p + 1) by lia. rewrite Zl. ring.
      * rewrite F1, VF by lia. replace (n + p + 1 - (n + p + 1)) with 0 by lia. rewrite Z0. ring.
    + rewrite VF by lia. replace (n + p + 1 - 0) with (n + p + 1) by lia. rewrite Zl. ring.
  - intros B t Ht. pose proof (rev_point p n U (flipped U) P (rev P) HU HF HQ (1 - t)%R KF) as RP. rewrite Z0, Zl in RP. replace (0 + 1 - (1 - t))%R with t in RP by ring. apply RP.
    + apply (unit_dom _ _ _ _ K). lra.
    + rewrite Zp, Z1. destruct (Req_dec t 0); [right; right; lra|]. destruct (Req_dec t 1); [right; left; lra|]. left. apply B. lra.
Qed.

Section Edges.
Variables (p0 m0 : Z) (U0 : list R) (P0 : list (XYZW R)) (p1 m1 : Z) (U1 : list R) (P1 : list (XYZW R)) (p2 m2 : Z) (U2 : list R) (P2 : list (XYZW R)) (p3 m3 : Z) (U3 : list R) (P3 : list (XYZW R)).
Variables (right top : Curve R (XYZW R)).
Hypothesis E0 : edge p0 m0 U0 P0.
Hypothesis E1 : edge p1 m1 U1 P1.
Hypothesis E2 : edge p2 m2 U2 P2.
Hypothesis E3 : edge p3 m3 U3 P3.
Hypothesis HR : Reverse right = Ok (mkCurve p2 U2 P2).
Hypothesis HT : Reverse top = Ok (mkCurve p3 U3 P3).

Lemma Coons_apart : ~ (Spec3.near (proj (pt P0 0)) (proj (pt P3 0)) /\ Spec3.near (proj (pt P2 0)) (proj (pt P3 m3)) /\ Spec3.near (proj (pt P0 m0)) (proj (pt P1 0)) /\ Spec3.near (proj (pt P2 m2)) (proj (pt P1 m1))) ->
  CreateCoonsSurface (mkCurve p0 U0 P0) (mkCurve p1 U1 P1) right top = Throw.
Proof.
  destruct (edge_ends _ _ _ _ E0) as (_ & _ & A0 & A1 & _), (edge_ends _ _ _ _ E1) as (_ & _ & B0 & B1 & _), (edge_ends _ _ _ _ E2) as (_ & _ & C0 & C1 & _), (edge_ends _ _ _ _ E3) as (_ & _ & D0 & D1 & _).
  apply (coons_apart p0 m0 U0 P0 p1 m1 U1 P1 p2 m2 U2 P2 p3 m3 U3 P3); assumption.
Qed.

Hypothesis H02 : matching_edges p0 m0 U0 p2 m2 U2.
Hypothesis H13 : matching_edges p1 m1 U1 p3 m3 U3.

Lemma Coons_ok : Spec3.near (proj (pt P0 0)) (proj (pt P3 0)) -> Spec3.near (proj (pt P2 0)) (proj (pt P3 m3)) -> Spec3.near (proj (pt P0 m0)) (proj (pt P1 0)) -> Spec3.near (proj (pt P2 m2)) (proj (pt P1 m1)) ->
  returns (CreateCoonsSurface (mkCurve p0 U0 P0) (mkCurve p1 U1 P1) right top) (fun S => exists n m,
    valid_surface n m S /\ DegreeU S = Z.max (Z.max p0 p2) 3 /\ DegreeV S = Z.max (Z.max p1 p3) 3 /\ unit_knots (DegreeU S) n (KnotVectorU S) /\ unit_knots (DegreeV S) m (KnotVectorV S) /\
    forall u v, (0 <= u <= 1)%R -> (0 <= v <= 1)%R -> GetPointOnSurface S u v = Ok (coons_blend (curve_point p0 m0 U0 P0) (curve_point p1 m1 U1 P1) (curve_point p2 m2 U2 P2) (curve_point p3 m3 U3 P3)
      (proj (pt P0 0)) (proj (pt P2 0)) (proj (pt P0 m0)) (proj (pt P2 m2)) u v)).
Proof.
  intros N0 N1 N2 N3.
  destruct (edge_ends _ _ _ _ E0) as (_ & _ & A0 & A1 & _), (edge_ends _ _ _ _ E1) as (_ & _ & B0 & B1 & _), (edge_ends _ _ _ _ E2) as (_ & _ & C0 & C1 & _), (edge_ends _ _ _ _ E3) as (_ & _ & D0 & D1 & _).
  destruct (coons_ok p0 m0 U0 P0 p1 m1 U1 P1 p2 m2 U2 P2 p3 m3 U3 P3 right top _ _ _ _ _ _ _ _ E0 E1 E2 E3 HR HT H02 H13 A0 D0 C0 D1 A1 B0 C1 B1 N0 N1 N2 N3) as (X & n & m & KU & KV & E & T).
  exists X. split; [exact E|]. exists n, m. pose proof T as (V1 & V2 & V3 & V4 & V5 & V6 & V7 & V8). rewrite V2, V3, V4, V5. do 3 (split; [assumption || reflexivity|]). split; [exact V6|]. split; [exact V7|].
  intros u v Hu Hv. apply (tile_get X n m _ _ _ _ _ u v T); assumption.
Qed.
End Edges.

(* the blend on the four sides of the square *)
Lemma blend_u0 c0 c1 c2 c3 a00 a01 a10 a11 v : c0 0%R = hom a00 1 -> c2 0%R = hom a01 1 -> coons_blend c0 c1 c2 c3 a00 a01 a10 a11 0 v = c1 v.
Proof.
  intros H0 H2. unfold coons_blend. rewrite H0, H2. apply co_ext. intros c. repeat rewrite ?co_sub, ?co_add, ?co_scale.
  enough (E : co c (hom (lerp3 (lerp3 a00 a10 0) (lerp3 a01 a11 0) v) 1) = ((1 - v) * co c (hom a00 1) + v * co c (hom a01 1))%R) by (rewrite E; ring).
  rewrite <- !co_scale, <- co_add. f_equal. unfold hom, lerp3, plus3, times3. cbn. unfold xyzw_add, xyzw_scale. num. cbn [wx wy wz ww gx gy gz]. f_equal; ring.
Qed.
Lemma blend_u1 c0 c1 c2 c3 a00 a01 a10 a11 v : c0 1%R = hom a10 1 -> c2 1%R = hom a11 1 -> coons_blend c0 c1 c2 c3 a00 a01 a10 a11 1 v = c3 v.
Proof.
  intros H0 H2. unfold coons_blend. rewrite H0, H2. apply co_ext. intros c. repeat rewrite ?co_sub, ?co_add, ?co_scale.
  enough (E : co c (hom (lerp3 (lerp3 a00 a10 1) (lerp3 a01 a11 1) v) 1) = ((1 - v) * co c (hom a10 1) + v * co c (hom a11 1))%R) by (rewrite E; ring).
  rewrite <- !co_scale, <- co_add. f_equal. unfold hom, lerp3, plus3, times3. cbn. unfold xyzw_add, xyzw_scale. num. cbn [wx wy wz ww gx gy gz]. f_equal; ring.
Qed.
Lemma blend_v0 c0 c1 c2 c3 a00 a01 a10 a11 u : c1 0%R = hom a10 1 -> c3 0%R = hom a00 1 -> coons_blend c0 c1 c2 c3 a00 a01 a10 a11 u 0 = vadd (c0 u) (vscale (1 - 2 * u)%R (vsub (hom a10 1) (hom a00 1))).
Proof.
  intros H1 H3. unfold coons_blend. rewrite H1, H3. apply co_ext. intros c. repeat rewrite ?co_sub, ?co_add, ?co_scale.
  enough (E : co c (hom (lerp3 (lerp3 a00 a10 u) (lerp3 a01 a11 u) 0) 1) = ((1 - u) * co c (hom a00 1) + u * co c (hom a10 1))%R) by (rewrite E; ring).
  rewrite <- !co_scale, <- co_add. f_equal. unfold hom, lerp3, plus3, times3. cbn. unfold xyzw_add, xyzw_scale. num. cbn [wx wy wz ww gx gy gz]. f_equal; ring.
Qed.
Lemma blend_v1 c0 c1 c2 c3 a00 a01 a10 a11 u : c1 1%R = hom a11 1 -> c3 1%R = hom a01 1 -> coons_blend c0 c1 c2 c3 a00 a01 a10 a11 u 1 = vadd (c2 u) (vscale (1 - 2 * u)%R (vsub (hom a11 1) (hom a01 1))).
Proof.
  intros H1 H3. unfold coons_blend. rewrite H1, H3. apply co_ext. intros c. repeat rewrite ?co_sub, ?co_add, ?co_scale.
  enough (E : co c (hom (lerp3 (lerp3 a00 a10 u) (lerp3 a01 a11 u) 1) 1) = ((1 - u) * co c (hom a01 1) + u * co c (hom a11 1))%R) by (rewrite E; ring).
  rewrite <- !co_scale, <- co_add. f_equal. unfold hom, lerp3, plus3, times3. cbn. unfold xyzw_add, xyzw_scale. num. cbn [wx wy wz ww gx gy gz]. f_equal; ring.
Qed.


Section Loop.
Variables (p0 m0 : Z) (U0 : list R) (P0 : list (XYZW R)) (p1 m1 : Z) (U1 : list R) (P1 : list (XYZW R)) (p2 m2 : Z) (U2 : list R) (P2 : list (XYZW R)) (p3 m3 : Z) (U3 : list R) (P3 : list (XYZW R)).
Hypothesis F : four_edges p0 m0 U0 P0 p1 m1 U1 P1 p2 m2 U2 P2 p3 m3 U3 P3.
Let c0 := curve_point p0 m0 U0 P0.
Let c1 := curve_point p1 m1 U1 P1.
Let c2 := curve_point p2 m2 U2 P2.
Let c3 := curve_point p3 m3 U3 P3.

Lemma loop_flips : (Reverse (mkCurve p2 U2 P2) = Ok (mkCurve p2 (flipped U2) (rev P2)) /\ edge p2 m2 (flipped U2) (rev P2) /\ pt (rev P2) 0 = pt P2 m2 /\ pt (rev P2) m2 = pt P2 0 /\ forall t, (0 <= t <= 1)%R -> curve_point p2 m2 (flipped U2) (rev P2) t = c2 (1 - t)%R) /\
  (Reverse (mkCurve p3 U3 P3) = Ok (mkCurve p3 (flipped U3) (rev P3)) /\ edge p3 m3 (flipped U3) (rev P3) /\ pt (rev P3) 0 = pt P3 m3 /\ pt (rev P3) m3 = pt P3 0 /\ forall t, (0 <= t <= 1)%R -> curve_point p3 m3 (flipped U3) (rev P3) t = c3 (1 - t)%R).
Proof.
  destruct F as (E0 & E1 & E2 & E3 & H02 & H13 & B2 & B3).
  destruct (flip_edge _ _ _ _ E2) as (R2 & D2 & Q2 & Q2' & G2). { intros x y Hx Hy. apply H02; apply in_or_app; auto. }
  destruct (flip_edge _ _ _ _ E3) as (R3 & D3 & Q3 & Q3' & G3). { intros x y Hx Hy. apply H13; apply in_or_app; auto. }
  specialize (G2 B2). specialize (G3 B3). split; (split; [assumption|]); (split; [assumption|]); (split; [assumption|]); (split; [assumption|]); assumption.
Qed.

Lemma Near_sym a b : Spec3.near a b -> Spec3.near b a.
Proof.
  assert (T : forall x y, tol x y = tol y x) by (intros; unfold tol; rewrite Rmax_comm; reflexivity).
  intros (X & Y & Z). unfold Spec3.near. rewrite (Rabs_minus_sym (gx b)), (Rabs_minus_sym (gy b)), (Rabs_minus_sym (gz b)), (T (gx b)), (T (gy b)), (T (gz b)). auto.
Qed.

Lemma Loop_apart : ~ closed_loop m0 P0 m1 P1 m2 P2 m3 P3 -> CreateCoonsSurface (mkCurve p0 U0 P0) (mkCurve p1 U1 P1) (mkCurve p2 U2 P2) (mkCurve p3 U3 P3) = Throw.
Proof.
  destruct loop_flips as ((R2 & D2 & Q2 & Q2' & G2) & (R3 & D3 & Q3 & Q3' & G3)). destruct F as (E0 & E1 & E2 & E3 & H02 & H13 & B2 & B3).
  intros N. apply (Coons_apart p0 m0 U0 P0 p1 m1 U1 P1 p2 m2 (flipped U2) (rev P2) p3 m3 (flipped U3) (rev P3)); try assumption.
  rewrite Q2, Q2', Q3, Q3'. intros (N0 & N1 & N2 & N3). apply N. split; [exact N2|]. split; [exact (Near_sym _ _ N3)|]. split; [exact N1|exact (Near_sym _ _ N0)].
Qed.

Lemma Loop_ok : closed_loop m0 P0 m1 P1 m2 P2 m3 P3 ->
  returns (CreateCoonsSurface (mkCurve p0 U0 P0) (mkCurve p1 U1 P1) (mkCurve p2 U2 P2) (mkCurve p3 U3 P3)) (fun S => exists n m,
    valid_surface n m S /\ DegreeU S = Z.max (Z.max p0 p2) 3 /\ DegreeV S = Z.max (Z.max p1 p3) 3 /\ unit_knots (DegreeU S) n (KnotVectorU S) /\ unit_knots (DegreeV S) m (KnotVectorV S) /\
    (forall u v, (0 <= u <= 1)%R -> (0 <= v <= 1)%R -> GetPointOnSurface S u v = Ok (coons_blend c0 c1 (fun t => c2 (1 - t)%R) (fun t => c3 (1 - t)%R) (proj (pt P0 0)) (proj (pt P2 m2)) (proj (pt P0 m0)) (proj (pt P2 0)) u v)) /\
    (forall v, (0 <= v <= 1)%R -> GetPointOnSurface S 0%R v = Ok (c1 v) /\ GetPointOnSurface S 1%R v = Ok (c3 (1 - v)%R)) /\
    (pt P0 m0 = pt P1 0 -> pt P3 m3 = pt P0 0 -> forall u, (0 <= u <= 1)%R -> GetPointOnSurface S u 0%R = Ok (vadd (c0 u) (vscale (1 - 2 * u)%R (vsub (pt P0 m0) (pt P0 0)))))).
Proof.
  intros (C1 & C2 & C3 & C4).
  destruct loop_flips as ((R2 & D2 & Q2 & Q2' & G2) & (R3 & D3 & Q3 & Q3' & G3)). destruct F as (E0 & E1 & E2 & E3 & H02 & H13 & B2 & B3).
  destruct (Coons_ok p0 m0 U0 P0 p1 m1 U1 P1 p2 m2 (flipped U2) (rev P2) p3 m3 (flipped U3) (rev P3) _ _ E0 E1 D2 D3 R2 R3 H02 H13) as (S & ES & n & m & V1 & V2 & V3 & V4 & V5 & G);
    rewrite ?Q2, ?Q2', ?Q3, ?Q3'; try assumption; try (apply Near_sym; assumption).
  exists S. split; [exact ES|]. exists n, m. do 5 (split; [assumption|]).
  assert (GG : forall u v, (0 <= u <= 1)%R -> (0 <= v <= 1)%R -> GetPointOnSurface S u v = Ok (coons_blend c0 c1 (fun t => c2 (1 - t)%R) (fun t => c3 (1 - t)%R) (proj (pt P0 0)) (proj (pt P2 m2)) (proj (pt P0 m0)) (proj (pt P2 0)) u v)).
  { intros u v Hu Hv. rewrite (G u v Hu Hv). rewrite Q2, Q2'. unfold coons_blend. rewrite (G2 u Hu), (G3 v Hv). reflexivity. }
  destruct (edge_ends _ _ _ _ E0) as (A0 & A1 & _ & _ & A2 & A3), (edge_ends _ _ _ _ E1) as (B0 & B1 & _), (edge_ends _ _ _ _ E2) as (X0 & X1 & _ & _ & X2 & X3), (edge_ends _ _ _ _ E3) as (Y0 & Y1 & _).
  split; [exact GG|]. split.
  - intros v Hv. rewrite !GG by (assumption || lra). split; f_equal.
    + apply blend_u0; unfold c0, c2; [rewrite A0; exact A2|rewrite Rminus_0_r, X1; exact X3].
    + etransitivity; [apply blend_u1|reflexivity]; unfold c0, c2; [rewrite A1; exact A3|replace (1 - 1)%R with 0%R by ring; rewrite X0; exact X2].
  - intros J1 J2 u Hu. rewrite GG by (assumption || lra). f_equal. rewrite blend_v0; [rewrite <- A2, <- A3; reflexivity| |].
    + unfold c1. rewrite B0, <- J1. exact A3.
    + unfold c3. rewrite Rminus_0_r, Y1, J2. exact A2.
Qed.
End Loop.
