(* Ruled surfaces. *)
From Coq Require Import ZArith List Bool Permutation Reals Lra Lia.
From Verif Require Import Base Num Vec Tac Spec Spec2 Spec3 Spec4 Spec5 Spec8 Spec9 M_MathUtils M_Polynomials M_XYZ M_Bspline M_Knots M_NurbsCurve M_Curve2 M_Geom M_Conic M_Surface
  P_MathUtils P_Bern P_Span P_Cox P_Basis P_Deriv P_Vec P_XYZ P_VSum P_Curve P_Bspline P_BsplineS P_Loop P_Insert P_Insert2 P_Refine P_KnotMap P_Decomp P_Surface P_Elevate P_Make.
Import ListNotations.
Open Scope Z_scope.


Lemma vec_eqb_iff (a b : list R) : vec_eqb a b = true <-> a = b.
Proof.
  revert b. induction a as [|x a IH]; intros [|y b]; cbn [vec_eqb]; try (split; [discriminate|discriminate]); [tauto|].
  rewrite andb_true_iff, IH. num. unfold Reqb. destruct (Req_EM_T x y) as [->|Hn]; split; [intros [_ ->]; reflexivity|intros E; injection E as ->; auto|intros [? _]; discriminate|intros E; injection E as E _; contradiction].
Qed.

Section Ends.
Variables (p n : Z) (U : list R).
Hypothesis HU : curve_knots p n U.
Hypothesis Hcl : clamped_knots p n U.
Let first_run i : 0 <= i <= p -> val U i = val U 0.
Proof.
  intros Hi. pose proof (ck_n _ _ _ HU). pose proof (ck_len _ _ _ HU). pose proof (ck_sorted _ _ _ HU 0 i ltac:(lia) ltac:(lia) ltac:(lia)). pose proof (ck_sorted _ _ _ HU i p ltac:(lia) ltac:(lia) ltac:(lia)).
  destruct Hcl. lra.
Qed.
Let last_run i : n + 1 <= i <= n + p + 1 -> val U i = val U (n + 1).
Proof.
  intros Hi. pose proof (ck_n _ _ _ HU). pose proof (ck_len _ _ _ HU). pose proof (ck_p _ _ _ HU). pose proof (ck_sorted _ _ _ HU (n + 1) i ltac:(lia) ltac:(lia) ltac:(lia)). pose proof (ck_sorted _ _ _ HU i (n + p + 1) ltac:(lia) ltac:(lia) ltac:(lia)).
  destruct Hcl. lra.
Qed.
Lemma ends_between x : In x U -> (val U 0 <= x <= val U (n + 1))%R.
Proof.
  intros Hx. destruct (In_val _ _ Hx) as (i & Hi & <-). pose proof (ck_n _ _ _ HU). pose proof (ck_len _ _ _ HU). pose proof (ck_p _ _ _ HU).
  rewrite <- (last_run (n + p + 1)) by lia. split; apply (ck_sorted _ _ _ HU); lia.
Qed.
Lemma ends_in : In (val U 0) U /\ In (val U (n + 1)) U.
Proof. pose proof (ck_n _ _ _ HU). pose proof (ck_len _ _ _ HU). pose proof (ck_p _ _ _ HU). split; apply val_In; lia. Qed.
Lemma occ_first : occ U (val U 0) = p + 1.
Proof.
  pose proof (ck_n _ _ _ HU). pose proof (ck_len _ _ _ HU). pose proof (ck_p _ _ _ HU). pose proof (ck_first _ _ _ HU). pose proof (tol_pos (val U p) (val U (p + 1))).
  unfold occ. rewrite (count_range U _ 0 (p + 1)); try lia; intros i Hi.
  - apply first_run. lia.
  - pose proof (ck_sorted _ _ _ HU (p + 1) i ltac:(lia) ltac:(lia) ltac:(lia)). rewrite <- (first_run p) by lia. lra.
Qed.
Lemma occ_last : occ U (val U (n + 1)) = p + 1.
Proof.
  pose proof (ck_n _ _ _ HU). pose proof (ck_len _ _ _ HU). pose proof (ck_p _ _ _ HU). pose proof (ck_last _ _ _ HU). pose proof (tol_pos (val U n) (val U (n + 1))).
  unfold occ. rewrite (count_range U _ (n + 1) (len U)); try lia; intros i Hi.
  - pose proof (ck_sorted _ _ _ HU i n ltac:(lia) ltac:(lia) ltac:(lia)). lra.
  - apply last_run. lia.
Qed.
Lemma ends_dom t : in_domain p n U t <-> (val U 0 <= t <= val U (n + 1))%R.
Proof. unfold in_domain. destruct Hcl as [-> _]. tauto. Qed.
End Ends.

Section Raise.
Context {T : Type} {V : Vec R T} {L : VecL T}.

Lemma raise_ok (d p n : Z) (U : list R) (P : list (XYZW R)) : p <= d -> curve_knots p n U -> len P = n + 1 -> clamped_knots p n U ->
  (forall x y, In x U -> In y U -> apart x y) -> (p < d -> 1 <= p /\ simple_inside p n U) ->
  exists n' U' P', ruled_raise (mkCurve p U P) d = Ok (mkCurve d U' P') /\ curve_knots d n' U' /\ len P' = n' + 1 /\ clamped_knots d n' U' /\
    (forall x, In x U' <-> In x U) /\ val U' 0 = val U 0 /\ val U' (n' + 1) = val U (n + 1) /\
    forall s, in_domain p n U s -> curve_point d n' U' P' s = curve_point p n U P s.
Proof.
  intros Hd HU HP Hcl Hap Hs. unfold ruled_raise. cbn [Degree]. destruct (Z.ltb_spec p d) as [Hlt|Hge].
  - destruct (Hs Hlt) as [Hp1 Hsim].
    destruct (ElevateDegree_ok p n U P (d - p) HU HP Hcl Hap Hp1 ltac:(lia) Hsim) as (c & E & n' & U' & Q & -> & HU' & HQ & Hcl' & HIn & _ & Heq).
    replace (p + (d - p)) with d in * by lia. exists n', U', Q. split; [exact E|]. do 4 (split; [assumption|]).
    destruct (ends_in p n U HU), (ends_in d n' U' HU') as (I1 & I2).
    pose proof (ends_between d n' U' HU' Hcl' _ (proj2 (HIn _) H)). pose proof (ends_between d n' U' HU' Hcl' _ (proj2 (HIn _) H0)).
    pose proof (ends_between p n U HU Hcl _ (proj1 (HIn _) I1)). pose proof (ends_between p n U HU Hcl _ (proj1 (HIn _) I2)).
    split; [lra|]. split; [lra|]. exact Heq.
  - assert (p = d) as <- by lia. exists n, U, P. do 7 (split; [first [reflexivity|assumption|tauto]|]). auto.
Qed.
End Raise.

(* the knots of one curve are brought to the larger multiplicities *)
Lemma refine_to d n U (P : list (XYZW R)) U' (M : R -> Z) X : curve_knots d n U -> len P = n + 1 -> clamped_knots d n U ->
  (forall x y, In x (U ++ U') -> In y (U ++ U') -> apart x y) -> sorted X -> (forall x, occ (U ++ X) x = Z.max (occ U x) (occ U' x)) ->
  (forall x, In x U' -> (val U 0 <= x <= val U (n + 1))%R) -> occ U' (val U 0) = d + 1 -> occ U' (val U (n + 1)) = d + 1 ->
  exists n' W Q, (if 0 <? len X then RefineKnotVector (mkCurve d U P) X else Ok (mkCurve d U P)) = Ok (mkCurve d W Q) /\
    curve_knots d n' W /\ len Q = n' + 1 /\ (forall x, occ W x = Z.max (occ U x) (occ U' x)) /\ 
    forall s, in_domain d n U s -> in_domain d n' W s /\ curve_point d n' W Q s = curve_point d n U P s.
Proof.
  intros HU HP Hcl Hap HX HM HI' H0 H1.
  assert (Hin : forall x, In x X -> In x U' /\ (val U d < x < val U (n + 1))%R).
  { intros x Hx. pose proof (proj2 (occ_pos X x) Hx) as Hox. pose proof (HM x) as E. rewrite occ_app in E. pose proof (occ_nonneg U x).
    assert (Hx' : In x U') by (apply occ_pos; lia). split; [exact Hx'|]. pose proof (HI' x Hx') as B. pose proof Hcl as [Hc0 _]. rewrite <- Hc0.
    pose proof (occ_first d n U HU Hcl) as O1. pose proof (occ_last d n U HU Hcl) as O2.
    assert (x <> val U 0) by (intros ->; lia). assert (x <> val U (n + 1)) by (intros ->; lia). lra. }
  destruct (Z.ltb_spec 0 (len X)) as [Hl|Hl].
  - destruct (RefineKnotVector_preserves d n U P X HU HP Hl HX (fun x Hx => proj2 (Hin x Hx))) as (c & E & W & Q & -> & HW & HQ & Hpm & Hdom & Heq).
    { intros x y Hx Hy. apply Hap; apply in_or_app; [right; apply Hin; exact Hx|]. apply in_app_or in Hy. destruct Hy as [Hy|Hy]; [right; apply Hin; exact Hy|left; exact Hy]. }
    exists (n + len X), W, Q. split; [exact E|]. split; [exact HW|]. split; [lia|]. split.
    + intros x. rewrite (occ_perm _ _ x Hpm), occ_app. rewrite <- HM, occ_app. lia.
    + intros s Hs. split; [apply Hdom, Hs|apply Heq, Hs].
  - assert (X = []) as -> by (destruct X; [reflexivity|rewrite len_cons in Hl; pose proof (len_nonneg X); lia]).
    exists n, U, P. split; [reflexivity|]. split; [exact HU|]. split; [exact HP|]. split; [intros x; rewrite <- HM, app_nil_r; reflexivity|]. auto.
Qed.

Lemma occ_sorted_eq (l l' : list R) : sorted l -> sorted l' -> (forall x, occ l x = occ l' x) -> l = l'.
Proof.
  intros H H' Ho. apply sorted_perm_eq; [assumption|assumption|]. apply (Permutation_count_occ Req_EM_T). intros x. specialize (Ho x). unfold occ in Ho. lia.
Qed.

Lemma Ruled_ok p0 m0 U0 (P0 : list (XYZW R)) p1 m1 U1 (P1 : list (XYZW R)) :
  curve_knots p0 m0 U0 -> len P0 = m0 + 1 -> clamped_knots p0 m0 U0 -> curve_knots p1 m1 U1 -> len P1 = m1 + 1 -> clamped_knots p1 m1 U1 ->
  val U0 0 = val U1 0 -> val U0 (m0 + 1) = val U1 (m1 + 1) -> (forall x y, In x (U0 ++ U1) -> In y (U0 ++ U1) -> apart x y) ->
  (p0 < p1 -> 1 <= p0 /\ simple_inside p0 m0 U0) -> (p1 < p0 -> 1 <= p1 /\ simple_inside p1 m1 U1) -> p0 <= 7 -> p1 <= 7 ->
  returns (CreateRuledSurface (mkCurve p0 U0 P0) (mkCurve p1 U1 P1)) (fun s => exists n, valid_surface n 1 s /\
    DegreeU s = Z.max p0 p1 /\ DegreeV s = 1 /\ KnotVectorV s = [0; 0; 1; 1]%R /\
    (forall x, In x (KnotVectorU s) <-> In x (U0 ++ U1)) /\
    forall u v, in_domain p0 m0 U0 u -> (0 <= v <= 1)%R ->
      GetPointOnSurface s u v = Ok (vadd (vscale (1 - v)%R (curve_point p0 m0 U0 P0 u)) (vscale v (curve_point p1 m1 U1 P1 u)))).
Proof.
  intros K0 L0 C0 K1 L1 C1 Ea Eb Hap S0 S1 Hb0 Hb1. apply wp_elim.
  pose proof (ck_n _ _ _ K0) as N0. pose proof (ck_len _ _ _ K0) as LU0. pose proof (ck_p _ _ _ K0) as G0.
  pose proof (ck_n _ _ _ K1) as N1. pose proof (ck_len _ _ _ K1) as LU1. pose proof (ck_p _ _ _ K1) as G1.
  assert (A0 : arr U0 (len U0) (val U0)) by apply arr_at. assert (A1 : arr U1 (len U1) (val U1)) by apply arr_at.
  unfold CreateRuledSurface. cbn [Degree KnotVector ControlPoints]. wget A0. wget A1. wget A0. wget A1.
  assert (EL : val U0 (len U0 - 1) = val U1 (len U1 - 1)).
  { rewrite LU0, LU1. replace (m0 + p0 + 2 - 1) with (m0 + p0 + 1) by lia. replace (m1 + p1 + 2 - 1) with (m1 + p1 + 1) by lia. destruct C0 as [_ <-], C1 as [_ <-]. exact Eb. }
  rewrite Ea, EL, !aeq_refl. cbn [andb validate bind]. set (d := Z.max p0 p1).
  destruct (raise_ok d p0 m0 U0 P0 ltac:(lia) K0 L0 C0) as (n0 & V0 & Q0 & -> & KV0 & LQ0 & CV0 & I0 & F0 & E0 & H0).
  { intros x y Hx Hy. apply Hap; apply in_or_app; auto. } { intros H. apply S0. lia. }
  destruct (raise_ok d p1 m1 U1 P1 ltac:(lia) K1 L1 C1) as (n1 & V1 & Q1 & -> & KV1 & LQ1 & CV1 & I1 & F1 & E1 & H1).
  { intros x y Hx Hy. apply Hap; apply in_or_app; auto. } { intros H. apply S1. lia. }
  cbn [bind KnotVector ControlPoints].
  assert (DOM : forall u, in_domain p0 m0 U0 u -> in_domain p1 m1 U1 u /\ in_domain d n0 V0 u /\ in_domain d n1 V1 u).
  { intros u Hu. rewrite (ends_dom _ _ _ C0) in Hu. rewrite (ends_dom _ _ _ C1), (ends_dom _ _ _ CV0), (ends_dom _ _ _ CV1). rewrite F0, E0, F1, E1. lra. }
  assert (AP : forall x y, In x (V0 ++ V1) -> In y (V0 ++ V1) -> apart x y).
  { assert (II : forall x, In x (V0 ++ V1) -> In x (U0 ++ U1)) by (intros x Hx; apply in_or_app; apply in_app_or in Hx; destruct Hx as [Hx|Hx]; [left; apply I0, Hx|right; apply I1, Hx]).
    intros x y Hx Hy. apply Hap; apply II; assumption. }
  assert (MID : exists n W R0 R1, 
     (if vec_eqb V0 V1 then Ok (V0, Q0, Q1)
      else
       let '(insertedKnotElement0, insertedKnotElement1) := GetInsertedKnotElement V0 V1 [] [] in
       let! r0 := if 0 <? len insertedKnotElement0 then let! newtc := RefineKnotVector (mkCurve d V0 Q0) insertedKnotElement0 in Ok (KnotVector newtc, ControlPoints newtc) else Ok (V0, Q0) in
       let! cp1 := if 0 <? len insertedKnotElement1 then let! newtc := RefineKnotVector (mkCurve d V1 Q1) insertedKnotElement1 in Ok (ControlPoints newtc) else Ok Q1 in
       Ok (fst r0, snd r0, cp1)) = Ok (W, R0, R1) /\ curve_knots d n W /\ len R0 = n + 1 /\ len R1 = n + 1 /\ (forall x, In x W <-> In x (U0 ++ U1)) /\
     forall u, in_domain p0 m0 U0 u -> in_domain d n W u /\ curve_point d n W R0 u = curve_point p0 m0 U0 P0 u /\ curve_point d n W R1 u = curve_point p1 m1 U1 P1 u).
  { destruct (vec_eqb V0 V1) eqn:EV.
    - apply vec_eqb_iff in EV. subst V1. exists n0, V0, Q0, Q1. assert (n1 = n0) as -> by (pose proof (ck_len _ _ _ KV0); pose proof (ck_len _ _ _ KV1); lia).
      split; [reflexivity|]. split; [exact KV0|]. split; [exact LQ0|]. split; [exact LQ1|]. split.
      { intros x. rewrite in_app_iff, <- I0, <- I1. tauto. }
      intros u Hu. destruct (DOM u Hu) as (D1 & D2 & D3). split; [exact D2|]. split; [apply H0, Hu|apply H1, D1].
    - clear EV. pose proof (GetInsertedKnotElement_ok V0 V1 [] []) as GI. destruct (GetInsertedKnotElement V0 V1 [] []) as [X0 X1]. destruct GI as (SX0 & SX1 & HO).
      assert (OC0 : occ V1 (val V0 0) = d + 1) by (replace (val V0 0) with (val V1 0) by lra; apply (occ_first d n1 V1 KV1 CV1)).
      assert (OC1 : occ V1 (val V0 (n0 + 1)) = d + 1) by (replace (val V0 (n0 + 1)) with (val V1 (n1 + 1)) by lra; apply (occ_last d n1 V1 KV1 CV1)).
      assert (OC2 : occ V0 (val V1 0) = d + 1) by (replace (val V1 0) with (val V0 0) by lra; apply (occ_first d n0 V0 KV0 CV0)).
      assert (OC3 : occ V0 (val V1 (n1 + 1)) = d + 1) by (replace (val V1 (n1 + 1)) with (val V0 (n0 + 1)) by lra; apply (occ_last d n0 V0 KV0 CV0)).
      destruct (refine_to d n0 V0 Q0 V1 (fun _ => 0) X0 KV0 LQ0 CV0 AP SX0) as (a & W & R0 & ER0 & KW & LR0 & OW & HW); [intros x; rewrite (proj1 (HO x)); reflexivity| |exact OC0|exact OC1|].
      { intros x Hx. pose proof (ends_between _ _ _ KV1 CV1 x Hx). lra. }
      destruct (refine_to d n1 V1 Q1 V0 (fun _ => 0) X1 KV1 LQ1 CV1) as (b & W' & R1 & ER1 & KW' & LR1 & OW' & HW'); [|exact SX1|intros x; rewrite (proj2 (HO x)); rewrite Z.max_comm; reflexivity| |exact OC2|exact OC3|].
      { intros x y Hx Hy. apply AP; [apply in_app_or in Hx; apply in_or_app; tauto|apply in_app_or in Hy; apply in_or_app; tauto]. }
      { intros x Hx. pose proof (ends_between _ _ _ KV0 CV0 x Hx). lra. }
      assert (W' = W). { apply occ_sorted_eq; [apply (ck_sorted _ _ _ KW')|apply (ck_sorted _ _ _ KW)|]. intros x. rewrite OW, OW'. apply Z.max_comm. }
      subst W'. assert (b = a) as -> by (pose proof (ck_len _ _ _ KW); pose proof (ck_len _ _ _ KW'); lia).
      exists a, W, R0, R1. split; [|split; [exact KW|split; [exact LR0|split; [exact LR1|split]]]].
      + assert (B0 : (if 0 <? len X0 then let! newtc := RefineKnotVector (mkCurve d V0 Q0) X0 in Ok (KnotVector newtc, ControlPoints newtc) else Ok (V0, Q0)) = Ok (W, R0)).
        { destruct (0 <? len X0); [rewrite ER0; reflexivity|]. injection ER0 as -> ->. reflexivity. }
        rewrite B0. cbn [bind]. 
        assert (B1 : (if 0 <? len X1 then let! newtc := RefineKnotVector (mkCurve d V1 Q1) X1 in Ok (ControlPoints newtc) else Ok Q1) = Ok R1).
        { destruct (0 <? len X1); [rewrite ER1; reflexivity|]. injection ER1 as _ ->. reflexivity. }
        rewrite B1. reflexivity.
      + intros x. rewrite <- occ_pos, OW. rewrite in_app_iff, <- I0, <- I1, <- !occ_pos. lia.
      + intros u Hu. destruct (DOM u Hu) as (D1 & D2 & D3). destruct (HW u D2) as [X2 ->], (HW' u D3) as [_ ->]. split; [exact X2|]. split; [apply H0, Hu|apply H1, D1]. }
  destruct MID as (n & W & R0 & R1 & -> & KW & LR0 & LR1 & IW & HW). cbn [bind].
  assert (N : d <= n) by apply (ck_n _ _ _ KW). assert (D : 0 <= d) by lia. rewrite LR0.
  pose proof (arr_pt R0 _ LR0) as AR0. pose proof (arr_pt R1 _ LR1) as AR1. set (f := fun i j => if j =? 0 then pt R0 i else pt R1 i).
  apply wp_bind. eapply wp_mkvec2 with (c := 2) (x := xyzw0); [lia| |].
  { split; [reflexivity|]. intros i Hi. assert (i = 0 \/ i = 1) as [-> | ->] by lia; reflexivity. }
  intros T0 HT0. apply wp_bind. apply wp_for_up with (P := fun k T => arr2D T (n + 1) 2 (fun i j => i < k) f); [lia| | |].
  - apply (arr2D_ext _ _ _ (fun _ _ => False) _ (fun _ _ => xyzw0) _ (arr2_D _ _ _ _ _ HT0)); intros; lia.
  - intros k T Hk HT. wget AR0. apply wp_bind. apply (arr2D_set _ _ _ _ (fun i j => i < k \/ (i = k /\ j = 0)) f k 0 _ _ HT); [lia|lia|reflexivity|intros; lia|].
    intros T1 HT1. wget AR1. apply (arr2D_set _ _ _ _ (fun i j => i < k + 1) f k 1 _ _ HT1); [lia|lia|reflexivity|intros; lia|auto].
  - intros T HT. cbn [wp]. assert (AT : arr2 T (n + 1) 2 f) by (eapply arr2_of_D; [exact HT|intros; cbv beta; lia]). pose proof (net_arr2 _ _ _ _ AT) as NT.
    exists n. cbn [DegreeU DegreeV KnotVectorU KnotVectorV SControlPoints].
    assert (KB : curve_knots 1 1 [0; 0; 1; 1]%R) by (apply (bez_knots_ok 1); lia).
    split. { split; [exact KW|]. split; [exact KB|]. split; [exact NT|]. cbn; lia. }
    do 3 (split; [reflexivity|]). split; [exact IW|]. intros u v Hu Hv. destruct (HW u Hu) as (DW & <- & <-).
    rewrite (GetPointOnSurface_ok d n W 1 1 [0; 0; 1; 1]%R T u v KW KB); [|lia|lia|exact NT|exact DW|apply (bez_dom 1); [lia|exact Hv]].
    f_equal. apply co_ext. intros c. rewrite surface_as_curve by lia. rewrite co_add, !co_scale. unfold curve_point at 1 3 4. rewrite !co_comb.
    rewrite <- !rsum_scal, <- rsum_plus. apply rsum_ext. intros i Hi. rewrite pt_mklist by lia. change [0; 0; 1; 1]%R with (bezier_knots 1). rewrite bez_curve by (auto; lia).
    rewrite rsum_2. destruct (bern1 v) as (-> & ->).
    change (pt (at_ nil T i) 0) with (pt2 T i 0). change (pt (at_ nil T i) 1) with (pt2 T i 1). rewrite !(pt2_arr2 _ _ _ _ i _ AT) by lia. unfold f. cbn [Z.eqb]. ring.
Qed.
