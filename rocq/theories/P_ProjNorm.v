(* Normals carried along a curve. *)
From Coq Require Import ZArith List Bool Reals Lra Lia.
From Verif Require Import Base Num Vec Tac Spec Spec2 Spec3 Spec4 Spec5 Spec10 Spec16 M_MathUtils M_XYZ M_Bspline M_NurbsCurve M_Geom M_Shape M_Curve3
  P_MathUtils P_Span P_Cox P_Vec P_XYZ P_VSum P_Curve P_Basis P_Bspline P_Loop P_Nurbs P_Make P_Matrix P_Geom P_Interp P_Interp2 P_Shape P_Shape2 P_Shape3 P_Surf5 P_Surf6 P_Surf7.
Import ListNotations.
Open Scope Z_scope.

Lemma Normalize_any (a : XYZ R) : exists u, Normalize a = Ok u /\ (a <> zero3 -> direction_of a u) /\ (a = zero3 -> u = zero3).
Proof.
  destruct (zero3_dec a) as [->|Ha].
  - exists zero3. split; [exact Normalize_zero|]. split; [tauto|reflexivity].
  - destruct (Normalize_spec a Ha) as (u & E & U1 & s & Hs & Es). exists u. split; [exact E|]. split; [|tauto]. intros _. split.
    + rewrite <- U1. unfold SqrLength, dot3. num. reflexivity.
    + exists s. split; [exact Hs|]. rewrite Es. apply scale_eq.
Qed.
Lemma unit_nonzero u : dot3 u u = 1%R -> u <> zero3.
Proof. intros Hu ->. unfold dot3, zero3 in Hu. cbn [gx gy gz] in Hu. lra. Qed.
Lemma unit_self u : dot3 u u = 1%R -> Normalize u = Ok u.
Proof.
  intros Hu. destruct (Normalize_any u) as (w & E & D & _). rewrite E. f_equal. destruct (D (unit_nonzero u Hu)) as (W & s & Hs & Es).
  rewrite Es in Hu. assert (s * s = 1)%R. { rewrite <- Hu. replace (dot3 (times3 s w) (times3 s w)) with (s * s * dot3 w w)%R by (unfold dot3, times3; cbn [gx gy gz]; ring). rewrite W. ring. }
  assert (s = 1)%R by nra. subst s. rewrite Es. destruct w as [x y z]. unfold times3. cbn [gx gy gz]. f_equal; ring.
Qed.

(* the vector from which the drawn angle starts *)
Definition skewed (u : XYZ R) : XYZ R := cross3 u (mkXYZ (- gz u) (gx u) (gy u))%R.
Lemma Orthogonal_ok (u : XYZ R) k : dot3 u u = 1%R -> exists w, CreateRandomOrthogonal u k = Ok w /\
  (skewed u <> zero3 -> dot3 w w = 1%R /\ dot3 w u = 0%R) /\ (skewed u = zero3 -> w = zero3).
Proof.
  intros Hu. unfold CreateRandomOrthogonal. rewrite (unit_self u Hu). cbn [bind]. num. rewrite !cross_eq. fold (skewed u). set (th := IZR k).
  rewrite !scale_eq. g3.
  set (v := plus3 (times3 (sin th) (skewed u)) (times3 (cos th) (cross3 u (skewed u)))).
  assert (V1 : dot3 v u = 0%R). { unfold v, skewed. generalize (sin th) (cos th). intros s c. destruct u as [x y z]. unfold dot3, cross3, plus3, times3. cbn [gx gy gz]. ring. }
  assert (V2 : dot3 v v = dot3 (skewed u) (skewed u)).
  { pose proof (sin2_cos2 th) as SC. unfold Rsqr in SC.
    assert (O1 : dot3 (skewed u) u = 0%R) by (unfold skewed; destruct u as [x y z]; unfold dot3, cross3; cbn [gx gy gz]; ring).
    assert (O2 : dot3 (cross3 u (skewed u)) (cross3 u (skewed u)) = dot3 (skewed u) (skewed u)).
    { transitivity (dot3 u u * dot3 (skewed u) (skewed u) - dot3 (skewed u) u * dot3 (skewed u) u)%R; [|rewrite Hu, O1; ring]. generalize (skewed u). intros m. destruct u as [x y z], m as [m1 m2 m3]. unfold dot3, cross3. cbn [gx gy gz]. ring. }
    assert (O3 : dot3 (skewed u) (cross3 u (skewed u)) = 0%R) by (generalize (skewed u); intros m; destruct u as [x y z], m as [m1 m2 m3]; unfold dot3, cross3; cbn [gx gy gz]; ring).
    transitivity (sin th * sin th * dot3 (skewed u) (skewed u) + 2 * (sin th * cos th) * dot3 (skewed u) (cross3 u (skewed u)) + cos th * cos th * dot3 (cross3 u (skewed u)) (cross3 u (skewed u)))%R.
    - unfold v. generalize (sin th) (cos th) (cross3 u (skewed u)) (skewed u). intros s c [m1 m2 m3] [n1 n2 n3]. unfold dot3, plus3, times3. cbn [gx gy gz]. ring.
    - rewrite O2, O3. transitivity ((sin th * sin th + cos th * cos th) * dot3 (skewed u) (skewed u))%R; [ring|rewrite SC; ring]. }
  destruct (Normalize_any v) as (w & E & D & Z). exists w. split; [exact E|]. split.
  - intros Hs. assert (Hv : v <> zero3). { intros Ev. apply Hs, dot3_zero. rewrite <- V2, Ev. unfold dot3, zero3. cbn [gx gy gz]. ring. }
    destruct (D Hv) as (W & s & S & Es). split; [exact W|]. rewrite Es in V1. replace (dot3 (times3 s w) u) with (s * dot3 w u)%R in V1 by (unfold dot3, times3; cbn [gx gy gz]; ring). nra.
  - intros Hs. apply Z, dot3_zero. rewrite V2, Hs. unfold dot3, zero3. cbn [gx gy gz]. ring.
Qed.
Lemma skewed_zero u : dot3 u u = 1%R -> (skewed u = zero3 <-> gx u = gz u /\ gy u = (- gx u)%R).
Proof.
  destruct u as [x y z]. unfold skewed, cross3, dot3, zero3. cbn [gx gy gz]. intros Hu. split.
  - intros E. inversion E as [[E1 E2 E3]]. assert (Y : (y = - x)%R).
    { assert ((y * y - z * x = 0)%R /\ (- (z * z) - x * y = 0)%R /\ (x * x + y * z = 0)%R) as (A & B & C) by (repeat split; lra). nra. }
    split; [|exact Y]. subst y. nra.
  - intros (-> & ->). f_equal; ring.
Qed.

Section Proj.
Variables (p n : Z) (U : list R) (H : list (XYZW R)).
Hypothesis HU : curve_knots p n U.
Hypothesis Hp : p <= 7.
Hypothesis HH : len H = n + 1.
Hypothesis Hw : heavy H.
Hypothesis Hcl : clamped_knots p n U.
Let c := mkCurve p U H.

Lemma knot_in i : 0 <= i < len U -> in_domain p n U (val U i).
Proof.
  intros Hi. pose proof HU as [P0 N0 L S _ _]. destruct Hcl as (C1 & C2). split.
  - destruct (Z_le_dec p i); [apply S; lia|]. rewrite <- C1. apply S; lia.
  - destruct (Z_le_dec i (n + 1)); [apply S; lia|]. rewrite C2. apply S; lia.
Qed.
Definition Tf (i : Z) : XYZ R := match unit_tangent c (val U i) with Ok t => t | Err _ => zero3 end.
Lemma Tf_ok i : 0 <= i < len U -> unit_tangent c (val U i) = Ok (Tf i) /\
  exists g, curve_derivs p n U H 1 (val U i) g /\ (g 1 <> zero3 -> direction_of (g 1) (Tf i)) /\ (g 1 = zero3 -> Tf i = zero3).
Proof.
  intros Hi. pose proof (knot_in i Hi) as Hd. pose proof (curve_weight p n U H (val U i) HU HH Hw Hd) as WP.
  destruct (derivs_at p n U H (val U i) HU Hp HH Hd ltac:(lra) 1 ltac:(lia)) as (g & D & G & E & GD).
  destruct (Normalize_any (g 1)) as (u & EN & N1 & N2).
  assert (EU : unit_tangent c (val U i) = Ok u). { unfold unit_tangent, c. rewrite E. cbn [bind]. rewrite GD by lia. cbn [bind]. exact EN. }
  unfold Tf. rewrite EU. split; [reflexivity|]. exists g. auto.
Qed.
Lemma zero_cross (a : XYZ R) : IsZero (cross3 a zero3) = true.
Proof. apply IsZero_spec. unfold dist. replace (SqrLength _) with 0%R; [rewrite sqrt_0; lra|]. unfold SqrLength, xyz_sub, cross3, zero3, xyz0. num. cbn [gx gy gz]. ring. Qed.
Lemma zero_cross' (a : XYZ R) : IsZero (cross3 zero3 a) = true.
Proof. apply IsZero_spec. unfold dist. replace (SqrLength _) with 0%R; [rewrite sqrt_0; lra|]. unfold SqrLength, xyz_sub, cross3, zero3, xyz0. num. cbn [gx gy gz]. ring. Qed.
Lemma zero_is : IsZero zero3 = true.
Proof. apply IsZero_spec. unfold dist. replace (SqrLength _) with 0%R; [rewrite sqrt_0; lra|]. unfold SqrLength, xyz_sub, zero3, xyz0. num. cbn [gx gy gz]. ring. Qed.
Lemma U_len : 2 <= len U. Proof. pose proof HU as [P0 N0 L S _ _]. lia. Qed.

(* what one pass gives *)
Definition pass_ok (first : XYZ R) (L : list (XYZ R)) : Prop :=
  len L = len U /\ pt L 0 = first /\
  forall i, 1 <= i < len U -> Tf i <> zero3 /\ direction_of (minus3 (pt L (i - 1)) (times3 (dot3 (pt L (i - 1)) (Tf i)) (Tf i))) (pt L i).
Lemma pass_spec first : wp (project_pass c first) (fun r => match r with Some L => pass_ok first L /\ first <> zero3 | None => True end).
Proof.
  pose proof U_len as U2. unfold project_pass. cbn [c KnotVector]. fold c. apply wp_bind. apply wp_mkvec; [lia|]. intros L0 HL0. apply wp_bind. apply (arr_upd _ _ _ _ _ _ HL0); [lia|]. intros L1 HL1. apply wp_bind.
  apply wp_for_upc with (P := fun i L => len L = len U /\ pt L 0 = first /\ (1 < i -> first <> zero3) /\
    forall j, 1 <= j < i -> Tf j <> zero3 /\ direction_of (minus3 (pt L (j - 1)) (times3 (dot3 (pt L (j - 1)) (Tf j)) (Tf j))) (pt L j)) (F := fun _ => True).
  - split; [exact (proj1 HL1)|]. split; [unfold pt; rewrite (arr_at_eq _ _ _ _ _ HL1) by lia; reflexivity|]. split; lia.
  - intros i L Hi (I1 & I2 & I3 & I4). rewrite (get_at 0%R U i) by lia. cbn [bind]. fold (val U i). destruct (Tf_ok i ltac:(lia)) as (ET & g & G & GN & GZ). rewrite ET. cbn [bind].
    rewrite (get_at vzero L (i - 1)) by lia. cbn [bind]. fold (pt L (i - 1)). rewrite cross_eq. destruct (IsZero (cross3 (Tf i) (pt L (i - 1)))) eqn:EZ; [apply wp_ok; exact I|].
    assert (TN : Tf i <> zero3). { intros E. rewrite E, zero_cross' in EZ. discriminate. }
    assert (PN : pt L (i - 1) <> zero3). { intros E. rewrite E, zero_cross in EZ. discriminate. }
    rewrite scale_eq, dot_eq. g3. set (bi := minus3 _ _).
    assert (BN : bi <> zero3).
    { intros E. assert (X : cross3 (Tf i) (pt L (i - 1)) = zero3); [|rewrite X, zero_is in EZ; discriminate].
      transitivity (cross3 (Tf i) bi); [unfold bi; generalize (Tf i) (pt L (i - 1)); intros [t1 t2 t3] [l1 l2 l3]; unfold cross3, minus3, times3, dot3; cbn [gx gy gz]; f_equal; ring|].
      rewrite E. destruct (Tf i) as [t1 t2 t3]. unfold cross3, zero3. cbn [gx gy gz]. f_equal; ring. }
    destruct (Normalize_any bi) as (w & EN & D & _). rewrite EN. cbn [bind]. apply wp_bind. apply (upd_wp _ (len U)); [exact I1|lia|]. intros L' HL' GI GO. apply wp_ok.
    assert (PO : forall j, 0 <= j < len U -> j <> i -> pt L' j = pt L j).
    { intros j Hj Nj. specialize (GO j Nj). rewrite !(get_at vzero) in GO by lia. injection GO as GO. exact GO. }
    assert (PI' : pt L' i = w) by (rewrite (get_at vzero) in GI by lia; injection GI as GI; exact GI).
    split; [exact HL'|]. split; [rewrite PO by lia; exact I2|]. split.
    + intros _. destruct (Z.eq_dec i 1) as [->|]; [rewrite <- I2; exact PN|apply I3; lia].
    + intros j Hj. rewrite (PO (j - 1)) by lia. destruct (Z.eq_dec j i) as [->|Nj]; [rewrite PI'; auto|]. rewrite PO by lia. apply I4. lia.
  - intros L (I1 & I2 & I3 & I4). apply wp_ok. rewrite Z.max_r in * by lia. split; [|apply I3; lia]. split; [exact I1|]. split; [exact I2|exact I4].
  - intros [] _. apply wp_ok. exact I.
Qed.

Lemma proj_dir (a t w : XYZ R) : dot3 t t = 1%R -> direction_of (minus3 a (times3 (dot3 a t) t)) w -> dot3 w w = 1%R /\ dot3 w t = 0%R.
Proof.
  intros Ht (W & s & S & E). split; [exact W|]. assert (X : dot3 (minus3 a (times3 (dot3 a t) t)) t = 0%R).
  { transitivity (dot3 a t - dot3 a t * dot3 t t)%R; [unfold dot3, minus3, times3; cbn [gx gy gz]; ring|rewrite Ht; ring]. }
  rewrite E in X. replace (dot3 (times3 s w) t) with (s * dot3 w t)%R in X by (unfold dot3, times3; cbn [gx gy gz]; ring). nra.
Qed.

Lemma pass_carried first L : Tf 0 <> zero3 -> dot3 first first = 1%R -> dot3 first (Tf 0) = 0%R -> pass_ok first L -> carried p n U H L.
Proof.
  intros T0 F1 F2 (L1 & L2 & L3). pose proof U_len as U2. split; [exact L1|]. exists (mklist (len U) Tf). pose proof (arr_mklist (len U) Tf ltac:(lia)) as HT.
  assert (PT : forall i, 0 <= i < len U -> pt (mklist (len U) Tf) i = Tf i) by (intros i Hi; unfold pt; apply (arr_at_eq _ _ _ _ _ HT); lia).
  assert (TN : forall i, 0 <= i < len U -> Tf i <> zero3). { intros i Hi. destruct (Z.eq_dec i 0) as [->|]; [exact T0|apply L3; lia]. }
  assert (TU : forall i, 0 <= i < len U -> dot3 (Tf i) (Tf i) = 1%R).
  { intros i Hi. destruct (Tf_ok i Hi) as (_ & g & G & GN & GZ). apply GN. intros E. apply (TN i Hi), GZ, E. }
  split; [exact (proj1 HT)|]. split; [|split].
  - intros i Hi. rewrite PT by lia. destruct (Tf_ok i Hi) as (_ & g & G & GN & GZ). exists g. split; [exact G|]. apply GN. intros E. apply (TN i Hi), GZ, E.
  - intros i Hi. rewrite PT by lia. destruct (Z.eq_dec i 0) as [->|]; [rewrite L2; auto|]. destruct (L3 i ltac:(lia)) as (_ & D). apply (proj_dir _ _ _ (TU i Hi) D).
  - intros i Hi. rewrite PT by lia. apply L3. lia.
Qed.

Lemma passes_spec angles fuel : Tf 0 <> zero3 -> project_passes fuel c (Tf 0) angles = OutOfFuel \/
  exists L, project_passes fuel c (Tf 0) angles = Ok L /\ carried p n U H L.
Proof.
  intros T0. assert (T1 : dot3 (Tf 0) (Tf 0) = 1%R). { destruct (Tf_ok 0 ltac:(pose proof U_len; lia)) as (_ & g & G & GN & GZ). apply GN. intros E. apply T0, GZ, E. }
  revert angles. induction fuel as [|fuel IH]; intros angles; [left; reflexivity|]. cbn [project_passes].
  destruct (Orthogonal_ok (Tf 0) (angles 0%nat) T1) as (w & E & W1 & W2). rewrite E. cbn [bind].
  destruct (wp_elim _ _ (pass_spec w)) as (r & ER & HR). rewrite ER. cbn [bind]. destruct r as [L|].
  - right. exists L. split; [reflexivity|]. destruct HR as (HL & WN). assert (SN : skewed (Tf 0) <> zero3) by (intros S0; apply WN, W2, S0). destruct (W1 SN). apply (pass_carried w L); assumption.
  - apply IH.
Qed.

Lemma start_ok : get (KnotVector c) 0 = Ok (val U 0) /\ unit_tangent c (val U 0) = Ok (Tf 0).
Proof. pose proof U_len. cbn [c KnotVector]. rewrite (get_at 0%R) by lia. split; [reflexivity|]. apply Tf_ok. lia. Qed.

Lemma Project_open fuel angles : IsClosed c = Ok false -> Tf 0 <> zero3 -> ProjectNormal fuel angles c = OutOfFuel \/ exists L, ProjectNormal fuel angles c = Ok L /\ carried p n U H L.
Proof.
  intros Hc T0. destruct start_ok as (E0 & E1). unfold ProjectNormal. rewrite E0. cbn [bind]. rewrite E1. cbn [bind].
  destruct (passes_spec angles fuel T0) as [->|(L & -> & HL)]; [left; reflexivity|]. cbn [bind]. rewrite Hc. cbn [bind]. right. exists L. split; [reflexivity|exact HL].
Qed.
Lemma upd_end {X} (l : list X) x : upd l (len l) x = UB.
Proof. unfold upd. rewrite Z.ltb_irrefl, andb_false_r. reflexivity. Qed.
Lemma Project_closed fuel angles : IsClosed c = Ok true -> Tf 0 <> zero3 -> ProjectNormal fuel angles c = OutOfFuel \/ ProjectNormal fuel angles c = UB.
Proof.
  intros Hc T0. destruct start_ok as (E0 & E1). pose proof U_len. unfold ProjectNormal. rewrite E0. cbn [bind]. rewrite E1. cbn [bind].
  destruct (passes_spec angles fuel T0) as [->|(L & -> & HL)]; [left; reflexivity|]. cbn [bind]. rewrite Hc. cbn [bind]. right. pose proof (proj1 HL) as LL.
  rewrite (get_at vzero) by lia. cbn [bind c KnotVector].
  destruct (wp_elim _ _ (upd_wp L (len L) (len U - 1) (at_ vzero L 0) (fun _ => True) eq_refl ltac:(lia) (fun _ _ _ _ => I))) as (L' & E & _). rewrite E. cbn [bind].
  unfold mkvec. destruct (Z.ltb_spec (len U - 1) 0); [lia|]. cbn [bind].
  assert (LR : len (repeat (xyz0 (A := R)) (Z.to_nat (len U - 1))) = len U - 1) by (unfold len at 1; rewrite repeat_length; lia).
  rewrite <- LR at 2. rewrite upd_end. reflexivity.
Qed.

(* no orthogonal vector is ever found *)
Lemma passes_never angles fuel : skewed (Tf 0) = zero3 -> project_passes fuel c (Tf 0) angles = OutOfFuel.
Proof.
  intros S0. assert (W : forall k, CreateRandomOrthogonal (Tf 0) k = Ok zero3).
  { intros k. destruct (zero3_dec (Tf 0)) as [Z0|Z0].
    - rewrite Z0. unfold CreateRandomOrthogonal. change zero3 with (xyz0 (A := R)). rewrite Normalize_zero. cbn [bind]. rewrite <- Normalize_zero. f_equal. unfold xyz_add, xyz_scale, CrossProduct, xyz0. num. cbn [gx gy gz]. f_equal; ring.
    - assert (T1 : dot3 (Tf 0) (Tf 0) = 1%R). { destruct (Tf_ok 0 ltac:(pose proof U_len; lia)) as (_ & g & G & GN & GZ). apply GN. intros E. apply Z0, GZ, E. }
      destruct (Orthogonal_ok (Tf 0) k T1) as (w & E & _ & W2). rewrite E, (W2 S0). reflexivity. }
  revert angles. induction fuel as [|fuel IH]; intros angles; [reflexivity|]. cbn [project_passes]. rewrite W. cbn [bind].
  destruct (wp_elim _ _ (pass_spec zero3)) as (r & ER & HR). rewrite ER. cbn [bind]. destruct r as [L|]; [destruct HR as (_ & []); reflexivity|apply IH].
Qed.
Lemma Project_never fuel angles : skewed (Tf 0) = zero3 -> ProjectNormal fuel angles c = OutOfFuel.
Proof.
  intros S0. destruct start_ok as (E0 & E1). unfold ProjectNormal. rewrite E0. cbn [bind]. rewrite E1. cbn [bind]. rewrite passes_never by exact S0. reflexivity.
Qed.

(* a curve whose tangents all have one direction *)
Lemma not_zero_cross u w : dot3 u u = 1%R -> dot3 w w = 1%R -> dot3 w u = 0%R -> IsZero (cross3 u w) = false.
Proof.
  intros H1 H2 H3. destruct (IsZero (cross3 u w)) eqn:E; [|reflexivity]. exfalso. apply IsZero_spec in E.
  assert (X : dist xyz0 (cross3 u w) = 1%R). { unfold dist. rewrite <- sqrt_1. f_equal. transitivity (dot3 (cross3 u w) (cross3 u w)); [unfold SqrLength, xyz_sub, dot3, xyz0; num; cbn [gx gy gz]; ring|].
    rewrite lagrange, H1, H2. replace (dot3 u w) with (dot3 w u) by (unfold dot3; ring). rewrite H3. ring. }
  rewrite X in E. lra.
Qed.
Lemma pass_straight u w : dot3 u u = 1%R -> dot3 w w = 1%R -> dot3 w u = 0%R -> (forall i, 0 <= i < len U -> Tf i = u) ->
  wp (project_pass c w) (fun r => r = Some (repeat w (Z.to_nat (len U)))).
Proof.
  intros Hu H1 H2 HT. pose proof U_len as U2. unfold project_pass. cbn [c KnotVector]. fold c. apply wp_bind. apply wp_mkvec; [lia|]. intros L0 HL0. apply wp_bind. apply (arr_upd _ _ _ _ _ _ HL0); [lia|]. intros L1 HL1. apply wp_bind.
  apply wp_for_upc with (P := fun i L => arrD L (len U) (fun j => j < i) (fun _ => w)) (F := fun _ => False).
  - split; [exact (proj1 HL1)|]. intros i Hi D. rewrite (proj2 HL1) by lia. f_equal. zcase; try lia. reflexivity.
  - intros i L Hi HL. rewrite (get_at 0%R U i) by lia. cbn [bind]. fold (val U i). destruct (Tf_ok i ltac:(lia)) as (ET & _). rewrite ET. cbn [bind]. wget HL. rewrite HT by lia.
    rewrite cross_eq, not_zero_cross by assumption. rewrite scale_eq, dot_eq, H2. g3.
    replace (minus3 w (times3 0 u)) with w by (destruct w as [x y z]; unfold minus3, times3; cbn [gx gy gz]; f_equal; ring). rewrite (unit_self w H1). cbn [bind].
    apply wp_bind. eapply (arrD_set _ _ _ (fun j => j < i + 1) _ _ _ _ HL); [lia|reflexivity|dl|]. intros L' HL'. apply wp_ok. exact HL'.
  - intros L HL. rewrite Z.max_r in HL by lia. apply wp_ok. f_equal. eapply arr_inj; [eapply arr_of_arrD; [exact HL|cbv beta; lia]|]. apply arr_repeat. lia.
  - intros ? [].
Qed.
Lemma Project_straight u fuel angles : dot3 u u = 1%R -> skewed u <> zero3 -> (forall i, 0 <= i < len U -> Tf i = u) -> IsClosed c = Ok false ->
  exists w, dot3 w w = 1%R /\ dot3 w u = 0%R /\ ProjectNormal (S fuel) angles c = Ok (repeat w (Z.to_nat (len U))).
Proof.
  intros Hu HS HT HC. pose proof U_len. destruct (Orthogonal_ok u (angles 0%nat) Hu) as (w & E & W & _). destruct (W HS) as (W1 & W2). exists w. split; [exact W1|]. split; [exact W2|].
  destruct start_ok as (E0 & E1). unfold ProjectNormal. rewrite E0. cbn [bind]. rewrite E1. cbn [bind project_passes]. rewrite (HT 0) by lia. rewrite E. cbn [bind].
  rewrite (wp_eq _ _ (pass_straight u w Hu W1 W2 HT)). cbn [bind]. rewrite HC. reflexivity.
Qed.
End Proj.
