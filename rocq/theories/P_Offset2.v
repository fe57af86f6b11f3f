(* Offset curves: interpolated samples. *)
From Coq Require Import ZArith List Bool Reals Lra Lia.
From Verif Require Import Base Num Vec Tac Spec Spec2 Spec3 Spec4 Spec5 Spec6 Spec10 Spec17 Spec23 M_MathUtils M_Polynomials M_Knots M_XYZ M_Bspline M_NurbsCurve M_Curve2 M_Geom M_Interp M_Fit M_Shape M_Curve4 M_Offset
  P_MathUtils P_Geom P_Conic P_XYZ P_Vec P_VSum P_Curve P_Loop P_Extract P_Shape P_Surf6 P_Surf7 P_Local P_Interp P_Interp2 P_Fit P_Nurbs P_Span P_Insert2 P_KnotMap P_ParamOn P_Ls4 P_Offset P_Excess.
Import ListNotations.
Open Scope Z_scope.

Lemma occ_one U m (f : Z -> R) x i : arr U m f -> 0 <= i < m -> f i = x -> (forall j, 0 <= j < m -> j <> i -> f j <> x) -> occ U x = 1.
Proof.
  intros A Hi Ex Hu. pose proof (arr_len _ _ _ A) as L. destruct (nth_split U 0%R (n := Z.to_nat i)) as (l1 & l2 & E & L1); [unfold len in L; lia|].
  assert (V : forall j, 0 <= j < m -> val U j = f j) by (intros j Hj; apply (arr_val _ _ _ _ A), Hj). assert (Ei : nth (Z.to_nat i) U 0%R = x) by (rewrite <- Ex, <- V by lia; reflexivity). rewrite Ei in E.
  assert (N1 : occ l1 x = 0). { pose proof (occ_nonneg l1 x). destruct (Z.eq_dec (occ l1 x) 0) as [|N]; [assumption|]. exfalso. assert (I1 : In x l1) by (apply occ_pos; lia). destruct (In_nth _ _ 0%R I1) as (k & K1 & K2).
    apply (Hu (Z.of_nat k)); [lia|lia|]. rewrite <- V by lia. unfold val, at_. rewrite Nat2Z.id, E, app_nth1 by lia. exact K2. }
  assert (N2 : occ l2 x = 0). { pose proof (occ_nonneg l2 x). destruct (Z.eq_dec (occ l2 x) 0) as [|N]; [assumption|]. exfalso. assert (I1 : In x l2) by (apply occ_pos; lia). destruct (In_nth _ _ 0%R I1) as (k & K1 & K2).
    assert (LE : length U = (length l1 + S (length l2))%nat) by (rewrite E, app_length; reflexivity). unfold len in L.
    apply (Hu (i + 1 + Z.of_nat k)); [lia|lia|]. rewrite <- V by lia. unfold val, at_. rewrite E, app_nth2 by lia. replace (Z.to_nat (i + 1 + Z.of_nat k) - length l1)%nat with (S k) by lia. exact K2. }
  rewrite E, occ_app, occ_cons, N1, N2. destruct (Req_EM_T x x); [reflexivity|contradiction].
Qed.

Lemma avg_step p us i : 1 <= p -> p < i -> i + 1 < len us -> (forall i j, 0 <= i < j -> j < len us -> (val us i < val us j)%R) -> (avg_knot p us i < avg_knot p us (i + 1))%R.
Proof.
  intros Hp Hi Hl Hs. rewrite !avg_mid by lia. unfold Rdiv. apply Rmult_lt_compat_r; [apply Rinv_0_lt_compat, IZR_lt; lia|].
  replace (rsum (i + 1 - p) (i + 1 - p + p) (val us)) with (rsum (i - p + 1) (i - p + p + 1) (fun j => val us (j - 1 + 1))) by (rewrite (rsum_ext _ _ _ (val us)) by (intros; f_equal; lia); f_equal; lia).
  rewrite <- (rsum_shift 1 (i - p) (i - p + p) (fun j => val us (j + 1))). apply rsum_lt; [lia|]. intros j Hj. apply Hs; lia.
Qed.
Lemma avg_lt p us i j : 1 <= p -> p < i -> i < j -> j < len us -> (forall i j, 0 <= i < j -> j < len us -> (val us i < val us j)%R) -> (avg_knot p us i < avg_knot p us j)%R.
Proof.
  intros Hp Hi Hij Hj Hs. assert (G : forall k, 0 <= k -> i + 1 + k < len us -> (avg_knot p us i < avg_knot p us (i + 1 + k))%R).
  { apply (natlike_ind (fun k => i + 1 + k < len us -> (avg_knot p us i < avg_knot p us (i + 1 + k))%R)).
    - intros Hk. rewrite Z.add_0_r in *. apply avg_step; auto.
    - intros k Hk IH Hl. pose proof (IH ltac:(lia)) as G. pose proof (avg_step p us (i + 1 + k) Hp ltac:(lia) ltac:(lia) Hs) as G2. replace (i + 1 + Z.succ k) with (i + 1 + k + 1) by lia. lra. }
  replace j with (i + 1 + (j - i - 1)) by lia. apply G; lia.
Qed.
Lemma avg_unrepeated p us U : 1 <= p -> p <= len us - 1 -> (forall i j, 0 <= i < j -> j < len us -> (val us i < val us j)%R) -> val us 0 = 0%R -> val us (len us - 1) = 1%R ->
  arr U (len us + p + 1) (avg_knot p us) -> unrepeated U.
Proof.
  intros Hp Hn Hs H0 H1 A x Ix (y & Iy & Hy) (z & Iz & Hz).
  assert (IA : forall a, In a U -> exists i, 0 <= i < len us + p + 1 /\ avg_knot p us i = a).
  { intros a Ia. destruct (In_nth _ _ 0%R Ia) as (k & K1 & K2). assert (L : Z.of_nat (length U) = len us + p + 1) by exact (arr_len _ _ _ A). exists (Z.of_nat k). split; [lia|]. rewrite <- (arr_val _ _ _ _ A) by lia. unfold val, at_. rewrite Nat2Z.id. exact K2. }
  assert (B : forall i, 0 <= i < len us + p + 1 -> (0 <= avg_knot p us i <= 1)%R).
  { intros i Hi. unfold avg_knot. destruct (Z.leb_spec i p); [lra|]. destruct (Z.ltb_spec i (len us)); [|lra]. fold (avg_knot p us i). 
    assert (E : (rsum (i - p) i (val us) = rsum (i - p) (i - p + p) (val us))%R) by (f_equal; lia). rewrite E. split; [apply mean_ge|apply mean_le]; try lia; intros j Hj; [rewrite <- H0|rewrite <- H1].
    - destruct (Z.eq_dec j 0) as [->|]; [lra|]. apply Rlt_le, Hs; lia.
    - apply Rlt_le, Hs; lia. }
  destruct (IA y Iy) as (iy & Hiy & <-). destruct (IA z Iz) as (iz & Hiz & <-). destruct (IA x Ix) as (i & Hi & E). pose proof (B iy Hiy). pose proof (B iz Hiz).
  assert (X01 : (0 < x < 1)%R) by lra.
  assert (Mid : forall j, 0 <= j < len us + p + 1 -> avg_knot p us j = x -> p < j < len us).
  { intros j Hj Ej. unfold avg_knot in Ej. destruct (Z.leb_spec j p); [lra|]. destruct (Z.ltb_spec j (len us)); [lia|lra]. }
  pose proof (Mid i Hi E) as Mi. apply (occ_one U _ _ x i A Hi E). intros j Hj Nj Ej. pose proof (Mid j Hj Ej) as Mj.
  destruct (Z.lt_ge_cases i j) as [G|G]; [pose proof (avg_lt p us i j Hp ltac:(lia) G ltac:(lia) Hs)|pose proof (avg_lt p us j i Hp ltac:(lia) ltac:(lia) ltac:(lia) Hs)]; lra.
Qed.

Lemma Interpolation_knots solve p (Q : list (XYZ R)) c : 1 <= p -> p <= len Q - 1 -> (forall i, 0 <= i < len Q - 1 -> pt Q i <> pt Q (i + 1)) -> GlobalInterpolation solve p Q [] = Ok c -> unrepeated (KnotVector c) /\ In 0%R (KnotVector c) /\ In 1%R (KnotVector c).
Proof.
  intros Hp Hn Hd. destruct (Chord_returns Q ltac:(lia)) as (u & Eu & Lu & U0 & U1 & Us & Ui & _).
  assert (Hst : forall i j, 0 <= i < j -> j < len u -> (val u i < val u j)%R).
  { intros i j Hij Hj. pose proof (Ui i ltac:(lia) (Hd i ltac:(lia))) as H1. pose proof (Us (i + 1) j ltac:(lia) ltac:(lia) ltac:(lia)). lra. }
  unfold GlobalInterpolation. destruct (validate _); [cbn [bind]|discriminate]. destruct (validate _); [cbn [bind]|discriminate]. cbn [len length Z.of_nat Z.eqb]. rewrite Eu. cbn [bind].
  destruct (wp_elim _ _ (Average_ok p u Hp ltac:(lia))) as (U & EU & AU). rewrite EU. cbn [bind]. intros E. change (arr U (len u + p + 1) (avg_knot p u)) in AU.
  assert (KV : KnotVector c = U).
  { repeat (destruct (bind_Ok _ _ _ E) as (? & _ & E'); clear E; rename E' into E). injection E as <-. reflexivity. }
  rewrite KV. split; [apply (avg_unrepeated p u U); auto; try lia; rewrite ?Lu; auto|]. 
  assert (V : forall i, 0 <= i < len u + p + 1 -> In (avg_knot p u i) U). { intros i Hi. rewrite <- (arr_val _ _ _ _ AU) by lia. apply nth_In. assert (L : Z.of_nat (length U) = len u + p + 1) by exact (arr_len _ _ _ AU). lia. }
  split; [replace 0%R with (avg_knot p u 0)|replace 1%R with (avg_knot p u (len u))]; [apply V; lia| |apply V; lia|]; unfold avg_knot; destruct (Z.leb_spec 0 p); try lia; try reflexivity. destruct (Z.leb_spec (len u) p); [lia|]. rewrite Z.ltb_irrefl. reflexivity.
Qed.

(* how many samples there are *)
Section Count.
Variables (p n : Z) (U : list R) (H : list (XYZW R)).
Hypothesis HU : curve_knots p n U.
Hypothesis Hp : p <= 7.
Hypothesis HH : len H = n + 1.
Hypothesis Hw : heavy H.
Hypothesis Hcl : clamped_knots p n U.
Let c := mkCurve p U H.

Lemma count_post : returns (sample_count c) (fun k => 0 <= k /\ (forall i, 0 <= i < len U -> exists g, curve_derivs p n U H 2 (val U i) g /\ (amount (g 2%Z) < IZR k + 1)%R) /\
  (k = 0 \/ exists i g, 0 <= i < len U /\ curve_derivs p n U H 2 (val U i) g /\ (IZR k <= amount (g 2%Z))%R)).
Proof.
  apply wp_elim. unfold sample_count. cbn [KnotVector c].
  apply wp_for_up with (P := fun m k => 0 <= k /\ (forall i, 0 <= i < m -> exists g, curve_derivs p n U H 2 (val U i) g /\ (amount (g 2%Z) < IZR k + 1)%R) /\
    (k = 0 \/ exists i g, 0 <= i < len U /\ curve_derivs p n U H 2 (val U i) g /\ (IZR k <= amount (g 2%Z))%R)).
  - apply len_nonneg.
  - split; [lia|]. split; [lia|]. left. reflexivity.
  - intros i k Hi (K0 & K1 & K2). rewrite get_val by lia. cbn [bind]. pose proof (knot_dom p n U HU Hcl i Hi) as D. pose proof (curve_weight p n U H _ HU HH Hw D) as Wx.
    destruct (derivs_at p n U H _ HU Hp HH D ltac:(lra) 2 ltac:(lia)) as (g & L & HG & E & G). fold c in E. rewrite E. cbn [bind].
    assert (LL : (2 <? len L) = true). { pose proof (G 2 ltac:(lia)) as G2. unfold get in G2. cbn [Z.ltb Z.compare] in G2. apply Z.ltb_lt. destruct (nth_error L (Z.to_nat 2)) eqn:N; [|discriminate]. assert (Z.to_nat 2 < length L)%nat by (apply nth_error_Some; congruence). unfold len. lia. }
    rewrite LL, G by lia. cbn [bind]. unfold DistanceEpsilon. num. rewrite Rdiv_ok by lra. cbn [bind]. rewrite Rsqrt_ok by lra. cbn [bind]. rewrite Length_eq. cbn [bind]. rewrite Rdiv_ok by lra. cbn [bind]. rewrite Rsqrt_ok by (pose proof (norm_nonneg (g 2%Z)); lra). cbn [bind].
    assert (S1 : sqrt (1 / (1 / 10000)) = 100%R) by (replace (1 / (1 / 10000))%R with (100 * 100)%R by lra; apply sqrt_square; lra). cbn [nfloor Floor_R].
    replace (sqrt (1 / (1 / 10000)) * sqrt (norm3 (g 2%Z) / 8))%R with (amount (g 2%Z)) by (rewrite S1; reflexivity). pose proof (floor_spec (amount (g 2%Z))) as F.
    assert (P0 : (0 <= amount (g 2%Z))%R) by (unfold amount; pose proof (sqrt_pos (norm3 (g 2%Z) / 8)); lra).
    apply wp_ok. destruct (Z.ltb_spec k (Int_part (amount (g 2%Z)))) as [M|M].
    + split; [lia|]. split.
      * intros j Hj. destruct (Z.eq_dec j i) as [->|]; [exists g; split; [exact HG|lra]|]. destruct (K1 j ltac:(lia)) as (g' & HG' & B). exists g'. split; [exact HG'|]. apply IZR_lt in M. lra.
      * right. exists i, g. split; [lia|]. split; [exact HG|lra].
    + split; [lia|]. split; [|exact K2]. intros j Hj. destruct (Z.eq_dec j i) as [->|]; [|apply K1; lia]. exists g. split; [exact HG|]. apply IZR_le in M. lra.
  - intros k Hk. exact Hk.
Qed.

Variable solver : list (list R) -> list (list R) -> res (list (list R)).
Hypothesis Hs : exact_solver solver.
Hypothesis Hp1 : 1 <= p.

(* what is computed from the samples *)
Definition tail (Q : list (XYZ R)) : res (option (Curve R (XYZW R))) :=
  let! temp := GlobalInterpolation solver p Q [] in let! result := RemoveExcessiveKnots temp in Ok (Some result).
Lemma tail_ok Q : p <= len Q - 1 -> spread_points Q -> returns (tail Q) (fun o => exists c', o = Some c' /\ Degree c' = p /\ clamped_unit p (len Q - 1) (KnotVector c') /\ len (ControlPoints c') = len Q /\
  forall i, 0 <= i < len Q -> NurbsPoint c' (chord_length (pt Q) i / chord_length (pt Q) (len Q - 1))%R = Ok (pt Q i)).
Proof.
  intros Hn (S1 & S2 & S3 & S4). unfold tail. destruct (Interpolation_chord solver p Q Hs ltac:(lia) Hn S1 S2 S3 S4) as (t & E & T). destruct (Interpolation_knots solver p Q t Hp1 Hn S1 E) as (K1 & K2 & K3). rewrite E. cbn [bind].
  rewrite (Excessive_same t 0 1 K2 K3 ltac:(lra) K1). cbn [bind]. eexists. split; [reflexivity|]. exists t. split; [reflexivity|exact T].
Qed.

Lemma Piegl_samples d : ~ close d 0 -> exists m, sample_number p n U H m /\
  ((forall t, in_domain p n U t -> exists v, CurveNormalAt c CN_Normal t = Ok v) -> exists Q, len Q = m /\ samples c d (val U 0) (val U (n + p + 1)) Q /\ OffsetByPieglAndTiller solver c d = tail Q) /\
  okp (OffsetByPieglAndTiller solver c d) (fun o => exists Q, len Q = m /\ samples c d (val U 0) (val U (n + p + 1)) Q /\ tail Q = Ok o).
Proof.
  intros Hd. pose proof HU as [P0 N0 L S F _]. destruct count_post as (k & Ek & K0 & K1 & K2). set (m := if 2 * (p + 1) <? k then k else 2 * (p + 1)).
  assert (HM : sample_number p n U H m).
  { unfold sample_number, m. destruct (Z.ltb_spec (2 * (p + 1)) k) as [M|M].
    - split; [lia|]. split; [exact K1|]. right. destruct K2 as [->|K2]; [lia|exact K2].
    - split; [lia|]. split; [|left; reflexivity]. intros i Hi. destruct (K1 i Hi) as (g & HG & B). exists g. split; [exact HG|]. apply IZR_le in M. lra. }
  assert (Hm : 2 * (p + 1) <= m) by (unfold m; destruct (Z.ltb_spec (2 * (p + 1)) k); lia).
  exists m. split; [exact HM|]. apply close_false in Hd.
  set (st := ((val U (n + p + 1) - val U 0) / IZR (m - 1))%R).
  assert (EO : OffsetByPieglAndTiller solver c d = let! Q := for_up 0 m [] (fun j Q => let! point := NurbsPoint c (val U 0 + st * IZR j)%R in let! normal := CurveNormalAt c CN_Normal (val U 0 + st * IZR j)%R in Ok (Q ++ [xyz_add point (xyz_scale d normal)])) in tail Q).
  { unfold OffsetByPieglAndTiller, tail. num. rewrite Hd. cbn [KnotVector c Degree]. rewrite !get_val by lia. cbn [bind]. fold c. rewrite Ek. cbn [bind]. fold m. rewrite Rdiv_ok by (apply not_0_IZR; lia). cbn [bind]. replace (len U - 1) with (n + p + 1) by lia. reflexivity. }
  assert (Sn : forall Q q v, pt (Q ++ [xyz_add (A := R) q (xyz_scale d v)]) (len Q) = plus3 q (times3 d v)).
  { intros Q q v. unfold pt, at_, len. rewrite app_nth2 by lia. replace (_ - _)%nat with 0%nat by lia. cbn [nth]. change (xyz_add (A := R)) with plus3. f_equal. unfold xyz_scale, times3. num. f_equal; ring. }
  assert (Sl : forall (Q : list (XYZ R)) x i, 0 <= i < len Q -> pt (Q ++ [x]) i = pt Q i) by (intros Q x i Hi; unfold pt, at_; apply app_nth1; unfold len in Hi; lia).
  split.
  - intros HN. assert (W : wp (for_up 0 m [] (fun j Q => let! point := NurbsPoint c (val U 0 + st * IZR j)%R in let! normal := CurveNormalAt c CN_Normal (val U 0 + st * IZR j)%R in Ok (Q ++ [xyz_add point (xyz_scale d normal)])))
      (fun Q => len Q = m /\ forall j, 0 <= j < m -> offset_at c d (val U 0 + st * IZR j) (pt Q j))).
    { apply wp_for_up with (P := fun k (Q : list (XYZ R)) => len Q = k /\ forall j, 0 <= j < k -> offset_at c d (val U 0 + st * IZR j) (pt Q j)).
      - lia.
      - split; [reflexivity|lia].
      - intros j Q Hj (LQ & HQ). assert (D : in_domain p n U (val U 0 + st * IZR j)).
        { pose proof (knot_dom p n U HU Hcl 0 ltac:(lia)) as D0. destruct Hcl as (C0 & C1). pose proof (dom_lt p n U HU) as Lt. rewrite <- C0, C1 in Lt. assert (0 < IZR (m - 1))%R by (apply IZR_lt; lia). assert (0 <= IZR j)%R by (apply IZR_le; lia). assert (IZR j <= IZR (m - 1))%R by (apply IZR_le; lia).
          assert (S0 : (0 < st)%R) by (unfold st; apply Rdiv_lt_0_compat; lra). assert (SM : (st * IZR (m - 1) = val U (n + p + 1) - val U 0)%R) by (unfold st; field; lra). unfold in_domain. rewrite <- C0, C1. split; nra. }
        destruct (HN _ D) as (v & Ev). pose proof (curve_weight p n U H _ HU HH Hw D) as Wx. destruct (ToXYZ_some _ (Rgt_not_eq _ _ Wx)) as (q & Eq).
        assert (EN : NurbsPoint c (val U 0 + st * IZR j)%R = Ok q) by (unfold c; rewrite (NurbsPoint_ok p n) by assumption; exact Eq).
        rewrite EN, Ev. cbn [bind]. apply wp_ok. split; [rewrite len_app, LQ; reflexivity|]. intros i Hi. destruct (Z.eq_dec i j) as [->|].
        + exists q, v. split; [exact EN|]. split; [exact Ev|]. split; [apply (normal_unit _ _ _ Ev)|]. transitivity (pt (Q ++ [xyz_add q (xyz_scale d v)]) (len Q)); [rewrite LQ; reflexivity|apply Sn].
        + rewrite Sl by lia. apply HQ. lia.
      - intros Q HQ. exact HQ. }
    destruct (wp_elim _ _ W) as (Q & EQ & LQ & HQ). exists Q. split; [exact LQ|]. split; [unfold samples; rewrite LQ; exact HQ|]. rewrite EO, EQ. reflexivity.
  - rewrite EO. apply okp_bind. apply (okp_for (fun k (Q : list (XYZ R)) => len Q = k /\ forall j, 0 <= j < k -> offset_at c d (val U 0 + st * IZR j) (pt Q j))).
    + split; [reflexivity|lia].
    + intros j Q Hj (LQ & HQ). apply okp_bind. intros q Eq. apply okp_bind. intros v Ev. apply okp_ok. split; [rewrite len_app, LQ; reflexivity|]. intros i Hi. destruct (Z.eq_dec i j) as [->|].
      * exists q, v. split; [exact Eq|]. split; [exact Ev|]. split; [apply (normal_unit _ _ _ Ev)|]. transitivity (pt (Q ++ [xyz_add q (xyz_scale d v)]) (len Q)); [rewrite LQ; reflexivity|apply Sn].
      * rewrite Sl by lia. apply HQ. lia.
    + intros Q (LQ & HQ). rewrite Z.max_r in LQ, HQ by lia. intros o Eo. exists Q. split; [exact LQ|]. split; [unfold samples; rewrite LQ; exact HQ|exact Eo].
Qed.
End Count.
