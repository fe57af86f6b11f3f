(* Straightness, closedness, clamping, tessellation and arcs. *)
From Coq Require Import ZArith List Bool Reals Lra Lia.
From Verif Require Import Base Num Vec Tac Spec Spec2 Spec3 Spec4 Spec5 Spec10 M_MathUtils M_Polynomials M_XYZ M_Bspline M_NurbsCurve M_Geom M_Knots M_Shape
  P_MathUtils P_Span P_Cox P_Basis P_Deriv P_Vec P_XYZ P_VSum P_Curve P_Bezier P_Bspline P_Matrix P_Loop P_Geom P_Nurbs P_Conic P_Insert P_Insert2 P_Refine P_Merge P_KnotMap2 P_Ruled P_Shape P_Shape2.
Import ListNotations.
Open Scope Z_scope.

Lemma near_false a b : xyz_IsAlmostEqualTo a b = false <-> ~ Spec3.near a b.
Proof. rewrite <- near_iff. destruct (xyz_IsAlmostEqualTo a b); split; congruence. Qed.

Lemma lagrange a b : (dot3 (cross3 a b) (cross3 a b) = dot3 a a * dot3 b b - dot3 a b * dot3 a b)%R.
Proof. destruct a as [a1 a2 a3], b as [b1 b2 b3]. unfold dot3, cross3. cbn [gx gy gz]. ring. Qed.

Lemma cauchy a b : (dot3 a b <= norm3 a * norm3 b)%R.
Proof.
  apply Rsqr_incr_0_var; [|apply Rmult_le_pos; apply norm_nonneg]. unfold Rsqr.
  replace (norm3 a * norm3 b * (norm3 a * norm3 b))%R with ((norm3 a * norm3 a) * (norm3 b * norm3 b))%R by ring. rewrite !norm_sq.
  pose proof (lagrange a b) as L. pose proof (dot_pos (cross3 a b)). lra.
Qed.

Lemma norm_bound a e : (0 <= e)%R -> (dot3 a a <= e * e)%R -> (norm3 a <= e)%R.
Proof. intros He Hd. apply Rsqr_incr_0_var; [|exact He]. unfold Rsqr. rewrite norm_sq. exact Hd. Qed.

Lemma cross_bound a u : dot3 u u = 1%R -> (norm3 (cross3 a u) <= norm3 a)%R.
Proof. intros Hu. apply norm_bound; [apply norm_nonneg|]. rewrite norm_sq, lagrange, Hu. pose proof (Rle_0_sqr (dot3 a u)) as S0. unfold Rsqr in S0. lra. Qed.

Lemma tol_small x : (Rabs x <= tol x 0)%R -> (Rabs x <= 1 / 999999)%R.
Proof. unfold tol. rewrite Rabs_R0, Rmax_left by apply Rabs_pos. intros. lra. Qed.

Lemma near_zero a : Spec3.near a zero3 -> (norm3 a <= 2 / 999999)%R.
Proof.
  destruct a as [a1 a2 a3]. unfold Spec3.near, zero3. cbn [gx gy gz]. rewrite !Rminus_0_r. intros (H1 & H2 & H3). apply tol_small in H1, H2, H3.
  apply norm_bound; [lra|]. unfold dot3. cbn [gx gy gz]. apply Rsqr_le_abs_1 in H1 || idtac.
  assert (K : forall x, (Rabs x <= 1 / 999999)%R -> (x * x <= (1 / 999999) * (1 / 999999))%R).
  { intros x Hx. replace (x * x)%R with (Rabs x * Rabs x)%R by (rewrite <- Rabs_mult; apply Rabs_pos_eq, Rle_0_sqr). pose proof (Rabs_pos x). apply Rmult_le_compat; lra. }
  pose proof (K a1 H1). pose proof (K a2 H2). pose proof (K a3 H3). lra.
Qed.

Lemma gt_small x : (0 <= x)%R -> IsGreaterThan x 0%R = false -> (x <= 1 / 999999)%R.
Proof.
  intros Hx E. assert (N : ~ (thr eps x 0 < x - 0)%R) by (intros C; apply gt_iff in C; congruence). rewrite <- tol_thr in N.
  assert (Ha : Rabs x = x) by (apply Rabs_pos_eq, Hx). rewrite <- Ha. apply tol_small. rewrite Ha. lra.
Qed.

Lemma count_many (l : list R) u : forall hi, 0 <= hi -> (forall i, hi <= i < len l -> val l i <> u) -> Z.of_nat (count_occ Req_EM_T l u) <= hi.
Proof.
  induction l as [|x l IH]; intros hi Hh Hn; [cbn; lia|]. cbn [count_occ]. rewrite len_cons in Hn.
  assert (G : forall i, 0 <= i -> val l i = val (x :: l) (i + 1)) by (intros i Hi; rewrite val_cons by lia; f_equal; lia). destruct (Z.eq_dec hi 0) as [->|Nh].
  - destruct (Req_EM_T x u) as [E|E]; [exfalso; apply (Hn 0); [pose proof (len_nonneg l); lia|exact E]|]. apply IH; [lia|]. intros i Hi. rewrite G by lia. apply Hn. lia.
  - assert (K : Z.of_nat (count_occ Req_EM_T l u) <= hi - 1). { apply IH; [lia|]. intros i Hi. rewrite G by lia. apply Hn. lia. }
    destruct (Req_EM_T x u); lia.
Qed.

Section Shape3.
Variables (p n : Z) (U : list R) (H : list (XYZW R)).
Hypothesis HU : curve_knots p n U.
Hypothesis Hp : p <= 7.
Hypothesis HH : len H = n + 1.
Hypothesis Hw : heavy H.
Let c := mkCurve p U H.
Let PP i := proj (pt H i).
Let C t := proj (curve_point p n U H t).

Lemma to_xyz i : 0 <= i <= n -> get H i = Ok (pt H i) /\ ToXYZ (pt H i) true = Ok (PP i).
Proof. intros Hi. split; [apply (get_at vzero); lia|]. apply heavy_to; [lia|apply Hw; lia]. Qed.

Lemma hull_lin z d t : in_domain p n U t -> (forall i, 0 <= i <= n -> (dot3 z (PP i) <= d)%R) -> (dot3 z (C t) <= d)%R.
Proof.
  intros Ht Hz. destruct (find_span p n U t HU Ht) as (k & _ & Hk). pose proof Hk as (Hk1 & _). pose proof HU as [Hp0 Hn Hl _ _ _].
  assert (LP : forall {X} (f : XYZW R -> X) (dd : X) i, 0 <= i <= n -> at_ dd (map f H) i = f (pt H i)).
  { intros X f dd i Hi. apply (at_map f vzero dd). lia. }
  destruct (Nurbs_hull p n U (map (@proj) H) (map (@ww R) H) H t k (fun x => - dot3 z x)%R (- d)%R HU Hp) as (x & E & B); auto.
  - split; [rewrite len_map; reflexivity|]. split; [rewrite len_map; reflexivity|]. intros i Hi. rewrite (get_at vzero) by lia. f_equal.
    change (pt H i = hom (at_ vzero (map proj H) i) (at_ 0%R (map (@ww R) H) i)). rewrite !LP by lia. symmetry. apply hom_proj. apply (heavy_to H i Hi). apply Hw. lia.
  - intros i Hi. unfold val. rewrite LP by lia. apply Hw. lia.
  - intros a b x y Hab. unfold dot3. destruct x as [x1 x2 x3], y as [y1 y2 y3]. cbn. ring.
  - intros i Hi. unfold pt at 1. rewrite LP by lia. pose proof (Hz i ltac:(lia)). unfold PP in *. lra.
  - rewrite (point_at p n U H HU Hp HH Hw t Ht) in E. injection E as <-. unfold C. lra.
Qed.

Lemma hull_cross a u e t : in_domain p n U t -> (0 <= e)%R -> (forall i, 0 <= i <= n -> (norm3 (cross3 (minus3 (PP i) a) u) <= e)%R) ->
  (norm3 (cross3 (minus3 (C t) a) u) <= e)%R.
Proof.
  intros Ht He Hb. set (y := cross3 (minus3 (C t) a) u). destruct (zero3_dec y) as [->|Hy]; [rewrite norm_0; exact He|]. pose proof (norm_pos y Hy) as Py.
  assert (L : forall x, (dot3 (cross3 u y) x = dot3 (cross3 (minus3 x a) u) y + dot3 (cross3 u y) a)%R).
  { intros x. clearbody y. destruct x as [x1 x2 x3], a as [a1 a2 a3], u as [u1 u2 u3], y as [y1 y2 y3]. unfold dot3, cross3, minus3. cbn [gx gy gz]. ring. }
  pose proof (hull_lin (cross3 u y) (e * norm3 y + dot3 (cross3 u y) a)%R t Ht) as B. rewrite (L (C t)) in B. fold y in B. rewrite <- norm_sq in B.
  assert (B' : (norm3 y * norm3 y + dot3 (cross3 u y) a <= e * norm3 y + dot3 (cross3 u y) a)%R).
  { apply B. intros i Hi. rewrite (L (PP i)). pose proof (cauchy (cross3 (minus3 (PP i) a) u) y) as Q. pose proof (Hb i Hi) as Q2. apply (Rmult_le_compat_r (norm3 y)) in Q2; lra. }
  apply (Rmult_le_reg_r (norm3 y)); lra.
Qed.


Lemma IsLinear_ok : 1 <= n -> wp (IsLinear c) (fun b =>
  (b = true -> exists a u, dot3 u u = 1%R /\ forall i, 0 <= i <= n -> (norm3 (cross3 (minus3 (PP i) a) u) <= 2 / 999999)%R) /\
  (b = false -> ~ collinear H)).
Proof.
  intros Hn1. pose proof (ck_n _ _ _ HU) as Hnp. pose proof (ck_p _ _ _ HU) as Hp0. unfold IsLinear. cbn [ControlPoints c]. rewrite HH. destruct (Z.ltb_spec (n + 1) 2); [lia|]. destruct (Z.eqb_spec (n + 1) 2) as [En|En].
  { apply wp_ok. split; [intros _|discriminate]. exists (PP 0).
    assert (UE : exists u, dot3 u u = 1%R /\ cross3 (minus3 (PP 1) (PP 0)) u = zero3).
    { destruct (zero3_dec (minus3 (PP 1) (PP 0))) as [E|E].
      - exists (mkXYZ 1%R 0%R 0%R). rewrite E. unfold dot3, cross3, zero3. cbn [gx gy gz]. split; [ring|apply xyz_eq; ring].
      - destruct (Normalize_spec _ E) as (u & _ & Hu & s & Hs & Ea). exists u. split; [exact Hu|]. rewrite Ea, scale_eq. destruct u as [u1 u2 u3]. unfold times3, cross3, zero3. cbn [gx gy gz]. apply xyz_eq; ring. }
    destruct UE as (u & Hu & Eu). exists u. split; [exact Hu|]. intros i Hi.
    assert (Z0 : cross3 (minus3 (PP i) (PP 0)) u = zero3).
    { assert (i = 0 \/ i = 1) as [->| ->] by lia; [|exact Eu]. generalize (PP 0). intros [b1 b2 b3]. destruct u as [u1 u2 u3]. unfold minus3, cross3, zero3. cbn [gx gy gz]. apply xyz_eq; ring. }
    rewrite Z0, norm_0. lra. }
  apply wp_bind. apply wp_push with (f := PP); [lia| |].
  { intros i v' Hi _. destruct (to_xyz i ltac:(lia)) as [E1 E2]. rewrite E1. cbn [bind]. rewrite E2. reflexivity. }
  intros pts AP. rewrite Z.sub_0_r in AP. assert (AP' : arr pts (n + 1) PP) by (eapply arr_ext; [exact AP|]; intros j Hj; cbv beta; rewrite Z.add_0_r; reflexivity). clear AP. rename AP' into AP.
  rewrite (arr_len _ _ _ AP). wget AP. wget AP. rewrite sub_eq.
  apply wp_bind. eapply wp_mono with (P := fun o => match o with
    | None => forall i, 1 <= i <= n -> Spec3.near (minus3 (PP i) (PP 0)) zero3
    | Some v => (exists j, 1 <= j <= n /\ v = minus3 (PP j) (PP 0)) /\ ~ Spec3.near v zero3 /\ (v = minus3 (PP 1) (PP 0) \/ Spec3.near (minus3 (PP 1) (PP 0)) zero3) end).
  { destruct (xyz_IsAlmostEqualTo (minus3 (PP 1) (PP 0)) xyz0) eqn:E1.
    - apply near_iff in E1. apply wp_bind. apply wp_for_upc with (P := fun k v => Spec3.near v zero3 /\ forall i, 1 <= i < k -> Spec3.near (minus3 (PP i) (PP 0)) zero3)
        (F := fun v => (exists j, 1 <= j <= n /\ v = minus3 (PP j) (PP 0)) /\ ~ Spec3.near v zero3).
      + split; [exact E1|]. intros i Hi. assert (i = 1) as -> by lia. exact E1.
      + intros k v Hk [_ Pk]. wget AP. rewrite sub_eq. destruct (xyz_IsAlmostEqualTo (minus3 (PP k) (PP 0)) xyz0) eqn:E2; cbn [negb].
        * apply near_iff in E2. apply wp_ok. split; [exact E2|]. intros i Hi. destruct (Z.eq_dec i k) as [->|Ni]; [exact E2|apply Pk; lia].
        * apply near_false in E2. apply wp_ok. split; [exists k; split; [lia|reflexivity]|exact E2].
      + intros v [Hv Hi]. pose proof (proj2 (near_iff v zero3) Hv) as E9. change zero3 with (@xyz0 R _) in E9. rewrite E9. apply wp_ok. intros i Hi'. apply Hi. lia.
      + intros v [Hj Hv]. apply wp_ok. split; [exact Hj|]. split; [exact Hv|]. right. exact E1.
    - apply near_false in E1. apply wp_ok. split; [exists 1; split; [lia|reflexivity]|]. split; [exact E1|]. left. reflexivity. }
  intros [v|] Ho.
  2:{ apply wp_ok. split; [intros _|discriminate]. exists (PP 0), (mkXYZ 1%R 0%R 0%R). assert (Hu : dot3 (mkXYZ 1 0 0)%R (mkXYZ 1 0 0)%R = 1%R) by (unfold dot3; cbn [gx gy gz]; ring). split; [exact Hu|].
      intros i Hi. eapply Rle_trans; [apply cross_bound, Hu|]. destruct (Z.eq_dec i 0) as [->|Ni]; [|apply near_zero, Ho; lia].
      replace (minus3 (PP 0) (PP 0)) with zero3 by (unfold minus3, zero3; apply xyz_eq; ring). rewrite norm_0. lra. }
  destruct Ho as ((j & Hj & Ev) & Hnz & H1).
  assert (Hv : v <> zero3). { intros ->. apply Hnz. unfold Spec3.near, zero3. cbn [gx gy gz]. rewrite Rminus_0_r, Rabs_R0. repeat split; apply Rlt_le, tol_pos. }
  destruct (Normalize_spec v Hv) as (u & Eu & Hu & s & Hs & Evs). rewrite Eu. cbn [bind]. change (SqrLength u) with (dot3 u u) in Hu. rewrite scale_eq in Evs.
  assert (C1 : (norm3 (cross3 (minus3 (PP 1) (PP 0)) u) <= 2 / 999999)%R).
  { destruct H1 as [E|E]; [|eapply Rle_trans; [apply cross_bound, Hu|apply near_zero, E]]. rewrite <- E, Evs.
    replace (cross3 (times3 s u) u) with zero3 by (clear; destruct u as [u1 u2 u3]; unfold times3, cross3, zero3; cbn [gx gy gz]; apply xyz_eq; ring). rewrite norm_0. lra. }
  apply wp_bind. apply wp_for_upc with (P := fun k _ => forall i, 0 <= i < k -> (norm3 (cross3 (minus3 (PP i) (PP 0)) u) <= 2 / 999999)%R) (F := fun b => b = false /\ ~ collinear H).
  - intros i Hi. assert (i = 0 \/ i = 1) as [->| ->] by lia; [|exact C1].
    replace (minus3 (PP 0) (PP 0)) with zero3 by (unfold minus3, zero3; apply xyz_eq; ring). eapply Rle_trans; [apply cross_bound, Hu|]. rewrite norm_0. lra.
  - intros k [] Hk Pk. wget AP. rewrite sub_eq, cross_eq, Length_eq. cbn [bind].
    destruct (IsGreaterThan (norm3 (cross3 (minus3 (PP k) (PP 0)) u)) n0) eqn:G; apply wp_ok.
    + split; [reflexivity|]. intros (a & w & x & Hx). rewrite HH in Hx. change (forall i, 0 <= i < n + 1 -> PP i = line_at a w (x i)) in Hx. apply gt_iff in G. num. rewrite <- tol_thr in G.
      assert (Z0 : cross3 (minus3 (PP k) (PP 0)) u = zero3).
      { assert (E : times3 s (cross3 (minus3 (PP k) (PP 0)) u) = zero3).
        { transitivity (cross3 (minus3 (PP k) (PP 0)) (times3 s u)); [unfold times3, cross3; apply xyz_eq; cbn [gx gy gz]; ring|]. rewrite <- Evs, Ev, !Hx by lia.
          unfold line_at, cross3, times3, plus3, minus3, zero3. cbn [gx gy gz]. apply xyz_eq; ring. }
        pose proof (f_equal (@gx R) E) as X1. pose proof (f_equal (@gy R) E) as X2. pose proof (f_equal (@gz R) E) as X3. unfold times3, zero3 in X1, X2, X3. cbn [gx gy gz] in X1, X2, X3. unfold zero3. apply P_XYZ.xyz_eq; cbn [gx gy gz]; [apply (Rmult_eq_reg_l s)|apply (Rmult_eq_reg_l s)|apply (Rmult_eq_reg_l s)]; lra. }
      rewrite Z0, norm_0 in G. pose proof (tol_pos 0 0). lra.
    + intros i Hi. destruct (Z.eq_dec i k) as [->|Ni]; [|apply Pk; lia]. pose proof (gt_small _ (norm_nonneg _) G). lra.
  - intros [] Pn. apply wp_ok. split; [intros _|discriminate]. exists (PP 0), u. split; [exact Hu|]. intros i Hi. apply Pn. lia.
  - intros b [-> Nc]. apply wp_ok. split; [discriminate|]. intros _. exact Nc.
Qed.

Lemma IsLinear_curve : 1 <= n -> returns (IsLinear c) (fun b =>
  (b = true -> exists a u, dot3 u u = 1%R /\ forall t, in_domain p n U t -> (norm3 (cross3 (minus3 (C t) a) u) <= 2 / 999999)%R) /\
  (b = false -> ~ collinear H)).
Proof.
  intros Hn. apply wp_elim. eapply wp_mono; [apply (IsLinear_ok Hn)|]. intros b [B1 B2]. split; [|exact B2]. intros Eb. destruct (B1 Eb) as (a & u & Hu & Hb).
  exists a, u. split; [exact Hu|]. intros t Ht. apply hull_cross; [exact Ht|lra|exact Hb].
Qed.

(* the end knots have full multiplicity exactly when the knot vector is clamped *)
Lemma occ_first_iff : occ U (val U 0) = p + 1 <-> val U 0 = val U p.
Proof.
  pose proof HU as [Hp0 Hn Hl Hs Hf _]. pose proof (tol_pos (val U p) (val U (p + 1))) as Tp. split; intros E.
  - destruct (Req_EM_T (val U 0) (val U p)) as [|Ne]; [assumption|exfalso]. unfold occ in E.
    assert (K : Z.of_nat (count_occ Req_EM_T U (val U 0)) <= p); [|lia]. apply count_many; [lia|]. intros i Hi. pose proof (Hs p i ltac:(lia) ltac:(lia) ltac:(lia)). pose proof (Hs 0 p ltac:(lia) ltac:(lia) ltac:(lia)). lra.
  - unfold occ. rewrite (count_range U _ 0 (p + 1)); try lia; intros i Hi.
    + pose proof (Hs 0 i ltac:(lia) ltac:(lia) ltac:(lia)). pose proof (Hs i p ltac:(lia) ltac:(lia) ltac:(lia)). lra.
    + pose proof (Hs (p + 1) i ltac:(lia) ltac:(lia) ltac:(lia)). lra.
Qed.
Lemma occ_last_iff : occ U (val U (len U - 1)) = p + 1 <-> val U (n + 1) = val U (n + p + 1).
Proof.
  pose proof HU as [Hp0 Hn Hl Hs _ Hf]. pose proof (tol_pos (val U n) (val U (n + 1))) as Tp. replace (len U - 1) with (n + p + 1) by lia. split; intros E.
  - destruct (Req_EM_T (val U (n + 1)) (val U (n + p + 1))) as [|Ne]; [assumption|exfalso]. unfold occ in E.
    assert (K : Z.of_nat (count_occ Req_EM_T U (val U (n + p + 1))) <= len U - (n + 2)); [|lia]. apply count_few; [lia|]. intros i Hi. pose proof (Hs i (n + 1) ltac:(lia) ltac:(lia) ltac:(lia)). pose proof (Hs (n + 1) (n + p + 1) ltac:(lia) ltac:(lia) ltac:(lia)). lra.
  - unfold occ. rewrite (count_range U _ (n + 1) (len U)); try lia; intros i Hi.
    + pose proof (Hs i n ltac:(lia) ltac:(lia) ltac:(lia)). lra.
    + pose proof (Hs (n + 1) i ltac:(lia) ltac:(lia) ltac:(lia)). pose proof (Hs i (n + p + 1) ltac:(lia) ltac:(lia) ltac:(lia)). lra.
Qed.

Lemma IsClamp_ok : (forall u, In u U -> close (val U 0) u -> u = val U 0) -> (forall u, In u U -> close (val U (len U - 1)) u -> u = val U (len U - 1)) ->
  returns (IsClamp c) (fun b => b = true <-> clamped_knots p n U).
Proof.
  intros A0 A1. pose proof HU as [Hp0 Hn Hl Hs _ _]. unfold IsClamp. cbn [KnotVector Degree c]. rewrite !get_val by lia. cbn [bind].
  pose proof (Hs 0 (len U - 1) ltac:(lia) ltac:(lia) ltac:(lia)).
  rewrite (GetKnotMultiplicity_exact U (val U 0)) by (try lia; try lra; assumption). cbn [bind].
  rewrite (GetKnotMultiplicity_exact U (val U (len U - 1))) by (try lia; try lra; assumption). cbn [bind].
  eexists. split; [reflexivity|]. rewrite andb_true_iff, !Z.eqb_eq. unfold clamped_knots. rewrite <- occ_last_iff, <- occ_first_iff. reflexivity.
Qed.

Section Clamped.
Hypothesis Hcl : clamped_knots p n U.
Let a0 := val U 0.
Let b0 := val U (n + 1).

Lemma first_dom : in_domain p n U a0.
Proof. pose proof HU as [Hp0 Hn Hl Hs _ _]. destruct Hcl as [E1 E2]. unfold in_domain, a0. rewrite <- E1. split; [lra|]. apply Hs; lia. Qed.
Lemma last_dom : in_domain p n U b0.
Proof. pose proof HU as [Hp0 Hn Hl Hs _ _]. unfold in_domain, b0. split; [|lra]. apply Hs; lia. Qed.
Lemma knot_dom x : In x U -> in_domain p n U x.
Proof. intros Hx. apply (ends_dom p n U Hcl). apply (ends_between p n U HU Hcl). exact Hx. Qed.

Lemma IsClosed_ok : returns (IsClosed c) (fun b =>
  (close (dist3 (C a0) (C b0)) 0 -> b = true) /\
  (b = true -> close (dist3 (C a0) (C b0)) 0 \/ exists m, 0 <= m < n /\ forall i, 0 <= i <= m -> Spec3.near (PP (n - m + i)) (PP i))).
Proof.
  pose proof HU as [Hp0 Hn Hl Hs _ _]. apply wp_elim. unfold IsClosed. cbn [KnotVector ControlPoints c]. rewrite !get_val by lia. cbn [bind].
  replace (val U (len U - 1)) with b0 by (unfold b0; destruct Hcl as [_ ->]; f_equal; lia). fold a0.
  unfold c. rewrite (point_at p n U H HU Hp HH Hw a0 first_dom), (point_at p n U H HU Hp HH Hw b0 last_dom). cbn [bind]. rewrite Distance_eq. cbn [bind]. fold (C a0) (C b0).
  destruct (IsAlmostEqualTo (dist3 (C a0) (C b0)) n0) eqn:E; [apply close_iff in E; apply wp_ok; auto|]. apply close_false in E. num.
  rewrite HH. replace (n + 1 - 1) with n by lia. destruct (to_xyz n ltac:(lia)) as [-> T1]. cbn [bind]. rewrite T1. cbn [bind].
  apply wp_bind. apply wp_for_upc with (P := fun _ _ => True) (F := fun m => 0 <= m < n /\ Spec3.near (PP n) (PP m)); [exact I| | |].
  - intros i [] Hi _. destruct (to_xyz i ltac:(lia)) as [-> T2]. cbn [bind]. rewrite T2. cbn [bind]. destruct (xyz_IsAlmostEqualTo (PP n) (PP i)) eqn:E2; apply wp_ok; [|exact I]. split; [exact Hi|apply near_iff, E2].
  - intros [] _. apply wp_ok. split; [tauto|discriminate].
  - intros m [Hm Nm]. destruct (Z.eqb_spec m 0) as [->|Nz].
    + apply wp_ok. split; [reflexivity|]. intros _. right. exists 0. split; [lia|]. intros i Hi. replace (n - 0 + i) with n by lia. assert (i = 0) as -> by lia. exact Nm.
    + apply wp_for_down with (P := fun h b => b = true -> forall i, h < i <= m -> Spec3.near (PP (n - m + i)) (PP i)); [lia| | |].
      * intros _ i Hi. lia.
      * intros i b Hi Hb. destruct b; [|apply wp_ok; discriminate]. destruct (to_xyz i ltac:(lia)) as [-> T2]. cbn [bind]. rewrite T2. cbn [bind].
        destruct (to_xyz (n - m + i) ltac:(lia)) as [-> T3]. cbn [bind]. rewrite T3. cbn [bind]. apply wp_ok. intros E3 j Hj. apply near_iff in E3. destruct (Z.eq_dec j i) as [->|Nj]; [exact E3|]. apply (Hb eq_refl). lia.
      * intros b Hb. split; [tauto|]. intros Eb. right. exists m. split; [exact Hm|]. intros i Hi. apply Hb; [exact Eb|lia].
Qed.

(* the parameter of sample k: 100 samples for each pair of neighbouring distinct knots *)

Lemma sample_dom V k : sorted V -> (forall x, In x V -> In x U) -> 0 <= k < 100 * (len V - 1) -> in_domain p n U (sample_at V k).
Proof.
  intros HV HI Hk. set (i := k / 100). assert (Hi : 0 <= i < len V - 1) by (unfold i; split; [apply Z.div_pos; lia|apply Z.div_lt_upper_bound; lia]).
  pose proof (Z.mod_pos_bound k 100 ltac:(lia)) as Hm. pose proof (knot_dom _ (HI _ (val_In V i ltac:(lia)))) as D1. pose proof (knot_dom _ (HI _ (val_In V (i + 1) ltac:(lia)))) as D2.
  pose proof (HV i (i + 1) ltac:(lia) ltac:(lia) ltac:(lia)) as Hle. unfold sample_at. fold i. set (r := (IZR (k mod 100) / 99)%R).
  assert (Hr : (0 <= r <= 1)%R). { unfold r. assert (IZR 0 <= IZR (k mod 100))%R by (apply IZR_le; lia). assert (IZR (k mod 100) <= IZR 99)%R by (apply IZR_le; lia). lra. }
  clearbody r. destruct D1 as [D1 D1'], D2 as [D2 D2']. split; nra.
Qed.

Lemma Tessellate_ok : returns (EquallyTessellate c) (fun s => exists V, increasing V /\ (forall x, In x V <-> In x U) /\
  len (fst s) = 100 * (len V - 1) /\ len (snd s) = 100 * (len V - 1) /\
  forall k, 0 <= k < 100 * (len V - 1) -> val (snd s) k = sample_at V k /\ get (fst s) k = Ok (C (sample_at V k))).
Proof.
  pose proof HU as [Hp0 Hn Hl Hs _ _]. apply wp_elim. unfold EquallyTessellate. cbn [KnotVector c]. destruct (std_unique_inc U Hs) as [S1 S2]. pose proof (std_unique_in U) as SI. set (V := std_unique U) in *.
  assert (VI : forall x, In x V -> In x U) by (intros x; apply SI).
  assert (LV : 1 <= len V). { assert (In (val U 0) V) as Hin by (apply SI, val_In; lia). destruct V; [contradiction|]. rewrite len_cons. pose proof (len_nonneg V). lia. }
  apply wp_for_up with (P := fun i s => arr (fst s) (100 * i) (fun k => C (sample_at V k)) /\ arr (snd s) (100 * i) (sample_at V)); [lia| | |].
  - cbn [fst snd]. split; apply arr_nil.
  - intros i s Hi As. rewrite !get_val by lia. cbn [bind]. num. change (IZR (100 - 1)) with 99%R. rewrite Rdiv_ok by lra. cbn [bind].
    apply wp_for_up with (P := fun j s => arr (fst s) (100 * i + j) (fun k => C (sample_at V k)) /\ arr (snd s) (100 * i + j) (sample_at V)); [lia| | |].
    + rewrite Z.add_0_r. exact As.
    + intros j [ps us] Hj [A1 A2]. cbn [fst snd] in *. assert (ES : (val V i + (val V (i + 1) - val V i) / 99 * IZR j)%R = sample_at V (100 * i + j)).
      { unfold sample_at. replace ((100 * i + j) / 100) with i by (apply (Z.div_unique_pos _ 100 i j); lia). replace ((100 * i + j) mod 100) with j by (apply (Z.mod_unique_pos _ 100 i j); lia). field. }
      rewrite ES. unfold c. rewrite (point_at p n U H HU Hp HH Hw) by (apply sample_dom; [exact S1|exact VI|lia]). cbn [bind]. apply wp_ok. cbn [fst snd]. replace (100 * i + (j + 1)) with (100 * i + j + 1) by lia.
      split; apply arr_snoc; auto.
    + intros s'. replace (100 * (i + 1)) with (100 * i + 100) by lia. tauto.
  - intros [ps us] [A1 A2]. cbn [fst snd] in *. exists V. split; [apply sorted_nodup_increasing; assumption|]. split; [exact SI|]. split; [apply (arr_len _ _ _ A1)|]. split; [apply (arr_len _ _ _ A2)|].
    intros k Hk. split; [apply (arr_val _ _ _ _ A2); exact Hk|apply (arr_get _ _ _ _ A1); exact Hk].
Qed.

Lemma mid_dom x y : in_domain p n U x -> in_domain p n U y -> in_domain p n U (midway x y).
Proof. unfold in_domain, midway. intros [] []. split; lra. Qed.

(* the third sample is the end of the curve, or its middle when the curve is closed *)
Definition far_end (cl : bool) : R := if cl then midway a0 b0 else b0.
Lemma far_dom cl : in_domain p n U (far_end cl).
Proof. destruct cl; [apply mid_dom; [apply first_dom|apply last_dom]|apply last_dom]. Qed.

Definition gramC (v1 v2 : XYZ R) : R := (dot3 v1 v1 * dot3 v2 v2 - dot3 v1 v2 * dot3 v1 v2)%R.
Definition centre (P0 P1 P2 : XYZ R) : XYZ R :=
  let v1 := minus3 P1 P0 in let v2 := minus3 P2 P0 in
  plus3 (plus3 P0 (times3 (1 / 2 / gramC v1 v2 * dot3 v2 v2 * (dot3 v1 v1 - dot3 v1 v2)) v1)) (times3 (1 / 2 / gramC v1 v2 * dot3 v1 v1 * (dot3 v2 v2 - dot3 v1 v2)) v2).

Lemma IsArc_run cl (Q : option (R * XYZ R * bool) -> Prop) : IsLinear c = Ok false -> IsClosed c = Ok cl ->
  let P0 := C a0 in let P1 := C (midway a0 (far_end cl)) in let P2 := C (far_end cl) in
  cross3 (minus3 P1 P0) (minus3 P2 P0) <> zero3 ->
  let o := centre P0 P1 P2 in let r := dist3 o P0 in
  (forall V, increasing V -> (forall x, In x V <-> In x U) -> (forall k, 0 <= k < 100 * (len V - 1) -> close (dist3 (C (sample_at V k)) o) r) -> Q (Some (r, o, cl))) ->
  ((exists V k, increasing V /\ (forall x, In x V <-> In x U) /\ 0 <= k < 100 * (len V - 1) /\ ~ close (dist3 (C (sample_at V k)) o) r) -> Q None) -> wp (IsArc c) Q.
Proof.
  intros EL EC P0 P1 P2 Hc o r Q1 Q2. pose proof HU as [Hp0 Hn Hl Hs _ _]. unfold IsArc. rewrite EL. cbn [bind]. cbn [KnotVector c]. rewrite !get_val by lia. cbn [bind].
  replace (val U (len U - 1)) with b0 by (unfold b0; destruct Hcl as [_ ->]; f_equal; lia). fold a0.
  assert (EP : forall t, in_domain p n U t -> NurbsPoint c t = Ok (C t)) by (intros t Ht; apply (point_at p n U H HU Hp HH Hw t Ht)). fold c.
  rewrite (EP a0 first_dom). cbn [bind]. rewrite EC. cbn [bind]. num. change (1 / 2 * a0 + 1 / 2 * b0)%R with (midway a0 b0). fold (far_end cl). change (1 / 2 * a0 + 1 / 2 * far_end cl)%R with (midway a0 (far_end cl)).
  rewrite (EP _ (mid_dom _ _ first_dom (far_dom cl))), (EP _ (far_dom cl)). cbn [bind]. fold P0 P1 P2. change (@xyz_sub R _) with minus3. change (@DotProduct R _) with dot3. fold (gramC (minus3 P1 P0) (minus3 P2 P0)).
  assert (G : gramC (minus3 P1 P0) (minus3 P2 P0) <> 0%R) by (unfold gramC; rewrite <- lagrange; intros E; apply Hc, dot3_zero, E).
  rewrite Rdiv_ok by exact G. cbn [bind]. change (@xyz_add R _) with plus3. rewrite !scale_eq. fold (centre P0 P1 P2). fold o. rewrite Distance_eq. cbn [bind]. fold r.
  destruct Tessellate_ok as ([ps us] & -> & V & V1 & V2 & L1 & L2 & S). cbn [bind fst snd] in *. apply wp_bind.
  apply wp_for_upc with (P := fun h _ => forall k, 0 <= k < h -> close (dist3 (C (sample_at V k)) o) r)
    (F := fun _ => exists V k, increasing V /\ (forall x, In x V <-> In x U) /\ 0 <= k < 100 * (len V - 1) /\ ~ close (dist3 (C (sample_at V k)) o) r).
  - intros k Hk. lia.
  - intros k [] Hk Pk. rewrite L1 in Hk. destruct (S k Hk) as [_ ->]. cbn [bind]. rewrite Distance_eq. cbn [bind]. destruct (IsAlmostEqualTo (dist3 (C (sample_at V k)) o) r) eqn:E; cbn [negb]; apply wp_ok.
    + apply close_iff in E. intros i Hi. destruct (Z.eq_dec i k) as [->|Ni]; [exact E|apply Pk; lia].
    + apply close_false in E. exists V, k. auto.
  - intros [] Hall. apply wp_ok. apply (Q1 V V1 V2). intros k Hk. apply Hall. lia.
  - intros [] Hx. apply wp_ok. apply Q2. exact Hx.
Qed.

Lemma IsArc_sound cl r o : IsLinear c = Ok false -> IsClosed c = Ok cl ->
  cross3 (minus3 (C (midway a0 (far_end cl))) (C a0)) (minus3 (C (far_end cl)) (C a0)) <> zero3 ->
  forall cl', IsArc c = Ok (Some (r, o, cl')) -> cl' = cl /\ r = dist3 o (C a0) /\ exists V, increasing V /\ (forall x, In x V <-> In x U) /\
    forall k, 0 <= k < 100 * (len V - 1) -> close (dist3 (C (sample_at V k)) o) r.
Proof.
  intros EL EC Hc cl' E. pose proof (IsArc_run cl (fun a => forall r o cl', a = Some (r, o, cl') -> cl' = cl /\ r = dist3 o (C a0) /\ exists V, increasing V /\ (forall x, In x V <-> In x U) /\
    forall k, 0 <= k < 100 * (len V - 1) -> close (dist3 (C (sample_at V k)) o) r) EL EC Hc) as W. cbv zeta in W. rewrite E in W. apply W; [| |reflexivity].
  - intros V V1 V2 HV r' o' cl'' E'. injection E' as <- <- <-. split; [reflexivity|]. split; [reflexivity|]. exists V. auto.
  - intros _ r' o' cl'' E'. discriminate.
Qed.

(* the centre of the circle through three points *)
Lemma centre_unique o z P0 P1 P2 r : dot3 z z = 1%R -> dot3 z (minus3 P0 o) = 0%R -> dot3 z (minus3 P1 o) = 0%R -> dot3 z (minus3 P2 o) = 0%R ->
  dist3 P0 o = r -> dist3 P1 o = r -> dist3 P2 o = r -> cross3 (minus3 P1 P0) (minus3 P2 P0) <> zero3 -> centre P0 P1 P2 = o.
Proof.
  intros Hz Z0 Z1 Z2 D0 D1 D2 Hc. set (v1 := minus3 P1 P0) in *. set (v2 := minus3 P2 P0) in *.
  assert (G : gramC v1 v2 <> 0%R) by (unfold gramC; rewrite <- lagrange; intros E; apply Hc, dot3_zero, E).
  set (d := minus3 (centre P0 P1 P2) o).
  assert (SQ : forall x, dist3 x o = r -> (dot3 (minus3 x o) (minus3 x o) = r * r)%R) by (intros x <-; unfold dist3; rewrite norm_sq; reflexivity).
  apply SQ in D0, D1, D2.
  assert (W1 : (2 * dot3 (minus3 o P0) v1 = dot3 v1 v1)%R).
  { rewrite <- D0 in D1. unfold v1. clear - D1. destruct o as [o1 o2 o3], P0 as [a1 a2 a3], P1 as [b1 b2 b3]. unfold dot3, minus3 in *. cbn [gx gy gz] in *. lra. }
  assert (W2 : (2 * dot3 (minus3 o P0) v2 = dot3 v2 v2)%R).
  { rewrite <- D0 in D2. unfold v2. clear - D2. destruct o as [o1 o2 o3], P0 as [a1 a2 a3], P2 as [b1 b2 b3]. unfold dot3, minus3 in *. cbn [gx gy gz] in *. lra. }
  set (k1 := (1 / 2 / gramC v1 v2 * dot3 v2 v2 * (dot3 v1 v1 - dot3 v1 v2))%R). set (k2 := (1 / 2 / gramC v1 v2 * dot3 v1 v1 * (dot3 v2 v2 - dot3 v1 v2))%R).
  assert (DE : forall y, dot3 d y = (k1 * dot3 v1 y + k2 * dot3 v2 y - dot3 (minus3 o P0) y)%R).
  { intros y. unfold d, centre. cbv zeta. fold v1 v2 k1 k2. clearbody k1 k2 v1 v2. clear. destruct o as [o1 o2 o3], P0 as [a1 a2 a3], v1 as [b1 b2 b3], v2 as [c1 c2 c3], y as [y1 y2 y3]. unfold dot3, minus3, plus3, times3. cbn [gx gy gz]. ring. }
  assert (S12 : dot3 v2 v1 = dot3 v1 v2) by (unfold dot3; ring).
  assert (E1 : dot3 d v1 = 0%R). { rewrite DE, S12. apply (Rmult_eq_reg_l 2); [|lra]. replace (2 * (k1 * dot3 v1 v1 + k2 * dot3 v1 v2 - dot3 (minus3 o P0) v1))%R with (2 * (k1 * dot3 v1 v1 + k2 * dot3 v1 v2) - 2 * dot3 (minus3 o P0) v1)%R by ring. rewrite W1. unfold k1, k2, gramC in *. field. exact G. }
  assert (E2 : dot3 d v2 = 0%R). { rewrite DE. apply (Rmult_eq_reg_l 2); [|lra]. replace (2 * (k1 * dot3 v1 v2 + k2 * dot3 v2 v2 - dot3 (minus3 o P0) v2))%R with (2 * (k1 * dot3 v1 v2 + k2 * dot3 v2 v2) - 2 * dot3 (minus3 o P0) v2)%R by ring. rewrite W2. unfold k1, k2, gramC in *. field. exact G. }
  assert (Zv1 : dot3 v1 z = 0%R). { unfold v1. clear - Z0 Z1. destruct o as [o1 o2 o3], P0 as [a1 a2 a3], P1 as [b1 b2 b3], z as [z1 z2 z3]. unfold dot3, minus3 in *. cbn [gx gy gz] in *. lra. }
  assert (Zv2 : dot3 v2 z = 0%R). { unfold v2. clear - Z0 Z2. destruct o as [o1 o2 o3], P0 as [a1 a2 a3], P2 as [b1 b2 b3], z as [z1 z2 z3]. unfold dot3, minus3 in *. cbn [gx gy gz] in *. lra. }
  assert (Zd : dot3 d z = 0%R). { rewrite DE, Zv1, Zv2. assert (Zo : dot3 (minus3 o P0) z = 0%R) by (clear - Z0; destruct o as [o1 o2 o3], P0 as [a1 a2 a3], z as [z1 z2 z3]; unfold dot3, minus3 in *; cbn [gx gy gz] in *; lra). rewrite Zo. ring. }
  assert (Ed : d = minus3 (centre P0 P1 P2) o) by reflexivity. clearbody d. clear DE. set (m := cross3 v1 v2) in *.
  assert (K1 : cross3 d m = zero3).
  { transitivity (minus3 (times3 (dot3 d v2) v1) (times3 (dot3 d v1) v2)).
    - unfold m. clearbody v1 v2. clear. destruct d as [d1 d2 d3], v1 as [b1 b2 b3], v2 as [c1 c2 c3]. unfold dot3, minus3, times3, cross3. cbn [gx gy gz]. apply xyz_eq; ring.
    - rewrite E1, E2. unfold minus3, times3, zero3. cbn [gx gy gz]. apply xyz_eq; ring. }
  assert (K2 : cross3 m z = zero3).
  { transitivity (minus3 (times3 (dot3 v1 z) v2) (times3 (dot3 v2 z) v1)).
    - unfold m. clearbody v1 v2. clear. destruct z as [d1 d2 d3], v1 as [b1 b2 b3], v2 as [c1 c2 c3]. unfold dot3, minus3, times3, cross3. cbn [gx gy gz]. apply xyz_eq; ring.
    - rewrite Zv1, Zv2. unfold minus3, times3, zero3. cbn [gx gy gz]. apply xyz_eq; ring. }
  assert (Mm : dot3 m m <> 0%R) by (intros E; apply Hc, dot3_zero, E).
  assert (Dm : dot3 d m = 0%R).
  { pose proof (lagrange m z) as L1. rewrite K2, Hz in L1. pose proof (lagrange d (minus3 m (times3 (dot3 m z) z))) as L2.
    assert (M0 : minus3 m (times3 (dot3 m z) z) = zero3).
    { apply dot3_zero. replace (dot3 (minus3 m (times3 (dot3 m z) z)) (minus3 m (times3 (dot3 m z) z))) with (dot3 m m - 2 * (dot3 m z * dot3 m z) + dot3 m z * dot3 m z * dot3 z z)%R
        by (clearbody m; clear; destruct m as [m1 m2 m3], z as [z1 z2 z3]; unfold dot3, minus3, times3; cbn [gx gy gz]; ring).
      rewrite Hz. replace (dot3 zero3 zero3) with 0%R in L1 by (unfold dot3, zero3; cbn [gx gy gz]; ring). lra. }
    replace (dot3 d m) with (dot3 d (minus3 m (times3 (dot3 m z) z)) + dot3 m z * dot3 d z)%R
      by (clearbody m; clear; destruct m as [m1 m2 m3], z as [z1 z2 z3], d as [d1 d2 d3]; unfold dot3, minus3, times3; cbn [gx gy gz]; ring).
    rewrite M0, Zd. unfold dot3, zero3. cbn [gx gy gz]. ring. }
  pose proof (lagrange d m) as L. rewrite K1, Dm in L. replace (dot3 zero3 zero3) with 0%R in L by (unfold dot3, zero3; cbn [gx gy gz]; ring).
  assert (D : dot3 d d = 0%R) by (apply (Rmult_eq_reg_r (dot3 m m)); [lra|exact Mm]).
  apply dot3_zero in D. rewrite Ed in D. pose proof (f_equal (@gx R) D) as X1. pose proof (f_equal (@gy R) D) as X2. pose proof (f_equal (@gz R) D) as X3.
  unfold minus3, zero3 in X1, X2, X3. cbn [gx gy gz] in X1, X2, X3. apply P_XYZ.xyz_eq; lra.
Qed.

Lemma IsArc_complete cl o z r : IsLinear c = Ok false -> IsClosed c = Ok cl ->
  cross3 (minus3 (C (midway a0 (far_end cl))) (C a0)) (minus3 (C (far_end cl)) (C a0)) <> zero3 -> dot3 z z = 1%R ->
  (forall t, in_domain p n U t -> dot3 z (minus3 (C t) o) = 0%R /\ dist3 (C t) o = r) -> IsArc c = Ok (Some (r, o, cl)).
Proof.
  intros EL EC Hc Hz Hcirc.
  assert (EO : centre (C a0) (C (midway a0 (far_end cl))) (C (far_end cl)) = o).
  { destruct (Hcirc a0 first_dom), (Hcirc _ (mid_dom _ _ first_dom (far_dom cl))), (Hcirc _ (far_dom cl)). apply (centre_unique o z _ _ _ r); auto. }
  assert (ER : dist3 o (C a0) = r) by (rewrite dist_sym; apply Hcirc, first_dom).
  assert (W : wp (IsArc c) (fun x => x = Some (r, o, cl))).
  { apply (IsArc_run cl); auto; cbv zeta; rewrite EO, ER; [reflexivity|]. intros (V & k & V1 & V2 & Hk & Nc). exfalso. apply Nc.
    assert (SV : sorted V). { intros i j Hi Hij Hj. destruct (Z.eq_dec i j) as [->|]; [lra|]. apply Rlt_le, V1; lia. }
    destruct (Hcirc (sample_at V k)) as [_ ->]; [apply sample_dom; [exact SV|intros x; apply V2|exact Hk]|]. unfold close. rewrite Rminus_diag_eq by reflexivity. rewrite Rabs_R0. apply Rlt_le, tol_pos. }
  apply wp_elim in W. destruct W as (x & E & ->). exact E.
Qed.
End Clamped.
End Shape3.
