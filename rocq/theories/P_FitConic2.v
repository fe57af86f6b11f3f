(* The middle control points of a quadratic through two points. *)
From Coq Require Import ZArith List Bool Reals Lra Lia.
From Verif Require Import Base Num Vec Tac Spec Spec2 Spec3 Spec24 Spec25 M_MathUtils M_XYZ M_Bspline M_NurbsCurve M_Matrix M_Curve2 M_Geom M_Interp M_Conic M_Curve4 M_FitConic
  P_MathUtils P_Bern P_Cox P_Vec P_XYZ P_VSum P_Curve P_Bspline P_Nurbs P_Matrix P_Loop P_Geom P_Interp2 P_Conic P_Conic2 P_Ls4 P_Bound2 P_ProjNorm P_Shape P_FitConic.
Import ListNotations.
Open Scope Z_scope.

Lemma neg_eq (a : XYZ R) : xyz_neg a = times3 (-1) a.
Proof. unfold xyz_neg. d3. v3h. apply xyz_eq; cbn [gx gy gz]; ring. Qed.
Lemma near_refl a : near a a.
Proof. apply near_iff. unfold xyz_IsAlmostEqualTo. rewrite !aeq_refl. reflexivity. Qed.
Lemma not_near_diff a e : ~ near a e -> minus3 e a <> zero3.
Proof. intros H E. apply H. replace e with a; [apply near_refl|]. unfold zero3 in E. d3. v3h. injection E as E1 E2 E3. apply xyz_eq; cbn [gx gy gz]; lra. Qed.
Lemma dir_norm (v u : XYZ R) : direction_of v u -> exists k, (0 < k)%R /\ v = times3 k u /\ forall p s, line_at p u s = line_at p v (s / k).
Proof.
  intros (_ & k & Hk & ->). exists k. split; [exact Hk|]. split; [reflexivity|]. intros p s. clear - Hk. d3. v3h. apply xyz_eq; cbn [gx gy gz]; field; lra.
Qed.
Lemma meets_dir a ta x e te y q s t : direction_of ta x -> direction_of te y -> small (dist3 (line_at a x s) (line_at e y t)) -> q = middle3 (line_at a x s) (line_at e y t) ->
  exists s' t', small (dist3 (line_at a ta s') (line_at e te t')) /\ q = middle3 (line_at a ta s') (line_at e te t') /\ ((0 < s)%R -> (0 < s')%R) /\ ((t < 0)%R -> (t' < 0)%R).
Proof.
  intros D1 D2 HS ->. destruct (dir_norm _ _ D1) as (k & Hk & _ & L1). destruct (dir_norm _ _ D2) as (m & Hm & _ & L2).
  exists (s / k)%R, (t / m)%R. rewrite <- L1, <- L2. split; [exact HS|]. split; [reflexivity|]. split; intros H.
  - apply Rdiv_lt_0_compat; assumption.
  - unfold Rdiv. assert (0 < / m)%R by (apply Rinv_0_lt_compat; exact Hm). nra.
Qed.

Lemma cos_bound (a b : XYZ R) c : Rdiv_ (dot3 a b) (norm3 a * norm3 b) = Ok c -> (-1 <= c <= 1)%R.
Proof.
  unfold Rdiv_. destruct (Req_EM_T _ _) as [|N]; [discriminate|]. intros E. injection E as <-.
  assert (H0 : (0 < norm3 a * norm3 b)%R). { pose proof (sqrt_pos (dot3 a a)). pose proof (sqrt_pos (dot3 b b)). assert (0 <= norm3 a * norm3 b)%R by (apply Rmult_le_pos; assumption). lra. }
  pose proof (Cauchy_Schwarz a b) as C1. pose proof (Cauchy_Schwarz (times3 (-1) a) b) as C2.
  change (sqrt (SqrLength a) * sqrt (SqrLength b))%R with (norm3 a * norm3 b)%R in C1. change (DotProduct a b) with (dot3 a b) in C1.
  replace (sqrt (SqrLength (times3 (-1) a)) * sqrt (SqrLength b))%R with (norm3 a * norm3 b)%R in C2.
  2:{ change (sqrt (SqrLength b)) with (norm3 b). f_equal. unfold norm3. f_equal. change (SqrLength (times3 (-1) a)) with (dot3 (times3 (-1) a) (times3 (-1) a)). clear. d3. v3h. ring. }
  replace (DotProduct (times3 (-1) a) b) with (- dot3 a b)%R in C2 by (clear; d3; v3h; ring).
  split; (apply Rmult_le_reg_r with (norm3 a * norm3 b)%R; [exact H0|]); unfold Rdiv; rewrite Rmult_assoc, Rinv_l by exact N; lra.
Qed.

Lemma gammas_pos y a e q g1 g2 : minus3 e a <> zero3 -> quadratic_gammas y a e q (minus3 e a) = Ok (g1, g2) -> (0 < g1)%R /\ (0 < g2)%R.
Proof.
  intros HN E. assert (HL : (0 < norm3 (minus3 e a))%R) by (apply P_Shape.norm_pos; exact HN).
  unfold quadratic_gammas in E. num.
  assert (HO : forall g, (IZR 1 / IZR 2 * norm3 (minus3 e a))%R = g -> (0 < g)%R) by (intros g <-; lra).
  destruct y; [|rewrite Length_eq in E; cbn [bind] in E; injection E as E1 E2; split; eapply HO; eassumption ..].
  g3. rewrite !Length_eq in E. cbn [bind] in E.
  destruct (Rdiv_ (dot3 (minus3 q a) _) _) as [c0|] eqn:E0; [cbn [bind] in E|discriminate]. destruct (Rdiv_ (dot3 (minus3 q e) _) _) as [c1|] eqn:E1; [cbn [bind] in E|discriminate].
  apply cos_bound in E0. apply cos_bound in E1. rewrite Rdiv_ok in E by lra. cbn [bind] in E.
  assert (HD : forall x d g, (0 < x)%R -> (0 <= d)%R -> Rdiv_ x d = Ok g -> (0 < g)%R).
  { intros x d g Hx Hd. unfold Rdiv_. destruct (Req_EM_T d 0); [discriminate|]. intros H. injection H as <-. apply Rdiv_lt_0_compat; lra. }
  destruct (Rdiv_ (1 / 2 * _) _) as [d1|] eqn:F1; [cbn [bind] in E|discriminate]. destruct (Rdiv_ (1 / 2 * _) (1 + 2 / 3 * c0 + _)) as [d2|] eqn:F2; [cbn [bind] in E|discriminate].
  injection E as <- <-. split; [eapply HD; [| |exact F1]; lra|eapply HD; [| |exact F2]; lra].
Qed.

Lemma quad_mid a q e l : quadratic_middle a q e = Ok (Some l) -> exists w, l = [hom q w].
Proof. unfold quadratic_middle. intros E. destruct (ComputerWeightForRationalQuadraticInterpolation a q e) as [[w|]|]; cbn [bind] in E; try discriminate. injection E as <-. exists w. reflexivity. Qed.

Lemma quad_two a ta e te l : ~ near a e -> IsZero ta = false -> IsZero te = false ->
  ComputerMiddleControlPointsOnQuadraticCurve a ta e te = Ok (Some l) -> tangent_arcs a ta e te l \/ straight_arc a ta e te l.
Proof.
  intros HN Za Ze E. pose proof (not_near_diff a e HN) as HD.
  assert (Da : ta <> zero3) by (intros ->; rewrite P_ProjNorm.zero_is in Za; discriminate). assert (De : te <> zero3) by (intros ->; rewrite P_ProjNorm.zero_is in Ze; discriminate).
  unfold ComputerMiddleControlPointsOnQuadraticCurve in E. num. g3.
  destruct (Normalize_dir _ HD) as (u & EU & DU). destruct (Normalize_dir _ Da) as (x & EX & DX). destruct (Normalize_dir _ De) as (y & EY & DY).
  rewrite EU, EX, EY in E. cbn [bind] in E. rewrite !neg_eq in E.
  destruct ((xyz_IsAlmostEqualTo x u || xyz_IsAlmostEqualTo x (times3 (-1) u)) && (xyz_IsAlmostEqualTo x y || xyz_IsAlmostEqualTo x (times3 (-1) y))) eqn:EA.
  { change (@plus3) with (@plus3) in E. pose proof (mid_div a e) as M. g3. rewrite M in E. cbn [bind] in E. injection E as <-. right. exists 1%R. split; [reflexivity|]. left. split; [reflexivity|].
    apply andb_true_iff in EA as [A1 A2]. apply orb_true_iff in A1. apply orb_true_iff in A2. rewrite !near_iff in A1, A2.
    split; [exists x, u|exists x, y]; auto. }
  clear EA. destruct (ComputeRays a x e y 0%R 0%R xyz0) as [[[[k s] t] q]|] eqn:ER; [cbn [bind] in E|discriminate].
  apply rays_inv in ER. destruct ER as [(_ & N & _)|(_ & _ & _ & ER)]; [contradiction|].
  set (mid := xyz_scale _ _) in E. assert (EM : mid = middle3 a e) by (unfold mid, middle3; rewrite scale_eq; unfold nlit; num; reflexivity). rewrite EM in E. clear mid EM.
  destruct (_ && (xyz_IsAlmostEqualTo a q || xyz_IsAlmostEqualTo e q)) eqn:E1.
  { apply andb_true_iff in E1 as [B1 B2]. destruct k; try discriminate. apply orb_true_iff in B2. rewrite !near_iff in B2. apply quad_mid in E as (w & ->). right. exists w. split; [reflexivity|]. right. left.
    destruct ER as (_ & S1 & S2). exists q. split; [|exact B2]. destruct (meets_dir _ _ _ _ _ _ _ _ _ DX DY S1 S2) as (s' & t' & M1 & M2 & _). exists s', t'. auto. }
  destruct (_ && (IsGreaterThan s 0%R && IsLessThan t 0%R)) eqn:E2.
  { apply andb_true_iff in E2 as [B1 B2]. destruct k; try discriminate. apply andb_true_iff in B2 as [G1 G2]. apply gt_iff in G1. apply lt_iff in G2. pose proof (thr_eps_nonneg s 0%R). pose proof (thr_eps_nonneg t 0%R).
    apply quad_mid in E as (w & ->). left. apply one_arc. destruct ER as (_ & S1 & S2).
    destruct (meets_dir _ _ _ _ _ _ _ _ _ DX DY S1 S2) as (s' & t' & M1 & M2 & P1 & P2). exists s', t'. split; [apply P1; lra|]. split; [apply P2; lra|]. auto. }
  destruct (xyz_IsAlmostEqualTo u ta && xyz_IsAlmostEqualTo u te) eqn:E3.
  { apply andb_true_iff in E3 as [B1 B2]. rewrite near_iff in B1, B2. apply quad_mid in E as (w & ->). right. exists w. split; [reflexivity|]. right. right. exists u. auto. }
  destruct (quadratic_gammas k a e q (minus3 e a)) as [[g1 g2]|] eqn:EG; [cbn [bind] in E|discriminate]. destruct (gammas_pos _ _ _ _ _ _ HD EG) as [G1 G2].
  rewrite xyz_div_ok in E by lra. cbn [bind] in E.
  destruct (ComputerWeightForRationalQuadraticInterpolation a _ _) as [[w1|]|] eqn:W1; cbn [bind] in E; try discriminate.
  destruct (ComputerWeightForRationalQuadraticInterpolation _ _ e) as [[w2|]|] eqn:W2; cbn [bind] in E; try discriminate.
  injection E as <-. left. rewrite !mkW_hom. apply two_arcs with (s := g1) (t := g2); try assumption.
  - rewrite scale_eq. reflexivity.
  - rewrite scale_eq. clear. d3. v3h. apply xyz_eq; cbn [gx gy gz]; ring.
  - rewrite !scale_eq. clear - G1 G2. d3. v3h. apply xyz_eq; cbn [gx gy gz]; field; lra.
Qed.

(** * The weight of a symmetric corner *)
Lemma dist_sq a b : (dist3 a b * dist3 a b = dot3 (minus3 a b) (minus3 a b))%R.
Proof. unfold dist3. apply P_Shape.norm_sq. Qed.

Lemma weight_circle a q e : q <> a -> q <> e -> a <> e -> dist3 q a = dist3 q e -> ~ aligned (minus3 q a) (minus3 q e) ->
  exists w, ComputerWeightForRationalQuadraticInterpolation a q e = Ok (Some w) /\ (0 < w < 1)%R /\
  exists c r, (0 < r)%R /\ forall u, (0 <= u <= 1)%R -> dist3 c (conic_at a q e w u) = r.
Proof.
  intros Na Ne Nae HD HA.
  assert (Z1' : minus3 q a <> zero3) by (intros E; apply Na; unfold zero3 in E; d3; v3h; injection E as E1 E2 E3; apply xyz_eq; cbn [gx gy gz]; lra).
  assert (Z2' : minus3 q e <> zero3) by (intros E; apply Ne; unfold zero3 in E; d3; v3h; injection E as E1 E2 E3; apply xyz_eq; cbn [gx gy gz]; lra).
  assert (Z3' : minus3 e a <> zero3) by (intros E; apply Nae; unfold zero3 in E; d3; v3h; injection E as E1 E2 E3; apply xyz_eq; cbn [gx gy gz]; lra).
  destruct (Normalize_dir _ Z1') as (x & EX & DX). destruct (Normalize_dir _ Z2') as (y & EY & DY).
  unfold ComputerWeightForRationalQuadraticInterpolation. g3. rewrite EX, EY. cbn [bind]. rewrite neg_eq.
  destruct (xyz_IsAlmostEqualTo x y) eqn:A1. { exfalso. apply HA. exists x, y. rewrite near_iff in A1. auto. }
  destruct (xyz_IsAlmostEqualTo x (times3 (-1) y)) eqn:A2. { exfalso. apply HA. exists x, y. rewrite near_iff in A2. auto. }
  cbn [orb]. rewrite !Length_eq. cbn [bind]. change (norm3 (minus3 q a)) with (dist3 q a). change (norm3 (minus3 q e)) with (dist3 q e). assert (A3 : IsAlmostEqualTo (dist3 q a) (dist3 q e) = true) by (rewrite HD; apply aeq_refl). rewrite A3. num.
  set (h := times3 (1 / 2) (minus3 e a)). set (k := minus3 q (middle3 a e)).
  assert (PH : (0 < dot3 h h)%R). { pose proof (P_Shape.norm_pos _ Z3') as P. pose proof (P_Shape.norm_sq (minus3 e a)) as S. replace (dot3 h h) with (1 / 4 * (norm3 (minus3 e a) * norm3 (minus3 e a)))%R by (rewrite S; unfold h; clear; d3; v3h; field). nra. }
  assert (HK : dot3 h k = 0%R).
  { pose proof (dist_sq q a) as S1. pose proof (dist_sq q e) as S2. rewrite HD, S2 in S1. unfold h, k, middle3. clear - S1. d3. v3h. lra. }
  assert (PK : (0 < dot3 k k)%R).
  { destruct (Req_dec (dot3 k k) 0) as [E|E]; [|pose proof (dot_pos k); lra]. exfalso. apply HA. exists x, y. split; [exact DX|]. split; [exact DY|]. right.
    assert (Ek : k = zero3) by (apply (proj2 (Dot_pos k)); exact E).
    assert (Eq : minus3 q e = times3 (-1) (minus3 q a)). { unfold k, middle3, zero3 in Ek. clear - Ek. d3. v3h. injection Ek as E1 E2 E3. apply xyz_eq; cbn [gx gy gz]; lra. }
    assert (D' : direction_of (minus3 q e) (times3 (-1) x)).
    { destruct DX as (U1 & m & Hm & EM). split; [rewrite <- U1; clear; d3; v3h; ring|]. exists m. split; [exact Hm|]. rewrite Eq, EM. clear. d3. v3h. apply xyz_eq; cbn [gx gy gz]; ring. }
    pose proof (Normalize_direction _ _ D') as N1. pose proof (Normalize_direction _ _ DY) as N2. rewrite N1 in N2. injection N2 as <-.
    replace (times3 (-1) (times3 (-1) x)) with x by (clear; d3; v3h; apply xyz_eq; cbn [gx gy gz]; ring). apply near_refl. }
  assert (SA : minus3 q a = plus3 k h) by (unfold k, h, middle3; clear; d3; v3h; apply xyz_eq; cbn [gx gy gz]; field).
  assert (SE : minus3 e a = times3 2 h) by (unfold h; clear; d3; v3h; apply xyz_eq; cbn [gx gy gz]; field).
  set (H := norm3 h). assert (HH : (0 < H)%R) by (apply sqrt_lt_R0; exact PH). assert (H2 : (H * H = dot3 h h)%R) by apply P_Shape.norm_sq.
  set (L := dist3 q a). assert (L2 : (L * L = dot3 h h + dot3 k k)%R). { unfold L. rewrite dist_sq, SA. transitivity (dot3 h h + dot3 k k + 2 * dot3 h k)%R; [clear; d3; v3h; ring|]. rewrite HK. ring. }
  assert (LP : (0 < L)%R). { assert (0 <= L)%R by apply sqrt_pos. destruct (Req_dec L 0) as [E|]; [|lra]. rewrite E in L2. lra. }
  assert (E2 : norm3 (minus3 e a) = (2 * H)%R). { rewrite SE. unfold norm3. replace (dot3 (times3 2 h) (times3 2 h)) with ((2 * H) * (2 * H))%R; [apply sqrt_square; lra|]. transitivity (4 * dot3 h h)%R; [rewrite <- H2; ring|clear; d3; v3h; ring]. }
  rewrite E2. replace (dot3 (minus3 q a) (minus3 e a)) with (2 * (H * H))%R.
  2:{ rewrite SA, SE, H2. transitivity (2 * dot3 h h + 2 * dot3 h k)%R; [rewrite HK; ring|clear; d3; v3h; ring]. }
  rewrite Rdiv_ok by (apply Rmult_integral_contrapositive_currified; lra). cbn [bind].
  set (w := (2 * (H * H) / (L * (2 * H)))%R). assert (Ew : w = (H / L)%R) by (unfold w; field; lra).
  assert (Hw : (0 < w < 1)%R). { rewrite Ew. split; [apply Rdiv_lt_0_compat; assumption|]. apply Rmult_lt_reg_r with L; [exact LP|]. unfold Rdiv. rewrite Rmult_assoc, Rinv_l by lra. nra. }
  exists w. split; [reflexivity|]. split; [exact Hw|].
  assert (W2 : (w * w * (dot3 h h + dot3 k k) = dot3 h h)%R) by (rewrite <- L2, <- H2, Ew; field; lra).
  clearbody w. clear Ew E2 SA SE H2 L2 LP HH. clear H L.
  exists (plus3 (middle3 a e) (times3 (- (dot3 h h / dot3 k k)) k)), (sqrt (dot3 h h + dot3 h h * dot3 h h / dot3 k k)).
  assert (PR : (0 < dot3 h h + dot3 h h * dot3 h h / dot3 k k)%R). { assert (0 < dot3 h h * dot3 h h / dot3 k k)%R by (apply Rdiv_lt_0_compat; [nra|exact PK]). lra. }
  split; [apply sqrt_lt_R0; exact PR|]. intros u Hu. unfold dist3, norm3. f_equal.
  set (D := conic_weight w u). assert (HDp : (0 < D)%R). { unfold D, conic_weight. assert (0 <= 2 * u * (1 - u) * w)%R by (apply Rmult_le_pos; [nra|lra]). nra. }
  set (al := (((1 - u) * (1 - u) - u * u) / D)%R). set (be := (- (dot3 h h / dot3 k k) - 2 * u * (1 - u) * w / D)%R).
  assert (EV : minus3 (plus3 (middle3 a e) (times3 (- (dot3 h h / dot3 k k)) k)) (conic_at a q e w u) = plus3 (times3 al h) (times3 be k)).
  { assert (Ea : a = minus3 (middle3 a e) h) by (unfold h, middle3; clear; d3; v3h; apply xyz_eq; cbn [gx gy gz]; field).
    assert (Ee : e = plus3 (middle3 a e) h) by (unfold h, middle3; clear; d3; v3h; apply xyz_eq; cbn [gx gy gz]; field).
    assert (Eq : q = plus3 (middle3 a e) k) by (unfold k; clear; d3; v3h; apply xyz_eq; cbn [gx gy gz]; ring).
    unfold conic_at. fold D. unfold al, be. clear al be. clearbody h k. set (m := middle3 a e) in *. clearbody m.
    transitivity (minus3 (plus3 m (times3 (- (dot3 h h / dot3 k k)) k)) (times3 (/ D) (plus3 (times3 D m) (plus3 (times3 (u * u - (1 - u) * (1 - u)) h) (times3 (2 * u * (1 - u) * w) k))))).
    - f_equal. f_equal. rewrite Ea at 1. rewrite Ee at 1. rewrite Eq at 1. unfold D, conic_weight. clear. d3. v3h. apply xyz_eq; cbn [gx gy gz]; ring.
    - clearbody D. generalize (dot3 h h / dot3 k k)%R. intros z. clear - HDp. d3. v3h. apply xyz_eq; cbn [gx gy gz]; field; lra. }
  rewrite EV. transitivity (al * al * dot3 h h + be * be * dot3 k k + 2 * al * be * dot3 h k)%R; [generalize al be h k; clear; intros al be h k; d3; v3h; ring|]. rewrite HK.
  unfold al, be. clear EV al be. set (A := dot3 h h) in *. set (B := dot3 k k) in *. clearbody A B. 
  set (sd := ((1 - u) * (1 - u) - u * u)%R). set (b1 := (2 * u * (1 - u))%R).
  assert (EZ : (A * (sd * sd) + 2 * A * D * (b1 * w) + b1 * w * (b1 * w) * B - A * D * D = 0)%R).
  { transitivity (b1 * b1 * (w * w * (A + B) - A))%R; [unfold sd, b1, D, conic_weight; ring|]. rewrite W2. ring. }
  transitivity (A + A * A / B + (A * (sd * sd) + 2 * A * D * (b1 * w) + b1 * w * (b1 * w) * B - A * D * D) / (D * D))%R; [|rewrite EZ; field; lra].
  clearbody sd b1 D. field. lra.
Qed.

(** * The end tangent is ignored when the start tangent points along the chord *)
Lemma quad_ignores fuel err : FitWithConic fuel [mkXYZ 0 0 0; mkXYZ 1 0 0]%R 0 1 (mkXYZ 1 0 0)%R (mkXYZ 0 1 0)%R err = Ok (Some [hom (mkXYZ (1 / 2) 0 0)%R 1]).
Proof.
  unfold FitWithConic. change (len _) with 2. cbn [validate_int_range validate bind Z.ltb Z.compare Z.add Z.sub Pos.compare Pos.compare_cont negb orb].
  rewrite !IsZero_false by (v3; lra). cbn [negb validate bind]. 
  cbn [get Z.ltb Z.compare Z.to_nat Pos.to_nat Pos.iter_op Nat.add nth_error bind Z.sub Z.add Z.opp Z.eqb Z.pos_sub Pos.compare Pos.compare_cont negb orb validate validate_int_range Pos.eqb Pos.pred_double].
  change (Pos.to_nat 1) with 1%nat. cbn [nth_error bind].
  unfold ComputerMiddleControlPointsOnQuadraticCurve. g3. num.
  assert (EC : minus3 (mkXYZ 1 0 0)%R (mkXYZ 0 0 0)%R = (mkXYZ 1 0 0)%R) by (v3; apply xyz_eq; cbn [gx gy gz]; ring).
  rewrite EC. rewrite (Normalize_unit (mkXYZ 1 0 0)%R) by (v3; ring). rewrite (Normalize_unit (mkXYZ 0 1 0)%R) by (v3; ring). cbn [bind]. rewrite !neg_eq.
  assert (NA1 : xyz_IsAlmostEqualTo (mkXYZ 1 0 0)%R (mkXYZ 0 1 0)%R = false). { apply not_true_iff_false. rewrite near_iff. not_near. }
  assert (NA2 : xyz_IsAlmostEqualTo (mkXYZ 1 0 0)%R (times3 (-1) (mkXYZ 0 1 0)%R) = false). { apply not_true_iff_false. rewrite near_iff. unfold times3. not_near. }
  rewrite NA1, NA2. rewrite (proj2 (near_iff _ _) (near_refl _)). cbn [orb andb].
  rewrite (rays_meet_lit (mkXYZ 0 0 0)%R (mkXYZ 1 0 0)%R (mkXYZ 1 0 0)%R (mkXYZ 0 1 0)%R 1%R 0%R).
  2:{ rewrite <- near_iff, NA1. discriminate. }
  2,3: v3; lra.
  2:{ not_small. }
  2:{ v3h. apply xyz_eq; cbn [gx gy gz]; ring. }
  cbn [bind]. replace (line_at (mkXYZ 0 0 0)%R (mkXYZ 1 0 0)%R 1) with (mkXYZ 1 0 0)%R by (v3h; apply xyz_eq; cbn [gx gy gz]; ring).
  rewrite (proj2 (near_iff _ _) (near_refl _)). rewrite orb_true_r. cbn [andb].
  rewrite scale_eq. replace (times3 _ (plus3 (mkXYZ 0 0 0)%R (mkXYZ 1 0 0)%R)) with (mkXYZ (1 / 2) 0 0)%R by (unfold nlit; num; v3h; apply xyz_eq; cbn [gx gy gz]; field).
  unfold quadratic_middle, ComputerWeightForRationalQuadraticInterpolation. g3.
  assert (F1 : Normalize (minus3 (mkXYZ (1 / 2) 0 0)%R (mkXYZ 0 0 0)%R) = Ok (mkXYZ 1 0 0)%R). { apply Normalize_direction. split; [v3; ring|]. exists (1 / 2)%R. split; [lra|]. v3h. apply xyz_eq; cbn [gx gy gz]; field. }
  assert (F2 : Normalize (minus3 (mkXYZ (1 / 2) 0 0)%R (mkXYZ 1 0 0)%R) = Ok (mkXYZ (-1) 0 0)%R). { apply Normalize_direction. split; [v3; ring|]. exists (1 / 2)%R. split; [lra|]. v3h. apply xyz_eq; cbn [gx gy gz]; field. }
  rewrite F1, F2. cbn [bind]. rewrite neg_eq. replace (times3 (-1) (mkXYZ (-1) 0 0)%R) with (mkXYZ 1 0 0)%R by (v3h; apply xyz_eq; cbn [gx gy gz]; ring).
  rewrite (proj2 (near_iff _ _) (near_refl _)). rewrite orb_true_r. cbn [bind]. reflexivity.
Qed.
