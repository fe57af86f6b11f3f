(* Offset curves: an arch. *)
From Coq Require Import ZArith List Bool Reals Lra Lia.
From Verif Require Import Base Num Vec Tac Spec Spec2 Spec3 Spec4 Spec5 Spec6 Spec10 Spec17 Spec23 M_MathUtils M_XYZ M_Bspline M_NurbsCurve M_Geom M_Shape M_Curve4 M_Offset
  P_MathUtils P_Geom P_XYZ P_Vec P_VSum P_Curve P_Bspline P_BsplineS P_Loop P_Cox P_Make P_Shape P_Surf6 P_Surf7 P_Swung P_Nurbs P_ParamOn P_Ls4 P_Offset.
Import ListNotations.
Open Scope Z_scope.

Section Bow.
Variable h : R.
Hypothesis Hh : (0 < h)%R.
Definition bow : list (XYZW R) := [mkXYZW 0 0 0 1; mkXYZW 1 h 0 1; mkXYZW 2 0 0 1]%R.
Notation K := (bezier_knots 2).

Lemma K_knots : curve_knots 2 2 K.
Proof.
  change K with [0; 0; 0; 1; 1; 1]%R. split; try lia.
  - reflexivity.
  - sorted_tac.
  - change (val [0; 0; 0; 1; 1; 1] 2)%R with 0%R. change (val [0; 0; 0; 1; 1; 1]%R (2 + 1)) with 1%R. unfold tol. rewrite Rabs_R0, Rabs_R1, Rmax_right by lra. lra.
  - change (val [0; 0; 0; 1; 1; 1] 2)%R with 0%R. change (val [0; 0; 0; 1; 1; 1]%R (2 + 1)) with 1%R. unfold tol. rewrite Rabs_R0, Rabs_R1, Rmax_right by lra. lra.
Qed.
Lemma K_clamped : clamped_knots 2 2 K.
Proof. split; reflexivity. Qed.
Lemma K_dom t : in_domain 2 2 K t <-> (0 <= t <= 1)%R.
Proof. unfold in_domain. change (val K 2) with 0%R. change (val K (2 + 1)) with 1%R. reflexivity. Qed.
Lemma heavy1 : (tol 1 0 < 1)%R.
Proof. unfold tol. rewrite Rabs_R0, Rabs_R1, Rmax_left by lra. lra. Qed.
Lemma bow_heavy : heavy bow.
Proof. intros i Hi. change (len bow) with 3 in Hi. assert (i = 0 \/ i = 1 \/ i = 2) as [-> | [-> | ->]] by lia; apply heavy1. Qed.
Lemma bow_span x : span_curve 2 2 K bow x = (mkXYZW (2 * x) (2 * h * x * (1 - x)) 0 1)%R.
Proof.
  apply co_ext. intros c. unfold span_curve. rewrite co_comb. change (2 - 2) with 0. rewrite rsum_3.
  change (pt bow 0) with (mkXYZW 0 0 0 1)%R. change (pt bow 1) with (mkXYZW 1 h 0 1)%R. change (pt bow 2) with (mkXYZW 2 0 0 1)%R.
  assert (V : val K 0 = 0%R /\ val K 1 = 0%R /\ val K 2 = 0%R /\ val K 3 = 1%R /\ val K 4 = 1%R /\ val K 5 = 1%R) by (repeat split; reflexivity). destruct V as (V0 & V1 & V2 & V3 & V4 & V5).
  assert (N0 : Nspan (val K) 2 (Z.to_nat 2) 0 x = ((1 - x) * (1 - x))%R).
  { change (Z.to_nat 2) with 2%nat. unfold Nspan. cbn [Nrec]. change (Z.of_nat 1) with 1. change (Z.of_nat 2) with 2. cbn [Z.eqb Z.add Pos.eqb Pos.add Pos.succ]. rewrite ?V0, ?V1, ?V2, ?V3, ?V4. rewrite !(sdiv_ok _ (1 - 0)%R) by lra. unfold Rdiv. rewrite ?Rminus_0_r, ?Rinv_1. ring. }
  assert (N1 : Nspan (val K) 2 (Z.to_nat 2) 1 x = (2 * x * (1 - x))%R).
  { change (Z.to_nat 2) with 2%nat. unfold Nspan. cbn [Nrec]. change (Z.of_nat 1) with 1. change (Z.of_nat 2) with 2. cbn [Z.eqb Z.add Pos.eqb Pos.add Pos.succ]. rewrite ?V0, ?V1, ?V2, ?V3, ?V4. rewrite !(sdiv_ok _ (1 - 0)%R) by lra. unfold Rdiv. rewrite ?Rminus_0_r, ?Rinv_1. ring. }
  assert (N2 : Nspan (val K) 2 (Z.to_nat 2) 2 x = (x * x)%R).
  { change (Z.to_nat 2) with 2%nat. unfold Nspan. cbn [Nrec]. change (Z.of_nat 1) with 1. change (Z.of_nat 2) with 2. cbn [Z.eqb Z.add Pos.eqb Pos.add Pos.succ]. rewrite ?V0, ?V1, ?V2, ?V3, ?V4, ?V5. rewrite !(sdiv_ok _ (1 - 0)%R) by lra. unfold Rdiv. rewrite ?Rminus_0_r, ?Rinv_1. ring. }
  rewrite N0, N1, N2. destruct c as [|[|[|c]]]; cbn; ring.
Qed.

Lemma quad_deriv f t l a b e : derivable_pt_lim f t l -> (forall x, f x = a * x * x + b * x + e)%R -> l = (2 * a * t + b)%R.
Proof.
  intros Hf Hx. apply (uniqueness_limite f t); [exact Hf|]. intros eps He. exists (mkposreal (eps / (Rabs a + 1)) ltac:(apply Rdiv_lt_0_compat; [lra|pose proof (Rabs_pos a); lra])).
  intros d Hd Ld. cbn [pos] in Ld. rewrite !Hx. replace (_ - _)%R with (a * d)%R by (field; exact Hd). rewrite Rabs_mult. pose proof (Rabs_pos a).
  apply Rle_lt_trans with (Rabs a * (eps / (Rabs a + 1)))%R; [apply Rmult_le_compat_l; lra|]. apply (Rmult_lt_reg_r (Rabs a + 1)); [lra|]. unfold Rdiv. rewrite !Rmult_assoc, Rinv_l by lra. nra.
Qed.
Lemma quad_derivs (D : R -> Prop) f a b e (g0 g1 g2 : R -> R) t : (forall x, D x) -> (forall x, f x = a * x * x + b * x + e)%R ->
  nth_deriv_on D 0 f g0 -> nth_deriv_on D 1 f g1 -> nth_deriv_on D 2 f g2 -> g0 t = (a * t * t + b * t + e)%R /\ g1 t = (2 * a * t + b)%R /\ g2 t = (2 * a)%R.
Proof.
  intros HD Hf H0 (h1 & D1 & E1) (h2 & D2 & h3 & D3 & E3). split; [rewrite <- H0 by apply HD; apply Hf|]. split.
  - rewrite <- E1 by apply HD. apply (quad_deriv f t _ a b e); [apply D1, HD|exact Hf].
  - rewrite <- E3 by apply HD. replace (2 * a)%R with (2 * 0 * t + 2 * a)%R by ring. apply (quad_deriv h2 t _ 0 (2 * a) b); [apply D3, HD|]. intros x. rewrite (quad_deriv f x _ a b e (D2 x (HD x)) Hf). ring.
Qed.
Lemma bow_derivs t g : curve_derivs 2 2 K bow 2 t g -> g 0 = (mkXYZ (2 * t) (2 * h * t * (1 - t)) 0)%R /\ g 1 = (mkXYZ 2 (2 * h * (1 - 2 * t)) 0)%R /\ g 2 = (mkXYZ 0 (- 4 * h) 0)%R.
Proof.
  intros (k & Hk & G). assert (k = 2) as -> by (destruct Hk; lia). destruct (G 0 ltac:(lia)) as (F0 & (X0 & Y0 & Z0) & <-). destruct (G 1 ltac:(lia)) as (F1 & (X1 & Y1 & Z1) & <-). destruct (G 2 ltac:(lia)) as (F2 & (X2 & Y2 & Z2) & <-).
  assert (W : forall x, ww (span_curve 2 2 K bow x) <> 0%R) by (intros; rewrite bow_span; cbn; lra).
  change (Z.to_nat 0) with 0%nat in *. change (Z.to_nat 1) with 1%nat in *. change (Z.to_nat 2) with 2%nat in *.
  assert (Lx : forall x, gx (proj (span_curve 2 2 K bow x)) = (0 * x * x + 2 * x + 0)%R) by (intros x; rewrite bow_span; unfold proj; cbn [gx wx ww]; field).
  assert (Ly : forall x, gy (proj (span_curve 2 2 K bow x)) = (- 2 * h * x * x + 2 * h * x + 0)%R) by (intros x; rewrite bow_span; unfold proj; cbn [gy wy ww]; field).
  assert (Lz : forall x, gz (proj (span_curve 2 2 K bow x)) = (0 * x * x + 0 * x + 0)%R) by (intros x; rewrite bow_span; unfold proj; cbn [gz wz ww]; field).
  destruct (quad_derivs _ _ _ _ _ _ _ _ t W Lx X0 X1 X2) as (A0 & A1 & A2). destruct (quad_derivs _ _ _ _ _ _ _ _ t W Ly Y0 Y1 Y2) as (B0 & B1 & B2). destruct (quad_derivs _ _ _ _ _ _ _ _ t W Lz Z0 Z1 Z2) as (C0 & C1 & C2).
  cbv beta in *. destruct (F0 t) as [x0 y0 z0], (F1 t) as [x1 y1 z1], (F2 t) as [x2 y2 z2]. cbn [gx gy gz] in *. subst. repeat split; f_equal; ring.
Qed.

Lemma bow_normal t : (0 <= t <= 1)%R -> exists v, CurveNormalAt (mkCurve 2 K bow) CN_Normal t = Ok v.
Proof.
  intros Ht. assert (D : in_domain 2 2 K t) by (apply K_dom, Ht). pose proof (curve_weight 2 2 K bow t K_knots eq_refl bow_heavy D) as Wx. destruct (Frenet_ok 2 2 K bow t K_knots ltac:(lia) eq_refl D ltac:(lra)) as (g & G & F & _).
  destruct (bow_derivs t g G) as (_ & E1 & E2). cbv zeta in F. rewrite E1, E2 in F. destruct F as (x & y & Ex & _).
  - unfold cross3, zero3. cbn [gx gy gz]. intros E. injection E. intros. lra.
  - unfold norm3, close, dot3. cbn [gx gy gz]. assert (S : (2 <= sqrt (2 * 2 + 2 * h * (1 - 2 * t) * (2 * h * (1 - 2 * t)) + 0 * 0))%R). { rewrite <- (sqrt_square 2) at 1 by lra. apply sqrt_le_1_alt. pose proof (Rle_0_sqr (2 * h * (1 - 2 * t))) as Q. unfold Rsqr in Q. lra. }
    set (s := sqrt _) in *. unfold tol. rewrite !Rabs_right by lra. rewrite Rmax_left by lra. lra.
  - exists x. exact Ex.
Qed.
End Bow.

(* where the search for the control points of the arch of height 1 ends *)
Notation K := (bezier_knots 2).
Notation A := (mkCurve 2 K (bow 1)).
Lemma step_sq (d : R) (v w : XYZ R) : (Rabs d * norm3 v < 1 / 10000)%R -> (1 / 10000 <= norm3 w)%R -> (d * d * dot3 v v < dot3 w w)%R.
Proof.
  intros L1 L2. assert (L : (Rabs d * norm3 v < norm3 w)%R) by lra. pose proof (norm_pos v) as N. pose proof (Rabs_pos d) as D.
  rewrite <- (norm_sq v), <- (norm_sq w). replace (d * d)%R with (Rabs d * Rabs d)%R by (rewrite <- Rabs_mult; apply Rabs_right; nra). assert (M : (0 <= Rabs d * norm3 v)%R) by (apply Rmult_le_pos; assumption). set (a := (Rabs d * norm3 v)%R) in *. replace (_ * _ * _)%R with (a * a)%R by (unfold a; ring). nra.
Qed.
Lemma step_len (d : R) (v : XYZ R) : (Rabs d * norm3 v < 1 / 10000)%R -> (4 <= dot3 v v)%R -> (Rabs d < 1 / 20000)%R.
Proof.
  intros L H. pose proof (norm_pos v) as N. pose proof (norm_sq v) as S. pose proof (Rabs_pos d). assert (H2 : (2 <= norm3 v)%R) by nra. assert (Rabs d * 2 <= Rabs d * norm3 v)%R by (apply Rmult_le_compat_l; lra). lra.
Qed.
(* the foot of an end *)
Lemma end_step s e : (0 <= s <= 1)%R -> (e * (8 - 24 * s + 24 * s * s) = - (8 * s - 12 * s * s + 8 * s * s * s))%R ->
  (e * e * (4 + (2 - 4 * s) * (2 - 4 * s)) < 4 * s * s + 2 * s * (1 - s) * (2 * s * (1 - s)))%R -> (Rabs e < 1 / 20000)%R -> (0 <= s + e <= 1)%R.
Proof.
  intros Hs E L B. pose proof (Rle_0_sqr (s - 1 / 2)) as S2. unfold Rsqr in S2. assert (S3 : (0 <= (s - 1 / 2) * (s - 1 / 2) * (20 - 16 * s))%R) by (apply Rmult_le_pos; lra).
  assert (D : (2 <= 8 - 24 * s + 24 * s * s)%R) by lra. set (q := (8 - 24 * s + 24 * s * s)%R) in *.
  assert (Et : ((s + e) * q = 4 * s * s * (4 * s - 3))%R) by (rewrite Rmult_plus_distr_r, E; unfold q; ring).
  split; [|assert (4 * s * s * (4 * s - 3) <= q)%R by (unfold q; lra); nra].
  destruct (Rle_lt_dec 0 (s + e)) as [P|P]; [exact P|exfalso]. assert (Ls : (s < 1 / 20000)%R) by (apply Rabs_def2 in B; lra).
  assert (L2 : (e * q * (e * q) * (8 - 16 * s + 16 * s * s) < q * q * (4 * s * s * (2 - 2 * s + s * s)))%R).
  { replace (e * q * (e * q) * (8 - 16 * s + 16 * s * s))%R with (q * q * (e * e * (4 + (2 - 4 * s) * (2 - 4 * s))))%R by ring. apply Rmult_lt_compat_l; [nra|]. eapply Rlt_le_trans; [exact L|]. right. ring. }
  rewrite E in L2. unfold q in L2. 
  assert (F : (0 <= 64 * s * s * (s * (16 - 74 * s + 148 * s * s - 152 * s * s * s + 80 * s * s * s * s - 20 * s * s * s * s * s)))%R).
  { apply Rmult_le_pos; [nra|]. apply Rmult_le_pos; [lra|]. assert (0 <= s * s <= 1)%R by nra. assert (0 <= s * s * s <= s)%R by nra. assert (0 <= s * s * s * s)%R by nra. assert (0 <= s * s * s * s * s <= s)%R by nra. lra. }
  lra.
Qed.
Lemma arch_param i : 0 <= i <= 2 -> exists N t, (0 <= t <= 1)%R /\ forall f, (N <= f)%nat -> GetParamOnCurve f A (proj (pt (bow 1) i)) = Ok t.
Proof.
  intros Hi. destruct (GetParam_far 2 2 K (bow 1) K_knots ltac:(lia) eq_refl (bow_heavy 1) K_clamped (proj (pt (bow 1) i))) as (N & t & E & F). exists N, t. split; [|exact E]. clear E N.
  destruct F as [F|(s & g & Ds & G & E & L & B)]; [exact (proj1 (K_dom t) F)|]. apply (proj1 (K_dom s)) in Ds. destruct (bow_derivs 1 s g G) as (G0 & G1 & G2). rewrite G0, G1, G2 in E. rewrite G1 in L. rewrite G0 in B.
  pose proof (step_sq _ _ _ L B) as Q. assert (L' : (Rabs (t - s) < 1 / 20000)%R) by (apply (step_len _ _ L); unfold dot3; cbn [gx gy gz]; pose proof (Rle_0_sqr (2 * 1 * (1 - 2 * s))) as S1; unfold Rsqr in S1; lra). clear G0 G1 G2 G L B. set (e := (t - s)%R) in *. replace t with (s + e)%R by (unfold e; ring).
  assert (i = 0 \/ i = 1 \/ i = 2) as [-> | [-> | ->]] by lia.
  - change (pt (bow 1) 0) with (mkXYZW 0 0 0 1)%R in *. unfold proj, dot3, minus3 in *. cbn [gx gy gz wx wy wz ww] in *. apply end_step; [exact Ds| | |exact L'].
    + replace (- (8 * s - 12 * s * s + 8 * s * s * s))%R with (- (2 * (2 * s - 0 / 1) + 2 * 1 * (1 - 2 * s) * (2 * 1 * s * (1 - s) - 0 / 1) + 0 * (0 - 0 / 1)))%R by field. rewrite <- E. field.
    + eapply Rle_lt_trans; [|eapply Rlt_le_trans; [exact Q|]]; right; field.
  - change (pt (bow 1) 1) with (mkXYZW 1 1 0 1)%R in *. unfold proj, dot3, minus3 in *. cbn [gx gy gz wx wy wz ww] in *. 
    assert (E2 : ((s + e) * (12 - 24 * s + 24 * s * s) = 4 - 12 * s * s + 16 * s * s * s)%R).
    { rewrite Rmult_plus_distr_r. match type of E with (_ = ?r)%R => replace (e * (12 - 24 * s + 24 * s * s))%R with r by (rewrite <- E; field) end. field. }
    pose proof (Rle_0_sqr (s - 1 / 2)) as S2. unfold Rsqr in S2. assert (S3 : (0 <= (s - 1 / 2) * (s - 1 / 2) * (20 - 16 * s))%R) by (apply Rmult_le_pos; lra). assert (S4 : (0 <= (s - 1 / 2) * (s - 1 / 2) * (16 * s + 4))%R) by (apply Rmult_le_pos; lra).
    assert (D : (6 <= 12 - 24 * s + 24 * s * s)%R) by lra. set (q := (12 - 24 * s + 24 * s * s)%R) in *. assert (0 <= 4 - 12 * s * s + 16 * s * s * s <= q)%R by (unfold q; split; lra). split; nra.
  - change (pt (bow 1) 2) with (mkXYZW 2 0 0 1)%R in *. unfold proj, dot3, minus3 in *. cbn [gx gy gz wx wy wz ww] in *.
    assert (X : (0 <= (1 - s) + - e <= 1)%R); [|lra]. apply end_step; [lra| | |rewrite Rabs_Ropp; exact L'].
    + match type of E with (_ = ?r)%R => transitivity (- r)%R; [rewrite <- E; field|field] end.
    + eapply Rle_lt_trans; [|eapply Rlt_le_trans; [exact Q|]]; right; field.
Qed.

(* points moved by 1/10 *)
Lemma unit_le (v : XYZ R) : dot3 v v = 1%R -> (-1 <= gx v <= 1)%R /\ (-1 <= gy v <= 1)%R /\ (-1 <= gz v <= 1)%R.
Proof. destruct v as [x y z]. unfold dot3. cbn [gx gy gz]. intros E. repeat split; nra. Qed.
Lemma tenth_le (s x : R) : (s = 1 \/ s = -1)%R -> (-1 <= x <= 1)%R -> (- (1 / 10) <= 1 / 10 * s * x <= 1 / 10)%R.
Proof. intros [-> | ->] H; lra. Qed.
Lemma arch_moved f n0 i x : 0 <= i <= 2 -> moved f A (1 / 10) n0 i x ->
  (- (1 / 10) <= gx x - IZR i <= 1 / 10)%R /\ (- (1 / 10) <= gy x - (if i =? 1 then 1 else 0) <= 1 / 10)%R.
Proof.
  intros Hi (t & v & s & _ & _ & Ev & Hs & _ & _ & ->). destruct (unit_le v Ev) as (V1 & V2 & _). pose proof (tenth_le s _ Hs V1). pose proof (tenth_le s _ Hs V2).
  assert (i = 0 \/ i = 1 \/ i = 2) as [-> | [-> | ->]] by lia; cbn [ControlPoints];
    [change (pt (bow 1) 0) with (mkXYZW 0 0 0 1)%R|change (pt (bow 1) 1) with (mkXYZW 1 1 0 1)%R|change (pt (bow 1) 2) with (mkXYZW 2 0 0 1)%R]; unfold plus3, times3, proj; cbn [gx gy gz wx wy wz ww Z.eqb Pos.eqb]; lra.
Qed.
Lemma norm_gz (v : XYZ R) (b : R) : (0 <= b -> b <= gz v -> b <= norm3 v)%R.
Proof. intros B H. unfold norm3. rewrite <- (sqrt_square b B). apply sqrt_le_1_alt. unfold dot3. nra. Qed.
Lemma norm_gx (v : XYZ R) (b : R) : (0 <= b -> b <= gx v -> b <= norm3 v)%R.
Proof. intros B H. unfold norm3. rewrite <- (sqrt_square b B). apply sqrt_le_1_alt. unfold dot3. nra. Qed.
Lemma arch_bend f n0 x y z : moved f A (1 / 10) n0 0 x -> moved f A (1 / 10) n0 1 y -> moved f A (1 / 10) n0 2 z -> (1 / 999 < norm3 (cross3 (minus3 y x) (minus3 y z)))%R.
Proof.
  intros H0 H1 H2. apply arch_moved in H0, H1, H2; [|lia..]. cbn [Z.eqb Pos.eqb] in *. apply Rlt_le_trans with 1%R; [lra|]. apply norm_gz; [lra|]. destruct x as [x1 x2 x3], y as [y1 y2 y3], z as [z1 z2 z3]. unfold cross3, minus3. cbn [gx gy gz] in *.
  assert (8 / 10 * (8 / 10) <= (y1 - x1) * (y2 - z2))%R by (apply Rmult_le_compat; lra). assert (8 / 10 * (8 / 10) <= (y2 - x2) * (z1 - y1))%R by (apply Rmult_le_compat; lra). lra.
Qed.
Lemma arch_apart f n0 i x y : 0 <= i < 2 -> moved f A (1 / 10) n0 i x -> moved f A (1 / 10) n0 (i + 1) y -> (1 / 1000000 < dist3 y x)%R.
Proof.
  intros Hi H0 H1. apply arch_moved in H0, H1; [|lia..]. apply Rlt_le_trans with (8 / 10)%R; [lra|]. apply norm_gx; [lra|]. unfold minus3. cbn [gx]. rewrite plus_IZR in H1. lra.
Qed.

(* a flat arch *)
Notation h0 := (1 / 512)%R.
Notation B := (mkCurve 2 K (bow (1 / 512))).
Lemma flat_number m : sample_number 2 2 K (bow h0) m -> m = 6.
Proof.
  intros (M & _ & [-> |(i & g & Hi & G & L)]); [reflexivity|exfalso]. destruct (bow_derivs _ _ _ G) as (_ & _ & E2). rewrite E2 in L. unfold amount in L. change (2 * (2 + 1)) with 6 in M. apply IZR_le in M. cut (100 * sqrt (norm3 (mkXYZ 0 (-4 * h0) 0) / 8) < 6)%R; [lra|].
  assert (N : (norm3 (mkXYZ 0 (-4 * h0) 0) / 8 = 1 / 32 * (1 / 32))%R). { unfold norm3, dot3. cbn [gx gy gz]. replace (0 * 0 + _ + _)%R with (1 / 128 * (1 / 128))%R by field. rewrite sqrt_square by lra. field. }
  rewrite N, sqrt_square by lra. lra.
Qed.
Lemma flat_sample t x : (0 <= t <= 1)%R -> offset_at B (1 / 10) t x -> (- (1 / 10) <= gx x - 2 * t <= 1 / 10)%R /\ (-1 <= gy x <= 1)%R /\ (-1 <= gz x <= 1)%R.
Proof.
  intros Ht (q & v & Eq & _ & Ev & ->). destruct (unit_le v Ev) as (V1 & V2 & V3). 
  assert (D : in_domain 2 2 K t) by (apply K_dom, Ht). rewrite (NurbsPoint_ok 2 2 K (bow h0) t K_knots ltac:(lia) eq_refl D) in Eq.
  assert (SP : span_of 2 2 K t 2). { split; [lia|]. change (val K 2) with 0%R. change (val K (2 + 1)) with 1%R. split; [lra|]. split; [lra|]. destruct (Req_dec t 1) as [-> |N]; [right; auto|left; lra]. }
  rewrite (curve_point_span 2 2 K (bow h0) t 2 K_knots SP), bow_span in Eq. match type of Eq with ToXYZ ?y true = _ => rewrite (proj1 (heavy_ToXYZ y heavy1)) in Eq end. injection Eq as <-. unfold plus3, times3, proj. cbn [gx gy gz wx wy wz ww].
  assert (0 <= t * (1 - t) <= 1)%R by nra. repeat split; lra.
Qed.
Lemma dist_le (a b : XYZ R) : (dist3 a b <= Rabs (gx a - gx b) + Rabs (gy a - gy b) + Rabs (gz a - gz b))%R.
Proof.
  unfold dist3, norm3. set (s := (_ + _ + _)%R). assert (S : (0 <= s)%R) by (unfold s; repeat apply Rplus_le_le_0_compat; apply Rabs_pos). rewrite <- (sqrt_square s S). apply sqrt_le_1_alt. unfold dot3, minus3, s. cbn [gx gy gz].
  pose proof (Rabs_pos (gx a - gx b)). pose proof (Rabs_pos (gy a - gy b)). pose proof (Rabs_pos (gz a - gz b)).
  assert (Q : forall x, (x * x = Rabs x * Rabs x)%R) by (intros x; rewrite <- Rabs_mult; symmetry; apply Rabs_right; nra). rewrite (Q (gx a - gx b)%R), (Q (gy a - gy b)%R), (Q (gz a - gz b)%R). set (x := Rabs (gx a - gx b)) in *. set (y := Rabs (gy a - gy b)) in *. set (z := Rabs (gz a - gz b)) in *. assert (0 <= x * y /\ 0 <= x * z /\ 0 <= y * z)%R by (repeat split; apply Rmult_le_pos; assumption). lra.
Qed.
Lemma flat_spread Q : sample_number 2 2 K (bow h0) (len Q) -> samples B (1 / 10) (val K 0) (val K (2 + 2 + 1)) Q -> spread_points Q.
Proof.
  intros HN HS. apply flat_number in HN. unfold samples in HS. rewrite HN in HS. change (val K 0) with 0%R in HS. change (val K (2 + 2 + 1)) with 1%R in HS. change (6 - 1) with 5 in HS.
  assert (X : forall j, 0 <= j < 6 -> (- (1 / 10) <= gx (pt Q j) - 2 / 5 * IZR j <= 1 / 10)%R /\ (-1 <= gy (pt Q j) <= 1)%R /\ (-1 <= gz (pt Q j) <= 1)%R).
  { intros j Hj. assert (J : (0 <= IZR j <= 5)%R) by (split; apply IZR_le; lia). assert (0 <= 0 + (1 - 0) / 5 * IZR j <= 1)%R by lra. destruct (flat_sample _ _ H (HS j Hj)) as (E1 & E2). split; [lra|exact E2]. }
  assert (DL : forall j, 0 <= j < 5 -> (2 / 10 <= dist3 (pt Q (j + 1)%Z) (pt Q j) <= 5)%R).
  { intros j Hj. destruct (X j ltac:(lia)) as (A1 & A2 & A3). destruct (X (j + 1) ltac:(lia)) as (B1 & B2 & B3). rewrite plus_IZR in B1. split.
    - apply norm_gx; [lra|]. unfold minus3. cbn [gx]. lra.
    - eapply Rle_trans; [apply dist_le|]. assert (Rabs (gx (pt Q (j + 1)%Z) - gx (pt Q j)) <= 1)%R by (apply Rabs_le; lra). assert (Rabs (gy (pt Q (j + 1)%Z) - gy (pt Q j)) <= 2)%R by (apply Rabs_le; lra). assert (Rabs (gz (pt Q (j + 1)%Z) - gz (pt Q j)) <= 2)%R by (apply Rabs_le; lra). lra. }
  unfold spread_points. rewrite HN. change (6 - 1) with 5. change (6 - 2) with 4.
  pose proof (DL 0 ltac:(lia)) as D0. pose proof (DL 1 ltac:(lia)) as D1. pose proof (DL 2 ltac:(lia)) as D2. pose proof (DL 3 ltac:(lia)) as D3. pose proof (DL 4 ltac:(lia)) as D4. cbn [Z.add Pos.add Pos.succ] in D0, D1, D2, D3, D4.
  assert (C : (2 / 10 <= chord_length (pt Q) 5 <= 25)%R).
  { unfold chord_length. change (5 + 1) with 6. assert (E : forall f, rsum 1 6 f = (f 1%Z + f 2%Z + f 3%Z + f 4%Z + f 5%Z)%R) by (intros f; rewrite !rsum_first by lia; cbn [Z.add Pos.add Pos.succ]; rewrite rsum_nil by lia; ring). rewrite E. cbn [Z.sub Z.opp Z.add Z.pos_sub Pos.pred_double]. lra. }
  split; [|split; [unfold small; rewrite Rabs_right by lra; lra|split; lra]].
  intros j Hj E. pose proof (DL j Hj) as D. rewrite <- E in D. unfold dist3 in D. replace (minus3 (pt Q j) (pt Q j)) with zero3 in D by (unfold minus3, zero3; f_equal; ring). rewrite norm_0 in D. lra.
Qed.
