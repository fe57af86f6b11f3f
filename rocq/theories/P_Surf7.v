(* Translational sweeps. *)
From Coq Require Import ZArith List Bool Reals Lra Lia.
From Verif Require Import Base Num Vec Tac Spec Spec2 Spec3 Spec4 Spec5 Spec8 Spec10 Spec12 M_MathUtils M_XYZ M_Bspline M_NurbsCurve M_Surface M_Surface2
  P_MathUtils P_Span P_Cox P_Basis P_Vec P_XYZ P_VSum P_Curve P_Bspline P_BsplineS P_Loop P_Nurbs P_Surface P_Geom P_Shape2 P_Surf3 P_Surf5.
Import ListNotations.
Open Scope Z_scope.

(* two nested loops that write every entry *)
Lemma wp_fill2 {X} n m (f : Z -> Z -> X) S0 body (Q : list (list X) -> Prop) : 0 <= n -> 0 <= m -> arr2D S0 n m (fun _ _ => False) f ->
  (forall i j S, 0 <= i < n -> 0 <= j < m -> body i j S = upd2 S i j (f i j)) -> (forall S, arr2 S n m f -> Q S) ->
  wp (for_up 0 n S0 (fun i S => for_up 0 m S (fun j S => body i j S))) Q.
Proof.
  intros Hn Hm H0 Hb HQ. apply wp_for_up with (P := fun k S => arr2D S n m (fun i j => i < k) f); [lia| | |].
  - apply (arr2D_ext _ _ _ (fun _ _ => False) _ f _ H0); intros; lia.
  - intros k S Hk HS. apply wp_for_up with (P := fun l S => arr2D S n m (fun i j => i < k \/ (i = k /\ j < l)) f); [lia| | |].
    + apply (arr2D_ext _ _ _ _ _ f _ HS). cbv beta. intros i j Hi Hj HD. split; [lia|reflexivity].
    + intros l S' Hl HS'. rewrite Hb by lia. eapply arr2D_set; [exact HS'|lia|lia|reflexivity| |intros m' H'; exact H'].
      cbv beta. intros a b Ha Hb' HD. lia.
    + intros S' HS'. apply (arr2D_ext _ _ _ _ _ f _ HS'). cbv beta. intros i j Hi Hj HD. split; [lia|reflexivity].
  - intros S HS. apply HQ. destruct HS as [L R]. split; [exact L|]. intros i Hi. destruct (R i Hi) as (row & E & A). exists row. split; [exact E|]. split; [apply A|]. intros j Hj. apply A; lia.
Qed.

Lemma blank2 {X} n m (x : X) (f : Z -> Z -> X) (Q : list (list X) -> Prop) : 0 <= n -> 0 <= m -> (forall S, arr2D S n m (fun _ _ => False) f -> Q S) ->
  wp (let! row := mkvec m x in mkvec n row) Q.
Proof.
  intros Hn Hm HQ. apply wp_bind. apply wp_mkvec; [lia|]. intros row Hrow. eapply wp_mkvec2; [lia|exact Hrow|]. intros S0 HS0. apply HQ.
  apply (arr2D_ext _ _ _ (fun _ _ => False) _ (fun _ _ => x) _ (arr2_D _ _ _ _ _ HS0)). intros; contradiction.
Qed.

(* a combination of products in two indices *)
Lemma rsum_prod lo hi lo' hi' a b x y : rsum lo hi (fun i => a i * rsum lo' hi' (fun j => b j * (x i * y j)))%R = (rsum lo hi (fun i => a i * x i) * rsum lo' hi' (fun j => b j * y j))%R.
Proof.
  rewrite (rsum_ext lo hi _ (fun i => rsum lo' hi' (fun j => b j * y j) * (a i * x i)))%R.
  - rewrite rsum_scal. ring.
  - intros i Hi. rewrite (rsum_ext lo' hi' _ (fun j => x i * (b j * y j)))%R by (intros; ring). rewrite rsum_scal. ring.
Qed.

(* the point with Euclidean coordinates a + b and weight the product *)
Definition swept (a b : W4) : W4 := mkXYZW (wx b * ww a + wx a * ww b)%R (wy b * ww a + wy a * ww b)%R (wz b * ww a + wz a * ww b)%R (ww a * ww b)%R.

Lemma comb_swept lo hi lo' hi' a b (P T : Z -> W4) : comb lo hi a (fun i => comb lo' hi' b (fun j => swept (P i) (T j))) = swept (comb lo hi a P) (comb lo' hi' b T).
Proof.
  assert (X0 : forall l h c (g : Z -> W4), wx (comb l h c g) = rsum l h (fun i => c i * wx (g i))%R) by (intros; exact (co_comb 0 l h c g)).
  assert (X1 : forall l h c (g : Z -> W4), wy (comb l h c g) = rsum l h (fun i => c i * wy (g i))%R) by (intros; exact (co_comb 1 l h c g)).
  assert (X2 : forall l h c (g : Z -> W4), wz (comb l h c g) = rsum l h (fun i => c i * wz (g i))%R) by (intros; exact (co_comb 2 l h c g)).
  assert (X3 : forall l h c (g : Z -> W4), ww (comb l h c g) = rsum l h (fun i => c i * ww (g i))%R) by (intros; exact (co_comb 3 l h c g)).
  assert (EQ : forall a b : W4, wx a = wx b -> wy a = wy b -> wz a = wz b -> ww a = ww b -> a = b) by (intros [] []; cbn; intros; subst; reflexivity).
  assert (SP : forall x y x' y' : Z -> R, rsum lo hi (fun i => a i * rsum lo' hi' (fun j => b j * (y j * x i + x' i * y' j)))%R =
     (rsum lo' hi' (fun j => b j * y j) * rsum lo hi (fun i => a i * x i) + rsum lo hi (fun i => a i * x' i) * rsum lo' hi' (fun j => b j * y' j))%R).
  { intros x y x' y'. rewrite <- (rsum_prod lo hi lo' hi' a b x' y'). rewrite (Rmult_comm (rsum lo' hi' _)). rewrite <- (rsum_prod lo hi lo' hi' a b x y). rewrite <- rsum_plus. apply rsum_ext. intros i Hi.
    rewrite <- Rmult_plus_distr_l. f_equal. rewrite <- rsum_plus. apply rsum_ext. intros. ring. }
  apply EQ; unfold swept at 2; cbn [wx wy wz ww]; rewrite ?X0, ?X1, ?X2, ?X3.
  - rewrite <- SP. apply rsum_ext. intros i Hi. rewrite X0. reflexivity.
  - rewrite <- SP. apply rsum_ext. intros i Hi. rewrite X1. reflexivity.
  - rewrite <- SP. apply rsum_ext. intros i Hi. rewrite X2. reflexivity.
  - rewrite <- rsum_prod. apply rsum_ext. intros i Hi. rewrite X3. reflexivity.
Qed.

Lemma proj_swept a b : ww a <> 0%R -> ww b <> 0%R -> proj (swept a b) = plus3 (proj a) (proj b).
Proof. intros Ha Hb. unfold proj, swept, plus3. cbn [gx gy gz wx wy wz ww]. f_equal; field; split; assumption. Qed.

Lemma heavy_ToXYZ (c : W4) : (tol (ww c) 0 < ww c)%R -> ToXYZ c true = Ok (proj c) /\ ww c <> 0%R.
Proof.
  intros H. split; [apply ToXYZ_div, heavy_aeq, H|]. unfold tol in H. pose proof (Rmax_r (Rabs (ww c)) (Rabs 0)). pose proof (Rabs_pos 0). lra.
Qed.

Lemma curve_weight p n U (P : list W4) t : curve_knots p n U -> len P = n + 1 -> heavy P -> in_domain p n U t -> (0 < ww (curve_point p n U P t))%R.
Proof.
  intros HU LP HH D. pose proof HU as [Hp Hn _ _ _ _]. change (ww (curve_point p n U P t)) with (co 3 (curve_point p n U P t)). unfold curve_point. rewrite co_comb.
  apply (rsum_gt 0 (n + 1) (fun i => N (val U) (val U (n + 1)) (Z.to_nat p) i t) (fun i => co 3 (pt P i)) 0%R); [apply N_sum; auto|intros i Hi; apply N_nonneg; auto; lia|].
  intros i Hi _. change (0 < ww (pt P i))%R. specialize (HH i ltac:(lia)). unfold tol in HH. pose proof (Rmax_r (Rabs (ww (pt P i))) (Rabs 0)). pose proof (Rabs_pos 0). lra.
Qed.

Lemma TranslationalSweep_ok p n U (P : list W4) q m W (T : list W4) :
  curve_knots p n U -> curve_knots q m W -> p <= 7 -> q <= 7 -> len P = n + 1 -> len T = m + 1 -> heavy P -> heavy T ->
  returns (CreateGeneralizedTranslationalSweepSurface (mkCurve p U P) (mkCurve q W T)) (fun S =>
    valid_surface n m S /\ DegreeU S = p /\ DegreeV S = q /\ KnotVectorU S = U /\ KnotVectorV S = W /\
    (forall i j, 0 <= i <= n -> 0 <= j <= m -> ww (pt2 (SControlPoints S) i j) = (ww (pt P i) * ww (pt T j))%R) /\
    forall u v, in_domain p n U u -> in_domain q m W v ->
      surface_at n m S u v = plus3 (proj (curve_point p n U P u)) (proj (curve_point q m W T v))).
Proof.
  intros HU HW H7 H77 LP LT HP HT. pose proof HU as [Hp Hn _ _ _ _]. pose proof HW as [Hq Hm _ _ _ _].
  set (f := fun i j => swept (pt P i) (pt T j)).
  assert (W0 : wp (CreateGeneralizedTranslationalSweepSurface (mkCurve p U P) (mkCurve q W T)) (fun S => exists X, S = mkSurface p q U W X /\ arr2 X (n + 1) (m + 1) f)).
  { unfold CreateGeneralizedTranslationalSweepSurface. cbn [ControlPoints Degree KnotVector]. rewrite LP, LT. replace (n + 1 - 1) with n by lia. replace (m + 1 - 1) with m by lia.
    apply wp_bind. apply wp_mkvec; [lia|]. intros row Hrow. apply wp_bind. eapply wp_mkvec2; [lia|exact Hrow|]. intros S0 HS0.
    apply wp_bind. apply (wp_fill2 (n + 1) (m + 1) f); [lia|lia| | |].
    - apply (arr2D_ext _ _ _ (fun _ _ => False) _ (fun _ _ => xyzw0) _ (arr2_D _ _ _ _ _ HS0)). intros; contradiction.
    - intros i j S Hi Hj. rewrite (get_at vzero T) by lia. cbn [bind]. rewrite (get_at vzero P) by lia. cbn [bind]. fold (pt T j). fold (pt P i).
      destruct (heavy_ToXYZ _ (HT j ltac:(lia))) as (-> & Wt). destruct (heavy_ToXYZ _ (HP i ltac:(lia))) as (-> & Wp). cbn [bind]. f_equal.
      unfold f, swept, mkW, proj, xyz_add. num. cbn [gx gy gz]. num. f_equal; field; split; assumption.
    - intros X HX. apply wp_ok. exists X. split; [reflexivity|exact HX]. }
  destruct (wp_elim _ _ W0) as (S & E & X & -> & HX). exists (mkSurface p q U W X). split; [exact E|]. cbn [DegreeU DegreeV KnotVectorU KnotVectorV SControlPoints].
  split. { split; [exact HU|]. split; [exact HW|]. split; [exact (net_arr2 _ _ _ _ HX)|]. split; assumption. }
  split; [reflexivity|]. split; [reflexivity|]. split; [reflexivity|]. split; [reflexivity|]. split.
  { intros i j Hi Hj. rewrite (pt2_arr2 _ _ _ _ i j HX) by lia. reflexivity. }
  intros u v Du Dv. unfold surface_at. cbn [DegreeU DegreeV KnotVectorU KnotVectorV SControlPoints].
  rewrite <- proj_swept by (apply Rgt_not_eq; apply curve_weight; assumption). f_equal. unfold curve_point. rewrite <- comb_swept. unfold surface_point. apply comb_ext. intros i Hi. split; [reflexivity|].
  apply comb_ext. intros j Hj. split; [reflexivity|]. apply (pt2_arr2 _ _ _ _ i j HX); lia.
Qed.

Lemma TranslationalSweep_at p n U (P : list W4) q m W (T : list W4) :
  curve_knots p n U -> curve_knots q m W -> p <= 7 -> q <= 7 -> len P = n + 1 -> len T = m + 1 -> heavy P -> heavy T ->
  (forall i j, 0 <= i <= n -> 0 <= j <= m -> let w := (ww (pt P i) * ww (pt T j))%R in (tol w 0 < w)%R) ->
  returns (CreateGeneralizedTranslationalSweepSurface (mkCurve p U P) (mkCurve q W T)) (fun S =>
    forall u v, in_domain p n U u -> in_domain q m W v -> exists c t,
      NurbsPoint (mkCurve p U P) u = Ok c /\ NurbsPoint (mkCurve q W T) v = Ok t /\ NurbsSurfacePoint S u v = Ok (plus3 c t)).
Proof.
  intros HU HW H7 H77 LP LT HP HT HWW. destruct (TranslationalSweep_ok p n U P q m W T HU HW H7 H77 LP LT HP HT) as (S & E & HS & E1 & E2 & E3 & E4 & EW & G).
  exists S. split; [exact E|]. intros u v Du Dv. exists (proj (curve_point p n U P u)), (proj (curve_point q m W T v)).
  split; [apply point_at; assumption|]. split; [apply point_at; assumption|]. rewrite <- G by assumption. apply surface_eval3; [exact HS| | |].
  - intros i j Hi Hj. cbv zeta. rewrite (EW i j Hi Hj). apply HWW; assumption.
  - unfold u_domain. rewrite E1, E3. exact Du.
  - unfold v_domain. rewrite E2, E4. exact Dv.
Qed.
