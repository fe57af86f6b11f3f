(* Moving control points, changing weights, warping, flattening and bending. *)
From Coq Require Import ZArith List Bool Reals Lra Lia.
From Verif Require Import Base Num Vec Tac Spec Spec2 Spec3 Spec4 Spec5 Spec10 M_MathUtils M_Polynomials M_XYZ M_Bspline M_NurbsCurve M_Geom M_Shape
  P_MathUtils P_Span P_Cox P_Basis P_Deriv P_Vec P_XYZ P_VSum P_Curve P_Bspline P_Matrix P_Loop P_Geom P_Nurbs P_Conic P_Insert P_Shape.
Import ListNotations.
Open Scope Z_scope.

Lemma hom_proj (a : XYZW R) : ww a <> 0%R -> hom (proj a) (ww a) = a.
Proof. intros Ha. destruct a as [a1 a2 a3 a4]. unfold hom, proj. cbn [wx wy wz ww gx gy gz] in *. f_equal; field; exact Ha. Qed.
Lemma plus_zero a : plus3 a zero3 = a.
Proof. destruct a as [a1 a2 a3]. unfold plus3, zero3. cbn [gx gy gz]. apply xyz_eq; ring. Qed.

Lemma arr_pt_eq {T} {V : Vec R T} (l : list T) m f i : arr l m f -> 0 <= i < m -> pt l i = f i.
Proof. intros A Hi. pose proof (arr_get _ _ _ i A Hi) as G. rewrite (get_at vzero) in G by (rewrite (arr_len _ _ _ A); lia). injection G as G. exact G. Qed.

Lemma comb_co0 lo hi w (P : Z -> XYZ R) : gx (comb lo hi w P) = rsum lo hi (fun i => w i * gx (P i))%R.
Proof. exact (co_comb 0 lo hi w P). Qed.
Lemma comb_co1 lo hi w (P : Z -> XYZ R) : gy (comb lo hi w P) = rsum lo hi (fun i => w i * gy (P i))%R.
Proof. exact (co_comb 1 lo hi w P). Qed.
Lemma comb_co2 lo hi w (P : Z -> XYZ R) : gz (comb lo hi w P) = rsum lo hi (fun i => w i * gz (P i))%R.
Proof. exact (co_comb 2 lo hi w P). Qed.

(* moving control points moves every curve point by the weighted mean of the moves *)
Lemma moved_point p n U H H' D t : len H = n + 1 -> moved H H' D -> (forall i, 0 <= i <= n -> ww (pt H i) <> 0%R) -> ww (curve_point p n U H t) <> 0%R ->
  ww (curve_point p n U H' t) = ww (curve_point p n U H t) /\
  proj (curve_point p n U H' t) = plus3 (proj (curve_point p n U H t)) (comb 0 (n + 1) (fun i => share p n U H i t) D).
Proof.
  intros HH (HL & HM) Hw HW.
  set (B := fun i => N (val U) (val U (n + 1)) (Z.to_nat p) i t).
  assert (E3 : ww (curve_point p n U H' t) = ww (curve_point p n U H t)).
  { change (co 3 (comb 0 (n + 1) B (pt H')) = co 3 (comb 0 (n + 1) B (pt H))). rewrite !co_comb. apply rsum_ext. intros i Hi. rewrite HM by lia. reflexivity. }
  split; [exact E3|].
  assert (K : forall (f : XYZW R -> R) (g : XYZ R -> R) c, (forall a, f a = co c a) -> (forall a w, f (hom a w) = g a * w)%R -> (forall a b, g (plus3 a b) = g a + g b)%R ->
     (forall lo hi w (P : Z -> XYZ R), g (comb lo hi w P) = rsum lo hi (fun i => w i * g (P i)))%R ->
     (f (curve_point p n U H' t) / ww (curve_point p n U H t) = f (curve_point p n U H t) / ww (curve_point p n U H t) + g (comb 0 (n + 1) (fun i => share p n U H i t) D))%R).
  { intros f g c Hf Hh Hp Hc. rewrite Hc, !Hf. change (co c (curve_point p n U H' t)) with (co c (comb 0 (n + 1) B (pt H'))). change (co c (curve_point p n U H t)) with (co c (comb 0 (n + 1) B (pt H))).
    rewrite !co_comb. unfold Rdiv. rewrite <- !rsum_scal_r, <- rsum_plus. apply rsum_ext. intros i Hi. rewrite <- !Hf, HM by lia. rewrite Hh, Hp.
    rewrite <- (hom_proj (pt H i)) at 3 by (apply Hw; lia). rewrite Hh. unfold share. fold (B i). field. exact HW. }
  unfold proj. rewrite E3. unfold plus3. cbn [gx gy gz]. apply xyz_eq.
  - rewrite (K (@wx R) (@gx R) 0%nat); [reflexivity|intros; reflexivity..|intros; apply comb_co0].
  - rewrite (K (@wy R) (@gy R) 1%nat); [reflexivity|intros; reflexivity..|intros; apply comb_co1].
  - rewrite (K (@wz R) (@gz R) 2%nat); [reflexivity|intros; reflexivity..|intros; apply comb_co2].
Qed.

Lemma comb_single n m w (v : XYZ R) : 0 <= m <= n -> comb 0 (n + 1) w (fun i => if i =? m then v else zero3) = times3 (w m) v.
Proof.
  intros Hm. assert (K : forall g : XYZ R -> R, g zero3 = 0%R -> rsum 0 (n + 1) (fun i => w i * g (if i =? m then v else zero3))%R = (w m * g v)%R).
  { intros g Hg. rewrite (rsum_single _ _ m); [rewrite Z.eqb_refl; reflexivity|lia|]. intros i Hi Hn. destruct (Z.eqb_spec i m); [contradiction|]. rewrite Hg. ring. }
  apply P_XYZ.xyz_eq; [rewrite comb_co0|rewrite comb_co1|rewrite comb_co2]; apply K; reflexivity.
Qed.

Lemma heavy_to (H : list (XYZW R)) i : 0 <= i < len H -> (tol (ww (pt H i)) 0 < ww (pt H i))%R -> ToXYZ (pt H i) true = Ok (proj (pt H i)) /\ ww (pt H i) <> 0%R.
Proof. intros Hi Hh. split; [apply ToXYZ_div, heavy_aeq, Hh|]. apply heavy_iff in Hh. lra. Qed.

Lemma int_range m lo hi : lo <= m <= hi -> validate_int_range m lo hi = Ok tt.
Proof. intros Hm. unfold validate_int_range. destruct (Z.ltb_spec m lo); [lia|]. destruct (Z.ltb_spec hi m); [lia|]. reflexivity. Qed.

Section Edit.
Variables (p n : Z) (U : list R) (H : list (XYZW R)).
Hypothesis HU : curve_knots p n U.
Hypothesis Hp : p <= 7.
Hypothesis HH : len H = n + 1.
Hypothesis Hw : heavy H.
Let c := mkCurve p U H.
Notation B i t := (N (val U) (val U (n + 1)) (Z.to_nat p) i t).

Lemma basis0 t k : span_of p n U t k -> exists b, BasisFunctions k p U t = Ok b /\ getu b 0 = Ok (B (k - p) t).
Proof.
  intros Hk. pose proof HU as [Hp0 Hn Hl Hs _ _]. pose proof (span_of_dom _ _ _ _ _ HU Hk) as Ht.
  destruct (wp_elim _ _ (BasisFunctions_ok U p k t (span_of_ok _ _ _ _ _ HU Hk) Hp (accepted_dom _ _ _ _ HU Ht))) as (b & E & Hb). exists b. split; [exact E|].
  rewrite (getu_D _ _ _ _ 0 _ Hb ltac:(lia) ltac:(cbv beta; lia) eq_refl). f_equal. cbv beta. change (B (k - p) t) with (NB (val U) (val U (n + 1)) p (k - p) t).
  destruct Hk as (Hk1 & Hk2). rewrite (NB_span p n U t k p (k - p)) by (auto; try lia; split; auto). f_equal. lia.
Qed.

Lemma wpos t : in_domain p n U t -> (0 < ww (curve_point p n U H t))%R.
Proof.
  intros Ht. change (0 < co 3 (comb 0 (n + 1) (fun i => B i t) (pt H)))%R. rewrite co_comb.
  assert (E : (1 / 999999 < rsum 0 (n + 1) (fun i => B i t * co 3 (pt H i)))%R); [|lra]. apply rsum_gt.
  - apply N_sum; auto.
  - intros i Hi. apply N_nonneg; auto. lia.
  - intros i Hi _. apply heavy_iff. apply Hw. lia.
Qed.
Lemma wnz i : 0 <= i <= n -> ww (pt H i) <> 0%R.
Proof. intros Hi. apply heavy_to; [lia|]. apply Hw. lia. Qed.

Lemma dom_ok t : in_domain p n U t -> validate_domain U t = Ok tt.
Proof. intros. apply (domain_ok p n U t); auto. Qed.

Lemma Reposition_ok t k m v d : span_of p n U t k -> 0 <= m <= n -> (1 / 10 ^ 12 < dot3 v v)%R -> ~ small d -> (0 < B (k - p) t)%R ->
  exists H', ControlPointReposition c t m v d = Ok (Some (mkCurve p U H')) /\
    moved H H' (fun i => if i =? m then times3 (d / (norm3 v * B (k - p) t)) v else zero3).
Proof.
  intros Hk Hm Hv Hd HB. pose proof (span_of_dom _ _ _ _ _ HU Hk) as Ht. unfold ControlPointReposition, c. cbn [Degree KnotVector ControlPoints].
  rewrite dom_ok by exact Ht. cbn [bind]. rewrite int_range by lia. cbn [bind]. rewrite (IsZero_false v Hv). cbn [negb validate bind].
  change (@n0 R _) with 0%R. rewrite (proj2 (small_false d) Hd). cbn [negb validate bind]. rewrite (find_span_eq p n U t k HU Hk). cbn [bind].
  destruct (basis0 t k Hk) as (b & -> & Eb). cbn [bind]. rewrite Eb. cbn [bind].
  assert (L : IsLessThan (B (k - p) t) 0%R = false). { destruct (IsLessThan _ _) eqn:E; [|reflexivity]. apply lt_strict in E. lra. }
  rewrite L. pose proof (arr_pt H (n + 1) HH) as AH. rewrite (arr_get _ _ _ m AH) by lia. cbn [bind].
  destruct (heavy_to H m ltac:(lia) (Hw m ltac:(lia))) as [-> Wm]. cbn [bind]. rewrite Length_eq. cbn [bind].
  assert (Nv : (0 < norm3 v)%R). { unfold norm3. apply sqrt_lt_R0. lra. }
  num. rewrite Rdiv_ok by (apply Rgt_not_eq, Rmult_lt_0_compat; assumption). cbn [bind].
  destruct (wp_elim (upd H m (mkW (xyz_add (proj (pt H m)) (xyz_scale (d / (norm3 v * B (k - p) t))%R v)) (ww (pt H m)))) (fun l => arr l (n + 1) (fun i => if i =? m then mkW (xyz_add (proj (pt H m)) (xyz_scale (d / (norm3 v * B (k - p) t))%R v)) (ww (pt H m)) else pt H i))
     ltac:(apply (arr_upd _ _ _ _ _ _ AH); [lia|auto])) as (H' & -> & A'). cbn [bind]. exists H'. split; [reflexivity|].
  split; [rewrite (arr_len _ _ _ A'); lia|]. intros i Hi. rewrite HH in Hi. rewrite (arr_pt_eq _ _ _ _ A' Hi).
  destruct (Z.eqb_spec i m) as [->|Hn].
  - rewrite add_eq, scale_eq. reflexivity.
  - rewrite plus_zero. symmetry. apply hom_proj, wnz. lia.
Qed.

(* the point at t moves along the direction; by the distance asked for when the share of the control point is the first basis function *)
Lemma Reposition_moves t k m v d : span_of p n U t k -> 0 <= m <= n -> (1 / 10 ^ 12 < dot3 v v)%R -> ~ small d -> (0 < B (k - p) t)%R ->
  exists H' u, ControlPointReposition c t m v d = Ok (Some (mkCurve p U H')) /\ direction_of v u /\
    proj (curve_point p n U H' t) = plus3 (proj (curve_point p n U H t)) (times3 (d * (share p n U H m t / B (k - p) t)) u).
Proof.
  intros Hk Hm Hv Hd HB. destruct (Reposition_ok t k m v d Hk Hm Hv Hd HB) as (H' & E & M).
  assert (Hz : v <> zero3) by (intros ->; unfold dot3, zero3 in Hv; cbn [gx gy gz] in Hv; lra).
  exists H', (times3 (/ norm3 v) v). split; [exact E|]. pose proof (norm_pos v Hz) as Nv. split.
  - destruct (div_dir v Hz) as (u & Eu & Du). replace (times3 (/ norm3 v) v) with u; [exact Du|]. unfold xyz_div in Eu. num. rewrite !Rdiv_ok in Eu by lra. cbn [bind] in Eu. injection Eu as <-. unfold times3. apply xyz_eq; cbn [gx gy gz]; field; lra.
  - destruct (moved_point p n U H H' _ t HH M wnz) as [_ E2]; [apply Rgt_not_eq, wpos, (span_of_dom _ _ _ _ _ HU Hk)|]. rewrite E2. f_equal.
    rewrite comb_single by lia. unfold times3. apply xyz_eq; cbn [gx gy gz]; field; split; lra.
Qed.

Lemma Reposition_zero t k m v d : span_of p n U t k -> 0 <= m <= n -> (1 / 10 ^ 12 < dot3 v v)%R -> ~ small d -> B (k - p) t = 0%R ->
  ControlPointReposition c t m v d = NonFin.
Proof.
  intros Hk Hm Hv Hd HB. pose proof (span_of_dom _ _ _ _ _ HU Hk) as Ht. unfold ControlPointReposition, c. cbn [Degree KnotVector ControlPoints].
  rewrite dom_ok by exact Ht. cbn [bind]. rewrite int_range by lia. cbn [bind]. rewrite (IsZero_false v Hv). cbn [negb validate bind].
  change (@n0 R _) with 0%R. rewrite (proj2 (small_false d) Hd). cbn [negb validate bind]. rewrite (find_span_eq p n U t k HU Hk). cbn [bind].
  destruct (basis0 t k Hk) as (b & -> & Eb). cbn [bind]. rewrite Eb, HB. cbn [bind].
  assert (L : IsLessThan 0%R 0%R = false). { destruct (IsLessThan _ _) eqn:E; [|reflexivity]. apply lt_strict in E. lra. }
  rewrite L. pose proof (arr_pt H (n + 1) HH) as AH. rewrite (arr_get _ _ _ m AH) by lia. cbn [bind].
  destruct (heavy_to H m ltac:(lia) (Hw m ltac:(lia))) as [-> Wm]. cbn [bind]. rewrite Length_eq. cbn [bind].
  num. unfold Rdiv_. destruct (Req_EM_T _ _) as [|X]; [reflexivity|exfalso; apply X; ring].
Qed.

Lemma point_at t : in_domain p n U t -> NurbsPoint c t = Ok (proj (curve_point p n U H t)).
Proof.
  intros Ht. unfold c. rewrite (NurbsPoint_ok p n U H t) by auto. apply ToXYZ_div, heavy_aeq, heavy_iff.
  change (1 / 999999 < co 3 (comb 0 (n + 1) (fun i => B i t) (pt H)))%R. rewrite co_comb. apply rsum_gt.
  - apply N_sum; auto.
  - intros i Hi. apply N_nonneg; auto. lia.
  - intros i Hi _. apply heavy_iff. apply Hw. lia.
Qed.

Lemma Weight_ok t k m d : span_of p n U t k -> 0 <= m <= n -> ~ small d -> (0 < B (k - p) t)%R -> dist3 (proj (curve_point p n U H t)) (proj (pt H m)) <> d ->
  exists H' : list (XYZW R), WeightModification c t m d = Ok (mkCurve p U H') /\ reweighted H H' (fun i => if i =? m then 1 + d / (B (k - p) t * (dist3 (proj (curve_point p n U H t)) (proj (pt H m)) - d)) else 1)%R.
Proof.
  intros Hk Hm Hd HB Hdd. pose proof (span_of_dom _ _ _ _ _ HU Hk) as Ht. unfold WeightModification. rewrite (point_at t Ht). unfold c. cbn [Degree KnotVector ControlPoints].
  rewrite dom_ok by exact Ht. cbn [bind]. rewrite int_range by lia. cbn [bind].
  change (@n0 R _) with 0%R. rewrite (proj2 (small_false d) Hd). cbn [negb validate bind].
  pose proof (arr_pt H (n + 1) HH) as AH. rewrite (arr_get _ _ _ m AH) by lia. cbn [bind].
  destruct (heavy_to H m ltac:(lia) (Hw m ltac:(lia))) as [-> Wm]. cbn [bind]. rewrite Distance_eq. cbn [bind].
  rewrite (find_span_eq p n U t k HU Hk). cbn [bind]. destruct (basis0 t k Hk) as (b & -> & Eb). cbn [bind]. rewrite Eb. cbn [bind].
  num. rewrite Rdiv_ok by (apply Rmult_integral_contrapositive; split; lra). cbn [bind].
  set (co_ := (1 + d / _)%R).
  destruct (wp_elim (upd H m (mkW (proj (pt H m)) (ww (pt H m) * co_)%R)) (fun l => arr l (n + 1) (fun i => if i =? m then mkW (proj (pt H m)) (ww (pt H m) * co_)%R else pt H i))
     ltac:(apply (arr_upd _ _ _ _ _ _ AH); [lia|auto])) as (H' & -> & A'). cbn [bind]. exists H'. split; [reflexivity|].
  split; [rewrite (arr_len _ _ _ A'); lia|]. intros i Hi. rewrite HH in Hi. rewrite (arr_pt_eq _ _ _ _ A' Hi).
  destruct (Z.eqb_spec i m) as [->|Hn]; [reflexivity|]. rewrite Rmult_1_r. symmetry. apply hom_proj, wnz. lia.
Qed.

Lemma reweighted_point H' m f t : 0 <= m <= n -> reweighted H H' (fun i => if i =? m then f else 1%R) -> in_domain p n U t -> (1 + share p n U H m t * (f - 1) <> 0)%R ->
  ww (curve_point p n U H' t) <> 0%R /\ let s := share p n U H m t in let P := proj (curve_point p n U H t) in
  proj (curve_point p n U H' t) = plus3 P (times3 (s * (f - 1) / (1 + s * (f - 1))) (minus3 (proj (pt H m)) P)).
Proof.
  intros Hm (HL & HM) Ht Hf. pose proof (wpos t Ht) as HW. set (W := ww (curve_point p n U H t)) in *. set (s := share p n U H m t) in *.
  assert (K : forall c0, co c0 (curve_point p n U H' t) = (co c0 (curve_point p n U H t) + B m t * (f - 1) * co c0 (pt H m))%R).
  { intros c0. change (co c0 (comb 0 (n + 1) (fun i => B i t) (pt H')) = (co c0 (comb 0 (n + 1) (fun i => B i t) (pt H)) + B m t * (f - 1) * co c0 (pt H m))%R). rewrite !co_comb.
    replace (B m t * (f - 1) * co c0 (pt H m))%R with (rsum 0 (n + 1) (fun i => if i =? m then B m t * (f - 1) * co c0 (pt H m) else 0)%R).
    2:{ rewrite (rsum_single _ _ m); [rewrite Z.eqb_refl; reflexivity|lia|]. intros i Hi Hn. destruct (Z.eqb_spec i m); [contradiction|reflexivity]. }
    rewrite <- rsum_plus. apply rsum_ext. intros i Hi. rewrite HM by lia. pose proof (hom_proj (pt H i) (wnz i ltac:(lia))) as E.
    destruct (Z.eqb_spec i m) as [->|Hn].
    - assert (E' : hom (proj (pt H m)) (ww (pt H m) * f) = vscale f (pt H m)) by (pose proof (wnz m Hm) as Z0; destruct (pt H m) as [h1 h2 h3 h4]; cbn [ww] in Z0; unfold hom, proj, vscale, Vec_XYZW, xyzw_scale; cbn [gx gy gz wx wy wz ww]; num; f_equal; field; exact Z0). rewrite E', co_scale. ring.
    - rewrite Rmult_1_r, E. ring. }
  assert (Es : (B m t * ww (pt H m) = s * W)%R) by (unfold s, share; fold W; field; lra).
  assert (EW : ww (curve_point p n U H' t) = (W * (1 + s * (f - 1)))%R).
  { change (co 3 (curve_point p n U H' t) = (W * (1 + s * (f - 1)))%R). rewrite K. change (co 3 (curve_point p n U H t)) with W. change (co 3 (pt H m)) with (ww (pt H m)). transitivity (W + (f - 1) * (B m t * ww (pt H m)))%R; [ring|]. rewrite Es. ring. }
  assert (NW : ww (curve_point p n U H' t) <> 0%R) by (rewrite EW; apply Rmult_integral_contrapositive; split; lra).
  split; [exact NW|]. cbv zeta.
  assert (G : forall (g : XYZW R -> R) (h : XYZ R -> R) c0, (forall a, g a = co c0 a) -> (forall a w, g (hom a w) = h a * w)%R ->
    (g (curve_point p n U H' t) / ww (curve_point p n U H' t) = g (curve_point p n U H t) / W + s * (f - 1) / (1 + s * (f - 1)) * (h (proj (pt H m)) - g (curve_point p n U H t) / W))%R).
  { intros g h c0 Hg Hh. rewrite !Hg, K, <- !Hg, EW. rewrite <- (hom_proj (pt H m)) at 1 by (apply wnz; lia). rewrite Hh.
    replace (B m t * (f - 1) * (h (proj (pt H m)) * ww (pt H m)))%R with ((f - 1) * h (proj (pt H m)) * (B m t * ww (pt H m)))%R by ring. rewrite Es. field. split; lra. }
  apply P_XYZ.xyz_eq; unfold plus3, times3, minus3; cbn [gx gy gz].
  - exact (G (@wx R) (@gx R) 0%nat (fun _ => eq_refl) (fun _ _ => eq_refl)).
  - exact (G (@wy R) (@gy R) 1%nat (fun _ => eq_refl) (fun _ _ => eq_refl)).
  - exact (G (@wz R) (@gz R) 2%nat (fun _ => eq_refl) (fun _ _ => eq_refl)).
Qed.

(* the point at t moves towards the control point, by the distance asked for *)
Lemma Weight_moves t k m d : span_of p n U t k -> 0 <= m <= n -> ~ small d -> (0 < B (k - p) t)%R -> share p n U H m t = B (k - p) t ->
  let P := proj (curve_point p n U H t) in let Q := proj (pt H m) in P <> Q -> dist3 P Q <> d ->
  exists H' : list (XYZW R), WeightModification c t m d = Ok (mkCurve p U H') /\ ww (curve_point p n U H' t) <> 0%R /\ proj (curve_point p n U H' t) = plus3 P (times3 (d / dist3 P Q) (minus3 Q P)).
Proof.
  intros Hk Hm Hd HB Hs P Q HPQ Hdd. destruct (Weight_ok t k m d Hk Hm Hd HB Hdd) as (H' & E & M). exists H'. split; [exact E|].
  assert (HD : (0 < dist3 P Q)%R). { unfold dist3. apply norm_pos. intros X. apply HPQ. destruct P as [p1 p2 p3], Q as [q1 q2 q3]. unfold minus3, zero3 in X. cbn [gx gy gz] in X. injection X as X1 X2 X3. f_equal; lra. }
  fold P Q in M. set (f := (1 + d / _)%R) in M.
  assert (EF : (share p n U H m t * (f - 1) = d / (dist3 P Q - d))%R) by (rewrite Hs; unfold f; field; split; lra).
  assert (NZ : (1 + share p n U H m t * (f - 1) <> 0)%R). { rewrite EF. intros X. assert ((dist3 P Q - d) * (1 + d / (dist3 P Q - d)) = dist3 P Q)%R by (field; lra). rewrite X in *. lra. }
  destruct (reweighted_point H' m f t Hm M (span_of_dom _ _ _ _ _ HU Hk) NZ) as (NW & E2). split; [exact NW|]. rewrite E2, EF. fold P Q. f_equal. f_equal. field. split; lra.
Qed.

Lemma Weight_zero t k m d : span_of p n U t k -> 0 <= m <= n -> ~ small d -> B (k - p) t = 0%R \/ dist3 (proj (curve_point p n U H t)) (proj (pt H m)) = d ->
  WeightModification c t m d = NonFin.
Proof.
  intros Hk Hm Hd HB. pose proof (span_of_dom _ _ _ _ _ HU Hk) as Ht. unfold WeightModification. rewrite (point_at t Ht). unfold c. cbn [Degree KnotVector ControlPoints].
  rewrite dom_ok by exact Ht. cbn [bind]. rewrite int_range by lia. cbn [bind].
  change (@n0 R _) with 0%R. rewrite (proj2 (small_false d) Hd). cbn [negb validate bind].
  pose proof (arr_pt H (n + 1) HH) as AH. rewrite (arr_get _ _ _ m AH) by lia. cbn [bind].
  destruct (heavy_to H m ltac:(lia) (Hw m ltac:(lia))) as [-> Wm]. cbn [bind]. rewrite Distance_eq. cbn [bind].
  rewrite (find_span_eq p n U t k HU Hk). cbn [bind]. destruct (basis0 t k Hk) as (b & -> & Eb). cbn [bind]. rewrite Eb. cbn [bind].
  num. unfold Rdiv_. destruct (Req_EM_T _ _) as [|X]; [reflexivity|exfalso; apply X]. destruct HB as [-> | ->]; ring.
Qed.

(* ---- warping ---- *)
Lemma sign_ok d : ~ small d -> IsGreaterThan d 0%R = true <-> (0 < d)%R.
Proof.
  intros Hd. rewrite gt_iff, <- tol_thr, Rminus_0_r. split; intros X; [pose proof (tol_pos d 0); lra|]. apply heavy_iff. unfold small in Hd. rewrite Rabs_right in Hd by lra. lra.
Qed.

Lemma last_range t0 t1 : in_domain p n U t1 -> (t0 <= t1)%R -> get U (len U - 1) = Ok (val U (len U - 1)) /\ validate_range t1 t0 (val U (len U - 1)) = Ok tt.
Proof.
  intros [_ T1] H01. pose proof (ck_sorted _ _ _ HU (n + 1) (len U - 1)) as S. rewrite (ck_len _ _ _ HU) in *. pose proof (ck_p _ _ _ HU). pose proof (ck_n _ _ _ HU). specialize (S ltac:(lia) ltac:(lia) ltac:(lia)).
  split; [apply get_val; rewrite (ck_len _ _ _ HU); lia|]. unfold validate_range. num. destruct (Rltb_spec t1 t0); [lra|]. destruct (Rltb_spec (val U (n + p + 2 - 1)) t1); [lra|]. reflexivity.
Qed.

Lemma comb_dir m w (x : Z -> R) (u : XYZ R) : comb 0 m w (fun i => times3 (x i) u) = times3 (rsum 0 m (fun i => w i * x i)%R) u.
Proof.
  assert (K : forall g : R, rsum 0 m (fun i => w i * (x i * g))%R = (rsum 0 m (fun i => w i * x i) * g)%R).
  { intros g. rewrite <- rsum_scal_r. apply rsum_ext. intros i Hi. ring. }
  apply P_XYZ.xyz_eq; [rewrite comb_co0|rewrite comb_co1|rewrite comb_co2]; apply K.
Qed.

Lemma Warping_ok s d v t0 t1 : len s = n + 1 -> ~ small d -> (1 / 10 ^ 12 < dot3 v v)%R -> in_domain p n U t0 -> in_domain p n U t1 -> (t0 + tol t0 t1 < t1)%R ->
  exists g, curve_derivs p n U H 1 ((t0 + t1) / 2) g /\ (cross3 (g 1) v <> zero3 ->
    exists H' u, Warping c s d v t0 t1 = Ok (mkCurve p U H') /\ direction_of (times3 d (cross3 (g 1) v)) u /\ moved H H' (fun i => times3 (val s i * Rabs d) u)).
Proof.
  intros Hs Hd Hv Ht0 Ht1 Htt. pose proof (tol_pos t0 t1) as Tp.
  assert (Hm : in_domain p n U ((t0 + t1) / 2)) by (destruct Ht0, Ht1; split; lra).
  destruct (derivs_at p n U H _ HU Hp HH Hm ltac:(apply Rgt_not_eq, wpos, Hm) 1 ltac:(lia)) as (g & D & HD & E & G). exists g. split; [exact HD|]. intros Hx.
  assert (Hgt : IsGreaterThan t1 t0 = true) by (apply gt_iff; rewrite <- tol_thr; replace (tol t1 t0) with (tol t0 t1) by (unfold tol; rewrite Rmax_comm; reflexivity); lra).
  destruct (last_range t0 t1 Ht1 ltac:(lra)) as [Hl Hr].
  unfold Warping, c. cbn [Degree KnotVector ControlPoints]. rewrite HH, Hs, Z.eqb_refl. cbn [validate bind]. change (@n0 R _) with 0%R. rewrite (proj2 (small_false d) Hd). cbn [negb validate bind].
  rewrite (IsZero_false v Hv). cbn [negb validate bind]. rewrite dom_ok by exact Ht0. cbn [bind]. rewrite Hl. cbn [bind]. rewrite Hr. cbn [bind]. rewrite Hgt. cbn [validate bind].
  replace (nmul (nlit 1 2) (nadd t0 t1)) with ((t0 + t1) / 2)%R by (num; field). rewrite E. cbn [bind]. rewrite G by lia. cbn [bind]. rewrite P_Geom.cross_eq.
  set (x := cross3 (g 1) v) in *. set (W := if IsGreaterThan d 0%R then x else xyz_neg x).
  assert (EW : exists e, (0 < e)%R /\ times3 d x = times3 e W).
  { unfold W. destruct (IsGreaterThan d 0%R) eqn:X.
    - apply sign_ok in X; [|exact Hd]. exists d. auto.
    - assert (~ (0 < d)%R) by (intros X'; apply (sign_ok d Hd) in X'; congruence). assert (d <> 0%R) by (intros ->; apply Hd; exact small_0). exists (- d)%R. split; [lra|]. unfold times3, xyz_neg. num. apply xyz_eq; cbn [gx gy gz]; ring. }
  destruct EW as (e & He & EW). assert (HW : W <> zero3).
  { unfold W. destruct (IsGreaterThan d 0%R); [exact Hx|]. intros X. apply Hx. destruct x as [x1 x2 x3]. unfold xyz_neg, zero3 in X. num. cbn [gx gy gz] in X. injection X as X1 X2 X3. unfold zero3. f_equal; lra. }
  destruct (div_dir W HW) as (u & _ & Du). pose proof (Normalize_direction _ _ Du) as NU.
  destruct (wp_elim (for_up 0 (n + 1) [] (fun i r => let! p0 := get H i in let! currentPoint := ToXYZ p0 true in let! s0 := get s i in let! nW := Normalize W in
     Ok (r ++ [mkW (xyz_add currentPoint (xyz_scale (nmul s0 (nabs d)) nW)) (ww p0)]))) (fun l => arr l (n + 1) (fun i => mkW (plus3 (proj (pt H i)) (times3 (val s i * Rabs d) u)) (ww (pt H i))))) as (H' & EH & AH').
  { pose proof (ck_n _ _ _ HU). pose proof (ck_p _ _ _ HU). apply wp_push with (f := fun i => mkW (plus3 (proj (pt H i)) (times3 (val s i * Rabs d) u)) (ww (pt H i))); [lia| |].
    - intros i l Hi Hl'. rewrite (arr_get _ _ _ i (arr_pt H (n + 1) HH)) by lia. cbn [bind]. destruct (heavy_to H i ltac:(lia) (Hw i ltac:(lia))) as [-> _]. cbn [bind].
      rewrite (get_val s i) by lia. cbn [bind]. rewrite NU. cbn [bind]. rewrite add_eq, scale_eq. reflexivity.
    - intros l Hl'. rewrite Z.sub_0_r in Hl'. eapply arr_ext; [exact Hl'|]. intros i Hi. cbv beta. rewrite Z.add_0_r. reflexivity. }
  rewrite EH. cbn [bind]. exists H', u. split; [reflexivity|]. split.
  - destruct Du as (U1 & r & Hr' & Er). split; [exact U1|]. exists (e * r)%R. split; [apply Rmult_lt_0_compat; assumption|]. rewrite EW, Er. unfold times3. apply xyz_eq; cbn [gx gy gz]; ring.
  - split; [rewrite (arr_len _ _ _ AH'); lia|]. intros i Hi. rewrite HH in Hi. rewrite (arr_pt_eq _ _ _ _ AH' Hi). reflexivity.
Qed.

Lemma Warping_points s d v t0 t1 : len s = n + 1 -> ~ small d -> (1 / 10 ^ 12 < dot3 v v)%R -> in_domain p n U t0 -> in_domain p n U t1 -> (t0 + tol t0 t1 < t1)%R ->
  exists g, curve_derivs p n U H 1 ((t0 + t1) / 2) g /\ (cross3 (g 1) v <> zero3 ->
    exists H' u, Warping c s d v t0 t1 = Ok (mkCurve p U H') /\ direction_of (times3 d (cross3 (g 1) v)) u /\ moved H H' (fun i => times3 (val s i * Rabs d) u) /\
      forall t, in_domain p n U t -> proj (curve_point p n U H' t) = plus3 (proj (curve_point p n U H t)) (times3 (rsum 0 (n + 1) (fun i => share p n U H i t * (val s i * Rabs d))%R) u)).
Proof.
  intros Hs Hd Hv Ht0 Ht1 Htt. destruct (Warping_ok s d v t0 t1 Hs Hd Hv Ht0 Ht1 Htt) as (g & G1 & G2). exists g. split; [exact G1|]. intros Hx. destruct (G2 Hx) as (H' & u & E & Du & M).
  exists H', u. split; [exact E|]. split; [exact Du|]. split; [exact M|]. intros t Ht. destruct (moved_point p n U H H' _ t HH M wnz) as [_ ->]; [apply Rgt_not_eq, wpos, Ht|]. rewrite comb_dir. reflexivity.
Qed.

(* ---- flattening and bending: the control points with index from k0 to k1 - p - 1 ---- *)
Lemma Flattening_ok a b t0 t1 k0 k1 : ~ Spec3.near a b -> ~ small (dot3 (minus3 b a) (minus3 b a)) -> span_of p n U t0 k0 -> span_of p n U t1 k1 -> (t0 + tol t0 t1 < t1)%R ->
  exists H' r, Flattening c a b t0 t1 = Ok (mkCurve p U H', r) /\ len H' = n + 1 /\
    (forall i, 0 <= i <= n -> k0 <= i < k1 - p -> exists s, let q := line_at a (minus3 b a) s in dot3 (minus3 (proj (pt H i)) q) (minus3 b a) = 0%R /\
       ((- tol s 0 <= s <= 1 + tol s 1)%R /\ pt H' i = hom q (ww (pt H i)) \/ (s < - tol s 0 \/ 1 + tol s 1 < s)%R /\ pt H' i = pt H i)) /\
    (forall i, 0 <= i <= n -> ~ k0 <= i < k1 - p -> pt H' i = pt H i) /\
    (r = true -> p + 1 <= k1 - p - k0) /\
    ((forall i s, k0 <= i < k1 - p -> dot3 (minus3 (proj (pt H i)) (line_at a (minus3 b a) s)) (minus3 b a) = 0%R -> (- tol s 0 <= s <= 1 + tol s 1)%R) -> p + 1 <= k1 - p - k0 -> r = true).
Proof.
  intros Hab Hs Hk0 Hk1 Htt. pose proof (tol_pos t0 t1) as Tp. pose proof (span_of_dom _ _ _ _ _ HU Hk0) as Ht0. pose proof (span_of_dom _ _ _ _ _ HU Hk1) as Ht1.
  assert (Hgt : IsGreaterThan t1 t0 = true) by (apply gt_iff; rewrite <- tol_thr; replace (tol t1 t0) with (tol t0 t1) by (unfold tol; rewrite Rmax_comm; reflexivity); lra).
  destruct (last_range t0 t1 Ht1 ltac:(lra)) as [Hl Hr].
  unfold Flattening, c. cbn [Degree KnotVector ControlPoints]. assert (X : xyz_IsAlmostEqualTo a b = false) by (destruct (xyz_IsAlmostEqualTo a b) eqn:X; [apply near_iff in X; contradiction|reflexivity]). rewrite X. cbn [negb validate bind].
  rewrite dom_ok by exact Ht0. cbn [bind]. rewrite Hl. cbn [bind]. rewrite Hr. cbn [bind]. rewrite Hgt. cbn [validate bind].
  rewrite (find_span_eq p n U t0 k0 HU Hk0), (find_span_eq p n U t1 k1 HU Hk1). cbn [bind].
  set (S1 := fun h (st : list (XYZW R) * Z) => 0 <= snd st <= Z.max 0 (h - k0) /\ len (fst st) = n + 1 /\
     (forall i, 0 <= i <= n -> k0 <= i < h -> exists s, let q := line_at a (minus3 b a) s in dot3 (minus3 (proj (pt H i)) q) (minus3 b a) = 0%R /\
       ((- tol s 0 <= s <= 1 + tol s 1)%R /\ pt (fst st) i = hom q (ww (pt H i)) \/ (s < - tol s 0 \/ 1 + tol s 1 < s)%R /\ pt (fst st) i = pt H i)) /\
     (forall i, 0 <= i <= n -> ~ k0 <= i < h -> pt (fst st) i = pt H i) /\
     ((forall i s, k0 <= i < h -> dot3 (minus3 (proj (pt H i)) (line_at a (minus3 b a) s)) (minus3 b a) = 0%R -> (- tol s 0 <= s <= 1 + tol s 1)%R) -> snd st = Z.max 0 (h - k0))).
  match goal with |- exists _ _, bind ?m _ = _ /\ _ => destruct (wp_elim m (S1 (k1 - p))) as ([H' cnt] & -> & SS) end.
  2:{ cbn [bind]. exists H', (p + 1 <=? cnt). split; [reflexivity|]. destruct SS as (C1 & C2 & C3 & C4 & C5). cbn [fst snd] in *. split; [exact C2|]. split; [exact C3|]. split; [exact C4|]. split.
    - destruct (Z.leb_spec (p + 1) cnt); [|discriminate]. intros _. pose proof (ck_p _ _ _ HU). lia.
    - intros F1 F2. apply C5 in F1. apply Z.leb_le. lia. }
  pose proof (ck_p _ _ _ HU) as PP. destruct Hk0 as (Hk0 & _), Hk1 as (Hk1 & _). destruct (Z_lt_dec k0 (k1 - p)) as [Hlt|Hge].
  2:{ rewrite for_up_nil by lia. apply wp_ok. repeat split; cbn [fst snd]; try lia. }
  apply wp_for_up with (P := S1); [lia| | |auto].
  - repeat split; cbn [fst snd]; try lia.
  - intros i [l cnt] Hi (C1 & C2 & C3 & C4 & C5). cbn [fst snd] in *. pose proof (arr_pt H (n + 1) HH) as AH. rewrite (arr_get _ _ _ i AH) by lia. cbn [bind].
    destruct (heavy_to H i ltac:(lia) (Hw i ltac:(lia))) as [-> _]. cbn [bind]. destruct (PointToLine_ok a b (proj (pt H i)) Hs) as (s & F1 & _ & ->). cbn [bind].
    destruct (Rlt_dec s (- tol s 0)) as [Hlo|Hlo]; [|destruct (Rlt_dec (1 + tol s 1) s) as [Hhi|Hhi]].
    + apply wp_ok. unfold S1. cbn [fst snd]. split; [lia|]. split; [exact C2|]. split.
      * intros j Hj Hj'. destruct (Z.eq_dec j i) as [->|]; [|apply C3; lia]. exists s. cbv zeta. split; [exact F1|]. right. split; [left; exact Hlo|]. apply C4; lia.
      * split; [intros j Hj Hj'; apply C4; lia|]. intros F. specialize (F i s ltac:(lia) F1). lra.
    + apply wp_ok. unfold S1. cbn [fst snd]. split; [lia|]. split; [exact C2|]. split.
      * intros j Hj Hj'. destruct (Z.eq_dec j i) as [->|]; [|apply C3; lia]. exists s. cbv zeta. split; [exact F1|]. right. split; [right; exact Hhi|]. apply C4; lia.
      * split; [intros j Hj Hj'; apply C4; lia|]. intros F. specialize (F i s ltac:(lia) F1). lra.
    + apply wp_bind. apply (arr_upd _ _ _ _ _ _ (arr_pt l (n + 1) C2)); [lia|]. intros l' A'. apply wp_ok. unfold S1. cbn [fst snd]. split; [lia|]. split; [apply (arr_len _ _ _ A')|]. split.
      * intros j Hj Hj'. rewrite (arr_pt_eq _ _ _ j A') by lia. destruct (Z.eqb_spec j i) as [->|]; [|apply C3; lia]. exists s. cbv zeta. split; [exact F1|]. left. split; [lra|]. reflexivity.
      * split; [|intros F; rewrite C5 by (intros j s' Hj; apply F; lia); lia]. intros j Hj Hj'. rewrite (arr_pt_eq _ _ _ j A') by lia. destruct (Z.eqb_spec j i) as [->|]; [lia|]. apply C4; lia.
Qed.

Lemma Bending_ok o r cr t0 t1 k0 k1 : span_of p n U t0 k0 -> span_of p n U t1 k1 -> (t0 + tol t0 t1 < t1)%R -> (0 <= r)%R ->
  (forall i, k0 <= i < k1 - p -> let d := dist3 o (proj (pt H i)) in (0 < d)%R /\ (d + (cr - 1) * r <> 0)%R) ->
  exists H', Bending c t0 t1 o r cr = Ok (mkCurve p U H') /\ len H' = n + 1 /\
    (forall i, 0 <= i <= n -> k0 <= i < k1 - p -> let d := dist3 o (proj (pt H i)) in
       pt H' i = hom (line_at o (minus3 (proj (pt H i)) o) (cr * r / (d + (cr - 1) * r))) (ww (pt H i))) /\
    (forall i, 0 <= i <= n -> ~ k0 <= i < k1 - p -> pt H' i = pt H i).
Proof.
  intros Hk0 Hk1 Htt Hr Hd. pose proof (tol_pos t0 t1) as Tp. pose proof (span_of_dom _ _ _ _ _ HU Hk0) as Ht0. pose proof (span_of_dom _ _ _ _ _ HU Hk1) as Ht1.
  assert (Hgt : IsGreaterThan t1 t0 = true) by (apply gt_iff; rewrite <- tol_thr; replace (tol t1 t0) with (tol t0 t1) by (unfold tol; rewrite Rmax_comm; reflexivity); lra).
  unfold Bending, c. cbn [Degree KnotVector ControlPoints].
  rewrite !dom_ok by assumption. cbn [bind]. rewrite Hgt. cbn [validate bind].
  rewrite (find_span_eq p n U t0 k0 HU Hk0), (find_span_eq p n U t1 k1 HU Hk1). cbn [bind].
  set (S1 := fun h (l : list (XYZW R)) => len l = n + 1 /\
     (forall i, 0 <= i <= n -> k0 <= i < h -> let d := dist3 o (proj (pt H i)) in
       pt l i = hom (line_at o (minus3 (proj (pt H i)) o) (cr * r / (d + (cr - 1) * r))) (ww (pt H i))) /\
     (forall i, 0 <= i <= n -> ~ k0 <= i < h -> pt l i = pt H i)).
  match goal with |- exists _, bind ?m _ = _ /\ _ => destruct (wp_elim m (S1 (k1 - p))) as (H' & -> & SS) end.
  2:{ cbn [bind]. exists H'. split; [reflexivity|]. exact SS. }
  pose proof (ck_p _ _ _ HU) as PP. destruct Hk0 as (Hk0 & _), Hk1 as (Hk1 & _). destruct (Z_lt_dec k0 (k1 - p)) as [Hlt|Hge].
  2:{ rewrite for_up_nil by lia. apply wp_ok. split; [exact HH|]. split; [intros i Hi Hi'; lia|reflexivity]. }
  apply wp_for_up with (P := S1); [lia| | |auto].
  - split; [exact HH|]. split; [intros i Hi Hi'; lia|reflexivity].
  - intros i l Hi (C2 & C3 & C4). pose proof (arr_pt H (n + 1) HH) as AH. rewrite (arr_get _ _ _ i AH) by lia. cbn [bind].
    destruct (heavy_to H i ltac:(lia) (Hw i ltac:(lia))) as [-> _]. cbn [bind]. destruct (Hd i Hi) as [D1 D2]. set (P := proj (pt H i)) in *. set (d := dist3 o P) in *.
    rewrite sub_eq. assert (HN : norm3 (minus3 P o) = d). { unfold d. rewrite dist_sym. reflexivity. }
    assert (HZ : minus3 P o <> zero3) by (intros Z0; rewrite Z0, norm_0 in HN; lra). destruct (div_dir _ HZ) as (u & _ & Du). rewrite (Normalize_direction _ _ Du). cbn [bind]. rewrite add_eq, scale_eq, !Distance_eq. cbn [bind].
    assert (Er : dist3 o (plus3 o (times3 r u)) = r).
    { unfold dist3, norm3. destruct Du as (U1 & _). replace (dot3 _ _) with (r * r * dot3 u u)%R by (unfold dot3, minus3, plus3, times3; cbn [gx gy gz]; ring). rewrite U1, Rmult_1_r. apply sqrt_square. exact Hr. }
    rewrite Er. fold d. num. rewrite Rdiv_ok by lra. cbn [bind].
    assert (D3 : (1 + (cr - 1) * (r / d) <> 0)%R). { intros X. apply D2. replace (d + (cr - 1) * r)%R with (d * (1 + (cr - 1) * (r / d)))%R by (field; lra). rewrite X. ring. }
    rewrite Rdiv_ok by exact D3. cbn [bind].
    apply (arr_upd _ _ _ _ _ _ (arr_pt l (n + 1) C2)); [lia|]. intros l' A'. split; [apply (arr_len _ _ _ A')|]. split.
    + intros j Hj Hj'. cbv zeta. rewrite (arr_pt_eq _ _ _ j A') by lia. destruct (Z.eqb_spec j i) as [->|]; [|apply C3; lia]. fold P. fold d. rewrite scale_eq, add_eq. unfold line_at.
      replace (cr * (r / d) / (1 + (cr - 1) * (r / d)))%R with (cr * r / (d + (cr - 1) * r))%R by (field; repeat split; try lra; try exact D2; intros X0; apply D2; lra). reflexivity.
    + intros j Hj Hj'. rewrite (arr_pt_eq _ _ _ j A') by lia. destruct (Z.eqb_spec j i) as [->|]; [lia|]. apply C4; lia.
Qed.

(* where the control points of a span are on a line, so is the curve *)
Lemma straight H' a v s t k : span_of p n U t k -> (forall i, k - p <= i <= k -> pt H' i = hom (line_at a v (s i)) (ww (pt H i))) -> len H' = n + 1 ->
  exists s', proj (curve_point p n U H' t) = line_at a v s'.
Proof.
  intros Hk HL Hl'. pose proof HU as [Hp0 Hn Hl Hs _ _]. pose proof (span_of_dom _ _ _ _ _ HU Hk) as Ht. pose proof Hk as (Hk1 & _).
  assert (W0 : ww (curve_point p n U H' t) = ww (curve_point p n U H t)).
  { rewrite !(curve_point_span p n U _ t k) by auto. unfold span_curve. change (co 3 (comb (k - p) (k + 1) (fun i => Nspan (val U) k (Z.to_nat p) i t) (pt H')) = co 3 (comb (k - p) (k + 1) (fun i => Nspan (val U) k (Z.to_nat p) i t) (pt H))).
    rewrite !co_comb. apply rsum_ext. intros i Hi. rewrite HL by lia. reflexivity. }
  pose proof (wpos t Ht) as HW. exists (rsum (k - p) (k + 1) (fun i => Nspan (val U) k (Z.to_nat p) i t * ww (pt H i) * s i)%R / ww (curve_point p n U H t))%R.
  assert (K : forall (g : XYZW R -> R) (h : XYZ R -> R) c0, (forall x, g x = co c0 x) -> (forall x w, g (hom x w) = h x * w)%R -> (forall s, h (line_at a v s) = h a + s * h v)%R ->
    (g (curve_point p n U H' t) / ww (curve_point p n U H t) = h a + rsum (k - p) (k + 1) (fun i => Nspan (val U) k (Z.to_nat p) i t * ww (pt H i) * s i) / ww (curve_point p n U H t) * h v)%R).
  { intros g h c0 Hg Hh Hl0. apply (Rmult_eq_reg_r (ww (curve_point p n U H t))); [|lra].
    transitivity (g (curve_point p n U H' t)); [field; lra|]. rewrite Hg, (curve_point_span p n U H' t k) by auto.
    change (span_curve k p U H' t) with (comb (k - p) (k + 1) (fun i => Nspan (val U) k (Z.to_nat p) i t) (pt H')). rewrite co_comb.
    transitivity (h a * ww (curve_point p n U H t) + h v * rsum (k - p) (k + 1) (fun i => Nspan (val U) k (Z.to_nat p) i t * ww (pt H i) * s i))%R; [|field; lra].
    rewrite (curve_point_span p n U H t k) by auto. change (ww (span_curve k p U H t)) with (co 3 (comb (k - p) (k + 1) (fun i => Nspan (val U) k (Z.to_nat p) i t) (pt H))). rewrite co_comb, <- !rsum_scal, <- rsum_plus.
    apply rsum_ext. intros i Hi. rewrite HL by lia. rewrite <- Hg, Hh, Hl0. change (co 3 (pt H i)) with (ww (pt H i)). ring. }
  unfold proj. rewrite W0. apply P_XYZ.xyz_eq; cbn [gx gy gz].
  - exact (K (@wx R) (@gx R) 0%nat (fun _ => eq_refl) (fun _ _ => eq_refl) (fun _ => eq_refl)).
  - exact (K (@wy R) (@gy R) 1%nat (fun _ => eq_refl) (fun _ _ => eq_refl) (fun _ => eq_refl)).
  - exact (K (@wz R) (@gz R) 2%nat (fun _ => eq_refl) (fun _ _ => eq_refl) (fun _ => eq_refl)).
Qed.
End Edit.
