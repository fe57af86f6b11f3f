(* The parameters of a point on a surface, and translational sweeps. *)
From Coq Require Import ZArith List Bool Reals Lra Lia.
From Verif Require Import Base Num Vec Tac Spec Spec2 Spec3 Spec4 Spec5 Spec8 Spec10 Spec12 M_MathUtils M_XYZ M_Bspline M_NurbsCurve M_Knots M_Shape M_Surface M_Octree M_Volume M_Surface2
  P_MathUtils P_Span P_Cox P_Basis P_Vec P_XYZ P_VSum P_Curve P_Bspline P_BsplineS P_Loop P_Nurbs P_Insert P_Insert2 P_Refine P_Merge P_KnotMap2 P_Ruled P_Surface P_Shape P_Shape2 P_Shape3 P_Geom P_OctTop P_RSurf P_RSurf2 P_Surf3 P_Surf4 P_Surf5.
Import ListNotations Spec12.
Open Scope Z_scope.

Lemma norm_plus a b : (norm3 (plus3 a b) <= norm3 a + norm3 b)%R.
Proof. exact (norm_triangle a b). Qed.
Lemma norm_times k a : (0 <= k)%R -> norm3 (times3 k a) = (k * norm3 a)%R.
Proof.
  intros Hk. unfold norm3. replace (dot3 (times3 k a) (times3 k a)) with (k * k * dot3 a a)%R by (unfold dot3, times3; cbn [gx gy gz]; ring).
  rewrite sqrt_mult by (try apply dot_pos; nra). rewrite sqrt_square by exact Hk. reflexivity.
Qed.
Lemma norm_opp a : norm3 (times3 (-1) a) = norm3 a.
Proof. unfold norm3. f_equal. unfold dot3, times3. cbn [gx gy gz]. ring. Qed.
Lemma norm_pos a : (0 <= norm3 a)%R.
Proof. apply sqrt_pos. Qed.

(* a point of a segment in a ball is in the ball *)
Lemma segment_ball B a b t : (0 <= t <= 1)%R -> (norm3 a <= B)%R -> (norm3 b <= B)%R -> (norm3 (plus3 a (times3 t (minus3 b a))) <= B)%R.
Proof.
  intros Ht Ha Hb. replace (plus3 a (times3 t (minus3 b a))) with (plus3 (times3 (1 - t) a) (times3 t b)).
  2:{ unfold plus3, times3, minus3. cbn [gx gy gz]. f_equal; ring. }
  pose proof (norm_plus (times3 (1 - t) a) (times3 t b)) as H. rewrite !norm_times in H by lra. pose proof (norm_pos a). pose proof (norm_pos b). nra.
Qed.

Lemma ball_far B a b : (0 <= B <= 2 ^ 400)%R -> (norm3 a <= B)%R -> (norm3 b <= B)%R -> (dot3 (minus3 a b) (minus3 a b) < dbl_max (A := R))%R.
Proof.
  intros HB Ha Hb. pose proof (norm_plus a (times3 (-1) b)) as H. rewrite norm_opp in H. replace (plus3 a (times3 (-1) b)) with (minus3 a b) in H by (unfold plus3, times3, minus3; cbn [gx gy gz]; f_equal; ring).
  pose proof (norm_pos (minus3 a b)) as Hn. unfold norm3 in H at 1. unfold norm3 in Hn. pose proof (sqrt_sqrt _ (dot_pos (minus3 a b))) as Hs. set (d := dot3 (minus3 a b) (minus3 a b)) in *. set (r := sqrt d) in *. clearbody r d.
  pose proof dbl_max_big as HM. assert (E : (2 ^ 1000 = 2 ^ 400 * 2 ^ 400 * 2 ^ 200)%R) by (rewrite <- !pow_add; reflexivity). rewrite E in HM.
  assert (K : (1 < 2 ^ 200)%R) by (apply Rlt_pow_R1; [lra|lia]). assert (K4 : (1 < 2 ^ 400)%R) by (apply Rlt_pow_R1; [lra|lia]).
  set (x := (2 ^ 400)%R) in *. set (y := (2 ^ 200)%R) in *. set (M := dbl_max (A := R)) in *. clearbody x y M. assert (r <= 2 * x)%R by lra. assert (r * r <= 4 * (x * x))%R by nra. assert (x * x < x * x * y)%R by nra. lra.
Qed.

Lemma clamp01 t : (0 <= std_max (n0 (A := R)) (std_min n1 t) <= 1)%R.
Proof.
  destruct (smin_le 1%R t) as (A1 & A2 & _). destruct (smax_ge 0%R (std_min 1%R t)) as (B1 & B2 & B3). num. split; [exact B1|]. apply B3; [lra|exact A1].
Qed.

Lemma between_in p n U a b t : in_domain p n U a -> in_domain p n U b -> (0 <= t <= 1)%R -> in_domain p n U (a + (b - a) * t)%R.
Proof. unfold in_domain. intros. nra. Qed.

(* the parameters found among the samples lie in the domain *)
Lemma nearest_segment_ok n m (S : Surface R W4) points params P B : (0 <= B <= 2 ^ 400)%R -> (norm3 P <= B)%R ->
  len points = len params -> 2 <= len params ->
  (forall k u v, get params k = Ok (u, v) -> u_domain n S u /\ v_domain m S v /\ get points k = Ok (surface_at n m S u v)) ->
  (forall u v, u_domain n S u -> v_domain m S v -> (norm3 (surface_at n m S u v) <= B)%R) ->
  returns (nearest_segment points params P) (fun '(u, v) => u_domain n S u /\ v_domain m S v).
Proof.
  intros HB HP LL L2 HG Hball. apply wp_elim. unfold nearest_segment. apply wp_bind.
  apply wp_for_up with (P := fun k (s : R * (R * R)) => (k = 0 /\ fst s = dbl_max) \/ (u_domain n S (fst (snd s)) /\ v_domain m S (snd (snd s)))); [lia| | |].
  - left. split; reflexivity.
  - intros k [d [bu bv]] Hk IH. cbn [fst snd] in IH.
    assert (GP : forall i, 0 <= i < len params -> exists u v, get params i = Ok (u, v) /\ u_domain n S u /\ v_domain m S v /\ get points i = Ok (surface_at n m S u v)).
    { intros i Hi. assert (Hg : exists x, get params i = Ok x) by (exists (at_ (0%R, 0%R) params i); apply get_at; lia). destruct Hg as ([u v] & Hg). exists u, v. split; [exact Hg|]. apply HG, Hg. }
    destruct (GP k ltac:(lia)) as (u0 & v0 & E0 & DU0 & DV0 & F0). destruct (GP (k + 1) ltac:(lia)) as (u1 & v1 & E1 & DU1 & DV1 & F1).
    rewrite F0, F1, E0, E1. cbn [bind fst snd]. set (P0 := surface_at n m S u0 v0) in *. set (P1 := surface_at n m S u1 v1) in *.
    assert (Ht : wp (if IsGreaterThan (DotProduct (xyz_sub P1 P0) (xyz_sub P1 P0)) n0 then let! t := ndiv (DotProduct (xyz_sub P P0) (xyz_sub P1 P0)) (DotProduct (xyz_sub P1 P0) (xyz_sub P1 P0)) in Ok (std_max n0 (std_min n1 t)) else Ok (nlit 1 2))
      (fun t => (0 <= t <= 1)%R)).
    { destruct (IsGreaterThan _ _) eqn:Eg.
      - apply gt_iff in Eg. rewrite <- tol_thr in Eg. unfold tol in Eg. num. pose proof (Rmax_l (Rabs (DotProduct (xyz_sub P1 P0) (xyz_sub P1 P0))) (Rabs 0)) as Hm. pose proof (Rabs_pos (DotProduct (xyz_sub P1 P0) (xyz_sub P1 P0))) as Hm2. apply wp_bind. num. rewrite Rdiv_ok by lra. apply wp_ok. apply wp_ok. apply clamp01.
      - apply wp_ok. num. lra. }
    apply wp_bind. eapply wp_mono; [exact Ht|]. intros t Ht'.
    assert (Hd : (SqrLength (xyz_sub P (xyz_add P0 (xyz_scale t (xyz_sub P1 P0)))) < dbl_max (A := R))%R).
    { rewrite scale_eq. apply (ball_far B P); [exact HB|exact HP|]. apply segment_ball; [exact Ht'|apply Hball; assumption|apply Hball; assumption]. }
    destruct (nltb _ d) eqn:El; apply wp_ok; cbn [fst snd].
    + right. split; apply between_in; assumption.
    + destruct IH as [(_ & Ed)|IH]; [|right; exact IH]. exfalso. subst d. cbn [nltb Num_R] in El. apply Rltb_false in El. lra.
  - intros [d [bu bv]] [(E & _)|H]; [lia|]. cbn [fst snd bind] in *. apply wp_ok. exact H.
Qed.

(* result of the search: a point of the domain, or one Newton step, of small length along the tangents, away from one *)
Definition reached n m (S : Surface R W4) (uv : R * R) : Prop :=
  (u_domain n S (fst uv) /\ v_domain m S (snd uv)) \/
  exists u0 v0 g, u_domain n S u0 /\ v_domain m S v0 /\
    surface_partials (DegreeU S) n (KnotVectorU S) (DegreeV S) m (KnotVectorV S) (SControlPoints S) 2 u0 v0 g /\
    close (norm3 (plus3 (times3 (fst uv - u0) (g 1 0)) (times3 (snd uv - v0) (g 0 1)))) 0.

Lemma wrap_open fuel p n U x : curve_knots p n U -> returns (wrap_param fuel false x (val U p) (val U (n + 1))) (in_domain p n U).
Proof.
  intros HU. pose proof HU as [Hp Hn Hl Hs _ _]. exists (std_max (val U p) (std_min (val U (n + 1)) x)). split; [reflexivity|].
  pose proof (Hs p (n + 1) ltac:(lia) ltac:(lia) ltac:(lia)). destruct (smin_le (val U (n + 1)) x) as (A1 & A2 & A3). destruct (smax_ge (val U p) (std_min (val U (n + 1)) x)) as (B1 & B2 & B3). split; [exact B1|]. apply B3; [lra|exact A1].
Qed.

Lemma surface_newton_ok fuel n m (S : Surface R W4) P u v : valid_surface n m S -> heavy_net n m (SControlPoints S) -> 2 <= DegreeU S -> 2 <= DegreeV S ->
  u_domain n S u -> v_domain m S v ->
  returns (surface_newton fuel S P (val (KnotVectorU S) (DegreeU S)) (val (KnotVectorU S) (n + 1)) (val (KnotVectorV S) (DegreeV S)) (val (KnotVectorV S) (m + 1)) false false (u, v)) (reached n m S).
Proof.
  intros HS HH H2 H2' Du Dv. pose proof HS as (HU & HW & HP & H7 & H77). apply wp_elim. unfold surface_newton. apply wp_bind.
  apply wp_for_upc with (P := fun (_ : Z) (s : R * R) => u_domain n S (fst s) /\ v_domain m S (snd s)) (F := reached n m S).
  - split; assumption.
  - intros k [pu pv] Hk (Dpu & Dpv). cbn [fst snd] in *. pose proof (surface_heavy n m S pu pv HS HH Dpu Dpv) as Hw.
    destruct (Ders_dom (DegreeU S) n (KnotVectorU S) (DegreeV S) m (KnotVectorV S) (SControlPoints S) pu pv HU HW H7 H77 HP Dpu Dpv ltac:(lra) 2 ltac:(lia) ltac:(lia) ltac:(lia)) as (g & G & D & ED & GD).
    replace (mkSurface (DegreeU S) (DegreeV S) (KnotVectorU S) (KnotVectorV S) (SControlPoints S)) with S in ED by (destruct S; reflexivity).
    rewrite ED. cbn [bind]. rewrite !GD by lia. cbn [bind]. rewrite Length_eq. cbn [bind].
    destruct (IsAlmostEqualTo _ _); [apply wp_ok; left; split; assumption|].
    match goal with |- context [IsAlmostEqualTo (nabs ?d) n0] => set (det := d) end.
    destruct (IsAlmostEqualTo (nabs det) n0) eqn:Edet; [apply wp_ok; left; split; assumption|].
    assert (Hdet : det <> 0%R). { intros E. apply close_false in Edet. apply Edet. rewrite E. num. rewrite Rabs_R0. unfold close, tol. rewrite Rminus_0_r, Rabs_R0, Rmax_left by lra. lra. }
    num. rewrite (Rdiv_ok _ _ Hdet), (Rdiv_ok _ _ Hdet). cbn [bind]. rewrite Length_eq. cbn [bind].
    match goal with |- context [IsAlmostEqualTo (norm3 (xyz_add (xyz_scale ?a _) (xyz_scale ?b _))) _] => set (du := a); set (dv := b) end.
    clear Edet. clearbody du dv. destruct (IsAlmostEqualTo _ _) eqn:El.
    + apply wp_ok. right. exists pu, pv, g. split; [exact Dpu|]. split; [exact Dpv|]. split; [exact G|]. apply close_iff in El. rewrite add_eq, !scale_eq in El. cbn [fst snd].
      replace (pu + du - pu)%R with du by ring. replace (pv + dv - pv)%R with dv by ring. exact El.
    + destruct (wrap_open fuel _ _ _ (pu + du)%R HU) as (x & E1 & D1). destruct (wrap_open fuel _ _ _ (pv + dv)%R HW) as (y & E2 & D2).
      rewrite E1. cbn [bind]. rewrite E2. cbn [bind]. apply wp_ok. split; assumption.
  - intros s H. apply wp_ok. left. exact H.
  - intros s H. apply wp_ok. exact H.
Qed.

Lemma domain_ends p n U : curve_knots p n U -> clamped_knots p n U -> get U 0 = Ok (val U p) /\ get U (len U - 1) = Ok (val U (n + 1)).
Proof.
  intros [Hp Hn Hl _ _ _] (C1 & C2). rewrite Hl. replace (n + p + 2 - 1) with (n + p + 1) by lia. rewrite <- C1, C2. split; apply get_val; lia.
Qed.

Lemma GetParamOnSurface_ok fuel n m (S : Surface R W4) P : valid_surface n m S -> heavy_net n m (SControlPoints S) ->
  clamped_knots (DegreeU S) n (KnotVectorU S) -> clamped_knots (DegreeV S) m (KnotVectorV S) ->
  2 <= DegreeU S -> 2 <= DegreeV S -> SurfaceIsClosed S true = Ok false -> SurfaceIsClosed S false = Ok false ->
  (norm3 P <= 2 ^ 400)%R -> (forall u v, u_domain n S u -> v_domain m S v -> (norm3 (surface_at n m S u v) <= 2 ^ 400)%R) ->
  returns (GetParamOnSurface fuel S P) (reached n m S).
Proof.
  intros HS HH CU CV H2 H2' KU KV HP HB. pose proof HS as (HU & HW & _). unfold GetParamOnSurface.
  destruct (domain_ends _ _ _ HU CU) as (-> & ->). destruct (domain_ends _ _ _ HW CV) as (-> & ->). cbn [bind]. rewrite KU, KV. cbn [bind].
  destruct (SurfaceTessellate_ok n m S HS HH CU CV) as ([ps us] & E & VU & VV & IU & IV & NU & NV & L1 & L2 & G1 & G2 & G3). rewrite E. cbn [bind fst snd].
  assert (L : forall p n U V, curve_knots p n U -> clamped_knots p n U -> increasing V -> (forall x, In x V <-> In x U) -> 2 <= len V).
  { clear. intros p n U V HU CU IV NV. pose proof HU as [Hp Hn Hl Hs Hf Hla]. pose proof (len_nonneg V) as L0. 
    assert (E0 : len V <> 0). { intros E0. assert (G : In (val U 0) V) by (apply NV, val_In; lia). destruct V; [contradiction|]. rewrite len_cons in E0. pose proof (len_nonneg V). lia. }
    destruct (knots_ends _ _ _ _ HU CU IV NV ltac:(lia)) as (K0 & K1). destruct (Z.eq_dec (len V) 1) as [E1|]; [|lia]. rewrite E1 in K1. change (1 - 1) with 0 in K1.
    pose proof (Hs (p + 1) (n + 1) ltac:(lia) ltac:(lia) ltac:(lia)). unfold tol in Hf. pose proof (Rmax_l (Rabs (val U p)) (Rabs (val U (p + 1)))). pose proof (Rabs_pos (val U p)). lra. }
  pose proof (L _ _ _ _ HU CU IU NU) as LU. pose proof (L _ _ _ _ HW CV IV NV) as LV.
  destruct (nearest_segment_ok n m S ps us P (2 ^ 400)%R) as ([u v] & En & Du & Dv); try assumption.
  - split; [apply pow_le; lra|lra].
  - rewrite L1, L2. reflexivity.
  - rewrite L2. nia.
  - rewrite En. cbn [bind]. apply surface_newton_ok; assumption.
Qed.

Lemma for_upc_first {S R'} lo hi (s : S) (body : Z -> S -> res (ctl S R')) : lo < hi ->
  for_upc lo hi s body = (let! c := body lo s in match c with Next s' => for_upc (lo + 1) hi s' body | Stop r => Ok (Stop r) end).
Proof.
  intros H. unfold for_upc. replace (Z.to_nat (hi - lo)) with (Datatypes.S (Z.to_nat (hi - (lo + 1)))) by lia. cbn [iter_upc].
  destruct (body lo s) as [[s'|r]|]; reflexivity.
Qed.

(* a direction of degree 1: the second derivatives are refused *)
Lemma GetParamOnSurface_low fuel n m (S : Surface R W4) P : valid_surface n m S -> heavy_net n m (SControlPoints S) ->
  clamped_knots (DegreeU S) n (KnotVectorU S) -> clamped_knots (DegreeV S) m (KnotVectorV S) ->
  DegreeU S < 2 \/ DegreeV S < 2 ->
  (norm3 P <= 2 ^ 400)%R -> (forall u v, u_domain n S u -> v_domain m S v -> (norm3 (surface_at n m S u v) <= 2 ^ 400)%R) ->
  GetParamOnSurface fuel S P = Throw.
Proof.
  intros HS HH CU CV H2 HP HB. pose proof HS as (HU & HW & HN & H7 & H77). unfold GetParamOnSurface.
  destruct (domain_ends _ _ _ HU CU) as (-> & ->). destruct (domain_ends _ _ _ HW CV) as (-> & ->). cbn [bind].
  destruct (SurfaceIsClosed_ok n m S true HS HH CU) as (cu & -> & _). destruct (SurfaceIsClosed_ok n m S false HS HH CV) as (cv & -> & _). cbn [bind].
  destruct (SurfaceTessellate_ok n m S HS HH CU CV) as ([ps us] & E & VU & VV & IU & IV & NU & NV & L1 & L2 & G1 & G2 & G3). rewrite E. cbn [bind fst snd].
  assert (L : forall p n U V, curve_knots p n U -> clamped_knots p n U -> increasing V -> (forall x, In x V <-> In x U) -> 2 <= len V).
  { clear. intros p n U V HU CU IV NV. pose proof HU as [Hp Hn Hl Hs Hf Hla]. pose proof (len_nonneg V) as L0. 
    assert (E0 : len V <> 0). { intros E0. assert (G : In (val U 0) V) by (apply NV, val_In; lia). destruct V; [contradiction|]. rewrite len_cons in E0. pose proof (len_nonneg V). lia. }
    destruct (knots_ends _ _ _ _ HU CU IV NV ltac:(lia)) as (K0 & K1). destruct (Z.eq_dec (len V) 1) as [E1|]; [|lia]. rewrite E1 in K1. change (1 - 1) with 0 in K1.
    pose proof (Hs (p + 1) (n + 1) ltac:(lia) ltac:(lia) ltac:(lia)). unfold tol in Hf. pose proof (Rmax_l (Rabs (val U p)) (Rabs (val U (p + 1)))). pose proof (Rabs_pos (val U p)). lra. }
  pose proof (L _ _ _ _ HU CU IU NU) as LU. pose proof (L _ _ _ _ HW CV IV NV) as LV.
  destruct (nearest_segment_ok n m S ps us P (2 ^ 400)%R) as ([u v] & En & Du & Dv); try assumption.
  - split; [apply pow_le; lra|lra].
  - rewrite L1, L2. reflexivity.
  - rewrite L2. nia.
  - rewrite En. cbn [bind]. unfold surface_newton. rewrite for_upc_first by lia. cbv beta iota.
    replace S with (mkSurface (DegreeU S) (DegreeV S) (KnotVectorU S) (KnotVectorV S) (SControlPoints S)) at 1 by (destruct S; reflexivity).
    rewrite (RSurfDers_reject _ n _ _ m) by (assumption || lia). reflexivity.
Qed.
