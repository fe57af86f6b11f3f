(* Property theorems, part 21: surfaces through a sequence of sections and surfaces blended from four boundary curves. *)
From Coq Require Import ZArith List Bool Reals Lra Lia.
From Verif Require Import Base Num Vec Tac Spec Spec2 Spec3 Spec4 Spec5 Spec6 Spec8 Spec9 Spec12 Spec13 Spec14 M_MathUtils M_XYZ M_Bspline M_Surface M_Surface2
  P_MathUtils P_Span P_Vec P_VSum P_Curve P_Bspline P_BsplineS P_Loop P_Decomp P_Make P_Interp P_Fit P_Loft P_Coons.
Import ListNotations Spec12.
Open Scope Z_scope.

(* straight sections from (0, 0, z) to (1, 0, z), all weights w *)
Definition slat (z w : R) : list (XYZW R) := [mkXYZW 0 0 (z * w) w; mkXYZW w 0 (z * w) w]%R.
Definition slats (w : R) : list (Curve R (XYZW R)) := [mkCurve 1 (bezier_knots 1) (slat 0 1); mkCurve 1 (bezier_knots 1) (slat 1 w); mkCurve 1 (bezier_knots 1) (slat 0 1)].
Definition slat_points (w : R) (k : Z) : list (XYZW R) := if k =? 1 then slat 1 w else slat 0 1.
Definition halves : list R := [0; 1 / 2; 1]%R.

(** * C112 *)
(* own parameters for the sections: one per section *)
Theorem C112_passes : forall solve p n U K P sections q v, exact_solver solve -> raised_sections p U K P sections -> p <= 7 -> curve_knots p n (U 0) ->
  (forall k, 0 <= k <= K -> len (P k) = n + 1) -> (forall k i, 0 <= k <= K -> 0 <= i <= n -> ww (pt (P k) i) = ww (pt (P 0) i)) ->
  1 <= q <= 7 -> q <= K -> len v = K + 1 -> section_params K (val v) ->
  returns (CreateLoftSurface solve sections q v) (fun S =>
    valid_surface n K S /\ heavy_net n K (SControlPoints S) /\ DegreeU S = p /\ DegreeV S = q /\ KnotVectorU S = U 0 /\ clamped_unit q K (KnotVectorV S) /\
    forall k u, 0 <= k <= K -> surface_point p n (U 0) q K (KnotVectorV S) (SControlPoints S) u (val v k) = curve_point p n (U 0) (P k) u).
Proof. exact Loft_ok. Qed.
Print Assumptions C112_passes.

(* parameters chosen by the function; the degree asked for is not used *)
Theorem C112_default : forall solve p n U K P sections d, exact_solver solve -> raised_sections p U K P sections -> 1 <= p <= 7 -> p <= K -> curve_knots p n (U 0) ->
  (forall k, 0 <= k <= K -> len (P k) = n + 1) -> (forall k i, 0 <= k <= K -> 0 <= i <= n -> ww (pt (P k) i) = ww (pt (P 0) i)) ->
  (forall i, 0 <= i <= n -> chord_length (along P i) K <> 0%R) -> section_params K (mean_share n K P) ->
  returns (CreateLoftSurface solve sections d []) (fun S =>
    valid_surface n K S /\ heavy_net n K (SControlPoints S) /\ DegreeU S = p /\ DegreeV S = p /\ KnotVectorU S = U 0 /\ clamped_unit p K (KnotVectorV S) /\
    forall k u, 0 <= k <= K -> surface_point p n (U 0) p K (KnotVectorV S) (SControlPoints S) u (mean_share n K P k) = curve_point p n (U 0) (P k) u).
Proof. exact Loft_default_ok. Qed.
Print Assumptions C112_default.

(* the last argument is named a knot vector, but a list with more or fewer entries than there are sections is refused *)
Theorem C112_custom_refuted : forall solve p n U K P sections d v, raised_sections p U K P sections -> curve_knots p n (U 0) ->
  (forall k, 0 <= k <= K -> len (P k) = n + 1) -> 1 <= d -> d < len v -> len v <> K + 1 -> CreateLoftSurface solve sections d v = Throw.
Proof. exact Loft_count. Qed.
Print Assumptions C112_custom_refuted.

(* a section with fewer control points than the first one: the elements read do not exist *)
Theorem C112_count_refuted : forall solve p U K P sections q v k0, exact_solver solve -> raised_sections p U K P sections ->
  1 <= q <= 7 -> q <= K -> len v = K + 1 -> section_params K (val v) ->
  0 <= k0 <= K -> 0 < len (P k0) < len (P 0) -> (forall k, 0 <= k <= K -> len (P k0) <= len (P k)) ->
  CreateLoftSurface solve sections q v = UB.
Proof. exact Loft_short. Qed.
Print Assumptions C112_count_refuted.

(* the knots of the sections after the first are not looked at *)
Theorem C112_knots_refuted : forall solve p (sections sections' : list (Curve R (XYZW R))) q v, 0 < p -> len sections' = len sections -> get sections' 0 = get sections 0 ->
  (forall k, 0 <= k < len sections -> exists c c', get sections k = Ok c /\ get sections' k = Ok c' /\ Degree c = p /\ Degree c' = p /\ ControlPoints c' = ControlPoints c) ->
  CreateLoftSurface solve sections' q v = CreateLoftSurface solve sections q v.
Proof. exact Loft_knots. Qed.
Print Assumptions C112_knots_refuted.

Lemma slat_bounds : (tol 1 0 <= 2 / 1000000 /\ tol 2 0 <= 3 / 1000000)%R.
Proof. unfold tol. rewrite Rabs_R0, !(Rabs_right _) by lra. rewrite !Rmax_left by lra. lra. Qed.
Lemma slat_pt z w : pt (slat z w) 0 = (mkXYZW 0 0 (z * w) w)%R /\ pt (slat z w) 1 = (mkXYZW w 0 (z * w) w)%R. Proof. split; reflexivity. Qed.
Lemma two i : 0 <= i <= 1 -> i = 0 \/ i = 1. Proof. lia. Qed.
Lemma slat_ww z w i : 0 <= i <= 1 -> ww (pt (slat z w) i) = w. Proof. intros Hi. destruct (two i Hi) as [-> | ->]; reflexivity. Qed.
Lemma slats_ready w : (w = 1 \/ w = 2)%R -> raised_sections 1 (fun _ => bezier_knots 1) 2 (slat_points w) (slats w).
Proof.
  intros Hw. split; [reflexivity|]. split; [lia|]. split; [lia|]. split; [|split].
  - intros k Hk. assert (k = 0 \/ k = 1 \/ k = 2) as [-> | [-> | ->]] by lia; eexists; (split; [reflexivity|]); eexists; (split; [|split; [|left; split; reflexivity]]); reflexivity.
  - exists 0, (mkCurve 1 (bezier_knots 1) (slat 0 1)). split; reflexivity.
  - pose proof slat_bounds as (B1 & B2).
    assert (T : forall z u i, (u = 1 \/ u = 2)%R -> 0 <= i < 2 -> (tol (ww (pt (slat z u) i)) 0 < ww (pt (slat z u) i))%R).
    { intros z u i Hu Hi. rewrite slat_ww by lia. destruct Hu as [-> | ->]; lra. }
    intros k Hk i Hi. unfold slat_points in *. destruct (k =? 1); apply T; auto.
Qed.
Lemma halves_ready : section_params 2 (val halves).
Proof.
  assert (E : val halves 0 = 0%R /\ val halves 1 = (1 / 2)%R /\ val halves 2 = 1%R) by (repeat split). destruct E as (E0 & E1 & E2).
  split. { intros i j Hi Hj. assert (i = 0 /\ j = 1 \/ i = 0 /\ j = 2 \/ i = 1 /\ j = 2) as [[-> ->] | [[-> ->] | [-> ->]]] by lia; rewrite ?E0, ?E1, ?E2; lra. }
  change (2 - 1) with 1. rewrite E0, E1, E2. repeat split; lra.
Qed.
Lemma slats_share : (forall i, 0 <= i <= 1 -> chord_length (along (slat_points 1) i) 2 = 2%R) /\ mean_share 1 2 (slat_points 1) 0 = 0%R /\ mean_share 1 2 (slat_points 1) 1 = (1 / 2)%R /\ mean_share 1 2 (slat_points 1) 2 = 1%R.
Proof.
  assert (AL : forall i k, 0 <= i <= 1 -> along (slat_points 1) i k = mkXYZ (IZR i) 0%R (if k =? 1 then 1 else 0)%R).
  { intros i k Hi. unfold along, slat_points. destruct (two i Hi) as [-> | ->]; destruct (k =? 1); rewrite ?(proj1 (slat_pt _ _)), ?(proj2 (slat_pt _ _)); unfold proj; cbn [wx wy wz ww]; f_equal; field. }
  assert (D : forall i, 0 <= i <= 1 -> chord_length (along (slat_points 1) i) 1 = 1%R /\ chord_length (along (slat_points 1) i) 2 = 2%R).
  { intros i Hi. assert (S : forall k, 0 <= k <= 1 -> dist3 (along (slat_points 1) i (k + 1)) (along (slat_points 1) i (k + 1 - 1)) = 1%R).
    { intros k Hk. rewrite !AL by exact Hi. unfold dist3, norm3, minus3, dot3. assert (k = 0 \/ k = 1) as [-> | ->] by lia; cbn [Z.add Z.sub Z.opp Z.pos_sub Pos.pred_double Pos.sub Z.eqb Pos.add Pos.succ Pos.eqb gx gy gz]; (transitivity (sqrt 1)%R; [f_equal; ring|apply sqrt_1]). }
    assert (Z0 : chord_length (along (slat_points 1) i) 0 = 0%R) by (unfold chord_length; apply rsum_nil; lia).
    pose proof (chord_step (along (slat_points 1) i) 1 ltac:(lia)) as C1. pose proof (chord_step (along (slat_points 1) i) 2 ltac:(lia)) as C2. change (1 - 1) with 0 in C1. change (2 - 1) with 1 in C2.
    rewrite (S 0 ltac:(lia) : dist3 (along (slat_points 1) i 1) (along (slat_points 1) i 0) = 1%R) in C1. rewrite (S 1 ltac:(lia) : dist3 (along (slat_points 1) i 2) (along (slat_points 1) i 1) = 1%R) in C2. lra. }
  split; [intros i Hi; apply D, Hi|]. unfold mean_share. rewrite !rsum_2. change (IZR (1 + 1)) with 2%R.
  assert (Z0 : forall i, chord_length (along (slat_points 1) i) 0 = 0%R) by (intros i; unfold chord_length; apply rsum_nil; lia). rewrite !Z0.
  destruct (D 0 ltac:(lia)) as (D1 & D2), (D 1 ltac:(lia)) as (D3 & D4). rewrite D1, D2, D3, D4. repeat split; field.
Qed.
Example C112_ex : (exists solve, exact_solver solve) /\ raised_sections 1 (fun _ => bezier_knots 1) 2 (slat_points 1) (slats 1) /\ curve_knots 1 1 (bezier_knots 1) /\
  (forall k, 0 <= k <= 2 -> len (slat_points 1 k) = 1 + 1) /\ (forall k i, 0 <= k <= 2 -> 0 <= i <= 1 -> ww (pt (slat_points 1 k) i) = ww (pt (slat_points 1 0) i)) /\
  len halves = 2 + 1 /\ section_params 2 (val halves) /\ (forall i, 0 <= i <= 1 -> chord_length (along (slat_points 1) i) 2 <> 0%R) /\ section_params 2 (mean_share 1 2 (slat_points 1)).
Proof.
  split; [exists gauss_solver; exact gauss_exact|]. split; [apply slats_ready; auto|]. split; [apply bez_knots_ok; lia|]. split; [intros k Hk; unfold slat_points; destruct (k =? 1); reflexivity|].
  split. { intros k i Hk Hi. unfold slat_points. change (0 =? 1) with false. destruct (k =? 1); rewrite !slat_ww by lia; reflexivity. }
  split; [reflexivity|]. split; [apply halves_ready|]. destruct slats_share as (S0 & S1 & S2 & S3). split; [intros i Hi; rewrite S0 by exact Hi; lra|].
  split. { intros i j Hi Hj. assert (i = 0 /\ j = 1 \/ i = 0 /\ j = 2 \/ i = 1 /\ j = 2) as [[-> ->] | [[-> ->] | [-> ->]]] by lia; rewrite ?S1, ?S2, ?S3; lra. }
  change (2 - 1) with 1. rewrite S1, S2, S3. repeat split; lra.
Qed.

(* a first section with three control points and a second one with two *)
Definition bent : list (XYZW R) := [mkXYZW 0 0 0 1; mkXYZW 1 0 0 1; mkXYZW 2 1 0 1]%R.
Example C112_count_ex : raised_sections 1 (fun k => if k =? 0 then [0; 0; 1 / 2; 1; 1]%R else bezier_knots 1) 1 (fun k => if k =? 0 then bent else slat 1 1) [mkCurve 1 [0; 0; 1 / 2; 1; 1]%R bent; mkCurve 1 (bezier_knots 1) (slat 1 1)] /\
  section_params 1 (val [0; 1]%R) /\ len (slat 1 1) < len bent.
Proof.
  split.
  - split; [reflexivity|]. split; [lia|]. split; [lia|]. split; [|split].
    + intros k Hk. destruct (two k Hk) as [-> | ->]; eexists; (split; [reflexivity|]); eexists; (split; [|split; [|left; split; reflexivity]]); reflexivity.
    + eexists 0, _. split; reflexivity.
    + pose proof slat_bounds as (B1 & B2). intros k Hk i Hi. assert (E : ww (pt (if k =? 0 then bent else slat 1 1) i) = 1%R); [|rewrite E; lra].
      destruct (k =? 0).
      * assert (i = 0 \/ i = 1 \/ i = 2) as [-> | [-> | ->]] by (cbn in Hi; lia); reflexivity.
      * apply slat_ww. cbn in Hi. lia.
  - split; [|cbn; lia]. assert (E : val [0; 1]%R 0 = 0%R /\ val [0; 1]%R 1 = 1%R) by (split; reflexivity). destruct E as (E0 & E1). split; [intros i j Hi Hj; assert (i = 0 /\ j = 1) as [-> ->] by lia; lra|]. change (1 - 1) with 0. rewrite E0, E1. repeat split; lra.
Qed.

(* three straight sections of heights 0, 1 and 0; the middle one has the weights 2, which do not change its points: the surface misses it by a third of the height *)
Theorem C112_weights_refuted : forall solve, exact_solver solve -> returns (CreateLoftSurface solve (slats 2) 2 halves) (fun S =>
  valid_surface 1%Z 2%Z S /\ proj (curve_point 1%Z 1%Z (bezier_knots 1%Z) (slat 1 2) 0%R) = mkXYZ 0 0 1 /\ surface_at 1%Z 2%Z S 0 (val halves 1%Z) = mkXYZ 0 0 (4 / 3))%R.
Proof.
  intros solve Hs. pose proof (slats_ready 2 (or_intror eq_refl)) as HR. pose proof HR as (H1 & H2 & H3 & H4 & H5 & _). destruct halves_ready as (V1 & V2 & V3 & V4 & V5).
  assert (HL : forall k, 0 <= k <= 2 -> len (slat_points 2 k) = 1 + 1) by (intros k Hk; unfold slat_points; destruct (k =? 1); reflexivity).
  destruct (loft_net solve Hs 1 1 (fun _ => bezier_knots 1) 2 2 halves (slats 2) (slat_points 2) (fun k i => ww (pt (slat_points 2 k) i))) as (S & E & G1 & G2 & G3 & G4 & G5 & G6 & _ & G);
    try assumption; try lia; try reflexivity.
  { apply bez_knots_ok; lia. }
  { intros k Hk. rewrite HL by exact Hk. lia. }
  { apply (sections_w _ _ _ _ _ _ HR). intros k Hk. rewrite HL by exact Hk. lia. }
  exists S. split; [exact E|]. split; [exact G1|]. 
  assert (HV : KnotVectorV S = bezier_knots 2).
  { destruct G6 as (L & _ & A & B). apply (arr_inj _ _ 6 (fun i => if i <=? 2 then 0%R else 1%R)).
    - pose proof (P_Bern.arr_val (KnotVectorV S)) as AV. rewrite L in AV. eapply arr_ext; [exact AV|]. intros i Hi. cbv beta. destruct (Z.leb_spec i 2); [apply A|apply B]; lia.
    - pose proof (P_Bern.arr_val (bezier_knots 2)) as AV. eapply arr_ext; [exact AV|]. intros i Hi. apply (bez_val 2); lia. }
  unfold surface_at. rewrite G3, G4, G5, HV. destruct (G 0 ltac:(lia)) as (LR & T & LT & HT & IT). rewrite HV in IT.
  assert (A0 : along (slat_points 2) 0 0 = (mkXYZ 0 0 0)%R) by (unfold along, slat_points; change (0 =? 1) with false; cbv iota; rewrite (proj1 (slat_pt _ _)); unfold proj; cbn [wx wy wz ww]; f_equal; field).
  assert (A1 : along (slat_points 2) 0 1 = (mkXYZ 0 0 1)%R) by (unfold along, slat_points; change (1 =? 1) with true; cbv iota; rewrite (proj1 (slat_pt _ _)); unfold proj; cbn [wx wy wz ww]; f_equal; field).
  assert (A2 : along (slat_points 2) 0 2 = (mkXYZ 0 0 0)%R) by (unfold along, slat_points; change (2 =? 1) with false; cbv iota; rewrite (proj1 (slat_pt _ _)); unfold proj; cbn [wx wy wz ww]; f_equal; field).
  assert (BC : forall (X : list (XYZW R)) v c, (0 <= v <= 1)%R -> co c (curve_point 2 2 (bezier_knots 2) X v) = ((1 - v) * (1 - v) * co c (pt X 0) + 2 * v * (1 - v) * co c (pt X 1) + v * v * co c (pt X 2))%R).
  { intros X v c Hv. rewrite (bez_curve 2) by (lia || assumption). rewrite rsum_3. destruct (bern2 v) as (-> & -> & ->). reflexivity. }
  assert (IC : forall c, co c (pt T 0) = co c (hom (mkXYZ 0 0 0) 1)%R /\ co c (pt T 2) = co c (hom (mkXYZ 0 0 0) 1)%R /\ (co c (pt T 0) + 2 * co c (pt T 1) + co c (pt T 2) = 4 * co c (hom (mkXYZ 0 0 1) 1))%R).
  { intros c. pose proof (f_equal (co c) (IT 0 ltac:(lia))) as I0. pose proof (f_equal (co c) (IT 1 ltac:(lia))) as I1. pose proof (f_equal (co c) (IT 2 ltac:(lia))) as I2. rewrite A0 in I0. rewrite A1 in I1. rewrite A2 in I2.
    change (val halves 0) with 0%R in I0. change (val halves 1) with (1 / 2)%R in I1. change (val halves 2) with 1%R in I2. rewrite BC in I0, I1, I2 by lra. lra. }
  split.
  - assert (H : curve_point 1 1 (bezier_knots 1) (slat 1 2) 0%R = (mkXYZW 0 0 2 2)%R); [|rewrite H; unfold proj; cbn [wx wy wz ww]; f_equal; field].
    apply co_ext. intros c. rewrite (bez_curve 1) by (lia || lra). rewrite rsum_2. destruct (bern1 0%R) as (-> & ->). rewrite (proj1 (slat_pt _ _)). replace (1 * 2)%R with 2%R by ring. lra.
  - assert (H : surface_point 1 1 (bezier_knots 1) 2 2 (bezier_knots 2) (SControlPoints S) 0%R (val halves 1) = (mkXYZW 0 0 2 (3 / 2))%R); [|rewrite H; unfold proj; cbn [wx wy wz ww]; f_equal; field].
    change (val halves 1) with (1 / 2)%R. apply co_ext. intros c. rewrite (bez_surface 1) by (lia || lra). rewrite rsum_2. destruct (bern1 0%R) as (-> & ->). rewrite !BC by lra.
    rewrite (proj2 (HT 0 ltac:(lia))), (proj2 (HT 1 ltac:(lia))), (proj2 (HT 2 ltac:(lia))). rewrite !co_scale. unfold slat_points. change (0 =? 1) with false. change (1 =? 1) with true. change (2 =? 1) with false. cbv iota. rewrite !slat_ww by lia.
    destruct (IC c) as (I0 & I2 & I1). rewrite I0, I2 in *. assert (I3 : co c (pt T 1) = (2 * co c (hom (mkXYZ 0 0 1) 1) - co c (hom (mkXYZ 0 0 0) 1))%R) by lra. rewrite I3.
    transitivity (2 * co c (hom (mkXYZ 0 0 1) 1) - 1 / 2 * co c (hom (mkXYZ 0 0 0) 1))%R; [lra|]. rewrite <- !co_scale, <- co_sub. f_equal. unfold hom. cbn. unfold xyzw_scale, xyzw_sub. num. cbn [wx wy wz ww gx gy gz]. f_equal; field.
Qed.
Print Assumptions C112_weights_refuted.

(** * C113 *)
(* left, bottom, right and top, joined end to end: the surface is the blend of the left and the mirrored right curve over u, and of the bottom and the
   mirrored top curve over v; so the bottom curve is the edge u = 0 and the mirrored top curve the edge u = 1 *)
Theorem C113_blend : forall p0 m0 U0 P0 p1 m1 U1 P1 p2 m2 U2 P2 p3 m3 U3 P3, four_edges p0 m0 U0 P0 p1 m1 U1 P1 p2 m2 U2 P2 p3 m3 U3 P3 -> closed_loop m0 P0 m1 P1 m2 P2 m3 P3 ->
  returns (CreateCoonsSurface (mkCurve p0 U0 P0) (mkCurve p1 U1 P1) (mkCurve p2 U2 P2) (mkCurve p3 U3 P3)) (fun S => exists n m,
    valid_surface n m S /\ DegreeU S = Z.max (Z.max p0 p2) 3 /\ DegreeV S = Z.max (Z.max p1 p3) 3 /\ unit_knots (DegreeU S) n (KnotVectorU S) /\ unit_knots (DegreeV S) m (KnotVectorV S) /\
    (forall u v, (0 <= u <= 1)%R -> (0 <= v <= 1)%R -> GetPointOnSurface S u v = Ok (coons_blend (curve_point p0 m0 U0 P0) (curve_point p1 m1 U1 P1)
       (fun t => curve_point p2 m2 U2 P2 (1 - t)%R) (fun t => curve_point p3 m3 U3 P3 (1 - t)%R) (proj (pt P0 0)) (proj (pt P2 m2)) (proj (pt P0 m0)) (proj (pt P2 0)) u v)) /\
    (forall v, (0 <= v <= 1)%R -> GetPointOnSurface S 0%R v = Ok (curve_point p1 m1 U1 P1 v) /\ GetPointOnSurface S 1%R v = Ok (curve_point p3 m3 U3 P3 (1 - v)%R)) /\
    (pt P0 m0 = pt P1 0 -> pt P3 m3 = pt P0 0 -> forall u, (0 <= u <= 1)%R ->
       GetPointOnSurface S u 0%R = Ok (vadd (curve_point p0 m0 U0 P0 u) (vscale (1 - 2 * u)%R (vsub (pt P0 m0) (pt P0 0)))))).
Proof. exact Loop_ok. Qed.
Print Assumptions C113_blend.

Theorem C113_open : forall p0 m0 U0 P0 p1 m1 U1 P1 p2 m2 U2 P2 p3 m3 U3 P3, four_edges p0 m0 U0 P0 p1 m1 U1 P1 p2 m2 U2 P2 p3 m3 U3 P3 -> ~ closed_loop m0 P0 m1 P1 m2 P2 m3 P3 ->
  CreateCoonsSurface (mkCurve p0 U0 P0) (mkCurve p1 U1 P1) (mkCurve p2 U2 P2) (mkCurve p3 U3 P3) = Throw.
Proof. exact Loop_apart. Qed.
Print Assumptions C113_open.

(* a square of side 3; the left side is bent out of the plane *)
Definition side (x0 y0 x1 y1 x2 y2 x3 y3 z : R) : list (XYZW R) := [mkXYZW x0 y0 0 1; mkXYZW x1 y1 z 1; mkXYZW x2 y2 0 1; mkXYZW x3 y3 0 1]%R.
Definition left_side := (side 0 3 0 2 0 1 0 0 1)%R.
Definition bottom_side := (side 0 0 1 0 2 0 3 0 0)%R.
Definition right_side := (side 3 0 3 1 3 2 3 3 0)%R.
Definition top_side := (side 3 3 2 3 1 3 0 3 0)%R.
Definition cubic (P : list (XYZW R)) : Curve R (XYZW R) := mkCurve 3 (bezier_knots 3) P.

Lemma side_pts x0 y0 x1 y1 x2 y2 x3 y3 z : pt (side x0 y0 x1 y1 x2 y2 x3 y3 z) 0 = (mkXYZW x0 y0 0 1)%R /\ pt (side x0 y0 x1 y1 x2 y2 x3 y3 z) 1 = (mkXYZW x1 y1 z 1)%R /\
  pt (side x0 y0 x1 y1 x2 y2 x3 y3 z) 2 = (mkXYZW x2 y2 0 1)%R /\ pt (side x0 y0 x1 y1 x2 y2 x3 y3 z) 3 = (mkXYZW x3 y3 0 1)%R.
Proof. repeat split; reflexivity. Qed.
Lemma bez3_in x : In x (bezier_knots 3) -> (x = 0 \/ x = 1)%R.
Proof. apply bez_in. lia. Qed.
Lemma side_edge x0 y0 x1 y1 x2 y2 x3 y3 z : edge 3 3 (bezier_knots 3) (side x0 y0 x1 y1 x2 y2 x3 y3 z).
Proof. destruct (side_pts x0 y0 x1 y1 x2 y2 x3 y3 z) as (E0 & E1 & E2 & E3). split; [apply bez_unit; lia|]. split; [reflexivity|]. split; [lia|]. rewrite E0, E3. split; reflexivity. Qed.
Lemma bez3_flipped : flipped (bezier_knots 3) = bezier_knots 3.
Proof. transitivity [1 - 1; 1 - 1; 1 - 1; 1 - 1; 1 - 0; 1 - 0; 1 - 0; 1 - 0]%R; [reflexivity|]. rewrite Rminus_eq_0, Rminus_0_r. reflexivity. Qed.
Lemma square_edges : four_edges 3 3 (bezier_knots 3) left_side 3 3 (bezier_knots 3) bottom_side 3 3 (bezier_knots 3) right_side 3 3 (bezier_knots 3) top_side.
Proof.
  assert (M : matching_edges 3 3 (bezier_knots 3) 3 3 (flipped (bezier_knots 3))).
  { rewrite bez3_flipped. split; [|split; [lia|]; split; [lia|lia]]. intros x y Hx Hy. apply in_app_or in Hx, Hy.
    assert (B : forall t, In t (bezier_knots 3) \/ In t (bezier_knots 3) -> (t = 0 \/ t = 1)%R) by (intros t [|]; apply bez3_in; assumption).
    unfold apart, tol. destruct (B x Hx) as [-> | ->], (B y Hy) as [-> | ->]; try (left; reflexivity); right; unfold Rabs, Rmax; repeat (destruct (Rcase_abs _) || destruct (Rle_dec _ _)); lra. }
  assert (B : unbroken 3 (bezier_knots 3)).
  { intros t Ht. unfold occ. rewrite (proj1 (count_occ_not_In Req_EM_T _ _)); [lia|]. intros Hi. apply bez3_in in Hi. lra. }
  split; [apply side_edge|]. split; [apply side_edge|]. split; [apply side_edge|]. split; [apply side_edge|]. split; [exact M|]. split; [exact M|]. split; exact B.
Qed.
Lemma square_loop : closed_loop 3 left_side 3 bottom_side 3 right_side 3 top_side.
Proof.
  unfold left_side, bottom_side, right_side, top_side.
  assert (NR : forall a : XYZ R, Spec3.near a a) by (intros a; unfold Spec3.near; rewrite !Rminus_eq_0, Rabs_R0; pose proof tol_pos; repeat split; apply Rlt_le; auto).
  unfold closed_loop. repeat match goal with |- context [pt (side ?a ?b ?c ?d ?e ?f ?g ?h ?z) 0] => rewrite (proj1 (side_pts a b c d e f g h z)) end.
  repeat match goal with |- context [pt (side ?a ?b ?c ?d ?e ?f ?g ?h ?z) 3] => rewrite (proj2 (proj2 (proj2 (side_pts a b c d e f g h z)))) end.
  split; [apply NR|]. split; [apply NR|]. split; apply NR.
Qed.
Example C113_ex : four_edges 3 3 (bezier_knots 3) left_side 3 3 (bezier_knots 3) bottom_side 3 3 (bezier_knots 3) right_side 3 3 (bezier_knots 3) top_side /\
  closed_loop 3 left_side 3 bottom_side 3 right_side 3 top_side.
Proof. split; [exact square_edges|exact square_loop]. Qed.

(* the surface has a point of its edge v = 0 that is not on the left curve *)
Theorem C113_left_refuted : returns (CreateCoonsSurface (cubic left_side) (cubic bottom_side) (cubic right_side) (cubic top_side)) (fun S =>
  exists x, GetPointOnSurface S (1 / 4)%R 0%R = Ok (hom x 1) /\ forall t y, (0 <= t <= 1)%R -> GetPointOnCurve (cubic left_side) t = Ok (hom y 1) -> (1 / 8 <= dist3 x y)%R).
Proof.
  destruct (C113_blend _ _ _ _ _ _ _ _ _ _ _ _ _ _ _ _ square_edges square_loop) as (S & E & n & m & _ & _ & _ & _ & _ & _ & _ & G).
  exists S. split; [exact E|]. destruct (side_pts 0 3 0 2 0 1 0 0 1) as (L0 & L1 & L2 & L3). destruct (side_pts 0 0 1 0 2 0 3 0 0) as (B0 & _). destruct (side_pts 3 3 2 3 1 3 0 3 0) as (_ & _ & _ & T3).
  assert (BC : forall t, (0 <= t <= 1)%R -> curve_point 3 3 (bezier_knots 3) left_side t = (mkXYZW 0 (3 - 3 * t) (3 * t * (1 - t) * (1 - t)) 1)%R).
  { intros t Ht. apply co_ext. intros c. rewrite (bez_curve 3) by (lia || assumption). rewrite rsum_4. destruct (bern3 t) as (-> & -> & -> & ->). unfold left_side. rewrite L0, L1, L2, L3.
    destruct c as [|[|[|c]]]; cbn; ring. }
  specialize (G ltac:(unfold left_side, bottom_side; rewrite L3, B0; reflexivity) ltac:(unfold left_side, top_side; rewrite L0, T3; reflexivity) (1 / 4)%R ltac:(lra)).
  exists (mkXYZ 0 (3 / 4) (27 / 64))%R. split.
  - rewrite G. f_equal. rewrite BC by lra. unfold left_side. rewrite L0, L3. unfold hom. apply co_ext. intros c. rewrite co_add, co_scale, co_sub. destruct c as [|[|[|c]]]; cbn; field.
  - intros t y Ht Hy. unfold cubic in Hy. rewrite (GetPointOnCurve_ok 3 3) in Hy; [|apply bez_knots_ok; lia|lia|reflexivity|apply (unit_dom 3 3); [apply bez_unit; lia|exact Ht]].
    rewrite BC in Hy by exact Ht. unfold hom in Hy. injection Hy as Y1 Y2 Y3. unfold dist3, norm3, minus3, dot3. cbn [gx gy gz] in *. 
    apply Rsqr_incr_0_var; [|apply R_sqrt.sqrt_pos]. unfold Rsqr at 2. rewrite R_sqrt.sqrt_sqrt by (assert (SQ : forall a b c, (0 <= a * a + b * b + c * c)%R) by (intros; nra); apply SQ). rewrite !Rmult_1_r in *. rewrite <- Y1, <- Y2, <- Y3. unfold Rsqr.
    assert (Z1 : (3 * t * (1 - t) * (1 - t) <= 2 / 8 \/ t <= 17 / 24 \/ 19 / 24 <= t)%R).
    { destruct (Rle_dec t (17 / 24)); [auto|]. destruct (Rle_dec (19 / 24) t); [auto|]. left. assert (0 <= (1 - t) * (1 - t) <= 49 / 576)%R by nra. nra. }
    set (z := (3 * t * (1 - t) * (1 - t))%R) in *. set (h := (27 / 64 - z)%R). assert (0 <= h * h)%R by nra. assert (Q : forall q : R, (0 <= q * q)%R) by (intros; nra). pose proof (Q (3 / 4 - (3 - 3 * t))%R). destruct Z1 as [Z1 | [Z1 | Z1]].
    + assert (1 / 8 <= h)%R by (unfold h; lra). assert (1 / 8 * (1 / 8) <= h * h)%R by (apply Rmult_le_compat; lra). lra.
    + assert (1 / 8 <= (3 - 3 * t) - 3 / 4)%R by lra. assert (1 / 8 * (1 / 8) <= (3 - 3 * t - 3 / 4) * (3 - 3 * t - 3 / 4))%R by (apply Rmult_le_compat; lra). lra.
    + assert (1 / 8 <= 3 / 4 - (3 - 3 * t))%R by lra. assert (1 / 8 * (1 / 8) <= (3 / 4 - (3 - 3 * t)) * (3 / 4 - (3 - 3 * t)))%R by (apply Rmult_le_compat; lra). lra.
Qed.
Print Assumptions C113_left_refuted.
