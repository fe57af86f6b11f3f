(* Property theorems, part 34: fitting points with one conic or cubic segment. *)
From Coq Require Import ZArith List Bool Reals Lra Lia Floats.
From Verif Require Import Base Num Vec Tac Spec Spec2 Spec3 Spec24 Spec25 M_MathUtils M_XYZ M_Bspline M_NurbsCurve M_Matrix M_Geom M_Interp M_Conic M_FitConic
  P_Vec P_XYZ P_VSum P_Curve P_Geom P_Conic P_Conic2 P_Matrix P_ProjNorm P_FitConic P_FitConic2 P_FitCubic.
Import ListNotations.
Open Scope Z_scope.

(** * C134 *)
Theorem C134_sound : forall fuel Q s e ts te err l, FitWithConic fuel Q s e ts te err = Ok (Some l) -> 2 <= e - s ->
  0 <= s /\ e < len Q /\ exists q w, l = [hom q w] /\
  ((q = middle3 (pt Q s) (pt Q e) /\ w = 1%R /\ small (dot3 ts ts * dot3 te te - dot3 ts te * dot3 ts te) /\ small (norm3 (cross3 (minus3 (pt Q e) (pt Q s)) ts))) \/
   (corner (pt Q s) ts (pt Q e) te q /\ forall i, s < i < e -> on_conic (pt Q s) q (pt Q e) w err (pt Q i))).
Proof. exact conic_sound. Qed.
Print Assumptions C134_sound.

(* tangents along the chord: the segment is returned for any inner points, however far from it *)
Theorem C134_chord_refuted : forall fuel (a d : XYZ R) k inner err, (1 / 10 ^ 12 < dot3 d d)%R -> 0 < len inner -> ~ near a (line_at a d k) ->
  FitWithConic fuel (a :: inner ++ [line_at a d k]) 0 (len inner + 1) d d err = Ok (Some [hom (middle3 a (line_at a d k)) 1]).
Proof. exact conic_chord. Qed.
Print Assumptions C134_chord_refuted.

(* an inner point in the plane of the tangents, inside the triangle they form, ends in a division of zero by zero *)
Theorem C134_planar_refuted : forall fuel x y rest err, (1 / 10 <= x)%R -> (1 / 10 <= y)%R -> (x + y <= 9 / 10)%R ->
  FitWithConic fuel (mkXYZ 0 0 0 :: (mkXYZ x y 0 :: rest) ++ [mkXYZ 1 0 0])%R 0 (len rest + 2) (mkXYZ 0 1 0)%R (mkXYZ 1 (-1) 0)%R err = NonFin.
Proof.
  intros fuel x y rest err Hx Hy Hxy. rewrite <- (conic_planar fuel x y rest err Hx Hy Hxy). unfold tri_s, tri_r, tri_e. f_equal; v3; apply xyz_eq; cbn [gx gy gz]; ring.
Qed.
Print Assumptions C134_planar_refuted.

(* in binary64 such a fit reports success with a weight that is not a number *)
Definition f3 (x y z : float) : XYZ float := mkXYZ x y z.
Definition nan_points : list (XYZ float) := [f3 0 0 0; f3 0.3 0.25 0; f3 1 0 0]%float.
Definition nan_result : list (XYZW float) := [mkXYZW nan nan nan nan].
Theorem C134_nan_refuted : FitWithConic 10 nan_points 0 2 (f3 0 1 0)%float (f3 1 (-1) 0)%float 0.1%float = Ok (Some nan_result).
Proof. vm_compute. reflexivity. Qed.
Print Assumptions C134_nan_refuted.

Example C134_chord_ex fuel : FitWithConic fuel [mkXYZ 0 0 0; mkXYZ 1 100 0; mkXYZ 2 0 0]%R 0 2 (mkXYZ 1 0 0)%R (mkXYZ 1 0 0)%R (1 / 1000)%R = Ok (Some [hom (middle3 (mkXYZ 0 0 0) (mkXYZ 2 0 0))%R 1]).
Proof.
  assert (E : line_at (mkXYZ 0 0 0)%R (mkXYZ 1 0 0)%R 2%R = (mkXYZ 2 0 0)%R) by (v3h; apply xyz_eq; cbn [gx gy gz]; ring).
  pose proof (C134_chord_refuted fuel (mkXYZ 0 0 0)%R (mkXYZ 1 0 0)%R 2%R [mkXYZ 1 100 0]%R (1 / 1000)%R) as H. rewrite E in H. apply H; [v3; lra|cbn; lia|]. not_near.
Qed.
(* the branch with a corner is reached, here in binary64 *)
Definition corner_points : list (XYZ float) := [f3 0 0 0; f3 0.5 0.00001 0; f3 1 0 0]%float.
Definition corner_result : list (XYZW float) := [mkXYZW 0 0 0 0]%float.
Example C134_corner_ex : FitWithConic 10 corner_points 0 2 (f3 0 1 0)%float (f3 1 (-1) 0)%float 0.1%float = Ok (Some corner_result).
Proof. vm_compute. reflexivity. Qed.

(** * C135 *)
Theorem C135_tangents : forall a ta e te l, ~ near a e -> IsZero ta = false -> IsZero te = false ->
  ComputerMiddleControlPointsOnQuadraticCurve a ta e te = Ok (Some l) -> tangent_arcs a ta e te l \/ straight_arc a ta e te l.
Proof. exact quad_two. Qed.
Print Assumptions C135_tangents.

(* so the fit without inner points *)
Theorem C135_fit : forall fuel Q s e ta te err l, FitWithConic fuel Q s e ta te err = Ok (Some l) -> e = s + 1 -> ~ near (pt Q s) (pt Q e) ->
  tangent_arcs (pt Q s) ta (pt Q e) te l \/ straight_arc (pt Q s) ta (pt Q e) te l.
Proof.
  intros fuel Q s e ta te err l E He HN. pose proof (arr_pt Q _ eq_refl) as AQ. unfold FitWithConic, validate_int_range in E. destruct (0 <? len Q); [cbn [validate bind] in E|discriminate].
  destruct (negb ((s <? 0) || (len Q - 1 <? s))) eqn:V1; [cbn [validate bind] in E|discriminate]. destruct (negb ((e <? s + 1) || (len Q - 1 <? e))) eqn:V2; [cbn [validate bind] in E|discriminate].
  destruct (IsZero ta) eqn:Za; [discriminate|]. destruct (IsZero te) eqn:Ze; [discriminate|]. cbn [negb validate bind] in E.
  assert (R1 : 0 <= s) by blia. assert (R2 : e <= len Q - 1) by blia. rewrite !(arr_get _ _ _ _ AQ) in E by lia. cbn [bind] in E. destruct (Z.eqb_spec (e - s) 1); [|lia]. exact (quad_two _ _ _ _ _ HN Za Ze E).
Qed.
Print Assumptions C135_fit.

(* the weight for an isosceles corner makes the arc a circular arc *)
Theorem C135_circle : forall a q e, q <> a -> q <> e -> a <> e -> dist3 q a = dist3 q e -> ~ aligned (minus3 q a) (minus3 q e) ->
  exists w, ComputerWeightForRationalQuadraticInterpolation a q e = Ok (Some w) /\ (0 < w < 1)%R /\
  exists c r, (0 < r)%R /\ forall u, (0 <= u <= 1)%R -> dist3 c (conic_at a q e w u) = r.
Proof. exact weight_circle. Qed.
Print Assumptions C135_circle.

(* the end tangent at a right angle to the chord and the start tangent is ignored: a straight segment comes out *)
Theorem C135_end_tangent_refuted : forall fuel err, FitWithConic fuel [mkXYZ 0 0 0; mkXYZ 1 0 0]%R 0 1 (mkXYZ 1 0 0)%R (mkXYZ 0 1 0)%R err = Ok (Some [hom (mkXYZ (1 / 2) 0 0)%R 1]).
Proof. exact quad_ignores. Qed.
Print Assumptions C135_end_tangent_refuted.

Lemma dir_x k : (0 < k)%R -> direction_of (mkXYZ k 0 0)%R (mkXYZ 1 0 0)%R.
Proof. intros Hk. split; [v3; ring|]. exists k. split; [exact Hk|]. v3. apply xyz_eq; cbn [gx gy gz]; ring. Qed.

Example C135_circle_ex : exists w, ComputerWeightForRationalQuadraticInterpolation (mkXYZ (-1) 0 0)%R (mkXYZ 0 1 0)%R (mkXYZ 1 0 0)%R = Ok (Some w) /\ (0 < w < 1)%R.
Proof.
  destruct (C135_circle (mkXYZ (-1) 0 0)%R (mkXYZ 0 1 0)%R (mkXYZ 1 0 0)%R) as (w & E & Hw & _).
  - intros H. injection H. lra.
  - intros H. injection H. lra.
  - intros H. injection H. lra.
  - unfold dist3, norm3. apply (f_equal R_sqrt.sqrt). v3. ring.
  - intros (x & y & (Hx & k & Hk & Ex) & (Hy & m & Hm & Ey) & HN). destruct x as [x1 x2 x3], y as [y1 y2 y3].
    unfold minus3, times3 in Ex, Ey. cbn [gx gy gz] in Ex, Ey. injection Ex as A1 A2 A3. injection Ey as B1 B2 B3. unfold dot3 in Hx, Hy. cbn [gx gy gz] in Hx, Hy.
    assert (X : x3 = 0%R) by nra. assert (Y : y3 = 0%R) by nra. assert (EX : (x1 = x2)%R) by nra. assert (EY : (y1 = - y2)%R) by nra. subst x3 y3 x1 y1.
    assert (P1 : (0 < x2)%R) by nra. assert (P2 : (0 < y2)%R) by nra. assert (x2 <= 1)%R by nra. assert (y2 <= 1)%R by nra. assert (1 / 2 <= x2)%R by nra. assert (1 / 2 <= y2)%R by nra.
    destruct HN as [(N1 & N2 & N3)|(N1 & N2 & N3)]; cbn [times3 gx gy gz] in *; unfold tol in *.
    + rewrite (Rabs_pos_eq x2), (Rabs_left (- y2)) in N1 by lra. rewrite Rabs_pos_eq in N1 by lra. assert (Rmax x2 (- - y2) <= 1)%R by (apply Rmax_lub; lra). lra.
    + rewrite (Rabs_pos_eq x2), (Rabs_left (-1 * y2)) in N2 by lra. rewrite Rabs_pos_eq in N2 by lra. assert (Rmax x2 (- (-1 * y2)) <= 1)%R by (apply Rmax_lub; lra). lra.
  - exists w. auto.
Qed.

(** * C136 *)
(* two points in a row *)
Theorem C136_pair : forall fuel Q s e ta te err l, FitWithCubic fuel Q s e ta te err = Ok (Some l) -> e = s + 1 -> exists al be, (0 <= al)%R /\ (0 <= be)%R /\
  l = [hom (line_at (pt Q s) ta al) 1; hom (line_at (pt Q e) te (- be)) 1] /\
  (0 < s -> al = (dist3 (pt Q e) (pt Q s) / dist3 (pt Q s) (pt Q (s - 1)) * norm3 ta / 3)%R) /\
  (e < len Q - 1 -> be = (dist3 (pt Q (e + 1)) (pt Q e) / dist3 (pt Q e) (pt Q s) * norm3 te / 3)%R).
Proof. exact cubic_pair. Qed.
Print Assumptions C136_pair.

(* more points: nothing but the straight segment is ever returned *)
Theorem C136_never_refuted : forall fuel Q s e ta te err l, FitWithCubic fuel Q s e ta te err = Ok (Some l) -> 2 <= e - s -> ~ small (chord_length (fun i => pt Q (s + i)) (e - s)) ->
  l = thirds (pt Q s) (pt Q e) \/ l = [hom (pt Q s) 1; hom (pt Q e) 1].
Proof. exact cubic_never. Qed.
Print Assumptions C136_never_refuted.

Theorem C136_window_refuted : forall fuel Q s e ta te err, 2 <= e - s -> e - s < s -> e < len Q -> IsZero ta = false -> IsZero te = false ->
  FitWithCubic fuel Q s e ta te err = Ok (Some (thirds (pt Q s) (pt Q e))).
Proof. exact cubic_window. Qed.
Print Assumptions C136_window_refuted.

(* three points, the inner one off the plane of the chord and the start tangent: accepted with any error bound *)
Theorem C136_far_refuted : forall fuel (a p e ta te u1 u : XYZ R) (err : R), IsZero ta = false -> IsZero te = false ->
  direction_of (minus3 p a) u1 -> direction_of (minus3 e a) u -> ~ near u1 u -> ~ small (dist3 p a) ->
  ~ (small (dot3 te (cross3 u ta)) /\ small (dot3 (minus3 p a) (cross3 u ta))) -> (0 <= err)%R -> FitWithCubic fuel [a; p; e] 0 2 ta te err = Ok (Some [hom a 1; hom e 1]).
Proof. intros fuel a p e ta te u1 u err Za Ze D1 D HN HL HO Herr. exact (three_off fuel a p e ta te u1 u err Za Ze D1 D HN HL HO Herr). Qed.
Print Assumptions C136_far_refuted.

Theorem C136_planar_refuted : forall fuel (a p e ta te u1 u : XYZ R) (err : R), IsZero ta = false -> IsZero te = false ->
  direction_of (minus3 p a) u1 -> direction_of (minus3 e a) u -> ~ near u1 u -> ~ small (dist3 p a) ->
  small (dot3 te (cross3 u ta)) -> small (dot3 (minus3 p a) (cross3 u ta)) -> FitWithCubic fuel [a; p; e] 0 2 ta te err = NonFin.
Proof. intros fuel a p e ta te u1 u err Za Ze D1 D HN HL HO HO'. apply (three_in fuel a p e ta te u1 u err Za Ze D1 D HN HL). unfold off_plane. tauto. Qed.
Print Assumptions C136_planar_refuted.

Lemma ex_dir (z : R) (Hz : (z = 0 \/ z = 1)%R) : exists u, direction_of (minus3 (mkXYZ 0 1 z) (mkXYZ 0 0 0))%R u /\ ~ near u (mkXYZ 1 0 0)%R.
Proof.
  destruct (Normalize_dir (minus3 (mkXYZ 0 1 z) (mkXYZ 0 0 0))%R) as (u & _ & Hu).
  { intros H. unfold minus3, zero3 in H. cbn [gx gy gz] in H. injection H. lra. }
  exists u. split; [exact Hu|]. destruct Hu as (_ & k & Hk & E). destruct u as [u1 u2 u3]. unfold minus3, times3 in E. cbn [gx gy gz] in E. injection E as E1 E2 E3.
  assert (u1 = 0%R) as -> by nra. intros (N1 & _). cbn [gx] in N1. unfold tol in N1. rewrite (Rabs_left (0 - 1)), Rabs_R0, Rabs_R1 in N1 by lra. assert (Rmax 0 1 <= 1)%R by (apply Rmax_lub; lra). lra.
Qed.
Lemma ex_len z : (0 <= z)%R -> ~ small (dist3 (mkXYZ 0 1 z) (mkXYZ 0 0 0))%R.
Proof.
  intros Hz. unfold small. assert (1 <= dist3 (mkXYZ 0 1 z) (mkXYZ 0 0 0))%R. { unfold dist3. rewrite <- sqrt_1 at 1. apply sqrt_le_1_alt. v3. nra. }
  rewrite Rabs_pos_eq by lra. lra.
Qed.
Lemma ex_x2 : direction_of (minus3 (mkXYZ 2 0 0) (mkXYZ 0 0 0))%R (mkXYZ 1 0 0)%R.
Proof. replace (minus3 (mkXYZ 2 0 0) (mkXYZ 0 0 0))%R with (mkXYZ 2 0 0)%R by (v3; apply xyz_eq; cbn [gx gy gz]; ring). apply dir_x. lra. Qed.
(* an inner point one unit above the segment is accepted with error bound zero *)
Example C136_far_ex fuel : FitWithCubic fuel [mkXYZ 0 0 0; mkXYZ 0 1 1; mkXYZ 2 0 0]%R 0 2 (mkXYZ 0 1 0)%R (mkXYZ 0 (-1) 0)%R 0%R = Ok (Some [hom (mkXYZ 0 0 0)%R 1; hom (mkXYZ 2 0 0)%R 1]).
Proof.
  destruct (ex_dir 1 ltac:(auto)) as (u & Hu & HN). apply (C136_far_refuted fuel _ _ _ _ _ u (mkXYZ 1 0 0)%R); try assumption.
  - apply IsZero_false. v3. lra.
  - apply IsZero_false. v3. lra.
  - exact ex_x2.
  - apply ex_len. lra.
  - intros (_ & H). revert H. v3. unfold small. intros H. match type of H with (Rabs ?x <= _)%R => replace x with 1%R in H by ring end. rewrite Rabs_R1 in H. lra.
  - lra.
Qed.
Example C136_planar_ex fuel : FitWithCubic fuel [mkXYZ 0 0 0; mkXYZ 0 1 0; mkXYZ 2 0 0]%R 0 2 (mkXYZ 0 1 0)%R (mkXYZ 0 (-1) 0)%R 0%R = NonFin.
Proof.
  destruct (ex_dir 0 ltac:(auto)) as (u & Hu & HN). apply (C136_planar_refuted fuel _ _ _ _ _ u (mkXYZ 1 0 0)%R); try assumption.
  - apply IsZero_false. v3. lra.
  - apply IsZero_false. v3. lra.
  - exact ex_x2.
  - apply ex_len. lra.
  - v3. match goal with |- small ?x => replace x with 0%R by ring end. exact small_0.
  - v3. match goal with |- small ?x => replace x with 0%R by ring end. exact small_0.
Qed.
(* a window of the list that is taken for a straight line *)
Example C136_window_ex fuel err p : FitWithCubic fuel [mkXYZ 0 0 0; mkXYZ 1 0 0; mkXYZ 1 1 0; mkXYZ 0 1 0; p; mkXYZ 0 0 9]%R 3 5 (mkXYZ 0 1 0)%R (mkXYZ 0 (-1) 0)%R err = Ok (Some (thirds (mkXYZ 0 1 0) (mkXYZ 0 0 9)))%R.
Proof. apply C136_window_refuted; try (cbn; lia); apply IsZero_false; v3; lra. Qed.
