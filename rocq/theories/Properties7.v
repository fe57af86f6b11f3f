(* Property theorems, part 7: parameters and knots for interpolation, integration, projection, intersection. *)
From Coq Require Import ZArith List Bool Reals Lra Lia.
From Coq Require Import Floats.
From Verif Require Import Base Num Vec Spec Spec3 M_MathUtils M_XYZ M_Geom M_Interp
  P_MathUtils P_Curve P_VSum P_Matrix P_Geom P_Insert2 P_Interp P_Interp2.
Import ListNotations.
Open Scope Z_scope.

(** * C40 *)
Theorem C40_chord : forall Q, 2 <= len Q -> returns (GetChordParameterization Q) (fun u =>
  len u = len Q /\ val u 0 = 0%R /\ val u (len Q - 1) = 1%R /\ sorted u /\
  (forall i, 0 <= i < len Q - 1 -> pt Q i <> pt Q (i + 1) -> (val u i < val u (i + 1))%R) /\
  (~ small (chord_length (pt Q) (len Q - 1)) -> forall i, 0 <= i < len Q -> val u i = (chord_length (pt Q) i / chord_length (pt Q) (len Q - 1))%R)).
Proof. exact Chord_returns. Qed.
Print Assumptions C40_chord.

Theorem C40_centripetal : forall Q, 2 <= len Q -> returns (GetCentripetalParameterization Q) (fun u =>
  len u = len Q /\ val u 0 = 0%R /\ val u (len Q - 1) = 1%R /\ sorted u /\
  (forall i, 0 <= i < len Q - 1 -> pt Q i <> pt Q (i + 1) -> (val u i < val u (i + 1))%R) /\
  (~ small (centripetal_length (pt Q) (len Q - 1)) -> forall i, 0 <= i < len Q -> val u i = (centripetal_length (pt Q) i / centripetal_length (pt Q) (len Q - 1))%R)).
Proof. exact Centripetal_returns. Qed.
Print Assumptions C40_centripetal.

Theorem C40_lengths : forall Q, GetTotalChordLength Q = Ok (chord_length (pt Q) (len Q - 1)) /\
  GetCentripetalLength Q = Ok (centripetal_length (pt Q) (len Q - 1)).
Proof. exact Lengths_ok. Qed.
Print Assumptions C40_lengths.

Example chord_float : GetChordParameterization [mkXYZ 0 0 0; mkXYZ 3 4 0; mkXYZ (-1) 4 0; mkXYZ (-4) 0 0; mkXYZ (-4) (-3) 0]%float
  = Ok [0; 5 / 17; 9 / 17; 14 / 17; 1]%float.
Proof. vm_compute. reflexivity. Qed.

(** * C41 *)
Example average_hypotheses : sorted [0; 5 / 17; 9 / 17; 14 / 17; 1]%R /\ (0 <= val [0; 5 / 17; 9 / 17; 14 / 17; 1]%R 0)%R /\ (val [0; 5 / 17; 9 / 17; 14 / 17; 1]%R 4 <= 1)%R.
Proof.
  split; [|split].
  - apply (sorted_arr _ 5 (val [0; 5 / 17; 9 / 17; 14 / 17; 1]%R)); [apply P_Bern.arr_val|]. intros i H1 H2.
    assert (i = 0 \/ i = 1 \/ i = 2 \/ i = 3) as [-> | [-> | [-> | ->]]] by lia; lazy [val at_ Z.add Pos.add Pos.succ Z.to_nat Pos.to_nat Pos.iter_op Init.Nat.add List.nth]; lra.
  - change (0 <= 0)%R. lra.
  - change (1 <= 1)%R. lra.
Qed.

Theorem C41_average : forall p us, 1 <= p -> p <= len us - 1 -> sorted us -> (0 <= val us 0)%R -> (val us (len us - 1) <= 1)%R ->
  returns (AverageKnotVector p us) (fun U => clamped_unit p (len us - 1) U /\
    (forall j, 1 <= j <= len us - 1 - p -> val U (p + j) = (rsum j (j + p) (val us) / IZR p)%R) /\
    ((forall i j, 0 <= i < j -> j < len us -> (val us i < val us j)%R) -> val us 0 = 0%R -> val us (len us - 1) = 1%R ->
       forall i, 0 < i < len us - 1 -> (val U i < val us i < val U (i + p + 1))%R)).
Proof. exact Average_returns. Qed.
Print Assumptions C41_average.

(* fewer parameters than the degree needs: one zero too few at the start (binary64) *)
Theorem C41_average_few_refuted : AverageKnotVector 3 [0; 0.5; 1]%float = Ok [0; 0; 0; 1; 1; 1; 1]%float.
Proof. vm_compute. reflexivity. Qed.
Print Assumptions C41_average_few_refuted.

Theorem C41_average_degree_zero_refuted : forall us : list R, 2 <= len us -> AverageKnotVector 0 us = NonFin.
Proof. exact Average_degree_zero. Qed.
Print Assumptions C41_average_degree_zero_refuted.

(** * C62 *)
Theorem C62_fit_knots : forall p n us, 0 <= p -> p <= n -> n - p + 1 <= len us -> sorted us -> (0 <= val us 0)%R -> (val us (len us - 1) <= 1)%R ->
  returns (ComputeKnotVector p (n + 1) us) (fun U => clamped_unit p n U /\
    forall j, 1 <= j <= n - p -> exists i a, (0 <= a < 1)%R /\ (IZR i + a = IZR j * (IZR (len us) / IZR (n - p + 1)))%R /\ 1 <= i < len us /\
      val U (p + j) = ((1 - a) * val us (i - 1) + a * val us i)%R).
Proof. exact Fit_returns. Qed.
Print Assumptions C62_fit_knots.

Theorem C62_every_span_has_a_parameter : forall p n us, 0 <= p -> p <= n -> n - p + 1 < len us ->
  (forall i j, 0 <= i < j -> j < len us -> (val us i < val us j)%R) -> val us 0 = 0%R -> val us (len us - 1) = 1%R ->
  returns (ComputeKnotVector p (n + 1) us) (fun U =>
    forall i, p <= i <= n -> exists k, 0 <= k < len us /\ (val U i <= val us k < val U (i + 1))%R).
Proof. exact Fit_covers. Qed.
Print Assumptions C62_every_span_has_a_parameter.

Theorem C62_too_few_parameters_refuted : forall p n (us : list R), 0 <= p -> p < n -> len us < n - p + 1 -> ComputeKnotVector p (n + 1) us = UB.
Proof. exact ComputeKnotVector_few. Qed.
Print Assumptions C62_too_few_parameters_refuted.

Example fit_hypotheses : let us := [0; 1 / 4; 1 / 2; 3 / 4; 1]%R in (forall i j, 0 <= i < j -> j < len us -> (val us i < val us j)%R) /\ 3 - 2 + 1 < len us.
Proof.
  cbv zeta. split; [|reflexivity]. intros i j Hi Hj. change (len [0; 1 / 4; 1 / 2; 3 / 4; 1]%R) with 5 in Hj.
  assert (forall k, 0 <= k < 5 -> val [0; 1 / 4; 1 / 2; 3 / 4; 1]%R k = (IZR k / 4)%R) as E.
  { intros k Hk. assert (k = 0 \/ k = 1 \/ k = 2 \/ k = 3 \/ k = 4) as [-> | [-> | [-> | [-> | ->]]]] by lia; lazy [val at_ Z.to_nat Pos.to_nat Pos.iter_op Init.Nat.add List.nth]; lra. }
  rewrite !E by lia. assert (IZR i < IZR j)%R by (apply IZR_lt; lia). lra.
Qed.

(** * C63 *)
Theorem C63_mesh : forall r c Q, net r c Q -> 1 <= r -> 1 <= c ->
  returns (GetSurfaceMeshParameterization Q) (fun o => match o with
    | None => (forall l, 0 <= l < c -> small (chord_length (fun k => pt2 Q k l) (r - 1))) \/
              (forall k, 0 <= k < r -> small (chord_length (fun l => pt2 Q k l) (c - 1)))
    | Some (u, v) => averaged_parameters (fun l k => pt2 Q k l) c r u /\ averaged_parameters (fun k l => pt2 Q k l) r c v
    end).
Proof. exact Mesh_returns. Qed.
Print Assumptions C63_mesh.

Example mesh_float : GetSurfaceMeshParameterization
    [[mkXYZ 0 0 0; mkXYZ 0 1 0; mkXYZ 0 4 0]; [mkXYZ 1 0 0; mkXYZ 1 1 0; mkXYZ 1 4 0]; [mkXYZ 2 0 0; mkXYZ 2 1 0; mkXYZ 2 4 0]]%float
  = Ok (Some ([0; 0.5; 1], [0; 0.25; 1])%float).
Proof. vm_compute. reflexivity. Qed.

(** * C64 *)
Theorem C64_tangents : forall Q u, 3 <= len Q -> GetChordParameterization Q = Ok u ->
  (forall i, 0 <= i < len Q - 1 -> (1 / 999999 < val u (i + 1) - val u i)%R) ->
  returns (ComputeTangent Q) (fun T => len T = len Q /\
    (forall i, 0 < i < len Q - 1 -> times3 (val u (i + 1) - val u (i - 1)) (pt T i) = minus3 (pt Q (i + 1)) (pt Q (i - 1))) /\
    times3 (val u 1 - val u 0) (plus3 (pt T 0) (pt T 1)) = times3 2 (minus3 (pt Q 1) (pt Q 0)) /\
    times3 (val u (len Q - 1) - val u (len Q - 2)) (plus3 (pt T (len Q - 1)) (pt T (len Q - 2))) = times3 2 (minus3 (pt Q (len Q - 1)) (pt Q (len Q - 2)))).
Proof. exact Tangent_returns. Qed.
Print Assumptions C64_tangents.

(* not the tangent of the parabola through the three points at their parameters (binary64):
   that one is (7.2, 14.6, 0) at the middle point *)
Theorem C64_parabola_refuted : exists a b c, ComputeTangent [mkXYZ 0 0 0; mkXYZ 3 4 0; mkXYZ 3 16 0]%float = Ok [a; b; c] /\ gx b = 3%float.
Proof. do 3 eexists. split; [vm_compute; reflexivity|vm_compute; reflexivity]. Qed.
Print Assumptions C64_parabola_refuted.

Theorem C64_repeated_point_refuted : forall a b, ~ small (dist3 b a) -> ComputeTangent [a; b; b] = NonFin.
Proof. exact ComputeTangent_repeated. Qed.
Print Assumptions C64_repeated_point_refuted.

(** * C43 *)
Theorem C43_simpson : forall f F a b c d s e, (forall t, f t = (a + b * t + c * t ^ 2 + d * t ^ 3)%R) ->
  (forall t, derivable_pt_lim F t (f t)) -> Simpson f s e = Ok (F e - F s)%R.
Proof. exact Simpson_exact. Qed.
Print Assumptions C43_simpson.

Example simpson_hypotheses : exists F, forall t, derivable_pt_lim F t (1 + 2 * t + 3 * t ^ 2 + 4 * t ^ 3)%R.
Proof. exists (quartic 1 2 3 4). intros t. apply quartic_deriv. Qed.

Theorem C43_simpson2 : forall f G H (k : Z -> Z -> R) us ue vs ve,
  (forall u v, f u v = rsum 0 4 (fun i => rsum 0 4 (fun j => k i j * u ^ Z.to_nat i * v ^ Z.to_nat j)%R)) ->
  (forall u v, derivable_pt_lim (G u) v (f u v)) -> (forall u, derivable_pt_lim H u (G u ve - G u vs)%R) ->
  Simpson2 f us ue vs ve = Ok (H ue - H us)%R.
Proof. exact Simpson2_exact. Qed.
Print Assumptions C43_simpson2.

(* not exact on degree 4 (binary64): the integral of t^4 over [0, 1] is 0.2 *)
Theorem C43_quartic_refuted : exists x, Simpson (fun t => t * t * t * t)%float 0%float 1%float = Ok x /\ PrimFloat.ltb 0.203125 x = true.
Proof. eexists. split; [vm_compute; reflexivity|vm_compute; reflexivity]. Qed.
Print Assumptions C43_quartic_refuted.

(** * C44 *)
Theorem C44_ray : forall a v x, v <> zero3 -> returns (PointToRay a v x) (fun q => exists t, q = line_at a v t /\
  dot3 (minus3 x q) v = 0%R /\ forall s, (dist3 x q <= dist3 x (line_at a v s))%R).
Proof. exact Ray_returns. Qed.
Print Assumptions C44_ray.

Theorem C44_zero_direction : forall a x, PointToRay a zero3 x = NonFin.
Proof. exact PointToRay_zero. Qed.
Print Assumptions C44_zero_direction.

(* it is the line, not the ray: the result lies behind the origin (binary64) *)
Theorem C44_behind_origin_refuted : (PointToRay (mkXYZ 0 0 0) (mkXYZ 1 0 0) (mkXYZ (-2) 1 0) = Ok (mkXYZ (-2) 0 0))%float.
Proof. vm_compute. reflexivity. Qed.
Print Assumptions C44_behind_origin_refuted.

Theorem C44_segment : forall a b x, ~ small (dot3 (minus3 b a) (minus3 b a)) ->
  returns (PointToLine a b x) (fun o => exists t, let q := line_at a (minus3 b a) t in
    dot3 (minus3 x q) (minus3 b a) = 0%R /\ (forall s, (dist3 x q <= dist3 x (line_at a (minus3 b a) s))%R) /\
    (o = Some q /\ (- tol t 0 <= t <= 1 + tol t 1)%R \/ o = None /\ (t < - tol t 0 \/ 1 + tol t 1 < t)%R)).
Proof. exact Segment_returns. Qed.
Print Assumptions C44_segment.

Theorem C44_degenerate_segment : forall a b x, small (dot3 (minus3 b a) (minus3 b a)) -> PointToLine a b x = Ok None.
Proof. exact PointToLine_small. Qed.
Print Assumptions C44_degenerate_segment.

Example segment_hypotheses : ~ small (dot3 (minus3 (mkXYZ 1 2 3) (mkXYZ 0 0 1)) (minus3 (mkXYZ 1 2 3) (mkXYZ 0 0 1)))%R.
Proof. unfold small, dot3, minus3. cbn [gx gy gz]. unfold Rabs. destruct (Rcase_abs _); lra. Qed.

Theorem C44_stereographic : forall p r, (gz p <> 2 * r)%R -> returns (Stereographic p r) (fun q =>
  gz q = 0%R /\ exists k, q = line_at (mkXYZ 0 0 (2 * r))%R (minus3 p (mkXYZ 0 0 (2 * r))%R) k).
Proof. exact Stereo_returns. Qed.
Print Assumptions C44_stereographic.

Theorem C44_stereographic_pole : forall p r, (gz p = 2 * r)%R -> Stereographic p r = NonFin.
Proof. exact Stereographic_pole. Qed.
Print Assumptions C44_stereographic_pole.

(** * C45 *)
Theorem C45_same : forall p0 v0 p1 v1 a b out, near v0 v1 -> near p0 p1 -> ComputeRays p0 v0 p1 v1 a b out = Ok (Intersecting, 0, 0, p0)%R.
Proof. exact ComputeRays_near. Qed.
Print Assumptions C45_same.

Theorem C45_zero_vector : forall p0 v0 p1 v1 a b out, ~ (near v0 v1 /\ near p0 p1) -> (dot3 v0 v0 <= 1 / 10 ^ 12)%R \/ (dot3 v1 v1 <= 1 / 10 ^ 12)%R ->
  ComputeRays p0 v0 p1 v1 a b out = Throw.
Proof. exact ComputeRays_zero. Qed.
Print Assumptions C45_zero_vector.

Theorem C45_cases : forall p0 v0 p1 v1, ~ (near v0 v1 /\ near p0 p1) -> (1 / 10 ^ 12 < dot3 v0 v0)%R -> (1 / 10 ^ 12 < dot3 v1 v1)%R -> forall a b out,
  let gram := (dot3 v0 v0 * dot3 v1 v1 - dot3 v0 v1 * dot3 v0 v1)%R in
  (small gram -> small (norm3 (cross3 (minus3 p1 p0) v0)) -> ComputeRays p0 v0 p1 v1 a b out = Ok (Coincident, 0, 0, p0)%R) /\
  (small gram -> ~ small (norm3 (cross3 (minus3 p1 p0) v0)) -> ComputeRays p0 v0 p1 v1 a b out = Ok (Parallel, a, b, out)) /\
  (~ small gram -> exists s t,
     (forall s' t', (dist3 (line_at p0 v0 s) (line_at p1 v1 t) <= dist3 (line_at p0 v0 s') (line_at p1 v1 t'))%R) /\
     (forall s' t', line_at p0 v0 s' = line_at p1 v1 t' -> s' = s /\ t' = t) /\
     (small (dist3 (line_at p0 v0 s) (line_at p1 v1 t)) ->
        ComputeRays p0 v0 p1 v1 a b out = Ok (Intersecting, s, t, times3 (1 / 2) (plus3 (line_at p0 v0 s) (line_at p1 v1 t)))) /\
     (~ small (dist3 (line_at p0 v0 s) (line_at p1 v1 t)) -> ComputeRays p0 v0 p1 v1 a b out = Ok (Skew, s, t, line_at p0 v0 s))).
Proof. exact ComputeRays_cases. Qed.
Print Assumptions C45_cases.

Theorem C45_meeting_lines : forall p0 v0 p1 v1, ~ (near v0 v1 /\ near p0 p1) -> (1 / 10 ^ 12 < dot3 v0 v0)%R -> (1 / 10 ^ 12 < dot3 v1 v1)%R -> forall a b out s t,
  ~ small (dot3 v0 v0 * dot3 v1 v1 - dot3 v0 v1 * dot3 v0 v1)%R -> line_at p0 v0 s = line_at p1 v1 t ->
  ComputeRays p0 v0 p1 v1 a b out = Ok (Intersecting, s, t, line_at p0 v0 s).
Proof. exact ComputeRays_meet. Qed.
Print Assumptions C45_meeting_lines.

(* perpendicular lines that meet at (1, 0, 0), with short direction vectors (binary64) *)
Theorem C45_short_vectors_refuted : (ComputeRays (mkXYZ 0 0 0) (mkXYZ 0.0001220703125 0 0) (mkXYZ 1 (-1) 0) (mkXYZ 0 0.0001220703125 0) 0 0 (mkXYZ 0 0 0) =
  Ok (Parallel, 0, 0, mkXYZ 0 0 0))%float.
Proof. vm_compute. reflexivity. Qed.
Print Assumptions C45_short_vectors_refuted.

Example rays_float : (ComputeRays (mkXYZ 0 0 0) (mkXYZ 1 1 0) (mkXYZ 2 0 0) (mkXYZ 0 1 0) 0 0 (mkXYZ 0 0 0) = Ok (Intersecting, 2, 2, mkXYZ 2 2 0)
  /\ ComputeRays (mkXYZ 0 0 0) (mkXYZ 1 1 0) (mkXYZ 2 0 1) (mkXYZ 0 1 0) 0 0 (mkXYZ 0 0 0) = Ok (Skew, 2, 2, mkXYZ 2 2 0))%float.
Proof. split; vm_compute; reflexivity. Qed.

(** * C46 *)
Theorem C46_line_plane : forall n q p d out,
  (~ small (dot3 d n) -> exists x t, ComputeLineAndPlane n q p d out = Ok (LP_Intersecting, x) /\
      x = line_at p d t /\ dot3 (minus3 x q) n = 0%R /\ forall s, dot3 (minus3 (line_at p d s) q) n = 0%R -> s = t) /\
  (small (dot3 d n) -> small (dot3 (minus3 p q) n) -> ComputeLineAndPlane n q p d out = Ok (LP_On, p)) /\
  (small (dot3 d n) -> ~ small (dot3 (minus3 p q) n) -> ComputeLineAndPlane n q p d out = Ok (LP_Parallel, out)).
Proof. exact LineAndPlane_ok. Qed.
Print Assumptions C46_line_plane.

(* a short direction vector hides that the line meets the plane (binary64) *)
Theorem C46_short_vector_refuted : (ComputeLineAndPlane (mkXYZ 0 0 1) (mkXYZ 0 0 0) (mkXYZ 0 0 1) (mkXYZ 0 0 0.000000059604644775390625) (mkXYZ 0 0 0) =
  Ok (LP_Parallel, mkXYZ 0 0 0))%float.
Proof. vm_compute. reflexivity. Qed.
Print Assumptions C46_short_vector_refuted.

Example line_plane_float : (ComputeLineAndPlane (mkXYZ 0 0 2) (mkXYZ 5 5 1) (mkXYZ 1 1 5) (mkXYZ 1 0 (-2)) (mkXYZ 0 0 0) = Ok (LP_Intersecting, mkXYZ 3 1 1))%float.
Proof. vm_compute. reflexivity. Qed.
