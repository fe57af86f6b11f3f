(* Property theorems, part 18: the shape of a curve, and the functions that change it. *)
From Coq Require Import ZArith List Bool Reals Lra Lia Floats.
From Verif Require Import Base Num Vec Tac Spec Spec2 Spec3 Spec4 Spec5 Spec10 M_MathUtils M_Polynomials M_Knots M_XYZ M_Bspline M_NurbsCurve M_Interp M_Shape
  P_MathUtils P_XYZ P_Vec P_VSum P_Curve P_Bspline P_Decomp P_Make P_Geom P_Shape P_Shape2 P_Shape3 P_Shape4 P_Unclamp P_Hermite P_Periodic.
Import ListNotations.
Open Scope Z_scope.

(* the parabola with control points (0,0,0), (1,1,0), (2,0,0) *)
Definition parabola : Curve float (XYZW float) := (mkCurve 2 [0; 0; 0; 1; 1; 1] [mkXYZW 0 0 0 1; mkXYZW 1 1 0 1; mkXYZW 2 0 0 1])%float.

(* the curve returned *)
Definition got {A} (d : A) (r : res A) : A := match r with Ok x => x | _ => d end.

(** * C79 *)
Theorem C79_curvature : forall p n U H t, curve_knots p n U -> p <= 7 -> len H = n + 1 -> in_domain p n U t -> ww (curve_point p n U H t) <> 0%R ->
  exists g, curve_derivs p n U H 2 t g /\ let a := g 1 in let b := g 2 in
    (a <> zero3 -> ~ close (norm3 a) 1 -> Curvature (mkCurve p U H) t = Ok (norm3 (cross3 a b) / norm3 a ^ 3)%R) /\
    (a = zero3 -> Curvature (mkCurve p U H) t = NonFin) /\
    (close (norm3 a) 1 -> Curvature (mkCurve p U H) t = Ok (norm3 b)).
Proof. exact Curvature_ok. Qed.
Print Assumptions C79_curvature.

Theorem C79_arc_length : forall p n U H, curve_knots p n U -> p <= 7 -> len H = n + 1 -> heavy H -> forall t, in_domain p n U t ->
  exists g, curve_derivs p n U H 2 t g /\
    (norm3 (g 1) = 1%R -> dot3 (g 1) (g 2) = 0%R -> Curvature (mkCurve p U H) t = Ok (norm3 (cross3 (g 1%Z) (g 2%Z)) / norm3 (g 1%Z) ^ 3)%R).
Proof. exact Curvature_arclength. Qed.
Print Assumptions C79_arc_length.

Theorem C79_normals : forall p n U H t, curve_knots p n U -> p <= 7 -> len H = n + 1 -> in_domain p n U t -> ww (curve_point p n U H t) <> 0%R ->
  exists g, curve_derivs p n U H 2 t g /\ let a := g 1 in let b := g 2 in let c := mkCurve p U H in
    (cross3 a b <> zero3 -> ~ close (norm3 a) 1 -> exists x y, CurveNormalAt c CN_Normal t = Ok x /\ CurveNormalAt c CN_Binormal t = Ok y /\
       direction_of (cross3 a b) y /\ direction_of (minus3 (times3 (dot3 a a) b) (times3 (dot3 a b) a)) x) /\
    (cross3 a b = zero3 -> ~ close (norm3 a) 1 -> CurveNormalAt c CN_Normal t = NonFin /\ CurveNormalAt c CN_Binormal t = NonFin) /\
    (b <> zero3 -> close (norm3 a) 1 -> exists x, direction_of b x /\ CurveNormalAt c CN_Normal t = Ok x /\ CurveNormalAt c CN_Binormal t = Ok (cross3 a x)) /\
    (b = zero3 -> close (norm3 a) 1 -> CurveNormalAt c CN_Normal t = NonFin /\ CurveNormalAt c CN_Binormal t = NonFin).
Proof. exact Frenet_ok. Qed.
Print Assumptions C79_normals.

(* a straight line, parameterised so that its speed at the start is 1, is reported with curvature 4, and its normal is its tangent *)
Theorem C79_refuted : exists c : Curve float (XYZW float),
  IsLinear c = Ok true /\ Curvature c 0%float = Ok 4%float /\ CurveNormalAt c CN_Normal 0%float = Ok (mkXYZ 1 0 0)%float /\
  (let! d := ComputeRationalCurveDerivatives c 1 0%float in get d 1) = Ok (mkXYZ 1 0 0)%float.
Proof. exists (mkCurve 2 [0; 0; 0; 1; 1; 1] [mkXYZW 0 0 0 1; mkXYZW 0.5 0 0 1; mkXYZW 3 0 0 1])%float. vm_compute. repeat split. Qed.
Print Assumptions C79_refuted.

Lemma bez2_knots : curve_knots 2 2 [0; 0; 0; 1; 1; 1]%R.
Proof. apply (bez_knots_ok 2). lia. Qed.
Lemma bez2_dom t : (0 <= t <= 1)%R -> in_domain 2 2 [0; 0; 0; 1; 1; 1]%R t.
Proof. intros. apply (bez_dom 2); [lia|assumption]. Qed.

Definition arch : list (XYZW R) := [mkXYZW 0 0 0 1; mkXYZW 1 1 0 1; mkXYZW 2 0 0 1]%R.
Lemma heavy_1 : (tol 1 0 < 1)%R.
Proof. unfold tol. rewrite Rabs_R0, (Rabs_pos_eq 1), Rmax_left by lra. lra. Qed.
Lemma arch_heavy : heavy arch.
Proof. intros i Hi. assert (i = 0 \/ i = 1 \/ i = 2) as [-> | [-> | ->]] by (change (len arch) with 3 in Hi; lia); apply heavy_1. Qed.
Example C79_ex : curve_knots 2 2 [0; 0; 0; 1; 1; 1]%R /\ len arch = 2 + 1 /\ in_domain 2 2 [0; 0; 0; 1; 1; 1]%R (1 / 2) /\ ww (curve_point 2 2 [0; 0; 0; 1; 1; 1]%R arch (1 / 2)) <> 0%R /\
  Curvature parabola 0.5%float = Ok 1%float /\ CurveNormalAt parabola CN_Normal 0.5%float = Ok (mkXYZ 0 (-1) 0)%float /\ CurveNormalAt parabola CN_Binormal 0.5%float = Ok (mkXYZ 0 0 (-1))%float.
Proof.
  split; [apply bez2_knots|]. split; [reflexivity|]. split; [apply bez2_dom; lra|]. split; [|vm_compute; repeat split].
  assert (Ht : (0 <= 1 / 2 <= 1)%R) by lra. pose proof (wpos 2 2 _ arch bez2_knots eq_refl arch_heavy (1 / 2)%R (bez2_dom _ Ht)). lra.
Qed.

(** * C80 *)
Theorem C80_torsion : forall p n U H t, curve_knots p n U -> p <= 7 -> len H = n + 1 -> in_domain p n U t -> ww (curve_point p n U H t) <> 0%R ->
  exists g, curve_derivs p n U H 3 t g /\ let a := g 1 in let b := g 2 in let c := mkCurve p U H in
    (cross3 a b <> zero3 -> ~ close (norm3 a) 1 -> Torsion c t = Ok (dot3 (cross3 a b) (g 3%Z) / dot3 (cross3 a b) (cross3 a b))%R) /\
    (cross3 a b = zero3 -> ~ close (norm3 a) 1 -> Torsion c t = NonFin) /\
    (b <> zero3 -> close (norm3 a) 1 -> Torsion c t = Ok (dot3 (cross3 a b) (g 3%Z) / dot3 b b)%R) /\
    (b = zero3 -> close (norm3 a) 1 -> Torsion c t = NonFin).
Proof. exact Torsion_ok. Qed.
Print Assumptions C80_torsion.

(* two curves with the same trace and the same point at 0, one of them with speed 1 there: the torsions differ *)
Theorem C80_refuted : exists c c' : Curve float (XYZW float),
  NurbsPoint c 0%float = NurbsPoint c' 0%float /\ NurbsPoint c 0.5%float = NurbsPoint c' 0.25%float /\ NurbsPoint c 1%float = NurbsPoint c' 0.5%float /\
  KnotVector c' = map (fun x => x / 2)%float (KnotVector c) /\ ControlPoints c = ControlPoints c' /\
  Torsion c 0%float = Ok 0.5%float /\ Torsion c' 0%float = Ok 1%float.
Proof.
  exists (mkCurve 4 [0; 0; 0; 0; 0; 1; 1; 1; 1; 1] [mkXYZW 0 0 0 1; mkXYZW 0.25 0 0 1; mkXYZW 0.75 0.25 0 1; mkXYZW 1.5 0.75 0.125 1; mkXYZW 2 2 1 1])%float.
  exists (mkCurve 4 [0; 0; 0; 0; 0; 0.5; 0.5; 0.5; 0.5; 0.5] [mkXYZW 0 0 0 1; mkXYZW 0.25 0 0 1; mkXYZW 0.75 0.25 0 1; mkXYZW 1.5 0.75 0.125 1; mkXYZW 2 2 1 1])%float. vm_compute. repeat split.
Qed.
Print Assumptions C80_refuted.

(** * C81 *)
Theorem C81_reposition : forall p n U H, curve_knots p n U -> p <= 7 -> len H = n + 1 -> heavy H ->
  forall w t k v d, (forall i, 0 <= i <= n -> ww (pt H i) = w) -> span_of p n U t k -> (t < val U (k + 1))%R -> (1 / 10 ^ 12 < dot3 v v)%R -> ~ small d ->
  exists H' u, ControlPointReposition (mkCurve p U H) t (k - p) v d = Ok (Some (mkCurve p U H')) /\ direction_of v u /\
    proj (curve_point p n U H' t) = plus3 (proj (curve_point p n U H t)) (times3 d u).
Proof. exact Reposition_equal. Qed.
Print Assumptions C81_reposition.

(* in general the curve moves by the distance times the ratio of two basis functions *)
Theorem C81_reposition_any : forall p n U H, curve_knots p n U -> p <= 7 -> len H = n + 1 -> heavy H ->
  forall t k m v d, span_of p n U t k -> (t < val U (k + 1))%R -> 0 <= m <= n -> (1 / 10 ^ 12 < dot3 v v)%R -> ~ small d ->
  exists H' u, ControlPointReposition (mkCurve p U H) t m v d = Ok (Some (mkCurve p U H')) /\ direction_of v u /\
    proj (curve_point p n U H' t) = plus3 (proj (curve_point p n U H t)) (times3 (d * (share p n U H m t / N (val U) (val U (n + 1)) (Z.to_nat p) (k - p) t)) u).
Proof. exact Reposition_general. Qed.
Print Assumptions C81_reposition_any.

Theorem C81_refuted_end : forall p n U H, curve_knots p n U -> p <= 7 -> len H = n + 1 -> heavy H ->
  forall m v d, 1 <= p -> 0 <= m <= n -> (1 / 10 ^ 12 < dot3 v v)%R -> ~ small d -> ControlPointReposition (mkCurve p U H) (val U (n + 1)) m v d = NonFin.
Proof. exact Reposition_end. Qed.
Print Assumptions C81_refuted_end.

(* asked to move the curve by 1 along y with the middle control point, the point at 1/2 moves by 2 *)
Theorem C81_refuted : exists c' : Curve float (XYZW float),
  ControlPointReposition parabola 0.5%float 1 (mkXYZ 0 1 0)%float 1%float = Ok (Some c') /\
  NurbsPoint parabola 0.5%float = Ok (mkXYZ 1 0.5 0)%float /\ NurbsPoint c' 0.5%float = Ok (mkXYZ 1 2.5 0)%float.
Proof. exists (match got None (ControlPointReposition parabola 0.5%float 1 (mkXYZ 0 1 0)%float 1%float) with Some c => c | None => parabola end). vm_compute. repeat split. Qed.
Print Assumptions C81_refuted.

Lemma bez2_span : span_of 2 2 [0; 0; 0; 1; 1; 1]%R (1 / 2) 2.
Proof. split; [lia|]. change (val [0; 0; 0; 1; 1; 1]%R 2) with 0%R. change (val [0; 0; 0; 1; 1; 1]%R (2 + 1)) with 1%R. split; [lra|]. split; [lra|]. left. lra. Qed.
Lemma not_small_1 : ~ small 1.
Proof. unfold small. rewrite Rabs_pos_eq by lra. lra. Qed.
Example C81_ex : (forall i, 0 <= i <= 2 -> ww (pt arch i) = 1%R) /\ span_of 2 2 [0; 0; 0; 1; 1; 1]%R (1 / 2) 2 /\ (1 / 2 < val [0; 0; 0; 1; 1; 1] (2 + 1)%Z)%R /\ (1 / 10 ^ 12 < dot3 (mkXYZ 0 1 0) (mkXYZ 0 1 0))%R /\ ~ small 1.
Proof.
  split; [intros i Hi; assert (i = 0 \/ i = 1 \/ i = 2) as [-> | [-> | ->]] by lia; reflexivity|]. split; [apply bez2_span|].
  split; [change (val [0; 0; 0; 1; 1; 1]%R (2 + 1)) with 1%R; lra|]. split; [unfold dot3; cbn [gx gy gz]; lra|apply not_small_1].
Qed.

(** * C82 *)
Theorem C82_weight : forall p n U H, curve_knots p n U -> p <= 7 -> len H = n + 1 -> heavy H ->
  forall w t k d, (forall i, 0 <= i <= n -> ww (pt H i) = w) -> span_of p n U t k -> (t < val U (k + 1))%R -> ~ small d ->
  let P := proj (curve_point p n U H t) in let Q := proj (pt H (k - p)) in P <> Q -> dist3 P Q <> d ->
  exists H' : list (XYZW R), WeightModification (mkCurve p U H) t (k - p) d = Ok (mkCurve p U H') /\ ww (curve_point p n U H' t) <> 0%R /\
    proj (curve_point p n U H' t) = plus3 P (times3 (d / dist3 P Q) (minus3 Q P)).
Proof. exact Weight_equal. Qed.
Print Assumptions C82_weight.

Theorem C82_refuted_end : forall p n U H, curve_knots p n U -> p <= 7 -> len H = n + 1 -> heavy H ->
  forall m d, 1 <= p -> 0 <= m <= n -> ~ small d -> WeightModification (mkCurve p U H) (val U (n + 1)) m d = NonFin.
Proof. exact Weight_end. Qed.
Print Assumptions C82_refuted_end.

(* asked to pull the point (1, 1/2, 0) by 1/4 towards the control point (1, 1, 0), the curve moves beyond (1, 13/16, 0) *)
Theorem C82_refuted : exists (c' : Curve float (XYZW float)) y,
  WeightModification parabola 0.5%float 1 0.25%float = Ok c' /\ NurbsPoint parabola 0.5%float = Ok (mkXYZ 1 0.5 0)%float /\
  NurbsPoint c' 0.5%float = Ok (mkXYZ 1 y 0)%float /\ (0.8125 <? y)%float = true.
Proof.
  exists (got parabola (WeightModification parabola 0.5%float 1 0.25%float)).
  exists (gy (got (mkXYZ 0 0 0)%float (NurbsPoint (got parabola (WeightModification parabola 0.5%float 1 0.25%float)) 0.5%float))). vm_compute. repeat split.
Qed.
Print Assumptions C82_refuted.

Lemma quad_point (P0 P1 P2 : XYZW R) t : (0 <= t <= 1)%R -> curve_point 2 2 [0; 0; 0; 1; 1; 1]%R [P0; P1; P2] t =
  (mkXYZW ((1 - t) * (1 - t) * wx P0 + 2 * t * (1 - t) * wx P1 + t * t * wx P2) ((1 - t) * (1 - t) * wy P0 + 2 * t * (1 - t) * wy P1 + t * t * wy P2)
    ((1 - t) * (1 - t) * wz P0 + 2 * t * (1 - t) * wz P1 + t * t * wz P2) ((1 - t) * (1 - t) * ww P0 + 2 * t * (1 - t) * ww P1 + t * t * ww P2))%R.
Proof.
  intros Ht. apply co_ext. intros c. change [0; 0; 0; 1; 1; 1]%R with (bezier_knots 2). rewrite (bez_curve 2) by (lia || assumption). rewrite rsum_3. destruct (bern2 t) as (-> & -> & ->).
  change (pt [P0; P1; P2] 0) with P0. change (pt [P0; P1; P2] 1) with P1. change (pt [P0; P1; P2] 2) with P2.
  do 3 (destruct c as [|c]; [reflexivity|]). reflexivity.
Qed.
Example C82_ex : let P := proj (curve_point 2 2 [0; 0; 0; 1; 1; 1]%R arch (1 / 2)) in
  P <> proj (pt arch (2 - 2)) /\ dist3 P (proj (pt arch (2 - 2))) <> (1 / 4)%R /\ ~ small (1 / 4).
Proof.
  assert (Q0 : proj (pt arch (2 - 2)) = (mkXYZ 0 0 0)%R) by (unfold proj, pt, at_, arch; cbn; f_equal; field).
  assert (P0 : proj (curve_point 2 2 [0; 0; 0; 1; 1; 1]%R arch (1 / 2)) = (mkXYZ 1 (1 / 2) 0)%R).
  { unfold arch. rewrite quad_point by lra. unfold proj. cbn [wx wy wz ww]. f_equal; field. }
  cbv zeta. rewrite P0, Q0. split; [intros E; apply (f_equal (@gx R)) in E; cbn in E; lra|]. split; [|unfold small; rewrite Rabs_pos_eq by lra; lra].
  intros E. assert (E2 : (dist3 (mkXYZ 1 (1 / 2) 0) (mkXYZ 0 0 0) * dist3 (mkXYZ 1 (1 / 2) 0) (mkXYZ 0 0 0) = 1 / 16)%R) by (rewrite E; field).
  unfold dist3 in E2. rewrite norm_sq in E2. unfold dot3, minus3 in E2. cbn [gx gy gz] in E2. lra.
Qed.

(** * C83 *)
Theorem C83_warp : forall p n U H, curve_knots p n U -> p <= 7 -> len H = n + 1 -> heavy H ->
  forall s d v t0 t1, len s = n + 1 -> ~ small d -> (1 / 10 ^ 12 < dot3 v v)%R -> in_domain p n U t0 -> in_domain p n U t1 -> (t0 + tol t0 t1 < t1)%R ->
  exists g, curve_derivs p n U H 1 ((t0 + t1) / 2) g /\ (cross3 (g 1) v <> zero3 ->
    exists H' u, Warping (mkCurve p U H) s d v t0 t1 = Ok (mkCurve p U H') /\ direction_of (times3 d (cross3 (g 1) v)) u /\ moved H H' (fun i => times3 (val s i * Rabs d) u) /\
      forall t, in_domain p n U t -> proj (curve_point p n U H' t) =
        plus3 (proj (curve_point p n U H t)) (times3 (rsum 0 (n + 1) (fun i => share p n U H i t * (val s i * Rabs d))%R) u)).
Proof. exact Warping_points. Qed.
Print Assumptions C83_warp.

Example C83_ex : len [0; 1; 0]%R = 2 + 1 /\ ~ small 1 /\ (1 / 10 ^ 12 < dot3 (mkXYZ 0 0 1) (mkXYZ 0 0 1))%R /\ in_domain 2 2 [0; 0; 0; 1; 1; 1]%R 0 /\ in_domain 2 2 [0; 0; 0; 1; 1; 1]%R 1 /\ (0 + tol 0 1 < 1)%R /\
  Warping parabola [0; 1; 0]%float 2%float (mkXYZ 0 0 1)%float 0%float 1%float = Ok (mkCurve 2 [0; 0; 0; 1; 1; 1] [mkXYZW 0 0 0 1; mkXYZW 1 (-1) 0 1; mkXYZW 2 0 0 1])%float.
Proof.
  split; [reflexivity|]. split; [apply not_small_1|]. split; [unfold dot3; cbn [gx gy gz]; lra|]. split; [apply bez2_dom; lra|]. split; [apply bez2_dom; lra|].
  split; [unfold tol; rewrite Rabs_R0, (Rabs_pos_eq 1), Rmax_right by lra; lra|]. vm_compute. reflexivity.
Qed.

(** * C84 *)
Theorem C84_flatten : forall p n U H, curve_knots p n U -> len H = n + 1 -> heavy H ->
  forall a b t0 t1 k0 k1, ~ Spec3.near a b -> ~ small (dot3 (minus3 b a) (minus3 b a)) -> span_of p n U t0 k0 -> span_of p n U t1 k1 -> (t0 + tol t0 t1 < t1)%R ->
  exists H' r, Flattening (mkCurve p U H) a b t0 t1 = Ok (mkCurve p U H', r) /\ len H' = n + 1 /\
    (forall i, 0 <= i <= n -> k0 <= i < k1 - p -> exists s, let q := line_at a (minus3 b a) s in dot3 (minus3 (proj (pt H i)) q) (minus3 b a) = 0%R /\
       ((- tol s 0 <= s <= 1 + tol s 1)%R /\ pt H' i = hom q (ww (pt H i)) \/ (s < - tol s 0 \/ 1 + tol s 1 < s)%R /\ pt H' i = pt H i)) /\
    (forall i, 0 <= i <= n -> ~ k0 <= i < k1 - p -> pt H' i = pt H i) /\
    (r = true -> p + 1 <= k1 - p - k0) /\
    ((forall i s, k0 <= i < k1 - p -> dot3 (minus3 (proj (pt H i)) (line_at a (minus3 b a) s)) (minus3 b a) = 0%R -> (- tol s 0 <= s <= 1 + tol s 1)%R) -> p + 1 <= k1 - p - k0 -> r = true).
Proof. exact Flattening_ok. Qed.
Print Assumptions C84_flatten.

Theorem C84_flat : forall p n U H, curve_knots p n U -> len H = n + 1 -> heavy H ->
  forall a b t0 t1 k0 k1, ~ Spec3.near a b -> ~ small (dot3 (minus3 b a) (minus3 b a)) -> span_of p n U t0 k0 -> span_of p n U t1 k1 -> (t0 + tol t0 t1 < t1)%R ->
  p + 1 <= k1 - p - k0 ->
  (forall i s, k0 <= i < k1 - p -> dot3 (minus3 (proj (pt H i)) (line_at a (minus3 b a) s)) (minus3 b a) = 0%R -> (0 <= s <= 1)%R) ->
  exists H', Flattening (mkCurve p U H) a b t0 t1 = Ok (mkCurve p U H', true) /\ len H' = n + 1 /\
    forall t k, span_of p n U t k -> k0 + p <= k < k1 - p -> exists s, proj (curve_point p n U H' t) = line_at a (minus3 b a) s.
Proof. exact Flattening_flat. Qed.
Print Assumptions C84_flat.

(* the return value true does not promise a straight piece: one control point beyond the end of the segment stays where it is *)
Theorem C84_refuted : exists c c' : Curve float (XYZW float),
  Flattening c (mkXYZ 0 0 0)%float (mkXYZ 4 0 0)%float 0.5%float 5.5%float = Ok (c', true) /\
  NurbsPoint c 2%float = Ok (mkXYZ 5 1 0)%float /\ NurbsPoint c' 1%float = Ok (mkXYZ 1 0 0)%float /\ NurbsPoint c' 2%float = Ok (mkXYZ 5 1 0)%float /\ NurbsPoint c' 3%float = Ok (mkXYZ 3 0 0)%float.
Proof.
  exists (mkCurve 1 [0; 0; 1; 2; 3; 4; 5; 6; 6] [mkXYZW 0 1 0 1; mkXYZW 1 1 0 1; mkXYZW 5 1 0 1; mkXYZW 3 1 0 1; mkXYZW 4 1 0 1; mkXYZW 5 1 0 1; mkXYZW 6 1 0 1])%float.
  exists (mkCurve 1 [0; 0; 1; 2; 3; 4; 5; 6; 6] [mkXYZW 0 1 0 1; mkXYZW 1 0 0 1; mkXYZW 5 1 0 1; mkXYZW 3 0 0 1; mkXYZW 4 0 0 1; mkXYZW 5 1 0 1; mkXYZW 6 1 0 1])%float. vm_compute. repeat split.
Qed.
Print Assumptions C84_refuted.

(* the polyline (0,0,0), (1,1,0), (2,1,0), (3,0,0), (4,0,0) *)
Definition polyK : list R := [0; 0; 1; 2; 3; 4; 4]%R.
Definition polyP : list (XYZW R) := [mkXYZW 0 0 0 1; mkXYZW 1 1 0 1; mkXYZW 2 1 0 1; mkXYZW 3 0 0 1; mkXYZW 4 0 0 1]%R.
Lemma poly_knots : curve_knots 1 4 polyK.
Proof.
  assert (T : forall x, (0 <= x <= 3)%R -> (x + tol x (x + 1) < x + 1)%R) by (intros x Hx; unfold tol; rewrite (Rabs_pos_eq x), (Rabs_pos_eq (x + 1)), Rmax_right by lra; lra).
  constructor; try (cbn; lia).
  - unfold polyK. sorted_tac.
  - change (val polyK 1) with 0%R. change (val polyK (1 + 1)) with 1%R. pose proof (T 0%R ltac:(lra)) as Q. replace (0 + 1)%R with 1%R in Q by ring. exact Q.
  - change (val polyK 4) with 3%R. change (val polyK (4 + 1)) with 4%R. pose proof (T 3%R ltac:(lra)) as Q. replace (3 + 1)%R with 4%R in Q by ring. exact Q.
Qed.
Lemma poly_heavy : heavy polyP.
Proof. intros i Hi. change (len polyP) with 5 in Hi. assert (i = 0 \/ i = 1 \/ i = 2 \/ i = 3 \/ i = 4) as [-> | [-> | [-> | [-> | ->]]]] by lia; apply heavy_1. Qed.
Lemma poly_span k : 1 <= k <= 4 -> span_of 1 4 polyK (IZR k - 1 / 2) k.
Proof.
  intros Hk. assert (k = 1 \/ k = 2 \/ k = 3 \/ k = 4) as [-> | [-> | [-> | ->]]] by lia; (split; [lia|]);
    [change (val polyK 1) with 0%R; change (val polyK (1 + 1)) with 1%R|change (val polyK 2) with 1%R; change (val polyK (2 + 1)) with 2%R|
     change (val polyK 3) with 2%R; change (val polyK (3 + 1)) with 3%R|change (val polyK 4) with 3%R; change (val polyK (4 + 1)) with 4%R]; (split; [lra|]; split; [lra|]; left; lra).
Qed.
Lemma poly_tol : (IZR 1 - 1 / 2 + tol (IZR 1 - 1 / 2) (IZR 4 - 1 / 2) < IZR 4 - 1 / 2)%R.
Proof. unfold tol. rewrite (Rabs_pos_eq (IZR 1 - 1 / 2)), (Rabs_pos_eq (IZR 4 - 1 / 2)), Rmax_right by lra. lra. Qed.
Example C84_ex : let a := (mkXYZ 0 0 0)%R in let b := (mkXYZ 4 0 0)%R in curve_knots 1 4 polyK /\ len polyP = 4 + 1 /\ heavy polyP /\ ~ Spec3.near a b /\ ~ small (dot3 (minus3 b a) (minus3 b a)) /\
  span_of 1 4 polyK (IZR 1 - 1 / 2) 1 /\ span_of 1 4 polyK (IZR 4 - 1 / 2) 4 /\ (IZR 1 - 1 / 2 + tol (IZR 1 - 1 / 2) (IZR 4 - 1 / 2) < IZR 4 - 1 / 2)%R /\ 1 + 1 <= 4 - 1 - 1 /\
  (forall i s, 1 <= i < 4 - 1 -> dot3 (minus3 (proj (pt polyP i)) (line_at a (minus3 b a) s)) (minus3 b a) = 0%R -> (0 <= s <= 1)%R).
Proof.
  cbv zeta. split; [apply poly_knots|]. split; [reflexivity|]. split; [apply poly_heavy|].
  split. { unfold Spec3.near, tol. cbn [gx gy gz]. intros (E & _). rewrite Rabs_R0, (Rabs_pos_eq 4), Rmax_right in E by lra. replace (0 - 4)%R with (- (4))%R in E by ring. rewrite Rabs_Ropp, Rabs_pos_eq in E by lra. lra. }
  split. { unfold small, dot3, minus3. cbn [gx gy gz]. rewrite Rabs_pos_eq by lra. lra. }
  split; [apply (poly_span 1); lia|]. split; [apply (poly_span 4); lia|]. split; [apply poly_tol|]. split; [lia|].
  intros i s Hi. assert (i = 1 \/ i = 2) as [-> | ->] by lia; unfold proj; [change (pt polyP 1) with (mkXYZW 1 1 0 1)%R|change (pt polyP 2) with (mkXYZW 2 1 0 1)%R]; cbn [wx wy wz ww]; unfold dot3, minus3, line_at, plus3, times3; cbn [gx gy gz]; lra.
Qed.

(** * C85 *)
Theorem C85_bend : forall p n U H, curve_knots p n U -> len H = n + 1 -> heavy H ->
  forall o r cr t0 t1 k0 k1, span_of p n U t0 k0 -> span_of p n U t1 k1 -> (t0 + tol t0 t1 < t1)%R -> (0 <= r)%R ->
  (forall i, k0 <= i < k1 - p -> let d := dist3 o (proj (pt H i)) in (0 < d)%R /\ (d + (cr - 1) * r <> 0)%R) ->
  exists H', Bending (mkCurve p U H) t0 t1 o r cr = Ok (mkCurve p U H') /\ len H' = n + 1 /\
    (forall i, 0 <= i <= n -> k0 <= i < k1 - p -> let d := dist3 o (proj (pt H i)) in
       pt H' i = hom (line_at o (minus3 (proj (pt H i)) o) (cr * r / (d + (cr - 1) * r))) (ww (pt H i))) /\
    (forall i, 0 <= i <= n -> ~ k0 <= i < k1 - p -> pt H' i = pt H i).
Proof. exact Bending_ok. Qed.
Print Assumptions C85_bend.

Theorem C85_circle : forall p n U H, curve_knots p n U -> len H = n + 1 -> heavy H ->
  forall o r t0 t1 k0 k1, span_of p n U t0 k0 -> span_of p n U t1 k1 -> (t0 + tol t0 t1 < t1)%R -> (0 <= r)%R -> (forall i, k0 <= i < k1 - p -> proj (pt H i) <> o) ->
  exists H', Bending (mkCurve p U H) t0 t1 o r 1%R = Ok (mkCurve p U H') /\ len H' = n + 1 /\
    (forall i, 0 <= i <= n -> k0 <= i < k1 - p -> dist3 o (proj (pt H' i)) = r /\ exists s, (0 <= s)%R /\ pt H' i = hom (line_at o (minus3 (proj (pt H i)) o) s) (ww (pt H i))) /\
    (forall i, 0 <= i <= n -> ~ k0 <= i < k1 - p -> pt H' i = pt H i).
Proof. exact Bending_circle. Qed.
Print Assumptions C85_circle.

Example C85_ex : forall i, 1 <= i < 4 - 1 -> proj (pt polyP i) <> (mkXYZ 0 0 0)%R.
Proof.
  intros i Hi E. unfold proj in E. assert (i = 1 \/ i = 2) as [-> | ->] by lia; apply (f_equal (@gx R)) in E;
    [change (pt polyP 1) with (mkXYZW 1 1 0 1)%R in E|change (pt polyP 2) with (mkXYZW 2 1 0 1)%R in E]; cbn [gx wx ww] in E; lra.
Qed.
Example C85_float : exists c' : Curve float (XYZW float),
  Bending (mkCurve 1 [0; 0; 1; 2; 3; 4; 4] [mkXYZW 0 0 0 1; mkXYZW 0 2 0 1; mkXYZW 3 4 0 1; mkXYZW 3 0 0 1; mkXYZW 4 0 0 1])%float 0.5%float 3.5%float (mkXYZ 0 0 0)%float 10%float 1%float = Ok c' /\
  NurbsPoint c' 1%float = Ok (mkXYZ 0 10 0)%float /\ NurbsPoint c' 2%float = Ok (mkXYZ 6 8 0)%float /\ NurbsPoint c' 3%float = Ok (mkXYZ 3 0 0)%float.
Proof. exists (mkCurve 1 [0; 0; 1; 2; 3; 4; 4] [mkXYZW 0 0 0 1; mkXYZW 0 10 0 1; mkXYZW 6 8 0 1; mkXYZW 3 0 0 1; mkXYZW 4 0 0 1])%float. vm_compute. repeat split. Qed.

(** * C86 *)
Theorem C86_unclamp : forall p n U (H : list (XYZW R)), 1 <= p -> curve_knots p n U -> len H = n + 1 ->
  (forall i, 0 <= i <= p -> val U i = val U p) -> (forall i, n + 1 <= i <= n + p + 1 -> val U i = val U (n + 1)) ->
  returns (ToUnclampCurve (mkCurve p U H)) (fun c => exists U' H', c = mkCurve p U' H' /\ curve_knots p n U' /\ len H' = n + 1 /\
    (forall i, p <= i <= n + 1 -> val U' i = val U i) /\
    (forall i, 0 <= i < p -> (val U' (p - i)%Z - val U' (p - i - 1)%Z = val U' (n - i + 1)%Z - val U' (n - i)%Z)%R) /\
    (forall i, 0 <= i < p -> (val U' (n + i + 2)%Z - val U' (n + i + 1)%Z = val U' (p + i + 1)%Z - val U' (p + i)%Z)%R) /\
    forall t, in_domain p n U t -> curve_point p n U' H' t = curve_point p n U H t).
Proof. exact Unclamp_ok. Qed.
Print Assumptions C86_unclamp.

Example C86_ex : let U := polyK in 1 <= 1 /\ (forall i, 0 <= i <= 1 -> val U i = val U 1) /\ (forall i, 4 + 1 <= i <= 4 + 1 + 1 -> val U i = val U (4 + 1)).
Proof.
  cbv zeta. split; [lia|]. split; intros i Hi; [assert (i = 0 \/ i = 1) as [-> | ->] by lia|assert (i = 5 \/ i = 6) as [-> | ->] by lia]; reflexivity.
Qed.
Example C86_float : let c := (mkCurve 2 [0; 0; 0; 1; 2; 3; 3; 3] [mkXYZW 0 0 0 1; mkXYZW 1 2 0 1; mkXYZW 3 3 0 1; mkXYZW 4 1 0 1; mkXYZW 6 0 0 1])%float in
  exists c', ToUnclampCurve c = Ok c' /\ KnotVector c' = [-2; -1; 0; 1; 2; 3; 4; 5]%float /\ NurbsPoint c 0.5%float = NurbsPoint c' 0.5%float /\ NurbsPoint c 2.75%float = NurbsPoint c' 2.75%float.
Proof. intros c. exists (got parabola (ToUnclampCurve c)). vm_compute. repeat split. Qed.

(** * C87 *)
Theorem C87_is_clamp : forall p n U (H : list (XYZW R)), curve_knots p n U ->
  (forall u, In u U -> close (val U 0) u -> u = val U 0) -> (forall u, In u U -> close (val U (len U - 1)) u -> u = val U (len U - 1)) ->
  returns (IsClamp (mkCurve p U H)) (fun b => b = true <-> clamped_knots p n U).
Proof. exact IsClamp_ok. Qed.
Print Assumptions C87_is_clamp.

(* clamping the quadratic curve over the knots 0..7 keeps the first point of the curve and moves the last one *)
Theorem C87_refuted : exists c c' : Curve float (XYZW float), IsClamp c = Ok false /\ ToClampCurve c = Ok c' /\ IsClamp c' = Ok true /\
  NurbsPoint c 2%float = NurbsPoint c' 2%float /\ NurbsPoint c 5%float = Ok (mkXYZ 5 0.5 0)%float /\ NurbsPoint c' 5%float = Ok (mkXYZ 4 1 0)%float.
Proof. exists (mkCurve 2 [0; 1; 2; 3; 4; 5; 6; 7] [mkXYZW 0 0 0 1; mkXYZW 1 2 0 1; mkXYZW 3 3 0 1; mkXYZW 4 1 0 1; mkXYZW 6 0 0 1])%float.
  exists (got parabola (ToClampCurve (mkCurve 2 [0; 1; 2; 3; 4; 5; 6; 7] [mkXYZW 0 0 0 1; mkXYZW 1 2 0 1; mkXYZW 3 3 0 1; mkXYZW 4 1 0 1; mkXYZW 6 0 0 1])%float)). vm_compute. repeat split.
Qed.
Print Assumptions C87_refuted.

Lemma polyK_apart u : In u polyK -> (close 0 u -> u = 0%R) /\ (close 4 u -> u = 4%R).
Proof.
  assert (E : forall x, (0 <= x <= 4)%R -> (close 0 x -> (x < 1)%R) /\ (close 4 x -> (3 < x)%R)).
  { intros x Hx. unfold close, tol. split; intros C.
    - rewrite Rabs_R0, (Rabs_pos_eq x), Rmax_right in C by lra. rewrite Rabs_left1 in C by lra. lra.
    - rewrite (Rabs_pos_eq x), (Rabs_pos_eq 4), Rmax_left in C by lra. rewrite Rabs_pos_eq in C by lra. lra. }
  intros Hu. cbn in Hu. assert (Hu2 : u = 0%R \/ u = 1%R \/ u = 2%R \/ u = 3%R \/ u = 4%R) by (repeat destruct Hu as [<- | Hu]; tauto). clear Hu.
  assert (Hr : (0 <= u <= 4)%R) by (destruct Hu2 as [-> | [-> | [-> | [-> | ->]]]]; lra). destruct (E u Hr) as [E1 E2].
  split; intros C; [apply E1 in C|apply E2 in C]; destruct Hu2 as [-> | [-> | [-> | [-> | ->]]]]; lra.
Qed.
Example C87_ex : (forall u, In u polyK -> close (val polyK 0) u -> u = val polyK 0) /\ (forall u, In u polyK -> close (val polyK (len polyK - 1)) u -> u = val polyK (len polyK - 1)) /\ clamped_knots 1 4 polyK.
Proof. split; [intros u Hu; apply (polyK_apart u Hu)|]. split; [intros u Hu; apply (polyK_apart u Hu)|]. split; reflexivity. Qed.

(** * C88 *)
Theorem C88_closed : forall p n U H, curve_knots p n U -> p <= 7 -> len H = n + 1 -> heavy H -> clamped_knots p n U ->
  let C t := proj (curve_point p n U H t) in
  returns (IsClosed (mkCurve p U H)) (fun b =>
    (close (dist3 (C (val U 0)) (C (val U (n + 1)))) 0 -> b = true) /\
    (b = true -> close (dist3 (C (val U 0)) (C (val U (n + 1)))) 0 \/ exists m, 0 <= m < n /\ forall i, 0 <= i <= m -> Spec3.near (proj (pt H (n - m + i))) (proj (pt H i)))).
Proof. exact IsClosed_ok. Qed.
Print Assumptions C88_closed.

(* the polyline A B A B is called closed although its ends are 1 apart *)
Theorem C88_refuted : exists c : Curve float (XYZW float), IsClosed c = Ok true /\ NurbsPoint c 0%float = Ok (mkXYZ 0 0 0)%float /\ NurbsPoint c 3%float = Ok (mkXYZ 1 0 0)%float.
Proof. exists (mkCurve 1 [0; 0; 1; 2; 3; 3] [mkXYZW 0 0 0 1; mkXYZW 1 0 0 1; mkXYZW 0 0 0 1; mkXYZW 1 0 0 1])%float. vm_compute. repeat split. Qed.
Print Assumptions C88_refuted.

(** * C89 *)
Theorem C89_linear : forall p n U H, curve_knots p n U -> p <= 7 -> len H = n + 1 -> heavy H -> 1 <= n ->
  returns (IsLinear (mkCurve p U H)) (fun b =>
    (b = true -> exists a u, dot3 u u = 1%R /\ forall t, in_domain p n U t -> (norm3 (cross3 (minus3 (proj (curve_point p n U H t)) a) u) <= 2 / 999999)%R) /\
    (b = false -> ~ collinear H)).
Proof. exact IsLinear_curve. Qed.
Print Assumptions C89_linear.

Example C89_ex : IsLinear parabola = Ok false /\ IsLinear (mkCurve 2 [0; 0; 0; 1; 1; 1] [mkXYZW 0 0 0 1; mkXYZW 1 2 3 1; mkXYZW 2 4 6 0.5])%float = Ok true /\
  IsLinear (mkCurve 2 [0; 0; 0; 1; 1; 1] [mkXYZW 0 0 0 1; mkXYZW 1 2 0 1; mkXYZW 3 6 0 0.5])%float = Ok true.
Proof. vm_compute. repeat split. Qed.

(** * C90 *)
Theorem C90_tessellate : forall p n U H, curve_knots p n U -> p <= 7 -> len H = n + 1 -> heavy H -> clamped_knots p n U ->
  returns (EquallyTessellate (mkCurve p U H)) (fun s => exists V, increasing V /\ (forall x, In x V <-> In x U) /\
    len (fst s) = 100 * (len V - 1) /\ len (snd s) = 100 * (len V - 1) /\
    forall k, 0 <= k < 100 * (len V - 1) -> val (snd s) k = sample_at V k /\ get (fst s) k = Ok (proj (curve_point p n U H (sample_at V k)))).
Proof. exact Tessellate_ok. Qed.
Print Assumptions C90_tessellate.

Example C90_ex : let V := [0; 1; 2; 3; 4]%R in increasing V /\ (forall x, In x V <-> In x polyK) /\ sample_at V 0 = 0%R /\ sample_at V 99 = 1%R /\ sample_at V 100 = 1%R /\ sample_at V 399 = 4%R.
Proof.
  cbv zeta. split; [|split; [intros x; cbn; tauto|]].
  - intros i j Hi Hij Hj. change (len [0; 1; 2; 3; 4]%R) with 5 in Hj.
    assert (W : forall i, 0 <= i < 5 -> val [0; 1; 2; 3; 4]%R i = IZR i) by (intros k Hk; assert (k = 0 \/ k = 1 \/ k = 2 \/ k = 3 \/ k = 4) as [-> | [-> | [-> | [-> | ->]]]] by lia; reflexivity).
    rewrite !W by lia. apply IZR_lt. exact Hij.
  - unfold sample_at.
    change (0 / 100) with 0. change (0 mod 100) with 0. change (99 / 100) with 0. change (99 mod 100) with 99. change (100 / 100) with 1. change (100 mod 100) with 0. change (399 / 100) with 3. change (399 mod 100) with 99.
    change (val [0; 1; 2; 3; 4]%R 0) with 0%R. change (val [0; 1; 2; 3; 4]%R (0 + 1)) with 1%R. change (val [0; 1; 2; 3; 4]%R 1) with 1%R. change (val [0; 1; 2; 3; 4]%R (1 + 1)) with 2%R. change (val [0; 1; 2; 3; 4]%R 3) with 3%R. change (val [0; 1; 2; 3; 4]%R (3 + 1)) with 4%R.
    repeat split; field.
Qed.

(** * C91 *)
Theorem C91_arc_found : forall p n U H, curve_knots p n U -> p <= 7 -> len H = n + 1 -> heavy H -> clamped_knots p n U ->
  forall cl o z r, IsLinear (mkCurve p U H) = Ok false -> IsClosed (mkCurve p U H) = Ok cl ->
  let C t := proj (curve_point p n U H t) in let e := if cl then midway (val U 0) (val U (n + 1)) else val U (n + 1) in
  cross3 (minus3 (C (midway (val U 0) e)) (C (val U 0))) (minus3 (C e) (C (val U 0))) <> zero3 -> dot3 z z = 1%R ->
  (forall t, in_domain p n U t -> dot3 z (minus3 (C t) o) = 0%R /\ dist3 (C t) o = r) -> IsArc (mkCurve p U H) = Ok (Some (r, o, cl)).
Proof. exact IsArc_complete. Qed.
Print Assumptions C91_arc_found.

Theorem C91_arc_sound : forall p n U H, curve_knots p n U -> p <= 7 -> len H = n + 1 -> heavy H -> clamped_knots p n U ->
  forall cl r o, IsLinear (mkCurve p U H) = Ok false -> IsClosed (mkCurve p U H) = Ok cl ->
  let C t := proj (curve_point p n U H t) in let e := if cl then midway (val U 0) (val U (n + 1)) else val U (n + 1) in
  cross3 (minus3 (C (midway (val U 0) e)) (C (val U 0))) (minus3 (C e) (C (val U 0))) <> zero3 ->
  forall cl', IsArc (mkCurve p U H) = Ok (Some (r, o, cl')) -> cl' = cl /\ r = dist3 o (C (val U 0)) /\ exists V, increasing V /\ (forall x, In x V <-> In x U) /\
    forall k, 0 <= k < 100 * (len V - 1) -> close (dist3 (C (sample_at V k)) o) r.
Proof. exact IsArc_sound. Qed.
Print Assumptions C91_arc_sound.

(* a quarter of the unit circle *)
Definition quarter : list (XYZW R) := [mkXYZW 1 0 0 1; mkXYZW 1 1 0 1; mkXYZW 0 2 0 2]%R.
Lemma quarter_heavy : heavy quarter.
Proof.
  intros i Hi. change (len quarter) with 3 in Hi. assert (i = 0 \/ i = 1 \/ i = 2) as [-> | [-> | ->]] by lia; [apply heavy_1|apply heavy_1|].
  change (ww (pt quarter 2)) with 2%R. unfold tol. rewrite Rabs_R0, (Rabs_pos_eq 2), Rmax_left by lra. lra.
Qed.
Lemma quarter_point t : (0 <= t <= 1)%R -> proj (curve_point 2 2 [0; 0; 0; 1; 1; 1]%R quarter t) = (mkXYZ ((1 - t * t) / (1 + t * t)) (2 * t / (1 + t * t)) 0)%R.
Proof. intros Ht. unfold quarter. rewrite quad_point by exact Ht. unfold proj. cbn [wx wy wz ww]. assert (0 <= t * t)%R by nra.
  replace ((1 - t) * (1 - t) * 1 + 2 * t * (1 - t) * 1 + t * t * 2)%R with (1 + t * t)%R by ring. f_equal; field; lra.
Qed.
Lemma quarter_clamped : clamped_knots 2 2 [0; 0; 0; 1; 1; 1]%R.
Proof. split; reflexivity. Qed.
Lemma quarter_proj : proj (pt quarter 0) = (mkXYZ 1 0 0)%R /\ proj (pt quarter 1) = (mkXYZ 1 1 0)%R /\ proj (pt quarter 2) = (mkXYZ 0 1 0)%R.
Proof. unfold proj. change (pt quarter 0) with (mkXYZW 1 0 0 1)%R. change (pt quarter 1) with (mkXYZW 1 1 0 1)%R. change (pt quarter 2) with (mkXYZW 0 2 0 2)%R. cbn [wx wy wz ww]. repeat split; f_equal; field. Qed.
Lemma quarter_curved : IsLinear (mkCurve 2 [0; 0; 0; 1; 1; 1] quarter)%R = Ok false.
Proof.
  destruct (IsLinear_curve 2 2 _ quarter bez2_knots ltac:(lia) eq_refl quarter_heavy ltac:(lia)) as (b & E & Hb & _). rewrite E. destruct b; [|reflexivity]. exfalso.
  destruct (Hb eq_refl) as (a & u & Hu & Hc). assert (D : forall t, (0 <= t <= 1)%R -> (dot3 (cross3 (minus3 (mkXYZ ((1 - t * t) / (1 + t * t)) (2 * t / (1 + t * t)) 0) a) u) (cross3 (minus3 (mkXYZ ((1 - t * t) / (1 + t * t)) (2 * t / (1 + t * t)) 0) a) u) <= 1 / 10000)%R).
  { intros t Ht. specialize (Hc t (bez2_dom t Ht)). rewrite quarter_point in Hc by exact Ht. rewrite <- norm_sq. pose proof (norm_nonneg (cross3 (minus3 (mkXYZ ((1 - t * t) / (1 + t * t)) (2 * t / (1 + t * t)) 0) a) u)%R). nra. }
  pose proof (D 0%R ltac:(lra)) as D0. pose proof (D 1%R ltac:(lra)) as D1. pose proof (D (1 / 2)%R ltac:(lra)) as D2. clear D Hc E Hb.
  replace ((1 - 0 * 0) / (1 + 0 * 0))%R with 1%R in D0 by field. replace (2 * 0 / (1 + 0 * 0))%R with 0%R in D0 by field.
  replace ((1 - 1 * 1) / (1 + 1 * 1))%R with 0%R in D1 by field. replace (2 * 1 / (1 + 1 * 1))%R with 1%R in D1 by field.
  replace ((1 - 1 / 2 * (1 / 2)) / (1 + 1 / 2 * (1 / 2)))%R with (3 / 5)%R in D2 by field. replace (2 * (1 / 2) / (1 + 1 / 2 * (1 / 2)))%R with (4 / 5)%R in D2 by field.
  destruct a as [a1 a2 a3], u as [u1 u2 u3]. unfold dot3, cross3, minus3 in *. cbn [gx gy gz] in *.
  assert (K : forall x y z, (x * x + y * y + z * z <= 1 / 10000)%R -> (- (1 / 100) <= x <= 1 / 100)%R /\ (- (1 / 100) <= z <= 1 / 100)%R).
  { intros x y z Hx. assert (0 <= x * x)%R by apply Rle_0_sqr. assert (0 <= y * y)%R by apply Rle_0_sqr. assert (0 <= z * z)%R by apply Rle_0_sqr. split; split; nra. }
  apply K in D0, D1, D2. destruct D0 as [A0 B0], D1 as [A1 B1], D2 as [A2 B2].
  assert (E3 : (- (1 / 50) <= u3 <= 1 / 50)%R) by lra. assert (E2 : (- (1 / 5) <= u2 <= 1 / 5)%R) by lra. assert (E1 : (- (1 / 5) <= u1 <= 1 / 5)%R) by lra. clear - Hu E1 E2 E3. nra.
Qed.
Lemma quarter_open : IsClosed (mkCurve 2 [0; 0; 0; 1; 1; 1] quarter)%R = Ok false.
Proof.
  destruct (IsClosed_ok 2 2 _ quarter bez2_knots ltac:(lia) eq_refl quarter_heavy quarter_clamped) as (b & E & _ & Hb). rewrite E. destruct b; [|reflexivity]. exfalso.
  destruct quarter_proj as (Q0 & Q1 & Q2). destruct (Hb eq_refl) as [C|(m & Hm & C)].
  - change (val [0; 0; 0; 1; 1; 1]%R 0) with 0%R in C. change (val [0; 0; 0; 1; 1; 1]%R (2 + 1)) with 1%R in C. rewrite !quarter_point in C by lra.
    replace ((1 - 0 * 0) / (1 + 0 * 0))%R with 1%R in C by field. replace (2 * 0 / (1 + 0 * 0))%R with 0%R in C by field.
    replace ((1 - 1 * 1) / (1 + 1 * 1))%R with 0%R in C by field. replace (2 * 1 / (1 + 1 * 1))%R with 1%R in C by field.
    unfold close, tol in C. rewrite Rabs_R0, Rminus_0_r in C. rewrite Rmax_left in C by apply Rabs_pos. unfold dist3 in C. rewrite (Rabs_pos_eq (norm3 _)) in C by apply norm_nonneg.
    pose proof (norm_sq (minus3 (mkXYZ 1 0 0) (mkXYZ 0 1 0))%R) as S0. unfold dot3, minus3 in S0. cbn [gx gy gz] in S0. unfold minus3 in C. cbn [gx gy gz] in C. pose proof (norm_nonneg (mkXYZ (1 - 0) (0 - 1) (0 - 0))%R). nra.
  - assert (T : forall x y, (Rabs (x - y) <= tol x y)%R -> (0 <= x <= 1)%R -> (0 <= y <= 1)%R -> (- (1 / 2) <= x - y <= 1 / 2)%R).
    { intros x y. unfold tol. intros A B D. rewrite (Rabs_pos_eq x), (Rabs_pos_eq y) in A by lra. assert (Rmax x y <= 1)%R by (apply Rmax_lub; lra). pose proof (Rle_abs (x - y)). pose proof (Rle_abs (- (x - y))). rewrite Rabs_Ropp in *. lra. }
    assert (m = 0 \/ m = 1) as [-> | ->] by lia.
    + specialize (C 0 ltac:(lia)). change (2 - 0 + 0) with 2 in C. rewrite Q0, Q2 in C. destruct C as (C & _). cbn [gx] in C. apply T in C; lra.
    + specialize (C 1 ltac:(lia)). change (2 - 1 + 1) with 2 in C. rewrite Q1, Q2 in C. destruct C as (C & _). cbn [gx] in C. apply T in C; lra.
Qed.
(* the theorem applied to it *)
Example C91_ex : IsArc (mkCurve 2 [0; 0; 0; 1; 1; 1] quarter)%R = Ok (Some (1, mkXYZ 0 0 0, false))%R.
Proof.
  assert (ME : midway (val [0; 0; 0; 1; 1; 1]%R 0) (val [0; 0; 0; 1; 1; 1]%R (2 + 1)) = (1 / 2)%R) by (change (val [0; 0; 0; 1; 1; 1]%R 0) with 0%R; change (val [0; 0; 0; 1; 1; 1]%R (2 + 1)) with 1%R; unfold midway; field).
  apply (C91_arc_found 2 2 _ quarter bez2_knots ltac:(lia) eq_refl quarter_heavy quarter_clamped false (mkXYZ 0 0 0)%R (mkXYZ 0 0 1)%R 1%R quarter_curved quarter_open).
  - cbv zeta. rewrite ME. change (val [0; 0; 0; 1; 1; 1]%R 0) with 0%R. change (val [0; 0; 0; 1; 1; 1]%R (2 + 1)) with 1%R. rewrite !quarter_point by lra.
    intros E. apply (f_equal (@gz R)) in E. unfold cross3, minus3, zero3 in E. cbn [gx gy gz] in E. field_simplify in E. lra.
  - unfold dot3. cbn [gx gy gz]. ring.
  - intros t Ht. change (0 <= t <= 1)%R in Ht. cbv zeta. rewrite quarter_point by exact Ht. assert (0 <= t * t)%R by nra. split; [unfold dot3, minus3; cbn [gx gy gz]; ring|].
    unfold dist3, norm3, dot3, minus3. cbn [gx gy gz]. rewrite <- sqrt_1. f_equal. rewrite sqrt_1. field. nra.
Qed.

(** * C92 *)
Theorem C92_hermite : forall n (Q T : list (XYZ R)) u, 3 < n -> len Q = n -> len T = n -> len u = n -> stepped u -> GetChordParameterization Q = Ok u ->
  returns (CreateCubicHermite Q T) (fun c => exists kv H, c = mkCurve 3 kv H /\ curve_knots 3 (2 * n - 1) kv /\ len H = 2 * n /\
    (forall i, 0 <= i < 2 * n -> ww (pt H i) = 1%R) /\
    forall i, 0 <= i < n -> in_domain 3 (2 * n - 1) kv (val u i) /\ curve_point 3 (2 * n - 1) kv H (val u i) = hom (pt Q i) 1%R /\
      exists g, curve_derivs 3 (2 * n - 1) kv H 1 (val u i) g /\ g 0 = pt Q i /\ g 1 = pt T i).
Proof. exact Hermite_ok. Qed.
Print Assumptions C92_hermite.

Example C92_float : let Q := [mkXYZ 0 0 0; mkXYZ 1 0 0; mkXYZ 2 0 0; mkXYZ 2 1 0; mkXYZ 2 2 0]%float in let T := [mkXYZ 4 0 0; mkXYZ 2 0 1; mkXYZ 1 1 0; mkXYZ 0 3 0; mkXYZ 0 4 8]%float in
  GetChordParameterization Q = Ok [0; 0.25; 0.5; 0.75; 1]%float /\
  exists c, CreateCubicHermite Q T = Ok c /\ KnotVector c = [0; 0; 0; 0; 0.25; 0.25; 0.5; 0.5; 0.75; 0.75; 1; 1; 1; 1]%float /\
    NurbsPoint c 0.25%float = Ok (mkXYZ 1 0 0)%float /\ NurbsPoint c 1%float = Ok (mkXYZ 2 2 0)%float.
Proof. intros Q T. split; [vm_compute; reflexivity|]. exists (got parabola (CreateCubicHermite Q T)). vm_compute. repeat split. Qed.
Example C92_stepped : stepped [0; 1 / 4; 1 / 2; 3 / 4; 1]%R.
Proof.
  intros i Hi. change (len [0; 1 / 4; 1 / 2; 3 / 4; 1]%R) with 5 in Hi. assert (S0 : forall x y, (0 <= x)%R -> (x + 1 / 4 = y)%R -> (y <= 1)%R -> (x + tol x y < y)%R).
  { intros x y Hx Hy H1. unfold tol. rewrite (Rabs_pos_eq x), (Rabs_pos_eq y), Rmax_right by lra. lra. }
  assert (i = 0 \/ i = 1 \/ i = 2 \/ i = 3) as [-> | [-> | [-> | ->]]] by lia;
    [change (val [0; 1 / 4; 1 / 2; 3 / 4; 1]%R 0) with 0%R; change (val [0; 1 / 4; 1 / 2; 3 / 4; 1]%R (0 + 1)) with (1 / 4)%R; apply S0; lra|
     change (val [0; 1 / 4; 1 / 2; 3 / 4; 1]%R 1) with (1 / 4)%R; change (val [0; 1 / 4; 1 / 2; 3 / 4; 1]%R (1 + 1)) with (1 / 2)%R; apply S0; lra|
     change (val [0; 1 / 4; 1 / 2; 3 / 4; 1]%R 2) with (1 / 2)%R; change (val [0; 1 / 4; 1 / 2; 3 / 4; 1]%R (2 + 1)) with (3 / 4)%R; apply S0; lra|
     change (val [0; 1 / 4; 1 / 2; 3 / 4; 1]%R 3) with (3 / 4)%R; change (val [0; 1 / 4; 1 / 2; 3 / 4; 1]%R (3 + 1)) with 1%R; apply S0; lra].
Qed.

(** * C93 *)
Theorem C93_periodic : forall p n U (H : list (XYZW R)) a h, 1 <= p -> curve_knots p n U -> len H = n + 1 -> heavy H -> 2 * p <= n + 1 ->
  (forall i, 0 <= i <= n + p + 1 -> val U i = (a + IZR i * h)%R) -> (forall u v, In u U -> In v U -> close u v -> u = v) ->
  (forall i, 0 <= i < p -> pt H i = pt H (n + 1 - p + i)) ->
  IsPeriodic (mkCurve p U H) = Ok true /\ curve_point p n U H (val U p) = curve_point p n U H (val U (n + 1)).
Proof. exact IsPeriodic_even. Qed.
Print Assumptions C93_periodic.

(* a clamped curve is never periodic, however smoothly it closes *)
Theorem C93_clamped : forall p n U (H : list (XYZW R)), curve_knots p n U -> len H = n + 1 -> clamped_knots p n U ->
  (forall u, In u U -> close (val U 0) u -> u = val U 0) -> (forall u, In u U -> close (val U (len U - 1)) u -> u = val U (len U - 1)) -> IsPeriodic (mkCurve p U H) = Ok false.
Proof. exact IsPeriodic_clamped. Qed.
Print Assumptions C93_clamped.

Definition loopK : list R := [0; 1; 2; 3; 4; 5]%R.
Definition loopP : list (XYZW R) := [mkXYZW 0 0 0 1; mkXYZW 2 0 0 1; mkXYZW 1 3 0 1; mkXYZW 0 0 0 1]%R.
Example C93_ex : curve_knots 1 3 loopK /\ len loopP = 3 + 1 /\ (forall i, 0 <= i <= 3 + 1 + 1 -> val loopK i = (0 + IZR i * 1)%R) /\
  (forall u v, In u loopK -> In v loopK -> close u v -> u = v) /\ (forall i, 0 <= i < 1 -> pt loopP i = pt loopP (3 + 1 - 1 + i)).
Proof.
  assert (T : forall x, (0 <= x <= 3)%R -> (x + tol x (x + 1) < x + 1)%R) by (intros x Hx; unfold tol; rewrite (Rabs_pos_eq x), (Rabs_pos_eq (x + 1)), Rmax_right by lra; lra).
  assert (W : forall i, 0 <= i <= 5 -> val loopK i = IZR i) by (intros i Hi; assert (i = 0 \/ i = 1 \/ i = 2 \/ i = 3 \/ i = 4 \/ i = 5) as [-> | [-> | [-> | [-> | [-> | ->]]]]] by lia; reflexivity).
  split; [|split; [reflexivity|split; [intros i Hi; rewrite W by lia; ring|split]]].
  - constructor; try (cbn; lia).
    + unfold loopK. sorted_tac.
    + rewrite !W by lia. rewrite plus_IZR. apply (T 1%R). lra.
    + rewrite !W by lia. rewrite plus_IZR. apply (T 3%R). lra.
  - intros u v Hu Hv C. assert (B : forall x, In x loopK -> (0 <= x <= 5)%R) by (intros x Hx; cbn in Hx; repeat destruct Hx as [<- | Hx]; try lra; destruct Hx).
    assert (D : (-1 < u - v < 1)%R).
    { pose proof (B u Hu). pose proof (B v Hv). unfold close, tol in C. rewrite (Rabs_pos_eq u), (Rabs_pos_eq v) in C by lra. assert (Rmax u v <= 5)%R by (apply Rmax_lub; lra). pose proof (Rle_abs (u - v)). pose proof (Rle_abs (- (u - v))). rewrite Rabs_Ropp in *. lra. }
    cbn in Hu, Hv. repeat destruct Hu as [<- | Hu]; try destruct Hu; repeat destruct Hv as [<- | Hv]; try destruct Hv; try lra; reflexivity.
  - intros i Hi. assert (i = 0) as -> by lia. reflexivity.
Qed.
Example C93_float : IsPeriodic (mkCurve 2 [0; 1; 2; 3; 4; 5; 6; 7; 8] [mkXYZW 0 0 0 1; mkXYZW 1 0 0 1; mkXYZW 1 1 0 1; mkXYZW 0 1 0 1; mkXYZW 0 0 0 1; mkXYZW 1 0 0 1])%float = Ok true.
Proof. vm_compute. reflexivity. Qed.
