(* Property theorems, part 20: surfaces changed line by line, sampled, tested and searched; translational sweeps. *)
From Coq Require Import ZArith List Bool Reals Lra Lia Floats.
From Verif Require Import Base Num Vec Tac Spec Spec2 Spec3 Spec4 Spec5 Spec8 Spec10 Spec12 M_MathUtils M_XYZ M_Bspline M_NurbsCurve M_Knots M_Shape M_Surface M_Volume M_Surface2
  P_MathUtils P_Span P_Cox P_XYZ P_Vec P_VSum P_Curve P_Bspline P_BsplineS P_Loop P_Insert P_Decomp P_Reduce P_Geom P_Shape P_Surf3 P_Surf4 P_Surf5 P_Surf6 P_Surf7 P_Surf8.
Import ListNotations Spec12.
Open Scope Z_scope.

(* a rational surface, quadratic in both directions, with one inner knot in the direction V; in quilt2 that knot is double *)
Definition half_knots : list R := [0; 0; 0; 1 / 2; 1; 1; 1]%R.
Definition double_knots : list R := [0; 0; 0; 1 / 2; 1 / 2; 1; 1; 1]%R.
Definition quilt : Surface R (XYZW R) := mkSurface 2 2 (bezier_knots 2) half_knots
  [[mkXYZW 0 0 0 1; mkXYZW 0 1 0 1; mkXYZW 0 3 0 1; mkXYZW 0 4 0 1];
   [mkXYZW 2 0 2 2; mkXYZW 2 2 4 2; mkXYZW 2 6 2 2; mkXYZW 2 8 0 2];
   [mkXYZW 2 0 0 1; mkXYZW 2 1 0 1; mkXYZW 2 3 0 1; mkXYZW 2 4 1 1]]%R.
Definition quilt2 : Surface R (XYZW R) := mkSurface 2 2 (bezier_knots 2) double_knots
  [[mkXYZW 0 0 0 1; mkXYZW 0 1 0 1; mkXYZW 0 2 5 1; mkXYZW 0 3 0 1; mkXYZW 0 4 0 1];
   [mkXYZW 2 0 2 2; mkXYZW 2 2 4 2; mkXYZW 2 4 7 2; mkXYZW 2 6 2 2; mkXYZW 2 8 0 2];
   [mkXYZW 2 0 0 1; mkXYZW 2 1 0 1; mkXYZW 2 2 9 1; mkXYZW 2 3 0 1; mkXYZW 2 4 1 1]]%R.

Lemma tol_small x y : (Rabs x <= 10)%R -> (Rabs y <= 10)%R -> (0 < tol x y <= 11 / 1000000)%R.
Proof. intros Hx Hy. unfold tol. pose proof (Rmax_lub _ _ _ Hx Hy). pose proof (Rmax_l (Rabs x) (Rabs y)). pose proof (Rabs_pos x). lra. Qed.
Ltac small_tol x y := let H := fresh in pose proof (tol_small x y ltac:(unfold Rabs; destruct Rcase_abs; lra) ltac:(unfold Rabs; destruct Rcase_abs; lra)) as H.
Lemma half_ok : curve_knots 2 3 half_knots.
Proof.
  constructor; try (cbn; lia); [unfold half_knots; sorted_tac| |].
  - change (0 + tol 0 (1 / 2) < 1 / 2)%R. small_tol 0%R (1 / 2)%R. lra.
  - change (1 / 2 + tol (1 / 2) 1 < 1)%R. small_tol (1 / 2)%R 1%R. lra.
Qed.
Lemma double_ok : curve_knots 2 4 double_knots.
Proof.
  constructor; try (cbn; lia); [unfold double_knots; sorted_tac| |].
  - change (0 + tol 0 (1 / 2) < 1 / 2)%R. small_tol 0%R (1 / 2)%R. lra.
  - change (1 / 2 + tol (1 / 2) 1 < 1)%R. small_tol (1 / 2)%R 1%R. lra.
Qed.
Lemma three i : 0 <= i < 3 -> i = 0 \/ i = 1 \/ i = 2. Proof. lia. Qed.
Lemma quilt_valid : valid_surface 2 3 quilt.
Proof.
  split; [apply (bez_knots_ok 2); lia|]. split; [apply half_ok|]. split; [|cbn; lia]. split; [reflexivity|]. intros i Hi.
  destruct (three i Hi) as [-> | [-> | ->]]; reflexivity.
Qed.
Lemma quilt2_valid : valid_surface 2 4 quilt2.
Proof.
  split; [apply (bez_knots_ok 2); lia|]. split; [apply double_ok|]. split; [|cbn; lia]. split; [reflexivity|]. intros i Hi.
  destruct (three i Hi) as [-> | [-> | ->]]; reflexivity.
Qed.
Lemma heavy_12 w : (w = 1 \/ w = 2)%R -> (tol w 0 < w)%R.
Proof. intros [-> | ->]; [small_tol 1%R 0%R|small_tol 2%R 0%R]; lra. Qed.
Lemma quilt_heavy : heavy_net 2 3 (SControlPoints quilt).
Proof.
  intros i j Hi Hj. apply heavy_12. destruct (three i ltac:(lia)) as [-> | [-> | ->]];
  assert (j = 0 \/ j = 1 \/ j = 2 \/ j = 3) as [-> | [-> | [-> | ->]]] by lia; (left; reflexivity) || (right; reflexivity).
Qed.
Lemma quilt2_heavy : heavy_net 2 4 (SControlPoints quilt2).
Proof.
  intros i j Hi Hj. apply heavy_12. destruct (three i ltac:(lia)) as [-> | [-> | ->]];
  assert (j = 0 \/ j = 1 \/ j = 2 \/ j = 3 \/ j = 4) as [-> | [-> | [-> | [-> | ->]]]] by lia; (left; reflexivity) || (right; reflexivity).
Qed.
Lemma quilt_clamped : clamped_knots 2 2 (bezier_knots 2) /\ clamped_knots 2 3 half_knots.
Proof. split; split; reflexivity. Qed.
Lemma in_half x : In x half_knots -> (x = 0 \/ x = 1 / 2 \/ x = 1)%R.
Proof. intros Hx. cbn in Hx. repeat (destruct Hx as [<- | Hx]; [tauto|]). contradiction. Qed.
Lemma half_apart x y : In x half_knots -> In y half_knots -> apart x y.
Proof.
  intros Hx Hy. destruct (in_half x Hx) as [-> | [-> | ->]], (in_half y Hy) as [-> | [-> | ->]]; try (left; reflexivity); right;
  match goal with |- (2 * tol ?a ?b < _)%R => small_tol a b end; unfold Rabs; destruct Rcase_abs; lra.
Qed.
Lemma bez_apart x y : In x (bezier_knots 2) -> In y (bezier_knots 2) -> apart x y.
Proof.
  assert (G : forall z, In z (bezier_knots 2) -> (z = 0 \/ z = 1)%R) by (intros z Hz; cbn in Hz; repeat (destruct Hz as [<- | Hz]; [tauto|]); contradiction).
  intros Hx Hy. destruct (G x Hx) as [-> | ->], (G y Hy) as [-> | ->]; try (left; reflexivity); right;
  match goal with |- (2 * tol ?a ?b < _)%R => small_tol a b end; unfold Rabs; destruct Rcase_abs; lra.
Qed.
Lemma half_gap x : In x half_knots -> (Rabs (1 / 2 - x) <= tol (1 / 2) x)%R -> x = (1 / 2)%R.
Proof.
  intros Hx H. destruct (in_half x Hx) as [-> | [-> | ->]]; [exfalso|reflexivity|exfalso]; revert H;
  match goal with |- (_ <= tol ?a ?b)%R -> _ => small_tol a b end; unfold Rabs; destruct Rcase_abs; lra.
Qed.

Definition got {A} (d : A) (r : res A) : A := match r with Ok x => x | _ => d end.
Definition fsurface_at (s : Surface float (XYZW float)) (u v : float) : res (XYZ float) := NurbsSurfacePoint s u v.

(** * C105 *)
(* b = true: along U; b = false: along V *)
Theorem C105_elevate : forall n m (S : Surface R (XYZW R)) b times, valid_surface n m S ->
  let p := degree_along b S in let U := knots_along b S in let l := if b then n else m in
  1 <= p -> 1 <= times -> p + times <= 7 -> clamped_knots p l U -> (forall x y, In x U -> In y U -> apart x y) ->
  (forall i, p <= i <= l -> (val U i < val U (i + 1))%R) ->
  returns (SurfaceElevateDegree S times b) (fun S' =>
    resized b n m (l + (l - p + 1) * times) S S' /\ degree_along b S' = p + times /\ clamped_knots (p + times) (l + (l - p + 1) * times) (knots_along b S') /\
    (forall x, In x (knots_along b S') <-> In x U) /\ (forall x, In x U -> occ (knots_along b S') x = occ U x + times) /\
    same_points n m S S').
Proof. exact SurfaceElevateDegree_ok. Qed.
Print Assumptions C105_elevate.

Theorem C105_refused : forall (S : Surface R (XYZW R)) b times, times <= 0 -> SurfaceElevateDegree S times b = Throw.
Proof. intros S b times H. unfold SurfaceElevateDegree. rewrite (proj2 (Z.ltb_ge 0 times)) by lia. reflexivity. Qed.
Print Assumptions C105_refused.

Example C105_ex : valid_surface 2 3 quilt /\ clamped_knots 2 3 (knots_along false quilt) /\
  (forall x y, In x (knots_along false quilt) -> In y (knots_along false quilt) -> apart x y) /\
  (forall i, 2 <= i <= 3 -> (val (knots_along false quilt) i < val (knots_along false quilt) (i + 1))%R).
Proof.
  split; [apply quilt_valid|]. split; [apply quilt_clamped|]. split; [apply half_apart|].
  intros i Hi. assert (i = 2 \/ i = 3) as [-> | ->] by lia; [change (0 < 1 / 2)%R|change (1 / 2 < 1)%R]; lra.
Qed.

(* an inner knot of multiplicity 2 in a quadratic direction: the points change *)
Definition crease : Surface float (XYZW float) := (mkSurface 2 1 [0; 0; 0; 0.5; 0.5; 1; 1; 1] [0; 0; 1; 1]
  [[mkXYZW 0 0 0 1; mkXYZW 0 1 0 1]; [mkXYZW 1 0 4 1; mkXYZW 1 1 4 1]; [mkXYZW 2 0 0 1; mkXYZW 2 1 0 1]; [mkXYZW 3 0 4 1; mkXYZW 3 1 4 1]; [mkXYZW 4 0 0 1; mkXYZW 4 1 0 1]])%float.
Definition crease' : Surface float (XYZW float) := got crease (SurfaceElevateDegree crease 1 true).
Theorem C105_elevate_double_refuted : SurfaceElevateDegree crease 1 true = Ok crease' /\
  fsurface_at crease 0.25 0.5 = Ok (mkXYZ 1 0.5 2)%float /\ fsurface_at crease' 0.25 0.5 = Throw.
Proof. vm_compute. repeat split; reflexivity. Qed.
Print Assumptions C105_elevate_double_refuted.

(** * C106 *)
(* one insertion has raised the knot to the multiplicity of the degree; the removal restores the surface *)
Theorem C106_insert_remove : forall n m (S : Surface R (XYZW R)) u b, valid_surface n m S -> heavy_net n m (SControlPoints S) ->
  let p := degree_along b S in let U := knots_along b S in let l := if b then n else m in
  (val U p < u < val U (l + 1))%R -> (forall x, In x U -> (Rabs (u - x) <= tol u x)%R -> x = u) -> occ U u = p - 1 -> 1 <= p ->
  (let! S' := SurfaceInsertKnot S u 1 b in SurfaceRemoveKnot S' u 1 b) = Ok S.
Proof. exact surface_insert_remove. Qed.
Print Assumptions C106_insert_remove.

(* one copy of a knot of that multiplicity is dropped, and the row of control points lying on the surface *)
Theorem C106_remove_full : forall n m (S : Surface R (XYZW R)) u b k, valid_surface n m S -> heavy_net n m (SControlPoints S) ->
  let p := degree_along b S in let U := knots_along b S in let l := if b then n else m in
  span_of p l U u k -> (val U p < u < val U (l + 1))%R -> (forall x, In x U -> (Rabs (u - x) <= tol u x)%R -> x = u) -> occ U u = p -> 1 <= p ->
  returns (SurfaceRemoveKnot S u 1 b) (fun S' =>
    degree_along b S' = p /\ degree_along (negb b) S' = degree_along (negb b) S /\ knots_along (negb b) S' = knots_along (negb b) S /\
    arr (knots_along b S') (l + p + 1) (fun i => if i <? k then val U i else val U (i + 1)) /\
    net (if b then n else n + 1) (if b then m + 1 else m) (SControlPoints S') /\
    forall a i, 0 <= a <= (if b then m else n) -> 0 <= i < l ->
      on_line2 b (SControlPoints S') a i = on_line2 b (SControlPoints S) a (if i <? k - p then i else i + 1)).
Proof. exact SurfaceRemove_full. Qed.
Print Assumptions C106_remove_full.

Example C106_ex : valid_surface 2 3 quilt /\ heavy_net 2 3 (SControlPoints quilt) /\ occ (knots_along false quilt) (1 / 2)%R = 2 - 1 /\
  (val (knots_along false quilt) 2 < 1 / 2 < val (knots_along false quilt) (3 + 1))%R /\
  (forall x, In x (knots_along false quilt) -> (Rabs (1 / 2 - x) <= tol (1 / 2) x)%R -> x = (1 / 2)%R) /\
  valid_surface 2 4 quilt2 /\ heavy_net 2 4 (SControlPoints quilt2) /\ occ (knots_along false quilt2) (1 / 2)%R = 2 /\ span_of 2 4 (knots_along false quilt2) (1 / 2)%R 4.
Proof.
  split; [apply quilt_valid|]. split; [apply quilt_heavy|].
  split. { unfold occ, knots_along, quilt, half_knots. cbn [KnotVectorV count_occ]. repeat (destruct Req_EM_T; try lra). reflexivity. }
  split; [change (0 < 1 / 2 < 1)%R; lra|]. split; [apply half_gap|]. split; [apply quilt2_valid|]. split; [apply quilt2_heavy|].
  split. { unfold occ, knots_along, quilt2, double_knots. cbn [KnotVectorV count_occ]. repeat (destruct Req_EM_T; try lra). reflexivity. }
  split; [lia|]. split; [change (1 / 2 < 1)%R; lra|]. split; [change (1 / 2 <= 1 / 2)%R; lra|]. left. change (1 / 2 < 1)%R. lra.
Qed.

(* a knot that can be removed from one row and not from the other: the row is lost, with the knots of the direction *)
Definition tworows : Surface float (XYZW float) := (mkSurface 1 2 [0; 0; 1; 1] [0; 0; 0; 0.5; 1; 1; 1]
  [[mkXYZW 0 0 0 1; mkXYZW 0 1 0 1; mkXYZW 0 3 0 1; mkXYZW 0 4 0 1]; [mkXYZW 1 0 0 1; mkXYZW 1 1 5 1; mkXYZW 1 3 0 1; mkXYZW 1 4 0 1]])%float.
Definition tworows' : Surface float (XYZW float) := got tworows (SurfaceRemoveKnot tworows 0.5%float 1 false).
Theorem C106_lost_row_refuted : SurfaceRemoveKnot tworows 0.5%float 1 false = Ok tworows' /\
  map (@len _) (SControlPoints tworows') = [3; 0] /\ KnotVectorV tworows' = [] /\ fsurface_at tworows' 0.5 0.5 = UB.
Proof. vm_compute. repeat split; reflexivity. Qed.
Print Assumptions C106_lost_row_refuted.

(** * C107 *)
Theorem C107_elevate_reduce : forall n m (S : Surface R (XYZW R)) b, valid_surface n m S -> heavy_net n m (SControlPoints S) ->
  let p := degree_along b S in let U := knots_along b S in let l := if b then n else m in
  l = p -> 1 <= p -> clamped_knots p p U -> (forall x y, In x U -> In y U -> apart x y) ->
  (let! S' := SurfaceElevateDegree S 1 b in SurfaceReduceDegree S' b) = Ok (Some S).
Proof. exact surface_elevate_reduce. Qed.
Print Assumptions C107_elevate_reduce.

(* when it reports success every line keeps its ends and moves by at most 1/9999 or 1/4999 *)
Theorem C107_close : forall n m (S : Surface R (XYZW R)) b, valid_surface n m S -> heavy_net n m (SControlPoints S) ->
  let p := degree_along b S in let U := knots_along b S in let l := if b then n else m in
  l = p -> 2 <= p -> clamped_knots p p U ->
  returns (SurfaceReduceDegree S b) (fun o => match o with
    | None => True
    | Some S' => degree_along b S' = p - 1 /\ knots_along b S' = bezier_on (p - 1) (val U p) (val U (p + 1)) /\
        degree_along (negb b) S' = degree_along (negb b) S /\ knots_along (negb b) S' = knots_along (negb b) S /\
        net (if b then n else n + 1) (if b then m + 1 else m) (SControlPoints S') /\
        forall a H H', 0 <= a <= (if b then m else n) -> is_line2 b (p + 1) (SControlPoints S) a H -> is_line2 b p (SControlPoints S') a H' ->
          pt H' 0 = pt H 0 /\ pt H' (p - 1) = pt H p /\ forall s, in_domain p p U s ->
          (0 < ww (curve_point (p - 1) (p - 1) (knots_along b S') H' s))%R /\
          (dist3 (proj (curve_point p p U H s)) (proj (curve_point (p - 1) (p - 1) (knots_along b S') H' s)) <= if Z.even p then 1 / 9999 else 1 / 4999)%R
    end).
Proof. exact SurfaceReduce_close. Qed.
Print Assumptions C107_close.

(* more than one polynomial piece: never reduced *)
Theorem C107_refused : forall n m (S : Surface R (XYZW R)) b, valid_surface n m S -> heavy_net n m (SControlPoints S) -> degree_along b S < (if b then n else m) ->
  SurfaceReduceDegree S b = Ok None.
Proof. exact SurfaceReduce_other. Qed.
Print Assumptions C107_refused.

Example C107_ex : valid_surface 2 3 quilt /\ heavy_net 2 3 (SControlPoints quilt) /\ degree_along true quilt = 2 /\ clamped_knots 2 2 (knots_along true quilt) /\
  (forall x y, In x (knots_along true quilt) -> In y (knots_along true quilt) -> apart x y) /\ degree_along false quilt < 3.
Proof. split; [apply quilt_valid|]. split; [apply quilt_heavy|]. split; [reflexivity|]. split; [apply quilt_clamped|]. split; [apply bez_apart|cbn; lia]. Qed.

(** * C108 *)
Theorem C108_samples : forall n m (S : Surface R (XYZW R)), valid_surface n m S -> heavy_net n m (SControlPoints S) ->
  clamped_knots (DegreeU S) n (KnotVectorU S) -> clamped_knots (DegreeV S) m (KnotVectorV S) ->
  returns (SurfaceEquallyTessellate S) (fun '(points, params) => exists VU VV, increasing VU /\ increasing VV /\
    (forall x, In x VU <-> In x (KnotVectorU S)) /\ (forall x, In x VV <-> In x (KnotVectorV S)) /\
    let a := 100 * (len VU - 1) in let c := 100 * (len VV - 1) in
    len points = a * c + 1 /\ len params = a * c + 1 /\
    (forall i j, 0 <= i < a -> 0 <= j < c -> get params (i * c + j) = Ok (grid_at VU i, grid_at VV j)) /\
    get params (a * c) = Ok (val VU (len VU - 1), val VV (len VV - 1)) /\
    forall k u v, get params k = Ok (u, v) -> u_domain n S u /\ v_domain m S v /\ get points k = Ok (surface_at n m S u v)).
Proof. exact SurfaceTessellate_ok. Qed.
Print Assumptions C108_samples.

(* no sample but the last lies on the edges where a parameter is largest *)
Theorem C108_edges_refuted : forall n m (S : Surface R (XYZW R)), valid_surface n m S -> heavy_net n m (SControlPoints S) ->
  clamped_knots (DegreeU S) n (KnotVectorU S) -> clamped_knots (DegreeV S) m (KnotVectorV S) ->
  returns (SurfaceEquallyTessellate S) (fun '(points, params) => forall k u v, 0 <= k < len params - 1 -> get params k = Ok (u, v) ->
    (u < val (KnotVectorU S) (n + 1))%R /\ (v < val (KnotVectorV S) (m + 1))%R).
Proof. exact SurfaceTessellate_edges. Qed.
Print Assumptions C108_edges_refuted.

Example C108_ex : valid_surface 2 3 quilt /\ heavy_net 2 3 (SControlPoints quilt) /\ clamped_knots 2 2 (KnotVectorU quilt) /\ clamped_knots 2 3 (KnotVectorV quilt).
Proof. split; [apply quilt_valid|]. split; [apply quilt_heavy|]. split; apply quilt_clamped. Qed.

(** * C109 *)
Theorem C109_closed : forall n m (S : Surface R (XYZW R)) b, valid_surface n m S -> heavy_net n m (SControlPoints S) ->
  let p := degree_along b S in let U := knots_along b S in let l := if b then n else m in let lines := if b then m else n in
  clamped_knots p l U ->
  let C H t := proj (curve_point p l U H t) in
  returns (SurfaceIsClosed S b) (fun r =>
    ((forall a H, 0 <= a <= lines -> is_line2 b (l + 1) (SControlPoints S) a H -> close (dist3 (C H (val U p)) (C H (val U (l + 1)))) 0) -> r = true) /\
    (r = true -> forall a H, 0 <= a <= lines -> is_line2 b (l + 1) (SControlPoints S) a H -> close (dist3 (C H (val U p)) (C H (val U (l + 1)))) 0 \/
       exists k, 0 <= k < l /\ forall i, 0 <= i <= k -> Spec3.near (proj (pt H (l - k + i))) (proj (pt H i)))).
Proof. exact SurfaceIsClosed_ok. Qed.
Print Assumptions C109_closed.

(* a strip folded to and fro: reported closed, with its ends one unit apart *)
Definition strip : Surface float (XYZW float) := (mkSurface 1 1 [0; 0; 0.5; 0.75; 1; 1] [0; 0; 1; 1]
  [[mkXYZW 0 0 0 1; mkXYZW 0 0 1 1]; [mkXYZW 1 0 0 1; mkXYZW 1 0 1 1]; [mkXYZW 0 0 0 1; mkXYZW 0 0 1 1]; [mkXYZW 1 0 0 1; mkXYZW 1 0 1 1]])%float.
Theorem C109_folded_refuted : SurfaceIsClosed strip true = Ok true /\
  fsurface_at strip 0 0 = Ok (mkXYZ 0 0 0)%float /\ fsurface_at strip 1 0 = Ok (mkXYZ 1 0 0)%float.
Proof. vm_compute. repeat split; reflexivity. Qed.
Print Assumptions C109_folded_refuted.

(* the example surface is open in both directions *)
Lemma far_close (a b : XYZ R) : (1 <= Rabs (gy a - gy b) <= 10)%R \/ (1 <= Rabs (gx a - gx b) <= 10)%R -> ~ close (dist3 a b) 0.
Proof.
  intros H C. assert (D : (1 <= dist3 a b)%R).
  { unfold dist3, norm3. rewrite <- sqrt_1. apply sqrt_le_1_alt. unfold dot3, minus3. cbn [gx gy gz].
    clear C. assert (G : forall x y z : R, (1 <= Rabs x)%R -> (1 <= x * x + y * y + z * z)%R).
    { clear. intros x y z H. pose proof (Rle_0_sqr y). pose proof (Rle_0_sqr z). unfold Rsqr in *. revert H. unfold Rabs. destruct Rcase_abs; intros; nra. }
    destruct H as [[H _] | [H _]]; [pose proof (G _ (gx a - gx b)%R (gz a - gz b)%R H)|pose proof (G _ (gy a - gy b)%R (gz a - gz b)%R H)]; lra. }
  unfold close, tol in C. rewrite Rminus_0_r, Rabs_R0, (Rabs_pos_eq (dist3 a b)), Rmax_left in C by lra. lra.
Qed.
Lemma near_gap (a b : XYZ R) : Spec3.near a b -> (Rabs (gx a) <= 10 -> Rabs (gx b) <= 10 -> Rabs (gx a - gx b) <= 1 / 10)%R /\ (Rabs (gy a) <= 10 -> Rabs (gy b) <= 10 -> Rabs (gy a - gy b) <= 1 / 10)%R.
Proof. intros (H1 & H2 & _). split; intros A B; [pose proof (tol_small _ _ A B)|pose proof (tol_small _ _ A B)]; lra. Qed.
Definition uline : list (XYZW R) := [mkXYZW 0 0 0 1; mkXYZW 2 0 2 2; mkXYZW 2 0 0 1]%R.
Definition vline : list (XYZW R) := [mkXYZW 0 0 0 1; mkXYZW 0 1 0 1; mkXYZW 0 3 0 1; mkXYZW 0 4 0 1]%R.
Lemma uline_x i : 0 <= i < 3 -> gx (proj (pt uline i)) = IZR i.
Proof. intros Hi. destruct (three i Hi) as [-> | [-> | ->]]; [change (0 / 1 = 0)%R|change (2 / 2 = 1)%R|change (2 / 1 = 2)%R]; lra. Qed.
Lemma vline_y i : 0 <= i < 4 -> gy (proj (pt vline i)) = IZR (if i <? 2 then i else i + 1).
Proof. intros Hi. assert (i = 0 \/ i = 1 \/ i = 2 \/ i = 3) as [-> | [-> | [-> | ->]]] by lia; [change (0 / 1 = 0)%R|change (1 / 1 = 1)%R|change (3 / 1 = 3)%R|change (4 / 1 = 4)%R]; lra. Qed.
Lemma quilt_open b : SurfaceIsClosed quilt b = Ok false.
Proof.
  destruct (SurfaceIsClosed_ok 2 3 quilt b quilt_valid quilt_heavy) as (r & E & _ & G); [destruct b; apply quilt_clamped|]. rewrite E. f_equal.
  destruct r; [exfalso|reflexivity]. specialize (G eq_refl 0).
  destruct b; cbn [degree_along knots_along quilt DegreeU DegreeV KnotVectorU KnotVectorV] in G.
  - specialize (G uline ltac:(lia)).
    destruct G as [C | (k & Hk & G)].
    + split; [reflexivity|]. intros i Hi. destruct (three i Hi) as [-> | [-> | ->]]; reflexivity.
    + revert C. apply far_close. right.
      rewrite (curve_point_first 2 2 (bezier_knots 2)) by ((apply bez_knots_ok; lia) || apply quilt_clamped || lia || reflexivity).
      rewrite (curve_point_last 2 2 (bezier_knots 2)) by ((apply bez_knots_ok; lia) || apply quilt_clamped || lia || reflexivity).
      rewrite !uline_x by lia. unfold Rabs. destruct Rcase_abs; lra.
    + specialize (G 0 ltac:(lia)). rewrite Z.add_0_r in G. destruct (near_gap _ _ G) as (Gx & _). rewrite !uline_x in Gx by lia. clear G E.
      assert (k = 0 \/ k = 1) as [-> | ->] by lia; cbn [Z.sub Z.opp Z.add Z.pos_sub Pos.pred_double Z.succ_double] in Gx; revert Gx; unfold Rabs; repeat destruct Rcase_abs; lra.
  - specialize (G vline ltac:(lia)).
    destruct G as [C | (k & Hk & G)].
    + split; [reflexivity|]. intros i Hi. assert (i = 0 \/ i = 1 \/ i = 2 \/ i = 3) as [-> | [-> | [-> | ->]]] by lia; reflexivity.
    + revert C. apply far_close. left.
      rewrite (curve_point_first 2 3 half_knots) by (apply half_ok || apply quilt_clamped || lia || reflexivity).
      rewrite (curve_point_last 2 3 half_knots) by (apply half_ok || apply quilt_clamped || lia || reflexivity). rewrite !vline_y by lia. 
      change (if 0 <? 2 then 0 else 0 + 1) with 0. change (if 3 <? 2 then 3 else 3 + 1) with 4. unfold Rabs. destruct Rcase_abs; lra.
    + specialize (G 0 ltac:(lia)). rewrite Z.add_0_r in G. destruct (near_gap _ _ G) as (_ & Gy). rewrite !vline_y in Gy by lia. clear G E. change (if 0 <? 2 then 0 else 0 + 1) with 0 in Gy.
      assert (k = 0 \/ k = 1 \/ k = 2) as [-> | [-> | ->]] by lia.
      * change (if 3 - 0 <? 2 then 3 - 0 else 3 - 0 + 1) with 4 in Gy. revert Gy; unfold Rabs; repeat destruct Rcase_abs; lra.
      * change (if 3 - 1 <? 2 then 3 - 1 else 3 - 1 + 1) with 3 in Gy. revert Gy; unfold Rabs; repeat destruct Rcase_abs; lra.
      * change (if 3 - 2 <? 2 then 3 - 2 else 3 - 2 + 1) with 1 in Gy. revert Gy; unfold Rabs; repeat destruct Rcase_abs; lra.
Qed.
Example C109_ex : valid_surface 2 3 quilt /\ heavy_net 2 3 (SControlPoints quilt) /\ clamped_knots 2 3 (knots_along false quilt) /\ SurfaceIsClosed quilt false = Ok false.
Proof. split; [apply quilt_valid|]. split; [apply quilt_heavy|]. split; [apply quilt_clamped|apply quilt_open]. Qed.

(** * C110 *)
(* the parameters returned lie in the domain, or one Newton step of negligible length on the surface away from it *)
Theorem C110_returns : forall fuel n m (S : Surface R (XYZW R)) P, valid_surface n m S -> heavy_net n m (SControlPoints S) ->
  clamped_knots (DegreeU S) n (KnotVectorU S) -> clamped_knots (DegreeV S) m (KnotVectorV S) ->
  2 <= DegreeU S -> 2 <= DegreeV S -> SurfaceIsClosed S true = Ok false -> SurfaceIsClosed S false = Ok false ->
  (norm3 P <= 2 ^ 400)%R -> (forall u v, u_domain n S u -> v_domain m S v -> (norm3 (surface_at n m S u v) <= 2 ^ 400)%R) ->
  returns (GetParamOnSurface fuel S P) (fun '(u, v) =>
    (u_domain n S u /\ v_domain m S v) \/
    exists u0 v0 g, u_domain n S u0 /\ v_domain m S v0 /\
      surface_partials (DegreeU S) n (KnotVectorU S) (DegreeV S) m (KnotVectorV S) (SControlPoints S) 2 u0 v0 g /\
      close (norm3 (plus3 (times3 (u - u0) (g 1 0)) (times3 (v - v0) (g 0 1)))) 0).
Proof.
  intros fuel n m S P HS HH CU CV H2 H2' KU KV HP HB. destruct (GetParamOnSurface_ok fuel n m S P HS HH CU CV H2 H2' KU KV HP HB) as ([u v] & E & G).
  exists (u, v). split; [exact E|exact G].
Qed.
Print Assumptions C110_returns.

Theorem C110_linear_refuted : forall fuel n m (S : Surface R (XYZW R)) P, valid_surface n m S -> heavy_net n m (SControlPoints S) ->
  clamped_knots (DegreeU S) n (KnotVectorU S) -> clamped_knots (DegreeV S) m (KnotVectorV S) ->
  DegreeU S < 2 \/ DegreeV S < 2 ->
  (norm3 P <= 2 ^ 400)%R -> (forall u v, u_domain n S u -> v_domain m S v -> (norm3 (surface_at n m S u v) <= 2 ^ 400)%R) ->
  GetParamOnSurface fuel S P = Throw.
Proof. exact GetParamOnSurface_low. Qed.
Print Assumptions C110_linear_refuted.

(* a long thin rectangle: the search returns u = -1/32, which the evaluation refuses *)
Definition thin : Surface R (XYZW R) := mkSurface 2 2 [0; 0; 0; 1; 1; 1]%R [0; 0; 0; 1; 1; 1]%R
  (let a := 1 / 32768 in let b := 1024 in
   [[mkXYZW 0 0 0 1; mkXYZW 0 (b / 2) 0 1; mkXYZW 0 b 0 1]; [mkXYZW (a / 2) 0 0 1; mkXYZW (a / 2) (b / 2) 0 1; mkXYZW (a / 2) b 0 1];
    [mkXYZW a 0 0 1; mkXYZW a (b / 2) 0 1; mkXYZW a b 0 1]])%R.
Theorem C110_outside_refuted : valid_surface 2 2 thin /\ forall fuel,
  GetParamOnSurface fuel thin (mkXYZ (- (1 / 32768) / 32) (1024 / 2) 1)%R = Ok (- 1 / 32, 1 / 2)%R /\
  NurbsSurfacePoint thin (- 1 / 32)%R (1 / 2)%R = Throw.
Proof.
  split; [apply flat_valid|]. intros fuel. split.
  - apply (flat_search (1 / 32768) 1024); lra.
  - unfold NurbsSurfacePoint, GetPointOnSurface, validate_domain. change (get (KnotVectorU thin) 0) with (Ok 0%R). change (get (KnotVectorU thin) (len (KnotVectorU thin) - 1)) with (Ok 1%R). cbn [bind].
    destruct (range_cases (-1 / 32)%R 0%R 1%R) as [H | ->]; [|reflexivity]. apply range_iff in H. unfold eps in H. destruct H as ([H | H] & _); [lra|]. rewrite Rabs_left in H; lra.
Qed.
Print Assumptions C110_outside_refuted.

Lemma quilt_ball u v : u_domain 2 quilt u -> v_domain 3 quilt v -> (norm3 (surface_at 2 3 quilt u v) <= 2 ^ 400)%R.
Proof.
  intros Du Dv. pose proof (surface_heavy 2 3 quilt u v quilt_valid quilt_heavy Du Dv) as Hw.
  assert (HB : forall (f : XYZW R -> R), affine f -> (forall i j, 0 <= i <= 2 -> 0 <= j <= 3 -> (0 <= f (pt2 (SControlPoints quilt) i j))%R) -> (0 <= f (surface_point 2 2 (bezier_knots 2) 2 3 half_knots (SControlPoints quilt) u v))%R).
  { intros f Hf Hc. apply surface_hull; [apply bez_knots_ok; lia|apply half_ok|exact Du|exact Dv|exact Hf|exact Hc]. }
  unfold surface_at. cbn [DegreeU DegreeV KnotVectorU KnotVectorV quilt] in *. set (h := surface_point _ _ _ _ _ _ _ u v) in *.
  assert (QS : forall i j, 0 <= i <= 2 -> 0 <= j <= 3 -> let x := pt2 (SControlPoints quilt) i j in (0 <= wx x <= 8 * ww x /\ 0 <= wy x <= 8 * ww x /\ 0 <= wz x <= 8 * ww x)%R).
  { intros i j Hi Hj. destruct (three i ltac:(lia)) as [-> | [-> | ->]];
    assert (j = 0 \/ j = 1 \/ j = 2 \/ j = 3) as [-> | [-> | [-> | ->]]] by lia; lazy [pt2 pt at_ SControlPoints quilt nth Z.to_nat Pos.to_nat Pos.iter_op Init.Nat.add wx wy wz ww]; lra. }
  assert (LIN : forall a b c d, affine (fun x : XYZW R => (a * wx x + b * wy x + c * wz x + d * ww x)%R)).
  { intros a b c d k1 k2 [x1 x2 x3 x4] [y1 y2 y3 y4] _. cbn [vadd vscale Vec_XYZW]. unfold xyzw_add, xyzw_scale. num. cbn [wx wy wz ww]. cbn. num. ring. }
  assert (HX : forall a b c d, (forall i j, 0 <= i <= 2 -> 0 <= j <= 3 -> let x := pt2 (SControlPoints quilt) i j in (0 <= a * wx x + b * wy x + c * wz x + d * ww x)%R) -> (0 <= a * wx h + b * wy h + c * wz h + d * ww h)%R).
  { intros a b c d Hc. exact (HB _ (LIN a b c d) Hc). }
  assert (X1 : (0 <= wx h)%R) by (pose proof (HX 1%R 0%R 0%R 0%R ltac:(intros i j Hi Hj; destruct (QS i j Hi Hj) as (Q1 & Q2 & Q3); cbv zeta; lra)); lra).
  assert (X2 : (wx h <= 8 * ww h)%R) by (pose proof (HX (-1)%R 0%R 0%R 8%R ltac:(intros i j Hi Hj; destruct (QS i j Hi Hj) as (Q1 & Q2 & Q3); cbv zeta; lra)); lra).
  assert (X3 : (0 <= wy h)%R) by (pose proof (HX 0%R 1%R 0%R 0%R ltac:(intros i j Hi Hj; destruct (QS i j Hi Hj) as (Q1 & Q2 & Q3); cbv zeta; lra)); lra).
  assert (X4 : (wy h <= 8 * ww h)%R) by (pose proof (HX 0%R (-1)%R 0%R 8%R ltac:(intros i j Hi Hj; destruct (QS i j Hi Hj) as (Q1 & Q2 & Q3); cbv zeta; lra)); lra).
  assert (X5 : (0 <= wz h)%R) by (pose proof (HX 0%R 0%R 1%R 0%R ltac:(intros i j Hi Hj; destruct (QS i j Hi Hj) as (Q1 & Q2 & Q3); cbv zeta; lra)); lra).
  assert (X6 : (wz h <= 8 * ww h)%R) by (pose proof (HX 0%R 0%R (-1)%R 8%R ltac:(intros i j Hi Hj; destruct (QS i j Hi Hj) as (Q1 & Q2 & Q3); cbv zeta; lra)); lra).
  clear HX HB LIN QS. clearbody h. assert (D : forall a, (0 <= a <= 8 * ww h)%R -> (0 <= a / ww h <= 8)%R).
  { intros a Ha. split; [apply Rle_mult_inv_pos; lra|]. apply (Rmult_le_reg_r (ww h)); [lra|]. replace (a / ww h * ww h)%R with a by (field; lra). lra. }
  pose proof (D _ (conj X1 X2)) as D1. pose proof (D _ (conj X3 X4)) as D2. pose proof (D _ (conj X5 X6)) as D3.
  apply Rle_trans with (2 ^ 4)%R; [|apply Rle_pow; [lra|lia]]. unfold norm3, dot3, proj. cbn [gx gy gz].
  replace (2 ^ 4)%R with (R_sqrt.sqrt (16 * 16)) by (rewrite sqrt_square; lra). apply sqrt_le_1_alt.
  set (x := (wx h / ww h)%R) in *. set (y := (wy h / ww h)%R) in *. set (z := (wz h / ww h)%R) in *. clearbody x y z. clear -D1 D2 D3. nra.
Qed.
Example C110_ex : valid_surface 2 3 quilt /\ heavy_net 2 3 (SControlPoints quilt) /\ SurfaceIsClosed quilt true = Ok false /\ SurfaceIsClosed quilt false = Ok false /\
  (forall u v, u_domain 2 quilt u -> v_domain 3 quilt v -> (norm3 (surface_at 2 3 quilt u v) <= 2 ^ 400)%R).
Proof. split; [apply quilt_valid|]. split; [apply quilt_heavy|]. split; [apply quilt_open|]. split; [apply quilt_open|apply quilt_ball]. Qed.

(** * C111 *)
Theorem C111_sweep : forall p n U (P : list (XYZW R)) q m W (T : list (XYZW R)),
  curve_knots p n U -> curve_knots q m W -> p <= 7 -> q <= 7 -> len P = n + 1 -> len T = m + 1 -> heavy P -> heavy T ->
  returns (CreateGeneralizedTranslationalSweepSurface (mkCurve p U P) (mkCurve q W T)) (fun S =>
    valid_surface n m S /\ DegreeU S = p /\ DegreeV S = q /\ KnotVectorU S = U /\ KnotVectorV S = W /\
    (forall i j, 0 <= i <= n -> 0 <= j <= m -> ww (pt2 (SControlPoints S) i j) = (ww (pt P i) * ww (pt T j))%R) /\
    forall u v, in_domain p n U u -> in_domain q m W v ->
      surface_at n m S u v = plus3 (proj (curve_point p n U P u)) (proj (curve_point q m W T v))).
Proof. exact TranslationalSweep_ok. Qed.
Print Assumptions C111_sweep.

(* as computed, when no product of two weights is too small *)
Theorem C111_sum : forall p n U (P : list (XYZW R)) q m W (T : list (XYZW R)),
  curve_knots p n U -> curve_knots q m W -> p <= 7 -> q <= 7 -> len P = n + 1 -> len T = m + 1 -> heavy P -> heavy T ->
  (forall i j, 0 <= i <= n -> 0 <= j <= m -> let w := (ww (pt P i) * ww (pt T j))%R in (tol w 0 < w)%R) ->
  returns (CreateGeneralizedTranslationalSweepSurface (mkCurve p U P) (mkCurve q W T)) (fun S =>
    forall u v, in_domain p n U u -> in_domain q m W v -> exists c t,
      NurbsPoint (mkCurve p U P) u = Ok c /\ NurbsPoint (mkCurve q W T) v = Ok t /\ NurbsSurfacePoint S u v = Ok (plus3 c t)).
Proof. exact TranslationalSweep_at. Qed.
Print Assumptions C111_sum.

Example C111_ex : curve_knots 2 2 (bezier_knots 2) /\ curve_knots 2 3 half_knots /\ len uline = 2 + 1 /\ len vline = 3 + 1 /\ heavy uline /\ heavy vline /\
  (forall i j, 0 <= i <= 2 -> 0 <= j <= 3 -> let w := (ww (pt uline i) * ww (pt vline j))%R in (tol w 0 < w)%R).
Proof.
  assert (HUW : forall i, 0 <= i < 3 -> (ww (pt uline i) = 1 \/ ww (pt uline i) = 2)%R) by (intros i Hi; destruct (three i Hi) as [-> | [-> | ->]]; (left; reflexivity) || (right; reflexivity)).
  assert (HVW : forall i, 0 <= i < 4 -> ww (pt vline i) = 1%R) by (intros i Hi; assert (i = 0 \/ i = 1 \/ i = 2 \/ i = 3) as [-> | [-> | [-> | ->]]] by lia; reflexivity).
  split; [apply bez_knots_ok; lia|]. split; [apply half_ok|]. split; [reflexivity|]. split; [reflexivity|].
  split. { intros i Hi. apply heavy_12, HUW. exact Hi. } split. { intros i Hi. apply heavy_12. left. apply HVW, Hi. }
  intros i j Hi Hj. cbv zeta. rewrite HVW by lia. rewrite Rmult_1_r. apply heavy_12, HUW. lia.
Qed.

(* weights of 2^-10: the product counts as zero and the evaluation does not divide by it *)
Definition light : Curve float (XYZW float) := (mkCurve 1 [0; 0; 1; 1] [mkXYZW 0x1p-10 0 0 0x1p-10; mkXYZW 0x1p-9 0 0 0x1p-10])%float.
Definition light2 : Surface float (XYZW float) := got strip (CreateGeneralizedTranslationalSweepSurface light light).
Theorem C111_light_refuted : CreateGeneralizedTranslationalSweepSurface light light = Ok light2 /\ NurbsPoint light 0%float = Ok (mkXYZ 1 0 0)%float /\
  fsurface_at light2 0 0 = Ok (mkXYZ 0x1p-19 0 0)%float.
Proof. vm_compute. repeat split; reflexivity. Qed.
Print Assumptions C111_light_refuted.
