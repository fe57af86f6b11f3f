(* Property theorems, part 4: rational curves, knot insertion, corner cutting.
   Specifications (weighted, rational_point, proj, xyz_deriv_on, ...) are in Spec.v and
   Spec2.v; model functions are in M_NurbsCurve.v. *)
From Coq Require Import ZArith List Bool Reals Lra Lia Permutation.
From Verif Require Import Base Num Vec Spec Spec2 M_MathUtils M_XYZ M_Polynomials M_Bspline M_NurbsCurve
  P_Vec P_Curve P_VSum P_Bspline P_Nurbs P_Insert2 P_Insert3.
Import ListNotations.
Open Scope Z_scope.

(* a quadratic curve with eight weighted control points over Uex = 0 0 0 1 2 3 4 4 5 5 5 *)
Definition Pex4 : list (XYZ R) :=
  [mkXYZ 0 0 0; mkXYZ 1 2 0; mkXYZ 3 2 1; mkXYZ 4 0 (-1); mkXYZ 5 1 0; mkXYZ 6 0 0; mkXYZ 7 3 2; mkXYZ 8 0 0]%R.
Definition Wex4 : list R := [1; 2; 1 / 2; 1; 3; 1; 1; 1]%R.
Definition Wex4' : list R := [2; 4; 1; 2; 6; 2; 2; 2]%R.
Definition Hex4 : list (XYZW R) := map (fun '(P, w) => hom P w) (combine Pex4 Wex4).
Definition Hex4' : list (XYZW R) := map (fun '(P, w) => hom P w) (combine Pex4 Wex4').

Ltac eight := let C := fresh in intros i Hi; assert (C : i = 0 \/ i = 1 \/ i = 2 \/ i = 3 \/ i = 4 \/ i = 5 \/ i = 6 \/ i = 7) by (cbn in Hi; lia);
  destruct C as [->|[->|[->|[->|[->|[->|[->| ->]]]]]]].

Example rational_hypotheses : curve_knots 2 7 Uex /\ len Hex4 = 7 + 1 /\ weighted Pex4 Wex4 Hex4 /\ weighted Pex4 Wex4' Hex4' /\
  in_domain 2 7 Uex (7 / 2) /\ (forall i, 0 <= i <= 7 -> (tol (val Wex4 i) 0 < val Wex4 i)%R) /\
  (forall i, 0 <= i <= 7 -> (tol (val Wex4' i) 0 < val Wex4' i)%R) /\
  (forall i, 0 <= i <= 7 -> val Wex4' i = (2 * val Wex4 i)%R).
Proof.
  split; [exact Uex_ok|]. split; [reflexivity|].
  split; [repeat split; eight; reflexivity|]. split; [repeat split; eight; reflexivity|]. split; [apply Uex_dom|].
  split; [|split].
  - eight; apply heavy_iff; lazy [val at_ Wex4 nth Z.to_nat Pos.to_nat Pos.iter_op Init.Nat.add]; lra.
  - eight; apply heavy_iff; lazy [val at_ Wex4' nth Z.to_nat Pos.to_nat Pos.iter_op Init.Nat.add]; lra.
  - eight; lazy [val at_ Wex4 Wex4' nth Z.to_nat Pos.to_nat Pos.iter_op Init.Nat.add]; lra.
Qed.

(** * C23 *)
(* weights are above the comparison tolerance of zero *)
Theorem C23_rational_point : forall p n U P W H t, curve_knots p n U -> p <= 7 -> weighted P W H -> len H = n + 1 -> in_domain p n U t ->
  (forall i, 0 <= i <= n -> (tol (val W i) 0 < val W i)%R) ->
  NurbsPoint (mkCurve p U H) t = Ok (rational_point p n U P W t).
Proof. exact Nurbs_point. Qed.
Print Assumptions C23_rational_point.

(* every half-space containing the active control points contains the point *)
Theorem C23_rational_hull : forall p n U P W H t k (f : XYZ R -> R) c,
  curve_knots p n U -> p <= 7 -> weighted P W H -> len H = n + 1 -> span_of p n U t k ->
  (forall i, 0 <= i <= n -> (tol (val W i) 0 < val W i)%R) -> affine f ->
  (forall i, k - p <= i <= k -> (c <= f (pt P i))%R) ->
  returns (NurbsPoint (mkCurve p U H) t) (fun x => (c <= f x)%R).
Proof. exact Nurbs_hull. Qed.
Print Assumptions C23_rational_hull.

Theorem C23_rational_weight_scaling : forall p n U P W W' H H' t l,
  curve_knots p n U -> p <= 7 -> weighted P W H -> weighted P W' H' -> len H = n + 1 ->
  (forall i, 0 <= i <= n -> val W' i = (l * val W i)%R) ->
  (forall i, 0 <= i <= n -> (tol (val W i) 0 < val W i)%R) -> (forall i, 0 <= i <= n -> (tol (val W' i) 0 < val W' i)%R) ->
  in_domain p n U t -> NurbsPoint (mkCurve p U H') t = NurbsPoint (mkCurve p U H) t.
Proof. exact Nurbs_scale. Qed.
Print Assumptions C23_rational_weight_scaling.

(* positive weights within tolerance of zero are not divided out *)
Theorem C23_rational_point_tiny_weights_refuted : exists p n U P W H t, curve_knots p n U /\ p <= 7 /\ weighted P W H /\ len H = n + 1 /\
  in_domain p n U t /\ (forall i, 0 <= i <= n -> (0 < val W i)%R) /\
  NurbsPoint (mkCurve p U H) t <> Ok (rational_point p n U P W t).
Proof. exact Nurbs_tiny. Qed.
Print Assumptions C23_rational_point_tiny_weights_refuted.

(** * C24 *)
Theorem C24_rational_derivatives : forall p n U H t d, curve_knots p n U -> p <= 7 -> len H = n + 1 -> in_domain p n U t -> 0 < d ->
  exists k, span_of p n U t k /\ (ww (span_curve k p U H t) <> 0%R ->
    returns (ComputeRationalCurveDerivatives (mkCurve p U H) d t) (fun D => len D = d + 1 /\
      forall m, 0 <= m <= d -> exists G,
        xyz_deriv_on (fun x => ww (span_curve k p U H x) <> 0%R) m (fun x => proj (span_curve k p U H x)) G /\
        get D m = Ok (G t))).
Proof. exact Rational_derivatives_ok. Qed.
Print Assumptions C24_rational_derivatives.

Theorem C24_rational_derivatives_positive_weights : forall p n U P W H t d, curve_knots p n U -> p <= 7 -> weighted P W H -> len H = n + 1 ->
  (forall i, 0 <= i <= n -> (0 < val W i)%R) -> in_domain p n U t -> 0 < d ->
  exists k, span_of p n U t k /\
    returns (ComputeRationalCurveDerivatives (mkCurve p U H) d t) (fun D => len D = d + 1 /\
      forall m, 0 <= m <= d -> exists G,
        xyz_deriv_on (fun x => ww (span_curve k p U H x) <> 0%R) m (fun x => proj (span_curve k p U H x)) G /\
        get D m = Ok (G t)).
Proof. exact Rational_derivatives_positive. Qed.
Print Assumptions C24_rational_derivatives_positive_weights.

(* where the weight function vanishes the result is not finite *)
Theorem C24_rational_derivatives_zero_weight : forall p n U H t k d, curve_knots p n U -> p <= 7 -> len H = n + 1 -> span_of p n U t k -> 0 < d ->
  ww (span_curve k p U H t) = 0%R -> ComputeRationalCurveDerivatives (mkCurve p U H) d t = NonFin.
Proof. exact Rational_derivatives_zero. Qed.
Print Assumptions C24_rational_derivatives_zero_weight.

(** * C25 *)
Example insert_hypotheses : curve_knots 2 7 Uex /\ len Hex4 = 7 + 1 /\ (val Uex 2 < 4 < val Uex (7 + 1))%R /\ span_of 2 7 Uex 4 7 /\
  (forall x, In x Uex -> (Rabs (4 - x) <= tol 4 x)%R -> x = 4%R) /\
  (let s := Z.of_nat (count_occ Req_EM_T Uex 4%R) in s = 2 /\ (if 2 + 1 <? s + 1 then 2 - 1 - s else 1) = 1 /\ (if 2 + 1 <? s + 5 then 2 - 1 - s else 5) = -1).
Proof.
  split; [exact Uex_ok|]. split; [reflexivity|]. split; [change (0 < 4 < 5)%R; lra|]. split.
  { split; [lia|]. change ((4 < 5)%R /\ (4 <= 4)%R /\ ((4 < 5)%R \/ 7 = 7 /\ 4%R = 5%R)). repeat split; try lra; left; lra. }
  split; [exact Uex_sep|].
  assert (E : count_occ Req_EM_T Uex 4%R = 2%nat).
  { unfold Uex. cbn [count_occ]. destruct (Req_EM_T 0 4) as [G|_]; [lra|]. destruct (Req_EM_T 1 4) as [G|_]; [lra|].
    destruct (Req_EM_T 2 4) as [G|_]; [lra|]. destruct (Req_EM_T 3 4) as [G|_]; [lra|]. destruct (Req_EM_T 4 4) as [_|G]; [|lra].
    destruct (Req_EM_T 5 4) as [G|_]; [lra|]. reflexivity. }
  rewrite E. cbn. lia.
Qed.

(* r is the number of copies really inserted; s the old multiplicity; k the span of u *)
Theorem C25_insert_knot_structure : forall T (V : Vec R T) (L : VecL T) p n U (P : list T) u times res0 k,
  curve_knots p n U -> len P = n + 1 -> 0 < times -> span_of p n U u k -> (u < val U (n + 1))%R ->
  (forall x, In x U -> (Rabs (u - x) <= tol u x)%R -> x = u) ->
  let s := Z.of_nat (count_occ Req_EM_T U u) in
  let r := if p + 1 <? s + times then p - 1 - s else times in
  0 < r -> returns (InsertKnot (mkCurve p U P) u times res0) (fun '(r', c) => r' = r /\
     len (KnotVector c) = len U + r /\ len (ControlPoints c) = len P + r /\ Degree c = p /\
     (forall i, 0 <= i <= k - p -> get (ControlPoints c) i = get P i) /\
     (forall i, k - s <= i <= n -> get (ControlPoints c) (i + r) = get P i)).
Proof. intros T V L. exact InsertKnot_outer. Qed.
Print Assumptions C25_insert_knot_structure.

(** * C26 *)
Theorem C26_insert_knot_preserves : forall T (V : Vec R T) (L : VecL T) p n U (P : list T) u times res0,
  curve_knots p n U -> len P = n + 1 -> 0 < times ->
  (val U p < u < val U (n + 1))%R -> (forall x, In x U -> (Rabs (u - x) <= tol u x)%R -> x = u) ->
  let s := Z.of_nat (count_occ Req_EM_T U u) in
  let r := if p + 1 <? s + times then p - 1 - s else times in
  (r <= 0 -> InsertKnot (mkCurve p U P) u times res0 = Ok (0, res0)) /\
  (0 < r -> returns (InsertKnot (mkCurve p U P) u times res0) (fun '(r', c) => r' = r /\
     exists U' Q, c = mkCurve p U' Q /\ curve_knots p (n + r) U' /\ len Q = n + r + 1 /\
       Permutation U' (repeat u (Z.to_nat r) ++ U) /\
       (forall t, in_domain p n U t <-> in_domain p (n + r) U' t) /\
       (forall t, in_domain p n U t -> curve_point p (n + r) U' Q t = curve_point p n U P t))).
Proof. intros T V L. exact InsertKnot_preserves. Qed.
Print Assumptions C26_insert_knot_preserves.

(* an existing knot within tolerance of, but different from, the inserted one *)
Theorem C26_insert_near_knot_refuted : exists c t, InsertKnot (mkCurve 1 Unear [0; 1; 5]%R) unear 1 emptyCurve = Ok (1, c) /\
  curve_knots 1 3 (KnotVector c) /\ in_domain 1 2 Unear t /\
  curve_point 1 3 (KnotVector c) (ControlPoints c) t <> curve_point 1 2 Unear [0; 1; 5]%R t.
Proof. exact Insert_near. Qed.
Print Assumptions C26_insert_near_knot_refuted.

(** * C27 *)
Example corner_hypotheses : (forall i, 0 <= i <= 2 -> val Uex i = val Uex 0) /\ (forall i, 7 + 1 <= i <= 7 + 2 + 1 -> val Uex i = val Uex (7 + 2 + 1)).
Proof.
  split; intros i Hi.
  - assert (i = 0 \/ i = 1 \/ i = 2) as [->|[->| ->]] by lia; reflexivity.
  - assert (i = 8 \/ i = 9 \/ i = 10) as [->|[->| ->]] by lia; reflexivity.
Qed.

Theorem C27_corner_cut : forall p n U H t, curve_knots p n U -> p <= 7 -> len H = n + 1 -> in_domain p n U t ->
  (forall i, 0 <= i <= p -> val U i = val U 0) -> (forall i, n + 1 <= i <= n + p + 1 -> val U i = val U (n + p + 1)) ->
  (forall x, In x U -> (Rabs (t - x) <= tol t x)%R -> x = t) ->
  ((val U 0 < t < val U (n + p + 1))%R -> Z.of_nat (count_occ Req_EM_T U t) <= p) ->
  GetPointOnCurveByCornerCut (mkCurve p U H) t = NurbsPoint (mkCurve p U H) t.
Proof. exact CornerCut_same. Qed.
Print Assumptions C27_corner_cut.

(* an interior knot of multiplicity degree + 1: the first element of an empty vector is read *)
Theorem C27_corner_cut_full_multiplicity_refuted : forall H, len H = 4 ->
  GetPointOnCurveByCornerCut (mkCurve 1 [0; 0; 1; 1; 2; 2]%R H) 1%R = UB.
Proof. exact CornerCut_full. Qed.
Print Assumptions C27_corner_cut_full_multiplicity_refuted.
