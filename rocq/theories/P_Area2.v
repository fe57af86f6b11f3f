(* The area of a surface by Simpson's rule: surfaces. *)
From Coq Require Import ZArith List Bool Reals Lra Lia.
From Verif Require Import Base Num Vec Tac Spec Spec2 Spec3 Spec4 Spec5 Spec8 M_MathUtils M_XYZ M_Bspline M_NurbsCurve M_Curve2 M_Geom M_Surface M_Curve4 M_Area
  P_MathUtils P_XYZ P_Vec P_VSum P_Curve P_Bspline P_Loop P_Geom P_Matrix P_Nurbs P_Cox P_Span P_Surface P_BsplineS P_Surf6 P_RSurf2 P_Lsq6 P_ParamOn P_Make P_Swung P_Area.
Import ListNotations.
Open Scope Z_scope.

Lemma lagrange (a b : XYZ R) : (dot3 a a * dot3 b b - dot3 a b * dot3 a b)%R = dot3 (cross3 a b) (cross3 a b).
Proof. d3. v3h. ring. Qed.

Section Surf.
Variables (ab we : list R) (cl : Surface R (XYZW R) -> R -> R -> R -> R -> res R).
Variables (p n : Z) (U : list R) (q m : Z) (V : list R) (H : list (list (XYZW R))).
Hypotheses (HU : curve_knots p n U) (HV : curve_knots q m V) (Hp : 1 <= p <= 7) (Hq : 1 <= q <= 7) (HH : net (n + 1) (m + 1) H).
Hypothesis Hw : forall u v, in_domain p n U u -> in_domain q m V v -> ww (surface_point p n U q m V H u v) <> 0%R.

Lemma element_ok u v : in_domain p n U u -> in_domain q m V v -> exists g, surface_partials p n U q m V H 1 u v g /\
  area_element (mkSurface p q U V H) u v = Ok (norm3 (cross3 (g 1 0) (g 0 1))).
Proof.
  intros Du Dv. destruct (First_dom p n U q m V H u v HU HV (proj2 Hp) (proj2 Hq) HH Du Dv (Hw u v Du Dv) ltac:(lia) ltac:(lia)) as (g & G & E).
  exists g. split; [exact G|]. unfold area_element. rewrite E. cbn [bind]. num. change (@DotProduct R _) with dot3. rewrite lagrange. rewrite Rsqrt_ok; [reflexivity|]. unfold dot3. set (c := cross3 _ _). nra.
Qed.

(* a surface whose reparametrisation over [0,1] is this one; surfaces already over [0,1] in one direction are their own *)
Variable S0 : Surface R (XYZW R).
Hypothesis HS0 : SurfaceReparametrize S0 0%R 1%R 0%R 1%R = Ok (mkSurface p q U V H).

Lemma area_enter fuel : ApproximateArea ab we cl fuel S0 It_Simpson =
  (let! init := make_UVA (area_element (mkSurface p q U V H)) 0%R 1%R 0%R 1%R in let! st := area_loop fuel (area_element (mkSurface p q U V H)) ([init], 0%R) in Ok (snd st)).
Proof. unfold ApproximateArea. num. rewrite HS0. reflexivity. Qed.

Lemma area_bounds lo hi : (forall t, (0 <= t <= 1)%R -> in_domain p n U t) -> (forall t, (0 <= t <= 1)%R -> in_domain q m V t) -> 
  (forall u v g, (0 <= u <= 1)%R -> (0 <= v <= 1)%R -> surface_partials p n U q m V H 1 u v g -> (lo <= norm3 (cross3 (g 1%Z 0%Z) (g 0%Z 1%Z)) <= hi)%R) ->
  exists fuel0, forall fuel, (fuel0 <= fuel)%nat -> returns (ApproximateArea ab we cl fuel S0 It_Simpson) (fun a => (lo <= a <= hi)%R).
Proof.
  intros DU DV HB. 
  assert (Hf : forall u v, (0 <= u <= 1)%R -> (0 <= v <= 1)%R -> exists y, area_element (mkSurface p q U V H) u v = Ok y /\ (lo <= y <= hi)%R).
  { intros u v Hu Hv. destruct (element_ok u v (DU u Hu) (DV v Hv)) as (g & G & E). exists (norm3 (cross3 (g 1 0) (g 0 1))). split; [exact E|]. exact (HB u v g Hu Hv G). }
  assert (HLH : (lo <= hi)%R) by (destruct (Hf 0%R 0%R ltac:(lra) ltac:(lra)) as (y & _ & B); lra).
  destruct (loop_total _ lo hi Hf HLH) as (fuel0 & HF). exists fuel0. intros fuel Hfu. destruct (HF fuel Hfu) as (init & a & E1 & E2 & B). exists a. split; [|exact B].
  rewrite area_enter. rewrite E1. cbn [bind]. rewrite E2. reflexivity.
Qed.
End Surf.

(** * A parallelogram, the second direction parametrised over [0, k] *)
Definition knots_to (k : R) : list R := [0; 0; k; k]%R.
Definition parallelogram (a x y : XYZ R) : list (list (XYZW R)) := [[hom a 1; hom (plus3 a y) 1]; [hom (plus3 a x) 1; hom (plus3 (plus3 a x) y) 1]].
Definition flat_at (a x y : XYZ R) (k u v : R) : XYZ R := plus3 a (plus3 (times3 u x) (times3 (v / k) y)).

Lemma knots_to_ok k : (1 / 1000 <= k <= 1000)%R -> curve_knots 1 1 (knots_to k).
Proof.
  intros Hk. constructor; try lia; try reflexivity.
  - intros i j Hi Hij Hj. unfold knots_to in *. change (len [0; 0; k; k]%R) with 4 in *. assert (D : forall z, 0 <= z < 4 -> z = 0 \/ z = 1 \/ z = 2 \/ z = 3) by lia. destruct (D i ltac:(lia)) as [-> | [-> | [-> | ->]]], (D j ltac:(lia)) as [-> | [-> | [-> | ->]]]; try lia;
      change (val [0; 0; k; k]%R 0) with 0%R; change (val [0; 0; k; k]%R 1) with 0%R; change (val [0; 0; k; k]%R 2) with k; change (val [0; 0; k; k]%R 3) with k; lra.
  - change (val (knots_to k) 1) with 0%R. change (val (knots_to k) (1 + 1)) with k. unfold tol. rewrite Rabs_R0, (Rabs_pos_eq k), Rmax_right by lra. lra.
  - change (val (knots_to k) 1) with 0%R. change (val (knots_to k) (1 + 1)) with k. unfold tol. rewrite Rabs_R0, (Rabs_pos_eq k), Rmax_right by lra. lra.
Qed.
Lemma knots_N k x : (0 < k)%R -> Nspan (val (knots_to k)) 1 (Z.to_nat 1) 0 x = (1 - x / k)%R /\ Nspan (val (knots_to k)) 1 (Z.to_nat 1) 1 x = (x / k)%R.
Proof.
  intros Hk. assert (V0 : val (knots_to k) 0 = 0%R) by reflexivity. assert (V1 : val (knots_to k) 1 = 0%R) by reflexivity. assert (V2 : val (knots_to k) 2 = k) by reflexivity. assert (V3 : val (knots_to k) 3 = k) by reflexivity.
  change (Z.to_nat 1) with 1%nat. unfold Nspan. cbn [Nrec]. change (Z.of_nat 1) with 1. cbn [Z.eqb Z.add Pos.eqb Pos.add Pos.succ]. rewrite ?V0, ?V1, ?V2, ?V3. rewrite !(sdiv_ok _ (k - 0)%R) by lra. split; field; lra.
Qed.
Lemma flat_patch a x y k u v : (0 < k)%R -> span_patch 1 1 (knots_to 1) 1 1 (knots_to k) (parallelogram a x y) u v = hom (flat_at a x y k u v) 1.
Proof.
  intros Hk. destruct (knots_N 1 u ltac:(lra)) as (A0 & A1). destruct (knots_N k v Hk) as (B0 & B1).
  apply co_ext. intros c. unfold span_patch. rewrite co_comb. change (1 - 1) with 0. change (1 + 1) with 2. rewrite rsum_2. rewrite !co_comb. rewrite !rsum_2, A0, A1, B0, B1.
  change (pt2 (parallelogram a x y) 0 0) with (hom a 1). change (pt2 (parallelogram a x y) 0 1) with (hom (plus3 a y) 1). change (pt2 (parallelogram a x y) 1 0) with (hom (plus3 a x) 1). change (pt2 (parallelogram a x y) 1 1) with (hom (plus3 (plus3 a x) y) 1).
  unfold flat_at. destruct a as [a1 a2 a3], x as [x1 x2 x3], y as [y1 y2 y3]. destruct c as [|[|[|c]]]; cbn; field; lra.
Qed.

Lemma span_one k t kk : span_of 1 1 (knots_to k) t kk -> kk = 1.
Proof. intros Hk. destruct Hk. lia. Qed.

Lemma flat_partials a x y k u v g : (0 < k)%R -> surface_partials 1 1 (knots_to 1) 1 1 (knots_to k) (parallelogram a x y) 1 u v g -> g 1 0 = x /\ g 0 1 = times3 (/ k) y.
Proof.
  intros Hk (ku & kv & Hu & Hv & G). assert (ku = 1) as -> by exact (span_one _ _ _ Hu). assert (kv = 1) as -> by exact (span_one _ _ _ Hv).
  assert (FP : forall s t, proj (span_patch 1 1 (knots_to 1) 1 1 (knots_to k) (parallelogram a x y) s t) = flat_at a x y k s t) by (intros s t; rewrite flat_patch by exact Hk; apply P_Swung.hom_proj).
  assert (FW : forall s t, ww (span_patch 1 1 (knots_to 1) 1 1 (knots_to k) (parallelogram a x y) s t) <> 0%R) by (intros s t; rewrite flat_patch by exact Hk; unfold hom; cbn; lra).
  destruct (G 1 0 ltac:(lia) ltac:(lia) ltac:(lia)) as (G1 & (h & Hh & Hd) & <-). destruct (G 0 1 ltac:(lia) ltac:(lia) ltac:(lia)) as (G2 & (h' & Hh' & Hd') & <-).
  change (Z.to_nat 0) with 0%nat in *. unfold xyz_deriv_on in *. change (Z.to_nat 0) with 0%nat in *. change (Z.to_nat 1) with 1%nat in *. cbn [nth_deriv_on] in *. cbv beta in *.
  split.
  - destruct (Hd v) as ((dx & Dx & Ex) & (dy & Dy & Ey) & (dz & Dz & Ez)). specialize (Dx u (FW u v)). specialize (Dy u (FW u v)). specialize (Dz u (FW u v)). specialize (Ex u (FW u v)). specialize (Ey u (FW u v)). specialize (Ez u (FW u v)).
    assert (HX : forall s, h s v = flat_at a x y k s v). { intros s. destruct (Hh s) as (X & Y & Z'). specialize (X v (FW s v)). specialize (Y v (FW s v)). specialize (Z' v (FW s v)). rewrite <- FP. destruct (proj _) as [p1 p2 p3], (h s v) as [q1 q2 q3]. cbn [gx gy gz] in *. subst. reflexivity. }
    apply (line_deriv _ _ _ (gx (flat_at a x y k 0 v)) (gx (flat_at a x y k 1 v))) in Dx; [|intros s; rewrite HX; unfold flat_at; v3h; field; lra].
    apply (line_deriv _ _ _ (gy (flat_at a x y k 0 v)) (gy (flat_at a x y k 1 v))) in Dy; [|intros s; rewrite HX; unfold flat_at; v3h; field; lra].
    apply (line_deriv _ _ _ (gz (flat_at a x y k 0 v)) (gz (flat_at a x y k 1 v))) in Dz; [|intros s; rewrite HX; unfold flat_at; v3h; field; lra].
    destruct (G1 u v) as [g1 g2 g3]. cbn [gx gy gz] in *. rewrite <- Ex, <- Ey, <- Ez, Dx, Dy, Dz. unfold flat_at. destruct a as [a1 a2 a3], x as [x1 x2 x3], y as [y1 y2 y3]. v3h. apply xyz_eq; cbn [gx gy gz]; field; lra.
  - destruct (Hh' u) as ((dx & Dx & Ex) & (dy & Dy & Ey) & (dz & Dz & Ez)). specialize (Dx v (FW u v)). specialize (Dy v (FW u v)). specialize (Dz v (FW u v)). specialize (Ex v (FW u v)). specialize (Ey v (FW u v)). specialize (Ez v (FW u v)).
    apply (line_deriv _ _ _ (gx (flat_at a x y k u 0)) (gx (flat_at a x y k u 1))) in Dx; [|intros s; rewrite FP; unfold flat_at; v3h; field; lra].
    apply (line_deriv _ _ _ (gy (flat_at a x y k u 0)) (gy (flat_at a x y k u 1))) in Dy; [|intros s; rewrite FP; unfold flat_at; v3h; field; lra].
    apply (line_deriv _ _ _ (gz (flat_at a x y k u 0)) (gz (flat_at a x y k u 1))) in Dz; [|intros s; rewrite FP; unfold flat_at; v3h; field; lra].
    destruct (Hd' v) as (X & Y & Z'). specialize (X u (FW u v)). specialize (Y u (FW u v)). specialize (Z' u (FW u v)).
    destruct (G2 u v) as [g1 g2 g3]. cbn [gx gy gz] in *. rewrite <- X, <- Y, <- Z', <- Ex, <- Ey, <- Ez, Dx, Dy, Dz. unfold flat_at. destruct a as [a1 a2 a3], x as [x1 x2 x3], y as [y1 y2 y3]. v3h. apply xyz_eq; cbn [gx gy gz]; field; lra.
Qed.

Definition flat_surface (a x y : XYZ R) (k : R) : Surface R (XYZW R) := mkSurface 1 1 (knots_to 1) (knots_to k) (parallelogram a x y).
Lemma flat_net a x y : net 2 2 (parallelogram a x y).
Proof. split; [reflexivity|]. intros i Hi. assert (D : i = 0 \/ i = 1) by lia. destruct D as [-> | ->]; reflexivity. Qed.
Lemma span_to k t : (0 < k)%R -> in_domain 1 1 (knots_to k) t -> span_of 1 1 (knots_to k) t 1.
Proof.
  intros Hk Ht. unfold in_domain in Ht. change (val (knots_to k) 1) with 0%R in Ht. change (val (knots_to k) (1 + 1)) with k in Ht.
  unfold span_of. change (1 + 1) with 2. change (val (knots_to k) 1) with 0%R. change (val (knots_to k) 2) with k. split; [lia|]. split; [lra|]. split; [lra|].
  destruct (Rlt_le_dec t k); [left; assumption | right; split; [reflexivity | lra]].
Qed.
Lemma flat_valid a x y k : (1 / 1000 <= k <= 1000)%R -> valid_surface 1 1 (flat_surface a x y k).
Proof. intros Hk. split; [apply knots_to_ok; lra|]. split; [apply knots_to_ok; exact Hk|]. split; [apply flat_net|]. cbn. lia. Qed.
Lemma flat_weight a x y k u v : (1 / 1000 <= k <= 1000)%R -> in_domain 1 1 (knots_to 1) u -> in_domain 1 1 (knots_to k) v -> ww (surface_point 1 1 (knots_to 1) 1 1 (knots_to k) (parallelogram a x y) u v) <> 0%R.
Proof.
  intros Hk Hu Hv. rewrite (surface_point_span 1 1 (knots_to 1) 1 1 (knots_to k) _ u v 1 1); [|apply knots_to_ok; lra|apply knots_to_ok; exact Hk|apply span_to; [lra|exact Hu]|apply span_to; [lra|exact Hv]].
  rewrite flat_patch by lra. unfold hom. cbn. lra.
Qed.
Lemma flat_skip a x y k : (1 / 1000 <= k <= 1000)%R -> SurfaceReparametrize (flat_surface a x y k) 0%R 1%R 0%R 1%R = Ok (flat_surface a x y k).
Proof.
  intros Hk. apply (SurfaceReparametrize_skip 1 1); [apply flat_valid; exact Hk|]. left. unfold at_ends. cbn [KnotVectorU flat_surface]. change (val (knots_to 1) 0) with 0%R. change (val (knots_to 1) (len (knots_to 1) - 1)) with 1%R.
  unfold tol. rewrite !Rminus_eq_0, !Rabs_R0. rewrite (Rabs_pos_eq 1) by lra. rewrite !Rmax_left by lra. lra.
Qed.
Lemma flat_area ab we cl a x y k : (1 <= k <= 1000)%R -> exists fuel0, forall fuel, (fuel0 <= fuel)%nat -> ApproximateArea ab we cl fuel (flat_surface a x y k) It_Simpson = Ok (norm3 (cross3 x y) / k)%R.
Proof.
  intros Hk. assert (Hk' : (1 / 1000 <= k <= 1000)%R) by lra. set (A := (norm3 (cross3 x y) / k)%R).
  destruct (area_bounds ab we cl 1 1 (knots_to 1) 1 1 (knots_to k) (parallelogram a x y) ltac:(apply knots_to_ok; lra) ltac:(apply knots_to_ok; lra) ltac:(lia) ltac:(lia) (flat_net a x y)
    ltac:(intros u v Hu Hv; apply flat_weight; assumption) (flat_surface a x y k) (flat_skip a x y k Hk') A A) as (fuel0 & HF).
  - intros t Ht. exact Ht.
  - intros t Ht. unfold in_domain. change (val (knots_to k) 1) with 0%R. change (val (knots_to k) (1 + 1)) with k. lra.
  - intros u v g Hu Hv G. destruct (flat_partials a x y k u v g ltac:(lra) G) as (-> & ->). assert (E : norm3 (cross3 x (times3 (/ k) y)) = A); [|lra].
    replace (cross3 x (times3 (/ k) y)) with (times3 (/ k) (cross3 x y)) by (destruct x, y; v3h; apply xyz_eq; cbn; ring).
    rewrite P_Surf6.norm_times; [unfold A; field; lra|]. left. apply Rinv_0_lt_compat. lra.
  - exists fuel0. intros fuel Hfu. destruct (HF fuel Hfu) as (b & -> & B). f_equal. lra.
Qed.
