(* The search for the parameters of a point, on a flat rectangle. *)
From Coq Require Import ZArith List Bool Reals Lra Lia.
From Verif Require Import Base Num Vec Tac Spec Spec2 Spec3 Spec4 Spec5 Spec8 Spec10 Spec12 M_MathUtils M_XYZ M_Bspline M_NurbsCurve M_Knots M_Shape M_Surface M_Octree M_Volume M_Surface2
  P_MathUtils P_Span P_Cox P_Basis P_Vec P_XYZ P_VSum P_Curve P_Bspline P_BsplineS P_Loop P_Nurbs P_Insert P_Decomp P_Make P_Reduce P_Surface P_Shape P_Geom P_RSurf P_RSurf2 P_Surf3 P_Surf4 P_Surf5 P_Surf6 P_Insert2.
Import ListNotations Spec12.
Open Scope Z_scope.

Lemma deriv_on_unique k : forall f f' g g', (forall t, f t = f' t) -> nth_deriv_on (fun _ => True) k f g -> nth_deriv_on (fun _ => True) k f' g' -> forall t, g t = g' t.
Proof.
  induction k as [|k IH]; cbn [nth_deriv_on]; intros f f' g g' E H H' t.
  - rewrite <- H, <- H' by exact I. apply E.
  - destruct H as (h & Hh & H). destruct H' as (h' & Hh' & H'). apply (IH h h'); [|assumption|assumption]. intros s.
    apply (uniqueness_limite f s); [apply Hh, I|]. intros eps He. destruct (Hh' s I eps He) as (d & Hd). exists d. intros x Hx Hx'. rewrite !E. apply Hd; assumption.
Qed.
Lemma deriv_on_iff (D D' : R -> Prop) k : (forall t, D t <-> D' t) -> forall f g, nth_deriv_on D k f g -> nth_deriv_on D' k f g.
Proof.
  intros HD. induction k as [|k IH]; cbn [nth_deriv_on]; intros f g H.
  - intros t Ht. apply H, HD, Ht.
  - destruct H as (h & H1 & H2). exists h. split; [intros t Ht; apply H1, HD, Ht|apply IH, H2].
Qed.
Lemma lin_lim c t : derivable_pt_lim (fun x => c * x)%R t c.
Proof. pose proof (derivable_pt_lim_scal (fun x => x) c t 1 (derivable_pt_lim_id t)) as H. rewrite Rmult_1_r in H. exact H. Qed.
Lemma const_deriv b : nth_deriv_on (fun _ => True) 1 (fun x => b) (fun _ => 0%R).
Proof. exists (fun _ => 0%R). split; [|intros ? _; reflexivity]. intros t _. apply derivable_pt_lim_const. Qed.

(* a function that is linear in each argument: its partial derivatives of first and second order *)
Lemma partials_flat a b (D : R -> R -> Prop) f u v g : (forall x y, D x y) -> (forall x y, f x y = mkXYZ (a * x) (b * y) 0)%R -> partials_at D f 2 u v g ->
  g 0 0 = mkXYZ (a * u)%R (b * v)%R 0%R /\ g 1 0 = mkXYZ a 0%R 0%R /\ g 0 1 = mkXYZ 0%R b 0%R /\
  g 2 0 = mkXYZ 0%R 0%R 0%R /\ g 1 1 = mkXYZ 0%R 0%R 0%R /\ g 0 2 = mkXYZ 0%R 0%R 0%R.
Proof.
  intros HD Hf HP.
  assert (X : forall (k l : nat) (fx fy fz hx hy hz : R -> R -> R), (forall x y, mkXYZ (a * x) (b * y) 0 = mkXYZ (fx x y) (fy x y) (fz x y))%R ->
     (forall x, nth_deriv_on (fun _ => True) l (fx x) (hx x)) -> (forall x, nth_deriv_on (fun _ => True) l (fy x) (hy x)) -> (forall x, nth_deriv_on (fun _ => True) l (fz x) (hz x)) ->
     forall gx' gy' gz', nth_deriv_on (fun _ => True) k (fun x => hx x v) gx' -> nth_deriv_on (fun _ => True) k (fun x => hy x v) gy' -> nth_deriv_on (fun _ => True) k (fun x => hz x v) gz' ->
     (k + l <= 2)%nat -> g (Z.of_nat k) (Z.of_nat l) = mkXYZ (gx' u) (gy' u) (gz' u)).
  { intros k l fx fy fz hx hy hz Ef Hx Hy Hz gx' gy' gz' Gx Gy Gz Hkl. destruct (HP (Z.of_nat k) (Z.of_nat l) ltac:(lia) ltac:(lia) ltac:(lia)) as (G & (h & Hh & HG) & <-).
    assert (TT : forall x y, D x y <-> True) by (intros; split; [intros; exact I|intros; apply HD]).
    assert (Eh : forall x y, h x y = mkXYZ (hx x y) (hy x y) (hz x y)).
    { intros x y. destruct (Hh x) as (A1 & A2 & A3). rewrite Nat2Z.id in *. apply (deriv_on_iff _ (fun _ => True)) in A1, A2, A3; try (intros; apply TT).
      assert (E1 : gx (h x y) = hx x y) by (apply (deriv_on_unique l (fun t => gx (f x t)) (fx x) _ _ ltac:(intros t; cbv beta; rewrite Hf, Ef; reflexivity) A1 (Hx x))).
      assert (E2 : gy (h x y) = hy x y) by (apply (deriv_on_unique l (fun t => gy (f x t)) (fy x) _ _ ltac:(intros t; cbv beta; rewrite Hf, Ef; reflexivity) A2 (Hy x))).
      assert (E3 : gz (h x y) = hz x y) by (apply (deriv_on_unique l (fun t => gz (f x t)) (fz x) _ _ ltac:(intros t; cbv beta; rewrite Hf, Ef; reflexivity) A3 (Hz x))).
      rewrite <- E1, <- E2, <- E3. destruct (h x y). reflexivity. }
    destruct (HG v) as (A1 & A2 & A3). rewrite Nat2Z.id in *. apply (deriv_on_iff _ (fun _ => True)) in A1, A2, A3; try (intros; apply TT).
    assert (E1 : gx (G u v) = gx' u) by (apply (deriv_on_unique k (fun x => gx (h x v)) (fun x => hx x v) (fun x => gx (G x v)) gx' ltac:(intros t; cbv beta; rewrite Eh; reflexivity) A1 Gx)).
    assert (E2 : gy (G u v) = gy' u) by (apply (deriv_on_unique k (fun x => gy (h x v)) (fun x => hy x v) (fun x => gy (G x v)) gy' ltac:(intros t; cbv beta; rewrite Eh; reflexivity) A2 Gy)).
    assert (E3 : gz (G u v) = gz' u) by (apply (deriv_on_unique k (fun x => gz (h x v)) (fun x => hz x v) (fun x => gz (G x v)) gz' ltac:(intros t; cbv beta; rewrite Eh; reflexivity) A3 Gz)).
    rewrite <- E1, <- E2, <- E3. destruct (G u v). reflexivity. }
  assert (K0 : forall f : R -> R, nth_deriv_on (fun _ => True) 0 f f) by (intros f0 t _; reflexivity).
  assert (L1 : forall c, nth_deriv_on (fun _ => True) 1 (fun x => c * x)%R (fun _ => c)).
  { intros c. exists (fun _ => c). split; [|intros ? _; reflexivity]. intros t _. apply lin_lim. }
  assert (C2 : forall c, nth_deriv_on (fun _ => True) 2 (fun _ => c) (fun _ => 0%R)) by (intros c; exists (fun _ => 0%R); split; [intros t _; apply derivable_pt_lim_const|apply const_deriv]).
  assert (L2 : forall c, nth_deriv_on (fun _ => True) 2 (fun x => c * x)%R (fun _ => 0%R)).
  { intros c. exists (fun _ => c). split; [|apply const_deriv]. intros t _. apply lin_lim. }
  pose (fx := fun x (_ : R) => (a * x)%R). pose (fy := fun (_ : R) y => (b * y)%R). pose (fz := fun (_ _ : R) => 0%R).
  assert (EF : forall x y, mkXYZ (a * x)%R (b * y)%R 0%R = mkXYZ (fx x y) (fy x y) (fz x y)) by reflexivity.
  split; [exact (X 0%nat 0%nat fx fy fz fx fy fz EF (fun x => K0 (fx x)) (fun x => K0 (fy x)) (fun x => K0 (fz x)) _ _ _ (K0 (fun x => fx x v)) (K0 (fun x => fy x v)) (K0 (fun x => fz x v)) ltac:(lia))|].
  split; [exact (X 1%nat 0%nat fx fy fz fx fy fz EF (fun x => K0 (fx x)) (fun x => K0 (fy x)) (fun x => K0 (fz x)) _ _ _ (L1 a) (const_deriv (b * v)%R) (const_deriv 0%R) ltac:(lia))|].
  split; [exact (X 0%nat 1%nat fx fy fz fz (fun _ _ => b) fz EF (fun x => const_deriv (a * x)%R) (fun x => L1 b) (fun x => const_deriv 0%R) _ _ _ (K0 (fun x => fz x v)) (K0 (fun x => b)) (K0 (fun x => fz x v)) ltac:(lia))|].
  split; [exact (X 2%nat 0%nat fx fy fz fx fy fz EF (fun x => K0 (fx x)) (fun x => K0 (fy x)) (fun x => K0 (fz x)) _ _ _ (L2 a) (C2 (b * v)%R) (C2 0%R) ltac:(lia))|].
  split; [exact (X 1%nat 1%nat fx fy fz fz (fun _ _ => b) fz EF (fun x => const_deriv (a * x)%R) (fun x => L1 b) (fun x => const_deriv 0%R) _ _ _ (const_deriv 0%R) (const_deriv b) (const_deriv 0%R) ltac:(lia))|].
  exact (X 0%nat 2%nat fx fy fz fz fz fz EF (fun x => C2 (a * x)%R) (fun x => L2 b) (fun x => C2 0%R) _ _ _ (K0 (fun x => fz x v)) (K0 (fun x => fz x v)) (K0 (fun x => fz x v)) ltac:(lia)).
Qed.

(* the rectangle of sides a and b *)
Definition flat_net (a b : R) : list (list W4) :=
  [[mkXYZW 0 0 0 1; mkXYZW 0 (b / 2) 0 1; mkXYZW 0 b 0 1]; [mkXYZW (a / 2) 0 0 1; mkXYZW (a / 2) (b / 2) 0 1; mkXYZW (a / 2) b 0 1];
   [mkXYZW a 0 0 1; mkXYZW a (b / 2) 0 1; mkXYZW a b 0 1]]%R.
Definition flat_patch (a b : R) : Surface R W4 := mkSurface 2 2 (bezier_knots 2) (bezier_knots 2) (flat_net a b).

Lemma rsum_bern f t : rsum (2 - 2) (2 + 1) (fun i => NS (val (bezier_knots 2)) 2 2 i t * f i)%R = ((1 - t) * (1 - t) * f 0%Z + 2 * t * (1 - t) * f 1%Z + t * t * f 2%Z)%R.
Proof.
  assert (E : forall m, NS (val (bezier_knots 2)) 2 2 m t = bern 2 m t).
  { intros m. replace m with (2 - 2 + m) at 1 by lia. rewrite (NS_bern (val (bezier_knots 2)) 0 1 2 t); [f_equal; field|lra| |lia|lia]. intros i Hi. apply bez_val; lia. }
  rewrite (rsum_ext _ _ _ (fun i => bern 2 i t * f i)%R) by (intros i _; rewrite E; reflexivity). change (2 - 2) with 0. rewrite rsum_3. destruct (bern2 t) as (-> & -> & ->). reflexivity.
Qed.

Lemma flat_at a b x y : span_patch 2 2 (bezier_knots 2) 2 2 (bezier_knots 2) (flat_net a b) x y = (mkXYZW (a * x) (b * y) 0 1)%R.
Proof.
  assert (EQ : forall a b : W4, wx a = wx b -> wy a = wy b -> wz a = wz b -> ww a = ww b -> a = b) by (intros [] []; cbn; intros; subst; reflexivity).
  assert (C : forall c, co c (span_patch 2 2 (bezier_knots 2) 2 2 (bezier_knots 2) (flat_net a b) x y) =
     let r i := ((1 - y) * (1 - y) * co c (pt2 (flat_net a b) i 0) + 2 * y * (1 - y) * co c (pt2 (flat_net a b) i 1) + y * y * co c (pt2 (flat_net a b) i 2))%R in
     ((1 - x) * (1 - x) * r 0%Z + 2 * x * (1 - x) * r 1%Z + x * x * r 2%Z)%R).
  { intros c. unfold span_patch. rewrite co_comb. cbv zeta. rewrite <- (rsum_bern (fun i => (1 - y) * (1 - y) * co c (pt2 (flat_net a b) i 0) + 2 * y * (1 - y) * co c (pt2 (flat_net a b) i 1) + y * y * co c (pt2 (flat_net a b) i 2))%R).
    apply rsum_ext. intros i _. f_equal. rewrite co_comb. exact (rsum_bern (fun j => co c (pt2 (flat_net a b) i j)) y). }
  apply EQ; [rewrite (C 0%nat : wx _ = _)|rewrite (C 1%nat : wy _ = _)|rewrite (C 2%nat : wz _ = _)|rewrite (C 3%nat : ww _ = _)];
    lazy [flat_net pt2 pt at_ nth Z.to_nat Pos.to_nat Pos.iter_op Init.Nat.add co VecL_XYZW co_xyzw wx wy wz ww Z.eqb Pos.eqb]; num; field.
Qed.

Section flat.
Context (a b : R) (Ha : (1 / 1000000 < a / 4)%R) (Ha' : (a / 32 < 1 / 1000000)%R) (Hb : (1 < b)%R) (Hb' : (b <= 2 ^ 20)%R) (Hab : (a * b = 1 / 32)%R).

Lemma flat_valid : valid_surface 2 2 (flat_patch a b).
Proof.
  split; [apply bez_knots_ok; lia|]. split; [apply bez_knots_ok; lia|]. split; [|split; cbn; lia]. split; [reflexivity|].
  intros i Hi. assert (i = 0 \/ i = 1 \/ i = 2) as [-> | [-> | ->]] by lia; reflexivity.
Qed.
Lemma flat_heavy : heavy_net 2 2 (SControlPoints (flat_patch a b)).
Proof.
  intros i j Hi Hj. assert (E : ww (pt2 (SControlPoints (flat_patch a b)) i j) = 1%R).
  { assert (i = 0 \/ i = 1 \/ i = 2) as [-> | [-> | ->]] by lia; assert (j = 0 \/ j = 1 \/ j = 2) as [-> | [-> | ->]] by lia; reflexivity. }
  cbv zeta. rewrite E. unfold tol. rewrite Rabs_R1, Rabs_R0, Rmax_left by lra. lra.
Qed.
Lemma flat_clamped : clamped_knots 2 2 (bezier_knots 2).
Proof. split; rewrite !bez_val by lia; reflexivity. Qed.
Lemma flat_span t k : span_of 2 2 (bezier_knots 2) t k -> k = 2.
Proof. intros (H & _). lia. Qed.
Lemma flat_dom t : in_domain 2 2 (bezier_knots 2) t <-> (0 <= t <= 1)%R.
Proof. unfold in_domain. rewrite !bez_val by lia. reflexivity. Qed.
Lemma flat_dom_span t : (0 <= t <= 1)%R -> span_of 2 2 (bezier_knots 2) t 2.
Proof.
  intros H. unfold span_of. rewrite !bez_val by lia. cbn [Z.leb Z.compare Pos.compare Pos.compare_cont Z.add Pos.add Pos.succ]. split; [lia|]. split; [lra|]. split; [lra|].
  destruct (Rlt_dec t 1); [left; lra|right; split; [reflexivity|lra]].
Qed.
Lemma flat_surface u v : (0 <= u <= 1)%R -> (0 <= v <= 1)%R -> surface_at 2 2 (flat_patch a b) u v = mkXYZ (a * u)%R (b * v)%R 0%R.
Proof.
  intros Hu Hv. unfold surface_at. cbn [DegreeU DegreeV KnotVectorU KnotVectorV SControlPoints flat_patch].
  rewrite (surface_point_span 2 2 _ 2 2 _ _ u v 2 2) by ((apply bez_knots_ok; lia) || (apply flat_dom_span; assumption)). rewrite flat_at. unfold proj. cbn [wx wy wz ww]. f_equal; field.
Qed.
Lemma flat_ball u v : u_domain 2 (flat_patch a b) u -> v_domain 2 (flat_patch a b) v -> (norm3 (surface_at 2 2 (flat_patch a b) u v) <= 2 ^ 400)%R.
Proof.
  intros Du Dv. apply (proj1 (flat_dom _)) in Du, Dv. rewrite flat_surface by assumption.
  apply Rle_trans with (2 ^ 22)%R; [|apply Rle_pow; [lra|lia]]. unfold norm3, dot3. cbn [gx gy gz].
  rewrite <- (sqrt_square (2 ^ 22)) by (apply pow_le; lra). apply sqrt_le_1_alt.
  pose proof (Rmult_le_pos a u ltac:(lra) ltac:(lra)) as X1. pose proof (Rmult_le_pos a (1 - u) ltac:(lra) ltac:(lra)) as X2.
  pose proof (Rmult_le_pos b v ltac:(lra) ltac:(lra)) as Y1. pose proof (Rmult_le_pos b (1 - v) ltac:(lra) ltac:(lra)) as Y2.
  assert (X : (0 <= a * u <= 1)%R) by lra. assert (Y : (0 <= b * v <= 2 ^ 20)%R) by lra.
  set (x := (a * u)%R) in *. set (y := (b * v)%R) in *. clearbody x y. clear -X Y. assert (x * x <= 1)%R by nra. assert (y * y <= 2 ^ 20 * 2 ^ 20)%R by (apply Rmult_le_compat; lra). lra.
Qed.
Lemma flat_open c : SurfaceIsClosed (flat_patch a b) c = Ok false.
Proof.
  destruct (SurfaceIsClosed_ok 2 2 (flat_patch a b) c flat_valid flat_heavy) as (r & E & _ & G); [destruct c; apply flat_clamped|]. rewrite E. f_equal.
  destruct r; [exfalso|reflexivity]. specialize (G eq_refl 0).
  pose (L := if c then [mkXYZW 0 0 0 1; mkXYZW (a / 2) 0 0 1; mkXYZW a 0 0 1]%R else [mkXYZW 0 0 0 1; mkXYZW 0 (b / 2) 0 1; mkXYZW 0 b 0 1]%R).
  specialize (G L ltac:(destruct c; lia)).
  destruct G as [C | (k & Hk & G)].
  - destruct c; (split; [reflexivity|]); intros i Hi; assert (i = 0 \/ i = 1 \/ i = 2) as [-> | [-> | ->]] by lia; reflexivity.
  - assert (E1 : (if c then a else b) = dist3 (proj (pt L 0)) (proj (pt L 2))).
    { unfold dist3, norm3, dot3, minus3, proj. destruct c; lazy [L pt at_ nth Z.to_nat Pos.to_nat Pos.iter_op Init.Nat.add wx wy wz ww gx gy gz].
      - replace ((0 / 1 - a / 1) * (0 / 1 - a / 1) + (0 / 1 - 0 / 1) * (0 / 1 - 0 / 1) + (0 / 1 - 0 / 1) * (0 / 1 - 0 / 1))%R with (a * a)%R by field. rewrite sqrt_square; lra.
      - replace ((0 / 1 - 0 / 1) * (0 / 1 - 0 / 1) + (0 / 1 - b / 1) * (0 / 1 - b / 1) + (0 / 1 - 0 / 1) * (0 / 1 - 0 / 1))%R with (b * b)%R by field. rewrite sqrt_square; lra. }
    assert (LL : len L = 3) by (destruct c; reflexivity).
    assert (C' : close (dist3 (proj (pt L 0)) (proj (pt L 2))) 0).
    { destruct c; cbn [degree_along knots_along flat_patch DegreeU DegreeV KnotVectorU KnotVectorV] in C.
      all: rewrite (curve_point_first 2 2 (bezier_knots 2)), (curve_point_last 2 2 (bezier_knots 2)) in C by ((apply bez_knots_ok; lia) || apply flat_clamped || lia || reflexivity). all: exact C. }
    rewrite <- E1 in C'. unfold close, tol in C'. rewrite Rminus_0_r, Rabs_R0, (Rabs_pos_eq (if c then a else b)), Rmax_left in C' by (destruct c; lra). destruct c; lra.
  - specialize (G 0 ltac:(lia)). rewrite Z.add_0_r in G. destruct G as (Gx & Gy & _). clear E. replace (if c then 2 else 2) with 2 in * by (destruct c; reflexivity).
    assert (k = 0 \/ k = 1) as [-> | ->] by lia; destruct c; unfold tol in Gx, Gy; revert Gx Gy; lazy [L pt at_ nth Z.to_nat Pos.to_nat Pos.iter_op Init.Nat.add wx wy wz ww gx gy gz proj Z.sub Z.opp Z.add Z.pos_sub Pos.pred_double Z.succ_double Pos.sub Pos.sub_mask]; intros Gx Gy.
    all: assert (T : forall x, (2 / 1000000 < x)%R -> ~ (Rabs (x / 1 - 0 / 1) <= 1 / 1000000 * (1 + Rmax (Rabs (x / 1)) (Rabs (0 / 1))))%R)
      by (clear; intros x Hx H; replace (x / 1)%R with x in H by field; replace (0 / 1)%R with 0%R in H by field; rewrite Rminus_0_r, Rabs_R0, (Rabs_pos_eq x), Rmax_left in H; lra).
    + apply (T a); [lra|exact Gx].
    + apply (T b); [lra|exact Gy].
    + apply (T (a / 2)%R); [lra|exact Gx].
    + apply (T (b / 2)%R); [lra|exact Gy].
Qed.

(* one step of the iteration leads from everywhere to the foot of the perpendicular on the extended plane *)
Lemma flat_newton fuel u v : (0 <= u <= 1)%R -> (0 <= v <= 1)%R ->
  surface_newton fuel (flat_patch a b) (mkXYZ (- a / 32) (b / 2) 1)%R 0%R 1%R 0%R 1%R false false (u, v) = Ok (- 1 / 32, 1 / 2)%R.
Proof.
  intros Hu Hv. unfold surface_newton.
  match goal with |- (let! r := for_upc _ _ _ ?f in _) = _ => set (body := f) end.
  assert (ST : forall k u v, (0 <= u <= 1)%R -> (0 <= v <= 1)%R ->
    let l := norm3 (mkXYZ (- (u + 1 / 32) * a) (- (v - 1 / 2) * b) 0)%R in
    body k (u, v) = if IsAlmostEqualTo l 0%R then Ok (Stop (- 1 / 32, 1 / 2)%R) else Ok (Next (0, 1 / 2)%R)).
  { clear u v Hu Hv. intros k u v Hu Hv l. unfold body.
    pose proof (surface_heavy 2 2 _ u v flat_valid flat_heavy (proj2 (flat_dom u) Hu) (proj2 (flat_dom v) Hv)) as Hw.
    destruct (Ders_dom 2 2 (bezier_knots 2) 2 2 (bezier_knots 2) (flat_net a b) u v ltac:(apply bez_knots_ok; lia) ltac:(apply bez_knots_ok; lia) ltac:(lia) ltac:(lia) ltac:(apply flat_valid)
      (proj2 (flat_dom u) Hu) (proj2 (flat_dom v) Hv) ltac:(cbn [DegreeU DegreeV KnotVectorU KnotVectorV SControlPoints flat_patch] in Hw; lra) 2 ltac:(lia) ltac:(lia) ltac:(lia)) as (g & (ku & kv & Sku & Skv & G) & D & ED & GD).
    change (mkSurface 2 2 (bezier_knots 2) (bezier_knots 2) (flat_net a b)) with (flat_patch a b) in ED. rewrite ED. cbn [bind]. rewrite !GD by lia. cbn [bind]. rewrite Length_eq. cbn [bind].
    rewrite (flat_span _ _ Sku), (flat_span _ _ Skv) in G.
    pose proof (fun A B => partials_flat a b _ _ u v g A B G) as PF. cbv beta in PF. destruct PF as (G00 & G10 & G01 & G20 & G11 & G02).
    { intros x y. rewrite flat_at. cbn [ww]. lra. }
    { intros x y. rewrite flat_at. unfold proj. cbn [wx wy wz ww]. f_equal; field. }
    rewrite G00, G10, G01, G20, G11, G02. rewrite sub_eq. unfold minus3, DotProduct. cbn [gx gy gz]. num.
    match goal with |- context [IsAlmostEqualTo (norm3 ?d) 0%R] => assert (L1 : (1 <= norm3 d)%R) end.
    { unfold norm3, dot3. cbn [gx gy gz]. rewrite <- sqrt_1 at 1. apply sqrt_le_1_alt. set (x := (a * u - - a / 32)%R). set (y := (b * v - b / 2)%R). clearbody x y. clear. nra. }
    match goal with |- context [IsAlmostEqualTo (norm3 ?d) 0%R] => destruct (IsAlmostEqualTo (norm3 d) 0%R) eqn:EL end.
    { exfalso. apply close_iff in EL. revert L1 EL. match goal with |- context [norm3 ?d] => generalize (norm3 d) end. clear. intros x Hx C. unfold close, tol in C. rewrite Rminus_0_r, Rabs_R0, (Rabs_pos_eq x), Rmax_left in C by lra. lra. }
    clear EL L1.
    match goal with |- context [IsAlmostEqualTo (Rabs ?d) 0%R] => assert (Edet : d = (1 / 1024)%R) end.
    { transitivity ((a * b) * (a * b))%R; [ring|rewrite Hab; lra]. }
    rewrite Edet. destruct (IsAlmostEqualTo (Rabs (1 / 1024)) 0%R) eqn:EL.
    { exfalso. apply close_iff in EL. unfold close, tol in EL. rewrite Rminus_0_r, Rabs_R0, !(Rabs_pos_eq (1 / 1024)), Rmax_left in EL; lra. }
    rewrite !Rdiv_ok by lra. cbn [bind].
    match goal with |- context [(?n / (1 / 1024))%R] => set (du := (n / (1 / 1024))%R) end.
    match goal with |- context [(?n / (1 / 1024))%R] => set (dv := (n / (1 / 1024))%R) end.
    assert (A : (a * a * b * b = 1 / 1024)%R) by (transitivity ((a * b) * (a * b))%R; [ring|rewrite Hab; lra]).
    assert (Eu : du = (- (u + 1 / 32))%R).
    { unfold du. rewrite <- A. field. lra. }
    assert (Ev : dv = (- (v - 1 / 2))%R).
    { unfold dv. rewrite <- A. field. lra. }
    clearbody du dv. subst du dv. rewrite Length_eq. cbn [bind]. rewrite add_eq, !scale_eq. unfold plus3, times3. cbn [gx gy gz].
    match goal with |- (if IsAlmostEqualTo (norm3 ?x) _ then _ else _) = _ => replace (norm3 x) with l end.
    2:{ unfold l. f_equal. f_equal; ring. }
    destruct (IsAlmostEqualTo l 0%R).
    - f_equal. f_equal. f_equal; lra.
    - cbn [wrap_param bind]. f_equal. f_equal. replace (u + - (u + 1 / 32))%R with (- 1 / 32)%R by lra. replace (v + - (v - 1 / 2))%R with (1 / 2)%R by lra.
      destruct (smin_le 1%R (- 1 / 32)%R) as (A1 & A2 & A3). destruct (smin_le 1%R (1 / 2)%R) as (B1 & B2 & B3).
      unfold std_max, std_min. num. f_equal; repeat (destruct Rlt_dec; cbn [Rltb]); try lra.
      all: unfold Rltb; repeat destruct Rlt_dec; lra. }
  rewrite for_upc_first by lia. rewrite ST by assumption. 
  match goal with |- context [if ?c then _ else _] => destruct c end; cbn [bind]; [reflexivity|].
  rewrite for_upc_first by lia. rewrite ST by lra. 
  match goal with |- context [if ?c then _ else _] => assert (EC : c = true) end.
  { apply close_iff. unfold norm3, dot3. cbn [gx gy gz].
    replace (- (0 + 1 / 32) * a * (- (0 + 1 / 32) * a) + - (1 / 2 - 1 / 2) * b * (- (1 / 2 - 1 / 2) * b) + 0 * 0)%R with (a / 32 * (a / 32))%R by field.
    rewrite sqrt_square by lra. unfold close, tol. rewrite Rminus_0_r, Rabs_R0, (Rabs_pos_eq (a / 32)), Rmax_left by lra. lra. }
  rewrite EC. reflexivity.
Qed.

Lemma flat_search fuel : GetParamOnSurface fuel (flat_patch a b) (mkXYZ (- a / 32) (b / 2) 1)%R = Ok (- 1 / 32, 1 / 2)%R.
Proof.
  pose proof flat_valid as HS. pose proof flat_heavy as HH. pose proof flat_ball as HB. unfold GetParamOnSurface. cbn [KnotVectorU KnotVectorV flat_patch].
  destruct (domain_ends 2 2 (bezier_knots 2)) as (E0 & E1); [apply bez_knots_ok; lia|apply flat_clamped|]. rewrite E0, E1. cbn [bind]. change (mkSurface 2 2 (bezier_knots 2) (bezier_knots 2) (flat_net a b)) with (flat_patch a b).
  rewrite !flat_open. cbn [bind].
  destruct (SurfaceTessellate_ok 2 2 _ HS HH flat_clamped flat_clamped) as ([ps us] & E & VU & VV & IU & IV & NU & NV & L1 & L2 & G1 & G2 & G3). rewrite E. cbn [bind fst snd].
  assert (L : forall V : list R, increasing V -> (forall x, In x V <-> In x (bezier_knots 2)) -> 2 <= len V).
  { clear. intros V IV NV. pose proof (len_nonneg V) as L0. assert (HU : curve_knots 2 2 (bezier_knots 2)) by (apply bez_knots_ok; lia).
    assert (E0 : len V <> 0). { intros E0. assert (G : In (val (bezier_knots 2) 0) V) by (apply NV, val_In; reflexivity || (change (len (bezier_knots 2)) with 6; lia)). destruct V; [contradiction|]. rewrite len_cons in E0. pose proof (len_nonneg V). lia. }
    destruct (knots_ends _ _ _ _ HU flat_clamped IV NV ltac:(lia)) as (K0 & K1). destruct (Z.eq_dec (len V) 1) as [E1|]; [|lia]. rewrite E1 in K1. change (1 - 1) with 0 in K1. rewrite K0 in K1. rewrite !bez_val in K1 by lia. cbn in K1. lra. }
  pose proof (L _ IU NU) as LU. pose proof (L _ IV NV) as LV. cbv zeta in *.
  destruct (nearest_segment_ok 2 2 (flat_patch a b) ps us (mkXYZ (- a / 32) (b / 2) 1)%R (2 ^ 400)%R) as ([u v] & En & Du & Dv); try assumption.
  - split; [apply pow_le; lra|lra].
  - apply Rle_trans with (2 ^ 22)%R; [|apply Rle_pow; [lra|lia]]. unfold norm3, dot3. cbn [gx gy gz].
    rewrite <- (sqrt_square (2 ^ 22)) by (apply pow_le; lra). apply sqrt_le_1_alt. assert (X : (0 <= a / 32 <= 1)%R) by lra. clear -X Hb Hb'.
    replace (- a / 32 * (- a / 32))%R with (a / 32 * (a / 32))%R by field. set (x := (a / 32)%R) in *. clearbody x. assert (x * x <= 1)%R by nra.
    assert (b / 2 * (b / 2) <= 2 ^ 20 * 2 ^ 20)%R by (apply Rmult_le_compat; lra). lra.
  - rewrite L1, L2. reflexivity.
  - rewrite L2. nia.
  - rewrite En. cbn [bind]. replace (val (bezier_knots 2) 2) with 0%R by (rewrite bez_val by lia; reflexivity). replace (val (bezier_knots 2) (2 + 1)) with 1%R by (rewrite bez_val by lia; reflexivity).
    apply flat_newton; apply (proj1 (flat_dom _)); assumption.
Qed.
End flat.
