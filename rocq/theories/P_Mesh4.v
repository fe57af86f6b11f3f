(* The signed distance over a flat rectangle. *)
From Coq Require Import ZArith List Bool Reals Lra Lia.
From Verif Require Import Base Num Vec Tac Spec Spec2 Spec3 Spec4 Spec5 Spec8 Spec10 Spec12 M_MathUtils M_XYZ M_Bspline M_NurbsCurve M_Knots M_Shape M_Surface M_Octree M_Volume M_Surface2 M_Mesh
  P_MathUtils P_Span P_Cox P_Basis P_Vec P_XYZ P_VSum P_Curve P_Bspline P_BsplineS P_Loop P_Nurbs P_Insert P_Decomp P_Make P_Reduce P_Surface P_Shape P_Geom P_RSurf P_RSurf2 P_Surf3 P_Surf4 P_Surf5 P_Surf6 P_Insert2 P_Surf8 P_Mesh3.
Import ListNotations Spec12.
Open Scope Z_scope.
Notation flat_valid := P_Surf8.flat_valid.
Notation flat_heavy := P_Surf8.flat_heavy.
Notation flat_at := P_Surf8.flat_at.
Notation W4 := (XYZW R).

Section flat.
Context (a b s t h : R) (Ha : (1 <= a <= 2 ^ 20)%R) (Hb : (1 <= b <= 2 ^ 20)%R) (Hs : (0 <= s <= 1)%R) (Ht : (0 <= t <= 1)%R) (Hh : (1 / 100000 <= Rabs h <= 2 ^ 20)%R).

Lemma flat_ball2 u v : u_domain 2 (flat_patch a b) u -> v_domain 2 (flat_patch a b) v -> (norm3 (surface_at 2 2 (flat_patch a b) u v) <= 2 ^ 400)%R.
Proof.
  intros Du Dv. apply (proj1 (flat_dom _)) in Du, Dv. rewrite flat_surface by assumption.
  apply Rle_trans with (2 ^ 22)%R; [|apply Rle_pow; [lra|lia]]. unfold norm3, dot3. cbn [gx gy gz].
  rewrite <- (sqrt_square (2 ^ 22)) by (apply pow_le; lra). apply sqrt_le_1_alt.
  assert (X : (0 <= a * u <= 2 ^ 20)%R) by (split; [apply Rmult_le_pos; lra|replace (2 ^ 20)%R with (2 ^ 20 * 1)%R by ring; apply Rmult_le_compat; lra]).
  assert (Y : (0 <= b * v <= 2 ^ 20)%R) by (split; [apply Rmult_le_pos; lra|replace (2 ^ 20)%R with (2 ^ 20 * 1)%R by ring; apply Rmult_le_compat; lra]).
  set (x := (a * u)%R) in *. set (y := (b * v)%R) in *. clearbody x y. clear -X Y. assert (x * x <= 2 ^ 20 * 2 ^ 20)%R by (apply Rmult_le_compat; lra). assert (y * y <= 2 ^ 20 * 2 ^ 20)%R by (apply Rmult_le_compat; lra). lra.
Qed.
Lemma flat_open2 c : SurfaceIsClosed (flat_patch a b) c = Ok false.
Proof.
  destruct (SurfaceIsClosed_ok 2 2 (flat_patch a b) c (flat_valid a b) (flat_heavy a b)) as (r & E & _ & G); [destruct c; apply flat_clamped|]. rewrite E. f_equal.
  destruct r; [exfalso|reflexivity]. specialize (G eq_refl 0).
  pose (L := if c then [mkXYZW 0 0 0 1; mkXYZW (a / 2) 0 0 1; mkXYZW a 0 0 1]%R else [mkXYZW 0 0 0 1; mkXYZW 0 (b / 2) 0 1; mkXYZW 0 b 0 1]%R).
  specialize (G L ltac:(destruct c; lia)).
  destruct G as [C | (k & Hk & G)].
  - destruct c; (split; [reflexivity|]); intros i Hi; assert (i = 0 \/ i = 1 \/ i = 2) as [-> | [-> | ->]] by lia; reflexivity.
  - assert (E1 : (if c then a else b) = dist3 (proj (pt L 0)) (proj (pt L 2))).
    { unfold dist3, norm3, dot3, minus3, proj. destruct c; lazy [L pt at_ nth Z.to_nat Pos.to_nat Pos.iter_op Init.Nat.add wx wy wz ww gx gy gz].
      - replace ((0 / 1 - a / 1) * (0 / 1 - a / 1) + (0 / 1 - 0 / 1) * (0 / 1 - 0 / 1) + (0 / 1 - 0 / 1) * (0 / 1 - 0 / 1))%R with (a * a)%R by field. rewrite sqrt_square; lra.
      - replace ((0 / 1 - 0 / 1) * (0 / 1 - 0 / 1) + (0 / 1 - b / 1) * (0 / 1 - b / 1) + (0 / 1 - 0 / 1) * (0 / 1 - 0 / 1))%R with (b * b)%R by field. rewrite sqrt_square; lra. }
    assert (LL : len L = 3) by (destruct c; reflexivity).
    assert (C' : close (dist3 (proj (pt L 0)) (proj (pt L 2))) 0).
    { destruct c; cbn [degree_along knots_along flat_patch DegreeU DegreeV KnotVectorU KnotVectorV] in C.
      all: rewrite (curve_point_first 2 2 (bezier_knots 2)), (curve_point_last 2 2 (bezier_knots 2)) in C by ((apply bez_knots_ok; lia) || apply flat_clamped || lia || reflexivity). all: exact C. }
    rewrite <- E1 in C'. unfold close, tol in C'. rewrite Rminus_0_r, Rabs_R0, (Rabs_pos_eq (if c then a else b)), Rmax_left in C' by (destruct c; lra). destruct c; lra.
  - specialize (G 0 ltac:(lia)). rewrite Z.add_0_r in G. destruct G as (Gx & Gy & _). clear E. replace (if c then 2 else 2) with 2 in * by (destruct c; reflexivity).
    assert (k = 0 \/ k = 1) as [-> | ->] by lia; destruct c; unfold tol in Gx, Gy; revert Gx Gy; lazy [L pt at_ nth Z.to_nat Pos.to_nat Pos.iter_op Init.Nat.add wx wy wz ww gx gy gz proj Z.sub Z.opp Z.add Z.pos_sub Pos.pred_double Z.succ_double Pos.sub Pos.sub_mask]; intros Gx Gy.
    all: assert (T : forall x, (2 / 1000000 < x)%R -> ~ (Rabs (x / 1 - 0 / 1) <= 1 / 1000000 * (1 + Rmax (Rabs (x / 1)) (Rabs (0 / 1))))%R)
      by (clear; intros x Hx H; replace (x / 1)%R with x in H by field; replace (0 / 1)%R with 0%R in H by field; rewrite Rminus_0_r, Rabs_R0, (Rabs_pos_eq x), Rmax_left in H; lra).
    + apply (T a); [lra|exact Gx].
    + apply (T b); [lra|exact Gy].
    + apply (T (a / 2)%R); [lra|exact Gx].
    + apply (T (b / 2)%R); [lra|exact Gy].
Qed.

(* one step of the iteration leads from everywhere to the foot of the perpendicular on the extended plane *)
Lemma flat_newton2 fuel u v : (0 <= u <= 1)%R -> (0 <= v <= 1)%R ->
  surface_newton fuel (flat_patch a b) (mkXYZ (a * s) (b * t) h)%R 0%R 1%R 0%R 1%R false false (u, v) = Ok (s, t).
Proof.
  intros Hu Hv. unfold surface_newton.
  match goal with |- (let! r := for_upc _ _ _ ?f in _) = _ => set (body := f) end.
  assert (ST : forall k u v, (0 <= u <= 1)%R -> (0 <= v <= 1)%R ->
    let l := norm3 (mkXYZ ((s - u) * a) ((t - v) * b) 0)%R in
    body k (u, v) = if IsAlmostEqualTo l 0%R then Ok (Stop (s, t)) else Ok (Next (s, t))).
  { clear u v Hu Hv. intros k u v Hu Hv l. unfold body.
    pose proof (surface_heavy 2 2 _ u v (flat_valid a b) (flat_heavy a b) (proj2 (flat_dom u) Hu) (proj2 (flat_dom v) Hv)) as Hw.
    destruct (Ders_dom 2 2 (bezier_knots 2) 2 2 (bezier_knots 2) (flat_net a b) u v ltac:(apply bez_knots_ok; lia) ltac:(apply bez_knots_ok; lia) ltac:(lia) ltac:(lia) ltac:(apply (flat_valid a b))
      (proj2 (flat_dom u) Hu) (proj2 (flat_dom v) Hv) ltac:(cbn [DegreeU DegreeV KnotVectorU KnotVectorV SControlPoints flat_patch] in Hw; lra) 2 ltac:(lia) ltac:(lia) ltac:(lia)) as (g & (ku & kv & Sku & Skv & G) & D & ED & GD).
    change (mkSurface 2 2 (bezier_knots 2) (bezier_knots 2) (flat_net a b)) with (flat_patch a b) in ED. rewrite ED. cbn [bind]. rewrite !GD by lia. cbn [bind]. rewrite Length_eq. cbn [bind].
    rewrite (flat_span _ _ Sku), (flat_span _ _ Skv) in G.
    pose proof (fun A B => partials_flat a b _ _ u v g A B G) as PF. cbv beta in PF. destruct PF as (G00 & G10 & G01 & G20 & G11 & G02).
    { intros x y. rewrite flat_at. cbn [ww]. lra. }
    { intros x y. rewrite flat_at. unfold proj. cbn [wx wy wz ww]. f_equal; field. }
    rewrite G00, G10, G01, G20, G11, G02. rewrite sub_eq. unfold minus3, DotProduct. cbn [gx gy gz]. num.
    match goal with |- context [IsAlmostEqualTo (norm3 ?d) 0%R] => assert (L1 : (1 / 100000 <= norm3 d)%R) end.
    { unfold norm3, dot3. cbn [gx gy gz]. apply Rle_trans with (Rabs h); [lra|]. rewrite <- sqrt_Rsqr_abs. apply sqrt_le_1_alt. unfold Rsqr. set (x := (a * u - a * s)%R). set (y := (b * v - b * t)%R). clearbody x y. clear. nra. }
    match goal with |- context [IsAlmostEqualTo (norm3 ?d) 0%R] => destruct (IsAlmostEqualTo (norm3 d) 0%R) eqn:EL end.
    { exfalso. apply close_iff in EL. revert L1 EL. match goal with |- context [norm3 ?d] => generalize (norm3 d) end. clear. intros x Hx C. unfold close, tol in C. rewrite Rminus_0_r, Rabs_R0, (Rabs_pos_eq x), Rmax_left in C by lra. lra. }
    clear EL L1.
    set (e := (a * b * (a * b))%R). assert (He : (1 <= e)%R) by (unfold e; assert (1 <= a * b)%R by nra; nra).
    match goal with |- context [IsAlmostEqualTo (Rabs ?d) 0%R] => assert (Edet : d = e) by (unfold e; ring) end.
    rewrite Edet. destruct (IsAlmostEqualTo (Rabs e) 0%R) eqn:EL.
    { exfalso. apply close_iff in EL. clear -EL He. unfold close, tol in EL. rewrite Rminus_0_r, Rabs_R0, !(Rabs_pos_eq e), Rmax_left in EL; rewrite ?(Rabs_pos_eq e) in *; lra. }
    rewrite !Rdiv_ok by lra. cbn [bind].
    match goal with |- context [(?n / e)%R] => set (du := (n / e)%R) end.
    match goal with |- context [(?n / e)%R] => set (dv := (n / e)%R) end.
    assert (Eu : du = (s - u)%R) by (unfold du, e; field; lra).
    assert (Ev : dv = (t - v)%R) by (unfold dv, e; field; lra).
    clearbody du dv. subst du dv. rewrite Length_eq. cbn [bind]. rewrite add_eq, !scale_eq. unfold plus3, times3. cbn [gx gy gz].
    match goal with |- (if IsAlmostEqualTo (norm3 ?x) _ then _ else _) = _ => replace (norm3 x) with l end.
    2:{ unfold l. f_equal. f_equal; ring. }
    destruct (IsAlmostEqualTo l 0%R).
    - f_equal. f_equal. f_equal; lra.
    - cbn [wrap_param bind]. f_equal. f_equal. replace (u + (s - u))%R with s by lra. replace (v + (t - v))%R with t by lra.
      
      unfold std_max, std_min. num. f_equal; repeat (destruct Rlt_dec; cbn [Rltb]); try lra.
      all: unfold Rltb; repeat destruct Rlt_dec; lra. }
  rewrite for_upc_first by lia. rewrite ST by assumption. 
  match goal with |- context [if ?c then _ else _] => destruct c end; cbn [bind]; [reflexivity|].
  rewrite for_upc_first by lia. rewrite ST by lra. 
  match goal with |- context [if ?c then _ else _] => assert (EC : c = true) end.
  { apply close_iff. unfold norm3, dot3. cbn [gx gy gz].
    replace ((s - s) * a * ((s - s) * a) + (t - t) * b * ((t - t) * b) + 0 * 0)%R with 0%R by ring. rewrite sqrt_0. unfold close, tol. rewrite Rminus_0_r, Rabs_R0, Rmax_left by lra. lra. }
  rewrite EC. reflexivity.
Qed.

Lemma flat_search2 fuel : GetParamOnSurface fuel (flat_patch a b) (mkXYZ (a * s) (b * t) h)%R = Ok (s, t).
Proof.
  pose proof (flat_valid a b) as HS. pose proof (flat_heavy a b) as HH. pose proof flat_ball2 as HB. unfold GetParamOnSurface. cbn [KnotVectorU KnotVectorV flat_patch].
  destruct (domain_ends 2 2 (bezier_knots 2)) as (E0 & E1); [apply bez_knots_ok; lia|apply flat_clamped|]. rewrite E0, E1. cbn [bind]. change (mkSurface 2 2 (bezier_knots 2) (bezier_knots 2) (flat_net a b)) with (flat_patch a b).
  rewrite !flat_open2. cbn [bind].
  destruct (SurfaceTessellate_ok 2 2 _ HS HH flat_clamped flat_clamped) as ([ps us] & E & VU & VV & IU & IV & NU & NV & L1 & L2 & G1 & G2 & G3). rewrite E. cbn [bind fst snd].
  assert (L : forall V : list R, increasing V -> (forall x, In x V <-> In x (bezier_knots 2)) -> 2 <= len V).
  { clear. intros V IV NV. pose proof (len_nonneg V) as L0. assert (HU : curve_knots 2 2 (bezier_knots 2)) by (apply bez_knots_ok; lia).
    assert (E0 : len V <> 0). { intros E0. assert (G : In (val (bezier_knots 2) 0) V) by (apply NV, val_In; reflexivity || (change (len (bezier_knots 2)) with 6; lia)). destruct V; [contradiction|]. rewrite len_cons in E0. pose proof (len_nonneg V). lia. }
    destruct (knots_ends _ _ _ _ HU flat_clamped IV NV ltac:(lia)) as (K0 & K1). destruct (Z.eq_dec (len V) 1) as [E1|]; [|lia]. rewrite E1 in K1. change (1 - 1) with 0 in K1. rewrite K0 in K1. rewrite !bez_val in K1 by lia. cbn in K1. lra. }
  pose proof (L _ IU NU) as LU. pose proof (L _ IV NV) as LV. cbv zeta in *.
  destruct (nearest_segment_ok 2 2 (flat_patch a b) ps us (mkXYZ (a * s) (b * t) h)%R (2 ^ 400)%R) as ([u v] & En & Du & Dv); try assumption.
  - split; [apply pow_le; lra|lra].
  - apply Rle_trans with (2 ^ 22)%R; [|apply Rle_pow; [lra|lia]]. unfold norm3, dot3. cbn [gx gy gz].
    rewrite <- (sqrt_square (2 ^ 22)) by (apply pow_le; lra). apply sqrt_le_1_alt. 
    assert (X : (0 <= a * s <= 2 ^ 20)%R) by (split; [apply Rmult_le_pos; lra|replace (2 ^ 20)%R with (2 ^ 20 * 1)%R by ring; apply Rmult_le_compat; lra]).
    assert (Y : (0 <= b * t <= 2 ^ 20)%R) by (split; [apply Rmult_le_pos; lra|replace (2 ^ 20)%R with (2 ^ 20 * 1)%R by ring; apply Rmult_le_compat; lra]).
    assert (Z : (h * h <= 2 ^ 20 * 2 ^ 20)%R). { replace (h * h)%R with (Rabs h * Rabs h)%R by (rewrite <- Rabs_mult; apply Rabs_pos_eq; nra). pose proof (Rabs_pos h). apply Rmult_le_compat; lra. }
    set (x := (a * s)%R) in *. set (y := (b * t)%R) in *. clearbody x y. clear -X Y Z. assert (x * x <= 2 ^ 20 * 2 ^ 20)%R by (apply Rmult_le_compat; lra). assert (y * y <= 2 ^ 20 * 2 ^ 20)%R by (apply Rmult_le_compat; lra). lra.
  - rewrite L1, L2. reflexivity.
  - rewrite L2. nia.
  - rewrite En. cbn [bind]. replace (val (bezier_knots 2) 2) with 0%R by (rewrite bez_val by lia; reflexivity). replace (val (bezier_knots 2) (2 + 1)) with 1%R by (rewrite bez_val by lia; reflexivity).
    apply flat_newton2; apply (proj1 (flat_dom _)); assumption.
Qed.

Lemma flat_sdf fuel : ComputeSignedDistanceFunction fuel (flat_patch a b) (mkXYZ (a * s) (b * t) h)%R = Ok h.
Proof.
  assert (Ds : u_domain 2 (flat_patch a b) s) by (apply (proj2 (flat_dom _)); exact Hs). assert (Dt : v_domain 2 (flat_patch a b) t) by (apply (proj2 (flat_dom _)); exact Ht).
  destruct (sdf_value fuel 2 2 (flat_patch a b) _ s t (flat_valid a b) (flat_heavy a b) ltac:(cbn; lia) ltac:(cbn; lia) (flat_search2 fuel) Ds Dt) as (g & x & G & X1 & _ & V1 & V2).
  pose proof (surface_heavy 2 2 _ s t (flat_valid a b) (flat_heavy a b) Ds Dt) as Hw. cbn [DegreeU DegreeV KnotVectorU KnotVectorV SControlPoints flat_patch] in *.
  destruct (Ders_dom 2 2 (bezier_knots 2) 2 2 (bezier_knots 2) (flat_net a b) s t ltac:(apply bez_knots_ok; lia) ltac:(apply bez_knots_ok; lia) ltac:(lia) ltac:(lia) ltac:(apply (flat_valid a b))
      Ds Dt ltac:(lra) 2 ltac:(lia) ltac:(lia) ltac:(lia)) as (g2 & (ku & kv & Sku & Skv & G2) & _).
  destruct G as (ku' & kv' & Sku' & Skv' & G). rewrite (flat_span _ _ Sku), (flat_span _ _ Skv) in G2. rewrite (flat_span _ _ Sku'), (flat_span _ _ Skv') in G.
  assert (GG : partials_at (fun x y => ww (span_patch 2 2 (bezier_knots 2) 2 2 (bezier_knots 2) (flat_net a b) x y) <> 0%R) (fun x y => proj (span_patch 2 2 (bezier_knots 2) 2 2 (bezier_knots 2) (flat_net a b) x y)) 2 s t
     (fun k l => if k + l <=? 1 then g k l else g2 k l)).
  { intros k l Hk Hl Hkl. destruct (Z.leb_spec (k + l) 1); [apply G; lia|apply G2; lia]. }
  pose proof (fun A B => partials_flat a b _ _ s t _ A B GG) as PF. cbv beta in PF. destruct PF as (_ & G10 & G01 & _).
  { intros x0 y0. rewrite flat_at. cbn [ww]. lra. }
  { intros x0 y0. rewrite flat_at. unfold proj. cbn [wx wy wz ww]. f_equal; field. }
  change (g 1 0 = mkXYZ a 0%R 0%R) in G10. change (g 0 1 = mkXYZ 0%R b 0%R) in G01. rewrite G10, G01 in *. clear G10 G01 G G2 GG.
  assert (EC : cross3 (mkXYZ a 0 0)%R (mkXYZ 0 b 0)%R = mkXYZ 0%R 0%R (a * b)%R) by (unfold cross3; cbn [gx gy gz]; f_equal; ring). rewrite EC in *.
  assert (Hab : (1 <= a * b)%R) by nra. destruct X1 as (XU & k & Hk & XE); [intros C; apply (f_equal gz) in C; cbn in C; lra|].
  destruct x as [x1 x2 x3]. unfold times3 in XE. cbn [gx gy gz] in XE. injection XE as E1 E2 E3. unfold dot3 in XU. cbn [gx gy gz] in XU.
  assert (x1 = 0%R) by nra. assert (x2 = 0%R) by nra. subst x1 x2. assert (x3 = 1%R) by nra. subst x3.
  rewrite (flat_surface a b s t Hs Ht) in V1, V2. cbv zeta in V1, V2. unfold dist3, minus3, dot3 in V1, V2. cbn [gx gy gz] in V1, V2.
  replace ((a * s - a * s) * 0 + (b * t - b * t) * 0 + (h - 0) * 1)%R with h in V1, V2 by ring.
  replace (norm3 (mkXYZ (a * s - a * s) (b * t - b * t) (h - 0))%R) with (Rabs h) in V1, V2 by (unfold norm3, dot3; cbn [gx gy gz]; rewrite <- sqrt_Rsqr_abs; apply (f_equal R_sqrt.sqrt); unfold Rsqr; ring).
  destruct (Rle_dec 0 h) as [H | H].
  - rewrite V1; [rewrite Rabs_pos_eq by exact H; reflexivity|]. pose proof (Rabs_pos h). lra.
  - assert (E : Rabs h = (- h)%R) by (apply Rabs_left; lra). rewrite V2; [f_equal; lra|]. rewrite E in *. lra.
Qed.
End flat.
