(* Property theorems, part 32: offset curves and the removal of repeated knots. *)
From Coq Require Import ZArith List Bool Reals Lra Lia Floats.
From Verif Require Import Base Num Vec Tac Spec Spec2 Spec3 Spec4 Spec5 Spec6 Spec10 Spec17 Spec23 M_MathUtils M_Knots M_XYZ M_Bspline M_NurbsCurve M_Curve2 M_Geom M_Fit M_Shape M_Curve4 M_Offset
  P_MathUtils P_Geom P_XYZ P_Vec P_VSum P_Span P_Curve P_ProjNorm2 P_Shape P_Surf6 P_Swung P_Nurbs P_Fit P_Interp2 P_ParamOn P_Ls4 P_Remove P_Offset P_Excess P_Offset2 P_Offset3 P_Bound3.
Import ListNotations.
Open Scope Z_scope.

(** * C129 *)
(* no distance, no change *)
Theorem C129_zero : forall solver fuel c d type, close d 0 -> Offset solver fuel c d type = Ok (Some c).
Proof. intros solver fuel c d type Hd. apply close_iff in Hd. destruct type; unfold Offset, OffsetByTillerAndHanson, OffsetByPieglAndTiller; num; rewrite Hd; reflexivity. Qed.
Print Assumptions C129_zero.
Example C129_zero_ex : close (1 / 10000000) 0.
Proof. unfold close, tol. rewrite Rabs_R0, Rminus_0_r, (Rabs_pos_eq (1 / 10000000)) by lra. rewrite Rmax_left by lra. lra. Qed.

(* the control polygon moved along normals *)
Theorem C129_tiller : forall solver fuel c d n0 o, let n := len (ControlPoints c) - 1 in
  heavy (ControlPoints c) -> ~ close d 0 -> 0 < len (KnotVector c) -> CurveNormalAt c CN_Normal (val (KnotVector c) 0) = Ok n0 ->
  Offset solver fuel c d Ot_TillerAndHanson = Ok o ->
  exists X, (forall i, 0 <= i <= n -> moved fuel c d n0 i (X i)) /\
    match o with
    | Some c' => Degree c' = Degree c /\ KnotVector c' = KnotVector c /\ len (ControlPoints c') = len (ControlPoints c) /\
        pt (ControlPoints c') 0 = hom (X 0) 1 /\ pt (ControlPoints c') n = hom (X n) 1 /\
        forall i, 0 < i < n -> pt (ControlPoints c') i = hom (X i) 1 \/ (Spec3.near (X (i - 1)) (X (i + 1)) /\ pt (ControlPoints c') i = hom (X (i - 1)) 1)
    | None => exists i, 0 < i < n /\ (norm3 (cross3 (minus3 (X i) (X (i - 1)%Z)) (minus3 (X i) (X (i + 1)%Z))) <= 1 / 999)%R
    end.
Proof.
  intros solver fuel c d n0 o n Hw Hd L En E. cbn [Offset] in E. pose proof (normal_unit _ _ _ En) as Hn. pose proof (Tiller_post fuel c d n0 Hw Hn _ Hd (get_val (KnotVector c) 0 ltac:(lia)) En o E) as (N1 & M & R). fold n in M, R. exists (mv fuel c d n0). split; [exact M|].
  destruct o as [c'|].
  - destruct R as (R1 & R2 & R3 & R4 & R5 & R6). split; [exact R1|]. split; [exact R2|]. split; [unfold n in R3; lia|]. split; [exact R4|]. split; [exact R5|]. intros i Hi. destruct (R6 i Hi) as [R7|(R7 & _ & R8)]; [left; exact R7|right; split; assumption].
  - destruct R as (i & Hi & F). exists i. split; [exact Hi|]. unfold flat, small, gram in F. set (a := minus3 _ _) in *. set (b := minus3 _ (_ (i + 1))) in *.
    assert (G : (dot3 (cross3 a b) (cross3 a b) = dot3 a a * dot3 b b - dot3 a b * dot3 a b)%R) by (destruct a as [a1 a2 a3], b as [b1 b2 b3]; unfold dot3, cross3; cbn [gx gy gz]; ring). rewrite <- G in F. rewrite <- norm_sq in F. pose proof (Rle_trans _ _ _ (Rle_abs _) F) as F0. pose proof (norm_pos (cross3 a b)) as Z. set (x := norm3 _) in *. nra.
Qed.
Print Assumptions C129_tiller.

(* enough for it to be found *)
Theorem C129_tiller_returns : forall solver fuel c d n0, let n := len (ControlPoints c) - 1 in
  heavy (ControlPoints c) -> ~ close d 0 -> 1 <= n -> 0 < len (KnotVector c) -> CurveNormalAt c CN_Normal (val (KnotVector c) 0) = Ok n0 ->
  (forall i, 0 <= i <= n -> exists t v, GetParamOnCurve fuel c (proj (pt (ControlPoints c) i)) = Ok t /\ CurveNormalAt c CN_Normal t = Ok v) ->
  (forall i x y z, 0 < i < n -> moved fuel c d n0 (i - 1) x -> moved fuel c d n0 i y -> moved fuel c d n0 (i + 1) z -> (1 / 999 < norm3 (cross3 (minus3 y x) (minus3 y z)))%R) ->
  (forall i x y, 0 <= i < n -> moved fuel c d n0 i x -> moved fuel c d n0 (i + 1) y -> (1 / 1000000 < dist3 y x)%R) ->
  exists c', Offset solver fuel c d Ot_TillerAndHanson = Ok (Some c').
Proof.
  intros solver fuel c d n0 n Hw Hd N1 L En HP HC HD. cbn [Offset]. pose proof (normal_unit _ _ _ En) as Hn.
  assert (M : forall i, 0 <= i <= n -> moved fuel c d n0 i (mv fuel c d n0 i)). { intros i Hi. destruct (HP i Hi) as (t & v & Et & Ev). apply (mv_run fuel c d n0 Hw Hn i t v Hi Et Ev). }
  apply (Tiller_run fuel c d n0 Hw Hn _ Hd (get_val (KnotVector c) 0 ltac:(lia)) En N1 HP).
  - fold n. intros i Hi F. specialize (HC i _ _ _ Hi (M (i - 1) ltac:(lia)) (M i ltac:(lia)) (M (i + 1) ltac:(lia))). unfold flat, small, gram in F. set (a := minus3 _ _) in *. set (b := minus3 _ (_ (i + 1))) in *.
    assert (G : (dot3 (cross3 a b) (cross3 a b) = dot3 a a * dot3 b b - dot3 a b * dot3 a b)%R) by (destruct a as [a1 a2 a3], b as [b1 b2 b3]; unfold dot3, cross3; cbn [gx gy gz]; ring). rewrite <- G in F. rewrite <- norm_sq in F. pose proof (Rle_trans _ _ _ (Rle_abs _) F) as F0. set (x := norm3 _) in *. nra.
  - fold n. intros i Hi. specialize (HD i _ _ Hi (M i ltac:(lia)) (M (i + 1) ltac:(lia))). unfold dist3 in HD. rewrite <- norm_sq. set (x := norm3 _) in *. assert (1 / 1000000 * (1 / 1000000) < x * x)%R by nra. lra.
Qed.
Print Assumptions C129_tiller_returns.

(* the weights of the curve are dropped *)
Theorem C129_weights_refuted : forall solver fuel c d c' i, heavy (ControlPoints c) -> ~ close d 0 ->
  Offset solver fuel c d Ot_TillerAndHanson = Ok (Some c') -> 0 <= i < len (ControlPoints c') -> ww (pt (ControlPoints c') i) = 1%R.
Proof.
  intros solver fuel c d c' i Hw Hd E Hi. pose proof E as E0. cbn [Offset] in E0. unfold OffsetByTillerAndHanson in E0. num. rewrite (proj2 (close_false d 0) Hd) in E0. destruct (get (KnotVector c) 0) as [u0|] eqn:E1; cbn [bind] in E0; [|discriminate].
  destruct (CurveNormalAt c CN_Normal u0) as [n0|] eqn:E2; cbn [bind] in E0; [|discriminate]. clear E0.
  assert (L : 0 < len (KnotVector c)) by (destruct (KnotVector c); [discriminate|rewrite len_cons; pose proof (len_nonneg l); lia]).
  rewrite (get_val (KnotVector c) 0 ltac:(lia)) in E1. injection E1 as <-. destruct (C129_tiller solver fuel c d n0 (Some c') Hw Hd L E2 E) as (X & _ & _ & _ & R3 & R4 & R5 & R6). set (n := len (ControlPoints c) - 1) in *.
  assert (i = 0 \/ i = n \/ 0 < i < n) as [-> | [-> | Hj]] by (unfold n; lia); [rewrite R4; reflexivity|rewrite R5; reflexivity|]. destruct (R6 i Hj) as [-> | (_ & ->)]; reflexivity.
Qed.
Print Assumptions C129_weights_refuted.

(* a curve that starts straight has no normal there, and no offset *)
Theorem C129_straight_refuted : forall solver p n U H, curve_knots p n U -> p <= 7 -> len H = n + 1 -> heavy H -> clamped_knots p n U ->
  exists g, curve_derivs p n U H 2 (val U 0) g /\
  ((cross3 (g 1) (g 2) = zero3 /\ ~ close (norm3 (g 1)) 1) \/ (g 2 = zero3 /\ close (norm3 (g 1)) 1) ->
   forall fuel d type, ~ close d 0 -> Offset solver fuel (mkCurve p U H) d type = NonFin).
Proof. intros. apply Offset_straight; assumption. Qed.
Print Assumptions C129_straight_refuted.

(* segments in particular *)
Theorem C129_segment_refuted : forall solver fuel a b d type, ~ close d 0 -> Offset solver fuel (mkCurve 1 (bezier_knots 1) [hom a 1; hom b 1]) d type = NonFin.
Proof.
  intros solver fuel a b d type Hd. destruct (C129_straight_refuted solver 1 1 (bezier_knots 1) (bar a b) (proj1 bar_knots) ltac:(lia) eq_refl (bar_heavy a b) (proj2 bar_knots)) as (g & G & X).
  apply X; [|exact Hd]. destruct (bar_derivs a b (val (bezier_knots 1) 0) g (ltac:(change (val (bezier_knots 1) 0) with 0%R; lra)) G) as (_ & _ & E2). destruct (Rle_dec (Rabs (norm3 (g 1) - 1)) (tol (norm3 (g 1)) 1)) as [Y|Y]; [right; split; [exact E2|exact Y]|left; split; [|exact Y]].
  rewrite E2. unfold cross3, zero3. cbn [gx gy gz]. f_equal; ring.
Qed.
Print Assumptions C129_segment_refuted.

(* interpolation of samples *)
Theorem C129_piegl : forall solver p n U H d, exact_solver solver -> curve_knots p n U -> 1 <= p <= 7 -> len H = n + 1 -> heavy H -> clamped_knots p n U -> ~ close d 0 ->
  exists m, sample_number p n U H m /\ forall fuel o, Offset solver fuel (mkCurve p U H) d Ot_PieglAndTiller = Ok o ->
  exists Q, len Q = m /\ samples (mkCurve p U H) d (val U 0) (val U (n + p + 1)) Q /\
    (spread_points Q -> exists c', o = Some c' /\ Degree c' = p /\ clamped_unit p (m - 1) (KnotVector c') /\ len (ControlPoints c') = m /\
       forall i, 0 <= i < m -> NurbsPoint c' (chord_length (pt Q) i / chord_length (pt Q) (m - 1))%R = Ok (pt Q i)).
Proof.
  intros solver p n U H d Hs HU Hp HH Hw Hcl Hd. destruct (Piegl_samples p n U H HU ltac:(lia) HH Hw Hcl solver ltac:(lia) d Hd) as (m & HM & _ & P). exists m. split; [exact HM|]. intros fuel o E. cbn [Offset] in E. destruct (P o E) as (Q & LQ & SQ & T). exists Q. split; [exact LQ|]. split; [exact SQ|]. intros SP.
  destruct (tail_ok p ltac:(lia) solver Hs ltac:(lia) Q ltac:(rewrite LQ; destruct HM; lia) SP) as (o' & T' & c' & -> & R). rewrite T in T'. injection T' as ->. exists c'. rewrite LQ in R. split; [reflexivity|exact R].
Qed.
Print Assumptions C129_piegl.

Theorem C129_piegl_returns : forall solver p n U H d, exact_solver solver -> curve_knots p n U -> 1 <= p <= 7 -> len H = n + 1 -> heavy H -> clamped_knots p n U -> ~ close d 0 ->
  (forall t, in_domain p n U t -> exists v, CurveNormalAt (mkCurve p U H) CN_Normal t = Ok v) ->
  (forall Q, sample_number p n U H (len Q) -> samples (mkCurve p U H) d (val U 0) (val U (n + p + 1)) Q -> spread_points Q) ->
  forall fuel, exists c', Offset solver fuel (mkCurve p U H) d Ot_PieglAndTiller = Ok (Some c').
Proof.
  intros solver p n U H d Hs HU Hp HH Hw Hcl Hd HN HQ fuel. destruct (Piegl_samples p n U H HU ltac:(lia) HH Hw Hcl solver ltac:(lia) d Hd) as (m & HM & P & _). destruct (P HN) as (Q & LQ & SQ & E). cbn [Offset]. rewrite E.
  destruct (tail_ok p ltac:(lia) solver Hs ltac:(lia) Q ltac:(rewrite LQ; destruct HM; lia) (HQ Q ltac:(rewrite LQ; exact HM) SQ)) as (o' & T' & c' & -> & R). exists c'. exact T'.
Qed.
Print Assumptions C129_piegl_returns.

(* an arch, moved by 1/10 *)
Example C129_tiller_ex : let c := mkCurve 2 (bezier_knots 2) [mkXYZW 0 0 0 1; mkXYZW 1 1 0 1; mkXYZW 2 0 0 1]%R in
  heavy (ControlPoints c) /\ ~ close (1 / 10) 0 /\ exists fuel n0, CurveNormalAt c CN_Normal (val (KnotVector c) 0) = Ok n0 /\
  (forall i, 0 <= i <= 2 -> exists t v, GetParamOnCurve fuel c (proj (pt (ControlPoints c) i)) = Ok t /\ CurveNormalAt c CN_Normal t = Ok v) /\
  (forall i x y z, 0 < i < 2 -> moved fuel c (1 / 10) n0 (i - 1) x -> moved fuel c (1 / 10) n0 i y -> moved fuel c (1 / 10) n0 (i + 1) z -> (1 / 999 < norm3 (cross3 (minus3 y x) (minus3 y z)))%R) /\
  (forall i x y, 0 <= i < 2 -> moved fuel c (1 / 10) n0 i x -> moved fuel c (1 / 10) n0 (i + 1) y -> (1 / 1000000 < dist3 y x)%R).
Proof.
  cbv zeta. change [mkXYZW 0 0 0 1; mkXYZW 1 1 0 1; mkXYZW 2 0 0 1]%R with (bow 1). split; [apply bow_heavy|]. split; [unfold close, tol; rewrite Rabs_R0, Rminus_0_r, (Rabs_pos_eq (1 / 10)) by lra; rewrite Rmax_left by lra; lra|].
  destruct (arch_param 0 ltac:(lia)) as (N0 & t0 & H0 & E0). destruct (arch_param 1 ltac:(lia)) as (N1 & t1 & H1 & E1). destruct (arch_param 2 ltac:(lia)) as (N2 & t2 & H2 & E2).
  destruct (bow_normal 1 ltac:(lra) 0%R ltac:(lra)) as (n0 & En). exists (Nat.max N0 (Nat.max N1 N2)), n0. split; [exact En|]. split; [|split].
  - intros i Hi. assert (i = 0 \/ i = 1 \/ i = 2) as [-> | [-> | ->]] by lia.
    + destruct (bow_normal 1 ltac:(lra) t0 H0) as (v & Ev). exists t0, v. split; [apply E0; lia|exact Ev].
    + destruct (bow_normal 1 ltac:(lra) t1 H1) as (v & Ev). exists t1, v. split; [apply E1; lia|exact Ev].
    + destruct (bow_normal 1 ltac:(lra) t2 H2) as (v & Ev). exists t2, v. split; [apply E2; lia|exact Ev].
  - intros i x y z Hi. assert (i = 1) as -> by lia. apply arch_bend.
  - intros i x y Hi. apply arch_apart. exact Hi.
Qed.

(* a flat arch, moved by 1/10, from six samples *)
Example C129_piegl_ex : let H := [mkXYZW 0 0 0 1; mkXYZW 1 (1 / 512) 0 1; mkXYZW 2 0 0 1]%R in let c := mkCurve 2 (bezier_knots 2) H in
  exact_solver gauss_solver /\ curve_knots 2 2 (bezier_knots 2) /\ heavy H /\ clamped_knots 2 2 (bezier_knots 2) /\ ~ close (1 / 10) 0 /\
  (forall t, in_domain 2 2 (bezier_knots 2) t -> exists v, CurveNormalAt c CN_Normal t = Ok v) /\
  (forall Q, sample_number 2 2 (bezier_knots 2) H (len Q) -> samples c (1 / 10) (val (bezier_knots 2) 0) (val (bezier_knots 2) (2 + 2 + 1)) Q -> spread_points Q) /\
  forall m, sample_number 2 2 (bezier_knots 2) H m -> m = 6.
Proof.
  cbv zeta. change [mkXYZW 0 0 0 1; mkXYZW 1 (1 / 512) 0 1; mkXYZW 2 0 0 1]%R with (bow (1 / 512)). split; [apply gauss_exact|]. split; [apply K_knots|]. split; [apply bow_heavy|]. split; [apply K_clamped|].
  split; [unfold close, tol; rewrite Rabs_R0, Rminus_0_r, (Rabs_pos_eq (1 / 10)) by lra; rewrite Rmax_left by lra; lra|]. split; [|split; [exact flat_spread|exact flat_number]].
  intros t Ht. apply bow_normal; [lra|]. exact (proj1 (K_dom t) Ht).
Qed.

(** * C130 *)
(* without repeated knots inside there is nothing to remove *)
Theorem C130_simple : forall c a b, In a (KnotVector c) -> In b (KnotVector c) -> (a < b)%R -> unrepeated (KnotVector c) -> RemoveExcessiveKnots c = Ok c.
Proof. exact Excessive_same. Qed.
Print Assumptions C130_simple.
Example C130_simple_ex : let U := [0; 0; 0; 1; 2; 3; 3; 3]%R in In 0%R U /\ In 3%R U /\ unrepeated U.
Proof.
  cbv zeta. split; [cbn; auto|]. split; [cbn; auto 10|]. intros x Hx (y & Hy & Ly) (z & Hz & Lz). cbn in Hx, Hy, Hz. assert (x = 1 \/ x = 2)%R as [-> | ->] by (repeat match goal with H : _ \/ _ |- _ => destruct H as [<- | H] end; try tauto; lra).
  - unfold occ. cbn [count_occ]. repeat match goal with |- context [Req_EM_T ?x ?y] => destruct (Req_EM_T x y); [try (exfalso; lra)|try (exfalso; lra)] end; reflexivity.
  - unfold occ. cbn [count_occ]. repeat match goal with |- context [Req_EM_T ?x ?y] => destruct (Req_EM_T x y); [try (exfalso; lra)|try (exfalso; lra)] end; reflexivity.
Qed.

(* as many control points as knots are removed *)
Theorem C130_shape : forall c c', RemoveExcessiveKnots c = Ok c' -> exists m, 0 <= m /\ Degree c' = Degree c /\
  len (KnotVector c') = len (KnotVector c) - m /\ len (ControlPoints c') = len (ControlPoints c) - m.
Proof. intros c c' E. exact (Excessive_shape c c' E). Qed.
Print Assumptions C130_shape.

(* it fails only where, of what is left of the curve by then, looking at the knots or removing a repeated one fails *)
Theorem C130_ends : forall c e, RemoveExcessiveKnots c = Err e ->
  exists c', trimmed c c' /\ (GetInternalKnotMultiplicityMap (KnotVector c') = Err e \/ exists u, repeated_inside (KnotVector c') u /\ RemoveKnot c' u 1 = Err e).
Proof. exact Excessive_fail. Qed.
Print Assumptions C130_ends.

(* only repeated inner knots are removed, one at a time, until no more can be *)
Theorem C130_result : forall c c', RemoveExcessiveKnots c = Ok c' -> trimmed c c' /\ forall u, repeated_inside (KnotVector c') u -> RemoveKnot c' u 1 = Ok None.
Proof. exact Excessive_post. Qed.
Print Assumptions C130_result.

(* degree and multiplicity of the same parity: some removal takes place, whatever the curve *)
Theorem C130_unchecked_refuted : forall p n U P u c', curve_knots p n U -> len P = n + 1 -> heavy P -> (val U p < u < val U (n + 1))%R ->
  (forall x, In x U -> (Rabs (u - x) <= tol u x)%R -> x = u) -> 2 <= occ U u <= p -> Z.even (p - occ U u) = true ->
  RemoveExcessiveKnots (mkCurve p U P) = Ok c' -> len (ControlPoints c') < len P /\ len (KnotVector c') < len U.
Proof.
  intros p n U P u c' HU HP Hw Hu Hx Ho He E. destruct (Excessive_post _ _ E) as (T & D). inversion T as [c0 E0|c0 u0 c1 c2 R0 E1 T1 E0]; subst.
  - destruct (RemoveKnot_unchecked p n U P u HU HP Hw Hu Hx ltac:(lia) He) as (o & Eo & U' & Q & -> & _).
    assert (RI : repeated_inside U u). { split; [lia|]. pose proof HU as [P0 N0 L S F _]. split; [exists (val U p)|exists (val U (n + 1))]; (split; [apply nth_In; unfold len in L; lia|lra]). }
    specialize (D u RI). cbn [KnotVector] in D. rewrite Eo in D. discriminate.
  - destruct (RemoveKnot_shape _ _ _ E1) as (_ & K1 & P1). cbn [KnotVector ControlPoints] in K1, P1. clear - K1 P1 T1. 
    assert (G : forall a b, trimmed a b -> len (ControlPoints b) <= len (ControlPoints a) /\ len (KnotVector b) <= len (KnotVector a)).
    { intros a b HT. induction HT as [|x y x1 x2 _ E _ IH]; [lia|]. destruct (RemoveKnot_shape _ _ _ E) as (_ & K1' & P1'). lia. }
    specialize (G _ _ T1). lia.
Qed.
Print Assumptions C130_unchecked_refuted.
Example C130_unchecked_ex : let U := [0; 0; 0; 1; 1; 3; 3; 3]%R in curve_knots 2 4 U /\ (val U 2 < 1 < val U (4 + 1))%R /\
  (forall x, In x U -> (Rabs (1 - x) <= tol 1 x)%R -> x = 1%R) /\ occ U 1 = 2 /\ Z.even (2 - occ U 1) = true /\ repeated_inside U 1.
Proof.
  cbv zeta. assert (O : occ [0; 0; 0; 1; 1; 3; 3; 3]%R 1 = 2). { unfold occ. cbn [count_occ]. repeat match goal with |- context [Req_EM_T ?x ?y] => destruct (Req_EM_T x y); [try (exfalso; lra)|try (exfalso; lra)] end; reflexivity. }
  split; [|split; [|split; [|split; [exact O|split; [rewrite O; reflexivity|]]]]].
  - assert (0 + tol 0 3 < 3)%R by (pose proof (tol_le 0 3 3 ltac:(rewrite Rabs_R0; lra) ltac:(rewrite Rabs_pos_eq; lra)); lra).
    assert (0 + tol 0 1 < 1)%R by (pose proof (tol_le 0 1 1 ltac:(rewrite Rabs_R0; lra) ltac:(rewrite Rabs_R1; lra)); lra).
    assert (1 + tol 1 3 < 3)%R by (pose proof (tol_le 1 3 3 ltac:(rewrite Rabs_R1; lra) ltac:(rewrite Rabs_pos_eq; lra)); lra).
    constructor; try (cbn; lia); [sorted_tac|assumption|assumption].
  - change (0 < 1 < 3)%R. lra.
  - intros x Hx Ha. cbn [In] in Hx. repeat match goal with H : _ \/ _ |- _ => destruct H as [<-|H] end; try tauto; exfalso; revert Ha; apply Rlt_not_le.
    all: first [pose proof (tol_le 1 0 1 ltac:(rewrite Rabs_R1; lra) ltac:(rewrite Rabs_R0; lra)); unfold Rabs; destruct Rcase_abs; lra|
      pose proof (tol_le 1 3 3 ltac:(rewrite Rabs_R1; lra) ltac:(rewrite Rabs_pos_eq; lra)); unfold Rabs; destruct Rcase_abs; lra].
  - split; [lia|]. split; [exists 0%R|exists 3%R]; (split; [cbn; auto 10|lra]).
Qed.

(* a corner of the curve, at (16, 8), is among what is removed *)
Theorem C130_corner_refuted : (exists c, let U := [0; 0; 0; 0.5; 0.5; 1; 1; 1] in
  let P := [mkXYZW 0 0 0 1; mkXYZW 8 0 0 1; mkXYZW 16 8 0 1; mkXYZW 8 80 0 1; mkXYZW 0 0 0 1] in
  RemoveExcessiveKnots (mkCurve 2 U P) = Ok c /\ GetPointOnCurve (mkCurve 2 U P) 0.5 = Ok (mkXYZW 16 8 0 1) /\ GetPointOnCurve c 0.5 = Ok (mkXYZW 8 40 0 1))%float.
Proof. eexists. cbv zeta. split; [vm_compute; reflexivity|]. split; vm_compute; reflexivity. Qed.
Print Assumptions C130_corner_refuted.
