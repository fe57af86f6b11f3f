(* Property theorems, part 17: surfaces made from points, arcs and curves. *)
From Coq Require Import ZArith List Bool Reals Lra Lia Floats.
From Verif Require Import Base Num Vec Tac Spec Spec2 Spec3 Spec4 Spec8 Spec9 M_MathUtils M_Polynomials M_XYZ M_Bspline M_NurbsCurve M_Curve2 M_Conic M_Surface
  P_MathUtils P_XYZ P_Vec P_Curve P_Bspline P_Decomp P_Make P_Ruled P_Revolve.
Import ListNotations.
Open Scope Z_scope.

(** * C74 *)
Theorem C74_bilinear : forall tl tr bl br, returns (CreateBilinearSurface tl tr bl br) (fun s => forall u v, (0 <= u <= 1)%R -> (0 <= v <= 1)%R ->
  NurbsSurfacePoint s u v = Ok (lerp3 (lerp3 tl bl u) (lerp3 tr br u) v)).
Proof. exact Bilinear_ok. Qed.
Print Assumptions C74_bilinear.

(** * C75 *)
Theorem C75_cylinder : forall ctr xAxis yAxis u v a b r ht, direction_of xAxis u -> direction_of yAxis v -> dot3 xAxis yAxis = 0%R ->
  (1 / 10 ^ 12 < dot3 xAxis xAxis)%R -> (1 / 10 ^ 12 < dot3 yAxis yAxis)%R ->
  (tol b a < b - a)%R -> (1 / 500 <= b - a <= 2 * PI)%R -> (tol r 0 < r)%R -> (tol ht 0 < ht)%R ->
  exists s phi, CreateCylindricalSurface ctr xAxis yAxis a b r ht = Ok (Some s) /\
    phi 0%R = a /\ phi 1%R = b /\ (forall s t, (0 <= s)%R -> (s < t)%R -> (t <= 1)%R -> (phi s < phi t)%R) /\
    (forall x, (a <= x <= b)%R -> exists t, (0 <= t <= 1)%R /\ phi t = x) /\
    (forall x y, (0 <= x <= 1)%R -> (0 <= y <= 1)%R ->
       NurbsSurfacePoint s x y = Ok (plus3 (circle_at ctr u v r (phi y)) (times3 ((1 - x) * ht) (cross3 u v)))).
Proof. exact Cylinder_ok. Qed.
Print Assumptions C75_cylinder.

(* three quarters of a cylinder of radius 2 and height 5 over axes of lengths 3 and 1/2 *)
Example C75_ex : direction_of (mkXYZ 3 0 0)%R (mkXYZ 1 0 0)%R /\ direction_of (mkXYZ 0 0 (1 / 2))%R (mkXYZ 0 0 1)%R /\ dot3 (mkXYZ 3 0 0)%R (mkXYZ 0 0 (1 / 2))%R = 0%R /\
  (1 / 10 ^ 12 < dot3 (mkXYZ 3 0 0) (mkXYZ 3 0 0))%R /\ (1 / 10 ^ 12 < dot3 (mkXYZ 0 0 (1 / 2)) (mkXYZ 0 0 (1 / 2)))%R /\
  (tol 3 (-1) < 3 - (-1))%R /\ (1 / 500 <= 3 - (-1) <= 2 * PI)%R /\ (tol 2 0 < 2)%R /\ (tol 5 0 < 5)%R.
Proof.
  pose proof PI2_1. unfold direction_of, dot3, times3, tol. cbn [gx gy gz].
  split; [split; [ring|exists 3%R; split; [lra|f_equal; ring]]|]. split; [split; [ring|exists (1 / 2)%R; split; [lra|f_equal; field]]|].
  split; [ring|]. split; [lra|]. split; [lra|].
  split; [rewrite (Rabs_pos_eq 3), (Rabs_left (-1)), Rmax_left by lra; lra|].
  split; [pose proof PI2_3_2; lra|]. split; rewrite Rabs_pos_eq, Rabs_R0, Rmax_left by lra; lra.
Qed.

(** * C76 *)
Theorem C76_ruled : forall p0 m0 U0 (P0 : list (XYZW R)) p1 m1 U1 (P1 : list (XYZW R)),
  curve_knots p0 m0 U0 -> len P0 = m0 + 1 -> clamped_knots p0 m0 U0 -> curve_knots p1 m1 U1 -> len P1 = m1 + 1 -> clamped_knots p1 m1 U1 ->
  val U0 0 = val U1 0 -> val U0 (m0 + 1) = val U1 (m1 + 1) -> (forall x y, In x (U0 ++ U1) -> In y (U0 ++ U1) -> apart x y) ->
  (p0 < p1 -> 1 <= p0 /\ simple_inside p0 m0 U0) -> (p1 < p0 -> 1 <= p1 /\ simple_inside p1 m1 U1) -> p0 <= 7 -> p1 <= 7 ->
  returns (CreateRuledSurface (mkCurve p0 U0 P0) (mkCurve p1 U1 P1)) (fun s => exists n, valid_surface n 1 s /\
    DegreeU s = Z.max p0 p1 /\ DegreeV s = 1 /\ KnotVectorV s = [0; 0; 1; 1]%R /\
    (forall x, In x (KnotVectorU s) <-> In x (U0 ++ U1)) /\
    forall u v, in_domain p0 m0 U0 u -> (0 <= v <= 1)%R ->
      GetPointOnSurface s u v = Ok (vadd (vscale (1 - v)%R (curve_point p0 m0 U0 P0 u)) (vscale v (curve_point p1 m1 U1 P1 u)))).
Proof. exact Ruled_ok. Qed.
Print Assumptions C76_ruled.

(* the two curves are the edges v = 0 and v = 1 *)
Theorem C76_edges : forall p0 m0 U0 (P0 : list (XYZW R)) p1 m1 U1 (P1 : list (XYZW R)),
  curve_knots p0 m0 U0 -> len P0 = m0 + 1 -> clamped_knots p0 m0 U0 -> curve_knots p1 m1 U1 -> len P1 = m1 + 1 -> clamped_knots p1 m1 U1 ->
  val U0 0 = val U1 0 -> val U0 (m0 + 1) = val U1 (m1 + 1) -> (forall x y, In x (U0 ++ U1) -> In y (U0 ++ U1) -> apart x y) ->
  (p0 < p1 -> 1 <= p0 /\ simple_inside p0 m0 U0) -> (p1 < p0 -> 1 <= p1 /\ simple_inside p1 m1 U1) -> p0 <= 7 -> p1 <= 7 ->
  returns (CreateRuledSurface (mkCurve p0 U0 P0) (mkCurve p1 U1 P1)) (fun s => forall u, in_domain p0 m0 U0 u ->
    NurbsSurfacePoint s u 0%R = NurbsPoint (mkCurve p0 U0 P0) u /\ NurbsSurfacePoint s u 1%R = NurbsPoint (mkCurve p1 U1 P1) u).
Proof.
  intros p0 m0 U0 P0 p1 m1 U1 P1 K0 L0 C0 K1 L1 C1 Ea Eb Hap S0 S1 B0 B1.
  destruct (Ruled_ok p0 m0 U0 P0 p1 m1 U1 P1 K0 L0 C0 K1 L1 C1 Ea Eb Hap S0 S1 B0 B1) as (s & E & n & HV & _ & _ & _ & _ & HS).
  exists s. split; [exact E|]. intros u Hu.
  assert (Hu1 : in_domain p1 m1 U1 u). { unfold in_domain in *. destruct C0 as [<- _] in Hu. destruct C1 as [<- _]. rewrite <- Ea, <- Eb. exact Hu. }
  unfold NurbsSurfacePoint, NurbsPoint. rewrite !HS by (auto; lra).
  cbn [Degree KnotVector ControlPoints]. rewrite (GetPointOnCurve_ok p0 m0 U0 P0 u), (GetPointOnCurve_ok p1 m1 U1 P1 u) by auto. cbn [bind].
  split; f_equal; destruct (curve_point p0 m0 U0 P0 u) as [x1 x2 x3 x4], (curve_point p1 m1 U1 P1 u) as [y1 y2 y3 y4]; cbn [vadd vscale Vec_XYZW]; unfold xyzw_add, xyzw_scale; num; cbn [wx wy wz ww]; f_equal; ring.
Qed.
Print Assumptions C76_edges.

(* a quadratic arch and a cubic with one inner knot, over the same interval *)
Example C76_ex : curve_knots 2 2 [0; 0; 0; 1; 1; 1]%R /\ clamped_knots 2 2 [0; 0; 0; 1; 1; 1]%R /\
  curve_knots 3 4 [0; 0; 0; 0; 1 / 4; 1; 1; 1; 1]%R /\ clamped_knots 3 4 [0; 0; 0; 0; 1 / 4; 1; 1; 1; 1]%R /\
  (forall x y, In x ([0; 0; 0; 1; 1; 1] ++ [0; 0; 0; 0; 1 / 4; 1; 1; 1; 1])%R -> In y ([0; 0; 0; 1; 1; 1] ++ [0; 0; 0; 0; 1 / 4; 1; 1; 1; 1])%R -> apart x y) /\
  simple_inside 2 2 [0; 0; 0; 1; 1; 1]%R.
Proof.
  split; [apply (bez_knots_ok 2); lia|]. split; [split; reflexivity|].
  split. { assert (0 + tol 0 (1 / 4) < 1 / 4)%R by (pose proof (tol_le 0 (1 / 4) 1 ltac:(rewrite Rabs_R0; lra) ltac:(rewrite Rabs_pos_eq; lra)); lra).
    assert (1 / 4 + tol (1 / 4) 1 < 1)%R by (pose proof (tol_le (1 / 4) 1 1 ltac:(rewrite Rabs_pos_eq; lra) ltac:(rewrite Rabs_R1; lra)); lra).
    constructor; try (cbn; lia); [sorted_tac|assumption|assumption]. }
  split; [split; reflexivity|]. split; [|intros i Hi; assert (i = 2) as -> by lia; change (0 < 1)%R; lra].
  assert (V : forall x, In x ([0; 0; 0; 1; 1; 1] ++ [0; 0; 0; 0; 1 / 4; 1; 1; 1; 1])%R -> x = 0%R \/ x = (1 / 4)%R \/ x = 1%R).
  { intros x Hx. cbn in Hx. repeat (destruct Hx as [<- | Hx]; [tauto|]). contradiction. }
  intros x y Hx Hy. unfold apart, tol.
  destruct (V x Hx) as [-> | [-> | ->]], (V y Hy) as [-> | [-> | ->]]; try (left; reflexivity); right;
    rewrite ?Rabs_R0, ?(Rabs_pos_eq 1), ?(Rabs_pos_eq (1 / 4)) by lra; unfold Rmax, Rabs; repeat match goal with |- context [if ?b then _ else _] => destruct b end; lra.
Qed.

(* curves over different intervals are refused *)
Theorem C76_refused : forall c0 c1 : Curve R (XYZW R), KnotVector c0 <> nil -> KnotVector c1 <> nil ->
  (Rabs (val (KnotVector c0) 0 - val (KnotVector c1) 0) > tol (val (KnotVector c0) 0) (val (KnotVector c1) 0))%R \/
  (Rabs (val (KnotVector c0) (len (KnotVector c0) - 1) - val (KnotVector c1) (len (KnotVector c1) - 1))
     > tol (val (KnotVector c0) (len (KnotVector c0) - 1)) (val (KnotVector c1) (len (KnotVector c1) - 1)))%R ->
  CreateRuledSurface c0 c1 = Throw.
Proof.
  intros [d0 U0 P0] [d1 U1 P1] H0 H1 H. cbn [KnotVector] in *. unfold CreateRuledSurface. cbn [Degree KnotVector ControlPoints].
  assert (A0 : arr U0 (len U0) (val U0)) by apply arr_at. assert (A1 : arr U1 (len U1) (val U1)) by apply arr_at.
  assert (L0 : 0 < len U0) by (unfold len; destruct U0; [contradiction|cbn [length]; lia]).
  assert (L1 : 0 < len U1) by (unfold len; destruct U1; [contradiction|cbn [length]; lia]).
  rewrite (arr_get _ _ _ 0 A0) by lia. rewrite (arr_get _ _ _ 0 A1) by lia. cbn [bind].
  rewrite (arr_get _ _ _ (len U0 - 1) A0) by lia. rewrite (arr_get _ _ _ (len U1 - 1) A1) by lia. cbn [bind].
  assert (E : forall x y, (Rabs (x - y) > tol x y)%R -> IsAlmostEqualTo x y = false).
  { intros x y Hxy. apply aeq_false. rewrite <- tol_thr. lra. }
  destruct H as [H|H]; rewrite (E _ _ H); [reflexivity|]. rewrite andb_false_r. reflexivity.
Qed.
Print Assumptions C76_refused.

(** * C77 *)
Theorem C77_revolved : forall o a rad q m W G, dot3 a a = 1%R -> (1 / 500 <= rad <= 2 * PI)%R -> curve_knots q m W -> q <= 7 -> len G = m + 1 ->
  (forall j, 0 <= j <= m -> (1 / 1000 <= ww (pt G j))%R) ->
  (forall j, 0 <= j <= m -> let X := arm o a (proj (pt G j)) in X = zero3 \/ (1 / 50 <= dot3 X X * rad)%R) ->
  exists s phi, CreateRevolvedSurface o a rad (mkCurve q W G) = Ok (Some s) /\
    DegreeV s = q /\ KnotVectorV s = W /\ phi 0%R = 0%R /\ phi 1%R = rad /\ (forall x y, (0 <= x)%R -> (x < y)%R -> (y <= 1)%R -> (phi x < phi y)%R) /\
    (forall t, (0 <= t <= rad)%R -> exists x, (0 <= x <= 1)%R /\ phi x = t) /\
    forall u v, (0 <= u <= 1)%R -> in_domain q m W v ->
      exists x, NurbsPoint (mkCurve q W G) v = Ok x /\ NurbsSurfacePoint s u v = Ok (plus3 o (rotate a (phi u) (minus3 x o))).
Proof. intros o a rad q m W G Ha Hr KW Hq HG Hw Hm. exact (Revolve_ok o a rad q m W G Ha Hr KW Hq HG Hw Hm). Qed.
Print Assumptions C77_revolved.

(* a cone about the z axis: a segment from the apex, on the axis, to (2, 0, 1) *)
Example C77_ex : dot3 (mkXYZ 0 0 1)%R (mkXYZ 0 0 1)%R = 1%R /\ (1 / 500 <= 1 <= 2 * PI)%R /\ curve_knots 1 1 [0; 0; 1; 1]%R /\
  (forall j, 0 <= j <= 1 -> (1 / 1000 <= ww (pt [mkXYZW 0 0 3 1; mkXYZW 2 0 1 1] j))%R) /\
  (forall j, 0 <= j <= 1 -> let X := arm (mkXYZ 0 0 0)%R (mkXYZ 0 0 1)%R (proj (pt [mkXYZW 0 0 3 1; mkXYZW 2 0 1 1]%R j)) in X = zero3 \/ (1 / 50 <= dot3 X X * 1)%R).
Proof.
  pose proof PI2_1. split; [unfold dot3; cbn [gx gy gz]; ring|]. split; [lra|]. split; [apply (bez_knots_ok 1); lia|].
  split; intros j Hj; assert (j = 0 \/ j = 1) as [-> | ->] by lia.
  - cbv [pt at_ nth Z.to_nat ww]. lra.
  - cbv [pt at_ nth Z.to_nat Pos.to_nat Pos.iter_op Init.Nat.add ww]. lra.
  - left. cbv [pt at_ nth Z.to_nat]. unfold arm, foot_on, proj, minus3, plus3, times3, dot3, zero3. cbn [wx wy wz ww gx gy gz]. f_equal; field.
  - right. cbv [pt at_ nth Z.to_nat Pos.to_nat Pos.iter_op Init.Nat.add]. unfold arm, foot_on, proj, minus3, plus3, times3, dot3. cbn [wx wy wz ww gx gy gz].
    match goal with |- (_ <= ?e)%R => replace e with 4%R by field end. lra.
Qed.

(* an axis of length 2 makes the surface leave the circle: the quarter turn of (1, 0, 0) ends at (0, 2, 0) *)
Theorem C77_axis_length_refuted : exists s,
  CreateRevolvedSurface (mkXYZ 0 0 0)%R (mkXYZ 0 0 2)%R (PI / 2)%R (mkCurve 1 [0; 0; 1; 1]%R [mkXYZW 1 0 0 1; mkXYZW 1 0 1 1]%R) = Ok (Some s) /\
  NurbsSurfacePoint s 1%R 0%R = Ok (mkXYZ 0 2 0)%R.
Proof. exact revolve_long_axis. Qed.
Print Assumptions C77_axis_length_refuted.

(* a profile near the axis is refused: a quarter turn of a segment at distance 1/100 *)
Theorem C77_near_axis_refuted :
  CreateRevolvedSurface (mkXYZ 0 0 0)%R (mkXYZ 0 0 1)%R (PI / 2)%R (mkCurve 1 [0; 0; 1; 1]%R [mkXYZW (1 / 100) 0 0 1; mkXYZW (1 / 100) 0 1 1]%R) = Ok None.
Proof. exact revolve_thin. Qed.
Print Assumptions C77_near_axis_refuted.

(** * C78 *)
Theorem C78_scaling : forall n m p q U W (P : list (list (XYZW R))) fx fy fz c, valid_surface n m (mkSurface p q U W P) ->
  (forall i j, 0 <= i <= n -> 0 <= j <= m -> ww (pt2 P i j) = 1%R) -> c = zero3 \/ ~ Spec3.near c zero3 ->
  returns (NonUniformScaling P fx fy fz c) (fun Q => valid_surface n m (mkSurface p q U W Q) /\
    forall u v, in_domain p n U u -> in_domain q m W v ->
      exists x, NurbsSurfacePoint (mkSurface p q U W P) u v = Ok x /\ NurbsSurfacePoint (mkSurface p q U W Q) u v = Ok (scaled3 fx fy fz c x)).
Proof. exact Scaling_ok. Qed.
Print Assumptions C78_scaling.

Example C78_ex : valid_surface 1 1 (mkSurface 1 1 [0; 0; 1; 1] [0; 0; 1; 1] [[mkXYZW 0 0 0 1; mkXYZW 0 1 1 1]; [mkXYZW 1 0 0 1; mkXYZW 1 1 0 1]])%R /\
  (forall i j, 0 <= i <= 1 -> 0 <= j <= 1 -> ww (pt2 [[mkXYZW 0 0 0 1; mkXYZW 0 1 1 1]; [mkXYZW 1 0 0 1; mkXYZW 1 1 0 1]]%R i j) = 1%R) /\
  ~ Spec3.near (mkXYZ 1 2 3)%R zero3.
Proof.
  split; [split; [apply (bez_knots_ok 1); lia|split; [apply (bez_knots_ok 1); lia|split; [|cbn; lia]]]|split].
  - split; [reflexivity|]. intros i Hi. cbn in Hi. assert (i = 0 \/ i = 1) as [-> | ->] by lia; reflexivity.
  - intros i j Hi Hj. assert (i = 0 \/ i = 1) as [-> | ->] by lia; assert (j = 0 \/ j = 1) as [-> | ->] by lia; reflexivity.
  - intros (N & _). unfold zero3 in N. cbn [gx] in N. unfold tol in N. rewrite Rminus_0_r, Rabs_R0, Rabs_pos_eq, Rmax_left in N by lra. lra.
Qed.

(* weights other than 1 are divided out and not multiplied back: even the scaling by 1 moves the surface *)
Theorem C78_weights_refuted : (exists p q U W P Q, NurbsSurfacePoint (mkSurface p q U W P) 0.5 0.5 = Ok (mkXYZ 0.5 0.5 1) /\
  NonUniformScaling P 1 1 1 (mkXYZ 0 0 0) = Ok Q /\ NurbsSurfacePoint (mkSurface p q U W Q) 0.5 0.5 = Ok (mkXYZ 0.25 0.25 0.5))%float.
Proof.
  exists 1, 1, [0; 0; 1; 1]%float, [0; 0; 1; 1]%float, [[mkXYZW 0 0 2 2; mkXYZW 0 2 2 2]; [mkXYZW 2 0 2 2; mkXYZW 2 2 2 2]]%float. eexists.
  split; [vm_compute; reflexivity|]. split; vm_compute; reflexivity.
Qed.
Print Assumptions C78_weights_refuted.
