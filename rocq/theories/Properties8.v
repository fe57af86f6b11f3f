(* Property theorems, part 8: circular arcs and conics. *)
From Coq Require Import ZArith List Bool Reals Lra Lia.
From Verif Require Import Base Num Vec Spec Spec2 Spec3 M_MathUtils M_XYZ M_Bspline M_NurbsCurve M_Curve2 M_Geom M_Conic
  P_MathUtils P_Nurbs P_Matrix P_Geom P_Conic P_Conic2.
Import ListNotations.
Open Scope Z_scope.

(** * C50 *)
(* phi is the angle reached at parameter t: it runs through every angle from a to b once *)
Theorem C50_arc : forall center xAxis yAxis u v a b r,
  direction_of xAxis u -> direction_of yAxis v -> dot3 xAxis yAxis = 0%R ->
  (1 / 10 ^ 12 < dot3 xAxis xAxis)%R -> (1 / 10 ^ 12 < dot3 yAxis yAxis)%R ->
  (tol b a < b - a)%R -> (1 / 500 <= b - a <= 2 * PI)%R -> (tol r 0 < r)%R ->
  exists c phi, CreateArc center xAxis yAxis a b r r = Ok (Some c) /\ NurbsCheck c = Ok tt /\
    phi 0%R = a /\ phi 1%R = b /\ (forall s t, (0 <= s)%R -> (s < t)%R -> (t <= 1)%R -> (phi s < phi t)%R) /\
    (forall x, (a <= x <= b)%R -> exists t, (0 <= t <= 1)%R /\ phi t = x) /\
    (forall t, (0 <= t <= 1)%R -> NurbsPoint c t = Ok (circle_at center u v r (phi t))).
Proof. exact CreateArc_ok. Qed.
Print Assumptions C50_arc.

(* points given by circle_at do lie on the circle *)
Example circle_distance : forall c u v r a, dot3 u u = 1%R -> dot3 v v = 1%R -> dot3 u v = 0%R -> (0 <= r)%R -> dist3 (circle_at c u v r a) c = r.
Proof.
  intros c u v r a Hu Hv Huv Hr. unfold dist3, norm3.
  replace (dot3 _ _) with (r * r * (cos a * cos a * dot3 u u + 2 * cos a * sin a * dot3 u v + sin a * sin a * dot3 v v))%R.
  - rewrite Hu, Hv, Huv. pose proof (sin2_cos2 a) as P. unfold Rsqr in P.
    replace (r * r * _)%R with (r * r * (sin a * sin a + cos a * cos a))%R by ring. rewrite P, Rmult_1_r. apply sqrt_square. exact Hr.
  - clear. unfold circle_at. destruct c, u, v. v3. ring.
Qed.

(* the hypotheses hold for a full circle of radius 10 *)
Example arc_hypotheses : direction_of (mkXYZ 2 0 0)%R (mkXYZ 1 0 0)%R /\ direction_of (mkXYZ 0 3 0)%R (mkXYZ 0 1 0)%R /\ dot3 (mkXYZ 2 0 0)%R (mkXYZ 0 3 0)%R = 0%R /\
  (1 / 10 ^ 12 < dot3 (mkXYZ 2 0 0) (mkXYZ 2 0 0))%R /\ (1 / 10 ^ 12 < dot3 (mkXYZ 0 3 0) (mkXYZ 0 3 0))%R /\
  (tol (2 * PI) 0 < 2 * PI - 0)%R /\ (1 / 500 <= 2 * PI - 0 <= 2 * PI)%R /\ (tol 10 0 < 10)%R.
Proof.
  pose proof PI2_1. pose proof PI_4.
  split; [split; [v3; ring|exists 2%R; split; [lra|v3; apply xyz_eq; ring]]|]. split; [split; [v3; ring|exists 3%R; split; [lra|v3; apply xyz_eq; ring]]|].
  split; [v3; ring|]. split; [v3; lra|]. split; [v3; lra|]. split; [|split; [lra|apply heavy_iff; lra]].
  unfold tol. rewrite Rabs_R0, Rabs_pos_eq, Rmax_left by lra. lra.
Qed.

(* every shorter arc is refused *)
Theorem C50_short_arc_refuted : forall center xAxis yAxis u v a b r,
  direction_of xAxis u -> direction_of yAxis v -> dot3 xAxis yAxis = 0%R ->
  (1 / 10 ^ 12 < dot3 xAxis xAxis)%R -> (1 / 10 ^ 12 < dot3 yAxis yAxis)%R ->
  (tol b a < b - a)%R -> (1 / 100000 <= b - a <= 1 / 1000)%R -> (tol r 0 < r)%R ->
  CreateArc center xAxis yAxis a b r r = Ok None.
Proof. exact short_refused. Qed.
Print Assumptions C50_short_arc_refuted.

(* with unequal radii the curve leaves the ellipse *)
Theorem C50_ellipse_refuted : exists c Q,
  CreateArc zero3 (mkXYZ 1 0 0)%R (mkXYZ 0 1 0)%R (- (PI / 4))%R (PI / 4)%R 2%R 1%R = Ok (Some c) /\
  NurbsPoint c (1 / 2)%R = Ok Q /\ forall phi, Q <> mkXYZ (2 * cos phi)%R (1 * sin phi)%R 0%R.
Proof. exact ellipse_wrong. Qed.
Print Assumptions C50_ellipse_refuted.

(** * C60 *)
Theorem C60_split_conic_is_polygon : forall s ts e te p c, CreateOpenConic s ts e te p = Ok (Some c) -> 3 < len (ControlPoints c) ->
  exists n (V : Z -> XYZ R), (n = 2 \/ n = 4) /\ len (ControlPoints c) = 2 * n + 1 /\
   (forall j, 0 <= j <= n -> get (ControlPoints c) (2 * j) = Ok (hom (V j) 1%R)) /\
   (forall j, 0 <= j < n -> get (ControlPoints c) (2 * j + 1) = Ok (mkXYZW 0 0 0 0)%R) /\
   forall t, (0 <= t <= 1)%R -> exists x, NurbsPoint c t = Ok x /\ on_polygon V n x.
Proof. exact OpenConic_polygon. Qed.
Print Assumptions C60_split_conic_is_polygon.

(* the half circle over [-1, 1] is such a case *)
Example split_conic : exists c, CreateOpenConic (mkXYZ (-1) 0 0)%R (mkXYZ 0 1 0)%R (mkXYZ 1 0 0)%R (mkXYZ 0 1 0)%R (mkXYZ 0 1 0)%R = Ok (Some c) /\
  len (ControlPoints c) = 5.
Proof. exact conic_ex2. Qed.

(** * C65 *)
(* q is where the tangents meet; the line through q and p meets the chord at a parameter y inside it *)
Theorem C65_conic_through_point : forall (s ts e te p q : XYZ R) (a b x y : R),
  (1 / 10 ^ 12 < dot3 ts ts)%R -> (1 / 10 ^ 12 < dot3 te te)%R ->
  q = line_at s ts a /\ q = line_at e te b ->
  ~ small (dot3 ts ts * dot3 te te - dot3 ts te * dot3 ts te) -> ~ near ts te ->
  line_at q (minus3 p q) x = line_at s (minus3 e s) y -> (0 < y < 1)%R ->
  (1 / 10 ^ 12 < dot3 (minus3 p q) (minus3 p q))%R -> (1 / 10 ^ 12 < dot3 (minus3 e s) (minus3 e s))%R ->
  ~ small (dot3 (minus3 p q) (minus3 p q) * dot3 (minus3 e s) (minus3 e s) - dot3 (minus3 p q) (minus3 e s) * dot3 (minus3 p q) (minus3 e s)) ->
  ~ (near (minus3 p q) (minus3 e s) /\ near q s) ->
  (exists w u, CreateOneConicArc s ts e te p = Ok (Some (q, w)) /\ (0 < u < 1)%R /\
    let k := ((1 - u) * (1 - u) + 2 * u * (1 - u) * w + u * u)%R in
    plus3 (times3 ((1 - u) * (1 - u)) s) (plus3 (times3 (2 * u * (1 - u) * w) q) (times3 (u * u) e)) = times3 k p) /\
  forall c, CreateOpenConic s ts e te p = Ok (Some c) -> len (ControlPoints c) = 3 ->
    NurbsPoint c 0%R = Ok s /\ NurbsPoint c 1%R = Ok e /\ exists t, (0 < t < 1)%R /\ NurbsPoint c t = Ok p.
Proof. exact conic_through. Qed.
Print Assumptions C65_conic_through_point.

Example conic_hypotheses :
  let s := (mkXYZ (-1) 0 0)%R in let e := (mkXYZ 1 0 0)%R in let q := (mkXYZ 0 1 0)%R in
  let ts := (mkXYZ 1 1 0)%R in let te := (mkXYZ (-1) 1 0)%R in let p := (mkXYZ 0 (2 / 3) 0)%R in
  (1 / 10 ^ 12 < dot3 ts ts)%R /\ (1 / 10 ^ 12 < dot3 te te)%R /\ (q = line_at s ts 1%R /\ q = line_at e te 1%R) /\
  ~ small (dot3 ts ts * dot3 te te - dot3 ts te * dot3 ts te) /\ ~ near ts te /\
  line_at q (minus3 p q) 3%R = line_at s (minus3 e s) (1 / 2)%R /\
  (1 / 10 ^ 12 < dot3 (minus3 p q) (minus3 p q))%R /\ (1 / 10 ^ 12 < dot3 (minus3 e s) (minus3 e s))%R /\
  ~ small (dot3 (minus3 p q) (minus3 p q) * dot3 (minus3 e s) (minus3 e s) - dot3 (minus3 p q) (minus3 e s) * dot3 (minus3 p q) (minus3 e s)) /\
  ~ (near (minus3 p q) (minus3 e s) /\ near q s) /\
  exists c, CreateOpenConic s ts e te p = Ok (Some c) /\ len (ControlPoints c) = 3.
Proof.
  cbv zeta. split; [v3; lra|]. split; [v3; lra|]. split; [split; v3h; apply xyz_eq; ring|]. split; [not_small|]. split; [not_near|].
  split; [v3h; apply xyz_eq; field|]. split; [v3; lra|]. split; [v3; lra|]. split; [not_small|]. split; [intros [N _]; revert N; not_near|]. exact conic_ex1.
Qed.
