(* Circular arcs. *)
From Coq Require Import ZArith List Bool Reals Lra Lia.
From Verif Require Import Base Num Vec Tac Spec Spec2 Spec3 M_MathUtils M_XYZ M_Bspline M_NurbsCurve M_Matrix M_Curve2 M_Geom M_Conic
  P_MathUtils P_Bern P_Cox P_Vec P_XYZ P_VSum P_Curve P_Bspline P_Nurbs P_Matrix P_Loop P_Geom.
Import ListNotations.
Open Scope Z_scope.

(** * Trigonometry *)
Lemma sin_small : (1 / 999 < sin (1 / 500))%R.
Proof.
  destruct (pre_sin_bound (1 / 500) 0 ltac:(lra) ltac:(lra)) as [H _]. cbn in H. unfold sin_term in H. cbn in H. lra.
Qed.

Lemma sin_big d : (1 / 500 <= d <= PI / 2 + 1 / 10)%R -> (1 / 999 < sin d)%R.
Proof.
  intros [H1 H2]. pose proof PI2_1. pose proof sin_small. destruct (Rle_dec d (PI / 2)) as [E|E].
  - destruct (Req_dec d (1 / 500)) as [->|N]; [assumption|]. apply Rlt_trans with (sin (1 / 500)); [assumption|]. apply sin_increasing_1; lra.
  - replace (sin d) with (cos (d - PI / 2)) by (rewrite <- sin_shift; rewrite <- (sin_PI_x d); f_equal; lra).
    apply Rlt_trans with (1 / 2)%R; [lra|]. rewrite <- cos_PI3. apply cos_decreasing_1; lra.
Qed.

Lemma cos_half_big d : (0 <= d <= PI / 2 + 1 / 10)%R -> (1 / 2 < cos (d / 2))%R.
Proof. intros [H1 H2]. pose proof PI2_1. rewrite <- cos_PI3. apply cos_decreasing_1; lra. Qed.

(* the half-angle parametrisation of a circle *)
Lemma half_angle q s : cos q <> 0%R -> let T := (s * tan q)%R in let W := (cos q * cos q + s * s * (sin q * sin q))%R in
  (W * cos (2 * atan T) = cos q * cos q - s * s * (sin q * sin q))%R /\ (W * sin (2 * atan T) = 2 * s * sin q * cos q)%R.
Proof.
  intros Hq T W. set (a := atan T). rewrite cos_2a, sin_2a.
  assert (Ha : (0 < cos a)%R). { pose proof (atan_bound T). apply cos_gt_0; unfold a; lra. }
  assert (HT : (sin a * cos q = s * sin q * cos a)%R).
  { assert (E : tan a = T) by apply atan_right_inv. unfold tan in E. unfold T, tan in E. apply (f_equal (fun x => x * cos a * cos q)%R) in E.
    replace (sin a / cos a * cos a * cos q)%R with (sin a * cos q)%R in E by (field; lra). rewrite E. field. exact Hq. }
  pose proof (sin2_cos2 a) as P. unfold Rsqr in P. unfold W. split.
  - replace ((cos q * cos q + s * s * (sin q * sin q)) * (cos a * cos a - sin a * sin a))%R
      with (cos q * cos q * (cos a * cos a) - (sin a * cos q) * (sin a * cos q) + (s * sin q * cos a) * (s * sin q * cos a) - s * s * (sin q * sin q) * (sin a * sin a))%R by ring.
    rewrite HT at 1 2. assert (Q : (cos q * cos q * (cos a * cos a) = cos q * cos q - (s * sin q * cos a) * (s * sin q * cos a))%R).
    { rewrite <- HT. replace (cos q * cos q)%R with (cos q * cos q * 1)%R at 2 by ring. rewrite <- P. ring. }
    rewrite Q. replace (s * sin q * cos a * (s * sin q * cos a))%R with (s * s * (sin q * sin q) * (cos a * cos a))%R by ring.
    replace (cos a * cos a)%R with (1 - sin a * sin a)%R by lra. ring.
  - replace ((cos q * cos q + s * s * (sin q * sin q)) * (2 * sin a * cos a))%R
      with (2 * (sin a * cos q) * (cos q * cos a) + 2 * (s * sin q * cos a) * (s * sin q) * sin a)%R by ring.
    rewrite <- HT. rewrite HT at 1.
    transitivity (2 * (s * sin q) * cos q * (cos a * cos a) + 2 * (s * sin q) * cos q * (sin a * sin a))%R; [ring|].
    replace (cos a * cos a)%R with (1 - sin a * sin a)%R by lra. ring.
Qed.

(** * One arc as a rational quadratic *)
Section Frame.
Variables (ctr u v : XYZ R) (r : R).
Hypothesis Hu : dot3 u u = 1%R.
Hypothesis Hv : dot3 v v = 1%R.
Hypothesis Huv : dot3 u v = 0%R.

Lemma ellipse_circle a : ellipse_at ctr u v r r a = circle_at ctr u v r a.
Proof. unfold ellipse_at, circle_at. rewrite !scale_eq, !add_eq. clear. destruct ctr, u, v. v3. apply xyz_eq; ring. Qed.

Definition tang (a : R) : XYZ R := plus3 (times3 (- sin a) u) (times3 (cos a) v).
Lemma tangent_tang a : tangent_at u v a = tang a.
Proof. unfold tangent_at, tang. rewrite !scale_eq, !add_eq. reflexivity. Qed.

Lemma tang_dot a b : dot3 (tang a) (tang b) = cos (b - a).
Proof.
  rewrite cos_minus. unfold tang. transitivity (sin a * sin b * dot3 u u + cos a * cos b * dot3 v v - (sin a * cos b + cos a * sin b) * dot3 u v)%R.
  - clear. destruct u, v. v3. ring.
  - rewrite Hu, Hv, Huv. ring.
Qed.
Lemma tang_unit a : dot3 (tang a) (tang a) = 1%R.
Proof. rewrite tang_dot, Rminus_eq_0, cos_0. reflexivity. Qed.
Lemma tang_gram a b : gram (tang a) (tang b) = (sin (b - a) * sin (b - a))%R.
Proof. unfold gram. rewrite !tang_unit, tang_dot. pose proof (sin2_cos2 (b - a)). unfold Rsqr in *. lra. Qed.

Lemma unit_coord (w : XYZ R) : dot3 w w = 1%R -> (Rabs (gx w) <= 1 /\ Rabs (gy w) <= 1 /\ Rabs (gz w) <= 1)%R.
Proof. clear. intros H. unfold dot3 in H. repeat split; apply Rabs_le; nra. Qed.

Lemma Rabs_def2_le x y : (Rabs x <= y)%R -> (- y <= x <= y)%R.
Proof. clear. unfold Rabs. destruct (Rcase_abs x); lra. Qed.
Lemma sq_small x y : (Rabs x <= y)%R -> (x * x <= y * y)%R.
Proof. clear. intros H. apply Rabs_def2_le in H. nra. Qed.

Lemma near_dist (a b : XYZ R) : dot3 a a = 1%R -> dot3 b b = 1%R -> near a b -> (dot3 (minus3 a b) (minus3 a b) <= 12 / 10 ^ 12)%R.
Proof.
  clear. intros Ha Hb (N1 & N2 & N3). destruct (unit_coord a Ha) as (A1 & A2 & A3), (unit_coord b Hb) as (B1 & B2 & B3).
  pose proof (tol_le _ _ _ A1 B1). pose proof (tol_le _ _ _ A2 B2). pose proof (tol_le _ _ _ A3 B3).
  pose proof (sq_small _ (2 / 1000000) ltac:(eapply Rle_trans; [exact N1|lra])). pose proof (sq_small _ (2 / 1000000) ltac:(eapply Rle_trans; [exact N2|lra])).
  pose proof (sq_small _ (2 / 1000000) ltac:(eapply Rle_trans; [exact N3|lra])).
  unfold dot3, minus3. cbn [gx gy gz]. lra.
Qed.

Lemma tang_not_near a b : ~ small (gram (tang a) (tang b)) -> ~ near (tang a) (tang b).
Proof.
  intros Hs Hn. apply Hs. pose proof (near_dist _ _ (tang_unit a) (tang_unit b) Hn) as D.
  assert (E : dot3 (minus3 (tang a) (tang b)) (minus3 (tang a) (tang b)) = (2 - 2 * cos (b - a))%R).
  { rewrite <- tang_dot. transitivity (dot3 (tang a) (tang a) + dot3 (tang b) (tang b) - 2 * dot3 (tang a) (tang b))%R.
    - generalize (tang a), (tang b). clear. intros. d3. v3. ring.
    - rewrite !tang_unit. ring. }
  rewrite E in D. rewrite tang_gram. pose proof (sin2_cos2 (b - a)) as P. unfold Rsqr in P. pose proof (COS_bound (b - a)).
  unfold small. rewrite Rabs_pos_eq by (apply Rle_0_sqr). nra.
Qed.

(* the tangents at a and a + 2h meet *)
Lemma tangents_meet a h : cos h <> 0%R -> line_at (circle_at ctr u v r a) (tang a) (r * tan h) = circle_at ctr u v (r / cos h) (a + h) /\
  line_at (circle_at ctr u v r (a + 2 * h)) (tang (a + 2 * h)) (- (r * tan h)) = circle_at ctr u v (r / cos h) (a + h).
Proof.
  intros Hh. assert (G : forall a k, line_at (circle_at ctr u v r a) (tang a) k = plus3 ctr (plus3 (times3 (r * cos a - k * sin a) u) (times3 (r * sin a + k * cos a) v))).
  { clear. intros. unfold tang, circle_at. destruct ctr, u, v. v3h. apply xyz_eq; ring. }
  assert (K : forall x x' y y', x = x' -> y = y' -> plus3 ctr (plus3 (times3 x u) (times3 y v)) = plus3 ctr (plus3 (times3 x' u) (times3 y' v))) by (intros; subst; reflexivity).
  rewrite !G. unfold circle_at. split; apply K; unfold tan.
  - rewrite cos_plus. field. exact Hh.
  - rewrite sin_plus. field. exact Hh.
  - replace (a + 2 * h)%R with ((a + h) + h)%R by ring. rewrite (cos_plus (a + h) h), (sin_plus (a + h) h). pose proof (sin2_cos2 h). unfold Rsqr in *.
    apply (Rmult_eq_reg_r (cos h)); [|exact Hh]. transitivity (r * cos (a + h) * (sin h * sin h + cos h * cos h))%R; [field; exact Hh|]. rewrite H. field. exact Hh.
  - replace (a + 2 * h)%R with ((a + h) + h)%R by ring. rewrite (cos_plus (a + h) h), (sin_plus (a + h) h). pose proof (sin2_cos2 h). unfold Rsqr in *.
    apply (Rmult_eq_reg_r (cos h)); [|exact Hh]. transitivity (r * sin (a + h) * (sin h * sin h + cos h * cos h))%R; [field; exact Hh|]. rewrite H. field. exact Hh.
Qed.

Lemma arc_rays a h : cos h <> 0%R -> ~ small (sin (2 * h) * sin (2 * h)) ->
  ComputeRays (circle_at ctr u v r a) (tang a) (circle_at ctr u v r (a + 2 * h)) (tang (a + 2 * h)) 0%R 0%R xyz0 =
  Ok (Intersecting, (r * tan h)%R, (- (r * tan h))%R, circle_at ctr u v (r / cos h) (a + h)).
Proof.
  intros Hh Hs. destruct (tangents_meet a h Hh) as [M1 M2].
  assert (G : ~ small (gram (tang a) (tang (a + 2 * h)))) by (rewrite tang_gram; replace (a + 2 * h - a)%R with (2 * h)%R by ring; exact Hs).
  rewrite (ComputeRays_meet _ _ _ _) with (s := (r * tan h)%R) (t := (- (r * tan h))%R).
  - rewrite M1. reflexivity.
  - intros [N _]. exact (tang_not_near _ _ G N).
  - rewrite tang_unit. lra.
  - rewrite tang_unit. lra.
  - exact G.
  - rewrite M1, M2. reflexivity.
Qed.

(* the rational quadratic with the three control points of an arc, at local parameter s *)
Definition arc_angle (m h s : R) : R := (m + 2 * atan ((2 * s - 1) * tan (h / 2)))%R.

Lemma arc_point m h s w x : cos h <> 0%R -> cos (h / 2) <> 0%R -> 
  w = ((1 - s) * (1 - s) + 2 * s * (1 - s) * cos h + s * s)%R -> w <> 0%R ->
  (forall g : XYZ R -> R, (forall a b, g (plus3 a b) = g a + g b)%R -> (forall k a, g (times3 k a) = k * g a)%R ->
     g x = (((1 - s) * (1 - s) * g (circle_at ctr u v r (m - h)) + 2 * s * (1 - s) * (cos h * g (circle_at ctr u v (r / cos h) m)) + s * s * g (circle_at ctr u v r (m + h))) / w))%R ->
  x = circle_at ctr u v r (arc_angle m h s).
Proof.
  intros Hh Hh2 Ew Hw Hx. destruct (half_angle (h / 2) (2 * s - 1) Hh2) as [C S].
  set (q := (h / 2)%R) in *. assert (Eh : h = (2 * q)%R) by (unfold q; field). 
  assert (Ew' : w = (cos q * cos q + (2 * s - 1) * (2 * s - 1) * (sin q * sin q))%R).
  { rewrite Ew, Eh, cos_2a. pose proof (sin2_cos2 q) as P. unfold Rsqr in P. replace (cos q * cos q)%R with (1 - sin q * sin q)%R by lra. ring. }
  rewrite <- Ew' in C, S. unfold arc_angle. fold q. set (al := (2 * atan ((2 * s - 1) * tan q))%R) in *.
  assert (G : forall g : XYZ R -> R, (forall a b, g (plus3 a b) = g a + g b)%R -> (forall k a, g (times3 k a) = k * g a)%R -> g x = g (circle_at ctr u v r (m + al))).
  { intros g Gp Gt. rewrite (Hx g Gp Gt). apply (Rmult_eq_reg_r w); [|exact Hw]. unfold circle_at. rewrite !Gp, !Gt.
    rewrite (cos_minus m h), (sin_minus m h), (cos_plus m h), (sin_plus m h), (cos_plus m al), (sin_plus m al).
    assert (C' : (w * cos al = (1 - 2 * s * (1 - s)) * cos h + 2 * s * (1 - s))%R).
    { rewrite C. pose proof (sin2_cos2 q) as P. unfold Rsqr in P. rewrite Eh, cos_2a. 
      replace (2 * s * (1 - s))%R with (2 * s * (1 - s) * (sin q * sin q + cos q * cos q))%R at 2 by (rewrite P; ring). ring. }
    assert (S' : (w * sin al = (2 * s - 1) * sin h)%R) by (rewrite S, Eh, sin_2a; ring).
    transitivity (w * g ctr + r * (cos m * (w * cos al) - sin m * (w * sin al)) * g u + r * (sin m * (w * cos al) + cos m * (w * sin al)) * g v)%R; [|ring].
    rewrite C', S', Ew. field. split; [exact Hh|]. rewrite <- Ew. exact Hw. }
  assert (E := conj (G gx (fun _ _ => eq_refl) (fun _ _ => eq_refl)) (conj (G gy (fun _ _ => eq_refl) (fun _ _ => eq_refl)) (G gz (fun _ _ => eq_refl) (fun _ _ => eq_refl)))).
  destruct E as (E1 & E2 & E3). clear -E1 E2 E3. destruct x as [a b c], (circle_at ctr u v r (m + al)) as [a' b' c']. cbn in *. subst. reflexivity.
Qed.
End Frame.

(** * The knots of an arc *)
Definition Karc (n : Z) : list R :=
  if n =? 1 then [0; 0; 0; 1; 1; 1]%R else
  if n =? 2 then [0; 0; 0; 1 / 2; 1 / 2; 1; 1; 1]%R else
  if n =? 3 then [0; 0; 0; 1 / 3; 1 / 3; 2 / 3; 2 / 3; 1; 1; 1]%R else
  [0; 0; 0; 1 / 4; 1 / 4; 1 / 2; 1 / 2; 3 / 4; 3 / 4; 1; 1; 1]%R.

Lemma four n : 1 <= n <= 4 -> n = 1 \/ n = 2 \/ n = 3 \/ n = 4.
Proof. lia. Qed.

Lemma arc_knots_ok n : 1 <= n <= 4 -> bind (mkvec (2 * n + 2 + 1 + 1) 0%R) (fun k => arc_knots n k) = Ok (Karc n).
Proof.
  intros H. destruct (four n H) as [->|[->|[->| ->]]]; try reflexivity.
  unfold arc_knots. cbn -[Rdiv_]. num. rewrite !Rdiv_ok by lra. reflexivity.
Qed.

Lemma Karc_val n j : 1 <= n <= 4 -> 0 <= j < n ->
  val (Karc n) (2 * j + 1) = (IZR j / IZR n)%R /\ val (Karc n) (2 * j + 2) = (IZR j / IZR n)%R /\
  val (Karc n) (2 * j + 3) = (IZR (j + 1) / IZR n)%R /\ val (Karc n) (2 * j + 4) = (IZR (j + 1) / IZR n)%R.
Proof.
  intros H Hj. destruct (four n H) as [->|[->|[->| ->]]];
  assert (Hc : j = 0 \/ j = 1 \/ j = 2 \/ j = 3) by lia; destruct Hc as [->|[->|[->| ->]]]; try lia; 
  lazy [val Karc at_ Z.eqb Pos.eqb nth Z.to_nat Pos.to_nat Pos.iter_op Nat.add Z.add Z.mul Pos.add Pos.mul Pos.succ]; repeat split; field.
Qed.

Lemma Karc_ok n : 1 <= n <= 4 -> curve_knots 2 (2 * n) (Karc n).
Proof.
  intros H. pose proof (tol_le 0 1 1 ltac:(rewrite Rabs_R0; lra) ltac:(rewrite Rabs_R1; lra)) as T1.
  assert (T : forall a b, (0 <= a <= 1 -> 0 <= b <= 1 -> tol a b <= 1 / 500000)%R).
  { intros a b Ha Hb. eapply Rle_trans; [apply (tol_le a b 1); rewrite Rabs_pos_eq; lra|lra]. }
  destruct (four n H) as [->|[->|[->| ->]]]; (split; [lia|lia|reflexivity|unfold Karc; cbn [Z.eqb Pos.eqb]; sorted_tac| |]);
  lazy [val Karc at_ Z.eqb Pos.eqb nth Z.to_nat Pos.to_nat Pos.iter_op Nat.add Z.add Z.mul Pos.add Pos.mul Pos.succ]; match goal with |- context [tol ?a ?b] => pose proof (T a b ltac:(lra) ltac:(lra)); lra end.
Qed.

Lemma rsum3 k f : rsum (k - 2) (k + 1) f = (f (k - 2)%Z + f (k - 1)%Z + f k)%R.
Proof.
  replace (k + 1) with (k - 2 + 1 + 1 + 1) by lia. rewrite !rsum_last by lia. rewrite rsum_nil by lia.
  replace (k - 2 + 1) with (k - 1) by lia. replace (k - 1 + 1) with k by lia. ring.
Qed.

(** * A quadratic span with double knots at both ends *)
Section Quad.
Context {T : Type} {V : Vec R T} {L : VecL T}.
Lemma quad_span U (H : list T) k a b t c : val U (k - 1) = a -> val U k = a -> val U (k + 1) = b -> val U (k + 2) = b -> a <> b ->
  let s := ((t - a) / (b - a))%R in
  co c (span_curve k 2 U H t) = ((1 - s) * (1 - s) * co c (pt H (k - 2)) + 2 * s * (1 - s) * co c (pt H (k - 1)) + s * s * co c (pt H k))%R.
Proof.
  intros E1 E2 E3 E4 Hab s. unfold span_curve. rewrite co_comb.
  rewrite rsum3.
  assert (Hd : (b - a <> 0)%R) by lra.
  change (Z.to_nat 2) with 2%nat. unfold Nspan. cbn [Nrec]. change (Z.of_nat 2) with 2. change (Z.of_nat 1) with 1.
  replace (k - 2 =? k) with false by (symmetry; apply Z.eqb_neq; lia). replace (k - 2 + 1 =? k) with false by (symmetry; apply Z.eqb_neq; lia).
  replace (k - 2 + 1 + 1 =? k) with true by (symmetry; apply Z.eqb_eq; lia).
  replace (k - 1 =? k) with false by (symmetry; apply Z.eqb_neq; lia). replace (k - 1 + 1 =? k) with true by (symmetry; apply Z.eqb_eq; lia).
  replace (k - 1 + 1 + 1 =? k) with false by (symmetry; apply Z.eqb_neq; lia).
  replace (k =? k) with true by (symmetry; apply Z.eqb_eq; lia). replace (k + 1 =? k) with false by (symmetry; apply Z.eqb_neq; lia). replace (k + 1 + 1 =? k) with false by (symmetry; apply Z.eqb_neq; lia).
  replace (k - 2 + 2 + 1) with (k + 1) by lia. replace (k - 2 + 2) with k by lia. replace (k - 2 + 1 + 1 + 1) with (k + 1) by lia. replace (k - 2 + 1 + 1) with k by lia. replace (k - 2 + 1) with (k - 1) by lia.
  replace (k - 1 + 2 + 1) with (k + 2) by lia. replace (k - 1 + 2) with (k + 1) by lia. replace (k - 1 + 1 + 1 + 1) with (k + 2) by lia. replace (k - 1 + 1 + 1) with (k + 1) by lia. replace (k - 1 + 1) with k by lia.
  replace (k + 1 + 1) with (k + 2) by lia. rewrite E1, E2, E3, E4. unfold sdiv. rewrite !Rmult_0_r, !Rmult_1_r.
  destruct (Req_EM_T (b - a) 0) as [?|_]; [contradiction|]. unfold s. 
  repeat match goal with |- context [if Req_EM_T ?x 0 then _ else _] => destruct (Req_EM_T x 0) end; field; repeat split; assumption.
Qed.
End Quad.

(** * The curve built by CreateArc *)
Section Arc.
Variables (ctr u v : XYZ R) (r start h : R) (n : Z).
Hypothesis Hu : dot3 u u = 1%R.
Hypothesis Hv : dot3 v v = 1%R.
Hypothesis Huv : dot3 u v = 0%R.
Hypothesis Hn : 1 <= n <= 4.
Hypothesis Hh : (0 < h < PI / 3)%R.
Hypothesis Hc : (1 / 2 < cos h)%R.
Hypothesis Hs : ~ small (sin (2 * h) * sin (2 * h)).

Definition actl (k : Z) : XYZW R :=
  if Z.even k then mkW (circle_at ctr u v r (start + IZR k * h)) 1%R
  else mkW (circle_at ctr u v (r / cos h) (start + IZR k * h)) (cos h).

Lemma even_2 i : Z.even (2 * i) = true.
Proof. rewrite Z.even_mul. reflexivity. Qed.
Lemma even_21 i : Z.even (2 * i + 1) = false.
Proof. rewrite Z.even_add, even_2. reflexivity. Qed.

Lemma arc_loop cp : arrD cp (2 * n + 1) (fun k => k = 0) actl ->
  wp (for_upc 1 (n + 1) (cp, 0%Z, start, ellipse_at ctr u v r r start, tangent_at u v start)
   (fun i '(controlPoints, index, angle, P0, T0) =>
    let angle := (angle + 2 * h)%R in
    let P2 := ellipse_at ctr u v r r angle in
    let! controlPoints := upd controlPoints (index + 2)%Z (mkW P2 1%R) in
    let T2 := tangent_at u v angle in
    let! rr := ComputeRays P0 T0 P2 T2 0%R 0%R xyz0 in
    let '(type, _, _, P1) := rr in
    match type with
    | Intersecting =>
        let! controlPoints := upd controlPoints (index + 1)%Z (mkW P1 (cos h)) in
        let index := (index + 2)%Z in
        if (i <? n)%Z then Ok (Next (controlPoints, index, angle, P2, T2))
        else Ok (Next (controlPoints, index, angle, P0, T0))
    | _ => Ok (Stop tt)
    end)) (fun c : ctl (list (XYZW R) * Z * R * XYZ R * XYZ R) unit => match c with Next (cp', a, b, d, e) => arr cp' (2 * n + 1) actl | Stop _ => False end).
Proof.
  intros Hcp.
  apply wp_for_upc with (F := fun _ => False) (P := fun i '(cp, index, angle, P0, T0) =>
    arrD cp (2 * n + 1) (fun k => k <= 2 * (i - 1)) actl /\ index = 2 * (i - 1) /\ angle = (start + IZR (2 * (i - 1)) * h)%R /\
    (i <= n -> P0 = ellipse_at ctr u v r r angle /\ T0 = tangent_at u v angle)).
  - split; [|split; [lia|split; [|auto]]].
    + eapply arrD_ext; [exact Hcp|]. cbv beta. intros k Hk H. split; [lia|reflexivity].
    + cbn. ring.
  - intros i [[[[cp' index] angle] P0] T0] Hi (Ha & -> & -> & HP). destruct (HP ltac:(lia)) as [-> ->]. clear HP. 
    assert (Ean : (start + IZR (2 * (i - 1)) * h + 2 * h = start + IZR (2 * i) * h)%R) by (rewrite !mult_IZR, minus_IZR; ring).
    cbv zeta. rewrite !ellipse_circle, !tangent_tang. pose proof (arc_rays ctr u v r Hu Hv Huv (start + IZR (2 * (i - 1)) * h) h ltac:(lra) Hs) as HR.
    apply wp_bind. eapply arrD_set with (D' := fun k => k <= 2 * (i - 1) \/ k = 2 * i); [exact Ha|lia| | |].
    + replace (2 * (i - 1) + 2) with (2 * i) by lia. unfold actl. rewrite even_2. rewrite Ean. reflexivity.
    + cbv beta. intros j Hj [H|H]; first [left; lia|right; lia].
    + intros cp1 H1. rewrite HR. cbn [bind].
      apply wp_bind. eapply arrD_set with (D' := fun k => k <= 2 * (i + 1 - 1)); [exact H1|lia| | |].
      * replace (2 * (i - 1) + 1) with (2 * (i - 1) + 1) by lia. unfold actl. rewrite even_21. rewrite !plus_IZR.
        f_equal. f_equal. ring.
      * cbv beta. intros j Hj H. destruct (Z.eq_dec j (2 * (i - 1) + 1)); [auto|right; lia].
      * intros cp2 H2. rewrite Ean. destruct (i <? n) eqn:E; cbn [wp].
        -- split; [exact H2|]. split; [lia|]. split; [f_equal; f_equal; f_equal; lia|]. intros _. rewrite !ellipse_circle, !tangent_tang. auto.
        -- apply Z.ltb_ge in E. split; [exact H2|]. split; [lia|]. split; [f_equal; f_equal; f_equal; lia|]. lia.
  - intros [[[[cp' index] angle] P0] T0]. rewrite Z.max_r by lia. intros (H & _).
    eapply arr_of_arrD; [exact H|]. cbv beta. intros; lia.
  - tauto.
Qed.

Lemma arc_on_span H j t : arr H (2 * n + 1) actl -> 0 <= j < n -> (IZR j <= t * IZR n)%R -> (t * IZR n < IZR (j + 1))%R \/ (j = n - 1 /\ t = 1%R) ->
  NurbsPoint (mkCurve 2 (Karc n) H) t = Ok (circle_at ctr u v r (arc_angle (start + IZR (2 * j + 1) * h) h (t * IZR n - IZR j))).
Proof.
  intros HH Hj Ht1 Ht2. assert (Hn0 : (0 < IZR n)%R) by (apply IZR_lt; lia). pose proof (Karc_ok n Hn) as CK.
  destruct (Karc_val n j Hn Hj) as (V1 & V2 & V3 & V4).
  assert (Hab : (IZR j / IZR n < IZR (j + 1) / IZR n)%R) by (apply Rmult_lt_compat_r; [apply Rinv_0_lt_compat; lra|apply IZR_lt; lia]).
  assert (SP : span_of 2 (2 * n) (Karc n) t (2 * j + 2)).
  { split; [lia|]. replace (2 * j + 2 + 1) with (2 * j + 3) by lia. rewrite V2, V3. split; [exact Hab|]. split.
    - apply Rmult_le_reg_r with (IZR n); [exact Hn0|]. unfold Rdiv. rewrite Rmult_assoc, Rinv_l by lra. lra.
    - destruct Ht2 as [H2|[-> ->]].
      + left. apply Rmult_lt_reg_r with (IZR n); [exact Hn0|]. unfold Rdiv. rewrite Rmult_assoc, Rinv_l by lra. lra.
      + right. split; [lia|]. replace (2 * n + 1) with (2 * (n - 1) + 3) by lia. rewrite V3. replace (n - 1 + 1) with n by lia. field. lra. }
  rewrite (NurbsPoint_ok 2 (2 * n)); [|exact CK|lia|exact (arr_len _ _ _ HH)|exact (span_of_dom _ _ _ _ _ CK SP)].
  rewrite (curve_point_span 2 (2 * n) _ _ _ _ CK SP).
  set (s := (t * IZR n - IZR j)%R). assert (Es : ((t - IZR j / IZR n) / (IZR (j + 1) / IZR n - IZR j / IZR n) = s)%R).
  { unfold s. rewrite plus_IZR. field. lra. }
  assert (Q : forall c, co c (span_curve (2 * j + 2) 2 (Karc n) H t) =
     ((1 - s) * (1 - s) * co c (actl (2 * j)) + 2 * s * (1 - s) * co c (actl (2 * j + 1)) + s * s * co c (actl (2 * j + 2)))%R).
  { intros c. rewrite (quad_span _ _ _ (IZR j / IZR n) (IZR (j + 1) / IZR n)) by (first [lra|exact V2|rewrite <- V1; f_equal; lia|rewrite <- V3; f_equal; lia|rewrite <- V4; f_equal; lia]).
    rewrite Es. unfold pt. rewrite !(arr_at_eq _ _ _ _ _ HH) by lia. replace (2 * j + 2 - 2) with (2 * j) by lia. replace (2 * j + 2 - 1) with (2 * j + 1) by lia. reflexivity. }
  set (S := span_curve (2 * j + 2) 2 (Karc n) H t) in *.
  assert (E0 := Q 0%nat). assert (E1 := Q 1%nat). assert (E2 := Q 2%nat). assert (E3 := Q 3%nat). clear Q.
  assert (A0 : actl (2 * j) = mkW (circle_at ctr u v r (start + IZR (2 * j + 1) * h - h)) 1%R).
  { unfold actl. rewrite even_2. f_equal. f_equal. rewrite plus_IZR. ring. }
  assert (A1 : actl (2 * j + 1) = mkW (circle_at ctr u v (r / cos h) (start + IZR (2 * j + 1) * h)) (cos h)).
  { unfold actl. rewrite even_21. reflexivity. }
  assert (A2 : actl (2 * j + 2) = mkW (circle_at ctr u v r (start + IZR (2 * j + 1) * h + h)) 1%R).
  { unfold actl. replace (2 * j + 2) with (2 * (j + 1)) by lia. rewrite even_2. f_equal. f_equal. replace (2 * (j + 1)) with (2 * j + 1 + 1) by lia. rewrite (plus_IZR (2 * j + 1) 1). ring. }
  rewrite A0, A1, A2 in E0, E1, E2, E3. clear A0 A1 A2.
  set (m := (start + IZR (2 * j + 1) * h)%R) in *.
  cbn [co VecL_XYZW co_xyzw] in E0, E1, E2, E3. unfold mkW in E0, E1, E2, E3. num. cbn [wx wy wz ww] in E0, E1, E2, E3.
  assert (Hs01 : (0 <= s <= 1)%R).
  { unfold s. rewrite plus_IZR in Ht2. destruct Ht2 as [?|[-> ->]]; [lra|]. rewrite minus_IZR. lra. }
  assert (Hw : (1 / 2 <= ww S)%R). { rewrite E3. assert (0 <= 2 * s * (1 - s) * (cos h - 1 / 2))%R by (apply Rmult_le_pos; [|lra]; apply Rmult_le_pos; lra). nra. }
  rewrite ToXYZ_div.
  2:{ apply heavy_aeq, heavy_iff. lra. }
  f_equal. apply (arc_point ctr u v r m h s (ww S)).
  - lra.
  - assert (0 < cos (h / 2))%R by (apply cos_gt_0; lra). lra.
  - rewrite E3. ring.
  - lra.
  - intros g Gp Gt. 
    assert (Gx : forall y : XYZ R, y = plus3 (times3 (gx y) (mkXYZ 1 0 0)%R) (plus3 (times3 (gy y) (mkXYZ 0 1 0)%R) (times3 (gz y) (mkXYZ 0 0 1)%R))).
    { clear. intros [a b c]. v3. apply xyz_eq; ring. }
    rewrite (Gx (mkXYZ _ _ _)), (Gx (circle_at ctr u v r (m - h))), (Gx (circle_at ctr u v (r / cos h) m)), (Gx (circle_at ctr u v r (m + h))).
    rewrite !Gp, !Gt. cbn [gx gy gz]. rewrite E0, E1, E2. field. lra.
Qed.
End Arc.

(** * The angle as a function of the parameter *)
Lemma arc_angle_0 m h : (0 < h < PI)%R -> arc_angle m h 0 = (m - h)%R.
Proof.
  intros H. unfold arc_angle. replace ((2 * 0 - 1) * tan (h / 2))%R with (- tan (h / 2))%R by ring.
  rewrite atan_opp, atan_tan by lra. field.
Qed.
Lemma arc_angle_1 m h : (0 < h < PI)%R -> arc_angle m h 1 = (m + h)%R.
Proof.
  intros H. unfold arc_angle. replace ((2 * 1 - 1) * tan (h / 2))%R with (tan (h / 2))%R by ring. rewrite atan_tan by lra. field.
Qed.
Lemma arc_angle_incr m h s s' : (0 < h < PI)%R -> (s < s')%R -> (arc_angle m h s < arc_angle m h s')%R.
Proof.
  intros H Hs. unfold arc_angle. assert (0 < tan (h / 2))%R by (apply tan_gt_0; lra).
  assert (atan ((2 * s - 1) * tan (h / 2)) < atan ((2 * s' - 1) * tan (h / 2)))%R; [|lra].
  apply atan_increasing. apply Rmult_lt_compat_r; lra.
Qed.
Lemma arc_angle_onto m h a : (0 < h < PI)%R -> (m - h <= a <= m + h)%R -> exists s, (0 <= s <= 1)%R /\ arc_angle m h s = a.
Proof.
  intros H Ha. assert (Ht : (0 < tan (h / 2))%R) by (apply tan_gt_0; lra).
  exists ((1 + tan ((a - m) / 2) / tan (h / 2)) / 2)%R.
  assert (E : arc_angle m h ((1 + tan ((a - m) / 2) / tan (h / 2)) / 2) = a).
  { unfold arc_angle. replace ((2 * ((1 + tan ((a - m) / 2) / tan (h / 2)) / 2) - 1) * tan (h / 2))%R with (tan ((a - m) / 2))%R by (field; lra).
    rewrite atan_tan by lra. field. }
  split; [|exact E]. set (s := ((1 + tan ((a - m) / 2) / tan (h / 2)) / 2)%R) in *. split.
  - destruct (Rle_dec 0 s) as [L|L]; [exact L|]. exfalso. pose proof (arc_angle_incr m h s 0 H ltac:(lra)). rewrite arc_angle_0 in * by assumption. lra.
  - destruct (Rle_dec s 1) as [L|L]; [exact L|]. exfalso. pose proof (arc_angle_incr m h 1 s H ltac:(lra)). rewrite arc_angle_1 in * by assumption. lra.
Qed.

Section Angle.
Variables (start h : R) (n : Z).
Hypothesis Hn : 1 <= n.
Hypothesis Hh : (0 < h < PI)%R.
Definition piece (t : R) : Z := Z.min (n - 1) (Int_part (t * IZR n)).
Definition turn (t : R) : R := arc_angle (start + IZR (2 * piece t + 1) * h) h (t * IZR n - IZR (piece t)).

Lemma floor_low x : (IZR (Int_part x) <= x < IZR (Int_part x + 1))%R.
Proof. destruct (base_Int_part x). rewrite plus_IZR. lra. Qed.

Lemma piece_ok t : (0 <= t <= 1)%R -> 0 <= piece t < n /\ (IZR (piece t) <= t * IZR n)%R /\
  ((t * IZR n < IZR (piece t + 1))%R \/ (piece t = n - 1 /\ t = 1%R)).
Proof.
  intros Ht. assert (Hn0 : (0 < IZR n)%R) by (apply IZR_lt; lia). destruct (floor_low (t * IZR n)) as [F1 F2].
  assert (0 <= Int_part (t * IZR n)). { apply Z.lt_succ_r. apply lt_IZR. unfold Z.succ. apply Rle_lt_trans with (t * IZR n)%R; [|exact F2]. apply Rmult_le_pos; lra. }
  unfold piece. destruct (Z.min_spec (n - 1) (Int_part (t * IZR n))) as [[C ->]|[C ->]].
  - assert (t = 1%R). { assert (IZR n <= IZR (Int_part (t * IZR n)))%R by (apply IZR_le; lia). apply Rle_antisym; [tauto|]. apply Rmult_le_reg_r with (IZR n); lra. }
    subst t. split; [lia|]. split; [apply Rle_trans with (IZR n); [apply IZR_le; lia|lra]|]. right. auto.
  - split; [lia|]. auto.
Qed.

Lemma turn_0 : turn 0 = start.
Proof.
  assert (piece 0 = 0). { destruct (piece_ok 0 ltac:(lra)) as (P1 & P2 & _). rewrite Rmult_0_l in P2. apply (le_IZR _ 0) in P2. lia. }
  unfold turn. rewrite H. replace (0 * IZR n - IZR 0)%R with 0%R by ring. rewrite arc_angle_0 by exact Hh. cbn. ring.
Qed.
Lemma turn_1 : turn 1 = (start + IZR n * (2 * h))%R.
Proof.
  assert (piece 1 = n - 1). { unfold piece. rewrite Rmult_1_l. destruct (floor_low (IZR n)) as [_ F]. apply lt_IZR in F. lia. }
  unfold turn. rewrite H. replace (1 * IZR n - IZR (n - 1))%R with 1%R by (rewrite minus_IZR; ring). rewrite arc_angle_1 by exact Hh.
  rewrite plus_IZR, mult_IZR, minus_IZR. ring.
Qed.
Lemma turn_incr s t : (0 <= s)%R -> (s < t)%R -> (t <= 1)%R -> (turn s < turn t)%R.
Proof.
  intros H0 H1 H2. assert (Hn0 : (0 < IZR n)%R) by (apply IZR_lt; lia).
  destruct (piece_ok s ltac:(lra)) as (A1 & A2 & A3), (piece_ok t ltac:(lra)) as (B1 & B2 & B3). destruct A3 as [A3|[_ A3]]; [|lra].
  assert (Hst : (s * IZR n < t * IZR n)%R) by (apply Rmult_lt_compat_r; lra).
  assert (piece s <= piece t).
  { destruct B3 as [B3|[-> _]]; [|lia]. assert (IZR (piece s) < IZR (piece t + 1))%R by lra. apply lt_IZR in H. lia. }
  unfold turn. destruct (Z.eq_dec (piece s) (piece t)) as [E|E].
  - rewrite E. apply arc_angle_incr; [exact Hh|lra].
  - apply Rlt_le_trans with (arc_angle (start + IZR (2 * piece s + 1) * h) h 1).
    { apply arc_angle_incr; [exact Hh|]. rewrite plus_IZR in A3. lra. }
    apply Rle_trans with (arc_angle (start + IZR (2 * piece t + 1) * h) h 0).
    + rewrite arc_angle_0, arc_angle_1 by exact Hh. assert (IZR (2 * piece s + 2) <= IZR (2 * piece t))%R by (apply IZR_le; lia).
      rewrite !plus_IZR in *. assert ((IZR (2 * piece s) + 2) * h <= IZR (2 * piece t) * h)%R by (apply Rmult_le_compat_r; lra). lra.
    + destruct (Req_dec (t * IZR n - IZR (piece t)) 0) as [->|]; [lra|]. left. apply arc_angle_incr; [exact Hh|lra].
Qed.
Lemma turn_onto a : (start <= a <= start + IZR n * (2 * h))%R -> exists t, (0 <= t <= 1)%R /\ turn t = a.
Proof.
  intros Ha. assert (Hn0 : (0 < IZR n)%R) by (apply IZR_lt; lia).
  destruct (Req_dec a (start + IZR n * (2 * h))) as [->|Hne]; [exists 1%R; split; [lra|apply turn_1]|].
  set (x := ((a - start) / (2 * h))%R). set (j := Int_part x). destruct (floor_low x) as [F1 F2]. fold j in F1, F2.
  assert (Ea : (a = start + x * (2 * h))%R) by (unfold x; field; lra).
  assert (Hx : (0 <= x < IZR n)%R).
  { split; [apply Rmult_le_reg_r with (2 * h)%R; lra|apply Rmult_lt_reg_r with (2 * h)%R; lra]. }
  assert (Hj : 0 <= j < n). { split; [apply Z.lt_succ_r; apply lt_IZR; unfold Z.succ; lra|apply lt_IZR; lra]. }
  assert (Hb : (IZR j * (2 * h) <= x * (2 * h) < IZR (j + 1) * (2 * h))%R).
  { split; [apply Rmult_le_compat_r; lra|apply Rmult_lt_compat_r; lra]. }
  destruct (arc_angle_onto (start + IZR (2 * j + 1) * h) h a Hh) as (s & Hs & Es).
  { rewrite !plus_IZR, ?mult_IZR in *. lra. }
  assert (Hs1 : (s < 1)%R).
  { destruct (Rlt_dec s 1) as [?|C]; [assumption|]. exfalso. assert (s = 1)%R by lra. subst s. rewrite arc_angle_1 in Es by exact Hh. rewrite !plus_IZR, ?mult_IZR in *. lra. }
  set (t := ((IZR j + s) / IZR n)%R). assert (Et : (t * IZR n = IZR j + s)%R) by (unfold t; field; lra).
  assert (Ht : (0 <= t <= 1)%R).
  { assert (0 <= IZR j)%R by (apply IZR_le; lia). assert (IZR j + 1 <= IZR n)%R by (rewrite <- plus_IZR; apply IZR_le; lia).
    split; (apply Rmult_le_reg_r with (IZR n); [exact Hn0|]); lra. }
  exists t. split; [exact Ht|]. assert (piece t = j).
  { unfold piece. assert (Int_part (t * IZR n) = j); [|lia]. destruct (floor_low (t * IZR n)) as [G1 G2].
    assert (IZR (Int_part (t * IZR n)) < IZR (j + 1))%R by (rewrite plus_IZR; lra). assert (IZR j < IZR (Int_part (t * IZR n) + 1))%R by lra.
    apply lt_IZR in H, H0. lia. }
  unfold turn. rewrite H, Et. replace (IZR j + s - IZR j)%R with s by ring. exact Es.
Qed.
End Angle.

(** * CreateArc *)
Lemma IsZero_false (a : XYZ R) : (1 / 10 ^ 12 < dot3 a a)%R -> IsZero a = false.
Proof.
  intros H. unfold IsZero, IsZero_eps. num. change (SqrLength a) with (dot3 a a).
  replace (DoubleEpsilon * DoubleEpsilon)%R with (1 / 10 ^ 12)%R by (unfold DoubleEpsilon; num; field). destruct (Rleb_spec (dot3 a a) (1 / 10 ^ 12)); [lra|reflexivity].
Qed.

Lemma Normalize_direction a u : direction_of a u -> Normalize a = Ok u.
Proof.
  intros (Hu & k & Hk & ->). assert (Hz : times3 k u <> zero3).
  { intros E. assert (D : dot3 (times3 k u) (times3 k u) = 0%R) by (rewrite E; unfold dot3, zero3; cbn; ring).
    replace (dot3 (times3 k u) (times3 k u)) with (k * k * dot3 u u)%R in D by (clear; destruct u; v3; ring). rewrite Hu in D. nra. }
  destruct (Normalize_dir _ Hz) as (w & E & Hw & k' & Hk' & Ew). rewrite E. f_equal.
  assert (D : (k * k = k' * k')%R).
  { transitivity (dot3 (times3 k u) (times3 k u)).
    - replace (dot3 (times3 k u) (times3 k u)) with (k * k * dot3 u u)%R by (clear; destruct u; v3; ring). rewrite Hu. ring.
    - rewrite Ew. replace (dot3 (times3 k' w) (times3 k' w)) with (k' * k' * dot3 w w)%R by (clear; destruct w; v3; ring). rewrite Hw. ring. }
  assert (k = k') by nra. subst k'. clear -Ew Hk. destruct u as [u1 u2 u3], w as [w1 w2 w3]. unfold times3 in Ew. cbn [gx gy gz] in Ew. injection Ew. intros.
  apply xyz_eq; apply (Rmult_eq_reg_l k); lra.
Qed.

(* the number of pieces for the angle th *)
Definition pieces (th : R) : Z :=
  if IsLessThanOrEqual th (PI / 2)%R then 1 else if IsLessThanOrEqual th PI then 2 else if IsLessThanOrEqual th (3 * PI / 2)%R then 3 else 4.

Lemma pieces_ok th : (1 / 500 <= th <= 2 * PI)%R -> 1 <= pieces th <= 4 /\ (1 / 500 <= th / IZR (pieces th) <= PI / 2 + 1 / 10)%R.
Proof.
  intros H. pose proof PI2_1. pose proof PI_4.
  assert (T : forall b, (0 <= b <= 8)%R -> (0 < thr eps th b <= 1 / 100000)%R).
  { intros b Hb. unfold thr, eps. rewrite (Rabs_pos_eq th), (Rabs_pos_eq b) by lra. pose proof (Rmax_l th b). assert (Rmax th b <= 8)%R by (apply Rmax_lub; lra). lra. }
  unfold pieces. pose proof (T (PI / 2)%R ltac:(lra)). pose proof (T PI ltac:(lra)). pose proof (T (3 * PI / 2)%R ltac:(lra)).
  destruct (IsLessThanOrEqual th (PI / 2)%R) eqn:E1; [apply le_iff in E1; split; [lia|]; lra|apply le_false in E1].
  destruct (IsLessThanOrEqual th PI) eqn:E2; [apply le_iff in E2; split; [lia|]; lra|apply le_false in E2].
  destruct (IsLessThanOrEqual th (3 * PI / 2)%R) eqn:E3; [apply le_iff in E3; split; [lia|]; lra|apply le_false in E3].
  split; [lia|]; lra.
Qed.

(* what CreateArc does once its arguments are accepted *)
Lemma CreateArc_start ctr xAxis yAxis u v a b xr yr : direction_of xAxis u -> direction_of yAxis v ->
  (1 / 10 ^ 12 < dot3 xAxis xAxis)%R -> (1 / 10 ^ 12 < dot3 yAxis yAxis)%R ->
  (tol b a < b - a)%R -> (b - a <= 2 * PI)%R -> (tol xr 0 < xr)%R -> (tol yr 0 < yr)%R ->
  let n := pieces (b - a) in let h := ((b - a) / IZR n / 2)%R in
  CreateArc ctr xAxis yAxis a b xr yr =
   let! knotVector := mkvec (2 * n + 2 + 1 + 1) 0%R in
   let! controlPoints := mkvec (2 * n + 1) xyzw0 in
   let! controlPoints := upd controlPoints 0 (mkW (ellipse_at ctr u v xr yr a) 1%R) in
   let! c := for_upc 1 (n + 1) (controlPoints, 0%Z, a, ellipse_at ctr u v xr yr a, tangent_at u v a) (fun i '(controlPoints, index, angle, P0, T0) =>
    let angle := (angle + 2 * h)%R in
    let P2 := ellipse_at ctr u v xr yr angle in
    let! controlPoints := upd controlPoints (index + 2)%Z (mkW P2 1%R) in
    let T2 := tangent_at u v angle in
    let! r := ComputeRays P0 T0 P2 T2 0%R 0%R xyz0 in
    let '(type, _, _, P1) := r in
    match type with
    | Intersecting =>
        let! controlPoints := upd controlPoints (index + 1)%Z (mkW P1 (cos h)) in
        let index := (index + 2)%Z in
        if (i <? n)%Z then Ok (Next (controlPoints, index, angle, P2, T2))
        else Ok (Next (controlPoints, index, angle, P0, T0))
    | _ => Ok (Stop tt)
    end) in
   match c with
   | Stop _ => Ok None
   | Next (controlPoints, _, _, _, _) =>
      let! knotVector := arc_knots n knotVector in
      Ok (Some (mkCurve 2 knotVector controlPoints))
   end.
Proof.
  intros Dx Dy Zx Zy Hab Hpi Hx Hy n h. unfold CreateArc. rewrite (IsZero_false _ Zx), (IsZero_false _ Zy). cbn [negb validate bind].
  pose proof (tol_pos b a). pose proof PI2_1.
  assert (G1 : IsGreaterThan b a = true) by (apply gt_iff; rewrite <- tol_thr; lra). rewrite G1. cbn [validate bind]. num.
  assert (G2 : validate_range (b - a)%R 0%R (2 * PI)%R = Ok tt).
  { unfold validate_range. num. destruct (Rltb_spec (b - a) 0); [lra|]. destruct (Rltb_spec (2 * PI) (b - a)); [lra|]. reflexivity. }
  rewrite G2. cbn [bind].
  assert (G3 : IsGreaterThan xr 0%R = true) by (apply gt_iff; rewrite <- tol_thr; lra). rewrite G3.
  assert (G4 : IsGreaterThan yr 0%R = true) by (apply gt_iff; rewrite <- tol_thr; lra). rewrite G4. cbn [validate bind].
  rewrite !Rdiv_ok by lra. cbn [bind]. fold (pieces (b - a)). fold n.
  assert (Hn : (IZR n <> 0)%R). { unfold n, pieces. repeat match goal with |- context [if ?c then _ else _] => destruct c end; lra. }
  rewrite Rdiv_ok by exact Hn. cbn [bind].
  rewrite (Normalize_direction _ _ Dx), (Normalize_direction _ _ Dy).
  destruct (mkvec (2 * n + 2 + 1 + 1) 0%R) as [kv|]; cbn [bind]; try reflexivity.
  destruct (mkvec (2 * n + 1) xyzw0) as [cps|]; cbn [bind]; try reflexivity.
  rewrite Rdiv_ok by lra. cbn [bind]. fold h. replace ((b - a) / IZR n)%R with (2 * h)%R by (unfold h; field; exact Hn). reflexivity.
Qed.

Lemma small_sq x : (1 / 999 < x)%R -> ~ small (x * x).
Proof. intros H S. unfold small in S. rewrite Rabs_pos_eq in S by nra. nra. Qed.

Lemma Karc_check n (H : list (XYZW R)) : 1 <= n <= 4 -> len H = 2 * n + 1 -> NurbsCheck (mkCurve 2 (Karc n) H) = Ok tt.
Proof.
  intros Hn HH. destruct (Karc_ok n Hn) as [_ _ HL HS _ _]. unfold NurbsCheck. cbn [Degree KnotVector ControlPoints]. cbn [validate bind Z.ltb Z.compare].
  replace (0 <? len (Karc n)) with true by (symmetry; apply Z.ltb_lt; lia). cbn [validate bind].
  rewrite (proj2 (P_Span.IsValidKnotVector_sorted (Karc n)) HS). cbn [validate bind].
  replace (0 <? len H) with true by (symmetry; apply Z.ltb_lt; lia). cbn [validate bind].
  unfold IsValidNurbs. replace (_ =? _) with true; [reflexivity|]. symmetry. apply Z.eqb_eq. lia.
Qed.

Lemma CreateArc_full ctr xAxis yAxis u v a b r : direction_of xAxis u -> direction_of yAxis v -> dot3 xAxis yAxis = 0%R ->
  (1 / 10 ^ 12 < dot3 xAxis xAxis)%R -> (1 / 10 ^ 12 < dot3 yAxis yAxis)%R ->
  (tol b a < b - a)%R -> (1 / 500 <= b - a <= 2 * PI)%R -> (tol r 0 < r)%R ->
  exists n h H, CreateArc ctr xAxis yAxis a b r r = Ok (Some (mkCurve 2 (Karc n) H)) /\ arr H (2 * n + 1) (actl ctr u v r a h) /\
    1 <= n <= 4 /\ (0 < h < PI / 3)%R /\ (1 / 2 < cos h)%R /\ b = (a + IZR n * (2 * h))%R.
Proof.
  intros Dx Dy Ho Zx Zy Hab Hth Hr. destruct (pieces_ok (b - a) Hth) as [Hn Hd].
  pose proof (CreateArc_start ctr xAxis yAxis u v a b r r Dx Dy Zx Zy Hab ltac:(lra) Hr Hr) as E0.
  set (n := pieces (b - a)) in *. set (h := ((b - a) / IZR n / 2)%R) in *. cbv zeta in E0.
  replace ((b - a) / IZR n)%R with (2 * h)%R in Hd by (unfold h; field; apply not_0_IZR; lia).
  pose proof (sin_big (2 * h) Hd) as S1. pose proof (cos_half_big (2 * h) ltac:(lra)) as C1. replace (2 * h / 2)%R with h in C1 by field.
  pose proof PI2_1 as HPI. assert (Hh : (0 < h < PI / 3)%R) by lra. pose proof (small_sq _ S1) as S2.
  destruct Dx as (Hu & kx & Hkx & Ex), Dy as (Hv & ky & Hky & Ey).
  assert (Huv : dot3 u v = 0%R).
  { rewrite Ex, Ey in Ho. replace (dot3 (times3 kx u) (times3 ky v)) with (kx * ky * dot3 u v)%R in Ho by (clear; destruct u, v; v3; ring).
    assert (0 < kx * ky)%R by (apply Rmult_lt_0_compat; assumption). apply (Rmult_eq_reg_l (kx * ky)); lra. }
  assert (W : wp (CreateArc ctr xAxis yAxis a b r r) (fun o => exists H, o = Some (mkCurve 2 (Karc n) H) /\ arr H (2 * n + 1) (actl ctr u v r a h))).
  { rewrite E0. pose proof (arc_knots_ok n Hn) as AK. destruct (mkvec (2 * n + 2 + 1 + 1) 0%R) as [kv|]; [cbn [bind] in *|discriminate].
    apply wp_bind. apply wp_mkvec; [lia|]. intros cp0 Hcp0. apply wp_bind.
    eapply arrD_set with (D := fun _ => False) (f := actl ctr u v r a h) (D' := fun k => k = 0) (n := 2 * n + 1).
    - split; [exact (arr_len _ _ _ Hcp0)|tauto].
    - lia.
    - unfold actl. cbn [Z.even]. rewrite ellipse_circle. do 2 f_equal. ring.
    - cbv beta. intros j Hj H. tauto.
    - intros cp1 H1. apply wp_bind. eapply wp_mono; [apply (arc_loop ctr u v r a h n Hu Hv Huv Hn Hh C1 S2 cp1 H1)|].
      intros [[[[[cp2 x1] x2] x3] x4]|?]; [|tauto]. intros H2. rewrite AK. cbn [bind wp]. exists cp2. split; [reflexivity|exact H2]. }
  destruct (wp_elim _ _ W) as (o & E & H & -> & HH). exists n, h, H.
  split; [exact E|]. split; [exact HH|]. split; [exact Hn|]. split; [exact Hh|]. split; [exact C1|].
  unfold h; field; apply not_0_IZR; lia.
Qed.

Lemma CreateArc_ok ctr xAxis yAxis u v a b r : direction_of xAxis u -> direction_of yAxis v -> dot3 xAxis yAxis = 0%R ->
  (1 / 10 ^ 12 < dot3 xAxis xAxis)%R -> (1 / 10 ^ 12 < dot3 yAxis yAxis)%R ->
  (tol b a < b - a)%R -> (1 / 500 <= b - a <= 2 * PI)%R -> (tol r 0 < r)%R ->
  exists c phi, CreateArc ctr xAxis yAxis a b r r = Ok (Some c) /\ NurbsCheck c = Ok tt /\
    phi 0%R = a /\ phi 1%R = b /\ (forall s t, (0 <= s)%R -> (s < t)%R -> (t <= 1)%R -> (phi s < phi t)%R) /\
    (forall x, (a <= x <= b)%R -> exists t, (0 <= t <= 1)%R /\ phi t = x) /\
    (forall t, (0 <= t <= 1)%R -> NurbsPoint c t = Ok (circle_at ctr u v r (phi t))).
Proof.
  intros Dx Dy Ho Zx Zy Hab Hth Hr. destruct (CreateArc_full ctr xAxis yAxis u v a b r Dx Dy Ho Zx Zy Hab Hth Hr) as (n & h & H & -> & HH & Hn & Hh & C1 & Eb).
  pose proof PI2_1 as HPI. exists (mkCurve 2 (Karc n) H), (turn a h n).
  assert (HhP : (0 < h < PI)%R) by lra.
  split; [reflexivity|]. split; [apply Karc_check; [exact Hn|exact (arr_len _ _ _ HH)]|].
  split; [apply turn_0; [lia|exact HhP]|]. split; [rewrite turn_1 by (try lia; exact HhP); lra|].
  split; [intros; apply turn_incr; first [lia|lra|assumption]|].
  split; [intros x Hx; apply turn_onto; first [lia|lra|assumption]|].
  intros t Ht. destruct (piece_ok h n ltac:(lia) HhP t Ht) as (P1 & P2 & P3).
  rewrite (arc_on_span ctr u v r a h n) with (j := piece n t); auto; try lra.
Qed.

(* a single piece *)
Lemma arc_one ctr xAxis yAxis u v a b xr yr : direction_of xAxis u -> direction_of yAxis v ->
  (1 / 10 ^ 12 < dot3 xAxis xAxis)%R -> (1 / 10 ^ 12 < dot3 yAxis yAxis)%R ->
  (tol b a < b - a)%R -> (b - a <= PI / 2)%R -> (tol xr 0 < xr)%R -> (tol yr 0 < yr)%R ->
  CreateArc ctr xAxis yAxis a b xr yr =
   let! r := ComputeRays (ellipse_at ctr u v xr yr a) (tangent_at u v a) (ellipse_at ctr u v xr yr b) (tangent_at u v b) 0%R 0%R xyz0 in
    let '(type, _, _, P1) := r in
    match type with
    | Intersecting => Ok (Some (mkCurve 2 [0; 0; 0; 1; 1; 1]%R [mkW (ellipse_at ctr u v xr yr a) 1%R; mkW P1 (cos ((b - a) / 2)); mkW (ellipse_at ctr u v xr yr b) 1%R]))
    | _ => Ok None
    end.
Proof.
  intros Dx Dy Zx Zy Hab Hpi Hx Hy. pose proof PI2_1.
  pose proof (CreateArc_start ctr xAxis yAxis u v a b xr yr Dx Dy Zx Zy Hab ltac:(lra) Hx Hy) as E0. cbv zeta in E0.
  assert (Hn : pieces (b - a) = 1).
  { unfold pieces. assert (E : IsLessThanOrEqual (b - a)%R (PI / 2)%R = true); [|rewrite E; reflexivity]. apply le_iff. pose proof (tol_pos (b - a) (PI / 2)). rewrite <- tol_thr. lra. }
  rewrite Hn in E0. rewrite E0. clear E0. replace ((b - a) / 1 / 2)%R with ((b - a) / 2)%R by field.
  change (2 * 1 + 2 + 1 + 1) with 6. change (2 * 1 + 1) with 3. unfold for_upc. change (Z.to_nat (1 + 1 - 1)) with 1%nat. cbn [iter_upc].
  cbn [mkvec Z.ltb Z.compare bind Z.to_nat Pos.to_nat Pos.iter_op Nat.add repeat]. unfold upd at 1. cbn [bind].
  replace (a + 2 * ((b - a) / 2))%R with b by field. unfold mkvec. cbn -[ComputeRays mkW ellipse_at tangent_at cos arc_knots Rdiv Rminus].
  destruct (ComputeRays _ _ _ _ _ _ _) as [[[[[] x] y] P1]|]; cbn -[mkW ellipse_at tangent_at cos Rdiv Rminus]; reflexivity.
Qed.

(* short arcs are refused *)
Lemma short_refused ctr xAxis yAxis u v a b r : direction_of xAxis u -> direction_of yAxis v -> dot3 xAxis yAxis = 0%R ->
  (1 / 10 ^ 12 < dot3 xAxis xAxis)%R -> (1 / 10 ^ 12 < dot3 yAxis yAxis)%R ->
  (tol b a < b - a)%R -> (1 / 100000 <= b - a <= 1 / 1000)%R -> (tol r 0 < r)%R ->
  CreateArc ctr xAxis yAxis a b r r = Ok None.
Proof.
  intros Dx Dy Ho Zx Zy Hab Hth Hr. pose proof PI2_1. rewrite (arc_one ctr xAxis yAxis u v a b r r Dx Dy Zx Zy Hab) by (auto; lra).
  destruct Dx as (Hu & kx & Hkx & Ex), Dy as (Hv & ky & Hky & Ey).
  assert (Huv : dot3 u v = 0%R).
  { rewrite Ex, Ey in Ho. replace (dot3 (times3 kx u) (times3 ky v)) with (kx * ky * dot3 u v)%R in Ho by (clear; destruct u, v; v3; ring).
    assert (0 < kx * ky)%R by (apply Rmult_lt_0_compat; assumption). apply (Rmult_eq_reg_l (kx * ky)); lra. }
  rewrite !ellipse_circle, !tangent_tang.
  set (d := (b - a)%R) in *. assert (S0 : (0 <= sin d <= d)%R). { split; [apply sin_ge_0; lra|left; apply sin_lt_x; lra]. }
  assert (SM : small (gram (tang u v a) (tang u v b))).
  { rewrite tang_gram by assumption. fold d. unfold small. rewrite Rabs_pos_eq by (apply Rle_0_sqr). nra. }
  assert (NN : ~ (near (tang u v a) (tang u v b) /\ near (circle_at ctr u v r a) (circle_at ctr u v r b))).
  { intros [N _]. pose proof (near_dist _ _ (tang_unit u v Hu Hv Huv a) (tang_unit u v Hu Hv Huv b) N) as D.
    assert (E : dot3 (minus3 (tang u v a) (tang u v b)) (minus3 (tang u v a) (tang u v b)) = (2 - 2 * cos d)%R).
    { unfold d. rewrite <- (tang_dot u v Hu Hv Huv). transitivity (dot3 (tang u v a) (tang u v a) + dot3 (tang u v b) (tang u v b) - 2 * dot3 (tang u v a) (tang u v b))%R.
      - generalize (tang u v a), (tang u v b). clear. intros. d3. v3. ring.
      - rewrite !tang_unit by assumption. ring. }
    rewrite E in D. destruct (pre_sin_bound (d / 2) 0 ltac:(lra) ltac:(lra)) as [SB _]. cbn in SB. unfold sin_term in SB. cbn in SB.
    replace d with (2 * (d / 2))%R in D by field. rewrite cos_2a_sin in D. set (x := (d / 2)%R) in *. assert (1 / 200000 <= x <= 1 / 2000)%R by (unfold x; lra).
    assert (x * x * x <= 1 / 2000 * (1 / 2000) * x)%R by nra. assert (x * (9 / 10) <= sin x)%R by lra. nra. }
  assert (U1 : (1 / 10 ^ 12 < dot3 (tang u v a) (tang u v a))%R) by (rewrite tang_unit by assumption; lra).
  assert (U2 : (1 / 10 ^ 12 < dot3 (tang u v b) (tang u v b))%R) by (rewrite tang_unit by assumption; lra).
  destruct (ComputeRays_cases _ _ _ _ NN U1 U2 0 0 xyz0) as (R1 & R2 & _).
  destruct (small_dec (norm3 (cross3 (minus3 (circle_at ctr u v r b) (circle_at ctr u v r a)) (tang u v a)))) as [C|C].
  - rewrite (R1 SM C). reflexivity.
  - rewrite (R2 SM C). reflexivity.
Qed.
