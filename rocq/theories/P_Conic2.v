(* Ellipses and open conics. *)
From Coq Require Import ZArith List Bool Reals Lra Lia.
From Verif Require Import Base Num Vec Tac Spec Spec2 Spec3 M_MathUtils M_XYZ M_Bspline M_NurbsCurve M_Matrix M_Curve2 M_Geom M_Conic
  P_MathUtils P_Bern P_Cox P_Vec P_XYZ P_VSum P_Curve P_Bspline P_Nurbs P_Matrix P_Loop P_Geom P_Interp2 P_Conic.
Import ListNotations.
Open Scope Z_scope.

(* piece j of a curve on the knots of n arcs, at local parameter s = n t - j *)
Lemma piece_point n (H : list (XYZW R)) j t : 1 <= n <= 4 -> len H = 2 * n + 1 -> 0 <= j < n -> (IZR j <= t * IZR n)%R ->
  (t * IZR n < IZR (j + 1))%R \/ (j = n - 1 /\ t = 1%R) ->
  exists S, NurbsPoint (mkCurve 2 (Karc n) H) t = ToXYZ S true /\ let s := (t * IZR n - IZR j)%R in (0 <= s <= 1)%R /\
  forall c, co c S = ((1 - s) * (1 - s) * co c (pt H (2 * j)) + 2 * s * (1 - s) * co c (pt H (2 * j + 1)) + s * s * co c (pt H (2 * j + 2)))%R.
Proof.
  intros Hn HH Hj Ht1 Ht2. assert (Hn0 : (0 < IZR n)%R) by (apply IZR_lt; lia). pose proof (Karc_ok n Hn) as CK.
  destruct (Karc_val n j Hn Hj) as (V1 & V2 & V3 & V4).
  assert (Hab : (IZR j / IZR n < IZR (j + 1) / IZR n)%R) by (apply Rmult_lt_compat_r; [apply Rinv_0_lt_compat; lra|apply IZR_lt; lia]).
  assert (SP : span_of 2 (2 * n) (Karc n) t (2 * j + 2)).
  { split; [lia|]. replace (2 * j + 2 + 1) with (2 * j + 3) by lia. rewrite V2, V3. split; [exact Hab|]. split.
    - apply Rmult_le_reg_r with (IZR n); [exact Hn0|]. unfold Rdiv. rewrite Rmult_assoc, Rinv_l by lra. lra.
    - destruct Ht2 as [H2|[-> ->]].
      + left. apply Rmult_lt_reg_r with (IZR n); [exact Hn0|]. unfold Rdiv. rewrite Rmult_assoc, Rinv_l by lra. lra.
      + right. split; [lia|]. replace (2 * n + 1) with (2 * (n - 1) + 3) by lia. rewrite V3. replace (n - 1 + 1) with n by lia. field. lra. }
  exists (span_curve (2 * j + 2) 2 (Karc n) H t).
  rewrite (NurbsPoint_ok 2 (2 * n)); [|exact CK|lia|exact HH|exact (span_of_dom _ _ _ _ _ CK SP)].
  rewrite (curve_point_span 2 (2 * n) _ _ _ _ CK SP). split; [reflexivity|]. cbv zeta.
  set (s := (t * IZR n - IZR j)%R). assert (Es : ((t - IZR j / IZR n) / (IZR (j + 1) / IZR n - IZR j / IZR n) = s)%R).
  { unfold s. rewrite plus_IZR. field. lra. }
  split.
  { unfold s. rewrite plus_IZR in Ht2. destruct Ht2 as [?|[-> ->]]; [lra|]. rewrite minus_IZR. lra. }
  intros c. rewrite (quad_span _ _ _ (IZR j / IZR n) (IZR (j + 1) / IZR n)) by (first [lra|exact V2|rewrite <- V1; f_equal; lia|rewrite <- V3; f_equal; lia|rewrite <- V4; f_equal; lia]).
  rewrite Es. replace (2 * j + 2 - 2) with (2 * j) by lia. replace (2 * j + 2 - 1) with (2 * j + 1) by lia. reflexivity.
Qed.

(** * The corner of an elliptic arc is in the wrong place *)
Lemma ellipse_wrong : exists c Q, CreateArc zero3 (mkXYZ 1 0 0)%R (mkXYZ 0 1 0)%R (- (PI / 4))%R (PI / 4)%R 2%R 1%R = Ok (Some c) /\
  NurbsPoint c (1 / 2)%R = Ok Q /\ forall phi, Q <> mkXYZ (2 * cos phi)%R (1 * sin phi)%R 0%R.
Proof.
  pose proof PI2_1 as HP. pose proof PI_4 as HP4.
  assert (A : Rabs (- (PI / 4)) = (PI / 4)%R) by (rewrite Rabs_Ropp; apply Rabs_pos_eq; lra).
  assert (A' : Rabs (PI / 4) = (PI / 4)%R) by (apply Rabs_pos_eq; lra).
  assert (D1 : direction_of (mkXYZ 1 0 0)%R (mkXYZ 1 0 0)%R) by (split; [v3; ring|exists 1%R; split; [lra|v3; apply xyz_eq; ring]]).
  assert (D2 : direction_of (mkXYZ 0 1 0)%R (mkXYZ 0 1 0)%R) by (split; [v3; ring|exists 1%R; split; [lra|v3; apply xyz_eq; ring]]).
  rewrite (arc_one zero3 (mkXYZ 1 0 0)%R (mkXYZ 0 1 0)%R (mkXYZ 1 0 0)%R (mkXYZ 0 1 0)%R (- (PI / 4)) (PI / 4) 2 1 D1 D2).
  2, 3: v3; lra.
  2:{ unfold tol. rewrite A, A', Rmax_left by lra. lra. }
  2: lra.
  2, 3: apply heavy_iff; lra.
  unfold ellipse_at, tangent_at. num. rewrite cos_neg, sin_neg, sin_PI4, cos_PI4.
  assert (H2 : (0 < sqrt 2)%R) by (apply sqrt_lt_R0; lra). assert (S2 : (sqrt 2 * sqrt 2 = 2)%R) by (apply sqrt_sqrt; lra).
  set (c := (1 / sqrt 2)%R). assert (Hc : (c * c = 1 / 2)%R) by (unfold c; transitivity (1 / (sqrt 2 * sqrt 2))%R; [field; lra|rewrite S2; field]).
  assert (Hc0 : (0 < c)%R) by (unfold c; apply Rdiv_lt_0_compat; lra).
  assert (Hcos : cos ((PI / 4 - - (PI / 4)) / 2) = c) by (replace ((PI / 4 - - (PI / 4)) / 2)%R with (PI / 4)%R by field; apply cos_PI4).
  rewrite Hcos. clearbody c. clear Hcos H2 S2.
  set (P0 := xyz_add (xyz_add zero3 _) _). set (T0 := xyz_add (xyz_scale (- - c)%R _) _).
  set (P2 := xyz_add (xyz_add zero3 _) _). set (T2 := xyz_add (xyz_scale (- c)%R _) _).
  assert (E0 : P0 = mkXYZ (2 * c)%R (- c)%R 0%R) by (unfold P0, zero3; v3; apply xyz_eq; ring).
  assert (E2 : P2 = mkXYZ (2 * c)%R c 0%R) by (unfold P2, zero3; v3; apply xyz_eq; ring).
  assert (F0 : T0 = mkXYZ c c 0%R) by (unfold T0; v3; apply xyz_eq; ring).
  assert (F2 : T2 = mkXYZ (- c)%R c 0%R) by (unfold T2; v3; apply xyz_eq; ring).
  rewrite E0, E2, F0, F2. clear P0 P2 T0 T2 E0 E2 F0 F2.
  rewrite (ComputeRays_meet (mkXYZ (2 * c)%R (- c)%R 0%R) (mkXYZ c c 0%R) (mkXYZ (2 * c)%R c 0%R) (mkXYZ (- c)%R c 0%R)) with (s := 1%R) (t := (- 1)%R).
  2:{ intros [(N & _) _]. cbn [gx] in N. unfold tol in N. rewrite Rabs_Ropp, (Rabs_pos_eq c) in N by lra. rewrite Rabs_pos_eq, Rmax_left in N by lra.
      assert (1 / 2 < c)%R by nra. lra. }
  2, 3: v3; nra.
  2:{ unfold gram, small. v3. intros S. match type of S with (Rabs ?x <= _)%R => replace x with 1%R in S end; [rewrite Rabs_R1 in S; lra|].
      replace (c * - c)%R with (- (c * c))%R by ring. replace (- c * - c)%R with (c * c)%R by ring. rewrite Hc. field. }
  2:{ v3h. apply xyz_eq; ring. }
  cbn [bind].
  match goal with |- context [mkCurve 2 _ ?l] => set (H := l) end.
  destruct (piece_point 1 H 0 (1 / 2)%R ltac:(lia) eq_refl ltac:(lia) ltac:(lra) ltac:(left; cbn; lra)) as (S & ES & _ & HS).
  change (mkCurve 2 [0; 0; 0; 1; 1; 1]%R H) with (mkCurve 2 (Karc 1) H).
  eexists. exists (mkXYZ (wx S / ww S)%R (wy S / ww S)%R (wz S / ww S)%R). split; [reflexivity|].
  pose proof (HS 0%nat) as Ex. pose proof (HS 1%nat) as Ey. pose proof (HS 3%nat) as Ew. clear HS.
  change (pt H (2 * 0)) with (mkW (mkXYZ (2 * c)%R (- c)%R 0%R) 1%R) in Ex, Ey, Ew. change (pt H (2 * 0 + 2)) with (mkW (mkXYZ (2 * c)%R c 0%R) 1%R) in Ex, Ey, Ew.
  change (pt H (2 * 0 + 1)) with (mkW (line_at (mkXYZ (2 * c)%R (- c)%R 0%R) (mkXYZ c c 0%R) 1%R) c) in Ex, Ey, Ew.
  unfold mkW in *. cbn [co VecL_XYZW co_xyzw wx wy wz ww line_at plus3 times3 gx gy gz] in Ex, Ey, Ew. num.
  assert (Ew' : ww S = ((1 + c) / 2)%R) by (rewrite Ew; field). assert (Ey' : wy S = 0%R) by (rewrite Ey; field).
  assert (Ex' : wx S = ((2 * c + 3 / 2) / 2)%R).
  { rewrite Ex. cbn. replace (3 / 2)%R with (3 * (c * c))%R by lra. field. }
  split.
  - rewrite ES. apply ToXYZ_div. apply heavy_aeq, heavy_iff. rewrite Ew'. lra.
  - intros phi E. rewrite Ex', Ey', Ew' in E. injection E as E1 E2 _. 
    assert (Ec : ((2 * c + 3 / 2) = 2 * cos phi * (1 + c))%R) by (rewrite <- E1; field; lra).
    assert (Es : sin phi = 0%R) by (assert (0 / ((1 + c) / 2) = 0)%R by (field; lra); lra).
    pose proof (sin2_cos2 phi) as P. unfold Rsqr in P. rewrite Es in P.
    assert (Q : (cos phi = 1 \/ cos phi = -1)%R). { assert ((cos phi - 1) * (cos phi + 1) = 0)%R by lra. apply Rmult_integral in H0. destruct H0; [left|right]; lra. }
    destruct Q as [Q|Q]; rewrite Q in Ec; lra.
Qed.

(** * Open conics *)
Definition zeroW : XYZW R := mkXYZW 0%R 0%R 0%R 0%R.

Lemma inv_bind {X Y} (m : res X) (f : X -> res Y) y : bind m f = Ok y -> exists x, m = Ok x /\ f x = Ok y.
Proof. destruct m; [|discriminate]. intros H. eauto. Qed.

Lemma SplitArc_form s p w e i r : SplitArc s p w e i = Ok r -> exists q m n, r = (q, m, n, i).
Proof.
  unfold SplitArc. intros H. apply inv_bind in H as (m & _ & H). apply inv_bind in H as (? & _ & H). apply inv_bind in H as (? & _ & H).
  injection H as <-. eauto.
Qed.

Lemma mkW_zero (p : XYZ R) : mkW p 0%R = zeroW.
Proof. unfold mkW, zeroW. num. rewrite !Rmult_0_r. reflexivity. Qed.

Lemma OpenConic_form s ts e te p c : CreateOpenConic s ts e te p = Ok (Some c) ->
  exists P1 w, CreateOneConicArc s ts e te p = Ok (Some (P1, w)) /\
   ((0 < w)%R /\ c = mkCurve 2 (Karc 1) [mkW s 1%R; mkW P1 w; mkW e 1%R] \/
    (exists S, c = mkCurve 2 (Karc 2) [mkW s 1%R; zeroW; mkW S 1%R; zeroW; mkW e 1%R]) \/
    (exists S1 S2 S3, c = mkCurve 2 (Karc 4) [mkW s 1%R; zeroW; mkW S1 1%R; zeroW; mkW S2 1%R; zeroW; mkW S3 1%R; zeroW; mkW e 1%R])).
Proof.
  intros H. unfold CreateOpenConic in H. apply inv_bind in H as (? & _ & H). apply inv_bind in H as (? & _ & H).
  apply inv_bind in H as (o & E & H). destruct o as [[P1 w]|]; [|discriminate]. exists P1, w. split; [exact E|]. num.
  destruct (IsLessThanOrEqual w (- (1))%R) eqn:Ew; [discriminate|].
  apply inv_bind in H as (ns & En & H).
  assert (Hns : (ns = 1 /\ (0 < w)%R) \/ ns = 2 \/ ns = 4).
  { destruct (IsGreaterThanOrEqual w 1%R) eqn:Eg.
    - injection En as <-. left. split; [reflexivity|]. apply ge_iff in Eg. unfold thr, eps in Eg.
      destruct (Rlt_dec 0 w) as [?|Hw]; [assumption|]. exfalso. rewrite Rabs_R1 in Eg. assert (Hw' : (w <= 0)%R) by lra. rewrite (Rabs_left1 w Hw') in Eg.
      unfold Rmax in Eg. destruct (Rle_dec (- w) 1); lra.
    - apply inv_bind in En as (v1 & _ & En). apply inv_bind in En as (v2 & _ & En). apply inv_bind in En as (rad & _ & En).
      apply inv_bind in En as (r60 & _ & En). apply inv_bind in En as (r90 & _ & En).
      destruct (IsGreaterThan w 0%R && Rltb r60 rad) eqn:Q1.
      + injection En as <-. left. split; [reflexivity|]. apply andb_true_iff in Q1 as [Q1 _]. apply gt_iff in Q1. unfold thr, eps in Q1.
        pose proof (Rmax_r (Rabs w) (Rabs 0)). rewrite Rabs_R0 in *. lra.
      + destruct (IsLessThan w 0%R && Rltb r90 rad); injection En as <-; auto. }
  destruct Hns as [[-> Hw]|[-> | ->]].
  - left. split; [exact Hw|]. cbn in H. injection H as <-. reflexivity.
  - right. left. lazy -[SplitArc mkW IZR Rdiv Rminus Num_R] in H. num. apply inv_bind in H as (r & Er & H).
    apply SplitArc_form in Er as (q & m & m' & ->). exists m. lazy -[mkW IZR Rdiv Rminus Num_R] in H. num. rewrite !mkW_zero in H. injection H as <-. reflexivity.
  - right. right. lazy -[SplitArc mkW IZR Rdiv Rminus Num_R] in H. num. apply inv_bind in H as (r & Er & H).
    apply SplitArc_form in Er as (q & m & m' & ->). lazy -[SplitArc mkW IZR Rdiv Rminus Num_R] in H. apply inv_bind in H as (r & Er & H).
    apply SplitArc_form in Er as (q2 & m2 & m2' & ->). lazy -[SplitArc mkW IZR Rdiv Rminus Num_R] in H. apply inv_bind in H as (r & Er & H).
    apply SplitArc_form in Er as (q3 & m3 & m3' & ->). exists m2, m, m3. lazy -[mkW IZR Rdiv Rminus Num_R] in H. num. rewrite !mkW_zero in H. injection H as <-. reflexivity.
Qed.

(* a piece whose middle control point is zero is a straight line *)
Lemma straight_piece n (H : list (XYZW R)) j t P Q : 1 <= n <= 4 -> len H = 2 * n + 1 -> 0 <= j < n -> (IZR j <= t * IZR n)%R ->
  (t * IZR n < IZR (j + 1))%R \/ (j = n - 1 /\ t = 1%R) ->
  pt H (2 * j) = mkW P 1%R -> pt H (2 * j + 1) = zeroW -> pt H (2 * j + 2) = mkW Q 1%R ->
  exists l, (0 <= l <= 1)%R /\ NurbsPoint (mkCurve 2 (Karc n) H) t = Ok (line_at P (minus3 Q P) l).
Proof.
  intros Hn HH Hj H1 H2 E0 E1 E2. destruct (piece_point n H j t Hn HH Hj H1 H2) as (S & ES & Hs & HS). cbv zeta in Hs, HS.
  set (s := (t * IZR n - IZR j)%R) in *. rewrite E0, E1, E2 in HS. unfold mkW, zeroW in HS. num.
  pose proof (HS 0%nat) as Ex. pose proof (HS 1%nat) as Ey. pose proof (HS 2%nat) as Ez. pose proof (HS 3%nat) as Ew. clear HS.
  cbn [co VecL_XYZW co_xyzw wx wy wz ww] in Ex, Ey, Ez, Ew.
  assert (Hw : (1 / 2 <= ww S)%R) by (rewrite Ew; pose proof (Rle_0_sqr (2 * s - 1)) as Hsq; unfold Rsqr in Hsq; lra).
  assert (Hw2 : ((1 - s) * (1 - s) + s * s <> 0)%R) by (rewrite Ew in Hw; lra).
  exists (s * s / ww S)%R. split.
  - split; [apply Rmult_le_pos; [apply Rle_0_sqr|left; apply Rinv_0_lt_compat; lra]|]. apply Rmult_le_reg_r with (ww S); [lra|].
    unfold Rdiv. rewrite Rmult_assoc, Rinv_l by lra. rewrite Ew. nra.
  - rewrite ES, ToXYZ_div by (apply heavy_aeq, heavy_iff; lra). f_equal. rewrite Ex, Ey, Ez, Ew. destruct P, Q. v3h. apply xyz_eq; field; lra.
Qed.

Lemma len_lit n (H : list (XYZW R)) : length H = n -> len H = Z.of_nat n.
Proof. intros <-. reflexivity. Qed.

Lemma OpenConic_polygon s ts e te p c : CreateOpenConic s ts e te p = Ok (Some c) -> 3 < len (ControlPoints c) ->
  exists n (V : Z -> XYZ R), (n = 2 \/ n = 4) /\ len (ControlPoints c) = 2 * n + 1 /\
   (forall j, 0 <= j <= n -> get (ControlPoints c) (2 * j) = Ok (hom (V j) 1%R)) /\
   (forall j, 0 <= j < n -> get (ControlPoints c) (2 * j + 1) = Ok (mkXYZW 0 0 0 0)%R) /\
   forall t, (0 <= t <= 1)%R -> exists x, NurbsPoint c t = Ok x /\ on_polygon V n x.
Proof.
  intros H HL. destruct (OpenConic_form _ _ _ _ _ _ H) as (P1 & w & _ & [[_ ->]|[(S & ->)|(S1 & S2 & S3 & ->)]]).
  - cbn in HL. lia.
  - exists 2, (fun j => if j =? 0 then s else if j =? 1 then S else e). split; [auto|]. split; [reflexivity|].
    assert (G1 : forall j, 0 <= j <= 2 -> j = 0 \/ j = 1 \/ j = 2) by lia. assert (G2 : forall j, 0 <= j < 2 -> j = 0 \/ j = 1) by lia.
    split; [intros j Hj; destruct (G1 j Hj) as [->|[->| ->]]; reflexivity|]. split; [intros j Hj; destruct (G2 j Hj) as [->| ->]; reflexivity|].
    intros t Ht. destruct (piece_ok 1%R 2 ltac:(lia) ltac:(pose proof PI2_1; lra) t Ht) as (P2 & P3 & P4). set (j := piece 2 t) in *. clearbody j.
    edestruct (straight_piece 2) with (j := j) (t := t) as (l & Hl & El); [lia| |exact P2|exact P3|exact P4| | | |eexists; split; [exact El|exists j, l; split; [exact P2|split; [exact Hl|]]; reflexivity]];
    [reflexivity| | |]; destruct (G2 j P2) as [->| ->]; reflexivity.
  - exists 4, (fun j => if j =? 0 then s else if j =? 1 then S1 else if j =? 2 then S2 else if j =? 3 then S3 else e). split; [auto|]. split; [reflexivity|].
    assert (G1 : forall j, 0 <= j <= 4 -> j = 0 \/ j = 1 \/ j = 2 \/ j = 3 \/ j = 4) by lia. assert (G2 : forall j, 0 <= j < 4 -> j = 0 \/ j = 1 \/ j = 2 \/ j = 3) by lia.
    split; [intros j Hj; destruct (G1 j Hj) as [->|[->|[->|[->| ->]]]]; reflexivity|]. split; [intros j Hj; destruct (G2 j Hj) as [->|[->|[->| ->]]]; reflexivity|].
    intros t Ht. destruct (piece_ok 1%R 4 ltac:(lia) ltac:(pose proof PI2_1; lra) t Ht) as (P2 & P3 & P4). set (j := piece 4 t) in *. clearbody j.
    edestruct (straight_piece 4) with (j := j) (t := t) as (l & Hl & El); [lia| |exact P2|exact P3|exact P4| | | |eexists; split; [exact El|exists j, l; split; [exact P2|split; [exact Hl|]]; reflexivity]];
    [reflexivity| | |]; destruct (G2 j P2) as [->|[->|[->| ->]]]; reflexivity.
Qed.

(** * A conic with one segment goes through the given point *)
Section OneArc.
Variables s ts e te p q : XYZ R.   (* q: where the tangents meet *)
Variables a b x y : R.
Hypothesis Hts : (1 / 10 ^ 12 < dot3 ts ts)%R.
Hypothesis Hte : (1 / 10 ^ 12 < dot3 te te)%R.
Hypothesis Hq : q = line_at s ts a /\ q = line_at e te b.
Hypothesis Hg : ~ small (gram ts te).
Hypothesis Hnt : ~ near ts te.
(* the line from q through p meets the chord inside *)
Hypothesis Hx : line_at q (minus3 p q) x = line_at s (minus3 e s) y.
Hypothesis Hy : (0 < y < 1)%R.
Hypothesis Hp : (1 / 10 ^ 12 < dot3 (minus3 p q) (minus3 p q))%R.
Hypothesis Hc : (1 / 10 ^ 12 < dot3 (minus3 e s) (minus3 e s))%R.
Hypothesis Hg2 : ~ small (gram (minus3 p q) (minus3 e s)).
Hypothesis Hnt2 : ~ (near (minus3 p q) (minus3 e s) /\ near q s).

Lemma OneConicArc_ok : exists w u, CreateOneConicArc s ts e te p = Ok (Some (q, w)) /\ (0 < u < 1)%R /\
  forall g : XYZ R -> R, (forall a b, g (plus3 a b) = g a + g b)%R -> (forall k a, g (times3 k a) = k * g a)%R ->
   ((1 - u) * (1 - u) * g s + 2 * u * (1 - u) * (w * g q) + u * u * g e = ((1 - u) * (1 - u) + 2 * u * (1 - u) * w + u * u) * g p)%R.
Proof.
  set (k := sqrt (y / (1 - y))). set (u := (k / (1 + k))%R).
  assert (Hk : (0 < k)%R) by (apply sqrt_lt_R0, Rdiv_lt_0_compat; lra).
  assert (Hk2 : (k * k = y / (1 - y))%R) by (apply sqrt_sqrt; left; apply Rdiv_lt_0_compat; lra).
  assert (Hu : (0 < u < 1)%R). { unfold u. split; [apply Rdiv_lt_0_compat; lra|]. apply Rmult_lt_reg_r with (1 + k)%R; [lra|]. unfold Rdiv. rewrite Rmult_assoc, Rinv_l; lra. }
  assert (Hu2 : (u * u * (1 - y) = (1 - u) * (1 - u) * y)%R).
  { unfold u. replace (1 - k / (1 + k))%R with (1 / (1 + k))%R by (field; lra). apply (Rmult_eq_reg_r ((1 + k) * (1 + k))); [|nra].
    transitivity (k * k * (1 - y))%R; [field; lra|]. rewrite Hk2. field. lra. }
  set (d := minus3 q p). set (D := dot3 d d).
  assert (HD : (0 < D)%R). { unfold D, d. replace (dot3 (minus3 q p) (minus3 q p)) with (dot3 (minus3 p q) (minus3 p q)) by (clear; destruct p, q; v3; ring). lra. }
  set (num := ((1 - u) * (1 - u) * dot3 (minus3 p s) d + u * u * dot3 (minus3 p e) d)%R).
  exists (num / (2 * u * (1 - u) * D))%R, u. split; [|split; [exact Hu|]].
  - unfold CreateOneConicArc. rewrite (IsZero_false _ Hts), (IsZero_false _ Hte). cbn [negb validate bind].
    num. rewrite (ComputeRays_meet s ts e te) with (s := a) (t := b); try assumption.
    2:{ tauto. }
    2:{ destruct Hq as [<- <-]. reflexivity. }
    cbn [bind]. destruct Hq as [<- _]. g3.
    rewrite (ComputeRays_meet q (minus3 p q) s (minus3 e s)) with (s := x) (t := y); try assumption.
    cbn [bind]. rewrite Rdiv_ok by lra. cbn [bind]. rewrite Rsqrt_ok by (left; apply Rdiv_lt_0_compat; lra). cbn [bind]. fold k.
    rewrite Rdiv_ok by lra. cbn [bind]. fold u. fold d. fold D. rewrite Rdiv_ok; [reflexivity|].
    assert (0 < 2 * u * (1 - u) * D)%R; [|lra]. apply Rmult_lt_0_compat; [apply Rmult_lt_0_compat; lra|exact HD].
  - (* (1-u)^2 (s-p) + u^2 (e-p) is a multiple of q - p *)
    set (W := ((1 - u) * (1 - u) + u * u)%R).
    assert (HW : (0 < W)%R) by (unfold W; nra).
    assert (Ey : (y = u * u / W)%R).
    { apply (Rmult_eq_reg_r W); [|lra]. unfold Rdiv. rewrite Rmult_assoc, Rinv_l by lra. unfold W. lra. }
    assert (Ev : plus3 (times3 ((1 - u) * (1 - u)) (minus3 s p)) (times3 (u * u) (minus3 e p)) = times3 (W * (1 - x)) d).
    { assert (HE := Hx). unfold d. clearbody W k u num D d. clear -HE Ey HW Hu2 Hu. destruct s as [s1 s2 s3], e as [e1 e2 e3], p as [p1 p2 p3], q as [q1 q2 q3]. v3h. injection HE as E1 E2 E3.
      assert (G : forall s1 e1 p1 q1, (q1 + x * (p1 - q1) = s1 + y * (e1 - s1) -> W * y = u * u -> W * (1 - y) = (1 - u) * (1 - u) -> (1 - u) * (1 - u) * (s1 - p1) + u * u * (e1 - p1) = W * (1 - x) * (q1 - p1))%R).
      { clear. intros s1 e1 p1 q1 H A B. rewrite <- A, <- B. transitivity (W * ((s1 + y * (e1 - s1)) - p1))%R; [ring|]. rewrite <- H. ring. }
      assert (A : (W * y = u * u)%R) by (rewrite Ey; field; lra).
      assert (B : (W * (1 - y) = (1 - u) * (1 - u))%R).
      { apply (Rmult_eq_reg_r y); [|]. transitivity (W * y * (1 - y))%R; [ring|]. rewrite A. lra. rewrite Ey. assert (0 < u * u / W)%R by (apply Rdiv_lt_0_compat; [nra|lra]). lra. }
      apply xyz_eq; apply G; assumption. }
    assert (En : num = (- (W * (1 - x) * D))%R).
    { transitivity (- dot3 (plus3 (times3 ((1 - u) * (1 - u)) (minus3 s p)) (times3 (u * u) (minus3 e p))) d)%R.
      - unfold num. clearbody d. clear. destruct s, e, p, d. v3. ring.
      - rewrite Ev. unfold D. clearbody d. clear. destruct d. v3. ring. }
    intros g Gp Gt. assert (Gm : forall a b, g (minus3 a b) = (g a - g b)%R).
    { intros m n. replace (minus3 m n) with (plus3 m (times3 (-1) n)) by (clear; destruct m, n; v3; apply xyz_eq; ring). rewrite Gp, Gt. ring. }
    apply (f_equal g) in Ev. rewrite Gp, !Gt, !Gm in Ev. unfold d in Ev. rewrite Gm in Ev.
    assert (Ew : (2 * u * (1 - u) * (num / (2 * u * (1 - u) * D)) = - (W * (1 - x)))%R) by (rewrite En; field; lra).
    transitivity ((1 - u) * (1 - u) * g s + (2 * u * (1 - u) * (num / (2 * u * (1 - u) * D))) * g q + u * u * g e)%R; [ring|]. rewrite Ew.
    lra.
Qed.

Lemma OpenConic_through c : CreateOpenConic s ts e te p = Ok (Some c) -> len (ControlPoints c) = 3 ->
  NurbsPoint c 0%R = Ok s /\ NurbsPoint c 1%R = Ok e /\ exists t, (0 < t < 1)%R /\ NurbsPoint c t = Ok p.
Proof.
  intros H HL. destruct OneConicArc_ok as (w' & u & E' & Hu & HG).
  destruct (OpenConic_form _ _ _ _ _ _ H) as (P1 & w & E & [[Hw ->]|[(S & ->)|(S1 & S2 & S3 & ->)]]); [|discriminate HL|discriminate HL].
  rewrite E' in E. injection E as <- <-. set (L := [_; _; _]).
  assert (G : forall t y, (0 <= t <= 1)%R -> (forall g : XYZ R -> R, (forall a b, g (plus3 a b) = g a + g b)%R -> (forall k a, g (times3 k a) = k * g a)%R ->
     ((1 - t) * (1 - t) * g s + 2 * t * (1 - t) * (w' * g q) + t * t * g e = ((1 - t) * (1 - t) + 2 * t * (1 - t) * w' + t * t) * g y)%R) ->
     NurbsPoint (mkCurve 2 (Karc 1) L) t = Ok y).
  { intros t z Ht HG'. destruct (piece_point 1 L 0 t ltac:(lia) eq_refl ltac:(lia) ltac:(lra)) as (S & ES & _ & HS).
    { destruct (Req_dec t 1); [right; auto|left; cbn; lra]. }
    rewrite Rmult_1_r, Rminus_0_r in HS. pose proof (HS 0%nat) as Ex. pose proof (HS 1%nat) as Ey. pose proof (HS 2%nat) as Ez. pose proof (HS 3%nat) as Ew. clear HS.
    change (pt L (2 * 0)) with (mkW s 1%R) in *. change (pt L (2 * 0 + 1)) with (mkW q w') in *. change (pt L (2 * 0 + 2)) with (mkW e 1%R) in *.
    unfold mkW in Ex, Ey, Ez, Ew. num. cbn [co VecL_XYZW co_xyzw wx wy wz ww] in Ex, Ey, Ez, Ew.
    assert (0 <= 2 * t * (1 - t) * w')%R by (apply Rmult_le_pos; [|lra]; apply Rmult_le_pos; lra).
    assert (HwS : (1 / 2 <= ww S)%R) by (rewrite Ew; pose proof (Rle_0_sqr (2 * t - 1)) as Hsq; unfold Rsqr in Hsq; lra).
    rewrite ES, ToXYZ_div by (apply heavy_aeq, heavy_iff; lra). f_equal.
    pose proof (HG' gx (fun _ _ => eq_refl) (fun _ _ => eq_refl)) as Gx. pose proof (HG' gy (fun _ _ => eq_refl) (fun _ _ => eq_refl)) as Gy. pose proof (HG' gz (fun _ _ => eq_refl) (fun _ _ => eq_refl)) as Gz.
    assert (Fx : wx S = (ww S * gx z)%R) by (rewrite Ex, Ew; lra). assert (Fy : wy S = (ww S * gy z)%R) by (rewrite Ey, Ew; lra). assert (Fz : wz S = (ww S * gz z)%R) by (rewrite Ez, Ew; lra).
    rewrite Fx, Fy, Fz. destruct z as [z1 z2 z3]. cbn [gx gy gz]. apply xyz_eq; field; lra. }
  split; [apply G; [lra|]; intros; ring|]. split; [apply G; [lra|]; intros; ring|].
  exists u. split; [exact Hu|]. apply G; [lra|exact HG].
Qed.
End OneArc.

(** * Concrete cases *)
Lemma rays_meet_lit p0 v0 p1 v1 s t a b out : ~ near v0 v1 -> (1 / 10 ^ 12 < dot3 v0 v0)%R -> (1 / 10 ^ 12 < dot3 v1 v1)%R ->
  ~ small (gram v0 v1) -> line_at p0 v0 s = line_at p1 v1 t -> ComputeRays p0 v0 p1 v1 a b out = Ok (Intersecting, s, t, line_at p0 v0 s).
Proof. intros. apply ComputeRays_meet; auto. tauto. Qed.

Ltac not_near := intros (N1 & N2 & N3); cbn [gx gy gz minus3] in N1, N2, N3; unfold tol, Rmax, Rabs in N1, N2, N3;
  repeat match goal with H : context [Rcase_abs ?x] |- _ => destruct (Rcase_abs x) | H : context [Rle_dec ?x ?y] |- _ => destruct (Rle_dec x y) end; lra.
Ltac not_small := unfold gram, small; v3; intros NS; unfold Rabs in NS; match type of NS with context [Rcase_abs ?x] => destruct (Rcase_abs x) end; lra.

(* the parabola-like arc with weight 2: start (-1,0,0), end (1,0,0), tangents meeting in (0,1,0), through (0,2/3,0) *)
Definition ex_s : XYZ R := (mkXYZ (-1) 0 0)%R.
Definition ex_ts : XYZ R := (mkXYZ 1 1 0)%R.
Definition ex_e : XYZ R := (mkXYZ 1 0 0)%R.
Definition ex_te : XYZ R := (mkXYZ (-1) 1 0)%R.
Definition ex_p : XYZ R := (mkXYZ 0 (2 / 3) 0)%R.

Lemma conic_ex1 : exists c, CreateOpenConic ex_s ex_ts ex_e ex_te ex_p = Ok (Some c) /\ len (ControlPoints c) = 3.
Proof.
  assert (E1 : ComputeRays ex_s ex_ts ex_e ex_te 0%R 0%R xyz0 = Ok (Intersecting, 1%R, 1%R, line_at ex_s ex_ts 1%R)).
  { apply rays_meet_lit; unfold ex_s, ex_ts, ex_e, ex_te; [not_near|v3; lra|v3; lra|not_small|v3h; apply xyz_eq; ring]. }
  assert (Eq : line_at ex_s ex_ts 1%R = (mkXYZ 0 1 0)%R) by (unfold ex_s, ex_ts; v3h; apply xyz_eq; ring).
  assert (E2 : ComputeRays (mkXYZ 0 1 0)%R (minus3 ex_p (mkXYZ 0 1 0)%R) ex_s (minus3 ex_e ex_s) 0%R 0%R xyz0 = Ok (Intersecting, 3%R, (1 / 2)%R, line_at (mkXYZ 0 1 0)%R (minus3 ex_p (mkXYZ 0 1 0)%R) 3%R)).
  { apply rays_meet_lit; unfold ex_s, ex_ts, ex_e, ex_te, ex_p; [not_near|v3; lra|v3; lra|not_small|v3h; apply xyz_eq; field]. }
  assert (EO : CreateOneConicArc ex_s ex_ts ex_e ex_te ex_p = Ok (Some (mkXYZ 0 1 0, 2)%R)).
  { unfold CreateOneConicArc. rewrite !IsZero_false by (unfold ex_ts, ex_te; v3; lra). cbn [negb validate bind]. num. rewrite E1. cbn [bind]. rewrite Eq. g3. rewrite E2. cbn [bind].
    rewrite Rdiv_ok by lra. cbn [bind]. replace (1 / 2 / (1 - 1 / 2))%R with 1%R by field. rewrite Rsqrt_ok by lra. rewrite sqrt_1. cbn [bind].
    rewrite Rdiv_ok by lra. cbn [bind]. replace (1 / (1 + 1))%R with (1 / 2)%R by field. unfold ex_s, ex_e, ex_p. v3. rewrite Rdiv_ok by lra. cbn [bind]. do 3 f_equal. field. }
  unfold CreateOpenConic. rewrite !IsZero_false by (unfold ex_ts, ex_te; v3; lra). cbn [negb validate bind]. rewrite EO. cbn [bind]. num.
  assert (L : IsLessThanOrEqual 2%R (- (1))%R = false). { apply le_false. unfold thr, eps. rewrite Rabs_Ropp, Rabs_R1, Rabs_pos_eq, Rmax_left by lra. lra. }
  assert (G : IsGreaterThanOrEqual 2%R 1%R = true). { apply ge_iff. unfold thr, eps. rewrite Rabs_R1, Rabs_pos_eq, Rmax_left by lra. lra. }
  rewrite L, G. cbn [bind]. eexists. split; [reflexivity|reflexivity].
Qed.

(* a half circle: parallel tangents *)
Lemma conic_ex2 : exists c, CreateOpenConic ex_s (mkXYZ 0 1 0)%R ex_e (mkXYZ 0 1 0)%R (mkXYZ 0 1 0)%R = Ok (Some c) /\ len (ControlPoints c) = 5.
Proof.
  assert (E1 : ComputeRays ex_s (mkXYZ 0 1 0)%R ex_e (mkXYZ 0 1 0)%R 0%R 0%R xyz0 = Ok (Parallel, 0%R, 0%R, xyz0)).
  { assert (NN : ~ (near (mkXYZ 0 1 0)%R (mkXYZ 0 1 0)%R /\ near ex_s ex_e)) by (intros [_ N]; revert N; unfold ex_s, ex_e; not_near).
    destruct (ComputeRays_cases ex_s (mkXYZ 0 1 0)%R ex_e (mkXYZ 0 1 0)%R NN ltac:(v3; lra) ltac:(v3; lra) 0 0 xyz0) as (_ & R2 & _). apply R2.
    - unfold gram. v3. replace (_ - _)%R with 0%R by ring. exact small_0.
    - unfold ex_s, ex_e, norm3, small. v3. match goal with |- ~ (Rabs (sqrt ?x) <= _)%R => replace x with (2 * 2)%R by ring end.
      rewrite sqrt_square, Rabs_pos_eq by lra. lra. }
  assert (E2 : ComputeRays (mkXYZ 0 1 0)%R (mkXYZ 0 1 0)%R ex_s (minus3 ex_e ex_s) 0%R 0%R xyz0 = Ok (Intersecting, (-1)%R, (1 / 2)%R, line_at (mkXYZ 0 1 0)%R (mkXYZ 0 1 0)%R (-1)%R)).
  { apply rays_meet_lit; unfold ex_s, ex_e; [not_near|v3; lra|v3; lra|not_small|v3h; apply xyz_eq; field]. }
  assert (Z1 : IsZero (mkXYZ 0 1 0)%R = false) by (apply IsZero_false; v3; lra).
  assert (EO : CreateOneConicArc ex_s (mkXYZ 0 1 0)%R ex_e (mkXYZ 0 1 0)%R (mkXYZ 0 1 0)%R = Ok (Some (mkXYZ 0 1 0, 0)%R)).
  { unfold CreateOneConicArc. rewrite Z1. cbn [negb validate bind]. num. rewrite E1. cbn [bind]. g3. rewrite E2. cbn [bind].
    rewrite Rdiv_ok by lra. cbn [bind]. replace (1 / 2 / (1 - 1 / 2))%R with 1%R by field. rewrite Rsqrt_ok by lra. rewrite sqrt_1. cbn [bind].
    rewrite Rdiv_ok by lra. cbn [bind]. replace (1 / (1 + 1))%R with (1 / 2)%R by field. rewrite Rdiv_ok by lra. cbn [bind]. do 3 f_equal. v3. apply xyz_eq; field. }
  unfold CreateOpenConic. rewrite Z1. cbn [negb validate bind]. rewrite EO. cbn [bind]. num.
  assert (L : IsLessThanOrEqual 0%R (- (1))%R = false). { apply le_false. unfold thr, eps. rewrite Rabs_Ropp, Rabs_R1, Rabs_R0, Rmax_right by lra. lra. }
  assert (G : IsGreaterThanOrEqual 0%R 1%R = false). { apply ge_false. unfold thr, eps. rewrite Rabs_R1, Rabs_R0, Rmax_right by lra. lra. }
  assert (G' : IsGreaterThan 0%R 0%R = false). { destruct (IsGreaterThan 0%R 0%R) eqn:E; [|reflexivity]. apply gt_iff in E. unfold thr, eps in E. rewrite Rabs_R0, Rmax_left in E by lra. lra. }
  assert (G'' : IsLessThan 0%R 0%R = false). { apply lt_false. unfold thr, eps. rewrite Rabs_R0, Rmax_left by lra. lra. }
  rewrite L, G, G', G''. cbn [andb]. g3.
  assert (N1 : minus3 (mkXYZ 0 1 0)%R ex_s <> zero3) by (unfold ex_s, zero3; v3; intros E; injection E; lra).
  assert (N2 : minus3 ex_e (mkXYZ 0 1 0)%R <> zero3) by (unfold ex_e, zero3; v3; intros E; injection E; lra).
  destruct (Normalize_dir _ N1) as (d1 & Ed1 & Hd1 & _), (Normalize_dir _ N2) as (d2 & Ed2 & Hd2 & _). rewrite Ed1, Ed2. cbn [bind].
  unfold AngleTo. rewrite (Normalize_unit d1 Hd1), (Normalize_unit d2 Hd2). cbn [bind].
  rewrite (IsZero_false d1), (IsZero_false d2) by lra. cbn [orb bind]. unfold AngleToRadians. num. rewrite !Rdiv_ok by lra. cbn [bind].
  lazy -[SplitArc mkW IZR Rdiv Rminus Num_R ex_s ex_e]. num. unfold SplitArc. num.
  rewrite xyz_div_ok by lra. cbn [bind]. rewrite Rsqrt_ok by lra. cbn [bind]. rewrite Rdiv_ok by lra. lazy -[mkW IZR Rdiv Rminus Num_R ex_s ex_e xyz_add]. eexists. split; reflexivity.
Qed.

Lemma conic_through : forall (s ts e te p q : XYZ R) (a b x y : R),
  (1 / 10 ^ 12 < dot3 ts ts)%R -> (1 / 10 ^ 12 < dot3 te te)%R ->
  q = line_at s ts a /\ q = line_at e te b ->
  ~ small (gram ts te) -> ~ near ts te ->
  line_at q (minus3 p q) x = line_at s (minus3 e s) y -> (0 < y < 1)%R ->
  (1 / 10 ^ 12 < dot3 (minus3 p q) (minus3 p q))%R -> (1 / 10 ^ 12 < dot3 (minus3 e s) (minus3 e s))%R ->
  ~ small (gram (minus3 p q) (minus3 e s)) ->
  ~ (near (minus3 p q) (minus3 e s) /\ near q s) ->
  (exists w u, CreateOneConicArc s ts e te p = Ok (Some (q, w)) /\ (0 < u < 1)%R /\
    let k := ((1 - u) * (1 - u) + 2 * u * (1 - u) * w + u * u)%R in
    plus3 (times3 ((1 - u) * (1 - u)) s) (plus3 (times3 (2 * u * (1 - u) * w) q) (times3 (u * u) e)) = times3 k p) /\
  forall c, CreateOpenConic s ts e te p = Ok (Some c) -> len (ControlPoints c) = 3 ->
    NurbsPoint c 0%R = Ok s /\ NurbsPoint c 1%R = Ok e /\ exists t, (0 < t < 1)%R /\ NurbsPoint c t = Ok p.
Proof.
  intros s ts e te p q a b x y H1 H2 H3 H4 H5 H6 H7 H8 H9 H10 H11. split.
  - destruct (OneConicArc_ok s ts e te p q a b x y H1 H2 H3 H4 H5 H6 H7 H8 H9 H10 H11) as (w & u & E & Hu & G). exists w, u. split; [exact E|]. split; [exact Hu|]. cbv zeta.
    pose proof (G gx (fun _ _ => eq_refl) (fun _ _ => eq_refl)) as Gx. pose proof (G gy (fun _ _ => eq_refl) (fun _ _ => eq_refl)) as Gy. pose proof (G gz (fun _ _ => eq_refl) (fun _ _ => eq_refl)) as Gz.
    clear -Gx Gy Gz. destruct s as [s1 s2 s3], e as [e1 e2 e3], p as [p1 p2 p3], q as [q1 q2 q3]. v3. cbn [gx gy gz] in *. apply xyz_eq; [rewrite <- Gx|rewrite <- Gy|rewrite <- Gz]; ring.
  - intros c. apply (OpenConic_through s ts e te p q a b x y H1 H2 H3 H4 H5 H6 H7 H8 H9 H10 H11).
Qed.
