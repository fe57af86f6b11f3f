(* Surfaces of revolution. *)
From Coq Require Import ZArith List Bool Reals Lra Lia.
From Verif Require Import Base Num Vec Tac Spec Spec2 Spec3 Spec4 Spec5 Spec8 Spec9 M_MathUtils M_Polynomials M_XYZ M_Bspline M_NurbsCurve M_Curve2 M_Geom M_Conic M_Surface
  P_MathUtils P_Bern P_Span P_Cox P_Basis P_Deriv P_Vec P_XYZ P_VSum P_Curve P_Bspline P_BsplineS P_Matrix P_Loop P_Geom P_Nurbs P_Conic P_Decomp P_Reduce P_RSurf P_RSurf2 P_Make.
Import ListNotations.
Open Scope Z_scope.

(* ---------------- tangents of any length ---------------- *)

Section Turn.
Variables (ctr X Y : XYZ R) (q : R).
Hypothesis HX : dot3 X X = q.
Hypothesis HY : dot3 Y Y = q.
Hypothesis HXY : dot3 X Y = 0%R.

Lemma tg_dot a b : dot3 (tang X Y a) (tang X Y b) = (q * cos (b - a))%R.
Proof.
  rewrite cos_minus. unfold tang. transitivity (sin a * sin b * dot3 X X + cos a * cos b * dot3 Y Y - (sin a * cos b + cos a * sin b) * dot3 X Y)%R.
  - clear. destruct X, Y. v3. ring.
  - rewrite HX, HY, HXY. ring.
Qed.
Lemma tg_sq a : dot3 (tang X Y a) (tang X Y a) = q.
Proof. rewrite tg_dot, Rminus_eq_0, cos_0. ring. Qed.
Lemma tg_gram a b : gram (tang X Y a) (tang X Y b) = (q * sin (b - a) * (q * sin (b - a)))%R.
Proof. unfold gram. rewrite !tg_sq, tg_dot. pose proof (sin2_cos2 (b - a)) as P. unfold Rsqr in P. replace (q * q)%R with (q * q * 1)%R by ring. rewrite <- P. ring. Qed.

Lemma coord_sq (w : XYZ R) r : (0 <= r)%R -> dot3 w w = (r * r)%R -> (Rabs (gx w) <= r /\ Rabs (gy w) <= r /\ Rabs (gz w) <= r)%R.
Proof. clear. intros Hr H. unfold dot3 in H. repeat split; apply Rabs_le; nra. Qed.

Lemma tg_not_near a b : (1 / 999 < q * sin (b - a))%R -> (1 / 999 < sin (b - a))%R -> ~ Spec3.near (tang X Y a) (tang X Y b).
Proof.
  intros G1 G2 (N1 & N2 & N3). assert (Hq : (1 / 999 < q)%R). { pose proof (SIN_bound (b - a)). pose proof (dot_pos X). rewrite HX in H0. nra. }
  set (r := sqrt q). assert (Er : (r * r = q)%R) by (apply sqrt_sqrt; lra). assert (Hr : (0 <= r)%R) by apply sqrt_pos.
  destruct (coord_sq (tang X Y a) r Hr ltac:(rewrite tg_sq; lra)) as (A1 & A2 & A3). destruct (coord_sq (tang X Y b) r Hr ltac:(rewrite tg_sq; lra)) as (B1 & B2 & B3).
  pose proof (tol_le _ _ _ A1 B1). pose proof (tol_le _ _ _ A2 B2). pose proof (tol_le _ _ _ A3 B3). set (e := (1 / 1000000 * (1 + r))%R) in *.
  pose proof (sq_small _ e ltac:(eapply Rle_trans; [exact N1|lra])) as S1. pose proof (sq_small _ e ltac:(eapply Rle_trans; [exact N2|lra])) as S2. pose proof (sq_small _ e ltac:(eapply Rle_trans; [exact N3|lra])) as S3.
  assert (E : dot3 (minus3 (tang X Y a) (tang X Y b)) (minus3 (tang X Y a) (tang X Y b)) = (2 * q - 2 * (q * cos (b - a)))%R).
  { rewrite <- tg_dot. transitivity (dot3 (tang X Y a) (tang X Y a) + dot3 (tang X Y b) (tang X Y b) - 2 * dot3 (tang X Y a) (tang X Y b))%R.
    - generalize (tang X Y a), (tang X Y b). clear. intros. d3. v3. ring.
    - rewrite !tg_sq. ring. }
  assert (E3 : (dot3 (minus3 (tang X Y a) (tang X Y b)) (minus3 (tang X Y a) (tang X Y b)) <= 3 * (e * e))%R) by (unfold dot3, minus3; cbn [gx gy gz]; lra).
  rewrite E in E3. pose proof (sin2_cos2 (b - a)) as P. unfold Rsqr in P. pose proof (COS_bound (b - a)) as C.
  set (s := sin (b - a)) in *. set (c := cos (b - a)) in *.
  assert (Ee : (e * e <= 2 * (1 + q) / 1000000000000)%R). { unfold e. assert (0 <= (1 - r) * (1 - r))%R by (apply Rle_0_sqr). assert ((1 + r) * (1 + r) <= 2 * (1 + q))%R by (rewrite <- Er; lra). lra. }
  assert (Hc : (s * s <= 2 * (1 - c))%R) by nra. assert (Hs : (1 / 999 * (1 / 999) <= s * s)%R) by nra.
  assert (q * (s * s) <= q * (2 * (1 - c)))%R by (apply Rmult_le_compat_l; lra). assert (q * (1 / 999 * (1 / 999)) <= q * (s * s))%R by (apply Rmult_le_compat_l; lra). lra.
Qed.

Lemma turn_rays a h : cos h <> 0%R -> (1 / 999 < q * sin (2 * h))%R -> (1 / 999 < sin (2 * h))%R ->
  ComputeRays (circle_at ctr X Y 1 a) (tang X Y a) (circle_at ctr X Y 1 (a + 2 * h)) (tang X Y (a + 2 * h)) 0%R 0%R xyz0 =
  Ok (Intersecting, (1 * tan h)%R, (- (1 * tan h))%R, circle_at ctr X Y (1 / cos h) (a + h)).
Proof.
  intros Hh G1 G2. destruct (tangents_meet ctr X Y 1 a h Hh) as [M1 M2].
  assert (Hq : (1 / 10 ^ 12 < q)%R). { pose proof (SIN_bound (2 * h)). pose proof (dot_pos X). rewrite HX in H0. nra. }
  assert (E : (a + 2 * h - a)%R = (2 * h)%R) by ring.
  rewrite (ComputeRays_meet _ _ _ _) with (s := (1 * tan h)%R) (t := (- (1 * tan h))%R).
  - rewrite M1. reflexivity.
  - intros [N _]. revert N. apply tg_not_near; rewrite E; assumption.
  - rewrite tg_sq. exact Hq.
  - rewrite tg_sq. exact Hq.
  - rewrite tg_gram, E. apply small_sq. exact G1.
  - rewrite M1, M2. reflexivity.
Qed.
End Turn.

Lemma sin_quarter x : (0 <= x <= PI / 2 + 1 / 10)%R -> (x / 4 <= sin x)%R.
Proof.
  intros H. pose proof PI2_1. pose proof PI_4. destruct (pre_sin_bound x 0 ltac:(lra)) as [SB _]; [lra|]. cbn in SB. unfold sin_term in SB. cbn in SB.
  assert (0 <= x * x <= 441 / 100)%R by nra. assert (x * (x * x) <= x * (441 / 100))%R by (apply Rmult_le_compat_l; lra). lra.
Qed.

(* ---------------- the data of one control point ---------------- *)

Definition spin (o a : XYZ R) (th : R) (p : XYZ R) : XYZ R := plus3 o (rotate a th (minus3 p o)).

Lemma spin_circle o a th p : circle_at (foot_on o a p) (arm o a p) (cross3 a (arm o a p)) 1 th = spin o a th p.
Proof. unfold circle_at, spin, arm, foot_on, rotate. destruct o, a, p. v3. apply xyz_eq; ring. Qed.

Lemma arm_frame o a p : dot3 a a = 1%R -> dot3 (cross3 a (arm o a p)) (cross3 a (arm o a p)) = dot3 (arm o a p) (arm o a p) /\ dot3 (arm o a p) (cross3 a (arm o a p)) = 0%R.
Proof.
  intros Ha. assert (Hz : dot3 a (arm o a p) = 0%R).
  { transitivity (dot3 a (minus3 p o) - dot3 a (minus3 p o) * dot3 a a)%R; [|rewrite Ha; ring]. unfold arm, foot_on. destruct o, a, p. v3. ring. }
  generalize dependent (arm o a p). intros X Hz. split.
  - transitivity (dot3 a a * dot3 X X - dot3 a X * dot3 a X)%R; [destruct a, X; v3; ring|]. rewrite Ha, Hz. ring.
  - destruct a, X. v3. ring.
Qed.

Lemma PointToRay_foot o a p : dot3 a a = 1%R -> PointToRay o a p = Ok (foot_on o a p).
Proof.
  intros Ha. unfold PointToRay. num. change (@DotProduct R _) with dot3. rewrite Ha, Rdiv_ok by lra. cbn [bind]. f_equal. unfold foot_on. destruct o, a, p. v3. apply xyz_eq; field.
Qed.

Lemma revolve_knots_ok n : 1 <= n <= 4 -> bind (mkvec (2 * n + 3 + 1) 0%R) (fun k => revolve_knots n k) = Ok (Karc n).
Proof.
  intros H. destruct (four n H) as [-> | [-> | [-> | ->]]]; unfold revolve_knots; cbn -[Rdiv_]; num; rewrite !Rdiv_ok by lra; cbn; try reflexivity; unfold Karc; cbn [Z.eqb Pos.eqb]; repeat f_equal; field.
Qed.

Lemma circle_zero c r th : circle_at c zero3 zero3 r th = c.
Proof. unfold circle_at, zero3. destruct c. v3. apply xyz_eq; ring. Qed.

Lemma cross_zero (x : XYZ R) : cross3 x zero3 = zero3.
Proof. unfold cross3, zero3. cbn [gx gy gz]. f_equal; ring. Qed.

Lemma mkW_scale (P : XYZ R) c w : vscale w (mkW P c) = mkW P (c * w)%R.
Proof. unfold mkW. cbn [vscale Vec_XYZW]. unfold xyzw_scale. cbn [wx wy wz ww]. num. f_equal; ring. Qed.

Lemma pieces_eq rad : (if IsLessThanOrEqual rad (PI / 2)%R then 1 else if IsLessThanOrEqual rad PI then 2 else if IsLessThanOrEqual rad (3 * PI / 2)%R then 3 else 4) = pieces rad.
Proof. reflexivity. Qed.

Section Rev.
Variables (o a : XYZ R) (rad : R) (q m : Z) (W : list R) (G : list (XYZW R)).
Hypothesis Ha : dot3 a a = 1%R.
Hypothesis Hrad : (1 / 500 <= rad <= 2 * PI)%R.
Hypothesis KW : curve_knots q m W.
Hypothesis Hq : q <= 7.
Hypothesis HG : len G = m + 1.
Hypothesis Hwt : forall j, 0 <= j <= m -> (1 / 1000 <= ww (pt G j))%R.
Hypothesis Harm : forall j, 0 <= j <= m -> let X := arm o a (proj (pt G j)) in X = zero3 \/ (1 / 50 <= dot3 X X * rad)%R.

Let n := pieces rad.
Let h := (rad / IZR n / 2)%R.
Let F j := foot_on o a (proj (pt G j)).
Let X j := arm o a (proj (pt G j)).
Let Y j := cross3 a (X j).
Let f (i j : Z) : XYZW R := vscale (ww (pt G j)) (actl (F j) (X j) (Y j) 1 0 h i).

Let Hn : 1 <= n <= 4. Proof. exact (proj1 (pieces_ok rad Hrad)). Qed.
Let Hd : (1 / 500 <= 2 * h <= PI / 2 + 1 / 10)%R.
Proof. pose proof (proj2 (pieces_ok rad Hrad)) as H. unfold h. fold n in H. replace (2 * (rad / IZR n / 2))%R with (rad / IZR n)%R by (field; apply not_0_IZR; pose proof Hn; lia). exact H. Qed.
Let Hc : (1 / 2 < cos h)%R.
Proof. pose proof Hd. replace h with (2 * h / 2)%R by field. apply cos_half_big. lra. Qed.
Let Er : (rad = IZR n * (2 * h))%R.
Proof. unfold h. field. apply not_0_IZR. pose proof Hn. lia. Qed.

Lemma arm_rays j a0 : 0 <= j <= m -> X j <> zero3 ->
  ComputeRays (circle_at (F j) (X j) (Y j) 1 a0) (tang (X j) (Y j) a0) (circle_at (F j) (X j) (Y j) 1 (a0 + 2 * h)) (tang (X j) (Y j) (a0 + 2 * h)) 0%R 0%R xyz0 =
  Ok (Intersecting, (1 * tan h)%R, (- (1 * tan h))%R, circle_at (F j) (X j) (Y j) (1 / cos h) (a0 + h)).
Proof.
  intros Hj Hz. destruct (Harm j Hj) as [E|E]; [contradiction|]. fold (X j) in E. destruct (arm_frame o a (proj (pt G j)) Ha) as [E1 E2]. fold (X j) in E1, E2. fold (Y j) in E1, E2.
  pose proof Hd. pose proof Hn. pose proof Hc. pose proof PI_4. assert (S1 : (h / 2 <= sin (2 * h))%R) by (replace (h / 2)%R with (2 * h / 4)%R at 1 by field; apply sin_quarter; lra).
  assert (IZR n <= 4)%R by (apply IZR_le; lia). assert (1 <= IZR n)%R by (apply IZR_le; lia).
  apply (turn_rays (F j) (X j) (Y j) (dot3 (X j) (X j))); auto; [lra| |apply sin_big; exact Hd].
  assert (P0 : (0 <= dot3 (X j) (X j))%R) by apply dot_pos. set (Q := dot3 (X j) (X j)) in *.
  assert (Q * rad <= Q * (8 * h))%R by (apply Rmult_le_compat_l; [exact P0|]; rewrite Er; nra).
  assert (Q * (h / 2) <= Q * sin (2 * h))%R by (apply Rmult_le_compat_l; lra). lra.
Qed.

Lemma cosines_ok : wp (let! cosines := mkvec (n + 1) 0%R in let! sines := mkvec (n + 1) 0%R in
   for_up 1 (n + 1) (0%R, cosines, sines) (fun i '(angle, cosines, sines) =>
     let angle := (angle + 2 * h)%R in
     let! cosines := upd cosines i (cos angle) in
     let! sines := upd sines i (sin angle) in
     Ok (angle, cosines, sines))) (fun '(_, c, s) => arrD c (n + 1) (fun i => 1 <= i) (fun i => cos (IZR (2 * i) * h)) /\ arrD s (n + 1) (fun i => 1 <= i) (fun i => sin (IZR (2 * i) * h))).
Proof.
  pose proof Hn. apply wp_bind. apply wp_mkvec; [lia|]. intros c0 Hc0. apply wp_bind. apply wp_mkvec; [lia|]. intros s0 Hs0.
  apply wp_for_up with (P := fun k '(t, c, s) => t = (IZR (2 * (k - 1)) * h)%R /\ arrD c (n + 1) (fun i => 1 <= i < k) (fun i => cos (IZR (2 * i) * h)) /\ arrD s (n + 1) (fun i => 1 <= i < k) (fun i => sin (IZR (2 * i) * h))); [lia| | |].
  - split; [cbn; ring|]. split; (split; [first [exact (arr_len _ _ _ Hc0)|exact (arr_len _ _ _ Hs0)]|intros; lia]).
  - intros k [[t c] s] Hk (-> & HC & HS). cbv zeta.
    assert (E : (IZR (2 * (k - 1)) * h + 2 * h = IZR (2 * k) * h)%R) by (rewrite !mult_IZR, minus_IZR; ring). rewrite E.
    apply wp_bind. eapply arrD_set with (D' := fun i => 1 <= i < k + 1); [exact HC|lia|reflexivity|cbv beta; intros; lia|]. intros c1 H1.
    apply wp_bind. eapply arrD_set with (D' := fun i => 1 <= i < k + 1); [exact HS|lia|reflexivity|cbv beta; intros; lia|]. intros s1 H2.
    cbn [wp]. split; [do 2 f_equal; lia|]. auto.
  - intros [[t c] s] (_ & H1 & H2). split; (eapply arrD_ext; [eassumption|]); cbv beta; intros; (split; [lia|reflexivity]).
Qed.

Lemma column_ok cosines sines k S : arrD cosines (n + 1) (fun i => 1 <= i) (fun i => cos (IZR (2 * i) * h)) -> arrD sines (n + 1) (fun i => 1 <= i) (fun i => sin (IZR (2 * i) * h)) ->
  0 <= k < m + 1 -> arr2D S (2 * n + 1) (m + 1) (fun i j => j < k) f ->
  wp (let! gp := get G k in
      let! p := ToXYZ gp true in
      let! foot := PointToRay o a p in
      let X := xyz_sub p foot in
      let! nX := Normalize X in
      let! r := Length nX in
      let Y := CrossProduct a X in
      let! X := if IsGreaterThan r 0%R then xyz_div X r else Ok X in
      let! Y := if IsGreaterThan r 0%R then xyz_div Y r else Ok Y in
      let! controlPoints := upd2 S 0 k (mkW p (ww gp)) in
      let! s := for_up 1 (n + 1)%Z (Some (controlPoints, p, Y, 0%Z)) (fun i s =>
        match s with
        | None => Ok None
        | Some (controlPoints, P0, T0, index) =>
          let! c := get cosines i in
          let! sn := get sines i in
          let P2 := if IsAlmostEqualTo r 0%R then foot
                    else xyz_add (xyz_add foot (xyz_scale (r * c)%R X)) (xyz_scale (r * sn)%R Y) in
          let! controlPoints := upd2 controlPoints (index + 2)%Z k (mkW P2 (ww gp)) in
          let T2 := xyz_add (xyz_scale (- sn)%R X) (xyz_scale c Y) in
          let! mid :=
            if IsAlmostEqualTo r 0%R then Ok (Some foot)
            else
              let! q := ComputeRays P0 T0 P2 T2 0%R 0%R xyz0 in
              let '(type, _, _, intersectPoint) := q in
              match type with Intersecting => Ok (Some intersectPoint) | _ => Ok None end in
          match mid with
          | None => Ok None
          | Some mid =>
            let! controlPoints := upd2 controlPoints (index + 1)%Z k (mkW mid (cos h * ww gp)%R) in
            if (i <? n)%Z then Ok (Some (controlPoints, P2, T2, (index + 2)%Z))
            else Ok (Some (controlPoints, P0, T0, (index + 2)%Z))
          end
        end) in
      match s with
      | None => Ok None
      | Some (controlPoints, _, _, _) => Ok (Some controlPoints)
      end) (fun o => exists S', o = Some S' /\ arr2D S' (2 * n + 1) (m + 1) (fun i j => j < k + 1) f).
Proof.
  intros HC HS Hk HA. pose proof Hn. pose proof (arr_pt G _ HG) as AG. wget AG.
  assert (Hw : (1 / 1000 <= ww (pt G k))%R) by (apply Hwt; lia).
  rewrite ToXYZ_div by (apply heavy_aeq, heavy_iff; lra). cbn [bind].
  change {| gx := _; gy := _; gz := _ |} with (proj (pt G k)). set (p := proj (pt G k)). set (w := ww (pt G k)) in *.
  rewrite (PointToRay_foot _ _ _ Ha). cbn [bind]. cbv zeta. change (xyz_sub p (foot_on o a p)) with (arm o a p). fold (F k). 
  change (foot_on o a p) with (F k). change (arm o a p) with (X k).
  assert (F0 : mkW p w = f 0 k).
  { unfold f. unfold actl. cbn [Z.even]. rewrite mkW_scale. fold w. f_equal; [|ring]. unfold F, X, Y, circle_at. fold p. replace (0 + 0 * h)%R with 0%R by ring. rewrite cos_0, sin_0. unfold X, arm. fold p. destruct p as [p1 p2 p3], (foot_on o a _) as [q1 q2 q3]. v3. apply xyz_eq; ring. }
  assert (Fe : forall i, f (2 * i) k = mkW (circle_at (F k) (X k) (Y k) 1 (IZR (2 * i) * h)) w).
  { intros i. unfold f, actl. rewrite even_2, mkW_scale. fold w. rewrite Rplus_0_l, Rmult_1_l. reflexivity. }
  assert (Fo : forall i, f (2 * i + 1) k = mkW (circle_at (F k) (X k) (Y k) (1 / cos h) (IZR (2 * i) * h + h)) (cos h * w)%R).
  { intros i. unfold f, actl. rewrite even_21, mkW_scale. fold w. rewrite Rplus_0_l, plus_IZR. do 2 f_equal. ring. }
  assert (AE0 : IsAlmostEqualTo 0%R 0%R = true) by apply aeq_refl.
  assert (AE1 : IsAlmostEqualTo 1%R 0%R = false) by (apply heavy_aeq, heavy_iff; lra).
  assert (DC : X k = zero3 \/ X k <> zero3).
  { destruct (X k) as [x1 x2 x3]. unfold zero3. destruct (Req_dec x1 0) as [->|]; [|right; congruence]. destruct (Req_dec x2 0) as [->|]; [|right; congruence]. destruct (Req_dec x3 0) as [->|]; [left; reflexivity|right; congruence]. }
  destruct DC as [EX|NX].
  - rewrite EX. change zero3 with (xyz0 (A := R)) at 1. rewrite Normalize_zero. cbn [bind]. change (xyz0 (A := R)) with zero3. rewrite Length_eq. cbn [bind].
    replace (norm3 zero3) with 0%R by (unfold norm3, dot3, zero3; cbn [gx gy gz]; rewrite !Rmult_0_l, !Rplus_0_l, sqrt_0; reflexivity).
    assert (G0 : IsGreaterThan 0%R 0%R = false) by (destruct (IsGreaterThan 0%R 0%R) eqn:E; [apply gt_iff in E; pose proof (tol_pos 0 0) as T0; rewrite <- tol_thr in E; lra|reflexivity]).
    rewrite G0. cbn [bind]. rewrite AE0.
    assert (EY : Y k = zero3) by (unfold Y; rewrite EX; apply cross_zero).
    apply wp_bind. apply (arr2D_set _ _ _ _ (fun i j => j < k \/ (j = k /\ i = 0)) f 0 k _ _ HA); [lia|lia|exact F0|intros; lia|]. intros S1 H1.
    apply wp_bind. apply wp_for_up with (P := fun i s => exists S' P0 T0, s = Some (S', P0, T0, 2 * (i - 1)) /\ arr2D S' (2 * n + 1) (m + 1) (fun i' j => j < k \/ (j = k /\ i' <= 2 * (i - 1))) f); [lia| | |].
    + exists S1, p, (CrossProduct a zero3). split; [reflexivity|]. eapply arr2D_ext; [exact H1|]. cbv beta. intros; split; [lia|reflexivity].
    + intros i s Hi (S' & P0 & T0 & -> & HS'). rewrite (arrD_get _ _ _ _ _ HC) by lia. cbn [bind]. rewrite (arrD_get _ _ _ _ _ HS) by lia. cbn [bind].
      replace (2 * (i - 1) + 2) with (2 * i) by lia.
      apply wp_bind. apply (arr2D_set _ _ _ _ (fun i' j => j < k \/ (j = k /\ (i' <= 2 * (i - 1) \/ i' = 2 * i))) f (2 * i) k _ _ HS'); [lia|lia| |cbv beta; intros; lia|].
      { rewrite Fe, EX, EY, circle_zero. reflexivity. }
      intros S2 H2. apply wp_bind. apply (arr2D_set _ _ _ _ (fun i' j => j < k \/ (j = k /\ i' <= 2 * (i + 1 - 1))) f (2 * (i - 1) + 1) k _ _ H2); [lia|lia| |cbv beta; intros; lia|].
      { rewrite Fo, EX, EY, circle_zero. reflexivity. }
      intros S3 H3. destruct (i <? n); cbn [wp]; eexists S3, _, _; (split; [do 2 f_equal; lia|exact H3]).
    + intros s (S' & P0 & T0 & -> & HS'). cbn [wp]. exists S'. split; [reflexivity|]. eapply arr2D_ext; [exact HS'|]. cbv beta. intros; split; [lia|reflexivity].
  - destruct (Normalize_spec (X k) NX) as (u & -> & Hu & _). cbn [bind]. rewrite Length_eq. cbn [bind].
    replace (norm3 u) with 1%R by (unfold norm3; change (dot3 u u) with (SqrLength u); rewrite Hu, sqrt_1; reflexivity).
    assert (G0 : IsGreaterThan 1%R 0%R = true) by (apply gt_iff; rewrite <- tol_thr, Rminus_0_r; apply heavy_iff; lra). rewrite G0, AE1.
    assert (D1 : forall x : XYZ R, xyz_div x 1%R = Ok x) by (intros [x1 x2 x3]; unfold xyz_div; num; cbn [gx gy gz]; rewrite !Rdiv_ok by lra; cbn [bind]; do 2 f_equal; field).
    rewrite !D1. cbn [bind]. rewrite (P_Geom.cross_eq a (X k)). fold (Y k).
    apply wp_bind. apply (arr2D_set _ _ _ _ (fun i j => j < k \/ (j = k /\ i = 0)) f 0 k _ _ HA); [lia|lia|exact F0|intros; lia|]. intros S1 H1.
    apply wp_bind. apply wp_for_up with (P := fun i s => exists S' P0 T0, s = Some (S', P0, T0, 2 * (i - 1)) /\ arr2D S' (2 * n + 1) (m + 1) (fun i' j => j < k \/ (j = k /\ i' <= 2 * (i - 1))) f /\
        (i <= n -> P0 = circle_at (F k) (X k) (Y k) 1 (IZR (2 * (i - 1)) * h) /\ T0 = tang (X k) (Y k) (IZR (2 * (i - 1)) * h))); [lia| | |].
    + exists S1, p, (Y k). split; [reflexivity|]. split; [eapply arr2D_ext; [exact H1|]; cbv beta; intros; split; [lia|reflexivity]|].
      intros _. change (2 * (1 - 1)) with 0. rewrite Rmult_0_l. split.
      * pose proof (Fe 0) as E0. change (2 * 0) with 0 in E0. rewrite <- F0 in E0. rewrite Rmult_0_l in E0. unfold mkW in E0. num. 
        pose proof (f_equal wx E0) as X1. pose proof (f_equal wy E0) as X2. pose proof (f_equal wz E0) as X3. cbn [wx wy wz] in X1, X2, X3.
        apply P_XYZ.xyz_eq; (apply (Rmult_eq_reg_r w); [assumption|lra]).
      * unfold tang. rewrite sin_0, cos_0. destruct (Y k), (X k). v3. apply xyz_eq; ring.
    + intros i s Hi (S' & P0 & T0 & -> & HS' & HP). destruct (HP ltac:(lia)) as [-> ->]. clear HP.
      rewrite (arrD_get _ _ _ _ _ HC) by lia. cbn [bind]. rewrite (arrD_get _ _ _ _ _ HS) by lia. cbn [bind].
      replace (2 * (i - 1) + 2) with (2 * i) by lia. set (t := (IZR (2 * i) * h)%R).
      assert (E2 : xyz_add (xyz_add (F k) (xyz_scale (1 * cos t)%R (X k))) (xyz_scale (1 * sin t)%R (Y k)) = circle_at (F k) (X k) (Y k) 1 t).
      { unfold circle_at. destruct (F k), (X k), (Y k). v3. apply xyz_eq; ring. }
      rewrite E2. clear E2. assert (E3 : xyz_add (xyz_scale (- sin t)%R (X k)) (xyz_scale (cos t) (Y k)) = tang (X k) (Y k) t) by (unfold tang; rewrite !scale_eq, !add_eq; reflexivity). rewrite E3. clear E3.
      apply wp_bind. apply (arr2D_set _ _ _ _ (fun i' j => j < k \/ (j = k /\ (i' <= 2 * (i - 1) \/ i' = 2 * i))) f (2 * i) k _ _ HS'); [lia|lia|rewrite Fe; reflexivity|cbv beta; intros; lia|].
      intros S2 H2. assert (Et : t = (IZR (2 * (i - 1)) * h + 2 * h)%R) by (unfold t; rewrite !mult_IZR, minus_IZR; ring).
      rewrite Et. rewrite arm_rays by (auto; lia). cbn [bind]. rewrite <- Et.
      apply wp_bind. apply (arr2D_set _ _ _ _ (fun i' j => j < k \/ (j = k /\ i' <= 2 * (i + 1 - 1))) f (2 * (i - 1) + 1) k _ _ H2); [lia|lia|rewrite Fo; reflexivity|cbv beta; intros; lia|].
      intros S3 H3. destruct (Z.ltb_spec i n); cbn [wp]; eexists S3, _, _; (split; [do 2 f_equal; lia|split; [exact H3|]]).
      * intros _. replace (2 * (i + 1 - 1)) with (2 * i) by lia. fold t. auto.
      * lia.
    + intros s (S' & P0 & T0 & -> & HS' & _). cbn [wp]. exists S'. split; [reflexivity|]. eapply arr2D_ext; [exact HS'|]. cbv beta. intros; split; [lia|reflexivity].
Qed.

Lemma rev_surface : exists S, CreateRevolvedSurface o a rad (mkCurve q W G) = Ok (Some (mkSurface 2 q (Karc n) W S)) /\ arr2 S (2 * n + 1) (m + 1) f.
Proof.
  pose proof Hn. pose proof (ck_n _ _ _ KW) as N1. pose proof (ck_p _ _ _ KW) as G1.
  assert (WP : wp (CreateRevolvedSurface o a rad (mkCurve q W G)) (fun r => exists S, r = Some (mkSurface 2 q (Karc n) W S) /\ arr2 S (2 * n + 1) (m + 1) f)).
  { unfold CreateRevolvedSurface. rewrite (IsZero_false a) by lra. cbn [negb validate bind ControlPoints Degree KnotVector]. num. rewrite !Rdiv_ok by lra. cbn [bind].
    rewrite pieces_eq. fold n. pose proof (revolve_knots_ok n Hn) as RK. destruct (mkvec (2 * n + 3 + 1) 0%R) as [kv|]; [cbn [bind] in *|discriminate].
    rewrite RK. cbn [bind]. rewrite Rdiv_ok by (apply not_0_IZR; lia). cbn [bind]. rewrite Rdiv_ok by lra. cbn [bind]. fold h.
    replace (rad / IZR n)%R with (2 * h)%R by (unfold h; field; apply not_0_IZR; lia).
    pose proof cosines_ok as CK. destruct (mkvec (n + 1) 0%R) as [c0|]; [cbn [bind] in *|destruct CK].
    apply wp_bind. eapply wp_mono; [exact CK|]. clear CK RK. intros [[an cs] sn] [HC HS].
    rewrite HG. replace (m + 1 - 1 + 1) with (m + 1) by lia. apply wp_bind. apply wp_mkvec; [lia|]. intros row Hrow. apply wp_bind. eapply wp_mkvec2; [lia|exact Hrow|]. intros S0 HS0.
    apply wp_bind. apply wp_for_up with (P := fun k r => exists S, r = Some S /\ arr2D S (2 * n + 1) (m + 1) (fun i j => j < k) f); [lia| | |].
    - exists S0. split; [reflexivity|]. apply (arr2D_ext _ _ _ (fun _ _ => False) _ (fun _ _ => xyzw0) _ (arr2_D _ _ _ _ _ HS0)); intros; lia.
    - intros k r Hk (S & -> & HA). exact (column_ok cs sn k S HC HS Hk HA).
    - intros r (S & -> & HA). cbn [wp]. exists S. split; [reflexivity|]. eapply arr2_of_D; [exact HA|intros; cbv beta; lia]. }
  destruct (wp_elim _ _ WP) as (r & E & S & -> & HS). exists S. auto.
Qed.

(* the rotation on homogeneous points *)
Definition spinh (th : R) (g : XYZW R) : XYZW R :=
  let x := spin (times3 (ww g) o) a th (mkXYZ (wx g) (wy g) (wz g)) in mkXYZW (gx x) (gy x) (gz x) (ww g).

Lemma spinh_hom th x w : spinh th (hom x w) = hom (spin o a th x) w.
Proof. unfold spinh, hom, spin, rotate. cbn [wx wy wz ww]. generalize o, a. intros [o1 o2 o3] [a1 a2 a3]. destruct x as [x1 x2 x3]. v3. f_equal; ring. Qed.

Lemma spinh_comb th lo hi c (g : Z -> XYZW R) : spinh th (comb lo hi c g) = comb lo hi c (fun j => spinh th (g j)).
Proof.
  apply co_ext. intros k. rewrite co_comb.
  assert (X0 : wx (comb lo hi c g) = rsum lo hi (fun i => c i * wx (g i))%R) by exact (co_comb 0 lo hi c g).
  assert (X1 : wy (comb lo hi c g) = rsum lo hi (fun i => c i * wy (g i))%R) by exact (co_comb 1 lo hi c g).
  assert (X2 : wz (comb lo hi c g) = rsum lo hi (fun i => c i * wz (g i))%R) by exact (co_comb 2 lo hi c g).
  assert (X3 : ww (comb lo hi c g) = rsum lo hi (fun i => c i * ww (g i))%R) by exact (co_comb 3 lo hi c g).
  assert (LIN : exists l0 l1 l2 l3 : R, forall g, co k (spinh th g) = (l0 * wx g + l1 * wy g + l2 * wz g + l3 * ww g)%R).
  { exists (co k (spinh th (mkXYZW 1 0 0 0)%R)), (co k (spinh th (mkXYZW 0 1 0 0)%R)), (co k (spinh th (mkXYZW 0 0 1 0)%R)), (co k (spinh th (mkXYZW 0 0 0 1)%R)).
    intros [g1 g2 g3 g4]. unfold spinh, spin, rotate. generalize o, a. intros [o1 o2 o3] [a1 a2 a3].
    destruct k as [|[|[|k]]]; cbn [co VecL_XYZW co_xyzw wx wy wz ww]; v3; ring. }
  destruct LIN as (l0 & l1 & l2 & l3 & LIN). rewrite LIN, X0, X1, X2, X3. rewrite <- !rsum_scal, <- !rsum_plus. apply rsum_ext. intros i Hi. rewrite LIN. ring.
Qed.

Lemma Revolve_ok : exists s phi, CreateRevolvedSurface o a rad (mkCurve q W G) = Ok (Some s) /\ 
  DegreeV s = q /\ KnotVectorV s = W /\ phi 0%R = 0%R /\ phi 1%R = rad /\ (forall x y, (0 <= x)%R -> (x < y)%R -> (y <= 1)%R -> (phi x < phi y)%R) /\
  (forall t, (0 <= t <= rad)%R -> exists x, (0 <= x <= 1)%R /\ phi x = t) /\
  forall u v, (0 <= u <= 1)%R -> in_domain q m W v -> exists x, NurbsPoint (mkCurve q W G) v = Ok x /\ NurbsSurfacePoint s u v = Ok (plus3 o (rotate a (phi u) (minus3 x o))).
Proof.
  destruct rev_surface as (S & E & HS). exists (mkSurface 2 q (Karc n) W S), (turn 0 h n). pose proof Hn. pose proof Hd. pose proof Hc. pose proof PI2_1. pose proof Er as Er'.
  assert (HhP : (0 < h < PI)%R) by lra. assert (HhP3 : (0 < h < PI / 3)%R) by lra. pose proof (ck_n _ _ _ KW) as N1. pose proof (ck_p _ _ _ KW) as G1.
  split; [exact E|]. split; [reflexivity|]. split; [reflexivity|].
  split; [apply turn_0; [lia|exact HhP]|]. split; [rewrite turn_1 by (try lia; exact HhP); lra|].
  split; [intros; apply turn_incr; first [lia|lra|assumption]|].
  split; [intros x Hx; apply turn_onto; first [lia|lra|assumption]|].
  intros u v Hu Hv. set (th := turn 0 h n u). pose proof (net_arr2 _ _ _ _ HS) as NS.
  set (C := curve_point q m W G v).
  assert (HC : (1 / 1000 <= ww C)%R).
  { change (ww C) with (co 3 C). unfold C, curve_point. rewrite co_comb.
    replace (1 / 1000)%R with (1 / 1000 * rsum 0 (m + 1) (fun i => N (val W) (val W (m + 1)) (Z.to_nat q) i v))%R by (rewrite (N_sum q m W v KW Hv); ring).
    rewrite <- rsum_scal. apply rsum_le. intros i Hi. rewrite Rmult_comm. apply Rmult_le_compat_l; [apply (N_nonneg q m W v i KW Hv); lia|apply Hwt; lia]. }
  assert (A1 : ToXYZ C true = Ok (proj C)) by (rewrite ToXYZ_div by (apply heavy_aeq, heavy_iff; lra); reflexivity).
  exists (proj C). split.
  { rewrite (NurbsPoint_ok q m) by (auto; lia). exact A1. }
  unfold NurbsSurfacePoint. rewrite (GetPointOnSurface_ok 2 (2 * n) (Karc n) q m W S); [|apply Karc_ok; exact Hn|exact KW|lia|lia|exact NS|apply Karc_dom; [lia|exact Hu]|exact Hv].
  cbn [bind].
  assert (CH : C = hom (proj C) (ww C)). { destruct C as [c1 c2 c3 c4]. unfold hom, proj. cbn [wx wy wz ww gx gy gz] in *. f_equal; field; lra. }
  set (A := aw h n u).
  assert (HA : (1 / 2 <= A)%R /\ forall j, 0 <= j <= m -> comb 0 (2 * n + 1) (fun i => N (val (Karc n)) (val (Karc n) (2 * n + 1)) 2 i u) (fun i => pt2 S i j) = vscale A (spinh th (pt G j))).
  { assert (GEN : forall j, (1 / 2 <= A)%R /\ curve_point 2 (2 * n) (Karc n) (mklist (2 * n + 1) (actl (F j) (X j) (Y j) 1 0 h)) u = hom (circle_at (F j) (X j) (Y j) 1 th) A).
    { intros j. apply arc_hom; auto; try lia. apply arr_mklist. lia. }
    split; [apply (GEN 0)|]. intros j Hj. destruct (GEN j) as [_ EJ]. apply co_ext. intros c. rewrite co_comb.
    transitivity (ww (pt G j) * co c (curve_point 2 (2 * n) (Karc n) (mklist (2 * n + 1) (actl (F j) (X j) (Y j) 1 0 h)) u))%R.
    - unfold curve_point. rewrite co_comb, <- rsum_scal. apply rsum_ext. intros i Hi. rewrite pt_mklist by lia. rewrite (pt2_arr2 _ _ _ _ i j HS) by lia. unfold f. rewrite co_scale. change (Z.to_nat 2) with 2%nat. ring.
    - rewrite EJ. unfold F, Y, X. rewrite spin_circle. rewrite co_scale.
      assert (Ej : pt G j = hom (proj (pt G j)) (ww (pt G j))). { pose proof (Hwt j Hj) as Hj'. destruct (pt G j) as [c1 c2 c3 c4]. unfold hom, proj. cbn [wx wy wz ww gx gy gz] in *. f_equal; field; lra. }
      replace (spinh th (pt G j)) with (spinh th (hom (proj (pt G j)) (ww (pt G j)))) by (rewrite <- Ej; reflexivity). rewrite spinh_hom. set (z := spin o a th (proj (pt G j))). destruct c as [|[|[|c]]]; cbn [co VecL_XYZW co_xyzw hom wx wy wz ww]; ring. }
  destruct HA as [HA1 HA2].
  assert (ES : surface_point 2 (2 * n) (Karc n) q m W S u v = vscale A (spinh th C)).
  { unfold C, curve_point. rewrite spinh_comb. apply co_ext. intros c. rewrite co_scale, co_comb. unfold surface_point. rewrite co_comb.
    rewrite (rsum_ext 0 (2 * n + 1) _ (fun i => rsum 0 (m + 1) (fun j => N (val W) (val W (m + 1)) (Z.to_nat q) j v * (N (val (Karc n)) (val (Karc n) (2 * n + 1)) 2 i u * co c (pt2 S i j))))%R).
    2:{ intros i Hi. rewrite co_comb, <- rsum_scal. apply rsum_ext. intros j Hj. change (Z.to_nat 2) with 2%nat. ring. }
    rewrite rsum_swap, <- rsum_scal. apply rsum_ext. intros j Hj. rewrite rsum_scal, <- co_comb, HA2 by lia. rewrite co_scale. ring. }
  rewrite ES, CH, spinh_hom. set (x := spin o a th (proj C)).
  assert (EV : vscale A (hom x (ww C)) = mkW x (A * ww C)%R). { unfold hom, mkW. cbn [vscale Vec_XYZW]. unfold xyzw_scale. num. cbn [wx wy wz ww]. f_equal; ring. }
  rewrite <- CH. rewrite EV. apply ToXYZ_mkW. apply heavy_aeq, heavy_iff. nra.
Qed.
End Rev.

(* ---------------- a quarter turn about the z axis of a line parallel to it ---------------- *)

Section Quarter.
Variables (c x : R).
Hypothesis Hcc : (1 <= c)%R.
Hypothesis Hx : (0 < x)%R.

Lemma quarter_step z : let p := mkXYZ x 0%R z in let X := mkXYZ x 0%R 0%R in
  ToXYZ (mkXYZW x 0%R z 1%R) true = Ok p /\ PointToRay (mkXYZ 0 0 0)%R (mkXYZ 0 0 c)%R p = Ok (mkXYZ 0 0 z)%R /\
  xyz_sub p (mkXYZ 0 0 z)%R = X /\ Normalize X = Ok (mkXYZ 1 0 0)%R /\ Length (mkXYZ 1 0 0)%R = Ok 1%R /\ CrossProduct (mkXYZ 0 0 c)%R X = mkXYZ 0%R (c * x)%R 0%R.
Proof.
  cbv zeta. split; [apply (ToXYZ_1 (mkXYZ x 0%R z))|]. split; [|split; [|split; [|split]]].
  - unfold PointToRay. num. unfold DotProduct. num. cbn [gx gy gz]. rewrite Rdiv_ok by nra. cbn [bind]. f_equal. unfold xyz_add, xyz_scale, xyz_sub. num. cbn [gx gy gz]. apply xyz_eq; try ring. field. lra.
  - unfold xyz_sub. num. cbn [gx gy gz]. apply xyz_eq; ring.
  - apply Normalize_direction. split; [unfold dot3; cbn [gx gy gz]; ring|]. exists x. split; [exact Hx|]. unfold times3. cbn [gx gy gz]. apply xyz_eq; ring.
  - rewrite Length_eq. f_equal. unfold norm3, dot3. cbn [gx gy gz]. replace (1 * 1 + 0 * 0 + 0 * 0)%R with 1%R by ring. apply sqrt_1.
  - unfold CrossProduct. num. cbn [gx gy gz]. apply xyz_eq; ring.
Qed.

Lemma quarter_narcs : pieces (PI / 2) = 1.
Proof. unfold pieces. assert (E : IsLessThanOrEqual (PI / 2)%R (PI / 2)%R = true); [|rewrite E; reflexivity]. apply le_iff. pose proof (tol_pos (PI / 2) (PI / 2)). rewrite <- tol_thr. lra. Qed.

Definition quarter_net (m0 m1 : XYZ R) : list (list (XYZW R)) :=
  let w := cos (PI / 2 / 1 / 2) in
  [[mkW (mkXYZ x 0 0)%R 1%R; mkW (mkXYZ x 0 1)%R 1%R]; [mkW m0 (w * 1)%R; mkW m1 (w * 1)%R]; [mkW (mkXYZ 0%R (c * x)%R 0%R) 1%R; mkW (mkXYZ 0%R (c * x)%R 1%R) 1%R]].

Definition rev_col (o a : XYZ R) (n : Z) (w : R) (cosines sines : list R) (G : list (XYZW R)) (k : Z) (S : list (list (XYZW R))) : res (option (list (list (XYZW R)))) :=
      let! gp := get G k in
      let! p := ToXYZ gp true in
      let! foot := PointToRay o a p in
      let X := xyz_sub p foot in
      let! nX := Normalize X in
      let! r := Length nX in
      let Y := CrossProduct a X in
      let! X := if IsGreaterThan r 0%R then xyz_div X r else Ok X in
      let! Y := if IsGreaterThan r 0%R then xyz_div Y r else Ok Y in
      let! controlPoints := upd2 S 0 k (mkW p (ww gp)) in
      let! s := for_up 1 (n + 1)%Z (Some (controlPoints, p, Y, 0%Z)) (fun i s =>
        match s with
        | None => Ok None
        | Some (controlPoints, P0, T0, index) =>
          let! c := get cosines i in
          let! sn := get sines i in
          let P2 := if IsAlmostEqualTo r 0%R then foot
                    else xyz_add (xyz_add foot (xyz_scale (r * c)%R X)) (xyz_scale (r * sn)%R Y) in
          let! controlPoints := upd2 controlPoints (index + 2)%Z k (mkW P2 (ww gp)) in
          let T2 := xyz_add (xyz_scale (- sn)%R X) (xyz_scale c Y) in
          let! mid :=
            if IsAlmostEqualTo r 0%R then Ok (Some foot)
            else
              let! q := ComputeRays P0 T0 P2 T2 0%R 0%R xyz0 in
              let '(type, _, _, intersectPoint) := q in
              match type with Intersecting => Ok (Some intersectPoint) | _ => Ok None end in
          match mid with
          | None => Ok None
          | Some mid =>
            let! controlPoints := upd2 controlPoints (index + 1)%Z k (mkW mid (w * ww gp)%R) in
            if (i <? n)%Z then Ok (Some (controlPoints, P2, T2, (index + 2)%Z))
            else Ok (Some (controlPoints, P0, T0, (index + 2)%Z))
          end
        end) in
      match s with
      | None => Ok None
      | Some (controlPoints, _, _, _) => Ok (Some controlPoints)
      end.

Lemma quarter_col w z (G : list (XYZW R)) k S : get G k = Ok (mkXYZW x 0 z 1)%R ->
  rev_col (mkXYZ 0 0 0)%R (mkXYZ 0 0 c)%R 1 w [0; 0]%R [0; 1]%R G k S =
  let! S1 := upd2 S 0 k (mkW (mkXYZ x 0 z)%R 1%R) in
  let! S2 := upd2 S1 2 k (mkW (mkXYZ 0 (c * x) z)%R 1%R) in
  let! q0 := ComputeRays (mkXYZ x 0 z)%R (mkXYZ 0 (c * x) 0)%R (mkXYZ 0 (c * x) z)%R (mkXYZ (- x) 0 0)%R 0%R 0%R xyz0 in
  match q0 with
  | (Intersecting, _, _, m0) => let! S3 := upd2 S2 1 k (mkW m0 (w * 1)%R) in Ok (Some S3)
  | _ => Ok None
  end.
Proof.
  intros EG. unfold rev_col. rewrite EG. cbn [bind].
  assert (AE1 : IsAlmostEqualTo 1%R 0%R = false) by (apply heavy_aeq, heavy_iff; lra).
  assert (G0 : IsGreaterThan 1%R 0%R = true) by (apply gt_iff; rewrite <- tol_thr, Rminus_0_r; apply heavy_iff; lra).
  assert (D1 : forall x : XYZ R, xyz_div x 1%R = Ok x) by (intros [x1 x2 x3]; unfold xyz_div; num; cbn [gx gy gz]; rewrite !Rdiv_ok by lra; cbn [bind]; do 2 f_equal; field).
  destruct (quarter_step z) as (E1 & E2 & E3 & E4 & E5 & E6). rewrite E1. cbn [bind]. rewrite E2. cbn [bind]. cbv zeta. rewrite !E3, E4. cbn [bind]. rewrite E5. cbn [bind]. rewrite E6, G0, !D1. cbn [bind]. rewrite AE1. cbn [ww].
  destruct (upd2 S 0 k (mkW (mkXYZ x 0 z)%R 1%R)) as [S1|]; cbn [bind ww]; [|reflexivity].
  unfold for_up. change (Z.to_nat (1 + 1 - 1)) with 1%nat. cbn [iter_up bind]. change (get [0; 0]%R 1) with (Ok 0%R). cbn [bind]. change (get [0; 1]%R 1) with (Ok 1%R). cbn [bind]. change (0 + 2) with 2. change (0 + 1) with 1.
  replace (xyz_add (xyz_add (mkXYZ 0 0 z) (xyz_scale (1 * 0) (mkXYZ x 0 0))) (xyz_scale (1 * 1) (mkXYZ 0 (c * x) 0)))%R with (mkXYZ 0 (c * x) z)%R by (unfold xyz_add, xyz_scale; num; cbn [gx gy gz]; apply xyz_eq; ring).
  replace (xyz_add (xyz_scale (- 1) (mkXYZ x 0 0)) (xyz_scale 0 (mkXYZ 0 (c * x) 0)))%R with (mkXYZ (- x) 0 0)%R by (unfold xyz_add, xyz_scale; num; cbn [gx gy gz]; apply xyz_eq; ring).
  destruct (upd2 S1 2 k (mkW (mkXYZ 0 (c * x) z)%R 1%R)) as [S2|]; cbn [bind ww]; [|reflexivity].
  destruct (ComputeRays _ _ _ _ _ _ _) as [[[[[] x1] y1] P1]|]; cbn [bind]; try reflexivity.
  destruct (upd2 S2 1 k _); reflexivity.
Qed.

Lemma up00 {T} (za zb zc zd ze zf v : T) : upd2 [[za; zb]; [zc; zd]; [ze; zf]] 0 0 v = Ok [[v; zb]; [zc; zd]; [ze; zf]]. Proof. reflexivity. Qed.
Lemma up01 {T} (za zb zc zd ze zf v : T) : upd2 [[za; zb]; [zc; zd]; [ze; zf]] 0 1 v = Ok [[za; v]; [zc; zd]; [ze; zf]]. Proof. reflexivity. Qed.
Lemma up10 {T} (za zb zc zd ze zf v : T) : upd2 [[za; zb]; [zc; zd]; [ze; zf]] 1 0 v = Ok [[za; zb]; [v; zd]; [ze; zf]]. Proof. reflexivity. Qed.
Lemma up11 {T} (za zb zc zd ze zf v : T) : upd2 [[za; zb]; [zc; zd]; [ze; zf]] 1 1 v = Ok [[za; zb]; [zc; v]; [ze; zf]]. Proof. reflexivity. Qed.
Lemma up20 {T} (za zb zc zd ze zf v : T) : upd2 [[za; zb]; [zc; zd]; [ze; zf]] 2 0 v = Ok [[za; zb]; [zc; zd]; [v; zf]]. Proof. reflexivity. Qed.
Lemma up21 {T} (za zb zc zd ze zf v : T) : upd2 [[za; zb]; [zc; zd]; [ze; zf]] 2 1 v = Ok [[za; zb]; [zc; zd]; [ze; v]]. Proof. reflexivity. Qed.

Lemma quarter_revolve : 
  CreateRevolvedSurface (mkXYZ 0 0 0)%R (mkXYZ 0 0 c)%R (PI / 2)%R (mkCurve 1 [0; 0; 1; 1]%R [mkXYZW x 0 0 1; mkXYZW x 0 1 1]%R) =
  let! q0 := ComputeRays (mkXYZ x 0 0)%R (mkXYZ 0 (c * x) 0)%R (mkXYZ 0 (c * x) 0)%R (mkXYZ (- x) 0 0)%R 0%R 0%R xyz0 in
  match q0 with
  | (Intersecting, _, _, m0) =>
    let! q1 := ComputeRays (mkXYZ x 0 1)%R (mkXYZ 0 (c * x) 0)%R (mkXYZ 0 (c * x) 1)%R (mkXYZ (- x) 0 0)%R 0%R 0%R xyz0 in
    match q1 with
    | (Intersecting, _, _, m1) => Ok (Some (mkSurface 2 1 [0; 0; 0; 1; 1; 1]%R [0; 0; 1; 1]%R (quarter_net m0 m1)))
    | _ => Ok None
    end
  | _ => Ok None
  end.
Proof.
  unfold CreateRevolvedSurface. rewrite (IsZero_false (mkXYZ 0 0 c)%R) by (unfold dot3; cbn [gx gy gz]; nra). cbn [negb validate bind ControlPoints Degree KnotVector]. num. rewrite !Rdiv_ok by lra. cbn [bind].
  rewrite pieces_eq, quarter_narcs. pose proof (revolve_knots_ok 1 ltac:(lia)) as RK. destruct (mkvec (2 * 1 + 3 + 1) 0%R) as [kv|]; [cbn [bind] in *|discriminate].
  rewrite RK. cbn [bind]. rewrite Rdiv_ok by lra. cbn [bind]. rewrite Rdiv_ok by lra. cbn [bind].
  set (G := [mkXYZW x 0 0 1; mkXYZW x 0 1 1]%R). change (len G) with 2. change (2 - 1 + 1) with 2. change (2 * 1 + 1) with 3.
  change (mkvec (1 + 1) 0%R) with (Ok [0; 0]%R). cbn [bind]. unfold for_up at 1. change (Z.to_nat (1 + 1 - 1)) with 1%nat. cbn [iter_up bind].
  change (upd [0; 0]%R 1 (cos (0 + PI / 2 / 1))) with (Ok [0; cos (0 + PI / 2 / 1)]%R). cbn [bind]. change (upd [0; 0]%R 1 (sin (0 + PI / 2 / 1))) with (Ok [0; sin (0 + PI / 2 / 1)]%R). cbn [bind].
  replace (0 + PI / 2 / 1)%R with (PI / 2)%R by field. rewrite cos_PI2, sin_PI2.
  change (mkvec 2 (xyzw0 (A := R))) with (Ok [xyzw0; xyzw0] : res (list (XYZW R))). cbn [bind]. set (S0 := [[xyzw0; xyzw0 (A := R)]; [xyzw0; xyzw0]; [xyzw0; xyzw0]]). change (mkvec 3 [xyzw0; xyzw0 (A := R)]) with (Ok S0). cbn [bind].
  unfold for_up at 1. change (Z.to_nat (2 - 0)) with 2%nat.
  match goal with |- bind (iter_up _ _ ?b _) _ = _ => set (step := b) end. cbn [iter_up].
  change (step 0 (Some S0)) with (rev_col (mkXYZ 0 0 0)%R (mkXYZ 0 0 c)%R 1 (cos (PI / 2 / 1 / 2)) [0; 0]%R [0; 1]%R G 0 S0).
  rewrite (quarter_col _ 0) by reflexivity. unfold S0. rewrite up00. cbn [bind]. rewrite up20. cbn [bind].
  destruct (ComputeRays (mkXYZ x 0 0)%R _ _ _ _ _ _) as [[[[[] x1] y1] P1]|]; cbn [bind]; try reflexivity.
  rewrite up10. cbn [bind]. change (0 + 1) with 1. 
  match goal with |- context [step 1 (Some ?S)] => change (step 1 (Some S)) with (rev_col (mkXYZ 0 0 0)%R (mkXYZ 0 0 c)%R 1 (cos (PI / 2 / 1 / 2)) [0; 0]%R [0; 1]%R G 1 S) end.
  rewrite (quarter_col _ 1) by reflexivity. rewrite up01. cbn [bind]. rewrite up21. cbn [bind].
  destruct (ComputeRays (mkXYZ x 0 1)%R _ _ _ _ _ _) as [[[[[] x2] y2] P2]|]; cbn [bind]; try reflexivity.
Qed.
End Quarter.

(* an axis of length 2: the quarter turn takes (1,0,0) to (0,2,0) *)
Lemma revolve_long_axis : exists s, CreateRevolvedSurface (mkXYZ 0 0 0)%R (mkXYZ 0 0 2)%R (PI / 2)%R (mkCurve 1 [0; 0; 1; 1]%R [mkXYZW 1 0 0 1; mkXYZW 1 0 1 1]%R) = Ok (Some s) /\
  NurbsSurfacePoint s 1%R 0%R = Ok (mkXYZ 0 2 0)%R.
Proof.
  assert (R : forall z, ComputeRays (mkXYZ 1 0 z)%R (mkXYZ 0 (2 * 1) 0)%R (mkXYZ 0 (2 * 1) z)%R (mkXYZ (- (1)) 0 0)%R 0%R 0%R xyz0 = Ok (Intersecting, 1%R, (-1)%R, mkXYZ 1 2 z)%R).
  { intros z. rewrite (ComputeRays_meet _ _ _ _) with (s := 1%R) (t := (-1)%R).
    - do 2 f_equal. unfold line_at, plus3, times3. cbn [gx gy gz]. apply xyz_eq; ring.
    - intros [(_ & N & _) _]. cbn [gx gy gz] in N. unfold tol in N. replace (2 * 1 - 0)%R with 2%R in N by ring. rewrite Rabs_R0, !Rabs_pos_eq, Rmax_left in N by lra. lra.
    - unfold dot3. cbn [gx gy gz]. lra.
    - unfold dot3. cbn [gx gy gz]. lra.
    - unfold gram, dot3, small. cbn [gx gy gz]. intros S. match type of S with Rle (Rabs ?e) _ => replace e with 4%R in S by ring end. rewrite Rabs_pos_eq in S by lra. lra.
    - unfold line_at, plus3, times3. cbn [gx gy gz]. apply xyz_eq; ring. }
  eexists. split.
  { rewrite (quarter_revolve 2 1) by lra. rewrite R. cbn [bind]. rewrite R. cbn [bind]. reflexivity. }
  unfold NurbsSurfacePoint. rewrite (GetPointOnSurface_ok 2 2 (bezier_knots 2) 1 1 (bezier_knots 1)); [|apply bez_knots_ok; lia|apply bez_knots_ok; lia|lia|lia| |apply bez_dom; [lia|lra]|apply bez_dom; [lia|lra]].
  2:{ split; [reflexivity|]. intros i Hi. assert (i = 0 \/ i = 1 \/ i = 2) as [-> | [-> | ->]] by lia; reflexivity. }
  cbn [bind]. match goal with |- ToXYZ ?x true = _ => assert (E : (x = mkXYZW 0 2 0 1)%R) end.
  { apply co_ext. intros c. rewrite bez_surface by (first [lia|lra]). rewrite rsum_3. rewrite !bez_curve by (first [lia|lra]). rewrite !rsum_2.
    destruct (bern2 1) as (-> & -> & ->). destruct (bern1 0) as (-> & ->).
    unfold quarter_net. set (w := (cos _ * 1)%R). set (m := mkW (mkXYZ 1 2 0)%R w). set (m' := mkW (mkXYZ 1 2 1)%R w).
    change (pt (at_ nil _ 0) 0) with (mkW (mkXYZ 1 0 0)%R 1%R). change (pt (at_ nil _ 0) 1) with (mkW (mkXYZ 1 0 1)%R 1%R).
    change (pt (at_ nil _ 1) 0) with m. change (pt (at_ nil _ 1) 1) with m'.
    change (pt (at_ nil _ 2) 0) with (mkW (mkXYZ 0 (2 * 1) 0)%R 1%R). change (pt (at_ nil _ 2) 1) with (mkW (mkXYZ 0 (2 * 1) 1)%R 1%R).
    generalize (co c m), (co c m'). intros. unfold mkW. num. destruct c as [|[|[|c]]]; cbn [co VecL_XYZW co_xyzw wx wy wz ww gx gy gz]; ring. }
  rewrite E. exact (ToXYZ_1 (mkXYZ 0 2 0)%R).
Qed.

(* a profile a hundredth away from the axis is refused *)
Lemma revolve_thin : CreateRevolvedSurface (mkXYZ 0 0 0)%R (mkXYZ 0 0 1)%R (PI / 2)%R (mkCurve 1 [0; 0; 1; 1]%R [mkXYZW (1 / 100) 0 0 1; mkXYZW (1 / 100) 0 1 1]%R) = Ok None.
Proof.
  rewrite quarter_revolve by lra.
  match goal with |- bind (ComputeRays ?p0 ?v0 ?p1 ?v1 _ _ _) _ = _ => set (q0 := p0); set (t0 := v0); set (q1 := p1); set (t1 := v1) end.
  assert (NN : ~ (Spec3.near t0 t1 /\ Spec3.near q0 q1)).
  { intros [(_ & N & _) _]. unfold t0, t1 in N. cbn [gx gy gz] in N. unfold tol in N. replace (1 * (1 / 100) - 0)%R with (1 / 100)%R in N by field. rewrite Rabs_R0, !Rabs_pos_eq, Rmax_left in N by lra. lra. }
  destruct (ComputeRays_cases q0 t0 q1 t1 NN) with (a := 0%R) (b := 0%R) (out := xyz0 (A := R)) as (_ & R2 & _).
  { unfold t0, dot3. cbn [gx gy gz]. lra. } { unfold t1, dot3. cbn [gx gy gz]. lra. }
  change q1 with t0 in R2; rewrite R2; [reflexivity| |].
  - unfold gram, small, t0, t1, dot3. cbn [gx gy gz]. rewrite Rabs_pos_eq by lra. lra.
  - unfold small, norm3, q0, t0. match goal with |- context [R_sqrt.sqrt ?e] => replace e with (1 / 10000 * (1 / 10000))%R by (unfold dot3, cross3, minus3; cbn [gx gy gz]; field) end.
    rewrite sqrt_square by lra. rewrite Rabs_pos_eq by lra. lra.
Qed.
