(* Surfaces built from points and arcs. *)
From Coq Require Import ZArith List Bool Reals Lra Lia.
From Verif Require Import Base Num Vec Tac Spec Spec2 Spec3 Spec4 Spec8 Spec9 M_MathUtils M_Polynomials M_XYZ M_Bspline M_NurbsCurve M_Curve2 M_Geom M_Conic M_Surface
  P_MathUtils P_Bern P_Span P_Cox P_Basis P_Deriv P_Vec P_XYZ P_VSum P_Curve P_Bspline P_BsplineS P_Matrix P_Loop P_Geom P_Nurbs P_Conic P_Decomp P_Reduce P_RSurf P_RSurf2.
Import ListNotations.
Open Scope Z_scope.

(* ---------------- a surface is a curve of curves ---------------- *)

Section CC.
Context {T : Type} {V : Vec R T} {L : VecL T}.
Lemma pt_mklist n (f : Z -> T) i : 0 <= i < n -> pt (mklist n f) i = f i.
Proof. intros Hi. unfold pt. exact (arr_at_eq _ _ _ _ i (arr_mklist n f ltac:(lia)) Hi). Qed.

Lemma surface_as_curve p n U q m W (P : list (list T)) u v : 0 <= n + 1 ->
  surface_point p n U q m W P u v = curve_point p n U (mklist (n + 1) (fun i => curve_point q m W (at_ nil P i) v)) u.
Proof.
  intros Hn. unfold surface_point, curve_point at 1. apply comb_ext. intros i Hi. split; [reflexivity|].
  rewrite pt_mklist by lia. reflexivity.
Qed.

(* on the knots 0..0 1..1 *)
Lemma bez_surface p q m W (P : list (list T)) u v c : 0 <= p -> (0 <= u <= 1)%R ->
  co c (surface_point p p (bezier_knots p) q m W P u v) = rsum 0 (p + 1) (fun i => bern p i u * co c (curve_point q m W (at_ nil P i) v))%R.
Proof.
  intros Hp Hu. rewrite surface_as_curve by lia. rewrite bezier_curve.
  - rewrite co_comb. rewrite !bez_val by lia. rewrite (proj2 (Z.leb_le p p)), (proj2 (Z.leb_gt (p + 1) p)) by lia.
    replace ((u - 0) / (1 - 0))%R with u by field. apply rsum_ext. intros i Hi. rewrite pt_mklist by lia. reflexivity.
  - apply bez_knots_ok, Hp.
  - split; rewrite !bez_val by lia; [destruct (Z.leb_spec 0 p), (Z.leb_spec p p)|destruct (Z.leb_spec (p + 1) p), (Z.leb_spec (p + p + 1) p)]; try lia; reflexivity.
  - unfold in_domain. rewrite !bez_val by lia. rewrite (proj2 (Z.leb_le p p)), (proj2 (Z.leb_gt (p + 1) p)) by lia. exact Hu.
Qed.

Lemma bez_curve p (P : list T) u c : 0 <= p -> (0 <= u <= 1)%R ->
  co c (curve_point p p (bezier_knots p) P u) = rsum 0 (p + 1) (fun i => bern p i u * co c (pt P i))%R.
Proof.
  intros Hp Hu. rewrite bezier_curve.
  - rewrite co_comb. rewrite !bez_val by lia. rewrite (proj2 (Z.leb_le p p)), (proj2 (Z.leb_gt (p + 1) p)) by lia.
    replace ((u - 0) / (1 - 0))%R with u by field. reflexivity.
  - apply bez_knots_ok, Hp.
  - split; rewrite !bez_val by lia; [destruct (Z.leb_spec 0 p), (Z.leb_spec p p)|destruct (Z.leb_spec (p + 1) p), (Z.leb_spec (p + p + 1) p)]; try lia; reflexivity.
  - unfold in_domain. rewrite !bez_val by lia. rewrite (proj2 (Z.leb_le p p)), (proj2 (Z.leb_gt (p + 1) p)) by lia. exact Hu.
Qed.
End CC.

Lemma bez_dom p u : 0 <= p -> (0 <= u <= 1)%R -> in_domain p p (bezier_knots p) u.
Proof. intros Hp Hu. unfold in_domain. rewrite !bez_val by lia. rewrite (proj2 (Z.leb_le p p)), (proj2 (Z.leb_gt (p + 1) p)) by lia. exact Hu. Qed.

Ltac pw := lazy [Z.to_nat Pos.to_nat Pos.iter_op Init.Nat.add pow].
Lemma bern1 x : bern 1 0 x = (1 - x)%R /\ bern 1 1 x = x.
Proof. split; [rewrite bern_0 by lia|rewrite bern_n by lia]; pw; ring. Qed.
Lemma bern2 x : bern 2 0 x = ((1 - x) * (1 - x))%R /\ bern 2 1 x = (2 * x * (1 - x))%R /\ bern 2 2 x = (x * x)%R.
Proof.
  destruct (bern1 x) as (E0 & E1). split; [rewrite bern_0 by lia; pw; ring|]. split; [|rewrite bern_n by lia; pw; ring].
  rewrite bern_rec by lia. change (2 - 1) with 1. change (1 - 1) with 0. rewrite E0, E1. ring.
Qed.
Lemma bern3 x : bern 3 0 x = ((1 - x) * (1 - x) * (1 - x))%R /\ bern 3 1 x = (3 * x * (1 - x) * (1 - x))%R /\ bern 3 2 x = (3 * x * x * (1 - x))%R /\ bern 3 3 x = (x * x * x)%R.
Proof.
  destruct (bern2 x) as (E0 & E1 & E2). split; [rewrite bern_0 by lia; pw; ring|]. split; [|split; [|rewrite bern_n by lia; pw; ring]];
  rewrite bern_rec by lia; change (3 - 1) with 2; [change (1 - 1) with 0; rewrite E0, E1|change (2 - 1) with 1; rewrite E1, E2]; ring.
Qed.
Lemma rsum_2 f : rsum 0 (1 + 1) f = (f 0%Z + f 1%Z)%R.
Proof. change (1 + 1) with (0 + 1 + 1). rewrite !rsum_last by lia. rewrite rsum_nil by lia. cbn [Z.add Pos.add Pos.succ]. ring. Qed.
Lemma rsum_3 f : rsum 0 (2 + 1) f = (f 0%Z + f 1%Z + f 2%Z)%R.
Proof. change (2 + 1) with (0 + 1 + 1 + 1). rewrite !rsum_last by lia. rewrite rsum_nil by lia. cbn [Z.add Pos.add Pos.succ]. ring. Qed.
Lemma rsum_4 f : rsum 0 (3 + 1) f = (f 0%Z + f 1%Z + f 2%Z + f 3%Z)%R.
Proof. change (3 + 1) with (0 + 1 + 1 + 1 + 1). rewrite !rsum_last by lia. rewrite rsum_nil by lia. cbn [Z.add Pos.add Pos.succ]. ring. Qed.

(* ---------------- bilinear ---------------- *)


Lemma Bilinear_ok tl tr bl br : returns (CreateBilinearSurface tl tr bl br) (fun s => forall u v, (0 <= u <= 1)%R -> (0 <= v <= 1)%R ->
  NurbsSurfacePoint s u v = Ok (lerp3 (lerp3 tl bl u) (lerp3 tr br u) v)).
Proof.
  set (H := mklist 4 (fun i => mklist 4 (fun j => hom (lerp3 (lerp3 tl bl (IZR i / 3)) (lerp3 tr br (IZR i / 3)) (IZR j / 3)) 1))).
  exists (mkSurface 3 3 (bezier_knots 3) (bezier_knots 3) H). split.
  - assert (D : forall i, ndiv (A := R) (nofZ i) (nofZ 3) = Ok (IZR i / 3)%R) by (intros; num; apply Rdiv_ok; lra).
    unfold CreateBilinearSurface, for_up. change (Z.to_nat (3 + 1 - 0)) with 4%nat. cbn [iter_up bind]. repeat (rewrite D; cbn [iter_up bind app]).
    cbn [Z.add Pos.add Pos.succ]. f_equal. unfold H, mklist. change (Z.to_nat 4) with 4%nat. cbn [seq map].
    f_equal. cbn [Z.of_nat Pos.of_succ_nat Pos.succ].
    assert (E : forall i j : R, (mkW (xyz_add (xyz_scale (1 - j) (xyz_add (xyz_scale (1 - i) tl) (xyz_scale (1 - (1 - i)) bl))) (xyz_scale j (xyz_add (xyz_scale (1 - i) tr) (xyz_scale (1 - (1 - i)) br)))) 1 = hom (lerp3 (lerp3 tl bl i) (lerp3 tr br i) j) 1)%R).
    { intros i j. unfold mkW, xyz_add, xyz_scale, hom, lerp3, plus3, times3. num. cbn [gx gy gz]. f_equal; ring. }
    num. rewrite !E. reflexivity.
  - intros u v Hu Hv.
    assert (HH : net (3 + 1) (3 + 1) H) by (apply net_arr2 with (f := fun i j => hom (lerp3 (lerp3 tl bl (IZR i / 3)) (lerp3 tr br (IZR i / 3)) (IZR j / 3)) 1); split; [reflexivity|]; intros i Hi; assert (i = 0 \/ i = 1 \/ i = 2 \/ i = 3) as [-> | [-> | [-> | ->]]] by lia; eexists; split; try reflexivity; apply arr_mklist; lia).
    unfold NurbsSurfacePoint. rewrite (GetPointOnSurface_ok 3 3 _ 3 3) by (try apply bez_knots_ok; try apply bez_dom; auto; lia). cbn [bind].
    assert (C : forall c, co c (surface_point 3 3 (bezier_knots 3) 3 3 (bezier_knots 3) H u v) = co c (hom (lerp3 (lerp3 tl bl u) (lerp3 tr br u) v) 1)).
    { intros c. rewrite bez_surface by (auto; lia). rewrite rsum_4. rewrite !bez_curve by (auto; lia). rewrite !rsum_4.
      destruct (bern3 u) as (-> & -> & -> & ->). destruct (bern3 v) as (-> & -> & -> & ->).
      assert (EP : forall i j, 0 <= i < 4 -> 0 <= j < 4 -> pt (at_ nil H i) j = hom (lerp3 (lerp3 tl bl (IZR i / 3)) (lerp3 tr br (IZR i / 3)) (IZR j / 3)) 1).
      { intros i j Hi Hj. unfold H. erewrite (arr_at_eq nil) by first [apply arr_mklist; lia|exact Hi]. cbv beta. rewrite pt_mklist by exact Hj. reflexivity. }
      rewrite !EP by lia. clear EP HH H. do 4 (destruct c as [|c]; [cbn [co VecL_XYZW co_xyzw]; unfold hom, lerp3, plus3, times3; cbn [gx gy gz wx wy wz ww]; field|]). cbn [co VecL_XYZW co_xyzw]; unfold hom, lerp3, plus3, times3; cbn [gx gy gz wx wy wz ww]; field. }
    set (S := surface_point 3 3 (bezier_knots 3) 3 3 (bezier_knots 3) H u v) in *.
    assert (ES : S = hom (lerp3 (lerp3 tl bl u) (lerp3 tr br u) v) 1) by (apply co_ext; exact C).
    rewrite ES. apply (ToXYZ_mkW (lerp3 (lerp3 tl bl u) (lerp3 tr br u) v)). apply heavy_aeq, heavy_iff. lra.
Qed.

(* ---------------- arcs in homogeneous coordinates ---------------- *)

(* the weight of an arc at t: it does not depend on the circle *)
Definition aw (h : R) (n : Z) (t : R) : R :=
  let s := (t * IZR n - IZR (piece n t))%R in ((1 - s) * (1 - s) + 2 * s * (1 - s) * cos h + s * s)%R.

Lemma Karc_dom n t : 1 <= n <= 4 -> (0 <= t <= 1)%R -> in_domain 2 (2 * n) (Karc n) t.
Proof.
  intros Hn Ht. destruct (Karc_val n 0 Hn ltac:(lia)) as (_ & V2 & _). destruct (Karc_val n (n - 1) Hn ltac:(lia)) as (_ & _ & V3 & _).
  unfold in_domain. replace (2 * n + 1) with (2 * (n - 1) + 3) by lia. change 2 with (2 * 0 + 2) at 1. rewrite V2, V3.
  replace (n - 1 + 1) with n by lia. assert (IZR n <> 0)%R by (apply not_0_IZR; lia). replace (IZR 0 / IZR n)%R with 0%R by (field; auto). replace (IZR n / IZR n)%R with 1%R by (field; auto). exact Ht.
Qed.

Lemma arc_hom ctr u v r start h n H t : 1 <= n <= 4 -> (0 < h < PI / 3)%R -> (1 / 2 < cos h)%R -> arr H (2 * n + 1) (actl ctr u v r start h) -> (0 <= t <= 1)%R ->
  (1 / 2 <= aw h n t)%R /\ curve_point 2 (2 * n) (Karc n) H t = hom (circle_at ctr u v r (turn start h n t)) (aw h n t).
Proof.
  intros Hn Hh Hc HH Ht. pose proof PI2_1. assert (HhP : (0 < h < PI)%R) by lra. destruct (piece_ok h n ltac:(lia) HhP t Ht) as (P1 & P2 & P3).
  pose proof (arc_on_span ctr u v r start h n Hn Hh Hc H (piece n t) t HH P1 P2 P3) as E. fold (turn start h n t) in E.
  rewrite (NurbsPoint_ok 2 (2 * n)) in E; [|apply Karc_ok; exact Hn|lia|exact (arr_len _ _ _ HH)|apply Karc_dom; assumption].
  assert (Hn0 : (0 < IZR n)%R) by (apply IZR_lt; lia).
  set (j := piece n t) in *. set (s := (t * IZR n - IZR j)%R).
  assert (Hs01 : (0 <= s <= 1)%R). { unfold s. rewrite plus_IZR in P3. destruct P3 as [?|[-> ->]]; [lra|]. rewrite minus_IZR. lra. }
  assert (Hw : (1 / 2 <= aw h n t)%R).
  { unfold aw. fold j s. cbv zeta. assert (0 <= 2 * s * (1 - s) * (cos h - 1 / 2))%R by (apply Rmult_le_pos; [|lra]; apply Rmult_le_pos; lra). nra. }
  split; [exact Hw|].
  assert (Ew : ww (curve_point 2 (2 * n) (Karc n) H t) = aw h n t).
  { destruct (Karc_val n j Hn P1) as (V1 & V2 & V3 & V4).
    assert (Hab : (IZR j / IZR n < IZR (j + 1) / IZR n)%R) by (apply Rmult_lt_compat_r; [apply Rinv_0_lt_compat; lra|apply IZR_lt; lia]).
    assert (SP : span_of 2 (2 * n) (Karc n) t (2 * j + 2)).
    { split; [lia|]. replace (2 * j + 2 + 1) with (2 * j + 3) by lia. rewrite V2, V3. split; [exact Hab|]. split.
      - apply Rmult_le_reg_r with (IZR n); [exact Hn0|]. unfold Rdiv. rewrite Rmult_assoc, Rinv_l by lra. lra.
      - destruct P3 as [H2|[Ej ->]].
        + left. apply Rmult_lt_reg_r with (IZR n); [exact Hn0|]. unfold Rdiv. rewrite Rmult_assoc, Rinv_l by lra. lra.
        + right. split; [lia|]. replace (2 * n + 1) with (2 * j + 3) by lia. rewrite V3. replace (j + 1) with n by lia. field. lra. }
    rewrite (curve_point_span 2 (2 * n) _ _ _ _ (Karc_ok n Hn) SP).
    change (ww (span_curve (2 * j + 2) 2 (Karc n) H t)) with (co 3 (span_curve (2 * j + 2) 2 (Karc n) H t)).
    rewrite (quad_span _ _ _ (IZR j / IZR n) (IZR (j + 1) / IZR n)) by (first [lra|exact V2|rewrite <- V1; f_equal; lia|rewrite <- V3; f_equal; lia|rewrite <- V4; f_equal; lia]).
    replace ((t - IZR j / IZR n) / (IZR (j + 1) / IZR n - IZR j / IZR n))%R with s by (unfold s; rewrite plus_IZR; field; lra).
    unfold pt. rewrite !(arr_at_eq _ _ _ _ _ HH) by lia. replace (2 * j + 2 - 2) with (2 * j) by lia. replace (2 * j + 2 - 1) with (2 * j + 1) by lia.
    unfold actl. rewrite even_21. replace (2 * j + 2) with (2 * (j + 1)) by lia. rewrite !even_2. unfold mkW. num. cbn [co VecL_XYZW co_xyzw ww]. unfold aw. fold j s. cbv zeta. ring. }
  set (S := curve_point 2 (2 * n) (Karc n) H t) in *. rewrite ToXYZ_div in E by (rewrite Ew; apply heavy_aeq, heavy_iff; lra).
  apply (f_equal (fun o => match o with Ok x => x | Err _ => zero3 end)) in E. cbv iota in E. rewrite <- E. unfold hom. cbn [gx gy gz]. rewrite <- Ew. rewrite <- Ew in Hw. destruct S as [sx sy sz sw]. cbn [wx wy wz ww] in *. f_equal; field; lra.
Qed.

(* moving every control point by the same vector *)
Lemma shift_row p n U (H Q : list (XYZW R)) d t C w : len H = n + 1 -> len Q = n + 1 ->
  (forall j, 0 <= j <= n -> pt Q j = vadd (pt H j) (vscale (ww (pt H j)) (mkXYZW (gx d) (gy d) (gz d) 0%R))) ->
  curve_point p n U H t = hom C w -> curve_point p n U Q t = hom (plus3 C d) w.
Proof.
  intros LH LQ HQ E. assert (Ew : rsum 0 (n + 1) (fun i => N (val U) (val U (n + 1)) (Z.to_nat p) i t * ww (pt H i))%R = w).
  { change w with (ww (hom C w)). rewrite <- E. unfold curve_point. change (ww (comb 0 (n + 1) (fun i => N (val U) (val U (n + 1)) (Z.to_nat p) i t) (pt H))) with (co 3 (comb 0 (n + 1) (fun i => N (val U) (val U (n + 1)) (Z.to_nat p) i t) (pt H))). rewrite co_comb. reflexivity. }
  apply co_ext. intros c. unfold curve_point. rewrite co_comb.
  assert (Ec : rsum 0 (n + 1) (fun i => N (val U) (val U (n + 1)) (Z.to_nat p) i t * co c (pt H i))%R = co c (hom C w)) by (rewrite <- E; unfold curve_point; rewrite co_comb; reflexivity).
  rewrite (rsum_ext 0 (n + 1) _ (fun i => N (val U) (val U (n + 1)) (Z.to_nat p) i t * co c (pt H i) + N (val U) (val U (n + 1)) (Z.to_nat p) i t * ww (pt H i) * co c (mkXYZW (gx d) (gy d) (gz d) 0%R))%R).
  2:{ intros j Hj. rewrite HQ by lia. rewrite co_add, co_scale. ring. }
  rewrite rsum_plus, rsum_scal_r, Ec, Ew.
  do 3 (destruct c as [|c]; [cbn [co VecL_XYZW co_xyzw]; unfold hom, plus3; cbn [gx gy gz wx wy wz ww]; ring|]). cbn [co VecL_XYZW co_xyzw]; unfold hom, plus3; cbn [gx gy gz wx wy wz ww]; ring.
Qed.

(* ---------------- cylinder ---------------- *)


Lemma Cylinder_ok ctr xAxis yAxis u v a b r ht : direction_of xAxis u -> direction_of yAxis v -> dot3 xAxis yAxis = 0%R ->
  (1 / 10 ^ 12 < dot3 xAxis xAxis)%R -> (1 / 10 ^ 12 < dot3 yAxis yAxis)%R ->
  (tol b a < b - a)%R -> (1 / 500 <= b - a <= 2 * PI)%R -> (tol r 0 < r)%R -> (tol ht 0 < ht)%R ->
  exists s phi, CreateCylindricalSurface ctr xAxis yAxis a b r ht = Ok (Some s) /\
    phi 0%R = a /\ phi 1%R = b /\ (forall s t, (0 <= s)%R -> (s < t)%R -> (t <= 1)%R -> (phi s < phi t)%R) /\
    (forall x, (a <= x <= b)%R -> exists t, (0 <= t <= 1)%R /\ phi t = x) /\
    (forall x y, (0 <= x <= 1)%R -> (0 <= y <= 1)%R ->
       NurbsSurfacePoint s x y = Ok (plus3 (circle_at ctr u v r (phi y)) (times3 ((1 - x) * ht) (cross3 u v)))).
Proof.
  intros Dx Dy Ho Zx Zy Hab Hth Hr Hht.
  assert (Huv : dot3 u v = 0%R).
  { destruct Dx as (Hu & kx & Hkx & Ex), Dy as (Hv & ky & Hky & Ey). rewrite Ex, Ey in Ho. replace (dot3 (times3 kx u) (times3 ky v)) with (kx * ky * dot3 u v)%R in Ho by (unfold dot3, times3; cbn [gx gy gz]; ring).
    assert (0 < kx * ky)%R by (apply Rmult_lt_0_compat; assumption). apply (Rmult_eq_reg_l (kx * ky)); lra. }
  assert (SELF : forall w, dot3 w w = 1%R -> direction_of w w).
  { intros w Hw. split; [exact Hw|]. exists 1%R. split; [lra|]. destruct w as [w1 w2 w3]. unfold times3. cbn [gx gy gz]. f_equal; ring. }
  pose proof (proj1 Dx) as Hu. pose proof (proj1 Dy) as Hv.
  destruct (CreateArc_full ctr u v u v a b r (SELF u Hu) (SELF v Hv) Huv ltac:(lra) ltac:(lra) Hab Hth Hr) as (n & h & H & EA & HH & Hn & Hh & C1 & Eb).
  pose proof PI2_1 as HPI. assert (HhP : (0 < h < PI)%R) by lra.
  set (ax := cross3 u v). set (f := fun i j => vadd (actl ctr u v r a h j) (vscale (ww (actl ctr u v r a h j)) (mkXYZW (gx (times3 ((2 - IZR i) / 2 * ht) ax)) (gy (times3 ((2 - IZR i) / 2 * ht) ax)) (gz (times3 ((2 - IZR i) / 2 * ht) ax)) 0%R))).
  assert (W : wp (CreateCylindricalSurface ctr xAxis yAxis a b r ht) (fun o => exists S, o = Some (mkSurface 2 2 (bezier_knots 2) (Karc n) S) /\ arr2 S 3 (2 * n + 1) f)).
  { unfold CreateCylindricalSurface. rewrite (IsZero_false _ Zx), (IsZero_false _ Zy). cbn [negb validate bind].
    assert (G1 : IsGreaterThan b a = true) by (apply gt_iff; rewrite <- tol_thr; lra). rewrite G1.
    assert (G3 : IsGreaterThan r (n0 (A := R)) = true) by (num; apply gt_iff; rewrite <- tol_thr; lra). rewrite G3.
    assert (G4 : IsGreaterThan ht (n0 (A := R)) = true) by (num; apply gt_iff; rewrite <- tol_thr; lra). rewrite G4. cbn [validate bind].
    rewrite (Normalize_direction _ _ Dx), (Normalize_direction _ _ Dy). cbn [bind]. rewrite EA. cbn [bind ControlPoints Degree KnotVector].
    rewrite (arr_len _ _ _ HH). apply wp_bind. apply wp_mkvec; [lia|]. intros row Hrow. apply wp_bind. eapply wp_mkvec2; [lia|exact Hrow|]. intros S0 HS0.
    apply wp_bind. apply wp_for_up with (P := fun k S => arr2D S 3 (2 * n + 1) (fun i j => j < k) f); [lia| | |].
    - apply (arr2D_ext _ _ _ (fun _ _ => False) _ (fun _ _ => xyzw0) _ (arr2_D _ _ _ _ _ HS0)); intros; lia.
    - intros k S Hk HS. rewrite (arr_get _ _ _ _ HH) by lia. cbn [bind].
      assert (ET : exists P w, actl ctr u v r a h k = mkW P w /\ ToXYZ (actl ctr u v r a h k) true = Ok P).
      { unfold actl. destruct (Z.even k); eexists; eexists; (split; [reflexivity|]); apply ToXYZ_mkW; apply heavy_aeq, heavy_iff; lra. }
      destruct ET as (P & w & Ea & Et). rewrite Et. cbn [bind]. rewrite Ea. replace (ww (mkW P w)) with w by reflexivity.
      assert (Ef : forall i, f i k = mkW (plus3 P (times3 ((2 - IZR i) / 2 * ht) ax)) w).
      { intros i. unfold f. rewrite Ea. destruct P as [p1 p2 p3]. unfold mkW, plus3, times3, vadd, vscale, Vec_XYZW, xyzw_add, xyzw_scale. num. cbn [gx gy gz wx wy wz ww]. num. f_equal; ring. }
      apply wp_bind. apply (arr2D_set _ _ _ _ (fun i j => j < k \/ (j = k /\ i = 2)) f 2 k _ _ HS); [lia|lia| |intros; lia|].
      { rewrite Ef. f_equal. unfold plus3, times3. apply P_XYZ.xyz_eq; cbn [gx gy gz]; lra. }
      intros S1 H1. apply wp_bind. apply (arr2D_set _ _ _ _ (fun i j => j < k \/ (j = k /\ 1 <= i)) f 1 k _ _ H1); [lia|lia| |intros; lia|].
      { rewrite Ef. f_equal. rewrite (cross_eq u v). fold ax. unfold plus3, times3, xyz_add, xyz_scale. num. apply P_XYZ.xyz_eq; cbn [gx gy gz]; field. }
      intros S2 H2. apply (arr2D_set _ _ _ _ (fun i j => j < k + 1) f 0 k _ _ H2); [lia|lia| |intros; lia|].
      { rewrite Ef. f_equal. rewrite (cross_eq u v). fold ax. unfold plus3, times3, xyz_add, xyz_scale. num. apply P_XYZ.xyz_eq; cbn [gx gy gz]; field. }
      intros S3 H3. exact H3.
    - intros S HS. cbn [wp]. exists S. split; [|eapply arr2_of_D; [exact HS|intros; cbv beta; lia]]. reflexivity. }
  destruct (wp_elim _ _ W) as (o & E & S & -> & HS). exists (mkSurface 2 2 (bezier_knots 2) (Karc n) S), (turn a h n).
  split; [exact E|]. split; [apply turn_0; [lia|exact HhP]|]. split; [rewrite turn_1 by (try lia; exact HhP); lra|].
  split; [intros; apply turn_incr; first [lia|lra|assumption]|].
  split; [intros x Hx; apply turn_onto; first [lia|lra|assumption]|].
  intros x y Hx Hy. pose proof (net_arr2 _ _ _ _ HS) as NS.
  unfold NurbsSurfacePoint. rewrite (GetPointOnSurface_ok 2 2 _ 2 (2 * n)); [|apply bez_knots_ok; lia|apply Karc_ok; exact Hn|lia|lia|exact NS|apply bez_dom; [lia|exact Hx]|apply Karc_dom; assumption].
  cbn [bind]. destruct (arc_hom ctr u v r a h n H y Hn Hh C1 HH Hy) as (Hw & EH).
  set (C := circle_at ctr u v r (turn a h n y)) in *. set (w := aw h n y) in *.
  assert (ER : forall i, 0 <= i < 3 -> curve_point 2 (2 * n) (Karc n) (at_ nil S i) y = hom (plus3 C (times3 ((2 - IZR i) / 2 * ht) ax)) w).
  { intros i Hi. apply (shift_row 2 (2 * n) (Karc n) H); [exact (arr_len _ _ _ HH)|apply NS; lia| |exact EH].
    intros j Hj. assert (Ep : pt H j = actl ctr u v r a h j) by (unfold pt; apply (arr_at_eq _ _ _ _ _ HH); lia). rewrite Ep.
    exact (pt2_arr2 _ _ _ _ i j HS ltac:(lia) ltac:(lia)). }
  assert (ES : surface_point 2 2 (bezier_knots 2) 2 (2 * n) (Karc n) S x y = hom (plus3 C (times3 ((1 - x) * ht) ax)) w).
  { apply co_ext. intros c. rewrite bez_surface by (auto; lia). rewrite rsum_3, !ER by lia. destruct (bern2 x) as (-> & -> & ->). clear.
    do 3 (destruct c as [|c]; [cbn [co VecL_XYZW co_xyzw]; unfold hom, plus3, times3; cbn [gx gy gz wx wy wz ww]; field|]). cbn [co VecL_XYZW co_xyzw]; unfold hom, plus3, times3; cbn [gx gy gz wx wy wz ww]; field. }
  rewrite ES. apply (ToXYZ_mkW (plus3 C (times3 ((1 - x) * ht) ax))). apply heavy_aeq, heavy_iff. lra.
Qed.

(* ---------------- scaling ---------------- *)


Lemma surface_linear p n U q m W (P Q : list (list (XYZW R))) u v c a b : 
  (forall i j, 0 <= i <= n -> 0 <= j <= m -> co c (pt2 Q i j) = (a * co c (pt2 P i j) + b * co 3 (pt2 P i j))%R) ->
  co c (surface_point p n U q m W Q u v) = (a * co c (surface_point p n U q m W P u v) + b * co 3 (surface_point p n U q m W P u v))%R.
Proof.
  intros H. unfold surface_point. rewrite !co_comb. rewrite <- !rsum_scal, <- rsum_plus. apply rsum_ext. intros i Hi.
  rewrite !co_comb.
  transitivity (N (val U) (val U (n + 1)) (Z.to_nat p) i u * (a * rsum 0 (m + 1) (fun j => N (val W) (val W (m + 1)) (Z.to_nat q) j v * co c (pt2 P i j)) + b * rsum 0 (m + 1) (fun j => N (val W) (val W (m + 1)) (Z.to_nat q) j v * co 3 (pt2 P i j))))%R; [|ring].
  f_equal. rewrite <- !rsum_scal, <- rsum_plus. apply rsum_ext. intros j Hj. specialize (H i j ltac:(lia) ltac:(lia)). rewrite H. ring.
Qed.

Lemma ToXYZ_1 (x : XYZ R) : ToXYZ (mkXYZW (gx x) (gy x) (gz x) 1%R) true = Ok x.
Proof.
  assert (E : ToXYZ (mkW x 1%R) true = Ok x) by (apply ToXYZ_mkW; apply heavy_aeq, heavy_iff; lra). rewrite <- E. f_equal. unfold mkW. num. f_equal; ring.
Qed.

Lemma Scaling_ok n m p q U W (P : list (list (XYZW R))) fx fy fz c : valid_surface n m (mkSurface p q U W P) ->
  (forall i j, 0 <= i <= n -> 0 <= j <= m -> ww (pt2 P i j) = 1%R) -> c = zero3 \/ ~ Spec3.near c zero3 ->
  returns (NonUniformScaling P fx fy fz c) (fun Q => valid_surface n m (mkSurface p q U W Q) /\
    forall u v, in_domain p n U u -> in_domain q m W v ->
      exists x, NurbsSurfacePoint (mkSurface p q U W P) u v = Ok x /\ NurbsSurfacePoint (mkSurface p q U W Q) u v = Ok (scaled3 fx fy fz c x)).
Proof.
  intros (KU & KW & NP & Bp & Bq) Hw Hc. cbn [DegreeU DegreeV KnotVectorU KnotVectorV SControlPoints] in *. apply wp_elim.
  pose proof (ck_n _ _ _ KU) as N0. pose proof (ck_p _ _ _ KU) as G0. pose proof (ck_n _ _ _ KW) as N1. pose proof (ck_p _ _ _ KW) as G1.
  pose proof (arr2_net _ _ _ NP) as AP. set (f := fun i j => mkXYZW (gx (scaled3 fx fy fz c (proj (pt2 P i j)))) (gy (scaled3 fx fy fz c (proj (pt2 P i j)))) (gz (scaled3 fx fy fz c (proj (pt2 P i j)))) 1%R).
  assert (WR : wp (NonUniformScaling P fx fy fz c) (fun Q => arr2 Q (n + 1) (m + 1) f)).
  { unfold NonUniformScaling. destruct (arr2_row _ _ _ _ 0 AP ltac:(lia)) as (row0 & E0 & A0). rewrite E0. cbn [bind]. rewrite (arr_len _ _ _ A0). rewrite (proj1 NP).
    apply (wp_push 0 (n + 1) (fun i => mklist (m + 1) (f i))); [lia| |].
    - intros i Q Hi HQ. 
      match goal with |- bind ?r _ = _ => assert (ER : r = Ok (mklist (m + 1) (f i))) end.
      { apply wp_eq. apply (wp_push 0 (m + 1) (f i)); [lia| |].
        - intros j r Hj Hr. rewrite (arr2_get _ _ _ _ _ _ AP) by lia. cbn [bind]. rewrite (Hw i j) by lia. num. rewrite !Rdiv_ok by lra. cbn [bind].
          destruct (xyz_IsAlmostEqualTo c xyz0) eqn:E.
          + apply near_iff in E. destruct Hc as [-> |Hc]; [|contradiction]. apply (f_equal Ok), (f_equal (app r)), (f_equal (fun x => [x])). unfold f, scaled3, proj. rewrite (Hw i j) by lia. cbn [gx gy gz zero3]. f_equal; field.
          + apply (f_equal Ok), (f_equal (app r)), (f_equal (fun x => [x])). unfold f, scaled3, proj. rewrite (Hw i j) by lia. cbn [gx gy gz]. f_equal; field.
        - intros r Hr. rewrite Z.sub_0_r in Hr. eapply arr_inj; [|apply arr_mklist; lia]. eapply arr_ext; [exact Hr|]. intros j Hj. cbv beta. rewrite Z.add_0_r. reflexivity. }
      rewrite ER. reflexivity.
    - intros Q HQ. rewrite Z.sub_0_r in HQ. split; [exact (arr_len _ _ _ HQ)|]. intros i Hi. exists (mklist (m + 1) (f i)). split; [|apply arr_mklist; lia].
      rewrite (arr_get _ _ _ _ HQ) by lia. cbv beta. rewrite Z.add_0_r. reflexivity. }
  eapply wp_mono; [exact WR|]. cbv beta. intros Q AQ. pose proof (net_arr2 _ _ _ _ AQ) as NQ. split; [exact (conj KU (conj KW (conj NQ (conj Bp Bq))))|].
  intros u v Hu Hv. unfold NurbsSurfacePoint.
  rewrite (GetPointOnSurface_ok p n U q m W P) by assumption. rewrite (GetPointOnSurface_ok p n U q m W Q) by assumption. cbn [bind].
  set (S := surface_point p n U q m W P u v). 
  assert (ES3 : co 3 S = 1%R).
  { unfold S, surface_point. rewrite co_comb. rewrite <- (N_sum p n U u KU Hu). apply rsum_ext. intros i Hi. rewrite co_comb.
    rewrite (rsum_ext 0 (m + 1) _ (fun j => N (val W) (val W (m + 1)) (Z.to_nat q) j v)); [rewrite (N_sum q m W v KW Hv); ring|].
    intros j Hj. pose proof (Hw i j ltac:(lia) ltac:(lia)) as E. change (co 3 (pt2 P i j)) with (ww (pt2 P i j)). rewrite E. ring. }
  assert (LIN : forall k, co k (surface_point p n U q m W Q u v) = co k (mkXYZW (gx c + fx * (wx S - gx c)) (gy c + fy * (wy S - gy c)) (gz c + fz * (wz S - gz c)) 1)%R).
  { assert (EQ : forall i j, 0 <= i <= n -> 0 <= j <= m -> pt2 Q i j = f i j) by (intros i j Hi Hj; apply (pt2_arr2 _ _ _ _ i j AQ); lia).
    assert (PR : forall i j, 0 <= i <= n -> 0 <= j <= m -> proj (pt2 P i j) = mkXYZ (wx (pt2 P i j)) (wy (pt2 P i j)) (wz (pt2 P i j))) by (intros i j Hi Hj; unfold proj; rewrite (Hw i j Hi Hj); f_equal; field).
    intros k. destruct k as [|[|[|k]]].
    - rewrite (surface_linear p n U q m W P Q u v 0 fx ((1 - fx) * gx c)). { fold S. rewrite ES3. cbn [co VecL_XYZW co_xyzw wx]. ring. }
      intros i j Hi Hj. rewrite EQ by auto. unfold f. rewrite PR by auto. cbn [co VecL_XYZW co_xyzw wx scaled3 gx]. rewrite (Hw i j Hi Hj). ring.
    - rewrite (surface_linear p n U q m W P Q u v 1 fy ((1 - fy) * gy c)). { fold S. rewrite ES3. cbn [co VecL_XYZW co_xyzw wy]. ring. }
      intros i j Hi Hj. rewrite EQ by auto. unfold f. rewrite PR by auto. cbn [co VecL_XYZW co_xyzw wy scaled3 gy]. rewrite (Hw i j Hi Hj). ring.
    - rewrite (surface_linear p n U q m W P Q u v 2 fz ((1 - fz) * gz c)). { fold S. rewrite ES3. cbn [co VecL_XYZW co_xyzw wz]. ring. }
      intros i j Hi Hj. rewrite EQ by auto. unfold f. rewrite PR by auto. cbn [co VecL_XYZW co_xyzw wz scaled3 gz]. rewrite (Hw i j Hi Hj). ring.
    - rewrite (surface_linear p n U q m W P Q u v (Datatypes.S (Datatypes.S (Datatypes.S k))) 1 0). { fold S. change (co (Datatypes.S (Datatypes.S (Datatypes.S k))) S) with (co 3 S). rewrite ES3. cbn [co VecL_XYZW co_xyzw ww Nat.add]. ring. }
      intros i j Hi Hj. rewrite EQ by auto. unfold f. cbn [co VecL_XYZW co_xyzw ww Nat.add]. rewrite (Hw i j Hi Hj). ring. }
  apply co_ext in LIN. rewrite LIN. change (co 3 S) with (ww S) in ES3. destruct S as [sx sy sz sw]. cbn [ww wx wy wz] in *. subst sw. exists (mkXYZ sx sy sz).
  split; [apply (ToXYZ_1 (mkXYZ sx sy sz))|apply (ToXYZ_1 (scaled3 fx fy fz c (mkXYZ sx sy sz)))].
Qed.
