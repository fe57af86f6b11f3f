(* Rational surfaces: normals, curvatures, tangent coordinates, bounding boxes. *)
From Coq Require Import ZArith List Bool Reals Lra Lia.
From Verif Require Import Base Num Vec Tac Spec Spec2 Spec3 Spec4 Spec8 M_MathUtils M_Polynomials M_XYZ M_Bspline M_NurbsCurve M_Surface
  P_MathUtils P_Span P_Cox P_Basis P_Deriv P_Vec P_XYZ P_VSum P_Curve P_Bspline P_BsplineS P_Blossom P_Insert P_Loop P_Nurbs P_RSurf.
Import ListNotations.
Open Scope Z_scope.

(* the surface's position and where its weight does not vanish *)
Definition sdom ku p U kv q W H : R -> R -> Prop := fun x y => ww (span_patch ku p U kv q W H x y) <> 0%R.
Definition spos ku p U kv q W H : R -> R -> XYZ R := fun x y => proj (span_patch ku p U kv q W H x y).

Lemma ders_at p n U q m W (H : list (list (XYZW R))) u v ku kv d :
  curve_knots p n U -> curve_knots q m W -> p <= 7 -> q <= 7 -> net (n + 1) (m + 1) H ->
  span_of p n U u ku -> span_of q m W v kv -> 0 < d -> d <= p -> d <= q -> ww (span_patch ku p U kv q W H u v) <> 0%R ->
  let g := fun k l => spder ku p U kv q W H k l u v in
  partials_at (sdom ku p U kv q W H) (spos ku p U kv q W H) d u v g /\
  exists D, ComputeRationalSurfaceDerivatives (mkSurface p q U W H) d u v = Ok D /\ forall k l, 0 <= k -> 0 <= l -> k + l <= d -> get2 D k l = Ok (g k l).
Proof.
  intros HU HW Hp7 Hq7 HP Hku Hkv Hd Hdp Hdq Hw g. pose proof HU as [Hp _ _ _ _ _]. pose proof HW as [Hq _ _ _ _ _]. split.
  - intros k l Hk Hl Hkl. exists (spder ku p U kv q W H k l). split; [|reflexivity]. apply spder_deriv; auto; eapply span_of_good; eauto.
  - destruct (wp_elim _ _ (RSurfDers_span p n U q m W H u v ku kv d HU HW Hp7 Hq7 HP Hku Hkv Hd Hdp Hdq Hw)) as (D & E & HD).
    exists D. split; [exact E|]. intros k l Hk Hl Hkl. apply (arr2D_get _ _ _ _ _ k l HD); lia.
Qed.

Lemma unit_dir (a : XYZ R) : a <> zero3 -> exists x, Normalize a = Ok x /\ direction_of a x.
Proof.
  intros Ha. destruct (Normalize_spec a Ha) as (x & E & S1 & s & Hs & Ea). exists x. split; [exact E|]. split.
  - unfold SqrLength in S1. num. unfold dot3. rewrite <- S1. num. ring.
  - exists s. split; [exact Hs|]. rewrite Ea. unfold xyz_scale, times3. num. f_equal; ring.
Qed.

Lemma cross_eq (a b : XYZ R) : CrossProduct a b = cross3 a b.
Proof. unfold CrossProduct, cross3. num. f_equal; ring. Qed.

Lemma normal_ok (a b : XYZ R) : exists x, (let! n := Normalize a in Normalize (CrossProduct n b)) = Ok x /\
  (cross3 a b <> zero3 -> direction_of (cross3 a b) x) /\ (cross3 a b = zero3 -> x = zero3).
Proof.
  assert (EQ : forall x : XYZ R, x = zero3 \/ x <> zero3).
  { intros x. destruct (Req_dec (gx x) 0) as [E1|E1]; [destruct (Req_dec (gy x) 0) as [E2|E2]; [destruct (Req_dec (gz x) 0) as [E3|E3]|]|].
    1:{ left. apply xyz_eq; assumption. }
    all: right; intros ->; cbn in *; lra. }
  destruct (EQ a) as [->|Ha].
  - exists zero3. change zero3 with (xyz0 (A := R)) at 1. rewrite Normalize_zero. cbn [bind]. rewrite cross_eq.
    assert (E0 : cross3 (xyz0 (A := R)) b = zero3) by (unfold cross3, zero3, xyz0; cbn; f_equal; ring).
    change (cross3 zero3 b) with (cross3 (xyz0 (A := R)) b). rewrite E0. split; [apply Normalize_zero|]. split; [congruence|reflexivity].
  - destruct (unit_dir a Ha) as (ua & Ea & U1 & s & Hs & Es). rewrite Ea. cbn [bind]. rewrite cross_eq.
    assert (Ec : cross3 a b = times3 s (cross3 ua b)) by (rewrite Es; unfold cross3, times3; cbn; f_equal; ring).
    destruct (EQ (cross3 ua b)) as [Ez|Hz].
    + rewrite Ez. exists zero3. split; [apply Normalize_zero|]. assert (cross3 a b = zero3). { rewrite Ec, Ez. unfold times3, zero3. cbn. f_equal; ring. } split; [congruence|reflexivity].
    + destruct (unit_dir _ Hz) as (x & Ex & X1 & t & Ht & Et). exists x. split; [exact Ex|]. split.
      * intros _. split; [exact X1|]. exists (s * t)%R. split; [apply Rmult_lt_0_compat; assumption|]. rewrite Ec, Et. unfold times3. cbn. f_equal; ring.
      * intros C. exfalso. apply Hz. rewrite Ec in C. set (y := cross3 ua b) in *. pose proof (f_equal gx C) as C1. pose proof (f_equal gy C) as C2. pose proof (f_equal gz C) as C3. unfold times3, zero3 in *. cbn [gx gy gz] in *. apply xyz_eq; cbn [gx gy gz]; apply (Rmult_eq_reg_l s); lra.
Qed.

Section At.
Variables (p n : Z) (U : list R) (q m : Z) (W : list R) (H : list (list (XYZW R))) (u v : R) (ku kv : Z).
Hypotheses (HU : curve_knots p n U) (HW : curve_knots q m W) (Hp7 : p <= 7) (Hq7 : q <= 7) (HH : net (n + 1) (m + 1) H)
  (Hku : span_of p n U u ku) (Hkv : span_of q m W v kv) (Hw : ww (span_patch ku p U kv q W H u v) <> 0%R).
Let g := fun k l => spder ku p U kv q W H k l u v.

Lemma Normal_span : 1 <= p -> 1 <= q -> exists x, Normal (mkSurface p q U W H) u v = Ok x /\
  (cross3 (g 1 0) (g 0 1) <> zero3 -> direction_of (cross3 (g 1 0) (g 0 1)) x) /\ (cross3 (g 1 0) (g 0 1) = zero3 -> x = zero3).
Proof.
  intros Hp Hq. pose proof (span_of_dom _ _ _ _ _ HU Hku) as Du. pose proof (span_of_dom _ _ _ _ _ HW Hkv) as Dv.
  unfold Normal. cbn [KnotVectorU KnotVectorV]. rewrite (domain_ok p n U u HU Du), (domain_ok q m W v HW Dv). cbn [bind].
  destruct (ders_at p n U q m W H u v ku kv 1 HU HW Hp7 Hq7 HH Hku Hkv ltac:(lia) Hp Hq Hw) as (_ & D & -> & HD). cbn [bind].
  rewrite (HD 1 0), (HD 0 1) by lia. cbn [bind]. apply normal_ok.
Qed.

(* the coordinates of the projection of a vector onto the tangent plane *)
Lemma UVTangent_span x : 1 <= p -> 1 <= q -> let a := g 1 0 in let b := g 0 1 in
  let det := (dot3 a a * dot3 b b)%R in let off := (dot3 a b * dot3 a b)%R in
  ((tol det off < Rabs (det - off))%R -> exists r s, GetUVTangent (mkSurface p q U W H) u v x = Ok (Some (r, s)) /\
     let y := minus3 x (plus3 (times3 r a) (times3 s b)) in dot3 y a = 0%R /\ dot3 y b = 0%R) /\
  ((Rabs (det - off) <= tol det off)%R -> GetUVTangent (mkSurface p q U W H) u v x = Ok None).
Proof.
  intros Hp Hq a b det off. unfold GetUVTangent.
  destruct (ders_at p n U q m W H u v ku kv 1 HU HW Hp7 Hq7 HH Hku Hkv ltac:(lia) Hp Hq Hw) as (_ & D & -> & HD). cbn [bind].
  rewrite (HD 1 0), (HD 0 1) by lia. cbn [bind]. fold (g 1 0) (g 0 1). fold a b.
  change (DotProduct a a) with (dot3 a a). change (DotProduct b b) with (dot3 b b). change (DotProduct a b) with (dot3 a b).
  num. fold det off. split; intros Ht.
  - assert (E : IsAlmostEqualTo det off = false) by (apply aeq_false; rewrite <- tol_thr; exact Ht). rewrite E.
    assert (Hd : (det - off <> 0)%R). { intros C. rewrite C, Rabs_R0 in Ht. pose proof (tol_pos det off). lra. }
    rewrite !Rdiv_ok by exact Hd. cbn [bind]. eexists. eexists. split; [reflexivity|].
    change (DotProduct a x) with (dot3 a x). change (DotProduct b x) with (dot3 b x). cbv zeta. unfold det, off, dot3, minus3, plus3, times3 in *. cbn [gx gy gz] in *. split; field; exact Hd.
  - assert (E : IsAlmostEqualTo det off = true) by (apply aeq_iff; rewrite <- tol_thr; exact Ht). rewrite E. reflexivity.
Qed.
End At.

(* ---------------- curvatures ---------------- *)

Section Curv.
Variables E F G L M N : R.
Let den := (E * G - F * F)%R.
Hypothesis HE : (0 < E)%R.
Hypothesis Hd : (0 < den)%R.
Definition gK : R := ((L * N - M * M) / den)%R.
Definition gH : R := ((E * N + G * L - 2 * F * M) / (2 * den))%R.

Lemma disc_nonneg : (0 <= gH * gH - gK)%R.
Proof.
  assert (Eq : (gH * gH - gK = (((E * (E * N - G * L) - 2 * F * (E * M - F * L)) * (E * (E * N - G * L) - 2 * F * (E * M - F * L))
     + 4 * den * ((E * M - F * L) * (E * M - F * L))) / (E * E)) / (4 * (den * den)))%R).
  { unfold gH, gK, den in *. field. lra. }
  rewrite Eq. apply Rmult_le_pos.
  - apply Rmult_le_pos; [|left; apply Rinv_0_lt_compat; nra].
    apply Rplus_le_le_0_compat; [apply Rle_0_sqr|]. apply Rmult_le_pos; [lra|apply Rle_0_sqr].
  - left. apply Rinv_0_lt_compat. nra.
Qed.

Lemma principal_iff k : principal E F G L M N k <-> (k * k - 2 * gH * k + gK = 0)%R.
Proof.
  assert (Eq : (den * (k * k - 2 * gH * k + gK) = (L - k * E) * (N - k * G) - (M - k * F) * (M - k * F))%R).
  { unfold gH, gK, den in *. field. lra. }
  split.
  - intros (a & b & Hab & E1 & E2). apply (Rmult_eq_reg_l den); [|lra]. rewrite Eq, Rmult_0_r.
    assert (A1 : ((L - k * E) * a + (M - k * F) * b = 0)%R) by lra. assert (A2 : ((M - k * F) * a + (N - k * G) * b = 0)%R) by lra.
    set (x := (L - k * E)%R) in *. set (y := (M - k * F)%R) in *. set (z := (N - k * G)%R) in *.
    assert (B1 : ((x * z - y * y) * a = 0)%R). { replace ((x * z - y * y) * a)%R with (z * (x * a + y * b) - y * (y * a + z * b))%R by ring. rewrite A1, A2. ring. }
    assert (B2 : ((x * z - y * y) * b = 0)%R). { replace ((x * z - y * y) * b)%R with (x * (y * a + z * b) - y * (x * a + y * b))%R by ring. rewrite A1, A2. ring. }
    destruct Hab as [Ha|Hb]; [destruct (Rmult_integral _ _ B1)|destruct (Rmult_integral _ _ B2)]; tauto.
  - intros Ek. rewrite Ek, Rmult_0_r in Eq.
    set (x := (L - k * E)%R) in *. set (y := (M - k * F)%R) in *. set (z := (N - k * G)%R) in *.
    assert (K1 : forall a b, (x * a + y * b = 0 -> y * a + z * b = 0 -> L * a + M * b = k * (E * a + F * b) /\ M * a + N * b = k * (F * a + G * b))%R).
    { intros a b A1 A2. unfold x, y, z in *. split; lra. }
    destruct (Req_dec y 0) as [Hy|Hy]; [destruct (Req_dec x 0) as [Hx|Hx]|].
    + exists 1%R, 0%R. split; [left; lra|]. apply K1; rewrite ?Hx, ?Hy; ring.
    + exists 0%R, 1%R. split; [right; lra|]. rewrite Hy in Eq. assert (z = 0)%R. { destruct (Rmult_integral x z ltac:(lra)); [contradiction|assumption]. } apply K1; rewrite ?Hy, ?H; ring.
    + exists y, (- x)%R. split; [left; exact Hy|]. apply K1; lra.
Qed.

Lemma principals : let r := sqrt (gH * gH - gK) in
  principal E F G L M N (gH + r)%R /\ principal E F G L M N (gH - r)%R /\ (forall k, principal E F G L M N k -> k = (gH + r)%R \/ k = (gH - r)%R) /\
  ((gH + r) * (gH - r) = gK)%R /\ ((gH + r + (gH - r)) / 2 = gH)%R /\ (gH - r <= gH + r)%R.
Proof.
  intros r. pose proof (sqrt_sqrt _ disc_nonneg) as S. fold r in S. pose proof (sqrt_pos (gH * gH - gK)) as P0. fold r in P0.
  assert (Er : gK = (gH * gH - r * r)%R) by lra.
  split; [apply principal_iff; rewrite Er; ring|]. split; [apply principal_iff; rewrite Er; ring|]. split.
  - intros k Hk. apply principal_iff in Hk. rewrite Er in Hk. assert (P : ((k - (gH + r)) * (k - (gH - r)) = 0)%R) by (rewrite <- Hk; ring).
    destruct (Rmult_integral _ _ P); [left; lra|right; lra].
  - split; [rewrite Er; ring|]. split; [field|lra].
Qed.
End Curv.

Lemma lagrange (a b : XYZ R) : (dot3 a a * dot3 b b - dot3 a b * dot3 a b = dot3 (cross3 a b) (cross3 a b))%R.
Proof. unfold dot3, cross3. cbn [gx gy gz]. ring. Qed.

Lemma dot3_pos (a : XYZ R) : (0 <= dot3 a a)%R.
Proof. unfold dot3. pose proof (Rle_0_sqr (gx a)). pose proof (Rle_0_sqr (gy a)). pose proof (Rle_0_sqr (gz a)). unfold Rsqr in *. lra. Qed.

Section At2.
Variables (p n : Z) (U : list R) (q m : Z) (W : list R) (H : list (list (XYZW R))) (u v : R) (ku kv : Z).
Hypotheses (HU : curve_knots p n U) (HW : curve_knots q m W) (Hp7 : p <= 7) (Hq7 : q <= 7) (HH : net (n + 1) (m + 1) H)
  (Hku : span_of p n U u ku) (Hkv : span_of q m W v kv) (Hw : ww (span_patch ku p U kv q W H u v) <> 0%R).
Hypotheses (Hp : 2 <= p) (Hq : 2 <= q).
Let g := fun k l => spder ku p U kv q W H k l u v.
Let c := cross3 (g 1 0) (g 0 1).

Lemma Curvature_span : (1 / 999999 < dot3 c c)%R -> exists x, direction_of c x /\
  let E := dot3 (g 1 0) (g 1 0) in let F := dot3 (g 1 0) (g 0 1) in let G := dot3 (g 0 1) (g 0 1) in
  let L := dot3 (g 2 0) x in let M := dot3 (g 1 1) x in let N := dot3 (g 0 2) x in
  exists k1 k2, (k2 <= k1)%R /\ principal E F G L M N k1 /\ principal E F G L M N k2 /\ (forall k, principal E F G L M N k -> k = k1 \/ k = k2) /\
  let S := mkSurface p q U W H in
  SurfaceCurvatureAt S Maximum u v = Ok k1 /\ SurfaceCurvatureAt S Minimum u v = Ok k2 /\
  SurfaceCurvatureAt S Gauss u v = Ok (((L * N - M * M) / (E * G - F * F))%R) /\ ((L * N - M * M) / (E * G - F * F) = k1 * k2)%R /\ SurfaceCurvatureAt S Mean u v = Ok ((k1 + k2) / 2)%R /\
  SurfaceCurvatureAt S Abs u v = Ok (Rabs k1 + Rabs k2)%R /\ SurfaceCurvatureAt S Rms u v = Ok (sqrt (k1 * k1 + k2 * k2)).
Proof.
  intros Hc. pose proof (span_of_dom _ _ _ _ _ HU Hku) as Du. pose proof (span_of_dom _ _ _ _ _ HW Hkv) as Dv.
  destruct (Normal_span p n U q m W H u v ku kv HU HW Hp7 Hq7 HH Hku Hkv Hw ltac:(lia) ltac:(lia)) as (x & EN & Hx & _).
  fold (g 1 0) (g 0 1) in Hx. fold c in Hx. specialize (Hx ltac:(intros C; rewrite C in Hc; unfold zero3, dot3 in Hc; cbn in Hc; lra)).
  exists x. split; [exact Hx|]. intros E F G L M N.
  assert (Ed : (E * G - F * F = dot3 c c)%R) by (unfold E, F, G, c; apply lagrange).
  assert (HE0 : (0 <= E)%R) by apply dot3_pos. assert (HG0 : (0 <= G)%R) by apply dot3_pos.
  assert (HE : (0 < E)%R). { destruct (Rle_lt_or_eq_dec _ _ HE0) as [|E0]; [assumption|]. rewrite <- E0 in Ed. pose proof (Rle_0_sqr F). unfold Rsqr in *. lra. }
  assert (Hd : (0 < E * G - F * F)%R) by lra.
  exists (gH E F G L M N + sqrt (gH E F G L M N * gH E F G L M N - gK E F G L M N))%R, (gH E F G L M N - sqrt (gH E F G L M N * gH E F G L M N - gK E F G L M N))%R.
  destruct (principals E F G L M N HE Hd) as (P1 & P2 & P3 & P4 & P5 & P6). cbv zeta in P1, P2, P3, P4, P5, P6.
  split; [exact P6|]. split; [exact P1|]. split; [exact P2|]. split; [exact P3|]. intros S.
  assert (EC : forall cv, SurfaceCurvatureAt S cv u v = 
    let h := gH E F G L M N in let r := sqrt (h * h - gK E F G L M N) in
    match cv with Gauss => Ok (gK E F G L M N) | Mean => Ok h | Maximum => Ok (h + r)%R | Minimum => Ok (h - r)%R
      | Abs => Ok (Rabs (h + r) + Rabs (h - r))%R | Rms => Ok (sqrt ((h + r) * (h + r) + (h - r) * (h - r))) end).
  { intros cv. unfold SurfaceCurvatureAt, S. cbn [KnotVectorU KnotVectorV]. rewrite (domain_ok p n U u HU Du), (domain_ok q m W v HW Dv). cbn [bind].
    destruct (ders_at p n U q m W H u v ku kv 2 HU HW Hp7 Hq7 HH Hku Hkv ltac:(lia) Hp Hq Hw) as (_ & D & -> & HD). cbn [bind].
    rewrite (HD 2 0), (HD 0 2), (HD 1 1), (HD 1 0), (HD 0 1) by lia. cbn [bind]. rewrite EN. cbn [bind].
    fold (g 2 0) (g 0 2) (g 1 1) (g 1 0) (g 0 1).
    change (DotProduct (g 2 0) x) with L. change (DotProduct (g 1 1) x) with M. change (DotProduct (g 0 2) x) with N.
    change (DotProduct (g 1 0) (g 1 0)) with E. change (DotProduct (g 1 0) (g 0 1)) with F. change (DotProduct (g 0 1) (g 0 1)) with G.
    num. assert (EA : IsAlmostEqualTo (E * G - F * F)%R 0%R = false).
    { apply heavy_aeq, heavy_iff. rewrite Ed. exact Hc. }
    rewrite EA. rewrite !Rdiv_ok by lra. cbn [bind]. change (IZR 2) with 2%R. fold (gK E F G L M N) (gH E F G L M N).
    pose proof (disc_nonneg E F G L M N HE Hd) as Hq0. rewrite Rabs_right by lra. rewrite Rsqrt_ok by lra. cbn [bind].
    destruct cv; try reflexivity. apply Rsqrt_ok. set (a := (gH E F G L M N + _)%R). set (b := (gH E F G L M N - _)%R). pose proof (Rle_0_sqr a). pose proof (Rle_0_sqr b). unfold Rsqr in *. lra. }
  rewrite !EC. cbv zeta. rewrite P4, P5. unfold gK. repeat split.
Qed.

Lemma Curvature_degenerate cv : (dot3 c c <= 1 / 999999)%R -> SurfaceCurvatureAt (mkSurface p q U W H) cv u v = Ok 0%R.
Proof.
  intros Hc. pose proof (span_of_dom _ _ _ _ _ HU Hku) as Du. pose proof (span_of_dom _ _ _ _ _ HW Hkv) as Dv.
  destruct (Normal_span p n U q m W H u v ku kv HU HW Hp7 Hq7 HH Hku Hkv Hw ltac:(lia) ltac:(lia)) as (x & EN & _ & _).
  unfold SurfaceCurvatureAt. cbn [KnotVectorU KnotVectorV]. rewrite (domain_ok p n U u HU Du), (domain_ok q m W v HW Dv). cbn [bind].
  destruct (ders_at p n U q m W H u v ku kv 2 HU HW Hp7 Hq7 HH Hku Hkv ltac:(lia) Hp Hq Hw) as (_ & D & -> & HD). cbn [bind].
  rewrite (HD 2 0), (HD 0 2), (HD 1 1), (HD 1 0), (HD 0 1) by lia. cbn [bind]. rewrite EN. cbn [bind]. fold (g 1 0) (g 0 1).
  change (DotProduct (g 1 0) (g 1 0)) with (dot3 (g 1 0) (g 1 0)). change (DotProduct (g 1 0) (g 0 1)) with (dot3 (g 1 0) (g 0 1)). change (DotProduct (g 0 1) (g 0 1)) with (dot3 (g 0 1) (g 0 1)).
  num. rewrite lagrange. fold c. pose proof (dot3_pos c) as Hc0.
  assert (EA : IsAlmostEqualTo (dot3 c c) 0%R = true).
  { apply aeq_iff. rewrite <- tol_thr. unfold tol. rewrite Rabs_R0, Rminus_0_r, Rmax_left by (apply Rabs_pos). rewrite Rabs_right by lra. lra. }
  rewrite EA. reflexivity.
Qed.
End At2.

Lemma Curvature_low_degree p n U q m W (H : list (list (XYZW R))) u v cv :
  curve_knots p n U -> curve_knots q m W -> p <= 7 -> q <= 7 -> in_domain p n U u -> in_domain q m W v -> p < 2 \/ q < 2 ->
  SurfaceCurvatureAt (mkSurface p q U W H) cv u v = Throw.
Proof.
  intros HU HW Hp7 Hq7 Du Dv Ho. unfold SurfaceCurvatureAt. cbn [KnotVectorU KnotVectorV]. rewrite (domain_ok p n U u HU Du), (domain_ok q m W v HW Dv). cbn [bind].
  rewrite (RSurfDers_reject p n U q m) by (auto; lia). reflexivity.
Qed.

(* ---------------- bounding box ---------------- *)

Definition bx (b : BoundingBox) (x : XYZ R) : Prop := in_box (MinPoint b) (MaxPoint b) x.
Lemma smin_le (a b : R) : (std_min a b <= a /\ std_min a b <= b /\ (forall c, c <= a -> c <= b -> c <= std_min a b))%R.
Proof. unfold std_min. cbn [nltb Num_R]. destruct (Rltb b a) eqn:E; [apply Rltb_true in E|apply Rltb_false in E]; repeat split; intros; lra. Qed.
Lemma smax_ge (a b : R) : (a <= std_max a b /\ b <= std_max a b /\ (forall c, a <= c -> b <= c -> std_max a b <= c))%R.
Proof. unfold std_max. cbn [nltb Num_R]. destruct (Rltb a b) eqn:E; [apply Rltb_true in E|apply Rltb_false in E]; repeat split; intros; lra. Qed.

Lemma extend_keep b x y : bx b x -> bx (box_extend b y) x.
Proof.
  unfold bx, in_box, box_extend. cbn [MinPoint MaxPoint gx gy gz]. intros ((?&?)&(?&?)&?&?).
  pose proof (smin_le (gx (MinPoint b)) (gx y)). pose proof (smin_le (gy (MinPoint b)) (gy y)). pose proof (smin_le (gz (MinPoint b)) (gz y)).
  pose proof (smax_ge (gx (MaxPoint b)) (gx y)). pose proof (smax_ge (gy (MaxPoint b)) (gy y)). pose proof (smax_ge (gz (MaxPoint b)) (gz y)). lra.
Qed.
Lemma extend_has b y : bx (box_extend b y) y.
Proof.
  unfold bx, in_box, box_extend. cbn [MinPoint MaxPoint gx gy gz].
  pose proof (smin_le (gx (MinPoint b)) (gx y)). pose proof (smin_le (gy (MinPoint b)) (gy y)). pose proof (smin_le (gz (MinPoint b)) (gz y)).
  pose proof (smax_ge (gx (MaxPoint b)) (gx y)). pose proof (smax_ge (gy (MaxPoint b)) (gy y)). pose proof (smax_ge (gz (MaxPoint b)) (gz y)). lra.
Qed.
(* the corners stay in any box holding them and the new point *)
Definition corners lo hi (b : BoundingBox) : Prop := in_box lo hi (MinPoint b) /\ in_box lo hi (MaxPoint b).
Lemma extend_corners lo hi b y : corners lo hi b -> in_box lo hi y -> corners lo hi (box_extend b y).
Proof.
  unfold corners, in_box, box_extend. cbn [MinPoint MaxPoint gx gy gz]. intros (((?&?)&(?&?)&?&?)&((?&?)&(?&?)&?&?)) ((?&?)&(?&?)&?&?).
  pose proof (smin_le (gx (MinPoint b)) (gx y)) as (?&?&X1). pose proof (smin_le (gy (MinPoint b)) (gy y)) as (?&?&X2). pose proof (smin_le (gz (MinPoint b)) (gz y)) as (?&?&X3).
  pose proof (smax_ge (gx (MaxPoint b)) (gx y)) as (?&?&X4). pose proof (smax_ge (gy (MaxPoint b)) (gy y)) as (?&?&X5). pose proof (smax_ge (gz (MaxPoint b)) (gz y)) as (?&?&X6).
  repeat split; try (apply X1; lra); try (apply X2; lra); try (apply X3; lra); try (apply X4; lra); try (apply X5; lra); try (apply X6; lra); lra.
Qed.

Lemma clamped_dom p n U i : curve_knots p n U -> clamped_knots p n U -> 0 <= i < len U -> in_domain p n U (val U i).
Proof.
  intros [Hp Hn Hl Hs _ _] (C1 & C2) Hi. split; [rewrite <- C1|rewrite C2]; apply Hs; lia.
Qed.

Lemma BoundingBox_ok p n U q m Vk P W H : curve_knots p n U -> curve_knots q m Vk -> p <= 7 -> q <= 7 -> weighted_net (n + 1) (m + 1) P W H ->
  (forall i j, 0 <= i <= n -> 0 <= j <= m -> (tol (val2 W i j) 0 < val2 W i j)%R) -> clamped_knots p n U -> clamped_knots q m Vk -> len U - 1 <= len Vk ->
  returns (GetBoundingBox (mkSurface p q U Vk H)) (fun b =>
    (forall i, 0 <= i < len U - 1 -> in_box (MinPoint b) (MaxPoint b) (rational_surface_point p n U q m Vk P W (val U i) (val Vk i))) /\
    (forall lo hi, (forall i j, 0 <= i <= n -> 0 <= j <= m -> in_box lo hi (pt2 P i j)) -> in_box lo hi (MinPoint b) /\ in_box lo hi (MaxPoint b))).
Proof.
  intros HU HV Hp7 Hq7 HW Hh CU CV HL. apply wp_elim. pose proof HU as [Hp Hn Hl Hs _ _]. pose proof HV as [Hq Hm Hl' Hs' _ _].
  pose proof HW as (HP & HH & EH). pose proof (arr2_net _ _ _ HH) as AH.
  assert (EX : forall i j, 0 <= i <= n -> 0 <= j <= m -> ToXYZ (pt2 H i j) true = Ok (pt2 P i j)).
  { intros i j Hi Hj. rewrite EH by lia. apply (ToXYZ_mkW (pt2 P i j)). apply heavy_aeq. apply Hh; lia. }
  unfold GetBoundingBox. cbn [SControlPoints KnotVectorU KnotVectorV].
  rewrite (proj1 HH). replace (n + 1 =? 0) with false by (symmetry; apply Z.eqb_neq; lia).
  destruct (arr2_row _ _ _ _ 0 AH ltac:(lia)) as (row0 & E0 & A0). rewrite E0. cbn [bind]. rewrite (proj1 A0).
  replace (m + 1 =? 0) with false by (symmetry; apply Z.eqb_neq; lia).
  rewrite (arr_get _ _ _ 0 A0) by lia. cbn [bind]. rewrite EX by lia. cbn [bind].
  apply wp_bind. eapply wp_mono with (P := fun b => (forall i j, 0 <= i <= n -> 0 <= j <= m -> bx b (pt2 P i j)) /\
     (forall lo hi, (forall i j, 0 <= i <= n -> 0 <= j <= m -> in_box lo hi (pt2 P i j)) -> corners lo hi b)).
  { apply wp_for_up with (P := fun k b => (forall i j, 0 <= i < k -> 0 <= j <= m -> bx b (pt2 P i j)) /\
     (forall lo hi, (forall i j, 0 <= i <= n -> 0 <= j <= m -> in_box lo hi (pt2 P i j)) -> corners lo hi b)); [lia| | |].
    - split; [intros; lia|]. intros lo hi Hb. split; apply Hb; lia.
    - intros i b Hi (B1 & B2). destruct (arr2_row _ _ _ _ i AH ltac:(lia)) as (row & E1 & A1). rewrite E1. cbn [bind]. rewrite (proj1 A1).
      apply wp_for_up with (P := fun k b => (forall i' j, 0 <= i' < i -> 0 <= j <= m -> bx b (pt2 P i' j)) /\ (forall j, 0 <= j < k -> bx b (pt2 P i j)) /\
        (forall lo hi, (forall i j, 0 <= i <= n -> 0 <= j <= m -> in_box lo hi (pt2 P i j)) -> corners lo hi b)); [lia| | |].
      + split; [exact B1|]. split; [intros; lia|exact B2].
      + intros j b' Hj (C1 & C2 & C3). rewrite (arr_get _ _ _ j A1) by lia. cbn [bind]. rewrite EX by lia. cbn [bind]. apply wp_ok.
        split; [intros; apply extend_keep; auto|]. split.
        * intros j' Hj'. destruct (Z.eq_dec j' j) as [->|]; [apply extend_has|]. apply extend_keep, C2. lia.
        * intros lo hi Hb. apply extend_corners; [auto|]. apply Hb; lia.
      + intros b' (C1 & C2 & C3). split; [|exact C3]. intros i' j Hi' Hj. destruct (Z.eq_dec i' i) as [->|]; [apply C2; lia|apply C1; lia].
    - intros b (B1 & B2). split; [|exact B2]. intros; apply B1; lia. }
  intros b0 (K1 & K2). apply wp_bind.
  apply wp_for_up with (P := fun k b => forall i, 0 <= i < k -> bx b (rational_surface_point p n U q m Vk P W (val U i) (val Vk i))); [lia|intros; lia| |].
  - intros i b Hi B1. eapply wp_for_up with (P := fun k b => (forall i', 0 <= i' < i -> bx b (rational_surface_point p n U q m Vk P W (val U i') (val Vk i'))) /\
      (0 < k -> bx b (rational_surface_point p n U q m Vk P W (val U i) (val Vk i)))); [lia|split; [exact B1|lia]| |].
    + intros j b' Hj (C1 & C2). rewrite (get_at 0%R U), (get_at 0%R Vk) by lia. cbn [bind]. fold (val U i) (val Vk i).
      rewrite (Surface_point p n U q m Vk HU HV Hp7 Hq7 P W H HW) by (auto; apply clamped_dom; auto; lia). cbn [bind]. apply wp_ok.
      split; [intros; apply extend_keep; auto|]. intros _. apply extend_has.
    + intros b' (C1 & C2) i' Hi'. destruct (Z.eq_dec i' i) as [->|]; [apply C2; lia|apply C1; lia].
  - intros b1 B1. apply wp_ok.
    set (b := mkBox _ _). assert (G1 : forall i, 0 <= i < len U - 1 -> bx b (rational_surface_point p n U q m Vk P W (val U i) (val Vk i))).
    { intros i Hi. specialize (B1 i Hi).
      assert (B0 : bx b0 (rational_surface_point p n U q m Vk P W (val U i) (val Vk i))).
      { apply (Surface_in_box p n U q m Vk HU HV P W); auto; apply clamped_dom; auto; lia. }
      set (s := rational_surface_point p n U q m Vk P W (val U i) (val Vk i)) in *. unfold bx, in_box, b in *. cbn [MinPoint MaxPoint gx gy gz].
      pose proof (smax_ge (gx (MinPoint b0)) (gx (MinPoint b1))) as (_&_&X1). pose proof (smax_ge (gy (MinPoint b0)) (gy (MinPoint b1))) as (_&_&X2). pose proof (smax_ge (gz (MinPoint b0)) (gz (MinPoint b1))) as (_&_&X3).
      pose proof (smin_le (gx (MaxPoint b0)) (gx (MaxPoint b1))) as (_&_&X4). pose proof (smin_le (gy (MaxPoint b0)) (gy (MaxPoint b1))) as (_&_&X5). pose proof (smin_le (gz (MaxPoint b0)) (gz (MaxPoint b1))) as (_&_&X6).
      repeat split; [apply X1|apply X4|apply X2|apply X5|apply X3|apply X6]; lra. }
    split; [exact G1|]. intros lo hi Hb. destruct (K2 lo hi Hb) as (Q1 & Q2). pose proof (G1 0 ltac:(lia)) as G0. pose proof (K1 0 0 ltac:(lia) ltac:(lia)) as K0.
    pose proof (Surface_in_box p n U q m Vk HU HV P W (val U 0) (val Vk 0) lo hi (clamped_dom p n U 0 HU CU ltac:(lia)) (clamped_dom q m Vk 0 HV CV ltac:(lia)) Hh Hb) as Q0.
    set (s := rational_surface_point p n U q m Vk P W (val U 0) (val Vk 0)) in *. 
    assert (N1 : (gx (MinPoint b0) <= gx (MinPoint b))%R) by (unfold b; cbn [MinPoint gx]; apply smax_ge).
    assert (N2 : (gy (MinPoint b0) <= gy (MinPoint b))%R) by (unfold b; cbn [MinPoint gy]; apply smax_ge).
    assert (N3 : (gz (MinPoint b0) <= gz (MinPoint b))%R) by (unfold b; cbn [MinPoint gz]; apply smax_ge).
    assert (N4 : (gx (MaxPoint b) <= gx (MaxPoint b0))%R) by (unfold b; cbn [MaxPoint gx]; apply smin_le).
    assert (N5 : (gy (MaxPoint b) <= gy (MaxPoint b0))%R) by (unfold b; cbn [MaxPoint gy]; apply smin_le).
    assert (N6 : (gz (MaxPoint b) <= gz (MaxPoint b0))%R) by (unfold b; cbn [MaxPoint gz]; apply smin_le).
    clearbody b. unfold bx, in_box in *. lra.
Qed.

(* ---------------- at any point of the domain ---------------- *)

Section Dom.
Variables (p n : Z) (U : list R) (q m : Z) (W : list R) (H : list (list (XYZW R))) (u v : R).
Hypotheses (HU : curve_knots p n U) (HW : curve_knots q m W) (Hp7 : p <= 7) (Hq7 : q <= 7) (HH : net (n + 1) (m + 1) H)
  (Du : in_domain p n U u) (Dv : in_domain q m W v) (Hw : ww (surface_point p n U q m W H u v) <> 0%R).

Lemma at_spans : exists ku kv, span_of p n U u ku /\ span_of q m W v kv /\ ww (span_patch ku p U kv q W H u v) <> 0%R.
Proof.
  destruct (find_span p n U u HU Du) as (ku & _ & Hku). destruct (find_span q m W v HW Dv) as (kv & _ & Hkv).
  exists ku, kv. split; [exact Hku|]. split; [exact Hkv|]. rewrite <- (surface_point_span p n U q m) by auto. exact Hw.
Qed.

Lemma Ders_dom d : 0 < d -> d <= p -> d <= q -> exists g, surface_partials p n U q m W H d u v g /\
  returns (ComputeRationalSurfaceDerivatives (mkSurface p q U W H) d u v) (fun D => forall k l, 0 <= k -> 0 <= l -> k + l <= d -> get2 D k l = Ok (g k l)).
Proof.
  intros Hd Hdp Hdq. destruct at_spans as (ku & kv & Hku & Hkv & Hw').
  destruct (ders_at p n U q m W H u v ku kv d HU HW Hp7 Hq7 HH Hku Hkv Hd Hdp Hdq Hw') as (G1 & D & E & HD).
  eexists. split; [exists ku, kv; split; [exact Hku|split; [exact Hkv|exact G1]]|]. exists D. split; [exact E|exact HD].
Qed.

Lemma First_dom : 1 <= p -> 1 <= q -> exists g, surface_partials p n U q m W H 1 u v g /\
  ComputeRationalSurfaceFirstOrderDerivative (mkSurface p q U W H) u v = Ok (g 0 0, g 1 0, g 0 1).
Proof.
  intros Hp Hq. destruct at_spans as (ku & kv & Hku & Hkv & Hw').
  destruct (ders_at p n U q m W H u v ku kv 1 HU HW Hp7 Hq7 HH Hku Hkv ltac:(lia) ltac:(lia) ltac:(lia) Hw') as (G1 & _).
  eexists. split; [exists ku, kv; split; [exact Hku|split; [exact Hkv|exact G1]]|]. apply (RSurfFirst_span p n U q m); auto; lia.
Qed.

Lemma Normal_dom : 1 <= p -> 1 <= q -> exists g x, surface_partials p n U q m W H 1 u v g /\ Normal (mkSurface p q U W H) u v = Ok x /\
  (cross3 (g 1 0) (g 0 1) <> zero3 -> direction_of (cross3 (g 1 0) (g 0 1)) x) /\ (cross3 (g 1 0) (g 0 1) = zero3 -> x = zero3).
Proof.
  intros Hp Hq. destruct at_spans as (ku & kv & Hku & Hkv & Hw').
  destruct (ders_at p n U q m W H u v ku kv 1 HU HW Hp7 Hq7 HH Hku Hkv ltac:(lia) ltac:(lia) ltac:(lia) Hw') as (G1 & _).
  destruct (Normal_span p n U q m W H u v ku kv HU HW Hp7 Hq7 HH Hku Hkv Hw' Hp Hq) as (x & E & X).
  eexists. exists x. split; [exists ku, kv; split; [exact Hku|split; [exact Hkv|exact G1]]|]. split; [exact E|exact X].
Qed.

Lemma UVTangent_dom x : 1 <= p -> 1 <= q -> exists g, surface_partials p n U q m W H 1 u v g /\ let a := g 1 0 in let b := g 0 1 in
  let det := (dot3 a a * dot3 b b)%R in let off := (dot3 a b * dot3 a b)%R in
  ((tol det off < Rabs (det - off))%R -> exists r s, GetUVTangent (mkSurface p q U W H) u v x = Ok (Some (r, s)) /\
     let y := minus3 x (plus3 (times3 r a) (times3 s b)) in dot3 y a = 0%R /\ dot3 y b = 0%R) /\
  ((Rabs (det - off) <= tol det off)%R -> GetUVTangent (mkSurface p q U W H) u v x = Ok None).
Proof.
  intros Hp Hq. destruct at_spans as (ku & kv & Hku & Hkv & Hw').
  destruct (ders_at p n U q m W H u v ku kv 1 HU HW Hp7 Hq7 HH Hku Hkv ltac:(lia) ltac:(lia) ltac:(lia) Hw') as (G1 & _).
  pose proof (UVTangent_span p n U q m W H u v ku kv HU HW Hp7 Hq7 HH Hku Hkv Hw' x Hp Hq) as E.
  eexists. split; [exists ku, kv; split; [exact Hku|split; [exact Hkv|exact G1]]|]. exact E.
Qed.

Lemma Curvature_dom : 2 <= p -> 2 <= q -> exists g, surface_partials p n U q m W H 2 u v g /\
  let c := cross3 (g 1 0) (g 0 1) in
  ((1 / 999999 < dot3 c c)%R -> exists x, direction_of c x /\
  let E := dot3 (g 1 0) (g 1 0) in let F := dot3 (g 1 0) (g 0 1) in let G := dot3 (g 0 1) (g 0 1) in
  let L := dot3 (g 2 0) x in let M := dot3 (g 1 1) x in let N := dot3 (g 0 2) x in
  exists k1 k2, (k2 <= k1)%R /\ principal E F G L M N k1 /\ principal E F G L M N k2 /\ (forall k, principal E F G L M N k -> k = k1 \/ k = k2) /\
  let S := mkSurface p q U W H in
  SurfaceCurvatureAt S Maximum u v = Ok k1 /\ SurfaceCurvatureAt S Minimum u v = Ok k2 /\
  SurfaceCurvatureAt S Gauss u v = Ok (((L * N - M * M) / (E * G - F * F))%R) /\ ((L * N - M * M) / (E * G - F * F) = k1 * k2)%R /\ SurfaceCurvatureAt S Mean u v = Ok ((k1 + k2) / 2)%R /\
  SurfaceCurvatureAt S Abs u v = Ok (Rabs k1 + Rabs k2)%R /\ SurfaceCurvatureAt S Rms u v = Ok (sqrt (k1 * k1 + k2 * k2))) /\
  ((dot3 c c <= 1 / 999999)%R -> forall cv, SurfaceCurvatureAt (mkSurface p q U W H) cv u v = Ok 0%R).
Proof.
  intros Hp Hq. destruct at_spans as (ku & kv & Hku & Hkv & Hw').
  destruct (ders_at p n U q m W H u v ku kv 2 HU HW Hp7 Hq7 HH Hku Hkv ltac:(lia) ltac:(lia) ltac:(lia) Hw') as (G1 & _).
  eexists. split; [exists ku, kv; split; [exact Hku|split; [exact Hkv|exact G1]]|]. split.
  - apply (Curvature_span p n U q m W H u v ku kv HU HW Hp7 Hq7 HH Hku Hkv Hw' Hp Hq).
  - intros Hc cv. apply (Curvature_degenerate p n U q m W H u v ku kv HU HW Hp7 Hq7 HH Hku Hkv Hw' Hp Hq cv Hc).
Qed.
End Dom.

Lemma positive_weight p n U q m Vk P W H u v : curve_knots p n U -> curve_knots q m Vk -> weighted_net (n + 1) (m + 1) P W H ->
  in_domain p n U u -> in_domain q m Vk v -> (forall i j, 0 <= i <= n -> 0 <= j <= m -> (0 < val2 W i j)%R) ->
  (0 < ww (surface_point p n U q m Vk H u v))%R.
Proof. intros HU HV HW Du Dv Hw. rewrite (ww_surface p n U q m Vk P W H HW). apply surface_weight_gt; auto. Qed.
