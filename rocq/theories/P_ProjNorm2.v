(* Normals carried along a curve: straight segments, closed curves. *)
From Coq Require Import ZArith List Bool Reals Lra Lia.
From Verif Require Import Base Num Vec Tac Spec Spec2 Spec3 Spec4 Spec5 Spec9 Spec10 Spec16 M_MathUtils M_XYZ M_Bspline M_NurbsCurve M_Geom M_Shape M_Curve3
  P_MathUtils P_Span P_Cox P_Vec P_XYZ P_VSum P_Curve P_Basis P_Bspline P_Decomp P_Fit P_Loop P_Nurbs P_Make P_Matrix P_Geom P_Interp P_Interp2 P_Shape P_Shape2 P_Shape3 P_Surf5 P_Surf6 P_Surf7 P_Swung P_ProjNorm.
Import ListNotations.
Open Scope Z_scope.

Lemma skewed_zero3 : skewed zero3 = zero3.
Proof. unfold skewed, cross3, zero3. cbn [gx gy gz]. f_equal; ring. Qed.

Section Any.
Variables (p n : Z) (U : list R) (H : list (XYZW R)).
Hypothesis HU : curve_knots p n U.
Hypothesis Hp : p <= 7.
Hypothesis HH : len H = n + 1.
Hypothesis Hw : heavy H.
Hypothesis Hcl : clamped_knots p n U.

Lemma Project_any fuel angles : IsClosed (mkCurve p U H) = Ok false ->
  ProjectNormal fuel angles (mkCurve p U H) = OutOfFuel \/ exists L, ProjectNormal fuel angles (mkCurve p U H) = Ok L /\ carried p n U H L.
Proof.
  intros Hc. destruct (zero3_dec (Tf p U H 0)) as [Z0|Z0].
  - left. apply (Project_never p n U H HU Hp HH Hw Hcl). rewrite Z0. apply skewed_zero3.
  - apply (Project_open p n U H HU Hp HH Hw Hcl); assumption.
Qed.
Lemma Project_round fuel angles : close (dist3 (proj (curve_point p n U H (val U 0))) (proj (curve_point p n U H (val U (n + 1))))) 0 ->
  ProjectNormal fuel angles (mkCurve p U H) = OutOfFuel \/ ProjectNormal fuel angles (mkCurve p U H) = UB.
Proof.
  intros Hc. assert (C : IsClosed (mkCurve p U H) = Ok true). { destruct (IsClosed_ok p n U H HU Hp HH Hw Hcl) as (b & -> & B & _). rewrite (B Hc). reflexivity. }
  destruct (zero3_dec (Tf p U H 0)) as [Z0|Z0].
  - left. apply (Project_never p n U H HU Hp HH Hw Hcl). rewrite Z0. apply skewed_zero3.
  - apply (Project_closed p n U H HU Hp HH Hw Hcl); assumption.
Qed.
Lemma Project_skew : exists g, curve_derivs p n U H 1 (val U 0) g /\ ((exists s, g 1 = times3 s (mkXYZ 1 (-1) 1)%R) ->
  forall fuel angles, ProjectNormal fuel angles (mkCurve p U H) = OutOfFuel).
Proof.
  pose proof (U_len p n U HU). destruct (Tf_ok p n U H HU Hp HH Hw Hcl 0 ltac:(lia)) as (_ & g & G & GN & GZ). exists g. split; [exact G|]. intros (s & Es) fuel angles.
  apply (Project_never p n U H HU Hp HH Hw Hcl). destruct (zero3_dec (g 1)) as [Z0|Z0].
  - rewrite (GZ Z0). apply skewed_zero3.
  - destruct (GN Z0) as (T1 & k & K & Ek). apply (skewed_zero _ T1). rewrite Es in Ek. pose proof (f_equal gx Ek) as E1. pose proof (f_equal gy Ek) as E2. pose proof (f_equal gz Ek) as E3. unfold times3 in E1, E2, E3. cbn [gx gy gz] in E1, E2, E3.
    split; apply Rmult_eq_reg_l with k; lra.
Qed.
End Any.

(* a straight segment *)
Lemma bar_heavy a b : heavy (bar a b).
Proof. intros i Hi. change (len (bar a b)) with 2 in Hi. assert (T : (tol 1 0 < 1)%R) by (unfold tol; rewrite Rabs_R0, Rabs_R1, Rmax_left by lra; lra). assert (i = 0 \/ i = 1) as [-> | ->] by lia; exact T. Qed.
Lemma bar_knots : curve_knots 1 1 (bezier_knots 1) /\ clamped_knots 1 1 (bezier_knots 1).
Proof. split; [apply bez_knots_ok; lia|split; reflexivity]. Qed.
Lemma lerp_ends a b : lerp3 a b 0 = a /\ lerp3 a b 1 = b.
Proof. destruct a as [a1 a2 a3], b as [b1 b2 b3]. unfold lerp3, plus3, times3. cbn [gx gy gz]. split; f_equal; ring. Qed.
Lemma bar_open a b : (1 / 1000 <= dist3 a b)%R -> ~ Spec3.near b a -> IsClosed (mkCurve 1 (bezier_knots 1) (bar a b)) = Ok false.
Proof.
  intros Hd Hn. destruct bar_knots as (K & CK). destruct (IsClosed_ok 1 1 (bezier_knots 1) (bar a b) K ltac:(lia) eq_refl (bar_heavy a b) CK) as (r & E & _ & Hr). rewrite E. destruct r; [|reflexivity]. exfalso.
  destruct (Hr eq_refl) as [C|(m & Hm & C)].
  - change (val (bezier_knots 1) 0) with 0%R in C. change (val (bezier_knots 1) (1 + 1)) with 1%R in C. rewrite !bar_at, !hom_proj in C by lra.
    destruct (lerp_ends a b) as (L0 & L1). rewrite L0, L1 in C.
    unfold close, tol in C. rewrite Rabs_R0, Rminus_0_r in C. rewrite Rmax_left in C by apply Rabs_pos. rewrite (Rabs_pos_eq (dist3 a b)) in C by lra. lra.
  - assert (m = 0) by lia. subst m. specialize (C 0 ltac:(lia)). change (1 - 0 + 0) with 1 in C. change (pt (bar a b) 1) with (hom b 1) in C. change (pt (bar a b) 0) with (hom a 1) in C. rewrite !hom_proj in C. exact (Hn C).
Qed.
Lemma bar_Tf a b u : direction_of (minus3 b a) u -> forall i, 0 <= i < 4 -> Tf 1 (bezier_knots 1) (bar a b) i = u.
Proof.
  intros (Hu & s & Hs & E) i Hi. unfold Tf, unit_tangent. assert (D : (0 <= val (bezier_knots 1) i <= 1)%R).
  { assert (i = 0 \/ i = 1 \/ i = 2 \/ i = 3) as [-> | [-> | [-> | ->]]] by lia; [change (val (bezier_knots 1) 0) with 0%R|change (val (bezier_knots 1) 1) with 0%R|change (val (bezier_knots 1) 2) with 1%R|change (val (bezier_knots 1) 3) with 1%R]; lra. }
  destruct (bar_deriv a b _ D) as (L & E1 & E2). unfold bar_curve in E1. rewrite E1. cbn [bind]. rewrite E2. cbn [bind].
  destruct (Normalize_any (minus3 b a)) as (w & -> & W & _). assert (N0 : minus3 b a <> zero3). { intros Z0. rewrite Z0 in E. assert (dot3 (times3 s u) (times3 s u) = 0)%R by (rewrite <- E; unfold dot3, zero3; cbn [gx gy gz]; ring).
    replace (dot3 (times3 s u) (times3 s u)) with (s * s * dot3 u u)%R in * by (unfold dot3, times3; cbn [gx gy gz]; ring). rewrite Hu in *. nra. }
  destruct (W N0) as (W1 & k & Hk & Ek). rewrite E in Ek.
  assert (SK : (s * s = k * k)%R). { transitivity (dot3 (times3 s u) (times3 s u)); [transitivity (s * s * dot3 u u)%R; [rewrite Hu; ring|unfold dot3, times3; cbn [gx gy gz]; ring]|]. rewrite Ek. transitivity (k * k * dot3 w w)%R; [unfold dot3, times3; cbn [gx gy gz]; ring|rewrite W1; ring]. }
  assert (k = s)%R by nra. subst k. pose proof (f_equal gx Ek) as E3. pose proof (f_equal gy Ek) as E4. pose proof (f_equal gz Ek) as E5. unfold times3 in E3, E4, E5. cbn [gx gy gz] in E3, E4, E5.
  destruct u as [u1 u2 u3], w as [w1 w2 w3]. cbn [gx gy gz] in *. f_equal; apply Rmult_eq_reg_l with s; lra.
Qed.
Lemma Project_bar a b fuel angles : (1 / 1000 <= dist3 a b)%R -> ~ Spec3.near b a -> (forall s, minus3 b a <> times3 s (mkXYZ 1 (-1) 1)%R) ->
  exists w, dot3 w w = 1%R /\ dot3 w (minus3 b a) = 0%R /\ ProjectNormal (S fuel) angles (mkCurve 1 (bezier_knots 1) [hom a 1; hom b 1]) = Ok [w; w; w; w].
Proof.
  intros Hd Hn Hs. destruct bar_knots as (K & CK).
  destruct (Normalize_any (minus3 b a)) as (u & _ & W & _). assert (N0 : minus3 b a <> zero3). { intros Z0. apply (Hs 0%R). rewrite Z0. unfold zero3, times3. cbn [gx gy gz]. f_equal; ring. }
  pose proof (W N0) as D. pose proof D as (U1 & k & Hk & Ek).
  assert (SN : skewed u <> zero3). { intros S0. apply (skewed_zero u U1) in S0. destruct S0 as (S1 & S2). apply (Hs (k * gx u)%R). rewrite Ek. unfold times3. cbn [gx gy gz]. rewrite <- S1, S2. f_equal; ring. }
  destruct (Project_straight 1 1 (bezier_knots 1) (bar a b) K ltac:(lia) eq_refl (bar_heavy a b) CK u fuel angles U1 SN) as (w & W1 & W2 & E); [intros i Hi; apply bar_Tf; [exact D|exact Hi]|apply bar_open; assumption|].
  exists w. split; [exact W1|]. split; [|exact E]. rewrite Ek. replace (dot3 w (times3 k u)) with (k * dot3 w u)%R by (unfold dot3, times3; cbn [gx gy gz]; ring). rewrite W2. ring.
Qed.
Lemma Project_bar_never a b s : minus3 b a = times3 s (mkXYZ 1 (-1) 1)%R -> forall fuel angles,
  ProjectNormal fuel angles (mkCurve 1 (bezier_knots 1) (bar a b)) = OutOfFuel.
Proof.
  intros E fuel angles. destruct bar_knots as (K & CK). apply (Project_never 1 1 (bezier_knots 1) (bar a b) K ltac:(lia) eq_refl (bar_heavy a b) CK).
  destruct (zero3_dec (minus3 b a)) as [Z0|Z0].
  - unfold Tf, unit_tangent. destruct (bar_deriv a b (val (bezier_knots 1) 0)) as (L & E1 & E2); [change (val (bezier_knots 1) 0) with 0%R; lra|]. unfold bar_curve in E1. rewrite E1. cbn [bind]. rewrite E2, Z0. cbn [bind].
    change zero3 with (xyz0 (A := R)). rewrite Normalize_zero. apply skewed_zero3.
  - destruct (Normalize_any (minus3 b a)) as (u & _ & W & _). pose proof (W Z0) as D. rewrite (bar_Tf a b u D) by lia. destruct D as (U1 & k & Hk & Ek). apply (skewed_zero u U1).
    rewrite E in Ek. pose proof (f_equal gx Ek) as E1. pose proof (f_equal gy Ek) as E2. pose proof (f_equal gz Ek) as E3. unfold times3 in E1, E2, E3. cbn [gx gy gz] in E1, E2, E3. split; apply Rmult_eq_reg_l with k; lra.
Qed.
