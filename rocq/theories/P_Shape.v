(* Curvature, torsion and normals of curves. *)
From Coq Require Import ZArith List Bool Reals Lra Lia.
From Verif Require Import Base Num Vec Tac Spec Spec2 Spec3 Spec4 Spec10 M_MathUtils M_Polynomials M_XYZ M_Bspline M_NurbsCurve M_Shape
  P_MathUtils P_Span P_Cox P_Basis P_Deriv P_Vec P_XYZ P_VSum P_Curve P_Bspline P_Matrix P_Loop P_Geom P_Nurbs P_Conic P_Insert.
Import ListNotations.
Open Scope Z_scope.

Section At.
Variables (p n : Z) (U : list R) (H : list (XYZW R)) (t : R).
Hypothesis HU : curve_knots p n U.
Hypothesis Hp : p <= 7.
Hypothesis HH : len H = n + 1.
Hypothesis Ht : in_domain p n U t.
Hypothesis Hw : ww (curve_point p n U H t) <> 0%R.

Lemma derivs_at d : 0 < d -> exists g D, curve_derivs p n U H d t g /\ ComputeRationalCurveDerivatives (mkCurve p U H) d t = Ok D /\
  forall m, 0 <= m <= d -> get D m = Ok (g m).
Proof.
  intros Hd. destruct (find_span _ _ _ _ HU Ht) as (k & _ & Hk).
  assert (Hw' : ww (span_curve k p U H t) <> 0%R) by (rewrite <- (curve_point_span p n) by auto; exact Hw).
  destruct (wp_elim _ _ (Rational_derivatives p n U H t k d HU Hp HH Hk Hd Hw')) as (D & E & HD).
  exists (fun m => rder k p U H m t), D. split; [|split; [exact E|]].
  - exists k. split; [exact Hk|]. intros m Hm. exists (rder k p U H m). split; [|reflexivity]. pose proof (ck_p _ _ _ HU). apply rder_deriv; auto; [lia|]. eapply span_of_good; eauto.
  - intros m Hm. apply (arr_get _ _ _ _ HD). lia.
Qed.

Lemma domain_ok : validate_domain U t = Ok tt.
Proof.
  pose proof (ck_n _ _ _ HU) as N0. pose proof (ck_p _ _ _ HU) as G0. pose proof (ck_len _ _ _ HU) as LU.
  unfold validate_domain. assert (A0 : arr U (len U) (val U)) by apply arr_at. rewrite (arr_get _ _ _ 0 A0) by lia. cbn [bind]. rewrite (arr_get _ _ _ (len U - 1) A0) by lia. cbn [bind].
  unfold validate_range. num. destruct Ht as [H1 H2].
  pose proof (ck_sorted _ _ _ HU 0 p ltac:(lia) ltac:(lia) ltac:(lia)). pose proof (ck_sorted _ _ _ HU (n + 1) (len U - 1) ltac:(lia) ltac:(lia) ltac:(lia)).
  destruct (Rltb_spec t (val U 0)); [lra|]. destruct (Rltb_spec (val U (len U - 1)) t); [lra|]. reflexivity.
Qed.
End At.

Lemma close_iff x y : IsAlmostEqualTo x y = true <-> close x y.
Proof. unfold close. rewrite tol_thr. apply aeq_iff. Qed.
Lemma close_false x y : IsAlmostEqualTo x y = false <-> ~ close x y.
Proof. rewrite <- close_iff. destruct (IsAlmostEqualTo x y); split; congruence. Qed.

Lemma dot3_zero a : dot3 a a = 0%R -> a = zero3.
Proof. destruct a as [a1 a2 a3]. unfold dot3, zero3. cbn [gx gy gz]. intros E. assert (a1 = 0 /\ a2 = 0 /\ a3 = 0)%R as (-> & -> & ->) by (repeat split; nra). reflexivity. Qed.
Lemma norm_sq a : (norm3 a * norm3 a = dot3 a a)%R.
Proof. unfold norm3. apply sqrt_sqrt, dot_pos. Qed.
Lemma norm_pos a : a <> zero3 -> (0 < norm3 a)%R.
Proof. intros Ha. unfold norm3. apply sqrt_lt_R0. destruct (dot_pos a) as [D|D]; [exact D|]. exfalso. apply Ha, dot3_zero. symmetry. exact D. Qed.
Lemma norm_0 : norm3 zero3 = 0%R.
Proof. unfold norm3, dot3, zero3. cbn [gx gy gz]. replace (0 * 0 + 0 * 0 + 0 * 0)%R with 0%R by ring. apply sqrt_0. Qed.
Lemma norm_nonneg a : (0 <= norm3 a)%R.
Proof. apply sqrt_pos. Qed.
Lemma zero3_dec (a : XYZ R) : a = zero3 \/ a <> zero3.
Proof. destruct (Req_EM_T (dot3 a a) 0) as [E|E]; [left; apply dot3_zero, E|right; intros ->; apply E; unfold dot3, zero3; cbn; ring]. Qed.

Lemma div_dir a : a <> zero3 -> exists u, xyz_div a (norm3 a) = Ok u /\ direction_of a u.
Proof.
  intros Ha. pose proof (norm_pos a Ha) as Hn. exists (times3 (/ norm3 a) a). split.
  - unfold xyz_div. num. rewrite !Rdiv_ok by lra. cbn [bind]. unfold times3, Rdiv. f_equal. apply xyz_eq; ring.
  - split.
    + transitivity (/ norm3 a * / norm3 a * dot3 a a)%R; [unfold dot3, times3; cbn [gx gy gz]; ring|]. rewrite <- norm_sq. field. lra.
    + exists (norm3 a). split; [exact Hn|]. destruct a as [a1 a2 a3]. set (k := norm3 _) in *. unfold times3. cbn [gx gy gz]. apply xyz_eq; field; lra.
Qed.
Lemma div_zero a : xyz_div (A := R) a 0%R = NonFin.
Proof. unfold xyz_div. num. unfold Rdiv_. destruct (Req_EM_T 0 0); [reflexivity|contradiction]. Qed.

Lemma cross_zero_l b : cross3 zero3 b = zero3.
Proof. unfold cross3, zero3. cbn [gx gy gz]. apply xyz_eq; ring. Qed.

Section Frenet.
Variables (p n : Z) (U : list R) (H : list (XYZW R)) (t : R).
Hypothesis HU : curve_knots p n U.
Hypothesis Hp : p <= 7.
Hypothesis HH : len H = n + 1.
Hypothesis Ht : in_domain p n U t.
Hypothesis Hw : ww (curve_point p n U H t) <> 0%R.
Let c := mkCurve p U H.

Lemma Curvature_ok : exists g, curve_derivs p n U H 2 t g /\ let a := g 1 in let b := g 2 in
  (a <> zero3 -> ~ close (norm3 a) 1 -> Curvature c t = Ok (norm3 (cross3 a b) / norm3 a ^ 3)%R) /\
  (a = zero3 -> Curvature c t = NonFin) /\
  (close (norm3 a) 1 -> Curvature c t = Ok (norm3 b)).
Proof.
  destruct (derivs_at p n U H t HU Hp HH Ht Hw 2 ltac:(lia)) as (g & D & HD & E & G). exists g. split; [exact HD|]. cbv zeta.
  assert (EC : Curvature c t = if IsAlmostEqualTo (A := R) (norm3 (g 1)) 1%R then Ok (norm3 (g 2)) else ndiv (A := R) (norm3 (cross3 (g 1) (g 2))) (norm3 (g 1%Z) * norm3 (g 1%Z) * norm3 (g 1%Z))%R).
  { unfold Curvature, c. cbn [KnotVector]. rewrite (domain_ok p n U t HU Ht). cbn [bind]. rewrite E. cbn [bind]. rewrite !G by lia. cbn [bind].
    rewrite Length_eq. cbn [bind]. rewrite P_Geom.cross_eq, !Length_eq. reflexivity. }
  rewrite EC. split; [|split].
  - intros Ha Hc. apply close_false in Hc. rewrite Hc. pose proof (norm_pos _ Ha). num. rewrite Rdiv_ok by (apply Rgt_not_eq; repeat apply Rmult_lt_0_compat; lra). f_equal. f_equal. cbn. ring.
  - intros ->. assert (N : IsAlmostEqualTo (A := R) (norm3 zero3) 1%R = false).
    { apply close_false. rewrite norm_0. unfold close, tol. rewrite Rabs_R0, Rabs_R1, Rmax_right by lra. rewrite Rminus_0_l, Rabs_Ropp, Rabs_R1. lra. }
    rewrite N. rewrite norm_0. num. unfold Rdiv_. destruct (Req_EM_T _ _) as [|X]; [reflexivity|]. exfalso. apply X. ring.
  - intros Hc. apply close_iff in Hc. rewrite Hc. reflexivity.
Qed.

Lemma Frenet_ok : exists g, curve_derivs p n U H 2 t g /\ let a := g 1 in let b := g 2 in
  (cross3 a b <> zero3 -> ~ close (norm3 a) 1 -> exists x y, CurveNormalAt c CN_Normal t = Ok x /\ CurveNormalAt c CN_Binormal t = Ok y /\
     direction_of (cross3 a b) y /\ direction_of (minus3 (times3 (dot3 a a) b) (times3 (dot3 a b) a)) x) /\
  (cross3 a b = zero3 -> ~ close (norm3 a) 1 -> CurveNormalAt c CN_Normal t = NonFin /\ CurveNormalAt c CN_Binormal t = NonFin) /\
  (b <> zero3 -> close (norm3 a) 1 -> exists x, direction_of b x /\ CurveNormalAt c CN_Normal t = Ok x /\ CurveNormalAt c CN_Binormal t = Ok (cross3 a x)) /\
  (b = zero3 -> close (norm3 a) 1 -> CurveNormalAt c CN_Normal t = NonFin /\ CurveNormalAt c CN_Binormal t = NonFin).
Proof.
  destruct (derivs_at p n U H t HU Hp HH Ht Hw 2 ltac:(lia)) as (g & D & HD & E & G). exists g. split; [exact HD|]. cbv zeta.
  set (a := g 1). set (b := g 2).
  assert (EC : forall k, CurveNormalAt c k t = if IsAlmostEqualTo (A := R) (norm3 a) 1%R then
      let! x := xyz_div (A := R) b (norm3 b) in match k with CN_Normal => Ok x | CN_Binormal => Ok (cross3 a x) end
    else let! y := xyz_div (cross3 a b) (norm3 (cross3 a b)) in match k with CN_Binormal => Ok y | CN_Normal => let! nb := Normalize y in let! nt := Normalize a in Ok (cross3 nb nt) end).
  { intros k. unfold CurveNormalAt, c. cbn [KnotVector]. rewrite (domain_ok p n U t HU Ht). cbn [bind]. rewrite E. cbn [bind]. rewrite !G by lia. cbn [bind]. fold a b.
    rewrite Length_eq. cbn [bind]. rewrite P_Geom.cross_eq, !Length_eq. cbn [bind]. destruct (IsAlmostEqualTo _ _).
    - destruct (xyz_div b (norm3 b)); [|reflexivity..]. cbn [bind]. destruct k; [reflexivity|]. rewrite P_Geom.cross_eq. reflexivity.
    - destruct (xyz_div _ _); [|reflexivity..]. cbn [bind]. destruct k; [|reflexivity]. destruct (Normalize a0); [|reflexivity..]. cbn [bind]. destruct (Normalize a); [|reflexivity..]. cbn [bind]. rewrite P_Geom.cross_eq. reflexivity. }
  rewrite !EC. split; [|split; [|split]].
  - intros Hab Hc. apply close_false in Hc. rewrite Hc. destruct (div_dir _ Hab) as (y & -> & Dy). cbn [bind].
    assert (Ha : a <> zero3) by (intros X; apply Hab; rewrite X; apply cross_zero_l).
    assert (Ny : Normalize y = Ok y). { apply Normalize_direction. split; [apply Dy|]. exists 1%R. split; [lra|]. destruct y as [y1 y2 y3]. unfold times3. cbn [gx gy gz]. apply xyz_eq; ring. }
    rewrite Ny. cbn [bind]. destruct (div_dir _ Ha) as (u & _ & Du). rewrite (Normalize_direction _ _ Du). cbn [bind].
    exists (cross3 y u), y. split; [reflexivity|]. split; [reflexivity|]. split; [exact Dy|].
    destruct Dy as (Y1 & s & Hs & Es), Du as (U1 & r & Hr & Er).
    assert (O : dot3 y u = 0%R).
    { apply (Rmult_eq_reg_l (s * r)); [|apply Rgt_not_eq, Rmult_lt_0_compat; assumption]. rewrite Rmult_0_r.
      transitivity (dot3 (times3 s y) (times3 r u)); [unfold dot3, times3; cbn [gx gy gz]; ring|]. rewrite <- Es, <- Er. unfold dot3, cross3. cbn [gx gy gz]. ring. }
    split.
    + transitivity (dot3 y y * dot3 u u - dot3 y u * dot3 y u)%R; [unfold dot3, cross3; cbn [gx gy gz]; ring|]. rewrite Y1, U1, O. ring.
    + exists (s * r)%R. split; [apply Rmult_lt_0_compat; assumption|].
      transitivity (cross3 (cross3 a b) a); [unfold cross3, minus3, times3, dot3; cbn [gx gy gz]; apply xyz_eq; ring|].
      rewrite Es, Er. unfold cross3, times3. cbn [gx gy gz]. apply xyz_eq; ring.
  - intros Hab Hc. apply close_false in Hc. rewrite Hc. rewrite Hab, norm_0, div_zero. split; reflexivity.
  - intros Hb Hc. apply close_iff in Hc. rewrite Hc. destruct (div_dir _ Hb) as (x & -> & Dx). exists x. split; [exact Dx|]. split; reflexivity.
  - intros Hb Hc. apply close_iff in Hc. rewrite Hc. rewrite Hb, norm_0, div_zero. split; reflexivity.
Qed.

Lemma Torsion_ok : exists g, curve_derivs p n U H 3 t g /\ let a := g 1 in let b := g 2 in
  (cross3 a b <> zero3 -> ~ close (norm3 a) 1 -> Torsion c t = Ok (dot3 (cross3 a b) (g 3%Z) / dot3 (cross3 a b) (cross3 a b))%R) /\
  (cross3 a b = zero3 -> ~ close (norm3 a) 1 -> Torsion c t = NonFin) /\
  (b <> zero3 -> close (norm3 a) 1 -> Torsion c t = Ok (dot3 (cross3 a b) (g 3%Z) / dot3 b b)%R) /\
  (b = zero3 -> close (norm3 a) 1 -> Torsion c t = NonFin).
Proof.
  destruct (derivs_at p n U H t HU Hp HH Ht Hw 3 ltac:(lia)) as (g & D & HD & E & G). exists g. split; [exact HD|]. cbv zeta.
  set (a := g 1). set (b := g 2).
  assert (EC : Torsion c t = if IsAlmostEqualTo (A := R) (norm3 a) 1%R then ndiv (A := R) (dot3 (cross3 a b) (g 3)) (dot3 b b) else ndiv (A := R) (dot3 (cross3 a b) (g 3)) (dot3 (cross3 a b) (cross3 a b))).
  { unfold Torsion, c. cbn [KnotVector]. rewrite (domain_ok p n U t HU Ht). cbn [bind]. rewrite E. cbn [bind]. rewrite !G by lia. cbn [bind]. fold a b.
    rewrite Length_eq. cbn [bind]. rewrite P_Geom.cross_eq. reflexivity. }
  rewrite EC. num. unfold Rdiv_. assert (NZ : forall x, x <> zero3 -> dot3 x x <> 0%R) by (intros x Hx X; apply Hx, dot3_zero, X).
  assert (ZZ : dot3 zero3 zero3 = 0%R) by (unfold dot3, zero3; cbn; ring).
  split; [|split; [|split]]; intros Hab Hc; first [apply close_false in Hc; rewrite Hc|apply close_iff in Hc; rewrite Hc].
  - destruct (Req_EM_T _ _) as [X|_]; [exfalso; exact (NZ _ Hab X)|reflexivity].
  - rewrite Hab, ZZ. destruct (Req_EM_T 0 0); [reflexivity|contradiction].
  - destruct (Req_EM_T _ _) as [X|_]; [exfalso; exact (NZ _ Hab X)|reflexivity].
  - rewrite Hab, ZZ. destruct (Req_EM_T 0 0); [reflexivity|contradiction].
Qed.
End Frenet.
