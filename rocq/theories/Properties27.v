(* Property theorems, part 27: extending curves. *)
From Coq Require Import ZArith List Bool Reals Lra Lia.
From Verif Require Import Base Num Vec Tac Spec Spec2 Spec3 Spec4 Spec5 Spec9 Spec10 Spec18 M_MathUtils M_XYZ M_Bspline M_NurbsCurve M_Curve2 M_Geom M_Shape M_Curve3
  P_MathUtils P_Vec P_VSum P_Curve P_Bspline P_Nurbs P_Geom P_Shape P_Surf5 P_Surf6 P_Swung P_ProjNorm2 P_Extend P_Extend2.
Import ListNotations.
Open Scope Z_scope.

(** * C124 *)
(* the natural extension at the end: the old points stay, the new ones are those of the Taylor polynomial of the curve at its end *)
Theorem C124_end : forall p n U H delta, curve_knots p n U -> 1 <= p <= 7 -> len H = n + 1 -> heavy H -> clamped_knots p n U -> (tol delta 0 < delta)%R -> IsPeriodic (mkCurve p U H) = Ok false ->
  exists g L K D, curve_derivs p n U H p (val U (n + 1)) g /\ (0 <= L)%R /\ Extend (mkCurve p U H) delta false Ext_Natural = Ok (mkCurve p K D) /\
    len K = n + 2 * p + 2 /\ (forall j, 0 <= j <= n + p -> val K j = val U j) /\ (forall j, n + p < j <= n + 2 * p + 1 -> val K j = (val U (n + 1) + L)%R) /\ len D = n + p + 1 /\ (forall j, 0 <= j <= n -> pt D j = pt H j) /\
    ((tol (val U (n + 1)) (val U (n + 1) + L) < L)%R -> curve_knots p (n + p) K /\ clamped_knots p (n + p) K /\
      (forall t, in_domain p n U t -> (t < val U (n + 1))%R -> curve_point p (n + p) K D t = curve_point p n U H t) /\
      (forall t, (val U (n + 1) <= t <= val U (n + 1) + L)%R -> curve_point p (n + p) K D t = hom (taylor p g (val U (n + 1)) t) (ww (pt H n)))).
Proof.
  intros p n U H delta HU Hp HH Hw Hcl Hd HP. destruct (Extend_end p n U H HU ltac:(lia) ltac:(lia) HH Hw Hcl delta Hd HP) as (g & L & K & D & G & HL & E & LK & K1 & K2 & LD & D1 & D2 & G0 & _).
  exists g, L, K, D. split; [exact G|]. split; [exact HL|]. split; [exact E|]. split; [exact LK|]. split; [exact K1|]. split; [exact K2|]. split; [exact LD|]. split; [exact D1|]. intros HG.
  exact (ext_end p n U H HU ltac:(lia) HH Hw Hcl K D g L HL LK K1 K2 LD D1 D2 G0 HG).
Qed.
Print Assumptions C124_end.

Theorem C124_start : forall p n U H delta, curve_knots p n U -> 1 <= p <= 7 -> len H = n + 1 -> heavy H -> clamped_knots p n U -> (tol delta 0 < delta)%R -> IsPeriodic (mkCurve p U H) = Ok false ->
  exists g L K D, curve_derivs p n U H p (val U p) g /\ (0 <= L)%R /\ Extend (mkCurve p U H) delta true Ext_Natural = Ok (mkCurve p K D) /\
    len K = n + 2 * p + 2 /\ (forall j, 0 <= j <= p -> val K j = (val U p - L)%R) /\ (forall j, p < j <= n + 2 * p + 1 -> val K j = val U (j - p)) /\ len D = n + p + 1 /\ (forall j, 0 <= j <= n -> pt D (p + j) = pt H j) /\
    ((tol (val U p - L) (val U p) < L)%R -> curve_knots p (n + p) K /\ clamped_knots p (n + p) K /\
      (forall t, in_domain p n U t -> curve_point p (n + p) K D t = curve_point p n U H t) /\
      (forall t, (val U p - L <= t < val U p)%R -> curve_point p (n + p) K D t = hom (taylor p g (val U p) t) (ww (pt H 0)))).
Proof.
  intros p n U H delta HU Hp HH Hw Hcl Hd HP. destruct (Extend_start p n U H HU ltac:(lia) ltac:(lia) HH Hw Hcl delta Hd HP) as (g & L & K & D & G & HL & E & LK & K1 & K2 & LD & D1 & D2 & G0 & _).
  exists g, L, K, D. split; [exact G|]. split; [exact HL|]. split; [exact E|]. split; [exact LK|]. split; [exact K1|]. split; [exact K2|]. split; [exact LD|]. split; [exact D1|]. intros HG.
  exact (ext_start p n U H HU ltac:(lia) HH Hw Hcl K D g L HL LK K1 K2 LD D1 D2 G0 HG).
Qed.
Print Assumptions C124_start.

(* nothing to add, or a periodic curve: the curve comes back unchanged *)
Theorem C124_unchanged : forall (c : Curve R (XYZW R)) delta fromStart type, (delta <= tol delta 0)%R \/ IsPeriodic c = Ok true -> Extend c delta fromStart type = Ok c.
Proof.
  intros c delta fs ty Hc. unfold Extend. destruct (IsLessThanOrEqual delta n0) eqn:E; [reflexivity|]. num. destruct Hc as [Hd|Hc].
  - exfalso. apply le_false in E. rewrite <- tol_thr in E. lra.
  - rewrite Hc. reflexivity.
Qed.
Print Assumptions C124_unchanged.

(* a segment is continued straight on, by the length asked for *)
Theorem C124_segment : forall a b delta, (1 / 100 <= dist3 a b <= 100)%R -> (1 / 100 <= delta)%R ->
  exists L e, Extend (mkCurve 1 (bezier_knots 1) [hom a 1; hom b 1]) delta false Ext_Natural = Ok (mkCurve 1 [0; 0; 1; 1 + L; 1 + L]%R [hom a 1; hom b 1; hom e 1]) /\
    (0 < L)%R /\ e = plus3 b (times3 L (minus3 b a)) /\ (Rabs (dist3 b e - delta) <= 2 / 1000000 * (1 + delta))%R.
Proof.
  intros a b delta Hab Hd. destruct (bar_extend a b delta Hd) as (L & D & E & -> & cs & x & f & As & F1 & EX & EL).
  assert (Q : dist3 a b = norm3 (minus3 b a)). { unfold dist3, norm3, dot3, minus3. cbn. f_equal. ring. }
  destruct (line_step cs f delta As) as (y & EY & Py & Gy); [rewrite F1, <- Q; lra|exact Hd|]. rewrite EX in EY. injection EY as <-. rewrite F1, <- Q in Gy.
  rewrite Rabs_right in EL by lra. subst L. exists x, (plus3 b (times3 x (minus3 b a))). split; [exact E|]. split; [exact Py|]. split; [reflexivity|].
  replace (dist3 b (plus3 b (times3 x (minus3 b a)))) with (x * dist3 a b)%R; [exact Gy|]. symmetry.
  unfold dist3. rewrite <- norm_times by lra. unfold norm3, dot3, plus3, times3, minus3. cbn. f_equal. ring.
Qed.
Print Assumptions C124_segment.

Example C124_segment_ex : (1 / 100 <= dist3 (mkXYZ 0 0 0)%R (mkXYZ 3 4 0)%R <= 100)%R /\ (1 / 100 <= 2)%R.
Proof. assert (E : dist3 (mkXYZ 0 0 0)%R (mkXYZ 3 4 0)%R = 5%R); [|rewrite E; lra]. unfold dist3, norm3, dot3, minus3. cbn. replace ((0 - 3) * (0 - 3) + (0 - 4) * (0 - 4) + (0 - 0) * (0 - 0))%R with (5 * 5)%R by ring. apply sqrt_square. lra. Qed.

(* the segments meet the hypotheses of the general theorems *)
Example C124_ex : forall a b, curve_knots 1 1 (bezier_knots 1) /\ len (bar a b) = 1 + 1 /\ heavy (bar a b) /\ clamped_knots 1 1 (bezier_knots 1) /\ (tol 2 0 < 2)%R /\ IsPeriodic (mkCurve 1 (bezier_knots 1) (bar a b)) = Ok false.
Proof.
  intros a b. destruct bar_knots as (K & CK). split; [exact K|]. split; [reflexivity|]. split; [apply bar_heavy|]. split; [exact CK|]. split; [unfold tol; rewrite Rabs_R0, (Rabs_right 2), Rmax_left by lra; lra|apply bar_notperiodic].
Qed.

(* a segment traversed slowly is not extended by the length asked for: its speed passes for zero *)
Theorem C124_slow_refuted : forall a b delta, (dist3 a b <= 1 / 1000000)%R -> (1 / 100 <= delta)%R ->
  exists L e, Extend (mkCurve 1 (bezier_knots 1) [hom a 1; hom b 1]) delta false Ext_Natural = Ok (mkCurve 1 [0; 0; 1; 1 + L; 1 + L]%R [hom a 1; hom b 1; hom e 1]) /\
    e = plus3 b (times3 delta (minus3 b a)) /\ (dist3 b e <= delta / 1000000)%R.
Proof.
  intros a b delta Hab Hd. destruct (bar_extend a b delta Hd) as (L & D & E & -> & cs & x & f & As & F1 & EX & EL).
  assert (Q : dist3 a b = norm3 (minus3 b a)). { unfold dist3, norm3, dot3, minus3. cbn. f_equal. ring. }
  rewrite (slow_step cs f delta As) in EX by (rewrite F1, <- Q; lra). injection EX as <-. rewrite Rabs_right in EL by lra. subst L. exists delta, (plus3 b (times3 delta (minus3 b a))). split; [exact E|]. split; [reflexivity|].
  replace (dist3 b (plus3 b (times3 delta (minus3 b a)))) with (delta * dist3 a b)%R; [nra|]. symmetry.
  unfold dist3. rewrite <- norm_times by lra. unfold norm3, dot3, plus3, times3, minus3. cbn. f_equal. ring.
Qed.
Print Assumptions C124_slow_refuted.
