(* IsPeriodic, and the ends of a curve with equally spaced knots and wrapped control points. *)
From Coq Require Import ZArith List Bool Reals Lra Lia.
From Verif Require Import Base Num Vec Tac Spec Spec2 Spec3 Spec4 Spec5 Spec10 M_MathUtils M_Polynomials M_XYZ M_Bspline M_NurbsCurve M_Geom M_Knots M_Shape
  P_MathUtils P_Span P_Cox P_Basis P_Deriv P_Vec P_XYZ P_VSum P_Curve P_Bspline P_Matrix P_Loop P_Geom P_Nurbs P_Conic P_Insert P_Insert2 P_Refine P_Merge P_KnotMap2 P_Ruled P_Shape P_Shape2 P_Shape3 P_Shape4.
Import ListNotations.
Open Scope Z_scope.

Lemma NS_agree U V k : forall p, 0 <= p -> forall i t, (forall j, i <= j <= i + p + 1 -> U j = V j) -> NS U k p i t = NS V k p i t.
Proof.
  apply (Zrange_ind 0 (fun p => forall i t, (forall j, i <= j <= i + p + 1 -> U j = V j) -> NS U k p i t = NS V k p i t)).
  - intros i t _. rewrite !NS_0. reflexivity.
  - intros p Hp IH i t E. rewrite (NS_succ U k (p + 1)), (NS_succ V k (p + 1)) by lia. replace (p + 1 - 1) with p by lia. rewrite !E by lia. rewrite !IH by (intros; apply E; lia). reflexivity.
Qed.

Section Even.
Variables (a h : R).
Hypothesis Hh : (0 < h)%R.
Let K (i : Z) : R := (a + IZR i * h)%R.

Lemma K_step i j : (K i - K j = IZR (i - j) * h)%R.
Proof. unfold K. rewrite minus_IZR. ring. Qed.

Lemma NS_shift s : forall p, 0 <= p -> forall k i t, NS K (k + s) p (i + s) (t + IZR s * h)%R = NS K k p i t.
Proof.
  apply (Zrange_ind 0 (fun p => forall k i t, NS K (k + s) p (i + s) (t + IZR s * h)%R = NS K k p i t)).
  - intros k i t. rewrite !NS_0. destruct (Z.eqb_spec i k), (Z.eqb_spec (i + s) (k + s)); lia || reflexivity.
  - intros p Hp IH k i t. rewrite (NS_succ K (k + s) (p + 1)), (NS_succ K k (p + 1)) by lia. replace (p + 1 - 1) with p by lia. rewrite IH. replace (i + s + 1) with (i + 1 + s) by lia. rewrite IH. rewrite !K_step.
    replace (t + IZR s * h - K (i + s))%R with (t - K i)%R by (unfold K; rewrite plus_IZR; ring).
    replace (K (i + s + (p + 1) + 1) - (t + IZR s * h))%R with (K (i + (p + 1) + 1) - t)%R by (unfold K; rewrite !plus_IZR; ring).
    replace (i + s + (p + 1) - (i + s)) with (i + (p + 1) - i) by lia. replace (i + s + (p + 1) + 1 - (i + 1 + s)) with (i + (p + 1) + 1 - (i + 1)) by lia. reflexivity.
Qed.

Lemma NS_join k : forall p, 1 <= p -> forall i, NS K k p i (K (k + 1)) = NS K (k + 1) p i (K (k + 1)).
Proof.
  apply (Zrange_ind 1 (fun p => forall i, NS K k p i (K (k + 1)) = NS K (k + 1) p i (K (k + 1)))).
  - intros i. rewrite (NS_succ K k 1), (NS_succ K (k + 1) 1) by lia. change (1 - 1) with 0. rewrite !NS_0. rewrite !K_step.
    replace (i + 1 - i) with 1 by lia. replace (i + 1 + 1 - (i + 1)) with 1 by lia. rewrite !sdiv_ok by lra.
    destruct (Z.eqb_spec i k) as [->|N1].
    + destruct (Z.eqb_spec (k + 1) k); [lia|]. destruct (Z.eqb_spec k (k + 1)); [lia|]. rewrite Z.eqb_refl. replace (k + 1 - k) with 1 by lia. replace (k + 1 + 1 - (k + 1)) with 1 by lia. ring.
    + destruct (Z.eqb_spec (i + 1) k) as [E|N2].
      * destruct (Z.eqb_spec i (k + 1)); [lia|]. destruct (Z.eqb_spec (i + 1) (k + 1)); [lia|]. replace (i + 1 + 1 - (k + 1)) with 0 by lia. field. lra.
      * destruct (Z.eqb_spec (i + 1) (k + 1)); [lia|]. destruct (Z.eqb_spec i (k + 1)) as [->|N3]; [|ring]. replace (k + 1 - (k + 1)) with 0 by lia. field. lra.
  - intros p Hp IH i. rewrite !(NS_succ K _ (p + 1)) by lia. replace (p + 1 - 1) with p by lia. rewrite !IH. reflexivity.
Qed.

Lemma K_good k p : good K k p.
Proof. split; [unfold K; rewrite plus_IZR; nra|]. intros i j _ Hij _. unfold K. apply IZR_le in Hij. nra. Qed.

Lemma NS_end0 k p : 0 < p -> NS K (k + 1) p (k + 1) (K (k + 1)) = 0%R.
Proof.
  intros Hp. rewrite NS_succ by lia. rewrite (NS_out K (k + 1) (p - 1) (k + 1 + 1)) by lia. replace (K (k + 1) - K (k + 1))%R with 0%R by ring.
  assert (Z1 : forall x, sdiv 0 x = 0%R) by (intros x; unfold sdiv; destruct (Req_EM_T _ _) as [|N1]; [reflexivity|unfold Rdiv; ring]). rewrite Z1. ring.
Qed.
End Even.

Lemma curve_wraps p n U (H : list (XYZW R)) a h : 1 <= p -> curve_knots p n U -> len H = n + 1 -> (forall i, 0 <= i <= n + p + 1 -> val U i = (a + IZR i * h)%R) ->
  (forall i, 0 <= i < p -> pt H i = pt H (n + 1 - p + i)) -> curve_point p n U H (val U p) = curve_point p n U H (val U (n + 1)).
Proof.
  intros Hp HU HH HE HWr. pose proof HU as [Hp0 Hn Hl Hs HF HL]. set (K := fun i : Z => (a + IZR i * h)%R).
  assert (Hh : (0 < h)%R).
  { pose proof (tol_pos (val U p) (val U (p + 1))). assert (G : (val U p < val U (p + 1))%R) by lra. rewrite (HE p), (HE (p + 1)) in G by lia. rewrite plus_IZR in G. lra. }
  assert (S1 : span_of p n U (val U p) p). { pose proof (tol_pos (val U p) (val U (p + 1))). split; [lia|]. split; [lra|]. split; [lra|]. left. lra. }
  assert (S2 : span_of p n U (val U (n + 1)) n). { pose proof (tol_pos (val U n) (val U (n + 1))). split; [lia|]. split; [lra|]. split; [lra|]. right. auto. }
  rewrite (curve_point_span _ _ _ _ _ _ HU S1), (curve_point_span _ _ _ _ _ _ HU S2). unfold span_curve.
  rewrite (comb_ext _ _ _ (fun i => NS K p p i (K p)) (pt H) (pt H)).
  2: { intros i Hi. split; [|reflexivity]. rewrite HE by lia. change (NS (val U) p p i (K p) = NS K p p i (K p)). apply NS_agree; [lia|]. intros j Hj. apply HE. lia. }
  rewrite (comb_ext (n - p) _ _ (fun i => NS K n p i (K (n + 1))) (pt H) (pt H)).
  2: { intros i Hi. split; [|reflexivity]. rewrite HE by lia. change (NS (val U) n p i (K (n + 1)) = NS K n p i (K (n + 1))). apply NS_agree; [lia|]. intros j Hj. apply HE. lia. }
  rewrite (comb_restrict (p - p) (p + 1) 0 p) by first [lia | intros i Hi Ho; assert (i = p) as -> by lia; pose proof (NS_end0 a h (p - 1) p ltac:(lia)) as Z0; replace (p - 1 + 1) with p in Z0 by lia; exact Z0].
  rewrite (comb_restrict (n - p) (n + 1) (n - p + 1) (n + 1)) by first [lia | intros i Hi Ho; assert (i = n - p) as -> by lia; apply (NS_first_zero K n p); [lia|apply (K_good a h Hh)|reflexivity]].
  rewrite (comb_shift (n - p + 1) 0 p). replace (0 + (n - p + 1)) with (n - p + 1) by lia. replace (p + (n - p + 1)) with (n + 1) by lia. apply comb_ext. intros i Hi. split.
  - pose proof (NS_join a h Hh n p Hp i) as J. fold K in J. change (a + IZR (n + 1) * h)%R with (K (n + 1)) in J. rewrite J. pose proof (NS_shift a h (n - p + 1) p ltac:(lia) p (i - (n - p + 1)) (K p)) as S0. fold K in S0. rewrite <- S0.
    replace (p + (n - p + 1)) with (n + 1) by lia. replace (i - (n - p + 1) + (n - p + 1)) with i by lia. f_equal. unfold K. rewrite !plus_IZR, minus_IZR. ring.
  - rewrite HWr by lia. f_equal. lia.
Qed.

Lemma IsPeriodic_wraps p n U (H : list (XYZW R)) : 1 <= p -> curve_knots p n U -> len H = n + 1 -> heavy H -> 2 * p <= n + 1 ->
  IsClamp (mkCurve p U H) = Ok false -> IsUniform U = Ok true ->
  (forall i, 0 <= i < p -> Spec3.near (proj (pt H i)) (proj (pt H (n + 1 - p + i)))) -> IsPeriodic (mkCurve p U H) = Ok true.
Proof.
  intros Hp HU HH Hw H2 E1 E2 HWr. unfold IsPeriodic. cbn [Degree KnotVector ControlPoints]. rewrite E1. cbn [bind]. rewrite E2. cbn [bind negb]. rewrite HH. destruct (Z.leb_spec (p + p) (n + 1)) as [_|]; [|lia].
  match goal with |- bind ?b ?f = _ => assert (E : b = Ok true) end.
  { match goal with |- ?b = _ => assert (W : wp b (fun x => x = true)) end.
    { apply wp_for_up with (P := fun _ x => x = true); [lia|reflexivity| |auto]. intros i x Hi ->. rewrite !(get_at vzero) by lia. cbn [bind]. change (at_ vzero H i) with (pt H i). change (at_ vzero H (n + 1 - p + i)) with (pt H (n + 1 - p + i)).
      destruct (same_iff (pt H i) (pt H (n + 1 - p + i))) as (cc & Ec & Hc); [apply Hw; lia|apply Hw; lia|]. rewrite Ec. apply wp_ok. apply Hc. apply HWr. lia. }
    apply wp_elim in W. destruct W as (x & -> & ->). reflexivity. }
  rewrite E. reflexivity.
Qed.

Lemma IsPeriodic_clamped p n U (H : list (XYZW R)) : curve_knots p n U -> len H = n + 1 -> clamped_knots p n U ->
  (forall u, In u U -> close (val U 0) u -> u = val U 0) -> (forall u, In u U -> close (val U (len U - 1)) u -> u = val U (len U - 1)) -> IsPeriodic (mkCurve p U H) = Ok false.
Proof.
  intros HU HH Hcl H1 H2. destruct (IsClamp_ok p n U H HU H1 H2) as (b & E & Hb). unfold IsPeriodic. rewrite E. rewrite (proj2 Hb Hcl). reflexivity.
Qed.

Lemma increasing_tail x l : increasing (x :: l) -> increasing l /\ forall y, In y l -> (x < y)%R.
Proof.
  intros I. assert (G : forall i, 0 <= i -> val l i = val (x :: l) (i + 1)) by (intros i Hi; rewrite val_cons by lia; f_equal; lia). split.
  - intros i j Hi Hij Hj. rewrite !G by lia. apply I; try lia. rewrite len_cons. lia.
  - intros y Hy. destruct (In_val y l Hy) as (i & Hi & <-). rewrite G by lia. change x with (val (x :: l) 0). apply I; try lia. rewrite len_cons. lia.
Qed.
Lemma increasing_same : forall l l', increasing l -> increasing l' -> (forall x, In x l <-> In x l') -> l = l'.
Proof.
  induction l as [|x l IH]; intros [|y l'] I I' E.
  - reflexivity.
  - destruct (proj2 (E y) (or_introl eq_refl)).
  - destruct (proj1 (E x) (or_introl eq_refl)).
  - destruct (increasing_tail _ _ I) as [J1 J2]. destruct (increasing_tail _ _ I') as [J1' J2'].
    assert (x = y) as ->.
    { destruct (proj1 (E x) (or_introl eq_refl)) as [|Hx]; [auto|]. destruct (proj2 (E y) (or_introl eq_refl)) as [|Hy]; [auto|]. specialize (J2 y Hy). specialize (J2' x Hx). lra. }
    f_equal. apply IH; [exact J1|exact J1'|]. intros z. split; intros Hz.
    + destruct (proj1 (E z) (or_intror Hz)) as [->|]; [|assumption]. specialize (J2 z Hz). lra.
    + destruct (proj2 (E z) (or_intror Hz)) as [->|]; [|assumption]. specialize (J2' z Hz). lra.
Qed.
Lemma increasing_occ l x : increasing l -> In x l -> occ l x = 1.
Proof.
  induction l as [|y l IH]; intros I Hx; [destruct Hx|]. destruct (increasing_tail _ _ I) as [J1 J2]. unfold occ in *. cbn [count_occ]. destruct (Req_EM_T y x) as [->|N0].
  - assert (count_occ Req_EM_T l x = 0%nat) as ->; [|reflexivity]. apply count_occ_not_In. intros Hl. specialize (J2 x Hl). lra.
  - destruct Hx as [->|Hx]; [contradiction|]. apply IH; assumption.
Qed.

Lemma IsPeriodic_even p n U (H : list (XYZW R)) a h : 1 <= p -> curve_knots p n U -> len H = n + 1 -> heavy H -> 2 * p <= n + 1 ->
  (forall i, 0 <= i <= n + p + 1 -> val U i = (a + IZR i * h)%R) -> (forall u v, In u U -> In v U -> close u v -> u = v) ->
  (forall i, 0 <= i < p -> pt H i = pt H (n + 1 - p + i)) ->
  IsPeriodic (mkCurve p U H) = Ok true /\ curve_point p n U H (val U p) = curve_point p n U H (val U (n + 1)).
Proof.
  intros Hp HU HH Hw H2 HE HA HWr. split; [|apply (curve_wraps p n U H a h); assumption]. pose proof HU as [Hp0 Hn Hl Hs HF _].
  assert (Hh : (0 < h)%R).
  { pose proof (tol_pos (val U p) (val U (p + 1))). assert (G : (val U p < val U (p + 1))%R) by lra. rewrite (HE p), (HE (p + 1)) in G by lia. rewrite plus_IZR in G. lra. }
  assert (I : increasing U). { intros i j Hi Hij Hj. rewrite !HE by lia. apply IZR_lt in Hij. nra. }
  assert (I0 : In (val U 0) U) by (apply val_In; lia). assert (I1 : In (val U (len U - 1)) U) by (apply val_In; lia).
  apply (IsPeriodic_wraps p n U H Hp HU HH Hw H2).
  - destruct (IsClamp_ok p n U H HU) as (b & E & Hb); [intros u Hu C; symmetry; apply HA; assumption|intros u Hu C; symmetry; apply HA; assumption|].
    rewrite E. destruct b; [|reflexivity]. destruct (proj1 Hb eq_refl) as [F _]. specialize (I 0 p ltac:(lia) ltac:(lia) ltac:(lia)). lra.
  - destruct (IsUniform_ok U (val U 0) (val U (len U - 1)) I0 I1) as (K & IK & EK & (b & E & Hb)); [specialize (I 0 (len U - 1) ltac:(lia) ltac:(lia) ltac:(lia)); lra|].
    rewrite E. f_equal. apply Hb. rewrite (increasing_same K U IK I EK). assert (O : forall i, 0 <= i < len U -> occ U (val U i) = 1) by (intros i Hi; apply increasing_occ; [exact I|apply val_In; lia]).
    split; [rewrite !O by lia; reflexivity|]. split; [|intros i Hi Hi2; rewrite !O by lia; reflexivity].
    intros i Hi Hi2. rewrite !(HE i), !(HE (i + 1)), (HE 1), (HE 0) by lia. rewrite plus_IZR. replace (a + (IZR i + 1) * h - (a + IZR i * h) - (a + 1 * h - (a + 0 * h)))%R with 0%R by ring. rewrite Rabs_R0. apply Rlt_le, tol_pos.
  - intros i Hi. rewrite <- HWr by exact Hi. apply near_iff. apply near_iff. unfold Spec3.near. rewrite !Rminus_diag_eq, Rabs_R0 by reflexivity. pose proof (tol_pos (gx (proj (pt H i))) (gx (proj (pt H i)))). pose proof (tol_pos (gy (proj (pt H i))) (gy (proj (pt H i)))). pose proof (tol_pos (gz (proj (pt H i))) (gz (proj (pt H i)))). repeat split; lra.
Qed.
