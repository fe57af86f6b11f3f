(* The parameter of a length. *)
From Coq Require Import ZArith List Bool Reals Lra Lia.
From Verif Require Import Base Num Vec Tac Spec Spec2 Spec3 Spec4 Spec5 Spec9 Spec10 Spec17 M_MathUtils M_XYZ M_Bspline M_NurbsCurve M_Curve2 M_Geom M_Knots M_Shape M_Curve4
  P_MathUtils P_XYZ P_Vec P_VSum P_Curve P_Bspline P_Decomp P_Loop P_Insert P_Geom P_Matrix P_Nurbs P_Cox P_Span P_Insert2 P_KnotMap2 P_Shape P_Shape2 P_Shape3 P_Split P_Surf5 P_Surf6 P_Surf7 P_Make P_Swung P_ProjNorm2 P_ParamOn P_Length.
Import ListNotations.
Open Scope Z_scope.

Section ByLength.
Variables (ab we : list R) (cl : (R -> res R) -> R -> R -> res R) (type : IntegratorType).
Notation curve := (Curve R (XYZW R)).
Notation slack x y := (1 / 10000 * (1 + Rmax (Rabs x) (Rabs y)))%R.

(* the length of the part of the curve before r, as split off and measured by the library *)
Definition part_length (fuel : nat) (c : curve) (r l : R) : Prop := exists left_ right_, SplitAt c r = Ok (Some (left_, right_)) /\ ApproximateLength ab we cl fuel left_ type = Ok l.

Definition by_length (fuel : nat) (c : curve) (g first last r : R) : Prop :=
  (exists l, part_length fuel c r l /\ (Rabs (l - g) <= slack l g)%R) \/
  (exists e, SplitAt c ((r + e) / 2)%R = Ok None /\ (r = first \/ exists l, part_length fuel c r l /\ (l < g)%R) /\ (e = last \/ exists l, part_length fuel c e l /\ (g < l)%R)).

Lemma aeq_tol x y e : IsAlmostEqualTo_tol x y e = true <-> (Rabs (x - y) <= e * (1 + Rmax (Rabs x) (Rabs y)))%R.
Proof. unfold IsAlmostEqualTo_tol. num. rewrite nmax_R. apply Rleb_true. Qed.
Lemma gt_tol x y e : IsGreaterThan_tol x y e = true <-> (e * (1 + Rmax (Rabs x) (Rabs y)) < x - y)%R.
Proof. unfold IsGreaterThan_tol. num. rewrite nmax_R. apply Rltb_true. Qed.
Lemma lt_tol x y e : IsLessThan_tol x y e = true <-> (e * (1 + Rmax (Rabs x) (Rabs y)) < y - x)%R.
Proof. unfold IsLessThan_tol. num. rewrite nmax_R. apply Rltb_true. Qed.
Lemma slack_pos x y : (1 / 10000 <= slack x y)%R.
Proof. pose proof (Rmax_l (Rabs x) (Rabs y)). pose proof (Rabs_pos x). lra. Qed.

Lemma bisect_ok fuel c g first last : forall depth s e r, GetParamByLength ab we cl depth fuel c s e g type = Ok r ->
  (s = first \/ exists l, part_length fuel c s l /\ (l < g)%R) -> (e = last \/ exists l, part_length fuel c e l /\ (g < l)%R) -> by_length fuel c g first last r.
Proof.
  induction depth as [|d IH]; intros s e r; [discriminate|]. cbn [GetParamByLength]. num. rewrite Rdiv_ok by lra. cbn [bind]. set (m := ((s + e) / 2)%R).
  destruct (SplitAt c m) as [[(left_, right_)|]|] eqn:ES; cbn [bind]; [| |discriminate].
  - destruct (ApproximateLength ab we cl fuel left_ type) as [l|] eqn:EL; cbn [bind]; [|discriminate]. assert (PL : part_length fuel c m l) by (exists left_, right_; split; assumption).
    destruct (IsAlmostEqualTo_tol l g DistanceEpsilon) eqn:E1.
    + intros [= <-] _ _. left. exists l. split; [exact PL|]. apply aeq_tol in E1. unfold DistanceEpsilon in E1. num. exact E1.
    + destruct (IsGreaterThan_tol l g DistanceEpsilon) eqn:E2.
      * intros E Hs He. apply (IH _ _ _ E Hs). right. exists l. split; [exact PL|]. apply gt_tol in E2. unfold DistanceEpsilon in E2. num. pose proof (slack_pos l g). lra.
      * destruct (IsLessThan_tol l g DistanceEpsilon) eqn:E3.
        -- intros E Hs He. apply (IH _ _ _ E); [|exact He]. right. exists l. split; [exact PL|]. apply lt_tol in E3. unfold DistanceEpsilon in E3. num. pose proof (slack_pos l g). lra.
        -- exfalso. apply not_true_iff_false in E1, E2, E3. rewrite aeq_tol in E1. rewrite gt_tol in E2. rewrite lt_tol in E3. apply E1. apply Rabs_le. lra.
  - intros [= <-] Hs He. right. exists e. repeat split; assumption.
Qed.

Lemma ByLength_ok fuel c g r first last : GetParamOnCurve_length ab we cl fuel c g type = Ok r -> get (KnotVector c) 0 = Ok first -> get (KnotVector c) (len (KnotVector c) - 1) = Ok last ->
  (exists total, ApproximateLength ab we cl fuel c type = Ok total /\ (total < g)%R /\ r = last) \/ by_length fuel c g first last r.
Proof.
  intros E G0 G1. unfold GetParamOnCurve_length in E. rewrite G0, G1 in E. cbn [bind] in E. destruct (ApproximateLength ab we cl fuel c type) as [total|] eqn:ET; cbn [bind] in E; [|discriminate].
  destruct (IsLessThan_tol total g DistanceEpsilon) eqn:EL.
  { injection E as <-. left. exists total. split; [reflexivity|]. split; [|reflexivity]. apply lt_tol in EL. unfold DistanceEpsilon in EL. num. pose proof (slack_pos total g). lra. }
  right. match type of E with bind ?m _ = _ => destruct m as [o|] eqn:EO; cbn [bind] in E; [|discriminate] end.
  assert (HO : match o with Stop (true, k) => by_length fuel c g first last k | Stop (false, k) => exists l, part_length fuel c k l /\ (g < l)%R | Next _ => True end).
  { revert EO. match goal with |- ?m = _ -> _ => assert (W : forall x, m = Ok x -> match x with Stop (true, k) => by_length fuel c g first last k | Stop (false, k) => exists l, part_length fuel c k l /\ (g < l)%R | Next _ => True end) end.
    { clear E o. unfold for_upc. set (cnt := Z.to_nat _). clearbody cnt. generalize 0. generalize tt. induction cnt as [|cnt IH]; intros [] i x; cbn [iter_upc].
      - intros [= <-]. exact I.
      - destruct (get (KnotVector c) i) as [k|]; cbn [bind]; [|discriminate]. destruct (SplitAt c k) as [[(lf, rt)|]|] eqn:ES; cbn [bind]; [|apply IH|discriminate].
        destruct (ApproximateLength ab we cl fuel lf type) as [l|] eqn:EL'; cbn [bind]; [|discriminate]. assert (PL : part_length fuel c k l) by (exists lf, rt; split; assumption).
        destruct (IsAlmostEqualTo l g) eqn:E1; cbn [bind].
        + intros [= <-]. left. exists l. split; [exact PL|]. apply aeq_tol in E1. unfold DoubleEpsilon in E1. num. pose proof (slack_pos l g). pose proof (Rmax_l (Rabs l) (Rabs g)). pose proof (Rabs_pos l). lra.
        + destruct (IsGreaterThan l g) eqn:E2; cbn [bind]; [|apply IH]. intros [= <-]. exists l. split; [exact PL|]. apply gt_tol in E2. unfold DoubleEpsilon in E2. num. pose proof (Rmax_l (Rabs l) (Rabs g)). pose proof (Rabs_pos l). lra. }
    exact (W o). }
  destruct o as [u|(bb, k)].
  - apply (bisect_ok _ _ _ _ _ _ _ _ _ E); left; reflexivity.
  - destruct bb; [injection E as <-; exact HO|]. apply (bisect_ok _ _ _ _ _ _ _ _ _ E); [left; reflexivity|right; exact HO].
Qed.

(** a straight segment *)
Section Seg.
Variables (a b : XYZ R).
Let L := dist3 a b.
Let c := bar_curve a b.
Lemma bar_split m : (1 / 200000 <= m <= 1 - 1 / 200000)%R -> exists Ul Pl Ur Pr, SplitAt c m = Ok (Some (mkCurve 1 Ul Pl, mkCurve 1 Ur Pr)) /\
  curve_knots 1 1 Ul /\ len Pl = 2 /\ pt Pl 0 = hom a 1%R /\ pt Pl 1 = hom (lerp3 a b m) 1%R.
Proof.
  intros Hm. assert (V1 : val (bezier_knots 1) 1 = 0%R) by reflexivity. assert (V2 : val (bezier_knots 1) (1 + 1) = 1%R) by reflexivity.
  assert (T0 : (tol m 0 <= 2 / 1000000)%R) by (unfold tol; rewrite Rabs_R0, (Rabs_right m), Rmax_left by lra; lra).
  assert (T1 : (tol m 1 <= 2 / 1000000)%R) by (unfold tol; rewrite Rabs_R1, (Rabs_right m), Rmax_right by lra; lra).
  destruct (SplitAt_ok 1 1 (bezier_knots 1) (bar a b) m) as (o & E & nl & Ul & Pl & nr & Ur & Pr & -> & KU & LP & KR & LR & A1 & A2 & _ & _ & HL & _ & HN & HC).
  - apply bez_knots_ok; lia.
  - reflexivity.
  - intros y Hy. change (In y [0; 0; 1; 1]%R) in Hy. cbn [In] in Hy. right. destruct Hy as [<-|[<-|[<-|[<-|[]]]]]; [rewrite Rminus_0_r, Rabs_right by lra; lra|rewrite Rminus_0_r, Rabs_right by lra; lra|rewrite Rabs_left by lra; lra|rewrite Rabs_left by lra; lra].
  - rewrite V1, V2. lra.
  - assert (occ (bezier_knots 1) m = 0); [|lia]. unfold occ. change (bezier_knots 1) with [0; 0; 1; 1]%R. rewrite (proj1 (count_occ_not_In Req_EM_T _ _)); [reflexivity|]. cbn [In]. intros [?|[?|[?|[?|[]]]]]; lra.
  - assert (O : occ (bezier_knots 1) m = 0). { unfold occ. change (bezier_knots 1) with [0; 0; 1; 1]%R. rewrite (proj1 (count_occ_not_In Req_EM_T _ _)); [reflexivity|]. cbn [In]. intros [?|[?|[?|[?|[]]]]]; lra. }
    rewrite O in *. destruct (HC ltac:(split; reflexivity)) as (CL & CR). pose proof (ck_n _ _ _ KU). pose proof (ck_n _ _ _ KR). assert (nl = 1) as -> by lia.
    rewrite V1 in A1. exists Ul, Pl, Ur, Pr. split; [exact E|]. split; [exact KU|]. split; [lia|]. split.
    + rewrite <- (curve_point_first 1 1 Ul Pl KU ltac:(lia) LP CL), A1. rewrite HL; [|split; rewrite ?A1, ?A2; lra|left; lra]. rewrite bar_at by lra. f_equal. destruct a as [a1 a2 a3], b as [b1 b2 b3]. unfold lerp3, plus3, times3. cbn [gx gy gz]. f_equal; ring.
    + rewrite <- (curve_point_last 1 1 Ul Pl KU ltac:(lia) LP CL), A2. rewrite HL; [|split; rewrite ?A1, ?A2; lra|right; lia]. apply bar_at. lra.
Qed.
Lemma two_length fuel U P x y : curve_knots 1 1 U -> len P = 2 -> pt P 0 = hom x 1%R -> pt P 1 = hom y 1%R -> ApproximateLength ab we cl fuel (mkCurve 1 U P) type = Ok (dist3 x y).
Proof.
  intros KU LP E0 E1. assert (T : (tol 1 0 < 1)%R) by (unfold tol; rewrite Rabs_R0, Rabs_R1, Rmax_left by lra; lra).
  rewrite (Len_collinear ab we cl 1 1 U P KU LP).
  - rewrite E0, E1, !hom_proj. reflexivity.
  - intros i Hi. rewrite LP in Hi. assert (i = 0 \/ i = 1) as [-> | ->] by lia; rewrite ?E0, ?E1; exact T.
  - lia.
  - exists x, (minus3 y x), IZR. intros i Hi. rewrite LP in Hi. assert (i = 0 \/ i = 1) as [-> | ->] by lia; rewrite ?E0, ?E1, hom_proj; destruct x as [a1 a2 a3], y as [b1 b2 b3]; unfold line_at, plus3, times3, minus3; cbn [gx gy gz]; f_equal; ring.
Qed.
Lemma lerp_dist m : (0 <= m)%R -> dist3 a (lerp3 a b m) = (m * L)%R.
Proof.
  intros Hm. unfold L, dist3. rewrite <- norm_times by lra. f_equal. destruct a as [a1 a2 a3], b as [b1 b2 b3]. unfold minus3, times3, lerp3, plus3, times3. cbn [gx gy gz]. f_equal; ring.
Qed.
Lemma bar_part fuel m : (1 / 200000 <= m <= 1 - 1 / 200000)%R -> exists lf rt, SplitAt c m = Ok (Some (lf, rt)) /\ ApproximateLength ab we cl fuel lf type = Ok (m * L)%R.
Proof.
  intros Hm. destruct (bar_split m Hm) as (Ul & Pl & Ur & Pr & E & KU & LP & E0 & E1). do 2 eexists. split; [exact E|]. rewrite (two_length fuel _ _ _ _ KU LP E0 E1). f_equal. apply lerp_dist. lra.
Qed.
Lemma bar_total fuel : ApproximateLength ab we cl fuel c type = Ok L.
Proof. apply two_length; [apply bez_knots_ok; lia|reflexivity|reflexivity|reflexivity]. Qed.

Variable (g : R).
Hypothesis Hg : (0 <= g <= L)%R.
Hypothesis HL : (L <= 10)%R.
(* halving: 17 steps are enough *)
Lemma bar_bisect fuel : forall k s e d, (k <= d)%nat -> (e - s = 2 ^ k * (1 / 65536))%R -> (0 <= s)%R -> (e <= 1)%R -> (s * L <= g <= e * L)%R ->
  exists r, GetParamByLength ab we cl (S d) fuel c s e g type = Ok r /\ (0 < r < 1)%R /\ (Rabs (r * L - g) <= 1 / 10000 * (1 + L))%R.
Proof.
  induction k as [|k IH]; intros s e d Hd He H0 H1 Hb; cbn [GetParamByLength]; num; rewrite Rdiv_ok by lra; cbn [bind].
  all: assert (P : (1 <= 2 ^ 0)%R) by (cbn; lra).
  all: set (m := ((s + e) / 2)%R).
  all: assert (Hk : (1 <= (e - s) * 65536)%R) by (rewrite He; first [pose proof (pow_R1_Rle 2 (S k) ltac:(lra)); lra | cbn; lra]).
  all: assert (Hm : (1 / 200000 <= m <= 1 - 1 / 200000)%R) by (unfold m; lra).
  all: destruct (bar_part fuel m Hm) as (lf & rt & -> & EL); cbn [bind]; rewrite EL; cbn [bind].
  all: assert (DONE : IsAlmostEqualTo_tol (m * L)%R g DistanceEpsilon = true -> exists r, Ok m = Ok r /\ (0 < r < 1)%R /\ (Rabs (r * L - g) <= 1 / 10000 * (1 + L))%R)
    by (intros E; exists m; split; [reflexivity|]; split; [lra|]; apply aeq_tol in E; unfold DistanceEpsilon in E; num; rewrite (Rabs_right (m * L)), (Rabs_right g) in E by nra; assert (Rmax (m * L) g <= L)%R by (apply Rmax_lub; nra); lra).
  - assert (E : IsAlmostEqualTo_tol (m * L)%R g DistanceEpsilon = true). { apply aeq_tol. unfold DistanceEpsilon. num. pose proof (slack_pos (m * L) g). apply Rle_trans with (1 / 10000)%R; [|lra]. apply Rabs_le. cbn [pow] in He. unfold m. nra. }
    rewrite E. apply DONE, E.
  - destruct (IsAlmostEqualTo_tol (m * L)%R g DistanceEpsilon) eqn:E1; [apply DONE; reflexivity|]. destruct d as [|d]; [lia|].
    destruct (IsGreaterThan_tol (m * L)%R g DistanceEpsilon) eqn:E2.
    + apply gt_tol in E2. unfold DistanceEpsilon in E2. num. pose proof (slack_pos (m * L) g). apply IH; [lia|unfold m; cbn [pow] in He; lra|exact H0|lra|lra].
    + destruct (IsLessThan_tol (m * L)%R g DistanceEpsilon) eqn:E3.
      * apply lt_tol in E3. unfold DistanceEpsilon in E3. num. pose proof (slack_pos (m * L) g). apply IH; [lia|unfold m; cbn [pow] in He; lra|lra|lra|lra].
      * exfalso. apply not_true_iff_false in E1, E2, E3. rewrite aeq_tol in E1. rewrite gt_tol in E2. rewrite lt_tol in E3. apply E1. apply Rabs_le. lra.
Qed.
Lemma bar_by_length fuel : (17 <= fuel)%nat -> exists r, GetParamOnCurve_length ab we cl fuel c g type = Ok r /\ (0 < r < 1)%R /\ (Rabs (r * L - g) <= 1 / 10000 * (1 + L))%R.
Proof.
  intros Hf. unfold GetParamOnCurve_length. rewrite bar_total. assert (G0 : get (KnotVector c) 0 = Ok 0%R) by reflexivity. assert (G1 : get (KnotVector c) (len (KnotVector c) - 1) = Ok 1%R) by reflexivity.
  rewrite G0, G1. cbn [bind]. assert (EL : IsLessThan_tol L g DistanceEpsilon = false). { apply not_true_iff_false. rewrite lt_tol. unfold DistanceEpsilon. num. pose proof (slack_pos L g). lra. }
  rewrite EL. assert (K : curve_knots 1 1 (bezier_knots 1)) by (apply bez_knots_ok; lia).
  assert (N0 : SplitAt c 0%R = Ok None). { apply (SplitAt_none 1 1 (bezier_knots 1) (bar a b) 0%R K). left. change (val (bezier_knots 1) 1) with 0%R. pose proof (tol_pos 0 0). lra. }
  assert (N1 : SplitAt c 1%R = Ok None). { apply (SplitAt_none 1 1 (bezier_knots 1) (bar a b) 1%R K). right. change (val (bezier_knots 1) (1 + 1)) with 1%R. pose proof (tol_pos 1 1). lra. }
  change (KnotVector c) with [0; 0; 1; 1]%R. unfold for_upc. change (Z.to_nat (len [0; 0; 1; 1]%R - 0)) with 4%nat. cbn [iter_upc].
  change (get [0; 0; 1; 1]%R 0) with (Ok 0%R). change (get [0; 0; 1; 1]%R (0 + 1)) with (Ok 0%R). change (get [0; 0; 1; 1]%R (0 + 1 + 1)) with (Ok 1%R). change (get [0; 0; 1; 1]%R (0 + 1 + 1 + 1)) with (Ok 1%R). cbn [bind].
  rewrite !N0. cbn [bind]. rewrite !N1. cbn [bind].
  destruct fuel as [|d]; [lia|]. apply (bar_bisect _ 16); [lia|lra|lra|lra|lra].
Qed.
End Seg.
End ByLength.
