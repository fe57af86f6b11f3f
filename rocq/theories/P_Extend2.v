(* Extending a straight segment. *)
From Coq Require Import ZArith List Bool Reals Lra Lia.
From Verif Require Import Base Num Vec Tac Spec Spec2 Spec3 Spec4 Spec5 Spec9 Spec10 Spec18 M_MathUtils M_Polynomials M_Knots M_XYZ M_Bspline M_NurbsCurve M_Curve2 M_Geom M_Surface M_Shape M_Curve3
  P_MathUtils P_Span P_Cox P_Bern P_Power P_XYZ P_Vec P_VSum P_Curve P_Bspline P_Loop P_Insert P_Insert2 P_Refine P_Matrix P_Nurbs P_Reduce P_Remove P_Geom P_Shape P_Shape3 P_Surf5 P_Surf6 P_Surf7 P_Interp2 P_Swung P_ProjNorm2 P_ParamOn P_ParamAll P_Periodic P_Deriv P_Make P_Extend.
Import ListNotations.
Open Scope Z_scope.

Section Step.
Variables (coeffs : list (XYZ R)) (f : Z -> XYZ R) (delta : R).
Hypothesis Ac : arr coeffs (1 + 1) f.
Let sg := norm3 (f 1).
Hypothesis Hs : (1 / 100 <= sg <= 100)%R.
Hypothesis Hd : (1 / 100 <= delta)%R.
Let T := (delta / sg)%R.
Let ka := ((2 * (5555555555555556 / 10000000000000000) + 8888888888888889 / 10000000000000000) / 2)%R.

Lemma line_velocity t : returns (taylor_velocity coeffs 1 t) (fun v => norm3 v = sg).
Proof using Ac.
  clear Hs Hd T ka.
  apply wp_elim. unfold taylor_velocity. wget Ac. apply wp_for_down with (P := fun _ v => norm3 v = sg); [lia| |lia|intros s Es; exact Es].
  unfold sg. f_equal. num. destruct (f 1) as [x y z]. unfold xyz_scale. cbn [gx gy gz]. num. f_equal; ring.
Qed.

Definition good_step (x : R) : Prop := (0 < x)%R /\ (Rabs (x * sg - delta) <= 2 / 1000000 * (1 + delta))%R.
Definition stage (k : Z) (x : R) : Prop :=
  (x = (3 / 2) ^ Z.to_nat k * delta /\ ((0 < k)%Z -> x <= T))%R \/ (x = (1 / 2) ^ Z.to_nat k * delta /\ ((0 < k)%Z -> 99 / 100 * T <= x))%R \/ (T * (1 - 1 / 100000000000000) <= x <= T)%R.

Lemma T_eq : (T * sg = delta)%R.
Proof. unfold T. field. lra. Qed.
Lemma T_low : (1 / 10000 <= T)%R.
Proof. apply (Rmult_le_reg_r sg); [lra|]. rewrite T_eq. nra. Qed.
Lemma stage_pos k x : 0 <= k -> stage k x -> (49 / 1000000 <= x)%R.
Proof.
  intros Hk. pose proof T_low. assert (P1 : (1 <= (3 / 2) ^ Z.to_nat k)%R) by (apply pow_R1_Rle; lra). intros [(-> & _)|[(E & L)|L]]; [nra| |lra].
  destruct (Z.eq_dec k 0) as [->|]; [rewrite E; change (Z.to_nat 0) with 0%nat; cbn [pow]; lra|specialize (L ltac:(lia)); lra].
Qed.

Lemma conv_good x : (T * (1 - 1 / 100000000000000) <= x <= T)%R -> good_step x.
Proof.
  intros Hx. pose proof T_low. pose proof T_eq as E. split; [lra|]. assert (A : (x * sg <= T * sg)%R) by (apply Rmult_le_compat_r; lra). assert (B : (T * (1 - 1 / 100000000000000) * sg <= x * sg)%R) by (apply Rmult_le_compat_r; lra).
  rewrite E in A. replace (T * (1 - 1 / 100000000000000) * sg)%R with (delta * (1 - 1 / 100000000000000))%R in B by (rewrite <- E; ring). apply Rabs_le. lra.
Qed.

Lemma stage_last x : stage 50 x -> good_step x.
Proof.
  pose proof T_eq as E. pose proof T_low. intros [(Ex & L)|[(Ex & L)|L]]; [| |apply conv_good; exact L]; specialize (L ltac:(lia)); exfalso.
  - assert (P : (100 < (3 / 2) ^ Z.to_nat 50)%R). { apply Rlt_le_trans with ((3 / 2) ^ 12)%R; [cbn [pow]; lra|]. apply Rle_pow; [lra|lia]. }
    assert (x * sg <= delta)%R by (rewrite <- E; apply Rmult_le_compat_r; lra). rewrite Ex in *. assert (100 * delta < (3 / 2) ^ Z.to_nat 50 * delta)%R by (apply Rmult_lt_compat_r; lra).
    assert ((3 / 2) ^ Z.to_nat 50 * delta * (1 / 100) <= (3 / 2) ^ Z.to_nat 50 * delta * sg)%R by (apply Rmult_le_compat_l; lra). lra.
  - assert (P : ((1 / 2) ^ Z.to_nat 50 < 1 / 1000)%R). { change (Z.to_nat 50) with (10 + 40)%nat. rewrite pow_add. assert ((1 / 2) ^ 10 < 1 / 1000)%R by (cbn [pow]; lra). assert (0 < (1 / 2) ^ 40 <= 1)%R by (split; [apply pow_lt; lra|]; rewrite <- (pow1 40); apply pow_incr; lra). nra. }
    assert (99 / 100 * T * sg <= x * sg)%R by (apply Rmult_le_compat_r; lra). replace (99 / 100 * T * sg)%R with (99 / 100 * delta)%R in * by (rewrite <- E; ring). rewrite Ex in *. assert ((1 / 2) ^ Z.to_nat 50 * delta < 1 / 1000 * delta)%R by (apply Rmult_lt_compat_r; lra).
    assert ((1 / 2) ^ Z.to_nat 50 * delta * sg <= (1 / 2) ^ Z.to_nat 50 * delta * 100)%R. { apply Rmult_le_compat_l; [|lra]. apply Rmult_le_pos; [apply pow_le; lra|lra]. } lra.
Qed.

Lemma line_step : returns (natural_step coeffs 1 delta (delta * 1)%R) good_step.
Proof.
  pose proof T_eq as ET. pose proof T_low as LT. assert (Hka : (1 <= ka <= 1 + 1 / 1000000000000000)%R) by (unfold ka; lra).
  apply wp_elim. unfold natural_step. apply wp_bind. apply wp_for_upc with (P := stage) (F := good_step); [left; split; [change (Z.to_nat 0) with 0%nat; cbn [pow]; ring|lia]| |intros x Hx; apply wp_ok; apply stage_last; exact Hx|intros x Hx; apply wp_ok; exact Hx].
  intros k x Hk Sx. pose proof (stage_pos k x ltac:(lia) Sx) as Px. cbv zeta.
  repeat match goal with |- context [taylor_velocity coeffs 1 ?t] => let v := fresh "v" in let E := fresh "E" in destruct (line_velocity t) as (v & E & ?); rewrite E; clear E end.
  cbn [bind]. rewrite !Length_eq. cbn [bind].
  repeat match goal with H : norm3 _ = sg |- _ => rewrite H; clear H end. num.
  destruct (IsAlmostEqualTo sg 0%R) eqn:Es; [exfalso; apply close_iff in Es; apply close0_small in Es; lra|]. clear Es.
  rewrite !(Rabs_right x) by lra.
  replace (x * (1 / 2) * (5555555555555556 / 10000000000000000 * sg + 8888888888888889 / 10000000000000000 * sg + 5555555555555556 / 10000000000000000 * sg))%R with (x * sg * ka)%R by (unfold ka; field).
  assert (Pxs : (0 < x * sg)%R) by (apply Rmult_lt_0_compat; lra).
  destruct (IsAlmostEqualTo (Rabs (x * sg * ka - delta)) 0%R) eqn:Ee.
  - apply wp_ok. split; [lra|]. apply close_iff in Ee. unfold close, tol in Ee. rewrite Rminus_0_r, Rabs_R0, Rabs_Rabsolu, Rmax_left in Ee by apply Rabs_pos. revert Ee. unfold Rabs. repeat destruct Rcase_abs; nra.
  - clear Ee. destruct (Rltb_spec 0 x) as [_|]; [|lra]. rewrite Rdiv_ok by lra. cbn [bind].
    replace (- (x * sg * ka - delta) / (sg * 1))%R with (T - ka * x)%R by (unfold T; field; lra).
    destruct (IsAlmostEqualTo (x * (1 / 2))%R 0%R) eqn:Em; [exfalso; apply close_iff in Em; unfold close, tol in Em; rewrite Rminus_0_r, Rabs_R0, !(Rabs_right (x * (1 / 2))), Rmax_left in Em by lra; lra|]. clear Em. apply wp_ok.
    replace (Z.to_nat (k + 1)) with (S (Z.to_nat k)) by lia.
    destruct (Rltb_spec (x * (1 / 2)) (Rabs (T - ka * x))) as [L|L].
    + destruct (Rltb_spec 0 (T - ka * x)) as [Q|Q].
      * rewrite (Rabs_right (T - ka * x)) in L by lra. left. replace (Z.to_nat (k + 1)) with (S (Z.to_nat k)) by lia. cbn [pow]. split; [|intros _; nra].
        destruct Sx as [(Ex & _)|[(E & B)|B]]; [rewrite Rmult_assoc, <- Ex; lra| |nra]. destruct (Z.eq_dec k 0) as [->|]; [rewrite E; change (Z.to_nat 0) with 0%nat; cbn [pow]; lra|specialize (B ltac:(lia)); nra].
      * rewrite (Rabs_left1 (T - ka * x)) in L by lra. right. left. replace (Z.to_nat (k + 1)) with (S (Z.to_nat k)) by lia. cbn [pow]. split; [|intros _; nra].
        destruct Sx as [(E & B)|[(Ex & _)|B]]; [|rewrite Rmult_assoc, <- Ex; lra|nra]. destruct (Z.eq_dec k 0) as [->|]; [rewrite E; change (Z.to_nat 0) with 0%nat; cbn [pow]; lra|specialize (B ltac:(lia)); nra].
    + right. right. apply Rnot_lt_le in L || idtac. assert (A : (- (x * (1 / 2)) <= T - ka * x <= x * (1 / 2))%R) by (revert L; unfold Rabs; destruct Rcase_abs; lra). nra.
Qed.
End Step.

(* a segment so short that its speed counts as zero: the search stops at once *)
Lemma slow_step (coeffs : list (XYZ R)) f (delta : R) : arr coeffs (1 + 1) f -> (norm3 (f 1%Z) <= 1 / 1000000)%R -> natural_step coeffs 1 delta (delta * 1)%R = Ok delta.
Proof.
  intros Ac Hs. enough (returns (natural_step coeffs 1 delta (delta * 1)%R) (fun x => x = delta)) as (x & E & ->) by exact E. apply wp_elim. unfold natural_step. apply wp_bind.
  apply wp_for_upc with (P := fun k x => k = 0 /\ x = delta) (F := fun x => x = delta); [split; [reflexivity|ring]| |intros x (K & _); lia|intros x Hx; apply wp_ok; exact Hx].
  intros k x Hk (_ & Ex). cbv zeta.
  assert (LV := line_velocity coeffs f Ac).
  repeat match goal with |- context [taylor_velocity coeffs 1 ?t] => let v := fresh "v" in let E := fresh "E" in destruct (LV t) as (v & E & ?); rewrite E; clear E end.
  cbn [bind]. rewrite !Length_eq. cbn [bind].
  repeat match goal with H : norm3 _ = norm3 (f 1) |- _ => rewrite H; clear H end. num.
  assert (Q : IsAlmostEqualTo (norm3 (f 1)) 0%R = true). { apply close_iff. unfold close, tol. pose proof (P_Surf6.norm_pos (f 1)). rewrite Rminus_0_r, Rabs_R0, !(Rabs_right (norm3 (f 1))), Rmax_left by lra. lra. }
  rewrite Q. apply wp_ok. exact Ex.
Qed.

Lemma bar_g a b t g : (0 <= t <= 1)%R -> curve_derivs 1 1 (bezier_knots 1) (bar a b) 1 t g -> g 1 = minus3 b a.
Proof.
  intros Ht (k & Hk & G). assert (k = 1) as -> by (destruct Hk; lia).
  destruct (G 1 ltac:(lia)) as (F & (Fx & Fy & Fz) & <-).
  assert (W : forall x, ww (span_curve 1 1 (bezier_knots 1) (bar a b) x) <> 0%R) by (intros; rewrite bar_span; unfold hom; cbn; lra).
  change (Z.to_nat 1) with 1%nat in *. cbn [nth_deriv_on] in *.
  destruct Fx as (hx & Dx & Ex), Fy as (hy & Dy & Ey), Fz as (hz & Dz & Ez). specialize (Dx t (W t)). specialize (Dy t (W t)). specialize (Dz t (W t)). rewrite Ex in Dx by apply W. rewrite Ey in Dy by apply W. rewrite Ez in Dz by apply W.
  assert (U : forall f l p q, derivable_pt_lim f t l -> (forall x, f x = p * (1 - x) + q * x)%R -> l = (q - p)%R).
  { intros f l p q Hf Hx. apply (uniqueness_limite f t); [exact Hf|]. apply (P_Deriv.der_ext (fun x => (p + (q - p) * x)%R)); [intros x; rewrite Hx; ring|].
    pose proof (derivable_pt_lim_plus (fct_cte p) (mult_real_fct (q - p) id) t _ _ (derivable_pt_lim_const p t) (derivable_pt_lim_scal id (q - p) t 1 (derivable_pt_lim_id t))) as Q. replace (0 + (q - p) * 1)%R with (q - p)%R in Q by ring. exact Q. }
  destruct (F t) as [f1 f2 f3]. cbn [gx gy gz] in *. destruct a as [a1 a2 a3], b as [b1 b2 b3].
  unfold minus3. cbn [gx gy gz]. f_equal; (eapply U; [eassumption|]); intros x; cbv beta; rewrite bar_span, hom_proj; unfold lerp3, plus3, times3; cbn [gx gy gz]; ring.
Qed.

Section BarEnd.
Variables a b : XYZ R.
Variable delta : R.
Hypothesis Hd : (1 / 100 <= delta)%R.
Let c := bar_curve a b.

Lemma bar_clamped : clamped_knots 1 1 (bezier_knots 1).
Proof. apply bar_knots. Qed.
Lemma bar_notperiodic : IsPeriodic c = Ok false.
Proof.
  apply (P_Periodic.IsPeriodic_clamped 1 1); [apply bar_knots|reflexivity|apply bar_clamped| |]; intros u Hu Hc; change (val (bezier_knots 1) 0) with 0%R in *; change (val (bezier_knots 1) (len (bezier_knots 1) - 1)) with 1%R in *;
    destruct Hu as [<- | [<- | [<- | [<- | []]]]]; try reflexivity; exfalso; unfold close, tol in Hc; rewrite ?Rabs_R0, ?Rabs_R1, ?Rmax_left, ?Rmax_right, ?Rminus_0_r, ?Rminus_0_l, ?Rabs_Ropp, ?Rabs_R1 in Hc by lra; lra.
Qed.

Lemma bar_extend : exists L D, Extend c delta false Ext_Natural = Ok (mkCurve 1 [0; 0; 1; 1 + L; 1 + L]%R D) /\ D = [hom a 1; hom b 1; hom (plus3 b (times3 L (minus3 b a))) 1] /\
  (exists cs x f, arr cs (1 + 1) f /\ f 1 = minus3 b a /\ natural_step cs 1 delta (delta * 1)%R = Ok x /\ L = Rabs x).
Proof.
  destruct (Extend_end 1 1 (bezier_knots 1) (bar a b)) with (delta := delta) as (g & L & K & D & G & HL & E & LK & K1 & K2 & LD & D1 & D2 & G0 & cs & x & As & EX & EL); try lia; [apply bar_knots|reflexivity| |apply bar_clamped| |exact bar_notperiodic|].
  - apply bar_heavy.
  - unfold tol. rewrite Rabs_R0, (Rabs_right delta), Rmax_left by lra. lra.
  - change (val (bezier_knots 1) (1 + 1)) with 1%R in *. exists L, D. pose proof (bar_g a b 1 g ltac:(lra) G) as G1. change (pt (bar a b) 1) with (hom b 1) in *. rewrite hom_proj in G0 by lra.
    split; [|split; [|exists cs, x, (tcoef g); split; [exact As|]; split; [|split; assumption]]].
    + fold (bar_curve a b) in E. fold c in E. rewrite E. do 2 f_equal. clear - LK K1 K2.
      destruct K as [|k0 [|k1 [|k2 [|k3 [|k4 [|]]]]]]; unfold len in LK; cbn [length] in LK; try lia.
      pose proof (K1 0 ltac:(lia)) as Q0. pose proof (K1 1 ltac:(lia)) as Q1. pose proof (K1 2 ltac:(lia)) as Q2. pose proof (K2 3 ltac:(lia)) as Q3. pose proof (K2 4 ltac:(lia)) as Q4. change (k0 = 0%R) in Q0. change (k1 = 0%R) in Q1. change (k2 = 1%R) in Q2. change (k3 = (1 + L)%R) in Q3. change (k4 = (1 + L)%R) in Q4. subst. reflexivity.
    + clear - LD D1 D2 G0 G1.
      destruct D as [|k0 [|k1 [|k2 [|]]]]; unfold len in LD; cbn [length] in LD; try lia.
      pose proof (D1 0 ltac:(lia)) as Q0. pose proof (D1 1 ltac:(lia)) as Q1. pose proof (D2 1 ltac:(lia)) as Q2. change (k0 = hom a 1) in Q0. change (k1 = hom b 1) in Q1. change (1 + 1) with 2 in Q2. change (pt [k0; k1; k2] 2) with k2 in Q2. rewrite Q0, Q1, Q2. do 4 f_equal.
      unfold tbp, tb. change (1 + 1) with 2. rewrite !P_Make.rsum_2. rewrite !Cb_0, !Cb_n by lia. unfold tcoef. rewrite G0, G1. unfold plus3, times3, minus3. change (fact (Z.to_nat 0)) with 1%nat. change (fact (Z.to_nat 1)) with 1%nat. change (Z.to_nat 0) with 0%nat. change (Z.to_nat 1) with 1%nat. cbn [pow INR gx gy gz]. f_equal; field.
    + unfold tcoef. change (fact (Z.to_nat 1)) with 1%nat. rewrite G1. unfold times3, minus3. cbn [gx gy gz INR]. f_equal; field.
Qed.
End BarEnd.
