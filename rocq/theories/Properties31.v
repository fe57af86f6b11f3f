(* Property theorems, part 31: least squares approximation of nets of points. *)
From Coq Require Import ZArith List Bool Reals Lra Lia.
From Verif Require Import Base Num Vec Tac Spec Spec2 Spec3 Spec4 Spec6 Spec21 Spec22 M_MathUtils M_Polynomials M_XYZ M_Bspline M_NurbsCurve M_Interp M_Fit M_Fit3 M_Fit4 M_Surface
  P_MathUtils P_Span P_Cox P_Vec P_VSum P_Curve P_Basis P_OneBasis P_Fit P_Interp2 P_Interp P_Ls3 P_Ls4 Properties30.
Import ListNotations.
Open Scope Z_scope.

(** * C128 *)
(* when all rows and then all columns can be fitted, there is a surface *)
Theorem C128_returns : forall lu D pU pV rows cols, approximation_input D pU pV rows cols ->
  (forall i, 0 <= i < len D -> exists c, LeastSquaresApproximation lu pU (at_ nil D i) cols = Ok (Some c)) ->
  (forall j Q, 0 <= j < cols -> len Q = len D -> (forall i, 0 <= i < len D -> exists K P, fitted lu pU (at_ nil D i) cols K P /\ pt Q i = pt P j) -> exists c, LeastSquaresApproximation lu pV Q rows = Ok (Some c)) ->
  exists s, GlobalApproximation lu D pU pV rows cols = Ok (Some s).
Proof. exact GlobalApproximation_total. Qed.
Print Assumptions C128_returns.

(* the first row that cannot be fitted makes the call report failure *)
Theorem C128_failure : forall lu D pU pV rows cols k, approximation_input D pU pV rows cols -> 0 <= k < len D ->
  (forall i, 0 <= i < k -> exists c, LeastSquaresApproximation lu pU (at_ nil D i) cols = Ok (Some c)) -> LeastSquaresApproximation lu pU (at_ nil D k) cols = Ok None ->
  GlobalApproximation lu D pU pV rows cols = Ok None.
Proof. exact GlobalApproximation_fail. Qed.
Print Assumptions C128_failure.

(* degrees, knots, net and weights of every surface that is returned *)
Theorem C128_shape : forall lu D pU pV rows cols s, GlobalApproximation lu D pU pV rows cols = Ok (Some s) ->
  DegreeU s = pU /\ DegreeV s = pV /\ len (KnotVectorU s) = cols + pU + 1 /\ len (KnotVectorV s) = rows + pV + 1 /\ net rows cols (SControlPoints s) /\
  forall i j, 0 <= i < rows -> 0 <= j < cols -> exists q, pt2 (SControlPoints s) i j = hom q 1.
Proof. exact GlobalApproximation_shape. Qed.
Print Assumptions C128_shape.

(* its net is the one of the columns fitted to the rows fitted to the data *)
Theorem C128_fitted : forall lu D pU pV rows cols s, GlobalApproximation lu D pU pV rows cols = Ok (Some s) ->
  exists T C, is_mat (SControlPoints s) rows cols (fun i j => hom (C i j) 1) /\ fitted_net lu D pU pV rows cols (KnotVectorU s) (KnotVectorV s) T C.
Proof. intros lu D pU pV rows cols s E. destruct (GlobalApproximation_ok _ _ _ _ _ _ _ E s eq_refl) as (_ & _ & _ & _ & _ & H). exact H. Qed.
Print Assumptions C128_fitted.

(* the corners of the net are the corners of the data *)
Theorem C128_corners : forall lu D pU pV rows cols s, GlobalApproximation lu D pU pV rows cols = Ok (Some s) ->
  let P i j := pt2 (SControlPoints s) i j in let Q i := at_ nil D i in
  P 0 0 = hom (pt (Q 0) 0) 1 /\ P (rows - 1) 0 = hom (pt (Q (len D - 1)) 0) 1 /\
  P 0 (cols - 1) = hom (pt (Q 0) (len (Q 0) - 1)) 1 /\ P (rows - 1) (cols - 1) = hom (pt (Q (len D - 1)) (len (Q (len D - 1)) - 1)) 1.
Proof. exact GlobalApproximation_corners. Qed.
Print Assumptions C128_corners.

(* unless there are as many rows as columns no surface that is returned passes the library's own check *)
Theorem C128_refuted : forall lu D pU pV rows cols s, rows <> cols -> GlobalApproximation lu D pU pV rows cols = Ok (Some s) -> NurbsSurfaceCheck s = Throw.
Proof. exact GlobalApproximation_invalid. Qed.
Print Assumptions C128_refuted.

Lemma usx_at k : 0 < k < 3 -> val usx k = (1 / 3)%R \/ val usx k = (2 / 3)%R.
Proof. intros Hk. assert (k = 1 \/ k = 2) as [-> | ->] by lia; [left; change (1 / (1 + 1 + 1) = 1 / 3)%R|right; change ((1 + 1) / (1 + 1 + 1) = 2 / 3)%R]; field. Qed.
Lemma usx1 : val usx 1 = (1 / 3)%R. Proof. change (1 / (1 + 1 + 1) = 1 / 3)%R. field. Qed.
Lemma usx2 : val usx 2 = (2 / 3)%R. Proof. change ((1 + 1) / (1 + 1 + 1) = 2 / 3)%R. field. Qed.
Lemma Ux_N1 t : (1 / 3 <= t < 1)%R -> N (val Ux) 1 (Z.to_nat 1) 0 t = 0%R /\ N (val Ux) 1 (Z.to_nat 1) 1 t = ((1 - t) / (2 / 3))%R /\ N (val Ux) 1 (Z.to_nat 1) 2 t = ((t - 1 / 3) / (2 / 3))%R.
Proof.
  intros Ht. destruct Ux_val as (V0 & V1 & V2 & V3 & V4). change (NB (val Ux) 1 1 0 t = 0%R /\ NB (val Ux) 1 1 1 t = ((1 - t) / (2 / 3))%R /\ NB (val Ux) 1 1 2 t = ((t - 1 / 3) / (2 / 3))%R).
  rewrite (NB_succ _ _ 1 0), (NB_succ _ _ 1 1), (NB_succ _ _ 1 2) by lia. change (1 - 1) with 0. rewrite !(NB_0 _ _ _ t) by lra. change (0 + 1) with 1. change (1 + 1) with 2. change (2 + 1) with 3. change (3 + 1) with 4. rewrite V0, V1, V2, V3, V4.
  destruct (Rle_dec 0 t); [|lra]. destruct (Rlt_dec t 0); [lra|]. destruct (Rlt_dec t (1 / 3)); [lra|]. destruct (Rle_dec (1 / 3) t); [|lra]. destruct (Rlt_dec t 1); [|lra]. destruct (Rle_dec 1 t); [lra|]. rewrite (sdiv_ok (1 - t)), (sdiv_ok (t - 1 / 3)) by lra. repeat split; field.
Qed.
Lemma Ux_curve (P : list (XYZ R)) t c : (1 / 3 <= t < 1)%R -> co c (curve_point 1 2 Ux P t) = ((1 - t) / (2 / 3) * co c (pt P 1) + (t - 1 / 3) / (2 / 3) * co c (pt P 2))%R.
Proof. intros Ht. unfold curve_point. change (val Ux (2 + 1)) with 1%R. rewrite co_comb. change (2 + 1) with 3. rewrite (proj2 (proj2 (proj2 (rsum_few _)))). destruct (Ux_N1 t Ht) as (-> & -> & ->). ring. Qed.

Lemma squares0 x y z : (x * x + y * y + z * z <= 0 -> x = 0 /\ y = 0 /\ z = 0)%R.
Proof. intros H. pose proof (Rle_0_sqr x). pose proof (Rle_0_sqr y). pose proof (Rle_0_sqr z). unfold Rsqr in *. repeat split; apply Rsqr_0_uniq; unfold Rsqr; lra. Qed.
(* a row of the data at height z *)
Definition Qr (z : R) : list (XYZ R) := [mkXYZ 0 0 z; mkXYZ 1 0 z; mkXYZ 1 1 z; mkXYZ 1 2 z]%R.
Lemma Qr_fit z : exists c, LeastSquaresApproximation gauss_lu 1 (Qr z) 3 = Ok (Some c) /\ forall K P, fitted gauss_lu 1 (Qr z) 3 K P -> pt P 0 = (mkXYZ 0 0 z)%R /\ pt P 1 = (mkXYZ 1 0 z)%R /\ pt P 2 = (mkXYZ 1 2 z)%R.
Proof.
  assert (EC : GetChordParameterization (Qr z) = Ok usx) by (apply chord4; try (apply step_one; unfold dot3, minus3; cbn; ring); lra).
  destruct (C127_optimum gauss_lu 1 2 (Qr z) usx Ux) as (cps & P & E & Lc & LP & Hc & P0 & Pn & Opt); try (change (len (Qr z)) with 4; lia); try lia.
  - exact gauss_lu_exact.
  - exact EC.
  - exact Qx_knots.
  - exact Ux_ok.
  - change (len (Qr z) - 1) with 3. intros k Hk. pose proof (usx_at k Hk) as K. assert (L : (val usx k < 1)%R) by (destruct K as [-> | ->]; lra). split; [exact L|]. split; [apply Ux_apart, K|]. split; apply N_zero_apart; try exact L; reflexivity.
  - intros P LP P0 Pn Hz l Hl. assert (l = 0 \/ l = 1 \/ l = 2) as [->|[->| ->]] by lia; [exact P0| |exact Pn]. specialize (Hz 1 ltac:(change (len (Qr z) - 1) with 3; lia)). apply co_ext. intros c. apply (f_equal (co c)) in Hz. rewrite usx1, Ux_curve, Pn in Hz by lra. assert (ZZ : co c zero3 = 0%R) by (destruct c as [|[|c]]; reflexivity). rewrite ZZ in Hz |- *. lra.
  - change (2 + 1) with 3 in *. change (len (Qr z) - 1) with 3 in *. exists (mkCurve 1 Ux cps). split; [exact E|]. intros K P1 (c & E1 & _ & LP1 & A1). rewrite E in E1. injection E1 as <-. cbn [ControlPoints] in A1.
    assert (EP : forall l, 0 <= l <= 2 -> pt P1 l = pt P l).
    { intros l Hl. pose proof (Hc l Hl) as H1. unfold pt at 1 in H1. rewrite (arr_at_eq _ _ _ _ _ A1) in H1 by lia. assert (B : @Ok (XYZ R) (pt P1 l) = Ok (pt P l)) by (rewrite <- !P_Local.hom_back, H1; reflexivity). congruence. }
    rewrite !EP by lia. change (pt P 0 = mkXYZ 0 0 z)%R in P0. change (pt P 2 = mkXYZ 1 2 z)%R in Pn. split; [exact P0|]. split; [|exact Pn].
    specialize (Opt [mkXYZ 0 0 z; mkXYZ 1 0 z; mkXYZ 1 2 z]%R eq_refl eq_refl eq_refl). unfold inner_error in Opt. change (len (Qr z) - 1) with 3 in Opt. rewrite !(proj1 (proj2 (rsum_few _))) in Opt.
    set (S2 := curve_point 1 2 Ux [mkXYZ 0 0 z; mkXYZ 1 0 z; mkXYZ 1 2 z]%R) in Opt.
    assert (Z1 : S2 (val usx 1) = pt (Qr z) 1). { apply co_ext. intros c. unfold S2. rewrite usx1, Ux_curve by lra. change (pt [mkXYZ 0 0 z; mkXYZ 1 0 z; mkXYZ 1 2 z]%R 1) with (mkXYZ 1 0 z)%R. change (pt [mkXYZ 0 0 z; mkXYZ 1 0 z; mkXYZ 1 2 z]%R 2) with (mkXYZ 1 2 z)%R. change (pt (Qr z) 1) with (mkXYZ 1 0 z)%R. change (pt (Qr z) 2) with (mkXYZ 1 1 z)%R. destruct c as [|[|c]]; cbn; field. }
    assert (Z2 : S2 (val usx 2) = pt (Qr z) 2). { apply co_ext. intros c. unfold S2. rewrite usx2, Ux_curve by lra. change (pt [mkXYZ 0 0 z; mkXYZ 1 0 z; mkXYZ 1 2 z]%R 1) with (mkXYZ 1 0 z)%R. change (pt [mkXYZ 0 0 z; mkXYZ 1 0 z; mkXYZ 1 2 z]%R 2) with (mkXYZ 1 2 z)%R. change (pt (Qr z) 1) with (mkXYZ 1 0 z)%R. change (pt (Qr z) 2) with (mkXYZ 1 1 z)%R. destruct c as [|[|c]]; cbn; field. }
    assert (ZD : forall q : XYZ R, dot3 (minus3 q q) (minus3 q q) = 0%R) by (intros q; unfold dot3, minus3; cbn; ring). rewrite Z1, Z2, !ZD in Opt.
    set (X1 := curve_point 1 2 Ux P (val usx 1)) in Opt. set (X2 := curve_point 1 2 Ux P (val usx 2)) in Opt. assert (D2 : (0 <= dot3 (minus3 X2 (pt (Qr z) 2)) (minus3 X2 (pt (Qr z) 2)))%R) by (unfold dot3; nra).
    assert (D1 : (dot3 (minus3 X1 (pt (Qr z) 1)) (minus3 X1 (pt (Qr z) 1)) <= 0)%R) by lra. clear Opt D2. assert (E1 : X1 = pt (Qr z) 1).
    { change (pt (Qr z) 1) with (mkXYZ 1 0 z)%R in D1 |- *. clearbody X1. destruct X1 as [a b c]. unfold dot3, minus3 in D1. cbn in D1. destruct (squares0 (a - 1) (b - 0) (c - z)) as (S1 & S2' & S3); [lra|]. f_equal; lra. }
    apply co_ext. intros c. apply (f_equal (co c)) in E1. unfold X1 in E1. rewrite usx1, Ux_curve in E1 by lra. change (pt (Qr z) 1) with (mkXYZ 1 0 z)%R in E1. lra.
Qed.

(* a column of four points at unit distances *)
Definition Qc (x y : R) : list (XYZ R) := [mkXYZ x y 0; mkXYZ x y 1; mkXYZ x y 2; mkXYZ x y 3]%R.
Definition Uc : list R := [0; 0; 1 / 9; 5 / 9; 1; 1]%R.
Lemma Qc_knots : ComputeKnotVector 1 4 usx = Ok Uc.
Proof.
  destruct (Fit_returns 1 3 usx ltac:(lia) ltac:(lia)) as (U & E & (LU & _ & C0 & C1) & G); try (change (len usx) with 4; lia).
  - exact usx_sorted.
  - change (0 <= 0)%R. lra.
  - change (1 <= 1)%R. lra.
  - change (3 + 1) with 4 in *. rewrite E. f_equal. destruct (G 1 ltac:(lia)) as (i & a & Ha & Ei & Hi & Ev). destruct (G 2 ltac:(lia)) as (i' & a' & Ha' & Ei' & Hi' & Ev'). change (len usx) with 4 in *. change (3 - 1 + 1) with 3 in Ei, Ei'.
    assert (i = 1) as -> by (assert (A1 : (IZR i < IZR 2)%R) by lra; assert (A2 : (IZR 0 < IZR i)%R) by lra; apply lt_IZR in A1, A2; lia). assert (a = 1 / 3)%R as -> by lra.
    assert (i' = 2) as -> by (assert (A1 : (IZR i' < IZR 3)%R) by lra; assert (A2 : (IZR 1 < IZR i')%R) by lra; apply lt_IZR in A1, A2; lia). assert (a' = 2 / 3)%R as -> by lra.
    change (val usx (1 - 1)) with 0%R in Ev. change (val usx (2 - 1)) with (val usx 1) in Ev'. rewrite usx1 in Ev, Ev'. rewrite usx2 in Ev'. change (4 + 1) with 5 in *.
    destruct U as [|u0 [|u1 [|u2 [|u3 [|u4 [|u5 [|]]]]]]]; try (unfold len in LU; cbn [length] in LU; lia).
    pose proof (C0 0 ltac:(lia)) as A0. pose proof (C0 1 ltac:(lia)) as A1. pose proof (C1 4 ltac:(lia)) as A4. pose proof (C1 5 ltac:(lia)) as A5. change (u0 = 0%R) in A0. change (u1 = 0%R) in A1. change (u4 = 1%R) in A4. change (u5 = 1%R) in A5.
    change (val [u0; u1; u2; u3; u4; u5] (1 + 1)) with u2 in Ev. change (val [u0; u1; u2; u3; u4; u5] (1 + 2)) with u3 in Ev'. subst. unfold Uc. repeat (f_equal; try lra).
Qed.
Lemma Uc_val : val Uc 0 = 0%R /\ val Uc 1 = 0%R /\ val Uc 2 = (1 / 9)%R /\ val Uc 3 = (5 / 9)%R /\ val Uc 4 = 1%R /\ val Uc 5 = 1%R.
Proof. repeat split; reflexivity. Qed.
Lemma Uc_apart t : t = (1 / 3)%R \/ t = (2 / 3)%R -> knots_apart Uc t.
Proof.
  intros Ht i Hi. change (len Uc) with 6 in Hi.
  assert (W : forall u, (0 <= u <= 1)%R -> (1 / 100 < Rabs (t - u))%R -> (t = u \/ tol t u < Rabs (t - u))%R).
  { intros u Hu H. right. pose proof (tol_le t u 1 ltac:(rewrite Rabs_pos_eq; lra) ltac:(rewrite Rabs_pos_eq; lra)). lra. }
  destruct Uc_val as (V0 & V1 & V2 & V3 & V4 & V5). assert (i = 0 \/ i = 1 \/ i = 2 \/ i = 3 \/ i = 4 \/ i = 5) as [->|[->|[->|[->|[->| ->]]]]] by lia; rewrite ?V0, ?V1, ?V2, ?V3, ?V4, ?V5; apply W; try lra; unfold Rabs; destruct (Rcase_abs _); lra.
Qed.
Lemma Uc_curve (P : list (XYZ R)) c : co c (curve_point 1 3 Uc P (1 / 3)) = (1 / 2 * co c (pt P 1) + 1 / 2 * co c (pt P 2))%R /\ co c (curve_point 1 3 Uc P (2 / 3)) = (3 / 4 * co c (pt P 2) + 1 / 4 * co c (pt P 3))%R.
Proof.
  unfold curve_point. change (val Uc (3 + 1)) with 1%R. rewrite !co_comb. rewrite !(rsum_last 0 3) by lia. rewrite !(proj2 (proj2 (proj2 (rsum_few _)))).
  destruct Uc_val as (V0 & V1 & V2 & V3 & V4 & V5). change (Z.to_nat 1) with 1%nat.
  assert (F : forall i t, (t < 1)%R -> N (val Uc) 1 1 i t = (sdiv (t - val Uc i) (val Uc (i + 1) - val Uc i) * NB (val Uc) 1 0 i t + sdiv (val Uc (i + 2) - t) (val Uc (i + 2) - val Uc (i + 1)) * NB (val Uc) 1 0 (i + 1) t)%R).
  { intros i t Ht. change (N (val Uc) 1 1 i t) with (NB (val Uc) 1 1 i t). rewrite NB_succ by lia. replace (i + 1 + 1) with (i + 2) by lia. reflexivity. }
  rewrite !(F _ (1 / 3)%R), !(F _ (2 / 3)%R) by lra. rewrite !(NB_0 _ _ _ (1 / 3)%R), !(NB_0 _ _ _ (2 / 3)%R) by lra. change (0 + 1) with 1. change (0 + 2) with 2. change (1 + 1) with 2. change (1 + 2) with 3. change (2 + 1) with 3. change (2 + 2) with 4. change (3 + 1) with 4. change (3 + 2) with 5. rewrite V0, V1, V2, V3, V4, V5.
  repeat match goal with |- context [Rle_dec ?a ?b] => destruct (Rle_dec a b); [try lra|try lra] | |- context [Rlt_dec ?a ?b] => destruct (Rlt_dec a b); [try lra|try lra] end.
  rewrite (sdiv_ok (5 / 9 - 1 / 3)), (sdiv_ok (1 / 3 - 1 / 9)), (sdiv_ok (1 - 2 / 3)), (sdiv_ok (2 / 3 - 5 / 9)) by lra. split; field.
Qed.
Lemma Qc_fit x y : exists c, LeastSquaresApproximation gauss_lu 1 (Qc x y) 4 = Ok (Some c).
Proof.
  assert (EC : GetChordParameterization (Qc x y) = Ok usx) by (apply chord4; try (apply step_one; unfold dot3, minus3; cbn; ring); lra).
  destruct (C127_optimum gauss_lu 1 3 (Qc x y) usx Uc) as (cps & P & E & _); try (change (len (Qc x y)) with 4; lia); try lia.
  - exact gauss_lu_exact.
  - exact EC.
  - exact Qc_knots.
  - assert (T : forall a b, (0 <= a <= 1 -> 0 <= b <= 1 -> tol a b <= 2 / 1000000)%R). { intros a b Ha Hb. pose proof (tol_le a b 1 ltac:(rewrite Rabs_pos_eq; lra) ltac:(rewrite Rabs_pos_eq; lra)). lra. }
    constructor; try lia; try reflexivity.
    + unfold Uc. sorted_tac.
    + change (0 + tol 0 (1 / 9) < 1 / 9)%R. pose proof (T 0 (1 / 9) ltac:(lra) ltac:(lra))%R. lra.
    + change (5 / 9 + tol (5 / 9) 1 < 1)%R. pose proof (T (5 / 9) 1 ltac:(lra) ltac:(lra))%R. lra.
  - change (len (Qc x y) - 1) with 3. intros k Hk. pose proof (usx_at k Hk) as K. assert (L : (val usx k < 1)%R) by (destruct K as [-> | ->]; lra). split; [exact L|]. split; [apply Uc_apart, K|]. split; apply N_zero_apart; try exact L; reflexivity.
  - intros P LP P0 Pn Hz. change (len (Qc x y) - 1) with 3 in Hz. pose proof (Hz 1 ltac:(lia)) as Z1. pose proof (Hz 2 ltac:(lia)) as Z2. rewrite usx1 in Z1. rewrite usx2 in Z2.
    assert (H2 : pt P 2 = zero3). { apply co_ext. intros c. apply (f_equal (co c)) in Z2. rewrite (proj2 (Uc_curve P c)), Pn in Z2. assert (ZZ : co c zero3 = 0%R) by (destruct c as [|[|c]]; reflexivity). rewrite ZZ in Z2 |- *. lra. }
    assert (H1 : pt P 1 = zero3). { apply co_ext. intros c. apply (f_equal (co c)) in Z1. rewrite (proj1 (Uc_curve P c)), H2 in Z1. assert (ZZ : co c zero3 = 0%R) by (destruct c as [|[|c]]; reflexivity). rewrite ZZ in Z1 |- *. lra. }
    intros l Hl. assert (l = 0 \/ l = 1 \/ l = 2 \/ l = 3) as [->|[->|[->| ->]]] by lia; assumption.
  - change (3 + 1) with 4 in E. eexists. exact E.
Qed.

(* four rows of four points, four rows of three control points: a surface is returned, and it is not a valid one *)
Definition Dx : list (list (XYZ R)) := [Qr 0; Qr 1; Qr 2; Qr 3].
Example C128_ex : exists s, GlobalApproximation gauss_lu Dx 1 1 4 3 = Ok (Some s) /\ net 4 3 (SControlPoints s) /\ pt2 (SControlPoints s) 3 2 = hom (mkXYZ 1 2 3)%R 1 /\ NurbsSurfaceCheck s = Throw.
Proof.
  assert (ER : forall i, 0 <= i < 4 -> at_ nil Dx i = Qr (IZR i)) by (intros i Hi; assert (i = 0 \/ i = 1 \/ i = 2 \/ i = 3) as [->|[->|[->| ->]]] by lia; reflexivity).
  destruct (C128_returns gauss_lu Dx 1 1 4 3) as (s & E).
  - split; [change (0 < 4); lia|]. split; [change (0 < 4); lia|]. lia.
  - change (len Dx) with 4. intros i Hi. rewrite ER by exact Hi. destruct (Qr_fit (IZR i)) as (c & E & _). exists c. exact E.
  - change (len Dx) with 4. intros j Q Hj LQ H.
    assert (HQ : exists x y, Q = Qc x y).
    { assert (HP : exists x y, forall i, 0 <= i < 4 -> pt Q i = mkXYZ x y (IZR i)).
      { assert (j = 0 \/ j = 1 \/ j = 2) as [->|[->| ->]] by lia; [exists 0%R, 0%R|exists 1%R, 0%R|exists 1%R, 2%R]; intros i Hi; destruct (H i Hi) as (K & P & F & ->); rewrite ER in F by exact Hi; destruct (Qr_fit (IZR i)) as (_ & _ & G); destruct (G K P F) as (G0 & G1 & G2); assumption. }
      destruct HP as (x & y & HP). exists x, y. destruct Q as [|q0 [|q1 [|q2 [|q3 [|]]]]]; try (unfold len in LQ; cbn [length] in LQ; lia).
      pose proof (HP 0 ltac:(lia)) as B0. pose proof (HP 1 ltac:(lia)) as B1. pose proof (HP 2 ltac:(lia)) as B2. pose proof (HP 3 ltac:(lia)) as B3. change (q0 = mkXYZ x y 0%R) in B0. change (q1 = mkXYZ x y 1%R) in B1. change (q2 = mkXYZ x y 2%R) in B2. change (q3 = mkXYZ x y 3%R) in B3. subst. reflexivity. }
    destruct HQ as (x & y & ->). apply Qc_fit.
  - exists s. split; [exact E|]. destruct (C128_shape _ _ _ _ _ _ _ E) as (_ & _ & _ & _ & HN & _). split; [exact HN|]. split; [|refine (C128_refuted gauss_lu Dx 1 1 4 3 s _ E); lia]. pose proof (C128_corners _ _ _ _ _ _ _ E) as C. cbv zeta in C. destruct C as (_ & _ & _ & C). exact C.
Qed.
(* a first row that cannot be fitted *)
Example C128_failure_ex : GlobalApproximation gauss_lu [Qy; Qx] 1 1 3 4 = Ok None.
Proof.
  apply (C128_failure gauss_lu [Qy; Qx] 1 1 3 4 0).
  - split; [change (0 < 2); lia|]. split; [change (0 < 4); lia|]. lia.
  - change (0 <= 0 < 2). lia.
  - intros i Hi. lia.
  - exact C127_failure_ex.
Qed.
