(* Reducing the degree undoes raising it. *)
From Coq Require Import ZArith List Bool Reals Lra Lia Permutation.
From Verif Require Import Base Num Vec Tac Spec Spec2 Spec3 Spec4 Spec5 M_MathUtils M_Polynomials M_XYZ M_Knots M_Bspline M_NurbsCurve M_Curve2
  P_VSum P_Curve P_Bspline P_Insert P_Insert2 P_Refine P_KnotMap P_Elevate P_Reduce.
Import ListNotations.
Open Scope Z_scope.

Lemma heavy_mix x y c : (tol x 0 < x -> tol y 0 < y -> 0 <= c <= 1 -> tol (c * x + (1 - c) * y) 0 < c * x + (1 - c) * y)%R.
Proof.
  intros Hx Hy Hc. pose proof (tol_pos x 0). pose proof (tol_pos y 0).
  assert (E : forall z, (0 < z)%R -> tol z 0 = (1 / 1000000 * (1 + z))%R) by (intros z Hz; unfold tol; rewrite Rabs_R0, (Rabs_pos_eq z), Rmax_left by lra; reflexivity).
  rewrite E in Hx, Hy by lra. assert (Bx : (1 / 999999 < x)%R) by lra. assert (By : (1 / 999999 < y)%R) by lra.
  assert (Z1 : (0 <= c * (x - 1 / 999999))%R) by (apply Rmult_le_pos; lra). assert (Z2 : (0 <= (1 - c) * (y - 1 / 999999))%R) by (apply Rmult_le_pos; lra).
  assert (Z3 : (0 < c * (x - 1 / 999999) + (1 - c) * (y - 1 / 999999))%R).
  { destruct (Req_EM_T c 0) as [->|]; [lra|]. assert (0 < c * (x - 1 / 999999))%R by (apply Rmult_lt_0_compat; lra). lra. }
  assert (Z4 : (1 / 999999 < c * x + (1 - c) * y)%R) by lra. rewrite E by lra. lra.
Qed.

(* knots made of p+1 times a and p+1 times b *)
Lemma two_knots p n U a b : curve_knots p n U -> clamped_knots p n U -> (forall x, In x U <-> x = a \/ x = b) -> occ U a = p + 1 -> (a < b)%R -> n = p /\ val U p = a /\ val U (n + 1) = b.
Proof.
  intros HU Hcl HIn Ho Hab. pose proof (ck_p _ _ _ HU) as Hp. pose proof (ck_n _ _ _ HU) as Hn. pose proof (ck_len _ _ _ HU) as HL. pose proof (ck_sorted _ _ _ HU) as HS. pose proof (ck_last _ _ _ HU) as Hl. pose proof (tol_pos (val U n) (val U (n + 1))).
  assert (V : forall i, 0 <= i < len U -> val U i = a \/ val U i = b) by (intros i Hi; apply HIn; apply val_In; exact Hi).
  assert (Va : forall i, 0 <= i <= n -> val U i = a).
  { intros i Hi. pose proof (HS i n ltac:(lia) ltac:(lia) ltac:(lia)). destruct (V n ltac:(lia)), (V (n + 1) ltac:(lia)), (V i ltac:(lia)); lra. }
  assert (Vb : forall i, n + 1 <= i < len U -> val U i = b).
  { intros i Hi. pose proof (HS (n + 1) i ltac:(lia) ltac:(lia) ltac:(lia)). pose proof (Va n ltac:(lia)). destruct (V (n + 1) ltac:(lia)), (V i ltac:(lia)); lra. }
  assert (n + 1 = p + 1). { rewrite <- Ho. unfold occ. rewrite (count_range U a 0 (n + 1)); try lia; intros i Hi; [apply Va; lia|rewrite Vb by lia; lra]. }
  split; [lia|]. split; [apply Va; lia|apply Vb; lia].
Qed.

Lemma elevate_reduce p U P : 1 <= p -> curve_knots p p U -> clamped_knots p p U -> (forall x y, In x U -> In y U -> apart x y) -> len P = p + 1 -> heavy P ->
  (let! c := ElevateDegree (mkCurve p U P) 1 in ReduceDegree c) = Ok (Some (mkCurve p U P)).
Proof.
  intros Hp HU Hcl Hap HP HH. pose proof (ck_first _ _ _ HU) as Hf. pose proof (tol_pos (val U p) (val U (p + 1))) as Htp. pose proof (ck_len _ _ _ HU) as HL.
  destruct (ElevateDegree_ok p p U P 1 HU HP Hcl Hap Hp ltac:(lia)) as (c & -> & n' & U' & Q & -> & HU' & HQ & Hcl' & HIn & Hocc & Heq).
  { intros i Hi. assert (i = p) as -> by lia. lra. }
  cbn [bind]. set (a := val U p) in *. set (b := val U (p + 1)) in *. pose proof (bezier_on_eq p U HU Hcl) as EU. fold a b in EU.
  pose proof (bezier_on_arr p a b ltac:(lia)) as AU. rewrite <- EU in AU.
  assert (HIn2 : forall x, In x U <-> x = a \/ x = b).
  { intros x. split.
    - intros Hx. destruct (In_val _ _ Hx) as (i & Hi & <-). rewrite (arr_val _ _ _ i AU) by lia. destruct (i <=? p); auto.
    - intros [->| ->]; apply val_In; lia. }
  assert (Oa : occ U a = p + 1).
  { unfold occ. rewrite (count_range U a 0 (p + 1)); try lia; intros i Hi.
    - rewrite (arr_val _ _ _ i AU) by lia. rewrite (proj2 (Z.leb_le _ _)) by lia. reflexivity.
    - rewrite (arr_val _ _ _ i AU) by lia. rewrite (proj2 (Z.leb_gt _ _)) by lia. lra. }
  destruct (two_knots (p + 1) n' U' a b HU' Hcl') as (-> & Va & Vb).
  { intros x. rewrite HIn. apply HIn2. } { rewrite Hocc by (apply HIn2; auto). lia. } { lra. }
  assert (Hdom : forall s, in_domain (p + 1) (p + 1) U' s <-> in_domain p p U s) by (intros s; unfold in_domain; rewrite Va, Vb; fold a b; tauto).
  assert (Hsame : forall s, in_domain (p + 1) (p + 1) U' s -> curve_point (p + 1) (p + 1) U' Q s = curve_point (p + 1 - 1) (p + 1 - 1) (bezier_on (p + 1 - 1) (val U' (p + 1)) (val U' (p + 1 + 1))) P s).
  { intros s Hs. replace (p + 1 - 1) with p by lia. rewrite Va, Vb, <- EU. apply Heq. apply Hdom. exact Hs. }
  pose proof (equal_raised (p + 1) U' Q P ltac:(lia) HU' Hcl' Hsame) as HR.
  assert (HQh : heavy Q).
  { intros i Hi. rewrite HR by lia. unfold raised. assert (HpR : (0 < IZR (p + 1))%R) by (apply IZR_lt; lia). destruct (Z.eq_dec i 0) as [->|].
    - pose proof (HH 0 ltac:(lia)) as H0. replace (IZR 0 / IZR (p + 1))%R with 0%R by (field; lra). cbn [vadd vscale Vec_XYZW]. unfold xyzw_add, xyzw_scale. cbn [ww]. num.
      replace (ww (pt P (0 - 1)) * 0 + ww (pt P 0) * (1 - 0))%R with (ww (pt P 0)) by ring. exact H0.
    - destruct (Z.eq_dec i (p + 1)) as [->|].
      + pose proof (HH p ltac:(lia)) as H0. replace (IZR (p + 1) / IZR (p + 1))%R with 1%R by (field; lra). replace (p + 1 - 1) with p by lia. cbn [vadd vscale Vec_XYZW]. unfold xyzw_add, xyzw_scale. cbn [ww]. num.
        replace (ww (pt P p) * 1 + ww (pt P (p + 1)) * (1 - 1))%R with (ww (pt P p)) by ring. exact H0.
      + cbn [vadd vscale Vec_XYZW]. unfold xyzw_add, xyzw_scale. cbn [ww]. num.
        replace (ww (pt P (i - 1)) * (IZR i / IZR (p + 1)) + ww (pt P i) * (1 - IZR i / IZR (p + 1)))%R with (IZR i / IZR (p + 1) * ww (pt P (i - 1)) + (1 - IZR i / IZR (p + 1)) * ww (pt P i))%R by ring.
        apply heavy_mix; [apply HH; lia|apply HH; lia|]. assert (0 < IZR i)%R by (apply IZR_lt; lia). assert (IZR i < IZR (p + 1))%R by (apply IZR_lt; lia).
        split; [apply Rlt_le, Rdiv_lt_0_compat; lra|]. apply Rlt_le, (Rmult_lt_reg_r (IZR (p + 1))); [lra|]. unfold Rdiv. rewrite Rmult_assoc, Rinv_l by lra. lra. }
  rewrite (ReduceDegree_exact (p + 1) U' Q P); auto; try lia. replace (p + 1 - 1) with p by lia. rewrite Va, Vb, <- EU. reflexivity.
Qed.
