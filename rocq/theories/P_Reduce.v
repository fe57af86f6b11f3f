(* Degree reduction of Bezier curves. *)
From Coq Require Import ZArith List Bool Reals Lra Lia Permutation.
From Verif Require Import Base Num Vec Tac Spec Spec2 Spec3 Spec4 Spec5 M_MathUtils M_Polynomials M_XYZ M_Knots M_Bspline M_NurbsCurve M_Curve2
  P_Loop P_MathUtils P_Bern P_Cox P_VSum P_Curve P_Bspline P_Insert P_Insert2 P_Nurbs P_XYZ P_Geom P_Decomp P_PolarElev P_KnotMap.
Import ListNotations.
Open Scope Z_scope.

(** * The tolerance *)

Lemma tolerance_ok P : heavy P -> wp (ComputeCurveModifyTolerance P) (modify_tolerance P).
Proof.
  intros HP. unfold ComputeCurveModifyTolerance. pose proof (arr_pt P _ eq_refl) as AP. apply wp_bind.
  apply wp_for_up with (P := fun h '(w, d) =>
    ((w <= 1)%R /\ (forall i, 0 <= i < h -> (w <= ww (pt P i))%R) /\ (w = 1%R \/ exists i, 0 <= i < h /\ w = ww (pt P i))) /\
    ((0 <= d)%R /\ (forall i, 0 <= i < h -> (norm3 (proj (pt P i)) <= d)%R) /\ (d = 0%R \/ exists i, 0 <= i < h /\ d = norm3 (proj (pt P i))))).
  - pose proof (len_nonneg P). lia.
  - split; (split; [num; lra|split; [intros; lia|left; reflexivity]]).
  - intros i [w d] Hi [(W1 & W2 & W3) (D1 & D2 & D3)]. wget AP. rewrite ToXYZ_div by (apply heavy_aeq; apply HP; lia). cbn [bind].
    rewrite Length_eq. cbn [bind wp]. fold (proj (pt P i)). unfold nmin, nmax. num. split.
    + destruct (Rltb_spec (ww (pt P i)) w) as [H|H].
      * split; [lra|]. split; [|right; exists i; split; [lia|reflexivity]]. intros k Hk. destruct (Z.eq_dec k i) as [->|]; [lra|]. specialize (W2 k ltac:(lia)). lra.
      * split; [lra|]. split; [|destruct W3 as [W3|(k & Hk & W3)]; [left; exact W3|right; exists k; split; [lia|exact W3]]]. intros k Hk. destruct (Z.eq_dec k i) as [->|]; [lra|]. apply W2. lia.
    + destruct (Rltb_spec d (norm3 (proj (pt P i)))) as [H|H].
      * split; [lra|]. split; [|right; exists i; split; [lia|reflexivity]]. intros k Hk. destruct (Z.eq_dec k i) as [->|]; [lra|]. specialize (D2 k ltac:(lia)). lra.
      * split; [lra|]. split; [|destruct D3 as [D3|(k & Hk & D3)]; [left; exact D3|right; exists k; split; [lia|exact D3]]]. intros k Hk. destruct (Z.eq_dec k i) as [->|]; [lra|]. apply D2. lia.
  - intros [w d] [HW HD]. num. pose proof (proj1 HD) as D1. rewrite (Rabs_pos_eq d) by exact D1. rewrite Rdiv_ok by lra. cbn [wp].
    exists w, d. split; [exact HW|]. split; [exact HD|]. unfold DistanceEpsilon. num. reflexivity.
Qed.

Lemma modify_tolerance_pos P e : heavy P -> modify_tolerance P e -> (0 < e)%R.
Proof.
  intros HP (w & d & (W1 & W2 & W3) & (D1 & D2 & D3) & ->). assert (0 < w)%R.
  { destruct W3 as [->|(i & Hi & ->)]; [lra|]. specialize (HP i Hi). pose proof (tol_pos (ww (pt P i)) 0). lra. }
  apply Rdiv_lt_0_compat; lra.
Qed.

(** * Bezier curves *)

Lemma NS_bern U a b p t : (a < b)%R -> (forall i, 0 <= i <= 2 * p + 1 -> U i = if i <=? p then a else b) ->
  forall d, 0 <= d -> d <= p -> forall m, NS U p d (p - d + m) t = bern d m ((t - a) / (b - a))%R.
Proof.
  intros Hab HU. apply (Zrange_ind 0 (fun d => d <= p -> forall m, NS U p d (p - d + m) t = bern d m ((t - a) / (b - a))%R)).
  - intros Hp m. rewrite NS_0. unfold bern. destruct (Z.eqb_spec (p - 0 + m) p).
    + assert (m = 0) as -> by lia. cbn. rewrite Cb_0 by lia. ring.
    + destruct (Z.leb_spec 0 m), (Z.leb_spec m 0); cbn [andb]; try reflexivity; lia.
  - intros d Hd IH Hp m. destruct (Z_lt_dec m 0) as [H|H]; [rewrite NS_out, bern_out by lia; reflexivity|].
    destruct (Z_lt_dec (d + 1) m) as [H'|H']; [rewrite NS_out, bern_out by lia; reflexivity|].
    rewrite NS_succ by lia. replace (d + 1 - 1) with d by lia.
    assert (I1 : NS U p d (p - (d + 1) + m) t = bern d (m - 1) ((t - a) / (b - a))%R) by (rewrite <- IH by lia; f_equal; lia).
    assert (I2 : NS U p d (p - (d + 1) + m + 1) t = bern d m ((t - a) / (b - a))%R) by (rewrite <- IH by lia; f_equal; lia).
    rewrite I1, I2. rewrite (bern_rec (d + 1)) by lia. replace (d + 1 - 1) with d by lia. replace (p - (d + 1) + m + 1) with (p - d + m) by lia.
    assert (E1 : (sdiv (t - U (p - (d + 1) + m)%Z) (U (p - (d + 1) + m + (d + 1))%Z - U (p - (d + 1) + m)%Z) * bern d (m - 1) ((t - a) / (b - a)) =
                  (t - a) / (b - a) * bern d (m - 1) ((t - a) / (b - a)))%R).
    { destruct (Z.eq_dec m 0) as [->|Hm]; [rewrite (bern_out d (0 - 1)) by lia; ring|]. f_equal. rewrite !HU by lia. rewrite (proj2 (Z.leb_le _ _)) by lia. rewrite (proj2 (Z.leb_gt _ _)) by lia.
      unfold sdiv. destruct (Req_EM_T (b - a) 0); [lra|reflexivity]. }
    assert (E2 : (sdiv (U (p - (d + 1) + m + (d + 1) + 1)%Z - t) (U (p - (d + 1) + m + (d + 1) + 1)%Z - U (p - d + m)%Z) * bern d m ((t - a) / (b - a)) =
                  (1 - (t - a) / (b - a)) * bern d m ((t - a) / (b - a)))%R).
    { destruct (Z.eq_dec m (d + 1)) as [->|Hm]; [rewrite (bern_out d (d + 1)) by lia; ring|]. f_equal. rewrite !HU by lia. rewrite (proj2 (Z.leb_gt _ _)) by lia. rewrite (proj2 (Z.leb_le _ _)) by lia.
      unfold sdiv. destruct (Req_EM_T (b - a) 0); [lra|field; lra]. }
    rewrite E1, E2. ring.
Qed.

Section Bez.
Context {T : Type} {V : Vec R T} {L : VecL T}.

Lemma bezier_val p U i : curve_knots p p U -> clamped_knots p p U -> 0 <= i <= 2 * p + 1 -> val U i = if i <=? p then val U p else val U (p + 1).
Proof.
  intros [Hp _ HL HS _ _] [C0 C1] Hi. destruct (Z.leb_spec i p).
  - pose proof (HS 0 i ltac:(lia) ltac:(lia) ltac:(lia)). pose proof (HS i p ltac:(lia) ltac:(lia) ltac:(lia)). lra.
  - pose proof (HS (p + 1) i ltac:(lia) ltac:(lia) ltac:(lia)). pose proof (HS i (p + p + 1) ltac:(lia) ltac:(lia) ltac:(lia)). lra.
Qed.

Lemma bezier_curve p U (P : list T) s : curve_knots p p U -> clamped_knots p p U -> in_domain p p U s ->
  curve_point p p U P s = comb 0 (p + 1) (fun i => bern p i ((s - val U p) / (val U (p + 1) - val U p))%R) (pt P).
Proof.
  intros HU Hcl Hs. destruct (find_span p p U s HU Hs) as (k & _ & Hk). assert (k = p) as -> by (destruct Hk; lia).
  rewrite (curve_point_span _ _ _ _ _ _ HU Hk). unfold span_curve. replace (p - p) with 0 by lia. apply comb_ext. intros i Hi. split; [|reflexivity].
  pose proof (ck_p _ _ _ HU). destruct Hk as (_ & Hlt & _).
  pose proof (NS_bern (val U) (val U p) (val U (p + 1)) p s Hlt (fun i => bezier_val p U i HU Hcl) p ltac:(lia) ltac:(lia) i) as E.
  replace (p - p + i) with i in E by lia. exact E.
Qed.

Definition raised p (q : Z -> T) i := vadd (vscale (IZR i / IZR p)%R (q (i - 1))) (vscale (1 - IZR i / IZR p)%R (q i)).

Lemma bern_raise p x (q : Z -> T) : 1 <= p -> comb 0 p (fun i => bern (p - 1) i x) q = comb 0 (p + 1) (fun i => bern p i x) (raised p q).
Proof.
  intros Hp. apply co_ext. intros k. rewrite !co_comb. assert (HpR : (0 < IZR p)%R) by (apply IZR_lt; lia).
  rewrite (rsum_ext 0 (p + 1) _ (fun i => (bern p i x * (IZR i / IZR p) * co k (q (i - 1)%Z) + bern p i x * (1 - IZR i / IZR p) * co k (q i))%R)).
  2:{ intros i Hi. unfold raised. rewrite co_add, !co_scale. ring. }
  rewrite rsum_plus. rewrite (rsum_first 0 (p + 1)) by lia. rewrite (rsum_last 0 p) by lia.
  rewrite (rsum_shift (-1) (0 + 1) (p + 1)). replace (0 + 1 + -1) with 0 by lia. replace (p + 1 + -1) with p by lia.
  replace (1 - IZR p / IZR p)%R with 0%R by (field; lra). replace (IZR 0 / IZR p)%R with 0%R by (field; lra).
  match goal with |- _ = (_ + ?a + (?b + _))%R => transitivity (a + b)%R; [|ring] end. rewrite <- rsum_plus. apply rsum_ext. intros i Hi.
  replace (i - -1 - 1) with i by lia. replace (i - -1) with (i + 1) by lia.
  enough (E : (bern (p - 1) i x = bern p (i + 1) x * (IZR (i + 1) / IZR p) + bern p i x * (1 - IZR i / IZR p))%R) by (rewrite E; ring).
  rewrite !bern_in by lia. pose proof (Cb_down p i ltac:(lia)) as E1. pose proof (Cb_down' p (i + 1) ltac:(lia)) as E2. replace (i + 1 - 1) with i in E2 by lia.
  rewrite minus_IZR in E1. set (c := Cb (p - 1) i) in *. set (c1 := Cb p (i + 1)) in *. set (c0 := Cb p i) in *.
  replace (Z.to_nat (i + 1)) with (S (Z.to_nat i)) by lia. replace (Z.to_nat (p - i)) with (S (Z.to_nat (p - 1 - i))) by lia. replace (Z.to_nat (p - (i + 1))) with (Z.to_nat (p - 1 - i)) by lia. cbn [pow].
  set (u := (x ^ Z.to_nat i)%R). set (v := ((1 - x) ^ Z.to_nat (p - 1 - i))%R).
  replace (c1 * (x * u) * v * (IZR (i + 1) / IZR p))%R with (c1 * IZR (i + 1) * (x * u * v) / IZR p)%R by (field; lra). rewrite E2.
  replace (c0 * u * ((1 - x) * v) * (1 - IZR i / IZR p))%R with (c0 * (IZR p - IZR i) * (u * ((1 - x) * v)) / IZR p)%R by (field; lra). rewrite E1. field. lra.
Qed.

Lemma comb_dir lo hi w (E : Z -> T) (d : Z -> R) D : comb lo hi w (fun i => vadd (E i) (vscale (d i) D)) = vadd (comb lo hi w E) (vscale (rsum lo hi (fun i => w i * d i)%R) D).
Proof.
  apply co_ext. intros k. rewrite co_add, co_scale, !co_comb. rewrite Rmult_comm, <- rsum_scal, <- rsum_plus. apply rsum_ext. intros i Hi. rewrite co_add, co_scale. ring.
Qed.
End Bez.

(** * The largest value of the deviation *)

Lemma half_max x m : (0 <= x <= 1)%R -> (x ^ m * (1 - x) ^ m <= (1 / 2) ^ m * (1 - 1 / 2) ^ m)%R.
Proof.
  intros Hx. rewrite <- !Rpow_mult_distr. apply pow_incr. split; [apply Rmult_le_pos; lra|]. pose proof (Rle_0_sqr (x - 1 / 2)). unfold Rsqr in H. nra.
Qed.

(* z (1-z)^N is largest at 1/(N+1) *)
Lemma tilt_max N z : (0 <= z <= 1)%R -> ((1 - z) ^ N * z <= (1 - / (INR N + 1)) ^ N * / (INR N + 1))%R.
Proof.
  intros Hz. set (n := INR N). assert (Hn : (0 <= n)%R) by apply pos_INR. assert (H1 : (0 < / (n + 1))%R) by (apply Rinv_0_lt_compat; lra).
  assert (EA : (1 - / (n + 1) = n / (n + 1))%R) by (field; lra).
  destruct (Req_EM_T z 1) as [->|Hz1].
  { replace (1 - 1)%R with 0%R by ring. destruct N as [|N].
    - unfold n. cbn. rewrite Rplus_0_l, Rinv_1. lra.
    - rewrite pow_i by lia. rewrite Rmult_0_l. apply Rmult_le_pos; [|lra]. apply pow_le. rewrite EA. apply Rmult_le_pos; lra. }
  set (q := (1 - z)%R). assert (Hq : (0 < q <= 1)%R) by (unfold q; lra). set (A := (1 - / (n + 1))%R) in *.
  assert (HA : (0 <= A)%R) by (rewrite EA; apply Rmult_le_pos; lra).
  destruct N as [|N].
  { cbn [pow]. unfold n. cbn. rewrite Rplus_0_l, Rinv_1. unfold q in *. lra. }
  assert (B : (1 + n * (A / q - 1) <= (A / q) ^ S N)%R).
  { destruct (Rle_lt_dec A 0) as [H|H].
    - assert (HA0 : A = 0%R) by lra. rewrite HA0. unfold Rdiv. rewrite Rmult_0_l. rewrite pow_i by lia. assert (1 <= n)%R by (unfold n; rewrite S_INR; pose proof (pos_INR N); lra). lra.
    - assert (Haq : (0 < A / q)%R) by (apply Rdiv_lt_0_compat; lra).
      (* Bernoulli for h > -1 *)
      assert (Bern : forall k h, (-1 < h)%R -> (1 + INR k * h <= (1 + h) ^ k)%R).
      { intros k h Hh. induction k as [|k IH]; [cbn; lra|]. rewrite S_INR. cbn [pow].
        assert ((1 + h) * (1 + INR k * h) <= (1 + h) * (1 + h) ^ k)%R by (apply Rmult_le_compat_l; lra). pose proof (pos_INR k). pose proof (Rle_0_sqr h). unfold Rsqr in *. nra. }
      specialize (Bern (S N) (A / q - 1)%R ltac:(lra)). replace (1 + (A / q - 1))%R with (A / q)%R in Bern by ring. exact Bern. }
  assert (C : ((n + 1) * z <= 1 + n * (A / q - 1))%R).
  { rewrite EA. unfold q in *. apply (Rmult_le_reg_r ((n + 1) * (1 - z))); [apply Rmult_lt_0_compat; lra|].
    replace ((1 + n * (n / (n + 1) / (1 - z) - 1)) * ((n + 1) * (1 - z)))%R with ((1 - n) * ((n + 1) * (1 - z)) + n * n)%R by (field; lra).
    pose proof (Rle_0_sqr (n - (n + 1) * (1 - z))). unfold Rsqr in H. nra. }
  replace (A ^ S N)%R with ((A / q) ^ S N * q ^ S N)%R by (rewrite <- Rpow_mult_distr; f_equal; field; lra).
  assert (0 < q ^ S N)%R by (apply pow_lt; lra).
  apply (Rmult_le_reg_l (n + 1)); [lra|]. replace ((n + 1) * ((A / q) ^ S N * q ^ S N * / (n + 1)))%R with (q ^ S N * (A / q) ^ S N)%R by (field; lra).
  replace ((n + 1) * (q ^ S N * z))%R with (q ^ S N * ((n + 1) * z))%R by ring. apply Rmult_le_compat_l; lra.
Qed.

Lemma odd_max x r u : (0 <= x <= 1)%R -> u = ((IZR (2 * Z.of_nat r + 1) - sqrt (IZR (2 * Z.of_nat r + 1))) / IZR (2 * (2 * Z.of_nat r + 1)))%R ->
  (x ^ r * (1 - x) ^ r * Rabs (1 - 2 * x) <= u ^ r * (1 - u) ^ r * (1 - 2 * u) /\ 0 <= u <= 1 / 2)%R.
Proof.
  intros Hx Hu. set (p := IZR (2 * Z.of_nat r + 1)) in *. assert (Hp : (1 <= p)%R) by (apply IZR_le; lia).
  assert (Ep : p = (INR (2 * r) + 1)%R) by (unfold p; rewrite INR_IZR_INZ, plus_IZR; do 2 f_equal; lia).
  rewrite mult_IZR in Hu. fold p in Hu. set (s := sqrt p) in *. assert (Hs : (s * s = p)%R) by (apply sqrt_sqrt; lra).
  assert (Hs1 : (1 <= s)%R) by (unfold s; rewrite <- sqrt_1; apply sqrt_le_1; lra).
  assert (Eu : (1 - 2 * u = s / p)%R) by (rewrite Hu; field; lra). assert (E1 : (s / p = / s)%R) by (rewrite <- Hs; field; lra).
  assert (Hi : (0 < / s <= 1)%R) by (split; [apply Rinv_0_lt_compat; lra|rewrite <- Rinv_1; apply Rinv_le_contravar; lra]).
  split; [|lra].
  assert (Hz : (0 <= (1 - 2 * x) * (1 - 2 * x) <= 1)%R).
  { pose proof (Rle_0_sqr (1 - 2 * x)) as Q1. unfold Rsqr in Q1. assert (Q2 : (0 <= x * (1 - x))%R) by (apply Rmult_le_pos; lra).
    split; [exact Q1|]. replace ((1 - 2 * x) * (1 - 2 * x))%R with (1 - 4 * (x * (1 - x)))%R by ring. lra. }
  pose proof (tilt_max (2 * r) _ Hz) as HM. rewrite <- Ep in HM.
  assert (Sq : forall y, ((y ^ r * (1 - y) ^ r) * (y ^ r * (1 - y) ^ r) = (/ 4) ^ (2 * r) * (1 - (1 - 2 * y) * (1 - 2 * y)) ^ (2 * r))%R).
  { intros y. rewrite <- !Rpow_mult_distr. replace (2 * r)%nat with (r + r)%nat by lia. rewrite pow_add. rewrite <- Rpow_mult_distr. f_equal. field. }
  assert (HF : (0 <= u ^ r * (1 - u) ^ r * (1 - 2 * u))%R) by (apply Rmult_le_pos; [apply Rmult_le_pos; apply pow_le; lra|lra]).
  apply Rsqr_incr_0_var; [|exact HF]. unfold Rsqr.
  replace (x ^ r * (1 - x) ^ r * Rabs (1 - 2 * x) * (x ^ r * (1 - x) ^ r * Rabs (1 - 2 * x)))%R with ((x ^ r * (1 - x) ^ r) * (x ^ r * (1 - x) ^ r) * (Rabs (1 - 2 * x) * Rabs (1 - 2 * x)))%R by ring.
  replace (u ^ r * (1 - u) ^ r * (1 - 2 * u) * (u ^ r * (1 - u) ^ r * (1 - 2 * u)))%R with ((u ^ r * (1 - u) ^ r) * (u ^ r * (1 - u) ^ r) * ((1 - 2 * u) * (1 - 2 * u)))%R by ring.
  rewrite !Sq. rewrite <- Rabs_mult, (Rabs_pos_eq ((1 - 2 * x) * (1 - 2 * x))) by lra. rewrite Eu. replace (s / p * (s / p))%R with (/ p)%R by (rewrite <- Hs; field; lra).
  rewrite !Rmult_assoc. apply Rmult_le_compat_l; [apply pow_le; lra|]. exact HM.
Qed.

(** * Polynomials that vanish *)

Lemma vanish_nat n : forall a : nat -> R, (forall y, (0 < y < 1)%R -> sum_f_R0 (fun i => a i * y ^ i)%R n = 0%R) -> forall i, (i <= n)%nat -> a i = 0%R.
Proof.
  induction n as [|n IH]; intros a H i Hi.
  - replace i with O by lia. specialize (H (1 / 2)%R ltac:(lra)). cbn in H. lra.
  - assert (E : forall y, sum_f_R0 (fun i => a i * y ^ i)%R (S n) = (a O + y * sum_f_R0 (fun i => a (S i) * y ^ i)%R n)%R).
    { intros y. rewrite decomp_sum by lia. cbn [pow pred]. rewrite scal_sum. rewrite Rmult_1_r. f_equal. apply sum_eq. intros j _. ring. }
    set (M := sum_f_R0 (fun i => Rabs (a (S i))) n).
    assert (B : forall y, (0 < y < 1)%R -> (Rabs (sum_f_R0 (fun i => a (S i) * y ^ i)%R n) <= M)%R).
    { intros y Hy. eapply Rle_trans; [apply Rsum_abs|]. apply sum_Rle. intros j _. rewrite Rabs_mult. rewrite <- (Rmult_1_r (Rabs (a (S j)))) at 2.
      apply Rmult_le_compat_l; [apply Rabs_pos|]. rewrite Rabs_pos_eq by (apply pow_le; lra). rewrite <- (pow1 j). apply pow_incr. lra. }
    assert (HM : (0 <= M)%R) by (eapply Rle_trans; [apply Rabs_pos|apply (B (1 / 2)%R); lra]).
    assert (A0 : a O = 0%R).
    { destruct (Req_EM_T (a O) 0) as [|N0]; [assumption|exfalso]. assert (Hp : (0 < Rabs (a O))%R) by (apply Rabs_pos_lt; exact N0).
      set (y := (Rabs (a O) / (2 * (Rabs (a O) + M + 1)))%R).
      assert (Hy : (0 < y < 1)%R).
      { unfold y. split; [apply Rdiv_lt_0_compat; lra|]. apply (Rmult_lt_reg_r (2 * (Rabs (a O) + M + 1))); [lra|]. unfold Rdiv. rewrite Rmult_assoc, Rinv_l by lra. lra. }
      pose proof (H y Hy) as H1. rewrite E in H1. assert (E1 : (Rabs (a O) = y * Rabs (sum_f_R0 (fun i => a (S i) * y ^ i)%R n))%R).
      { replace (a O) with (- (y * sum_f_R0 (fun i => a (S i) * y ^ i)%R n))%R by lra. rewrite Rabs_Ropp, Rabs_mult, (Rabs_pos_eq y) by lra. reflexivity. }
      assert (E2 : (Rabs (a O) <= y * M)%R) by (rewrite E1; apply Rmult_le_compat_l; [lra|apply B; exact Hy]).
      assert (E3 : (y * (2 * (Rabs (a O) + M + 1)) = Rabs (a O))%R) by (unfold y; field; lra).
      assert (0 <= y * M)%R by (apply Rmult_le_pos; lra). assert (0 < y * (Rabs (a O) + 1))%R by (apply Rmult_lt_0_compat; lra). lra. }
    destruct i as [|i]; [exact A0|]. apply (IH (fun i => a (S i))); [|lia]. intros y Hy. pose proof (H y Hy) as H1. rewrite E, A0 in H1.
    apply (Rmult_eq_reg_l y); lra.
Qed.

Lemma rsum_nat n : forall f, rsum 0 (Z.of_nat n + 1) f = sum_f_R0 (fun i => f (Z.of_nat i)) n.
Proof.
  induction n as [|n IH]; intros f; [change (Z.of_nat 0 + 1) with (0 + 1); rewrite (rsum_one 0); reflexivity|]. rewrite rsum_last by lia. replace (Z.of_nat (S n)) with (Z.of_nat n + 1) by lia. rewrite IH. cbn [sum_f_R0]. f_equal. f_equal. lia.
Qed.

(* the Bernstein polynomials are independent *)
Lemma bern_indep p c : 0 <= p -> (forall x, (0 < x < 1)%R -> rsum 0 (p + 1) (fun i => bern p i x * c i)%R = 0%R) -> forall i, 0 <= i <= p -> c i = 0%R.
Proof.
  intros Hp H i Hi. set (n := Z.to_nat p). assert (Ep : p = Z.of_nat n) by lia.
  assert (K : forall j, (j <= n)%nat -> (Cb p (Z.of_nat j) * c (Z.of_nat j) = 0)%R).
  { apply (vanish_nat n (fun j => (Cb p (Z.of_nat j) * c (Z.of_nat j))%R)). intros y Hy.
    assert (Hd : (0 < 1 + y)%R) by lra. set (x := (y / (1 + y))%R).
    assert (Hx : (0 < x < 1)%R). { unfold x. split; [apply Rdiv_lt_0_compat; lra|]. apply (Rmult_lt_reg_r (1 + y)); [lra|]. unfold Rdiv. rewrite Rmult_assoc, Rinv_l by lra. lra. }
    specialize (H x Hx). assert (Hq : ((1 - x) ^ n <> 0)%R) by (apply pow_nonzero; lra). apply (Rmult_eq_reg_r ((1 - x) ^ n)%R); [|exact Hq]. rewrite Rmult_0_l, <- H, Ep, rsum_nat, Rmult_comm, scal_sum.
    apply sum_eq. intros j Hj. rewrite bern_in by lia. rewrite <- Ep.
    replace (Z.to_nat (Z.of_nat j)) with j by lia. replace (Z.to_nat (p - Z.of_nat j)) with (n - j)%nat by lia.
    replace ((1 - x) ^ n)%R with ((1 - x) ^ j * (1 - x) ^ (n - j))%R by (rewrite <- pow_add; f_equal; lia).
    replace (x ^ j)%R with (y ^ j * (1 - x) ^ j)%R by (rewrite <- Rpow_mult_distr; f_equal; unfold x; field; lra). ring. }
  specialize (K (Z.to_nat i) ltac:(lia)). replace (Z.of_nat (Z.to_nat i)) with i in K by lia. pose proof (Cb_pos p i ltac:(lia)).
  apply Rmult_integral in K. destruct K; lra.
Qed.

(** * Solving for the points *)

Section Solve.
Variables (p : Z) (P : list (XYZW R)).
Hypothesis Hp : 2 <= p.
Hypothesis HP : len P = p + 1.
Let al (i : Z) : R := (IZR i / IZR p)%R.

Lemma pR : (0 < IZR p)%R. Proof. apply IZR_lt. lia. Qed.
Lemma al_in i : 1 <= i <= p - 1 -> (0 < al i < 1)%R.
Proof.
  intros Hi. pose proof pR. assert (0 < IZR i)%R by (apply IZR_lt; lia). assert (IZR i < IZR p)%R by (apply IZR_lt; lia). unfold al.
  split; [apply Rdiv_lt_0_compat; lra|]. apply (Rmult_lt_reg_r (IZR p)); [lra|]. unfold Rdiv. rewrite Rmult_assoc, Rinv_l by lra. lra.
Qed.

Lemma left_ok A Q g i : arr A p al -> arr Q p g -> 1 <= i <= p - 1 ->
  wp (let! ci := get P i in let! ai := get A i in let! x := get Q (i - 1) in
      xyzw_div (xyzw_sub ci (xyzw_scale ai x)) (nsub n1 ai))
     (fun x => pt P i = vadd (vscale (al i) (g (i - 1))) (vscale (1 - al i)%R x)).
Proof.
  intros HA HQ Hi. pose proof (arr_pt P _ HP) as AP. pose proof (al_in i Hi). wget AP. wget HA. wget HQ. unfold xyzw_div. num. rewrite !Rdiv_ok by lra. cbn [bind wp].
  destruct (pt P i) as [x y z w], (g (i - 1)) as [x' y' z' w']. cbn [vadd vscale Vec_XYZW]. unfold xyzw_add, xyzw_scale, xyzw_sub. cbn. num. f_equal; field; lra.
Qed.

Lemma right_ok A Q g i : arr A p al -> arr Q p g -> 0 <= i <= p - 2 ->
  wp (let! ci := get P (i + 1) in let! ai := get A (i + 1) in let! x := get Q (i + 1) in
      xyzw_div (xyzw_sub ci (xyzw_scale (nsub n1 ai) x)) ai)
     (fun x => pt P (i + 1) = vadd (vscale (al (i + 1)) x) (vscale (1 - al (i + 1))%R (g (i + 1)))).
Proof.
  intros HA HQ Hi. pose proof (arr_pt P _ HP) as AP. pose proof (al_in (i + 1) ltac:(lia)). wget AP. wget HA. wget HQ. unfold xyzw_div. num. rewrite !Rdiv_ok by lra. cbn [bind wp].
  destruct (pt P (i + 1)) as [x y z w], (g (i + 1)) as [x' y' z' w']. cbn [vadd vscale Vec_XYZW]. unfold xyzw_add, xyzw_scale, xyzw_sub. cbn. num. f_equal; field; lra.
Qed.

(* solved from the left up to l, from the right down to h *)
Definition solved l h (g : Z -> XYZW R) :=
  g 0 = pt P 0 /\ g (p - 1) = pt P p /\ (forall i, 1 <= i < l -> pt P i = raised p g i) /\ (forall i, h < i <= p - 2 -> pt P (i + 1) = raised p g (i + 1)).

Lemma lefts_ok A Q g l : arr A p al -> arr Q p g -> 1 <= l <= p - 1 -> solved 1 (p - 2) g ->
  wp (for_up 1 l Q (fun i Q => let! x := (let! ci := get P i in let! ai := get A i in let! x := get Q (i - 1) in
      xyzw_div (xyzw_sub ci (xyzw_scale ai x)) (nsub n1 ai)) in upd Q i x)) (fun Q => exists g, arr Q p g /\ solved l (p - 2) g).
Proof.
  intros HA HQ Hl Hs. apply wp_for_up with (P := fun l Q => exists g, arr Q p g /\ solved l (p - 2) g); [lia|exists g; auto| |auto].
  clear Q g HQ Hs. intros i Q Hi (g & HQ & S0 & S1 & SL & SR). apply wp_bind. eapply wp_mono; [apply (left_ok A Q g i); auto; lia|]. intros x Hx. cbv beta in Hx.
  assert (E : exists Q', upd Q i x = Ok Q' /\ arr Q' p (fun k => if k =? i then x else g k)).
  { assert (W : wp (upd Q i x) (fun Q' => arr Q' p (fun k => if k =? i then x else g k))) by (wupd HQ; auto). destruct (wp_elim _ _ W) as (Q' & E & A'). exists Q'. auto. }
  destruct E as (Q' & -> & A'). cbn [wp]. eexists. split; [exact A'|]. unfold solved. rewrite !(proj2 (Z.eqb_neq _ _)) by lia. split; [exact S0|]. split; [exact S1|].
  split; [|intros; lia]. intros j Hj. unfold raised. rewrite (proj2 (Z.eqb_neq (j - 1) i)) by lia. destruct (Z.eqb_spec j i) as [->|]; [exact Hx|]. apply SL. lia.
Qed.

Lemma rights_ok A Q g l h : arr A p al -> arr Q p g -> 1 <= l -> l <= h -> 1 <= h <= p - 1 -> solved l (p - 2) g ->
  wp (for_down (p - 2) h Q (fun i Q => let! x := (let! ci := get P (i + 1) in let! ai := get A (i + 1) in let! x := get Q (i + 1) in
      xyzw_div (xyzw_sub ci (xyzw_scale (nsub n1 ai) x)) ai) in upd Q i x)) (fun Q => exists g, arr Q p g /\ solved l (h - 1) g).
Proof.
  intros HA HQ Hl Hlh Hh Hs. apply wp_for_down' with (P := fun h Q => exists g, arr Q p g /\ solved l h g); [exists g; auto| |].
  2:{ intros s H. replace (Z.min (p - 2) (h - 1)) with (h - 1) in H by lia. exact H. }
  clear Q g HQ Hs. intros i Q Hi (g & HQ & S0 & S1 & SL & SR). apply wp_bind. eapply wp_mono; [apply (right_ok A Q g i); auto; lia|]. intros x Hx. cbv beta in Hx.
  assert (E : exists Q', upd Q i x = Ok Q' /\ arr Q' p (fun k => if k =? i then x else g k)).
  { assert (W : wp (upd Q i x) (fun Q' => arr Q' p (fun k => if k =? i then x else g k))) by (wupd HQ; auto). destruct (wp_elim _ _ W) as (Q' & E & A'). exists Q'. auto. }
  destruct E as (Q' & -> & A'). cbn [wp]. eexists. split; [exact A'|]. unfold solved. rewrite !(proj2 (Z.eqb_neq _ _)) by lia. split; [exact S0|]. split; [exact S1|]. split.
  - intros j Hj. unfold raised. rewrite !(proj2 (Z.eqb_neq _ i)) by lia. apply SL. exact Hj.
  - intros j Hj. unfold raised. replace (j + 1 - 1) with j by lia. rewrite (proj2 (Z.eqb_neq (j + 1) i)) by lia. destruct (Z.eqb_spec j i) as [->|]; [exact Hx|].
    rewrite SR by lia. unfold raised. do 3 f_equal. lia.
Qed.

Definition norm4 (a : XYZW R) : R := sqrt (wx a ^ 2 + wy a ^ 2 + wz a ^ 2 + ww a ^ 2).

(* the points q determine P up to a multiple of D *)
Definition split_at (q : Z -> XYZW R) (d : Z -> R) D :=
  q 0 = pt P 0 /\ q (p - 1) = pt P p /\ forall i, 0 <= i <= p -> pt P i = vadd (raised p q i) (vscale (d i) D).

Definition even_error r D : R := (norm4 D * (Cb p (r + 1) * (1 / 2) ^ Z.to_nat (r + 1) * (1 - 1 / 2) ^ Z.to_nat (p - r - 1)))%R.
Definition max_u : R := ((IZR p - sqrt (IZR p)) / IZR (2 * p))%R.
Definition odd_error r D : R := (norm4 D * (1 - al r) * (Cb p r * max_u ^ Z.to_nat r * (1 - max_u) ^ Z.to_nat (r + 1) * (1 - 2 * max_u)))%R.

(* what the solver yields *)
Definition outcome q e D : Prop :=
  exists r, (p = 2 * r + 2 /\ split_at q (fun i => if i =? r + 1 then 1%R else 0%R) D /\ e = even_error r D) \/
            (p = 2 * r + 1 /\ split_at q (fun i => if i =? r then (1 - al r)%R else if i =? r + 1 then (- (1 - al r))%R else 0%R) D /\ e = odd_error r D).

Lemma raised_0 q : raised p q 0 = q 0.
Proof. unfold raised. pose proof pR. replace (IZR 0 / IZR p)%R with 0%R by (field; lra). destruct (q (0 - 1)), (q 0). cbn [vadd vscale Vec_XYZW]. unfold xyzw_add, xyzw_scale. cbn. num. f_equal; ring. Qed.
Lemma raised_p q : raised p q p = q (p - 1).
Proof. unfold raised. pose proof pR. replace (IZR p / IZR p)%R with 1%R by (field; lra). destruct (q (p - 1)), (q p). cbn [vadd vscale Vec_XYZW]. unfold xyzw_add, xyzw_scale. cbn. num. f_equal; ring. Qed.

Lemma vadd_scale_0 (a D : XYZW R) : a = vadd a (vscale 0%R D).
Proof. destruct a, D. cbn [vadd vscale Vec_XYZW]. unfold xyzw_add, xyzw_scale. cbn. num. f_equal; ring. Qed.
End Solve.

Lemma dist4_norm (a b D : XYZW R) s : (a = vadd b (vscale s D)) -> dist4 a b = (Rabs s * norm4 D)%R.
Proof.
  intros ->. unfold dist4, norm4. destruct b, D. cbn. num. rewrite <- sqrt_Rsqr_abs, <- sqrt_mult_alt by apply Rle_0_sqr. f_equal. unfold Rsqr. ring.
Qed.

Lemma xyzw_Distance_eq a b : xyzw_Distance a b = Ok (dist4 a b).
Proof.
  unfold xyzw_Distance, dist4. num. apply Rsqrt_ok.
  assert (forall x : R, 0 <= x ^ 2)%R by (intros x; rewrite <- Rsqr_pow2; apply Rle_0_sqr).
  pose proof (H (wx b - wx a)%R). pose proof (H (wy b - wy a)%R). pose proof (H (wz b - wz a)%R). pose proof (H (ww b - ww a)%R). lra.
Qed.

Lemma ReduceDegree_core p U P : 2 <= p -> len P = p + 1 -> heavy P ->
  wp (ReduceDegree (mkCurve p U P)) (fun o => exists tl Q e D g, modify_tolerance P tl /\ arr Q p g /\ outcome p P g e D /\
    o = if Rltb tl e then None else Some (mkCurve (p - 1) (fold_left (fun v '(u, count) => v ++ repeat u (Z.to_nat (count - 1))) (GetKnotMultiplicityMap U) []) Q)).
Proof.
  intros Hp HP HH. unfold ReduceDegree. cbn [Degree KnotVector ControlPoints]. apply wp_bind. eapply wp_mono; [apply tolerance_ok; exact HH|]. intros tl Htl.
  unfold IsValidBezier. rewrite HP, Z.eqb_refl. cbn [negb]. set (r := Z.quot (p - 1) 2). assert (Er : r = (p - 1) / 2) by (apply Z.quot_div_nonneg; lia).
  pose proof (arr_pt P _ HP) as AP. pose proof (pR p Hp) as HpR.
  apply wp_bind. apply wp_mkvec; [lia|]. intros Q0 AQ. cbv beta. wget AP. wupd AQ. intros Q1 A1. wget AP. wupd A1. intros Q2 A2.
  apply wp_bind. apply wp_mkvec; [lia|]. intros al0 Aal. apply wp_bind. cbv beta.
  apply (wp_fill_all p (fun i => (IZR i / IZR p)%R)); [lia|apply Aal|intros i v Hi Hv; num; rewrite Rdiv_ok by lra; reflexivity|]. intros A HA.
  num. rewrite (Rdiv_ok 1 2) by lra. cbn [bind]. set (g0 := fun k => if k =? p - 1 then pt P p else if k =? 0 then pt P 0 else xyzw0) in *.
  assert (A2' : arr Q2 p g0) by (eapply arr_ext; [exact A2|]; intros i Hi; cbv beta; unfold g0; destruct (Z.eqb_spec i (p - 1)), (Z.eqb_spec i 0); reflexivity).
  assert (S0 : solved p P 1 (p - 2) g0).
  { unfold solved, g0. rewrite !Z.eqb_refl. destruct (Z.eqb_spec 0 (p - 1)); [lia|]. split; [reflexivity|]. split; [reflexivity|]. split; intros; lia. }
  apply wp_bind. eapply wp_mono with (P := fun '(Q, e) => exists D g, arr Q p g /\ outcome p P g e D).
  2:{ intros [Q e] (D & g & AQ' & HO). cbn [wp]. destruct (Rltb tl e) eqn:E; cbn [wp]; exists tl, Q, e, D, g; rewrite E; auto. }
  clear Q0 AQ Q1 A1 al0 Aal A2 tl Htl.
  assert (Hr : (Z.rem p 2 =? 0) = (p mod 2 =? 0)) by (rewrite Z.rem_mod_nonneg by lia; reflexivity). rewrite Hr. clear Hr. pose proof (Z.div_mod p 2 ltac:(lia)). pose proof (Z.mod_pos_bound p 2 ltac:(lia)).
  destruct (Z.eqb_spec (p mod 2) 0) as [Ev|Od].
  - assert (Ep : p = 2 * r + 2). { rewrite Er. pose proof (Z.div_mod (p - 1) 2 ltac:(lia)). pose proof (Z.mod_pos_bound (p - 1) 2 ltac:(lia)). lia. }
    clear Er. clearbody r. apply wp_bind. eapply wp_mono; [apply (lefts_ok p P Hp HP A Q2 g0 (r + 1)); auto; lia|]. intros Q3 (g3 & A3 & S3).
    apply wp_bind. eapply wp_mono; [apply (rights_ok p P Hp HP A Q3 g3 (r + 1) (r + 1)); auto; lia|]. intros Q4 (g4 & A4 & S4). cbv beta.
    wget AP. wget A4. wget A4. rewrite xyzw_Distance_eq. cbn [bind]. rewrite Binomial_ok by lia. cbn [bind wp].
    set (D := vsub (pt P (r + 1)) (vscale (1 / 2)%R (vadd (g4 r) (g4 (r + 1))))). exists D, g4. split; [exact A4|]. exists r. left. split; [exact Ep|].
    destruct S4 as (E0 & E1 & EL & ER). split.
    + split; [exact E0|]. split; [exact E1|]. intros i Hi. destruct (Z.eqb_spec i (r + 1)) as [->|Ni].
      * unfold raised. replace (IZR (r + 1) / IZR p)%R with (1 / 2)%R by (rewrite Ep; replace (2 * r + 2) with (2 * (r + 1)) by lia; rewrite mult_IZR; assert (0 < IZR (r + 1))%R by (apply IZR_lt; lia); field; lra).
        replace (r + 1 - 1) with r by lia. unfold D. destruct (pt P (r + 1)), (g4 r), (g4 (r + 1)). cbn [vadd vsub vscale Vec_XYZW]. unfold xyzw_add, xyzw_sub, xyzw_scale. cbn. num. f_equal; field.
      * etransitivity; [|apply vadd_scale_0]. destruct (Z.eq_dec i 0) as [->|]; [rewrite raised_0 by exact Hp; auto|]. destruct (Z.eq_dec i p) as [->|]; [rewrite raised_p by exact Hp; auto|].
        destruct (Z_lt_dec i (r + 1)); [apply EL; lia|]. replace i with (i - 1 + 1) by lia. apply ER. lia.
    + unfold even_error. rewrite !npow_R. f_equal. transitivity (Rabs 1 * norm4 D)%R; [|rewrite Rabs_R1; ring]. apply dist4_norm. unfold D.
      destruct (pt P (r + 1)), (g4 r), (g4 (r + 1)). cbn [vadd vsub vscale Vec_XYZW]. unfold xyzw_add, xyzw_sub, xyzw_scale. cbn. num. f_equal; field.
  - assert (Ep : p = 2 * r + 1). { rewrite Er. pose proof (Z.div_mod (p - 1) 2 ltac:(lia)). pose proof (Z.mod_pos_bound (p - 1) 2 ltac:(lia)). lia. }
    clear Er. clearbody r. apply wp_bind. eapply wp_mono; [apply (lefts_ok p P Hp HP A Q2 g0 r); auto; lia|]. intros Q3 (g3 & A3 & S3).
    apply wp_bind. eapply wp_mono; [apply (rights_ok p P Hp HP A Q3 g3 r (r + 1)); auto; lia|]. intros Q4 (g4 & A4 & S4). cbv beta.
    apply wp_bind. eapply wp_mono; [apply (left_ok p P Hp HP A Q4 g4 r); auto; lia|]. intros PL EPL. cbv beta in EPL.
    apply wp_bind. eapply wp_mono; [apply (right_ok p P Hp HP A Q4 g4 r); auto; lia|]. intros PR EPR. cbv beta in EPR.
    wupd A4. intros Q5 A5. rewrite xyzw_Distance_eq. cbn [bind]. rewrite Rsqrt_ok by lra. cbn [bind]. assert (H2p : (0 < IZR (2 * p))%R) by (apply IZR_lt; lia). rewrite Rdiv_ok by lra. cbn [bind].
    wget HA. rewrite Binomial_ok by lia. cbn [bind wp]. set (D := vscale (1 / 2)%R (vsub PL PR)). set (g5 := fun k => if k =? r then xyzw_scale (1 / 2)%R (xyzw_add PL PR) else g4 k).
    exists D, g5. split; [eapply arr_ext; [exact A5|]; intros i Hi; reflexivity|]. exists r. right. split; [exact Ep|].
    assert (HL : (IZR (r + 1) / IZR p = 1 - IZR r / IZR p)%R) by (rewrite Ep, !plus_IZR, mult_IZR in *; field; lra).
    destruct S4 as (E0 & E1 & EL & ER). split.
    + split; [unfold g5; rewrite (proj2 (Z.eqb_neq _ _)) by lia; exact E0|]. split; [unfold g5; rewrite (proj2 (Z.eqb_neq _ _)) by lia; exact E1|].
      intros i Hi. destruct (Z.eqb_spec i r) as [->|Ni]; [|destruct (Z.eqb_spec i (r + 1)) as [->|Ni']].
      * rewrite EPL. unfold raised, g5. rewrite (proj2 (Z.eqb_neq (r - 1) r)), Z.eqb_refl by lia. unfold D. destruct PL, PR, (g4 (r - 1)). cbn [vadd vsub vscale Vec_XYZW]. unfold xyzw_add, xyzw_sub, xyzw_scale. cbn. num. f_equal; field; lra.
      * rewrite EPR. unfold raised, g5. replace (r + 1 - 1) with r by lia. rewrite (proj2 (Z.eqb_neq (r + 1) r)), Z.eqb_refl by lia. rewrite HL. unfold D. destruct PL, PR, (g4 (r + 1)). cbn [vadd vsub vscale Vec_XYZW]. unfold xyzw_add, xyzw_sub, xyzw_scale. cbn. num. f_equal; field; lra.
      * etransitivity; [|apply vadd_scale_0].
        assert (Eg : raised p g5 i = raised p g4 i) by (unfold raised, g5; rewrite !(proj2 (Z.eqb_neq _ r)) by lia; reflexivity). rewrite Eg.
        destruct (Z.eq_dec i 0) as [->|]; [rewrite raised_0 by exact Hp; auto|]. destruct (Z.eq_dec i p) as [->|]; [rewrite raised_p by exact Hp; auto|].
        destruct (Z_lt_dec i r); [apply EL; lia|]. replace i with (i - 1 + 1) by lia. apply ER. lia.
    + unfold odd_error, max_u. rewrite !npow_R. assert (E : dist4 PL PR = (2 * norm4 D)%R).
      { transitivity (Rabs 2 * norm4 D)%R; [|rewrite (Rabs_pos_eq 2) by lra; ring]. apply dist4_norm. unfold D. destruct PL, PR. cbn [vadd vsub vscale Vec_XYZW]. unfold xyzw_add, xyzw_sub, xyzw_scale. cbn. num. f_equal; field. }
      rewrite E. field. lra.
Qed.

(** * The knots *)

Lemma bezier_on_arr p a b : 0 <= p -> arr (bezier_on p a b) (2 * p + 2) (fun i => if i <=? p then a else b).
Proof.
  intros Hp. unfold bezier_on. assert (L1 : len (repeat a (Z.to_nat (p + 1))) = p + 1) by (rewrite len_rep; lia). assert (L2 : len (repeat b (Z.to_nat (p + 1))) = p + 1) by (rewrite len_rep; lia).
  split; [rewrite len_app; lia|]. intros i Hi. destruct (Z.leb_spec i p).
  - rewrite get_app_l by lia. apply (arr_repeat a (p + 1)); lia.
  - rewrite get_app_r by lia. apply (arr_repeat b (p + 1)); lia.
Qed.

Lemma bezier_on_eq p U : curve_knots p p U -> clamped_knots p p U -> U = bezier_on p (val U p) (val U (p + 1)).
Proof.
  intros HU Hcl. pose proof (ck_p _ _ _ HU). apply (arr_inj _ _ (2 * p + 2) (fun i => if i <=? p then val U p else val U (p + 1))); [|apply bezier_on_arr; lia].
  eapply arr_ext; [|intros i Hi; apply (bezier_val p U i HU Hcl); lia]. pose proof (P_Bern.arr_val U) as A. rewrite (ck_len _ _ _ HU) in A. replace (2 * p + 2) with (p + p + 2) by lia. exact A.
Qed.

Lemma bezier_on_ok p a b : 0 <= p -> (a + tol a b < b)%R -> curve_knots p p (bezier_on p a b) /\ clamped_knots p p (bezier_on p a b).
Proof.
  intros Hp Hab. pose proof (bezier_on_arr p a b Hp) as A. pose proof (tol_pos a b).
  assert (EV : forall i, 0 <= i < 2 * p + 2 -> val (bezier_on p a b) i = if i <=? p then a else b) by (intros i Hi; exact (P_Insert2.arr_val _ _ _ i A Hi)).
  split; [split; try lia|].
  - rewrite (arr_len _ _ _ A). lia.
  - intros i j Hi Hij Hj. rewrite (arr_len _ _ _ A) in Hj. rewrite !EV by lia. destruct (Z.leb_spec i p), (Z.leb_spec j p); try lra; lia.
  - rewrite !EV by lia. rewrite (proj2 (Z.leb_le p p)), (proj2 (Z.leb_gt (p + 1) p)) by lia. lra.
  - rewrite !EV by lia. rewrite (proj2 (Z.leb_le p p)), (proj2 (Z.leb_gt (p + 1) p)) by lia. lra.
  - split; rewrite !EV by lia.
    + rewrite !(proj2 (Z.leb_le _ p)) by lia. reflexivity.
    + rewrite !(proj2 (Z.leb_gt _ p)) by lia. reflexivity.
Qed.

Lemma fold_incr_repeat2 n : forall (x y : R) c d, (x < y)%R -> fold_left kmap_incr (repeat y n) [(x, c); (y, d)] = [(x, c); (y, d + Z.of_nat n)].
Proof.
  induction n as [|n IH]; intros x y c d H; [cbn; do 3 f_equal; lia|]. cbn [repeat fold_left kmap_incr]. num. rewrite (proj2 (Rltb_true x y)) by exact H. rewrite !Rltb_refl, IH by exact H. do 3 f_equal. lia.
Qed.

Lemma reduce_knots p a b : 1 <= p -> (a < b)%R ->
  fold_left (fun v '(u, count) => v ++ repeat u (Z.to_nat (count - 1))) (GetKnotMultiplicityMap (bezier_on p a b)) [] = bezier_on (p - 1) a b.
Proof.
  intros Hp Hab. unfold GetKnotMultiplicityMap, bezier_on. replace (Z.to_nat (p + 1)) with (S (Z.to_nat p)) by lia. rewrite fold_left_app. cbn [repeat fold_left kmap_incr].
  rewrite fold_incr_repeat. cbn [fold_left kmap_incr]. num. rewrite (proj2 (Rltb_true a b)) by exact Hab. rewrite fold_incr_repeat2 by exact Hab. cbn [fold_left].
  replace (Z.to_nat (p - 1 + 1)) with (Z.to_nat p) by lia. replace (Z.to_nat (1 + Z.of_nat (Z.to_nat p) - 1)) with (Z.to_nat p) by lia. reflexivity.
Qed.

(** * How far the reduced curve is from the given one *)

Lemma norm4_nonneg D : (0 <= norm4 D)%R. Proof. apply sqrt_pos. Qed.

Lemma odd_even_bound p P q e D x : 2 <= p -> outcome p P q e D -> (0 <= x <= 1)%R ->
  (dist4 (comb 0 (p + 1) (fun i => bern p i x) (pt P)) (comb 0 p (fun i => bern (p - 1) i x) q) <= (if Z.even p then 1 else 2) * e)%R.
Proof.
  intros Hp (r & HO) Hx. rewrite (bern_raise p x q) by lia. pose proof (pR p Hp) as HpR. pose proof (norm4_nonneg D) as HD.
  assert (K : forall d, split_at p P q d D -> dist4 (comb 0 (p + 1) (fun i => bern p i x) (pt P)) (comb 0 (p + 1) (fun i => bern p i x) (raised p q)) =
     (Rabs (rsum 0 (p + 1) (fun i => bern p i x * d i)) * norm4 D)%R).
  { intros d (_ & _ & Hd). apply dist4_norm. rewrite <- comb_dir. apply comb_ext. intros i Hi. split; [reflexivity|]. apply Hd. lia. }
  destruct HO as [(Ep & Hs & ->)|(Ep & Hs & ->)]; rewrite (K _ Hs); clear K.
  - replace (Z.even p) with true by (rewrite Ep; replace (2 * r + 2) with (2 * (r + 1)) by lia; rewrite Z.even_mul; reflexivity). rewrite (rsum_single 0 (p + 1) (r + 1)); [|lia|intros i Hi Ni; rewrite (proj2 (Z.eqb_neq i (r + 1))) by lia; ring].
    rewrite Z.eqb_refl, Rmult_1_r, Rabs_pos_eq by (apply bern_nonneg; exact Hx). rewrite bern_in by lia. unfold even_error. rewrite Rmult_1_l, Rmult_comm. apply Rmult_le_compat_l; [exact HD|].
    replace (p - r - 1) with (p - (r + 1)) by lia. replace (Z.to_nat (p - (r + 1))) with (Z.to_nat (r + 1)) by lia. rewrite !Rmult_assoc.
    apply Rmult_le_compat_l; [apply Rlt_le; apply Cb_pos; lia|]. apply half_max. exact Hx.
  - replace (Z.even p) with false by (rewrite Ep, Z.even_add, Z.even_mul; reflexivity).
    assert (E : rsum 0 (p + 1) (fun i => bern p i x * (if i =? r then 1 - IZR r / IZR p else if i =? r + 1 then - (1 - IZR r / IZR p) else 0))%R =
      ((1 - IZR r / IZR p) * Cb p r * (x ^ Z.to_nat r * (1 - x) ^ Z.to_nat r * (1 - 2 * x)))%R).
    { rewrite (rsum_split 0 (r + 1) (p + 1)) by lia. rewrite (rsum_single 0 (r + 1) r), (rsum_single (r + 1) (p + 1) (r + 1)).
      - rewrite !Z.eqb_refl, (proj2 (Z.eqb_neq (r + 1) r)) by lia. rewrite !bern_in by lia. replace (Cb p (r + 1)) with (Cb p r) by (rewrite (Cb_sym p (r + 1)) by lia; f_equal; lia).
        replace (Z.to_nat (p - r)) with (S (Z.to_nat r)) by lia. replace (Z.to_nat (r + 1)) with (S (Z.to_nat r)) by lia. replace (Z.to_nat (p - (r + 1))) with (Z.to_nat r) by lia. cbn [pow]. ring.
      - lia.
      - intros i Hi Ni. rewrite !(proj2 (Z.eqb_neq i _)) by lia. ring.
      - lia.
      - intros i Hi Ni. rewrite !(proj2 (Z.eqb_neq i _)) by lia. ring. }
    rewrite E. clear E. assert (Ha : (0 < 1 - IZR r / IZR p)%R).
    { assert (IZR r < IZR p)%R by (apply IZR_lt; lia). assert (IZR r / IZR p < 1)%R by (apply (Rmult_lt_reg_r (IZR p)); [lra|]; unfold Rdiv; rewrite Rmult_assoc, Rinv_l by lra; lra). lra. }
    pose proof (Cb_pos p r ltac:(lia)) as HC. set (al := (1 - IZR r / IZR p)%R) in *. set (n := Z.to_nat r).
    destruct (odd_max x n (max_u p) Hx ltac:(unfold max_u; replace (2 * Z.of_nat n + 1) with p by lia; reflexivity)) as [HM Hu].
    rewrite !Rabs_mult. rewrite (Rabs_pos_eq al), (Rabs_pos_eq (Cb p r)), (Rabs_pos_eq (x ^ n)), (Rabs_pos_eq ((1 - x) ^ n)) by (try apply pow_le; lra).
    unfold odd_error. fold al. replace (Z.to_nat (r + 1)) with (S n) by lia. fold n. cbn [pow]. set (u := max_u p) in *.
    set (m := (u ^ n * (1 - u) ^ n * (1 - 2 * u))%R) in *. assert (Hm : (0 <= m)%R) by (apply Rmult_le_pos; [apply Rmult_le_pos; apply pow_le; lra|lra]).
    replace (2 * (norm4 D * al * (Cb p r * u ^ n * ((1 - u) * (1 - u) ^ n) * (1 - 2 * u))))%R with (norm4 D * (al * Cb p r) * (m * (2 * (1 - u))))%R by (unfold m; ring).
    replace (al * Cb p r * (x ^ n * (1 - x) ^ n * Rabs (1 - 2 * x)) * norm4 D)%R with (norm4 D * (al * Cb p r) * (x ^ n * (1 - x) ^ n * Rabs (1 - 2 * x)))%R by ring.
    apply Rmult_le_compat_l; [apply Rmult_le_pos; [exact HD|apply Rmult_le_pos; lra]|]. eapply Rle_trans; [exact HM|]. rewrite <- (Rmult_1_r m) at 1. apply Rmult_le_compat_l; lra.
Qed.

(** * From homogeneous to plain distances *)

Lemma comb_far lo hi w P d : (forall i, lo <= i < hi -> (0 <= w i)%R) -> rsum lo hi w = 1%R -> lo < hi -> (0 <= d)%R -> forall m, (0 < m)%R ->
  (forall i, lo <= i < hi -> (m <= ww (P i))%R /\ (norm3 (proj (P i)) <= d)%R) ->
  (m <= ww (comb lo hi w P))%R /\ (norm3 (proj (comb lo hi w P)) <= d)%R.
Proof.
  intros Hw Hs Hlt Hd m Hm HP. set (A := comb lo hi w P).
  assert (EC : forall k, co k A = rsum lo hi (fun i => w i * co k (P i))%R) by (intros; apply co_comb).
  pose proof (EC 0%nat) as E0. pose proof (EC 1%nat) as E1. pose proof (EC 2%nat) as E2. pose proof (EC 3%nat) as E3. cbn in E0, E1, E2, E3.
  assert (H1 : (m <= ww A)%R).
  { rewrite E3. replace m with (rsum lo hi (fun i => w i * m)%R). 2:{ rewrite (rsum_ext lo hi _ (fun i => m * w i)%R) by (intros; ring). rewrite rsum_scal, Hs. ring. }
    apply rsum_le. intros i Hi. apply Rmult_le_compat_l; [apply Hw; exact Hi|apply HP; exact Hi]. }
  split; [exact H1|]. set (a := proj A). unfold norm3. pose proof (sqrt_pos (dot3 a a)) as Hn. set (n := sqrt (dot3 a a)) in *.
  assert (Hnn : (n * n = dot3 a a)%R) by (apply sqrt_sqrt; unfold dot3; nra).
  assert (B : forall i, lo <= i < hi -> (gx a * wx (P i) + gy a * wy (P i) + gz a * wz (P i) <= ww (P i) * (d * n))%R).
  { intros i Hi. destruct (HP i Hi) as [W1 W2]. pose proof (Cauchy_Schwarz (proj (P i)) a) as CS.
    assert (F1 : sqrt (SqrLength (proj (P i))) = norm3 (proj (P i))) by (unfold norm3; f_equal; unfold SqrLength, dot3; num; ring).
    assert (F2 : sqrt (SqrLength a) = n) by (unfold n; f_equal; unfold SqrLength, dot3; num; ring). rewrite F1, F2 in CS.
    assert (CS' : (DotProduct (proj (P i)) a <= d * n)%R) by (eapply Rle_trans; [exact CS|apply Rmult_le_compat_r; assumption]).
    unfold DotProduct in CS'. num. cbn [proj gx gy gz] in CS'. apply (Rmult_le_compat_l (ww (P i))) in CS'; [|lra].
    eapply Rle_trans; [|exact CS']. right. field. lra. }
  assert (C : (ww A * (n * n) <= ww A * (d * n))%R).
  { rewrite Hnn. replace (ww A * dot3 a a)%R with (gx a * wx A + gy a * wy A + gz a * wz A)%R by (unfold dot3, a; cbn [proj gx gy gz]; field; lra).
    rewrite E0, E1, E2, E3. rewrite (Rmult_comm _ (d * n)). rewrite <- !rsum_scal, <- !rsum_plus. apply rsum_le. intros i Hi. specialize (B i Hi). pose proof (Hw i Hi) as Wi.
    apply (Rmult_le_compat_l (w i)) in B; [|exact Wi]. eapply Rle_trans; [|eapply Rle_trans; [exact B|]]; right; ring. }
  apply Rmult_le_reg_l in C; [|lra]. destruct (Rle_lt_dec n d) as [|G]; [assumption|]. exfalso.
  assert (d * n < n * n)%R by (apply Rmult_lt_compat_r; lra). lra.
Qed.

Lemma close_points A B m d c e : (0 < m)%R -> (0 <= d)%R -> (m <= ww A)%R -> (norm3 (proj A) <= d)%R -> (0 < c < 10000)%R -> e = (1 / 10000 * m / (1 + d))%R -> (dist4 A B <= c * e)%R ->
  (0 < ww B)%R /\ (dist3 (proj A) (proj B) <= c / (10000 - c))%R.
Proof.
  intros Hm Hd HwA HnA Hc He HAB. set (del := dist4 A B) in *.
  assert (Hdel : (0 <= del)%R) by apply sqrt_pos.
  assert (Hsq : forall x : R, (0 <= x ^ 2)%R) by (intros x; rewrite <- Rsqr_pow2; apply Rle_0_sqr).
  assert (S2 : (del * del = (wx B - wx A) ^ 2 + (wy B - wy A) ^ 2 + (wz B - wz A) ^ 2 + (ww B - ww A) ^ 2)%R).
  { apply sqrt_sqrt. pose proof (Hsq (wx B - wx A)%R). pose proof (Hsq (wy B - wy A)%R). pose proof (Hsq (wz B - wz A)%R). pose proof (Hsq (ww B - ww A)%R). lra. }
  assert (Ee : (e * (1 + d) = m / 10000)%R) by (rewrite He; field; lra).
  assert (He0 : (0 < e)%R) by (rewrite He; apply Rdiv_lt_0_compat; lra).
  assert (HW : (Rabs (ww B - ww A) <= del)%R).
  { apply Rsqr_incr_0_var; [|exact Hdel]. rewrite <- Rsqr_abs. unfold Rsqr. rewrite S2. pose proof (Hsq (wx B - wx A)%R). pose proof (Hsq (wy B - wy A)%R). pose proof (Hsq (wz B - wz A)%R). lra. }
  assert (Hed : (e <= m / 10000)%R) by (rewrite <- Ee, <- (Rmult_1_r e) at 1; apply Rmult_le_compat_l; lra).
  assert (HwB : (m * (1 - c / 10000) <= ww B)%R).
  { assert (- del <= ww B - ww A)%R by (unfold Rabs in HW; destruct (Rcase_abs (ww B - ww A)); lra). assert (c * e <= c * (m / 10000))%R by (apply Rmult_le_compat_l; lra). lra. }
  assert (Hc1 : (0 < 1 - c / 10000)%R) by lra. assert (HwB0 : (0 < ww B)%R) by (assert (0 < m * (1 - c / 10000))%R by (apply Rmult_lt_0_compat; lra); lra).
  split; [exact HwB0|]. set (a := proj A) in *.
  set (v := mkXYZ (wx A - wx B)%R (wy A - wy B)%R (wz A - wz B)%R).
  assert (Hv : (sqrt (SqrLength v) <= del)%R).
  { apply Rsqr_incr_0_var; [|exact Hdel]. rewrite Rsqr_sqrt by apply SqrLength_nonneg. unfold Rsqr. rewrite S2. unfold SqrLength, v. num. cbn [gx gy gz]. pose proof (Hsq (ww B - ww A)%R). lra. }
  set (w := times3 (ww B - ww A) a).
  assert (Hw : (sqrt (SqrLength w) <= del * d)%R).
  { replace (SqrLength w) with (Rsqr (ww B - ww A) * dot3 a a)%R by (unfold SqrLength, w, times3, dot3, Rsqr; num; cbn [gx gy gz]; ring).
    rewrite sqrt_mult_alt by apply Rle_0_sqr. rewrite sqrt_Rsqr_abs. apply Rmult_le_compat; [apply Rabs_pos|apply sqrt_pos|exact HW|exact HnA]. }
  pose proof (norm_triangle v w) as Tr.
  assert (F : (dist3 a (proj B) * ww B = sqrt (SqrLength (xyz_add v w)))%R).
  { unfold dist3, norm3. rewrite <- (sqrt_square (ww B)) at 1 by lra. rewrite <- sqrt_mult_alt by (unfold dot3; nra). f_equal. unfold dot3, minus3, SqrLength, xyz_add, v, w, times3, a, proj. num. cbn [gx gy gz]. field. lra. }
  assert (G : (dist3 a (proj B) * ww B <= c * (m / 10000))%R).
  { rewrite F. eapply Rle_trans; [exact Tr|]. assert (del * (1 + d) <= c * e * (1 + d))%R by (apply Rmult_le_compat_r; lra). rewrite <- Ee. lra. }
  assert (D0 : (0 <= dist3 a (proj B))%R) by apply sqrt_pos.
  assert (G2 : (dist3 a (proj B) * (m * (1 - c / 10000)) <= c * (m / 10000))%R) by (eapply Rle_trans; [apply Rmult_le_compat_l; [exact D0|exact HwB]|exact G]).
  apply (Rmult_le_reg_r (m * (1 - c / 10000))); [apply Rmult_lt_0_compat; lra|]. eapply Rle_trans; [exact G2|]. right. field. lra.
Qed.

(** * The results *)

Lemma ReduceDegree_close p U P : 2 <= p -> curve_knots p p U -> clamped_knots p p U -> len P = p + 1 -> heavy P ->
  returns (ReduceDegree (mkCurve p U P)) (fun o => match o with
    | None => True
    | Some c => Degree c = p - 1 /\ KnotVector c = bezier_on (p - 1) (val U p) (val U (p + 1)) /\ len (ControlPoints c) = p /\
        pt (ControlPoints c) 0 = pt P 0 /\ pt (ControlPoints c) (p - 1) = pt P p /\
        forall s, in_domain p p U s ->
          (0 < ww (curve_point (p - 1) (p - 1) (KnotVector c) (ControlPoints c) s))%R /\
          (dist3 (proj (curve_point p p U P s)) (proj (curve_point (p - 1) (p - 1) (KnotVector c) (ControlPoints c) s)) <= if Z.even p then 1 / 9999 else 1 / 4999)%R
    end).
Proof.
  intros Hp HU Hcl HP HH. destruct (wp_elim _ _ (ReduceDegree_core p U P Hp HP HH)) as (o & E & tl & Q & e & D & g & Ht & AQ & HO & ->). rewrite E. eexists. split; [reflexivity|].
  destruct (Rltb_spec tl e) as [|Hle]; [exact I|]. cbn [Degree KnotVector ControlPoints].
  pose proof (ck_first _ _ _ HU) as Hf. set (a := val U p) in *. set (b := val U (p + 1)) in *. pose proof (tol_pos a b) as Htp.
  assert (EK : fold_left (fun v '(u, count) => v ++ repeat u (Z.to_nat (count - 1))) (GetKnotMultiplicityMap U) [] = bezier_on (p - 1) a b).
  { rewrite (bezier_on_eq p U HU Hcl). apply reduce_knots; [lia|]. fold a b. lra. }
  rewrite EK. split; [reflexivity|]. split; [reflexivity|]. split; [apply AQ|].
  assert (EQ : forall i, 0 <= i < p -> pt Q i = g i) by (intros i Hi; exact (arr_pt_eq _ _ _ i AQ Hi)).
  assert (Hends : g 0 = pt P 0 /\ g (p - 1) = pt P p) by (destruct HO as (r & [(_ & (X & Y & _) & _)|(_ & (X & Y & _) & _)]); auto).
  split; [rewrite EQ by lia; apply Hends|]. split; [rewrite EQ by lia; apply Hends|]. intros s Hs.
  destruct (bezier_on_ok (p - 1) a b ltac:(lia) Hf) as [HU' Hcl']. pose proof (bezier_on_arr (p - 1) a b ltac:(lia)) as AU.
  assert (Va : val (bezier_on (p - 1) a b) (p - 1) = a) by (rewrite (P_Insert2.arr_val _ _ _ _ AU) by lia; rewrite (proj2 (Z.leb_le _ _)) by lia; reflexivity).
  assert (Vb : val (bezier_on (p - 1) a b) (p - 1 + 1) = b) by (rewrite (P_Insert2.arr_val _ _ _ _ AU) by lia; rewrite (proj2 (Z.leb_gt _ _)) by lia; reflexivity).
  assert (Hs' : in_domain (p - 1) (p - 1) (bezier_on (p - 1) a b) s) by (unfold in_domain; rewrite Va, Vb; exact Hs).
  rewrite (bezier_curve p U P s HU Hcl Hs), (bezier_curve (p - 1) _ Q s HU' Hcl' Hs'). rewrite Va, Vb. replace (p - 1 + 1) with p by lia. fold a b.
  set (x := ((s - a) / (b - a))%R). assert (Hx : (0 <= x <= 1)%R).
  { destruct Hs as [S1 S2]. fold a in S1. fold b in S2. unfold x. split; [apply Rmult_le_pos; [lra|apply Rlt_le, Rinv_0_lt_compat; lra]|].
    apply (Rmult_le_reg_r (b - a)); [lra|]. unfold Rdiv. rewrite Rmult_assoc, Rinv_l by lra. lra. }
  rewrite (comb_ext 0 p _ (fun i => bern (p - 1) i x) (pt Q) g) by (intros i Hi; split; [reflexivity|apply EQ; lia]).
  pose proof (odd_even_bound p P g e D x Hp HO Hx) as HB.
  destruct Ht as (m & d & (M1 & M2 & M3) & (D1 & D2 & D3) & Etl). assert (Hm : (0 < m)%R).
  { destruct M3 as [->|(i & Hi & ->)]; [lra|]. specialize (HH i Hi). pose proof (tol_pos (ww (pt P i)) 0). lra. }
  destruct (comb_far 0 (p + 1) (fun i => bern p i x) (pt P) d) with (m := m) as [HwA HnA]; auto; try lia.
  { intros i Hi. apply bern_nonneg. exact Hx. } { apply bern_sum. lia. } { intros i Hi. split; [apply M2; lia|apply D2; lia]. }
  set (A := comb 0 (p + 1) (fun i => bern p i x) (pt P)) in *. set (B := comb 0 p (fun i => bern (p - 1) i x) g) in *.
  destruct (Z.even p).
  - destruct (close_points A B m d 1 tl) as [W1 W2]; auto; lra.
  - destruct (close_points A B m d 2 tl) as [W1 W2]; auto; lra.
Qed.

Lemma from_left p x m : 1 <= p -> m <= p -> (forall i, 0 <= i < m -> (IZR i / IZR p * x (i - 1)%Z + (1 - IZR i / IZR p) * x i = 0)%R) -> forall i, 0 <= i < m -> x i = 0%R.
Proof.
  intros Hp Hm H i [Hi0 Him]. assert (HpR : (0 < IZR p)%R) by (apply IZR_lt; lia). revert i Hi0 Him. apply (Zrange_ind 0 (fun i => i < m -> x i = 0%R)).
  - intros H0. specialize (H 0 ltac:(lia)). replace (IZR 0 / IZR p)%R with 0%R in H by (field; lra). lra.
  - intros i Hi IH Him. specialize (H (i + 1) ltac:(lia)). replace (i + 1 - 1) with i in H by lia. rewrite IH in H by lia.
    assert (IZR (i + 1) < IZR p)%R by (apply IZR_lt; lia). assert (IZR (i + 1) / IZR p < 1)%R by (apply (Rmult_lt_reg_r (IZR p)); [lra|]; unfold Rdiv; rewrite Rmult_assoc, Rinv_l by lra; lra).
    apply (Rmult_eq_reg_l (1 - IZR (i + 1) / IZR p)); lra.
Qed.

Lemma from_right p x m : 1 <= p -> 0 <= m -> (forall i, m < i <= p -> (IZR i / IZR p * x (i - 1)%Z + (1 - IZR i / IZR p) * x i = 0)%R) -> forall i, m <= i < p -> x i = 0%R.
Proof.
  intros Hp Hm H i Hi. assert (HpR : (0 < IZR p)%R) by (apply IZR_lt; lia).
  assert (K : forall j, 0 <= j -> m <= p - 1 - j -> x (p - 1 - j) = 0%R).
  { apply (Zrange_ind 0 (fun j => m <= p - 1 - j -> x (p - 1 - j) = 0%R)).
    - intros H0. specialize (H p ltac:(lia)). replace (IZR p / IZR p)%R with 1%R in H by (field; lra). replace (p - 1 - 0) with (p - 1) by lia. lra.
    - intros j Hj IH Hjm. specialize (H (p - 1 - j) ltac:(lia)). rewrite IH in H by lia. replace (p - 1 - j - 1) with (p - 1 - (j + 1)) in H by lia.
      assert (0 < IZR (p - 1 - j))%R by (apply IZR_lt; lia). assert (0 < IZR (p - 1 - j) / IZR p)%R by (apply Rdiv_lt_0_compat; lra).
      apply (Rmult_eq_reg_l (IZR (p - 1 - j) / IZR p)); lra. }
  replace i with (p - 1 - (p - 1 - i)) by lia. apply K; lia.
Qed.

Lemma norm4_zero : norm4 vzero = 0%R.
Proof. unfold norm4. cbn. replace (0 * (0 * 1) + 0 * (0 * 1) + 0 * (0 * 1) + 0 * (0 * 1))%R with 0%R by ring. apply sqrt_0. Qed.

Lemma outcome_exact p P q g e D : 2 <= p -> (forall i, 0 <= i <= p -> pt P i = raised p q i) -> outcome p P g e D -> e = 0%R /\ forall i, 0 <= i < p -> g i = q i.
Proof.
  intros Hp Hq (r & HO). pose proof (pR p Hp) as HpR.
  assert (K : forall d, split_at p P g d D -> forall k i, 0 <= i <= p -> (IZR i / IZR p * (co k (q (i - 1)%Z) - co k (g (i - 1)%Z)) + (1 - IZR i / IZR p) * (co k (q i) - co k (g i)) = d i * co k D)%R).
  { intros d (_ & _ & Hd) k i Hi. specialize (Hd i Hi). rewrite Hq in Hd by exact Hi. apply (f_equal (co k)) in Hd. unfold raised in Hd. rewrite !co_add, !co_scale in Hd. lra. }
  enough (G : (forall k, co k D = 0%R) /\ forall k i, 0 <= i < p -> (co k (q i) - co k (g i) = 0)%R).
  { destruct G as [G1 G2]. split.
    - assert (D = vzero) as -> by (apply co_ext; intros k; rewrite G1, co_zero; reflexivity).
      destruct HO as [(_ & _ & ->)|(_ & _ & ->)]; unfold even_error, odd_error; rewrite norm4_zero; ring.
    - intros i Hi. apply co_ext. intros k. specialize (G2 k i Hi). lra. }
  destruct HO as [(Ep & Hs & _)|(Ep & Hs & _)]; pose proof (K _ Hs) as Kd; cbv beta in Kd; clear K Hs.
  - assert (Z0 : forall k i, 0 <= i < p -> (co k (q i) - co k (g i) = 0)%R).
    { intros k i Hi. destruct (Z_lt_dec i (r + 1)).
      - apply (from_left p (fun i => co k (q i) - co k (g i))%R (r + 1)); try lia. intros j Hj. rewrite Kd by lia. rewrite (proj2 (Z.eqb_neq j (r + 1))) by lia. ring.
      - apply (from_right p (fun i => co k (q i) - co k (g i))%R (r + 1)); try lia. intros j Hj. rewrite Kd by lia. rewrite (proj2 (Z.eqb_neq j (r + 1))) by lia. ring. }
    split; [|exact Z0]. intros k. specialize (Kd k (r + 1) ltac:(lia)). rewrite Z.eqb_refl in Kd. rewrite !Z0 in Kd by lia. lra.
  - assert (Z0 : forall k i, 0 <= i < p -> i <> r -> (co k (q i) - co k (g i) = 0)%R).
    { intros k i Hi Ni. destruct (Z_lt_dec i r).
      - apply (from_left p (fun i => co k (q i) - co k (g i))%R r); try lia. intros j Hj. rewrite Kd by lia. rewrite !(proj2 (Z.eqb_neq j _)) by lia. ring.
      - apply (from_right p (fun i => co k (q i) - co k (g i))%R (r + 1)); try lia. intros j Hj. rewrite Kd by lia. rewrite !(proj2 (Z.eqb_neq j _)) by lia. ring. }
    assert (HL : (IZR (r + 1) / IZR p = 1 - IZR r / IZR p)%R) by (rewrite Ep, !plus_IZR, mult_IZR in *; field; lra).
    assert (Ha : (0 < 1 - IZR r / IZR p)%R) by (rewrite <- HL; apply Rdiv_lt_0_compat; [apply IZR_lt; lia|lra]).
    assert (Zr : forall k, (co k (q r) - co k (g r) = 0)%R /\ co k D = 0%R).
    { intros k. pose proof (Kd k r ltac:(lia)) as K1. pose proof (Kd k (r + 1) ltac:(lia)) as K2. rewrite Z.eqb_refl in K1. rewrite (proj2 (Z.eqb_neq (r + 1) r)), Z.eqb_refl in K2 by lia.
      replace (r + 1 - 1) with r in K2 by lia. rewrite (Z0 k (r - 1)) in K1 by lia. rewrite (Z0 k (r + 1)) in K2 by lia. rewrite HL in K2. set (c := (1 - IZR r / IZR p)%R) in *.
      assert (T1 : (co k (q r) - co k (g r) = co k D)%R) by (apply (Rmult_eq_reg_l c); lra). assert (T2 : (co k (q r) - co k (g r) = - co k D)%R) by (apply (Rmult_eq_reg_l c); lra). lra. }
    split; [intros k; apply Zr|]. intros k i Hi. destruct (Z.eq_dec i r) as [->|]; [apply Zr|apply Z0; lia].
Qed.

Lemma equal_raised p U (P Q : list (XYZW R)) : 2 <= p -> curve_knots p p U -> clamped_knots p p U ->
  (forall s, in_domain p p U s -> curve_point p p U P s = curve_point (p - 1) (p - 1) (bezier_on (p - 1) (val U p) (val U (p + 1))) Q s) ->
  forall i, 0 <= i <= p -> pt P i = raised p (pt Q) i.
Proof.
  intros Hp HU Hcl Heq. pose proof (ck_first _ _ _ HU) as Hf. set (a := val U p) in *. set (b := val U (p + 1)) in *. pose proof (tol_pos a b) as Htp.
  destruct (bezier_on_ok (p - 1) a b ltac:(lia) Hf) as [HU' Hcl']. pose proof (bezier_on_arr (p - 1) a b ltac:(lia)) as AU.
  assert (Va : val (bezier_on (p - 1) a b) (p - 1) = a) by (rewrite (P_Insert2.arr_val _ _ _ _ AU) by lia; rewrite (proj2 (Z.leb_le _ _)) by lia; reflexivity).
  assert (Vb : val (bezier_on (p - 1) a b) (p - 1 + 1) = b) by (rewrite (P_Insert2.arr_val _ _ _ _ AU) by lia; rewrite (proj2 (Z.leb_gt _ _)) by lia; reflexivity).
  intros i Hi. apply co_ext. intros k. enough (co k (pt P i) - co k (raised p (pt Q) i) = 0)%R by lra.
    apply (bern_indep p (fun i => co k (pt P i) - co k (raised p (pt Q) i))%R); [lia| |exact Hi]. intros x Hx.
    set (s := (a + x * (b - a))%R). assert (Hs : in_domain p p U s).
    { unfold in_domain. fold a b. unfold s. assert (0 <= x * (b - a))%R by (apply Rmult_le_pos; lra). assert (0 <= (1 - x) * (b - a))%R by (apply Rmult_le_pos; lra). lra. }
    assert (Hs' : in_domain (p - 1) (p - 1) (bezier_on (p - 1) a b) s) by (unfold in_domain; rewrite Va, Vb; exact Hs).
    specialize (Heq s Hs). rewrite (bezier_curve p U P s HU Hcl Hs), (bezier_curve (p - 1) _ Q s HU' Hcl' Hs') in Heq. rewrite Va, Vb in Heq. replace (p - 1 + 1) with p in Heq by lia. fold a b in Heq.
    replace ((s - a) / (b - a))%R with x in Heq by (unfold s; field; lra). rewrite (bern_raise p x (pt Q)) in Heq by lia. apply (f_equal (co k)) in Heq. rewrite !co_comb in Heq.
    rewrite (rsum_ext 0 (p + 1) _ (fun i => (bern p i x * co k (pt P i) - bern p i x * co k (raised p (pt Q) i))%R)) by (intros; ring). rewrite rsum_minus. lra.
Qed.

Lemma ReduceDegree_exact p U P Q : 2 <= p -> curve_knots p p U -> clamped_knots p p U -> len P = p + 1 -> heavy P -> len Q = p ->
  (forall s, in_domain p p U s -> curve_point p p U P s = curve_point (p - 1) (p - 1) (bezier_on (p - 1) (val U p) (val U (p + 1))) Q s) ->
  ReduceDegree (mkCurve p U P) = Ok (Some (mkCurve (p - 1) (bezier_on (p - 1) (val U p) (val U (p + 1))) Q)).
Proof.
  intros Hp HU Hcl HP HH HQ Heq. destruct (wp_elim _ _ (ReduceDegree_core p U P Hp HP HH)) as (o & E & tl & Q' & e & D & g & Ht & AQ & HO & ->). rewrite E.
  pose proof (ck_first _ _ _ HU) as Hf. set (a := val U p) in *. set (b := val U (p + 1)) in *. pose proof (tol_pos a b) as Htp.
  assert (EK : fold_left (fun v '(u, count) => v ++ repeat u (Z.to_nat (count - 1))) (GetKnotMultiplicityMap U) [] = bezier_on (p - 1) a b).
  { rewrite (bezier_on_eq p U HU Hcl). apply reduce_knots; [lia|]. fold a b. lra. }
  pose proof (equal_raised p U P Q Hp HU Hcl Heq) as Hq.
  destruct (outcome_exact p P (pt Q) g e D Hp Hq HO) as [-> Eg]. pose proof (modify_tolerance_pos P tl HH Ht).
  destruct (Rltb_spec tl 0) as [|_]; [lra|]. rewrite EK. repeat f_equal. apply (arr_inj _ _ p (pt Q)); [|apply arr_pt; exact HQ]. eapply arr_ext; [exact AQ|]. intros i Hi. apply Eg. exact Hi.
Qed.

Lemma ReduceDegree_other p U P : len P <> p + 1 -> heavy P -> ReduceDegree (mkCurve p U P) = Ok None.
Proof.
  intros Hl HH. unfold ReduceDegree. cbn [Degree KnotVector ControlPoints]. destruct (wp_elim _ _ (tolerance_ok P HH)) as (t & -> & _). cbn [bind].
  unfold IsValidBezier. rewrite (proj2 (Z.eqb_neq _ _) Hl). reflexivity.
Qed.
