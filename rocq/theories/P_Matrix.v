(* Matrices as transformations. *)
From Coq Require Import ZArith List Bool Reals Lra Lia Nsatz.
From Verif Require Import Base Num Vec Spec Spec3 M_MathUtils M_XYZ M_Matrix M_Bspline M_NurbsCurve M_Curve2 P_MathUtils P_XYZ P_Reparam.
Import ListNotations.
Open Scope Z_scope.

Notation M4 := (Matrix4d R).

Ltac mat := unfold m4_mul, m4_id, GetTranspose, CreateTranslation, CreateScale; num;
  cbn [m00 m01 m02 m03 m10 m11 m12 m13 m20 m21 m22 m23 m30 m31 m32 m33]; num.

(* the product: element (i, j) is the sum of a_ik b_kj *)
Definition el (a : M4) (i j : Z) : R := at_ 0%R (at_ nil (m4_rows a) i) j.

Lemma GetElement_el a i j : 0 <= i < 4 -> 0 <= j < 4 -> GetElement a i j = Ok (el a i j).
Proof.
  intros Hi Hj. assert (i = 0 \/ i = 1 \/ i = 2 \/ i = 3) as Ei by lia. assert (j = 0 \/ j = 1 \/ j = 2 \/ j = 3) as Ej by lia.
  destruct Ei as [->|[->|[->| ->]]], Ej as [->|[->|[->| ->]]]; reflexivity.
Qed.

Lemma m4_mul_el a b i j : 0 <= i < 4 -> 0 <= j < 4 -> el (m4_mul a b) i j = rsum 0 4 (fun k => el a i k * el b k j)%R.
Proof.
  intros Hi Hj. assert (i = 0 \/ i = 1 \/ i = 2 \/ i = 3) as Ei by lia. assert (j = 0 \/ j = 1 \/ j = 2 \/ j = 3) as Ej by lia.
  do 4 (rewrite rsum_first by lia). rewrite rsum_nil by lia. cbn [Z.add Pos.add Pos.succ].
  destruct Ei as [->|[->|[->| ->]]], Ej as [->|[->|[->| ->]]]; unfold el, m4_rows, at_; lazy [Z.to_nat Pos.to_nat Pos.iter_op Init.Nat.add List.nth]; mat; ring.
Qed.

Lemma mkM_eq a00 b00 a01 b01 a02 b02 a03 b03 a10 b10 a11 b11 a12 b12 a13 b13 a20 b20 a21 b21 a22 b22 a23 b23 a30 b30 a31 b31 a32 b32 a33 b33 : a00 = b00 -> a01 = b01 -> a02 = b02 -> a03 = b03 -> a10 = b10 -> a11 = b11 -> a12 = b12 -> a13 = b13 -> a20 = b20 -> a21 = b21 -> a22 = b22 -> a23 = b23 -> a30 = b30 -> a31 = b31 -> a32 = b32 -> a33 = b33 ->
  mkM a00 a01 a02 a03 a10 a11 a12 a13 a20 a21 a22 a23 a30 a31 a32 a33 = (mkM b00 b01 b02 b03 b10 b11 b12 b13 b20 b21 b22 b23 b30 b31 b32 b33 : M4).
Proof. intros. subst. reflexivity. Qed.

Lemma m4_assoc (a b c : M4) : m4_mul (m4_mul a b) c = m4_mul a (m4_mul b c).
Proof. mat. apply mkM_eq; ring. Qed.
Lemma m4_id_l (a : M4) : m4_mul m4_id a = a.
Proof. destruct a. mat. apply mkM_eq; ring. Qed.
Lemma m4_id_r (a : M4) : m4_mul a m4_id = a.
Proof. destruct a. mat. apply mkM_eq; ring. Qed.
Lemma m4_transpose_mul (a b : M4) : GetTranspose (m4_mul a b) = m4_mul (GetTranspose b) (GetTranspose a).
Proof. mat. apply mkM_eq; ring. Qed.
Lemma m4_transpose_inv (a : M4) : GetTranspose (GetTranspose a) = a.
Proof. destruct a. reflexivity. Qed.

(* homogeneous divisor of a point *)
Definition wdiv (m : M4) (p : XYZ R) : R := (m30 m * gx p + m31 m * gy p + m32 m * gz p + m33 m)%R.

Lemma OfPoint_w m p : wdiv m p <> 0%R -> OfPoint m p = Ok (mkXYZ
  ((m00 m * gx p + m01 m * gy p + m02 m * gz p + m03 m) / wdiv m p)
  ((m10 m * gx p + m11 m * gy p + m12 m * gz p + m13 m) / wdiv m p)
  ((m20 m * gx p + m21 m * gy p + m22 m * gz p + m23 m) / wdiv m p))%R.
Proof.
  intros H. unfold OfPoint, xyz_div. num. cbn [gx gy gz]. rewrite !Rmult_1_r. fold (wdiv m p). rewrite !Rdiv_ok by exact H. reflexivity.
Qed.

Lemma OfPoint_zero m p : wdiv m p = 0%R -> OfPoint m p = NonFin.
Proof.
  intros H. unfold OfPoint, xyz_div. num. cbn [gx gy gz]. rewrite !Rmult_1_r. fold (wdiv m p). rewrite Rdiv_zero by exact H. reflexivity.
Qed.

Lemma OfPoint_mul a b p : wdiv b p <> 0%R -> OfPoint (m4_mul a b) p = bind (OfPoint b p) (OfPoint a).
Proof.
  intros Hb. rewrite (OfPoint_w b p Hb). cbn [bind].
  set (b0 := (m00 b * gx p + m01 b * gy p + m02 b * gz p + m03 b)%R).
  set (b1 := (m10 b * gx p + m11 b * gy p + m12 b * gz p + m13 b)%R).
  set (b2 := (m20 b * gx p + m21 b * gy p + m22 b * gz p + m23 b)%R).
  assert (R3 : wdiv (m4_mul a b) p = (m30 a * b0 + m31 a * b1 + m32 a * b2 + m33 a * wdiv b p)%R)
    by (unfold wdiv, b0, b1, b2; mat; ring).
  assert (R0 : (m00 (m4_mul a b) * gx p + m01 (m4_mul a b) * gy p + m02 (m4_mul a b) * gz p + m03 (m4_mul a b))%R =
    (m00 a * b0 + m01 a * b1 + m02 a * b2 + m03 a * wdiv b p)%R) by (unfold wdiv, b0, b1, b2; mat; ring).
  assert (R1 : (m10 (m4_mul a b) * gx p + m11 (m4_mul a b) * gy p + m12 (m4_mul a b) * gz p + m13 (m4_mul a b))%R =
    (m10 a * b0 + m11 a * b1 + m12 a * b2 + m13 a * wdiv b p)%R) by (unfold wdiv, b0, b1, b2; mat; ring).
  assert (R2 : (m20 (m4_mul a b) * gx p + m21 (m4_mul a b) * gy p + m22 (m4_mul a b) * gz p + m23 (m4_mul a b))%R =
    (m20 a * b0 + m21 a * b1 + m22 a * b2 + m23 a * wdiv b p)%R) by (unfold wdiv, b0, b1, b2; mat; ring).
  clearbody b0 b1 b2. set (w := wdiv b p) in *. clearbody w.
  set (q := mkXYZ (b0 / w)%R (b1 / w)%R (b2 / w)%R).
  assert (E : wdiv (m4_mul a b) p = (wdiv a q * w)%R).
  { rewrite R3. unfold q, wdiv. cbn [gx gy gz]. field. exact Hb. }
  destruct (Req_EM_T (wdiv a q) 0) as [Ez|Ez].
  - rewrite !OfPoint_zero; [reflexivity|exact Ez|rewrite E, Ez; ring].
  - assert (Hab : wdiv (m4_mul a b) p <> 0%R) by (rewrite E; apply Rmult_integral_contrapositive_currified; assumption).
    rewrite (OfPoint_w _ _ Hab), (OfPoint_w _ _ Ez), R0, R1, R2, E. set (wa := wdiv a q) in *. clearbody wa. unfold q. cbn [gx gy gz].
    do 2 f_equal; field; split; assumption.
Qed.

Lemma OfVector_mul a b v : is_affine b -> OfVector (m4_mul a b) v = OfVector a (OfVector b v).
Proof.
  intros (E0 & E1 & E2 & E3). unfold OfVector. mat. rewrite E0, E1, E2. cbn [gx gy gz]. f_equal; ring.
Qed.

(* directions: OfVector is the difference of OfPoint *)
Lemma OfVector_diff m p q : is_affine m -> OfVector m (xyz_sub q p) = xyz_sub (mat_apply m q) (mat_apply m p).
Proof. intros _. unfold OfVector, mat_apply, xyz_sub. num. cbn [gx gy gz]. f_equal; ring. Qed.

Lemma Translation_ok v p : is_affine (CreateTranslation v) /\ OfPoint (CreateTranslation v) p = Ok (xyz_add p v) /\
  OfVector (CreateTranslation v) p = p.
Proof.
  assert (H : is_affine (CreateTranslation v)) by (repeat split). split; [exact H|]. split.
  - rewrite OfPoint_affine by exact H. unfold mat_apply, xyz_add. mat. do 2 f_equal; ring.
  - unfold OfVector. mat. destruct p. cbn [M_XYZ.gx M_XYZ.gy M_XYZ.gz]. f_equal; ring.
Qed.

Lemma Scale_ok s p : is_affine (CreateScale s) /\
  OfPoint (CreateScale s) p = Ok (mkXYZ (gx s * gx p) (gy s * gy p) (gz s * gz p))%R.
Proof.
  assert (H : is_affine (CreateScale s)) by (repeat split). split; [exact H|].
  rewrite OfPoint_affine by exact H. unfold mat_apply. mat. do 2 f_equal; ring.
Qed.

(** * Rotations *)
Lemma Normalize_pos (a : XYZ R) : (0 < SqrLength a)%R -> exists u, Normalize a = Ok u /\ SqrLength u = 1%R /\
  exists k, (0 < k)%R /\ a = xyz_scale k u.
Proof.
  intros H. unfold SqrLength in H. num. unfold Normalize, Length. num. rewrite Rsqrt_ok by lra. cbn [bind].
  set (s := (gx a * gx a + gy a * gy a + gz a * gz a)%R) in *. assert (Hs : (0 < sqrt s)%R) by (apply sqrt_lt_R0; exact H).
  unfold Rltb. destruct (Rlt_dec 0 (sqrt s)); [|lra]. rewrite Rdiv_ok by lra. cbn [bind]. eexists. split; [reflexivity|]. split.
  - unfold SqrLength. num. cbn [gx gy gz]. pose proof (sqrt_def s ltac:(lra)) as Hq. set (q := sqrt s) in *. clearbody q. unfold s in Hq. transitivity ((q * q) / (q * q))%R; [rewrite Hq at 1; field; lra|field; lra].
  - exists (sqrt s). split; [exact Hs|]. unfold xyz_scale. num. cbn [gx gy gz]. destruct a as [x y z]. cbn [gx gy gz]. f_equal; field; lra.
Qed.

Definition rot (u : XYZ R) (th : R) : M4 :=
  (let x := gx u in let y := gy u in let z := gz u in let c := cos th in let s := sin th in let t := 1 - c in
  mkM (c + x * x * t) (x * y * t - z * s) (x * z * t + y * s) 0
      (y * x * t + z * s) (c + y * y * t) (y * z * t - x * s) 0
      (z * x * t - y * s) (z * y * t + x * s) (c + z * z * t) 0
      0 0 0 1)%R.

Lemma CreateRotation_eq axis th u : Normalize axis = Ok u -> CreateRotation axis th = Ok (rot u th).
Proof. intros E. unfold CreateRotation. rewrite E. reflexivity. Qed.

Lemma xyz_eq (a1 a2 a3 b1 b2 b3 : R) : a1 = b1 -> a2 = b2 -> a3 = b3 -> mkXYZ a1 a2 a3 = mkXYZ b1 b2 b3.
Proof. intros. subst. reflexivity. Qed.

Ltac v3 := unfold rotate, mirror, plus3, minus3, times3, cross3, dot3, mat_apply, OfVector, xyz_add, xyz_sub, xyz_scale, DotProduct, CrossProduct; num;
  cbn [gx gy gz m00 m01 m02 m03 m10 m11 m12 m13 m20 m21 m22 m23 m30 m31 m32 m33]; num.

Lemma rot_affine u th : is_affine (rot u th).
Proof. repeat split. Qed.

Lemma rot_rotate u th p : mat_apply (rot u th) p = rotate u th p.
Proof. unfold rot. v3. apply xyz_eq; ring. Qed.

Lemma rot_vector u th p : OfVector (rot u th) p = rotate u th p.
Proof. rewrite <- rot_rotate. unfold rot. v3. apply xyz_eq; ring. Qed.

Lemma sc th : (sin th * sin th = 1 - cos th * cos th)%R.
Proof. pose proof (sin2_cos2 th) as H. unfold Rsqr in H. lra. Qed.


Lemma rot_dot u th v w : dot3 u u = 1%R -> dot3 (rotate u th v) (rotate u th w) = dot3 v w.
Proof.
  intros Hu. unfold dot3 in Hu. destruct u as [x y z], v as [a b c], w as [d e f]. v3. cbn [gx gy gz] in Hu.
  pose proof (sc th) as Hsc. set (s := sin th) in *. set (k := cos th) in *.
  nsatz.
Qed.

Lemma rot_compose u a b : dot3 u u = 1%R -> m4_mul (rot u a) (rot u b) = rot u (a + b).
Proof.
  intros Hu. unfold dot3 in Hu. destruct u as [x y z]. unfold rot. mat. cbn [gx gy gz] in *.
  rewrite cos_plus, sin_plus. num. set (s1 := sin a). set (c1 := cos a). set (s2 := sin b). set (c2 := cos b).
  apply mkM_eq; nsatz.
Qed.

Lemma Normalize_dir (a : XYZ R) : a <> zero3 -> exists u, Normalize a = Ok u /\ direction_of a u.
Proof.
  intros H. assert (Hp : (0 < SqrLength a)%R).
  { unfold SqrLength. num. destruct a as [x y z]. cbn [gx gy gz]. destruct (Req_dec x 0), (Req_dec y 0), (Req_dec z 0); subst; try (exfalso; apply H; reflexivity); nra. }
  destruct (Normalize_pos a Hp) as (u & E & Hu & k & Hk & Ea). exists u. split; [exact E|]. split; [exact Hu|]. exists k. split; [exact Hk|].
  rewrite Ea. v3. apply xyz_eq; ring.
Qed.

Lemma Normalize_unit (u : XYZ R) : dot3 u u = 1%R -> Normalize u = Ok u.
Proof.
  intros H. unfold Normalize, Length. num. unfold dot3 in H. rewrite H. rewrite Rsqrt_ok by lra. cbn [bind]. rewrite sqrt_1.
  unfold Rltb. destruct (Rlt_dec 0 1); [|lra]. rewrite Rdiv_ok by lra. cbn [bind]. f_equal. destruct u. cbn [M_XYZ.gx M_XYZ.gy M_XYZ.gz]. apply xyz_eq; field.
Qed.

Lemma dir_unique a u v : direction_of a u -> direction_of a v -> u = v.
Proof.
  intros (Hu & k & Hk & E1) (Hv & l & Hl & E2).
  assert (Hkl : (k * k = l * l)%R).
  { transitivity (dot3 a a); [rewrite E1|rewrite E2]; unfold dot3, times3 in *; cbn [gx gy gz]; nra. }
  assert (k = l) by nra. subst l. rewrite E1 in E2. unfold times3 in E2. injection E2. intros. destruct u, v. cbn [M_XYZ.gx M_XYZ.gy M_XYZ.gz] in *. apply xyz_eq; nra.
Qed.

Lemma CreateRotation_ok axis th : axis <> zero3 -> returns (CreateRotation axis th) (fun M => is_affine M /\
  exists u, direction_of axis u /\ forall p, OfPoint M p = Ok (rotate u th p) /\ OfVector M p = rotate u th p).
Proof.
  intros H. destruct (Normalize_dir axis H) as (u & E & Hu). rewrite (CreateRotation_eq axis th u E). exists (rot u th). split; [reflexivity|].
  split; [apply rot_affine|]. exists u. split; [exact Hu|]. intros p. rewrite OfPoint_affine by apply rot_affine. rewrite rot_rotate, rot_vector. auto.
Qed.

Lemma CreateRotation_add axis a b : axis <> zero3 -> exists Ma Mb Mab, CreateRotation axis a = Ok Ma /\ CreateRotation axis b = Ok Mb /\
  CreateRotation axis (a + b)%R = Ok Mab /\ m4_mul Ma Mb = Mab /\ m4_mul (GetTranspose Ma) Ma = m4_id.
Proof.
  intros H. destruct (Normalize_dir axis H) as (u & E & Hu & _). exists (rot u a), (rot u b), (rot u (a + b)%R).
  rewrite !(CreateRotation_eq axis _ u E). repeat split; [apply rot_compose; exact Hu|].
  replace (GetTranspose (rot u a)) with (rot u (- a)%R).
  - rewrite rot_compose by exact Hu. replace (- a + a)%R with 0%R by ring. unfold rot. rewrite cos_0, sin_0. mat. apply mkM_eq; ring.
  - unfold rot. rewrite cos_neg, sin_neg. mat. apply mkM_eq; ring.
Qed.

(* a rotation keeps distances and the axis *)
Lemma rotate_axis u th k : dot3 u u = 1%R -> rotate u th (times3 k u) = times3 k u.
Proof. intros Hu. unfold dot3 in Hu. destruct u as [x y z]. v3. cbn [gx gy gz] in Hu. apply xyz_eq; nsatz. Qed.

Lemma RotationAtPoint_ok o axis th : axis <> zero3 -> returns (CreateRotationAtPoint o axis th) (fun M => is_affine M /\
  exists u, direction_of axis u /\ forall p, OfPoint M p = Ok (plus3 o (rotate u th (minus3 p o)))).
Proof.
  intros H. destruct (Normalize_dir axis H) as (u & E & Hu). unfold CreateRotationAtPoint. rewrite (CreateRotation_eq axis th u E). cbn [bind].
  eexists. split; [reflexivity|]. assert (HA : is_affine (SetBasisW (rot u th) (xyz_sub o (mkXYZ
    (m00 (rot u th) * gx o + m01 (rot u th) * gy o + m02 (rot u th) * gz o)%R (m10 (rot u th) * gx o + m11 (rot u th) * gy o + m12 (rot u th) * gz o)%R
    (m20 (rot u th) * gx o + m21 (rot u th) * gy o + m22 (rot u th) * gz o)%R)))) by (repeat split).
  split; [exact HA|]. exists u. split; [exact Hu|]. intros p. rewrite (OfPoint_affine _ _ HA). f_equal. rewrite <- rot_rotate.
  unfold SetBasisW. unfold mat_apply at 1. cbn [m00 m01 m02 m03 m10 m11 m12 m13 m20 m21 m22 m23 m30 m31 m32 m33].
  unfold mat_apply, plus3, minus3, xyz_sub. cbn [gx gy gz]. num.
  change (m03 (rot u th)) with 0%R. change (m13 (rot u th)) with 0%R. change (m23 (rot u th)) with 0%R. apply xyz_eq; ring.
Qed.

(** * Reflections *)
Lemma CreateReflection_ok nrm d : nrm <> zero3 -> returns (CreateReflection nrm d) (fun M => is_affine M /\ m4_mul M M = m4_id /\
  exists u, direction_of nrm u /\ forall p, OfPoint M p = Ok (mirror u (- d)%R p)).
Proof.
  intros H. destruct (Normalize_dir nrm H) as (u & E & Hu). unfold CreateReflection. rewrite E. cbn [bind]. eexists. split; [reflexivity|].
  match goal with |- is_affine ?M /\ _ => set (m := M) end. assert (HA : is_affine m) by (repeat split). split; [exact HA|]. split.
  - destruct Hu as [Hu _]. unfold dot3 in Hu. destruct u as [x y z]. unfold m. mat. cbn [gx gy gz] in *. change (IZR 2) with 2%R. apply mkM_eq; nsatz.
  - exists u. split; [exact Hu|]. intros p. rewrite (OfPoint_affine _ _ HA). f_equal. unfold m. v3. change (IZR 2) with 2%R. apply xyz_eq; ring.
Qed.

Lemma mirror_involution u c p : dot3 u u = 1%R -> mirror u c (mirror u c p) = p.
Proof. intros Hu. unfold dot3 in Hu. destruct u as [x y z], p as [a b d]. v3. cbn [gx gy gz] in Hu. apply xyz_eq; nsatz. Qed.

Lemma near_iff a b : xyz_IsAlmostEqualTo a b = true <-> near a b.
Proof.
  unfold xyz_IsAlmostEqualTo, near. rewrite !andb_true_iff. rewrite !aeq_iff, <- !P_Curve.tol_thr. tauto.
Qed.

Lemma CreateLine_near a b : ~ near a b <-> xyz_IsAlmostEqualTo a b = false.
Proof. rewrite <- near_iff. destruct (xyz_IsAlmostEqualTo a b); split; congruence. Qed.

Lemma basis_ok x y z o p : is_affine (m4_basis x y z o) /\
  OfPoint (m4_basis x y z o) p = Ok (plus3 o (plus3 (times3 (gx p) x) (plus3 (times3 (gy p) y) (times3 (gz p) z)))).
Proof.
  assert (HA : is_affine (m4_basis x y z o)) by (repeat split). split; [exact HA|]. rewrite (OfPoint_affine _ _ HA). f_equal.
  unfold m4_basis. v3. apply xyz_eq; ring.
Qed.

Lemma el_transpose (a : M4) i j : 0 <= i < 4 -> 0 <= j < 4 -> GetElement (GetTranspose a) i j = GetElement a j i.
Proof.
  intros Hi Hj. assert (i = 0 \/ i = 1 \/ i = 2 \/ i = 3) as Ei by lia. assert (j = 0 \/ j = 1 \/ j = 2 \/ j = 3) as Ej by lia.
  destruct Ei as [->|[->|[->| ->]]], Ej as [->|[->|[->| ->]]]; reflexivity.
Qed.

Lemma m4_algebra (a b c : M4) : m4_mul (m4_mul a b) c = m4_mul a (m4_mul b c) /\
  m4_mul m4_id a = a /\ m4_mul a m4_id = a /\ GetTranspose (m4_mul a b) = m4_mul (GetTranspose b) (GetTranspose a) /\
  GetTranspose (GetTranspose a) = a /\ (forall i j, 0 <= i < 4 -> 0 <= j < 4 -> GetElement (GetTranspose a) i j = GetElement a j i).
Proof.
  split; [apply m4_assoc|]. split; [apply m4_id_l|]. split; [apply m4_id_r|]. split; [apply m4_transpose_mul|]. split; [apply m4_transpose_inv|].
  exact (el_transpose a).
Qed.

Lemma rotate_add u a b v : dot3 u u = 1%R -> rotate u a (rotate u b v) = rotate u (a + b) v.
Proof.
  intros Hu. rewrite <- !rot_vector, <- rot_compose by exact Hu. symmetry. apply OfVector_mul. apply rot_affine.
Qed.

Lemma rotation_laws axis u a b v w : direction_of axis u ->
  dot3 (rotate u a v) (rotate u a w) = dot3 v w /\ rotate u a axis = axis /\
  rotate u a (rotate u b v) = rotate u (a + b) v /\
  (dot3 u v = 0%R -> dot3 v (rotate u a v) = (cos a * dot3 v v)%R /\ dot3 (cross3 u v) (rotate u a v) = (sin a * dot3 v v)%R).
Proof.
  intros (Hu & k & Hk & ->). split; [apply rot_dot; exact Hu|]. split; [apply rotate_axis; exact Hu|]. split; [apply rotate_add; exact Hu|].
  intros Hv. unfold dot3 in Hu, Hv. destruct u as [x y z], v as [e f g]. v3. cbn [gx gy gz] in *. generalize (sin a) (cos a). intros s c. clear Hk k w b a. split; [apply Rminus_diag_uniq|apply Rminus_diag_uniq]. { nsatz. } { nsatz. }
Qed.

Lemma rotation_zero_axis th p : returns (CreateRotation zero3 th) (fun M => OfPoint M p = Ok (times3 (cos th) p)).
Proof.
  unfold CreateRotation, Normalize, Length, zero3. num. cbn [gx gy gz]. rewrite Rsqrt_ok by lra. cbn [bind].
  replace (0 * 0 + 0 * 0 + 0 * 0)%R with 0%R by ring. rewrite sqrt_0. unfold Rltb. destruct (Rlt_dec 0 0); [lra|]. cbn [bind].
  eexists. split; [reflexivity|]. rewrite OfPoint_affine by (repeat split). f_equal. v3. apply xyz_eq; ring.
Qed.

Lemma reflection_plane d : d <> 0%R -> returns (CreateReflection (mkXYZ 0 0 1)%R d) (fun M =>
  OfPoint M (mkXYZ 0 0 d)%R = Ok (mkXYZ 0 0 (-3 * d))%R).
Proof.
  intros _. unfold CreateReflection. rewrite Normalize_unit by (unfold dot3; cbn [gx gy gz]; ring). cbn [bind]. eexists. split; [reflexivity|].
  rewrite OfPoint_affine by (repeat split). f_equal. v3. apply xyz_eq; ring.
Qed.

Lemma identity_accepted (v : XYZ R) : IsIdentity (A := R) m4_id = true /\ IsTranslation (CreateTranslation v) = true.
Proof.
  unfold IsIdentity, IsTranslation. mat. rewrite !Rplus_0_r, !aeq_refl. auto.
Qed.

Lemma HasReflection_iff (m : M4) : HasReflection m = true <->
  let x := mkXYZ (m00 m) (m10 m) (m20 m) in let y := mkXYZ (m01 m) (m11 m) (m21 m) in let z := mkXYZ (m02 m) (m12 m) (m22 m) in
  (dot3 (cross3 x y) z < - tol (dot3 (cross3 x y) z) 0)%R.
Proof.
  cbv zeta. unfold HasReflection. rewrite lt_iff, <- P_Curve.tol_thr. set (a := DotProduct _ _).
  replace (dot3 _ _) with a; [num; lra|]. unfold a, GetBasisX, GetBasisY, GetBasisZ. v3. ring.
Qed.

Lemma CreateLine_returns a b : ~ near a b ->
  returns (CreateLine a b) (fun c => exists H, c = mkCurve 1 [0; 0; 1; 1]%R H /\ len H = 2 /\ curve_knots 1 1 [0; 0; 1; 1]%R /\
    forall t, (0 <= t <= 1)%R -> NurbsPoint c t = Ok (plus3 (times3 (1 - t) a) (times3 t b))).
Proof.
  intros H. apply CreateLine_near in H. destruct (CreateLine_ok a b H) as (c & E & H' & E1 & E2 & E3 & E4). exists c. split; [exact E|].
  exists H'. split; [exact E1|]. split; [exact E2|]. split; [exact E3|]. intros t Ht. rewrite E4 by exact Ht. f_equal.
  cbn [Vec.vadd Vec.vscale Vec_XYZ]. v3. apply xyz_eq; ring.
Qed.
