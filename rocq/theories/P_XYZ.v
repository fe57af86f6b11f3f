(* Facts about the XYZ / XYZW vector algebra at the exact instance. *)
From Coq Require Import ZArith List Bool Reals Lra Lia Psatz.
From Verif Require Import Base Num Vec Spec M_MathUtils M_XYZ P_MathUtils P_Vec.
Open Scope R_scope.

Lemma xyz_eq (a b : XYZ R) : gx a = gx b -> gy a = gy b -> gz a = gz b -> a = b.
Proof. destruct a, b; cbn; congruence. Qed.

Ltac xyz := repeat match goal with v : XYZ R |- _ => let x := fresh "x" in let y := fresh "y" in let z := fresh "z" in destruct v as [x y z] end;
  unfold CrossProduct, DotProduct, SqrLength, xyz_add, xyz_sub, xyz_neg, xyz_scale, xyz0 in *; num; cbn [gx gy gz] in *.

Lemma Dot_bilinear (a b c : XYZ R) (s : R) :
  DotProduct (xyz_add a b) c = DotProduct a c + DotProduct b c /\
  DotProduct (xyz_scale s a) c = s * DotProduct a c /\
  DotProduct a c = DotProduct c a.
Proof. xyz; repeat split; ring. Qed.

Lemma SqrLength_nonneg (a : XYZ R) : 0 <= SqrLength a.
Proof. xyz. pose proof (Rle_0_sqr x). pose proof (Rle_0_sqr y). pose proof (Rle_0_sqr z). unfold Rsqr in *. lra. Qed.

Lemma Dot_pos (a : XYZ R) : 0 <= DotProduct a a /\ (DotProduct a a = 0 -> a = xyz0).
Proof.
  split; [apply SqrLength_nonneg|]. destruct a as [x y z]. unfold DotProduct, xyz0. num. cbn [gx gy gz]. intros H.
  assert (x = 0) by nra. assert (y = 0) by nra. assert (z = 0) by nra. subst. reflexivity.
Qed.

Lemma Cross_bilinear (a b c : XYZ R) (s : R) :
  CrossProduct (xyz_add a b) c = xyz_add (CrossProduct a c) (CrossProduct b c) /\
  CrossProduct (xyz_scale s a) c = xyz_scale s (CrossProduct a c) /\
  CrossProduct a c = xyz_neg (CrossProduct c a).
Proof. xyz; repeat split; apply xyz_eq; cbn; ring. Qed.

Lemma Cross_orthogonal (a b : XYZ R) :
  DotProduct (CrossProduct a b) a = 0 /\ DotProduct (CrossProduct a b) b = 0.
Proof. xyz; split; ring. Qed.

Lemma Lagrange (a b : XYZ R) :
  SqrLength (CrossProduct a b) = SqrLength a * SqrLength b - DotProduct a b * DotProduct a b.
Proof. xyz; ring. Qed.

Lemma Length_spec (a : XYZ R) : Length a = Ok (sqrt (DotProduct a a)).
Proof.
  unfold Length. xyz. apply Rsqrt_ok. nra.
Qed.

Lemma Normalize_spec (a : XYZ R) : a <> xyz0 ->
  returns (Normalize a) (fun u => SqrLength u = 1 /\ exists s, 0 < s /\ a = xyz_scale s u).
Proof.
  intros Ha. unfold Normalize. rewrite Length_spec. cbn [bind]. num.
  pose proof (Dot_pos a) as [P PZ].
  assert (0 < DotProduct a a) by (destruct (Req_dec (DotProduct a a) 0) as [E|E]; [exfalso; apply Ha, PZ; exact E|lra]).
  assert (HS : 0 < sqrt (DotProduct a a)) by (apply sqrt_lt_R0; lra).
  destruct (Rltb_spec 0 (sqrt (DotProduct a a))); [|lra].
  rewrite Rdiv_ok by lra. cbn [bind]. eexists. split; [reflexivity|].
  pose proof (sqrt_sqrt _ P) as E.
  set (L := sqrt (DotProduct a a)) in *. split.
  - xyz. replace (_ + _ + _) with ((x * x + y * y + z * z) * ((1 / L) * (1 / L))) by ring.
    rewrite <- E. field. lra.
  - exists L. split; [exact HS|]. xyz. f_equal; field; lra.
Qed.

Lemma Normalize_zero : Normalize (xyz0 (A := R)) = Ok xyz0.
Proof.
  unfold Normalize. rewrite Length_spec. cbn [bind]. xyz.
  replace (0 * 0 + 0 * 0 + 0 * 0) with 0 by ring. rewrite sqrt_0.
  destruct (Rltb_spec 0 0); [lra|reflexivity].
Qed.

Definition dist (a b : XYZ R) : R := sqrt (SqrLength (xyz_sub b a)).

Lemma Distance_spec (a b : XYZ R) : Distance a b = Ok (dist a b).
Proof.
  unfold Distance, dist. rewrite !npow_R. num.
  replace (_ + _ + _) with (SqrLength (xyz_sub b a)) by (xyz; ring).
  apply Rsqrt_ok. apply SqrLength_nonneg.
Qed.

Lemma SqrLength_zero (a : XYZ R) : SqrLength a = 0 -> a = xyz0.
Proof. intros H. apply (proj2 (Dot_pos a)). exact H. Qed.

Lemma dist_sym a b : dist a b = dist b a.
Proof. unfold dist. f_equal. xyz. ring. Qed.

Lemma dist_nonneg a b : 0 <= dist a b.
Proof. apply sqrt_pos. Qed.

Lemma dist_zero a b : dist a b = 0 <-> a = b.
Proof.
  unfold dist. split.
  - intros H. apply sqrt_eq_0 in H; [|apply SqrLength_nonneg]. apply SqrLength_zero in H.
    destruct a as [a1 a2 a3], b as [b1 b2 b3]. unfold xyz_sub, xyz0 in H. num. cbn [gx gy gz] in H. injection H. intros.
    f_equal; lra.
  - intros ->. replace (SqrLength (xyz_sub b b)) with 0 by (xyz; ring). apply sqrt_0.
Qed.

Lemma Cauchy_Schwarz (a b : XYZ R) : DotProduct a b <= sqrt (SqrLength a) * sqrt (SqrLength b).
Proof.
  rewrite <- sqrt_mult by apply SqrLength_nonneg.
  destruct (Rle_dec (DotProduct a b) 0).
  { pose proof (sqrt_pos (SqrLength a * SqrLength b)). lra. }
  rewrite <- (sqrt_square (DotProduct a b)) by lra. apply sqrt_le_1.
  - nra.
  - apply Rmult_le_pos; apply SqrLength_nonneg.
  - pose proof (Lagrange a b). pose proof (SqrLength_nonneg (CrossProduct a b)). lra.
Qed.

Lemma norm_triangle (a b : XYZ R) :
  sqrt (SqrLength (xyz_add a b)) <= sqrt (SqrLength a) + sqrt (SqrLength b).
Proof.
  pose proof (sqrt_pos (SqrLength a)). pose proof (sqrt_pos (SqrLength b)).
  rewrite <- (sqrt_square (sqrt (SqrLength a) + sqrt (SqrLength b))) by lra.
  apply sqrt_le_1; [apply SqrLength_nonneg|nra|].
  pose proof (Cauchy_Schwarz a b).
  pose proof (sqrt_sqrt (SqrLength a) (SqrLength_nonneg a)).
  pose proof (sqrt_sqrt (SqrLength b) (SqrLength_nonneg b)).
  replace (SqrLength (xyz_add a b)) with (SqrLength a + SqrLength b + 2 * DotProduct a b) by (xyz; ring).
  nra.
Qed.

Lemma dist_triangle a b c : dist a c <= dist a b + dist b c.
Proof.
  unfold dist. replace (xyz_sub c a) with (xyz_add (xyz_sub b a) (xyz_sub c b)).
  - apply norm_triangle.
  - xyz. f_equal; ring.
Qed.

(* homogeneous coordinates *)
Lemma ToXYZ_mkW (p : XYZ R) w : IsAlmostEqualTo w 0 = false -> ToXYZ (mkW p w) true = Ok p.
Proof.
  intros H. unfold ToXYZ, mkW. cbn [ww wx wy wz]. num. rewrite H.
  assert (w <> 0) by (intros ->; rewrite aeq_refl in H; discriminate).
  rewrite !Rdiv_ok by auto. cbn [bind]. destruct p. cbn. do 2 f_equal; field; auto.
Qed.

Lemma ToXYZ_div (p : XYZW R) : IsAlmostEqualTo (ww p) 0 = false ->
  ToXYZ p true = Ok (mkXYZ (wx p / ww p) (wy p / ww p) (wz p / ww p)).
Proof.
  intros H. unfold ToXYZ. num. rewrite H.
  assert (ww p <> 0) by (intros E; rewrite E, aeq_refl in H; discriminate).
  rewrite !Rdiv_ok by auto. reflexivity.
Qed.

Lemma ToXYZ_small (p : XYZW R) : IsAlmostEqualTo (ww p) 0 = true ->
  ToXYZ p true = Ok (mkXYZ (wx p) (wy p) (wz p)).
Proof. intros H. unfold ToXYZ. num. rewrite H. reflexivity. Qed.

(* IsUnit and IsZero use squared tolerances *)
Lemma IsZero_spec (a : XYZ R) : IsZero a = true <-> dist xyz0 a <= 1 / 1000000.
Proof.
  unfold IsZero, IsZero_eps. num. rewrite Rleb_true, eps_val. unfold dist.
  replace (xyz_sub a xyz0) with a by (xyz; f_equal; ring).
  pose proof (SqrLength_nonneg a) as P. pose proof (sqrt_sqrt _ P) as E.
  pose proof (sqrt_pos (SqrLength a)). split; intros H1.
  - apply Rnot_lt_le. intros H2. nra.
  - nra.
Qed.

Lemma Dot_laws (a b c : XYZ R) (s : R) :
  DotProduct (xyz_add a b) c = (DotProduct a c + DotProduct b c)%R /\
  DotProduct (xyz_scale s a) c = (s * DotProduct a c)%R /\
  DotProduct a c = DotProduct c a /\
  (0 <= DotProduct a a)%R /\ (DotProduct a a = 0%R -> a = xyz0).
Proof.
  destruct (Dot_bilinear a b c s) as (H1 & H2 & H3). destruct (Dot_pos a) as [H4 H5]. auto.
Qed.

Lemma Cross_basis :
  CrossProduct (mkXYZ 1 0 0)%R (mkXYZ 0 1 0)%R = mkXYZ 0%R 0%R 1%R /\
  CrossProduct (mkXYZ 0 1 0)%R (mkXYZ 0 0 1)%R = mkXYZ 1%R 0%R 0%R /\
  CrossProduct (mkXYZ 0 0 1)%R (mkXYZ 1 0 0)%R = mkXYZ 0%R 1%R 0%R.
Proof. xyz; repeat split; apply xyz_eq; cbn [gx gy gz]; ring. Qed.

Lemma xyz_example : mkXYZ 3%R 4%R 0%R <> xyz0.
Proof. intros H. injection H. num. lra. Qed.

Lemma Distance_metric (a b c : XYZ R) : exists dab dba dbc dac,
  Distance a b = Ok dab /\ Distance b a = Ok dba /\ Distance b c = Ok dbc /\ Distance a c = Ok dac /\
  dab = dba /\ (0 <= dab)%R /\ (dab = 0%R <-> a = b) /\ (dac <= dab + dbc)%R /\
  (dab * dab = SqrLength (xyz_sub b a))%R.
Proof.
  exists (dist a b), (dist b a), (dist b c), (dist a c). rewrite !Distance_spec.
  repeat (split; [reflexivity|]). split; [apply dist_sym|]. split; [apply dist_nonneg|].
  split; [apply dist_zero|]. split; [apply dist_triangle|].
  unfold dist. apply sqrt_sqrt. apply SqrLength_nonneg.
Qed.
