(* Lines, planes, projections and the Simpson rules. *)
From Coq Require Import ZArith List Bool Reals Lra Lia Nsatz Psatz.
From Verif Require Import Base Num Vec Spec Spec3 M_MathUtils M_XYZ M_Matrix M_Geom P_MathUtils P_XYZ P_Curve P_Matrix.
Import ListNotations.
Open Scope Z_scope.

Lemma small_iff x : IsAlmostEqualTo x 0%R = true <-> small x.
Proof.
  rewrite aeq_iff. unfold small, thr, eps. rewrite Rabs_R0, Rminus_0_r, Rmax_left by apply Rabs_pos. split; lra.
Qed.
Lemma small_false x : IsAlmostEqualTo x 0%R = false <-> ~ small x.
Proof. rewrite <- small_iff. destruct (IsAlmostEqualTo x 0%R); split; congruence. Qed.
Lemma small_abs x : small (Rabs x) <-> small x.
Proof. unfold small. rewrite Rabs_Rabsolu. tauto. Qed.
Lemma small_0 : small 0.
Proof. unfold small. rewrite Rabs_R0. lra. Qed.

Ltac d3 := repeat match goal with a : XYZ R |- _ => let x := fresh "x" in let y := fresh "y" in let z := fresh "z" in destruct a as [x y z] end.
Ltac v3h := unfold line_at, rotate, mirror, plus3, minus3, times3, cross3, dot3, xyz_add, xyz_sub, xyz_scale, DotProduct, CrossProduct in *; num;
  cbn [gx gy gz] in *; num.

Lemma sub_eq (a b : XYZ R) : xyz_sub a b = minus3 a b. Proof. reflexivity. Qed.
Lemma add_eq (a b : XYZ R) : xyz_add a b = plus3 a b. Proof. reflexivity. Qed.
Lemma scale_eq k (a : XYZ R) : xyz_scale k a = times3 k a.
Proof. v3. apply xyz_eq; ring. Qed.
Lemma dot_eq (a b : XYZ R) : DotProduct a b = dot3 a b. Proof. reflexivity. Qed.
Lemma cross_eq (a b : XYZ R) : CrossProduct a b = cross3 a b.
Proof. v3. apply xyz_eq; ring. Qed.
Ltac g3 := change (@xyz_sub R _) with minus3 in *; change (@xyz_add R _) with plus3 in *; change (@DotProduct R _) with dot3 in *.
Lemma dot_pos a : (0 <= dot3 a a)%R.
Proof. unfold dot3. nra. Qed.
Lemma Length_eq (a : XYZ R) : Length a = Ok (norm3 a).
Proof. unfold Length, norm3. num. rewrite Rsqrt_ok; [reflexivity|]. apply dot_pos. Qed.
Lemma dist_sym a b : dist3 a b = dist3 b a.
Proof. unfold dist3, norm3. f_equal. d3. v3. ring. Qed.
Lemma Distance_eq (a b : XYZ R) : Distance a b = Ok (dist3 a b).
Proof.
  rewrite dist_sym. unfold Distance, dist3, norm3, npow. num. cbn. 
  match goal with |- Rsqrt_ ?x = _ => replace x with (dot3 (minus3 b a) (minus3 b a)) end; [rewrite Rsqrt_ok by apply dot_pos; reflexivity|].
  d3. v3. ring.
Qed.

(** * Line and plane *)
Lemma LineAndPlane_ok nrm q p d out :
  (~ small (dot3 d nrm) -> exists x t, ComputeLineAndPlane nrm q p d out = Ok (LP_Intersecting, x) /\
      x = line_at p d t /\ dot3 (minus3 x q) nrm = 0%R /\ forall s, dot3 (minus3 (line_at p d s) q) nrm = 0%R -> s = t) /\
  (small (dot3 d nrm) -> small (dot3 (minus3 p q) nrm) -> ComputeLineAndPlane nrm q p d out = Ok (LP_On, p)) /\
  (small (dot3 d nrm) -> ~ small (dot3 (minus3 p q) nrm) -> ComputeLineAndPlane nrm q p d out = Ok (LP_Parallel, out)).
Proof.
  assert (HN : forall x, small (- x) <-> small x) by (intros; unfold small; rewrite Rabs_Ropp; tauto).
  unfold ComputeLineAndPlane. num. g3. split; [|split].
  - intros H. rewrite (proj2 (small_false _)) by (rewrite small_abs; exact H).
    assert (Hd : dot3 d nrm <> 0%R) by (intros E; apply H; rewrite E; exact small_0).
    rewrite Rdiv_ok by exact Hd. cbn [bind]. eexists. exists (- dot3 (minus3 p q) nrm / dot3 d nrm)%R. split; [reflexivity|]. rewrite scale_eq; g3. split; [reflexivity|].
    assert (HL : forall s, dot3 (minus3 (line_at p d s) q) nrm = (dot3 (minus3 p q) nrm + s * dot3 d nrm)%R) by (intros s; clear; d3; v3h; ring).
    split; [fold (line_at p d (- dot3 (minus3 p q) nrm / dot3 d nrm)); rewrite HL; field; exact Hd|].
    intros s Hs. rewrite HL in Hs. apply (Rmult_eq_reg_r (dot3 d nrm)); [|exact Hd]. field_simplify; [lra|exact Hd].
  - intros H1 H2. rewrite (proj2 (small_iff _)) by (rewrite small_abs; exact H1). rewrite (proj2 (small_iff _)) by (rewrite small_abs, HN; exact H2). reflexivity.
  - intros H1 H2. rewrite (proj2 (small_iff _)) by (rewrite small_abs; exact H1). rewrite (proj2 (small_false _)) by (rewrite small_abs, HN; exact H2). reflexivity.
Qed.

(** * Projections *)
Lemma foot a v x : dot3 v v <> 0%R -> let t := (dot3 (minus3 x a) v / dot3 v v)%R in
  dot3 (minus3 x (line_at a v t)) v = 0%R /\ (forall s, (dist3 x (line_at a v t) <= dist3 x (line_at a v s))%R) /\
  (forall s, dist3 x (line_at a v s) = dist3 x (line_at a v t) -> s = t).
Proof.
  intros Hd t. assert (E : dot3 (minus3 x (line_at a v t)) v = 0%R).
  { transitivity (dot3 (minus3 x a) v - t * dot3 v v)%R; [clear; d3; v3h; ring|]. unfold t. field. exact Hd. }
  assert (Hs : forall s, dot3 (minus3 x (line_at a v s)) (minus3 x (line_at a v s)) =
     (dot3 (minus3 x (line_at a v t)) (minus3 x (line_at a v t)) + (s - t) * (s - t) * dot3 v v)%R).
  { intros s. transitivity (dot3 (minus3 x (line_at a v t)) (minus3 x (line_at a v t)) - 2 * (s - t) * dot3 (minus3 x (line_at a v t)) v + (s - t) * (s - t) * dot3 v v)%R.
    - clearbody t. clear. d3. v3h. ring.
    - rewrite E. ring. }
  assert (Hp : (0 < dot3 v v)%R) by (pose proof (dot_pos v); lra).
  split; [exact E|]. split.
  - intros s. unfold dist3, norm3. apply sqrt_le_1_alt. rewrite (Hs s). pose proof (Rle_0_sqr (s - t)) as Hq. unfold Rsqr in Hq. pose proof (Rmult_le_pos _ _ Hq (Rlt_le _ _ Hp)). lra.
  - intros s HE. unfold dist3, norm3 in HE. apply sqrt_inj in HE; try apply dot_pos. rewrite (Hs s) in HE. assert (HZ : ((s - t) * (s - t) = 0)%R). { apply (Rmult_eq_reg_r (dot3 v v)); [lra|exact Hd]. } apply Rmult_integral in HZ. lra.
Qed.

Lemma PointToRay_ok a v x : v <> zero3 -> exists t, PointToRay a v x = Ok (line_at a v t) /\ dot3 (minus3 x (line_at a v t)) v = 0%R /\
  forall s, (dist3 x (line_at a v t) <= dist3 x (line_at a v s))%R.
Proof.
  intros Hv. assert (Hd : dot3 v v <> 0%R).
  { intros E. apply Hv. destruct v as [x1 y1 z1]. unfold dot3 in E. cbn [gx gy gz] in E. unfold zero3. apply xyz_eq; nra. }
  exists (dot3 (minus3 x a) v / dot3 v v)%R. unfold PointToRay. num. g3; rewrite Rdiv_ok by exact Hd. cbn [bind]. rewrite scale_eq; g3.
  split; [reflexivity|]. destruct (foot a v x Hd) as (E1 & E2 & _). auto.
Qed.

Lemma PointToRay_zero a x : PointToRay a zero3 x = NonFin.
Proof. unfold PointToRay. num. g3. replace (dot3 zero3 zero3) with 0%R by (unfold dot3, zero3; cbn [gx gy gz]; ring). rewrite Rdiv_zero by reflexivity. reflexivity. Qed.

Lemma PointToLine_ok a b x : ~ small (dot3 (minus3 b a) (minus3 b a)) ->
  exists t, dot3 (minus3 x (line_at a (minus3 b a) t)) (minus3 b a) = 0%R /\
    (forall s, (dist3 x (line_at a (minus3 b a) t) <= dist3 x (line_at a (minus3 b a) s))%R) /\
    PointToLine a b x = Ok (if Rlt_dec t (- tol t 0) then None else if Rlt_dec (1 + tol t 1) t then None else Some (line_at a (minus3 b a) t)).
Proof.
  intros Hs. assert (Hd : dot3 (minus3 b a) (minus3 b a) <> 0%R) by (intros E; apply Hs; rewrite E; exact small_0).
  destruct (foot a (minus3 b a) x Hd) as (E1 & E2 & _). set (t := (dot3 (minus3 x a) (minus3 b a) / dot3 (minus3 b a) (minus3 b a))%R) in *.
  exists t. split; [exact E1|]. split; [exact E2|]. unfold PointToLine. num. g3.
  rewrite (proj2 (small_false _)) by exact Hs. rewrite Rdiv_ok by exact Hd. cbn [bind]. fold t.
  rewrite scale_eq; g3. fold (line_at a (minus3 b a) t).
  destruct (Rlt_dec t (- tol t 0)) as [h|h].
  - rewrite (proj2 (lt_iff t 0)) by (rewrite <- tol_thr; lra). reflexivity.
  - rewrite (proj2 (lt_false t 0)) by (rewrite <- tol_thr; lra). cbn [orb]. destruct (Rlt_dec (1 + tol t 1) t) as [h'|h'].
    + rewrite (proj2 (gt_iff t 1)) by (rewrite <- tol_thr; lra). reflexivity.
    + destruct (IsGreaterThan t 1%R) eqn:E; [|reflexivity]. apply gt_iff in E. rewrite <- tol_thr in E. lra.
Qed.

Lemma PointToLine_small a b x : small (dot3 (minus3 b a) (minus3 b a)) -> PointToLine a b x = Ok None.
Proof. intros H. unfold PointToLine. num. g3. rewrite (proj2 (small_iff _)) by exact H. reflexivity. Qed.

Lemma Stereographic_ok p r : (gz p <> 2 * r)%R -> exists k, Stereographic p r = Ok (line_at (mkXYZ 0 0 (2 * r))%R (minus3 p (mkXYZ 0 0 (2 * r))%R) k) /\
  gz (line_at (mkXYZ 0 0 (2 * r))%R (minus3 p (mkXYZ 0 0 (2 * r))%R) k) = 0%R.
Proof.
  intros H. exists (- 2 * r / (gz p - 2 * r))%R. unfold Stereographic. num. rewrite Rdiv_ok by lra. cbn [bind]. split.
  - f_equal. v3h. apply xyz_eq; field; lra.
  - v3h. field. lra.
Qed.

Lemma Stereographic_pole p r : (gz p = 2 * r)%R -> Stereographic p r = NonFin.
Proof. intros H. unfold Stereographic. num. rewrite Rdiv_zero by lra. reflexivity. Qed.

(** * Two lines *)
Lemma ComputeRays_zero p0 v0 p1 v1 a b out : ~ (near v0 v1 /\ near p0 p1) -> (dot3 v0 v0 <= 1 / 10 ^ 12)%R \/ (dot3 v1 v1 <= 1 / 10 ^ 12)%R ->
  ComputeRays p0 v0 p1 v1 a b out = Throw.
Proof.
  intros Hn Hz. unfold ComputeRays. destruct (xyz_IsAlmostEqualTo v0 v1 && xyz_IsAlmostEqualTo p0 p1) eqn:E.
  - exfalso. apply Hn. apply andb_true_iff in E as [E1 E2]. split; apply near_iff; assumption.
  - assert (HZ : forall v, IsZero v = true <-> (dot3 v v <= 1 / 10 ^ 12)%R).
    { intros v. unfold IsZero, IsZero_eps. num. unfold Rleb. change (SqrLength v) with (dot3 v v).
      replace (DoubleEpsilon * DoubleEpsilon)%R with (1 / 10 ^ 12)%R by (unfold DoubleEpsilon; num; field).
      destruct (Rle_dec (dot3 v v) (1 / 10 ^ 12)); split; intros; (reflexivity || assumption || congruence). }
    destruct (IsZero v0) eqn:E0; [reflexivity|]. cbn [negb validate bind]. destruct (IsZero v1) eqn:E1; [reflexivity|].
    exfalso. destruct Hz as [Hz|Hz]; apply HZ in Hz; congruence.
Qed.

Definition gram (v0 v1 : XYZ R) : R := (dot3 v0 v0 * dot3 v1 v1 - dot3 v0 v1 * dot3 v0 v1)%R.

Lemma ComputeRays_near p0 v0 p1 v1 a b out : near v0 v1 -> near p0 p1 -> ComputeRays p0 v0 p1 v1 a b out = Ok (Intersecting, 0, 0, p0)%R.
Proof. intros H1 H2. unfold ComputeRays. apply near_iff in H1, H2. rewrite H1, H2. reflexivity. Qed.

Lemma closest p0 v0 p1 v1 s t : gram v0 v1 <> 0%R ->
  s = ((dot3 v0 v1 * dot3 v1 (minus3 p0 p1) - dot3 v1 v1 * dot3 v0 (minus3 p0 p1)) / gram v0 v1)%R ->
  t = ((dot3 v0 v0 * dot3 v1 (minus3 p0 p1) - dot3 v0 v1 * dot3 v0 (minus3 p0 p1)) / gram v0 v1)%R ->
  dot3 (minus3 (line_at p0 v0 s) (line_at p1 v1 t)) v0 = 0%R /\ dot3 (minus3 (line_at p0 v0 s) (line_at p1 v1 t)) v1 = 0%R.
Proof.
  intros Hg Es Et.
  assert (A0 : dot3 (minus3 (line_at p0 v0 s) (line_at p1 v1 t)) v0 = (dot3 v0 (minus3 p0 p1) + s * dot3 v0 v0 - t * dot3 v0 v1)%R) by (clear; d3; v3h; ring).
  assert (A1 : dot3 (minus3 (line_at p0 v0 s) (line_at p1 v1 t)) v1 = (dot3 v1 (minus3 p0 p1) + s * dot3 v0 v1 - t * dot3 v1 v1)%R) by (clear; d3; v3h; ring).
  rewrite A0, A1, Es, Et. unfold gram in *. split; field; exact Hg.
Qed.

Lemma gap_min p0 v0 p1 v1 s t : dot3 (minus3 (line_at p0 v0 s) (line_at p1 v1 t)) v0 = 0%R -> dot3 (minus3 (line_at p0 v0 s) (line_at p1 v1 t)) v1 = 0%R ->
  forall s' t', (dist3 (line_at p0 v0 s) (line_at p1 v1 t) <= dist3 (line_at p0 v0 s') (line_at p1 v1 t'))%R.
Proof.
  intros E0 E1 s' t'. unfold dist3, norm3. apply sqrt_le_1_alt. set (g := minus3 (line_at p0 v0 s) (line_at p1 v1 t)) in *.
  set (h := minus3 (times3 (s' - s) v0) (times3 (t' - t) v1)).
  assert (E : minus3 (line_at p0 v0 s') (line_at p1 v1 t') = plus3 g h) by (unfold g, h; clear; d3; v3h; apply xyz_eq; ring).
  rewrite E. assert (EE : dot3 (plus3 g h) (plus3 g h) = (dot3 g g + 2 * ((s' - s) * dot3 g v0 - (t' - t) * dot3 g v1) + dot3 h h)%R).
  { unfold h. clearbody g. clear. d3. v3h. ring. }
  rewrite EE, E0, E1. pose proof (dot_pos h). lra.
Qed.

(* the closest points are unique when the directions are independent *)
Lemma meet_unique p0 v0 p1 v1 s t s' t' : gram v0 v1 <> 0%R ->
  s = ((dot3 v0 v1 * dot3 v1 (minus3 p0 p1) - dot3 v1 v1 * dot3 v0 (minus3 p0 p1)) / gram v0 v1)%R ->
  t = ((dot3 v0 v0 * dot3 v1 (minus3 p0 p1) - dot3 v0 v1 * dot3 v0 (minus3 p0 p1)) / gram v0 v1)%R ->
  line_at p0 v0 s' = line_at p1 v1 t' -> s = s' /\ t = t'.
Proof.
  intros Hg Es Et E. assert (Ed : minus3 p0 p1 = minus3 (times3 t' v1) (times3 s' v0)).
  { clear -E. d3. v3h. injection E. intros. apply xyz_eq; lra. }
  rewrite Ed in Es, Et.
  assert (F0 : dot3 v0 (minus3 (times3 t' v1) (times3 s' v0)) = (t' * dot3 v0 v1 - s' * dot3 v0 v0)%R) by (clear; d3; v3h; ring).
  assert (F1 : dot3 v1 (minus3 (times3 t' v1) (times3 s' v0)) = (t' * dot3 v1 v1 - s' * dot3 v0 v1)%R) by (clear; d3; v3h; ring).
  rewrite F0, F1 in Es, Et. rewrite Es, Et. unfold gram in *. split; field; exact Hg.
Qed.

Lemma line_mid p v s : times3 (1 / 2) (plus3 (line_at p v s) (line_at p v s)) = line_at p v s.
Proof. d3. v3h. apply xyz_eq; field. Qed.
Lemma dist_self a : dist3 a a = 0%R.
Proof. unfold dist3, norm3. replace (dot3 _ _) with 0%R; [exact sqrt_0|]. d3. v3h. ring. Qed.

Section Rays.
Variables p0 v0 p1 v1 : XYZ R.
Hypothesis Hn : ~ (near v0 v1 /\ near p0 p1).
Hypothesis H0 : (1 / 10 ^ 12 < dot3 v0 v0)%R.
Hypothesis H1 : (1 / 10 ^ 12 < dot3 v1 v1)%R.

Lemma ComputeRays_start a b out : ComputeRays p0 v0 p1 v1 a b out =
  let denom := gram v0 v1 in
  if IsAlmostEqualTo (Rabs denom) 0%R then
    (if IsAlmostEqualTo (norm3 (cross3 (minus3 p1 p0) v0)) 0%R then Ok (Coincident, 0, 0, p0)%R else Ok (Parallel, a, b, out))
  else
    let s := ((dot3 v0 v1 * dot3 v1 (minus3 p0 p1) - dot3 v1 v1 * dot3 v0 (minus3 p0 p1)) / denom)%R in
    let t := ((dot3 v0 v0 * dot3 v1 (minus3 p0 p1) - dot3 v0 v1 * dot3 v0 (minus3 p0 p1)) / denom)%R in
    if IsAlmostEqualTo (dist3 (line_at p0 v0 s) (line_at p1 v1 t)) 0%R
    then Ok (Intersecting, s, t, times3 (1 / 2) (plus3 (line_at p0 v0 s) (line_at p1 v1 t)))
    else Ok (Skew, s, t, line_at p0 v0 s).
Proof.
  unfold ComputeRays. destruct (xyz_IsAlmostEqualTo v0 v1 && xyz_IsAlmostEqualTo p0 p1) eqn:E.
  { exfalso. apply Hn. apply andb_true_iff in E as [E1 E2]. split; apply near_iff; assumption. }
  assert (HZ : forall v, (1 / 10 ^ 12 < dot3 v v)%R -> IsZero v = false).
  { intros v Hv. unfold IsZero, IsZero_eps. num. unfold Rleb. change (SqrLength v) with (dot3 v v).
    replace (DoubleEpsilon * DoubleEpsilon)%R with (1 / 10 ^ 12)%R by (unfold DoubleEpsilon; num; field).
    destruct (Rle_dec (dot3 v v) (1 / 10 ^ 12)); [lra|reflexivity]. }
  rewrite !HZ by assumption. cbn [negb validate bind]. num. g3. fold (gram v0 v1). cbv zeta.
  destruct (IsAlmostEqualTo (Rabs (gram v0 v1)) 0%R) eqn:Ed.
  - rewrite cross_eq, Length_eq. cbn [bind]. reflexivity.
  - assert (Hd : gram v0 v1 <> 0%R). { intros Eg. apply small_false in Ed. apply Ed. rewrite Eg, Rabs_R0. exact small_0. }
    rewrite !Rdiv_ok by exact Hd. cbn [bind]. rewrite !scale_eq; g3; rewrite Distance_eq. cbn [bind]. unfold line_at.
    destruct (IsAlmostEqualTo _ _); [|reflexivity]. unfold nlit; num; reflexivity.
Qed.

Lemma ComputeRays_cases a b out :
  (small (gram v0 v1) -> small (norm3 (cross3 (minus3 p1 p0) v0)) -> ComputeRays p0 v0 p1 v1 a b out = Ok (Coincident, 0, 0, p0)%R) /\
  (small (gram v0 v1) -> ~ small (norm3 (cross3 (minus3 p1 p0) v0)) -> ComputeRays p0 v0 p1 v1 a b out = Ok (Parallel, a, b, out)) /\
  (~ small (gram v0 v1) -> exists s t,
     (forall s' t', (dist3 (line_at p0 v0 s) (line_at p1 v1 t) <= dist3 (line_at p0 v0 s') (line_at p1 v1 t'))%R) /\
     (forall s' t', line_at p0 v0 s' = line_at p1 v1 t' -> s' = s /\ t' = t) /\
     (small (dist3 (line_at p0 v0 s) (line_at p1 v1 t)) ->
        ComputeRays p0 v0 p1 v1 a b out = Ok (Intersecting, s, t, times3 (1 / 2) (plus3 (line_at p0 v0 s) (line_at p1 v1 t)))) /\
     (~ small (dist3 (line_at p0 v0 s) (line_at p1 v1 t)) -> ComputeRays p0 v0 p1 v1 a b out = Ok (Skew, s, t, line_at p0 v0 s))).
Proof.
  split; [|split].
  - intros S1 S2. rewrite ComputeRays_start. cbv zeta. rewrite (proj2 (small_iff _)) by (apply small_abs; exact S1). rewrite (proj2 (small_iff _)) by exact S2. reflexivity.
  - intros S1 S2. rewrite ComputeRays_start. cbv zeta. rewrite (proj2 (small_iff _)) by (apply small_abs; exact S1). rewrite (proj2 (small_false _)) by exact S2. reflexivity.
  - intros S1. assert (Hg : gram v0 v1 <> 0%R) by (intros E; apply S1; rewrite E; exact small_0).
    eexists. eexists. split; [|split; [|split]].
    + intros s' t'. edestruct closest as [C0 C1]; [exact Hg|reflexivity|reflexivity|]. apply gap_min; [exact C0|exact C1].
    + intros s' t' E. edestruct meet_unique as [M0 M1]; [exact Hg|reflexivity|reflexivity|exact E|]. split; symmetry; [exact M0|exact M1].
    + intros S2. rewrite ComputeRays_start. cbv zeta. rewrite (proj2 (small_false _)) by (rewrite small_abs; exact S1). rewrite (proj2 (small_iff _)) by exact S2. reflexivity.
    + intros S2. rewrite ComputeRays_start. cbv zeta. rewrite (proj2 (small_false _)) by (rewrite small_abs; exact S1). rewrite (proj2 (small_false _)) by exact S2. reflexivity.
Qed.

Lemma ComputeRays_meet a b out s t : ~ small (gram v0 v1) -> line_at p0 v0 s = line_at p1 v1 t ->
  ComputeRays p0 v0 p1 v1 a b out = Ok (Intersecting, s, t, line_at p0 v0 s).
Proof.
  intros Hs E. destruct (ComputeRays_cases a b out) as (_ & _ & H). destruct (H Hs) as (s0 & t0 & _ & HU & HI & _).
  destruct (HU s t E) as [<- <-]. rewrite HI.
  - rewrite <- E, line_mid. reflexivity.
  - rewrite <- E, dist_self. exact small_0.
Qed.
End Rays.

(** * Simpson *)
Lemma antideriv_unique F G f : (forall t, derivable_pt_lim F t (f t)) -> (forall t, derivable_pt_lim G t (f t)) -> forall a b, (F b - F a = G b - G a)%R.
Proof.
  intros HF HG a b.
  assert (HD : forall t, derivable_pt_lim (F - G)%F t 0%R).
  { intros t. replace 0%R with (f t - f t)%R by ring. apply derivable_pt_lim_minus; [apply HF|apply HG]. }
  pose (pr := (fun t => exist _ 0%R (HD t)) : derivable (F - G)%F).
  assert (HC : constant (F - G)%F). { apply (null_derivative_1 _ pr). intros t. apply derive_pt_eq_0. apply HD. }
  specialize (HC a b). unfold minus_fct in HC. lra.
Qed.

Definition quartic a b c d (t : R) : R := (a * t + b / 2 * (t * t) + c / 3 * (t * t * t) + d / 4 * (t * t * t * t))%R.
Lemma dlim_eq f t l l' : derivable_pt_lim f t l -> l = l' -> derivable_pt_lim f t l'.
Proof. intros H <-. exact H. Qed.

Lemma quartic_deriv a b c d t : derivable_pt_lim (quartic a b c d) t (a + b * t + c * t ^ 2 + d * t ^ 3)%R.
Proof.
  unfold quartic.
  assert (HI : derivable_pt_lim (fun t => t) t 1%R) by apply derivable_pt_lim_id.
  assert (H2 := derivable_pt_lim_mult _ _ _ _ _ HI HI). assert (H3 := derivable_pt_lim_mult _ _ _ _ _ H2 HI). assert (H4 := derivable_pt_lim_mult _ _ _ _ _ H3 HI).
  assert (A := derivable_pt_lim_plus _ _ _ _ _ (derivable_pt_lim_plus _ _ _ _ _ (derivable_pt_lim_plus _ _ _ _ _
    (derivable_pt_lim_scal _ a _ _ HI) (derivable_pt_lim_scal _ (b / 2)%R _ _ H2)) (derivable_pt_lim_scal _ (c / 3)%R _ _ H3)) (derivable_pt_lim_scal _ (d / 4)%R _ _ H4)).
  apply (dlim_eq _ _ _ _ A). unfold mult_fct. field.
Qed.

(* value of the rule on polynomials *)
Lemma Simpson_quartic f a b c d s e : (forall t, f t = (a + b * t + c * t ^ 2 + d * t ^ 3)%R) ->
  Simpson f s e = Ok (quartic a b c d e - quartic a b c d s)%R.
Proof.
  intros Hf. unfold Simpson. num. rewrite !Rdiv_ok by lra. cbn [bind]. f_equal. rewrite !Hf. unfold quartic. field.
Qed.

Lemma Simpson_exact f F a b c d s e : (forall t, f t = (a + b * t + c * t ^ 2 + d * t ^ 3)%R) ->
  (forall t, derivable_pt_lim F t (f t)) -> Simpson f s e = Ok (F e - F s)%R.
Proof.
  intros Hf HF. rewrite (Simpson_quartic f a b c d) by exact Hf. f_equal. apply (antideriv_unique _ _ f); [|exact HF].
  intros t. rewrite Hf. apply quartic_deriv.
Qed.

Lemma rsum4 f : rsum 0 4 f = (f 0%Z + f 1%Z + f 2%Z + f 3%Z)%R.
Proof.
  change 4 with (3 + 1). rewrite rsum_last by lia. change 3 with (2 + 1) at 1. rewrite rsum_last by lia. change 2 with (1 + 1) at 1. rewrite rsum_last by lia.
  change 1 with (0 + 1) at 1. rewrite rsum_last, rsum_nil by lia. ring.
Qed.

(* f bicubic; G(u, v) antiderivative in v, H antiderivative in u of the inner integral *)
Lemma Simpson2_exact f G H (k : Z -> Z -> R) us ue vs ve :
  (forall u v, f u v = rsum 0 4 (fun i => rsum 0 4 (fun j => k i j * u ^ Z.to_nat i * v ^ Z.to_nat j)%R)) ->
  (forall u v, derivable_pt_lim (G u) v (f u v)) -> (forall u, derivable_pt_lim H u (G u ve - G u vs)%R) ->
  Simpson2 f us ue vs ve = Ok (H ue - H us)%R.
Proof.
  intros Hf HG HH.
  assert (Hf' : forall u v, f u v = ((k 0%Z 0%Z + k 1%Z 0%Z * u + k 2%Z 0%Z * u ^ 2 + k 3%Z 0%Z * u ^ 3) + (k 0%Z 1%Z + k 1%Z 1%Z * u + k 2%Z 1%Z * u ^ 2 + k 3%Z 1%Z * u ^ 3) * v +
    (k 0%Z 2%Z + k 1%Z 2%Z * u + k 2%Z 2%Z * u ^ 2 + k 3%Z 2%Z * u ^ 3) * v ^ 2 + (k 0%Z 3%Z + k 1%Z 3%Z * u + k 2%Z 3%Z * u ^ 2 + k 3%Z 3%Z * u ^ 3) * v ^ 3)%R).
  { intros u v. rewrite Hf, !rsum4. change (Z.to_nat 0) with 0%nat. change (Z.to_nat 1) with 1%nat. change (Z.to_nat 2) with 2%nat. change (Z.to_nat 3) with 3%nat. ring. }
  assert (HGe : forall u, (G u ve - G u vs = quartic (k 0%Z 0%Z + k 1%Z 0%Z * u + k 2%Z 0%Z * u ^ 2 + k 3%Z 0%Z * u ^ 3) (k 0%Z 1%Z + k 1%Z 1%Z * u + k 2%Z 1%Z * u ^ 2 + k 3%Z 1%Z * u ^ 3)
    (k 0%Z 2%Z + k 1%Z 2%Z * u + k 2%Z 2%Z * u ^ 2 + k 3%Z 2%Z * u ^ 3) (k 0%Z 3%Z + k 1%Z 3%Z * u + k 2%Z 3%Z * u ^ 2 + k 3%Z 3%Z * u ^ 3) ve -
    quartic (k 0%Z 0%Z + k 1%Z 0%Z * u + k 2%Z 0%Z * u ^ 2 + k 3%Z 0%Z * u ^ 3) (k 0%Z 1%Z + k 1%Z 1%Z * u + k 2%Z 1%Z * u ^ 2 + k 3%Z 1%Z * u ^ 3)
    (k 0%Z 2%Z + k 1%Z 2%Z * u + k 2%Z 2%Z * u ^ 2 + k 3%Z 2%Z * u ^ 3) (k 0%Z 3%Z + k 1%Z 3%Z * u + k 2%Z 3%Z * u ^ 2 + k 3%Z 3%Z * u ^ 3) vs)%R).
  { intros u. apply (antideriv_unique _ _ (f u)); [apply HG|]. intros t. rewrite Hf'. apply quartic_deriv. }
  assert (HHe : (H ue - H us = quartic
     (quartic (k 0%Z 0%Z) (k 0%Z 1%Z) (k 0%Z 2%Z) (k 0%Z 3%Z) ve - quartic (k 0%Z 0%Z) (k 0%Z 1%Z) (k 0%Z 2%Z) (k 0%Z 3%Z) vs)
     (quartic (k 1%Z 0%Z) (k 1%Z 1%Z) (k 1%Z 2%Z) (k 1%Z 3%Z) ve - quartic (k 1%Z 0%Z) (k 1%Z 1%Z) (k 1%Z 2%Z) (k 1%Z 3%Z) vs)
     (quartic (k 2%Z 0%Z) (k 2%Z 1%Z) (k 2%Z 2%Z) (k 2%Z 3%Z) ve - quartic (k 2%Z 0%Z) (k 2%Z 1%Z) (k 2%Z 2%Z) (k 2%Z 3%Z) vs)
     (quartic (k 3%Z 0%Z) (k 3%Z 1%Z) (k 3%Z 2%Z) (k 3%Z 3%Z) ve - quartic (k 3%Z 0%Z) (k 3%Z 1%Z) (k 3%Z 2%Z) (k 3%Z 3%Z) vs) ue -
     quartic
     (quartic (k 0%Z 0%Z) (k 0%Z 1%Z) (k 0%Z 2%Z) (k 0%Z 3%Z) ve - quartic (k 0%Z 0%Z) (k 0%Z 1%Z) (k 0%Z 2%Z) (k 0%Z 3%Z) vs)
     (quartic (k 1%Z 0%Z) (k 1%Z 1%Z) (k 1%Z 2%Z) (k 1%Z 3%Z) ve - quartic (k 1%Z 0%Z) (k 1%Z 1%Z) (k 1%Z 2%Z) (k 1%Z 3%Z) vs)
     (quartic (k 2%Z 0%Z) (k 2%Z 1%Z) (k 2%Z 2%Z) (k 2%Z 3%Z) ve - quartic (k 2%Z 0%Z) (k 2%Z 1%Z) (k 2%Z 2%Z) (k 2%Z 3%Z) vs)
     (quartic (k 3%Z 0%Z) (k 3%Z 1%Z) (k 3%Z 2%Z) (k 3%Z 3%Z) ve - quartic (k 3%Z 0%Z) (k 3%Z 1%Z) (k 3%Z 2%Z) (k 3%Z 3%Z) vs) us)%R).
  { apply (antideriv_unique _ _ (fun u => G u ve - G u vs)%R); [exact HH|]. intros t. eapply dlim_eq; [apply quartic_deriv|]. rewrite HGe. unfold quartic. field. }
  rewrite HHe. unfold Simpson2. num. cbn [fold_left]. change (IZR (9 * 4)) with 36%R. unfold nlit; num. rewrite Rdiv_ok by lra. cbn [bind]. f_equal. rewrite !Hf'. unfold quartic.
  generalize (k 0%Z 0%Z) (k 0%Z 1%Z) (k 0%Z 2%Z) (k 0%Z 3%Z) (k 1%Z 0%Z) (k 1%Z 1%Z) (k 1%Z 2%Z) (k 1%Z 3%Z) (k 2%Z 0%Z) (k 2%Z 1%Z) (k 2%Z 2%Z) (k 2%Z 3%Z) (k 3%Z 0%Z) (k 3%Z 1%Z) (k 3%Z 2%Z) (k 3%Z 3%Z). clear. intros.
  field.
Qed.
