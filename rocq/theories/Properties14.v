(* Property theorems, part 14: interpolation. *)
From Coq Require Import ZArith List Bool Reals Lra Lia Floats.
From Verif Require Import Base Num Vec Tac Spec Spec2 Spec3 Spec6 M_MathUtils M_Polynomials M_XYZ M_Bspline M_NurbsCurve M_Geom M_Interp M_Fit
  P_Fit.
Import ListNotations.
Open Scope Z_scope.

(** * C56 *)
(* some solver is exact *)
Example exact_solver_exists : exists solve, exact_solver solve.
Proof. exists gauss_solver. exact gauss_exact. Qed.

(* given parameters *)
Theorem C56_interpolates : forall solve, exact_solver solve -> forall p (Q : list (XYZ R)) (us : list R), 1 <= p <= 7 -> p <= len Q - 1 -> len us = len Q ->
  (forall i j, 0 <= i < j -> j <= len Q - 1 -> (val us i < val us j)%R) -> val us 0 = 0%R -> val us (len Q - 1) = 1%R ->
  (2 / 1000000 < val us 1)%R -> (val us (len Q - 1 - 1) < 1 - 2 / 1000000)%R ->
  returns (GlobalInterpolation solve p Q us) (fun c =>
    Degree c = p /\ clamped_unit p (len Q - 1) (KnotVector c) /\ len (ControlPoints c) = len Q - 1 + 1 /\
    (forall i, 0 <= i <= len Q - 1 -> ww (pt (ControlPoints c) i) = 1%R) /\
    (forall i, 0 <= i <= len Q - 1 -> curve_point p (len Q - 1) (KnotVector c) (ControlPoints c) (val us i) = hom (pt Q i) 1) /\
    (forall i, 0 <= i <= len Q - 1 -> NurbsPoint c (val us i) = Ok (pt Q i)) /\
    (forall P', len P' = len Q - 1 + 1 ->
       (forall i, 0 <= i <= len Q - 1 -> curve_point p (len Q - 1) (KnotVector c) P' (val us i) = hom (pt Q i) 1) -> P' = ControlPoints c)).
Proof. exact Interpolation_ok. Qed.
Print Assumptions C56_interpolates.

(* chord length parameters *)
Theorem C56_interpolates_chord : forall solve p (Q : list (XYZ R)), exact_solver solve -> 1 <= p <= 7 -> p <= len Q - 1 ->
  (forall i, 0 <= i < len Q - 1 -> pt Q i <> pt Q (i + 1)) -> ~ small (chord_length (pt Q) (len Q - 1)) ->
  (2 / 1000000 * chord_length (pt Q) (len Q - 1) < dist3 (pt Q 1) (pt Q 0))%R ->
  (2 / 1000000 * chord_length (pt Q) (len Q - 1) < dist3 (pt Q (len Q - 1)) (pt Q (len Q - 2)%Z))%R ->
  returns (GlobalInterpolation solve p Q []) (fun c =>
    Degree c = p /\ clamped_unit p (len Q - 1) (KnotVector c) /\ len (ControlPoints c) = len Q /\
    forall i, 0 <= i < len Q -> NurbsPoint c (chord_length (pt Q) i / chord_length (pt Q) (len Q - 1))%R = Ok (pt Q i)).
Proof. exact Interpolation_chord. Qed.
Print Assumptions C56_interpolates_chord.

(* the curve of the points (0,0,0) (3,4,0) (-1,4,0) (-4,0,0) (-4,-3,0) *)
Definition five : list (XYZ R) := [mkXYZ 0 0 0; mkXYZ 3 4 0; mkXYZ (-1) 4 0; mkXYZ (-4) 0 0; mkXYZ (-4) (-3) 0]%R.
Lemma five_dist i : 0 <= i < 4 -> dist3 (pt five (i + 1)) (pt five i) = at_ 0%R [5; 4; 5; 3]%R i.
Proof.
  intros H. assert (i = 0 \/ i = 1 \/ i = 2 \/ i = 3) as [-> | [-> | [-> | ->]]] by lia;
    lazy [pt at_ five nth Z.to_nat Z.add Pos.add Pos.succ Pos.to_nat Pos.iter_op Init.Nat.add dist3 norm3 minus3 gx gy gz dot3];
    apply sqrt_lem_1; lra.
Qed.
Lemma five_length : chord_length (pt five) 4 = 17%R.
Proof.
  unfold chord_length. change (rsum 1 (4 + 1) (fun j => dist3 (pt five j) (pt five (j - 1)))) with (0 + dist3 (pt five (0 + 1)) (pt five 0) + dist3 (pt five (1 + 1)) (pt five 1) + dist3 (pt five (2 + 1)) (pt five 2) + dist3 (pt five (3 + 1)) (pt five 3))%R.
  rewrite !five_dist by lia. lazy [at_ nth Z.to_nat Pos.to_nat Pos.iter_op Init.Nat.add]. lra.
Qed.
Example interpolation_hypotheses : 3 <= len five - 1 /\ (forall i, 0 <= i < len five - 1 -> pt five i <> pt five (i + 1)) /\
  ~ small (chord_length (pt five) (len five - 1)) /\
  (2 / 1000000 * chord_length (pt five) (len five - 1) < dist3 (pt five 1) (pt five 0))%R /\
  (2 / 1000000 * chord_length (pt five) (len five - 1) < dist3 (pt five (len five - 1)) (pt five (len five - 2)%Z))%R.
Proof.
  change (len five - 1) with 4. change (len five - 2) with 3. rewrite five_length. split; [lia|]. split.
  - intros i Hi E. pose proof (five_dist i Hi) as H. rewrite E in H.
    assert (i = 0 \/ i = 1 \/ i = 2 \/ i = 3) as [-> | [-> | [-> | ->]]] by lia;
    lazy [at_ nth Z.to_nat Pos.to_nat Pos.iter_op Init.Nat.add dist3 norm3 minus3 gx gy gz dot3 pt five Z.add Pos.add Pos.succ] in H, E; injection E; intros; lra.
  - split; [unfold small; rewrite Rabs_right by lra; lra|].
    pose proof (five_dist 0 ltac:(lia)) as H0. pose proof (five_dist 3 ltac:(lia)) as H3. change (0 + 1) with 1 in H0. change (3 + 1) with 4 in H3.
    rewrite H0, H3. lazy [at_ nth Z.to_nat Pos.to_nat Pos.iter_op Init.Nat.add]. split; lra.
Qed.

(* degree zero is accepted, and divides by zero *)
Theorem C56_degree_zero_refuted : forall solve (Q : list (XYZ R)), 2 <= len Q -> GlobalInterpolation solve 0 Q [] = NonFin.
Proof. exact Interpolation_degree_zero. Qed.
Print Assumptions C56_degree_zero_refuted.

(* binary64 from here on *)
Definition has_nan (m : list (list float)) : bool := existsb (existsb (fun x => negb (PrimFloat.eqb x x))) m.
Definition zero_column (m : list (list float)) (j : nat) : bool := forallb (fun row => PrimFloat.eqb (nth j row 1%float) 0%float) m.
Definition fpts : list (XYZ float) := [mkXYZ 0 0 0; mkXYZ 3 4 0; mkXYZ (-1) 4 0; mkXYZ (-4) 0 0; mkXYZ (-4) (-3) 0]%float.
Definition ftan : list (XYZ float) := [mkXYZ 1 0 0; mkXYZ 0 1 0; mkXYZ (-1) 0 0; mkXYZ (-1) (-1) 0; mkXYZ 0 (-1) 0]%float.

(* with tangents and degree 2 the last knot is repeated four times, and the matrix holds NaN: whatever the
   solver does with such a matrix is the result *)
Theorem C56_tangents_quadratic_refuted : forall solve e, (forall m r, has_nan m = true -> solve m r = Err e) ->
  GlobalInterpolationTangents solve 2 fpts ftan 1%float = Err e.
Proof. intros solve e H. vm_compute. rewrite H by (vm_compute; reflexivity). reflexivity. Qed.
Print Assumptions C56_tangents_quadratic_refuted.

(* with degree 3 and five points a column of the matrix is zero: the matrix is singular *)
Theorem C56_tangents_cubic_refuted : forall solve e, (forall m r, zero_column m 5 = true -> solve m r = Err e) ->
  GlobalInterpolationTangents solve 3 fpts ftan 1%float = Err e.
Proof. intros solve e H. vm_compute. rewrite H by (vm_compute; reflexivity). reflexivity. Qed.
Print Assumptions C56_tangents_cubic_refuted.

(* a surface through a grid that is not square reads past the end of a parameter list *)
Definition fgrid (r c : nat) : list (list (XYZ float)) :=
  map (fun i => map (fun j => mkXYZ (nofZ (Z.of_nat i)) (nofZ (Z.of_nat j)) 0%float) (seq 0 c)) (seq 0 r).
Theorem C56_wide_grid_refuted : forall solve, SurfaceGlobalInterpolation solve (fgrid 4 5) 2 2 = UB.
Proof. intros solve. vm_compute. reflexivity. Qed.
Print Assumptions C56_wide_grid_refuted.
Theorem C56_tall_grid_refuted : forall solve, SurfaceGlobalInterpolation solve (fgrid 5 4) 2 2 = UB.
Proof. intros solve. vm_compute. reflexivity. Qed.
Print Assumptions C56_tall_grid_refuted.
