(* Property theorems, part 19: volumes. *)
From Coq Require Import ZArith List Bool Reals Lra Lia Permutation Floats.
From Verif Require Import Base Num Vec Tac Spec Spec2 Spec3 Spec4 Spec5 Spec10 Spec11 M_MathUtils M_XYZ M_Bspline M_NurbsCurve M_Knots M_Curve2 M_Surface M_Shape M_Volume
  P_MathUtils P_Span P_Cox P_XYZ P_Vec P_VSum P_Curve P_Bspline P_Loop P_Insert P_Decomp P_Vol1 P_Vol2 P_Vol3 P_Vol4 P_Vol5.
Import ListNotations.
Open Scope Z_scope.

(* the volume over the unit cube with the control points (x_i, y_j, z_k), quadratic in the first direction and linear
   in the others *)
Definition slab : Volume R (XYZW R) := mkVolume 2 1 1 (bezier_knots 2) (bezier_knots 1) (bezier_knots 1)
  [[[mkXYZW 0 0 0 1; mkXYZW 0 0 5 1]; [mkXYZW 0 3 0 1; mkXYZW 0 3 5 1]];
   [[mkXYZW 1 1 0 1; mkXYZW 1 1 5 1]; [mkXYZW 1 4 0 1; mkXYZW 1 4 5 1]];
   [[mkXYZW 2 0 0 1; mkXYZW 2 0 5 1]; [mkXYZW 2 3 0 1; mkXYZW 2 3 5 1]]]%R.
Definition slab_size (d : VolumeDirection) : Z := match d with DirU => 2 | _ => 1 end.
Definition middle (d : VolumeDirection) : R := (1 / 2)%R.

Lemma slab_valid : valid_volume slab_size slab.
Proof.
  split.
  - intros []; cbn [degree_in knots_in slab slab_size VDegreeU VDegreeV VDegreeW VKnotsU VKnotsV VKnotsW]; (split; [apply bez_knots_ok|]); lia.
  - split; [reflexivity|]. intros i Hi. assert (i = 0 \/ i = 1 \/ i = 2) as [-> | [-> | ->]] by (cbn [slab_size] in Hi; lia);
    (split; [reflexivity|]); intros j Hj; assert (j = 0 \/ j = 1) as [-> | ->] by (cbn [slab_size] in Hj; lia); reflexivity.
Qed.

Lemma slab_middle : in_volume slab_size slab middle.
Proof. intros []; unfold in_domain, middle; cbn [degree_in knots_in slab slab_size VDegreeU VDegreeV VDegreeW VKnotsU VKnotsV VKnotsW]; rewrite !bez_val by lia; cbn; lra. Qed.

(* the same with binary64 coordinates *)
Definition fslab : Volume float (XYZW float) := (mkVolume 2 1 1 [0; 0; 0; 1; 1; 1] [0; 0; 1; 1] [0; 0; 1; 1]
  [[[mkXYZW 0 0 0 1; mkXYZW 0 0 5 1]; [mkXYZW 0 3 0 1; mkXYZW 0 3 5 1]];
   [[mkXYZW 1 1 0 1; mkXYZW 1 1 5 1]; [mkXYZW 1 4 0 1; mkXYZW 1 4 5 1]];
   [[mkXYZW 2 0 0 1; mkXYZW 2 0 5 1]; [mkXYZW 2 3 0 1; mkXYZW 2 3 5 1]]])%float.
Definition got {A} (d : A) (r : res A) : A := match r with Ok x => x | _ => d end.
(* the numbers of knots and of control points in the three directions *)
Definition sizes {A T} (v : Volume A T) : Z * Z * Z * (Z * Z * Z) :=
  let row := match VControlPoints v with r :: _ => r | _ => [] end in
  let col := match row with r :: _ => r | _ => [] end in
  (len (VKnotsU v), len (VKnotsV v), len (VKnotsW v), (len (VControlPoints v), len row, len col)).

Definition fpoint (v : Volume float (XYZW float)) (x y z : float) : res (XYZ float) := GetPointOnVolume v x y z.
(** * C94 *)
Theorem C94_point : forall sz S t, valid_volume sz S -> in_volume sz S t -> (tol (ww (volume_point sz S t)) 0 < Rabs (ww (volume_point sz S t)))%R ->
  GetPointOnVolume S (t DirU) (t DirV) (t DirW) = Ok (proj (volume_point sz S t)).
Proof. exact GetPointOnVolume_ok. Qed.
Print Assumptions C94_point.

(* inside every half space, hence inside every box, that holds the control points *)
Theorem C94_hull : forall sz S t f c, valid_volume sz S -> in_volume sz S t -> heavy_volume sz S -> affine f ->
  (forall i j k, 0 <= i <= sz DirU -> 0 <= j <= sz DirV -> 0 <= k <= sz DirW -> (c <= f (proj (pt3 (VControlPoints S) i j k)))%R) ->
  returns (GetPointOnVolume S (t DirU) (t DirV) (t DirW)) (fun x => (c <= f x)%R).
Proof. exact GetPointOnVolume_hull. Qed.
Print Assumptions C94_hull.

Lemma heavy_1 : (tol 1 0 < 1)%R.
Proof. unfold tol. rewrite Rabs_R0, (Rabs_pos_eq 1), Rmax_left by lra. lra. Qed.
Lemma slab_heavy : heavy_volume slab_size slab.
Proof.
  intros i j k Hi Hj Hk. assert (i = 0 \/ i = 1 \/ i = 2) as [-> | [-> | ->]] by (cbn [slab_size] in Hi; lia);
  assert (j = 0 \/ j = 1) as [-> | ->] by (cbn [slab_size] in Hj; lia); assert (k = 0 \/ k = 1) as [-> | ->] by (cbn [slab_size] in Hk; lia); apply heavy_1.
Qed.
Example C94_ex : valid_volume slab_size slab /\ in_volume slab_size slab middle /\ heavy_volume slab_size slab /\
  (let w := ww (volume_point slab_size slab middle) in (tol w 0 < Rabs w)%R) /\
  fpoint fslab 0.5 0.25 0.75 = Ok (mkXYZ 1 1.25 3.75)%float.
Proof.
  split; [apply slab_valid|]. split; [apply slab_middle|]. split; [apply slab_heavy|]. split; [|vm_compute; reflexivity].
  pose proof (volume_heavy _ _ _ slab_valid slab_middle slab_heavy) as H. cbv zeta in *. pose proof (Rle_abs (ww (volume_point slab_size slab middle))). lra.
Qed.

(** * C95 *)
(* the parameter of the direction to keep is given as -1 *)
Theorem C95_iso_curve : forall sz (S : Volume R (XYZW R)) q d, valid_volume sz S -> (Rabs (q d + 1) <= tol (q d) (- 1))%R ->
  (forall e, earlier e d = true -> (tol (q e) (- 1) < Rabs (q e + 1))%R) ->
  returns (VolumeIsoCurve S (q DirU) (q DirV) (q DirW)) (fun c => exists Q, c = mkCurve (degree_in d S) (knots_in d S) Q /\ len Q = sz d + 1 /\
    forall t, in_domain (degree_in d S) (sz d) (knots_in d S) t ->
      curve_point (degree_in d S) (sz d) (knots_in d S) Q t = volume_point sz S (on_line sz S d q t)).
Proof. exact VolumeIsoCurve_ok. Qed.
Print Assumptions C95_iso_curve.

Theorem C95_none : forall sz (S : Volume R (XYZW R)) q, valid_volume sz S -> (forall e, (tol (q e) (- 1) < Rabs (q e + 1))%R) ->
  VolumeIsoCurve S (q DirU) (q DirV) (q DirW) = Ok emptyCurve.
Proof. exact VolumeIsoCurve_none. Qed.
Print Assumptions C95_none.

Definition along_v (e : VolumeDirection) : R := match e with DirV => (-1)%R | _ => (1 / 2)%R end.
Example C95_ex : valid_volume slab_size slab /\ (Rabs (along_v DirV + 1) <= tol (along_v DirV) (- 1))%R /\
  (forall e, earlier e DirV = true -> (tol (along_v e) (- 1) < Rabs (along_v e + 1))%R) /\ (forall e, (tol (middle e) (- 1) < Rabs (middle e + 1))%R) /\
  VolumeIsoCurve fslab 0.5%float (-1)%float 0.5%float = Ok (mkCurve 1 [0; 0; 1; 1] [mkXYZW 1 0.5 2.5 1; mkXYZW 1 3.5 2.5 1])%float.
Proof.
  assert (M : forall x : R, x = (1 / 2)%R -> (tol x (- 1) < Rabs (x + 1))%R).
  { intros x ->. unfold tol. rewrite (Rabs_pos_eq (1 / 2)), (Rabs_left (-1)), Rmax_right, Rabs_pos_eq by lra. lra. }
  split; [apply slab_valid|]. split; [|split; [|split; [|vm_compute; reflexivity]]].
  - cbn [along_v]. replace (-1 + 1)%R with 0%R by ring. rewrite Rabs_R0. pose proof (tol_pos (-1) (-1)). lra.
  - intros [] He; cbn in He; try discriminate. apply M. reflexivity.
  - intros e. apply M. reflexivity.
Qed.

(** * C96 *)
Theorem C96_insert_knot : forall sz (S : Volume R (XYZW R)) d u times, valid_volume sz S -> 1 <= times ->
  (val (knots_in d S) (degree_in d S) < u < val (knots_in d S) (sz d + 1))%R -> (forall y, In y (knots_in d S) -> apart u y) ->
  occ (knots_in d S) u + times <= degree_in d S + 1 ->
  returns (VolumeInsertKnot S u times d) (fun S' =>
    valid_volume (put d (sz d + times) sz) S' /\ same_but d S S' /\ degree_in d S' = degree_in d S /\
    Permutation (knots_in d S') (repeat u (Z.to_nat times) ++ knots_in d S) /\
    (forall t, in_volume sz S t <-> in_volume (put d (sz d + times) sz) S' t) /\
    forall t, in_volume sz S t -> volume_point (put d (sz d + times) sz) S' t = volume_point sz S t).
Proof. exact VolumeInsertKnot_ok. Qed.
Print Assumptions C96_insert_knot.

(* more often than the knot fits: no sizes make the result a valid volume *)
Theorem C96_too_often_refuted : forall sz (S : Volume R (XYZW R)) d u times, valid_volume sz S -> 1 <= times ->
  (val (knots_in d S) (degree_in d S) < u < val (knots_in d S) (sz d + 1))%R -> (forall y, In y (knots_in d S) -> apart u y) ->
  degree_in d S + 1 < occ (knots_in d S) u + times ->
  returns (VolumeInsertKnot S u times d) (fun S' => forall sz', ~ valid_volume sz' S').
Proof. exact VolumeInsertKnot_over. Qed.
Print Assumptions C96_too_often_refuted.

Lemma half_01 : apart (1 / 2) 0 /\ apart (1 / 2) 1.
Proof.
  unfold apart, tol. rewrite (Rabs_pos_eq (1 / 2)), Rabs_R0, (Rabs_pos_eq 1) by lra. rewrite (Rmax_left (1 / 2) 0), (Rmax_right (1 / 2) 1) by lra.
  replace (1 / 2 - 0)%R with (1 / 2)%R by ring. replace (1 / 2 - 1)%R with (- (1 / 2))%R by field. rewrite Rabs_Ropp, Rabs_pos_eq by lra. split; right; lra.
Qed.
Lemma bez_in p y : In y (bezier_knots p) -> y = 0%R \/ y = 1%R.
Proof. unfold bezier_knots. rewrite in_app_iff. intros [H|H]; apply repeat_spec in H; auto. Qed.
Lemma half_apart p y : In y (bezier_knots p) -> apart (1 / 2) y.
Proof. intros H. destruct (bez_in _ _ H) as [->| ->]; apply half_01. Qed.
Lemma half_occ p : occ (bezier_knots p) (1 / 2) = 0.
Proof.
  unfold occ. replace (count_occ Req_EM_T (bezier_knots p) (1 / 2)%R) with 0%nat; [reflexivity|]. symmetry. apply count_occ_not_In. intros H.
  destruct (bez_in _ _ H) as [E|E]; lra.
Qed.
Lemma half_inside d : (val (knots_in d slab) (degree_in d slab) < 1 / 2 < val (knots_in d slab) (slab_size d + 1))%R.
Proof. destruct d; cbn [degree_in knots_in slab slab_size VDegreeU VDegreeV VDegreeW VKnotsU VKnotsV VKnotsW]; rewrite !bez_val by lia; cbn; lra. Qed.
Lemma half_slab d : (forall y, In y (knots_in d slab) -> apart (1 / 2) y) /\ occ (knots_in d slab) (1 / 2) = 0.
Proof. destruct d; (split; [intros y; apply half_apart|apply half_occ]). Qed.
Example C96_ex : valid_volume slab_size slab /\ (forall d, (val (knots_in d slab) (degree_in d slab) < 1 / 2 < val (knots_in d slab) (slab_size d + 1))%R /\
    (forall y, In y (knots_in d slab) -> apart (1 / 2) y) /\ occ (knots_in d slab) (1 / 2) + 2 <= degree_in d slab + 1 /\ degree_in d slab + 1 < occ (knots_in d slab) (1 / 2) + 4) /\
  (let s := got fslab (VolumeInsertKnot fslab 0.5%float 2 DirU) in sizes s = (8, 4, 4, (5, 2, 2)) /\ fpoint s 0.5 0.25 0.75 = Ok (mkXYZ 1 1.25 3.75)%float) /\
  (let s := got fslab (VolumeInsertKnot fslab 0.5%float 4 DirU) in sizes s = (7, 4, 4, (7, 2, 2))).
Proof.
  split; [apply slab_valid|]. split; [|vm_compute; repeat split]. intros d. split; [apply half_inside|]. destruct (half_slab d) as [H1 ->]. split; [exact H1|]. destruct d; cbn; lia.
Qed.

(** * C97 *)
(* whatever non-empty list of knots is given that could be inserted *)
Theorem C97_refine_refuted : forall sz (S : Volume R (XYZW R)) d X, valid_volume sz S -> refinable (degree_in d S) (sz d) (knots_in d S) X ->
  VolumeRefineKnotVector S X d = UB.
Proof. exact VolumeRefineKnotVector_ub. Qed.
Print Assumptions C97_refine_refuted.

Example C97_ex : valid_volume slab_size slab /\ (forall d, refinable (degree_in d slab) (slab_size d) (knots_in d slab) [1 / 2]%R) /\
  VolumeRefineKnotVector fslab [0.5%float] DirU = UB /\ VolumeRefineKnotVector fslab [0.5%float] DirV = UB /\ VolumeRefineKnotVector fslab [0.5%float] DirW = UB.
Proof.
  split; [apply slab_valid|]. split; [|vm_compute; repeat split]. intros d. split; [reflexivity|]. split; [apply sorted_one|]. split.
  - intros x [<-|[]]. apply half_inside.
  - intros x y [<-|[]] Hy. apply in_app_iff in Hy. destruct Hy as [[<-|[]]|Hy]; [left; reflexivity|]. apply (proj1 (half_slab d)), Hy.
Qed.

(** * C98 *)
Theorem C98_reverse : forall sz (S : Volume R (XYZW R)), valid_volume sz S -> wide_ends (VDegreeU S) (sz DirU) (VKnotsU S) ->
  returns (VolumeReverse S DirU) (fun S' => valid_volume sz S' /\ same_but DirU S S' /\ VDegreeU S' = VDegreeU S /\
    (forall i, 0 <= i < len (VKnotsU S) -> val (VKnotsU S') i = mirrored (VKnotsU S) (val (VKnotsU S) (len (VKnotsU S) - 1 - i))) /\
    forall t, in_volume sz S t -> in_volume sz S' (put DirU (mirrored (VKnotsU S) (t DirU)) t) /\
      (occ (VKnotsU S) (t DirU) <= VDegreeU S \/ t DirU = val (VKnotsU S) (VDegreeU S) \/ t DirU = val (VKnotsU S) (sz DirU + 1) ->
       volume_point sz S' (put DirU (mirrored (VKnotsU S) (t DirU)) t) = volume_point sz S t)).
Proof. exact VolumeReverse_ok. Qed.
Print Assumptions C98_reverse.

Theorem C98_other_directions_refuted : forall sz (S : Volume R (XYZW R)) d, valid_volume sz S -> d <> DirU -> VolumeReverse S d = UB.
Proof. exact VolumeReverse_ub. Qed.
Print Assumptions C98_other_directions_refuted.

Example C98_ex : valid_volume slab_size slab /\ wide_ends (VDegreeU slab) (slab_size DirU) (VKnotsU slab) /\
  (let s := got fslab (VolumeReverse fslab DirU) in sizes s = sizes fslab /\ fpoint s 0.75 0.25 0.75 = fpoint fslab 0.25 0.25 0.75 /\
    fpoint s 0.75 0.25 0.75 = Ok (mkXYZ 0.5 1.125 3.75)%float) /\
  VolumeReverse fslab DirV = UB /\ VolumeReverse fslab DirW = UB.
Proof.
  split; [apply slab_valid|]. split; [|vm_compute; repeat split].
  unfold wide_ends. cbn [slab VDegreeU slab_size VKnotsU]. rewrite !bez_val by lia. cbn. rewrite Rabs_R0, (Rabs_pos_eq 1), Rmax_right by lra. lra.
Qed.

(** * C99 *)
Theorem C99_swap : forall sz (S S0 : Volume R (XYZW R)) d e, valid_volume sz S -> earlier d e = true ->
  returns (VolumeSwap S d e S0) (fun S' => valid_volume (exchanged d e sz) S' /\
    (forall f, degree_in f S' = exchanged d e (fun f => degree_in f S) f /\ knots_in f S' = exchanged d e (fun f => knots_in f S) f) /\
    forall t, in_volume sz S t -> in_volume (exchanged d e sz) S' (exchanged d e t) /\ volume_point (exchanged d e sz) S' (exchanged d e t) = volume_point sz S t).
Proof. exact VolumeSwap_ok. Qed.
Print Assumptions C99_swap.

(* the other orders: the volume passed as result is left as it was *)
Theorem C99_other_orders_refuted : forall sz (S S0 : Volume R (XYZW R)) d e, valid_volume sz S -> earlier d e = false -> VolumeSwap S d e S0 = Ok S0.
Proof. exact VolumeSwap_other. Qed.
Print Assumptions C99_other_orders_refuted.

Example C99_ex : valid_volume slab_size slab /\ earlier DirU DirW = true /\ earlier DirW DirU = false /\
  (let s := got fslab (VolumeSwap fslab DirU DirW fslab) in sizes s = (4, 4, 6, (2, 2, 3)) /\ fpoint s 0.75 0.25 0.25 = fpoint fslab 0.25 0.25 0.75 /\
    fpoint fslab 0.25 0.25 0.75 = Ok (mkXYZ 0.5 1.125 3.75)%float).
Proof. split; [apply slab_valid|]. split; [reflexivity|]. split; [reflexivity|]. vm_compute. repeat split. Qed.

(** * C100 *)
Theorem C100_split : forall sz (S : Volume R (XYZW R)) d u, valid_volume sz S -> 1 <= degree_in d S ->
  (val (knots_in d S) (degree_in d S) < u < val (knots_in d S) (sz d + 1))%R -> (forall y, In y (knots_in d S) -> apart u y) ->
  occ (knots_in d S) u <= degree_in d S ->
  returns (VolumeSplitAt S u d) (fun '(A, B) => exists nl nr,
    valid_volume (put d nl sz) A /\ same_but d S A /\ degree_in d A = degree_in d S /\
    valid_volume (put d nr sz) B /\ same_but d S B /\ degree_in d B = degree_in d S /\
    val (knots_in d A) (degree_in d S) = val (knots_in d S) (degree_in d S) /\ val (knots_in d A) (nl + 1) = u /\
    val (knots_in d B) (degree_in d S) = u /\ val (knots_in d B) (nr + 1) = val (knots_in d S) (sz d + 1) /\
    (forall t, in_volume (put d nl sz) A t -> volume_point (put d nl sz) A t = volume_point sz S t) /\
    (forall t, in_volume (put d nr sz) B t -> volume_point (put d nr sz) B t = volume_point sz S t)).
Proof. exact VolumeSplitAt_ok. Qed.
Print Assumptions C100_split.

Theorem C100_at_the_ends : forall sz (S : Volume R (XYZW R)) d u, valid_volume sz S -> u = val (knots_in d S) 0 \/ u = val (knots_in d S) (len (knots_in d S) - 1) ->
  VolumeSplitAt S u d = Ok (S, S).
Proof. exact VolumeSplitAt_ends. Qed.
Print Assumptions C100_at_the_ends.

(* at a knot of multiplicity degree + 1 (the volume consists of two apart from each other) the left piece has sizes
   that do not fit: 5 knots for 2 control points and degree 1 *)
Definition torn : Volume float (XYZW float) := (let box x := [[mkXYZW x 0 0 1; mkXYZW x 0 1 1]; [mkXYZW x 1 0 1; mkXYZW x 1 1 1]] in
  mkVolume 1 1 1 [0; 0; 1; 1; 2; 2] [0; 0; 1; 1] [0; 0; 1; 1] [box 0; box 1; box 5; box 6])%float.
Theorem C100_full_multiplicity_refuted : exists v a b, fpoint v 0.5 0.5 0.5 = Ok (mkXYZ 0.5 0.5 0.5)%float /\ fpoint v 1.5 0.5 0.5 = Ok (mkXYZ 5.5 0.5 0.5)%float /\
  VolumeSplitAt v 1%float DirU = Ok (a, b) /\ VDegreeU a = 1 /\ len (VKnotsU a) = 5 /\ len (VControlPoints a) = 2 /\ VDegreeU b = 1 /\ len (VKnotsU b) = 5 /\ len (VControlPoints b) = 3.
Proof.
  exists torn, (fst (got (fslab, fslab) (VolumeSplitAt torn 1%float DirU))), (snd (got (fslab, fslab) (VolumeSplitAt torn 1%float DirU))). vm_compute. repeat split.
Qed.
Print Assumptions C100_full_multiplicity_refuted.

Example C100_ex : valid_volume slab_size slab /\ (forall d, 1 <= degree_in d slab /\ (val (knots_in d slab) (degree_in d slab) < 1 / 2 < val (knots_in d slab) (slab_size d + 1))%R /\
    (forall y, In y (knots_in d slab) -> apart (1 / 2) y) /\ occ (knots_in d slab) (1 / 2) <= degree_in d slab) /\
  (let '(a, b) := got (fslab, fslab) (VolumeSplitAt fslab 0.5%float DirU) in fpoint a 0.25 0.25 0.75 = fpoint fslab 0.25 0.25 0.75 /\
    fpoint b 0.75 0.25 0.75 = fpoint fslab 0.75 0.25 0.75 /\ VKnotsU a = [0; 0; 0; 0.5; 0.5; 0.5]%float /\ VKnotsU b = [0.5; 0.5; 0.5; 1; 1; 1]%float).
Proof.
  split; [apply slab_valid|]. split; [|vm_compute; repeat split]. intros d. split; [destruct d; cbn; lia|]. split; [apply half_inside|]. destruct (half_slab d) as [H1 ->]. split; [exact H1|]. destruct d; cbn; lia.
Qed.

(** * C101 *)
Theorem C101_elevate : forall sz (S : Volume R (XYZW R)) d times, valid_volume sz S -> 1 <= degree_in d S -> 1 <= times -> degree_in d S + times <= 7 ->
  clamped_knots (degree_in d S) (sz d) (knots_in d S) -> (forall x y, In x (knots_in d S) -> In y (knots_in d S) -> apart x y) ->
  (forall i, degree_in d S <= i <= sz d -> (val (knots_in d S) i < val (knots_in d S) (i + 1))%R) ->
  let sz' := put d (sz d + (sz d - degree_in d S + 1) * times) sz in
  returns (VolumeElevateDegree S times d) (fun S' =>
    valid_volume sz' S' /\ same_but d S S' /\ degree_in d S' = degree_in d S + times /\
    (forall x, In x (knots_in d S') <-> In x (knots_in d S)) /\ (forall x, In x (knots_in d S) -> occ (knots_in d S') x = occ (knots_in d S) x + times) /\
    forall t, in_volume sz S t -> in_volume sz' S' t /\ volume_point sz' S' t = volume_point sz S t).
Proof. exact VolumeElevateDegree_ok. Qed.
Print Assumptions C101_elevate.

Definition bent : Volume float (XYZW float) := (let box x y := [[mkXYZW x y 0 1; mkXYZW x y 1 1]; [mkXYZW x (y + 1) 0 1; mkXYZW x (y + 1) 1 1]] in
  mkVolume 2 1 1 [0; 0; 0; 1; 1; 2; 2; 2] [0; 0; 1; 1] [0; 0; 1; 1] [box 0 0; box 1 1; box 2 2; box 3 1; box 4 0])%float.
(* with a repeated inner knot the result has a knot 0 after the last one and cannot be evaluated *)
Theorem C101_repeated_knot_refuted : exists v s, fpoint v 1.5 0.5 0.5 = Ok (mkXYZ 3 1.5 0.5)%float /\ VolumeElevateDegree v 1 DirU = Ok s /\
  VKnotsU s = [0; 0; 0; 0; 1; 1; 1; 2; 2; 2; 2; 0]%float /\ fpoint s 1.5 0.5 0.5 = Throw.
Proof. exists bent, (got fslab (VolumeElevateDegree bent 1 DirU)). vm_compute. repeat split. Qed.
Print Assumptions C101_repeated_knot_refuted.

Lemma apart_01 x y : (x = 0 \/ x = 1)%R -> (y = 0 \/ y = 1)%R -> apart x y.
Proof.
  unfold apart, tol. intros [->| ->] [->| ->]; [left; reflexivity| | |left; reflexivity]; right; rewrite Rabs_R0, (Rabs_pos_eq 1) by lra; rewrite ?(Rmax_left 1 0), ?(Rmax_right 0 1) by lra.
  - rewrite Rminus_0_l, Rabs_Ropp, Rabs_pos_eq; lra.
  - rewrite Rminus_0_r, Rabs_pos_eq; lra.
Qed.
Example C101_ex : valid_volume slab_size slab /\ (forall d, 1 <= degree_in d slab /\ degree_in d slab + 2 <= 7 /\ clamped_knots (degree_in d slab) (slab_size d) (knots_in d slab) /\
    (forall x y, In x (knots_in d slab) -> In y (knots_in d slab) -> apart x y) /\
    (forall i, degree_in d slab <= i <= slab_size d -> (val (knots_in d slab) i < val (knots_in d slab) (i + 1))%R)) /\
  (let s := got fslab (VolumeElevateDegree fslab 2 DirU) in VDegreeU s = 4 /\ sizes s = (10, 4, 4, (5, 2, 2)) /\ fpoint s 0.25 0.25 0.75 = fpoint fslab 0.25 0.25 0.75).
Proof.
  split; [apply slab_valid|]. split; [|vm_compute; repeat split]. intros d.
  assert (E : knots_in d slab = bezier_knots (degree_in d slab) /\ slab_size d = degree_in d slab /\ 1 <= degree_in d slab <= 2) by (destruct d; cbn; repeat split; lia).
  destruct E as (-> & -> & Hp). split; [lia|]. split; [lia|]. split; [split; rewrite !bez_val by lia; repeat match goal with |- context [?a <=? ?b] => destruct (Z.leb_spec a b) end; lia || reflexivity|].
  split; [intros x y Hx Hy; apply apart_01; eapply bez_in; eassumption|]. intros i Hi. assert (i = degree_in d slab) as -> by lia. rewrite !bez_val by lia.
  repeat match goal with |- context [?a <=? ?b] => destruct (Z.leb_spec a b) end; lia || lra.
Qed.

(** * C102 *)
(* over the reals a division by zero is not a number: no call returns *)
Theorem C102_derivatives_refuted : forall (S : Volume R (XYZW R)) der u v w D, ComputeVolumeRationalDerivatives S der u v w <> Ok D.
Proof. exact VolumeDerivatives_fail. Qed.
Print Assumptions C102_derivatives_refuted.

Theorem C102_check_refuted : forall (S : Volume R (XYZW R)) b, VolumeCheck S <> Ok b.
Proof. exact VolumeCheck_fail. Qed.
Print Assumptions C102_check_refuted.

Theorem C102_param_refuted : forall fuel (S : Volume R (XYZW R)) P t, GetParamOnVolume fuel S P <> Ok t.
Proof. exact GetParamOnVolume_fail. Qed.
Print Assumptions C102_param_refuted.

(* with binary64 numbers the derivatives of order 0 and 1 are returned as NaN *)
Theorem C102_nan_refuted : exists D, ComputeVolumeRationalDerivatives fslab 1 0.25%float 0.25%float 0.75%float = Ok D /\
  get3 D 0 0 0 = Ok (mkXYZ nan nan nan) /\ get3 D 1 0 0 = Ok (mkXYZ nan nan nan) /\ get3 D 0 1 0 = Ok (mkXYZ nan nan nan) /\ get3 D 0 0 1 = Ok (mkXYZ nan nan nan).
Proof. exists (got nil (ComputeVolumeRationalDerivatives fslab 1 0.25%float 0.25%float 0.75%float)). vm_compute. repeat split. Qed.
Print Assumptions C102_nan_refuted.

(** * C103 *)
Theorem C103_closed : forall sz (S : Volume R (XYZW R)) d, valid_volume sz S -> clamped_knots (degree_in d S) (sz d) (knots_in d S) ->
  (forall H, is_line sz S d H -> heavy H) ->
  let a := val (knots_in d S) 0 in let b := val (knots_in d S) (sz d + 1) in
  let C H t := proj (curve_point (degree_in d S) (sz d) (knots_in d S) H t) in
  returns (VolumeIsClosed S d) (fun r =>
    ((forall H, is_line sz S d H -> close (dist3 (C H a) (C H b)) 0) -> r = true) /\
    (r = true -> forall H, is_line sz S d H -> close (dist3 (C H a) (C H b)) 0 \/
       exists m, 0 <= m < sz d /\ forall i, 0 <= i <= m -> Spec3.near (proj (pt H (sz d - m + i))) (proj (pt H i)))).
Proof. exact VolumeIsClosed_ok. Qed.
Print Assumptions C103_closed.

(* a square ring, closed in the first direction, and the same with one control point moved *)
Definition ring (q : float) : Volume float (XYZW float) := (let box x y z := [[mkXYZW x y z 1; mkXYZW x y 1 1]; [mkXYZW (x + x) (y + y) 0 1; mkXYZW (x + x) (y + y) 1 1]] in
  mkVolume 1 1 1 [0; 0; 1; 2; 3; 4; 4] [0; 0; 1; 1] [0; 0; 1; 1] [box 1 0 0; box 0 1 0; box (-1) 0 0; box 0 (-1) 0; box 1 0 q])%float.
Example C103_ex : VolumeIsClosed (ring 0) DirU = Ok true /\ VolumeIsClosed (ring 0.5) DirU = Ok false /\ VolumeIsClosed (ring 0) DirV = Ok false /\
  valid_volume slab_size slab /\ (forall d, clamped_knots (degree_in d slab) (slab_size d) (knots_in d slab)) /\ (forall d H, is_line slab_size slab d H -> heavy H).
Proof.
  do 3 (split; [vm_compute; reflexivity|]). split; [apply slab_valid|]. split; [apply C101_ex|]. intros d H HL i Hi.
  destruct d; destruct HL as (L & a & b & Ha & Hb & E); rewrite L in Hi; rewrite E by lia; cbn [along]; apply slab_heavy; lia.
Qed.

(** * C104 *)
(* the surface that was passed in is returned as it was *)
Theorem C104_unchanged_refuted : forall (S : Volume R (XYZW R)) u d X b X', VolumeExtract S u d X = Ok (b, X') -> X' = X.
Proof. exact VolumeExtract_unchanged. Qed.
Print Assumptions C104_unchanged_refuted.

Theorem C104_inside_refuted : forall sz (S : Volume R (XYZW R)) d u X, valid_volume sz S -> 1 <= degree_in d S ->
  (val (knots_in d S) (degree_in d S) < u < val (knots_in d S) (sz d + 1))%R -> (forall y, In y (knots_in d S) -> apart u y) ->
  occ (knots_in d S) u <= degree_in d S -> VolumeExtract S u d X = Ok (true, X).
Proof. exact VolumeExtract_inside. Qed.
Print Assumptions C104_inside_refuted.

Theorem C104_ends_refuted : forall sz (S : Volume R (XYZW R)) d u X, valid_volume sz S -> u = val (knots_in d S) 0 \/ u = val (knots_in d S) (len (knots_in d S) - 1) ->
  VolumeExtract S u d X = UB.
Proof. exact VolumeExtract_ends. Qed.
Print Assumptions C104_ends_refuted.

Example C104_ex : let z := mkSurface (A := float) (T := XYZW float) 0 0 [] [] [] in VolumeExtract fslab 0.5%float DirW z = Ok (true, z) /\ VolumeExtract fslab 0%float DirU z = UB /\ VolumeExtract fslab 1%float DirV z = UB.
Proof. vm_compute. repeat split. Qed.
