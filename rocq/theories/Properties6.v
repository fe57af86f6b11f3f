(* Property theorems, part 6: reversal, reparametrisation, transformation, extraction, matrices. *)
From Coq Require Import ZArith List Bool Reals Lra Lia Permutation.
From Coq Require Import Floats.
From Verif Require Import Base Num Vec Spec Spec2 Spec3 M_MathUtils M_XYZ M_Matrix M_Polynomials M_Bspline M_NurbsCurve M_Knots M_Curve2
  P_Vec P_Curve P_VSum P_MathUtils P_XYZ P_Bspline P_Nurbs P_Reverse P_Reparam P_Extract P_Matrix.
Import ListNotations.
Open Scope Z_scope.

(** * C33 *)
Example reverse_hypotheses : curve_knots 2 7 Uex /\ wide_ends 2 7 Uex /\ in_domain 2 7 Uex 4 /\ Z.of_nat (count_occ Req_EM_T Uex 4%R) <= 2.
Proof.
  split; [exact Uex_ok|]. split; [|split].
  - unfold wide_ends. change (val Uex 0) with 0%R. change (val Uex (7 + 2 + 1)) with 5%R. change (val Uex 2) with 0%R. change (val Uex (2 + 1)) with 1%R.
    change (val Uex 7) with 4%R. change (val Uex (7 + 1)) with 5%R. rewrite Rabs_R0, (Rabs_right 5), Rmax_right by lra. lra.
  - unfold in_domain. change (0 <= 4 <= 5)%R. lra.
  - unfold Uex. cbn [count_occ]. repeat match goal with |- context [Req_EM_T ?a ?b] => destruct (Req_EM_T a b); [try lra|try lra] end. cbn. lia.
Qed.

Theorem C33_reverse : forall T (V : Vec R T) (L : VecL T) p n U (P : list T), curve_knots p n U -> wide_ends p n U -> p <= 7 -> len P = n + 1 ->
  returns (Reverse (mkCurve p U P)) (fun c => exists W Q, c = mkCurve p W Q /\ curve_knots p n W /\ len Q = n + 1 /\
    Reverse c = Ok (mkCurve p U P) /\
    (forall i, 0 <= i <= n + p + 1 -> val W i = (val U 0 + val U (n + p + 1) - val U (n + p + 1 - i))%R) /\
    (forall t, in_domain p n U t -> Z.of_nat (count_occ Req_EM_T U t) <= p \/ t = val U p \/ t = val U (n + 1) ->
       GetPointOnCurve c (val U 0 + val U (n + p + 1) - t)%R = GetPointOnCurve (mkCurve p U P) t)).
Proof. intros T V L. exact Reverse_ok. Qed.
Print Assumptions C33_reverse.

(* at an interior knot of multiplicity degree + 1 the curve jumps and the two directions
   disagree about the value (binary64) *)
Theorem C33_reverse_jump_refuted : exists c,
  Reverse (mkCurve 1 [0; 0; 1; 1; 2; 2]%float [0; 1; 5; 6]%float) = Ok c /\
  GetPointOnCurve (mkCurve 1 [0; 0; 1; 1; 2; 2]%float [0; 1; 5; 6]%float) 1%float = Ok 5%float /\
  GetPointOnCurve c 1%float = Ok 1%float.
Proof. eexists. split; [vm_compute; reflexivity|]. split; vm_compute; reflexivity. Qed.
Print Assumptions C33_reverse_jump_refuted.

(** * C35 *)
Theorem C35_extract_sizes : forall A (NA : Num A) T (V : Vec A T) (c r : Curve A T) s e, 1 <= Degree c ->
  Extract c s e = Ok r -> Degree r = Degree c /\ len (KnotVector r) < len (ControlPoints r) + Degree r + 1.
Proof. intros A NA T V c r s e Hd E. destruct (Extract_sizes c r s e E) as [E1 E2]. split; [exact E1|]. lia. Qed.
Print Assumptions C35_extract_sizes.

Example extract_returns : exists r, Extract (mkCurve 2 [0; 0; 0; 1; 2; 3; 3; 3]%float [0; 1; 4; 2; 5]%float) 0.5%float 1.5%float = Ok r.
Proof. eexists. vm_compute. reflexivity. Qed.

(** * C36 *)
Example rescale_hypotheses : 0 < len Uex /\ val Uex (len Uex - 1) <> val Uex 0.
Proof. split; [reflexivity|]. change (5 <> 0)%R. lra. Qed.

Theorem C36_rescale : forall U a b, 0 < len U -> val U (len U - 1) <> val U 0 ->
  returns (Rescale U a b) (fun W => len W = len U /\
    (forall i, 0 <= i < len U -> val W i = (a + (b - a) * ((val U i - val U 0) / (val U (len U - 1) - val U 0)))%R) /\
    val W 0 = a /\ val W (len U - 1) = b /\ ((a <= b)%R -> sorted U -> sorted W)).
Proof. exact Rescale_returns. Qed.
Print Assumptions C36_rescale.

Theorem C36_rescale_degenerate : forall U a b, 0 < len U -> val U (len U - 1) = val U 0 -> Rescale U a b = NonFin.
Proof. exact Rescale_degenerate. Qed.
Print Assumptions C36_rescale_degenerate.

Theorem C36_reparametrize : forall T (V : Vec R T) (L : VecL T) p n U (P : list T) a b,
  curve_knots p n U -> (a < b)%R -> len P = n + 1 -> p <= 7 ->
  returns (Reparametrize (mkCurve p U P) a b) (fun c =>
    ((Rabs (a - val U 0) <= tol a (val U 0) /\ Rabs (b - val U (n + p + 1)) <= tol b (val U (n + p + 1)))%R /\ c = mkCurve p U P) \/
    (~ (Rabs (a - val U 0) <= tol a (val U 0) /\ Rabs (b - val U (n + p + 1)) <= tol b (val U (n + p + 1)))%R /\
     exists W, c = mkCurve p W P /\ len W = n + p + 2 /\ sorted W /\ val W 0 = a /\ val W (n + p + 1) = b /\
       let phi := fun t => ((b - a) / (val U (n + p + 1) - val U 0) * (t - val U 0) + a)%R in
       (forall i, 0 <= i <= n + p + 1 -> val W i = phi (val U i)) /\
       (forall t, curve_point p n W P (phi t) = curve_point p n U P t) /\
       (forall t, curve_knots p n W -> in_domain p n U t -> GetPointOnCurve c (phi t) = GetPointOnCurve (mkCurve p U P) t))).
Proof. intros T V L. exact Reparametrize_ok. Qed.
Print Assumptions C36_reparametrize.

(* weights 1, 2, 1 on the knots 0 0 0 1 1 1 and the map t/(t+1) *)
Example mobius_hypotheses : weighted [mkXYZ 0 0 0; mkXYZ 1 2 0; mkXYZ 3 1 1]%R [1; 2; 1]%R [hom (mkXYZ 0 0 0) 1; hom (mkXYZ 1 2 0) 2; hom (mkXYZ 3 1 1) 1]%R /\
  curve_knots 2 2 [0; 0; 0; 1; 1; 1]%R /\ (forall i, 0 <= i <= 2 -> (tol (val [1; 2; 1]%R i) 0 < val [1; 2; 1]%R i)%R) /\
  (tol (1 * 1) (1 * 0) < 1 * 1 - 1 * 0)%R /\ (forall i, 0 <= i <= 5 -> (0 < 1 * val [0; 0; 0; 1; 1; 1]%R i + 1)%R).
Proof.
  split; [|split; [|split; [|split]]].
  - split; [reflexivity|]. split; [reflexivity|]. intros i Hi. change (len _) with 3 in Hi. assert (i = 0 \/ i = 1 \/ i = 2) as [->|[->| ->]] by lia; reflexivity.
  - constructor; try lia; try reflexivity; [sorted_tac| |];
    change (0 + tol 0 1 < 1)%R; unfold tol; rewrite Rabs_R0, Rabs_R1, Rmax_right by lra; lra.
  - intros i Hi. assert (i = 0 \/ i = 1 \/ i = 2) as [->|[->| ->]] by lia;
    (change (tol 1 0 < 1)%R || change (tol 2 0 < 2)%R); apply heavy_iff; lra.
  - rewrite !Rmult_1_l. pose proof (heavy_iff 1) as [_ H]. specialize (H ltac:(lra)). lra.
  - intros i Hi. assert (i = 0 \/ i = 1 \/ i = 2 \/ i = 3 \/ i = 4 \/ i = 5) as [->|[->|[->|[->|[->| ->]]]]] by lia;
    (change (0 < 1 * 0 + 1)%R || change (0 < 1 * 1 + 1)%R); lra.
Qed.

Theorem C36_reparametrize_rational : forall p n U P W H al be ga de, curve_knots p n U -> p <= 7 -> weighted P W H -> len H = n + 1 ->
  (forall i, 0 <= i <= n -> (tol (val W i) 0 < val W i)%R) ->
  (tol (al * de) (ga * be) < al * de - ga * be)%R ->
  (forall i, 0 <= i <= n + p + 1 -> (0 < ga * val U i + de)%R) ->
  returns (ReparametrizeRational (mkCurve p U H) al be ga de) (fun c => exists U' W' H', c = mkCurve p U' H' /\
    len U' = n + p + 2 /\ sorted U' /\ len H' = n + 1 /\ weighted P W' H' /\
    let phi := fun t => ((al * t + be) / (ga * t + de))%R in
    (forall i, 0 <= i <= n + p + 1 -> val U' i = phi (val U i)) /\
    (forall i, 0 <= i <= n -> (0 < val W' i)%R) /\
    (forall t, in_domain p n U t -> rational_point p n U' P W' (phi t) = rational_point p n U P W t) /\
    (forall t, in_domain p n U t -> curve_knots p n U' -> (forall i, 0 <= i <= n -> (tol (val W' i) 0 < val W' i)%R) ->
       NurbsPoint c (phi t) = NurbsPoint (mkCurve p U H) t)).
Proof. exact ReparametrizeRational_ok. Qed.
Print Assumptions C36_reparametrize_rational.

(** * C37 *)
Theorem C37_transform : forall p n U P W H M, curve_knots p n U -> p <= 7 -> weighted P W H -> len H = n + 1 ->
  (forall i, 0 <= i <= n -> (tol (val W i) 0 < val W i)%R) -> is_affine M ->
  returns (CreateTransformed (mkCurve p U H) M) (fun c =>
    (exists H', c = mkCurve p U H' /\ weighted (map (mat_apply M) P) W H' /\ len H' = n + 1) /\
    forall t, in_domain p n U t -> returns (NurbsPoint (mkCurve p U H) t) (fun x =>
      NurbsPoint c t = Ok (mat_apply M x) /\ OfPoint M x = Ok (mat_apply M x))).
Proof. exact CreateTransformed_ok. Qed.
Print Assumptions C37_transform.

Example transform_hypotheses : is_affine (mkM 0 (-1) 0 3 1 0 0 5 0 0 2 7 0 0 0 1)%R.
Proof. repeat split. Qed.

(* a projective matrix maps the control points but not the points of the curve (binary64):
   the midpoint of the segment from 0 to (1,0,0) goes to x = 1/3, the midpoint of the
   transformed segment is x = 1/4 *)
Theorem C37_projective_refuted : exists c,
  CreateTransformed (mkCurve 1 [0; 0; 1; 1]%float [mkXYZW 0 0 0 1; mkXYZW 1 0 0 1]%float) (mkM 1 0 0 0 0 1 0 0 0 0 1 0 1 0 0 1)%float = Ok c /\
  NurbsPoint c 0.5%float = Ok (mkXYZ 0.25 0 0)%float /\
  bind (NurbsPoint (mkCurve 1 [0; 0; 1; 1]%float [mkXYZW 0 0 0 1; mkXYZW 1 0 0 1]%float) 0.5%float)
    (OfPoint (mkM 1 0 0 0 0 1 0 0 0 0 1 0 1 0 0 1)%float) = Ok (mkXYZ (1 / 3) 0 0)%float.
Proof. eexists. split; [vm_compute; reflexivity|]. split; vm_compute; reflexivity. Qed.
Print Assumptions C37_projective_refuted.

(** * C51 *)
Theorem C51_line : forall a b, ~ near a b ->
  returns (CreateLine a b) (fun c => exists H, c = mkCurve 1 [0; 0; 1; 1]%R H /\ len H = 2 /\ curve_knots 1 1 [0; 0; 1; 1]%R /\
    forall t, (0 <= t <= 1)%R -> NurbsPoint c t = Ok (plus3 (times3 (1 - t) a) (times3 t b))).
Proof. exact CreateLine_returns. Qed.
Print Assumptions C51_line.

Example line_hypothesis : ~ near (mkXYZ 0 0 0)%R (mkXYZ 1 2 3)%R.
Proof. unfold near, tol. cbn [gx gy gz]. intros (H & _ & _). rewrite Rabs_R0, Rabs_R1, Rmax_right, Rabs_left in H; lra. Qed.

Theorem C51_line_throws : forall a b, near a b -> CreateLine a b = Throw.
Proof. intros a b H. apply CreateLine_throw. apply near_iff. exact H. Qed.
Print Assumptions C51_line_throws.

(** * C42 *)
Theorem C42_product_is_composition : forall a b p, (m30 b * gx p + m31 b * gy p + m32 b * gz p + m33 b <> 0)%R ->
  OfPoint (m4_mul a b) p = bind (OfPoint b p) (OfPoint a).
Proof. exact OfPoint_mul. Qed.
Print Assumptions C42_product_is_composition.

Theorem C42_product_entries : forall a b i j, 0 <= i < 4 -> 0 <= j < 4 -> exists f g, 
  (forall k, 0 <= k < 4 -> GetElement a i k = Ok (f k) /\ GetElement b k j = Ok (g k)) /\
  GetElement (m4_mul a b) i j = Ok (rsum 0 4 (fun k => f k * g k)%R).
Proof.
  intros a b i j Hi Hj. exists (fun k => el a i k), (fun k => el b k j). split; [intros k Hk; split; apply GetElement_el; assumption|].
  rewrite GetElement_el by assumption. f_equal. apply m4_mul_el; assumption.
Qed.
Print Assumptions C42_product_entries.

Theorem C42_algebra : forall a b c : Matrix4d R, m4_mul (m4_mul a b) c = m4_mul a (m4_mul b c) /\
  m4_mul m4_id a = a /\ m4_mul a m4_id = a /\ GetTranspose (m4_mul a b) = m4_mul (GetTranspose b) (GetTranspose a) /\
  GetTranspose (GetTranspose a) = a /\ (forall i j, 0 <= i < 4 -> 0 <= j < 4 -> GetElement (GetTranspose a) i j = GetElement a j i).
Proof. exact m4_algebra. Qed.
Print Assumptions C42_algebra.

Theorem C42_points_and_vectors : forall m, is_affine m -> forall p q, OfPoint m p = Ok (mat_apply m p) /\
  OfVector m (minus3 q p) = minus3 (mat_apply m q) (mat_apply m p).
Proof. intros m H p q. split; [apply OfPoint_affine; exact H|apply OfVector_diff; exact H]. Qed.
Print Assumptions C42_points_and_vectors.

Theorem C42_translation : forall v p, is_affine (CreateTranslation v) /\ OfPoint (CreateTranslation v) p = Ok (plus3 p v) /\
  OfVector (CreateTranslation v) p = p.
Proof. exact Translation_ok. Qed.
Print Assumptions C42_translation.

Theorem C42_scale : forall s p, is_affine (CreateScale s) /\
  OfPoint (CreateScale s) p = Ok (mkXYZ (gx s * gx p) (gy s * gy p) (gz s * gz p))%R.
Proof. exact Scale_ok. Qed.
Print Assumptions C42_scale.

Theorem C42_basis : forall x y z o p, is_affine (m4_basis x y z o) /\
  OfPoint (m4_basis x y z o) p = Ok (plus3 o (plus3 (times3 (gx p) x) (plus3 (times3 (gy p) y) (times3 (gz p) z)))).
Proof. exact basis_ok. Qed.
Print Assumptions C42_basis.

Theorem C42_rotation : forall axis th, axis <> zero3 -> returns (CreateRotation axis th) (fun M => is_affine M /\
  exists u, direction_of axis u /\ forall p, OfPoint M p = Ok (rotate u th p) /\ OfVector M p = rotate u th p).
Proof. exact CreateRotation_ok. Qed.
Print Assumptions C42_rotation.

(* what rotate means: distances are kept, the axis is fixed, angles add up *)
Theorem C42_rotation_laws : forall axis u a b v w, direction_of axis u ->
  dot3 (rotate u a v) (rotate u a w) = dot3 v w /\ rotate u a axis = axis /\
  rotate u a (rotate u b v) = rotate u (a + b) v /\
  (dot3 u v = 0%R -> dot3 v (rotate u a v) = (cos a * dot3 v v)%R /\ dot3 (cross3 u v) (rotate u a v) = (sin a * dot3 v v)%R).
Proof. exact rotation_laws. Qed.
Print Assumptions C42_rotation_laws.

Theorem C42_rotation_inverse : forall axis a b, axis <> zero3 -> exists Ma Mb Mab, CreateRotation axis a = Ok Ma /\ CreateRotation axis b = Ok Mb /\
  CreateRotation axis (a + b)%R = Ok Mab /\ m4_mul Ma Mb = Mab /\ m4_mul (GetTranspose Ma) Ma = m4_id.
Proof. exact CreateRotation_add. Qed.
Print Assumptions C42_rotation_inverse.

Example rotation_hypothesis : (mkXYZ 0 3 4)%R <> zero3 /\ direction_of (mkXYZ 0 3 4)%R (mkXYZ 0 (3 / 5) (4 / 5))%R.
Proof.
  split; [unfold zero3; intros E; injection E; intros; lra|]. split; [unfold dot3; cbn [gx gy gz]; field|]. exists 5%R. split; [lra|].
  unfold times3. cbn [gx gy gz]. apply xyz_eq; field.
Qed.

Theorem C42_rotation_at_point : forall o axis th, axis <> zero3 -> returns (CreateRotationAtPoint o axis th) (fun M => is_affine M /\
  exists u, direction_of axis u /\ forall p, OfPoint M p = Ok (plus3 o (rotate u th (minus3 p o)))).
Proof. exact RotationAtPoint_ok. Qed.
Print Assumptions C42_rotation_at_point.

(* about a zero axis the result is no rotation: it scales by cos *)
Theorem C42_rotation_zero_axis_refuted : forall th p, returns (CreateRotation zero3 th) (fun M => OfPoint M p = Ok (times3 (cos th) p)).
Proof. exact rotation_zero_axis. Qed.
Print Assumptions C42_rotation_zero_axis_refuted.

(* the mirror plane is n.x = -d, not n.x = d *)
Theorem C42_reflection : forall nrm d, nrm <> zero3 -> returns (CreateReflection nrm d) (fun M => is_affine M /\ m4_mul M M = m4_id /\
  exists u, direction_of nrm u /\ forall p, OfPoint M p = Ok (mirror u (- d)%R p)).
Proof. exact CreateReflection_ok. Qed.
Print Assumptions C42_reflection.

(* the point (0,0,d) of the plane z = d is not fixed by the reflection made for normal
   (0,0,1) and distance d, unless d = 0 *)
Theorem C42_reflection_plane_refuted : forall d, d <> 0%R -> returns (CreateReflection (mkXYZ 0 0 1)%R d) (fun M =>
  OfPoint M (mkXYZ 0 0 d)%R = Ok (mkXYZ 0 0 (-3 * d))%R).
Proof. exact reflection_plane. Qed.
Print Assumptions C42_reflection_plane_refuted.

(* IsIdentity and IsTranslation accept matrices whose off-diagonal entries cancel, and
   ignore the last diagonal entry *)
Theorem C42_is_identity_refuted : IsIdentity (mkM 1 5 0 0 0 1 0 (-5) 0 0 1 0 0 0 0 7)%float = true /\
  IsTranslation (mkM 1 5 (-5) 0 0 1 0 0 0 0 1 0 0 0 0 7)%float = true /\
  OfPoint (mkM 1 5 0 0 0 1 0 (-5) 0 0 1 0 0 0 0 1)%float (mkXYZ 0 1 0)%float = Ok (mkXYZ 5 (-4) 0)%float.
Proof. repeat split; vm_compute; reflexivity. Qed.
Print Assumptions C42_is_identity_refuted.

(* the identity is accepted *)
Theorem C42_identity_accepted : forall (v : XYZ R), IsIdentity (A := R) m4_id = true /\ IsTranslation (CreateTranslation v) = true.
Proof. exact identity_accepted. Qed.
Print Assumptions C42_identity_accepted.

(* a basis is left-handed, with determinant below minus the tolerance, exactly when
   HasReflection says so *)
Theorem C42_has_reflection : forall m : Matrix4d R, HasReflection m = true <->
  let x := mkXYZ (m00 m) (m10 m) (m20 m) in let y := mkXYZ (m01 m) (m11 m) (m21 m) in let z := mkXYZ (m02 m) (m12 m) (m22 m) in
  (dot3 (cross3 x y) z < - tol (dot3 (cross3 x y) z) 0)%R.
Proof. exact HasReflection_iff. Qed.
Print Assumptions C42_has_reflection.
