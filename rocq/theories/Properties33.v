(* Property theorems, part 33: removing knots within an error bound, and calls that come to an end. *)
From Coq Require Import ZArith List Bool Reals Lra Lia Floats Permutation.
From Verif Require Import Base Num Vec Tac Spec Spec2 Spec3 Spec4 Spec5 Spec6 Spec23 Spec24 M_MathUtils M_Polynomials M_Knots M_XYZ M_Bspline M_NurbsCurve M_Curve2 M_Interp M_Bound
  P_MathUtils P_Span P_Curve P_Vec P_Reduce P_Ls4 P_Excess P_Interp2 P_Bound P_Bound2 P_Bound3 P_Bound4 P_Ends P_Ends2.
Import ListNotations.
Open Scope Z_scope.

(** * C131 *)
(* the bound holds for some curve without the knot *)
Theorem C131_bound : forall p n U P k, curve_knots p n U -> len P = n + 1 -> p < k <= n -> (val U p < val U k < val U (k + 1))%R ->
  (forall x, In x U -> (Rabs (val U k - x) <= tol (val U k) x)%R -> x = val U k) -> occ U (val U k) <= p ->
  returns (ComputerRemoveKnotErrorBound (mkCurve p U P) k) (fun e => (0 <= e)%R /\ exists V Q, Permutation U (val U k :: V) /\ curve_knots p (n - 1) V /\ len Q = n /\
    forall t, in_domain p n U t -> in_domain p (n - 1) V t /\ (dist4 (curve_point p n U P t) (curve_point p (n - 1) V Q t) <= e)%R).
Proof.
  intros p n U P k HU HP Hk Hu Hsep Ho. pose proof HU as [Hp Hn HL HS _ _].
  assert (H1 : 1 <= occ U (val U k)). { unfold occ. pose proof (proj1 (count_occ_In Req_EM_T U (val U k)) ltac:(apply nth_In; unfold len in HL; lia)). lia. }
  apply (Bound_ok p n U P (val U k) k (occ U (val U k)) HU HP); auto; try lia.
  - split; [lia|]. split; [lra|]. split; [lra|left; lra].
  - split; [lra|]. pose proof (HS (k + 1) (n + 1) ltac:(lia) ltac:(lia) ltac:(lia)). lra.
Qed.
Print Assumptions C131_bound.

(* bound zero: the knot can be left out without a change *)
Theorem C131_zero : forall p n U P k, curve_knots p n U -> len P = n + 1 -> p < k <= n -> (val U p < val U k < val U (k + 1))%R ->
  (forall x, In x U -> (Rabs (val U k - x) <= tol (val U k) x)%R -> x = val U k) -> occ U (val U k) <= p ->
  ComputerRemoveKnotErrorBound (mkCurve p U P) k = Ok 0%R -> exists V Q, Permutation U (val U k :: V) /\ curve_knots p (n - 1) V /\ len Q = n /\
    forall t, in_domain p n U t -> curve_point p n U P t = curve_point p (n - 1) V Q t.
Proof.
  intros p n U P k HU HP Hk Hu Hsep Ho E. destruct (C131_bound p n U P k HU HP Hk Hu Hsep Ho) as (e & E' & _ & V & Q & H1 & H2 & H3 & H4). rewrite E in E'. injection E' as <-. exists V, Q. split; [exact H1|]. split; [exact H2|]. split; [exact H3|].
  intros t Ht. destruct (H4 t Ht) as (_ & D). destruct (curve_point p n U P t) as [a b c d], (curve_point p (n - 1) V Q t) as [a' b' c' d']. unfold dist4 in D. cbn [wx wy wz ww] in D.
  set (x := ((a' - a) ^ 2 + (b' - b) ^ 2 + (c' - c) ^ 2 + (d' - d) ^ 2)%R) in *. assert (X0 : (0 <= x)%R) by (unfold x; pose proof (pow2_ge_0 (a' - a)); pose proof (pow2_ge_0 (b' - b)); pose proof (pow2_ge_0 (c' - c)); pose proof (pow2_ge_0 (d' - d)); lra).
  assert (E0 : R_sqrt.sqrt x = 0%R) by (pose proof (sqrt_pos x); lra). apply sqrt_eq_0 in E0; [|exact X0]. subst x.
  assert (S4 : forall y : R, (0 <= y ^ 2)%R) by (intros; apply pow2_ge_0). pose proof (S4 (a' - a)%R). pose proof (S4 (b' - b)%R). pose proof (S4 (c' - c)%R). pose proof (S4 (d' - d)%R).
  assert (sq0 : forall y : R, (y ^ 2 = 0 -> y = 0)%R) by (intros y Hy; apply Rsqr_0_uniq; unfold Rsqr; lra).
  assert (a' - a = 0)%R by (apply sq0; lra). assert (b' - b = 0)%R by (apply sq0; lra). assert (c' - c = 0)%R by (apply sq0; lra). assert (d' - d = 0)%R by (apply sq0; lra). f_equal; lra.
Qed.
Print Assumptions C131_zero.

(* a knot that was just inserted has bound zero *)
Theorem C131_inserted : forall p n U P u res0, curve_knots p n U -> len P = n + 1 -> (val U p < u < val U (n + 1))%R ->
  (forall x, In x U -> (Rabs (u - x) <= tol u x)%R -> x = u) -> occ U u < p ->
  returns (InsertKnot (mkCurve p U P) u 1 res0) (fun '(r, c) => exists k, 0 <= k < len (KnotVector c) - 1 /\ val (KnotVector c) k = u /\ (u < val (KnotVector c) (k + 1))%R /\ ComputerRemoveKnotErrorBound c k = Ok 0%R).
Proof. exact Bound_inserted. Qed.
Print Assumptions C131_inserted.

(* the values for simple knots of polygons and quadratic curves *)
Theorem C131_linear : forall n U P k, curve_knots 1 n U -> len P = n + 1 -> 1 < k <= n -> (val U 1 < val U k < val U (k + 1))%R ->
  (forall x, In x U -> (Rabs (val U k - x) <= tol (val U k) x)%R -> x = val U k) -> occ U (val U k) = 1 ->
  let a := ((val U k - val U (k - 1)) / (val U (k + 1) - val U (k - 1)))%R in
  ComputerRemoveKnotErrorBound (mkCurve 1 U P) k = Ok (dist4 (pt P (k - 1)) (vadd (vscale a (pt P k)) (vscale (1 - a)%R (pt P (k - 2))))).
Proof. exact Bound_linear. Qed.
Print Assumptions C131_linear.
Theorem C131_quadratic : forall n U P k, curve_knots 2 n U -> len P = n + 1 -> 2 < k <= n -> (val U 2 < val U k < val U (k + 1))%R ->
  (forall x, In x U -> (Rabs (val U k - x) <= tol (val U k) x)%R -> x = val U k) -> occ U (val U k) = 1 ->
  let a i := ((val U k - val U i) / (val U (i + 3) - val U i))%R in
  ComputerRemoveKnotErrorBound (mkCurve 2 U P) k = Ok (dist4 (vscale (/ a (k - 2)%Z) (vsub (pt P (k - 2)) (vscale (1 - a (k - 2)%Z) (pt P (k - 3))))) (vscale (/ (1 - a (k - 1)%Z)) (vsub (pt P (k - 1)) (vscale (a (k - 1)%Z) (pt P k)))))%R.
Proof. exact Bound_quadratic. Qed.
Print Assumptions C131_quadratic.

(* the first knots, which are accepted as an index, lead to a read before the control points *)
Theorem C131_ends_refuted : forall p n U P r, curve_knots p n U -> len P = n + 1 -> 0 <= r <= p -> ComputerRemoveKnotErrorBound (mkCurve p U P) r = UB.
Proof. exact Bound_low. Qed.
Print Assumptions C131_ends_refuted.

(* a roof with its top at (1, 8, 0), over the middle of three points of weight 1/8 *)
Example C131_bound_ex : curve_knots 1 2 roofU /\ (val roofU 1 < val roofU 2 < val roofU (2 + 1))%R /\
  (forall x, In x roofU -> (Rabs (val roofU 2 - x) <= tol (val roofU 2) x)%R -> x = val roofU 2) /\ occ roofU (val roofU 2) = 1.
Proof. split; [apply roof_knots|]. split; [change (0 < 1 / 2 < 1)%R; lra|]. split; [exact roof_sep|exact roof_occ]. Qed.
Example C131_inserted_ex : curve_knots 1 2 roofU /\ clamped_knots 1 2 roofU /\ (forall x, In x roofU -> (Rabs (1 / 4 - x) <= tol (1 / 4) x)%R -> x = (1 / 4)%R) /\ occ roofU (1 / 4) < 1.
Proof.
  split; [apply roof_knots|]. split; [apply roof_knots|]. split.
  - intros x Hx Ha. exfalso. assert (H : (x = 1 / 2 \/ x = 0 \/ x = 1)%R) by (cbn in Hx; intuition).
    pose proof (tol_le (1 / 4) x 1 ltac:(rewrite Rabs_pos_eq; lra) ltac:(destruct H as [-> | [-> | ->]]; rewrite Rabs_pos_eq; lra)). revert Ha. unfold Rabs. destruct Rcase_abs, H as [-> | [-> | ->]]; lra.
  - unfold occ, roofU. cbn [count_occ]. repeat match goal with |- context [Req_EM_T ?x ?y] => destruct (Req_EM_T x y); [try (exfalso; lra)|try (exfalso; lra)] end; reflexivity.
Qed.

(* the distance is one of homogeneous coordinates: here the bound is 1, but whatever replaces the curve is farther away *)
Theorem C131_model_space_refuted : let c := mkCurve 1 roofU roofH in ComputerRemoveKnotErrorBound c 2 = Ok 1%R /\
  forall Q, len Q = 2 -> (0 < ww (pt Q 0))%R -> (0 < ww (pt Q 1))%R ->
  exists t, (0 <= t <= 1)%R /\ (1 < dist3 (proj (curve_point 1 1 (bezier_knots 1) Q t)) (proj (curve_point 1 2 roofU roofH t)))%R.
Proof. split; [exact roof_bound|exact roof_line]. Qed.
Print Assumptions C131_model_space_refuted.

(** * C132 *)
(* what is returned is what is left after some knots were removed, and the errors reported are within the bound *)
Theorem C132_shape : forall c params errors maxError c' e, RemoveKnotsByGivenBound c params errors maxError = Ok (c', e) ->
  stripped c c' /\ (exists m, 0 <= m /\ Degree c' = Degree c /\ len (KnotVector c') = len (KnotVector c) - m /\ len (ControlPoints c') = len (ControlPoints c) - m) /\
  len e = len errors /\ forall i, 0 <= i < len errors -> val e i = val errors i \/ within (val e i) maxError.
Proof.
  intros c params errors maxError c' e E. destruct (Given_shape _ _ _ _ _ _ E) as (H1 & _ & H2 & H3). split; [exact H1|]. split; [|split; assumption]. destruct (stripped_shape _ _ H1) as (m & M). exists m. exact M.
Qed.
Print Assumptions C132_shape.

(* parameters and errors go together, and the bound is positive *)
Theorem C132_validation : forall c params errors maxError, len params = 0 \/ len params <> len errors \/ (maxError <= 0)%R -> RemoveKnotsByGivenBound c params errors maxError = Throw.
Proof.
  intros c params errors maxError H. unfold RemoveKnotsByGivenBound. destruct (Z.ltb_spec 0 (len params)); cbn [validate bind]; [|reflexivity]. destruct (Z.eqb_spec (len params) (len errors)); cbn [bind]; [|reflexivity].
  destruct (IsGreaterThan maxError n0) eqn:E; cbn [bind]; [|reflexivity]. exfalso. apply gt_iff in E. pose proof (tol_pos maxError 0). num. rewrite <- tol_thr in E. destruct H as [H | [H | H]]; [lia|contradiction|lra].
Qed.
Print Assumptions C132_validation.

(* the last inner knot stays, however large the bound *)
Theorem C132_last_knot_refuted : forall c params errors maxError c' e, len (ControlPoints c) <= Degree c + 2 -> RemoveKnotsByGivenBound c params errors maxError = Ok (c', e) -> c' = c.
Proof. intros c params errors maxError c' e H E. exact (Given_one_knot _ _ _ _ _ _ H E). Qed.
Print Assumptions C132_last_knot_refuted.

(* error zero is reported, at 0.5 too, where the curve has moved *)
Theorem C132_errors_refuted : (let c := mkCurve 2 [0; 0; 0; 0.5; 0.75; 1; 1; 1] [mkXYZW 0 0 0 1; mkXYZW 4 0 0 1; mkXYZW 10 3 0 1; mkXYZW 14 6 0 1; mkXYZW 16 8 0 1] in
  exists c', RemoveKnotsByGivenBound c [0; 0.5; 1] [0; 0; 0] 0.125 = Ok (c', [0; 0; 0]) /\ exists x x' y', GetPointOnCurve c 0.5 = Ok (mkXYZW x 2 0 1) /\ GetPointOnCurve c' 0.5 = Ok (mkXYZW x' y' 0 1) /\ (x <? 8.125) = true /\ (10 <? x') = true /\ (3 <? y') = true)%float.
Proof. cbv zeta. eexists. split; [vm_compute; reflexivity|]. do 3 eexists. split; [vm_compute; reflexivity|]. split; [vm_compute; reflexivity|]. repeat split; vm_compute; reflexivity. Qed.
Print Assumptions C132_errors_refuted.
(* the approximation of points: the polygon, its degree raised, and stripped *)
Theorem C132_approximation : forall p Q e c', GlobalApproximationByErrorBound p Q e = Ok c' ->
  2 <= p < len Q /\ exists uk U P c0, GetChordParameterization Q = Ok uk /\ len U = len Q + 2 /\ val U 0 = 0%R /\ val U (len Q + 1) = 1%R /\ (forall i, 0 <= i < len Q -> val U (i + 1) = val uk i) /\
  len P = len Q /\ (forall i, 0 <= i < len Q -> pt P i = hom (pt Q i) 1) /\ ElevateDegree (mkCurve 1 U P) (p - 1) = Ok c0 /\ stripped c0 c'.
Proof. exact Approximation_shape. Qed.
Print Assumptions C132_approximation.

Lemma len_updn {X} (l : list X) n x : len (upd_nat l n x) = len l.
Proof. unfold len. rewrite length_upd_nat. reflexivity. Qed.
(* degree 1 is accepted, but there is no such approximation *)
Theorem C132_degree_one_refuted : forall Q e, 1 < len Q -> (tol e 0 < e)%R -> GlobalApproximationByErrorBound 1 Q e = Throw.
Proof.
  intros Q e HQ He. destruct (Chord_returns Q ltac:(lia)) as (uk & EU & LU & _).
  unfold GlobalApproximationByErrorBound. destruct (Z.ltb_spec 1 (len Q)); [|lia]. cbn [Z.ltb validate bind]. assert (EG : IsGreaterThan e n0 = true) by (apply gt_iff; num; rewrite <- tol_thr; lra). change (0 <? 1) with true. cbn [validate bind]. rewrite EG. cbn [validate bind]. rewrite EU. cbn [bind].
  unfold mkvec. destruct (Z.ltb_spec (len Q) 0); [lia|]. destruct (Z.ltb_spec (len Q + 2) 0); [lia|]. cbn [bind].
  assert (W1 : wp (for_up 0 (len Q) (repeat n0 (Z.to_nat (len Q + 2))) (fun i v => let! u := get uk i in upd v (i + 1) u)) (fun v => len v = len Q + 2)).
  { apply wp_for_up with (P := fun h v => len v = len Q + 2); [lia|unfold len at 1; rewrite repeat_length; lia| |auto]. intros i v Hi Hv. rewrite (get_val uk i) by lia. cbn [bind]. unfold upd. destruct (Z.leb_spec 0 (i + 1)); [|lia]. destruct (Z.ltb_spec (i + 1) (len v)); [|lia]. cbn [andb]. apply wp_ok. rewrite <- Hv. apply len_updn. }
  destruct (wp_elim _ _ W1) as (v & -> & Lv). cbn [bind]. unfold upd at 1. destruct (Z.leb_spec 0 0); [|lia]. destruct (Z.ltb_spec 0 (len v)); [|lia]. cbn [andb bind]. rewrite len_updn. unfold upd at 1. rewrite len_updn. destruct (Z.leb_spec 0 (len v - 1)); [|lia]. destruct (Z.ltb_spec (len v - 1) (len v)); [|lia]. cbn [andb bind].
  assert (W2 : wp (for_up 0 (len Q) (repeat xyzw0 (Z.to_nat (len Q))) (fun i v => let! q := get Q i in upd v i (mkW q n1))) (fun v => len v = len Q)).
  { apply wp_for_up with (P := fun h v => len v = len Q); [lia|unfold len at 1; rewrite repeat_length; lia| |auto]. intros i w Hi Hw. rewrite (get_at vzero Q i) by lia. cbn [bind]. unfold upd. destruct (Z.leb_spec 0 i); [|lia]. destruct (Z.ltb_spec i (len w)); [|lia]. cbn [andb]. apply wp_ok. rewrite <- Hw. apply len_updn. }
  destruct (wp_elim _ _ W2) as (w & -> & _). cbn [bind]. reflexivity.
Qed.
Print Assumptions C132_degree_one_refuted.
Example C132_degree_one_ex : (tol (1 / 100) 0 < 1 / 100)%R.
Proof. pose proof (tol_le (1 / 100) 0 1 ltac:(rewrite Rabs_pos_eq; lra) ltac:(rewrite Rabs_R0; lra)). lra. Qed.

(* the points are missed by more than the bound: at 1/8 the curve is at 1.25 instead of 1 *)
Definition row5 : list (XYZ float) := ([mkXYZ 0 0 0; mkXYZ 1 0 0; mkXYZ 2 0 0; mkXYZ 4 0 0; mkXYZ 8 0 0])%float.
Definition row5_curve : Curve float (XYZW float) := (mkCurve 2 [0; 0; 0; 0.25; 0.25; 1; 1; 1] [mkXYZW 0 0 0 1; mkXYZW 1.5 0 0 1; mkXYZW 2 0 0 1; mkXYZW 6 0 0 1; mkXYZW 8 0 0 1])%float.
Theorem C132_points_refuted : GetChordParameterization row5 = Ok [0; 0.125; 0.25; 0.5; 1]%float /\
  GlobalApproximationByErrorBound 2 row5 0.125%float = Ok row5_curve /\ GetPointOnCurve row5_curve 0.125%float = Ok (mkXYZW 1.25 0 0 1)%float.
Proof. split; [vm_compute; reflexivity|]. split; vm_compute; reflexivity. Qed.
Print Assumptions C132_points_refuted.

(** * C133 *)
(* whatever the input, these calls come to an end: they return or fail *)
Theorem C133_span : forall p (U : list R) t, GetKnotSpanIndex p U t <> OutOfFuel.
Proof. exact ends_span. Qed.
Print Assumptions C133_span.
Theorem C133_remove : forall c u times, RemoveKnot (A := R) c u times <> OutOfFuel.
Proof. exact ends_remove. Qed.
Print Assumptions C133_remove.
Theorem C133_excessive : forall c, RemoveExcessiveKnots (A := R) c <> OutOfFuel.
Proof. exact Excessive_never. Qed.
Print Assumptions C133_excessive.
Theorem C133_elevate : forall (c : Curve R (XYZW R)) times, ElevateDegree c times <> OutOfFuel.
Proof. exact ends_elevate. Qed.
Print Assumptions C133_elevate.
Theorem C133_given_bound : forall c params errors maxError, RemoveKnotsByGivenBound (A := R) c params errors maxError <> OutOfFuel.
Proof. exact Given_ends. Qed.
Print Assumptions C133_given_bound.
Theorem C133_approximation : forall p (Q : list (XYZ R)) e, GlobalApproximationByErrorBound p Q e <> OutOfFuel.
Proof. exact Approximation_ends. Qed.
Print Assumptions C133_approximation.
