(* Property theorems, part 11: Bezier pieces, splitting and merging curves. *)
From Coq Require Import ZArith List Bool Reals Lra Lia Floats.
From Verif Require Import Base Num Vec Tac Spec Spec2 Spec3 Spec4 M_MathUtils M_Polynomials M_XYZ M_Bspline M_NurbsCurve M_Curve2
  P_Curve P_Split P_Merge P_Decomp Properties5 Properties6.
Import ListNotations.
Open Scope Z_scope.

(** * C29 *)
Theorem C29_decompose : forall T (V : Vec R T) (L : VecL T) p n U (P : list T), curve_knots p n U -> len P = n + 1 ->
  clamped_knots p n U -> (forall x y, In x U -> In y U -> apart x y) ->
  (forall x, (val U p < x < val U (n + 1))%R -> occ U x < p \/ (p = 2 /\ occ U x = 2)) ->
  forall fuel, n <= Z.of_nat fuel ->
  returns (DecomposeToBeziers fuel (mkCurve p U P)) (fun cs => exists B, increasing B /\ (forall x, In x B <-> In x U) /\ len cs = len B - 1 /\
    forall j, 0 <= j < len cs -> exists Q, get cs j = Ok (mkCurve p (bezier_knots p) Q) /\ len Q = p + 1 /\
      forall s, (0 <= s <= 1)%R -> curve_point p p (bezier_knots p) Q s = curve_point p n U P ((1 - s) * val B j + s * val B (j + 1))).
Proof. exact @Decompose_ok. Qed.
Print Assumptions C29_decompose.

(* inner knots 1, 2, 3 simple and 4 double, degree 2 *)
Example decompose_hypotheses : curve_knots 2 7 Uex /\ clamped_knots 2 7 Uex /\ (forall x y, In x Uex -> In y Uex -> apart x y) /\
  (forall x, (val Uex 2 < x < val Uex (7 + 1))%R -> occ Uex x < 2 \/ (2 = 2 /\ occ Uex x = 2)).
Proof.
  split; [exact Uex_ok|]. split; [split; reflexivity|]. split.
  - intros x y Hx Hy. unfold Uex in Hx, Hy. cbn [In] in Hx, Hy. repeat match goal with H : _ \/ _ |- _ => destruct H as [<-|H] end; try tauto; apart_tac.
  - intros x Hx. change (0 < x < 5)%R in Hx. unfold occ, Uex. cbn [count_occ].
    repeat match goal with |- context [Req_EM_T ?a ?b] => destruct (Req_EM_T a b); [try lra|try lra] end; cbn; lia.
Qed.

(* degree 1 with more than one span: the loop never ends *)
Theorem C29_linear_refuted : forall T (V : Vec R T) n U (P : list T), curve_knots 1 n U -> len P = n + 1 ->
  clamped_knots 1 n U -> (forall x y, In x U -> In y U -> apart x y) -> (forall x, (val U 1 < x < val U (n + 1))%R -> occ U x <= 1 + 1) -> 2 <= n ->
  forall fuel, DecomposeToBeziers fuel (mkCurve 1 U P) = OutOfFuel.
Proof. intros. apply (dec_linear 1 n); auto. Qed.
Print Assumptions C29_linear_refuted.

(* degree 3 with a triple inner knot: the second piece is not the curve *)
Theorem C29_full_multiplicity_refuted : (exists c d, DecomposeToBeziers 20 (mkCurve 3 [0; 0; 0; 0; 1; 1; 1; 2; 2; 2; 2] [0; 0; 0; 0; 8; 0; 0]) = Ok [c; d] /\
  GetPointOnCurve d 0.5 = Ok 0 /\ GetPointOnCurve (mkCurve 3 [0; 0; 0; 0; 1; 1; 1; 2; 2; 2; 2] [0; 0; 0; 0; 8; 0; 0]) 1.5 = Ok 3)%float.
Proof. eexists. eexists. split; [vm_compute; reflexivity|]. split; vm_compute; reflexivity. Qed.
Print Assumptions C29_full_multiplicity_refuted.

(** * C34 *)
Theorem C34_split : forall T (V : Vec R T) (L : VecL T) p n U (P : list T) u,
  curve_knots p n U -> len P = n + 1 -> (forall y, In y U -> apart u y) -> (val U p < u < val U (n + 1))%R -> occ U u <= p + 1 ->
  returns (SplitAt (mkCurve p U P) u) (fun o => exists nl Ul Pl nr Ur Pr, o = Some (mkCurve p Ul Pl, mkCurve p Ur Pr) /\
    curve_knots p nl Ul /\ len Pl = nl + 1 /\ curve_knots p nr Ur /\ len Pr = nr + 1 /\
    val Ul p = val U p /\ val Ul (nl + 1) = u /\ val Ur p = u /\ val Ur (nr + 1) = val U (n + 1) /\
    (forall t, in_domain p nl Ul t -> (t < u)%R \/ occ U u <= p -> curve_point p nl Ul Pl t = curve_point p n U P t) /\
    (forall t, in_domain p nr Ur t -> curve_point p nr Ur Pr t = curve_point p n U P t) /\
    nl + nr = n + p - occ U u /\ (clamped_knots p n U -> clamped_knots p nl Ul /\ clamped_knots p nr Ur)).
Proof. exact @SplitAt_ok. Qed.
Print Assumptions C34_split.

(* a double inner knot and a parameter between knots *)
Example split_hypotheses : curve_knots 2 7 Uex /\ (forall y, In y Uex -> apart 4 y) /\ (val Uex 2 < 4 < val Uex (7 + 1))%R /\ occ Uex 4 <= 2 /\
  (forall y, In y Uex -> apart (7 / 2) y) /\ (val Uex 2 < 7 / 2 < val Uex (7 + 1))%R.
Proof.
  split; [exact Uex_ok|]. split; [|split; [change (0 < 4 < 5)%R; lra|split; [apply reverse_hypotheses|split; [|change (0 < 7 / 2 < 5)%R; lra]]]].
  all: intros y Hy; unfold Uex in Hy; cbn [In] in Hy; repeat match goal with H : _ \/ _ |- _ => destruct H as [<-|H] end; try tauto; apart_tac.
Qed.

Theorem C34_split_refuses : forall T (V : Vec R T) p n U (P : list T) u, curve_knots p n U ->
  (u <= val U p + tol u (val U p))%R \/ (val U (n + 1) - tol u (val U (n + 1)) <= u)%R -> SplitAt (mkCurve p U P) u = Ok None.
Proof. exact @SplitAt_none. Qed.
Print Assumptions C34_split_refuses.

(* at an inner knot of multiplicity degree+1 the left piece ends on the other side of the jump *)
Theorem C34_split_jump_refuted : (exists l r, SplitAt (mkCurve 1 [0; 0; 1; 1; 2; 2] [0; 1; 5; 6]) 1 = Ok (Some (l, r)) /\
  GetPointOnCurve l 1 = Ok 1 /\ GetPointOnCurve (mkCurve 1 [0; 0; 1; 1; 2; 2] [0; 1; 5; 6]) 1 = Ok 5)%float.
Proof. eexists. eexists. split; [vm_compute; reflexivity|]. split; vm_compute; reflexivity. Qed.
Print Assumptions C34_split_jump_refuted.

(** * C38 *)
Theorem C38_merge : forall p n U (P : list (XYZW R)) m W (Q : list (XYZW R)),
  curve_knots p n U -> len P = n + 1 -> curve_knots p m W -> len Q = m + 1 ->
  unit_or_away U -> unit_or_away W -> val U (n + 1) = val U (n + p + 1) -> val W 0 = val W p ->
  (forall y, In y U -> apart 1 (stretch U 0 1 y)) -> (forall y, In y W -> apart 0 (stretch W 0 1 y)) ->
  stays_wide (stretch U 0 (1 / 2)) (val U p) (val U (p + 1)) -> stays_wide (stretch W (1 / 2) 1) (val W m) (val W (m + 1)) ->
  (tol (ww (pt P n)) 0 < ww (pt P n))%R -> (tol (ww (pt Q 0)) 0 < ww (pt Q 0))%R -> near (proj (pt P n)) (proj (pt Q 0)) ->
  returns (Merge (mkCurve p U P) (mkCurve p W Q)) (fun o => exists K, o = Some (mkCurve p K (P ++ Q)) /\
    curve_knots p (n + m + 1) K /\ val K 0 = 0%R /\ val K (len K - 1) = 1%R /\
    (forall t, in_domain p n U t -> (t < val U (n + 1))%R -> in_domain p (n + m + 1) K (stretch U 0 (1 / 2) t) /\
       curve_point p (n + m + 1) K (P ++ Q) (stretch U 0 (1 / 2) t) = curve_point p n U P t) /\
    (forall t, in_domain p m W t -> in_domain p (n + m + 1) K (stretch W (1 / 2) 1 t) /\
       curve_point p (n + m + 1) K (P ++ Q) (stretch W (1 / 2) 1 t) = curve_point p m W Q t)).
Proof. exact @Merge_points. Qed.
Print Assumptions C38_merge.

Example merge_hypotheses : let a := (mkXYZW 2 4 6 2)%R in let b := (mkXYZW 1 2 3 1)%R in
  curve_knots 2 7 Uex /\ unit_or_away Uex /\ val Uex (7 + 1) = val Uex (7 + 2 + 1) /\ val Uex 0 = val Uex 2 /\
  (forall y, In y Uex -> apart 1 (stretch Uex 0 1 y)) /\ (forall y, In y Uex -> apart 0 (stretch Uex 0 1 y)) /\
  stays_wide (stretch Uex 0 (1 / 2)) (val Uex 2) (val Uex (2 + 1)) /\ stays_wide (stretch Uex (1 / 2) 1) (val Uex 7) (val Uex (7 + 1)) /\
  (tol (ww a) 0 < ww a)%R /\ (tol (ww b) 0 < ww b)%R /\ near (proj a) (proj b).
Proof.
  cbv zeta. split; [exact Uex_ok|].
  assert (E : forall a b x, stretch Uex a b x = (a + (b - a) / 5 * x)%R).
  { intros a b x. unfold stretch. change (val Uex (len Uex - 1)) with 5%R. change (val Uex 0) with 0%R. field. }
  split. { right. intros [_ H]. change (val Uex (len Uex - 1)) with 5%R in H. pose proof (tol_le 1 5 5 ltac:(rewrite Rabs_pos_eq; lra) ltac:(rewrite Rabs_pos_eq; lra)).
    rewrite Rabs_left in H; lra. }
  split; [reflexivity|]. split; [reflexivity|].
  split. { intros y Hy. rewrite E. unfold Uex in Hy. cbn [In] in Hy. repeat match goal with H : _ \/ _ |- _ => destruct H as [<-|H] end; try tauto; apart_tac. }
  split. { intros y Hy. rewrite E. unfold Uex in Hy. cbn [In] in Hy. repeat match goal with H : _ \/ _ |- _ => destruct H as [<-|H] end; try tauto; apart_tac. }
  change (val Uex 2) with 0%R. change (val Uex (2 + 1)) with 1%R. change (val Uex 7) with 4%R. change (val Uex (7 + 1)) with 5%R. unfold stays_wide. rewrite !E. cbn [ww].
  split; [|split; [|split; [|split]]].
  1-4: match goal with |- context [tol ?x ?y] => pose proof (tol_le x y 2 ltac:(rewrite Rabs_pos_eq; lra) ltac:(rewrite Rabs_pos_eq; lra)); lra end.
  unfold near, proj. cbn [wx wy wz ww gx gy gz]. repeat split; match goal with |- (Rabs (?x - ?y) <= _)%R => replace (x - y)%R with 0%R by field; rewrite Rabs_R0; apply Rlt_le, tol_pos end.
Qed.

Theorem C38_merge_refuses : forall (p q : Z) (U W : list R) (P Q : list (XYZW R)), 0 < len P -> 0 < len Q ->
  (tol (ww (pt P (len P - 1))) 0 < ww (pt P (len P - 1)))%R -> (tol (ww (pt Q 0)) 0 < ww (pt Q 0))%R ->
  ~ near (proj (pt P (len P - 1))) (proj (pt Q 0)) -> Merge (mkCurve p U P) (mkCurve q W Q) = Ok None.
Proof. exact @Merge_apart. Qed.
Print Assumptions C38_merge_refuses.

Theorem C38_merge_refuses_unclamped : forall p n U (P : list (XYZW R)) m W (Q : list (XYZW R)),
  curve_knots p n U -> len P = n + 1 -> curve_knots p m W -> len Q = m + 1 -> unit_or_away U -> unit_or_away W ->
  (forall y, In y U -> apart 1 (stretch U 0 1 y)) -> (val U (n + 1) < val U (n + p + 1))%R ->
  (tol (ww (pt P n)) 0 < ww (pt P n))%R -> (tol (ww (pt Q 0)) 0 < ww (pt Q 0))%R ->
  Merge (mkCurve p U P) (mkCurve p W Q) = Ok None.
Proof. exact @Merge_unclamped. Qed.
Print Assumptions C38_merge_refuses_unclamped.
