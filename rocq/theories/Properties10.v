(* Property theorems, part 10: surfaces. Control points of any vector type, so the homogeneous
   points (and with them the rational points) agree. *)
From Coq Require Import ZArith List Bool Reals Lra Lia Floats Permutation.
From Verif Require Import Base Num Vec Tac Spec Spec2 Spec4 M_MathUtils M_Polynomials M_Bspline M_NurbsCurve M_Surface
  P_Curve P_Insert P_BsplineS P_Surface P_Surface2 Properties4 Properties5 Properties6.
Import ListNotations.
Open Scope Z_scope.

(* a surface used for all examples: biquadratic, 8 x 8 control points, repeated inner knot *)
Definition Sex : Surface R R := mkSurface 2 2 Uex Uex (mklist 8 (fun i => mklist 8 (fun j => IZR (i * j)))).
Example surface_hypotheses : valid_surface 7 7 Sex /\ u_domain 7 Sex (7 / 2)%R /\ v_domain 7 Sex 0%R.
Proof.
  split; [|split; apply Uex_dom]. split; [exact Uex_ok|]. split; [exact Uex_ok|]. split; [|cbn; lia].
  change (7 + 1) with 8. split; [reflexivity|]. intros i Hi.
  assert (C : i = 0 \/ i = 1 \/ i = 2 \/ i = 3 \/ i = 4 \/ i = 5 \/ i = 6 \/ i = 7) by lia.
  repeat (destruct C as [->|C]; [reflexivity|]). subst i. reflexivity.
Qed.

(** * C52 *)
Theorem C52_swap : forall T (V : Vec R T) (L : VecL T) n m (S : Surface R T), valid_surface n m S ->
  returns (Swap S) (fun S' => valid_surface m n S' /\ Swap S' = Ok S /\
    forall u v, u_domain n S u -> v_domain m S v -> GetPointOnSurface S' v u = GetPointOnSurface S u v).
Proof. exact @Swap_ok. Qed.
Print Assumptions C52_swap.

(* the output being the input object: both directions get the v data *)
Theorem C52_swap_in_place_refuted : forall T (V : Vec R T) n m (S : Surface R T), valid_surface n m S ->
  DegreeU S <> DegreeV S \/ KnotVectorU S <> KnotVectorV S ->
  returns (Swap_in_place S) (fun S' => DegreeV S' = DegreeV S /\ KnotVectorV S' = KnotVectorV S /\ Swap S <> Ok S').
Proof. exact @Swap_in_place_bad. Qed.
Print Assumptions C52_swap_in_place_refuted.

(** * C53 *)
Theorem C53_reverse_u : forall T (V : Vec R T) (L : VecL T) n m (S S0 : Surface R T),
  valid_surface n m S -> wide_ends (DegreeU S) n (KnotVectorU S) -> KnotVectorV S0 = KnotVectorV S ->
  returns (SurfaceReverse S UDirection S0) (fun S' => valid_surface n m S' /\ SurfaceReverse S' UDirection S' = Ok S /\
    forall u v, u_domain n S u -> v_domain m S v ->
      occ (KnotVectorU S) u <= DegreeU S \/ u = val (KnotVectorU S) (DegreeU S) \/ u = val (KnotVectorU S) (n + 1) ->
      GetPointOnSurface S' (mirrored (KnotVectorU S) u) v = GetPointOnSurface S u v).
Proof. exact @SurfaceReverse_u. Qed.
Print Assumptions C53_reverse_u.

Example reverse_u_hypotheses : valid_surface 7 7 Sex /\ wide_ends 2 7 Uex /\ occ Uex 4 <= 2.
Proof. split; [apply surface_hypotheses|]. split; apply reverse_hypotheses. Qed.

(* into a freshly made surface: its empty v knots are kept, every evaluation is undefined *)
Theorem C53_reverse_u_fresh_refuted : forall T (V : Vec R T) n m (S S0 : Surface R T), valid_surface n m S -> KnotVectorV S0 = [] ->
  returns (SurfaceReverse S UDirection S0) (fun S' => KnotVectorV S' = [] /\
    forall u v, u_domain n S u -> GetPointOnSurface S' (mirrored (KnotVectorU S) u) v = UB).
Proof. exact @SurfaceReverse_u_fresh. Qed.
Print Assumptions C53_reverse_u_fresh_refuted.

(* v direction: the net doubles its rows, the library's own check rejects the result *)
Theorem C53_reverse_v_refuted : forall T n m (S S0 : Surface R T), valid_surface n m S ->
  returns (SurfaceReverse S VDirection S0) (fun S' => len (SControlPoints S') = 2 * (n + 1) /\
    (forall i, 0 <= i <= n -> get (SControlPoints S') i = Ok []) /\
    (forall i, 0 <= i <= n -> get (SControlPoints S') (n + 1 + i) = Ok (rev (at_ [] (SControlPoints S) i))) /\
    NurbsSurfaceCheck S' = Throw).
Proof. exact @SurfaceReverse_v. Qed.
Print Assumptions C53_reverse_v_refuted.

(* both directions: only the order of the rows is reversed *)
Theorem C53_reverse_all_net : forall T n m (S S0 : Surface R T), valid_surface n m S ->
  returns (SurfaceReverse S All S0) (fun S' => SControlPoints S' = rev (SControlPoints S)).
Proof. exact @SurfaceReverse_all. Qed.
Print Assumptions C53_reverse_all_net.

(* the corner (0,0) of the unit bilinear patch is not found at (1,1) of the reversed patch *)
Theorem C53_reverse_all_refuted : (exists S S' : Surface float float, SurfaceReverse S All S = Ok S' /\
  GetPointOnSurface S 0 0 = Ok 0 /\ GetPointOnSurface S' 1 1 = Ok 1)%float.
Proof.
  exists (mkSurface 1 1 [0;0;1;1] [0;0;1;1] [[0;1];[2;3]])%float. eexists.
  split; [vm_compute; reflexivity|]. split; vm_compute; reflexivity.
Qed.
Print Assumptions C53_reverse_all_refuted.

(** * C54 *)
Theorem C54_iso_curve_u : forall T (V : Vec R T) (L : VecL T) n m (S : Surface R T) t, valid_surface n m S ->
  returns (GetIsoCurve S t true) (fun c => Degree c = DegreeU S /\ KnotVector c = KnotVectorU S /\ len (ControlPoints c) = n + 1 /\
    forall u, u_domain n S u ->
      GetPointOnCurve c u = GetPointOnSurface S u (clamped (val (KnotVectorV S) (DegreeV S)) (val (KnotVectorV S) (m + 1)) t)).
Proof. exact @GetIsoCurve_u. Qed.
Print Assumptions C54_iso_curve_u.

Theorem C54_iso_curve_v : forall T (V : Vec R T) (L : VecL T) n m (S : Surface R T) t, valid_surface n m S ->
  returns (GetIsoCurve S t false) (fun c => Degree c = DegreeV S /\ KnotVector c = KnotVectorV S /\ len (ControlPoints c) = m + 1 /\
    forall v, v_domain m S v ->
      GetPointOnCurve c v = GetPointOnSurface S (clamped (val (KnotVectorU S) (DegreeU S)) (val (KnotVectorU S) (n + 1)) t) v).
Proof. exact @GetIsoCurve_v. Qed.
Print Assumptions C54_iso_curve_v.

(** * C55 *)
Theorem C55_insert_u : forall T (V : Vec R T) (L : VecL T) n m (S : Surface R T) x times, valid_surface n m S ->
  (val (KnotVectorU S) (DegreeU S) < x < val (KnotVectorU S) (n + 1))%R ->
  (forall y, In y (KnotVectorU S) -> (Rabs (x - y) <= tol x y)%R -> y = x) -> 1 <= times ->
  let s := occ (KnotVectorU S) x in
  let r := Z.min times (DegreeU S - s) in
  (s = DegreeU S -> SurfaceInsertKnot S x times true = Ok S) /\
  (s < DegreeU S -> returns (SurfaceInsertKnot S x times true) (fun S' => valid_surface (n + r) m S' /\
    DegreeU S' = DegreeU S /\ DegreeV S' = DegreeV S /\ KnotVectorV S' = KnotVectorV S /\
    Permutation (KnotVectorU S') (repeat x (Z.to_nat r) ++ KnotVectorU S) /\
    forall u v, u_domain n S u -> v_domain m S v -> GetPointOnSurface S' u v = GetPointOnSurface S u v)).
Proof. exact @SurfaceInsert_u. Qed.
Print Assumptions C55_insert_u.

Theorem C55_insert_v : forall T (V : Vec R T) (L : VecL T) n m (S : Surface R T) x times, valid_surface n m S ->
  (val (KnotVectorV S) (DegreeV S) < x < val (KnotVectorV S) (m + 1))%R ->
  (forall y, In y (KnotVectorV S) -> (Rabs (x - y) <= tol x y)%R -> y = x) -> 1 <= times ->
  let s := occ (KnotVectorV S) x in
  let r := Z.min times (DegreeV S - s) in
  (s = DegreeV S -> SurfaceInsertKnot S x times false = Ok S) /\
  (s < DegreeV S -> returns (SurfaceInsertKnot S x times false) (fun S' => valid_surface n (m + r) S' /\
    DegreeU S' = DegreeU S /\ DegreeV S' = DegreeV S /\ KnotVectorU S' = KnotVectorU S /\
    Permutation (KnotVectorV S') (repeat x (Z.to_nat r) ++ KnotVectorV S) /\
    forall u v, u_domain n S u -> v_domain m S v -> GetPointOnSurface S' u v = GetPointOnSurface S u v)).
Proof. exact @SurfaceInsert_v. Qed.
Print Assumptions C55_insert_v.

Example surface_insert_hypotheses : valid_surface 7 7 Sex /\ (val Uex 2 < 4 < val Uex (7 + 1))%R /\
  (forall y, In y Uex -> (Rabs (4 - y) <= tol 4 y)%R -> y = 4%R).
Proof. split; [apply surface_hypotheses|]. split; [change (0 < 4 < 5)%R; lra|exact Uex_sep]. Qed.

Theorem C55_refine_u : forall T (V : Vec R T) (L : VecL T) n m (S : Surface R T) X, valid_surface n m S ->
  refinable (DegreeU S) n (KnotVectorU S) X ->
  returns (SurfaceRefineKnotVector S X true) (fun S' => valid_surface (n + len X) m S' /\
    DegreeU S' = DegreeU S /\ DegreeV S' = DegreeV S /\ Permutation (KnotVectorU S') (X ++ KnotVectorU S) /\ KnotVectorV S' = KnotVectorV S /\
    forall u v, u_domain n S u -> v_domain m S v -> GetPointOnSurface S' u v = GetPointOnSurface S u v).
Proof. exact @SurfaceRefine_u. Qed.
Print Assumptions C55_refine_u.

Theorem C55_refine_v : forall T (V : Vec R T) (L : VecL T) n m (S : Surface R T) X, valid_surface n m S ->
  refinable (DegreeV S) m (KnotVectorV S) X ->
  returns (SurfaceRefineKnotVector S X false) (fun S' => valid_surface n (m + len X) S' /\
    DegreeU S' = DegreeU S /\ DegreeV S' = DegreeV S /\ KnotVectorU S' = KnotVectorU S /\ Permutation (KnotVectorV S') (X ++ KnotVectorV S) /\
    forall u v, u_domain n S u -> v_domain m S v -> GetPointOnSurface S' u v = GetPointOnSurface S u v).
Proof. exact @SurfaceRefine_v. Qed.
Print Assumptions C55_refine_v.

Example surface_refine_hypotheses : valid_surface 7 7 Sex /\ refinable 2 7 Uex Xex.
Proof. split; [apply surface_hypotheses|]. split; apply refine_hypotheses. Qed.

(** * C67 *)
Theorem C67_reparametrize : forall T (V : Vec R T) (L : VecL T) n m (S : Surface R T) a b c d, valid_surface n m S ->
  (a < b)%R -> (c < d)%R -> ~ at_ends (KnotVectorU S) a b -> ~ at_ends (KnotVectorV S) c d ->
  returns (SurfaceReparametrize S a b c d) (fun S' => DegreeU S' = DegreeU S /\ DegreeV S' = DegreeV S /\ SControlPoints S' = SControlPoints S /\
    sorted (KnotVectorU S') /\ sorted (KnotVectorV S') /\ len (KnotVectorU S') = len (KnotVectorU S) /\ len (KnotVectorV S') = len (KnotVectorV S) /\
    val (KnotVectorU S') 0 = a /\ val (KnotVectorU S') (len (KnotVectorU S) - 1) = b /\
    val (KnotVectorV S') 0 = c /\ val (KnotVectorV S') (len (KnotVectorV S) - 1) = d /\
    (valid_surface n m S' -> forall u v, u_domain n S u -> v_domain m S v ->
       GetPointOnSurface S' (stretch (KnotVectorU S) a b u) (stretch (KnotVectorV S) c d v) = GetPointOnSurface S u v)).
Proof. exact @SurfaceReparametrize_ok. Qed.
Print Assumptions C67_reparametrize.

Example reparametrize_hypotheses : valid_surface 7 7 Sex /\ (0 < 1)%R /\ ~ at_ends Uex 0 1.
Proof.
  split; [apply surface_hypotheses|]. split; [lra|]. intros [_ H]. change (val Uex (len Uex - 1)) with 5%R in H. revert H. unfold tol.
  repeat match goal with |- context [Rabs ?x] => first [rewrite (Rabs_right x) by lra | rewrite (Rabs_left x) by lra] end.
  unfold Rmax. destruct (Rle_dec 1 5); lra.
Qed.

(* one direction already has the requested range: nothing is done, whatever the other one *)
Theorem C67_reparametrize_refuted : forall T n m (S : Surface R T) a b c d, valid_surface n m S ->
  at_ends (KnotVectorU S) a b \/ at_ends (KnotVectorV S) c d -> SurfaceReparametrize S a b c d = Ok S.
Proof. exact @SurfaceReparametrize_skip. Qed.
Print Assumptions C67_reparametrize_refuted.
