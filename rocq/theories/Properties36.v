(* Property theorems, part 36: triangle meshes of a surface and signed distances. *)
From Coq Require Import ZArith List Bool Reals Lra Lia Floats.
From Verif Require Import Base Num Vec Tac Spec Spec2 Spec3 Spec4 Spec5 Spec8 Spec10 Spec12 Spec26 M_MathUtils M_XYZ M_Bspline M_NurbsCurve M_Shape M_Surface M_Surface2 M_Mesh
  P_Vec P_XYZ P_Geom P_Nurbs P_Surface P_Surf5 P_Surf6 P_Surf8 P_Area2 P_Mesh P_Mesh2 P_Mesh3 P_Mesh4 Properties20.
Import ListNotations.
Open Scope Z_scope.

(** * C138 *)
(* the vertices are points of the surface over a grid of parameters; the triangles cover the unit square of parameters,
   each edge is run through at most once in each direction, and edges run through once lie on the border *)
Theorem C138_mesh : forall n m (S : Surface R (XYZW R)) a c, valid_surface n m S -> heavy_net n m (SControlPoints S) ->
  (forall t, (0 <= t <= 1)%R -> u_domain n S t) -> (forall t, (0 <= t <= 1)%R -> v_domain m S t) -> 2 <= a -> 2 <= c ->
  returns (TriangulateGrid S a c) (fun M =>
    (len (Vertices M) = a * c /\ len (UVs M) = a * c /\ len (Faces M) = 2 * ((a - 1) * (c - 1)) /\ UVIndices M = concat (Faces M)) /\
    (forall i j, 0 <= i < a -> 0 <= j < c -> get (UVs M) (i * c + j) = Ok (IZR i / IZR (a - 1), IZR j / IZR (c - 1))%R) /\
    (forall k u v, get (UVs M) k = Ok (u, v) -> (0 <= u <= 1)%R /\ (0 <= v <= 1)%R /\ get (Vertices M) k = Ok (surface_at n m S u v)) /\
    (forall F, In F (Faces M) -> exists x y z, F = [x; y; z] /\ x <> y /\ y <> z /\ z <> x /\ 0 <= x < a * c /\ 0 <= y < a * c /\ 0 <= z < a * c) /\
    NoDup (Faces M) /\
    (forall F F' x y, In F (Faces M) -> In F' (Faces M) -> runs F x y -> runs F' x y -> F = F') /\
    (forall F x y, In F (Faces M) -> runs F x y -> (exists F', In F' (Faces M) /\ runs F' y x) \/ same_side a c x y) /\
    (forall u v, (0 <= u <= 1)%R -> (0 <= v <= 1)%R -> exists x y z X Y Z, In [x; y; z] (Faces M) /\
       get (UVs M) x = Ok X /\ get (UVs M) y = Ok Y /\ get (UVs M) z = Ok Z /\ in_triangle X Y Z u v)).
Proof. exact mesh_full. Qed.
Print Assumptions C138_mesh.

(* the parameters run over [0,1] whatever the range of the surface: of a parallelogram over [0,1] x [0,k] only the k-th part is meshed *)
Theorem C138_range_refuted : forall o x y k a c, (1 <= k <= 1000)%R -> 2 <= a -> 2 <= c ->
  returns (TriangulateGrid (mkSurface 1 1 [0; 0; 1; 1] [0; 0; k; k] [[hom o 1; hom (plus3 o y) 1]; [hom (plus3 o x) 1; hom (plus3 (plus3 o x) y) 1]])%R a c) (fun M =>
    len (Vertices M) = a * c /\
    forall i j, 0 <= i < a -> 0 <= j < c -> get (Vertices M) (i * c + j) = Ok (plus3 o (plus3 (times3 (IZR i / IZR (a - 1)) x) (times3 (IZR j / IZR (c - 1) / k) y)))).
Proof. exact flat_mesh. Qed.
Print Assumptions C138_range_refuted.

(* one row or column of samples *)
Theorem C138_single_refuted : forall (S : Surface R (XYZW R)), (forall c, 0 <= c -> TriangulateGrid S 1 c = NonFin) /\ (forall a, 2 <= a -> TriangulateGrid S a 1 = NonFin).
Proof. intros S. split; [apply one_row|apply one_column]. Qed.
Print Assumptions C138_single_refuted.

Definition tile_f : Surface float (XYZW float) := mkSurface 1 1 [0; 0; 1; 1]%float [0; 0; 1; 1]%float [[mkXYZW 0 0 0 1; mkXYZW 0 1 0 1]; [mkXYZW 1 0 0 1; mkXYZW 1 1 0 1]]%float.
Theorem C138_nan_refuted : TriangulateGrid tile_f 1 2 = Ok (mkMesh [mkXYZ nan nan nan; mkXYZ nan nan nan] [] [(nan, 0%float); (nan, 1%float)] []).
Proof. vm_compute. reflexivity. Qed.
Print Assumptions C138_nan_refuted.

Example C138_ex : valid_surface 2 3 quilt /\ heavy_net 2 3 (SControlPoints quilt) /\ (forall t, (0 <= t <= 1)%R -> u_domain 2 quilt t) /\ (forall t, (0 <= t <= 1)%R -> v_domain 3 quilt t).
Proof. split; [apply quilt_valid|]. split; [apply quilt_heavy|]. split; intros t Ht; exact Ht. Qed.
Example C138_faces_ex : mesh_faces 2 3 = Ok ([[0; 1; 3]; [1; 4; 3]; [1; 2; 4]; [2; 5; 4]], [0; 1; 3; 1; 4; 3; 1; 2; 4; 2; 5; 4]).
Proof. reflexivity. Qed.
Example C138_runs_ex : runs [0; 1; 3] 1 3 /\ runs [1; 4; 3] 3 1 /\ same_side 2 3 3 0.
Proof. split; [exists 0; right; left; reflexivity|]. split; [exists 4; right; right; reflexivity|]. right. right. left. exists 1, 0. lia. Qed.

(** * C139 *)
(* where the search stays on the surface, the value is the distance to the point found, its sign the side of the normal there *)
Theorem C139_value : forall fuel n m (S : Surface R (XYZW R)) P u v, valid_surface n m S -> heavy_net n m (SControlPoints S) -> 1 <= DegreeU S -> 1 <= DegreeV S ->
  GetParamOnSurface fuel S P = Ok (u, v) -> u_domain n S u -> v_domain m S v ->
  exists g x, surface_partials (DegreeU S) n (KnotVectorU S) (DegreeV S) m (KnotVectorV S) (SControlPoints S) 1 u v g /\
  (cross3 (g 1 0) (g 0 1) <> zero3 -> direction_of (cross3 (g 1 0) (g 0 1)) x) /\ (cross3 (g 1 0) (g 0 1) = zero3 -> x = zero3) /\
  let Q := surface_at n m S u v in let h := dot3 (minus3 P Q) x in
  ((- (1 / 10 ^ 6 * (1 + Rabs h)) <= h)%R -> ComputeSignedDistanceFunction fuel S P = Ok (dist3 P Q)) /\
  ((h < - (1 / 10 ^ 6 * (1 + Rabs h)))%R -> ComputeSignedDistanceFunction fuel S P = Ok (- dist3 P Q)%R).
Proof. exact sdf_value. Qed.
Print Assumptions C139_value.

(* for open clamped surfaces of degree 2 or more: a signed distance to some point of the surface, or the search left the surface *)
Theorem C139_returns : forall fuel n m (S : Surface R (XYZW R)) P, valid_surface n m S -> heavy_net n m (SControlPoints S) ->
  clamped_knots (DegreeU S) n (KnotVectorU S) -> clamped_knots (DegreeV S) m (KnotVectorV S) ->
  2 <= DegreeU S -> 2 <= DegreeV S -> SurfaceIsClosed S true = Ok false -> SurfaceIsClosed S false = Ok false ->
  (norm3 P <= 2 ^ 400)%R -> (forall u v, u_domain n S u -> v_domain m S v -> (norm3 (surface_at n m S u v) <= 2 ^ 400)%R) ->
  returns (ComputeSignedDistanceFunction fuel S P) (fun d => exists u v, u_domain n S u /\ v_domain m S v /\ Rabs d = dist3 P (surface_at n m S u v)) \/
  exists u v, GetParamOnSurface fuel S P = Ok (u, v) /\ ~ (u_domain n S u /\ v_domain m S v).
Proof.
  intros fuel n m S P HS HH CU CV H2 H2' KU KV HP HB. destruct (GetParamOnSurface_ok fuel n m S P HS HH CU CV H2 H2' KU KV HP HB) as ([u v] & E & _).
  assert (D : forall x lo hi, (lo <= x <= hi)%R \/ ~ (lo <= x <= hi)%R) by (intros; lra).
  destruct (D u (val (KnotVectorU S) (DegreeU S)) (val (KnotVectorU S) (n + 1))) as [Du | Du]; [|right; exists u, v; split; [exact E|intros (A & _); exact (Du A)]].
  destruct (D v (val (KnotVectorV S) (DegreeV S)) (val (KnotVectorV S) (m + 1))) as [Dv | Dv]; [|right; exists u, v; split; [exact E|intros (_ & A); exact (Dv A)]].
  left. destruct (sdf_value fuel n m S P u v HS HH ltac:(lia) ltac:(lia) E Du Dv) as (g & x & _ & _ & _ & V1 & V2). cbv zeta in *.
  set (h := dot3 _ x) in *. assert (DP : (0 <= dist3 P (surface_at n m S u v))%R) by (unfold dist3, norm3; apply sqrt_pos).
  destruct (Rle_lt_dec (- (1 / 10 ^ 6 * (1 + Rabs h)))%R h) as [H | H].
  - eexists. split; [exact (V1 H)|]. exists u, v. split; [exact Du|]. split; [exact Dv|]. apply Rabs_pos_eq, DP.
  - eexists. split; [exact (V2 H)|]. exists u, v. split; [exact Du|]. split; [exact Dv|]. rewrite Rabs_Ropp. apply Rabs_pos_eq, DP.
Qed.
Print Assumptions C139_returns.

(* over a rectangle in the plane z = 0 the value is the height *)
Theorem C139_flat : forall fuel a b s t h, (1 <= a <= 2 ^ 20)%R -> (1 <= b <= 2 ^ 20)%R -> (0 <= s <= 1)%R -> (0 <= t <= 1)%R -> (1 / 100000 <= Rabs h <= 2 ^ 20)%R ->
  ComputeSignedDistanceFunction fuel (mkSurface 2 2 [0; 0; 0; 1; 1; 1] [0; 0; 0; 1; 1; 1]
    [[mkXYZW 0 0 0 1; mkXYZW 0 (b / 2) 0 1; mkXYZW 0 b 0 1]; [mkXYZW (a / 2) 0 0 1; mkXYZW (a / 2) (b / 2) 0 1; mkXYZW (a / 2) b 0 1];
     [mkXYZW a 0 0 1; mkXYZW a (b / 2) 0 1; mkXYZW a b 0 1]])%R (mkXYZ (a * s) (b * t) h)%R = Ok h.
Proof. intros. apply flat_sdf; assumption. Qed.
Print Assumptions C139_flat.

(* degree 1 in a direction *)
Theorem C139_linear_refuted : forall fuel n m (S : Surface R (XYZW R)) P, valid_surface n m S -> heavy_net n m (SControlPoints S) ->
  clamped_knots (DegreeU S) n (KnotVectorU S) -> clamped_knots (DegreeV S) m (KnotVectorV S) -> DegreeU S < 2 \/ DegreeV S < 2 ->
  (norm3 P <= 2 ^ 400)%R -> (forall u v, u_domain n S u -> v_domain m S v -> (norm3 (surface_at n m S u v) <= 2 ^ 400)%R) ->
  ComputeSignedDistanceFunction fuel S P = Throw.
Proof.
  intros fuel n m S P HS HH CU CV H2 HP HB. unfold ComputeSignedDistanceFunction. rewrite (GetParamOnSurface_low fuel n m S P HS HH CU CV H2 HP HB). reflexivity.
Qed.
Print Assumptions C139_linear_refuted.

(* a point beside a long thin rectangle *)
Theorem C139_outside_refuted : valid_surface 2 2 thin /\ forall fuel, ComputeSignedDistanceFunction fuel thin (mkXYZ (- (1 / 32768) / 32) (1024 / 2) 1)%R = Throw.
Proof. destruct C110_outside_refuted as (A & B). split; [exact A|]. intros fuel. destruct (B fuel) as (B1 & B2). exact (sdf_throw _ _ _ _ _ B1 B2). Qed.
Print Assumptions C139_outside_refuted.

Example C139_ex : valid_surface 2 3 quilt /\ heavy_net 2 3 (SControlPoints quilt) /\ SurfaceIsClosed quilt true = Ok false /\ SurfaceIsClosed quilt false = Ok false /\
  (forall u v, u_domain 2 quilt u -> v_domain 3 quilt v -> (norm3 (surface_at 2 3 quilt u v) <= 2 ^ 400)%R).
Proof. exact C110_ex. Qed.
