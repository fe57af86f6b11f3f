(* Specification vocabulary, part 8: rational surfaces, partial derivatives on part of the plane, boxes. Only the
   record type XYZ is taken from the model. *)
From Coq Require Import ZArith List Reals.
From Verif Require Import Base Num Vec Spec Spec2 M_XYZ.
Import ListNotations.
Open Scope Z_scope.

(* row i, column j of a table of numbers *)
Definition val2 (W : list (list R)) (i j : Z) : R := val (at_ nil W i) j.

(* H are the homogeneous control points of the r x c net of points P with weights W *)
Definition weighted_net (r c : Z) (P : list (list (XYZ R))) (W : list (list R)) (H : list (list (XYZW R))) : Prop :=
  net r c P /\ net r c H /\ forall i j, 0 <= i < r -> 0 <= j < c -> pt2 H i j = hom (pt2 P i j) (val2 W i j).

(* sum of N_i(u) N_j(v) w_ij P_ij / sum of N_i(u) N_j(v) w_ij *)
Definition surface_weight (p n : Z) (U : list R) (q m : Z) (V : list R) (W : list (list R)) (u v : R) : R :=
  rsum 0 (n + 1) (fun i => rsum 0 (m + 1) (fun j =>
    N (val U) (val U (n + 1)) (Z.to_nat p) i u * N (val V) (val V (m + 1)) (Z.to_nat q) j v * val2 W i j))%R.
Definition rational_surface_point (p n : Z) (U : list R) (q m : Z) (V : list R) (P : list (list (XYZ R))) (W : list (list R)) (u v : R) : XYZ R :=
  vsum 0 (n + 1) (fun i => comb 0 (m + 1) (fun j =>
    N (val U) (val U (n + 1)) (Z.to_nat p) i u * N (val V) (val V (m + 1)) (Z.to_nat q) j v * val2 W i j
      / surface_weight p n U q m V W u v)%R (pt2 P i)).

(* g is the derivative of f, k times in the first and l times in the second argument, at every point of D *)
Definition xyz_pderiv_on (D : R -> R -> Prop) (k l : Z) (f g : R -> R -> XYZ R) : Prop :=
  exists h, (forall x, xyz_deriv_on (D x) l (f x) (h x)) /\
            (forall y, xyz_deriv_on (fun x => D x y) k (fun x => h x y) (fun x => g x y)).

(* x lies in the box from lo to hi *)
Definition in_box (lo hi x : XYZ R) : Prop :=
  (gx lo <= gx x <= gx hi /\ gy lo <= gy x <= gy hi /\ gz lo <= gz x <= gz hi)%R.

(* lo, hi is the smallest box containing the points l *)
Definition box_of (l : list (XYZ R)) (lo hi : XYZ R) : Prop :=
  (forall x, In x l -> in_box lo hi x) /\ (forall a b, (forall x, In x l -> in_box a b x) -> in_box a b lo /\ in_box a b hi).

(* g k l is the value at (u, v) of the derivative of f, k times in u and l times in v, for k + l <= d *)
Definition partials_at (D : R -> R -> Prop) (f : R -> R -> XYZ R) (d : Z) (u v : R) (g : Z -> Z -> XYZ R) : Prop :=
  forall k l, 0 <= k -> 0 <= l -> k + l <= d -> exists G, xyz_pderiv_on D k l f G /\ G u v = g k l.

(* k is a principal curvature: some direction (a, b) <> 0 of the parameter plane is an eigenvector of the second
   fundamental form (L, M, N) relative to the first (E, F, G) *)
Definition principal (E F G L M N k : R) : Prop :=
  exists a b, (a <> 0 \/ b <> 0)%R /\ (L * a + M * b = k * (E * a + F * b))%R /\ (M * a + N * b = k * (F * a + G * b))%R.

(* g k l are the derivatives up to total order d of the surface with homogeneous control points H, on the spans of u and v *)
Definition surface_partials (p n : Z) (U : list R) (q m : Z) (V : list R) (H : list (list (XYZW R))) (d : Z) (u v : R) (g : Z -> Z -> XYZ R) : Prop :=
  exists ku kv, span_of p n U u ku /\ span_of q m V v kv /\
    partials_at (fun x y => ww (span_patch ku p U kv q V H x y) <> 0%R) (fun x y => proj (span_patch ku p U kv q V H x y)) d u v g.
