(* Specifications about points of space, rational curves and derivatives on part of
   the real line. Only the record types XYZ and XYZW are taken from the model. *)
From Coq Require Import ZArith List Reals.
From Verif Require Import Base Num Vec Spec M_XYZ.
Open Scope Z_scope.

(* the point of space with homogeneous coordinates (x, y, z, w), w <> 0 *)
Definition proj (a : XYZW R) : XYZ R := mkXYZ (wx a / ww a)%R (wy a / ww a)%R (wz a / ww a)%R.

(* homogeneous coordinates of the point P with weight w *)
Definition hom (P : XYZ R) (w : R) : XYZW R := mkXYZW (gx P * w)%R (gy P * w)%R (gz P * w)%R w.

(* H are the homogeneous control points of the points P with weights W *)
Definition weighted (P : list (XYZ R)) (W : list R) (H : list (XYZW R)) : Prop :=
  len P = len H /\ len W = len H /\ forall i, 0 <= i < len H -> get H i = Ok (hom (pt P i) (val W i)).

(* sum of N_i w_i P_i / sum of N_i w_i *)
Definition rational_weight (p n : Z) (U W : list R) (t : R) : R :=
  rsum 0 (n + 1) (fun i => N (val U) (val U (n + 1)) (Z.to_nat p) i t * val W i)%R.
Definition rational_point (p n : Z) (U : list R) (P : list (XYZ R)) (W : list R) (t : R) : XYZ R :=
  comb 0 (n + 1) (fun i => N (val U) (val U (n + 1)) (Z.to_nat p) i t * val W i / rational_weight p n U W t)%R (pt P).

(* g is the k-th derivative of f at every point of D *)
Fixpoint nth_deriv_on (D : R -> Prop) (k : nat) (f g : R -> R) : Prop :=
  match k with
  | O => forall t, D t -> f t = g t
  | S k' => exists h, (forall t, D t -> derivable_pt_lim f t (h t)) /\ nth_deriv_on D k' h g
  end.
Definition xyz_deriv_on (D : R -> Prop) (k : Z) (f g : R -> XYZ R) : Prop :=
  nth_deriv_on D (Z.to_nat k) (fun t => gx (f t)) (fun t => gx (g t)) /\
  nth_deriv_on D (Z.to_nat k) (fun t => gy (f t)) (fun t => gy (g t)) /\
  nth_deriv_on D (Z.to_nat k) (fun t => gz (f t)) (fun t => gz (g t)).

(* equal, or clearly (twice the tolerance) apart *)
Definition apart (x y : R) : Prop := x = y \/ (2 * tol x y < Rabs (x - y))%R.

(* the first and the last span of the domain are wide compared with the largest knot *)
Definition wide_ends (p n : Z) (U : list R) : Prop :=
  let w := (1 / 1000000 * (1 + Rmax (Rabs (val U 0)) (Rabs (val U (n + p + 1)))))%R in
  (val U p + w < val U (p + 1) /\ val U n + w < val U (n + 1))%R.
