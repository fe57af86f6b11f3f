(* Specification vocabulary, part 11: volumes. The record of a volume and the names of its three directions are those
   of the model; degree_in d S and knots_in d S are the degree and the knots of S in the direction d. *)
From Coq Require Import ZArith List Reals.
From Verif Require Import Base Num Vec Spec Spec2 Spec4 M_XYZ M_Bspline M_Volume.
Import ListNotations.
Open Scope Z_scope.

Definition same (d e : VolumeDirection) : bool :=
  match d, e with DirU, DirU | DirV, DirV | DirW, DirW => true | _, _ => false end.

(* t with the value x in the direction d *)
Definition put {X} (d : VolumeDirection) (x : X) (t : VolumeDirection -> X) (e : VolumeDirection) : X := if same e d then x else t e.

(* t with the directions d and e exchanged *)
Definition exchanged {X} (d e : VolumeDirection) (t : VolumeDirection -> X) (f : VolumeDirection) : X :=
  if same f d then t e else if same f e then t d else t f.

(* in the order U, V, W *)
Definition earlier (d e : VolumeDirection) : bool := match d, e with DirU, DirV | DirU, DirW | DirV, DirW => true | _, _ => false end.

Section Vol.
Context {T : Type} {V : Vec R T}.

(* the control point with the indices i, j, k *)
Definition pt3 (P : list (list (list T))) (i j k : Z) : T := pt2 (at_ nil P i) j k.
(* P has r planes of c rows of d points *)
Definition net3 (r c d : Z) (P : list (list (list T))) : Prop :=
  len P = r /\ forall i, 0 <= i < r -> net c d (at_ nil P i).

(* sz d + 1 control points in every direction d, valid knots and degrees the library's work arrays admit *)
Definition valid_volume (sz : VolumeDirection -> Z) (S : Volume R T) : Prop :=
  (forall d, curve_knots (degree_in d S) (sz d) (knots_in d S) /\ degree_in d S <= 7) /\
  net3 (sz DirU + 1) (sz DirV + 1) (sz DirW + 1) (VControlPoints S).

(* t is a point of the parameter box *)
Definition in_volume (sz : VolumeDirection -> Z) (S : Volume R T) (t : VolumeDirection -> R) : Prop :=
  forall d, in_domain (degree_in d S) (sz d) (knots_in d S) (t d).

(* sum of N_i(u) N_j(v) N_k(w) P_ijk *)
Definition volume_point (sz : VolumeDirection -> Z) (S : Volume R T) (t : VolumeDirection -> R) : T :=
  let B d i := N (val (knots_in d S)) (val (knots_in d S) (sz d + 1)) (Z.to_nat (degree_in d S)) i (t d) in
  comb 0 (sz DirU + 1) (B DirU) (fun i => comb 0 (sz DirV + 1) (B DirV) (fun j =>
    comb 0 (sz DirW + 1) (B DirW) (fun k => pt3 (VControlPoints S) i j k))).

(* the two volumes have the same degree and knots in every direction but d *)
Definition same_but (d : VolumeDirection) (S S' : Volume R T) : Prop :=
  forall e, e <> d -> degree_in e S' = degree_in e S /\ knots_in e S' = knots_in e S.

(* the parameters of S whose value in direction d is t and in the others the nearest to q in the domain *)
Definition on_line (sz : VolumeDirection -> Z) (S : Volume R T) (d : VolumeDirection) (q : VolumeDirection -> R) (t : R) (e : VolumeDirection) : R :=
  if same e d then t else clamped (val (knots_in e S) (degree_in e S)) (val (knots_in e S) (sz e + 1)) (q e).

(* the control point i of a line along d; a and b are the indices in the two other directions *)
Definition along (d : VolumeDirection) (P : list (list (list T))) (i a b : Z) : T :=
  match d with DirU => pt3 P i a b | DirV => pt3 P a i b | DirW => pt3 P a b i end.
(* H are the control points of a line of S along d *)
Definition is_line (sz : VolumeDirection -> Z) (S : Volume R T) (d : VolumeDirection) (H : list T) : Prop :=
  let '(o, n) := match d with DirU => (DirV, DirW) | DirV => (DirU, DirW) | DirW => (DirU, DirV) end in
  len H = sz d + 1 /\ exists a b, 0 <= a <= sz o /\ 0 <= b <= sz n /\ forall i, 0 <= i <= sz d -> pt H i = along d (VControlPoints S) i a b.
End Vol.

(* all weights are clearly above zero *)
Definition heavy_volume (sz : VolumeDirection -> Z) (S : Volume R (XYZW R)) : Prop :=
  forall i j k, 0 <= i <= sz DirU -> 0 <= j <= sz DirV -> 0 <= k <= sz DirW -> let w := ww (pt3 (VControlPoints S) i j k) in (tol w 0 < w)%R.
