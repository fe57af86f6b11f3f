(* Specification vocabulary, part 13: surfaces through sections. ElevateDegree is the library's operation (property C31). *)
From Coq Require Import ZArith List Reals.
From Verif Require Import Base Num Vec Spec Spec2 Spec3 Spec5 M_XYZ M_Bspline M_Curve2.
Import ListNotations.
Open Scope Z_scope.

(* the section c, raised to degree p where its degree is lower, has knots U and control points P *)
Definition raised_to (p : Z) (U : list R) (c : Curve R (XYZW R)) (P : list (XYZW R)) : Prop :=
  exists c', KnotVector c' = U /\ ControlPoints c' = P /\
    ((Degree c = p /\ c' = c) \/ (Degree c < p /\ ElevateDegree c (p - Degree c) = Ok c')).

(* K + 1 sections, at least two, of degree at most p, one of them of degree p; raised to degree p, section k has knots U k
   and control points P k, with clearly positive weights *)
Definition raised_sections (p : Z) (U : Z -> list R) (K : Z) (P : Z -> list (XYZW R)) (sections : list (Curve R (XYZW R))) : Prop :=
  len sections = K + 1 /\ 1 <= K /\ 0 <= p /\
  (forall k, 0 <= k <= K -> exists c, get sections k = Ok c /\ raised_to p (U k) c (P k)) /\
  (exists k c, get sections k = Ok c /\ Degree c = p) /\
  (forall k, 0 <= k <= K -> heavy (P k)).

(* parameters 0 = v_0 < ... < v_K = 1, the first and the last two clearly apart *)
Definition section_params (K : Z) (v : Z -> R) : Prop :=
  (forall i j, 0 <= i < j -> j <= K -> (v i < v j)%R) /\ v 0%Z = 0%R /\ v K = 1%R /\
  (2 / 1000000 < v 1%Z)%R /\ (v (K - 1)%Z < 1 - 2 / 1000000)%R.

(* point k of the polygon through the control points of index i of all sections *)
Definition along (P : Z -> list (XYZW R)) (i k : Z) : XYZ R := proj (pt (P k) i).
(* the mean, over the n + 1 polygons, of the length up to section k as a share of the length up to section K *)
Definition mean_share (n K : Z) (P : Z -> list (XYZW R)) (k : Z) : R :=
  (rsum 0 (n + 1) (fun i => chord_length (along P i) k / chord_length (along P i) K) / IZR (n + 1))%R.
