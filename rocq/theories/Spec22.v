(* Vocabulary for fitting nets of points with surfaces. *)
From Coq Require Import ZArith List Reals.
From Verif Require Import Base Num Vec Spec Spec2 M_XYZ M_Bspline M_Fit3.
Import ListNotations.
Open Scope Z_scope.

(* the least squares curve through Q has the knots K and the control points P, all of weight 1 *)
Definition fitted lu p (Q : list (XYZ R)) count (K : list R) (P : list (XYZ R)) : Prop :=
  exists c, LeastSquaresApproximation lu p Q count = Ok (Some c) /\ KnotVector c = K /\ len P = count /\ is_vec (ControlPoints c) count (fun l => hom (pt P l) 1).

(* T is the net of the curves fitted to the rows of the data D, with knots K for the first; C is the net of the curves fitted to the columns of T, with knots L for the first *)
Definition fitted_net lu (D : list (list (XYZ R))) pU pV rows cols (K L : list R) (T : Z -> Z -> XYZ R) (C : Z -> Z -> XYZ R) : Prop :=
  (forall i, 0 <= i < len D -> exists Ki P, fitted lu pU (at_ nil D i) cols Ki P /\ (i = 0 -> Ki = K) /\ forall j, 0 <= j < cols -> pt P j = T i j) /\
  (forall j, 0 <= j < cols -> exists Lj Q P, len Q = len D /\ (forall i, 0 <= i < len D -> pt Q i = T i j) /\ fitted lu pV Q rows Lj P /\ (j = 0 -> Lj = L) /\ forall i, 0 <= i < rows -> pt P i = C i j).

(* the arguments that are accepted *)
Definition approximation_input (D : list (list (XYZ R))) pU pV rows cols := 0 < len D /\ 0 < len (at_ nil D 0) /\ 1 <= pU <= 7 /\ 1 <= pV <= 7 /\ pV < rows /\ pU < cols.
