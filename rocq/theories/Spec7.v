(* Specification vocabulary, part 7: point sets and nearest neighbours. The tree type is the model's; the rest
   does not refer to it. *)
From Coq Require Import ZArith List Reals Permutation.
From Verif Require Import Base Num M_XYZ Spec Spec3 M_Octree.
Import ListNotations.
Open Scope Z_scope.

(* 0, 1, ..., n-1 *)
Definition upto (n : Z) : list Z := map Z.of_nat (seq 0 (Z.to_nat n)).

(* the point indices stored in the leaves of a tree *)
Fixpoint stored {A} (t : octree A) : list Z :=
  match t with
  | ONull => []
  | ONode _ _ idx true _ => idx
  | ONode _ _ _ false ch => flat_map stored ch
  end.

(* every octant lists exactly the points stored below it *)
Fixpoint consistent {A} (t : octree A) : Prop :=
  match t with
  | ONull => True
  | ONode _ _ idx true _ => True
  | ONode _ _ idx false ch => Permutation (flat_map stored ch) idx /\ fold_right (fun c P => consistent c /\ P) True ch
  end.

(* the point with index j *)
Definition dpt {A} {NA : Num A} (db : list (XYZ A)) (j : Z) : XYZ A := at_ xyz0 db j.

(* every coordinate is at most B in size *)
Definition within (B : R) (db : list (XYZ R)) : Prop :=
  forall p, In p db -> (Rabs (gx p) <= B /\ Rabs (gy p) <= B /\ Rabs (gz p) <= B)%R.

(* a distance delta that is less than w by a margin. tau is the slack of the octants, 1/1000000*(1+w*w) that of
   the comparison of squares *)
Definition near (tau delta w : R) : Prop :=
  (0 <= w /\ (delta + 2 * tau) * (delta + 2 * tau) + 1 / 1000000 * (1 + w * w) < w * w)%R.

(* what a search with radius r around q promises: true distances, no index twice, nothing beyond r, and nothing
   clearly within r left out *)
Definition radius_result (db : list (XYZ R)) (q : XYZ R) (r : R) (s : RadiusSet R) : Prop :=
  RadiusSize s = len (rList s) /\ NoDup (map snd (rList s)) /\
  (forall d j, In (d, j) (rList s) -> 0 <= j < len db /\ d = dist3 q (dpt db j) /\ (d <= r + tol d r)%R) /\
  (forall B, (B <= 2 ^ 1000)%R -> within B db ->
   forall j, 0 <= j < len db -> near (1 / 1000000 * (1 + 3 * B)) (dist3 q (dpt db j)) r -> In (dist3 q (dpt db j), j) (rList s)).

(* l are the m entries of h that are nearest, in order *)
Definition nearest (m : Z) (h l : list (R * Z)) : Prop :=
  len l = m /\ (forall i j, 0 <= i <= j -> j < m -> (fst (at_ (0%R, 0%Z) l i) <= fst (at_ (0%R, 0%Z) l j))%R) /\
  exists rest, Permutation h (l ++ rest) /\ forall x y, In x l -> In y rest -> (fst x <= fst y)%R.

(* distances that the tolerance does not confuse *)
Definition distinguishable (x y : R) : Prop := x = y \/ (x + tol x y < y)%R \/ (y + tol x y < x)%R.

(* the distance that stands for "none yet" *)
Definition far : R := 10000000000.

(* AddPoint for each entry in order *)
Fixpoint knn_adds (s : KnnSet R) (h : list (R * Z)) : res (KnnSet R) :=
  match h with [] => Ok s | (d, j) :: h => let! s := KnnAddPoint s d j in knn_adds s h end.

(* distances below the limit that the tolerance does not confuse *)
Definition clear (h : list (R * Z)) : Prop :=
  (forall x, In x h -> (fst x + tol (fst x) far < far)%R) /\ (forall x y, In x h -> In y h -> distinguishable (fst x) (fst y)).

(* what a search for the k nearest points to q promises: min k n points with their true distances in order, none
   twice, and no other point clearly nearer than the worst of them *)
Definition knn_result (db : list (XYZ R)) (q : XYZ R) (k : Z) (B : R) (s : KnnSet R) : Prop :=
  KnnSize s = Z.min k (len db) /\
  exists l, kList s = l ++ repeat (far, 0) (Z.to_nat (k - len l)) /\ len l = Z.min k (len db) /\ NoDup (map snd l) /\
    (forall d j, In (d, j) l -> 0 <= j < len db /\ d = dist3 q (dpt db j) /\ (d <= KnnWorstDist s)%R) /\
    (forall i j, 0 <= i <= j -> j < len l -> (fst (at_ (0%R, 0%Z) l i) <= fst (at_ (0%R, 0%Z) l j))%R) /\
    (forall j, 0 <= j < len db -> ~ In j (map snd l) -> ~ near (1 / 1000000 * (1 + 3 * B)) (dist3 q (dpt db j)) (KnnWorstDist s)).
