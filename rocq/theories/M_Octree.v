(* Model of src/LNLib/Algorithm/Octree/Octree.cpp and OctreeCollector.cpp. *)
From Coq Require Import ZArith List Bool.
From Verif Require Import Base Num M_MathUtils M_XYZ.
Import ListNotations.
Open Scope Z_scope.

Section Octree.
Context {A : Type} {NA : Num A}.
Notation pt3 := (XYZ A).

(* ---------------- OctreeCollector ---------------- *)

(* OctreeCollector.h:29-44. ComparisonCounter, which only counts calls, is left out. *)
Record KnnSet := mkKnn { kCapacity : Z; kCount : Z; kWorst : A; kList : list (A * Z) }.

(* 1e10, OctreeCollector.cpp:15 *)
Definition knn_far : A := nmul (nofZ 100000) (nofZ 100000).

(* OctreeCollector.cpp:14-20 *)
Definition KnnResultSet (capacity : Z) : res KnnSet :=
  let! l := mkvec capacity (knn_far, 0) in
  Ok (mkKnn capacity 0 knn_far l).
(* OctreeCollector.cpp:22-24 *)
Definition KnnSize (s : KnnSet) : Z := kCount s.
Definition KnnFull (s : KnnSet) : bool := kCount s =? kCapacity s.
Definition KnnWorstDist (s : KnnSet) : A := kWorst s.

(* OctreeCollector.cpp:26-53 *)
Definition KnnAddPoint (s : KnnSet) (dist : A) (index : Z) : res KnnSet :=
  if IsGreaterThan dist (kWorst s) then Ok s
  else
    let '(count, i) :=
      if kCount s <? kCapacity s then (kCount s + 1, kCount s) else (kCount s, kCapacity s - 1) in
    let! (i, l) :=
      while_ (length (kList s))
        (fun '(i, l) =>
           if 0 <? i then let! e := get l (i - 1) in Ok (IsGreaterThan (fst e) dist) else Ok false)
        (i, kList s)
        (fun '(i, l) =>
           let! e := get l (i - 1) in
           let! l := upd l i e in
           Ok (i - 1, l)) in
    let! l := upd l i (dist, index) in
    let! w := get l (kCapacity s - 1) in
    Ok (mkKnn (kCapacity s) count (fst w) l).

(* OctreeCollector.h:46-59. ComparisonCounter is left out. *)
Record RadiusSet := mkRadius { rRadius : A; rCount : Z; rList : list (A * Z) }.
(* OctreeCollector.cpp:55-57 *)
Definition RadiusNnResultSet (radius : A) : RadiusSet := mkRadius radius 0 [].
(* OctreeCollector.cpp:59-60 *)
Definition RadiusSize (s : RadiusSet) : Z := rCount s.
Definition RadiusWorstDist (s : RadiusSet) : A := rRadius s.
(* OctreeCollector.cpp:62-68 *)
Definition RadiusAddPoint (s : RadiusSet) (dist : A) (index : Z) : res RadiusSet :=
  if IsGreaterThan dist (rRadius s) then Ok s
  else Ok (mkRadius (rRadius s) (rCount s + 1) (rList s ++ [(dist, index)])).

(* ---------------- Octree ---------------- *)

(* Octree.h:18-28; ONull is the null pointer *)
Inductive octree : Type :=
| ONull
| ONode (Center : pt3) (Extent : A) (PointIndices : list Z) (IsLeaf : bool) (Children : list octree).

(* Octree.cpp:32-38 *)
Definition Inside (query : pt3) (radius : A) (center : pt3) (extent : A) : bool :=
  let o := xyz_sub query center in
  IsLessThan (nadd (nabs (gx o)) radius) extent && IsLessThan (nadd (nabs (gy o)) radius) extent
  && IsLessThan (nadd (nabs (gz o)) radius) extent.

(* Octree.cpp:40-61 *)
Definition Overlaps (query : pt3) (radius : A) (center : pt3) (extent : A) : bool :=
  let o := xyz_sub query center in
  let ax := nabs (gx o) in
  let ay := nabs (gy o) in
  let az := nabs (gz o) in
  let maxDist := nadd radius extent in
  if IsGreaterThan ax maxDist || IsGreaterThan ay maxDist || IsGreaterThan az maxDist then false
  else
    let one (b : bool) : Z := if b then 1 else 0 in
    let count := one (IsLessThan ax extent) + one (IsLessThan ay extent) + one (IsLessThan az extent) in
    if 2 <=? count then true
    else
      let diff := mkXYZ (nmax (nsub ax extent) n0) (nmax (nsub ay extent) n0) (nmax (nsub az extent) n0) in
      IsLessThan (SqrLength diff) (nmul radius radius).

(* Octree.cpp:63-70 *)
Definition Contains (query : pt3) (radius : A) (center : pt3) (extent : A) : res bool :=
  let o := xyz_sub query center in
  let! l := Length (mkXYZ (nadd (nabs (gx o)) extent) (nadd (nabs (gy o)) extent) (nadd (nabs (gz o)) extent)) in
  Ok (nltb l radius).

(* Octree.cpp:91-94, 191-194 and 220-223: the bits are disjoint, so |= adds *)
Definition morton (p center : pt3) : Z :=
  (if IsGreaterThan (gx p) (gx center) then 1 else 0) + (if IsGreaterThan (gy p) (gy center) then 2 else 0)
  + (if IsGreaterThan (gz p) (gz center) then 4 else 0).

(* Octree.cpp:87-96 *)
Definition distribute (db : list pt3) (center : pt3) (pointIndices : list Z) : res (list (list Z)) :=
  let! b := mkvec 8 [] in
  for_up 0 (len pointIndices) b (fun k b =>
    let! pointIdx := get pointIndices k in
    let! p := get db pointIdx in
    let! c := get b (morton p center) in
    upd b (morton p center) (c ++ [pointIdx])).

(* Octree.cpp:98-104: factor[(i & bit) > 0] * extent *)
Definition child_center (center : pt3) (extent : A) (i : Z) : pt3 :=
  let f (bit : Z) := if 0 <? Z.land i bit then nlit 1 2 else nopp (nlit 1 2) in
  mkXYZ (nadd (gx center) (nmul (f 1) extent)) (nadd (gy center) (nmul (f 2) extent)) (nadd (gz center) (nmul (f 4) extent)).

(* Octree.cpp:72-113. root is always null: the children of a new octant are null. fuel bounds the depth. *)
Fixpoint OctreeRecursiveBuild (fuel : nat) (db : list pt3) (center : pt3) (extent : A) (pointIndices : list Z)
  (leafSize : Z) (minExtent : A) : res octree :=
  match fuel with
  | O => OutOfFuel
  | S fuel =>
      if len pointIndices =? 0 then Ok ONull
      else if (len pointIndices <=? leafSize) || nleb extent minExtent
      then Ok (ONode center extent pointIndices true (repeat ONull 8))
      else
        let! b := distribute db center pointIndices in
        let! children := for_up 0 8 (repeat ONull 8) (fun i children =>
          let! childIndices := get b i in
          let! c := OctreeRecursiveBuild fuel db (child_center center extent i) (nmul (nlit 1 2) extent) childIndices
                      leafSize minExtent in
          upd children i c) in
        Ok (ONode center extent pointIndices false children)
  end.

(* std::numeric_limits<double>::max() = (2 - 2^-52) * 2^1023 *)
Definition dbl_max : A := nmul (nsub (nofZ 2) (nlit 1 4503599627370496)) (npow (nofZ 2) 1023).

(* Octree.cpp:119-135, one coordinate *)
Definition lower (x m : A) : A := if IsLessThan x m then x else m.
Definition raise (x m : A) : A := if IsGreaterThan x m then x else m.
Definition bounds (db : list pt3) : pt3 * pt3 :=
  fold_left (fun '(mn, mx) p =>
    (mkXYZ (lower (gx p) (gx mn)) (lower (gy p) (gy mn)) (lower (gz p) (gz mn)),
     mkXYZ (raise (gx p) (gx mx)) (raise (gy p) (gy mx)) (raise (gz p) (gz mx)))) db
    (mkXYZ dbl_max dbl_max dbl_max, mkXYZ (nopp dbl_max) (nopp dbl_max) (nopp dbl_max)).

(* Octree.cpp:137-139 *)
Definition half_extent (mn mx : pt3) : A :=
  nmul (nmax (nmax (nsub (gx mx) (gx mn)) (nsub (gy mx) (gy mn))) (nsub (gz mx) (gz mn))) (nlit 1 2).

(* Octree.cpp:115-149 *)
Definition OctreeConstruction (fuel : nat) (db : list pt3) (leafSize : Z) (minExtent : A) : res octree :=
  let n := len db in
  if n =? 0 then Ok ONull
  else
    let '(mn, mx) := bounds db in
    let e := half_extent mn mx in
    let center := mkXYZ (nadd (gx mn) e) (nadd (gy mn) e) (nadd (gz mn) e) in
    let! indices := mkvec n 0 in
    let! indices := for_up 0 n indices (fun i v => upd v i i) in
    OctreeRecursiveBuild fuel db center e indices leafSize minExtent.

(* ---------------- searches ---------------- *)
Section Search.
(* a result set: its WorstDist and AddPoint *)
Context {St : Type}.
Variable worst : St -> A.
Variable add : St -> A -> Z -> res St.
Variable db : list pt3.
Variable query : pt3.

(* Octree.cpp:156-159, 164-167, 184-187, 213-216: offer the points of an octant *)
Definition offer (pointIndices : list Z) (s : St) : res St :=
  for_up 0 (len pointIndices) s (fun k s =>
    let! idx := get pointIndices k in
    let! p := get db idx in
    let! dist := Distance query p in
    add s dist idx).

(* Octree.cpp:179-206 and 208-235, which differ only in the type of the result set *)
Fixpoint search (root : octree) : St -> res (bool * St) :=
  match root with
  | ONull => fun s => Ok (false, s)
  | ONode center extent pointIndices isLeaf children =>
      let recs := map search children in
      fun s =>
        if isLeaf && negb (len pointIndices =? 0) then
          let! s := offer pointIndices s in
          Ok (Inside query (worst s) center extent, s)
        else
          let mortonCode := morton query center in
          let! f := get recs mortonCode in
          let! (found, s) := f s in
          if found then Ok (true, s)
          else
            let! r := for_upc 0 8 s (fun c s =>
              if c =? mortonCode then Ok (Next s)
              else
                let! child := get children c in
                match child with
                | ONull => Ok (Next s)
                | ONode cc ce _ _ _ =>
                    if Overlaps query (worst s) cc ce then
                      let! f := get recs c in
                      let! (found, s) := f s in
                      if found then Ok (Stop s) else Ok (Next s)
                    else Ok (Next s)
                end) in
            match r with
            | Stop s => Ok (true, s)
            | Next s => Ok (Inside query (worst s) center extent, s)
            end
  end.

(* Octree.cpp:151-177 *)
Fixpoint search_fast (root : octree) : St -> res (bool * St) :=
  match root with
  | ONull => fun s => Ok (false, s)
  | ONode center extent pointIndices isLeaf children =>
      let recs := map search_fast children in
      fun s =>
        let! b := Contains query (worst s) center extent in
        if b then
          let! s := offer pointIndices s in
          Ok (false, s)
        else if isLeaf && negb (len pointIndices =? 0) then
          let! s := offer pointIndices s in
          Ok (Inside query (worst s) center extent, s)
        else
          let! r := for_upc 0 (len children) s (fun c s =>
            let! child := get children c in
            match child with
            | ONull => Ok (Next s)
            | ONode cc ce _ _ _ =>
                if Overlaps query (worst s) cc ce then
                  let! f := get recs c in
                  let! (found, s) := f s in
                  if found then Ok (Stop s) else Ok (Next s)
                else Ok (Next s)
            end) in
          match r with
          | Stop s => Ok (true, s)
          | Next s => Ok (Inside query (worst s) center extent, s)
          end
  end.
End Search.

(* Octree.cpp:151-177 *)
Definition OctreeRadiusSearchFast (root : octree) (db : list pt3) (resultSet : RadiusSet) (query : pt3) : res (bool * RadiusSet) :=
  search_fast RadiusWorstDist RadiusAddPoint db query root resultSet.
(* Octree.cpp:179-206 *)
Definition OctreeRadiusSearch (root : octree) (db : list pt3) (resultSet : RadiusSet) (query : pt3) : res (bool * RadiusSet) :=
  search RadiusWorstDist RadiusAddPoint db query root resultSet.
(* Octree.cpp:208-235 *)
Definition OctreeKnnSearch (root : octree) (db : list pt3) (resultSet : KnnSet) (query : pt3) : res (bool * KnnSet) :=
  search KnnWorstDist KnnAddPoint db query root resultSet.
End Octree.
Arguments octree A : clear implicits.
Arguments KnnSet A : clear implicits.
Arguments RadiusSet A : clear implicits.
