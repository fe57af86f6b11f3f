(* Model of src/LNLib/Algorithm/KnotVectorUtils.cpp. *)
From Coq Require Import ZArith List Bool.
From Verif Require Import Base Num M_MathUtils M_Polynomials M_NurbsCurve.
Import ListNotations.
Open Scope Z_scope.

Section Knots.
Context {A : Type} {NA : Num A}.

(* std::map<double, int> iterated in key order: a list of pairs; keys a, b are the same
   key when neither is less than the other *)
Definition kmap : Type := list (A * Z).

(* ++map[key]; a missing key starts at 0 *)
Fixpoint kmap_incr (m : kmap) (key : A) : kmap :=
  match m with
  | [] => [(key, 1)]
  | (k, c) :: m' =>
      if nltb k key then (k, c) :: kmap_incr m' key
      else if nltb key k then (key, 1) :: m
      else (k, c + 1) :: m'
  end.

(* map.find(key): None is map.end() *)
Fixpoint kmap_find (m : kmap) (key : A) : option Z :=
  match m with
  | [] => None
  | (k, c) :: m' =>
      if nltb k key then kmap_find m' key
      else if nltb key k then None else Some c
  end.

(* map[key] = c *)
Fixpoint kmap_set (m : kmap) (key : A) (c : Z) : kmap :=
  match m with
  | [] => [(key, c)]
  | (k, c') :: m' =>
      if nltb k key then (k, c') :: kmap_set m' key c
      else if nltb key k then (key, c) :: m
      else (k, c) :: m'
  end.

(* map[key] read: 0 when missing (the insertion of the key is not observed by the callers) *)
Definition kmap_get (m : kmap) (key : A) : Z :=
  match kmap_find m key with Some c => c | None => 0 end.

(* KnotVectorUtils.cpp:50-55 *)
Definition GetContinuity (degree : Z) (knotVector : list A) (knot : A) : res Z :=
  validate (0 <? degree) ;;
  let! multi := GetKnotMultiplicity knotVector knot in
  Ok (degree - multi).

(* KnotVectorUtils.cpp:57-70 *)
Definition Rescale (knotVector : list A) (min max : A) : res (list A) :=
  let! originMin := get knotVector 0 in
  let! originMax := get knotVector (len knotVector - 1) in
  let! k := ndiv (nsub max min) (nsub originMax originMin) in
  let size := len knotVector in
  let! result := mkvec size n0 in
  for_up 0 size result (fun i result =>
    let! u := get knotVector i in
    upd result i (nadd (nmul k (nsub u originMin)) min)).

(* KnotVectorUtils.cpp:85-93, 103-111: number of leading elements equal to the parameter *)
Fixpoint leading (l : list A) (param : A) : Z :=
  match l with
  | k :: l' => if IsAlmostEqualTo k param then 1 + leading l' param else 0
  | [] => 0
  end.

(* KnotVectorUtils.cpp:72-120 *)
Definition GetInsertedKnotElement_clamp (degree : Z) (knotVector : list A) (startParam endParam : A) : res (list A) :=
  validate (0 <=? degree) ;;
  validate (0 <? len knotVector) ;;
  validate (nleb startParam endParam) ;;
  validate (IsValidKnotVector knotVector) ;;
  let startMulti := leading knotVector startParam in
  let result := if startMulti <? degree + 1
                then repeat startParam (Z.to_nat (degree + 1 - startMulti)) else [] in
  let endMulti := leading (rev knotVector) endParam in
  Ok (if endMulti <? degree + 1
      then result ++ repeat endParam (Z.to_nat (degree + 1 - endMulti)) else result).

(* KnotVectorUtils.cpp:122-132 *)
Definition GetKnotMultiplicityMap (knotVector : list A) : kmap :=
  fold_left kmap_incr knotVector [].

(* KnotVectorUtils.cpp:134-144: erases the first element, then prev(end); with one distinct
   knot the map is empty by then and the second erase is undefined *)
Definition GetInternalKnotMultiplicityMap (knotVector : list A) : res kmap :=
  match GetKnotMultiplicityMap knotVector with
  | [] => Ok []
  | _ :: [] => UB
  | _ :: m => Ok (removelast m)
  end.

(* KnotVectorUtils.cpp:146-203. The two output vectors are appended to, then sorted. *)
Definition GetInsertedKnotElement (knotVector0 knotVector1 insertElements0 insertElements1 : list A)
  : list A * list A :=
  let map0 := GetKnotMultiplicityMap knotVector0 in
  let map1 := GetKnotMultiplicityMap knotVector1 in
  let '(insertElements0, insertElements1) :=
    fold_left (fun '(e0, e1) '(key0, count0) =>
      match kmap_find map1 key0 with
      | None => (e0, e1 ++ repeat key0 (Z.to_nat count0))
      | Some count1 =>
          if count1 <? count0 then (e0, e1 ++ repeat key0 (Z.to_nat (count0 - count1)))
          else (e0 ++ repeat key0 (Z.to_nat (count1 - count0)), e1)
      end) map0 (insertElements0, insertElements1) in
  let insertElements0 :=
    fold_left (fun e0 '(key1, count1) =>
      match kmap_find map0 key1 with
      | None => e0 ++ repeat key1 (Z.to_nat count1)
      | Some _ => e0
      end) map1 insertElements0 in
  (std_sort insertElements0, std_sort insertElements1).

(* KnotVectorUtils.cpp:207-231: the map of largest multiplicities *)
Definition final_map (knotVectors : list (list A)) : kmap :=
  fold_left (fun finalMap kv =>
    fold_left (fun finalMap '(key, count) =>
      match kmap_find finalMap key with
      | None => kmap_set finalMap key count
      | Some currentCount => if currentCount <? count then kmap_set finalMap key count else finalMap
      end) (GetKnotMultiplicityMap kv) finalMap) knotVectors [].

(* KnotVectorUtils.cpp:205-265 *)
Definition GetInsertedKnotElements (knotVectors : list (list A)) : list (list A) :=
  let finalMap := final_map knotVectors in
  map (fun kv =>
    let m := GetKnotMultiplicityMap kv in
    fold_left (fun insertElements '(key, count) =>
      match kmap_find m key with
      | None => insertElements ++ repeat key (Z.to_nat count)
      | Some currentCount => insertElements ++ repeat key (Z.to_nat (count - currentCount))
      end) finalMap []) knotVectors.

(* std::unique: keeps the first of every run of equal (==) elements *)
Fixpoint std_unique (l : list A) : list A :=
  match l with
  | [] => []
  | x :: l' => match std_unique l' with
               | [] => [x]
               | y :: r => if neqb x y then x :: r else x :: y :: r
               end
  end.

(* KnotVectorUtils.cpp:21-47. A recursion with no bound when insert.size() > limitNumber:
   the fuel is the number of further calls. *)
Fixpoint InsertMidKnotCore (fuel : nat) (unqiueKnotVector insert : list A) (limitNumber : Z)
  : res (list A) :=
  if len insert =? limitNumber then Ok insert
  else
    match fuel with
    | O => OutOfFuel
    | S fuel =>
        (* size() - 1 wraps for an empty vector and the loop reads past the end *)
        (if len unqiueKnotVector =? 0 then UB else Ok tt) ;;
        let! s := for_up 0 (len unqiueKnotVector - 1) (DoubleEpsilon, -1) (fun i '(standard, index) =>
          let! b := get unqiueKnotVector (i + 1) in
          let! a := get unqiueKnotVector i in
          let delta := nsub b a in
          Ok (if IsGreaterThan delta standard then (delta, i) else (standard, index))) in
        let '(standard, index) := s in
        let! a := get unqiueKnotVector index in
        let! half := ndiv standard (nofZ 2) in
        let current := nadd a half in
        InsertMidKnotCore fuel (std_sort (unqiueKnotVector ++ [current])) (insert ++ [current]) limitNumber
    end.

(* KnotVectorUtils.cpp:267-276 *)
Definition GetInsertedKnotElements_number (insertKnotsNumber : Z) (knotVector : list A) : res (list A) :=
  let! insert := InsertMidKnotCore (Z.to_nat insertKnotsNumber) (std_unique knotVector) [] insertKnotsNumber in
  Ok (std_sort insert).

(* KnotVectorUtils.cpp:278-324 *)
Definition IsUniform (knotVector : list A) : res bool :=
  let m := GetKnotMultiplicityMap knotVector in
  match m with
  | [] => Ok false
  | _ =>
    let knots := std_sort (map fst m) in
    let! k0 := get knots 0 in
    let! kl := get knots (len knots - 1) in
    if negb (kmap_get m k0 =? kmap_get m kl) then Ok false else
    let! k1 := get knots 1 in
    let standard := nsub k1 k0 in
    let! c := for_upc 1 (len knots - 1) tt (fun i _ =>
      let! current := get knots i in
      let! next := get knots (i + 1) in
      let gap := nsub next current in
      if negb (IsAlmostEqualTo gap standard) then Ok (Stop false) else
      if negb (kmap_get m current =? kmap_get m next) then
        if i + 1 =? len knots - 1 then Ok (Next tt) else Ok (Stop false)
      else Ok (Next tt)) in
    match c with Stop b => Ok b | Next _ => Ok true end
  end.

End Knots.
