(* Model of src/LNLib/Geometry/Curve/NurbsCurve.cpp, first part: evaluation, knot
   insertion and the operations built on it. LN_NurbsCurve is Curve A (XYZW A).
   Functions that only add and scale control points are written for any vector
   type T with the operations of class Vec; the library uses them at T = XYZW. *)
From Coq Require Import ZArith List Bool.
From Verif Require Import Base Num Vec M_MathUtils M_Polynomials M_XYZ M_Bspline.
Import ListNotations.
Open Scope Z_scope.

Section Sort.
Context {A : Type} {NA : Num A}.

(* std::sort of doubles. The order of equal doubles is not observable, so any
   sorting algorithm is equivalent; this one is an insertion sort. *)
Fixpoint sort_insert (x : A) (l : list A) : list A :=
  match l with
  | [] => [x]
  | y :: l' => if nltb y x then y :: sort_insert x l' else x :: l
  end.
Fixpoint std_sort (l : list A) : list A :=
  match l with [] => [] | x :: l' => sort_insert x (std_sort l') end.
End Sort.

Section NurbsCurveT.
Context {A : Type} {NA : Num A} {T : Type} {VT : Vec A T}.
Notation curve := (Curve A T).

(* NurbsCurve.cpp:240-251 *)
Definition NurbsCheck (curve : curve) : res unit :=
  validate (0 <? Degree curve) ;;
  validate (0 <? len (KnotVector curve)) ;;
  validate (IsValidKnotVector (KnotVector curve)) ;;
  validate (0 <? len (ControlPoints curve)) ;;
  validate (IsValidNurbs (Degree curve) (len (KnotVector curve)) (len (ControlPoints curve))).

(* LNObject.h:34-40: a default-constructed curve *)
Definition emptyCurve : curve := mkCurve 1 [] [].

(* one affine step: alpha * x + (1.0 - alpha) * y *)
Definition blend (alpha : A) (x y : T) : T := vadd (vscale alpha x) (vscale (nsub n1 alpha) y).

(* NurbsCurve.cpp:448-525. The reference parameter result is passed in and returned
   (second component); the first component is the returned int. *)
Definition InsertKnot (curve : curve) (insertKnot : A) (times : Z) (result : Curve A T)
  : res (Z * Curve A T) :=
  let degree := Degree curve in
  let knotVector := KnotVector curve in
  let controlPoints := ControlPoints curve in
  validate (0 <? times) ;;
  let! knotSpanIndex := GetKnotSpanIndex degree knotVector insertKnot in
  let! originMultiplicity := GetKnotMultiplicity knotVector insertKnot in
  let times := if degree + 1 <? originMultiplicity + times
               then degree - 1 - originMultiplicity else times in
  if times <=? 0 then Ok (0, result) else
  let! insertedKnotVector := mkvec (len knotVector + times) n0 in
  let! insertedKnotVector := for_up 0 (knotSpanIndex + 1) insertedKnotVector (fun i v =>
    let! x := get knotVector i in upd v i x) in
  let! insertedKnotVector := for_up 1 (times + 1) insertedKnotVector (fun i v =>
    upd v (knotSpanIndex + i) insertKnot) in
  let! insertedKnotVector := for_up (knotSpanIndex + 1) (len knotVector) insertedKnotVector (fun i v =>
    let! x := get knotVector i in upd v (i + times) x) in
  let! updatedControlPoints := mkvec (len controlPoints + times) vzero in
  let! updatedControlPoints := for_up 0 (knotSpanIndex - degree + 1) updatedControlPoints (fun i v =>
    let! x := get controlPoints i in upd v i x) in
  let! updatedControlPoints :=
    for_up (knotSpanIndex - originMultiplicity) (len controlPoints) updatedControlPoints (fun i v =>
      let! x := get controlPoints i in upd v (i + times) x) in
  let! temp := mkvec (degree - originMultiplicity + 1) vzero in
  let! temp := for_up 0 (degree - originMultiplicity + 1) temp (fun i v =>
    let! x := get controlPoints (knotSpanIndex - degree + i) in upd v i x) in
  let! s := for_up 1 (times + 1) (temp, updatedControlPoints) (fun j '(temp, updatedControlPoints) =>
    let L := knotSpanIndex - degree + j in
    let! temp := for_up 0 (degree - j - originMultiplicity + 1) temp (fun i temp =>
      let! a := get knotVector (L + i) in
      let! b := get knotVector (i + knotSpanIndex + 1) in
      let! alpha := ndiv (nsub insertKnot a) (nsub b a) in
      let! x := get temp (i + 1) in
      let! y := get temp i in
      upd temp i (blend alpha x y)) in
    let! x := get temp 0 in
    let! updatedControlPoints := upd updatedControlPoints L x in
    let! updatedControlPoints :=
      if 0 <? degree - j - originMultiplicity then
        let! x := get temp (degree - j - originMultiplicity) in
        upd updatedControlPoints (knotSpanIndex + times - j - originMultiplicity) x
      else Ok updatedControlPoints in
    Ok (temp, updatedControlPoints)) in
  let '(temp, updatedControlPoints) := s in
  (* L keeps its last value knotSpanIndex - degree + times *)
  let L := knotSpanIndex - degree + times in
  let! updatedControlPoints :=
    for_up (L + 1) (knotSpanIndex - originMultiplicity) updatedControlPoints (fun i v =>
      let! x := get temp (i - L) in upd v i x) in
  Ok (times, mkCurve degree (std_sort insertedKnotVector) updatedControlPoints).

(* NurbsCurve.cpp:527-563, up to the division by the weight (ToXYZ(true)) *)
Definition CornerCut (curve : curve) (paramT : A) : res T :=
  let degree := Degree curve in
  let knotVector := KnotVector curve in
  let controlPoints := ControlPoints curve in
  validate_domain knotVector paramT ;;
  let! first := get knotVector 0 in
  if IsAlmostEqualTo paramT first then get controlPoints 0 else
  let n := len controlPoints - 1 in
  let! last := get knotVector (n + degree + 1) in
  if IsAlmostEqualTo paramT last then get controlPoints n else
  let! knotSpanIndex := GetKnotSpanIndex degree knotVector paramT in
  let! originMultiplicity := GetKnotMultiplicity knotVector paramT in
  let times := degree - originMultiplicity in
  let! temp := mkvec (times + 1) vzero in
  let! temp := for_up 0 (times + 1) temp (fun i v =>
    let! x := get controlPoints (knotSpanIndex - degree + i) in upd v i x) in
  let! temp := for_up 1 (times + 1) temp (fun j temp =>
    for_up 0 (times - j + 1) temp (fun i temp =>
      let! a := get knotVector (knotSpanIndex - degree + j + i) in
      let! b := get knotVector (i + knotSpanIndex + 1) in
      let! alpha := ndiv (nsub paramT a) (nsub b a) in
      let! x := get temp (i + 1) in
      let! y := get temp i in
      upd temp i (blend alpha x y))) in
  get temp 0.

(* NurbsCurve.cpp:602-608: the shifting loop of RefineKnotVector; its variant i - a
   is checked by the fuel *)
Definition refine_shift (fuel : nat) (degree a : Z) (knotVector : list A) (controlPoints : list T) (X : A)
  (s : list A * list T * Z * Z) : res (list A * list T * Z * Z) :=
  while_ fuel
    (fun '(_, _, i, _) => let! u := get knotVector i in Ok (nleb X u && (a <? i)))
    s
    (fun '(insertedKnotVector, updatedControlPoints, i, k) =>
      let! c := get controlPoints (i - degree - 1) in
      let! updatedControlPoints := upd updatedControlPoints (k - degree - 1) c in
      let! u := get knotVector i in
      let! insertedKnotVector := upd insertedKnotVector k u in
      Ok (insertedKnotVector, updatedControlPoints, i - 1, k - 1)).

(* NurbsCurve.cpp:565-634 *)
Definition RefineKnotVector (curve : curve) (insertKnotElements : list A) : res (Curve A T) :=
  let degree := Degree curve in
  let knotVector := KnotVector curve in
  let controlPoints := ControlPoints curve in
  validate (0 <? len insertKnotElements) ;;
  let n := len controlPoints - 1 in
  let m := n + degree + 1 in
  let r := len insertKnotElements - 1 in
  let! x0 := get insertKnotElements 0 in
  let! a := GetKnotSpanIndex degree knotVector x0 in
  let! xr := get insertKnotElements r in
  let! b := GetKnotSpanIndex degree knotVector xr in
  let b := b + 1 in
  let! insertedKnotVector := mkvec (m + r + 2) n0 in
  let! insertedKnotVector := for_up 0 (a + 1) insertedKnotVector (fun j v =>
    let! x := get knotVector j in upd v j x) in
  let! insertedKnotVector := for_up (b + degree) (m + 1) insertedKnotVector (fun j v =>
    let! x := get knotVector j in upd v (j + r + 1) x) in
  let! updatedControlPoints := mkvec (n + r + 2) vzero in
  let! updatedControlPoints := for_up 0 (a - degree + 1) updatedControlPoints (fun j v =>
    let! x := get controlPoints j in upd v j x) in
  let! updatedControlPoints := for_up (b - 1) (n + 1) updatedControlPoints (fun j v =>
    let! x := get controlPoints j in upd v (j + r + 1) x) in
  let i := b + degree - 1 in
  let k := b + degree + r in
  let! s := for_down r 0 (insertedKnotVector, updatedControlPoints, i, k) (fun j s =>
    let! X := get insertKnotElements j in
    let! s := refine_shift (length knotVector) degree a knotVector controlPoints X s in
    let '(insertedKnotVector, updatedControlPoints, i, k) := s in
    let! c := get updatedControlPoints (k - degree) in
    let! updatedControlPoints := upd updatedControlPoints (k - degree - 1) c in
    let! updatedControlPoints := for_up 1 (degree + 1) updatedControlPoints (fun l updatedControlPoints =>
      let ind := k - degree + l in
      let! ukl := get insertedKnotVector (k + l) in
      let num := nsub ukl X in
      let! uil := get knotVector (i - degree + l) in
      let denom := nsub ukl uil in
      if IsAlmostEqualTo num n0 || IsAlmostEqualTo denom n0 then
        let! c := get updatedControlPoints ind in
        upd updatedControlPoints (ind - 1) c
      else
        let! alpha := ndiv num denom in
        let! x := get updatedControlPoints (ind - 1) in
        let! y := get updatedControlPoints ind in
        upd updatedControlPoints (ind - 1) (blend alpha x y)) in
    let! insertedKnotVector := upd insertedKnotVector k X in
    Ok (insertedKnotVector, updatedControlPoints, i, k - 1)) in
  let '(insertedKnotVector, updatedControlPoints, _, _) := s in
  Ok (mkCurve degree insertedKnotVector updatedControlPoints).

End NurbsCurveT.

Section NurbsCurveW.
Context {A : Type} {NA : Num A}.

(* NurbsCurve.cpp:254-258 *)
Definition NurbsPoint (curve : Curve A (XYZW A)) (paramT : A) : res (XYZ A) :=
  let! weightPoint := GetPointOnCurve curve paramT in
  ToXYZ weightPoint true.

(* NurbsCurve.cpp:260-286 *)
Definition ComputeRationalCurveDerivatives (curve : Curve A (XYZW A)) (derivative : Z) (paramT : A)
  : res (list (XYZ A)) :=
  let! derivatives := mkvec (derivative + 1) xyz0 in
  let! ders := ComputeDerivatives curve derivative paramT in
  let! Aders := mkvec (derivative + 1) xyz0 in
  let! Aders := for_up 0 (len ders) Aders (fun i Aders =>
    let! d := get ders i in
    let! x := ToXYZ d false in
    upd Aders i x) in
  let! wders := mkvec (derivative + 1) n0 in
  let! wders := for_up 0 (len ders) wders (fun i wders =>
    let! d := get ders i in
    upd wders i (ww d)) in
  for_up 0 (derivative + 1) derivatives (fun k derivatives =>
    let! v := get Aders k in
    let! v := for_up 1 (k + 1) v (fun i v =>
      let! b := Binomial k i in
      let! w := get wders i in
      let! d := get derivatives (k - i) in
      Ok (xyz_sub v (xyz_scale (nmul b w) d))) in
    let! w0 := get wders 0 in
    let! q := xyz_div v w0 in
    upd derivatives k q).

(* NurbsCurve.cpp:527-563 *)
Definition GetPointOnCurveByCornerCut (curve : Curve A (XYZW A)) (paramT : A) : res (XYZ A) :=
  let! temp := CornerCut curve paramT in
  ToXYZ temp true.

End NurbsCurveW.
