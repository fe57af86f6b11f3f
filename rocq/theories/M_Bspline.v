(* Model of include/BsplineCurve.h and include/BsplineSurface.h. The template
   parameter T is any type with the vector operations of class Vec. *)
From Coq Require Import ZArith List Bool.
From Verif Require Import Base Num Vec M_MathUtils M_Polynomials.
Import ListNotations.
Open Scope Z_scope.

(* LNObject.h:34-40, LN_BsplineCurve<T> *)
Record Curve (A T : Type) : Type := mkCurve { Degree : Z; KnotVector : list A; ControlPoints : list T }.
Arguments mkCurve {A T}. Arguments Degree {A T}. Arguments KnotVector {A T}. Arguments ControlPoints {A T}.

(* LNObject.h:44-52, LN_BsplineSurface<T> *)
Record Surface (A T : Type) : Type := mkSurface {
  DegreeU : Z; DegreeV : Z; KnotVectorU : list A; KnotVectorV : list A; SControlPoints : list (list T) }.
Arguments mkSurface {A T}. Arguments DegreeU {A T}. Arguments DegreeV {A T}.
Arguments KnotVectorU {A T}. Arguments KnotVectorV {A T}. Arguments SControlPoints {A T}.

Section Bspline.
Context {A : Type} {NA : Num A} {T : Type} {VT : Vec A T}.

(* VALIDATE_ARGUMENT_RANGE(t, U[0], U[U.size()-1]) *)
Definition validate_domain (knotVector : list A) (paramT : A) : res unit :=
  let! first := get knotVector 0 in
  let! last := get knotVector (len knotVector - 1) in
  validate_range paramT first last.

(* VALIDATE_ARGUMENT_RANGE on ints (LNLibExceptions.h:21-25): distinct ints differ by
   at least 1 > DoubleEpsilon, so the tolerance never applies *)
Definition validate_int_range (arg min max : Z) : res unit :=
  validate (negb ((arg <? min) || (max <? arg))).

(* BsplineCurve.h:28-40 *)
Definition CurveCheck (curve : Curve A T) : res unit :=
  validate (0 <? Degree curve) ;;
  validate (0 <? len (KnotVector curve)) ;;
  validate (IsValidKnotVector (KnotVector curve)) ;;
  validate (0 <? len (ControlPoints curve)) ;;
  validate (IsValidBspline (Degree curve) (len (KnotVector curve)) (len (ControlPoints curve))).

(* BsplineCurve.h:47-66 *)
Definition GetPointOnCurve (curve : Curve A T) (paramT : A) : res T :=
  let degree := Degree curve in
  let knotVector := KnotVector curve in
  let controlPoints := ControlPoints curve in
  validate_domain knotVector paramT ;;
  let! spanIndex := GetKnotSpanIndex degree knotVector paramT in
  let! Nb := BasisFunctions spanIndex degree knotVector paramT in
  for_up 0 (degree + 1) vzero (fun i point =>
    let! b := getu Nb i in
    let! c := get controlPoints (spanIndex - degree + i) in
    Ok (vadd point (vscale b c))).

(* BsplineCurve.h:73-98 *)
Definition ComputeDerivatives (curve : Curve A T) (derivative : Z) (paramT : A) : res (list T) :=
  let degree := Degree curve in
  let knotVector := KnotVector curve in
  let controlPoints := ControlPoints curve in
  validate (0 <? derivative) ;;
  validate_domain knotVector paramT ;;
  let! derivatives := mkvec (derivative + 1) vzero in
  let du := Z.min derivative degree in
  let! spanIndex := GetKnotSpanIndex degree knotVector paramT in
  let! nders := BasisFunctionsDerivatives spanIndex degree du knotVector paramT in
  for_up 0 (du + 1) derivatives (fun k derivatives =>
    for_up 0 (degree + 1) derivatives (fun j derivatives =>
      let! b := get2 nders k j in
      let! c := get controlPoints (spanIndex - degree + j) in
      let! x := get derivatives k in
      upd derivatives k (vadd x (vscale b c)))).

(* BsplineCurve.h:105-131 *)
Definition ComputeControlPointsOfDerivatives (curve : Curve A T) (derivative minSpanIndex maxSpanIndex : Z)
  : res (list (list T)) :=
  validate (0 <? derivative) ;;
  validate_int_range minSpanIndex 0 maxSpanIndex ;;
  let degree := Degree curve in
  let knotVector := KnotVector curve in
  let controlPoints := ControlPoints curve in
  let range := maxSpanIndex - minSpanIndex in
  let! row := mkvec (range + 1) vzero in
  let! PK := mkvec (derivative + 1) row in
  let! PK := for_up 0 (range + 1) PK (fun i PK =>
    let! c := get controlPoints (minSpanIndex + i) in
    upd2 PK 0 i c) in
  for_up 1 (derivative + 1) PK (fun k PK =>
    let temp := degree - k + 1 in
    for_up 0 (range - k + 1) PK (fun i PK =>
      let! x := get2 PK (k - 1) (i + 1) in
      let! y := get2 PK (k - 1) i in
      let! a := get knotVector (minSpanIndex + i + degree + 1) in
      let! b := get knotVector (minSpanIndex + i + k) in
      let! q := vdiv (vscale (nofZ temp) (vsub x y)) (nsub a b) in
      upd2 PK k i q)).

(* BsplineCurve.h:138-170 *)
Definition ComputeDerivativesByAllBasisFunctions (curve : Curve A T) (derivative : Z) (paramT : A)
  : res (list T) :=
  let degree := Degree curve in
  let knotVector := KnotVector curve in
  let controlPoints := ControlPoints curve in
  validate (0 <? derivative) ;;
  validate_domain knotVector paramT ;;
  let! derivatives := mkvec (derivative + 1) vzero in
  let! spanIndex := GetKnotSpanIndex degree knotVector paramT in
  let! Nb := AllBasisFunctions spanIndex degree knotVector paramT in
  let du := Z.min derivative degree in
  let! PK := ComputeControlPointsOfDerivatives (mkCurve degree knotVector controlPoints)
               du (spanIndex - degree) spanIndex in
  for_up 0 (du + 1) derivatives (fun k derivatives =>
    for_up 0 (degree - k + 1) derivatives (fun j derivatives =>
      let! b := get2 Nb j (degree - k) in
      let! c := get2 PK k j in
      let! x := get derivatives k in
      upd derivatives k (vadd x (vscale b c)))).

(* BsplineSurface.h:29-47 *)
Definition SurfaceCheck (surface : Surface A T) : res unit :=
  validate (0 <? DegreeU surface) ;;
  validate (0 <? DegreeV surface) ;;
  validate (0 <? len (KnotVectorU surface)) ;;
  validate (IsValidKnotVector (KnotVectorU surface)) ;;
  validate (0 <? len (KnotVectorV surface)) ;;
  validate (IsValidKnotVector (KnotVectorV surface)) ;;
  validate (0 <? len (SControlPoints surface)) ;;
  validate (IsValidBspline (DegreeU surface) (len (KnotVectorU surface)) (len (SControlPoints surface))) ;;
  let! row0 := get (SControlPoints surface) 0 in
  validate (IsValidBspline (DegreeV surface) (len (KnotVectorV surface)) (len row0)).

(* BsplineSurface.h:54-86; uv is passed as its two coordinates *)
Definition GetPointOnSurface (surface : Surface A T) (u v : A) : res T :=
  let degreeU := DegreeU surface in
  let degreeV := DegreeV surface in
  let knotVectorU := KnotVectorU surface in
  let knotVectorV := KnotVectorV surface in
  let controlPoints := SControlPoints surface in
  validate_domain knotVectorU u ;;
  validate_domain knotVectorV v ;;
  let! uSpanIndex := GetKnotSpanIndex degreeU knotVectorU u in
  let! Nu := BasisFunctions uSpanIndex degreeU knotVectorU u in
  let! vSpanIndex := GetKnotSpanIndex degreeV knotVectorV v in
  let! Nv := BasisFunctions vSpanIndex degreeV knotVectorV v in
  let uind := uSpanIndex - degreeU in
  for_up 0 (degreeV + 1) vzero (fun l point =>
    let vind := vSpanIndex - degreeV + l in
    let! temp := for_up 0 (degreeU + 1) vzero (fun k temp =>
      let! b := getu Nu k in
      let! c := get2 controlPoints (uind + k) vind in
      Ok (vadd temp (vscale b c))) in
    let! b := getu Nv l in
    Ok (vadd point (vscale b temp))).

(* the loop nest of BsplineSurface.h:119-137, with the basis rows behind a reader *)
Definition SurfaceDerivativeLoops (degreeU degreeV uSpanIndex vSpanIndex du dv derivative : Z)
  (Nu Nv : Z -> Z -> res A) (controlPoints : list (list T)) (temp : list T)
  (derivatives : list (list T)) : res (list (list T)) :=
  let! r := for_up 0 (du + 1) (temp, derivatives) (fun k '(temp, derivatives) =>
    let! temp := for_up 0 (degreeV + 1) temp (fun s temp =>
      let! temp := upd temp s vzero in
      for_up 0 (degreeU + 1) temp (fun r temp =>
        let! b := Nu k r in
        let! c := get2 controlPoints (uSpanIndex - degreeU + r) (vSpanIndex - degreeV + s) in
        let! x := get temp s in
        upd temp s (vadd x (vscale b c)))) in
    let dd := Z.min derivative dv in
    let! derivatives := for_up 0 (dd + 1) derivatives (fun l derivatives =>
      for_up 0 (degreeV + 1) derivatives (fun s derivatives =>
        let! b := Nv l s in
        let! c := get temp s in
        let! x := get2 derivatives k l in
        upd2 derivatives k l (vadd x (vscale b c)))) in
    Ok (temp, derivatives)) in
  Ok (snd r).

(* BsplineSurface.h:93-139 *)
Definition SurfaceComputeDerivatives (surface : Surface A T) (derivative : Z) (u v : A)
  : res (list (list T)) :=
  let degreeU := DegreeU surface in
  let degreeV := DegreeV surface in
  let knotVectorU := KnotVectorU surface in
  let knotVectorV := KnotVectorV surface in
  let controlPoints := SControlPoints surface in
  validate (0 <? derivative) ;;
  validate_domain knotVectorU u ;;
  validate_domain knotVectorV v ;;
  let! row := mkvec (derivative + 1) vzero in
  let! derivatives := mkvec (derivative + 1) row in
  let! uSpanIndex := GetKnotSpanIndex degreeU knotVectorU u in
  let! Nu := BasisFunctionsDerivatives uSpanIndex degreeU derivative knotVectorU u in
  let! vSpanIndex := GetKnotSpanIndex degreeV knotVectorV v in
  let! Nv := BasisFunctionsDerivatives vSpanIndex degreeV derivative knotVectorV v in
  let du := Z.min derivative degreeU in
  let dv := Z.min derivative degreeV in
  let! temp := mkvec (degreeV + 1) vzero in
  SurfaceDerivativeLoops degreeU degreeV uSpanIndex vSpanIndex du dv derivative
    (get2 Nu) (get2 Nv) controlPoints temp derivatives.

(* BsplineSurface.h:144-189. The caller's array T derivatives[2][2] is accumulated
   into; every caller in the library passes default-constructed (zero) elements, and
   it is an argument here. T temp[8] is default-constructed. *)
Definition SurfaceComputeFirstOrderDerivative (surface : Surface A T) (u v : A)
  (derivatives : list (list T)) : res (list (list T)) :=
  let degreeU := DegreeU surface in
  let degreeV := DegreeV surface in
  let knotVectorU := KnotVectorU surface in
  let knotVectorV := KnotVectorV surface in
  let controlPoints := SControlPoints surface in
  validate_domain knotVectorU u ;;
  validate_domain knotVectorV v ;;
  let! uSpanIndex := GetKnotSpanIndex degreeU knotVectorU u in
  let! Nu := BasisFunctionsFirstOrderDerivative uSpanIndex degreeU knotVectorU u in
  let! vSpanIndex := GetKnotSpanIndex degreeV knotVectorV v in
  let! Nv := BasisFunctionsFirstOrderDerivative vSpanIndex degreeV knotVectorV v in
  let du := Z.min 1 degreeU in
  let dv := Z.min 1 degreeV in
  let! temp := mkvec (NURBSMaxDegree + 1) vzero in
  SurfaceDerivativeLoops degreeU degreeV uSpanIndex vSpanIndex du dv 1
    (getu2 Nu) (getu2 Nv) controlPoints temp derivatives.

(* BsplineSurface.h:196-265. PKL[k][l] is kept as a list of lists of nets. The knot
   vector given to the v-direction pass is constant, as in the code (line 242). *)
Definition SurfaceComputeControlPointsOfDerivatives (surface : Surface A T)
  (derivative minSpanIndexU maxSpanIndexU minSpanIndexV maxSpanIndexV : Z) (u v : A)
  : res (list (list (list (list T)))) :=
  let degreeU := DegreeU surface in
  let degreeV := DegreeV surface in
  let knotVectorU := KnotVectorU surface in
  let knotVectorV := KnotVectorV surface in
  let controlPoints := SControlPoints surface in
  validate (0 <? derivative) ;;
  validate_int_range minSpanIndexU 0 maxSpanIndexU ;;
  validate_int_range minSpanIndexV 0 maxSpanIndexV ;;
  validate_domain knotVectorU u ;;
  validate_domain knotVectorV v ;;
  let! row0 := get controlPoints 0 in
  let! row := mkvec (len row0) vzero in
  let! net := mkvec (len controlPoints) row in
  let! nets := mkvec (derivative + 1) net in
  let! PKL := mkvec (derivative + 1) nets in
  let du := Z.min derivative degreeU in
  let dv := Z.min derivative degreeV in
  let rangeU := maxSpanIndexU - minSpanIndexU in
  let rangeV := maxSpanIndexV - minSpanIndexV in
  let put PKL k l i j x :=
    let! a := get PKL k in let! b := get a l in
    let! b := upd2 b i j x in let! a := upd a l b in upd PKL k a in
  let! PKL := for_up minSpanIndexV (maxSpanIndexV + 1) PKL (fun j PKL =>
    let! points := for_up 0 (len controlPoints) [] (fun i points =>
      let! c := get2 controlPoints i j in Ok (points ++ [c])) in
    let! temp := ComputeControlPointsOfDerivatives (mkCurve degreeU knotVectorU points)
                   du minSpanIndexU maxSpanIndexU in
    for_up 0 (du + 1) PKL (fun k PKL =>
      for_up 0 (rangeU - k + 1) PKL (fun i PKL =>
        let! x := get2 temp k i in
        put PKL k 0 i (j - minSpanIndexV) x))) in
  let! tempKv := mkvec (len knotVectorV) (nofZ minSpanIndexV) in
  for_up 0 du PKL (fun k PKL =>
    for_up 0 (rangeU - k + 1) PKL (fun i PKL =>
      let dd := Z.min (derivative - k) dv in
      let! a := get PKL k in let! b := get a 0 in let! row := get b i in
      let! temp := ComputeControlPointsOfDerivatives (mkCurve degreeV tempKv row) dd 0 rangeV in
      for_up 1 (dd + 1) PKL (fun l PKL =>
        for_up 0 (rangeV - l) PKL (fun j PKL =>
          let! x := get2 temp l j in
          put PKL k l i j x)))).

(* BsplineSurface.h:272-322 *)
Definition SurfaceComputeDerivativesByAllBasisFunctions (surface : Surface A T) (derivative : Z) (u v : A)
  : res (list (list T)) :=
  let degreeU := DegreeU surface in
  let degreeV := DegreeV surface in
  let knotVectorU := KnotVectorU surface in
  let knotVectorV := KnotVectorV surface in
  validate (0 <? derivative) ;;
  validate_domain knotVectorU u ;;
  validate_domain knotVectorV v ;;
  let! row := mkvec (derivative + 1) vzero in
  let! SKL := mkvec (derivative + 1) row in
  let! uSpanIndex := GetKnotSpanIndex degreeU knotVectorU u in
  let! vSpanIndex := GetKnotSpanIndex degreeV knotVectorV v in
  let! Nu := AllBasisFunctions uSpanIndex degreeU knotVectorU u in
  let! Nv := AllBasisFunctions vSpanIndex degreeV knotVectorV v in
  let! PKL := SurfaceComputeControlPointsOfDerivatives surface derivative
                (uSpanIndex - degreeU) uSpanIndex (vSpanIndex - degreeV) vSpanIndex u v in
  let du := Z.min derivative degreeU in
  let dv := Z.min derivative degreeV in
  for_up 0 (du + 1) SKL (fun k SKL =>
    let dd := Z.min (derivative - k) dv in
    for_up 0 (dd + 1) SKL (fun l SKL =>
      let! SKL := upd2 SKL k l vzero in
      for_up 0 (degreeV - l + 1) SKL (fun i SKL =>
        let! temp := for_up 0 (degreeU - k + 1) vzero (fun j temp =>
          let! b := get2 Nu j (degreeU - k) in
          let! a := get PKL k in let! net := get a l in
          let! c := get2 net j i in
          Ok (vadd temp (vscale b c))) in
        let! b := get2 Nv i (degreeV - l) in
        let! x := get2 SKL k l in
        upd2 SKL k l (vadd x (vscale b temp))))).

End Bspline.
