(* Model of src/LNLib/Geometry/Curve/NurbsCurve.cpp, fourth part: curvature, torsion, normals, tests on the shape of a
   curve, and the functions that change its shape. *)
From Coq Require Import ZArith List Bool.
From Verif Require Import Base Num Vec M_MathUtils M_Polynomials M_Knots M_XYZ M_Bspline M_NurbsCurve M_Curve2 M_Geom M_Interp.
Import ListNotations.
Open Scope Z_scope.

(* LNEnums.h: CurveNormal *)
Inductive CurveNormal : Type := CN_Normal | CN_Binormal.

Section Shape.
Context {A : Type} {NA : Num A}.
Local Open Scope num_scope.
Notation pt3 := (XYZ A).
Notation curve := (Curve A (XYZW A)).

(* NurbsCurve.cpp:305-323; pow(x, 3) is x*x*x (a simplification for floats) *)
Definition Curvature (c : curve) (paramT : A) : res A :=
  validate_domain (KnotVector c) paramT ;;
  let! derivatives := ComputeRationalCurveDerivatives c 2 paramT in
  let! d1 := get derivatives 1 in
  let! d2 := get derivatives 2 in
  let! l := Length d1 in
  if IsAlmostEqualTo l n1 then Length d2 else
  let! numerator := Length (CrossProduct d1 d2) in
  ndiv numerator (l * l * l).

(* NurbsCurve.cpp:325-360 *)
Definition CurveNormalAt (c : curve) (normalType : CurveNormal) (paramT : A) : res pt3 :=
  validate_domain (KnotVector c) paramT ;;
  let! derivatives := ComputeRationalCurveDerivatives c 2 paramT in
  let! tangent := get derivatives 1 in
  let! der2 := get derivatives 2 in
  let! l := Length tangent in
  if IsAlmostEqualTo l n1 then
    let! l2 := Length der2 in
    let! curveNormal := xyz_div der2 l2 in
    match normalType with
    | CN_Normal => Ok curveNormal
    | CN_Binormal => Ok (CrossProduct tangent curveNormal)
    end
  else
    let! lb := Length (CrossProduct tangent der2) in
    let! b := xyz_div (CrossProduct tangent der2) lb in
    match normalType with
    | CN_Binormal => Ok b
    | CN_Normal =>
        let! nb := Normalize b in
        let! nt := Normalize tangent in
        Ok (CrossProduct nb nt)
    end.

(* NurbsCurve.cpp:422-446 *)
Definition Torsion (c : curve) (paramT : A) : res A :=
  validate_domain (KnotVector c) paramT ;;
  let! derivatives := ComputeRationalCurveDerivatives c 3 paramT in
  let! tangent := get derivatives 1 in
  let! der2 := get derivatives 2 in
  let! der3 := get derivatives 3 in
  let! l := Length tangent in
  if IsAlmostEqualTo l n1 then
    let numerator := DotProduct (CrossProduct tangent der2) der3 in
    let denominator := DotProduct der2 der2 in
    ndiv numerator denominator
  else
    let numerator := DotProduct (CrossProduct tangent der2) der3 in
    let denominator := DotProduct (CrossProduct tangent der2) (CrossProduct tangent der2) in
    ndiv numerator denominator.

(* NurbsCurve.cpp:1168-1191; the two output vectors are returned, empty at the start *)
Definition EquallyTessellate (c : curve) : res (list pt3 * list A) :=
  let uniqueKv := std_unique (KnotVector c) in
  let size := len uniqueKv in
  let num := 100%Z in
  for_up 0 (size - 1)%Z ([], []) (fun i s =>
    let! currentU := get uniqueKv i in
    let! nextU := get uniqueKv (i + 1)%Z in
    let! step := ndiv (nextU - currentU) (nofZ (num - 1)) in
    for_up 0 num s (fun j '(tessellatedPoints, correspondingKnots) =>
      let u := currentU + step * nofZ j in
      let! p := NurbsPoint c u in
      Ok (tessellatedPoints ++ [p], correspondingKnots ++ [u]))).

(* NurbsCurve.cpp:1193-1235 *)
Definition IsClosed (c : curve) : res bool :=
  let knotVector := KnotVector c in
  let! first := get knotVector 0 in
  let! end_ := get knotVector (len knotVector - 1)%Z in
  let! startPoint := NurbsPoint c first in
  let! endPoint := NurbsPoint c end_ in
  let! distance := Distance startPoint endPoint in
  if IsAlmostEqualTo distance n0 then Ok true else
  let controlPoints := ControlPoints c in
  let n := (len controlPoints - 1)%Z in
  let! pn := get controlPoints n in
  let! last := ToXYZ pn true in
  let! found := for_upc 0 n tt (fun i _ =>
    let! p := get controlPoints i in
    let! current := ToXYZ p true in
    if xyz_IsAlmostEqualTo last current then Ok (Stop i) else Ok (Next tt)) in
  match found with
  | Next _ => Ok false
  | Stop index =>
      if (index =? 0)%Z then Ok true else
      for_down index 0 true (fun i flag =>
        if flag then
          let! p := get controlPoints i in
          let! current := ToXYZ p true in
          let! q := get controlPoints (n - index + i)%Z in
          let! another := ToXYZ q true in
          Ok (xyz_IsAlmostEqualTo another current)
        else Ok false)
  end.

(* NurbsCurve.cpp:1730-1786 *)
Definition CreateCubicHermite (throughPoints tangents : list pt3) : res curve :=
  let n := len throughPoints in
  validate (3 <? n)%Z ;;
  validate (n =? len tangents)%Z ;;
  let! startPoint := get throughPoints 0 in
  let! endPoint := get throughPoints (n - 1)%Z in
  let! uk := GetChordParameterization throughPoints in
  let isCyclePoint := xyz_IsAlmostEqualTo startPoint endPoint in
  let! startTangent := get tangents 0 in
  let! endTangent := get tangents (len tangents - 1)%Z in
  let isCycleTangent := xyz_IsAlmostEqualTo startTangent endTangent in
  let kn := (2 * n)%Z in
  let! knotVector := mkvec (kn + 3 + 1)%Z n0 in
  let! knotVector := for_up 0 n knotVector (fun j knotVector =>
    let! u := get uk j in
    let! knotVector := upd knotVector (2 * j + 3)%Z u in
    upd knotVector (2 * j + 2)%Z u) in
  let! knotVector :=
    if isCyclePoint then
      let! u0 := get uk 0 in
      let! u1 := get uk 1 in
      let! ul := get uk (n - 1)%Z in
      let! ul1 := get uk (n - 2)%Z in
      if isCycleTangent then
        let! k := upd knotVector 1 (u0 - (ul - ul1)) in
        let! k := upd k 0 (u0 - (ul - ul1)) in
        let! k := upd k (kn + 3)%Z (ul + u1 - u0) in
        upd k (kn + 2)%Z (ul + u1 - u0)
      else
        let! k := upd knotVector 0 (u0 - (ul - ul1)) in
        let! k2 := get k 2 in
        let! k := upd k 1 k2 in
        let! ke := get k kn in
        let! k := upd k (kn + 2)%Z ke in
        upd k (kn + 3)%Z (ul + u1 - u0)
    else
      let! k2 := get knotVector 2 in
      let! k := upd knotVector 1 k2 in
      let! k := upd k 0 k2 in
      let! ke := get k kn in
      let! k := upd k (kn + 3)%Z ke in
      upd k (kn + 2)%Z ke in
  let! controlPoints := mkvec kn xyzw0 in
  let! controlPoints := for_up 0 n controlPoints (fun coef controlPoints =>
    let j := (2 * coef)%Z in
    let! k3 := get knotVector (j + 3)%Z in
    let! k1 := get knotVector (j + 1)%Z in
    let! k4 := get knotVector (j + 4)%Z in
    let! k2 := get knotVector (j + 2)%Z in
    let i1 := k3 - k1 in
    let i2 := k4 - k2 in
    let! q := get throughPoints coef in
    let! t := get tangents coef in
    let! t1 := xyz_div (xyz_scale i1 t) (nofZ 3) in
    let! controlPoints := upd controlPoints j (mkW (xyz_sub q t1) n1) in
    let! t2 := xyz_div (xyz_scale i2 t) (nofZ 3) in
    upd controlPoints (j + 1)%Z (mkW (xyz_add q t2) n1)) in
  Ok (mkCurve 3 knotVector controlPoints).

(* NurbsCurve.cpp:3192-3221; None is the return value false *)
Definition ControlPointReposition (c : curve) (parameter : A) (moveIndex : Z) (moveDirection : pt3) (moveDistance : A) : res (option curve) :=
  let degree := Degree c in
  let knotVector := KnotVector c in
  let controlPoints := ControlPoints c in
  validate_domain knotVector parameter ;;
  validate_int_range moveIndex 0 (len controlPoints - 1)%Z ;;
  validate (negb (IsZero moveDirection)) ;;
  validate (negb (IsAlmostEqualTo moveDistance n0)) ;;
  let! spanIndex := GetKnotSpanIndex degree knotVector parameter in
  let! basis := BasisFunctions spanIndex degree knotVector parameter in
  let! Rkp := getu basis 0 in
  if IsLessThan Rkp n0 then Ok None else
  let! p := get controlPoints moveIndex in
  let! movePoint := ToXYZ p true in
  let! l := Length moveDirection in
  let! alpha := ndiv moveDistance (l * Rkp) in
  let newPoint := xyz_add movePoint (xyz_scale alpha moveDirection) in
  let! updatedControlPoints := upd controlPoints moveIndex (mkW newPoint (ww p)) in
  Ok (Some (mkCurve degree knotVector updatedControlPoints)).

(* NurbsCurve.cpp:3223-3247 *)
Definition WeightModification (c : curve) (parameter : A) (moveIndex : Z) (moveDistance : A) : res curve :=
  let degree := Degree c in
  let knotVector := KnotVector c in
  let controlPoints := ControlPoints c in
  validate_domain knotVector parameter ;;
  validate_int_range moveIndex 0 (len controlPoints - 1)%Z ;;
  validate (negb (IsAlmostEqualTo moveDistance n0)) ;;
  let! point := NurbsPoint c parameter in
  let! p := get controlPoints moveIndex in
  let! movePoint := ToXYZ p true in
  let! distance := Distance point movePoint in
  let! spanIndex := GetKnotSpanIndex degree knotVector parameter in
  let! basis := BasisFunctions spanIndex degree knotVector parameter in
  let! Rkp := getu basis 0 in
  let! q := ndiv moveDistance (Rkp * (distance - moveDistance)) in
  let coefficient := n1 + q in
  let! updatedControlPoints := upd controlPoints moveIndex (mkW movePoint (ww p * coefficient)) in
  Ok (mkCurve degree knotVector updatedControlPoints).

(* NurbsCurve.cpp:3328-3358 *)
Definition Warping (c : curve) (warpShape : list A) (warpDistance : A) (planeNormal : pt3) (startParameter endParameter : A) : res curve :=
  let degree := Degree c in
  let knotVector := KnotVector c in
  let controlPoints := ControlPoints c in
  validate (len controlPoints =? len warpShape)%Z ;;
  validate (negb (IsAlmostEqualTo warpDistance n0)) ;;
  validate (negb (IsZero planeNormal)) ;;
  validate_domain knotVector startParameter ;;
  let! last := get knotVector (len knotVector - 1)%Z in
  validate_range endParameter startParameter last ;;
  validate (IsGreaterThan endParameter startParameter) ;;
  let halfParameter := nlit 1 2 * (startParameter + endParameter) in
  let! ders := ComputeRationalCurveDerivatives c 1 halfParameter in
  let! tangent := get ders 1 in
  let normal := CrossProduct tangent planeNormal in
  let W := if IsGreaterThan warpDistance n0 then normal else xyz_neg normal in
  let! resultControlPoints := for_up 0 (len controlPoints) [] (fun i r =>
    let! p := get controlPoints i in
    let! currentPoint := ToXYZ p true in
    let! s := get warpShape i in
    let! nW := Normalize W in
    let newPoint := xyz_add currentPoint (xyz_scale (s * nabs warpDistance) nW) in
    Ok (r ++ [mkW newPoint (ww p)])) in
  Ok (mkCurve degree knotVector resultControlPoints).

(* NurbsCurve.cpp:3360-3403. The std::map of the selected points, keyed by index, is walked in increasing order of the
   index; selection and update are one loop here, because no update is read by a later selection. The returned pair is
   the result and the return value. *)
Definition Flattening (c : curve) (lineStartPoint lineEndPoint : pt3) (startParameter endParameter : A) : res (curve * bool) :=
  let degree := Degree c in
  let knotVector := KnotVector c in
  let controlPoints := ControlPoints c in
  validate (negb (xyz_IsAlmostEqualTo lineStartPoint lineEndPoint)) ;;
  validate_domain knotVector startParameter ;;
  let! last := get knotVector (len knotVector - 1)%Z in
  validate_range endParameter startParameter last ;;
  validate (IsGreaterThan endParameter startParameter) ;;
  let! spanMinIndex := GetKnotSpanIndex degree knotVector startParameter in
  let! spanMaxIndex := GetKnotSpanIndex degree knotVector endParameter in
  let! s := for_up spanMinIndex (spanMaxIndex - degree)%Z (controlPoints, 0%Z) (fun i '(updatedControlPoints, projectCount) =>
    let! p := get controlPoints i in
    let! current := ToXYZ p true in
    let! project := PointToLine lineStartPoint lineEndPoint current in
    match project with
    | Some project =>
        let! updatedControlPoints := upd updatedControlPoints i (mkW project (ww p)) in
        Ok (updatedControlPoints, (projectCount + 1)%Z)
    | None => Ok (updatedControlPoints, projectCount)
    end) in
  let '(updatedControlPoints, projectCount) := s in
  Ok (mkCurve degree knotVector updatedControlPoints, (degree + 1 <=? projectCount)%Z).

(* NurbsCurve.cpp:3405-3440; selection and update in one loop, as above *)
Definition Bending (c : curve) (startParameter endParameter : A) (bendCenter : pt3) (radius crossRatio : A) : res curve :=
  let degree := Degree c in
  let knotVector := KnotVector c in
  let controlPoints := ControlPoints c in
  validate_domain knotVector startParameter ;;
  validate_domain knotVector endParameter ;;
  validate (IsGreaterThan endParameter startParameter) ;;
  let! spanMinIndex := GetKnotSpanIndex degree knotVector startParameter in
  let! spanMaxIndex := GetKnotSpanIndex degree knotVector endParameter in
  let! updatedControlPoints := for_up spanMinIndex (spanMaxIndex - degree)%Z controlPoints (fun i updatedControlPoints =>
    let! p := get controlPoints i in
    let! current := ToXYZ p true in
    let! d := Normalize (xyz_sub current bendCenter) in
    let pointOnBendCurve := xyz_add bendCenter (xyz_scale radius d) in
    let! a := Distance bendCenter pointOnBendCurve in
    let! b := Distance bendCenter current in
    let! si := ndiv a b in
    let! ti := ndiv (crossRatio * si) (n1 + (crossRatio - n1) * si) in
    let project := xyz_add bendCenter (xyz_scale ti (xyz_sub current bendCenter)) in
    upd updatedControlPoints i (mkW project (ww p))) in
  Ok (mkCurve degree knotVector updatedControlPoints).

(* NurbsCurve.cpp:3698-3712 *)
Definition IsClamp (c : curve) : res bool :=
  let knotVector := KnotVector c in
  let! first := get knotVector 0 in
  let! end_ := get knotVector (len knotVector - 1)%Z in
  let! f := GetKnotMultiplicity knotVector first in
  let! e := GetKnotMultiplicity knotVector end_ in
  Ok ((f =? Degree c + 1)%Z && (e =? Degree c + 1)%Z).

(* NurbsCurve.cpp:3549-3592. A default-constructed tc is passed to the first insertion; the second insertion leaves it
   as it is when it inserts nothing. *)
Definition ToClampCurve (c : curve) : res curve :=
  let degree := Degree c in
  let knotVector := KnotVector c in
  let m := (len knotVector - 1)%Z in
  let! up := get knotVector degree in
  let! ump := get knotVector (m - degree)%Z in
  let! upMulti := GetKnotMultiplicity knotVector up in
  let! umpMulti := GetKnotMultiplicity knotVector ump in
  let! r := InsertKnot c up (degree + 1 - upMulti)%Z emptyCurve in
  let '(t1, tc) := r in
  let! r := InsertKnot tc ump (degree + 1 - umpMulti)%Z tc in
  let '(t2, tc) := r in
  let kv := KnotVector tc in
  let cps := ControlPoints tc in
  let! knotVector := resize knotVector (len kv - t1 - t2)%Z n0 in
  let! controlPoints := resize (ControlPoints c) (len knotVector - degree - 1)%Z xyzw0 in
  let! s := for_down (len knotVector - 1)%Z 0 (knotVector, controlPoints) (fun i '(knotVector, controlPoints) =>
    let! k := get kv (i + degree)%Z in
    let! knotVector := upd knotVector i k in
    if (i <? len controlPoints)%Z then
      let! p := get cps (i + degree)%Z in
      let! controlPoints := upd controlPoints i p in
      Ok (knotVector, controlPoints)
    else Ok (knotVector, controlPoints)) in
  let '(knotVector, controlPoints) := s in
  let result := mkCurve (Degree tc) knotVector controlPoints in
  let! isClosed := IsClosed c in
  let! isNowClosed := IsClosed result in
  if isClosed && negb isNowClosed then
    let! p := get controlPoints 0 in
    let! controlPoints := upd controlPoints (len controlPoints - 1)%Z p in
    Ok (mkCurve (Degree tc) knotVector controlPoints)
  else Ok result.

(* NurbsCurve.cpp:3594-3661 *)
Definition IsPeriodic (c : curve) : res bool :=
  let degree := Degree c in
  let knotVector := KnotVector c in
  let controlPoints := ControlPoints c in
  let size := len controlPoints in
  let! isClamp := IsClamp c in
  if isClamp then Ok false else
  let! isUniform := IsUniform knotVector in
  if negb isUniform then Ok false else
  let! wraps :=
    if (degree + degree <=? size)%Z then
      for_up 0 degree true (fun i flag =>
        if flag then
          let! a := get controlPoints i in
          let! b := get controlPoints (size - degree + i)%Z in
          xyzw_IsAlmostEqualTo a b
        else Ok false)
    else Ok false in
  if wraps then Ok true else
  let! isClosed := IsClosed c in
  if negb isClosed then Ok false else
  let! first := get knotVector 0 in
  let! end_ := get knotVector (len knotVector - 1)%Z in
  let! cFirst := GetContinuity degree knotVector first in
  let! cEnd := GetContinuity degree knotVector end_ in
  if negb (cFirst =? cEnd)%Z then Ok false else
  let! fDers := ComputeRationalCurveDerivatives c cFirst first in
  let! eDers := ComputeRationalCurveDerivatives c cEnd end_ in
  for_up 0 (cFirst + 1)%Z true (fun i flag =>
    if flag then
      let! currentF := get fDers i in
      let! currentE := get eDers i in
      let! nf := Normalize currentF in
      let! ne := Normalize currentE in
      let! lf := Length currentF in
      let! le := Length currentE in
      Ok (xyz_IsAlmostEqualTo nf ne && IsAlmostEqualTo lf le)
    else Ok false).

(* NurbsCurve.cpp:3663-3696 *)
Definition ToUnclampCurve (c : curve) : res curve :=
  let degree := Degree c in
  let n := (len (ControlPoints c) - 1)%Z in
  let! s := for_up 0 (degree - 1)%Z (KnotVector c, ControlPoints c) (fun i '(knotVector, controlPoints) =>
    let! a := get knotVector (degree - i)%Z in
    let! b := get knotVector (n - i + 1)%Z in
    let! d := get knotVector (n - i)%Z in
    let! knotVector := upd knotVector (degree - i - 1)%Z (a - (b - d)) in
    let! controlPoints := for_down i 0 controlPoints (fun j controlPoints =>
      let k := (degree - 1 - (i - j))%Z in
      let! ud := get knotVector degree in
      let! uk := get knotVector k in
      let! uj := get knotVector (degree + j + 1)%Z in
      let! alpha := ndiv (ud - uk) (uj - uk) in
      let! p := get controlPoints j in
      let! q := get controlPoints (j + 1)%Z in
      let! r := xyzw_div (xyzw_sub p (xyzw_scale alpha q)) (n1 - alpha) in
      upd controlPoints j r) in
    Ok (knotVector, controlPoints)) in
  let '(knotVector, controlPoints) := s in
  let! a := get knotVector 1 in
  let! b := get knotVector (n - degree + 2)%Z in
  let! d := get knotVector (n - degree + 1)%Z in
  let! knotVector := upd knotVector 0 (a - (b - d)) in
  let! s := for_up 0 (degree - 1)%Z (knotVector, controlPoints) (fun i '(knotVector, controlPoints) =>
    let! a := get knotVector (n + i + 1)%Z in
    let! b := get knotVector (degree + i + 1)%Z in
    let! d := get knotVector (degree + i)%Z in
    let! knotVector := upd knotVector (n + i + 2)%Z (a + (b - d)) in
    let! controlPoints := for_down i 0 controlPoints (fun j controlPoints =>
      let! un := get knotVector (n + 1)%Z in
      let! uj := get knotVector (n - j)%Z in
      let! ui := get knotVector (n - j + i + 2)%Z in
      let! alpha := ndiv (un - uj) (ui - uj) in
      let! p := get controlPoints (n - j)%Z in
      let! q := get controlPoints (n - j - 1)%Z in
      let! r := xyzw_div (xyzw_sub p (xyzw_scale (n1 - alpha) q)) alpha in
      upd controlPoints (n - j)%Z r) in
    Ok (knotVector, controlPoints)) in
  let '(knotVector, controlPoints) := s in
  let! a := get knotVector (n + degree)%Z in
  let! b := get knotVector (2 * degree)%Z in
  let! d := get knotVector (2 * degree - 1)%Z in
  let! knotVector := upd knotVector (n + degree + 1)%Z (a + (b - d)) in
  Ok (mkCurve degree knotVector controlPoints).

(* NurbsCurve.cpp:3714-3741 *)
Definition IsLinear (c : curve) : res bool :=
  let cps := ControlPoints c in
  if (len cps <? 2)%Z then Ok false else
  if (len cps =? 2)%Z then Ok true else
  let! points := for_up 0 (len cps) [] (fun i points =>
    let! cp := get cps i in
    let! p := ToXYZ cp true in
    Ok (points ++ [p])) in
  let! p0 := get points 0 in
  let! p1 := get points 1 in
  let v0 := xyz_sub p1 p0 in
  let! v0 :=
    if xyz_IsAlmostEqualTo v0 xyz0 then
      let! r := for_upc 2 (len points) v0 (fun i v0 =>
        let! p := get points i in
        let v0 := xyz_sub p p0 in
        if negb (xyz_IsAlmostEqualTo v0 xyz0) then Ok (Stop v0) else Ok (Next v0)) in
      match r with Stop v0 => Ok (Some v0) | Next v0 => if xyz_IsAlmostEqualTo v0 xyz0 then Ok None else Ok (Some v0) end
    else Ok (Some v0) in
  match v0 with
  | None => Ok true
  | Some v0 =>
      let! v0 := Normalize v0 in
      let! r := for_upc 2 (len points) tt (fun i _ =>
        let! p := get points i in
        let vi := xyz_sub p p0 in
        let! dist := Length (CrossProduct vi v0) in
        if IsGreaterThan dist n0 then Ok (Stop false) else Ok (Next tt)) in
      match r with Stop b => Ok b | Next _ => Ok true end
  end.

(* NurbsCurve.cpp:3743-3791; the result is Some (radius, centre, closed) for the return value true *)
Definition IsArc (c : curve) : res (option (A * pt3 * bool)) :=
  let! lin := IsLinear c in
  if lin then Ok None else
  let knotVector := KnotVector c in
  let! first := get knotVector 0 in
  let! end_ := get knotVector (len knotVector - 1)%Z in
  let! P0 := NurbsPoint c first in
  let! isCircle := IsClosed c in
  let param := if isCircle then nlit 1 2 * first + nlit 1 2 * end_ else end_ in
  let! P1 := NurbsPoint c (nlit 1 2 * first + nlit 1 2 * param) in
  let! P2 := NurbsPoint c param in
  let v1 := xyz_sub P1 P0 in
  let v2 := xyz_sub P2 P0 in
  let v1v1 := DotProduct v1 v1 in
  let v2v2 := DotProduct v2 v2 in
  let v1v2 := DotProduct v1 v2 in
  let! base := ndiv (nlit 1 2) (v1v1 * v2v2 - v1v2 * v1v2) in
  let k1 := base * v2v2 * (v1v1 - v1v2) in
  let k2 := base * v1v1 * (v2v2 - v1v2) in
  let center := xyz_add (xyz_add P0 (xyz_scale k1 v1)) (xyz_scale k2 v2) in
  let! radius := Distance center P0 in
  let! t := EquallyTessellate c in
  let tessellatedPoints := fst t in
  let! r := for_upc 0 (len tessellatedPoints) tt (fun i _ =>
    let! point := get tessellatedPoints i in
    let! d := Distance point center in
    if negb (IsAlmostEqualTo d radius) then Ok (Stop tt) else Ok (Next tt)) in
  match r with
  | Stop _ => Ok None
  | Next _ => Ok (Some (radius, center, isCircle))
  end.

End Shape.
