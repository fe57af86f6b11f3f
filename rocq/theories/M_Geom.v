(* Model of src/LNLib/Algorithm/Intersection.cpp, Projection.cpp and the Simpson rules of
   Integrator.cpp. *)
From Coq Require Import ZArith List Bool.
From Verif Require Import Base Num M_MathUtils M_XYZ.
Import ListNotations.
Open Scope Z_scope.

(* LNEnums.h: CurveCurveIntersectionType, LinePlaneIntersectionType *)
Inductive CurveCurveIntersectionType : Set := Intersecting | Parallel | Coincident | Skew.
Inductive LinePlaneIntersectionType : Set := LP_Intersecting | LP_Parallel | LP_On.

Section Geom.
Context {A : Type} {NA : Num A}.
Local Open Scope num_scope.
Notation pt3 := (XYZ A).

(* Intersection.cpp:17-71. The last three arguments are what the output variables hold at
   the call; the result lists what they hold afterwards. *)
Definition ComputeRays (point0 vector0 point1 vector1 : pt3) (param0 param1 : A) (intersectPoint : pt3)
  : res (CurveCurveIntersectionType * A * A * pt3) :=
  if xyz_IsAlmostEqualTo vector0 vector1 && xyz_IsAlmostEqualTo point0 point1
  then Ok (Intersecting, n0, n0, point0)
  else
    validate (negb (IsZero vector0)) ;;
    validate (negb (IsZero vector1)) ;;
    let diff := xyz_sub point0 point1 in
    let a := DotProduct vector0 vector0 in
    let b := DotProduct vector0 vector1 in
    let c := DotProduct vector1 vector1 in
    let d := DotProduct vector0 diff in
    let e := DotProduct vector1 diff in
    let denom := a * c - b * b in
    if IsAlmostEqualTo (nabs denom) n0 then
      let w := xyz_sub point1 point0 in
      let! l := Length (CrossProduct w vector0) in
      if IsAlmostEqualTo l n0 then Ok (Coincident, n0, n0, point0)
      else Ok (Parallel, param0, param1, intersectPoint)
    else
      let! param0 := ndiv (b * e - c * d) denom in
      let! param1 := ndiv (a * e - b * d) denom in
      let p0 := xyz_add point0 (xyz_scale param0 vector0) in
      let p1 := xyz_add point1 (xyz_scale param1 vector1) in
      let! dist := Distance p0 p1 in
      if IsAlmostEqualTo dist n0
      then Ok (Intersecting, param0, param1, xyz_scale (nlit 1 2) (xyz_add p0 p1))
      else Ok (Skew, param0, param1, p0).

(* Intersection.cpp:73-98; the last argument is the output variable at the call *)
Definition ComputeLineAndPlane (normal pointOnPlane pointOnLine lineDirection intersectPoint : pt3)
  : res (LinePlaneIntersectionType * pt3) :=
  let denom := DotProduct lineDirection normal in
  let P0Q := xyz_sub pointOnLine pointOnPlane in
  let numer := - DotProduct P0Q normal in
  if IsAlmostEqualTo (nabs denom) n0 then
    if IsAlmostEqualTo (nabs numer) n0 then Ok (LP_On, pointOnLine)
    else Ok (LP_Parallel, intersectPoint)
  else
    let! t := ndiv numer denom in
    Ok (LP_Intersecting, xyz_add pointOnLine (xyz_scale t lineDirection)).

(* Projection.cpp:15-23 *)
Definition PointToRay (origin vector point : pt3) : res pt3 :=
  let diff := xyz_sub point origin in
  let dot := DotProduct diff vector in
  let lenSqr := DotProduct vector vector in
  let! t := ndiv dot lenSqr in
  Ok (xyz_add origin (xyz_scale t vector)).

(* Projection.cpp:25-43; None is the return value false *)
Definition PointToLine (start end_ point : pt3) : res (option pt3) :=
  let direction := xyz_sub end_ start in
  let lenSqr := DotProduct direction direction in
  if IsAlmostEqualTo lenSqr n0 then Ok None
  else
    let! t := ndiv (DotProduct (xyz_sub point start) direction) lenSqr in
    if IsLessThan t n0 || IsGreaterThan t n1 then Ok None
    else Ok (Some (xyz_add start (xyz_scale t direction))).

(* Projection.cpp:45-56 *)
Definition Stereographic (pointOnSphere : pt3) (radius : A) : res pt3 :=
  let x := gx pointOnSphere in
  let y := gy pointOnSphere in
  let z := gz pointOnSphere in
  let! alpha := ndiv (- nofZ 2 * radius) (z - nofZ 2 * radius) in
  Ok (mkXYZ (alpha * x) (alpha * y) n0).

(* Integrator.cpp:19-26. The functor is a total function of the parameter here: it has no
   state and customData is part of it. *)
Definition Simpson (function : A -> A) (start end_ : A) : res A :=
  let st := function start in
  let! mid := ndiv (start + end_) (nofZ 2) in
  let mt := function mid in
  let et := function end_ in
  let! h := ndiv (end_ - start) (nofZ 6) in
  Ok (h * (st + nofZ 4 * mt + et)).

(* Integrator.cpp:28-63 *)
Definition Simpson2 (function : A -> A -> A) (uStart uEnd vStart vEnd : A) : res A :=
  let du := uEnd - uStart in
  let dv := vEnd - vStart in
  let hdu := nlit 1 2 * du in
  let hdv := nlit 1 2 * dv in
  let uvw := [(uStart, vStart, nofZ 1); (uStart, vStart + hdv, nofZ 4); (uStart, vEnd, nofZ 1);
              (uStart + hdu, vStart, nofZ 4); (uStart + hdu, vStart + hdv, nofZ 16); (uStart + hdu, vEnd, nofZ 4);
              (uEnd, vStart, nofZ 1); (uEnd, vStart + hdv, nofZ 4); (uEnd, vEnd, nofZ 1)] in
  let sum := fold_left (fun sum '(u, v, w) => sum + w * function u v) uvw n0 in
  let! q := ndiv (du * dv) (nofZ (9 * 4)) in
  Ok (sum * q).

End Geom.
