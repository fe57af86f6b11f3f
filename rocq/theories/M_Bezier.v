(* Model of include/BezierCurve.h, Geometry/Curve/BezierCurve.cpp (GetPointOnQuadraticArc)
   and include/BezierSurface.h. The template parameter T is any type with the
   vector operations of class Vec. *)
From Coq Require Import ZArith List Bool.
From Verif Require Import Base Num Vec M_MathUtils M_XYZ M_Polynomials.
Import ListNotations.
Open Scope Z_scope.

(* LNObject.h:19-24, LN_BezierCurve<T> *)
Record BezierCurve (T : Type) : Type := mkBezier { bz_Degree : Z; bz_ControlPoints : list T }.
Arguments mkBezier {T}. Arguments bz_Degree {T}. Arguments bz_ControlPoints {T}.

(* LNObject.h:26-32, LN_BezierSurface<T> *)
Record BezierSurface (T : Type) : Type := mkBezierS {
  bs_DegreeU : Z; bs_DegreeV : Z; bs_ControlPoints : list (list T) }.
Arguments mkBezierS {T}. Arguments bs_DegreeU {T}. Arguments bs_DegreeV {T}. Arguments bs_ControlPoints {T}.

Section Bezier.
Context {A : Type} {NA : Num A} {T : Type} {VT : Vec A T}.

(* BezierCurve.h:28-37 *)
Definition BezierCheck (curve : BezierCurve T) : res unit :=
  validate (0 <? bz_Degree curve) ;;
  validate (0 <? len (bz_ControlPoints curve)) ;;
  validate (IsValidBezier (bz_Degree curve) (len (bz_ControlPoints curve))).

(* BezierCurve.h:46-61 *)
Definition GetPointOnCurveByBernstein (curve : BezierCurve T) (paramT : A) : res T :=
  validate_range paramT n0 n1 ;;
  let degree := bz_Degree curve in
  let controlPoints := bz_ControlPoints curve in
  let! bernsteinArray := AllBernstein degree paramT in
  for_up 0 (degree + 1) vzero (fun k temp =>
    let! b := get bernsteinArray k in
    let! c := get controlPoints k in
    Ok (vadd temp (vscale b c))).

(* BezierCurve.h:70-85 *)
Definition GetPointOnCurveByDeCasteljau (curve : BezierCurve T) (paramT : A) : res T :=
  validate_range paramT n0 n1 ;;
  let degree := bz_Degree curve in
  let temp := bz_ControlPoints curve in
  let! temp := for_up 1 (degree + 1) temp (fun k temp =>
    for_up 0 (degree - k + 1) temp (fun i temp =>
      let! x := get temp i in
      let! y := get temp (i + 1) in
      upd temp i (vadd (vscale (nsub n1 paramT) x) (vscale paramT y)))) in
  get temp 0.

(* BezierSurface.h:58-85; uv is passed as its two coordinates *)
Definition GetPointOnSurfaceByDeCasteljau (surface : BezierSurface T) (u v : A) : res T :=
  validate_range u n0 n1 ;;
  validate_range v n0 n1 ;;
  let degreeU := bs_DegreeU surface in
  let degreeV := bs_DegreeV surface in
  let controlPoints := bs_ControlPoints surface in
  let! temp := mkvec (degreeU + 1) vzero in
  let! temp := for_up 0 (degreeU + 1) temp (fun i temp =>
    let! row := get controlPoints i in
    let! x := GetPointOnCurveByDeCasteljau (mkBezier degreeV row) v in
    upd temp i x) in
  GetPointOnCurveByDeCasteljau (mkBezier degreeU temp) u.

End Bezier.

Section Arc.
Context {A : Type} {NA : Num A}.
Local Open Scope num_scope.

(* BezierCurve.cpp:25-37: all three points are divided by w0, as in the code *)
Definition GetPointOnQuadraticArc (startPoint middlePoint endPoint : XYZW A) (paramT : A) : res (XYZ A) :=
  validate_range paramT n0 n1 ;;
  let w0 := ww startPoint in
  let! p0x := ndiv (wx startPoint) w0 in
  let! p0y := ndiv (wy startPoint) w0 in
  let! p0z := ndiv (wz startPoint) w0 in
  let P0 := mkXYZ p0x p0y p0z in
  let w1 := ww middlePoint in
  let! p1x := ndiv (wx middlePoint) w0 in
  let! p1y := ndiv (wy middlePoint) w0 in
  let! p1z := ndiv (wz middlePoint) w0 in
  let P1 := mkXYZ p1x p1y p1z in
  let w2 := ww endPoint in
  let! p2x := ndiv (wx endPoint) w0 in
  let! p2y := ndiv (wy endPoint) w0 in
  let! p2z := ndiv (wz endPoint) w0 in
  let P2 := mkXYZ p2x p2y p2z in
  let s := n1 - paramT in
  let two := nofZ 2 in
  let b0 := s * s * w0 in
  let b1 := two * paramT * s * w1 in
  let b2 := paramT * paramT * w2 in
  xyz_div (xyz_add (xyz_add (xyz_scale b0 P0) (xyz_scale b1 P1)) (xyz_scale b2 P2)) (b0 + b1 + b2).

End Arc.
