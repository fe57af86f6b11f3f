(* Model of NurbsSurface::GlobalApproximation, src/LNLib/Geometry/Surface/NurbsSurface.cpp:2447-2509. *)
From Coq Require Import ZArith List Bool.
From Verif Require Import Base Num Vec M_MathUtils M_Polynomials M_XYZ M_Bspline M_NurbsCurve M_Geom M_Interp M_Fit M_Fit3.
Import ListNotations.
Open Scope Z_scope.

Section Fit4.
Context {A : Type} {NA : Num A} {FA : Floor A}.
Notation pt3 := (XYZ A).
(* Eigen's sparse LU decomposition, as in M_Fit3.v *)
Variable lu : list (list A) -> list (list A) -> res (option (list (list A))).

(* ControlPointsUtils.cpp:19-27 *)
Definition points_of (cps : list (XYZW A)) : res (list pt3) :=
  for_up 0 (len cps) [] (fun i acc =>
    let! w := get cps i in
    let! q := ToXYZ w true in
    Ok (acc ++ [q])).
(* ControlPointsUtils.cpp:45-59; points[0] of an empty vector is undefined *)
Definition weighted_points (points : list (list pt3)) : res (list (list (XYZW A))) :=
  let row := len points in
  let! first := get points 0 in
  let column := len first in
  let! line := mkvec column xyzw0 in
  let! result := mkvec row line in
  for_up 0 row result (fun i result =>
    for_up 0 column result (fun j result =>
      let! q := get2 points i j in
      upd2 result i j (mkW q n1))).

(* NurbsSurface.cpp:2468-2479 and 2487-2498: the curves through all lines and the knots of the first; None is the return value false *)
Definition fit_lines (degree : Z) (lines : list (list pt3)) (count : Z) : res (option (list (list pt3) * list A)) :=
  let! r := for_upc 0 (len lines) ([], []) (fun i (s : list (list pt3) * list A) =>
    let '(acc, knots) := s in
    let! line := get lines i in
    let! c := LeastSquaresApproximation lu degree line count in
    match c with
    | None => Ok (Stop tt)
    | Some c =>
        let! q := points_of (ControlPoints c) in
        Ok (Next (acc ++ [q], if i =? 0 then KnotVector c else knots))
    end) in
  match r with Next s => Ok (Some s) | Stop _ => Ok None end.

(* NurbsSurface.cpp:2447-2509 *)
Definition GlobalApproximation (throughPoints : list (list pt3)) (degreeU degreeV controlPointsRows controlPointsColumns : Z) : res (option (Surface A (XYZW A))) :=
  validate (0 <? len throughPoints) ;;
  let! line := get throughPoints 0 in
  validate (0 <? len line) ;;
  validate ((0 <? degreeU) && (degreeU <=? NURBSMaxDegree)) ;;
  validate ((0 <? degreeV) && (degreeV <=? NURBSMaxDegree)) ;;
  validate (degreeV <? controlPointsRows) ;;
  validate (degreeU <? controlPointsColumns) ;;
  let! a := fit_lines degreeU throughPoints controlPointsColumns in
  match a with
  | None => Ok None
  | Some (temp, knotVectorU) =>
      let! transposed := Transpose temp in
      let! b := fit_lines degreeV transposed controlPointsRows in
      match b with
      | None => Ok None
      | Some (final, knotVectorV) =>
          let! points := Transpose final in
          let! cps := weighted_points points in
          Ok (Some (mkSurface degreeU degreeV knotVectorU knotVectorV cps))
      end
  end.
End Fit4.
