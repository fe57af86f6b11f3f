(* Model of src/LNLib/Geometry/Curve/NurbsCurve.cpp, eighth part: offset curves. *)
From Coq Require Import ZArith List Bool.
From Verif Require Import Base Num Vec M_MathUtils M_Polynomials M_Knots M_XYZ M_Bspline M_NurbsCurve M_Curve2 M_Geom M_Interp M_Fit M_Shape M_Curve4.
Import ListNotations.
Open Scope Z_scope.

(* LNEnums.h: OffsetType *)
Inductive OffsetType : Set := Ot_TillerAndHanson | Ot_PieglAndTiller.

Section Offset.
Context {A : Type} {NA : Num A} {FA : Floor A} {TA : Trig A}.
Notation pt3 := (XYZ A).
Notation curve := (Curve A (XYZW A)).
Local Notation "x +. y" := (nadd x y) (at level 50, left associativity).
Local Notation "x -. y" := (nsub x y) (at level 50, left associativity).
Local Notation "x *. y" := (nmul x y) (at level 40, left associativity).
(* Eigen's solver, see M_Fit.v *)
Variable solver : list (list A) -> list (list A) -> res (list (list A)).

(* Constants.h:25 *)
Definition AngleEpsilon : A := nlit 1 100.

(* NurbsCurve.cpp:136-144 and 146-154: a control point moved along the normal at the nearest parameter; fuel as in M_Curve4.v *)
Definition moved_point (fuel : nat) (c : curve) (offset : A) (firstNormal : pt3) (i : Z) : res pt3 :=
  let! w := get (ControlPoints c) i in
  let! currentPoint := ToXYZ w true in
  let! param := GetParamOnCurve fuel c currentPoint in
  let! normal := CurveNormalAt c CN_Normal param in
  let! angle := AngleTo firstNormal normal in
  let! half := ndiv tpi (nofZ 2) in
  let normal := if IsGreaterThan_tol angle half AngleEpsilon then xyz_neg normal else normal in
  Ok (xyz_add currentPoint (xyz_scale offset normal)).

(* NurbsCurve.cpp:119-186; None leaves the result as it was. The sizes are size_t: without control points the first loop would
   run and read controlPoints[0], which is undefined, and so is tempPoints[0] here. *)
Definition OffsetByTillerAndHanson (fuel : nat) (c : curve) (offset : A) : res (option curve) :=
  if IsAlmostEqualTo offset n0 then Ok (Some c) else
  let! u0 := get (KnotVector c) 0 in
  let! firstNormal := CurveNormalAt c CN_Normal u0 in
  let! tempPoints := for_up 0 (len (ControlPoints c) - 1) [] (fun i tempPoints =>
    let! newPoint0 := moved_point fuel c offset firstNormal i in
    let! newPoint1 := moved_point fuel c offset firstNormal (i + 1) in
    Ok (tempPoints ++ [newPoint0; newPoint1])) in
  let! first := get tempPoints 0 in
  let! r := for_upc 0 ((len tempPoints - 2) / 2) [mkW first n1] (fun k newControlPoints =>
    let i := 2 * k in
    let! currentP0 := get tempPoints i in
    let! currentP1 := get tempPoints (i + 1) in
    let! nextP0 := get tempPoints (i + 2) in
    let! nextP1 := get tempPoints (i + 3) in
    let! (type, _, _, result) := ComputeRays currentP0 (xyz_sub currentP1 currentP0) nextP1 (xyz_sub nextP0 nextP1) n0 n0 xyz0 in
    match type with
    | Intersecting => Ok (Next (newControlPoints ++ [mkW result n1]))
    | _ => Ok (Stop tt)
    end) in
  match r with
  | Stop _ => Ok None
  | Next newControlPoints =>
      let! last := get tempPoints (len tempPoints - 1) in
      Ok (Some (mkCurve (Degree c) (KnotVector c) (newControlPoints ++ [mkW last n1])))
  end.

(* NurbsCurve.cpp:206-221: the number of samples. (int) of a number that is not negative is its floor; numbers beyond the range of int are not modelled. ders always has three elements. *)
Definition sample_count (c : curve) : res Z :=
  for_up 0 (len (KnotVector c)) 0 (fun i n =>
    let! u := get (KnotVector c) i in
    let! ders := ComputeRationalCurveDerivatives c 2 u in
    if 2 <? len ders then
      let! d2 := get ders 2 in
      let! x := ndiv n1 DistanceEpsilon in
      let! x := nsqrt x in
      let! y := Length d2 in
      let! y := ndiv y (nofZ 8) in
      let! y := nsqrt y in
      let l := nfloor (x *. y) in
      Ok (if n <? l then l else n)
    else Ok n).

(* NurbsCurve.cpp:188-242 *)
Definition OffsetByPieglAndTiller (c : curve) (offset : A) : res (option curve) :=
  if IsAlmostEqualTo offset n0 then Ok (Some c) else
  let! minParam := get (KnotVector c) 0 in
  let! maxParam := get (KnotVector c) (len (KnotVector c) - 1) in
  let! n := sample_count c in
  let count := if 2 * (Degree c + 1) <? n then n else 2 * (Degree c + 1) in
  let! step := ndiv (maxParam -. minParam) (nofZ (count - 1)) in
  let! samplePoints := for_up 0 count [] (fun j samplePoints =>
    let bparam := minParam +. step *. nofZ j in
    let! point := NurbsPoint c bparam in
    let! normal := CurveNormalAt c CN_Normal bparam in
    Ok (samplePoints ++ [xyz_add point (xyz_scale offset normal)])) in
  let! temp := GlobalInterpolation solver (Degree c) samplePoints [] in
  let! result := RemoveExcessiveKnots temp in
  Ok (Some result).

(* NurbsCurve.cpp:1698-1711 *)
Definition Offset (fuel : nat) (c : curve) (offset : A) (type : OffsetType) : res (option curve) :=
  match type with
  | Ot_TillerAndHanson => OffsetByTillerAndHanson fuel c offset
  | Ot_PieglAndTiller => OffsetByPieglAndTiller c offset
  end.
End Offset.
