(* Model of src/LNLib/Geometry/Curve/NurbsCurve.cpp, third part: circular arcs and conics.
   Constants::Pi is a double; here it is the number pi of class Trig (a simplification). *)
From Coq Require Import ZArith List Bool.
From Verif Require Import Base Num Vec M_MathUtils M_XYZ M_Bspline M_NurbsCurve M_Curve2 M_Geom.
Import ListNotations.
Open Scope Z_scope.

Section Conic.
Context {A : Type} {NA : Num A} {TA : Trig A}.
Local Open Scope num_scope.
Notation pt3 := (XYZ A).
Notation curve := (Curve A (XYZW A)).

(* MathUtils.cpp:94-97 *)
Definition AngleToRadians (angle : A) : res A := ndiv (angle * tpi) (nofZ 180).

(* center + xRadius * cos(angle) * nX + yRadius * sin(angle) * nY, NurbsCurve.cpp:1829, 1839 *)
Definition ellipse_at (center nX nY : pt3) (xRadius yRadius angle : A) : pt3 :=
  xyz_add (xyz_add center (xyz_scale (xRadius * tcos angle) nX)) (xyz_scale (yRadius * tsin angle) nY).
(* -sin(angle) * nX + cos(angle) * nY, NurbsCurve.cpp:1830, 1841 *)
Definition tangent_at (nX nY : pt3) (angle : A) : pt3 :=
  xyz_add (xyz_scale (- tsin angle) nX) (xyz_scale (tcos angle) nY).

(* NurbsCurve.cpp:1854-1878 *)
Definition arc_knots (narcs : Z) (knotVector : list A) : res (list A) :=
  let j := (2 * narcs + 1)%Z in
  let! knotVector := for_up 0 3 knotVector (fun i knotVector =>
    let! knotVector := upd knotVector i n0 in upd knotVector (i + j)%Z n1) in
    (if narcs =? 2 then
       let! k := upd knotVector 4 (nlit 1 2) in upd k 3 (nlit 1 2)
     else if narcs =? 3 then
       let! third := ndiv n1 (nofZ 3) in
       let! twothirds := ndiv (nofZ 2) (nofZ 3) in
       let! k := upd knotVector 4 third in let! k := upd k 3 third in
       let! k := upd k 6 twothirds in upd k 5 twothirds
     else if narcs =? 4 then
       let! k := upd knotVector 4 (nlit 1 4) in let! k := upd k 3 (nlit 1 4) in
       let! k := upd k 6 (nlit 1 2) in let! k := upd k 5 (nlit 1 2) in
       let! k := upd k 8 (nlit 3 4) in upd k 7 (nlit 3 4)
     else Ok knotVector)%Z.

(* NurbsCurve.cpp:1788-1883; None is the return value false. param0 is not initialised in
   the code and only written by ComputeRays; 0 stands for it. *)
Definition CreateArc (center xAxis yAxis : pt3) (startRad endRad xRadius yRadius : A) : res (option curve) :=
  validate (negb (IsZero xAxis)) ;;
  validate (negb (IsZero yAxis)) ;;
  validate (IsGreaterThan endRad startRad) ;;
  let theta := endRad - startRad in
  validate_range theta n0 (nofZ 2 * tpi) ;;
  validate (IsGreaterThan xRadius n0) ;;
  validate (IsGreaterThan yRadius n0) ;;
  let! halfPi := ndiv tpi (nofZ 2) in
  let! threeHalfPi := ndiv (nofZ 3 * tpi) (nofZ 2) in
  let narcs := (if IsLessThanOrEqual theta halfPi then 1
                else if IsLessThanOrEqual theta tpi then 2
                else if IsLessThanOrEqual theta threeHalfPi then 3 else 4)%Z in
  let! dtheta := ndiv theta (nofZ narcs) in
  let n := (2 * narcs)%Z in
  let degree := 2%Z in
  let! knotVector := mkvec (n + degree + 1 + 1)%Z n0 in
  let! controlPoints := mkvec (n + 1)%Z xyzw0 in
  let! h := ndiv dtheta (nofZ 2) in
  let w1 := tcos h in
  let! nX := Normalize xAxis in
  let! nY := Normalize yAxis in
  let P0 := ellipse_at center nX nY xRadius yRadius startRad in
  let T0 := tangent_at nX nY startRad in
  let! controlPoints := upd controlPoints 0 (mkW P0 n1) in
  let! c := for_upc 1 (narcs + 1) (controlPoints, 0%Z, startRad, P0, T0) (fun i '(controlPoints, index, angle, P0, T0) =>
    let angle := angle + dtheta in
    let P2 := ellipse_at center nX nY xRadius yRadius angle in
    let! controlPoints := upd controlPoints (index + 2)%Z (mkW P2 n1) in
    let T2 := tangent_at nX nY angle in
    let! r := ComputeRays P0 T0 P2 T2 n0 n0 xyz0 in
    let '(type, _, _, P1) := r in
    match type with
    | Intersecting =>
        let! controlPoints := upd controlPoints (index + 1)%Z (mkW P1 w1) in
        let index := (index + 2)%Z in
        if (i <? narcs)%Z then Ok (Next (controlPoints, index, angle, P2, T2))
        else Ok (Next (controlPoints, index, angle, P0, T0))
    | _ => Ok (Stop tt)
    end) in
  match c with
  | Stop _ => Ok None
  | Next (controlPoints, _, _, _, _) =>
      let! knotVector := arc_knots narcs knotVector in
      Ok (Some (mkCurve degree knotVector controlPoints))
  end.

(* NurbsCurve.cpp:1885-1927; the result is projectPoint and projectPointWeight, or None for
   the return value false. A square root of a negative number or a division by zero stops
   with NonFin; the code goes on with a NaN or an infinity. *)
Definition CreateOneConicArc (start startTangent end_ endTangent pointOnConic : pt3) : res (option (pt3 * A)) :=
  validate (negb (IsZero startTangent)) ;;
  validate (negb (IsZero endTangent)) ;;
  let! r := ComputeRays start startTangent end_ endTangent n0 n0 xyz0 in
  let '(type, _, _, point) := r in
  let pDiff := xyz_sub end_ start in
  match type with
  | Intersecting =>
      let v1p := xyz_sub pointOnConic point in
      let! r := ComputeRays point v1p start pDiff n0 n0 xyz0 in
      let '(type, _, alf2, _) := r in
      match type with
      | Intersecting =>
          let! q := ndiv alf2 (n1 - alf2) in
          let! a := nsqrt q in
          let! u := ndiv a (n1 + a) in
          let num := (n1 - u) * (n1 - u) * DotProduct (xyz_sub pointOnConic start) (xyz_sub point pointOnConic)
                     + u * u * DotProduct (xyz_sub pointOnConic end_) (xyz_sub point pointOnConic) in
          let den := nofZ 2 * u * (n1 - u) * DotProduct (xyz_sub point pointOnConic) (xyz_sub point pointOnConic) in
          let! w := ndiv num den in
          Ok (Some (point, w))
      | _ => Ok None
      end
  | Parallel =>
      let! r := ComputeRays pointOnConic startTangent start pDiff n0 n0 xyz0 in
      let '(type, alf0, alf2, _) := r in
      match type with
      | Intersecting =>
          let! q := ndiv alf2 (n1 - alf2) in
          let! a := nsqrt q in
          let! u := ndiv a (n1 + a) in
          let b := nofZ 2 * u * (n1 - u) in
          let! b := ndiv (- alf0 * (n1 - b)) b in
          Ok (Some (xyz_scale b startTangent, n0))
      | _ => Ok None
      end
  | _ => Ok None
  end.

(* NurbsCurve.cpp:1937-2045; None is the return value false *)
Definition CreateOpenConic (start startTangent end_ endTangent pointOnConic : pt3) : res (option curve) :=
  validate (negb (IsZero startTangent)) ;;
  validate (negb (IsZero endTangent)) ;;
  let! r := CreateOneConicArc start startTangent end_ endTangent pointOnConic in
  match r with
  | None => Ok None
  | Some (P1, w1) =>
      if IsLessThanOrEqual w1 (- n1) then Ok None else
      let! nsegs :=
        (if IsGreaterThanOrEqual w1 n1 then Ok 1%Z
         else
           let! v1 := Normalize (xyz_sub P1 start) in
           let! v2 := Normalize (xyz_sub end_ P1) in
           let! rad := AngleTo v1 v2 in
           let! r60 := AngleToRadians (nofZ 60) in
           let! r90 := AngleToRadians (nofZ 90) in
           if IsGreaterThan w1 n0 && nltb r60 rad then Ok 1%Z
           else if IsLessThan w1 n0 && nltb r90 rad then Ok 4%Z
           else Ok 2%Z) in
      let n := (2 * nsegs)%Z in
      let j := (2 * nsegs + 1)%Z in
      let degree := 2%Z in
      let! knotVector := mkvec (j + degree + 1)%Z n0 in
      let! controlPoints := mkvec (n + 1)%Z xyzw0 in
      let! knotVector := for_up 0 3 knotVector (fun i knotVector =>
        let! knotVector := upd knotVector i n0 in upd knotVector (i + j)%Z n1) in
      let! controlPoints := upd controlPoints 0 (mkW start n1) in
      let! controlPoints := upd controlPoints n (mkW end_ n1) in
      if (nsegs =? 1)%Z then
        let! controlPoints := upd controlPoints 1 (mkW P1 w1) in
        Ok (Some (mkCurve degree knotVector controlPoints))
      else
        let! r := SplitArc start P1 w1 end_ n0 in
        let '(Q1, S0, R1, wqr) := r in
        if (nsegs =? 2)%Z then
          let! c := upd controlPoints 2 (mkW S0 n1) in
          let! c := upd c 1 (mkW Q1 wqr) in
          let! c := upd c 3 (mkW R1 wqr) in
          let! k := upd knotVector 4 (nlit 1 2) in
          let! k := upd k 3 (nlit 1 2) in
          Ok (Some (mkCurve degree k c))
        else if (nsegs =? 4)%Z then
          let! c := upd controlPoints 4 (mkW S0 n1) in
          let w1 := wqr in
          let! r := SplitArc start Q1 w1 S0 wqr in
          let '(HQ1, HS, HR1, wqr) := r in
          let! c := upd c 2 (mkW HS n1) in
          let! c := upd c 1 (mkW HQ1 wqr) in
          let! c := upd c 3 (mkW HR1 wqr) in
          let! r := SplitArc S0 R1 w1 end_ wqr in
          let '(HQ1, HS, HR1, wqr) := r in
          let! c := upd c 6 (mkW HS n1) in
          let! c := upd c 5 (mkW HQ1 wqr) in
          let! c := upd c 7 (mkW HR1 wqr) in
          let! k := for_up 0 2 knotVector (fun i k =>
            let! k := upd k (i + 3)%Z (nlit 1 4) in
            let! k := upd k (i + 5)%Z (nlit 1 2) in
            upd k (i + 7)%Z (nlit 3 4)) in
          Ok (Some (mkCurve degree k c))
        else Ok None
  end.

End Conic.
