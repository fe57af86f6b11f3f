(* Model of src/LNLib/Geometry/Curve/NurbsCurve.cpp, tenth part: fitting points with one conic or one cubic segment, and of
   the middle control points of a quadratic through two points, src/LNLib/Geometry/Curve/BezierCurve.cpp. *)
From Coq Require Import ZArith List Bool.
From Verif Require Import Base Num Vec M_MathUtils M_Polynomials M_Knots M_XYZ M_Bspline M_Bezier M_NurbsCurve M_Curve2 M_Geom M_Interp M_Conic M_Curve4.
Import ListNotations.
Open Scope Z_scope.

Section FitConic.
Context {A : Type} {NA : Num A}.
Local Open Scope num_scope.
Notation pt3 := (XYZ A).
Notation pt4 := (XYZW A).
Notation curve := (Curve A (XYZW A)).

(* BezierCurve.cpp:67-70, 75-78 and 86-89: one middle control point; None is the return value false *)
Definition quadratic_middle (startPoint R endPoint : pt3) : res (option (list pt4)) :=
  let! r := ComputerWeightForRationalQuadraticInterpolation startPoint R endPoint in
  match r with None => Ok None | Some weight => Ok (Some [mkW R weight]) end.

(* BezierCurve.cpp:92-111: the lengths of the two tangents *)
Definition quadratic_gammas (type : CurveCurveIntersectionType) (startPoint endPoint R SE : pt3) : res (A * A) :=
  match type with
  | Intersecting =>
      let SR := xyz_sub R startPoint in
      let ER := xyz_sub R endPoint in
      let! lSR := Length SR in
      let! lER := Length ER in
      let! lSE := Length SE in
      let! theta0 := ndiv (DotProduct SR SE) (lSR * lSE) in
      let! theta1 := ndiv (DotProduct ER SE) (lER * lSE) in
      let! alpha := ndiv (nofZ 2) (nofZ 3) in
      let! gamma1 := ndiv (nlit 1 2 * lSE) (n1 + alpha * theta1 + (n1 - alpha) * theta0) in
      let! gamma2 := ndiv (nlit 1 2 * lSE) (n1 + alpha * theta0 + (n1 - alpha) * theta1) in
      Ok (gamma1, gamma2)
  | _ =>
      let! lSE := Length SE in
      Ok (nlit 1 2 * lSE, nlit 1 2 * lSE)
  end.

(* BezierCurve.cpp:39-130; the result lists the control points that are appended, None is the return value false *)
Definition ComputerMiddleControlPointsOnQuadraticCurve (startPoint startTangent endPoint endTangent : pt3) : res (option (list pt4)) :=
  let! chord := Normalize (xyz_sub endPoint startPoint) in
  let! nST := Normalize startTangent in
  let! nET := Normalize endTangent in
  if (xyz_IsAlmostEqualTo nST chord || xyz_IsAlmostEqualTo nST (xyz_neg chord))
     && (xyz_IsAlmostEqualTo nST nET || xyz_IsAlmostEqualTo nST (xyz_neg nET)) then
    let! mid := xyz_div (xyz_add startPoint endPoint) (nofZ 2) in Ok (Some [mkW mid n1])
  else
  let! r := ComputeRays startPoint nST endPoint nET n0 n0 xyz0 in
  let '(type, alf1, alf2, R) := r in
  let meets := match type with Intersecting => true | _ => false end in
  let mid := xyz_scale (nlit 1 2) (xyz_add startPoint endPoint) in
  if meets && (xyz_IsAlmostEqualTo startPoint R || xyz_IsAlmostEqualTo endPoint R) then quadratic_middle startPoint mid endPoint
  else if meets && (IsGreaterThan alf1 n0 && IsLessThan alf2 n0) then quadratic_middle startPoint R endPoint
  else
  let SE := xyz_sub endPoint startPoint in
  let! nSE := Normalize SE in
  if xyz_IsAlmostEqualTo nSE startTangent && xyz_IsAlmostEqualTo nSE endTangent then quadratic_middle startPoint mid endPoint
  else
  let! g := quadratic_gammas type startPoint endPoint R SE in
  let '(gamma1, gamma2) := g in
  let R1 := xyz_add startPoint (xyz_scale gamma1 startTangent) in
  let R2 := xyz_sub endPoint (xyz_scale gamma2 endTangent) in
  let! Qk := xyz_div (xyz_add (xyz_scale gamma1 R2) (xyz_scale gamma2 R1)) (gamma1 + gamma2) in
  let! r := ComputerWeightForRationalQuadraticInterpolation startPoint R1 Qk in
  match r with
  | None => Ok None
  | Some weight1 =>
      let! r := ComputerWeightForRationalQuadraticInterpolation Qk R2 endPoint in
      match r with
      | None => Ok None
      | Some weight2 => Ok (Some [mkW R1 weight1; mkW Qk n1; mkW R2 weight2])
      end
  end.

(* NurbsCurve.cpp:2960-2979: the sum of the w / (1 + w); Stop is the return value false *)
Definition conic_shoulders (throughPoints : list pt3) (startPointIndex endPointIndex : Z) (startPoint V R : pt3) : res (ctl A unit) :=
  for_upc (startPointIndex + 1) endPointIndex n0 (fun i s =>
    let! tp := get throughPoints i in
    let V1 := xyz_sub tp R in
    let! r := ComputeRays startPoint V R V1 n0 n0 xyz0 in
    let '(type, alf1, alf2, _) := r in
    let meets := match type with Intersecting => true | _ => false end in
    if negb meets || IsLessThanOrEqual alf1 n0 || IsGreaterThanOrEqual alf1 n1 || IsLessThanOrEqual alf2 n0 then Ok (Stop tt)
    else
      let! r := CreateOneConicArc startPoint V R V1 tp in
      match r with
      | Some (_, wi) => let! q := ndiv wi (n1 + wi) in Ok (Next (s + q))
      | None => Ok (Next s)
      end).

(* NurbsCurve.cpp:2987-3001: are all inner points within the error of the conic? *)
Definition conic_check (fuel : nat) (throughPoints : list pt3) (startPointIndex endPointIndex : Z) (tc : curve) (maxError : A) : res (ctl unit unit) :=
  for_upc (startPointIndex + 1) endPointIndex tt (fun k _ =>
    let! tp := get throughPoints k in
    let! param := GetParamOnCurve fuel tc tp in
    let! point := NurbsPoint tc param in
    let! d := Distance tp point in
    if IsGreaterThan d maxError then Ok (Stop tt) else Ok (Next tt)).

(* NurbsCurve.cpp:2928-3004; the result lists the control points that are appended, None is the return value false.
   fuel is that of the search for a parameter. A division by zero stops with NonFin. *)
Definition FitWithConic (fuel : nat) (throughPoints : list pt3) (startPointIndex endPointIndex : Z) (startTangent endTangent : pt3) (maxError : A)
  : res (option (list pt4)) :=
  validate (0 <? len throughPoints)%Z ;;
  validate_int_range startPointIndex 0 (len throughPoints - 1) ;;
  validate_int_range endPointIndex (startPointIndex + 1) (len throughPoints - 1) ;;
  validate (negb (IsZero startTangent)) ;;
  validate (negb (IsZero endTangent)) ;;
  let! startPoint := get throughPoints startPointIndex in
  let! endPoint := get throughPoints endPointIndex in
  if (endPointIndex - startPointIndex =? 1)%Z then ComputerMiddleControlPointsOnQuadraticCurve startPoint startTangent endPoint endTangent
  else
  let! r := ComputeRays startPoint startTangent endPoint endTangent n0 n0 xyz0 in
  let '(type, alf1, alf2, R) := r in
  match type with
  | Coincident => let! mid := xyz_div (xyz_add startPoint endPoint) (nofZ 2) in Ok (Some [mkW mid n1])
  | Skew | Parallel => Ok None
  | Intersecting =>
      if IsLessThanOrEqual alf1 n0 || IsGreaterThanOrEqual alf2 n0 then Ok None else
      let V := xyz_sub endPoint startPoint in
      let! c := conic_shoulders throughPoints startPointIndex endPointIndex startPoint V R in
      match c with
      | Stop _ => Ok None
      | Next s =>
          let! s := ndiv s (nofZ (endPointIndex - startPointIndex - 1)) in
          let! w := ndiv s (n1 - s) in
          let tc := mkCurve 2 [n0; n0; n0; n1; n1; n1] [mkW startPoint n1; mkW R w; mkW endPoint n1] in
          let! c := conic_check fuel throughPoints startPointIndex endPointIndex tc maxError in
          match c with
          | Stop _ => Ok None
          | Next _ => Ok (Some [mkW R w])
          end
      end
  end.

(* MathUtils.cpp:124-135; pow(x, 3) is x*x*x *)
Definition cubic_newton (cubic quadratic linear constant initial : A) : res A :=
  let! q := ndiv (cubic * (initial * initial * initial) + quadratic * (initial * initial) + linear * initial + constant)
                 (nofZ 3 * cubic * (initial * initial) + nofZ 2 * quadratic * initial + linear) in
  Ok (initial - q).
Definition ComputerCubicEquationsWithOneVariable (fuel : nat) (cubic quadratic linear constant : A) : res A :=
  let initial := nlit 1 1000 in
  let! result := cubic_newton cubic quadratic linear constant initial in
  let! s := while_ fuel (fun '(initial, result) => Ok (IsGreaterThan (nabs (result - initial)) DoubleEpsilon)) (initial, result) (fun '(initial, result) =>
    let! next := cubic_newton cubic quadratic linear constant result in Ok (result, next)) in
  Ok (snd s).

(* NurbsCurve.cpp:3019-3047: two points only *)
Definition cubic_two (throughPoints : list pt3) (startPointIndex endPointIndex : Z) (startPoint endPoint startTangent endTangent : pt3) : res (list pt4) :=
  let size := len throughPoints in
  let! tangents := ComputeTangent throughPoints in
  let! Dks :=
    if (startPointIndex =? 0)%Z then get tangents startPointIndex
    else
      let! d := Distance endPoint startPoint in
      let! before := get throughPoints (startPointIndex - 1) in
      let! d' := Distance startPoint before in
      let! q := ndiv d d' in Ok (xyz_scale q startTangent) in
  let! Dke :=
    if (endPointIndex =? size - 1)%Z then get tangents endPointIndex
    else
      let! after := get throughPoints (endPointIndex + 1) in
      let! d := Distance after endPoint in
      let! d' := Distance endPoint startPoint in
      let! q := ndiv d d' in Ok (xyz_scale q endTangent) in
  let! ls := Length Dks in
  let! le := Length Dke in
  let! alpha := ndiv ls (nofZ 3) in
  let! beta := ndiv (- le) (nofZ 3) in
  Ok [mkW (xyz_add startPoint (xyz_scale alpha startTangent)) n1; mkW (xyz_add endPoint (xyz_scale beta endTangent)) n1].

(* NurbsCurve.cpp:3049-3067: Stop is isLine = false. The loop runs from startPointIndex to dk, not to endPointIndex. *)
Definition cubic_line (throughPoints : list pt3) (startPointIndex dk : Z) (startPoint : pt3) : res (ctl pt3 unit) :=
  for_upc startPointIndex (dk + 1) xyz0 (fun i tempStandard =>
    let! tp := get throughPoints i in
    let! direction := Normalize (xyz_sub tp startPoint) in
    if IsZero tempStandard then Ok (Next direction)
    else if negb (xyz_IsAlmostEqualTo tempStandard direction) then Ok (Stop tt) else Ok (Next tempStandard)).

(* NurbsCurve.cpp:3090-3122: an inner point in the plane; None is the return value false. throughPoints[k] is read without
   adding startPointIndex. c1 * b2 is the dot product of vectors. *)
Definition cubic_planar (throughPoints : list pt3) (uh : list A) (k : Z) (startPoint endPoint startTangent endTangent : pt3) : res (option (A * A)) :=
  let! uk := get uh k in
  let s := n1 - uk in
  let t := uk in
  let a1 := xyz_scale (nofZ 3 * (s * s) * t) startTangent in
  let b1 := xyz_scale (nofZ 3 * s * (t * t)) endTangent in
  let! pk := get throughPoints k in
  let c1 := xyz_sub (xyz_sub pk (xyz_scale (s * s * s + nofZ 3 * (s * s) * t) startPoint)) (xyz_scale (t * t * t + nofZ 3 * s * (t * t)) endPoint) in
  let! up := get uh (k - 1)%Z in
  let! un := get uh (k + 1)%Z in
  let! alk := ndiv (uk - up) (un - up) in
  let! pp := get throughPoints (k - 1)%Z in
  let! dk := xyz_div (xyz_sub pk pp) (uk - up) in
  let! pn := get throughPoints (k + 1)%Z in
  let! dk1 := xyz_div (xyz_sub pn pk) (un - uk) in
  let! Dk := Normalize (xyz_add (xyz_scale (n1 - alk) dk) (xyz_scale alk dk1)) in
  let a2 := xyz_scale (s * (s - nofZ 2 * t)) (CrossProduct Dk startTangent) in
  let b2 := xyz_scale (t * (nofZ 2 * s - t)) (CrossProduct Dk endTangent) in
  let c2 := xyz_scale (nofZ 2 * s * t) (CrossProduct Dk (xyz_sub startPoint endPoint)) in
  let! ak := ndiv (DotProduct c1 b2 - DotProduct c2 b1) (DotProduct a1 b2 - DotProduct a2 b1) in
  let! bk := ndiv (DotProduct c1 a2 - DotProduct c2 a1) (DotProduct b1 a2 - DotProduct b2 a1) in
  if IsGreaterThan ak n0 && IsLessThan bk n0 then Ok (Some (ak, bk)) else Ok None.

(* NurbsCurve.cpp:3124-3151: an inner point out of the plane *)
Inductive cubic_step := Step_false | Step_skip | Step_set (u a b : A).
Definition cubic_spatial (fuel : nat) (point normalPi startPoint endPoint startTangent : pt3) : res cubic_step :=
  let! r := ComputeLineAndPlane normalPi startPoint point startTangent xyz0 in
  let '(type0, Pd) := r in
  match type0 with
  | LP_Intersecting =>
      let! r := ComputeRays startPoint (xyz_sub endPoint startPoint) Pd startTangent n0 n0 xyz0 in
      let '(type1, _, _, Pc) := r in
      match type1 with
      | Intersecting =>
          let! d := Distance Pc endPoint in
          let! d' := Distance startPoint endPoint in
          let! gamma := ndiv d d' in
          if IsLessThan gamma n0 || IsGreaterThan gamma n1 then Ok Step_false
          else
            let! u := ComputerCubicEquationsWithOneVariable fuel (nofZ 2) (- nofZ 3) n0 (n1 - gamma) in
            if IsLessThan u n0 || IsGreaterThan u n1 then Ok Step_false
            else
              let! a := Distance Pc Pd in
              let! b := Distance Pd point in
              let! b13 := Bernstein 1 3 u in
              let! b23 := Bernstein 2 3 u in
              let! ak := ndiv a b13 in
              let! bk := ndiv (- b) b23 in
              Ok (Step_set u ak bk)
      | _ => Ok Step_skip
      end
  | _ => Ok Step_skip
  end.

(* NurbsCurve.cpp:3082-3152: Stop is the return value false *)
Definition cubic_tangents (fuel : nat) (throughPoints : list pt3) (uh : list A) (startPointIndex dk : Z) (startPoint endPoint startTangent endTangent : pt3)
  : res (ctl (list A * list A * list A) unit) :=
  let! alphak := mkvec dk n0 in
  let! betak := mkvec dk n0 in
  for_upc 1 dk (uh, alphak, betak) (fun k '(uh, alphak, betak) =>
    let! chord := Normalize (xyz_sub endPoint startPoint) in
    let normalPi := CrossProduct chord startTangent in
    let! point := get throughPoints (k + startPointIndex)%Z in
    let! r := ComputeLineAndPlane normalPi startPoint point endTangent xyz0 in
    match fst r with
    | LP_On =>
        let! r := cubic_planar throughPoints uh k startPoint endPoint startTangent endTangent in
        match r with
        | None => Ok (Stop tt)
        | Some (ak, bk) =>
            let! alphak := upd alphak k ak in
            let! betak := upd betak k bk in
            Ok (Next (uh, alphak, betak))
        end
    | _ =>
        let! r := cubic_spatial fuel point normalPi startPoint endPoint startTangent in
        match r with
        | Step_false => Ok (Stop tt)
        | Step_skip => Ok (Next (uh, alphak, betak))
        | Step_set u ak bk =>
            let! uh := upd uh k u in
            let! alphak := upd alphak k ak in
            let! betak := upd betak k bk in
            Ok (Next (uh, alphak, betak))
        end
    end).

(* NurbsCurve.cpp:3153-3159 *)
Definition cubic_sums (alphak betak : list A) (dk : Z) : res (A * A) :=
  for_up 1 dk (n0, n0) (fun k '(alpha, beta) =>
    let! a := get alphak k in
    let! b := get betak k in
    Ok (alpha + a, beta + b)).

(* NurbsCurve.cpp:3166-3188: Stop is the return value false *)
Definition cubic_check (throughPoints : list pt3) (uh alphak betak : list A) (startPointIndex dk : Z) (alpha beta : A)
  (startPoint endPoint startTangent endTangent P1 P2 : pt3) (maxError : A) : res (ctl unit unit) :=
  for_upc 1 dk tt (fun k _ =>
    let! u := get uh k in
    let! ak := get alphak k in
    let! bk := get betak k in
    let deltaAk := ak - alpha in
    let deltaBk := bk - beta in
    let! b13 := Bernstein 1 3 u in
    let! b23 := Bernstein 2 3 u in
    let! e := Distance (xyz_scale (deltaAk * b13) startTangent) (xyz_scale (deltaBk * b23) endTangent) in
    if IsLessThanOrEqual e maxError then Ok (Next tt)
    else
      let! p := GetPointOnCurveByBernstein (mkBezier 3 [startPoint; P1; P2; endPoint]) u in
      let! point := get throughPoints (startPointIndex + k)%Z in
      let! ek := Distance point p in
      if IsGreaterThan ek maxError then Ok (Stop tt) else Ok (Next tt)).

(* NurbsCurve.cpp:3006-3190; the result lists the control points that are appended, None is the return value false (the
   code may have appended two points by then). The points of newThroughPoints follow dk + 1 points at the origin, because the
   vector is created with that size and then appended to. *)
Definition FitWithCubic (fuel : nat) (throughPoints : list pt3) (startPointIndex endPointIndex : Z) (startTangent endTangent : pt3) (maxError : A)
  : res (option (list pt4)) :=
  validate (3 <=? len throughPoints)%Z ;;
  validate_int_range startPointIndex 0 (len throughPoints - 1) ;;
  validate_int_range endPointIndex (startPointIndex + 1) (len throughPoints - 1) ;;
  validate (negb (IsZero startTangent)) ;;
  validate (negb (IsZero endTangent)) ;;
  let! startPoint := get throughPoints startPointIndex in
  let! endPoint := get throughPoints endPointIndex in
  let dk := (endPointIndex - startPointIndex)%Z in
  if (dk =? 1)%Z then
    let! l := cubic_two throughPoints startPointIndex endPointIndex startPoint endPoint startTangent endTangent in Ok (Some l)
  else
  let! line := cubic_line throughPoints startPointIndex dk startPoint in
  match line with
  | Next _ =>
      let! p := xyz_div (xyz_add (xyz_scale (nofZ 2) startPoint) endPoint) (nofZ 3) in
      let! q := xyz_div (xyz_add startPoint (xyz_scale (nofZ 2) endPoint)) (nofZ 3) in
      Ok (Some [mkW p n1; mkW q n1])
  | Stop _ =>
      let! newThroughPoints := mkvec (dk + 1)%Z xyz0 in
      let! newThroughPoints := for_up startPointIndex (endPointIndex + 1) newThroughPoints (fun i new =>
        let! p := get throughPoints i in Ok (new ++ [p])) in
      let! uh := GetChordParameterization newThroughPoints in
      let! c := cubic_tangents fuel throughPoints uh startPointIndex dk startPoint endPoint startTangent endTangent in
      match c with
      | Stop _ => Ok None
      | Next (uh, alphak, betak) =>
          let! s := cubic_sums alphak betak dk in
          let! alpha := ndiv (fst s) (nofZ (dk - 1)) in
          let! beta := ndiv (snd s) (nofZ (dk - 1)) in
          let P1 := xyz_add startPoint (xyz_scale alpha startTangent) in
          let P2 := xyz_add endPoint (xyz_scale beta endTangent) in
          let! c := cubic_check throughPoints uh alphak betak startPointIndex dk alpha beta startPoint endPoint startTangent endTangent P1 P2 maxError in
          match c with
          | Stop _ => Ok None
          | Next _ => Ok (Some [mkW P1 n1; mkW P2 n1])
          end
      end
  end.
End FitConic.
