(* Model of src/LNLib/Geometry/Curve/NurbsCurve.cpp, sixth part: the parameter of a point, lengths, the parameter of a
   length, and adaptive tessellation. *)
From Coq Require Import ZArith List Bool.
From Verif Require Import Base Num Vec M_MathUtils M_Polynomials M_Knots M_XYZ M_Bspline M_NurbsCurve M_Curve2 M_Geom M_Surface M_Shape M_Octree M_Volume.
Import ListNotations.
Open Scope Z_scope.

(* LNEnums.h: IntegratorType *)
Inductive IntegratorType : Type := It_Simpson | It_GaussLegendre | It_Chebyshev.

Section Curve4.
Context {A : Type} {NA : Num A}.
Local Open Scope num_scope.
Notation pt3 := (XYZ A).
Notation curve := (Curve A (XYZW A)).

(* Constants.h:24 *)
Definition DistanceEpsilon : A := nlit 1 10000.

(* NurbsCurve.cpp:1251-1281: the nearest point of the segments between consecutive sample points; the size of the samples
   is a size_t, with no samples the loop bound would wrap around, which the model does not reach: there are always samples *)
Definition curve_guess (tessellatedPoints : list pt3) (correspondingKnots : list A) (givenPoint : pt3) (minParam : A) : res A :=
  let! r := for_up 0 (len tessellatedPoints - 1)%Z (dbl_max, minParam) (fun i '(minDistSq, bestT) =>
    let! P0 := get tessellatedPoints i in
    let! P1 := get tessellatedPoints (i + 1)%Z in
    let! t0 := get correspondingKnots i in
    let! t1 := get correspondingKnots (i + 1)%Z in
    let seg := xyz_sub P1 P0 in
    let segLenSq := DotProduct seg seg in
    let! u :=
      if nltb DoubleEpsilon segLenSq then
        let! u := ndiv (DotProduct (xyz_sub givenPoint P0) seg) segLenSq in
        Ok (std_max n0 (std_min n1 u))
      else Ok (nlit 1 2) in
    let projectPoint := xyz_add P0 (xyz_scale u seg) in
    let projectT := t0 + (t1 - t0) * u in
    let distSq := SqrLength (xyz_sub givenPoint projectPoint) in
    if nltb distSq minDistSq then Ok (distSq, projectT) else Ok (minDistSq, bestT)) in
  Ok (snd r).

(* NurbsCurve.cpp:1283-1327: the Newton iteration; Stop carries the final parameter *)
Definition curve_newton (fuel : nat) (c : curve) (givenPoint : pt3) (minParam maxParam : A) (isClosed : bool) (bestT : A) : res A :=
  let! r := for_upc 0 20 bestT (fun _ paramT =>
    let! derivatives := ComputeRationalCurveDerivatives c 2 paramT in
    let! C := get derivatives 0 in
    let! Ct := get derivatives 1 in
    let! Ctt := get derivatives 2 in
    let diff := xyz_sub C givenPoint in
    let! currentDist := Length diff in
    if nltb currentDist DistanceEpsilon then Ok (Stop paramT) else
    let f := DotProduct Ct diff in
    let df := DotProduct Ct Ct + DotProduct diff Ctt in
    if nltb (nabs df) DoubleEpsilon then Ok (Stop paramT) else
    let! deltaT := ndiv f df in
    let newT := paramT - deltaT in
    let! l := Length Ct in
    if nltb (nabs (deltaT * l)) DistanceEpsilon then Ok (Stop newT) else
    let! newT := wrap_param fuel isClosed newT minParam maxParam in
    Ok (Next newT)) in
  Ok (match r with Stop p => p | Next p => p end).

(* NurbsCurve.cpp:1237-1328; fuel bounds the loops that bring a parameter back into a closed curve *)
Definition GetParamOnCurve (fuel : nat) (c : curve) (givenPoint : pt3) : res A :=
  let! minParam := get (KnotVector c) 0 in
  let! maxParam := get (KnotVector c) (len (KnotVector c) - 1)%Z in
  let! isClosed := IsClosed c in
  let! r := EquallyTessellate c in
  let! bestT := curve_guess (fst r) (snd r) givenPoint minParam in
  curve_newton fuel c givenPoint minParam maxParam isClosed bestT.

(* NurbsCurve.cpp:1352-1375: the parameters of the samples that are no further away than the samples beside them *)
Definition local_minima (tessellatedPoints : list pt3) (correspondingKnots : list A) (givenPoint : pt3) : res (list A) :=
  let! distSq := for_up 0 (len tessellatedPoints) [] (fun i distSq =>
    let! p := get tessellatedPoints i in
    Ok (distSq ++ [SqrLength (xyz_sub givenPoint p)])) in
  for_up 0 (len tessellatedPoints) [] (fun i initialGuesses =>
    let! before :=
      if (0 <? i)%Z then
        let! x := get distSq i in let! y := get distSq (i - 1)%Z in Ok (nltb y x)
      else Ok false in
    let! after :=
      if (i <? len tessellatedPoints - 1)%Z then
        let! x := get distSq i in let! y := get distSq (i + 1)%Z in Ok (nltb y x)
      else Ok false in
    if before || after then Ok initialGuesses else
    let! t := get correspondingKnots i in
    Ok (initialGuesses ++ [t])).

(* NurbsCurve.cpp:1412-1420: fuel bounds the loops of closed curves *)
Definition wrap_tol (fuel : nat) (isClosed : bool) (newT minParam maxParam : A) : res A :=
  if isClosed then
    let range := maxParam - minParam in
    let! newT := while_ fuel (fun t => Ok (IsLessThan t minParam)) newT (fun t => Ok (t + range)) in
    while_ fuel (fun t => Ok (IsGreaterThan t maxParam)) newT (fun t => Ok (t - range))
  else Ok (std_max minParam (std_min maxParam newT)).

(* NurbsCurve.cpp:1382-1424: the Newton iteration from one of them *)
Definition all_newton (fuel : nat) (c : curve) (givenPoint : pt3) (minParam maxParam : A) (isClosed : bool) (initialT : A) : res A :=
  let! r := for_upc 0 20 initialT (fun _ paramT =>
    let! derivatives := ComputeRationalCurveDerivatives c 2 paramT in
    let! C := get derivatives 0 in
    let! Ct := get derivatives 1 in
    let! Ctt := get derivatives 2 in
    let diff := xyz_sub C givenPoint in
    let! currentDist := Length diff in
    if IsAlmostEqualTo currentDist n0 then Ok (Stop paramT) else
    let f := DotProduct Ct diff in
    let df := DotProduct Ct Ct + DotProduct diff Ctt in
    if IsAlmostEqualTo (nabs df) n0 then Ok (Stop paramT) else
    let! deltaT := ndiv f df in
    let newT := paramT - deltaT in
    let! l := Length Ct in
    if IsAlmostEqualTo (nabs (deltaT * l)) n0 then Ok (Stop newT) else
    let! newT := wrap_tol fuel isClosed newT minParam maxParam in
    Ok (Next newT)) in
  Ok (match r with Stop p => p | Next p => p end).

(* NurbsCurve.cpp:1426-1445 *)
Definition known_param (result : list A) (paramT minParam maxParam : A) (isClosed : bool) : bool :=
  existsb (fun existingT =>
    let diffT := nabs (existingT - paramT) in
    let diffT := if isClosed then std_min diffT (nabs (diffT - (maxParam - minParam))) else diffT in
    IsAlmostEqualTo diffT n0) result.

(* NurbsCurve.cpp:1331-1449 *)
Definition GetAllParamsOnCurve (fuel : nat) (c : curve) (givenPoint : pt3) : res (list A) :=
  let! arc := IsArc c in
  (match arc with
   | Some (_, center, true) => validate (negb (xyz_IsAlmostEqualTo center givenPoint))
   | _ => Ok tt
   end) ;;
  let! minParam := get (KnotVector c) 0 in
  let! maxParam := get (KnotVector c) (len (KnotVector c) - 1)%Z in
  let! isClosed := IsClosed c in
  let! r := EquallyTessellate c in
  let! initialGuesses := local_minima (fst r) (snd r) givenPoint in
  for_up 0 (len initialGuesses) [] (fun i result =>
    let! initialT := get initialGuesses i in
    let! paramT := all_newton fuel c givenPoint minParam maxParam isClosed initialT in
    if known_param result paramT minParam maxParam isClosed then Ok result else Ok (result ++ [paramT])).

(* NurbsCurve.cpp:38-45: the speed *)
Definition speed (c : curve) (t : A) : res A :=
  let! d := ComputeRationalCurveDerivatives c 1 t in
  let! v := get d 1 in
  Length v.

(* Integrator.cpp:18-26, with that function *)
Definition simpson_speed (c : curve) (start end_ : A) : res A :=
  let! st := speed c start in
  let! mid := ndiv (start + end_) (nofZ 2) in
  let! mt := speed c mid in
  let! et := speed c end_ in
  let! h := ndiv (end_ - start) (nofZ 6) in
  Ok (h * (st + nofZ 4 * mt + et)).

(* NurbsCurve.cpp:47-65; fuel bounds the depth of the recursion *)
Fixpoint simpson_length (fuel : nat) (c : curve) (start end_ simpson tolerance : A) : res A :=
  match fuel with
  | O => OutOfFuel
  | S f =>
      let! m := ndiv (start + end_) (nofZ 2) in
      let! left_ := simpson_speed c start m in
      let! right_ := simpson_speed c m end_ in
      let differ := left_ + right_ - simpson in
      let! d15 := ndiv (nabs differ) (nofZ 15) in
      if IsAlmostEqualTo differ n0 || IsLessThan d15 tolerance then
        let! x := ndiv differ (nofZ 15) in
        Ok (left_ + right_ + x)
      else
        let! t2 := ndiv tolerance (nofZ 2) in
        let! a := simpson_length f c start m left_ t2 in
        let! b := simpson_length f c m end_ right_ t2 in
        Ok (a + b)
  end.

(* the tables and the quadrature of Integrator.cpp that are not modelled *)
Variables (abscissae weights : list A) (clenshaw : (A -> res A) -> A -> A -> res A).

(* NurbsCurve.cpp:3829-3852: the length of one piece *)
Definition gauss_length (c : curve) : res A :=
  let! a := get (KnotVector c) 0 in
  let! b := get (KnotVector c) (len (KnotVector c) - 1)%Z in
  let! coefficient := ndiv (b - a) (nofZ 2) in
  let! bLength := for_up 0 (len abscissae) n0 (fun i bLength =>
    let! x := get abscissae i in
    let! m := ndiv (a + b) (nofZ 2) in
    let! l := speed c (coefficient * x + m) in
    let l := if nisnan l then n0 else l in
    let! w := get weights i in
    Ok (bLength + w * l)) in
  Ok (coefficient * bLength).

(* NurbsCurve.cpp:3793-3873; fuel bounds the recursion of the first rule and the decomposition of the second *)
Definition ApproximateLength (fuel : nat) (c : curve) (type : IntegratorType) : res A :=
  let! isLinear := IsLinear c in
  if isLinear then
    let! p0 := get (ControlPoints c) 0 in
    let! startPoint := ToXYZ p0 true in
    let! pn := get (ControlPoints c) (len (ControlPoints c) - 1)%Z in
    let! endPoint := ToXYZ pn true in
    Distance startPoint endPoint
  else
  validate (negb (Degree c =? 1)%Z) ;;
  let! reCurve := Reparametrize c n0 n1 in
  match type with
  | It_Simpson =>
      let! start := get (KnotVector reCurve) 0 in
      let! end_ := get (KnotVector reCurve) (len (KnotVector reCurve) - 1)%Z in
      let! simpson := simpson_speed reCurve start end_ in
      simpson_length fuel reCurve start end_ simpson DistanceEpsilon
  | It_GaussLegendre =>
      let! bezierCurves := DecomposeToBeziers fuel reCurve in
      for_up 0 (len bezierCurves) n0 (fun i length =>
        let! b := get bezierCurves i in
        let! l := gauss_length b in
        Ok (length + l))
  | It_Chebyshev =>
      for_up (Degree reCurve) (len (ControlPoints reCurve)) n0 (fun i length =>
        let! a := get (KnotVector reCurve) i in
        let! b := get (KnotVector reCurve) (i + 1)%Z in
        let! l := clenshaw (speed reCurve) a b in
        Ok (length + l))
  end.

(* NurbsCurve.cpp:67-91; fuel bounds the depth of the recursion, as well as those of the lengths *)
Fixpoint GetParamByLength (depth fuel : nat) (c : curve) (start end_ givenLength : A) (type : IntegratorType) : res A :=
  match depth with
  | O => OutOfFuel
  | S d =>
      let! middle := ndiv (start + end_) (nofZ 2) in
      let! r := SplitAt c middle in
      match r with
      | None => Ok start
      | Some (left_, _) =>
          let! length := ApproximateLength fuel left_ type in
          if IsAlmostEqualTo_tol length givenLength DistanceEpsilon then Ok middle
          else if IsGreaterThan_tol length givenLength DistanceEpsilon then GetParamByLength d fuel c start middle givenLength type
          else if IsLessThan_tol length givenLength DistanceEpsilon then GetParamByLength d fuel c middle end_ givenLength type
          else Ok middle
      end
  end.

(* NurbsCurve.cpp:4086-4118 *)
Definition GetParamOnCurve_length (fuel : nat) (c : curve) (givenLength : A) (type : IntegratorType) : res A :=
  let knotVector := KnotVector c in
  let! start := get knotVector 0 in
  let! end_ := get knotVector (len knotVector - 1)%Z in
  let! totalLength := ApproximateLength fuel c type in
  if IsLessThan_tol totalLength givenLength DistanceEpsilon then Ok end_ else
  let! r := for_upc 0 (len knotVector) tt (fun i _ =>
    let! knot := get knotVector i in
    let! r := SplitAt c knot in
    match r with
    | None => Ok (Next tt)
    | Some (left_, _) =>
        let! length := ApproximateLength fuel left_ type in
        if IsAlmostEqualTo length givenLength then Ok (Stop (true, knot))
        else if IsGreaterThan length givenLength then Ok (Stop (false, knot))
        else Ok (Next tt)
    end) in
  match r with
  | Stop (true, knot) => Ok knot
  | Stop (false, knot) => GetParamByLength fuel fuel c start knot givenLength type
  | Next _ => GetParamByLength fuel fuel c start end_ givenLength type
  end.

(* NurbsCurve.cpp:4120-4140 *)
Fixpoint params_loop (steps fuel : nat) (c : curve) (end_ givenLength : A) (type : IntegratorType) (param : A) (result : list A) : res (list A) :=
  match steps with
  | O => OutOfFuel
  | S n =>
      if IsAlmostEqualTo param end_ then Ok result else
      let result := result ++ [param] in
      let! r := SplitAt c param in
      match r with
      | None => params_loop n fuel c end_ givenLength type param result
      | Some (_, right_) =>
          let! param := GetParamOnCurve_length fuel right_ givenLength type in
          params_loop n fuel c end_ givenLength type param result
      end
  end.
Definition GetParamsOnCurve_length (steps fuel : nat) (c : curve) (givenLength : A) (type : IntegratorType) : res (list A) :=
  let! end_ := get (KnotVector c) (len (KnotVector c) - 1)%Z in
  let! param := GetParamOnCurve_length fuel c givenLength type in
  params_loop steps fuel c end_ givenLength type param [].

(* NurbsCurve.cpp:93-117; depth counts down from MAX_DEPTH *)
Fixpoint TessellateCore (depth : nat) (c : curve) (start end_ : A) (parameters : list A) : res (list A) :=
  match depth with
  | O => Ok (parameters ++ [(start + end_) * nlit 1 2])
  | S d =>
      let! p0 := NurbsPoint c start in
      let! p2 := NurbsPoint c end_ in
      let mid := (start + end_) * nlit 1 2 in
      let! p1 := NurbsPoint c mid in
      let chordMid := xyz_scale (nlit 1 2) (xyz_add p0 p2) in
      let! deviation := Distance p1 chordMid in
      if IsAlmostEqualTo deviation n0 then Ok (parameters ++ [mid])
      else
        let! parameters := TessellateCore d c start mid parameters in
        TessellateCore d c mid end_ parameters
  end.

(* NurbsCurve.cpp:4142-4196 *)
Definition Tessellate (c : curve) : res (list pt3) :=
  if (Degree c =? 1)%Z then
    for_up 0 (len (ControlPoints c)) [] (fun i l =>
      let! p := get (ControlPoints c) i in
      let! x := ToXYZ p true in
      Ok (l ++ [x]))
  else
  let uniqueKnots := std_unique (std_sort (KnotVector c)) in
  let! front := get uniqueKnots 0 in
  if (len uniqueKnots <? 2)%Z then
    let! p := NurbsPoint c front in
    Ok [p]
  else
  let! back := get uniqueKnots (len uniqueKnots - 1)%Z in
  let! parameters := for_up 0 (len uniqueKnots - 1)%Z [front] (fun i parameters =>
    let! u0 := get uniqueKnots i in
    let! u1 := get uniqueKnots (i + 1)%Z in
    if IsAlmostEqualTo u1 u0 then Ok parameters else
    let! internalParams := TessellateCore 20 c u0 u1 [] in
    let! parameters := for_up 0 (len internalParams) parameters (fun k parameters =>
      let! t := get internalParams k in
      let! last := get parameters (len parameters - 1)%Z in
      if nltb u0 t && nltb t u1 && IsGreaterThan t last then Ok (parameters ++ [t]) else Ok parameters) in
    let! last := get parameters (len parameters - 1)%Z in
    if IsGreaterThan u1 last then Ok (parameters ++ [u1]) else Ok parameters) in
  let! last := get parameters (len parameters - 1)%Z in
  let parameters := if IsAlmostEqualTo last back then parameters else parameters ++ [back] in
  for_up 0 (len parameters) [] (fun i points =>
    let! t := get parameters i in
    let! p := NurbsPoint c t in
    Ok (points ++ [p])).
End Curve4.
