(* Model of src/LNLib/Geometry/Surface/NurbsSurface.cpp, second part: knots removed and degrees changed line by line,
   sampling, closest parameters, and surfaces made from several curves. *)
From Coq Require Import ZArith List Bool.
From Verif Require Import Base Num Vec M_MathUtils M_Polynomials M_Knots M_XYZ M_Matrix M_Bspline M_NurbsCurve M_Curve2 M_Interp M_Fit
  M_Surface M_Shape M_Octree M_Volume.
Import ListNotations.
Open Scope Z_scope.

Section Surface2.
Context {A : Type} {NA : Num A}.
Local Open Scope num_scope.
Notation pt3 := (XYZ A).
Notation curve := (Curve A (XYZW A)).
Notation surface := (Surface A (XYZW A)).

(* The loop shared by RemoveKnot, ElevateDegree and ReduceDegree (NurbsSurface.cpp:983-996, 1006-1017, 1044-1056,
   1067-1079, 1104-1120, 1133-1148): op is applied to every row; the knot vector of the last result is kept, the control
   points are collected. None, the failure of a row, ends the loop. *)
Definition rows_changed (rows : list (list (XYZW A))) (op : list (XYZW A) -> res (option curve))
  : res (option (list A * list (list (XYZW A)))) :=
  let! r := for_upc 0 (len rows) ([], []) (fun i '(_, tempControlPoints) =>
    let! row := get rows i in
    let! newtc := op row in
    match newtc with
    | None => Ok (Stop tt)
    | Some newtc => Ok (Next (KnotVector newtc, tempControlPoints ++ [ControlPoints newtc]))
    end) in
  Ok (match r with Next s => Some s | Stop _ => None end).

(* the same for the lines in the direction U, whose net is transposed before and after, or V *)
Definition lines_changed (controlPoints : list (list (XYZW A))) (isUDirection : bool) (op : list (XYZW A) -> res (option curve))
  : res (option (list A * list (list (XYZW A)))) :=
  if isUDirection then
    let! transposedControlPoints := Transpose controlPoints in
    let! r := rows_changed transposedControlPoints op in
    match r with
    | None => Ok None
    | Some (tempKnotVector, tempControlPoints) =>
        let! updatedControlPoints := Transpose tempControlPoints in
        Ok (Some (tempKnotVector, updatedControlPoints))
    end
  else rows_changed controlPoints op.

(* degree and knots in a direction; the surface with these and the net replaced *)
Definition degree_along (isUDirection : bool) (s : surface) : Z := if isUDirection then DegreeU s else DegreeV s.
Definition knots_along (isUDirection : bool) (s : surface) : list A := if isUDirection then KnotVectorU s else KnotVectorV s.
Definition with_along (isUDirection : bool) (s : surface) (degree : Z) (knotVector : list A) (P : list (list (XYZW A))) : surface :=
  if isUDirection then mkSurface degree (DegreeV s) knotVector (KnotVectorV s) P
  else mkSurface (DegreeU s) degree (KnotVectorU s) knotVector P.

(* NurbsSurface.cpp:957-1022. The value returned by NurbsCurve::RemoveKnot is ignored: when it is false, newtc is the
   curve just constructed, without knots and control points. *)
Definition remove_or_empty (degree : Z) (knotVector : list A) (removeKnot : A) (times : Z) (row : list (XYZW A)) : res (option curve) :=
  let! o := RemoveKnot (mkCurve degree knotVector row) removeKnot times in
  Ok (Some (match o with Some newtc => newtc | None => mkCurve 1 [] [] end)).

Definition SurfaceRemoveKnot (s : surface) (removeKnot : A) (times : Z) (isUDirection : bool) : res surface :=
  let degree := degree_along isUDirection s in
  let knotVector := knots_along isUDirection s in
  validate_domain knotVector removeKnot ;;
  validate (0 <? times)%Z ;;
  let! r := lines_changed (SControlPoints s) isUDirection (remove_or_empty degree knotVector removeKnot times) in
  match r with
  | None => Ok s
  | Some (tempKnotVector, updatedControlPoints) => Ok (with_along isUDirection s degree tempKnotVector updatedControlPoints)
  end.

(* NurbsSurface.cpp:1024-1084 *)
Definition SurfaceElevateDegree (s : surface) (times : Z) (isUDirection : bool) : res surface :=
  let degree := degree_along isUDirection s in
  validate (0 <? times)%Z ;;
  let! r := lines_changed (SControlPoints s) isUDirection (fun row =>
    let! newtc := ElevateDegree (mkCurve degree (knots_along isUDirection s) row) times in Ok (Some newtc)) in
  match r with
  | None => Ok s
  | Some (tempKnotVector, updatedControlPoints) => Ok (with_along isUDirection s (degree + times)%Z tempKnotVector updatedControlPoints)
  end.

(* NurbsSurface.cpp:1086-1154; None is the return value false *)
Definition SurfaceReduceDegree (s : surface) (isUDirection : bool) : res (option surface) :=
  let degree := degree_along isUDirection s in
  let! r := lines_changed (SControlPoints s) isUDirection (fun row => ReduceDegree (mkCurve degree (knots_along isUDirection s) row)) in
  match r with
  | None => Ok None
  | Some (tempKnotVector, updatedControlPoints) => Ok (Some (with_along isUDirection s (degree - 1)%Z tempKnotVector updatedControlPoints))
  end.

(* NurbsSurface.cpp:1172-1184 and 1186-1196: 100 parameters per interval between distinct knots, without its end *)
Definition tessellated_params (knotVector : list A) : res (list A) :=
  let uniqueKv := std_unique knotVector in
  let size := len uniqueKv in
  let intervals := 100%Z in
  for_up 0 (size - 1)%Z [] (fun i tessellated =>
    let! current := get uniqueKv i in
    let! next := get uniqueKv (i + 1)%Z in
    let! step := ndiv (next - current) (nofZ intervals) in
    for_up 0 intervals tessellated (fun j tessellated =>
      Ok (tessellated ++ [current + step * nofZ j]))).

(* NurbsSurface.cpp:1156-1210; the two output vectors are returned, empty at the start *)
Definition SurfaceEquallyTessellate (s : surface) : res (list pt3 * list (A * A)) :=
  let! tessellatedU := tessellated_params (KnotVectorU s) in
  let! tessellatedV := tessellated_params (KnotVectorV s) in
  let! r := for_up 0 (len tessellatedU) ([], []) (fun i r =>
    for_up 0 (len tessellatedV) r (fun j '(tessellatedPoints, correspondingKnots) =>
      let! u := get tessellatedU i in
      let! v := get tessellatedV j in
      let! p := NurbsSurfacePoint s u v in
      Ok (tessellatedPoints ++ [p], correspondingKnots ++ [(u, v)]))) in
  let '(tessellatedPoints, correspondingKnots) := r in
  let! lastU := get (KnotVectorU s) (len (KnotVectorU s) - 1)%Z in
  let! lastV := get (KnotVectorV s) (len (KnotVectorV s) - 1)%Z in
  let controlPoints := SControlPoints s in
  let! row := get controlPoints (len controlPoints - 1)%Z in
  let! row0 := get controlPoints 0 in
  let! corner := get row (len row0 - 1)%Z in
  let! p := ToXYZ corner true in
  Ok (tessellatedPoints ++ [p], correspondingKnots ++ [(lastU, lastV)]).

(* NurbsSurface.cpp:1212-1264 *)
Definition SurfaceIsClosed (s : surface) (isUDirection : bool) : res bool :=
  let P := SControlPoints s in
  let numU := len P in
  if (numU =? 0)%Z then Ok false else
  let! row0 := get P 0 in
  let numV := len row0 in
  let lines := if isUDirection then numV else numU in
  let count := if isUDirection then numU else numV in
  let! r := for_upc 0 lines tt (fun a _ =>
    let! cps := for_up 0 count [] (fun i cps =>
      let! x := if isUDirection then get2 P i a else get2 P a i in
      Ok (cps ++ [x])) in
    let! closed := IsClosed (mkCurve (degree_along isUDirection s) (knots_along isUDirection s) cps) in
    if closed then Ok (Next tt) else Ok (Stop tt)) in
  Ok (match r with Stop _ => false | Next _ => true end).

(* NurbsSurface.cpp:1289-1316: the nearest point of the segments between consecutive sample points *)
Definition nearest_segment (tessellatedPoints : list pt3) (correspondingKnots : list (A * A)) (givenPoint : pt3) : res (A * A) :=
  let! r := for_up 0 (len tessellatedPoints - 1)%Z (dbl_max, (DoubleEpsilon, DoubleEpsilon)) (fun i '(minDistanceSquared, bestParam) =>
    let! P0 := get tessellatedPoints i in
    let! P1 := get tessellatedPoints (i + 1)%Z in
    let! UV0 := get correspondingKnots i in
    let! UV1 := get correspondingKnots (i + 1)%Z in
    let seg := xyz_sub P1 P0 in
    let segLenSq := DotProduct seg seg in
    let! t :=
      if IsGreaterThan segLenSq n0 then
        let! t := ndiv (DotProduct (xyz_sub givenPoint P0) seg) segLenSq in
        Ok (std_max n0 (std_min n1 t))
      else Ok (nlit 1 2) in
    let projectPoint := xyz_add P0 (xyz_scale t seg) in
    let projectParam := (fst UV0 + (fst UV1 - fst UV0) * t, snd UV0 + (snd UV1 - snd UV0) * t) in
    let distSq := SqrLength (xyz_sub givenPoint projectPoint) in
    if nltb distSq minDistanceSquared then Ok (distSq, projectParam) else Ok (minDistanceSquared, bestParam)) in
  Ok (snd r).

(* NurbsSurface.cpp:1318-1385: the Newton iteration; Stop carries the final parameters *)
Definition surface_newton (fuel : nat) (s : surface) (givenPoint : pt3) (minU maxU minV maxV : A) (isClosedU isClosedV : bool) (bestParam : A * A)
  : res (A * A) :=
  let! r := for_upc 0 20 bestParam (fun _ '(pu, pv) =>
    let! derivatives := ComputeRationalSurfaceDerivatives s 2 pu pv in
    let! Spt := get2 derivatives 0 0 in
    let! Su := get2 derivatives 1 0 in
    let! Sv := get2 derivatives 0 1 in
    let! Suu := get2 derivatives 2 0 in
    let! Svv := get2 derivatives 0 2 in
    let! Suv := get2 derivatives 1 1 in
    let diff := xyz_sub Spt givenPoint in
    let! currentDist := Length diff in
    if IsAlmostEqualTo currentDist n0 then Ok (Stop (pu, pv)) else
    let J00 := DotProduct Su Su + DotProduct diff Suu in
    let J01 := DotProduct Su Sv + DotProduct diff Suv in
    let J10 := J01 in
    let J11 := DotProduct Sv Sv + DotProduct diff Svv in
    let K0 := DotProduct Su diff in
    let K1 := DotProduct Sv diff in
    let determinant := J00 * J11 - J01 * J10 in
    if IsAlmostEqualTo (nabs determinant) n0 then Ok (Stop (pu, pv)) else
    let! deltaU := ndiv (J10 * K1 - J11 * K0) determinant in
    let! deltaV := ndiv (J01 * K0 - J00 * K1) determinant in
    let newU := pu + deltaU in
    let newV := pv + deltaV in
    let deltaWorld := xyz_add (xyz_scale deltaU Su) (xyz_scale deltaV Sv) in
    let! l := Length deltaWorld in
    if IsAlmostEqualTo l n0 then Ok (Stop (newU, newV)) else
    let! newU := wrap_param fuel isClosedU newU minU maxU in
    let! newV := wrap_param fuel isClosedV newV minV maxV in
    Ok (Next (newU, newV))) in
  Ok (match r with Stop p => p | Next p => p end).

(* NurbsSurface.cpp:1266-1388; fuel bounds the loops that bring a parameter back into a closed direction *)
Definition GetParamOnSurface (fuel : nat) (s : surface) (givenPoint : pt3) : res (A * A) :=
  let! minU := get (KnotVectorU s) 0 in
  let! maxU := get (KnotVectorU s) (len (KnotVectorU s) - 1)%Z in
  let! minV := get (KnotVectorV s) 0 in
  let! maxV := get (KnotVectorV s) (len (KnotVectorV s) - 1)%Z in
  let! isClosedU := SurfaceIsClosed s true in
  let! isClosedV := SurfaceIsClosed s false in
  let! r := SurfaceEquallyTessellate s in
  let! bestParam := nearest_segment (fst r) (snd r) givenPoint in
  surface_newton fuel s givenPoint minU maxU minV maxV isClosedU isClosedV bestParam.

(* NurbsSurface.cpp:2712-2740 *)
Definition CreateGeneralizedTranslationalSweepSurface (profile trajectory : curve) : res surface :=
  let n := (len (ControlPoints profile) - 1)%Z in
  let m := (len (ControlPoints trajectory) - 1)%Z in
  let! row := mkvec (m + 1)%Z xyzw0 in
  let! controlPoints := mkvec (n + 1)%Z row in
  let! controlPoints := for_up 0 (n + 1)%Z controlPoints (fun i controlPoints =>
    for_up 0 (m + 1)%Z controlPoints (fun j controlPoints =>
      let! t := get (ControlPoints trajectory) j in
      let! p := get (ControlPoints profile) i in
      let! t3 := ToXYZ t true in
      let! p3 := ToXYZ p true in
      let point := xyz_add t3 p3 in
      let weight := ww p * ww t in
      upd2 controlPoints i j (mkW point weight))) in
  Ok (mkSurface (Degree profile) (Degree trajectory) (KnotVector profile) (KnotVector trajectory) controlPoints).

(* NurbsSurface.cpp:3163-3195 and 3198-3230: two opposite boundary curves get the same degree and the same knots *)
Definition coons_match (a b : curve) : res (curve * curve) :=
  let degree_a := Degree a in
  let degree_b := Degree b in
  let! b := if (degree_b <? degree_a)%Z then ElevateDegree b (degree_a - degree_b)%Z else Ok b in
  let! a := if (degree_a <? degree_b)%Z then ElevateDegree a (degree_b - degree_a)%Z else Ok a in
  if vec_eqb (KnotVector a) (KnotVector b) then Ok (a, b) else
  let '(insertedKnotElementA, insertedKnotElementB) := GetInsertedKnotElement (KnotVector a) (KnotVector b) [] [] in
  let! a := if (0 <? len insertedKnotElementA)%Z then RefineKnotVector a insertedKnotElementA else Ok a in
  let! b := if (0 <? len insertedKnotElementB)%Z then RefineKnotVector b insertedKnotElementB else Ok b in
  Ok (a, b).

(* NurbsSurface.cpp:3263-3283 and 3289-3309: if the degree of the surface is smaller, it is raised *)
Definition coons_raise (s : surface) (degree : Z) (isUDirection : bool) : res surface :=
  let own := degree_along isUDirection s in
  if (own <? degree)%Z then SurfaceElevateDegree s (degree - own)%Z isUDirection else Ok s.

(* NurbsSurface.cpp:3319-3336 and 3346-3363 *)
Definition coons_refine (s : surface) (insertElements : list A) (isUDirection : bool) : res surface :=
  if (0 <? len insertElements)%Z then SurfaceRefineKnotVector s insertElements isUDirection else Ok s.

(* NurbsSurface.cpp:3125-3394 *)
Definition CreateCoonsSurface (leftCurve bottomCurve rightCurve topCurve : curve) : res surface :=
  let! rightCurve := Reverse rightCurve in
  let! topCurve := Reverse topCurve in
  let! nurbs0 := Reparametrize leftCurve n0 n1 in
  let! nurbs1 := Reparametrize bottomCurve n0 n1 in
  let! nurbs2 := Reparametrize rightCurve n0 n1 in
  let! nurbs3 := Reparametrize topCurve n0 n1 in
  let! p00 := NurbsPoint nurbs0 n0 in let! q00 := NurbsPoint nurbs3 n0 in
  let! p01 := NurbsPoint nurbs2 n0 in let! q01 := NurbsPoint nurbs3 n1 in
  let! p10 := NurbsPoint nurbs0 n1 in let! q10 := NurbsPoint nurbs1 n0 in
  let! p11 := NurbsPoint nurbs2 n1 in let! q11 := NurbsPoint nurbs1 n1 in
  validate (xyz_IsAlmostEqualTo p00 q00 && xyz_IsAlmostEqualTo p01 q01 && xyz_IsAlmostEqualTo p10 q10 && xyz_IsAlmostEqualTo p11 q11) ;;
  let! n02 := coons_match nurbs0 nurbs2 in
  let '(c0, c2) := n02 in
  let! n13 := coons_match nurbs1 nurbs3 in
  let '(c1, c3) := n13 in
  let! ruledSurface0 := CreateRuledSurface c0 c2 in
  let! ts := CreateRuledSurface c1 c3 in
  let! ruledSurface1 := Swap ts in
  let! a0 := get (KnotVector c0) 0 in
  let! point00 := NurbsPoint c0 a0 in
  let! a2 := get (KnotVector c2) 0 in
  let! point01 := NurbsPoint c2 a2 in
  let! b0 := get (KnotVector c0) (len (KnotVector c0) - 1)%Z in
  let! point10 := NurbsPoint c0 b0 in
  let! b2 := get (KnotVector c2) (len (KnotVector c2) - 1)%Z in
  let! point11 := NurbsPoint c2 b2 in
  let! bilinearSurface := CreateBilinearSurface point00 point01 point10 point11 in
  let degreeU := Z.max (DegreeU ruledSurface0) (Z.max (DegreeU ruledSurface1) (DegreeU bilinearSurface)) in
  let! ruledSurface0 := coons_raise ruledSurface0 degreeU true in
  let! ruledSurface1 := coons_raise ruledSurface1 degreeU true in
  let! bilinearSurface := coons_raise bilinearSurface degreeU true in
  let degreeV := Z.max (DegreeV ruledSurface0) (Z.max (DegreeV ruledSurface1) (DegreeV bilinearSurface)) in
  let! ruledSurface0 := coons_raise ruledSurface0 degreeV false in
  let! ruledSurface1 := coons_raise ruledSurface1 degreeV false in
  let! bilinearSurface := coons_raise bilinearSurface degreeV false in
  let insertElements := GetInsertedKnotElements [KnotVectorU ruledSurface0; KnotVectorU ruledSurface1; KnotVectorU bilinearSurface] in
  let! e0 := get insertElements 0 in
  let! e1 := get insertElements 1 in
  let! e2 := get insertElements 2 in
  let! ruledSurface0 := coons_refine ruledSurface0 e0 true in
  let! ruledSurface1 := coons_refine ruledSurface1 e1 true in
  let! bilinearSurface := coons_refine bilinearSurface e2 true in
  let insertElements := GetInsertedKnotElements [KnotVectorV ruledSurface0; KnotVectorV ruledSurface1; KnotVectorV bilinearSurface] in
  let! e0 := get insertElements 0 in
  let! e1 := get insertElements 1 in
  let! e2 := get insertElements 2 in
  let! ruledSurface0 := coons_refine ruledSurface0 e0 false in
  let! ruledSurface1 := coons_refine ruledSurface1 e1 false in
  let! bilinearSurface := coons_refine bilinearSurface e2 false in
  let row := len (SControlPoints ruledSurface0) in
  let! row0 := get (SControlPoints ruledSurface0) 0 in
  let column := len row0 in
  let! line := mkvec column xyzw0 in
  let! controlPoints := mkvec row line in
  let! controlPoints := for_up 0 row controlPoints (fun i controlPoints =>
    for_up 0 column controlPoints (fun j controlPoints =>
      let! x := get2 (SControlPoints ruledSurface0) i j in
      let! y := get2 (SControlPoints ruledSurface1) i j in
      let! z := get2 (SControlPoints bilinearSurface) i j in
      upd2 controlPoints i j (xyzw_sub (xyzw_add x y) z))) in
  Ok (mkSurface (DegreeU ruledSurface0) (DegreeV ruledSurface0) (KnotVectorU ruledSurface0) (KnotVectorV ruledSurface0) controlPoints).

(* The solver of M_Fit.v *)
Variable solver : list (list A) -> list (list A) -> res (list (list A)).

(* NurbsSurface.cpp:2623-2640: the sections with the largest degree *)
Definition loft_raise (degree_max : Z) (current : curve) : res curve :=
  if (Degree current <? degree_max)%Z then
    let! tc := ElevateDegree current (degree_max - Degree current)%Z in
    Ok (mkCurve degree_max (KnotVector tc) (ControlPoints tc))
  else Ok current.

(* NurbsSurface.cpp:2646-2676: the averaged chord lengths *)
Definition loft_params (curvesControlPoints : list (list (XYZW A))) (size : Z) : res (list A) :=
  let K := (size - 1)%Z in
  let! vl := mkvec size n0 in
  let! vl := upd vl 0 n0 in
  let! vl := upd vl K n1 in
  for_up 1 K vl (fun k vl =>
    let! current := get curvesControlPoints k in
    let n := (len current - 1)%Z in
    let! sum := for_up 0 (n + 1)%Z n0 (fun i sum =>
      let! a := get2 curvesControlPoints k i in
      let! b := get2 curvesControlPoints (k - 1)%Z i in
      let! a := ToXYZ a true in
      let! b := ToXYZ b true in
      let! delta := Distance a b in
      let! tempPoints := for_up 0 (K + 1)%Z [] (fun j tempPoints =>
        let! x := get2 curvesControlPoints j i in
        let! x := ToXYZ x true in
        Ok (tempPoints ++ [x])) in
      let! di := GetTotalChordLength tempPoints in
      let! q := ndiv delta di in
      Ok (sum + q)) in
    let! v := get vl (k - 1)%Z in
    let! q := ndiv n1 (nofZ (n + 1)%Z) in
    upd vl k (v + q * sum)).

(* NurbsSurface.cpp:2690-2703: the points cp / w, and the interpolated points with the weights put back *)
Definition divided (cp : XYZW A) : res pt3 :=
  let w := ww cp in
  let! x := ndiv (wx cp) w in
  let! y := ndiv (wy cp) w in
  let! z := ndiv (wz cp) w in
  Ok (mkXYZ x y z).

(* NurbsSurface.cpp:2611-2710; an empty customTrajectoryKnotVector is the default argument *)
Definition CreateLoftSurface (sections : list curve) (customTrajectoryDegree : Z) (customTrajectoryKnotVector : list A) : res surface :=
  let degree_max := fold_left (fun d (c : curve) => if (d <? Degree c)%Z then Degree c else d) sections 0%Z in
  let size := len sections in
  let! internals := for_up 0 size [] (fun k internals =>
    let! current := get sections k in
    let! current := loft_raise degree_max current in
    Ok (internals ++ [current])) in
  let curvesControlPoints := map (@ControlPoints A (XYZW A)) internals in
  let degreeU := degree_max in
  let! dv :=
    if (len customTrajectoryKnotVector =? 0)%Z then let! vl := loft_params curvesControlPoints size in Ok (degree_max, vl)
    else Ok (customTrajectoryDegree, customTrajectoryKnotVector) in
  let '(degreeV, vl) := dv in
  let! knotVectorV := AverageKnotVector degreeV vl in
  let! first := get curvesControlPoints 0 in
  let column := len first in
  let! controlPoints := for_up 0 column [] (fun c controlPoints =>
    let! tw := for_up 0 size ([], []) (fun k '(temp, weightCache) =>
      let! cp := get2 curvesControlPoints k c in
      let! p := divided cp in
      Ok (temp ++ [p], weightCache ++ [ww cp])) in
    let '(temp, weightCache) := tw in
    let! tc := GlobalInterpolation solver degreeV temp vl in
    let! cps := for_up 0 (len (ControlPoints tc)) (ControlPoints tc) (fun i cps =>
      let! cp := get cps i in
      let! p := divided cp in
      let! w := get weightCache i in
      upd cps i (mkW p w)) in
    Ok (controlPoints ++ [cps])) in
  let! internal0 := get internals 0 in
  Ok (mkSurface degreeU degreeV (KnotVector internal0) knotVectorV controlPoints).

(* NurbsSurface.cpp:2528-2539: the parameters at which the profile is placed *)
Definition swung_params (tDegree size : Z) (tKnotVector : list A) : res (list A) :=
  let! vl := mkvec size n0 in
  let! x := get tKnotVector tDegree in
  let! vl := upd vl 0 x in
  let! x := get tKnotVector (len tKnotVector - tDegree - 1)%Z in
  let! vl := upd vl (size - 1)%Z x in
  for_up 1 (size - 1)%Z vl (fun k vl =>
    let! vl := upd vl k n0 in
    let! vl := for_up (k + 1)%Z (k + tDegree + 1)%Z vl (fun i vl =>
      let! x := get vl k in
      let! y := get tKnotVector i in
      upd vl k (x + y)) in
    let! x := get vl k in
    let! q := ndiv x (nofZ tDegree) in
    upd vl k q).

(* NurbsSurface.cpp:2541-2564: the vectors across the trajectory *)
Definition swung_frame (trajectory : curve) (vl : list A) : res (list pt3) :=
  let! tempB := mkvec (len vl) xyz0 in
  let! v0 := get vl 0 in
  let! td := ComputeRationalCurveDerivatives trajectory 1 v0 in
  let! td1 := get td 1 in
  let b := if IsAlmostEqualTo (gy td1) n0 then CrossProduct (mkXYZ n0 n1 n0) td1 else CrossProduct (mkXYZ n1 n0 n0) td1 in
  let! b := Normalize b in
  let! tempB := upd tempB 0 b in
  for_up 1 (len vl) tempB (fun i tempB =>
    let! v := get vl i in
    let! td := ComputeRationalCurveDerivatives trajectory 1 v in
    let! td1 := get td 1 in
    let! ti := Normalize td1 in
    let! prev := get tempB (i - 1)%Z in
    let bi := xyz_sub prev (xyz_scale (DotProduct prev ti) ti) in
    let! bi := Normalize bi in
    upd tempB i bi).

(* NurbsSurface.cpp:2511-2609 *)
Definition CreateSwungSurface (profile trajectory : curve) (scale : A) : res surface :=
  let tKnotVector := KnotVector trajectory in
  let size := len (ControlPoints trajectory) in
  let degreeU := Degree profile in
  let degreeV := Degree trajectory in
  let! line := mkvec size xyzw0 in
  let! controlPoints := mkvec (len (ControlPoints profile)) line in
  let! vl := swung_params degreeV size tKnotVector in
  let! tempB := swung_frame trajectory vl in
  let! Bv := GlobalInterpolation solver (Z.min 3 (len tempB - 1)) tempB vl in
  let! controlPoints := for_up 0 size controlPoints (fun k controlPoints =>
    let tempCp := map (xyzw_scale scale) (ControlPoints profile) in
    let! v := get vl k in
    let! td := ComputeRationalCurveDerivatives trajectory 1 v in
    let! td1 := get td 1 in
    let! x := Normalize td1 in
    let! b := NurbsPoint Bv v in
    let! z := Normalize b in
    let y := CrossProduct z x in
    let R := m4_basis y x z (mkXYZ n0 n0 n1) in
    let! o := NurbsPoint trajectory v in
    let tx := CreateTranslation o in
    let M := m4_mul tx R in
    for_up 0 (len tempCp) controlPoints (fun i controlPoints =>
      let! cp := get tempCp i in
      let! q := OfWeightedPoint M cp in
      upd2 controlPoints i k q)) in
  let! controlPoints := for_up 0 (len controlPoints) controlPoints (fun i controlPoints =>
    let! row0 := get controlPoints 0 in
    let! throughPoints := for_up 0 (len row0) [] (fun k throughPoints =>
      let! x := get2 controlPoints i k in
      let! x := ToXYZ x true in
      Ok (throughPoints ++ [x])) in
    let! R := GlobalInterpolation solver degreeV throughPoints vl in
    for_up 0 (len row0) controlPoints (fun k controlPoints =>
      let! x := get (ControlPoints R) k in
      upd2 controlPoints i k x)) in
  Ok (mkSurface degreeU degreeV (KnotVector profile) tKnotVector controlPoints).

End Surface2.
