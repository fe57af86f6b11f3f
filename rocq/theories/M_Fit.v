(* Model of the interpolation functions of src/LNLib/Geometry/Curve/NurbsCurve.cpp and
   src/LNLib/Geometry/Surface/NurbsSurface.cpp. The linear solver is a parameter: MathUtils::SolveLinearSystem
   (MathUtils.cpp:258-289) hands the matrix and the right hand sides to Eigen's colPivHouseholderQr().solve and
   copies the result; Eigen is not modelled. *)
From Coq Require Import ZArith List Bool.
From Verif Require Import Base Num Vec M_MathUtils M_Polynomials M_XYZ M_Bspline M_NurbsCurve M_Geom M_Interp.
Import ListNotations.
Open Scope Z_scope.

Section Fit.
Context {A : Type} {NA : Num A}.
Notation pt3 := (XYZ A).
(* Eigen's solver: matrix, right hand sides; one row of the result per column of the matrix *)
Variable solver : list (list A) -> list (list A) -> res (list (list A)).

(* MathUtils.cpp:258-289 *)
Definition SolveLinearSystem (matrix right : list (list A)) : res (list (list A)) :=
  match matrix, right with
  | [], _ | _, [] => Ok []
  | row :: _, rrow :: _ =>
      match row, rrow with
      | [], _ | _, [] => Ok []
      | _, _ => solver matrix right
      end
  end.

(* NurbsCurve.cpp:2082-2088: a vector of three doubles per point *)
Definition point_row (p : pt3) : list A := [gx p; gy p; gz p].
(* NurbsCurve.cpp:2095-2101: temp[j] = result[i][j], then XYZW(temp, 1.0) *)
Definition row_point (row : list A) : res (XYZW A) :=
  let! x := get row 0 in
  let! y := get row 1 in
  let! z := get row 2 in
  Ok (mkW (mkXYZ x y z) n1).

(* NurbsCurve.cpp:2072-2075: the basis functions go into the row from column spanIndex - degree *)
Definition basis_row (row : list A) (degree spanIndex : Z) (basis : list (option A)) : res (list A) :=
  for_up 0 (degree + 1) row (fun j row =>
    let! b := getu basis j in
    upd row (spanIndex - degree + j) b).

(* NurbsCurve.cpp:2047-2105 *)
Definition GlobalInterpolation (degree : Z) (throughPoints : list pt3) (params : list A) : res (Curve A (XYZW A)) :=
  validate ((0 <=? degree) && (degree <=? NURBSMaxDegree)) ;;
  validate (degree <? len throughPoints) ;;
  let size := len throughPoints in
  let n := size - 1 in
  let! uk :=
    if len params =? 0 then GetChordParameterization throughPoints
    else validate (len params =? size) ;; Ok params in
  let! knotVector := AverageKnotVector degree uk in
  let! row := mkvec size n0 in
  let! mat := mkvec size row in
  let! mat := for_up 1 n mat (fun i mat =>
    let! u := get uk i in
    let! spanIndex := GetKnotSpanIndex degree knotVector u in
    let! basis := BasisFunctions spanIndex degree knotVector u in
    let! row := get mat i in
    let! row := basis_row row degree spanIndex basis in
    upd mat i row) in
  let! mat := upd2 mat 0 0 n1 in
  let! mat := upd2 mat n n n1 in
  let right := map point_row throughPoints in
  let! controlPoints := mkvec size xyzw0 in
  let! result := SolveLinearSystem mat right in
  let! controlPoints := for_up 0 (len result) controlPoints (fun i v =>
    let! row := get result i in
    let! q := row_point row in
    upd v i q) in
  Ok (mkCurve degree knotVector controlPoints).

(* NurbsCurve.cpp:2122-2131, 2133-2148: degree knots, then the inner knots *)
Definition tangent_knots (degree size n : Z) (uk : list A) : res (list A) :=
  let! knotVector := mkvec (n + degree + 1) n0 in
  let! knotVector := for_up 0 (degree + 1) knotVector (fun i v =>
    let! v := upd v i n0 in
    upd v (len v - 1 - i) n1) in
  if degree =? 2 then
    for_up 0 (size - 1) knotVector (fun i v =>
      let! x := get uk i in
      let! v := upd v (degree + 2 * i) x in
      let! y := get uk (i + 1) in
      upd v (degree + 2 * i + 1) y)
  else
    let! x := get uk 1 in
    let! v := upd knotVector 4 x in
    let! v := upd v 5 x in
    let! v := for_up 1 (size - 2) v (fun i v =>
      let! y := get uk (i + 1) in
      let! v := upd v (degree + 2 * i) y in
      upd v (degree + 2 * i + 1) y) in
    let! z := get uk (size - 2) in
    let! v := upd v (len v - 6) z in
    upd v (len v - 5) z.

(* NurbsCurve.cpp:2151-2161: the parameters with midpoints, filled up with the last one *)
Definition extended_params (size n : Z) (uk : list A) : res (list A) :=
  let! l := for_up 0 size [] (fun i l =>
    let! x := get uk i in
    let l := l ++ [x] in
    if i <? size - 1 then
      let! y := get uk (i + 1) in
      let! q := ndiv (nadd x y) (nofZ 2) in
      Ok (l ++ [q])
    else Ok l) in
  let! b := get uk (len uk - 1) in
  Ok (l ++ repeat b (Z.to_nat (n - len l))).

(* NurbsCurve.cpp:2107-2214. The last exception, for a result of the wrong size, is Throw. *)
Definition GlobalInterpolationTangents (degree : Z) (throughPoints tangents : list pt3) (tangentFactor : A)
  : res (Curve A (XYZW A)) :=
  validate (0 <? degree) ;;
  validate (len throughPoints =? len tangents) ;;
  validate (degree <? len throughPoints) ;;
  validate (IsGreaterThan tangentFactor n0) ;;
  let size := len throughPoints in
  let n := 2 * size in
  let! uk := GetChordParameterization throughPoints in
  let! knotVector :=
    if (degree =? 2) || (degree =? 3) then tangent_knots degree size n uk
    else let! e := extended_params size n uk in AverageKnotVector degree e in
  let! row := mkvec n n0 in
  let! mat := mkvec n row in
  let! rrow := mkvec 3 n0 in
  let! rhs := mkvec n rrow in
  let! s := for_up 0 size (mat, rhs) (fun i '(mat, rhs) =>
    let! u := get uk i in
    let! span := GetKnotSpanIndex degree knotVector u in
    let! basis := BasisFunctions span degree knotVector u in
    let! derBasis := BasisFunctionsDerivatives span degree 1 knotVector u in
    let offset := span - degree in
    let! mat := for_up 0 (degree + 1) mat (fun j mat =>
      let col := offset + j in
      if (0 <=? col) && (col <? n) then
        let! b := getu basis j in
        let! mat := upd2 mat (2 * i) col b in
        let! d := get2 derBasis 1 j in
        upd2 mat (2 * i + 1) col d
      else Ok mat) in
    let! q := get throughPoints i in
    let! t := get tangents i in
    let! rhs := upd rhs (2 * i) (point_row q) in
    let! rhs := upd rhs (2 * i + 1) (point_row (xyz_scale tangentFactor t)) in
    Ok (mat, rhs)) in
  let '(mat, rhs) := s in
  let! result := SolveLinearSystem mat rhs in
  (if negb (len result =? n) then Throw
   else let! r0 := get result 0 in if (0 <? n) && negb (len r0 =? 3) then Throw else Ok tt) ;;
  let! controlPoints := mkvec n xyzw0 in
  let! controlPoints := for_up 0 n controlPoints (fun i v =>
    let! row := get result i in
    let! q := row_point row in
    upd v i q) in
  Ok (mkCurve degree knotVector controlPoints).

(* NurbsSurface.cpp:2147-2239. When GetSurfaceMeshParameterization returns false, uk and vl keep the sizes
   and values they had at that point; this is modelled as Throw, for AverageKnotVector then works on
   incomplete data. *)
Definition SurfaceGlobalInterpolation (throughPoints : list (list pt3)) (degreeU degreeV : Z) : res (Surface A (XYZW A)) :=
  validate (0 <? len throughPoints) ;;
  let! row0 := get throughPoints 0 in
  validate (0 <? len row0) ;;
  validate ((0 <=? degreeU) && (degreeU <=? NURBSMaxDegree)) ;;
  validate ((0 <=? degreeV) && (degreeV <=? NURBSMaxDegree)) ;;
  let rows := len throughPoints in
  let cols := len row0 in
  validate (degreeU <? cols) ;;
  validate (degreeV <? rows) ;;
  let! par := GetSurfaceMeshParameterization throughPoints in
  match par with
  | None => Throw
  | Some (uk, vl) =>
    let! knotVectorU := AverageKnotVector degreeU uk in
    let! knotVectorV := AverageKnotVector degreeV vl in
    let total := rows * cols in
    let! row := mkvec total n0 in
    let! mat := mkvec total row in
    let! mat := for_up 0 rows mat (fun i mat => for_up 0 cols mat (fun j mat =>
      let eqIdx := i * cols + j in
      if ((i =? 0) || (i =? rows - 1)) && ((j =? 0) || (j =? cols - 1)) then upd2 mat eqIdx eqIdx n1
      else
        let! u := get uk j in
        let! v := get vl i in
        let! spanU := GetKnotSpanIndex degreeU knotVectorU u in
        let! spanV := GetKnotSpanIndex degreeV knotVectorV v in
        let! basisU := BasisFunctions spanU degreeU knotVectorU u in
        let! basisV := BasisFunctions spanV degreeV knotVectorV v in
        for_up 0 (degreeV + 1) mat (fun l mat =>
          let ctrlRow := spanV - degreeV + l in
          if (ctrlRow <? 0) || (rows <=? ctrlRow) then Ok mat else
          for_up 0 (degreeU + 1) mat (fun k mat =>
            let ctrlCol := spanU - degreeU + k in
            if (ctrlCol <? 0) || (cols <=? ctrlCol) then Ok mat else
            let! a := getu basisV l in
            let! b := getu basisU k in
            upd2 mat eqIdx (ctrlRow * cols + ctrlCol) (nmul a b))))) in
    let! rhs := for_up 0 rows [] (fun i rhs => for_up 0 cols rhs (fun j rhs =>
      let! q := get2 throughPoints i j in Ok (rhs ++ [point_row q]))) in
    let! result := SolveLinearSystem mat rhs in
    let! crow := mkvec cols xyzw0 in
    let! controlPoints := mkvec rows crow in
    let! controlPoints := for_up 0 rows controlPoints (fun i cp => for_up 0 cols cp (fun j cp =>
      let! row := get result (i * cols + j) in
      let! q := row_point row in
      upd2 cp i j q)) in
    Ok (mkSurface degreeU degreeV knotVectorU knotVectorV controlPoints)
  end.
End Fit.
