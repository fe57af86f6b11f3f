(* Model of src/LNLib/Geometry/Curve/NurbsCurve.cpp, sixth part: approximation by least squares with weights and constraints. *)
From Coq Require Import ZArith List Bool.
From Verif Require Import Base Num Vec M_MathUtils M_Polynomials M_XYZ M_Bspline M_NurbsCurve M_Geom M_Interp M_Fit.
Import ListNotations.
Open Scope Z_scope.

Section Fit2.
Context {A : Type} {NA : Num A} {FA : Floor A}.
Notation pt3 := (XYZ A).
(* Eigen's solver, see M_Fit.v *)
Variable solver : list (list A) -> list (list A) -> res (list (list A)).

(* NurbsCurve.cpp:2451-2454: std::sort by the index each tangent is applied to. Insertion sort; std::sort may order tangents
   with the same index differently. *)
Fixpoint insert_order (key : Z -> Z) (a : Z) (l : list Z) : list Z :=
  match l with
  | [] => [a]
  | b :: r => if key a <? key b then a :: l else b :: insert_order key a r
  end.
(* NurbsCurve.cpp:2451-2454 *)
Fixpoint sort_order (key : Z -> Z) (l : list Z) : list Z :=
  match l with
  | [] => []
  | a :: r => insert_order key a (sort_order key r)
  end.

(* NurbsCurve.cpp:2456-2465: the numbers of weights above and below zero *)
Fixpoint count_weights (ws : list A) : Z * Z :=
  match ws with
  | [] => (0, 0)
  | w :: r => let (u, c) := count_weights r in
      if IsGreaterThan w n0 then (u + 1, c) else if IsLessThan w n0 then (u, c + 1) else (u, c)
  end.

(* NurbsCurve.cpp:2503-2508, 2515-2520, 2533-2538, 2544-2549: numbers go into one row, as far as the columns exist *)
Definition fill_row (mat : list (list A)) (row start degree count : Z) (vals : Z -> res A) : res (list (list A)) :=
  for_up 0 (degree + 1) mat (fun k mat =>
    let col := start + k in
    if (0 <=? col) && (col <? count) then
      let! x := vals k in
      upd2 mat row col x
    else Ok mat).

(* what the loop over the points carries: N, M, S, T, W_vec, mu_idx, mc_idx, tan_order_idx *)
Record FitState : Type := mkFit { fN : list (list A); fM : list (list A); fS : list pt3; fT : list pt3; fW : list A; fmu : Z; fmc : Z; ftan : Z }.

(* NurbsCurve.cpp:2500-2524 for a point, 2532-2553 for a tangent: a row with its weight and right hand side;
   values computes the numbers of the row, for a point only when they are needed *)
Definition fit_entry (st : FitState) (w : A) (v : pt3) (start degree count : Z) (values : res (Z -> res A)) : res FitState :=
  if IsGreaterThan w n0 then
    let! vals := values in
    let! N := fill_row (fN st) (fmu st) start degree count vals in
    let! W := upd (fW st) (fmu st) w in
    let! SS := upd (fS st) (fmu st) (xyz_scale w v) in
    Ok (mkFit N (fM st) SS (fT st) W (fmu st + 1) (fmc st) (ftan st))
  else if IsLessThan w n0 then
    let! vals := values in
    let! M := fill_row (fM st) (fmc st) start degree count vals in
    let! T := upd (fT st) (fmc st) v in
    Ok (mkFit (fN st) M (fS st) T (fW st) (fmu st) (fmc st + 1) (ftan st))
  else Ok st.

(* NurbsCurve.cpp:2493-2556: one point *)
Definition fit_point (degree count : Z) (U uk : list A) (throughPoints : list pt3) (weights : list A)
  (tangents : list pt3) (tangentIndices order : list Z) (tangentWeights : list A) (i : Z) (st : FitState) : res FitState :=
  let! hasTangent :=
    if ftan st <? len order then
      let! o := get order (ftan st) in
      let! idx := get tangentIndices o in
      Ok (idx =? i)
    else Ok false in
  let! u := get uk i in
  let! span := GetKnotSpanIndex degree U u in
  let start := span - degree in
  let! wp := get weights i in
  let! q := get throughPoints i in
  let! st := fit_entry st wp q start degree count (let! basis := BasisFunctions span degree U u in Ok (fun k => getu basis k)) in
  if hasTangent then
    let! o := get order (ftan st) in
    let! v := get tangents o in
    let! wt := get tangentWeights o in
    let! derivatives := BasisFunctionsDerivatives span degree 1 U u in
    let! st := fit_entry st wt v start degree count (Ok (fun k => get2 derivatives 1 k)) in
    Ok (mkFit (fN st) (fM st) (fS st) (fT st) (fW st) (fmu st) (fmc st) (ftan st + 1))
  else Ok st.

(* NurbsCurve.cpp:2590, 2632: the first rows of the solution as control points *)
Definition solution_points (solution : list (list A)) (count : Z) : res (list (XYZW A)) :=
  let! controlPoints := mkvec count xyzw0 in
  for_up 0 count controlPoints (fun i v =>
    let! row := get solution i in
    let! q := row_point row in
    upd v i q).

(* NurbsCurve.cpp:2586-2588, 2628-2630 *)
Definition good_solution (solution : list (list A)) (rows : Z) : res bool :=
  if len solution =? rows then (if 0 <? rows then let! r := get solution 0 in Ok (len r =? 3) else Ok true) else Ok false.

(* NurbsCurve.cpp:2602-2624: the matrix with the constraints below and beside, and its right hand side *)
Definition constrained_system (count mc : Z) (tNWN tNWS M : list (list A)) (T : list pt3) : res (list (list A) * list (list A)) :=
  let totalSize := count + mc in
  let! line := mkvec totalSize n0 in
  let! A0 := mkvec totalSize line in
  let! line3 := mkvec 3 n0 in
  let! B0 := mkvec totalSize line3 in
  let! A1 := for_up 0 count A0 (fun i m => for_up 0 count m (fun j m => let! x := get2 tNWN i j in upd2 m i j x)) in
  let! A1 := for_up 0 count A1 (fun i m => for_up 0 mc m (fun j m => let! x := get2 M j i in upd2 m i (count + j) x)) in
  let! A1 := for_up 0 mc A1 (fun i m => for_up 0 count m (fun j m => let! x := get2 M i j in upd2 m (count + i) j x)) in
  let! B1 := for_up 0 count B0 (fun i m => for_up 0 3 m (fun j m => let! x := get2 tNWS i j in upd2 m i j x)) in
  let! B1 := for_up 0 mc B1 (fun i m => let! t := get T i in upd m (count + i) (point_row t)) in
  Ok (A1, B1).

(* NurbsCurve.cpp:2428-2636 (WeightedAndContrainedLeastSquaresApproximation); None is the return value false. 2558 cannot be
   reached with other counts unless two tangents have the same index. *)
Definition WeightedLeastSquares (degree : Z) (throughPoints : list pt3) (weights : list A)
  (tangents : list pt3) (tangentIndices : list Z) (tangentWeights : list A) (count : Z) : res (option (Curve A (XYZW A))) :=
  validate (0 <? degree) ;;
  let size := len throughPoints in
  validate (degree <? size) ;;
  validate (len weights =? size) ;;
  let numTangents := len tangents in
  validate (len tangentIndices =? numTangents) ;;
  validate (len tangentWeights =? numTangents) ;;
  validate (forallb (fun idx => (0 <=? idx) && (idx <? size)) tangentIndices) ;;
  let order := sort_order (fun a => List.nth (Z.to_nat a) tangentIndices 0) (map Z.of_nat (seq 0 (length tangents))) in
  let (ru, rc) := count_weights weights in
  let (su, sc) := count_weights tangentWeights in
  let mu := ru + su in
  let mc := rc + sc in
  let n := count - 1 in
  if (mu =? 0) || (n <? mc) || (count <=? 0) then Ok None else
  let! uk := GetChordParameterization throughPoints in
  let! U := ComputeKnotVector degree count uk in
  let! line := mkvec count n0 in
  let! N := mkvec mu line in
  let! M := mkvec mc line in
  let! SS := mkvec mu xyz0 in
  let! T := mkvec mc xyz0 in
  let! Wv := mkvec mu n0 in
  let! st := for_up 0 size (mkFit N M SS T Wv 0 0 0) (fit_point degree count U uk throughPoints weights tangents tangentIndices order tangentWeights) in
  if negb ((fmu st =? mu) && (fmc st =? mc)) then Ok None else
  let! wline := mkvec mu n0 in
  let! W := mkvec mu wline in
  let! W := for_up 0 mu W (fun i W => let! w := get (fW st) i in upd2 W i i w) in
  let! tN := Transpose (fN st) in
  let! tNW := MatrixMultiply tN W in
  let! tNWN := MatrixMultiply tNW (fN st) in
  let! tNWS := MatrixMultiply tNW (map point_row (fS st)) in
  let! r :=
    if mc =? 0 then
      let! result := SolveLinearSystem solver tNWN tNWS in
      let! ok := good_solution result count in
      if ok then let! cps := solution_points result count in Ok (Some cps) else Ok None
    else
      let! AB := constrained_system count mc tNWN tNWS (fM st) (fT st) in
      let! solution := SolveLinearSystem solver (fst AB) (snd AB) in
      let! ok := good_solution solution (count + mc) in
      if ok then let! cps := solution_points solution count in Ok (Some cps) else Ok None in
  match r with
  | None => Ok None
  | Some cps => Ok (Some (mkCurve degree U cps))
  end.

End Fit2.
