(* Model of src/LNLib/Geometry/Curve/NurbsCurve.cpp, seventh part: approximation by least squares between fixed ends,
   and of MathUtils::SolveLinearSystemBanded. *)
From Coq Require Import ZArith List Bool.
From Verif Require Import Base Num Vec M_MathUtils M_Polynomials M_XYZ M_Bspline M_NurbsCurve M_Geom M_Interp M_Fit.
Import ListNotations.
Open Scope Z_scope.

Section Fit3.
Context {A : Type} {NA : Num A} {FA : Floor A}.
Notation pt3 := (XYZ A).
Local Notation "x +. y" := (nadd x y) (at level 50, left associativity).
Local Notation "x -. y" := (nsub x y) (at level 50, left associativity).
Local Notation "x *. y" := (nmul x y) (at level 40, left associativity).
(* Eigen's sparse LU decomposition and its solutions for all columns of the right hand side; None stands for a status other than Success *)
Variable lu : list (list A) -> list (list A) -> res (option (list (list A))).

(* MathUtils.cpp:295-315: the sparse matrix with the given band. Simplified: zeros are stored too. *)
Definition band_matrix (dim : Z) (matrix : list (list A)) (bandwidth : Z) : res (list (list A)) :=
  let sbw := bandwidth / 2 in
  let! line := mkvec dim n0 in
  let! A0 := mkvec dim line in
  for_up 0 dim A0 (fun i M =>
    for_up 0 bandwidth M (fun k M =>
      let j := (i - sbw + k)%Z in
      if (0 <=? j) && (j <? dim) then
        let! v := get2 matrix i k in
        upd2 M i j v
      else Ok M)).
(* MathUtils.cpp:290-342; None is the return value false *)
Definition SolveLinearSystemBanded (dim : Z) (matrix : list (list A)) (bandwidth : Z) (right : list (list A)) : res (option (list (list A))) :=
  let! M := band_matrix dim matrix bandwidth in
  lu M right.

(* NurbsCurve.cpp:2292-2304. (int) of a number that is not negative is its floor. *)
Definition ls_knots (degree n m : Z) (uk : list A) : res (list A) :=
  let! knotVector := mkvec (n + degree + 2) n1 in
  let! d := ndiv (nofZ (m + 1)) (nofZ (n - degree + 1)) in
  let! knotVector := for_up 0 (degree + 1) knotVector (fun j v => upd v j n0) in
  for_up 1 (n - degree + 1) knotVector (fun j v =>
    let i := nfloor (nofZ j *. d) in
    let a := nofZ j *. d -. nofZ i in
    let! x := get uk (i - 1) in
    let! y := get uk i in
    upd v (degree + j) ((n1 -. a) *. x +. a *. y)).

(* what the loop over the points carries: start, end, index, B, rj, sj, ej *)
Record LsState : Type := mkLs { ls_start : list Z; ls_end : list Z; ls_index : list Z; ls_B : list (list A); ls_rj : Z; ls_sj : Z; ls_ej : Z }.

(* NurbsCurve.cpp:2352-2359: one more function starts and one ends *)
Definition ls_shift (n i : Z) (k : Z) (s : list Z * list Z * Z * Z) : res (list Z * list Z * Z * Z) :=
  let '(start, ending, sj, ej) := s in
  let sj := (sj + 1)%Z in
  let ej := (ej + 1)%Z in
  let! start := if sj <=? n - 2 then upd start sj (i - 1) else Ok start in
  let! ending := if 0 <=? ej then upd ending ej (i - 2) else Ok ending in
  Ok (start, ending, sj, ej).

(* NurbsCurve.cpp:2326-2363: one point *)
Definition ls_point (degree n : Z) (U uk : list A) (i : Z) (st : LsState) : res LsState :=
  let! u := get uk i in
  let! j := GetKnotSpanIndex degree U u in
  let! N := BasisFunctions j degree U u in
  let l := if j =? degree then 1%Z else 0%Z in
  let hk := if (j =? degree) || (j =? n) then (degree - 1)%Z else degree in
  let! B := for_up 0 (hk + 1) (ls_B st) (fun k B =>
    let! x := getu N (l + k) in
    upd2 B (i - 1) k x) in
  let! index := upd (ls_index st) (i - 1) (Z.max 0 (j - degree - 1)) in
  if ls_rj st <? j then
    let! (start, ending, sj, ej) := for_up 1 (j - ls_rj st + 1) (ls_start st, ls_end st, ls_sj st, ls_ej st) (ls_shift n i) in
    Ok (mkLs start ending index B j sj ej)
  else Ok (mkLs (ls_start st) (ls_end st) index B (ls_rj st) (ls_sj st) (ls_ej st)).

(* NurbsCurve.cpp:2374-2387: the band of the matrix of the normal equations *)
Definition ls_band (degree n : Z) (start ending index : list Z) (B NTN : list (list A)) : res (list (list A)) :=
  for_up 0 (n - 1) NTN (fun i NTN =>
    for_up (Z.max 0 (i - degree)) (Z.min (n - 2) (i + degree) + 1) NTN (fun j NTN =>
      let! si := get start i in
      let! sj := get start j in
      let! ei := get ending i in
      let! ej := get ending j in
      for_up (Z.max si sj) (Z.min ei ej + 1) NTN (fun k NTN =>
        let! x := get index k in
        let! b := get2 B k (i - x) in
        let! b' := get2 B k (j - x) in
        let! o := get2 NTN i (j - i + degree) in
        upd2 NTN i (j - i + degree) (o +. b *. b')))).

(* NurbsCurve.cpp:2389-2395: what is left of the points without the parts of the two ends *)
Definition ls_rest (degree n m : Z) (U uk : list A) (throughPoints : list pt3) : res (list pt3) :=
  let! Rk := mkvec (m - 1) xyz0 in
  for_up 1 m Rk (fun k Rk =>
    let! u := get uk k in
    let! b0 := OneBasisFunction 0 degree U u in
    let! bn := OneBasisFunction n degree U u in
    let! q := get throughPoints k in
    let! q0 := get throughPoints 0 in
    let! qm := get throughPoints m in
    upd Rk (k - 1) (xyz_sub (xyz_sub q (xyz_scale b0 q0)) (xyz_scale bn qm))).

(* NurbsCurve.cpp:2397-2407 *)
Definition ls_right (n : Z) (start ending index : list Z) (B : list (list A)) (Rk : list pt3) : res (list pt3) :=
  let! Rv := mkvec (n - 1) xyz0 in
  for_up 1 n Rv (fun i Rv =>
    let! lk := get start (i - 1) in
    let! hk := get ending (i - 1) in
    for_up lk (hk + 1) Rv (fun k Rv =>
      let! r := get Rk k in
      let! x := get index k in
      let! b := get2 B k (i - x - 1) in
      let! o := get Rv (i - 1) in
      upd Rv (i - 1) (xyz_add o (xyz_scale b r)))).

(* NurbsCurve.cpp:2284-2431; None is the return value false *)
Definition LeastSquaresApproximation (degree : Z) (throughPoints : list pt3) (count : Z) : res (option (Curve A (XYZW A))) :=
  validate ((0 <=? degree) && (degree <=? NURBSMaxDegree)) ;;
  validate (0 <? count) ;;
  let n := (count - 1)%Z in
  let m := (len throughPoints - 1)%Z in
  let! uk := GetChordParameterization throughPoints in
  let! U := ls_knots degree n m uk in
  let! start := mkvec (n - 1) 0%Z in
  let! ending := mkvec (n - 1) 0%Z in
  let! index := mkvec (m - 1) 0%Z in
  let! bline := mkvec (degree + 1) n0 in
  let! B := mkvec (m - 1) bline in
  let! nline := mkvec (2 * degree + 1) n0 in
  let! NTN := mkvec (n - 1) nline in
  let! start := for_up 0 (Z.min (degree - 1) (n - 2) + 1) start (fun i v => upd v i 0%Z) in
  let! ending := upd ending 0 (-2) in
  let! st := for_up 1 m (mkLs start ending index B degree (degree - 1) (-2)) (ls_point degree n U uk) in
  let! e0 := (if ls_sj st <? n - 2 then Ok (-1)%Z else get (ls_end st) 0) in
  if (ls_sj st <? n - 2) || (e0 =? -1) then Ok None else
  let! ending := for_up (Z.max 0 (ls_ej st + 1)) (n - 1) (ls_end st) (fun i v => upd v i (m - 2)%Z) in
  let! NTN := ls_band degree n (ls_start st) ending (ls_index st) (ls_B st) NTN in
  let! Rk := ls_rest degree n m U uk throughPoints in
  let! Rv := ls_right n (ls_start st) ending (ls_index st) (ls_B st) Rk in
  let! r := SolveLinearSystemBanded (n - 1) NTN (2 * degree + 1) (map point_row Rv) in
  match r with
  | None => Ok None
  | Some temp =>
      let! cps := mkvec count xyzw0 in
      let! cps := for_up 1 n cps (fun i v =>
        let! row := get temp (i - 1) in
        let! q := row_point row in
        upd v i q) in
      let! q0 := get throughPoints 0 in
      let! cps := upd cps 0 (mkW q0 n1) in
      let! qm := get throughPoints m in
      let! cps := upd cps n (mkW qm n1) in
      Ok (Some (mkCurve degree U cps))
  end.

End Fit3.
