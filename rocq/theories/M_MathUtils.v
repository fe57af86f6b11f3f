(* Model of src/LNLib/Mathematics/Utils/MathUtils.cpp and include/MathUtils.h,
   include/LNLibExceptions.h, Algorithm/ValidationUtils.cpp (basic checks). *)
From Coq Require Import ZArith List Bool.
From Verif Require Import Base Num.
Import ListNotations.
Open Scope Z_scope.

Section MathUtils.
Context {A : Type} {NA : Num A}.
Local Open Scope num_scope.

(* MathUtils.cpp:43-51; std::abs on doubles *)
Definition IsAlmostEqualTo_tol (a b tolerance : A) : bool :=
  if nisnan a || nisnan b then false
  else if nisinf a || nisinf b then neqb a b
  else
    let diff := nabs (a - b) in
    let absMax := nmax (nabs a) (nabs b) in
    nleb diff (tolerance * (n1 + absMax)).

(* MathUtils.cpp:53-57 *)
Definition IsGreaterThan_tol (a b tolerance : A) : bool :=
  if nisnan a || nisnan b then false
  else nltb (tolerance * (n1 + nmax (nabs a) (nabs b))) (a - b).

(* MathUtils.cpp:59-64 *)
Definition IsGreaterThanOrEqual_tol (a b tolerance : A) : bool :=
  if nisnan a || nisnan b then false
  else
    let eps := tolerance * (n1 + nmax (nabs a) (nabs b)) in
    nleb (- eps) (a - b).

(* MathUtils.cpp:66-70 *)
Definition IsLessThan_tol (a b tolerance : A) : bool :=
  if nisnan a || nisnan b then false
  else nltb (tolerance * (n1 + nmax (nabs a) (nabs b))) (b - a).

(* MathUtils.cpp:72-77 *)
Definition IsLessThanOrEqual_tol (a b tolerance : A) : bool :=
  if nisnan a || nisnan b then false
  else
    let eps := tolerance * (n1 + nmax (nabs a) (nabs b)) in
    nleb (a - b) eps.

(* MathUtils.h:31-39: the default tolerance is Constants::DoubleEpsilon *)
Definition IsAlmostEqualTo a b := IsAlmostEqualTo_tol a b DoubleEpsilon.
Definition IsGreaterThan a b := IsGreaterThan_tol a b DoubleEpsilon.
Definition IsGreaterThanOrEqual a b := IsGreaterThanOrEqual_tol a b DoubleEpsilon.
Definition IsLessThan a b := IsLessThan_tol a b DoubleEpsilon.
Definition IsLessThanOrEqual a b := IsLessThanOrEqual_tol a b DoubleEpsilon.

(* LNLibExceptions.h:21-25, VALIDATE_ARGUMENT_RANGE *)
Definition validate_range (arg min max : A) : res unit :=
  if (nltb arg min && nltb DoubleEpsilon (nabs (arg - min)))
     || (nltb max arg && nltb DoubleEpsilon (nabs (arg - max)))
  then Throw else Ok tt.

(* MathUtils.cpp:31-40, the static table: rows 0..20; row i is built from row
   i-1 by addition. Modelled as the loop nest over a 21 x 21 vector. *)
Definition pascal_table : res (list (list A)) :=
  let! row := mkvec 21 n0 in
  let! table := mkvec 21 row in
  for_up 0 21 table (fun i table =>
    let! table := upd2 table i i n1 in
    let! table := upd2 table i 0 n1 in
    for_up 1 i table (fun j table =>
      let! x := get2 table (i - 1)%Z (j - 1)%Z in
      let! y := get2 table (i - 1)%Z j in
      upd2 table i j (x + y))).

(* MathUtils.cpp:112-122 *)
Definition Binomial (number i : Z) : res A :=
  if ((number <? 0) || (i <? 0) || (number <? i))%Z then Ok n0
  else if (number <=? 20)%Z then
    let! pascal := pascal_table in get2 pascal number i
  else
    let i := Z.min i (number - i) in
    for_up 1 (i + 1)%Z n1 (fun j r => ndiv (r * nofZ (number - i + j)) (nofZ j)).

(* MathUtils.cpp:99-110; long long as Z, the overflow question is a theorem *)
Definition Factorial (n : Z) : res Z :=
  if (n <? 0)%Z then Ok (-1)%Z
  else if (20 <? n)%Z then Throw
  else for_up 2 (n + 1)%Z 1%Z (fun i r => Ok (r * i)%Z).

(* MathUtils.cpp:137-155 *)
Definition MatrixMultiply (left right : list (list A)) : res (list (list A)) :=
  let m := len left in
  let! l0 := get left 0 in
  let n := len l0 in
  let! r0 := get right 0 in
  let p := len r0 in
  let! row := mkvec p n0 in
  let! result := mkvec m row in
  for_up 0 m result (fun i result =>
    for_up 0 p result (fun j result =>
      for_up 0 n result (fun k result =>
        let! x := get2 result i j in
        let! a := get2 left i k in
        let! b := get2 right k j in
        upd2 result i j (x + a * b)))).

(* MathUtils.cpp:157-176 *)
Definition MakeDiagonal (size : Z) : res (list (list A)) :=
  let! result := mkvec size ([] : list A) in
  for_up 0 size result (fun i result =>
    let! row := mkvec size n0 in
    let! row := for_up 0 size row (fun j row =>
      upd row j (if (i =? j)%Z then n1 else n0)) in
    upd result i row).

(* MathUtils.cpp:178-187 *)
Definition CreateMatrix (row column : Z) : res (list (list A)) :=
  for_up 0 row [] (fun _ result =>
    let! v := mkvec column n0 in
    Ok (result ++ [v])).

End MathUtils.

(* MathUtils.h:59-73; the output parameter is appended to, callers pass an
   empty vector *)
Definition Transpose {T} (matrix : list (list T)) : res (list (list T)) :=
  let! r0 := get matrix 0 in
  for_up 0 (len r0) [] (fun i transposed =>
    let! temp := for_up 0 (len matrix) [] (fun j temp =>
      let! x := get2 matrix j i in
      Ok (temp ++ [x])) in
    Ok (transposed ++ [temp])).

(* MathUtils.h:75-85 *)
Definition GetColumn {T} (d : T) (matrix : list (list T)) (columnIndex : Z) : res (list T) :=
  let size := len matrix in
  let! result := mkvec size d in
  for_up 0 size result (fun i result =>
    let! x := get2 matrix i columnIndex in
    upd result i x).

(* ValidationUtils.cpp:18-57 *)
Definition IsValidBezier (degree controlPointsCount : Z) : bool :=
  controlPointsCount =? degree + 1.
Definition IsValidBspline (degree knotVectorCount controlPointsCount : Z) : bool :=
  knotVectorCount - 1 =? (controlPointsCount - 1) + degree + 1.
Definition IsValidNurbs (degree knotVectorCount controlPointsCount : Z) : bool :=
  knotVectorCount - 1 =? (controlPointsCount - 1) + degree + 1.

(* std::is_sorted: no element is < its predecessor *)
Fixpoint IsValidKnotVector {A} {NA : Num A} (knotVector : list A) : bool :=
  match knotVector with
  | x :: ((y :: _) as t) => if nltb y x then false else IsValidKnotVector t
  | _ => true
  end.
