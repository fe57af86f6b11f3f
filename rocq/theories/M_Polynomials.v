(* Model of src/LNLib/Algorithm/Polynomials.cpp. *)
From Coq Require Import ZArith List Bool.
From Verif Require Import Base Num M_MathUtils.
Import ListNotations.
Open Scope Z_scope.

Section Polynomials.
Context {A : Type} {NA : Num A}.

Local Notation "x +. y" := (nadd x y) (at level 50, left associativity).
Local Notation "x -. y" := (nsub x y) (at level 50, left associativity).
Local Notation "x *. y" := (nmul x y) (at level 40, left associativity).

(* Polynomials.cpp:22-32 *)
Definition Horner (degree : Z) (coefficients : list A) (paramT : A) : res A :=
  validate (0 <? degree) ;;
  validate (IsValidBezier degree (len coefficients)) ;;
  let! result := get coefficients degree in
  for_down (degree - 1) 0 result (fun i result =>
    let! c := get coefficients i in
    Ok (result *. paramT +. c)).

(* Polynomials.cpp:34-60 *)
Definition Bernstein (index degree : Z) (paramT : A) : res A :=
  validate ((0 <=? index) && (index <=? degree)) ;;
  validate (0 <=? degree) ;;
  validate_range paramT n0 n1 ;;
  if degree =? 0 then Ok n1
  else if index =? 0 then Ok (npow (n1 -. paramT) (Z.to_nat degree))
  else if index =? degree then Ok (npow paramT (Z.to_nat degree))
  else
    let! temp := mkvec (degree + 1) n0 in
    let! temp := upd temp (degree - index) n1 in
    let t1 := n1 -. paramT in
    let! temp := for_up index (degree + 1) temp (fun k temp =>
      for_down degree k temp (fun j temp =>
        let! x := get temp j in
        let! y := get temp (j - 1) in
        upd temp j (t1 *. x +. paramT *. y))) in
    get temp degree.

(* Polynomials.cpp:62-87 *)
Definition AllBernstein (degree : Z) (paramT : A) : res (list A) :=
  validate (0 <=? degree) ;;
  validate_range paramT n0 n1 ;;
  let! bernsteinArray := mkvec (degree + 1) n0 in
  let! bernsteinArray := upd bernsteinArray 0 n1 in
  if degree =? 0 then Ok bernsteinArray
  else
    let t1 := n1 -. paramT in
    for_up 1 (degree + 1) bernsteinArray (fun j bernsteinArray =>
      let! (bernsteinArray, saved) :=
        for_up 0 j (bernsteinArray, n0) (fun k '(bernsteinArray, saved) =>
          let! temp := get bernsteinArray k in
          let! bernsteinArray := upd bernsteinArray k (saved +. t1 *. temp) in
          Ok (bernsteinArray, paramT *. temp)) in
      upd bernsteinArray j saved).

(* Polynomials.cpp:89-105; uv is the pair (u, v) *)
Definition Horner2 (degreeU degreeV : Z) (coefficients : list (list A)) (u v : A) : res A :=
  validate (0 <? degreeU) ;;
  validate (0 <? degreeV) ;;
  validate (0 <? len coefficients) ;;
  validate (IsValidBezier degreeU (len coefficients)) ;;
  let! c0 := get coefficients 0 in
  validate (IsValidBezier degreeV (len c0)) ;;
  validate_range u n0 n1 ;;
  validate_range v n0 n1 ;;
  let! temp := mkvec (degreeU + 1) n0 in
  let! temp := for_up 0 (degreeU + 1) temp (fun i temp =>
    let! c := get coefficients i in
    let! h := Horner degreeV c v in
    upd temp i h) in
  Horner degreeU temp u.

(* the checks shared by the knot vector functions: non-empty, sorted, and the
   parameter in range (e.g. Polynomials.cpp:109-111) *)
Definition check_knots (knotVector : list A) (paramT : A) : res unit :=
  validate (0 <? len knotVector) ;;
  validate (IsValidKnotVector knotVector) ;;
  let! first := get knotVector 0 in
  let! last := get knotVector (len knotVector - 1) in
  validate_range paramT first last.

(* Polynomials.cpp:107-125 *)
Definition GetKnotMultiplicity (knotVector : list A) (knot : A) : res Z :=
  check_knots knotVector knot ;;
  for_up 0 (len knotVector) 0 (fun index multi =>
    let! u := get knotVector index in
    Ok (if IsAlmostEqualTo knot u then multi + 1 else multi)).

(* Polynomials.cpp:127-162; int division of non-negative numbers. The second
   condition of the while loop is only evaluated when the first is false. *)
Definition GetKnotSpanIndex (degree : Z) (knotVector : list A) (paramT : A) : res Z :=
  validate (0 <=? degree) ;;
  check_knots knotVector paramT ;;
  let n := len knotVector - degree - 2 in
  let! un1 := get knotVector (n + 1) in
  if IsGreaterThanOrEqual paramT un1 then Ok n
  else
    let! ud := get knotVector degree in
    if IsLessThanOrEqual paramT ud then Ok degree
    else
      let! (_, _, mid) :=
        while_ (length knotVector)
          (fun '(low, high, mid) =>
             let! um := get knotVector mid in
             if nltb paramT um then Ok true
             else let! um1 := get knotVector (mid + 1) in Ok (nleb um1 paramT))
          (degree, n + 1, (degree + (n + 1)) / 2)
          (fun '(low, high, mid) =>
             let! um := get knotVector mid in
             let '(low, high) := if nltb paramT um then (low, mid) else (mid, high) in
             Ok (low, high, (low + high) / 2)) in
      Ok mid.

Definition NMax1 : Z := NURBSMaxDegree + 1.

(* Polynomials.cpp:164-193. basisFunctions is the caller's uninitialised
   double[NURBSMaxDegree + 1]. *)
Definition BasisFunctions (spanIndex degree : Z) (knotVector : list A) (paramT : A)
  : res (list (option A)) :=
  validate (0 <=? spanIndex) ;;
  validate ((0 <=? degree) && (degree <=? NURBSMaxDegree)) ;;
  check_knots knotVector paramT ;;
  let! basisFunctions := updu (uninit NMax1) 0 n1 in
  let! (basisFunctions, _, _) :=
    for_up 1 (degree + 1) (basisFunctions, uninit NMax1, uninit NMax1)
      (fun j '(basisFunctions, lft, rgt) =>
        let! ul := get knotVector (spanIndex + 1 - j) in
        let! lft := updu lft j (paramT -. ul) in
        let! ur := get knotVector (spanIndex + j) in
        let! rgt := updu rgt j (ur -. paramT) in
        let! (basisFunctions, saved) :=
          for_up 0 j (basisFunctions, n0) (fun r '(basisFunctions, saved) =>
            let! b := getu basisFunctions r in
            let! rr := getu rgt (r + 1) in
            let! ll := getu lft (j - r) in
            let! temp := ndiv b (rr +. ll) in
            let! basisFunctions := updu basisFunctions r (saved +. rr *. temp) in
            Ok (basisFunctions, ll *. temp)) in
        let! basisFunctions := updu basisFunctions j saved in
        Ok (basisFunctions, lft, rgt)) in
  Ok basisFunctions.

(* the triangular table ndu / bases, Polynomials.cpp:206-231 and 554-574. left
   and rgt are uninitialised in the first function and zero-filled vectors in
   the second; the uninitialised (stricter) form is used for both. *)
Definition ndu_table (spanIndex degree : Z) (knotVector : list A) (paramT : A)
  : res (list (list A)) :=
  let! row := mkvec (degree + 1) n0 in
  let! ndu := mkvec (degree + 1) row in
  let! ndu := upd2 ndu 0 0 n1 in
  let! (ndu, _, _) :=
    for_up 1 (degree + 1) (ndu, uninit NMax1, uninit NMax1) (fun j '(ndu, lft, rgt) =>
      let! ul := get knotVector (spanIndex + 1 - j) in
      let! lft := updu lft j (paramT -. ul) in
      let! ur := get knotVector (spanIndex + j) in
      let! rgt := updu rgt j (ur -. paramT) in
      let! (ndu, saved) :=
        for_up 0 j (ndu, n0) (fun r '(ndu, saved) =>
          let! rr := getu rgt (r + 1) in
          let! ll := getu lft (j - r) in
          let! ndu := upd2 ndu j r (rr +. ll) in
          let! x := get2 ndu r (j - 1) in
          let! y := get2 ndu j r in
          let! temp := ndiv x y in
          let! ndu := upd2 ndu r j (saved +. rr *. temp) in
          Ok (ndu, ll *. temp)) in
      let! ndu := upd2 ndu j j saved in
      Ok (ndu, lft, rgt)) in
  Ok ndu.

(* Polynomials.cpp:546-576 *)
Definition AllBasisFunctions (spanIndex degree : Z) (knotVector : list A) (knot : A)
  : res (list (list A)) :=
  validate (0 <=? spanIndex) ;;
  validate ((0 <=? degree) && (degree <=? NURBSMaxDegree)) ;;
  check_knots knotVector knot ;;
  ndu_table spanIndex degree knotVector knot.

(* Polynomials.cpp:247-284, the body of the loop over k: one derivative order
   of one basis function. s1, s2 select rows of a. *)
Definition ders_step (degree r : Z) (ndu : list (list A)) (k : Z)
  (st : list (list A) * list (list A) * Z * Z)
  : res (list (list A) * list (list A) * Z * Z) :=
  let '(derivatives, a, s1, s2) := st in
  let rk := r - k in
  let pk := degree - k in
  let! (a, d) :=
    if k <=? r then
      let! x := get2 a s1 0 in
      let! y := get2 ndu (pk + 1) rk in
      let! q := ndiv x y in
      let! a := upd2 a s2 0 q in
      let! z := get2 ndu rk pk in
      Ok (a, q *. z)
    else Ok (a, n0) in
  let j1 := if -1 <=? rk then 1 else - rk in
  let j2 := if r - 1 <=? pk then k - 1 else degree - r in
  let! (a, d) :=
    for_up j1 (j2 + 1) (a, d) (fun j '(a, d) =>
      let! x := get2 a s1 j in
      let! y := get2 a s1 (j - 1) in
      let! z := get2 ndu (pk + 1) (rk + j) in
      let! q := ndiv (x -. y) z in
      let! a := upd2 a s2 j q in
      let! w := get2 ndu (rk + j) pk in
      Ok (a, d +. q *. w)) in
  let! (a, d) :=
    if r <=? pk then
      let! x := get2 a s1 (k - 1) in
      let! y := get2 ndu (pk + 1) r in
      let! q := ndiv (nopp x) y in
      let! a := upd2 a s2 k q in
      let! z := get2 ndu r pk in
      Ok (a, d +. q *. z)
    else Ok (a, d) in
  let! derivatives := upd2 derivatives k r d in
  Ok (derivatives, a, s2, s1).

(* Polynomials.cpp:195-298 *)
Definition BasisFunctionsDerivatives (spanIndex degree derivative : Z)
  (knotVector : list A) (paramT : A) : res (list (list A)) :=
  validate (0 <=? spanIndex) ;;
  validate ((0 <=? degree) && (degree <=? NURBSMaxDegree)) ;;
  validate (derivative <=? degree) ;;
  check_knots knotVector paramT ;;
  let! drow := mkvec (degree + 1) n0 in
  let! derivatives := mkvec (derivative + 1) drow in
  let! ndu := ndu_table spanIndex degree knotVector paramT in
  let! derivatives := for_up 0 (degree + 1) derivatives (fun j derivatives =>
    let! x := get2 ndu j degree in
    upd2 derivatives 0 j x) in
  let! arow := mkvec (degree + 1) n0 in
  let! a := mkvec 2 arow in
  let! (derivatives, _) :=
    for_up 0 (degree + 1) (derivatives, a) (fun r '(derivatives, a) =>
      let! a := upd2 a 0 0 n1 in
      let! (derivatives, a, _, _) :=
        for_up 1 (derivative + 1) (derivatives, a, 0, 1) (ders_step degree r ndu) in
      Ok (derivatives, a)) in
  let! (derivatives, _) :=
    for_up 1 (derivative + 1) (derivatives, degree) (fun k '(derivatives, r) =>
      let! derivatives := for_up 0 (degree + 1) derivatives (fun j derivatives =>
        let! x := get2 derivatives k j in
        upd2 derivatives k j (x *. nofZ r)) in
      Ok (derivatives, r * (degree - k))) in
  Ok derivatives.

(* Polynomials.cpp:300-397. All arrays are uninitialised; derivatives is the
   caller's double[2][NURBSMaxDegree + 1]. k is the constant 1, so the body of
   the loop over r is written out with s1 = 0, s2 = 1. *)
Definition getu2 (m : list (list (option A))) (i j : Z) : res A :=
  let! r := get m i in getu r j.
Definition updu2 (m : list (list (option A))) (i j : Z) (v : A) : res (list (list (option A))) :=
  upd2 m i j (Some v).

Definition BasisFunctionsFirstOrderDerivative (spanIndex degree : Z)
  (knotVector : list A) (paramT : A) : res (list (list (option A))) :=
  validate (0 <=? spanIndex) ;;
  validate ((0 <=? degree) && (degree <=? NURBSMaxDegree)) ;;
  validate (1 <=? degree) ;;
  check_knots knotVector paramT ;;
  let urow := uninit NMax1 in
  let! ndu := updu2 (repeat urow (Z.to_nat NMax1)) 0 0 n1 in
  let! (ndu, _, _) :=
    for_up 1 (degree + 1) (ndu, uninit NMax1, uninit NMax1) (fun j '(ndu, lft, rgt) =>
      let! ul := get knotVector (spanIndex + 1 - j) in
      let! lft := updu lft j (paramT -. ul) in
      let! ur := get knotVector (spanIndex + j) in
      let! rgt := updu rgt j (ur -. paramT) in
      let! (ndu, saved) :=
        for_up 0 j (ndu, n0) (fun r '(ndu, saved) =>
          let! rr := getu rgt (r + 1) in
          let! ll := getu lft (j - r) in
          let! ndu := updu2 ndu j r (rr +. ll) in
          let! x := getu2 ndu r (j - 1) in
          let! y := getu2 ndu j r in
          let! temp := ndiv x y in
          let! ndu := updu2 ndu r j (saved +. rr *. temp) in
          Ok (ndu, ll *. temp)) in
      let! ndu := updu2 ndu j j saved in
      Ok (ndu, lft, rgt)) in
  let derivatives := repeat urow 2 in
  let! derivatives := for_up 0 (degree + 1) derivatives (fun j derivatives =>
    let! x := getu2 ndu j degree in
    updu2 derivatives 0 j x) in
  let a := repeat urow 2 in
  let! (derivatives, _) :=
    for_up 0 (degree + 1) (derivatives, a) (fun r '(derivatives, a) =>
      let! a := updu2 a 0 0 n1 in
      let rk := r - 1 in
      let pk := degree - 1 in
      let! (a, d) :=
        if 1 <=? r then
          let! x := getu2 a 0 0 in
          let! y := getu2 ndu (pk + 1) rk in
          let! q := ndiv x y in
          let! a := updu2 a 1 0 q in
          let! z := getu2 ndu rk pk in
          Ok (a, q *. z)
        else Ok (a, n0) in
      let j1 := if -1 <=? rk then 1 else - rk in
      let j2 := if r - 1 <=? pk then 1 - 1 else degree - r in
      let! (a, d) :=
        for_up j1 (j2 + 1) (a, d) (fun j '(a, d) =>
          let! x := getu2 a 0 j in
          let! y := getu2 a 0 (j - 1) in
          let! z := getu2 ndu (pk + 1) (rk + j) in
          let! q := ndiv (x -. y) z in
          let! a := updu2 a 1 j q in
          let! w := getu2 ndu (rk + j) pk in
          Ok (a, d +. q *. w)) in
      let! (a, d) :=
        if r <=? pk then
          let! x := getu2 a 0 (1 - 1) in
          let! y := getu2 ndu (pk + 1) r in
          let! q := ndiv (nopp x) y in
          let! a := updu2 a 1 1 q in
          let! z := getu2 ndu r pk in
          Ok (a, d +. q *. z)
        else Ok (a, d) in
      let! derivatives := updu2 derivatives 1 r d in
      Ok (derivatives, a)) in
  for_up 0 (degree + 1) derivatives (fun j derivatives =>
    let! x := getu2 derivatives 1 j in
    updu2 derivatives 1 j (x *. nofZ degree)).

(* Polynomials.cpp:399-455 *)
Definition OneBasisFunction (spanIndex degree : Z) (knotVector : list A) (paramT : A) : res A :=
  validate (0 <=? spanIndex) ;;
  validate (0 <? degree) ;;
  check_knots knotVector paramT ;;
  let m := len knotVector - 1 in
  let! u0 := get knotVector 0 in
  let! um := get knotVector m in
  if ((spanIndex =? 0) && IsAlmostEqualTo paramT u0)
     || ((spanIndex =? m - degree - 1) && IsAlmostEqualTo paramT um)
  then Ok n1
  else
    let! us := get knotVector spanIndex in
    let! outside :=
      (if IsLessThan paramT us then Ok true
       else let! ue := get knotVector (spanIndex + degree + 1) in
            Ok (IsGreaterThanOrEqual paramT ue)) in
    if outside then Ok n0
    else
      let! N := mkvec (degree + spanIndex + 1) n0 in
      let! N := for_up 0 (degree + 1) N (fun j N =>
        let! a := get knotVector (spanIndex + j) in
        let! inside :=
          (if IsGreaterThanOrEqual paramT a
           then let! b := get knotVector (spanIndex + j + 1) in Ok (IsLessThan paramT b)
           else Ok false) in
        if inside then upd N j n1 else Ok N) in
      let! N := for_up 1 (degree + 1) N (fun k N =>
        let! Nfst := get N 0 in
        let! saved :=
          (if negb (IsAlmostEqualTo Nfst n0) then
             let! a := get knotVector spanIndex in
             let! b := get knotVector (spanIndex + k) in
             ndiv ((paramT -. a) *. Nfst) (b -. a)
           else Ok n0) in
        let! (N, _) :=
          for_up 0 (degree - k + 1) (N, saved) (fun j '(N, saved) =>
            let! knotLeft := get knotVector (spanIndex + j + 1) in
            let! knotRight := get knotVector (spanIndex + j + k + 1) in
            let! Nnxt := get N (j + 1) in
            if IsAlmostEqualTo Nnxt n0 then
              let! N := upd N j saved in Ok (N, n0)
            else
              let! temp := ndiv Nnxt (knotRight -. knotLeft) in
              let! N := upd N j (saved +. (knotRight -. paramT) *. temp) in
              Ok (N, (paramT -. knotLeft) *. temp)) in
        Ok N) in
      get N 0.

(* Polynomials.cpp:457-544 *)
Definition OneBasisFunctionDerivative (spanIndex degree derivative : Z)
  (knotVector : list A) (paramT : A) : res (list A) :=
  validate (0 <=? spanIndex) ;;
  validate (0 <? degree) ;;
  validate (derivative <=? degree) ;;
  check_knots knotVector paramT ;;
  let! derivatives := mkvec (derivative + 1) n0 in
  let! us := get knotVector spanIndex in
  let! outside :=
    (if IsLessThan paramT us then Ok true
     else let! ue := get knotVector (spanIndex + degree + 1) in
          Ok (IsGreaterThanOrEqual paramT ue)) in
  if outside then Ok derivatives
  else
    let! row := mkvec (degree + 1) n0 in
    let! N := mkvec (degree + 1) row in
    let! N := for_up 0 (degree + 1) N (fun j N =>
      let! a := get knotVector (spanIndex + j) in
      let! inside :=
        (if IsGreaterThanOrEqual paramT a
         then let! b := get knotVector (spanIndex + j + 1) in Ok (IsLessThan paramT b)
         else Ok false) in
      if inside then upd2 N j 0 n1 else Ok N) in
    let! N := for_up 1 (degree + 1) N (fun k N =>
      let! Nfst := get2 N 0 (k - 1) in
      let! saved :=
        (if negb (IsAlmostEqualTo Nfst n0) then
           let! a := get knotVector spanIndex in
           let! b := get knotVector (spanIndex + k) in
           ndiv ((paramT -. a) *. Nfst) (b -. a)
         else Ok n0) in
      let! (N, _) :=
        for_up 0 (degree - k + 1) (N, saved) (fun j '(N, saved) =>
          let! knotLeft := get knotVector (spanIndex + j + 1) in
          let! knotRight := get knotVector (spanIndex + j + k + 1) in
          let! Nnxt := get2 N (j + 1) (k - 1) in
          if IsAlmostEqualTo Nnxt n0 then
            let! N := upd2 N j k saved in Ok (N, n0)
          else
            let! temp := ndiv Nnxt (knotRight -. knotLeft) in
            let! N := upd2 N j k (saved +. (knotRight -. paramT) *. temp) in
            Ok (N, (paramT -. knotLeft) *. temp)) in
      Ok N) in
    let! d0 := get2 N 0 degree in
    let! derivatives := upd derivatives 0 d0 in
    for_up 1 (derivative + 1) derivatives (fun k derivatives =>
      let! ND := mkvec (k + 1) n0 in
      let! ND := for_up 0 (k + 1) ND (fun j ND =>
        let! x := get2 N j (degree - k) in upd ND j x) in
      let! ND := for_up 1 (k + 1) ND (fun jj ND =>
        let! ND0 := get ND 0 in
        let! saved :=
          (if IsAlmostEqualTo ND0 n0 then Ok n0
           else
             let! a := get knotVector (spanIndex + degree - k + jj) in
             let! b := get knotVector spanIndex in
             ndiv ND0 (a -. b)) in
        let! (ND, _) :=
          for_up 0 (k - jj + 1) (ND, saved) (fun j '(ND, saved) =>
            let! knotLeft := get knotVector (spanIndex + j + 1) in
            let! knotRight := get knotVector (spanIndex + j + degree - k + jj + 1) in
            let! ND1 := get ND (j + 1) in
            if IsAlmostEqualTo ND1 n0 then
              let! ND := upd ND j (nofZ (degree - k + jj) *. saved) in
              Ok (ND, n0)
            else
              let! temp := ndiv ND1 (knotRight -. knotLeft) in
              let! ND := upd ND j (nofZ (degree - k + jj) *. (saved -. temp)) in
              Ok (ND, temp)) in
        Ok ND) in
      let! x := get ND 0 in
      upd derivatives k x).

(* Polynomials.cpp:578-620. The zero-filling loop nest of lines 581-587 writes
   zeros over zeros. pk is degree - k throughout the loop over k. *)
Definition BezierToPowerMatrix (degree : Z) : res (list (list A)) :=
  let! row := mkvec (degree + 1) n0 in
  let! matrix := mkvec (degree + 1) row in
  let! matrix := for_up 0 degree matrix (fun i matrix =>
    for_up (i + 1) (degree + 1) matrix (fun j matrix => upd2 matrix i j n0)) in
  let! matrix := upd2 matrix degree degree n1 in
  let! matrix := upd2 matrix 0 0 n1 in
  let! matrix := upd2 matrix degree 0 (if Z.rem degree 2 =? 0 then n1 else nopp n1) in
  let! (matrix, _) :=
    for_up 1 degree (matrix, nopp n1) (fun i '(matrix, sign) =>
      let! b := Binomial degree i in
      let! matrix := upd2 matrix i i b in
      let! x := get2 matrix i i in
      let! matrix := upd2 matrix degree (degree - i) (sign *. x) in
      let! matrix := upd2 matrix i 0 (sign *. x) in
      Ok (matrix, nopp sign)) in
  let k1 := (degree + 1) / 2 in
  let! (matrix, _) :=
    for_up 1 k1 (matrix, degree - 1) (fun k '(matrix, pk) =>
      let! (matrix, _) :=
        for_up (k + 1) (pk + 1) (matrix, nopp n1) (fun j '(matrix, sign) =>
          let! b1 := Binomial degree k in
          let! b2 := Binomial (degree - k) (j - k) in
          let v := sign *. b1 *. b2 in
          let! matrix := upd2 matrix pk (degree - j) v in
          let! matrix := upd2 matrix j k v in
          Ok (matrix, nopp sign)) in
      Ok (matrix, pk - 1)) in
  Ok matrix.

(* Polynomials.cpp:622-657 *)
Definition PowerToBezierMatrix (degree : Z) (matrix : list (list A)) : res (list (list A)) :=
  let! row := mkvec (degree + 1) n0 in
  let! inv := mkvec (degree + 1) row in
  let! inv := for_up 0 degree inv (fun i inv =>
    for_up (i + 1) (degree + 1) inv (fun j inv => upd2 inv i j n0)) in
  let! inv := for_up 0 (degree + 1) inv (fun i inv =>
    let! inv := upd2 inv degree i n1 in
    let! inv := upd2 inv i 0 n1 in
    let! m := get2 matrix i i in
    let! q := ndiv n1 m in
    upd2 inv i i q) in
  let k1 := (degree + 1) / 2 in
  let! (inv, _) :=
    for_up 1 k1 (inv, degree - 1) (fun k '(inv, pk) =>
      let! inv := for_up (k + 1) (pk + 1) inv (fun j inv =>
        let! d := for_up k j n0 (fun i d =>
          let! m := get2 matrix j i in
          let! x := get2 inv i k in
          Ok (d -. m *. x)) in
        let! m := get2 matrix j j in
        let! q := ndiv d m in
        let! inv := upd2 inv j k q in
        let! x := get2 inv j k in
        upd2 inv pk (degree - j) x) in
      Ok (inv, pk - 1)) in
  Ok inv.

End Polynomials.
