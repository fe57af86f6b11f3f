(* Model of src/LNLib/Algorithm/Interpolation.cpp. *)
From Coq Require Import ZArith List Bool Reals.
From Verif Require Import Base Num Vec M_MathUtils M_XYZ M_Geom.
Import ListNotations.
Open Scope Z_scope.

(* floor of a double, as an int: exact instance only *)
Class Floor (A : Type) : Type := { nfloor : A -> Z }.

Section Interp.
Context {A : Type} {NA : Num A}.
Local Open Scope num_scope.
Notation pt3 := (XYZ A).

(* Interpolation.cpp:20-37 *)
Definition Getqk (throughPoints : list pt3) (index : Z) : res pt3 :=
  let! a := get throughPoints index in
  let! b := get throughPoints (index - 1) in
  Ok (xyz_sub a b).
Definition Getak (qk_1 qk qk1 qk2 : pt3) : res A :=
  let! l := Length (CrossProduct qk_1 qk) in
  let! r := Length (CrossProduct qk1 qk2) in
  ndiv l (l + r).
Definition GetTk (qk_1 qk qk1 qk2 : pt3) : res pt3 :=
  let! ak := Getak qk_1 qk qk1 qk2 in
  Normalize (xyz_add (xyz_scale (n1 - ak) qk) (xyz_scale ak qk1)).

(* Interpolation.cpp:39-48 *)
Definition GetTotalChordLength (throughPoints : list pt3) : res A :=
  for_up 1 (len throughPoints) n0 (fun i length =>
    let! a := get throughPoints i in
    let! b := get throughPoints (i - 1) in
    let! d := Distance a b in
    Ok (length + d)).

(* Interpolation.cpp:63-93 and 121-152: the parameters from the lengths of the segments;
   the two functions differ only in the length of a segment *)
Definition parameters (seg : pt3 -> pt3 -> res A) (throughPoints : list pt3) : res (list A) :=
  let size := len throughPoints in
  if (size =? 0)%Z then Ok []
  else if (size =? 1)%Z then Ok [n0]
  else if (size =? 2)%Z then Ok [n0; n1]
  else
    let! s := for_up 1 size ([], n0) (fun i '(segmentLengths, totalLength) =>
      let! a := get throughPoints i in
      let! b := get throughPoints (i - 1) in
      let! segLen := seg a b in
      Ok (segmentLengths ++ [segLen], totalLength + segLen)) in
    let '(segmentLengths, totalLength) := s in
    if IsAlmostEqualTo totalLength n0 then
      let! uk := mkvec size n0 in
      for_up 0 size uk (fun i uk =>
        let! q := ndiv (nofZ i) (nofZ (size - 1)) in upd uk i q)
    else
      let! uk := mkvec size n0 in
      let! uk := upd uk 0 n0 in
      let! uk := upd uk (size - 1) n1 in
      let! s := for_up 1 (size - 1) (uk, n0) (fun i '(uk, accumulated) =>
        let! l := get segmentLengths (i - 1) in
        let accumulated := accumulated + l in
        let! q := ndiv accumulated totalLength in
        let! uk := upd uk i q in
        Ok (uk, accumulated)) in
      Ok (fst s).
(* Interpolation.cpp:50-93 *)
Definition GetChordParameterization (throughPoints : list pt3) : res (list A) :=
  parameters Distance throughPoints.
(* Interpolation.cpp:108-152 *)
Definition GetCentripetalParameterization (throughPoints : list pt3) : res (list A) :=
  parameters (fun a b => let! d := Distance a b in nsqrt d) throughPoints.

(* Interpolation.cpp:95-106 *)
Definition GetCentripetalLength (throughPoints : list pt3) : res A :=
  for_up 1 (len throughPoints) n0 (fun i length =>
    let! a := get throughPoints i in
    let! b := get throughPoints (i - 1) in
    let! d := Distance a b in
    let! s := nsqrt d in
    Ok (length + s)).

(* Interpolation.cpp:154-181 *)
Definition AverageKnotVector (degree : Z) (params : list A) : res (list A) :=
  let n := (len params - 1)%Z in
  let m := (n + degree + 1)%Z in
  let! knotVector := mkvec (m + 1) n0 in
  let! knotVector := for_up (m - degree) (m + 1) knotVector (fun i v => upd v i n1) in
  if (n <=? degree)%Z then Ok knotVector
  else
    let! windowSum := for_up 1 (degree + 1) n0 (fun i w =>
      let! x := get params i in Ok (w + x)) in
    let! q := ndiv windowSum (nofZ degree) in
    let! knotVector := upd knotVector (degree + 1) q in
    let! s := for_up 2 (n - degree + 1) (knotVector, windowSum) (fun j '(knotVector, windowSum) =>
      let! x := get params (j - 1) in
      let windowSum := windowSum - x in
      let! y := get params (j + degree - 1) in
      let windowSum := windowSum + y in
      let! q := ndiv windowSum (nofZ degree) in
      let! knotVector := upd knotVector (degree + j) q in
      Ok (knotVector, windowSum)) in
    Ok (fst s).

(* Interpolation.cpp:183-209 *)
Definition ComputeKnotVector `{Floor A} (degree controlPointsCount : Z) (params : list A) : res (list A) :=
  let m := (len params - 1)%Z in
  let n := (controlPointsCount - 1)%Z in
  let nn := (n + degree + 2)%Z in
  let! knotVector := mkvec nn n0 in
  let! d := ndiv (nofZ (m + 1)) (nofZ (n - degree + 1)) in
  let! knotVector := for_up 1 (n - degree + 1) knotVector (fun j v =>
    let i := nfloor (nofZ j * d) in
    let alpha := (nofZ j * d) - nofZ i in
    let! x := get params (i - 1) in
    let! y := get params i in
    upd v (degree + j) ((n1 - alpha) * x + alpha * y)) in
  for_up 0 nn knotVector (fun i v =>
    if (i <=? degree)%Z then upd v i n0
    else if (nn - 1 - degree <=? i)%Z then upd v i n1
    else Ok v).

(* Interpolation.cpp:211-263; None is the return value false *)
Definition ComputerWeightForRationalQuadraticInterpolation (startPoint middleControlPoint endPoint : pt3)
  : res (option A) :=
  let SM := xyz_sub middleControlPoint startPoint in
  let EM := xyz_sub middleControlPoint endPoint in
  let SE := xyz_sub endPoint startPoint in
  let! nSM := Normalize SM in
  let! nEM := Normalize EM in
  if xyz_IsAlmostEqualTo nSM nEM || xyz_IsAlmostEqualTo nSM (xyz_neg nEM) then Ok (Some n1)
  else
    let! lSM := Length SM in
    let! lEM := Length EM in
    let! lSE := Length SE in
    if IsAlmostEqualTo lSM lEM then
      let! weight := ndiv (DotProduct SM SE) (lSM * lSE) in Ok (Some weight)
    else
      let M := xyz_scale (nlit 1 2) (xyz_add startPoint endPoint) in
      let MR := xyz_sub middleControlPoint M in
      let! ratio := ndiv lSM lSE in
      let! frac := ndiv n1 (ratio + n1) in
      let D := xyz_add endPoint (xyz_scale frac EM) in
      let SD := xyz_sub D startPoint in
      let! nSD := Normalize SD in
      let! nMR := Normalize MR in
      let! r := ComputeRays startPoint nSD M nMR n0 n0 xyz0 in
      let '(type, alf1, alf2, S1) := r in
      match type with
      | Intersecting =>
          let! ratio := ndiv lEM lSE in
          let! frac := ndiv n1 (ratio + n1) in
          let D := xyz_add startPoint (xyz_scale frac SM) in
          let ED := xyz_sub D endPoint in
          let! nED := Normalize ED in
          let! r := ComputeRays endPoint nED M nMR alf1 alf2 xyz0 in
          let '(type, _, _, S2) := r in
          match type with
          | Intersecting =>
              let S := xyz_scale (nlit 1 2) (xyz_add S1 S2) in
              let MS := xyz_sub S M in
              let! lMS := Length MS in
              let! lMR := Length MR in
              let! s := ndiv lMS lMR in
              let! weight := ndiv s (n1 - s) in
              Ok (Some weight)
          | _ => Ok None
          end
      | _ => Ok None
      end.

(* Interpolation.cpp:275-307 and 310-344: one direction, with point l k the k-th point of line l.
   params has count entries on entry, all 0.0 (the caller passes empty vectors). The chord
   lengths are kept in a fresh vector per line: every entry read was written for that line.
   None: false *)
Definition mesh_direction (point : Z -> Z -> res pt3) (lines count : Z) : res (option (list A)) :=
  let! params := mkvec count n0 in
  let! s := for_up 0 lines (params, lines) (fun l '(params, num) =>
    let! cds := mkvec count n0 in
    let! s := for_up 1 count (cds, n0) (fun k '(cds, total) =>
      let! a := point l k in
      let! b := point l (k - 1)%Z in
      let! d := Distance a b in
      let! cds := upd cds k d in
      Ok (cds, total + d)) in
    let '(cds, total) := s in
    if IsAlmostEqualTo total n0 then Ok (params, (num - 1)%Z)
    else
      let! s := for_up 1 count (params, n0) (fun k '(params, d) =>
        let! c := get cds k in
        let d := d + c in
        let! q := ndiv d total in
        let! x := get params k in
        let! params := upd params k (x + q) in
        Ok (params, d)) in
      Ok (fst s, num)) in
  let '(params, num) := s in
  if (num =? 0)%Z then Ok None
  else
    let! params := for_up 1 (count - 1) params (fun k params =>
      let! x := get params k in
      let! q := ndiv x (nofZ num) in
      upd params k q) in
    let! params := upd params (count - 1) n1 in
    Ok (Some params).

(* Interpolation.cpp:265-346; None: false *)
Definition GetSurfaceMeshParameterization (throughPoints : list (list pt3)) : res (option (list A * list A)) :=
  let n := len throughPoints in
  let! row := get throughPoints 0 in
  let m := len row in
  let! u := mesh_direction (fun l k => get2 throughPoints k l) m n in
  match u with
  | None => Ok None
  | Some paramsU =>
      let! v := mesh_direction (fun k l => get2 throughPoints k l) n m in
      match v with
      | None => Ok None
      | Some paramsV => Ok (Some (paramsU, paramsV))
      end
  end.

(* Interpolation.cpp:348-376; None: false *)
Definition ComputeTangent5 (throughPoints : list pt3) : res (option (list pt3)) :=
  let size := len throughPoints in
  if (size <? 5)%Z then Ok None
  else
    let! tangents := mkvec size xyz0 in
    let! tangents := for_up 2 (size - 2) tangents (fun k tangents =>
      let! qk_1 := Getqk throughPoints (k - 1) in
      let! qk := Getqk throughPoints k in
      let! qk1 := Getqk throughPoints (k + 1) in
      let! qk2 := Getqk throughPoints (k + 2) in
      let! t := GetTk qk_1 qk qk1 qk2 in
      upd tangents k t) in
    let n := (size - 1)%Z in
    let two := nofZ 2 in
    let! q1 := Getqk throughPoints 1 in
    let! q2 := Getqk throughPoints 2 in
    let! q3 := Getqk throughPoints 3 in
    let! qn := Getqk throughPoints n in
    let! qn_1 := Getqk throughPoints (n - 1) in
    let! qn_2 := Getqk throughPoints (n - 2) in
    let q0 := xyz_sub (xyz_scale two q1) q2 in
    let q_1 := xyz_sub (xyz_scale two q0) q1 in
    let qn1 := xyz_sub (xyz_scale two qn) qn_1 in
    let qn2 := xyz_sub (xyz_scale two qn1) qn in
    let! t := GetTk q_1 q0 q1 q2 in
    let! tangents := upd tangents 0 t in
    let! t := GetTk q0 q1 q2 q3 in
    let! tangents := upd tangents 1 t in
    let! t := GetTk qn_2 qn_1 qn qn1 in
    let! tangents := upd tangents (n - 1) t in
    let! t := GetTk qn_1 qn qn1 qn2 in
    let! tangents := upd tangents n t in
    Ok (Some tangents).

(* Interpolation.cpp:378-437 *)
Definition ComputeTangent (throughPoints : list pt3) : res (list pt3) :=
  let size := len throughPoints in
  if (size =? 0)%Z then Ok []
  else if (size =? 1)%Z then Ok [xyz0]
  else if (size =? 2)%Z then
    let! a := get throughPoints 1 in
    let! b := get throughPoints 0 in
    let dir := xyz_sub a b in Ok [dir; dir]
  else
    let! params := GetChordParameterization throughPoints in
    let! du := mkvec (size - 1) n0 in
    let! dP := mkvec (size - 1) xyz0 in
    let! s := for_up 0 (size - 1) (du, dP) (fun i '(du, dP) =>
      let! a := get params (i + 1) in
      let! b := get params i in
      let! du := upd du i (a - b) in
      let! p := get throughPoints (i + 1) in
      let! q := get throughPoints i in
      let! dP := upd dP i (xyz_sub p q) in
      Ok (du, dP)) in
    let '(du, dP) := s in
    let! tangents := mkvec size xyz0 in
    let! tangents := for_up 1 (size - 1) tangents (fun i tangents =>
      let! w1 := get du i in
      let! w2 := get du (i - 1) in
      let! d := get dP i in
      let! e := get dP (i - 1) in
      if IsAlmostEqualTo w1 n0 && IsAlmostEqualTo w2 n0 then upd tangents i xyz0
      else if IsAlmostEqualTo w1 n0 then let! x := xyz_div d w1 in upd tangents i x
      else if IsAlmostEqualTo w2 n0 then let! x := xyz_div e w2 in upd tangents i x
      else
        let! a := ndiv w2 (w1 + w2) in
        let! x := xyz_div e w2 in
        let! y := xyz_div d w1 in
        upd tangents i (xyz_add (xyz_scale a x) (xyz_scale (n1 - a) y))) in
    let! du0 := get du 0 in
    let! t1 := get tangents 1 in
    let! tangents := (if IsGreaterThan du0 n0 then
        let! p := get dP 0 in
        let! deriv1 := xyz_div p du0 in
        upd tangents 0 (xyz_sub (xyz_scale (nofZ 2) deriv1) t1)
      else upd tangents 0 t1) in
    let last := (size - 1)%Z in
    let! dul := get du (last - 1) in
    let! tl := get tangents (last - 1) in
    if IsGreaterThan dul n0 then
      let! p := get dP (last - 1) in
      let! derivN := xyz_div p dul in
      upd tangents last (xyz_sub (xyz_scale (nofZ 2) derivN) tl)
    else upd tangents last tl.

End Interp.

#[global] Instance Floor_R : Floor R := {| nfloor := Int_part |}.
