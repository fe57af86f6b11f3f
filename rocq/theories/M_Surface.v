(* Model of src/LNLib/Geometry/Surface/NurbsSurface.cpp: evaluation, derivatives, iso-curves,
   swapping, reversal, knot insertion and refinement, reparametrisation and the surface
   constructors. LN_NurbsSurface is Surface A (XYZW A); functions that only add and scale
   control points are written for any vector type T. A UV is passed as its coordinates. *)
From Coq Require Import ZArith List Bool.
From Verif Require Import Base Num Vec M_MathUtils M_Polynomials M_XYZ M_Bspline M_NurbsCurve M_Knots M_Curve2
  M_Geom M_Conic.
Import ListNotations.
Open Scope Z_scope.

(* LNEnums.h:36-41 *)
Inductive SurfaceDirection : Set := All | UDirection | VDirection.
(* LNEnums.h:43-51 *)
Inductive SurfaceCurvature : Set := Gauss | Mean | Maximum | Minimum | Abs | Rms.

Section SurfaceT.
Context {A : Type} {NA : Num A} {T : Type} {VT : Vec A T}.
Notation surface := (Surface A T).
Notation curve := (Curve A T).

(* NurbsSurface.cpp:90-107 *)
Definition NurbsSurfaceCheck (s : surface) : res unit :=
  validate (0 <? DegreeU s) ;;
  validate (0 <? DegreeV s) ;;
  validate (0 <? len (KnotVectorU s)) ;;
  validate (IsValidKnotVector (KnotVectorU s)) ;;
  validate (0 <? len (KnotVectorV s)) ;;
  validate (IsValidKnotVector (KnotVectorV s)) ;;
  validate (0 <? len (SControlPoints s)) ;;
  validate (IsValidNurbs (DegreeU s) (len (KnotVectorU s)) (len (SControlPoints s))) ;;
  let! row0 := get (SControlPoints s) 0 in
  validate (IsValidNurbs (DegreeV s) (len (KnotVectorV s)) (len row0)).

(* std::clamp: undefined when the bounds are reversed *)
Definition std_clamp (x lo hi : A) : res A :=
  if nltb hi lo then UB else
  if nltb x lo then Ok lo else if nltb hi x then Ok hi else Ok x.

(* NurbsSurface.cpp:109-170 *)
Definition GetIsoCurve (s : surface) (fixedParam : A) (isUDirection : bool) : res curve :=
  let numU := len (SControlPoints s) in
  if numU =? 0 then Ok emptyCurve else
  let! row0 := get (SControlPoints s) 0 in
  let numV := len row0 in
  if isUDirection then
    let degreeV := DegreeV s in
    let knotVectorV := KnotVectorV s in
    let! minV := get knotVectorV degreeV in
    let! maxV := get knotVectorV (len knotVectorV - degreeV - 1) in
    let! fixedV := std_clamp fixedParam minV maxV in
    let! vSpan := GetKnotSpanIndex degreeV knotVectorV fixedV in
    let! Nv := BasisFunctions vSpan degreeV knotVectorV fixedV in
    let! points := for_up 0 numU [] (fun i points =>
      let! combinedPoint := for_up 0 (degreeV + 1) vzero (fun j combinedPoint =>
        let vIndex := vSpan - degreeV + j in
        let! b := getu Nv j in
        let! c := get2 (SControlPoints s) i vIndex in
        Ok (vadd combinedPoint (vscale b c))) in
      Ok (points ++ [combinedPoint])) in
    Ok (mkCurve (DegreeU s) (KnotVectorU s) points)
  else
    let degreeU := DegreeU s in
    let knotVectorU := KnotVectorU s in
    let! minU := get knotVectorU degreeU in
    let! maxU := get knotVectorU (len knotVectorU - degreeU - 1) in
    let! fixedU := std_clamp fixedParam minU maxU in
    let! uSpan := GetKnotSpanIndex degreeU knotVectorU fixedU in
    let! Nu := BasisFunctions uSpan degreeU knotVectorU fixedU in
    let! points := for_up 0 numV [] (fun j points =>
      let! combinedPoint := for_up 0 (degreeU + 1) vzero (fun i combinedPoint =>
        let uIndex := uSpan - degreeU + i in
        let! b := getu Nu i in
        let! c := get2 (SControlPoints s) uIndex j in
        Ok (vadd combinedPoint (vscale b c))) in
      Ok (points ++ [combinedPoint])) in
    Ok (mkCurve (DegreeV s) (KnotVectorV s) points).

(* NurbsSurface.cpp:457-472, surface and result being different objects *)
Definition Swap (s : surface) : res surface :=
  let! transposedControlPoints := Transpose (SControlPoints s) in
  Ok (mkSurface (DegreeV s) (DegreeU s) (KnotVectorV s) (KnotVectorU s) transposedControlPoints).

(* NurbsSurface.cpp:457-472 when surface and result are the same object: each assignment
   (lines 467-471) reads what the ones before it have written *)
Definition Swap_in_place (s : surface) : res surface :=
  let! transposedControlPoints := Transpose (SControlPoints s) in
  let s := mkSurface (DegreeV s) (DegreeV s) (KnotVectorU s) (KnotVectorV s) (SControlPoints s) in
  let s := mkSurface (DegreeU s) (DegreeU s) (KnotVectorU s) (KnotVectorV s) (SControlPoints s) in
  let s := mkSurface (DegreeU s) (DegreeV s) (KnotVectorV s) (KnotVectorV s) (SControlPoints s) in
  let s := mkSurface (DegreeU s) (DegreeV s) (KnotVectorU s) (KnotVectorU s) (SControlPoints s) in
  Ok (mkSurface (DegreeU s) (DegreeV s) (KnotVectorU s) (KnotVectorV s) transposedControlPoints).

(* NurbsSurface.cpp:487-496 and 501-510 *)
Definition reversed_knots (knotVector : list A) : res (list A) :=
  let size := len knotVector in
  let! reversedKnotVector := mkvec size n0 in
  let! min := get knotVector 0 in
  let! _ := get knotVector (size - 1) in
  let! reversedKnotVector := upd reversedKnotVector 0 min in
  for_up 1 size reversedKnotVector (fun i v =>
    let! x := get v (i - 1) in
    let! a := get knotVector (size - i) in
    let! b := get knotVector (size - i - 1) in
    upd v i (nadd x (nsub a b))).

(* NurbsSurface.cpp:519-527: the swaps of one column; the pairs (start, end) visited by the
   while loop are (i, row-1-i) for i < row/2 *)
Definition swap_column (row : Z) (i : Z) (controlPoints : list (list T)) : res (list (list T)) :=
  for_up 0 (row / 2) controlPoints (fun start controlPoints =>
    let end_ := row - 1 - start in
    let! a := get2 controlPoints start i in
    let! b := get2 controlPoints end_ i in
    let! controlPoints := upd2 controlPoints start i b in
    upd2 controlPoints end_ i a).

(* NurbsSurface.cpp:474-546. The reference parameter result is passed in; the fields the
   code does not assign keep what they held. *)
Definition SurfaceReverse (s : surface) (direction : SurfaceDirection) (result : surface) : res surface :=
  let controlPoints := SControlPoints s in
  let! knotVectorU :=
    match direction with
    | All | UDirection => reversed_knots (KnotVectorU s)
    | VDirection => Ok (KnotVectorU result)
    end in
  let! knotVectorV :=
    match direction with
    | All | VDirection => reversed_knots (KnotVectorV s)
    | UDirection => Ok (KnotVectorV result)
    end in
  let! points :=
    match direction with
    | UDirection =>
        let row := len controlPoints in
        let! row0 := get controlPoints 0 in
        let column := len row0 in
        for_up 0 column controlPoints (fun i controlPoints => swap_column row i controlPoints)
    | VDirection =>
        let size := len controlPoints in
        let! newControlPoints := mkvec size [] in
        for_up 0 size newControlPoints (fun i newControlPoints =>
          let! r := get controlPoints i in
          Ok (newControlPoints ++ [rev r]))
    | All => Ok (rev controlPoints)
    end in
  Ok (mkSurface (DegreeU s) (DegreeV s) knotVectorU knotVectorV points).

(* NurbsSurface.cpp:606-614: the coefficients of the insertion *)
Definition insert_alpha (degree multiplicity times knotSpanIndex : Z) (knotVector : list A) (insertKnot : A)
  : res (list (list A)) :=
  let! row := mkvec (times + 1) n0 in
  let! alpha := mkvec (degree - multiplicity) row in
  for_up 1 (times + 1) alpha (fun j alpha =>
    let L := knotSpanIndex - degree + j in
    for_up 0 (degree - j - multiplicity + 1) alpha (fun i alpha =>
      let! a := get knotVector (L + i) in
      let! b := get knotVector (i + knotSpanIndex + 1) in
      let! q := ndiv (nsub insertKnot a) (nsub b a) in
      upd2 alpha i j q)).

(* NurbsSurface.cpp:627-661 (U direction) and 670-700 (V direction): the new control points of
   one column or one row. rd reads a control point of that line, wr writes one of the new
   line; temp is the work array shared by all lines. *)
Definition insert_line {S : Type} (degree multiplicity times knotSpanIndex count : Z) (alpha : list (list A))
  (rd : Z -> res T) (wr : S -> Z -> T -> res S) (temp : list T) (updated : S) : res (list T * S) :=
  let! updated := for_up 0 (knotSpanIndex - degree + 1) updated (fun i updated =>
    let! x := rd i in wr updated i x) in
  let! updated := for_up (knotSpanIndex - multiplicity) count updated (fun i updated =>
    let! x := rd i in wr updated (i + times) x) in
  let! temp := for_up 0 (degree - multiplicity + 1) temp (fun i temp =>
    let! x := rd (knotSpanIndex - degree + i) in upd temp i x) in
  let! s := for_up 1 (times + 1) (temp, updated) (fun j '(temp, updated) =>
    let L := knotSpanIndex - degree + j in
    let! temp := for_up 0 (degree - j - multiplicity + 1) temp (fun i temp =>
      let! a := get2 alpha i j in
      let! x := get temp (i + 1) in
      let! y := get temp i in
      upd temp i (blend a x y)) in
    let! x := get temp 0 in
    let! updated := wr updated L x in
    let! x := get temp (degree - j - multiplicity) in
    let! updated := wr updated (knotSpanIndex + times - j - multiplicity) x in
    Ok (temp, updated)) in
  let '(temp, updated) := s in
  (* L is 0 before the loop and knotSpanIndex - degree + times after it *)
  let L := if times <? 1 then 0 else knotSpanIndex - degree + times in
  let! updated := for_up (L + 1) (knotSpanIndex - multiplicity) updated (fun i updated =>
    let! x := get temp (i - L) in wr updated i x) in
  Ok (temp, updated).

(* NurbsSurface.cpp:548-697 *)
Definition SurfaceInsertKnot (s : surface) (insertKnot : A) (times : Z) (isUDirection : bool) : res surface :=
  let controlPoints := SControlPoints s in
  (if isUDirection
   then validate (IsValidNurbs (DegreeU s) (len (KnotVectorU s)) (len controlPoints))
   else let! row0 := get controlPoints 0 in
        validate (IsValidNurbs (DegreeV s) (len (KnotVectorV s)) (len row0))) ;;
  let degree := if isUDirection then DegreeU s else DegreeV s in
  let knotVector := if isUDirection then KnotVectorU s else KnotVectorV s in
  let! knotSpanIndex := GetKnotSpanIndex degree knotVector insertKnot in
  let! multiplicity := GetKnotMultiplicity knotVector insertKnot in
  if multiplicity =? degree then Ok s else
  let times := if degree <? times + multiplicity then degree - multiplicity else times in
  let! insertedKnotVector := mkvec (len knotVector + times) n0 in
  let! insertedKnotVector := for_up 0 (knotSpanIndex + 1) insertedKnotVector (fun i v =>
    let! x := get knotVector i in upd v i x) in
  let! insertedKnotVector := for_up 1 (times + 1) insertedKnotVector (fun i v =>
    upd v (knotSpanIndex + i) insertKnot) in
  let! insertedKnotVector := for_up (knotSpanIndex + 1) (len knotVector) insertedKnotVector (fun i v =>
    let! x := get knotVector i in upd v (i + times) x) in
  let! alpha := insert_alpha degree multiplicity times knotSpanIndex knotVector insertKnot in
  let! temp := mkvec (degree + 1) vzero in
  let rows := len controlPoints in
  let! row0 := get controlPoints 0 in
  let columns := len row0 in
  if isUDirection then
    let! row := mkvec columns vzero in
    let! updated := mkvec (rows + times) row in
    let! r := for_up 0 columns (temp, updated) (fun col '(temp, updated) =>
      insert_line degree multiplicity times knotSpanIndex rows alpha
        (fun i => get2 controlPoints i col) (fun u i x => upd2 u i col x) temp updated) in
    Ok (mkSurface (DegreeU s) (DegreeV s) insertedKnotVector (KnotVectorV s) (snd r))
  else
    let! row := mkvec (columns + times) vzero in
    let! updated := mkvec rows row in
    let! r := for_up 0 rows (temp, updated) (fun row '(temp, updated) =>
      insert_line degree multiplicity times knotSpanIndex columns alpha
        (fun i => get2 controlPoints row i) (fun u i x => upd2 u row i x) temp updated) in
    Ok (mkSurface (DegreeU s) (DegreeV s) (KnotVectorU s) insertedKnotVector (snd r)).

(* NurbsSurface.cpp:720-732 and 741-753: refine every row; the knot vector of the last
   refined row is kept *)
Definition refine_rows (degree : Z) (knotVector : list A) (rows : list (list T)) (insertKnotElements : list A)
  : res (list A * list (list T)) :=
  for_up 0 (len rows) ([], []) (fun i '(_, tempControlPoints) =>
    let! row := get rows i in
    let! newtc := RefineKnotVector (mkCurve degree knotVector row) insertKnotElements in
    Ok (KnotVector newtc, tempControlPoints ++ [ControlPoints newtc])).

(* NurbsSurface.cpp:699-755 *)
Definition SurfaceRefineKnotVector (s : surface) (insertKnotElements : list A) (isUDirection : bool) : res surface :=
  validate (0 <? len insertKnotElements) ;;
  if isUDirection then
    let! transposedControlPoints := Transpose (SControlPoints s) in
    let! r := refine_rows (DegreeU s) (KnotVectorU s) transposedControlPoints insertKnotElements in
    let! updatedControlPoints := Transpose (snd r) in
    Ok (mkSurface (DegreeU s) (DegreeV s) (fst r) (KnotVectorV s) updatedControlPoints)
  else
    let! r := refine_rows (DegreeV s) (KnotVectorV s) (SControlPoints s) insertKnotElements in
    Ok (mkSurface (DegreeU s) (DegreeV s) (KnotVectorU s) (fst r) (snd r)).

(* NurbsSurface.cpp:1639-1657; || and && are lazy *)
Definition SurfaceReparametrize (s : surface) (minU maxU minV maxV : A) : res surface :=
  let knotVectorU := KnotVectorU s in
  let knotVectorV := KnotVectorV s in
  let! firstU := get knotVectorU 0 in
  let! lastU := get knotVectorU (len knotVectorU - 1) in
  if IsAlmostEqualTo minU firstU && IsAlmostEqualTo maxU lastU then Ok s else
  let! firstV := get knotVectorV 0 in
  let! lastV := get knotVectorV (len knotVectorV - 1) in
  if IsAlmostEqualTo minV firstV && IsAlmostEqualTo maxV lastV then Ok s else
  let! newKnotVectorU := Rescale knotVectorU minU maxU in
  let! newKnotVectorV := Rescale knotVectorV minV maxV in
  Ok (mkSurface (DegreeU s) (DegreeV s) newKnotVectorU newKnotVectorV (SControlPoints s)).

End SurfaceT.

Section SurfaceW.
Context {A : Type} {NA : Num A}.
Notation surface := (Surface A (XYZW A)).
Notation curve := (Curve A (XYZW A)).
Notation pt3 := (XYZ A).
Local Open Scope num_scope.

(* NurbsSurface.cpp:172-176 *)
Definition NurbsSurfacePoint (s : surface) (u v : A) : res pt3 :=
  let! result := GetPointOnSurface s u v in
  ToXYZ result true.

(* NurbsSurface.cpp:178-223; wders is derived from ders in the same loop nest as Aders *)
Definition ComputeRationalSurfaceDerivatives (s : surface) (derivative : Z) (u v : A) : res (list (list pt3)) :=
  validate (0 <? derivative)%Z ;;
  validate_domain (KnotVectorU s) u ;;
  validate_domain (KnotVectorV s) v ;;
  let! row := mkvec (derivative + 1)%Z xyz0 in
  let! derivatives := mkvec (derivative + 1)%Z row in
  let! ders := SurfaceComputeDerivatives s derivative u v in
  let! Aders := mkvec (derivative + 1)%Z row in
  let! wrow := mkvec (derivative + 1)%Z n0 in
  let! wders := mkvec (derivative + 1)%Z wrow in
  let! ders0 := get ders 0 in
  let! r := for_up 0 (len ders) (Aders, wders) (fun i r =>
    for_up 0 (len ders0) r (fun j '(Aders, wders) =>
      let! d := get2 ders i j in
      let! x := ToXYZ d false in
      let! Aders := upd2 Aders i j x in
      let! wders := upd2 wders i j (ww d) in
      Ok (Aders, wders))) in
  let '(Aders, wders) := r in
  for_up 0 (derivative + 1)%Z derivatives (fun k derivatives =>
    for_up 0 (derivative - k + 1)%Z derivatives (fun l derivatives =>
      let! x := get2 Aders k l in
      let! x := for_up 1 (l + 1)%Z x (fun j x =>
        let! b := Binomial l j in
        let! w := get2 wders 0 j in
        let! d := get2 derivatives k (l - j)%Z in
        Ok (xyz_sub x (xyz_scale (b * w) d))) in
      let! x := for_up 1 (k + 1)%Z x (fun i x =>
        let! b := Binomial k i in
        let! w := get2 wders i 0 in
        let! d := get2 derivatives (k - i)%Z l in
        let x := xyz_sub x (xyz_scale (b * w) d) in
        let! v2 := for_up 1 (l + 1)%Z xyz0 (fun j v2 =>
          let! b := Binomial l j in
          let! w := get2 wders i j in
          let! d := get2 derivatives (k - i)%Z (l - j)%Z in
          Ok (xyz_add v2 (xyz_scale (b * w) d))) in
        Ok (xyz_sub x (xyz_scale b v2))) in
      let! w00 := get2 wders 0 0 in
      let! q := xyz_div x w00 in
      upd2 derivatives k l q)).

(* NurbsSurface.cpp:225-255; the results are S, Su, Sv *)
Definition ComputeRationalSurfaceFirstOrderDerivative (s : surface) (u v : A) : res (pt3 * pt3 * pt3) :=
  validate_domain (KnotVectorU s) u ;;
  validate_domain (KnotVectorV s) v ;;
  let! ders := SurfaceComputeFirstOrderDerivative s u v [[xyzw0; xyzw0]; [xyzw0; xyzw0]] in
  let! d00 := get2 ders 0 0 in
  let! d01 := get2 ders 0 1 in
  let! d10 := get2 ders 1 0 in
  let! A00 := ToXYZ d00 false in
  let! A01 := ToXYZ d01 false in
  let! A10 := ToXYZ d10 false in
  let! invW := ndiv n1 (ww d00) in
  let S := xyz_scale invW A00 in
  let Sv := xyz_scale invW (xyz_sub A01 (xyz_scale (ww d01) S)) in
  let Su := xyz_scale invW (xyz_sub A10 (xyz_scale (ww d10) S)) in
  Ok (S, Su, Sv).

(* NurbsSurface.cpp:442-455 *)
Definition Normal (s : surface) (u v : A) : res pt3 :=
  validate_domain (KnotVectorU s) u ;;
  validate_domain (KnotVectorV s) v ;;
  let! derivatives := ComputeRationalSurfaceDerivatives s 1 u v in
  let! du := get2 derivatives 1 0 in
  let! dv := get2 derivatives 0 1 in
  let! n := Normalize du in
  Normalize (CrossProduct n dv).

(* NurbsSurface.cpp:257-321; abs is the floating point overload *)
Definition SurfaceCurvatureAt (s : surface) (curvature : SurfaceCurvature) (u v : A) : res A :=
  validate_domain (KnotVectorU s) u ;;
  validate_domain (KnotVectorV s) v ;;
  let! ders := ComputeRationalSurfaceDerivatives s 2 u v in
  let! Suu := get2 ders 2 0 in
  let! Svv := get2 ders 0 2 in
  let! Suv := get2 ders 1 1 in
  let! Su := get2 ders 1 0 in
  let! Sv := get2 ders 0 1 in
  let! normal := Normal s u v in
  let L := DotProduct Suu normal in
  let M := DotProduct Suv normal in
  let N := DotProduct Svv normal in
  let E := DotProduct Su Su in
  let F := DotProduct Su Sv in
  let G := DotProduct Sv Sv in
  let denominator := E * G - F * F in
  if IsAlmostEqualTo denominator n0 then Ok n0 else
  let! K := ndiv (L * N - M * M) denominator in
  let! H := ndiv (E * N + G * L - nofZ 2 * F * M) (nofZ 2 * denominator) in
  let! q := nsqrt (nabs (H * H - K)) in
  let k1 := H + q in
  let k2 := H - q in
  match curvature with
  | Gauss => Ok K
  | Mean => Ok H
  | Maximum => Ok k1
  | Minimum => Ok k2
  | Abs => Ok (nabs k1 + nabs k2)
  | Rms => nsqrt (k1 * k1 + k2 * k2)
  end.

(* NurbsSurface.cpp:1659-1690; None is the return value false *)
Definition GetUVTangent (s : surface) (u v : A) (tangent : pt3) : res (option (A * A)) :=
  let! derivatives := ComputeRationalSurfaceDerivatives s 1 u v in
  let! Su := get2 derivatives 1 0 in
  let! Sv := get2 derivatives 0 1 in
  let a := DotProduct Su Su in
  let b := DotProduct Su Sv in
  let c := DotProduct Su Sv in
  let d := DotProduct Sv Sv in
  let e := DotProduct Su tangent in
  let f := DotProduct Sv tangent in
  if IsAlmostEqualTo (a * d) (b * c) then Ok None else
  let! u := ndiv (e * d - b * f) (a * d - b * c) in
  let! v := ndiv (a * f - e * c) (a * d - b * c) in
  Ok (Some (u, v)).

(* NurbsSurface.cpp:1692-1724 *)
Definition CreateBilinearSurface (topLeftPoint topRightPoint bottomLeftPoint bottomRightPoint : pt3) : res surface :=
  let degree := 3%Z in
  let! r := for_up 0 (degree + 1)%Z ([], [], []) (fun i '(controlPoints, knotVectorU, knotVectorV) =>
    let! q := ndiv (nofZ i) (nofZ degree) in
    let l := n1 - q in
    let! row := for_up 0 (degree + 1)%Z [] (fun j row =>
      let d1 := xyz_add (xyz_scale l topLeftPoint) (xyz_scale (n1 - l) bottomLeftPoint) in
      let d2 := xyz_add (xyz_scale l topRightPoint) (xyz_scale (n1 - l) bottomRightPoint) in
      let! h := ndiv (nofZ j) (nofZ degree) in
      let res := xyz_add (xyz_scale (n1 - h) d1) (xyz_scale h d2) in
      Ok (row ++ [mkW res n1])) in
    Ok (controlPoints ++ [row], [n0] ++ knotVectorU ++ [n1], [n0] ++ knotVectorV ++ [n1])) in
  let '(controlPoints, knotVectorU, knotVectorV) := r in
  Ok (mkSurface degree degree knotVectorU knotVectorV controlPoints).

(* NurbsSurface.cpp:1765-1846. The code compares kv0 != kv1 first and skips the refinement
   when they are equal; equal knot vectors need no insertion, so the test is kept only as
   the condition it is. *)
Fixpoint vec_eqb (a b : list A) : bool :=
  match a, b with
  | [], [] => true
  | x :: a, y :: b => neqb x y && vec_eqb a b
  | _, _ => false
  end.

Definition ruled_raise (c : curve) (degree : Z) : res curve :=
  if (Degree c <? degree)%Z then ElevateDegree c (degree - Degree c)%Z else Ok c.

Definition CreateRuledSurface (curve0 curve1 : curve) : res surface :=
  let! a0 := get (KnotVector curve0) 0 in
  let! a1 := get (KnotVector curve1) 0 in
  let! b0 := get (KnotVector curve0) (len (KnotVector curve0) - 1)%Z in
  let! b1 := get (KnotVector curve1) (len (KnotVector curve1) - 1)%Z in
  validate (IsAlmostEqualTo a0 a1 && IsAlmostEqualTo b0 b1) ;;
  let degreeU := Z.max (Degree curve0) (Degree curve1) in
  let! tc0 := ruled_raise curve0 degreeU in
  let! tc1 := ruled_raise curve1 degreeU in
  let kv0 := KnotVector tc0 in
  let kv1 := KnotVector tc1 in
  let! r :=
    if vec_eqb kv0 kv1 then Ok (kv0, ControlPoints tc0, ControlPoints tc1)
    else
      let '(insertedKnotElement0, insertedKnotElement1) := GetInsertedKnotElement kv0 kv1 [] [] in
      let! r0 :=
        if (0 <? len insertedKnotElement0)%Z then
          let! newtc := RefineKnotVector (mkCurve degreeU kv0 (ControlPoints tc0)) insertedKnotElement0 in
          Ok (KnotVector newtc, ControlPoints newtc)
        else Ok (kv0, ControlPoints tc0) in
      let! cp1 :=
        if (0 <? len insertedKnotElement1)%Z then
          let! newtc := RefineKnotVector (mkCurve degreeU kv1 (ControlPoints tc1)) insertedKnotElement1 in
          Ok (ControlPoints newtc)
        else Ok (ControlPoints tc1) in
      Ok (fst r0, snd r0, cp1) in
  let '(knotVectorU, cp0, cp1) := r in
  let size := len cp0 in
  let! controlPoints := mkvec size [xyzw0; xyzw0] in
  let! controlPoints := for_up 0 size controlPoints (fun i controlPoints =>
    let! x := get cp0 i in
    let! controlPoints := upd2 controlPoints i 0 x in
    let! y := get cp1 i in
    upd2 controlPoints i 1 y) in
  Ok (mkSurface degreeU 1 knotVectorU [n0; n0; n1; n1] controlPoints).

(* NurbsSurface.cpp:1964-2024 *)
Definition NonUniformScaling (controlPoints : list (list (XYZW A))) (xFactor yFactor zFactor : A) (referencePoint : pt3)
  : res (list (list (XYZW A))) :=
  let row := len controlPoints in
  let! row0 := get controlPoints 0 in
  let col := len row0 in
  for_up 0 row [] (fun i result =>
    let! r := for_up 0 col [] (fun j r =>
      let! current := get2 controlPoints i j in
      let weight := ww current in
      let! x := ndiv (wx current) weight in
      let! y := ndiv (wy current) weight in
      let! z := ndiv (wz current) weight in
      if xyz_IsAlmostEqualTo referencePoint xyz0 then
        Ok (r ++ [mkXYZW (x * xFactor) (y * yFactor) (z * zFactor) weight])
      else
        Ok (r ++ [mkXYZW (x * xFactor + (n1 - xFactor) * gx referencePoint)
                         (y * yFactor + (n1 - yFactor) * gy referencePoint)
                         (z * zFactor + (n1 - zFactor) * gz referencePoint) weight])) in
    Ok (result ++ [r])).

(* LNObject.h: LN_BoundingBox3d; default-constructed XYZ is the origin *)
Record BoundingBox : Type := mkBox { MinPoint : pt3; MaxPoint : pt3 }.

(* std::min, std::max *)
Definition std_min (a b : A) : A := if nltb b a then b else a.
Definition std_max (a b : A) : A := if nltb a b then b else a.

(* NurbsSurface.cpp:340-346 and 360-366 *)
Definition box_extend (box : BoundingBox) (p : pt3) : BoundingBox :=
  mkBox (mkXYZ (std_min (gx (MinPoint box)) (gx p)) (std_min (gy (MinPoint box)) (gy p)) (std_min (gz (MinPoint box)) (gz p)))
        (mkXYZ (std_max (gx (MaxPoint box)) (gx p)) (std_max (gy (MaxPoint box)) (gy p)) (std_max (gz (MaxPoint box)) (gz p))).

(* NurbsSurface.cpp:323-379. The V parameter is read with the index of the U loop (line 356),
   as in the code. *)
Definition GetBoundingBox (s : surface) : res BoundingBox :=
  let controlPoints := SControlPoints s in
  if (len controlPoints =? 0)%Z then Ok (mkBox xyz0 xyz0) else
  let! row0 := get controlPoints 0 in
  if (len row0 =? 0)%Z then Ok (mkBox xyz0 xyz0) else
  let! p00 := get row0 0 in
  let! p := ToXYZ p00 true in
  let! box0 := for_up 0 (len controlPoints) (mkBox p p) (fun i box0 =>
    let! row := get controlPoints i in
    for_up 0 (len row) box0 (fun j box0 =>
      let! ptw := get row j in
      let! pt := ToXYZ ptw true in
      Ok (box_extend box0 pt))) in
  let! box1 := for_up 0 (len (KnotVectorU s) - 1)%Z (mkBox xyz0 xyz0) (fun i box1 =>
    for_up 0 (len (KnotVectorV s) - 1)%Z box1 (fun _ box1 =>
      let! u := get (KnotVectorU s) i in
      let! v := get (KnotVectorV s) i in
      let! pt := NurbsSurfacePoint s u v in
      Ok (box_extend box1 pt))) in
  Ok (mkBox (mkXYZ (std_max (gx (MinPoint box0)) (gx (MinPoint box1)))
                   (std_max (gy (MinPoint box0)) (gy (MinPoint box1)))
                   (std_max (gz (MinPoint box0)) (gz (MinPoint box1))))
            (mkXYZ (std_min (gx (MaxPoint box0)) (gx (MaxPoint box1)))
                   (std_min (gy (MaxPoint box0)) (gy (MaxPoint box1)))
                   (std_min (gz (MaxPoint box0)) (gz (MaxPoint box1))))).

Context {TA : Trig A}.

(* NurbsSurface.cpp:1726-1763; None is the return value false *)
Definition CreateCylindricalSurface (origin xAxis yAxis : pt3) (startRad endRad radius height : A) : res (option surface) :=
  validate (negb (IsZero xAxis)) ;;
  validate (negb (IsZero yAxis)) ;;
  validate (IsGreaterThan endRad startRad) ;;
  validate (IsGreaterThan radius n0) ;;
  validate (IsGreaterThan height n0) ;;
  let! nX := Normalize xAxis in
  let! nY := Normalize yAxis in
  let! arc := CreateArc origin nX nY startRad endRad radius radius in
  match arc with
  | None => Ok None
  | Some arc =>
      let axis := CrossProduct nX nY in
      let translation := xyz_scale height axis in
      let halfTranslation := xyz_scale (nlit 1 2 * height) axis in
      let size := len (ControlPoints arc) in
      let! row := mkvec size xyzw0 in
      let! controlPoints := mkvec 3 row in
      let! controlPoints := for_up 0 size controlPoints (fun i controlPoints =>
        let! c := get (ControlPoints arc) i in
        let w := ww c in
        let! p := ToXYZ c true in
        let! controlPoints := upd2 controlPoints 2 i (mkW p w) in
        let! controlPoints := upd2 controlPoints 1 i (mkW (xyz_add halfTranslation p) w) in
        upd2 controlPoints 0 i (mkW (xyz_add translation p) w)) in
      Ok (Some (mkSurface 2 (Degree arc) [n0; n0; n0; n1; n1; n1] (KnotVector arc) controlPoints))
  end.

(* NurbsSurface.cpp:1853-1893: the knots of one to four arcs *)
Definition revolve_knots (narcs : Z) (knotVectorU : list A) : res (list A) :=
  let! third := ndiv n1 (nofZ 3) in
  let! twothirds := ndiv (nofZ 2) (nofZ 3) in
  let! k :=
    (if narcs =? 2 then let! k := upd knotVectorU 4 (nlit 1 2) in upd k 3 (nlit 1 2)
     else if narcs =? 3 then
       let! k := upd knotVectorU 4 third in let! k := upd k 3 third in
       let! k := upd k 6 twothirds in upd k 5 twothirds
     else if narcs =? 4 then
       let! k := upd knotVectorU 4 (nlit 1 4) in let! k := upd k 3 (nlit 1 4) in
       let! k := upd k 6 (nlit 1 2) in let! k := upd k 5 (nlit 1 2) in
       let! k := upd k 8 (nlit 3 4) in upd k 7 (nlit 3 4)
     else Ok knotVectorU)%Z in
  let j := (3 + 2 * (narcs - 1))%Z in
  for_up 0 3 k (fun i k =>
    let! k := upd k i n0 in
    upd k (j + i)%Z n1).

(* NurbsSurface.cpp:1848-1962; None is the return value false. The locals X, Y, P0, P2, T0, T2
   are assigned before they are read in every round of the outer loop. *)
Definition CreateRevolvedSurface (origin axis : pt3) (rad : A) (profile : curve) : res (option surface) :=
  validate (negb (IsZero axis)) ;;
  let! half := ndiv tpi (nofZ 2) in
  let! threehalf := ndiv (nofZ 3 * tpi) (nofZ 2) in
  let narcs := (if IsLessThanOrEqual rad half then 1
                else if IsLessThanOrEqual rad tpi then 2
                else if IsLessThanOrEqual rad threehalf then 3 else 4)%Z in
  let! knotVectorU := mkvec (2 * narcs + 3 + 1)%Z n0 in
  let! knotVectorU := revolve_knots narcs knotVectorU in
  let! dtheta := ndiv rad (nofZ narcs) in
  let n := (2 * narcs)%Z in
  let! h := ndiv dtheta (nofZ 2) in
  let wm := tcos h in
  let! cosines := mkvec (narcs + 1)%Z n0 in
  let! sines := mkvec (narcs + 1)%Z n0 in
  let! r := for_up 1 (narcs + 1)%Z (n0, cosines, sines) (fun i '(angle, cosines, sines) =>
    let angle := angle + dtheta in
    let! cosines := upd cosines i (tcos angle) in
    let! sines := upd sines i (tsin angle) in
    Ok (angle, cosines, sines)) in
  let '(_, cosines, sines) := r in
  let m := (len (ControlPoints profile) - 1)%Z in
  let! row := mkvec (m + 1)%Z xyzw0 in
  let! controlPoints := mkvec (n + 1)%Z row in
  let! controlPoints := for_up 0 (m + 1)%Z (Some controlPoints) (fun j controlPoints =>
    match controlPoints with
    | None => Ok None
    | Some controlPoints =>
      let! gp := get (ControlPoints profile) j in
      let! p := ToXYZ gp true in
      let! foot := PointToRay origin axis p in
      let X := xyz_sub p foot in
      let! nX := Normalize X in
      let! r := Length nX in
      let Y := CrossProduct axis X in
      let! X := if IsGreaterThan r n0 then xyz_div X r else Ok X in
      let! Y := if IsGreaterThan r n0 then xyz_div Y r else Ok Y in
      let! controlPoints := upd2 controlPoints 0 j (mkW p (ww gp)) in
      let! s := for_up 1 (narcs + 1)%Z (Some (controlPoints, p, Y, 0%Z)) (fun i s =>
        match s with
        | None => Ok None
        | Some (controlPoints, P0, T0, index) =>
          let! c := get cosines i in
          let! sn := get sines i in
          let P2 := if IsAlmostEqualTo r n0 then foot
                    else xyz_add (xyz_add foot (xyz_scale (r * c) X)) (xyz_scale (r * sn) Y) in
          let! controlPoints := upd2 controlPoints (index + 2)%Z j (mkW P2 (ww gp)) in
          let T2 := xyz_add (xyz_scale (nopp sn) X) (xyz_scale c Y) in
          let! mid :=
            if IsAlmostEqualTo r n0 then Ok (Some foot)
            else
              let! q := ComputeRays P0 T0 P2 T2 n0 n0 xyz0 in
              let '(type, _, _, intersectPoint) := q in
              match type with Intersecting => Ok (Some intersectPoint) | _ => Ok None end in
          match mid with
          | None => Ok None
          | Some mid =>
            let! controlPoints := upd2 controlPoints (index + 1)%Z j (mkW mid (wm * ww gp)) in
            if (i <? narcs)%Z then Ok (Some (controlPoints, P2, T2, (index + 2)%Z))
            else Ok (Some (controlPoints, P0, T0, (index + 2)%Z))
          end
        end) in
      match s with
      | None => Ok None
      | Some (controlPoints, _, _, _) => Ok (Some controlPoints)
      end
    end) in
  match controlPoints with
  | None => Ok None
  | Some controlPoints =>
      Ok (Some (mkSurface 2 (Degree profile) knotVectorU (KnotVector profile) controlPoints))
  end.

End SurfaceW.
