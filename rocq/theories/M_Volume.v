(* Model of src/LNLib/Geometry/Volume/NurbsVolume.cpp. LN_NurbsVolume is Volume A (XYZW A); functions that only add
   and scale control points are written for any vector type T. A UVW is passed as its coordinates. *)
From Coq Require Import ZArith List Bool.
From Verif Require Import Base Num Vec M_MathUtils M_Polynomials M_XYZ M_Bspline M_NurbsCurve M_Knots M_Curve2
  M_Surface M_Shape M_Octree.
Import ListNotations.
Open Scope Z_scope.

(* LNEnums.h:95-100 *)
Inductive VolumeDirection : Set := DirU | DirV | DirW.

(* LNObject.h:57-71, LN_BsplineVolume<T> *)
Record Volume (A T : Type) : Type := mkVolume {
  VDegreeU : Z; VDegreeV : Z; VDegreeW : Z;
  VKnotsU : list A; VKnotsV : list A; VKnotsW : list A;
  VControlPoints : list (list (list T)) }.
Arguments mkVolume {A T}. Arguments VDegreeU {A T}. Arguments VDegreeV {A T}. Arguments VDegreeW {A T}.
Arguments VKnotsU {A T}. Arguments VKnotsV {A T}. Arguments VKnotsW {A T}. Arguments VControlPoints {A T}.

(* a[i][j][k] *)
Definition get3 {X} (a : list (list (list X))) (i j k : Z) : res X := let! m := get a i in get2 m j k.
Definition upd3 {X} (a : list (list (list X))) (i j k : Z) (x : X) : res (list (list (list X))) :=
  let! m := get a i in let! m := upd2 m j k x in upd a i m.

(* std::vector<std::vector<std::vector<X>>>(n, vector(m, vector(l))) *)
Definition mkvec3 {X} (n m l : Z) (x : X) : res (list (list (list X))) :=
  let! row := mkvec l x in let! plane := mkvec m row in mkvec n plane.

Section VolumeT.
Context {A : Type} {NA : Num A} {T : Type} {VT : Vec A T}.
Notation volume := (Volume A T).
Notation curve := (Curve A T).

(* degree and knots in a direction *)
Definition degree_in (d : VolumeDirection) (v : volume) : Z :=
  match d with DirU => VDegreeU v | DirV => VDegreeV v | DirW => VDegreeW v end.
Definition knots_in (d : VolumeDirection) (v : volume) : list A :=
  match d with DirU => VKnotsU v | DirV => VKnotsV v | DirW => VKnotsW v end.

(* NurbsVolume.cpp:31-35: the lambda clampParam *)
Definition clampParam (param : A) (kv : list A) (degree : Z) : res A :=
  let! minVal := get kv degree in
  let! maxVal := get kv (len kv - degree - 1) in
  std_clamp param minVal maxVal.

(* NurbsVolume.cpp:21-135. The three branches are copies of each other: d is the free direction, deg1/kv1/fix1 and
   deg2/kv2/fix2 the outer and the inner of the two others, count the number of control points along d and
   cp i a b the control point i along d with the indices a, b in the two others. *)
Definition iso_branch (degree : Z) (knots : list A) (count deg1 : Z) (kv1 : list A) (fix1 : A) (deg2 : Z) (kv2 : list A) (fix2 : A)
  (cp : Z -> Z -> Z -> res T) : res curve :=
  let! fixed1 := clampParam fix1 kv1 deg1 in
  let! fixed2 := clampParam fix2 kv2 deg2 in
  let! span1 := GetKnotSpanIndex deg1 kv1 fixed1 in
  let! span2 := GetKnotSpanIndex deg2 kv2 fixed2 in
  let! N1 := BasisFunctions span1 deg1 kv1 fixed1 in
  let! N2 := BasisFunctions span2 deg2 kv2 fixed2 in
  let! points := for_up 0 count [] (fun i points =>
    let! combinedPoint := for_up 0 (deg1 + 1) vzero (fun j combinedPoint =>
      let index1 := span1 - deg1 + j in
      for_up 0 (deg2 + 1) combinedPoint (fun k combinedPoint =>
        let index2 := span2 - deg2 + k in
        let! a := getu N1 j in
        let! b := getu N2 k in
        let! c := cp i index1 index2 in
        Ok (vadd combinedPoint (vscale (nmul a b) c)))) in
    Ok (points ++ [combinedPoint])) in
  Ok (mkCurve degree knots points).

Definition VolumeIsoCurve (v : volume) (pu pv pw : A) : res curve :=
  let P := VControlPoints v in
  let numU := len P in
  if numU =? 0 then Ok emptyCurve else
  let! p0 := get P 0 in
  let numV := len p0 in
  if numV =? 0 then Ok emptyCurve else
  let! p00 := get p0 0 in
  let numW := len p00 in
  let minusOne := nopp n1 in
  if IsAlmostEqualTo pu minusOne then
    iso_branch (VDegreeU v) (VKnotsU v) numU (VDegreeV v) (VKnotsV v) pv (VDegreeW v) (VKnotsW v) pw (fun i a b => get3 P i a b)
  else if IsAlmostEqualTo pv minusOne then
    iso_branch (VDegreeV v) (VKnotsV v) numV (VDegreeU v) (VKnotsU v) pu (VDegreeW v) (VKnotsW v) pw (fun j a b => get3 P a j b)
  else if IsAlmostEqualTo pw minusOne then
    iso_branch (VDegreeW v) (VKnotsW v) numW (VDegreeU v) (VKnotsU v) pu (VDegreeV v) (VKnotsV v) pv (fun k a b => get3 P a b k)
  else Ok emptyCurve.

(* NurbsVolume.cpp:137-192 up to the projection of the last line *)
Definition VolumePoint (vol : volume) (u v w : A) : res T :=
  let degreeU := VDegreeU vol in
  let degreeV := VDegreeV vol in
  let degreeW := VDegreeW vol in
  let controlPoints := VControlPoints vol in
  let! uspan := GetKnotSpanIndex degreeU (VKnotsU vol) u in
  let! basisU := BasisFunctions uspan degreeU (VKnotsU vol) u in
  let! vspan := GetKnotSpanIndex degreeV (VKnotsV vol) v in
  let! basisV := BasisFunctions vspan degreeV (VKnotsV vol) v in
  let! wspan := GetKnotSpanIndex degreeW (VKnotsW vol) w in
  let! basisW := BasisFunctions wspan degreeW (VKnotsW vol) w in
  let! temp1 := mkvec (degreeV + 1) vzero in
  let! temp2 := mkvec (degreeW + 1) vzero in
  let! r := for_up 0 (degreeW + 1) (temp1, temp2) (fun j '(temp1, temp2) =>
    let temp1 := map (fun _ => vzero) temp1 in
    let! temp1 := for_up 0 (degreeV + 1) temp1 (fun l temp1 =>
      for_up 0 (degreeU + 1) temp1 (fun k temp1 =>
        let! b := getu basisU k in
        let! c := get3 controlPoints (uspan - degreeU + k) (vspan - degreeV + l) (wspan - degreeW + j) in
        let! x := get temp1 l in
        upd temp1 l (vadd x (vscale b c)))) in
    let! temp2 := for_up 0 (degreeV + 1) temp2 (fun l temp2 =>
      let! b := getu basisV l in
      let! t := get temp1 l in
      let! x := get temp2 j in
      upd temp2 j (vadd x (vscale b t))) in
    Ok (temp1, temp2)) in
  let '(_, temp2) := r in
  for_up 0 (degreeW + 1) vzero (fun j Sw =>
    let! b := getu basisW j in
    let! t := get temp2 j in
    Ok (vadd Sw (vscale b t))).

(* NurbsVolume.cpp:206-266: the derivatives in homogeneous coordinates. Line 256 reads temp2, not temp1. *)
Definition VolumeHomDerivatives (vol : volume) (derivative : Z) (u v w : A) : res (list (list (list T))) :=
  let degreeU := VDegreeU vol in
  let degreeV := VDegreeV vol in
  let degreeW := VDegreeW vol in
  let controlPoints := VControlPoints vol in
  let! ders := mkvec3 (derivative + 1) (derivative + 1) (derivative + 1) vzero in
  let! temp1 := mkvec (degreeV + 1) vzero in
  let! temp2 := mkvec (degreeW + 1) vzero in
  let du := Z.min derivative degreeU in
  let dv := Z.min derivative degreeV in
  let dw := Z.min derivative degreeW in
  let! uspan := GetKnotSpanIndex degreeU (VKnotsU vol) u in
  let! Nu := BasisFunctionsDerivatives uspan degreeU derivative (VKnotsU vol) u in
  let! vspan := GetKnotSpanIndex degreeV (VKnotsV vol) v in
  let! Nv := BasisFunctionsDerivatives vspan degreeV derivative (VKnotsV vol) v in
  let! wspan := GetKnotSpanIndex degreeW (VKnotsW vol) w in
  let! Nw := BasisFunctionsDerivatives wspan degreeW derivative (VKnotsW vol) w in
  let! r := for_up 0 (du + 1) (temp1, temp2, ders) (fun a r =>
    let ddb := Z.min (derivative - a) dv in
    for_up 0 (ddb + 1) r (fun b '(temp1, temp2, ders) =>
      let temp2 := map (fun _ => vzero) temp2 in
      let! r := for_up 0 (degreeW + 1) (temp1, temp2) (fun z '(temp1, temp2) =>
        let temp1 := map (fun _ => vzero) temp1 in
        let! temp1 := for_up 0 (degreeV + 1) temp1 (fun y temp1 =>
          for_up 0 (degreeU + 1) temp1 (fun x temp1 =>
            let! n := get2 Nu a x in
            let! c := get3 controlPoints (uspan - degreeU + x) (vspan - degreeV + y) (wspan - degreeW + z) in
            let! t := get temp1 y in
            upd temp1 y (vadd t (vscale n c)))) in
        let! temp2 := for_up 0 (degreeV + 1) temp2 (fun y temp2 =>
          let! n := get2 Nv b y in
          let! c := get temp2 y in
          let! t := get temp2 z in
          upd temp2 z (vadd t (vscale n c))) in
        Ok (temp1, temp2)) in
      let '(temp1, temp2) := r in
      let ddc := Z.min (derivative - a - b) dw in
      let! ders := for_up 0 (ddc + 1) ders (fun c ders =>
        for_up 0 (degreeW + 1) ders (fun z ders =>
          let! n := get2 Nw c z in
          let! t := get temp2 z in
          let! x := get3 ders a b c in
          upd3 ders a b c (vadd x (vscale n t)))) in
      Ok (temp1, temp2, ders))) in
  let '(_, _, ders) := r in
  Ok ders.

(* controlPoints[i][col][sep] and its two rotations: the control point i of the line along d that the outer and the
   inner loop variables a and b select; in the code they are sep, col for U, sep, row for V and col, row for W *)
Definition line_get {X} (d : VolumeDirection) (P : list (list (list X))) (i a b : Z) : res X :=
  match d with DirU => get3 P i b a | DirV => get3 P b i a | DirW => get3 P b a i end.
Definition line_upd {X} (d : VolumeDirection) (P : list (list (list X))) (i a b : Z) (x : X) : res (list (list (list X))) :=
  match d with DirU => upd3 P i b a x | DirV => upd3 P b i a x | DirW => upd3 P b a i x end.

(* n, m, l of lines 352-354: the numbers of control points minus one *)
Definition net_size {X} (P : list (list (list X))) : res (Z * Z * Z) :=
  let! p0 := get P 0 in
  let! p00 := get p0 0 in
  Ok (len P - 1, len p0 - 1, len p00 - 1).

(* the last index along d, and the last values of the outer and the inner loop variable *)
Definition extents (d : VolumeDirection) (n m l : Z) : Z * Z * Z :=
  match d with DirU => (n, l, m) | DirV => (m, l, n) | DirW => (l, m, n) end.

(* resize of newControlPoints: the direction d gets count control points *)
Definition new_net (d : VolumeDirection) (n m l count : Z) : res (list (list (list T))) :=
  match d with
  | DirU => mkvec3 count (m + 1) (l + 1) vzero
  | DirV => mkvec3 (n + 1) count (l + 1) vzero
  | DirW => mkvec3 (n + 1) (m + 1) count vzero
  end.

(* NurbsVolume.cpp:380-408, 418-446, 456-484 and the same loops of RefineKnotVector, ElevateDegree and Reverse: op is
   applied to every line along d, the knot vector of the last line is kept *)
Definition each_line (d : VolumeDirection) (n m l : Z) (P : list (list (list T))) (op : list T -> res curve)
  (newControlPoints : list (list (list T))) : res (list A * list (list (list T))) :=
  let '(count, outer, inner) := extents d n m l in
  for_up 0 (outer + 1) ([], newControlPoints) (fun a s =>
    for_up 0 (inner + 1) s (fun b '(_, newControlPoints) =>
      let! line := mkvec (count + 1) vzero in
      let! line := for_up 0 (count + 1) line (fun i line =>
        let! x := line_get d P i a b in upd line i x) in
      let! resultCurve := op line in
      let iControlPoints := ControlPoints resultCurve in
      let! newControlPoints := for_up 0 (len iControlPoints) newControlPoints (fun i newControlPoints =>
        let! x := get iControlPoints i in line_upd d newControlPoints i a b x) in
      Ok (KnotVector resultCurve, newControlPoints))).

(* the volume with another degree, other knots in direction d and other control points *)
Definition with_line (d : VolumeDirection) (v : volume) (degree : Z) (knots : list A) (P : list (list (list T))) : volume :=
  match d with
  | DirU => mkVolume degree (VDegreeV v) (VDegreeW v) knots (VKnotsV v) (VKnotsW v) P
  | DirV => mkVolume (VDegreeU v) degree (VDegreeW v) (VKnotsU v) knots (VKnotsW v) P
  | DirW => mkVolume (VDegreeU v) (VDegreeV v) degree (VKnotsU v) (VKnotsV v) knots P
  end.

(* NurbsVolume.cpp:339-484. resultCurve is default-constructed for every line. *)
Definition VolumeInsertKnot (v : volume) (insertKnot : A) (times : Z) (d : VolumeDirection) : res volume :=
  let! s := net_size (VControlPoints v) in
  let '(n, m, l) := s in
  let '(count, _, _) := extents d n m l in
  let! newControlPoints := new_net d n m l (count + times + 1) in
  let! r := each_line d n m l (VControlPoints v)
    (fun line => let! c := InsertKnot (mkCurve (degree_in d v) (knots_in d v) line) insertKnot times emptyCurve in Ok (snd c))
    newControlPoints in
  Ok (with_line d v (degree_in d v) (fst r) (snd r)).

(* NurbsVolume.cpp:846-993; times is one less than the number of inserted knots (line 868) *)
Definition VolumeRefineKnotVector (v : volume) (insertKnotElements : list A) (d : VolumeDirection) : res volume :=
  let! s := net_size (VControlPoints v) in
  let '(n, m, l) := s in
  let times := len insertKnotElements - 1 in
  let '(count, _, _) := extents d n m l in
  let! newControlPoints := new_net d n m l (count + times + 1) in
  let! r := each_line d n m l (VControlPoints v)
    (fun line => RefineKnotVector (mkCurve (degree_in d v) (knots_in d v) line) insertKnotElements)
    newControlPoints in
  Ok (with_line d v (degree_in d v) (fst r) (snd r)).

(* NurbsVolume.cpp:995-1163 *)
Definition VolumeElevateDegree (v : volume) (times : Z) (d : VolumeDirection) : res volume :=
  let! s := net_size (VControlPoints v) in
  let '(n, m, l) := s in
  let '(count, _, _) := extents d n m l in
  let degree := degree_in d v in
  let startIdx := degree + 1 in
  let endIdx := len (knots_in d v) - (degree + 1) in
  let uniqueCount := endIdx - startIdx in
  let nh := count + (uniqueCount + 1) * times in
  let! newControlPoints := new_net d n m l (nh + 1) in
  let! r := each_line d n m l (VControlPoints v)
    (fun line => ElevateDegree (mkCurve degree (knots_in d v) line) times)
    newControlPoints in
  Ok (with_line d v (degree + times) (fst r) (snd r)).

(* NurbsVolume.cpp:1412-1553; newControlPoints is given a size only in the U direction (line 1441) *)
Definition VolumeReverse (v : volume) (d : VolumeDirection) : res volume :=
  let! s := net_size (VControlPoints v) in
  let '(n, m, l) := s in
  let! newControlPoints := match d with DirU => new_net d n m l (n + 1) | _ => Ok [] end in
  let! r := each_line d n m l (VControlPoints v)
    (fun line => Reverse (mkCurve (degree_in d v) (knots_in d v) line))
    newControlPoints in
  Ok (with_line d v (degree_in d v) (fst r) (snd r)).

(* NurbsVolume.cpp:1573-1646: the new net, built element by element; rd reads the old control point *)
Definition swapped_net (n m l : Z) (rd : Z -> Z -> Z -> res T) : res (list (list (list T))) :=
  let! new := mkvec n [] in
  for_up 0 n new (fun a new =>
    let! plane := mkvec m [] in
    let! plane := for_up 0 m plane (fun b plane =>
      let! row := mkvec l vzero in
      let! row := for_up 0 l row (fun c row => let! x := rd a b c in upd row c x) in
      upd plane b row) in
    upd new a plane).

(* NurbsVolume.cpp:1555-1648. The reference parameter result is passed in: no branch handles the other six pairs of
   directions. *)
Definition VolumeSwap (vol : volume) (direction swap : VolumeDirection) (result : volume) : res volume :=
  let P := VControlPoints vol in
  let! p0 := get P 0 in
  let! p00 := get p0 0 in
  let u := len P in
  let v := len p0 in
  let w := len p00 in
  match direction, swap with
  | DirU, DirV =>
      let! new := swapped_net v u w (fun j i k => get3 P i j k) in
      Ok (mkVolume (VDegreeV vol) (VDegreeU vol) (VDegreeW vol) (VKnotsV vol) (VKnotsU vol) (VKnotsW vol) new)
  | DirU, DirW =>
      let! new := swapped_net w v u (fun k j i => get3 P i j k) in
      Ok (mkVolume (VDegreeW vol) (VDegreeV vol) (VDegreeU vol) (VKnotsW vol) (VKnotsV vol) (VKnotsU vol) new)
  | DirV, DirW =>
      let! new := swapped_net u w v (fun i k j => get3 P i j k) in
      Ok (mkVolume (VDegreeU vol) (VDegreeW vol) (VDegreeV vol) (VKnotsU vol) (VKnotsW vol) (VKnotsV vol) new)
  | _, _ => Ok result
  end.

(* f applied to every element in turn *)
Fixpoint map_res {X Y} (f : X -> res Y) (l : list X) : res (list Y) :=
  match l with [] => Ok [] | x :: l => let! y := f x in let! r := map_res f l in Ok (y :: r) end.

(* NurbsVolume.cpp:535-536, 588-597, 650-666: the control points with indices lo <= i < hi along d *)
Definition net_slice (d : VolumeDirection) (P : list (list (list T))) (lo : Z) (hi : option Z) : res (list (list (list T))) :=
  let cut {X} (l : list X) := slice l lo (match hi with Some h => h | None => len l end) in
  match d with
  | DirU => cut P
  | DirV => map_res (fun plane => cut plane) P
  | DirW => map_res (fun plane => map_res (fun row => cut row) plane) P
  end.

(* NurbsVolume.cpp:486-671. The same volume is assigned to both results when the parameter is an end of the knots. *)
Definition VolumeSplitAt (v : volume) (parameter : A) (d : VolumeDirection) : res (volume * volume) :=
  let degree := degree_in d v in
  let kv := knots_in d v in
  let! first := get kv 0 in
  let! last := get kv (len kv - 1) in
  if IsAlmostEqualTo parameter first || IsAlmostEqualTo parameter last then Ok (v, v) else
  let! k := GetKnotSpanIndex degree kv parameter in
  let! s := GetKnotMultiplicity kv parameter in
  let rr := degree - s in
  let! r := (if 0 <? rr then
    let! insertVolume := VolumeInsertKnot v parameter rr d in
    let! k := GetKnotSpanIndex degree (knots_in d insertVolume) parameter in
    let! s := GetKnotMultiplicity (knots_in d insertVolume) parameter in
    Ok (insertVolume, k, s)
    else Ok (v, k, s)) in
  let '(v', k, s) := r in
  let kv := knots_in d v' in
  let! kv_L := resize kv (k + 2) n0 in
  let! kv_L := upd kv_L (len kv_L - 1) parameter in
  let! tail := slice kv (k - s + 1) (len kv) in
  let kv_R := parameter :: tail in
  let! cp_L := net_slice d (VControlPoints v') 0 (Some (k - s + 1)) in
  let! cp_R := net_slice d (VControlPoints v') (k - s) None in
  Ok (with_line d v' degree kv_L cp_L, with_line d v' degree kv_R cp_R).

(* NurbsVolume.cpp:699, 743-746, 807-813 and the end cases: the control points with index i along d *)
Definition net_section (d : VolumeDirection) (P : list (list (list T))) (idx : forall X, list X -> Z) : res (list (list T)) :=
  match d with
  | DirU => get P (idx _ P)
  | DirV => map_res (fun plane => get plane (idx _ plane)) P
  | DirW => map_res (fun plane => map_res (fun row => get row (idx _ row)) plane) P
  end.

(* NurbsVolume.cpp:673-844. The parameter surface is passed by value: what is assigned to it (lines 837-841) is lost, the
   caller's object is the second component of the result. At the two ends the degrees newDegreeU and newDegreeV are
   read uninitialised (lines 837-838). *)
Definition VolumeExtract (v : volume) (parameter : A) (d : VolumeDirection) (surface : Surface A T) : res (bool * Surface A T) :=
  let degree := degree_in d v in
  let kv := knots_in d v in
  let P := VControlPoints v in
  let! first := get kv 0 in
  if IsAlmostEqualTo parameter first then
    let! Pwc := net_section d P (fun _ _ => 0) in UB
  else
  let! last := get kv (len kv - 1) in
  if IsAlmostEqualTo parameter last then
    let! Pwc := net_section d P (fun _ l => len l - 1) in UB
  else
  let! k := GetKnotSpanIndex degree kv parameter in
  let! s := GetKnotMultiplicity kv parameter in
  let rr := degree - s in
  let! r := (if 0 <? rr then
    let! insertVolume := VolumeInsertKnot v parameter rr d in
    let! k := GetKnotSpanIndex degree (knots_in d insertVolume) parameter in
    let! s := GetKnotMultiplicity (knots_in d insertVolume) parameter in
    Ok (insertVolume, k, s)
    else Ok (v, k, s)) in
  let '(v', k, s) := r in
  let! Pwc := net_section d (VControlPoints v') (fun _ _ => k - s) in
  Ok (true, surface).

End VolumeT.

Section VolumeW.
Context {A : Type} {NA : Num A}.
Notation volume := (Volume A (XYZW A)).
Notation pt3 := (XYZ A).
Local Open Scope num_scope.

(* NurbsVolume.cpp:137-192 *)
Definition GetPointOnVolume (vol : volume) (u v w : A) : res pt3 :=
  let! Sw := VolumePoint vol u v w in
  ToXYZ Sw true.

(* NurbsVolume.cpp:194-337 *)
Definition ComputeVolumeRationalDerivatives (vol : volume) (derivative : Z) (u v w : A) : res (list (list (list pt3))) :=
  let! ders := VolumeHomDerivatives vol derivative u v w in
  let! Aders := mkvec3 (derivative + 1)%Z (derivative + 1)%Z (derivative + 1)%Z xyz0 in
  let! wders := mkvec3 (derivative + 1)%Z (derivative + 1)%Z (derivative + 1)%Z n0 in
  let! derivatives := mkvec3 (derivative + 1)%Z (derivative + 1)%Z (derivative + 1)%Z xyz0 in
  let! d0 := get ders 0 in
  let! d00 := get d0 0 in
  let! r := for_up 0 (len ders) (Aders, wders) (fun i r =>
    for_up 0 (len d0) r (fun j r =>
      for_up 0 (len d00) r (fun k '(Aders, wders) =>
        let! d := get3 ders i j k in
        let! x := ToXYZ d false in
        let! Aders := upd3 Aders i j k x in
        let! wders := upd3 wders i j k (ww d) in
        Ok (Aders, wders)))) in
  let '(Aders, wders) := r in
  for_up 0 (derivative + 1)%Z derivatives (fun a derivatives =>
    for_up 0 (derivative - a + 1)%Z derivatives (fun b derivatives =>
      for_up 0 (derivative - a - b + 1)%Z derivatives (fun c derivatives =>
        let! g := get3 Aders a b c in
        let! g := for_up 1 (c + 1)%Z g (fun s g =>
          let! bc := Binomial c s in
          let! w := get3 wders 0 0 s in
          let! d := get3 derivatives a b (c - s)%Z in
          Ok (xyz_sub g (xyz_scale (bc * w) d))) in
        let! g := for_up 1 (b + 1)%Z g (fun j g =>
          for_up 0 (c + 1)%Z g (fun s g =>
            let! bb := Binomial b j in
            let! bc := Binomial c s in
            let! w := get3 wders 0 j s in
            let! d := get3 derivatives a (b - j)%Z (c - s)%Z in
            Ok (xyz_sub g (xyz_scale (bb * bc * w) d)))) in
        let! g := for_up 1 (a + 1)%Z g (fun i g =>
          for_up 0 (b + 1)%Z g (fun j g =>
            for_up 0 (c + 1)%Z g (fun s g =>
              let! ba := Binomial a i in
              let! bb := Binomial b j in
              let! bc := Binomial c s in
              let! w := get3 wders i j s in
              let! d := get3 derivatives (a - i)%Z (b - j)%Z (c - s)%Z in
              Ok (xyz_sub g (xyz_scale (ba * bb * bc * w) d))))) in
        let! w000 := get3 wders 0 0 0 in
        let! q := xyz_div g w000 in
        upd3 derivatives a b c q))).

(* NurbsVolume.cpp:1165-1258. The loop bounds outer and inner are those of the code's loops over the two other
   directions; U uses v, w, V uses u, w and W uses u, v. *)
Definition VolumeIsClosed (vol : volume) (d : VolumeDirection) : res bool :=
  let P := VControlPoints vol in
  let numU := len P in
  if (numU =? 0)%Z then Ok false else
  let! p0 := get P 0 in
  let numV := len p0 in
  if (numV =? 0)%Z then Ok false else
  let! p00 := get p0 0 in
  let numW := len p00 in
  let '(count, outer, inner) := match d with DirU => (numU, numV, numW) | DirV => (numV, numU, numW) | DirW => (numW, numU, numV) end in
  let rd i a b := match d with DirU => get3 P i a b | DirV => get3 P a i b | DirW => get3 P a b i end in
  let! r := for_upc 0 outer tt (fun a _ =>
    let! r := for_upc 0 inner tt (fun b _ =>
      let! line := for_up 0 count [] (fun i line => let! x := rd i a b in Ok (line ++ [x])) in
      let! closed := IsClosed (mkCurve (degree_in d vol) (knots_in d vol) line) in
      if closed then Ok (Next tt) else Ok (Stop tt)) in
    Ok r) in
  Ok (match r with Stop _ => false | Next _ => true end).

(* NurbsVolume.cpp:1381-1388: while (x < min) x += range; while (x > max) x -= range; or a clamp *)
Definition wrap_param (fuel : nat) (closed : bool) (x min max : A) : res A :=
  if closed then
    let range := max - min in
    let! x := while_ fuel (fun x => Ok (nltb x min)) x (fun x => Ok (x + range)) in
    while_ fuel (fun x => Ok (nltb max x)) x (fun x => Ok (x - range))
  else Ok (std_max min (std_min max x)).

(* NurbsVolume.cpp:1293-1316: the nearest of 40 x 40 x 40 evenly spaced points; best is the squared distance and the
   parameters *)
Definition nearest_sample (vol : volume) (givenPoint : pt3) (minU minV minW stepU stepV stepW : A) : res (A * A * A) :=
  let num := 40%Z in
  let! r := for_up 0 num (dbl_max, (minU, minV, minW)) (fun i r =>
    for_up 0 num r (fun j r =>
      for_up 0 num r (fun k '(minDistSq, bestParam) =>
        let currentU := minU + nofZ i * stepU in
        let currentV := minV + nofZ j * stepV in
        let currentW := minW + nofZ k * stepW in
        let! point := GetPointOnVolume vol currentU currentV currentW in
        let distSq := SqrLength (xyz_sub point givenPoint) in
        if nltb distSq minDistSq then Ok (distSq, (currentU, currentV, currentW)) else Ok (minDistSq, bestParam)))) in
  Ok (snd r).

(* NurbsVolume.cpp:1260-1410; Stop carries the final parameters *)
Definition GetParamOnVolume (fuel : nat) (vol : volume) (givenPoint : pt3) : res (A * A * A) :=
  let! minU := get (VKnotsU vol) 0 in let! maxU := get (VKnotsU vol) (len (VKnotsU vol) - 1)%Z in
  let! minV := get (VKnotsV vol) 0 in let! maxV := get (VKnotsV vol) (len (VKnotsV vol) - 1)%Z in
  let! minW := get (VKnotsW vol) 0 in let! maxW := get (VKnotsW vol) (len (VKnotsW vol) - 1)%Z in
  let! isClosedU := VolumeIsClosed vol DirU in
  let! isClosedV := VolumeIsClosed vol DirV in
  let! isClosedW := VolumeIsClosed vol DirW in
  let! stepU := ndiv (maxU - minU) (nofZ 39) in
  let! stepV := ndiv (maxV - minV) (nofZ 39) in
  let! stepW := ndiv (maxW - minW) (nofZ 39) in
  let! param := nearest_sample vol givenPoint minU minV minW stepU stepV stepW in
  let! r := for_upc 0 20 param (fun _ '(pu, pv, pw) =>
    let! ders := ComputeVolumeRationalDerivatives vol 2 pu pv pw in
    let! V := get3 ders 0 0 0 in
    let! Vu := get3 ders 1 0 0 in let! Vv := get3 ders 0 1 0 in let! Vw := get3 ders 0 0 1 in
    let! Vuu := get3 ders 2 0 0 in let! Vvv := get3 ders 0 2 0 in let! Vww := get3 ders 0 0 2 in
    let! Vuv := get3 ders 1 1 0 in let! Vuw := get3 ders 1 0 1 in let! Vvw := get3 ders 0 1 1 in
    let diff := xyz_sub V givenPoint in
    let! currentDist := Length diff in
    if IsAlmostEqualTo_tol currentDist n0 DistanceEpsilon then Ok (Stop (pu, pv, pw)) else
    let J00 := DotProduct Vu Vu + DotProduct diff Vuu in
    let J01 := DotProduct Vu Vv + DotProduct diff Vuv in
    let J02 := DotProduct Vu Vw + DotProduct diff Vuw in
    let J10 := J01 in
    let J11 := DotProduct Vv Vv + DotProduct diff Vvv in
    let J12 := DotProduct Vv Vw + DotProduct diff Vvw in
    let J20 := J02 in
    let J21 := J12 in
    let J22 := DotProduct Vw Vw + DotProduct diff Vww in
    let K0 := DotProduct Vu diff in
    let K1 := DotProduct Vv diff in
    let K2 := DotProduct Vw diff in
    let det := J00 * (J11 * J22 - J12 * J21) - J01 * (J10 * J22 - J12 * J20) + J02 * (J10 * J21 - J11 * J20) in
    if IsAlmostEqualTo (nabs det) n0 then Ok (Stop (pu, pv, pw)) else
    let! deltaU := ndiv ((nopp K0) * (J11 * J22 - J12 * J21) - J01 * ((nopp K1) * J22 - J12 * (nopp K2))
                         + J02 * ((nopp K1) * J21 - J11 * (nopp K2))) det in
    let! deltaV := ndiv (J00 * ((nopp K1) * J22 - J12 * (nopp K2)) - (nopp K0) * (J10 * J22 - J12 * J20)
                         + J02 * (J10 * (nopp K2) - (nopp K1) * J20)) det in
    let! deltaW := ndiv (J00 * (J11 * (nopp K2) - (nopp K1) * J21) - J01 * (J10 * (nopp K2) - (nopp K1) * J20)
                         + (nopp K0) * (J10 * J21 - J11 * J20)) det in
    let newU := pu + deltaU in
    let newV := pv + deltaV in
    let newW := pw + deltaW in
    let deltaWorld := xyz_add (xyz_add (xyz_scale deltaU Vu) (xyz_scale deltaV Vv)) (xyz_scale deltaW Vw) in
    let! l := Length deltaWorld in
    if IsAlmostEqualTo_tol l n0 DistanceEpsilon then Ok (Stop (newU, newV, newW)) else
    let! newU := wrap_param fuel isClosedU newU minU maxU in
    let! newV := wrap_param fuel isClosedV newV minV maxV in
    let! newW := wrap_param fuel isClosedW newW minW maxW in
    Ok (Next (newU, newV, newW))) in
  Ok (match r with Stop p => p | Next p => p end).

(* NurbsVolume.cpp:1650-1700 *)
Definition VolumeCheck (vol : volume) : res bool :=
  let! minU := get (VKnotsU vol) 0 in let! maxU := get (VKnotsU vol) (len (VKnotsU vol) - 1)%Z in
  let! minV := get (VKnotsV vol) 0 in let! maxV := get (VKnotsV vol) (len (VKnotsV vol) - 1)%Z in
  let! minW := get (VKnotsW vol) 0 in let! maxW := get (VKnotsW vol) (len (VKnotsW vol) - 1)%Z in
  let num := 50%Z in
  let! stepU := ndiv (maxU - minU) (nofZ (num - 1)) in
  let! stepV := ndiv (maxV - minV) (nofZ (num - 1)) in
  let! stepW := ndiv (maxW - minW) (nofZ (num - 1)) in
  let! r := for_upc 0 num tt (fun i _ =>
    for_upc 0 num tt (fun j _ =>
      for_upc 0 num tt (fun k _ =>
        let u := minU + nofZ i * stepU in
        let v := minV + nofZ j * stepV in
        let w := minW + nofZ k * stepW in
        let! ders := ComputeVolumeRationalDerivatives vol 1 u v w in
        let! Vu := get3 ders 1 0 0 in
        let! Vv := get3 ders 0 1 0 in
        let! Vw := get3 ders 0 0 1 in
        let jacobian := gx Vu * gy Vv * gz Vw + gy Vu * gz Vv * gx Vw + gz Vu * gx Vv * gy Vw
                        - gz Vu * gy Vv * gx Vw - gy Vu * gx Vv * gz Vw - gx Vu * gz Vv * gy Vw in
        if nleb jacobian n0 then Ok (Stop tt) else Ok (Next tt)))) in
  Ok (match r with Stop _ => false | Next _ => true end).

End VolumeW.
