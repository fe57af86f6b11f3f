(* Model of src/LNLib/Geometry/Curve/NurbsCurve.cpp, fifth part: normals carried along a curve, local interpolation,
   moving a point by two weights, changing a curve under constraints, and extending a curve; and the sweep of
   src/LNLib/Geometry/Surface/NurbsSurface.cpp. *)
From Coq Require Import ZArith List Bool.
From Verif Require Import Base Num Vec M_MathUtils M_Polynomials M_Knots M_XYZ M_Matrix M_Bspline M_NurbsCurve M_Curve2 M_Geom M_Interp M_Fit
  M_Surface M_Shape M_Conic M_Octree M_Volume M_Surface2.
Import ListNotations.
Open Scope Z_scope.

(* LNEnums.h: ExtensionType *)
Inductive ExtensionType : Type := Ext_Tangent | Ext_Arc | Ext_Natural.

Section Curve3.
Context {A : Type} {NA : Num A}.
Local Open Scope num_scope.
Notation pt3 := (XYZ A).
Notation curve := (Curve A (XYZW A)).
Notation surface := (Surface A (XYZW A)).

(* NurbsCurve.cpp:288-303 *)
Definition CanComputeDerivative (c : curve) (paramT : A) : res bool :=
  let! first := get (KnotVector c) 0 in
  let! last := get (KnotVector c) (len (KnotVector c) - 1)%Z in
  if IsAlmostEqualTo paramT first || IsAlmostEqualTo paramT last then Ok true else
  let! p := NurbsPoint c paramT in
  let eps := nlit 1 100000000 in
  let! a := NurbsPoint c (paramT - eps) in
  let! l := xyz_div (xyz_sub a p) (- eps) in
  let! b := NurbsPoint c (paramT + eps) in
  let! r := xyz_div (xyz_sub b p) eps in
  Ok (xyz_IsAlmostEqualTo l r).

(* NurbsCurve.cpp:2216-2283; None is the return value false *)
Definition CubicLocalInterpolation (throughPoints : list pt3) : res (option curve) :=
  validate (0 <? len throughPoints)%Z ;;
  let size := len throughPoints in
  if (size =? 1)%Z then
    let! q := get throughPoints 0 in
    Ok (Some (mkCurve 0 [n0; n1] [mkW q n1]))
  else
  let degree := 3%Z in
  let! t := ComputeTangent5 throughPoints in
  match t with
  | None => Ok None
  | Some tangents =>
      let! chordLengths := mkvec (size - 1)%Z n0 in
      let! chordLengths := for_up 0 (size - 1)%Z chordLengths (fun i chordLengths =>
        let! b := get throughPoints (i + 1)%Z in
        let! a := get throughPoints i in
        let! l := Length (xyz_sub b a) in
        upd chordLengths i (if IsAlmostEqualTo l n0 then nlit 1 100000000 else l)) in
      let! first := get throughPoints 0 in
      let! controlPoints := for_up 0 (size - 1)%Z [mkW first n1] (fun i controlPoints =>
        let! h := get chordLengths i in
        let! p0 := get throughPoints i in
        let! p3 := get throughPoints (i + 1)%Z in
        let! ta := get tangents i in
        let! tb := get tangents (i + 1)%Z in
        let! d0 := xyz_div (xyz_scale h ta) (nofZ 3) in
        let! d3 := xyz_div (xyz_scale h tb) (nofZ 3) in
        let p1 := xyz_add p0 d0 in
        let p2 := xyz_sub p3 d3 in
        Ok (controlPoints ++ [mkW p1 n1; mkW p2 n1; mkW p3 n1])) in
      let numCtrlPts := len controlPoints in
      let! knotVector := mkvec (numCtrlPts + degree + 1)%Z n0 in
      let! knotVector := for_up 0 (degree + 1)%Z knotVector (fun i knotVector =>
        let! knotVector := upd knotVector i n0 in
        upd knotVector (len knotVector - 1 - i)%Z n1) in
      let! step := ndiv n1 (nofZ (numCtrlPts - degree)) in
      let! knotVector := for_up 1 (numCtrlPts - degree)%Z knotVector (fun i knotVector =>
        upd knotVector (degree + i)%Z (nofZ i * step)) in
      Ok (Some (mkCurve degree knotVector controlPoints))
  end.

(* NurbsCurve.cpp:3249-3326; None is the return value false. param0 and param1 are uninitialised before the call of
   ComputeRays, and not read afterwards. The parameter scale is only checked. *)
Definition NeighborWeightsModification (c : curve) (parameter : A) (moveIndex : Z) (moveDistance scale : A) : res (option curve) :=
  let controlPoints := ControlPoints c in
  validate_domain (KnotVector c) parameter ;;
  validate_int_range moveIndex 0 (len controlPoints - 1)%Z ;;
  validate (negb (IsAlmostEqualTo moveDistance n0)) ;;
  validate (negb (IsAlmostEqualTo scale n0)) ;;
  let! k0 := get controlPoints moveIndex in
  let! movePoint1 := ToXYZ k0 true in
  let! tempControlPoints := upd controlPoints moveIndex (mkW movePoint1 n0) in
  let! k1 := get tempControlPoints (moveIndex + 1)%Z in
  let! movePoint2 := ToXYZ k1 true in
  let! tempControlPoints := upd tempControlPoints (moveIndex + 1)%Z (mkW movePoint2 n0) in
  let! R := NurbsPoint (mkCurve (Degree c) (KnotVector c) tempControlPoints) parameter in
  let controlLeg := xyz_sub movePoint1 movePoint2 in
  let! controlLegLength := Distance movePoint2 movePoint1 in
  let! P := NurbsPoint c parameter in
  let direction := xyz_sub R P in
  let! r := ComputeRays movePoint1 controlLeg R direction n0 n0 xyz0 in
  let '(type, _, _, Q) := r in
  match type with
  | Intersecting =>
      let pkq := xyz_sub Q movePoint1 in
      let pk1q := xyz_sub Q movePoint2 in
      let! RQ := Distance Q R in
      let! RP := Distance P R in
      let! direction := xyz_div (xyz_sub P R) RP in
      let Rtarget := RP + moveDistance in
      let! qRP := ndiv RP RQ in
      let! qRtarget := ndiv Rtarget RQ in
      let A := xyz_add movePoint1 (xyz_scale qRP pkq) in
      let B := xyz_add movePoint2 (xyz_scale qRP pk1q) in
      let C := xyz_add movePoint1 (xyz_scale qRtarget pkq) in
      let D := xyz_add movePoint2 (xyz_scale qRtarget pk1q) in
      let! dB := Distance B movePoint2 in
      let! ak := ndiv dB controlLegLength in
      let! dA := Distance A movePoint1 in
      let! ak1 := ndiv dA controlLegLength in
      let! dD := Distance D movePoint2 in
      let! abk := ndiv dD controlLegLength in
      let! dC := Distance C movePoint1 in
      let! abk1 := ndiv dC controlLegLength in
      if IsLessThan (nabs ak) n0 || IsLessThan (nabs ak1) n0 || IsLessThan (nabs abk) n0 || IsLessThan (nabs abk1) n0 then Ok None else
      let alpha := n1 - ak - ak1 in
      let beta := n1 - abk - abk1 in
      let! aa := ndiv alpha ak in
      let! bb := ndiv beta abk in
      let! betak := ndiv aa bb in
      let! aa1 := ndiv alpha ak1 in
      let! bb1 := ndiv beta abk1 in
      let! betak1 := ndiv aa1 bb1 in
      let! c0 := get controlPoints moveIndex in
      let! updatedControlPoints := upd controlPoints moveIndex (mkW movePoint1 (ww c0 * betak)) in
      let! c1 := get updatedControlPoints (moveIndex + 1)%Z in
      let! updatedControlPoints := upd updatedControlPoints (moveIndex + 1)%Z (mkW movePoint2 (ww c1 * betak1)) in
      Ok (Some (mkCurve (Degree c) (KnotVector c) updatedControlPoints))
  | _ => Ok None
  end.

(* MathUtils.cpp:199-234 hands the matrix to Eigen's inverse(), which is not modelled: a parameter. *)
Variable inverse : list (list A) -> res (list (list A)).

(* NurbsCurve.cpp:3455-3469: the derivatives of the basis functions *)
Definition constraint_rows (c : curve) (ur : list A) (rows : Z) (Dr Dk : list Z) : res (list (list A)) :=
  let size := len (ControlPoints c) in
  let! line := mkvec size n0 in
  let! B := mkvec rows line in
  for_up 0 rows B (fun i B =>
    let! r := get Dr i in
    let! u := get ur r in
    let! spanIndex := GetKnotSpanIndex (Degree c) (KnotVector c) u in
    let! k := get Dk i in
    let! ders := BasisFunctionsDerivatives spanIndex (Degree c) k (KnotVector c) u in
    for_up 0 (Degree c + 1)%Z B (fun j B =>
      let! x := get2 ders k j in
      upd2 B i (spanIndex - Degree c + j)%Z x)).

(* NurbsCurve.cpp:3471-3502: the indices of the control points that may move *)
Definition constraint_map (B : list (list A)) (rows size : Z) (fixedControlPointIndices : list Z) : res (list Z) :=
  let! remove := mkvec size 1%Z in
  let! remove := for_up 0 size remove (fun j remove =>
    let! r := for_upc 0 rows tt (fun i _ =>
      let! x := get2 B i j in
      if IsGreaterThan (x * x) n0 then Ok (Stop tt) else Ok (Next tt)) in
    match r with Stop _ => upd remove j 0%Z | Next _ => Ok remove end) in
  let! remove := for_up 0 (len fixedControlPointIndices) remove (fun i remove =>
    let! f := get fixedControlPointIndices i in
    upd remove f 1%Z) in
  for_up 0 size [] (fun i map =>
    let! r := get remove i in
    Ok (if (r =? 0)%Z then map ++ [i] else map)).

(* NurbsCurve.cpp:3442-3552 *)
Definition ConstraintBasedModification (c : curve) (constraintParams : list A) (derivativeConstraints : list pt3)
  (appliedIndices appliedDegree fixedControlPointIndices : list Z) : res curve :=
  let controlPoints := ControlPoints c in
  validate (0 <? len constraintParams)%Z ;;
  validate (0 <? len derivativeConstraints)%Z ;;
  validate (len appliedIndices =? len derivativeConstraints)%Z ;;
  validate (len appliedDegree =? len appliedIndices)%Z ;;
  let rows := len derivativeConstraints in
  let size := len controlPoints in
  let! B := constraint_rows c constraintParams rows appliedIndices appliedDegree in
  let! map := constraint_map B rows size fixedControlPointIndices in
  let n := len map in
  let! line := mkvec n n0 in
  let! Bopt := mkvec rows line in
  let! Bopt := for_up 0 n Bopt (fun j Bopt =>
    for_up 0 (len B) Bopt (fun i Bopt =>
      let! m := get map j in
      let! x := get2 B i m in
      upd2 Bopt i j x)) in
  let! Bt := Transpose Bopt in
  let! BoptBt := MatrixMultiply Bopt Bt in
  let! BBt := inverse BoptBt in
  let! M := MatrixMultiply Bt BBt in
  let! dP := MatrixMultiply M (List.map point_row derivativeConstraints) in
  let! updatedControlPoints := for_up 0 n controlPoints (fun i updatedControlPoints =>
    let! m := get map i in
    let! cp := get updatedControlPoints m in
    let weight := ww cp in
    let! x := get2 dP i 0 in
    let! y := get2 dP i 1 in
    let! z := get2 dP i 2 in
    upd updatedControlPoints m (mkXYZW (wx cp + weight * x) (wy cp + weight * y) (wz cp + weight * z) weight)) in
  Ok (mkCurve (Degree c) (KnotVector c) updatedControlPoints).

Context {TA : Trig A}.

(* XYZ.cpp:174-186; angle is the number drawn: an integer between the truncated -Pi and Pi, that is from -3 to 3 *)
Definition CreateRandomOrthogonal (xyz : pt3) (angle : Z) : res pt3 :=
  let! normal := Normalize xyz in
  let tangent := CrossProduct normal (mkXYZ (- gz normal) (gx normal) (gy normal)) in
  let bitangent := CrossProduct normal tangent in
  Normalize (xyz_add (xyz_scale (tsin (nofZ angle)) tangent) (xyz_scale (tcos (nofZ angle)) bitangent)).

(* the unit tangent at a parameter *)
Definition unit_tangent (c : curve) (u : A) : res pt3 :=
  let! d := ComputeRationalCurveDerivatives c 1 u in
  let! d1 := get d 1 in
  Normalize d1.

(* NurbsCurve.cpp:377-392: one pass, from the first vector; None asks for another one *)
Definition project_pass (c : curve) (first : pt3) : res (option (list pt3)) :=
  let knotVector := KnotVector c in
  let! Blist := mkvec (len knotVector) xyz0 in
  let! Blist := upd Blist 0 first in
  let! r := for_upc 1 (len knotVector) Blist (fun i Blist =>
    let! u := get knotVector i in
    let! Ti := unit_tangent c u in
    let! prev := get Blist (i - 1)%Z in
    if IsZero (CrossProduct Ti prev) then Ok (Stop tt) else
    let bi := xyz_sub prev (xyz_scale (DotProduct prev Ti) Ti) in
    let! b := Normalize bi in
    let! Blist := upd Blist i b in
    Ok (Next Blist)) in
  Ok (match r with Next Blist => Some Blist | Stop _ => None end).

(* NurbsCurve.cpp:374-397: passes until one succeeds; angles are the numbers drawn *)
Fixpoint project_passes (fuel : nat) (c : curve) (T0 : pt3) (angles : nat -> Z) : res (list pt3) :=
  match fuel with
  | O => OutOfFuel
  | S f =>
      let! first := CreateRandomOrthogonal T0 (angles 0%nat) in
      let! r := project_pass c first in
      match r with
      | Some Blist => Ok Blist
      | None => project_passes f c T0 (fun k => angles (S k))
      end
  end.

(* NurbsCurve.cpp:362-420 *)
Definition ProjectNormal (fuel : nat) (angles : nat -> Z) (c : curve) : res (list pt3) :=
  let knotVector := KnotVector c in
  let m := (len knotVector - 1)%Z in
  let! v0 := get knotVector 0 in
  let! T0 := unit_tangent c v0 in
  let! Blist := project_passes fuel c T0 angles in
  let! isClosed := IsClosed c in
  if isClosed then
    let! b0 := get Blist 0 in
    let! Blist := upd Blist m b0 in
    let! Baver := mkvec m xyz0 in
    let! Baver := upd Baver m b0 in
    let! Baver := for_down (m - 1)%Z 1 Baver (fun i Baver =>
      let! u := get knotVector (i + 1)%Z in
      let! Ti1 := unit_tangent c u in
      let! x := get Baver (i + 1)%Z in
      let! bi := Normalize (xyz_add x Ti1) in
      upd Baver i bi) in
    for_up 1 m Blist (fun i Blist =>
      let! x := get Blist i in
      let! y := get Baver i in
      upd Blist i (xyz_scale (nlit 1 2) (xyz_add x y)))
  else Ok Blist.

(* NurbsSurface.cpp:2763-2784: the parameters of the sections; the knots are sorted, so that the smallest and the largest
   are the first and the last *)
Definition sweep_params (q nsect : Z) (knotVectorV : list A) : res (list A) :=
  let! vk := mkvec nsect n0 in
  let! first := get knotVectorV 0 in
  let! last := get knotVectorV (len knotVectorV - 1)%Z in
  let! vk := upd vk 0 first in
  let! vk := upd vk (nsect - 1)%Z last in
  for_up 1 (nsect - 1)%Z vk (fun k vk =>
    let! sum := for_up 1 (q + 1)%Z n0 (fun i sum => let! x := get knotVectorV (k + i)%Z in Ok (sum + x)) in
    let! v := ndiv sum (nofZ q) in
    upd vk k v).

(* NurbsSurface.cpp:2792-2821: the profile placed at a parameter of the trajectory *)
Definition sweep_section (profile trajectory : curve) (Bv : list pt3) (v : A) : res curve :=
  let! zdir := unit_tangent trajectory v in
  let! spanIndex := GetKnotSpanIndex (Degree trajectory) (KnotVector trajectory) v in
  let! xdir := get Bv spanIndex in
  let! ydir := Normalize (CrossProduct zdir xdir) in
  let! cps := for_up 0 (len (ControlPoints profile)) [] (fun i cps =>
    let! wp := get (ControlPoints profile) i in
    let! p := ToXYZ wp true in
    let! o := NurbsPoint trajectory v in
    let! transformed := OfPoint (m4_basis xdir ydir zdir o) p in
    Ok (cps ++ [mkW transformed (ww wp)])) in
  Ok (mkCurve (Degree profile) (KnotVector profile) cps).

(* NurbsSurface.cpp:2742-2824; fuel and angles are those of ProjectNormal, solver that of the loft *)
Definition CreateSweepSurface (solver : list (list A) -> list (list A) -> res (list (list A))) (fuel : nat) (angles : nat -> Z)
  (profile trajectory : curve) (minimumProfiles : Z) : res surface :=
  let q := Degree trajectory in
  let ktv := len (KnotVector trajectory) in
  let nsect := (minimumProfiles + 1)%Z in
  let! r :=
    if (ktv <=? nsect + q)%Z then
      let! insertedElements := GetInsertedKnotElements_number (nsect + q - ktv + 1)%Z (KnotVector trajectory) in
      let! t := RefineKnotVector trajectory insertedElements in
      Ok (t, nsect)
    else Ok (trajectory, if (nsect + q + 1 <? ktv)%Z then (ktv - q - 1)%Z else nsect) in
  let '(trajectoryCopy, nsect) := r in
  let! vk := sweep_params q nsect (KnotVector trajectoryCopy) in
  let! Bv := ProjectNormal fuel angles trajectoryCopy in
  let! sections := for_up 0 nsect [] (fun k sections =>
    let! v := get vk k in
    let! s := sweep_section profile trajectoryCopy Bv v in
    Ok (sections ++ [s])) in
  CreateLoftSurface solver sections 0 [].

(* NurbsCurve.cpp:3941-3989: the increment of the parameter whose arc has length delta, by Newton's method with the
   three-point rule of Gauss; coeffs are the Taylor coefficients *)
Definition taylor_velocity (coeffs : list pt3) (order : Z) (t : A) : res pt3 :=
  let! top := get coeffs order in
  for_down (order - 1)%Z 1 (xyz_scale (nofZ order) top) (fun k v =>
    let! a := get coeffs k in
    Ok (xyz_add (xyz_scale t v) (xyz_scale (nofZ k) a))).

Definition natural_step (coeffs : list pt3) (order : Z) (delta start : A) : res A :=
  let! r := for_upc 0 50 start (fun _ currentDeltaT =>
    let absLen := nabs currentDeltaT * nlit 1 2 in
    let mid := currentDeltaT * nlit 1 2 in
    let sqrt_3_5 := nlit 7745966692414834 10000000000000000 in
    let w1 := nlit 5555555555555556 10000000000000000 in
    let w2 := nlit 8888888888888889 10000000000000000 in
    let speed_at t := let! v := taylor_velocity coeffs order t in Length v in
    let! speed1 := speed_at (mid - absLen * sqrt_3_5) in
    let! speed2 := speed_at mid in
    let! speed3 := speed_at (mid + absLen * sqrt_3_5) in
    let currentLen := absLen * (w1 * speed1 + w2 * speed2 + w1 * speed3) in
    let! speed := speed_at currentDeltaT in
    if IsAlmostEqualTo speed n0 then Ok (Stop currentDeltaT) else
    let error := currentLen - delta in
    if IsAlmostEqualTo (nabs error) n0 then Ok (Stop currentDeltaT) else
    let dLen_dDeltaT := speed * (if nltb n0 currentDeltaT then n1 else - n1) in
    let! step := ndiv (- error) dLen_dDeltaT in
    let maxStep := nabs currentDeltaT * nlit 1 2 in
    let maxStep := if IsAlmostEqualTo maxStep n0 then nabs delta * nlit 1 10 else maxStep in
    let step := if nltb maxStep (nabs step) then (if nltb n0 step then n1 else - n1) * maxStep else step in
    Ok (Next (currentDeltaT + step))) in
  Ok (match r with Stop x => x | Next x => x end).

(* NurbsCurve.cpp:3994-4022 and 4041-4061: the Bezier points of the Taylor polynomial over an interval of length S, which
   may be negative *)
Definition taylor_bezier (coeffs : list pt3) (degree : Z) (S w : A) : res (list (XYZW A)) :=
  let! c0 := get coeffs 0 in
  for_up 0 (degree + 1)%Z [] (fun i newCPs =>
    let! p := for_up 1 (i + 1)%Z c0 (fun k p =>
      let! binom_i_k := Binomial i k in
      let! binom_p_k := Binomial degree k in
      let! scale := ndiv binom_i_k binom_p_k in
      let! a := get coeffs k in
      Ok (xyz_add p (xyz_scale (npow S (Z.to_nat k) * scale) a))) in
    Ok (newCPs ++ [mkW p w])).

(* NurbsCurve.cpp:3884-4084; result is the curve where a branch leaves it unchanged or Merge returns false *)
Definition Extend (c : curve) (delta : A) (isFromStart : bool) (type : ExtensionType) : res curve :=
  if IsLessThanOrEqual delta n0 then Ok c else
  let! periodic := IsPeriodic c in
  if periodic then Ok c else
  let degree := Degree c in
  let knotVector := KnotVector c in
  let controlPoints := ControlPoints c in
  let! paramT := get knotVector (if isFromStart then 0 else len knotVector - 1)%Z in
  let! ders := ComputeRationalCurveDerivatives c 1 paramT in
  let! point := get ders 0 in
  let! tangent := get ders 1 in
  let merged (extend : curve) :=
    let! m := if isFromStart then Merge extend c else Merge c extend in
    Ok (match m with Some r => r | None => c end) in
  match type with
  | Ext_Tangent =>
      let! t := Normalize tangent in
      let! extend :=
        if isFromStart then CreateLine (xyz_sub point (xyz_scale delta t)) point
        else CreateLine point (xyz_add point (xyz_scale delta t)) in
      merged extend
  | Ext_Arc =>
      let! normal := CurveNormalAt c CN_Normal paramT in
      let! curvature := Curvature c paramT in
      if IsAlmostEqualTo curvature n0 then Ok c else
      let! radius := ndiv n1 curvature in
      let! theta := ndiv delta radius in
      let center := xyz_add point (xyz_scale radius normal) in
      let! xAxis := Normalize tangent in
      let! yAxis := Normalize normal in
      let! vecToPoint := Normalize (xyz_sub point center) in
      let x := DotProduct vecToPoint xAxis in
      let y := DotProduct vecToPoint yAxis in
      let startRad := tatan2 y x in
      let endRad := startRad + theta in
      let '(startRad, endRad) := if isFromStart then (startRad - theta, startRad) else (startRad, endRad) in
      let! arc := CreateArc center xAxis yAxis startRad endRad radius radius in
      merged (match arc with Some a => a | None => emptyCurve end)
  | Ext_Natural =>
      let directionSign := if isFromStart then - n1 else n1 in
      let! derivatives := ComputeRationalCurveDerivatives c degree paramT in
      let! s := for_up 0 (degree + 1)%Z ([], n1) (fun i '(coeffs, factorial) =>
        let factorial := if (0 <? i)%Z then factorial * nofZ i else factorial in
        let! d := get derivatives i in
        let! a := xyz_div d factorial in
        Ok (coeffs ++ [a], factorial)) in
      let coeffs := fst s in
      let! currentDeltaT := natural_step coeffs degree delta (delta * directionSign) in
      let L := nabs currentDeltaT in
      let! cp := get controlPoints (if isFromStart then 0 else len controlPoints - 1)%Z in
      let w := ww cp in
      let! newCPs := taylor_bezier coeffs degree (if isFromStart then - L else L) w in
      if isFromStart then
        let newParam := paramT - L in
        let! newControlPoints := for_up 1 (degree + 1)%Z controlPoints (fun i cps =>
          let! x := get newCPs i in Ok (x :: cps)) in
        let newKnots := if (degree <? len knotVector)%Z then tl knotVector else knotVector in
        Ok (mkCurve degree (repeat newParam (Z.to_nat (degree + 1)) ++ newKnots) newControlPoints)
      else
        let newParam := paramT + L in
        let! newControlPoints := for_up 1 (degree + 1)%Z controlPoints (fun i cps =>
          let! x := get newCPs i in Ok (cps ++ [x])) in
        let! newKnots := if (degree <? len knotVector)%Z then pop_back knotVector else Ok knotVector in
        Ok (mkCurve degree (newKnots ++ repeat newParam (Z.to_nat (degree + 1))) newControlPoints)
  end.

End Curve3.
