(* Model of src/LNLib/Geometry/Surface/NurbsSurface.cpp: decomposition into Bezier patches and the area of a surface. *)
From Coq Require Import ZArith List Bool.
From Verif Require Import Base Num Vec M_MathUtils M_Polynomials M_Knots M_XYZ M_Bspline M_NurbsCurve M_Curve2 M_Geom M_Surface M_Curve4.
Import ListNotations.
Open Scope Z_scope.

Section DecomposeSurface.
Context {A : Type} {NA : Num A} {T : Type} {VT : Vec A T}.
Notation surface := (Surface A T).

(* patches[k].ControlPoints[i][j], read and written *)
Definition get3 (patches : list (list (list T))) (k i j : Z) : res T := let! p := get patches k in get2 p i j.
Definition upd3 (patches : list (list (list T))) (k i j : Z) (x : T) : res (list (list (list T))) :=
  let! p := get patches k in let! p := upd2 p i j x in upd patches k p.

(* NurbsSurface.cpp:816-819 and 891-894: the last index of a run of equal knots *)
Definition sdec_run (fuel : nat) (m : Z) (knotVector : list A) (b : Z) : res Z :=
  while_ fuel
    (fun b => if b <? m then
       let! x := get knotVector (b + 1) in let! y := get knotVector b in Ok (IsLessThanOrEqual x y) else Ok false)
    b (fun b => Ok (b + 1)).

(* NurbsSurface.cpp:823-829 and 898-902: the ratios, written into alphaVector *)
Definition sdec_alphas (degree multi a b : Z) (knotVector : list A) (alphaVector : list A) : res (list A) :=
  let! ub := get knotVector b in
  let! ua := get knotVector a in
  let numerator := nsub ub ua in
  for_down degree (multi + 1) alphaVector (fun j v =>
    let! x := get knotVector (a + j) in
    let! q := ndiv numerator (nsub x ua) in
    upd v (j - multi - 1) q).

(* NurbsSurface.cpp:813-865, one round of the loop over the knots of the first direction; the degrees and knots of
   tempBezierPatches[i] do not change, so the state keeps only the control points, with alphaVector, a, b and nb *)
Definition sdec_u (degreeU columns m : Z) (knotVectorU : list A) (controlPoints : list (list T))
  (s : list (list (list T)) * list A * Z * Z * Z) : res (list (list (list T)) * list A * Z * Z * Z) :=
  let '(bz, alphaVector, a, b, nb) := s in
  let i := b in
  let! b := sdec_run (length knotVectorU) m knotVectorU b in
  let multi := b - i + 1 in
  let! r :=
    if multi <? degreeU then
      let! alphaVector := sdec_alphas degreeU multi a b knotVectorU alphaVector in
      let r := degreeU - multi in
      let! bz := for_up 1 (r + 1) bz (fun j bz =>
        let save := r - j in
        let s := multi + j in
        let! bz := for_down degreeU s bz (fun k bz =>
          let! alpha := get alphaVector (k - s) in
          for_up 0 columns bz (fun col bz =>
            let! x := get3 bz nb k col in
            let! y := get3 bz nb (k - 1) col in
            upd3 bz nb k col (blend alpha x y))) in
        if b <? m then
          for_up 0 columns bz (fun col bz =>
            let! x := get3 bz nb degreeU col in
            upd3 bz (nb + 1) save col x)
        else Ok bz) in
      Ok (bz, alphaVector)
    else Ok (bz, alphaVector) in
  let '(bz, alphaVector) := r in
  let nb := nb + 1 in
  if b <? m then
    let! bz := for_up (degreeU - multi) (degreeU + 1) bz (fun i bz =>
      for_up 0 columns bz (fun col bz =>
        let! x := get2 controlPoints (b - degreeU + i) col in
        upd3 bz nb i col x)) in
    Ok (bz, alphaVector, b, b + 1, nb)
  else Ok (bz, alphaVector, a, b, nb).

(* NurbsSurface.cpp:888-939, one round of the loop over the knots of the second direction *)
Definition sdec_v (degreeU degreeV m : Z) (knotVectorV : list A) (temp : list (list T))
  (s : list (list (list T)) * list A * Z * Z * Z) : res (list (list (list T)) * list A * Z * Z * Z) :=
  let '(bz, alphaVector, a, b, nb) := s in
  let i := b in
  let! b := sdec_run (length knotVectorV) m knotVectorV b in
  let multi := b - i + 1 in
  let! r :=
    if multi <? degreeV then
      let! alphaVector := sdec_alphas degreeV multi a b knotVectorV alphaVector in
      let r := degreeV - multi in
      let! bz := for_up 1 (r + 1) bz (fun j bz =>
        let save := r - j in
        let s := multi + j in
        let! bz := for_down degreeV s bz (fun k bz =>
          let! alpha := get alphaVector (k - s) in
          for_up 0 (degreeU + 1) bz (fun row bz =>
            let! x := get3 bz nb row k in
            let! y := get3 bz nb row (k - 1) in
            upd3 bz nb row k (blend alpha x y))) in
        if b <? m then
          for_up 0 (degreeU + 1) bz (fun row bz =>
            let! x := get3 bz nb row degreeV in
            upd3 bz (nb + 1) row save x)
        else Ok bz) in
      Ok (bz, alphaVector)
    else Ok (bz, alphaVector) in
  let '(bz, alphaVector) := r in
  let nb := nb + 1 in
  if b <? m then
    let! bz := for_up (degreeV - multi) (degreeV + 1) bz (fun i bz =>
      for_up 0 (degreeU + 1) bz (fun row bz =>
        let! x := get2 temp row (b - degreeV + i) in
        upd3 bz nb row i x)) in
    Ok (bz, alphaVector, b, b + 1, nb)
  else Ok (bz, alphaVector, a, b, nb).

(* NurbsSurface.cpp:768-788 *)
Definition sdec_knots (degree : Z) : res (list A) :=
  let knotSize := 2 * (degree + 1) in
  let! v := mkvec knotSize n0 in
  let! v := for_up 0 (Z.quot knotSize 2) v (fun i v => upd v i n0) in
  for_up (Z.quot knotSize 2) knotSize v (fun i v => upd v i n1).

(* NurbsSurface.cpp:757-951; a negative size of a vector is a huge unsigned one, which throws std::length_error. Each round
   of the while loops raises b, fuel bounds their number. *)
Definition SurfaceDecomposeToBeziers (fuel : nat) (s : surface) : res (list surface) :=
  let degreeU := DegreeU s in
  let degreeV := DegreeV s in
  let controlPoints := SControlPoints s in
  let rows := len controlPoints in
  let! row0 := get controlPoints 0 in
  let columns := len row0 in
  let! bezierKnotsU := sdec_knots degreeU in
  let! bezierKnotsV := sdec_knots degreeV in
  let! row := mkvec columns vzero in
  let! patch := mkvec (degreeU + 1) row in
  let! temp := mkvec (rows - degreeU) patch in
  let m := rows - 1 + degreeU + 1 in
  let! temp := for_up 0 (degreeU + 1) temp (fun i temp =>
    for_up 0 columns temp (fun j temp =>
      let! x := get2 controlPoints i j in upd3 temp 0 i j x)) in
  let! alphaVector := mkvec (Z.max degreeU degreeV + 1) n0 in
  let! st := while_ fuel (fun '(_, _, _, b, _) => Ok (b <? m)) (temp, alphaVector, degreeU, degreeU + 1, 0)
    (sdec_u degreeU columns m (KnotVectorU s) controlPoints) in
  let '(temp, alphaVector, _, _, size) := st in
  let! row := mkvec (degreeV + 1) vzero in
  let! patch := mkvec (degreeU + 1) row in
  let! bz := mkvec (len temp * (columns - degreeV)) patch in
  let m := columns + degreeV in
  let! st := for_up 0 size (bz, alphaVector, 0) (fun np '(bz, alphaVector, nb) =>
    let! tp := get temp np in
    let! bz := for_up 0 (degreeU + 1) bz (fun i bz =>
      for_up 0 (degreeV + 1) bz (fun j bz =>
        let! x := get2 tp i j in upd3 bz nb i j x)) in
    let! st := while_ fuel (fun '(_, _, _, b, _) => Ok (b <? m)) (bz, alphaVector, degreeV, degreeV + 1, nb)
      (sdec_v degreeU degreeV m (KnotVectorV s) tp) in
    let '(bz, alphaVector, _, _, nb) := st in
    Ok (bz, alphaVector, nb)) in
  let '(bz, _, nb) := st in
  let bz := if 0 <? len bz - nb then firstn (Z.to_nat nb) bz else bz in
  Ok (map (mkSurface degreeU degreeV bezierKnotsU bezierKnotsV) bz).

End DecomposeSurface.

Section Area.
Context {A : Type} {NA : Num A}.
Local Open Scope num_scope.
Notation surface := (Surface A (XYZW A)).

(* Integrator.cpp:28-63 (as Simpson2) for a functor that may fail *)
Definition simpson_area (function : A -> A -> res A) (uStart uEnd vStart vEnd : A) : res A :=
  let du := uEnd - uStart in
  let dv := vEnd - vStart in
  let hdu := nlit 1 2 * du in
  let hdv := nlit 1 2 * dv in
  let uvw := [(uStart, vStart, nofZ 1); (uStart, vStart + hdv, nofZ 4); (uStart, vEnd, nofZ 1);
              (uStart + hdu, vStart, nofZ 4); (uStart + hdu, vStart + hdv, nofZ 16); (uStart + hdu, vEnd, nofZ 4);
              (uEnd, vStart, nofZ 1); (uEnd, vStart + hdv, nofZ 4); (uEnd, vEnd, nofZ 1)] in
  let! sum := fold_left (fun sum '(u, v, w) => let! sum := sum in let! f := function u v in Ok (sum + w * f)) uvw (Ok n0) in
  let! q := ndiv (du * dv) (nofZ (9 * 4)) in
  Ok (sum * q).

(* NurbsSurface.cpp:3419-3430: the element of area *)
Definition area_element (s : surface) (u v : A) : res A :=
  let! d := ComputeRationalSurfaceFirstOrderDerivative s u v in
  let '(_, Su, Sv) := d in
  let E := DotProduct Su Su in
  let F := DotProduct Su Sv in
  let G := DotProduct Sv Sv in
  nsqrt (E * G - F * F).

(* NurbsSurface.cpp:3434-3438 *)
Record UVA := mkUVA { a_u1 : A; a_u2 : A; a_v1 : A; a_v2 : A; a_area : A }.
Definition make_UVA (function : A -> A -> res A) (u1 u2 v1 v2 : A) : res UVA :=
  let! area := simpson_area function u1 u2 v1 v2 in Ok (mkUVA u1 u2 v1 v2 area).

(* NurbsSurface.cpp:3447-3497, one round of the loop; the back of the stack is the head of the list *)
Definition area_round (function : A -> A -> res A) (st : list UVA * A) : res (list UVA * A) :=
  let '(stack, area) := st in
  match stack with
  | [] => UB
  | uva :: stack =>
      let du := a_u2 uva - a_u1 uva in
      let dv := a_v2 uva - a_v1 uva in
      let hdu := nlit 1 2 * du in
      let hdv := nlit 1 2 * dv in
      let! uva1 := make_UVA function (a_u1 uva) (a_u1 uva + hdu) (a_v1 uva) (a_v1 uva + hdv) in
      let! uva2 := make_UVA function (a_u1 uva + hdu) (a_u2 uva) (a_v1 uva) (a_v1 uva + hdv) in
      let! uva3 := make_UVA function (a_u1 uva) (a_u1 uva + hdu) (a_v1 uva + hdv) (a_v2 uva) in
      let! uva4 := make_UVA function (a_u1 uva + hdu) (a_u2 uva) (a_v1 uva + hdv) (a_v2 uva) in
      let areaNew := a_area uva1 + a_area uva2 + a_area uva3 + a_area uva4 in
      if nltb (nabs (areaNew - a_area uva)) DistanceEpsilon then Ok (stack, area + areaNew)
      else Ok (uva4 :: uva3 :: uva2 :: uva1 :: stack, area)
  end.

Definition area_loop (fuel : nat) (function : A -> A -> res A) (st : list UVA * A) : res (list UVA * A) :=
  while_ fuel (fun '(stack, _) => Ok (match stack with [] => false | _ => true end)) st (area_round function).

(* the tables of Integrator.cpp, and the quadrature of one pair of spans that is not modelled *)
Variables (abscissae weights : list A) (clenshaw2 : surface -> A -> A -> A -> A -> res A).

(* NurbsSurface.cpp:3503-3533: the area of one patch *)
Definition gauss_area (s : surface) : res A :=
  let! a := get (KnotVectorU s) 0 in
  let! b := get (KnotVectorU s) (len (KnotVectorU s) - 1)%Z in
  let coefficient1 := (b - a) * nlit 1 2 in
  let! c := get (KnotVectorV s) 0 in
  let! d := get (KnotVectorV s) (len (KnotVectorV s) - 1)%Z in
  let coefficient2 := (d - c) * nlit 1 2 in
  let! bArea := for_up 0 (len abscissae) n0 (fun i bArea =>
    let! x := get abscissae i in
    let u := coefficient1 * x + (a + b) * nlit 1 2 in
    for_up 0 (len abscissae) bArea (fun j bArea =>
      let! y := get abscissae j in
      let v := coefficient2 * y + (c + d) * nlit 1 2 in
      let! ds := area_element s u v in
      let! wi := get weights i in
      let! wj := get weights j in
      Ok (bArea + wi * wj * ds))) in
  Ok (coefficient1 * coefficient2 * bArea).

(* NurbsSurface.cpp:3396-3564; fuel bounds the rounds of the first rule and the decomposition of the second *)
Definition ApproximateArea (fuel : nat) (s : surface) (type : IntegratorType) : res A :=
  let! reSurface := SurfaceReparametrize s n0 n1 n0 n1 in
  match type with
  | It_Simpson =>
      let function := area_element reSurface in
      let! init := make_UVA function n0 n1 n0 n1 in
      let! st := area_loop fuel function ([init], n0) in
      Ok (snd st)
  | It_GaussLegendre =>
      let! bezierSurfaces := SurfaceDecomposeToBeziers fuel reSurface in
      for_up 0 (len bezierSurfaces) n0 (fun i area =>
        let! b := get bezierSurfaces i in
        let! x := gauss_area b in
        Ok (area + x))
  | It_Chebyshev =>
      let! row0 := get (SControlPoints reSurface) 0 in
      for_up (DegreeU reSurface) (len (SControlPoints reSurface)) n0 (fun i area =>
        let! u0 := get (KnotVectorU reSurface) i in
        let! u1 := get (KnotVectorU reSurface) (i + 1)%Z in
        for_up (DegreeV reSurface) (len row0) area (fun j area =>
          let! v0 := get (KnotVectorV reSurface) j in
          let! v1 := get (KnotVectorV reSurface) (j + 1)%Z in
          let! x := clenshaw2 reSurface u0 u1 v0 v1 in
          Ok (area + x)))
  end.

End Area.
Arguments UVA : clear implicits.
Arguments mkUVA {A}.
