(* Model of src/LNLib/Geometry/Curve/NurbsCurve.cpp, ninth part: removing knots within an error bound. *)
From Coq Require Import ZArith List Bool.
From Verif Require Import Base Num Vec M_MathUtils M_Polynomials M_Knots M_XYZ M_Bspline M_NurbsCurve M_Curve2 M_Interp.
Import ListNotations.
Open Scope Z_scope.

Section Bound.
Context {A : Type} {NA : Num A}.
Notation pt3 := (XYZ A).
Notation pt4 := (XYZW A).
Notation curve := (Curve A (XYZW A)).
Local Notation "x +. y" := (nadd x y) (at level 50, left associativity).
Local Notation "x -. y" := (nsub x y) (at level 50, left associativity).
Local Notation "x *. y" := (nmul x y) (at level 40, left associativity).

(* Constants.h:26 *)
Definition MaxDistance : A := nofZ 1000000000.

(* NurbsCurve.cpp:2665 and 2666, 2687 *)
Definition bound_alpha (knotVector : list A) (u : A) (ord i : Z) : res A :=
  let! ui := get knotVector i in
  let! uo := get knotVector (i + ord) in
  ndiv (u -. ui) (uo -. ui).

(* NurbsCurve.cpp:2663-2674 *)
Definition bound_solve (knotVector : list A) (controlPoints : list pt4) (u : A) (ord : Z) (s : list pt4 * Z * Z * Z * Z) : res (list pt4 * Z * Z * Z * Z) :=
  let '(_, i0, j0, _, _) := s in
  while_ (Z.to_nat (j0 - i0)) (fun '(_, i, j, _, _) => Ok (0 <? j - i)) s (fun '(temp, i, j, ii, jj) =>
    let! alfi := bound_alpha knotVector u ord i in
    let! alfj := bound_alpha knotVector u ord j in
    let! ci := get controlPoints i in
    let! x := get temp (ii - 1) in
    let! q := xyzw_div (xyzw_sub ci (xyzw_scale (n1 -. alfi) x)) alfi in
    let! temp := upd temp ii q in
    let! cj := get controlPoints j in
    let! y := get temp (jj + 1) in
    let! q := xyzw_div (xyzw_sub cj (xyzw_scale alfj y)) (n1 -. alfj) in
    let! temp := upd temp jj q in
    Ok (temp, i + 1, j - 1, ii + 1, jj - 1)).

(* NurbsCurve.cpp:2638-2684. knotVector.size() - 1 is a size_t: without knots it is huge, and knotVector[r] is undefined. *)
Definition ComputerRemoveKnotErrorBound (c : curve) (removalIndex : Z) : res A :=
  let degree := Degree c in
  let knotVector := KnotVector c in
  let controlPoints := ControlPoints c in
  (if len knotVector =? 0 then validate (0 <=? removalIndex) else validate_int_range removalIndex 0 (len knotVector - 1)) ;;
  let ord := degree + 1 in
  let r := removalIndex in
  let! u := get knotVector r in
  let! s := GetKnotMultiplicity knotVector u in
  let last := r - s in
  let first := r - degree in
  let off := first - 1 in
  let! temp := mkvec (len knotVector) xyzw0 in
  let! x := get controlPoints off in
  let! temp := upd temp 0 x in
  let! x := get controlPoints (last + 1) in
  let! temp := upd temp (last + 1 - off) x in
  let! s := bound_solve knotVector controlPoints u ord (temp, first, last, 1, last - off) in
  let '(temp, i, j, ii, jj) := s in
  if j - i <? 0 then
    let! x := get temp (ii - 1) in
    let! y := get temp (jj + 1) in
    xyzw_Distance x y
  else
    let! alfi := bound_alpha knotVector u ord i in
    let! ci := get controlPoints i in
    let! x := get temp (ii + 1) in
    let! y := get temp (ii - 1) in
    xyzw_Distance ci (xyzw_add (xyzw_scale alfi x) (xyzw_scale (n1 -. alfi) y)).

(* the variables of the loop in NurbsCurve.cpp:2749-2886. NewError only holds a summand of temp and is left out: it has the same size. *)
Record bstate : Type := mkB { bBr : list A; bS : list Z; bNl : list Z; bNr : list Z; bErr : list A; bTemp : list A; bU : list A; bCP : list pt4; bMin : Z }.

(* NurbsCurve.cpp:2712-2728 *)
Definition bound_start (c : curve) (Br : list A) (Ms : list Z) : res (list A * list Z) :=
  for_up (Degree c + 1) (len (ControlPoints c)) (Br, Ms) (fun i '(Br, Ms) =>
    let! x := get (KnotVector c) i in
    let! y := get (KnotVector c) (i + 1) in
    if IsLessThan x y then
      let! b := ComputerRemoveKnotErrorBound c i in
      let! Br := upd Br i b in
      let! m := GetKnotMultiplicity (KnotVector c) x in
      let! Ms := upd Ms i m in
      Ok (Br, Ms)
    else
      let! Br := upd Br i MaxDistance in
      let! Ms := upd Ms i 1 in
      Ok (Br, Ms)).

(* NurbsCurve.cpp:2730-2742 *)
Definition bound_ranges (degree : Z) (knotVector uk : list A) (Nl Nr : list Z) : res (list Z * list Z) :=
  let! Nl := upd Nl 0 0 in
  for_up 0 (len uk) (Nl, Nr) (fun i '(Nl, Nr) =>
    let! u := get uk i in
    let! spanIndex := GetKnotSpanIndex degree knotVector u in
    let! l := get Nl spanIndex in
    let! Nl := if l =? 0 then upd Nl spanIndex i else Ok Nl in
    let! Nr := if i + 1 <? len uk then upd Nr spanIndex (i + 1) else Ok Nr in
    Ok (Nl, Nr)).

(* NurbsCurve.cpp:2751-2760 *)
Definition bound_least (Br : list A) (index : Z) : res Z :=
  let! s := for_up 0 (len Br) (index, MaxDistance) (fun i '(index, minStandard) =>
    let! b := get Br i in
    Ok (if IsLessThan b minStandard then (i, b) else (index, minStandard))) in
  Ok (fst s).

(* NurbsCurve.cpp:2776-2803; false is not removable. The int remainder of degree + s, both positive. *)
Definition bound_test (degree : Z) (uk : list A) (maxError : A) (st : bstate) (r s Rstart Rend : Z) : res (bool * list A) :=
  let! o := for_upc Rstart (Rend + 1) (bTemp st) (fun i temp =>
    let! u := get uk i in
    let! b := get (bBr st) r in
    let! e :=
      if negb (Z.rem (degree + s) 2 =? 0) then
        let k := Z.quot (degree + s + 1) 2 in
        let! x := get (bU st) r in
        let! y := get (bU st) (r - k + 1) in
        let! z := get (bU st) (r - k + degree + 2) in
        let! a := ndiv (x -. y) (z -. y) in
        let! v := OneBasisFunction (r - k + 1) degree (bU st) u in
        Ok ((n1 -. a) *. b *. v)
      else
        let k := Z.quot (degree + s) 2 in
        let! v := OneBasisFunction (r - k) degree (bU st) u in
        Ok (b *. v) in
    let! e0 := get (bErr st) i in
    let t := e +. e0 in
    let! temp := upd temp i t in
    if IsGreaterThan t maxError then Ok (Stop temp) else Ok (Next temp)) in
  Ok (match o with Stop temp => (false, temp) | Next temp => (true, temp) end).

(* NurbsCurve.cpp:2827-2851. The bound of the second loop is a size_t, and so is k there: from a negative start it does not run. *)
Definition bound_shift (degree : Z) (uk tempNewU : list A) (Nl Nr : list Z) (r sr Rstart Rend : Z) : res (list Z * list Z) :=
  let! s := for_up Rstart (Rend + 1) (Nl, Nr, -1) (fun k '(Nl, Nr, oldspanIndex) =>
    let! u := get uk k in
    let! spanIndex := GetKnotSpanIndex degree tempNewU u in
    let! Nl := if negb (spanIndex =? oldspanIndex) then upd Nl spanIndex k else Ok Nl in
    let! Nr := if k + 1 <? len uk then upd Nr spanIndex (k + 1) else Ok Nr in
    Ok (Nl, Nr, spanIndex)) in
  let '(Nl, Nr, _) := s in
  let lo := r - sr + 1 in
  let lo := if lo <? 0 then len Nl else lo in
  let! s := for_up lo (len Nl - 1) (Nl, Nr) (fun k '(Nl, Nr) =>
    let! x := get Nl (k + 1) in
    let! Nl := upd Nl k x in
    let! y := get Nr (k + 1) in
    let! Nr := upd Nr k y in
    Ok (Nl, Nr)) in
  let '(Nl, Nr) := s in
  let! Nl := resize Nl (len Nl - 1) 0 in
  let! Nr := resize Nr (len Nr - 1) 0 in
  Ok (Nl, Nr).

(* NurbsCurve.cpp:2853-2877. The bound of the second loop is a size_t too. *)
Definition bound_again (newtc : curve) (Br : list A) (Ms : list Z) (s Rstart Rend : Z) : res (list A * list Z) :=
  let! t := for_up Rstart (Rend + 1) (Br, Ms, s) (fun i '(Br, Ms, s) =>
    let! x := get (KnotVector newtc) i in
    let! y := get (KnotVector newtc) (i + 1) in
    if IsLessThan x y then
      let! b := ComputerRemoveKnotErrorBound newtc i in
      let! Br := upd Br i b in
      let! Ms := upd Ms i s in
      Ok (Br, Ms, 1)
    else
      let! Br := upd Br i MaxDistance in
      let! Ms := upd Ms i 1 in
      Ok (Br, Ms, s + 1)) in
  let '(Br, Ms, _) := t in
  let lo := if Rend + 1 <? 0 then len Br else Rend + 1 in
  let! t := for_up lo (len Br - 1) (Br, Ms) (fun i '(Br, Ms) =>
    let! x := get Br (i + 1) in
    let! Br := upd Br i x in
    let! y := get Ms (i + 1) in
    let! Ms := upd Ms i y in
    Ok (Br, Ms)) in
  let '(Br, Ms) := t in
  let! Br := resize Br (len Br - 1) n0 in
  Ok (Br, Ms).

(* NurbsCurve.cpp:2806-2881: what follows a test that was passed. RemoveKnot that returns false leaves newtc empty. *)
Definition bound_remove (degree : Z) (uk : list A) (st : bstate) (temp : list A) (r Rstart Rend : Z) : res (ctl bstate (list A * list pt4 * list A)) :=
  let tempU := bU st in
  let tempCP := bCP st in
  let! ur := get tempU r in
  let! o := RemoveKnot (mkCurve degree tempU tempCP) ur 1 in
  let newtc := match o with Some c => c | None => mkCurve 0 [] [] end in
  let tempNewU := KnotVector newtc in
  let tempNewCP := ControlPoints newtc in
  let controlPointsSize := len tempNewCP in
  let! errors := for_up Rstart (Rend + 1) (bErr st) (fun i errors => let! t := get temp i in upd errors i t) in
  if controlPointsSize <=? degree + 1 then Ok (Stop (tempU, tempCP, errors)) else
  let! Rstart := get (bNl st) (r - degree - 1) in
  let! sr := get (bS st) r in
  let! Rend := get (bNr st) (r - sr) in
  let! (Nl, Nr) := bound_shift degree uk tempNewU (bNl st) (bNr st) r sr Rstart Rend in
  let Rstart := Z.max (r - degree) (degree + 1) in
  let Rend := Z.min (r + degree - sr + 1) controlPointsSize in
  let! s := get (bS st) Rstart in
  let! (Br, Ms) := bound_again newtc (bBr st) (bS st) s Rstart Rend in
  Ok (Next (mkB Br Ms Nl Nr errors temp tempNewU tempNewCP (bMin st))).

(* NurbsCurve.cpp:2749-2886: one round; n is never updated *)
Definition bound_round (degree n : Z) (uk : list A) (maxError : A) (st : bstate) : res (ctl bstate (list A * list pt4 * list A)) :=
  let! r := bound_least (bBr st) (bMin st) in
  let! BrMin := get (bBr st) r in
  if neqb BrMin MaxDistance then Ok (Stop (bU st, bCP st, bErr st)) else
  let! s := get (bS st) r in
  let! sd := get (bS st) (r + degree) in
  let! Rstart := get (bNl st) (Z.max (r - degree) (degree + 1)) in
  let! Rend := get (bNr st) (Z.min (r + degree - sd + 1) n) in
  let! (removable, temp) := bound_test degree uk maxError st r s Rstart Rend in
  if removable then
    bound_remove degree uk (mkB (bBr st) (bS st) (bNl st) (bNr st) (bErr st) temp (bU st) (bCP st) r) temp r Rstart Rend
  else
    let! Br := upd (bBr st) r MaxDistance in
    Ok (Next (mkB Br (bS st) (bNl st) (bNr st) (bErr st) temp (bU st) (bCP st) r)).

(* NurbsCurve.cpp:2686-2891: the new curve and the new errors. Every round that is not the last removes a control point or gives up a knot. *)
Definition RemoveKnotsByGivenBound (c : curve) (params errors : list A) (maxError : A) : res (curve * list A) :=
  let degree := Degree c in
  validate (0 <? len params) ;;
  validate (len params =? len errors) ;;
  validate (IsGreaterThan maxError n0) ;;
  let knotSize := len (KnotVector c) in
  let! Br := mkvec knotSize MaxDistance in
  let! Ms := mkvec knotSize 0 in
  let! Nl := mkvec knotSize 0 in
  let! Nr := mkvec knotSize (len params - 1) in
  let! temp := mkvec (len params) n0 in
  let! (Br, Ms) := bound_start c Br Ms in
  let! (Nl, Nr) := bound_ranges degree (KnotVector c) params Nl Nr in
  let! o := while_ ((length (KnotVector c) + 1) * (length (ControlPoints c) + 2)) (fun s => Ok (match s with Next _ => true | Stop _ => false end))
    (Next (mkB Br Ms Nl Nr errors temp (KnotVector c) (ControlPoints c) 0))
    (fun s => match s with Next st => bound_round degree (len (ControlPoints c) - 1) params maxError st | Stop _ => Ok s end) in
  match o with
  | Stop (u, cp, errors) => Ok (mkCurve degree u cp, errors)
  | Next _ => OutOfFuel
  end.

(* NurbsCurve.cpp:2893-2924 *)
Definition GlobalApproximationByErrorBound (degree : Z) (throughPoints : list pt3) (maxError : A) : res curve :=
  validate (0 <? degree) ;;
  validate (degree <? len throughPoints) ;;
  validate (IsGreaterThan maxError n0) ;;
  let! uk := GetChordParameterization throughPoints in
  let size := len throughPoints in
  let! errors := mkvec size n0 in
  let! controlPoints := mkvec size xyzw0 in
  let! knotVector := mkvec (size + 2) n0 in
  let! knotVector := for_up 0 size knotVector (fun i v => let! u := get uk i in upd v (i + 1) u) in
  let! knotVector := upd knotVector 0 n0 in
  let! knotVector := upd knotVector (len knotVector - 1) n1 in
  let! controlPoints := for_up 0 size controlPoints (fun i v => let! q := get throughPoints i in upd v i (mkW q n1)) in
  let! newtc := ElevateDegree (mkCurve 1 knotVector controlPoints) (degree - 1) in
  let! r := RemoveKnotsByGivenBound newtc uk errors maxError in
  Ok (fst r).
End Bound.
