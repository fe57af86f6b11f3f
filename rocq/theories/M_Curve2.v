(* Model of src/LNLib/Geometry/Curve/NurbsCurve.cpp, second part: operations that turn
   curves into curves. *)
From Coq Require Import ZArith List Bool.
From Verif Require Import Base Num Vec M_MathUtils M_Polynomials M_XYZ M_Bspline M_NurbsCurve M_Knots M_Matrix.
Import ListNotations.
Open Scope Z_scope.

(* v.resize(n): cut off, or fill up with d *)
Definition resize {X} (l : list X) (n : Z) (d : X) : res (list X) :=
  if n <? 0 then Throw else Ok (firstn (Z.to_nat n) l ++ repeat d (Z.to_nat (n - len l))).

(* v.assign(w.begin() + lo, w.begin() + hi) *)
Definition slice {X} (l : list X) (lo hi : Z) : res (list X) :=
  if (0 <=? lo) && (lo <=? hi) && (hi <=? len l)
  then Ok (firstn (Z.to_nat (hi - lo)) (skipn (Z.to_nat lo) l)) else UB.

(* v.pop_back() *)
Definition pop_back {X} (l : list X) : res (list X) :=
  match l with [] => UB | _ => Ok (removelast l) end.

Section Curve2.
Context {A : Type} {NA : Num A} {T : Type} {VT : Vec A T}.
Notation curve := (Curve A T).

(* NurbsCurve.cpp:1504-1517 *)
Definition Reparametrize (c : curve) (min max : A) : res curve :=
  let knotVector := KnotVector c in
  let! first := get knotVector 0 in
  let! last := get knotVector (len knotVector - 1) in
  if IsAlmostEqualTo min first && IsAlmostEqualTo max last then Ok c
  else
    let! newKnotVector := Rescale knotVector min max in
    Ok (mkCurve (Degree c) newKnotVector (ControlPoints c)).

(* NurbsCurve.cpp:1519-1540 *)
Definition Reverse (c : curve) : res curve :=
  let knotVector := KnotVector c in
  let size := len knotVector in
  let! reversedKnotVector := mkvec size n0 in
  let! min := get knotVector 0 in
  let! _ := get knotVector (size - 1) in
  let! reversedKnotVector := upd reversedKnotVector 0 min in
  let! reversedKnotVector := for_up 1 size reversedKnotVector (fun i v =>
    let! x := get v (i - 1) in
    let! a := get knotVector (size - i) in
    let! b := get knotVector (size - i - 1) in
    upd v i (nadd x (nsub a b))) in
  Ok (mkCurve (Degree c) reversedKnotVector (rev (ControlPoints c))).

(* NurbsCurve.cpp:1542-1586; None is the return value false. The copy loops count down;
   the order of independent element copies is not observable. *)
Definition SplitAt (c : curve) (parameter : A) : res (option (curve * curve)) :=
  let degree := Degree c in
  let knotVector := KnotVector c in
  let! lo := get knotVector degree in
  let! hi := get knotVector (len knotVector - degree - 1) in
  if IsLessThanOrEqual parameter lo || IsGreaterThanOrEqual parameter hi then Ok None else
  let! multi := GetKnotMultiplicity knotVector parameter in
  let! insert := mkvec (degree + 1 - multi) parameter in
  let! lft := if 0 <? len insert then RefineKnotVector c insert else Ok c in
  let! span := GetKnotSpanIndex (Degree lft) (KnotVector lft) parameter in
  let spanIndex := span - degree in
  let rControlPoints := len (ControlPoints lft) - spanIndex in
  let! rightControlPoints := mkvec rControlPoints vzero in
  let! rightKnotVector := mkvec (rControlPoints + degree + 1) n0 in
  let! rightControlPoints := for_down (rControlPoints - 1) 0 rightControlPoints (fun j v =>
    let! x := get (ControlPoints lft) (len (ControlPoints lft) - rControlPoints + j) in upd v j x) in
  let! rightKnotVector := for_down (rControlPoints + degree) 0 rightKnotVector (fun j v =>
    let! x := get (KnotVector lft) (len (KnotVector lft) - 1 - (rControlPoints + degree) + j) in upd v j x) in
  let! lc := resize (ControlPoints lft) spanIndex vzero in
  let! lk := resize (KnotVector lft) (spanIndex + degree + 1) n0 in
  Ok (Some (mkCurve degree lk lc, mkCurve degree rightKnotVector rightControlPoints)).

(* NurbsCurve.cpp:1588-1620 *)
Definition Extract (c : curve) (startParameter endParameter : A) : res curve :=
  let degree := Degree c in
  let knotVector := KnotVector c in
  validate_domain knotVector startParameter ;;
  validate_domain knotVector endParameter ;;
  validate (IsLessThan startParameter endParameter) ;;
  let kmap := GetKnotMultiplicityMap knotVector in
  let insert_count_start := (degree + 1) - kmap_get kmap startParameter in
  let! tempCurve := (if 0 <? insert_count_start
    then let! r := InsertKnot c startParameter insert_count_start c in Ok (snd r) else Ok c) in
  let insert_count_end := (degree + 1) - kmap_get kmap endParameter in
  let! tempCurve := (if 0 <? insert_count_end
    then let! r := InsertKnot tempCurve endParameter insert_count_end tempCurve in Ok (snd r) else Ok tempCurve) in
  let! ks := GetKnotSpanIndex degree (KnotVector tempCurve) startParameter in
  let! ke := GetKnotSpanIndex degree (KnotVector tempCurve) endParameter in
  let! k := slice (KnotVector tempCurve) ks (ke + 2) in
  let! p := slice (ControlPoints tempCurve) (ks - degree) (ke + 1) in
  Ok (mkCurve degree k p).

(* NurbsCurve.cpp:682-732: the main loop of DecomposeToBeziers. beziers[i].Degree and
   beziers[i].KnotVector are the same for all i and not changed by the loop, so the state
   keeps only the control points (bz), with a, b and nb. *)
Definition dec_run (fuel : nat) (m : Z) (knotVector : list A) (b : Z) : res Z :=
  while_ fuel
    (fun b => if b <? m then
       let! x := get knotVector (b + 1) in let! y := get knotVector b in Ok (IsAlmostEqualTo x y) else Ok false)
    b (fun b => Ok (b + 1)).

Definition dec_body (degree m : Z) (knotVector : list A) (controlPoints : list T)
  (s : list (list T) * Z * Z * Z) : res (list (list T) * Z * Z * Z) :=
  let '(bz, a, b, nb) := s in
  let i := b in
  let! b := dec_run (length knotVector) m knotVector b in
  let multi := b - i + 1 in
  if multi <? degree then
    let! ub := get knotVector b in
    let! ua := get knotVector a in
    let numerator := nsub ub ua in
    let! alphaVector := mkvec (degree + 1) n0 in
    let! alphaVector := for_down degree (multi + 1) alphaVector (fun j v =>
      let! x := get knotVector (a + j) in
      let! q := ndiv numerator (nsub x ua) in
      upd v (j - multi - 1) q) in
    let r := degree - multi in
    let! bz := for_up 1 (r + 1) bz (fun j bz =>
      let save := r - j in
      let s := multi + j in
      let! bz := for_down degree s bz (fun k bz =>
        let! alpha := get alphaVector (k - s) in
        let! x := get2 bz nb k in
        let! y := get2 bz nb (k - 1) in
        upd2 bz nb k (blend alpha x y)) in
      if b <? m then
        let! x := get2 bz nb degree in
        upd2 bz (nb + 1) save x
      else Ok bz) in
    let nb := nb + 1 in
    if b <? m then
      let! bz := for_up (degree - multi) (degree + 1) bz (fun i bz =>
        let! x := get controlPoints (b - degree + i) in
        upd2 bz nb i x) in
      Ok (bz, b, b + 1, nb)
    else Ok (bz, a, b, nb)
  else Ok (bz, a, b, nb).

(* NurbsCurve.cpp:636-735. The while loop need not end: the fuel is a parameter. *)
Definition DecomposeToBeziers (fuel : nat) (c : curve) : res (list curve) :=
  let degree := Degree c in
  let knotVector := KnotVector c in
  let controlPoints := ControlPoints c in
  for_up 0 (len knotVector) tt (fun i _ =>
    let! u := get knotVector i in
    let! multi := GetKnotMultiplicity knotVector u in
    validate (multi <=? degree + 1)) ;;
  let knotSize := 2 * (degree + 1) in
  let! bezierKnots := mkvec knotSize n0 in
  let! bezierKnots := for_up 0 (Z.quot knotSize 2) bezierKnots (fun i v => upd v i n0) in
  let! bezierKnots := for_up (Z.quot knotSize 2) knotSize bezierKnots (fun i v => upd v i n1) in
  let n := len controlPoints - 1 in
  let m := n + degree + 1 in
  let! breaks := for_up 0 (m + 1) 0 (fun i breaks =>
    if i =? 0 then Ok (breaks + 1) else
    let! x := get knotVector i in
    let! y := get knotVector (i - 1) in
    Ok (if negb (IsAlmostEqualTo x y) then breaks + 1 else breaks)) in
  let bezierSize := breaks - 1 in
  let! row := mkvec (degree + 1) vzero in
  let! bz := mkvec bezierSize row in
  let! bz := for_up 0 (degree + 1) bz (fun i bz =>
    let! x := get controlPoints i in upd2 bz 0 i x) in
  let! s := while_ fuel (fun '(_, _, b, _) => Ok (b <? m)) (bz, degree, degree + 1, 0)
              (dec_body degree m knotVector controlPoints) in
  let '(bz, _, _, _) := s in
  Ok (map (mkCurve degree bezierKnots) bz).

(* NurbsCurve.cpp:906-929: Bezier degree elevation coefficients *)
Definition elevate_coefs (degree times : Z) : res (list (list A)) :=
  let ph := degree + times in
  let ph2 := Z.quot ph 2 in
  let! row := mkvec (degree + 1) n0 in
  let! bezalfs := mkvec (degree + times + 1) row in
  let! bezalfs := upd2 bezalfs ph degree n1 in
  let! bezalfs := upd2 bezalfs 0 0 n1 in
  let! bezalfs := for_up 1 (ph2 + 1) bezalfs (fun i bezalfs =>
    let! b := Binomial ph i in
    let! inv := ndiv n1 b in
    let mpi := Z.min degree i in
    for_up (Z.max 0 (i - times)) (mpi + 1) bezalfs (fun j bezalfs =>
      let! x := Binomial degree j in
      let! y := Binomial times (i - j) in
      upd2 bezalfs i j (nmul (nmul inv x) y))) in
  for_up (ph2 + 1) ph bezalfs (fun i bezalfs =>
    let mpi := Z.min degree i in
    for_up (Z.max 0 (i - times)) (mpi + 1) bezalfs (fun j bezalfs =>
      let! x := get2 bezalfs (ph - i) (degree - j) in
      upd2 bezalfs i j x)).

(* NurbsCurve.cpp:996-1046: removal of knot u = U[a], oldr times; loop over tr.
   One round: the inner while loop. *)
Definition elevate_remove (ub ua den bet : A) (kind cind lbz ph oldr tr : Z) (updatedKnotVector : list A)
  (first last : Z) (s : list T * list T) : res (list T * list T) :=
  let! s := while_ (Z.to_nat (last - first + 1))
    (fun '(_, _, i, j, _) => Ok (tr <? j - i))
    (fst s, snd s, first, last, last - kind + 1)
    (fun '(updatedControlPoints, ebpts, i, j, kj) =>
      let! updatedControlPoints :=
        if i <? cind then
          let! u := get updatedKnotVector i in
          let! alf := ndiv (nsub ub u) (nsub ua u) in
          let! x := get updatedControlPoints i in
          let! y := get updatedControlPoints (i - 1) in
          upd updatedControlPoints i (blend alf x y)
        else Ok updatedControlPoints in
      let! ebpts :=
        if lbz <=? j then
          if j - tr <=? kind - ph + oldr then
            let! u := get updatedKnotVector (j - tr) in
            let! gam := ndiv (nsub ub u) den in
            let! x := get ebpts kj in
            let! y := get ebpts (kj + 1) in
            upd ebpts kj (blend gam x y)
          else
            let! x := get ebpts kj in
            let! y := get ebpts (kj + 1) in
            upd ebpts kj (blend bet x y)
        else Ok ebpts in
      Ok (updatedControlPoints, ebpts, i + 1, j - 1, kj - 1)) in
  let '(updatedControlPoints, ebpts, _, _, _) := s in
  Ok (updatedControlPoints, ebpts).

(* the state of the main loop of ElevateDegree *)
Record estate : Type := mkE {
  e_mh : Z; e_kind : Z; e_r : Z; e_a : Z; e_b : Z; e_cind : Z; e_ua : A;
  e_Q : list T; e_U : list A; e_bpts : list T; e_next : list T }.

(* NurbsCurve.cpp:963-1087 *)
Definition elevate_body (degree times m : Z) (bezalfs : list (list A)) (knotVector : list A)
  (controlPoints : list T) (s : estate) : res estate :=
  let ph := degree + times in
  let i := e_b s in
  let a := e_a s in
  let ua := e_ua s in
  let! b := while_ (length knotVector)
    (fun b => if b <? m then
       let! x := get knotVector b in let! y := get knotVector (b + 1) in Ok (IsAlmostEqualTo x y) else Ok false)
    (e_b s) (fun b => Ok (b + 1)) in
  let mul := b - i + 1 in
  let mh := e_mh s + (mul + times) in
  let! ub := get knotVector b in
  let oldr := e_r s in
  let r := degree - mul in
  let lbz := if 0 <? oldr then Z.quot (oldr + 2) 2 else 1 in
  let rbz := if 0 <? r then ph - Z.quot (r + 1) 2 else ph in
  let! s1 := (if 0 <? r then
    let numer := nsub ub ua in
    let! alfs := mkvec (degree - 1) n0 in
    let! alfs := for_down degree (mul + 1) alfs (fun k alfs =>
      let! x := get knotVector (a + k) in
      let! q := ndiv numer (nsub x ua) in
      upd alfs (k - mul - 1) q) in
    for_up 1 (r + 1) (e_bpts s, e_next s) (fun j '(bpts, nextbpts) =>
      let save := r - j in
      let s := mul + j in
      let! bpts := for_down degree s bpts (fun k bpts =>
        let! al := get alfs (k - s) in
        let! x := get bpts k in
        let! y := get bpts (k - 1) in
        upd bpts k (blend al x y)) in
      let! x := get bpts degree in
      let! nextbpts := upd nextbpts save x in
      Ok (bpts, nextbpts))
    else Ok (e_bpts s, e_next s)) in
  let '(bpts, nextbpts) := s1 in
  let! ebpts := mkvec (degree + times + 1) vzero in
  let! ebpts := for_up lbz (ph + 1) ebpts (fun i ebpts =>
    let! ebpts := upd ebpts i vzero in
    let mpi := Z.min degree i in
    for_up (Z.max 0 (i - times)) (mpi + 1) ebpts (fun j ebpts =>
      let! c := get2 bezalfs i j in
      let! x := get bpts j in
      let! e := get ebpts i in
      upd ebpts i (vadd e (vscale c x)))) in
  let kind := e_kind s in
  let cind := e_cind s in
  let! s2 := (if 1 <? oldr then
    let first := kind - 2 in
    let last := kind in
    let den := nsub ub ua in
    let! uk := get (e_U s) (kind - 1) in
    let! bet := ndiv (nsub ub uk) den in
    let! s2 := for_up 1 oldr (e_Q s, ebpts, first, last) (fun tr '(Q, ebpts, first, last) =>
      let! s' := elevate_remove ub ua den bet kind cind lbz ph oldr tr (e_U s) first last (Q, ebpts) in
      Ok (fst s', snd s', first - 1, last + 1)) in
    let '(Q, ebpts, _, _) := s2 in
    Ok (Q, ebpts)
    else Ok (e_Q s, ebpts)) in
  let '(Q, ebpts) := s2 in
  let! s3 := (if negb (a =? degree)
    then for_up 0 (ph - oldr) (e_U s, kind) (fun _ '(U, kind) =>
      let! U := upd U kind ua in Ok (U, kind + 1))
    else Ok (e_U s, kind)) in
  let '(U, kind) := s3 in
  let! s4 := for_up lbz (rbz + 1) (Q, cind) (fun j '(Q, cind) =>
    let! x := get ebpts j in
    let! Q := upd Q cind x in
    Ok (Q, cind + 1)) in
  let '(Q, cind) := s4 in
  if b <? m then
    let! bpts := for_up 0 r bpts (fun j bpts =>
      let! x := get nextbpts j in upd bpts j x) in
    let! bpts := for_up r (degree + 1) bpts (fun j bpts =>
      let! x := get controlPoints (b - degree + j) in upd bpts j x) in
    Ok (mkE mh kind r b (b + 1) cind ub Q U bpts nextbpts)
  else
    let! U := for_up 0 (ph + 1) U (fun i U => upd U (kind + i) ub) in
    Ok (mkE mh kind r a b cind ua Q U bpts nextbpts).

(* NurbsCurve.cpp:893-1093 *)
Definition ElevateDegree (c : curve) (times : Z) : res curve :=
  let degree := Degree c in
  let knotVector := KnotVector c in
  let controlPoints := ControlPoints c in
  validate (0 <? times) ;;
  let n := len controlPoints - 1 in
  let m := n + degree + 1 in
  let ph := degree + times in
  let! bezalfs := elevate_coefs degree times in
  let! ua := get knotVector 0 in
  let startIdx := degree + 1 in
  let endIdx := len knotVector - (degree + 1) in
  let uniqueCount := endIdx - startIdx in
  let nh := n + (uniqueCount + 1) * times in
  let! Q := mkvec (nh + 1) vzero in
  let! c0 := get controlPoints 0 in
  let! Q := upd Q 0 c0 in
  let! U := mkvec (nh + 1 + ph + 1) n0 in
  let! U := for_up 0 (ph + 1) U (fun i U => upd U i ua) in
  let! bpts := mkvec (degree + 1) vzero in
  let! bpts := for_up 0 (degree + 1) bpts (fun i bpts =>
    let! x := get controlPoints i in upd bpts i x) in
  let! nextbpts := mkvec (degree - 1) vzero in
  let! s := while_ (length knotVector) (fun s => Ok (e_b s <? m))
    (mkE ph (ph + 1) (-1) degree (degree + 1) 1 ua Q U bpts nextbpts)
    (elevate_body degree times m bezalfs knotVector controlPoints) in
  Ok (mkCurve ph (e_U s) (e_Q s)).

End Curve2.

Section Curve2W.
Context {A : Type} {NA : Num A}.
Notation curve := (Curve A (XYZW A)).

(* NurbsCurve.cpp:1453-1470 *)
Definition CreateTransformed (c : curve) (matrix : Matrix4d A) : res curve :=
  let controlPoints := ControlPoints c in
  let size := len controlPoints in
  let! transformed := mkvec size xyzw0 in
  let! transformed := for_up 0 size transformed (fun i v =>
    let! temp := get controlPoints i in
    let! x := OfWeightedPoint matrix temp in
    upd v i x) in
  Ok (mkCurve (Degree c) (KnotVector c) transformed).

(* NurbsCurve.cpp:1472-1502 *)
Definition ReparametrizeRational (c : curve) (alpha beta gamma delta : A) : res curve :=
  let degree := Degree c in
  let knotVector := KnotVector c in
  let controlPoints := ControlPoints c in
  validate (IsGreaterThan (nmul alpha delta) (nmul gamma beta)) ;;
  let! updatedKnotVector := mkvec (len knotVector) n0 in
  let! updatedKnotVector := for_up 0 (len knotVector) updatedKnotVector (fun i v =>
    let! u := get knotVector i in
    let! q := ndiv (nadd (nmul alpha u) beta) (nadd (nmul gamma u) delta) in
    upd v i q) in
  let! updatedControlPoints := mkvec (len controlPoints) xyzw0 in
  let! updatedControlPoints := for_up 0 (len controlPoints) updatedControlPoints (fun i v =>
    let! temp := for_up 1 (degree + 1) n1 (fun j temp =>
      let! u := get updatedKnotVector (i + j) in
      let lambda := nsub (nmul u gamma) alpha in
      Ok (nmul temp lambda)) in
    let! P := get controlPoints i in
    let newW := nabs (nmul (ww P) temp) in
    let! x := ToXYZ P true in
    upd v i (mkW x newW)) in
  Ok (mkCurve degree updatedKnotVector updatedControlPoints).

(* ValidationUtils.cpp:44-58; std::min(a,b) is b < a ? b : a, std::max(a,b) is a < b ? b : a *)
Definition ComputeCurveModifyTolerance (controlPoints : list (XYZW A)) : res A :=
  let! s := for_up 0 (len controlPoints) (n1, n0) (fun i '(minWeight, maxDistance) =>
    let! temp := get controlPoints i in
    let! x := ToXYZ temp true in
    let! d := Length x in
    Ok (nmin minWeight (ww temp), nmax maxDistance d)) in
  let '(minWeight, maxDistance) := s in
  ndiv (nmul DistanceEpsilon minWeight) (nadd n1 (nabs maxDistance)).

(* NurbsCurve.cpp:781-797: the two-sided computation of new control points *)
Definition remove_solve (removeKnot : A) (order t : Z) (knotVector : list A) (controlPoints : list (XYZW A))
  (s : list (XYZW A) * Z * Z * Z * Z) : res (list (XYZW A) * Z * Z * Z * Z) :=
  let '(_, i0, j0, _, _) := s in
  while_ (Z.to_nat (j0 - i0 + 1)) (fun '(_, i, j, _, _) => Ok (t <=? j - i)) s
    (fun '(temp, i, j, ii, jj) =>
      let! ui := get knotVector i in
      let! uio := get knotVector (i + order + t) in
      let! alphai := ndiv (nsub removeKnot ui) (nsub uio ui) in
      let! uj := get knotVector (j - t) in
      let! ujo := get knotVector (j + order) in
      let! alphaj := ndiv (nsub removeKnot uj) (nsub ujo uj) in
      let! ci := get controlPoints i in
      let! x := get temp (ii - 1) in
      let! q := xyzw_div (xyzw_sub ci (xyzw_scale (nsub n1 alphai) x)) alphai in
      let! temp := upd temp ii q in
      let! cj := get controlPoints j in
      let! y := get temp (jj + 1) in
      let! q := xyzw_div (xyzw_sub cj (xyzw_scale alphaj y)) (nsub n1 alphaj) in
      let! temp := upd temp jj q in
      Ok (temp, i + 1, j - 1, ii + 1, jj - 1)).

(* NurbsCurve.cpp:737-866; None is the return value false *)
Definition RemoveKnot (c : curve) (removeKnot : A) (times : Z) : res (option curve) :=
  let degree := Degree c in
  let knotVector := KnotVector c in
  let controlPoints := ControlPoints c in
  validate_domain knotVector removeKnot ;;
  validate (0 <? times) ;;
  let! tol := ComputeCurveModifyTolerance controlPoints in
  let n := len controlPoints - 1 in
  let order := degree + 1 in
  let! s := GetKnotMultiplicity knotVector removeKnot in
  let! r := GetKnotSpanIndex degree knotVector removeKnot in
  let first := r - degree in
  let last := r - s in
  let m := n + degree + 1 in
  let! restKnotVector := for_up (r + 1) (m + 1) knotVector (fun k v =>
    let! x := get v k in upd v (k - times) x) in
  let! restKnotVector := for_up 0 times restKnotVector (fun _ v => pop_back v) in
  let! temp := mkvec (2 * degree + 1) xyzw0 in
  (* the loop over t; Stop is the break, carrying t *)
  let! c := for_upc 0 times (controlPoints, temp, first, last) (fun t '(Q, temp, first, last) =>
    let off := first - 1 in
    let! x := get controlPoints off in
    let! temp := upd temp 0 x in
    let! x := get controlPoints (last + 1) in
    let! temp := upd temp (last + 1 - off) x in
    let! s := remove_solve removeKnot order t knotVector controlPoints (temp, first, last, 1, last - off) in
    let '(temp, i, j, ii, jj) := s in
    let! remflag :=
      if j - i <? t then
        let! x := get temp (ii - 1) in
        let! y := get temp (jj + 1) in
        let! d := xyzw_Distance x y in
        Ok (IsLessThanOrEqual d tol)
      else
        let! ui := get knotVector i in
        let! uio := get knotVector (i + order + t) in
        let! alphai := ndiv (nsub removeKnot ui) (nsub uio ui) in
        let! x := get temp (ii + t + 1) in
        let! y := get temp (ii - 1) in
        let! ci := get controlPoints i in
        let! d := xyzw_Distance ci (blend alphai x y) in
        Ok (IsLessThanOrEqual d tol) in
    if negb remflag then Ok (Stop (t, Q)) else
    let! s := while_ (Z.to_nat (last - first + 1)) (fun '(_, i, j) => Ok (t <? j - i)) (Q, first, last)
      (fun '(Q, i, j) =>
        let! x := get temp (i - off) in
        let! Q := upd Q i x in
        let! y := get temp (j - off) in
        let! Q := upd Q j y in
        Ok (Q, i + 1, j - 1)) in
    let '(Q, _, _) := s in
    Ok (Next (Q, temp, first - 1, last + 1))) in
  let '(t, Q) := match c with Stop r => r | Next (Q, _, _, _) => (times, Q) end in
  if t =? 0 then Ok None else
  let j := Z.quot (2 * r - s - degree) 2 in
  let! ij := for_up 1 t (j, j) (fun k '(i, j) =>
    Ok (if Z.rem k 2 =? 1 then (i + 1, j) else (i, j - 1))) in
  let '(i, j) := ij in
  let! Qj := for_up (i + 1) (n + 1) (Q, j) (fun k '(Q, j) =>
    let! x := get controlPoints k in
    let! Q := upd Q j x in
    Ok (Q, j + 1)) in
  let! Q := for_up 0 t (fst Qj) (fun _ v => pop_back v) in
  Ok (Some (mkCurve degree restKnotVector Q)).

(* NurbsCurve.cpp:868-891. Every round removes a control point, so the number of control
   points bounds the number of rounds. *)
Definition RemoveExcessiveKnots (c : curve) : res curve :=
  let! s := while_ (length (ControlPoints c) + 1) (fun '(_, changed) => Ok changed) (c, true)
    (fun '(result, _) =>
      let! map := GetInternalKnotMultiplicityMap (KnotVector result) in
      let! o := for_upc 0 (len map) tt (fun i _ =>
        let! e := get map i in
        let '(u, currentMultiplicity) := e in
        if currentMultiplicity <=? 1 then Ok (Next tt) else
        let! q := RemoveKnot result u 1 in
        match q with
        | Some tempResult => Ok (Stop tempResult)
        | None => Ok (Next tt)
        end) in
      match o with
      | Stop result => Ok (result, true)
      | Next _ => Ok (result, false)
      end) in
  Ok (fst s).

(* NurbsCurve.cpp:1095-1166; None is the return value false *)
Definition ReduceDegree (c : curve) : res (option curve) :=
  let degree := Degree c in
  let knotVector := KnotVector c in
  let controlPoints := ControlPoints c in
  let! tol := ComputeCurveModifyTolerance controlPoints in
  if negb (IsValidBezier degree (len controlPoints)) then Ok None else
  let r := Z.quot (degree - 1) 2 in
  let! Q := mkvec degree xyzw0 in
  let! c0 := get controlPoints 0 in
  let! Q := upd Q 0 c0 in
  let! cd := get controlPoints degree in
  let! Q := upd Q (degree - 1) cd in
  let! alpha := mkvec degree n0 in
  let! alpha := for_up 0 degree alpha (fun i alpha =>
    let! q := ndiv (nofZ i) (nofZ degree) in upd alpha i q) in
  (* the point solved from the left, and from the right *)
  let fromLeft Q i :=
    let! ci := get controlPoints i in
    let! ai := get alpha i in
    let! x := get Q (i - 1) in
    xyzw_div (xyzw_sub ci (xyzw_scale ai x)) (nsub n1 ai) in
  let fromRight Q i :=
    let! ci := get controlPoints (i + 1) in
    let! ai := get alpha (i + 1) in
    let! x := get Q (i + 1) in
    xyzw_div (xyzw_sub ci (xyzw_scale (nsub n1 ai) x)) ai in
  let! half := ndiv n1 (nofZ 2) in
  let! Qe := (if Z.rem degree 2 =? 0 then
    let! Q := for_up 1 (r + 1) Q (fun i Q => let! x := fromLeft Q i in upd Q i x) in
    let! Q := for_down (degree - 2) (r + 1) Q (fun i Q => let! x := fromRight Q i in upd Q i x) in
    let! cr := get controlPoints (r + 1) in
    let! x := get Q r in
    let! y := get Q (r + 1) in
    let! d := xyzw_Distance cr (xyzw_scale half (xyzw_add x y)) in
    let! cb := Binomial degree (r + 1) in
    Ok (Q, nmul d (nmul (nmul cb (npow half (Z.to_nat (r + 1)))) (npow (nsub n1 half) (Z.to_nat (degree - r - 1)))))
  else
    let! Q := for_up 1 r Q (fun i Q => let! x := fromLeft Q i in upd Q i x) in
    let! Q := for_down (degree - 2) (r + 1) Q (fun i Q => let! x := fromRight Q i in upd Q i x) in
    let! PLr := fromLeft Q r in
    let! PRr := fromRight Q r in
    let! Q := upd Q r (xyzw_scale half (xyzw_add PLr PRr)) in
    let! e := xyzw_Distance PLr PRr in
    let! sq := nsqrt (nofZ degree) in
    let! maxU := ndiv (nsub (nofZ degree) sq) (nofZ (2 * degree)) in
    let! ar := get alpha r in
    let! cb := Binomial degree r in
    Ok (Q, nmul (nmul (nmul e half) (nsub n1 ar))
             (nmul (nmul (nmul cb (npow maxU (Z.to_nat r))) (npow (nsub n1 maxU) (Z.to_nat (r + 1))))
                (nsub n1 (nmul (nofZ 2) maxU))))) in
  let '(Q, error) := Qe in
  if nltb tol error then Ok None else
  let updatedKnotVector := fold_left (fun v '(u, count) => v ++ repeat u (Z.to_nat (count - 1)))
    (GetKnotMultiplicityMap knotVector) [] in
  Ok (Some (mkCurve (degree - 1) updatedKnotVector Q)).

(* NurbsCurve.cpp:1633-1653: raise to the common degree and move to [0,1]. The first
   Reparametrize of each curve is overwritten when the degree is raised; it is only kept
   for its own failures. *)
Definition merge_prepare (c : curve) (degree : Z) : res curve :=
  let! t := Reparametrize c n0 n1 in
  if Degree c <? degree then
    let! e := ElevateDegree c (degree - Degree c) in
    Reparametrize e n0 n1
  else Ok t.

(* NurbsCurve.cpp:1622-1696; None is the return value false *)
Definition Merge (lft rgt : curve) : res (option curve) :=
  let! l := get (ControlPoints lft) (len (ControlPoints lft) - 1) in
  let! r := get (ControlPoints rgt) 0 in
  let! same := xyzw_IsAlmostEqualTo l r in
  if negb same then Ok None else
  let degree := Z.max (Degree lft) (Degree rgt) in
  let! tempL := merge_prepare lft degree in
  let! tempR := merge_prepare rgt degree in
  let! ul := get (KnotVector tempL) (len (KnotVector tempL) - 1) in
  let! ml := GetKnotMultiplicity (KnotVector tempL) ul in
  let! ur := get (KnotVector tempR) 0 in
  let! mr := GetKnotMultiplicity (KnotVector tempR) ur in
  if negb (ml =? degree + 1) || negb (mr =? degree + 1) then Ok None else
  let controlPoints := ControlPoints tempL ++ ControlPoints tempR in
  let! tempR := Reparametrize tempR n1 (nofZ 2) in
  let! knotVector := for_up (degree + 1) (len (KnotVector tempR)) (KnotVector tempL) (fun i v =>
    let! x := get (KnotVector tempR) i in Ok (v ++ [x])) in
  let! knotVector := Rescale knotVector n0 n1 in
  Ok (Some (mkCurve degree knotVector controlPoints)).

(* NurbsCurve.cpp:1713-1728 *)
Definition CreateLine (start end_ : XYZ A) : res curve :=
  validate (negb (xyz_IsAlmostEqualTo start end_)) ;;
  Ok (mkCurve 1 [n0; n0; n1; n1] [mkW start n1; mkW end_ n1]).

(* NurbsCurve.cpp:1929-1935. Returns insertPointAtStartSide, splitPoint,
   insertPointAtEndSide and what the caller's variable passed for insertWeight holds
   afterwards: the parameter is passed by value, so it is unchanged. *)
Definition SplitArc (start projectPoint : XYZ A) (projectPointWeight : A) (end_ : XYZ A) (insertWeight : A)
  : res (XYZ A * XYZ A * XYZ A * A) :=
  let insertPointAtStartSide := xyz_add start projectPoint in
  let insertPointAtEndSide := xyz_add end_ projectPoint in
  let! splitPoint := xyz_div (xyz_add insertPointAtStartSide insertPointAtEndSide) (nofZ 2) in
  let! sq := nsqrt (nadd n1 projectPointWeight) in
  let! _ := ndiv sq (nofZ 2) in
  Ok (insertPointAtStartSide, splitPoint, insertPointAtEndSide, insertWeight).

End Curve2W.
