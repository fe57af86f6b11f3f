(* Model of src/LNLib/Mathematics/Math/XYZ.cpp and XYZW.cpp. *)
From Coq Require Import ZArith List Bool Reals Lra.
From Verif Require Import Base Num Vec M_MathUtils.
Import ListNotations.
Open Scope Z_scope.

(* XYZ.h: double m_xyz[3] *)
Record XYZ (A : Type) : Type := mkXYZ { gx : A; gy : A; gz : A }.
Arguments mkXYZ {A}. Arguments gx {A}. Arguments gy {A}. Arguments gz {A}.
(* XYZW.h: double m_xyzw[4] *)
Record XYZW (A : Type) : Type := mkXYZW { wx : A; wy : A; wz : A; ww : A }.
Arguments mkXYZW {A}. Arguments wx {A}. Arguments wy {A}. Arguments wz {A}. Arguments ww {A}.

Section XYZ.
Context {A : Type} {NA : Num A}.
Local Open Scope num_scope.

(* XYZ.cpp:19-24 *)
Definition xyz0 : XYZ A := mkXYZ n0 n0 n0.
(* XYZ.cpp:206-214, 253-256 *)
Definition xyz_add (a b : XYZ A) := mkXYZ (gx a + gx b) (gy a + gy b) (gz a + gz b).
Definition xyz_sub (a b : XYZ A) := mkXYZ (gx a - gx b) (gy a - gy b) (gz a - gz b).
Definition xyz_neg (a : XYZ A) := mkXYZ (- gx a) (- gy a) (- gz a).
(* XYZ.cpp:257-264 (both orders compute source.x * d) *)
Definition xyz_scale (d : A) (a : XYZ A) := mkXYZ (gx a * d) (gy a * d) (gz a * d).
(* XYZ.cpp:269-272 *)
Definition xyz_div (a : XYZ A) (d : A) : res (XYZ A) :=
  let! x := ndiv (gx a) d in let! y := ndiv (gy a) d in let! z := ndiv (gz a) d in
  Ok (mkXYZ x y z).
(* XYZ.cpp:107-110 *)
Definition SqrLength (a : XYZ A) : A := gx a * gx a + gy a * gy a + gz a * gz a.
(* XYZ.cpp:102-105 *)
Definition Length (a : XYZ A) : res A := nsqrt (gx a * gx a + gy a * gy a + gz a * gz a).
(* XYZ.cpp:85-93 *)
Definition IsZero_eps (a : XYZ A) (epsilon : A) : bool := nleb (SqrLength a) (epsilon * epsilon).
Definition IsZero (a : XYZ A) : bool := IsZero_eps a DoubleEpsilon.
Definition IsUnit (a : XYZ A) : bool :=
  nltb (nabs (SqrLength a - n1)) (DoubleEpsilon * DoubleEpsilon).
(* XYZ.cpp:95-100 *)
Definition xyz_IsAlmostEqualTo (a b : XYZ A) : bool :=
  IsAlmostEqualTo (gx a) (gx b) && IsAlmostEqualTo (gy a) (gy b) && IsAlmostEqualTo (gz a) (gz b).
(* XYZ.cpp:127-139 *)
Definition Normalize (a : XYZ A) : res (XYZ A) :=
  let! length := Length a in
  if nltb n0 length then
    let! invLength := ndiv n1 length in
    Ok (mkXYZ (gx a * invLength) (gy a * invLength) (gz a * invLength))
  else Ok a.
(* XYZ.cpp:156-159 *)
Definition DotProduct (a b : XYZ A) : A := gx a * gx b + gy a * gy b + gz a * gz b.
(* XYZ.cpp:161-166 *)
Definition CrossProduct (a b : XYZ A) : XYZ A :=
  mkXYZ (gy a * gz b - gy b * gz a) (gz a * gx b - gz b * gx a) (gx a * gy b - gx b * gy a).
(* XYZ.cpp:168-172 *)
Definition Distance (a b : XYZ A) : res A :=
  nsqrt (npow (gx b - gx a) 2 + npow (gy b - gy a) 2 + npow (gz b - gz a) 2).
(* XYZ.cpp:112-125 *)
Definition AngleTo `{Trig A} (a b : XYZ A) : res A :=
  let! nt := Normalize a in
  let! na := Normalize b in
  if IsZero nt || IsZero na then Ok n0
  else
    let dot := DotProduct nt na in
    let dot := if nltb dot (- n1) then - n1 else if nltb n1 dot then n1 else dot in
    Ok (tacos dot).

Global Instance Vec_XYZ : Vec A (XYZ A) := {|
  vzero := xyz0; vadd := xyz_add; vsub := xyz_sub; vscale := xyz_scale; vdiv := xyz_div |}.

(* XYZW.cpp:19-25 *)
Definition xyzw0 : XYZW A := mkXYZW n0 n0 n0 n0.
(* XYZW.cpp:27-33 *)
Definition mkW (p : XYZ A) (w : A) : XYZW A := mkXYZW (gx p * w) (gy p * w) (gz p * w) w.
(* XYZW.cpp:140-148 *)
Definition xyzw_add (a b : XYZW A) := mkXYZW (wx a + wx b) (wy a + wy b) (wz a + wz b) (ww a + ww b).
Definition xyzw_sub (a b : XYZW A) := mkXYZW (wx a - wx b) (wy a - wy b) (wz a - wz b) (ww a - ww b).
(* XYZW.cpp:160-168 *)
Definition xyzw_scale (d : A) (a : XYZW A) := mkXYZW (wx a * d) (wy a * d) (wz a * d) (ww a * d).
(* XYZW.cpp:170-173 *)
Definition xyzw_div (a : XYZW A) (d : A) : res (XYZW A) :=
  let! x := ndiv (wx a) d in let! y := ndiv (wy a) d in
  let! z := ndiv (wz a) d in let! w := ndiv (ww a) d in
  Ok (mkXYZW x y z w).
(* XYZW.cpp:97-115 *)
Definition ToXYZ (a : XYZW A) (divideWeight : bool) : res (XYZ A) :=
  if divideWeight then
    let w := ww a in
    if IsAlmostEqualTo w n0 then Ok (mkXYZ (wx a) (wy a) (wz a))
    else
      let! x := ndiv (wx a) w in let! y := ndiv (wy a) w in let! z := ndiv (wz a) w in
      Ok (mkXYZ x y z)
  else Ok (mkXYZ (wx a) (wy a) (wz a)).
(* XYZW.cpp:49-53 *)
Definition SetW (a : XYZW A) (w : A) : res (XYZW A) :=
  let! origin := ToXYZ a true in Ok (mkW origin w).
(* XYZW.cpp:117-122 *)
Definition xyzw_IsAlmostEqualTo (a b : XYZW A) : res bool :=
  let! x := ToXYZ a true in let! y := ToXYZ b true in Ok (xyz_IsAlmostEqualTo x y).
(* XYZW.cpp:124-128 *)
Definition xyzw_Distance (a b : XYZW A) : res A :=
  nsqrt (npow (wx b - wx a) 2 + npow (wy b - wy a) 2 + npow (wz b - wz a) 2 + npow (ww b - ww a) 2).

Global Instance Vec_XYZW : Vec A (XYZW A) := {|
  vzero := xyzw0; vadd := xyzw_add; vsub := xyzw_sub; vscale := xyzw_scale; vdiv := xyzw_div |}.

End XYZ.
