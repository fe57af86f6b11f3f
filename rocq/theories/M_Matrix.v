(* Model of src/LNLib/Mathematics/Math/Matrix4d.cpp. *)
From Coq Require Import ZArith List Bool.
From Verif Require Import Base Num M_MathUtils M_XYZ.
Import ListNotations.
Open Scope Z_scope.

(* Matrix4d.h: double m_matrix4d[4][4] *)
Record Matrix4d (A : Type) : Type := mkM {
  m00 : A; m01 : A; m02 : A; m03 : A; m10 : A; m11 : A; m12 : A; m13 : A;
  m20 : A; m21 : A; m22 : A; m23 : A; m30 : A; m31 : A; m32 : A; m33 : A }.
Arguments mkM {A}. Arguments m00 {A}. Arguments m01 {A}. Arguments m02 {A}. Arguments m03 {A}.
Arguments m10 {A}. Arguments m11 {A}. Arguments m12 {A}. Arguments m13 {A}.
Arguments m20 {A}. Arguments m21 {A}. Arguments m22 {A}. Arguments m23 {A}.
Arguments m30 {A}. Arguments m31 {A}. Arguments m32 {A}. Arguments m33 {A}.

Section Matrix.
Context {A : Type} {NA : Num A}.
Local Open Scope num_scope.
Notation M4 := (Matrix4d A).

(* Matrix4d.cpp:21-28 *)
Definition m4_id : M4 := mkM n1 n0 n0 n0 n0 n1 n0 n0 n0 n0 n1 n0 n0 n0 n0 n1.
(* Matrix4d.cpp:30-51 *)
Definition m4_basis (basisX basisY basisZ origin : XYZ A) : M4 :=
  mkM (gx basisX) (gx basisY) (gx basisZ) (gx origin)
      (gy basisX) (gy basisY) (gy basisZ) (gy origin)
      (gz basisX) (gz basisY) (gz basisZ) (gz origin)
      n0 n0 n0 n1.
(* Matrix4d.cpp:76-105 *)
Definition CreateReflection (normal : XYZ A) (distanceFromOrigin : A) : res M4 :=
  let! t := Normalize normal in
  let x := gx t in let y := gy t in let z := gz t in
  let m2 := - nofZ 2 in
  Ok (mkM (m2 * x * x + n1) (m2 * y * x) (m2 * z * x) (m2 * x * distanceFromOrigin)
          (m2 * x * y) (m2 * y * y + n1) (m2 * z * y) (m2 * y * distanceFromOrigin)
          (m2 * x * z) (m2 * y * z) (m2 * z * z + n1) (m2 * z * distanceFromOrigin)
          n0 n0 n0 n1).
(* Matrix4d.cpp:112-144 *)
Definition CreateRotation `{Trig A} (axis : XYZ A) (rad : A) : res M4 :=
  let c := tcos rad in
  let s := tsin rad in
  let t := n1 - c in
  let! nAxis := Normalize axis in
  let x := gx nAxis in let y := gy nAxis in let z := gz nAxis in
  Ok (mkM (c + x * x * t) (x * y * t - z * s) (x * z * t + y * s) n0
          (y * x * t + z * s) (c + y * y * t) (y * z * t - x * s) n0
          (z * x * t - y * s) (z * y * t + x * s) (c + z * z * t) n0
          n0 n0 n0 n1).
(* Matrix4d.cpp:158-165 *)
Definition CreateTranslation (vector : XYZ A) : M4 :=
  mkM n1 n0 n0 (gx vector) n0 n1 n0 (gy vector) n0 n0 n1 (gz vector) n0 n0 n0 n1.
(* Matrix4d.cpp:167-174 *)
Definition CreateScale (scale : XYZ A) : M4 :=
  mkM (n1 * gx scale) n0 n0 n0 n0 (n1 * gy scale) n0 n0 n0 n0 (n1 * gz scale) n0 n0 n0 n0 n1.
(* Matrix4d.cpp:183-222 *)
Definition GetBasisX (m : M4) : XYZ A := mkXYZ (m00 m) (m10 m) (m20 m).
Definition GetBasisY (m : M4) : XYZ A := mkXYZ (m01 m) (m11 m) (m21 m).
Definition GetBasisZ (m : M4) : XYZ A := mkXYZ (m02 m) (m12 m) (m22 m).
Definition GetBasisW (m : M4) : XYZ A := mkXYZ (m03 m) (m13 m) (m23 m).
Definition SetBasisW (m : M4) (w : XYZ A) : M4 :=
  mkM (m00 m) (m01 m) (m02 m) (gx w) (m10 m) (m11 m) (m12 m) (gy w)
      (m20 m) (m21 m) (m22 m) (gz w) (m30 m) (m31 m) (m32 m) (m33 m).
(* Matrix4d.cpp:146-156 *)
Definition CreateRotationAtPoint `{Trig A} (origin axis : XYZ A) (rad : A) : res M4 :=
  let! r := CreateRotation axis rad in
  let x := m00 r * gx origin + m01 r * gy origin + m02 r * gz origin in
  let y := m10 r * gx origin + m11 r * gy origin + m12 r * gz origin in
  let z := m20 r * gx origin + m21 r * gy origin + m22 r * gz origin in
  Ok (SetBasisW r (xyz_sub origin (mkXYZ x y z))).
(* Matrix4d.cpp:224-227: the array as rows; an index outside 0..3 is out of range *)
Definition m4_rows (m : M4) : list (list A) :=
  [[m00 m; m01 m; m02 m; m03 m]; [m10 m; m11 m; m12 m; m13 m];
   [m20 m; m21 m; m22 m; m23 m]; [m30 m; m31 m; m32 m; m33 m]].
Definition GetElement (m : M4) (row column : Z) : res A := get2 (m4_rows m) row column.
(* Matrix4d.cpp:234-259, 407-412 *)
Definition m4_mul (a b : M4) : M4 :=
  mkM (m00 a * m00 b + m01 a * m10 b + m02 a * m20 b + m03 a * m30 b)
      (m00 a * m01 b + m01 a * m11 b + m02 a * m21 b + m03 a * m31 b)
      (m00 a * m02 b + m01 a * m12 b + m02 a * m22 b + m03 a * m32 b)
      (m00 a * m03 b + m01 a * m13 b + m02 a * m23 b + m03 a * m33 b)
      (m10 a * m00 b + m11 a * m10 b + m12 a * m20 b + m13 a * m30 b)
      (m10 a * m01 b + m11 a * m11 b + m12 a * m21 b + m13 a * m31 b)
      (m10 a * m02 b + m11 a * m12 b + m12 a * m22 b + m13 a * m32 b)
      (m10 a * m03 b + m11 a * m13 b + m12 a * m23 b + m13 a * m33 b)
      (m20 a * m00 b + m21 a * m10 b + m22 a * m20 b + m23 a * m30 b)
      (m20 a * m01 b + m21 a * m11 b + m22 a * m21 b + m23 a * m31 b)
      (m20 a * m02 b + m21 a * m12 b + m22 a * m22 b + m23 a * m32 b)
      (m20 a * m03 b + m21 a * m13 b + m22 a * m23 b + m23 a * m33 b)
      (m30 a * m00 b + m31 a * m10 b + m32 a * m20 b + m33 a * m30 b)
      (m30 a * m01 b + m31 a * m11 b + m32 a * m21 b + m33 a * m31 b)
      (m30 a * m02 b + m31 a * m12 b + m32 a * m22 b + m33 a * m32 b)
      (m30 a * m03 b + m31 a * m13 b + m32 a * m23 b + m33 a * m33 b).
(* Matrix4d.cpp:261-270 *)
Definition OfPoint (m : M4) (p : XYZ A) : res (XYZ A) :=
  let x := m00 m * gx p + m01 m * gy p + m02 m * gz p + m03 m * n1 in
  let y := m10 m * gx p + m11 m * gy p + m12 m * gz p + m13 m * n1 in
  let z := m20 m * gx p + m21 m * gy p + m22 m * gz p + m23 m * n1 in
  let w := m30 m * gx p + m31 m * gy p + m32 m * gz p + m33 m * n1 in
  xyz_div (mkXYZ x y z) w.
(* Matrix4d.cpp:272-284 *)
Definition OfWeightedPoint (m : M4) (p : XYZW A) : res (XYZW A) :=
  let w := ww p in
  let! x := ndiv (wx p) w in let! y := ndiv (wy p) w in let! z := ndiv (wz p) w in
  let! transformed := OfPoint m (mkXYZ x y z) in
  Ok (mkW transformed w).
(* Matrix4d.cpp:286-293 *)
Definition OfVector (m : M4) (v : XYZ A) : XYZ A :=
  mkXYZ (m00 m * gx v + m01 m * gy v + m02 m * gz v)
        (m10 m * gx v + m11 m * gy v + m12 m * gz v)
        (m20 m * gx v + m21 m * gy v + m22 m * gz v).
(* Matrix4d.cpp:322-328 *)
Definition GetTranspose (m : M4) : M4 :=
  mkM (m00 m) (m10 m) (m20 m) (m30 m) (m01 m) (m11 m) (m21 m) (m31 m)
      (m02 m) (m12 m) (m22 m) (m32 m) (m03 m) (m13 m) (m23 m) (m33 m).
(* Matrix4d.cpp:348-376 *)
Definition IsIdentity (m : M4) : bool :=
  IsAlmostEqualTo (m00 m) n1 && IsAlmostEqualTo (m11 m) n1 && IsAlmostEqualTo (m22 m) n1 &&
  IsAlmostEqualTo (m01 m + m02 m + m03 m + m10 m + m12 m + m13 m + m20 m + m21 m + m23 m + m30 m + m31 m + m32 m) n0.
(* Matrix4d.cpp:378-383 *)
Definition HasReflection (m : M4) : bool :=
  IsLessThan (DotProduct (CrossProduct (GetBasisX m) (GetBasisY m)) (GetBasisZ m)) n0.
(* Matrix4d.cpp:385-398 *)
Definition IsTranslation (m : M4) : bool :=
  IsAlmostEqualTo (m00 m) n1 && IsAlmostEqualTo (m11 m) n1 && IsAlmostEqualTo (m22 m) n1 &&
  IsAlmostEqualTo (m01 m + m02 m + m10 m + m12 m + m20 m + m21 m + m30 m + m31 m + m32 m) n0.

End Matrix.
