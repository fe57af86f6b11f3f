(* Model of src/LNLib/Geometry/Surface/NurbsSurface.cpp: meshes of a surface and its signed distance. *)
From Coq Require Import ZArith List Bool.
From Verif Require Import Base Num Vec M_MathUtils M_XYZ M_Bspline M_NurbsCurve M_Surface M_Surface2.
Import ListNotations.
Open Scope Z_scope.

Section Mesh.
Context {A : Type} {NA : Num A}.
Local Open Scope num_scope.
Notation pt3 := (XYZ A).
Notation surface := (Surface A (XYZW A)).

(* LNObject.h:73-81; Normals and NormalIndices, which Triangulate leaves empty, are left out *)
Record Mesh := mkMesh { Vertices : list pt3; Faces : list (list Z); UVs : list (A * A); UVIndices : list Z }.

(* NurbsSurface.cpp:3893-3905: the points of the grid; indices do not overflow *)
Definition mesh_grid (s : surface) (resolutionU resolutionV : Z) : res (list (list pt3) * list (list (A * A))) :=
  let! prow := mkvec resolutionV xyz0 in
  let! points := mkvec resolutionU prow in
  let! urow := mkvec resolutionV (n0, n0) in
  let! uvs := mkvec resolutionU urow in
  for_up 0 resolutionU (points, uvs) (fun i pu =>
    let! u := ndiv (nofZ i) (nofZ (resolutionU - 1)%Z) in
    for_up 0 resolutionV pu (fun j '(points, uvs) =>
      let! v := ndiv (nofZ j) (nofZ (resolutionV - 1)%Z) in
      let! p := NurbsSurfacePoint s u v in
      let! points := upd2 points i j p in
      let! uvs := upd2 uvs i j (u, v) in
      Ok (points, uvs))).

(* NurbsSurface.cpp:3907-3914 *)
Definition mesh_vertices (points : list (list pt3)) (uvs : list (list (A * A))) (resolutionU resolutionV : Z) : res (list pt3 * list (A * A)) :=
  for_up 0 resolutionU ([], []) (fun i r =>
    for_up 0 resolutionV r (fun j '(vertices, vuvs) =>
      let! p := get2 points i j in
      let! uv := get2 uvs i j in
      Ok (vertices ++ [p], vuvs ++ [uv]))).

(* NurbsSurface.cpp:3916-3935 *)
Definition mesh_faces (resolutionU resolutionV : Z) : res (list (list Z) * list Z) :=
  for_up 0 (resolutionU - 1)%Z ([], []) (fun i r =>
    for_up 0 (resolutionV - 1)%Z r (fun j '(faces, uvIndices) =>
      let idx0 := (i * resolutionV + j)%Z in
      let idx1 := (i * resolutionV + j + 1)%Z in
      let idx2 := ((i + 1) * resolutionV + j)%Z in
      let idx3 := ((i + 1) * resolutionV + j + 1)%Z in
      let faces := faces ++ [[idx0; idx1; idx2]] in
      let uvIndices := uvIndices ++ [idx0; idx1; idx2] in
      let faces := faces ++ [[idx1; idx3; idx2]] in
      let uvIndices := uvIndices ++ [idx1; idx3; idx2] in
      Ok (faces, uvIndices))).

(* NurbsSurface.cpp:3889-3937: the branch without Delaunay triangulation *)
Definition TriangulateGrid (s : surface) (resolutionU resolutionV : Z) : res Mesh :=
  let! pu := mesh_grid s resolutionU resolutionV in
  let! vu := mesh_vertices (fst pu) (snd pu) resolutionU resolutionV in
  let! fi := mesh_faces resolutionU resolutionV in
  Ok (mkMesh (fst vu) (fst fi) (snd vu) (snd fi)).

(* NurbsSurface.cpp:3940-3950 *)
Definition ComputeSignedDistanceFunction (fuel : nat) (s : surface) (point : pt3) : res A :=
  let! uv := GetParamOnSurface fuel s point in
  let! closestPointOnSurf := NurbsSurfacePoint s (fst uv) (snd uv) in
  let vecPQ := xyz_sub point closestPointOnSurf in
  let! normal := Normal s (fst uv) (snd uv) in
  let dotProduct := DotProduct vecPQ normal in
  let! distance := Length vecPQ in
  Ok (if IsGreaterThanOrEqual dotProduct n0 then distance else nopp distance).
End Mesh.
