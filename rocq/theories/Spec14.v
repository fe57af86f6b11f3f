(* Specification vocabulary, part 14: surfaces spanned by four boundary curves. *)
From Coq Require Import ZArith List Reals.
From Verif Require Import Base Num Vec Spec Spec2 Spec3 Spec4 Spec8 Spec9 M_XYZ M_Bspline.
Import ListNotations.
Open Scope Z_scope.

(* clamped knots over [0, 1] *)
Definition unit_knots (p n : Z) (U : list R) : Prop := curve_knots p n U /\ clamped_knots p n U /\ val U 0 = 0%R /\ val U (n + 1) = 1%R.

(* a boundary curve over [0, 1], its first and last weights 1 *)
Definition edge (p n : Z) (U : list R) (P : list (XYZW R)) : Prop := unit_knots p n U /\ len P = n + 1 /\ 1 <= p <= 7 /\
  ww (pt P 0) = 1%R /\ ww (pt P n) = 1%R.
(* knots of two opposite edges: distinct knots are clearly apart; a curve that gets a higher degree has no multiple inner knots,
   and the degrees differ only if one is at least three *)
Definition matching_edges (p n : Z) (U : list R) (q m : Z) (W : list R) : Prop :=
  (forall x y, In x (U ++ W) -> In y (U ++ W) -> apart x y) /\ (p < 3 \/ p < q -> simple_inside p n U) /\ (q < 3 \/ q < p -> simple_inside q m W) /\ (p < 3 -> q < 3 -> p = q).

(* the knots of the reversed curve *)
Definition flipped (U : list R) : list R := rev (map (fun x => (1 - x)%R) U).
(* no inner knot occurs more often than the degree *)
Definition unbroken (p : Z) (U : list R) : Prop := forall t, (0 < t < 1)%R -> occ U t <= p.

(* boundary curves: left, bottom, right, top, each beginning where the last one ends *)
Definition four_edges p0 m0 U0 (P0 : list (XYZW R)) p1 m1 U1 (P1 : list (XYZW R)) p2 m2 U2 (P2 : list (XYZW R)) p3 m3 U3 (P3 : list (XYZW R)) : Prop :=
  edge p0 m0 U0 P0 /\ edge p1 m1 U1 P1 /\ edge p2 m2 U2 P2 /\ edge p3 m3 U3 P3 /\
  matching_edges p0 m0 U0 p2 m2 (flipped U2) /\ matching_edges p1 m1 U1 p3 m3 (flipped U3) /\ unbroken p2 U2 /\ unbroken p3 U3.
Definition closed_loop m0 (P0 : list (XYZW R)) m1 (P1 : list (XYZW R)) m2 (P2 : list (XYZW R)) m3 (P3 : list (XYZW R)) : Prop :=
  near (proj (pt P0 m0)) (proj (pt P1 0)) /\ near (proj (pt P1 m1)) (proj (pt P2 0)) /\ near (proj (pt P2 m2)) (proj (pt P3 0)) /\ near (proj (pt P3 m3)) (proj (pt P0 0)).

(* the blend of four curves: c0, c2 over u, c1, c3 over v, minus the bilinear patch of the four corners *)
Definition coons_blend (c0 c1 c2 c3 : R -> XYZW R) (p00 p01 p10 p11 : XYZ R) (u v : R) : XYZW R :=
  vsub (vadd (vadd (vscale (1 - v)%R (c0 u)) (vscale v (c2 u))) (vadd (vscale (1 - u)%R (c1 v)) (vscale u (c3 v))))
       (hom (lerp3 (lerp3 p00 p10 u) (lerp3 p01 p11 u) v) 1).
