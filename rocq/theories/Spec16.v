(* Specification vocabulary, part 16: tangents at points of a polygon and the cubic curve through them. *)
From Coq Require Import ZArith List Bool Reals.
From Verif Require Import Base Num Vec Spec Spec2 Spec3 Spec5 Spec10 M_XYZ.
Import ListNotations.
Open Scope Z_scope.

(* the k-th leg of the polygon Q, from point k-1 to point k; the legs before the first and after the last one go on with
   constant differences *)
Definition leg (Q : list (XYZ R)) (k : Z) : XYZ R :=
  let n := len Q - 1 in
  let q j := minus3 (pt Q j) (pt Q (j - 1)) in
  if k <? 1 then minus3 (times3 (IZR (2 - k)) (q 1)) (times3 (IZR (1 - k)) (q 2))
  else if n <? k then minus3 (times3 (IZR (k - n + 1)) (q n)) (times3 (IZR (k - n)) (q (n - 1)))
  else q k.

(* how much the polygon turns before and after point k, and the direction between the two legs that leans to the side
   where it turns less *)
Definition turn (Q : list (XYZ R)) (k : Z) : R := norm3 (cross3 (leg Q k) (leg Q (k + 1))).
Definition lean (Q : list (XYZ R)) (k : Z) : R := (turn Q (k - 1) / (turn Q (k - 1) + turn Q (k + 1)))%R.
Definition heading (Q : list (XYZ R)) (k : Z) : XYZ R :=
  plus3 (times3 (1 - lean Q k)%R (leg Q k)) (times3 (lean Q k) (leg Q (k + 1))).
(* at every point the polygon turns on one of the two sides, and the direction is not zero *)
Definition bends (Q : list (XYZ R)) : Prop :=
  forall k, 0 <= k < len Q -> (0 < turn Q (k - 1) + turn Q (k + 1))%R /\ heading Q k <> zero3.

(* the length used for a leg: its own, or 1e-8 if that is taken for zero *)
Definition leg_length (Q : list (XYZ R)) (k : Z) : R :=
  let d := dist3 (pt Q (k + 1)) (pt Q k) in if small_dec d then (1 / 100000000)%R else d.

(* control points of cubic pieces that join the points of Q with the tangents T *)
Definition joined (Q T : list (XYZ R)) (P : list (XYZW R)) : Prop :=
  len P = 3 * (len Q - 1) + 1 /\
  (forall i, 0 <= i < len Q -> pt P (3 * i) = hom (pt Q i) 1%R) /\
  (forall i, 0 <= i < len Q - 1 ->
     pt P (3 * i + 1) = hom (plus3 (pt Q i) (times3 (leg_length Q i / 3)%R (pt T i))) 1%R /\
     pt P (3 * i + 2) = hom (minus3 (pt Q (i + 1)) (times3 (leg_length Q i / 3)%R (pt T (i + 1)))) 1%R).

(* n+1 control points of degree p, equally spaced simple knots inside *)
Definition even_knots (p n : Z) (U : list R) : Prop :=
  len U = n + p + 2 /\ (forall i, 0 <= i <= p -> val U i = 0%R) /\ (forall i, n + 1 <= i <= n + p + 1 -> val U i = 1%R) /\
  (forall i, p <= i <= n + 1 -> val U i = (IZR (i - p) / IZR (n + 1 - p))%R).

(* the point of the curve with the control points k and k+1 left out, in homogeneous coordinates *)
Definition rest (p n : Z) (U : list R) (H : list (XYZW R)) (k : Z) (t : R) : XYZW R :=
  comb 0 (n + 1) (fun i => if (i =? k) || (i =? k + 1) then 0%R else N (val U) (val U (n + 1)) (Z.to_nat p) i t) (pt H).

(* two lines that the tolerances tell from equal, parallel or degenerate ones *)
Definition oblique (p0 v0 p1 v1 : XYZ R) : Prop :=
  ~ (near v0 v1 /\ near p0 p1) /\ (1 / 10 ^ 12 < dot3 v0 v0)%R /\ (1 / 10 ^ 12 < dot3 v1 v1)%R /\
  ~ small (dot3 v0 v0 * dot3 v1 v1 - dot3 v0 v1 * dot3 v0 v1)%R.

(* unit vectors L at the knots of the curve, each at right angles to the tangent there, and each the projection of the one
   before onto the plane normal to the curve *)
Definition carried (p n : Z) (U : list R) (H : list (XYZW R)) (L : list (XYZ R)) : Prop :=
  len L = len U /\ exists T, len T = len U /\
  (forall i, 0 <= i < len U -> exists g, curve_derivs p n U H 1 (val U i) g /\ direction_of (g 1) (pt T i)) /\
  (forall i, 0 <= i < len U -> dot3 (pt L i) (pt L i) = 1%R /\ dot3 (pt L i) (pt T i) = 0%R) /\
  (forall i, 1 <= i < len U -> direction_of (minus3 (pt L (i - 1)) (times3 (dot3 (pt L (i - 1)) (pt T i)) (pt T i))) (pt L i)).

(* what a change of the weights of control points k and k+1 asks for: there is a part of the curve at t that they do not
   move, and the line through the two meets the line along which the point is to move *)
Definition movable (p n : Z) (U : list R) (H : list (XYZW R)) (t : R) (k : Z) (d scale : R) : Prop :=
  let P := proj (curve_point p n U H t) in
  let Q := proj (rest p n U H k t) in
  curve_knots p n U /\ p <= 7 /\ len H = n + 1 /\ in_domain p n U t /\ heavy H /\ 0 <= k < n /\
  (tol (ww (rest p n U H k t)) 0 < ww (rest p n U H k t))%R /\
  oblique (proj (pt H k)) (minus3 (proj (pt H k)) (proj (pt H (k + 1)))) Q (minus3 Q P) /\ ~ small d /\ ~ small scale.
