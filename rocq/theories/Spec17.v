(* Specification vocabulary, part 17: parameters of points and lengths. *)
From Coq Require Import ZArith List Reals.
From Verif Require Import Base Num Vec Spec Spec2 Spec3 Spec10 M_XYZ M_Bspline.
Import ListNotations.
Open Scope Z_scope.

(* t lies in the domain, or is reached from a parameter t0 in the domain by one step of Newton's method for the foot of P
   on the curve, and moving by that step along the tangent at t0 is a way of less than 1/10000 *)
Definition found_at (p n : Z) (U : list R) (H : list (XYZW R)) (P : XYZ R) (t : R) : Prop :=
  in_domain p n U t \/
  exists t0 g, in_domain p n U t0 /\ curve_derivs p n U H 2 t0 g /\
    ((t - t0) * (dot3 (g 1%Z) (g 1%Z) + dot3 (minus3 (g 0%Z) P) (g 2%Z)) = - dot3 (g 1%Z) (minus3 (g 0%Z) P))%R /\
    (Rabs (t - t0) * norm3 (g 1%Z) < 1 / 10000)%R.
