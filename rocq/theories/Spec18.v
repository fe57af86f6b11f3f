(* Specification vocabulary, part 18: Taylor polynomials of curves. *)
From Coq Require Import ZArith List Reals.
From Verif Require Import Base Num Vec Spec Spec2 Spec3 M_XYZ.
Import ListNotations.
Open Scope Z_scope.

(* g 0 + (t - t0) g 1 + ... + (t - t0)^p / p! g p *)
Definition taylor (p : Z) (g : Z -> XYZ R) (t0 t : R) : XYZ R :=
  mkXYZ (rsum 0 (p + 1) (fun k => ((t - t0) ^ Z.to_nat k / INR (fact (Z.to_nat k)) * gx (g k))%R))
        (rsum 0 (p + 1) (fun k => ((t - t0) ^ Z.to_nat k / INR (fact (Z.to_nat k)) * gy (g k))%R))
        (rsum 0 (p + 1) (fun k => ((t - t0) ^ Z.to_nat k / INR (fact (Z.to_nat k)) * gz (g k))%R)).
