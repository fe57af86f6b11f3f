(* Specification: triangle meshes. *)
From Coq Require Import ZArith List Reals.
From Verif Require Import Base Num Vec Spec.
Import ListNotations.
Open Scope Z_scope.

(* the triangle F runs from x to y *)
Definition runs (F : list Z) (x y : Z) : Prop := exists z, F = [x; y; z] \/ F = [z; x; y] \/ F = [y; z; x].

(* x and y lie on the same side of a grid of a rows of c vertices, numbered row by row *)
Definition same_side (a c x y : Z) : Prop :=
  (0 <= x < c /\ 0 <= y < c) \/ ((a - 1) * c <= x < a * c /\ (a - 1) * c <= y < a * c) \/
  (exists i i', 0 <= i < a /\ 0 <= i' < a /\ x = i * c /\ y = i' * c) \/
  (exists i i', 0 <= i < a /\ 0 <= i' < a /\ x = i * c + (c - 1) /\ y = i' * c + (c - 1)).

(* (u, v) lies in the triangle with these corners *)
Definition in_triangle (A B C : R * R) (u v : R) : Prop := exists r s t, (0 <= r /\ 0 <= s /\ 0 <= t /\ r + s + t = 1 /\
  u = r * fst A + s * fst B + t * fst C /\ v = r * snd A + s * snd B + t * snd C)%R.
