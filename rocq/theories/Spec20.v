(* Specification vocabulary, part 20: fitting curves to points and tangents. Only the record types are taken from the model. *)
From Coq Require Import ZArith List Reals.
From Verif Require Import Base Num Vec Spec Spec3 M_XYZ P_Vec.
Import ListNotations.
Open Scope Z_scope.

(* something a curve is asked for: its point (order 0) or its derivative (order 1) at a parameter *)
Record datum : Type := mkDatum { d_par : R; d_ord : Z; d_target : XYZ R; d_weight : R }.

(* the points come first, then the tangents *)
Definition fit_data (us : list R) (Q : list (XYZ R)) (W : list R) (D : list (XYZ R)) (I : list Z) (Wt : list R) (r : Z) : datum :=
  if r <? len Q then mkDatum (val us r) 0 (pt Q r) (val W r)
  else mkDatum (val us (at_ 0 I (r - len Q))) 1 (pt D (r - len Q)) (val Wt (r - len Q)).

(* a weight above zero: the datum is to be approximated; a weight below zero: it is to be met *)
Definition is_counted (d : datum) : bool := if Rlt_dec (tol (d_weight d) 0) (d_weight d) then true else false.
Definition is_held (d : datum) : bool := if Rlt_dec (tol (d_weight d) 0) (- d_weight d) then true else false.

(* how many of the first m numbers satisfy f *)
Definition number (m : Z) (f : Z -> bool) : Z := len (filter f (map Z.of_nat (seq 0 (Z.to_nat m)))).

(* v r is what the curve with control points P shows of the r-th datum *)
Definition shows (p n : Z) (U : list R) (P : list (XYZ R)) (m : Z) (data : Z -> datum) (v : Z -> XYZ R) : Prop :=
  forall r, 0 <= r < m -> exists k g, span_of p n U (d_par (data r)) k /\ vderiv (d_ord (data r)) (span_curve k p U P) g /\ v r = g (d_par (data r)).

(* all data to be met are met *)
Definition holds (m : Z) (data : Z -> datum) (v : Z -> XYZ R) : Prop := forall r, 0 <= r < m -> is_held (data r) = true -> v r = d_target (data r).

(* weighted sum of the squares of the distances from tg, over the data to be approximated *)
Definition misfit (m : Z) (data : Z -> datum) (tg v : Z -> XYZ R) : R :=
  rsum 0 m (fun r => if is_counted (data r) then d_weight (data r) * dot3 (minus3 (v r) (tg r)) (minus3 (v r) (tg r)) else 0)%R.

(* the data that have a weight determine the curve *)
Definition determined (p n : Z) (U : list R) (m : Z) (data : Z -> datum) : Prop :=
  forall P v, len P = n + 1 -> shows p n U P m data v -> (forall r, 0 <= r < m -> is_counted (data r) = true \/ is_held (data r) = true -> v r = zero3) ->
  forall l, 0 <= l <= n -> pt P l = zero3.

(* the data to be met can be met whatever their targets are *)
Definition independent (p n : Z) (U : list R) (m : Z) (data : Z -> datum) : Prop :=
  forall f, exists P v, len P = n + 1 /\ shows p n U P m data v /\ forall r, 0 <= r < m -> is_held (data r) = true -> v r = f r.
