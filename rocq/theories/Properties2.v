(* Property theorems, part 2: knot spans and B-spline basis functions.
   Specifications (N, Nspan, span_of, curve_knots, tol, nth_deriv) are in Spec.v;
   the model functions named here are in M_Polynomials.v. *)
From Coq Require Import ZArith List Bool Reals Lra Lia.
From Verif Require Import Base Num Vec Spec M_MathUtils M_Polynomials
  P_MathUtils P_Span P_Cox P_Basis P_Deriv P_Ders P_Ders1 P_Curve P_OneBasis.
Import ListNotations.
Open Scope Z_scope.

(* a clamped knot vector of degree 2 with a double interior knot, and three parameters *)
Example knots_example : curve_knots 2 7 Uex /\
  in_domain 2 7 Uex (7 / 2) /\ in_domain 2 7 Uex 0 /\ in_domain 2 7 Uex 5.
Proof. exact (conj Uex_ok Uex_dom). Qed.

(** * C06 *)
Theorem C06_span_search : forall p U t, 0 <= p -> 2 * p + 2 <= len U -> sorted U ->
  (val U 0 <= t <= val U (len U - 1))%R ->
  returns (GetKnotSpanIndex p U t) (fun i =>
    p <= i <= len U - p - 2 /\
    ((t < val U p - tol t (val U p))%R -> i = p) /\
    ((val U (len U - p - 1) + tol t (val U (len U - p - 1)) < t)%R -> i = len U - p - 2) /\
    ((val U p + tol t (val U p) < t)%R -> (t + tol t (val U (len U - p - 1)) < val U (len U - p - 1))%R ->
        (val U i <= t < val U (i + 1))%R)).
Proof. exact GetKnotSpanIndex_spec. Qed.
Print Assumptions C06_span_search.

(* with end spans wider than the tolerance the span of every domain parameter is found *)
Theorem C06_span_in_domain : forall p n U t, curve_knots p n U -> in_domain p n U t ->
  returns (GetKnotSpanIndex p U t) (span_of p n U t).
Proof. exact GetKnotSpanIndex_domain. Qed.
Print Assumptions C06_span_in_domain.

Theorem C06_span_unique : forall p n U t k k', curve_knots p n U -> span_of p n U t k -> span_of p n U t k' -> k = k'.
Proof. exact span_of_unique. Qed.
Print Assumptions C06_span_unique.

(* a last span narrower than the tolerance: the returned span does not contain t *)
Theorem C06_narrow_span_refuted : exists p n U t i, 0 <= p <= n /\ len U = n + p + 2 /\ sorted U /\ in_domain p n U t /\
  (val U n < val U (n + 1))%R /\ GetKnotSpanIndex p U t = Ok i /\ (t < val U i)%R.
Proof. exact span_narrow. Qed.
Print Assumptions C06_narrow_span_refuted.

(* too few knots for the degree: out-of-bounds read *)
Theorem C06_short_knots_refuted : exists p U t, 0 <= p /\ 0 < len U /\ sorted U /\ (val U 0 <= t <= val U (len U - 1))%R /\
  GetKnotSpanIndex p U t = UB.
Proof. exact span_short. Qed.
Print Assumptions C06_short_knots_refuted.

(** * C07 *)
Theorem C07_multiplicity : forall U t, 0 < len U -> sorted U -> (val U 0 <= t <= val U (len U - 1))%R ->
  GetKnotMultiplicity U t =
  Ok (len (filter (fun u => if Rle_dec (Rabs (t - u)) (tol t u) then true else false) U)).
Proof. exact GetKnotMultiplicity_spec. Qed.
Print Assumptions C07_multiplicity.

Theorem C07_multiplicity_exact : forall U t, 0 < len U -> sorted U -> (val U 0 <= t <= val U (len U - 1))%R ->
  (forall u, In u U -> (Rabs (t - u) <= tol t u)%R -> u = t) ->
  GetKnotMultiplicity U t = Ok (Z.of_nat (count_occ Req_EM_T U t)).
Proof. exact GetKnotMultiplicity_exact. Qed.
Print Assumptions C07_multiplicity_exact.
Example C07_nonvacuous : 0 < len Uex /\ sorted Uex /\ (val Uex 0 <= 4 <= val Uex (len Uex - 1))%R /\
  (forall u, In u Uex -> (Rabs (4 - u) <= tol 4 u)%R -> u = 4%R).
Proof.
  split; [reflexivity|]. split; [exact (ck_sorted _ _ _ Uex_ok)|]. split; [|exact Uex_sep].
  change (0 <= 4 <= 5)%R. lra.
Qed.

(** * C08 *)
Theorem C08_basis_functions : forall p n U t, curve_knots p n U -> p <= 7 -> in_domain p n U t ->
  returns (let! k := GetKnotSpanIndex p U t in let! l := BasisFunctions k p U t in Ok (k, l))
    (fun '(k, l) => span_of p n U t k /\ len l = 8 /\
       (forall r, 0 <= r <= p -> getu l r = Ok (N (val U) (val U (n + 1)) (Z.to_nat p) (k - p + r) t)) /\
       (forall i, 0 <= i <= n -> i < k - p \/ k < i -> N (val U) (val U (n + 1)) (Z.to_nat p) i t = 0%R)).
Proof. exact BasisFunctions_spec. Qed.
Print Assumptions C08_basis_functions.

(* any non-empty span, whether or not it holds t: the polynomial pieces of that span *)
Theorem C08_any_span : forall p n U t k, curve_knots p n U -> p <= 7 -> p <= k <= n ->
  (val U k < val U (k + 1))%R -> (val U 0 <= t <= val U (len U - 1))%R ->
  returns (BasisFunctions k p U t) (fun l => len l = 8 /\
    forall r, 0 <= r <= p -> getu l r = Ok (Nspan (val U) k (Z.to_nat p) (k - p + r) t)).
Proof. exact BasisFunctions_span. Qed.
Print Assumptions C08_any_span.

(** * C09 *)
Theorem C09_nonneg : forall p n U t i, curve_knots p n U -> in_domain p n U t -> 0 <= i <= n ->
  (0 <= N (val U) (val U (n + 1)) (Z.to_nat p) i t)%R.
Proof. exact N_nonneg. Qed.
Print Assumptions C09_nonneg.

Theorem C09_sum_to_one : forall p n U t, curve_knots p n U -> in_domain p n U t ->
  rsum 0 (n + 1) (fun i => N (val U) (val U (n + 1)) (Z.to_nat p) i t) = 1%R.
Proof. exact N_sum. Qed.
Print Assumptions C09_sum_to_one.

Theorem C09_local_support : forall p n U t i, curve_knots p n U -> in_domain p n U t -> 0 <= i <= n ->
  (t < val U i \/ val U (i + p + 1) < t)%R -> N (val U) (val U (n + 1)) (Z.to_nat p) i t = 0%R.
Proof. exact N_support. Qed.
Print Assumptions C09_local_support.

Theorem C09_returned_values : forall p n U t, curve_knots p n U -> p <= 7 -> in_domain p n U t ->
  returns (let! k := GetKnotSpanIndex p U t in BasisFunctions k p U t)
    (fun l => exists f, (forall r, 0 <= r <= p -> getu l r = Ok (f r) /\ (0 <= f r)%R) /\ rsum 0 (p + 1) f = 1%R).
Proof. exact returned_basis. Qed.
Print Assumptions C09_returned_values.

(** * C10 *)
Theorem C10_one_basis_function : forall U b p i t,
  0 < p -> 0 <= i -> i + p + 1 < len U -> sorted U ->
  (val U 0 <= t < val U (len U - 1))%R -> (t < b)%R ->
  (* t is not close to a knot other than itself *)
  (forall j, 0 <= j < len U -> t = val U j \/ (tol t (val U j) < Rabs (t - val U j))%R) ->
  (* no lower degree value is small but not zero *)
  (forall q j, 0 <= q < p -> i <= j <= i + p - q ->
    let v := N (val U) b (Z.to_nat q) j t in v = 0%R \/ (tol v 0 < Rabs v)%R) ->
  (* clamped, if asked for the first function at the first knot *)
  (i = 0 -> t = val U 0 -> val U p = val U 0 /\ (val U 0 < val U (p + 1))%R) ->
  OneBasisFunction i p U t = Ok (N (val U) b (Z.to_nat p) i t).
Proof. exact OneBasisFunction_ok. Qed.
Print Assumptions C10_one_basis_function.
Example C10_nonvacuous : (forall j, 0 <= j < len Uex ->
    (7 / 2)%R = val Uex j \/ (tol (7 / 2) (val Uex j) < Rabs (7 / 2 - val Uex j))%R) /\
  (forall q j, 0 <= q < 1 -> 5 <= j <= 5 + 1 - q ->
    let v := N (val Uex) 5 (Z.to_nat q) j (7 / 2) in v = 0%R \/ (tol v 0 < Rabs v)%R).
Proof.
  split; [exact Uex_apart|]. intros q j Hq Hj v. assert (q = 0) as -> by lia.
  assert (Hv : v = 1%R \/ v = 0%R).
  { subst v. change (Z.to_nat 0) with 0%nat. cbn [N Nrec]. unfold N, Nrec, N0.
    repeat match goal with |- context [Rlt_dec ?a ?b] => destruct (Rlt_dec a b) | |- context [Rle_dec ?a ?b] => destruct (Rle_dec a b) end; auto. }
  clearbody v. destruct Hv as [->| ->]; [right|left; reflexivity].
  pose proof (tol_le 1 0 1 ltac:(rewrite Rabs_R1; lra) ltac:(rewrite Rabs_R0; lra)). rewrite Rabs_R1. lra.
Qed.

Theorem C10_outside_support : forall U p i t,
  0 < p -> 0 <= i -> i + p + 1 < len U -> sorted U -> (val U 0 <= t <= val U (len U - 1))%R ->
  (tol t (val U 0) < t - val U 0)%R -> (tol t (val U (len U - 1)) < val U (len U - 1) - t)%R ->
  (t + tol t (val U i) < val U i \/ val U (i + p + 1) - tol t (val U (i + p + 1)) <= t)%R ->
  OneBasisFunction i p U t = Ok 0%R.
Proof. exact OneBasisFunction_outside. Qed.
Print Assumptions C10_outside_support.

Theorem C10_last_knot : forall U p, 0 < p -> 2 * p + 2 <= len U -> sorted U ->
  OneBasisFunction (len U - p - 2) p U (val U (len U - 1)) = Ok 1%R.
Proof. exact OneBasisFunction_end. Qed.
Print Assumptions C10_last_knot.

(* without clamping the value at the first knot is wrong *)
Theorem C10_unclamped_refuted : exists p i U t b, 0 < p /\ 0 <= i /\ i + p + 1 < len U /\ sorted U /\
  (val U 0 <= t < val U (len U - 1))%R /\ (t < b)%R /\ OneBasisFunction i p U t = Ok 1%R /\
  N (val U) b (Z.to_nat p) i t = 0%R.
Proof. exact OneBasisFunction_unclamped. Qed.
Print Assumptions C10_unclamped_refuted.

(** * C11 *)
Theorem C11_all_basis_functions : forall p n U t, curve_knots p n U -> p <= 7 -> in_domain p n U t ->
  returns (let! k := GetKnotSpanIndex p U t in let! m := AllBasisFunctions k p U t in Ok (k, m))
    (fun '(k, m) => span_of p n U t k /\ len m = p + 1 /\
       (forall r q, 0 <= r <= q -> q <= p -> get2 m r q = Ok (N (val U) (val U (n + 1)) (Z.to_nat q) (k - q + r) t)) /\
       (forall j r, 0 <= r < j -> j <= p -> get2 m j r = Ok (val U (k + r + 1) - val U (k + 1 - j + r))%R)).
Proof. exact AllBasisFunctions_spec. Qed.
Print Assumptions C11_all_basis_functions.

(** * C12 *)
Theorem C12_derivatives : forall p n U t d, curve_knots p n U -> p <= 7 -> in_domain p n U t -> 0 <= d <= p ->
  returns (let! k := GetKnotSpanIndex p U t in let! m := BasisFunctionsDerivatives k p d U t in Ok (k, m))
    (fun '(k, ders) => span_of p n U t k /\ len ders = d + 1 /\
       (forall m r, 0 <= m <= d -> 0 <= r <= p -> exists g,
          nth_deriv (Z.to_nat m) (Nspan (val U) k (Z.to_nat p) (k - p + r)) g /\ get2 ders m r = Ok (g t)) /\
       (forall i x, 0 <= i <= n -> (val U k <= x < val U (k + 1))%R ->
          N (val U) (val U (n + 1)) (Z.to_nat p) i x = Nspan (val U) k (Z.to_nat p) i x)).
Proof. exact Derivatives_spec. Qed.
Print Assumptions C12_derivatives.

Theorem C12_order_above_degree : forall k p d (U : list R) t, p < d -> BasisFunctionsDerivatives k p d U t = Throw.
Proof. exact Derivatives_reject. Qed.
Print Assumptions C12_order_above_degree.

(* the derivative named in C12 is determined by the function *)
Theorem C12_derivative_unique : forall d f g g', nth_deriv d f g -> nth_deriv d f g' -> forall t, g t = g' t.
Proof. exact nth_deriv_unique. Qed.
Print Assumptions C12_derivative_unique.

(** * C13 *)
Theorem C13_first_order : forall p n U t, curve_knots p n U -> 1 <= p <= 7 -> in_domain p n U t ->
  returns (let! k := GetKnotSpanIndex p U t in let! m := BasisFunctionsFirstOrderDerivative k p U t in Ok (k, m))
    (fun '(k, ders) => span_of p n U t k /\
       (forall r, 0 <= r <= p -> getu2 ders 0 r = Ok (Nspan (val U) k (Z.to_nat p) (k - p + r) t)) /\
       (forall r, 0 <= r <= p -> exists d, derivable_pt_lim (Nspan (val U) k (Z.to_nat p) (k - p + r)) t d /\
          getu2 ders 1 r = Ok d) /\
       (forall m, 0 <= m <= 1 -> exists full, BasisFunctionsDerivatives k p m U t = Ok full /\
          forall a r, 0 <= a <= m -> 0 <= r <= p -> getu2 ders a r = get2 full a r)).
Proof. exact FirstOrder_spec. Qed.
Print Assumptions C13_first_order.
