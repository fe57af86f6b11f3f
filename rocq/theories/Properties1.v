(* Property theorems, part 1: tolerant comparisons, combinatorics, polynomials,
   matrices, vectors. Specifications are in Spec.v; the model functions named
   here are in M_MathUtils.v, M_Polynomials.v and M_XYZ.v. *)
From Coq Require Import ZArith List Bool Reals Lra Lia Floats.
From Verif Require Import Base Num Vec Spec M_MathUtils M_Polynomials M_XYZ
  P_MathUtils P_Bern P_Power P_Math2 P_Vec P_XYZ.
Import ListNotations.
Open Scope Z_scope.

(** * C01 *)
Theorem C01_trichotomy : forall tol a b : R, (0 <= tol)%R ->
  (IsLessThan_tol a b tol = true /\ IsAlmostEqualTo_tol a b tol = false /\ IsGreaterThan_tol a b tol = false) \/
  (IsLessThan_tol a b tol = false /\ IsAlmostEqualTo_tol a b tol = true /\ IsGreaterThan_tol a b tol = false) \/
  (IsLessThan_tol a b tol = false /\ IsAlmostEqualTo_tol a b tol = false /\ IsGreaterThan_tol a b tol = true).
Proof. exact compare_trichotomy. Qed.
Print Assumptions C01_trichotomy.

Theorem C01_le_is_not_gt : forall tol a b : R,
  IsLessThanOrEqual_tol a b tol = negb (IsGreaterThan_tol a b tol).
Proof. exact compare_le_not_gt. Qed.
Print Assumptions C01_le_is_not_gt.

Theorem C01_ge_is_not_lt : forall tol a b : R,
  IsGreaterThanOrEqual_tol a b tol = negb (IsLessThan_tol a b tol).
Proof. exact compare_ge_not_lt. Qed.
Print Assumptions C01_ge_is_not_lt.

Theorem C01_almost_equal_sym : forall tol a b : R,
  IsAlmostEqualTo_tol a b tol = IsAlmostEqualTo_tol b a tol.
Proof. exact compare_aeq_sym. Qed.
Print Assumptions C01_almost_equal_sym.

Theorem C01_almost_equal_refl : forall tol a : R, (0 <= tol)%R -> IsAlmostEqualTo_tol a a tol = true.
Proof. exact compare_aeq_refl. Qed.
Print Assumptions C01_almost_equal_refl.

(* what each comparison decides *)
Theorem C01_meaning : forall tol a b : R,
  let d := (tol * (1 + Rmax (Rabs a) (Rabs b)))%R in
  (IsAlmostEqualTo_tol a b tol = true <-> (Rabs (a - b) <= d)%R) /\
  (IsLessThan_tol a b tol = true <-> (a + d < b)%R) /\
  (IsGreaterThan_tol a b tol = true <-> (b + d < a)%R).
Proof. exact compare_meaning. Qed.
Print Assumptions C01_meaning.

(* binary64: any comparison with a NaN is false *)
Theorem C01_nan : forall tol a b : float, PrimFloat.is_nan a = true \/ PrimFloat.is_nan b = true ->
  IsAlmostEqualTo_tol a b tol = false /\ IsLessThan_tol a b tol = false /\
  IsGreaterThan_tol a b tol = false /\ IsLessThanOrEqual_tol a b tol = false /\
  IsGreaterThanOrEqual_tol a b tol = false.
Proof. exact compare_nan. Qed.
Print Assumptions C01_nan.
Example C01_nan_nonvacuous : PrimFloat.is_nan PrimFloat.nan = true.
Proof. reflexivity. Qed.

(* binary64: the trichotomy does not extend to infinite arguments *)
Theorem C01_infinite_refuted : exists a b : float,
  PrimFloat.is_nan a = false /\ PrimFloat.is_nan b = false /\ PrimFloat.ltb b a = true /\
  IsLessThan a b = false /\ IsAlmostEqualTo a b = false /\ IsGreaterThan a b = false.
Proof. exists PrimFloat.infinity, PrimFloat.zero. vm_compute. repeat split. Qed.
Print Assumptions C01_infinite_refuted.

Example C01_nonvacuous :
  IsLessThan 1%R 2%R = true /\ IsAlmostEqualTo 1%R 1%R = true /\ IsGreaterThan 2%R 1%R = true.
Proof. exact compare_example. Qed.

(** * C02 *)
Theorem C02_binomial : forall n k, 0 <= k <= n ->
  Binomial (A := R) n k = Ok (INR (fact (Z.to_nat n)) / (INR (fact (Z.to_nat k)) * INR (fact (Z.to_nat (n - k)))))%R.
Proof. exact Binomial_fact. Qed.
Print Assumptions C02_binomial.
Example C02_nonvacuous : 0 <= 7 <= 25. Proof. lia. Qed.

Theorem C02_binomial_out : forall n k, n < 0 \/ k < 0 \/ k > n -> Binomial (A := R) n k = Ok 0%R.
Proof. exact Binomial_out. Qed.
Print Assumptions C02_binomial_out.

Theorem C02_factorial : forall n,
  Factorial n = (if n <? 0 then Ok (-1) else if 20 <? n then Throw else Ok (Z.of_nat (fact (Z.to_nat n)))).
Proof. exact Factorial_spec. Qed.
Print Assumptions C02_factorial.

(* no intermediate value of the loop leaves the range of a 64-bit integer *)
Theorem C02_factorial_no_overflow : forall n i, 0 <= i <= n -> n <= 20 ->
  Factorial i = Ok (Z.of_nat (fact (Z.to_nat i))) /\ Z.of_nat (fact (Z.to_nat i)) < 2 ^ 63.
Proof. exact Factorial_bound. Qed.
Print Assumptions C02_factorial_no_overflow.

(** * C03 *)
Theorem C03_horner : forall p a t, 0 < p -> len a = p + 1 ->
  Horner p a t = Ok (rsum 0 (p + 1) (fun i => val a i * t ^ Z.to_nat i)%R).
Proof. exact Horner_ok. Qed.
Print Assumptions C03_horner.
Example C03_nonvacuous : 0 < 2 /\ len [1; 2; 3]%R = 2 + 1. Proof. split; reflexivity. Qed.

Theorem C03_horner_rejects : forall p a t, ~ (0 < p /\ len a = p + 1) -> Horner (A := R) p a t = Throw.
Proof. exact Horner_reject. Qed.
Print Assumptions C03_horner_rejects.

Theorem C03_horner2 : forall p q m f u v, 0 < p -> 0 < q -> is_mat m (p + 1) (q + 1) f ->
  (0 <= u <= 1)%R -> (0 <= v <= 1)%R ->
  Horner2 p q m u v =
  Ok (rsum 0 (p + 1) (fun i => rsum 0 (q + 1) (fun j => f i j * u ^ Z.to_nat i * v ^ Z.to_nat j)%R)).
Proof. exact Horner2_spec. Qed.
Print Assumptions C03_horner2.

(** * C04 *)
Theorem C04_all_bernstein : forall p t, 0 <= p -> (0 <= t <= 1)%R ->
  returns (AllBernstein p t) (fun l => is_vec l (p + 1) (fun i => bern p i t)).
Proof. exact AllBernstein_spec. Qed.
Print Assumptions C04_all_bernstein.

Theorem C04_nonneg : forall p i t, (0 <= t <= 1)%R -> (0 <= bern p i t)%R.
Proof. exact bern_nonneg. Qed.
Print Assumptions C04_nonneg.

Theorem C04_sum_one : forall p t, 0 <= p -> rsum 0 (p + 1) (fun i => bern p i t) = 1%R.
Proof. exact bern_sum. Qed.
Print Assumptions C04_sum_one.

Theorem C04_bernstein : forall p i t, 0 <= i <= p -> i = 0 \/ i = 1 \/ i = p -> (0 <= t <= 1)%R ->
  Bernstein i p t = Ok (bern p i t).
Proof. exact Bernstein_good. Qed.
Print Assumptions C04_bernstein.
Example C04_nonvacuous : 0 <= 1 <= 5 /\ (0 <= 1 / 3 <= 1)%R. Proof. split; [lia|lra]. Qed.

(* for the other indices the value returned is a Bernstein polynomial of another degree ... *)
Theorem C04_bernstein_interior : forall p i t, 0 < i < p -> (0 <= t <= 1)%R ->
  Bernstein i p t = Ok (bern (p - i + 1) i t).
Proof. exact Bernstein_inside. Qed.
Print Assumptions C04_bernstein_interior.

(* ... so the promise fails at every degree >= 3, for every index 2 <= i < p *)
Theorem C04_bernstein_refuted : forall p i, 2 <= i < p ->
  exists t, (0 < t < 1)%R /\ exists v, Bernstein i p t = Ok v /\ v <> bern p i t.
Proof. exact Bernstein_interior_wrong. Qed.
Print Assumptions C04_bernstein_refuted.

Theorem C04_bernstein_rejects : forall p i t, ~ (0 <= i <= p) -> Bernstein (A := R) i p t = Throw.
Proof. exact Bernstein_reject. Qed.
Print Assumptions C04_bernstein_rejects.

(** * C05 *)
Theorem C05_bezier_to_power : forall p, 0 <= p ->
  returns (BezierToPowerMatrix (A := R) p) (fun m => exists f, is_mat m (p + 1) (p + 1) f /\
    (forall k t, 0 <= k <= p -> poly (fun j => f j k) p t = bern p k t) /\
    (forall P t, poly (fun j => rsum 0 (p + 1) (fun k => f j k * P k)%R) p t
               = rsum 0 (p + 1) (fun k => bern p k t * P k)%R)).
Proof. exact BezierToPowerMatrix_eval. Qed.
Print Assumptions C05_bezier_to_power.

Theorem C05_power_to_bezier_inverse : forall p, 0 <= p ->
  returns (BezierToPowerMatrix (A := R) p) (fun m =>
  returns (PowerToBezierMatrix p m) (fun m' =>
  returns (MakeDiagonal (p + 1)) (fun id =>
    MatrixMultiply m m' = Ok id /\ MatrixMultiply m' m = Ok id))).
Proof. exact PowerToBezierMatrix_inverse. Qed.
Print Assumptions C05_power_to_bezier_inverse.

(** * C57 *)
Theorem C57_product : forall (a b : list (list R)) m n p f g,
  0 < m -> 0 < n -> 0 <= p -> is_mat a m n f -> is_mat b n p g ->
  returns (MatrixMultiply a b)
    (fun c => is_mat c m p (fun i j => rsum 0 n (fun k => f i k * g k j)%R)).
Proof. exact MatrixMultiply_spec. Qed.
Print Assumptions C57_product.

Theorem C57_associative : forall (a b c : list (list R)) m n p q f g h,
  0 < m -> 0 < n -> 0 < p -> 0 <= q -> is_mat a m n f -> is_mat b n p g -> is_mat c p q h ->
  returns (let! ab := MatrixMultiply a b in MatrixMultiply ab c) (fun x =>
  returns (let! bc := MatrixMultiply b c in MatrixMultiply a bc) (fun y => x = y)).
Proof. exact MatrixMultiply_assoc. Qed.
Print Assumptions C57_associative.

Theorem C57_identity : forall (a : list (list R)) m n f, 0 < m -> 0 < n -> is_mat a m n f ->
  returns (let! i := MakeDiagonal m in MatrixMultiply i a) (fun x => x = a) /\
  returns (let! i := MakeDiagonal n in MatrixMultiply a i) (fun x => x = a).
Proof. exact MatrixMultiply_id. Qed.
Print Assumptions C57_identity.

Theorem C57_transpose : forall T (m : list (list T)) r c f, 0 < r -> 0 <= c -> is_mat m r c f ->
  returns (Transpose m) (fun m' => is_mat m' c r (fun i j => f j i)).
Proof. exact @Transpose_spec. Qed.
Print Assumptions C57_transpose.

Theorem C57_transpose_involutive : forall T (m : list (list T)) r c f, 0 < r -> 0 < c -> is_mat m r c f ->
  returns (let! t := Transpose m in Transpose t) (fun m' => m' = m).
Proof. exact @Transpose_invol. Qed.
Print Assumptions C57_transpose_involutive.

Theorem C57_transpose_product : forall (a b : list (list R)) m n p f g,
  0 < m -> 0 < n -> 0 < p -> is_mat a m n f -> is_mat b n p g ->
  returns (let! ab := MatrixMultiply a b in Transpose ab) (fun x =>
  returns (let! ta := Transpose a in let! tb := Transpose b in MatrixMultiply tb ta) (fun y => x = y)).
Proof. exact Transpose_product. Qed.
Print Assumptions C57_transpose_product.

Theorem C57_column : forall T (d : T) (m : list (list T)) r c f j, 0 <= j < c -> is_mat m r c f ->
  returns (GetColumn d m j) (fun col => is_vec col r (fun i => f i j)).
Proof. exact @GetColumn_spec. Qed.
Print Assumptions C57_column.

Example C57_nonvacuous :
  is_mat [[1; 2; 3]; [4; 5; 6]]%R 2 3 (fun i j => IZR (3 * i + j + 1)).
Proof. exact mat_example. Qed.

(** * C59 *)
Theorem C59_dot : forall (a b c : XYZ R) (s : R),
  DotProduct (xyz_add a b) c = (DotProduct a c + DotProduct b c)%R /\
  DotProduct (xyz_scale s a) c = (s * DotProduct a c)%R /\
  DotProduct a c = DotProduct c a /\
  (0 <= DotProduct a a)%R /\ (DotProduct a a = 0%R -> a = xyz0).
Proof. exact Dot_laws. Qed.
Print Assumptions C59_dot.

Theorem C59_cross : forall (a b c : XYZ R) (s : R),
  CrossProduct (xyz_add a b) c = xyz_add (CrossProduct a c) (CrossProduct b c) /\
  CrossProduct (xyz_scale s a) c = xyz_scale s (CrossProduct a c) /\
  CrossProduct a c = xyz_neg (CrossProduct c a).
Proof. exact Cross_bilinear. Qed.
Print Assumptions C59_cross.

Theorem C59_orthogonal : forall a b : XYZ R,
  DotProduct (CrossProduct a b) a = 0%R /\ DotProduct (CrossProduct a b) b = 0%R.
Proof. exact Cross_orthogonal. Qed.
Print Assumptions C59_orthogonal.

(* orientation: together with bilinearity and orthogonality this fixes the product *)
Theorem C59_right_handed :
  CrossProduct (mkXYZ 1 0 0)%R (mkXYZ 0 1 0)%R = mkXYZ 0%R 0%R 1%R /\
  CrossProduct (mkXYZ 0 1 0)%R (mkXYZ 0 0 1)%R = mkXYZ 1%R 0%R 0%R /\
  CrossProduct (mkXYZ 0 0 1)%R (mkXYZ 1 0 0)%R = mkXYZ 0%R 1%R 0%R.
Proof. exact Cross_basis. Qed.
Print Assumptions C59_right_handed.

Theorem C59_lagrange : forall a b : XYZ R,
  (SqrLength (CrossProduct a b) = SqrLength a * SqrLength b - DotProduct a b * DotProduct a b)%R.
Proof. exact Lagrange. Qed.
Print Assumptions C59_lagrange.

Theorem C59_normalize : forall a : XYZ R, a <> xyz0 ->
  returns (Normalize a) (fun u => SqrLength u = 1%R /\ exists s, (0 < s)%R /\ a = xyz_scale s u).
Proof. exact Normalize_spec. Qed.
Print Assumptions C59_normalize.
Example C59_nonvacuous : mkXYZ 3%R 4%R 0%R <> xyz0. Proof. exact xyz_example. Qed.

Theorem C59_normalize_zero : Normalize (xyz0 (A := R)) = Ok xyz0.
Proof. exact Normalize_zero. Qed.
Print Assumptions C59_normalize_zero.

Theorem C59_distance_metric : forall a b c : XYZ R, exists dab dba dbc dac,
  Distance a b = Ok dab /\ Distance b a = Ok dba /\ Distance b c = Ok dbc /\ Distance a c = Ok dac /\
  dab = dba /\ (0 <= dab)%R /\ (dab = 0%R <-> a = b) /\ (dac <= dab + dbc)%R /\
  (dab * dab = SqrLength (xyz_sub b a))%R.
Proof. exact Distance_metric. Qed.
Print Assumptions C59_distance_metric.
