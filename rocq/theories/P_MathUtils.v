(* Proofs about M_MathUtils: comparisons, binomials, factorials, matrices. *)
From Coq Require Import ZArith List Lia Bool Reals Lra Psatz Factorial Binomial.
From Verif Require Import Base Num Vec Tac Spec M_MathUtils.
Import ListNotations.
Open Scope Z_scope.

(* ------------------------------------------------------------------ *)
(** * Comparisons *)

Lemma eps_val : DoubleEpsilon = (1 / 1000000)%R.
Proof. reflexivity. Qed.

(* the threshold every comparison uses *)
Definition thr (tol a b : R) : R := (tol * (1 + Rmax (Rabs a) (Rabs b)))%R.

Lemma thr_sym tol a b : thr tol a b = thr tol b a.
Proof. unfold thr. rewrite Rmax_comm. reflexivity. Qed.

Lemma aeq_spec tol a b : IsAlmostEqualTo_tol a b tol = true <-> (Rabs (a - b) <= thr tol a b)%R.
Proof. unfold IsAlmostEqualTo_tol. num. cbn [orb]. rewrite nmax_R. apply Rleb_true. Qed.
Lemma gt_spec tol a b : IsGreaterThan_tol a b tol = true <-> (thr tol a b < a - b)%R.
Proof. unfold IsGreaterThan_tol. num. cbn [orb]. rewrite nmax_R. apply Rltb_true. Qed.
Lemma lt_spec tol a b : IsLessThan_tol a b tol = true <-> (thr tol a b < b - a)%R.
Proof. unfold IsLessThan_tol. num. cbn [orb]. rewrite nmax_R. apply Rltb_true. Qed.
Lemma ge_spec tol a b : IsGreaterThanOrEqual_tol a b tol = true <-> (- thr tol a b <= a - b)%R.
Proof. unfold IsGreaterThanOrEqual_tol. num. cbn [orb]. rewrite nmax_R. apply Rleb_true. Qed.
Lemma le_spec tol a b : IsLessThanOrEqual_tol a b tol = true <-> (a - b <= thr tol a b)%R.
Proof. unfold IsLessThanOrEqual_tol. num. cbn [orb]. rewrite nmax_R. apply Rleb_true. Qed.

Lemma thr_nonneg tol a b : (0 <= tol)%R -> (0 <= thr tol a b)%R.
Proof.
  intros H. unfold thr. pose proof (Rabs_pos a). pose proof (Rmax_l (Rabs a) (Rabs b)). nra.
Qed.

Lemma bool_iff (b : bool) (P : Prop) : (b = true <-> P) -> (b = false <-> ~ P).
Proof. destruct b; intuition congruence. Qed.

Lemma compare_trichotomy tol a b : (0 <= tol)%R ->
  (IsLessThan_tol a b tol = true /\ IsAlmostEqualTo_tol a b tol = false /\ IsGreaterThan_tol a b tol = false) \/
  (IsLessThan_tol a b tol = false /\ IsAlmostEqualTo_tol a b tol = true /\ IsGreaterThan_tol a b tol = false) \/
  (IsLessThan_tol a b tol = false /\ IsAlmostEqualTo_tol a b tol = false /\ IsGreaterThan_tol a b tol = true).
Proof.
  intros Ht. pose proof (thr_nonneg tol a b Ht) as H0.
  pose proof (lt_spec tol a b) as L. pose proof (aeq_spec tol a b) as E. pose proof (gt_spec tol a b) as G.
  pose proof (bool_iff _ _ L) as L'. pose proof (bool_iff _ _ E) as E'. pose proof (bool_iff _ _ G) as G'.
  destruct (Rlt_dec (thr tol a b) (b - a)) as [H1|H1]; [left|right; destruct (Rlt_dec (thr tol a b) (a - b)) as [H2|H2]; [right|left]];
    rewrite ?L, ?E, ?G, ?L', ?E', ?G'; unfold Rabs in *; destruct (Rcase_abs (a - b)); repeat split; lra.
Qed.

Lemma compare_le_not_gt tol a b : IsLessThanOrEqual_tol a b tol = negb (IsGreaterThan_tol a b tol).
Proof.
  pose proof (le_spec tol a b) as L. pose proof (gt_spec tol a b) as G.
  destruct (IsLessThanOrEqual_tol a b tol), (IsGreaterThan_tol a b tol); cbn; auto.
  - destruct L as [L _], G as [G _]. specialize (L eq_refl). specialize (G eq_refl). lra.
  - destruct L as [_ L], G as [_ G]. apply L.
    destruct (Rle_dec (a - b) (thr tol a b)) as [|n]; auto. exfalso. assert (false = true) by (apply G; lra). discriminate.
Qed.

Lemma compare_ge_not_lt tol a b : IsGreaterThanOrEqual_tol a b tol = negb (IsLessThan_tol a b tol).
Proof.
  pose proof (ge_spec tol a b) as L. pose proof (lt_spec tol a b) as G.
  destruct (IsGreaterThanOrEqual_tol a b tol), (IsLessThan_tol a b tol); cbn; auto.
  - destruct L as [L _], G as [G _]. specialize (L eq_refl). specialize (G eq_refl). lra.
  - destruct L as [_ L], G as [_ G]. apply L.
    destruct (Rle_dec (- thr tol a b) (a - b)) as [|n]; auto. exfalso. assert (false = true) by (apply G; lra). discriminate.
Qed.

Lemma compare_aeq_sym tol a b : IsAlmostEqualTo_tol a b tol = IsAlmostEqualTo_tol b a tol.
Proof.
  pose proof (aeq_spec tol a b) as L. pose proof (aeq_spec tol b a) as G.
  rewrite (thr_sym tol b a), Rabs_minus_sym in G.
  destruct (IsAlmostEqualTo_tol a b tol), (IsAlmostEqualTo_tol b a tol); intuition.
Qed.

Lemma compare_gt_lt tol a b : IsGreaterThan_tol a b tol = IsLessThan_tol b a tol.
Proof.
  pose proof (gt_spec tol a b) as L. pose proof (lt_spec tol b a) as G.
  rewrite (thr_sym tol b a) in G.
  destruct (IsGreaterThan_tol a b tol), (IsLessThan_tol b a tol); intuition.
Qed.

Lemma compare_aeq_refl tol a : (0 <= tol)%R -> IsAlmostEqualTo_tol a a tol = true.
Proof. intros H. apply aeq_spec. rewrite Rminus_diag_eq, Rabs_R0 by reflexivity. apply thr_nonneg; auto. Qed.

(* default-tolerance forms *)
Definition eps : R := (1 / 1000000)%R.
Lemma eps_pos : (0 < eps)%R. Proof. unfold eps. lra. Qed.
Lemma aeq_iff a b : IsAlmostEqualTo a b = true <-> (Rabs (a - b) <= thr eps a b)%R.
Proof. apply aeq_spec. Qed.
Lemma aeq_false a b : IsAlmostEqualTo a b = false <-> (thr eps a b < Rabs (a - b))%R.
Proof. rewrite (bool_iff _ _ (aeq_iff a b)). split; lra. Qed.
Lemma lt_iff a b : IsLessThan a b = true <-> (thr eps a b < b - a)%R.
Proof. apply lt_spec. Qed.
Lemma lt_false a b : IsLessThan a b = false <-> (b - a <= thr eps a b)%R.
Proof. rewrite (bool_iff _ _ (lt_iff a b)). split; lra. Qed.
Lemma gt_iff a b : IsGreaterThan a b = true <-> (thr eps a b < a - b)%R.
Proof. apply gt_spec. Qed.
Lemma ge_iff a b : IsGreaterThanOrEqual a b = true <-> (- thr eps a b <= a - b)%R.
Proof. apply ge_spec. Qed.
Lemma ge_false a b : IsGreaterThanOrEqual a b = false <-> (a - b < - thr eps a b)%R.
Proof. rewrite (bool_iff _ _ (ge_iff a b)). split; lra. Qed.
Lemma le_iff a b : IsLessThanOrEqual a b = true <-> (a - b <= thr eps a b)%R.
Proof. apply le_spec. Qed.
Lemma le_false a b : IsLessThanOrEqual a b = false <-> (thr eps a b < a - b)%R.
Proof. rewrite (bool_iff _ _ (le_iff a b)). split; lra. Qed.
Lemma thr_eps_nonneg a b : (0 <= thr eps a b)%R.
Proof. apply thr_nonneg. pose proof eps_pos. lra. Qed.
Lemma thr_eps_pos a b : (0 < thr eps a b)%R.
Proof.
  unfold thr. pose proof eps_pos. pose proof (Rabs_pos a). pose proof (Rmax_l (Rabs a) (Rabs b)). nra.
Qed.
Lemma aeq_refl a : IsAlmostEqualTo a a = true.
Proof. apply compare_aeq_refl. numg. unfold DoubleEpsilon; numg. lra. Qed.

(* ------------------------------------------------------------------ *)
(** * validate_range *)

Lemma range_ok (x lo hi : R) (Q : unit -> Prop) : (lo <= x <= hi)%R -> Q tt -> wp (validate_range x lo hi) Q.
Proof.
  intros H HQ. unfold validate_range. num.
  destruct (Rltb_spec x lo); [lra|]. destruct (Rltb_spec hi x); [lra|]. exact HQ.
Qed.

(* accepted exactly when within 1e-6 of the interval *)
Lemma range_iff (x lo hi : R) :
  validate_range x lo hi = Ok tt <->
  ((lo <= x \/ Rabs (x - lo) <= eps) /\ (x <= hi \/ Rabs (x - hi) <= eps))%R.
Proof.
  unfold validate_range. num. change DoubleEpsilon with eps.
  destruct (Rltb_spec x lo), (Rltb_spec hi x); cbn [andb orb];
  repeat match goal with |- context [Rltb eps ?x] => destruct (Rltb_spec eps x) end;
  cbn [andb orb]; intuition (try discriminate; try lra).
Qed.

Lemma range_cases (x lo hi : R) : validate_range x lo hi = Ok tt \/ validate_range x lo hi = Throw.
Proof. unfold validate_range. destruct (_ || _); auto. Qed.

(* ------------------------------------------------------------------ *)
(** * Binomial coefficients *)


Lemma Cb_0 n : 0 <= n -> Cb n 0 = 1%R.
Proof.
  intros H. unfold Cb, C. rewrite Nat.sub_0_r. change (Z.to_nat 0) with 0%nat. cbn [fact].
  change (INR 1) with 1%R. field. apply INR_fact_neq_0.
Qed.
Lemma Cb_n n : 0 <= n -> Cb n n = 1%R.
Proof.
  intros H. unfold Cb, C. rewrite Nat.sub_diag. cbn [fact].
  change (INR 1) with 1%R. field. apply INR_fact_neq_0.
Qed.
Lemma Cb_pascal n k : 0 < k < n -> Cb n k = (Cb (n - 1) (k - 1) + Cb (n - 1) k)%R.
Proof.
  intros H. unfold Cb.
  replace (Z.to_nat n) with (S (Z.to_nat (n - 1))) by lia.
  replace (Z.to_nat k) with (S (Z.to_nat (k - 1))) by lia.
  rewrite pascal by lia. reflexivity.
Qed.
Lemma Cb_sym n k : 0 <= k <= n -> Cb n k = Cb n (n - k).
Proof.
  intros H. unfold Cb. rewrite pascal_step1 by lia.
  f_equal. lia.
Qed.
Lemma Cb_step n k : 0 <= k < n -> Cb n (k + 1) = (Cb n k * IZR (n - k) / IZR (k + 1))%R.
Proof.
  intros H. unfold Cb. replace (Z.to_nat (k + 1)) with (S (Z.to_nat k)) by lia.
  set (N := Z.to_nat n). set (K := Z.to_nat k).
  assert (HK : (K < N)%nat) by (subst N K; lia).
  unfold C.
  replace (N - K)%nat with (S (N - S K)) by lia.
  replace (IZR (n - k)) with (INR (S (N - S K))) by (rewrite INR_IZR_INZ; f_equal; subst N K; lia).
  replace (IZR (k + 1)) with (INR (S K)) by (rewrite INR_IZR_INZ; f_equal; subst K; lia).
  rewrite (fact_simpl K), (fact_simpl (N - S K)), !mult_INR.
  pose proof (INR_fact_neq_0 K). pose proof (INR_fact_neq_0 (N - S K)).
  assert (INR (S K) <> 0)%R by (apply not_0_INR; lia).
  assert (INR (S (N - S K)) <> 0)%R by (apply not_0_INR; lia).
  field. auto.
Qed.

Lemma pascal_table_ok :
  wp (pascal_table (A := R)) (fun t => arr2D t 21 21 (fun i j => j <= i) Cb).
Proof.
  unfold pascal_table. apply wp_bind, wp_mkvec; [lia|]. intros row Hrow.
  apply wp_bind. apply (wp_mkvec2 n0 21 21 row); [lia|exact Hrow|]. intros t Ht.
  apply wp_for_up with (P := fun i t => arr2D t 21 21 (fun a b => b <= a < i) Cb).
  - lia.
  - eapply arr2D_ext; [apply arr2_D with (D := fun _ _ => True); exact Ht|].
    intros a b Ha Hb HD. lia.
  - intros i t1 Hi H1. wupd H1. intros t2 H2. wupd H2. intros t3 H3.
    apply wp_for_up' with
      (P := fun j t => arr2D t 21 21 (fun a b => (b <= a < i) \/ (a = i /\ (b < j \/ b = i))) Cb).
    + eapply arr2D_ext; [exact H3|]. intros a b Ha Hb HD. split; [lia|].
      cbn beta. zcase; subst; first [reflexivity | lia | symmetry; apply Cb_0; lia | symmetry; apply Cb_n; lia].
    + intros j t4 Hj H4. wget H4. wget H4. wupd H4. intros t5 H5.
      eapply arr2D_ext; [exact H5|]. intros a b Ha Hb HD. split; [lia|].
      cbn beta. zcase; try reflexivity; try lia.
      subst. numg. symmetry. apply Cb_pascal. lia.
    + intros t4 H4. eapply arr2D_ext; [exact H4|]. intros a b Ha Hb HD. split; [|reflexivity].
      lia.
  - intros s Hs. eapply arr2D_ext; [exact Hs|]. intros a b Ha Hb HD. split; [lia|reflexivity].
Qed.

Lemma Binomial_ok n k : 0 <= k <= n -> Binomial (A := R) n k = Ok (Cb n k).
Proof.
  intros H. unfold Binomial.
  destruct (Z.ltb_spec n 0); [lia|]. destruct (Z.ltb_spec k 0); [lia|].
  destruct (Z.ltb_spec n k); [lia|]. cbn [orb].
  destruct (Z.leb_spec n 20).
  - destruct (wp_elim _ _ pascal_table_ok) as (t & -> & Ht). cbn [bind].
    rewrite (arr2D_get _ _ _ _ _ _ _ Ht) by lia. reflexivity.
  - set (i := Z.min k (n - k)).
    assert (Hi : Cb n k = Cb n i).
    { subst i. destruct (Z.min_spec k (n - k)) as [[_ ->]|[_ ->]]; [reflexivity|]. apply Cb_sym. lia. }
    rewrite Hi.
    (* loop invariant: after j-1 rounds the value is C(n-i+j-1, j-1) *)
    assert (HS : forall m j, 0 <= j -> 0 <= m ->
      Cb (m + j + 1) (j + 1) = (Cb (m + j) j * IZR (m + j + 1) / IZR (j + 1))%R).
    { intros m j Hj Hm. unfold Cb.
      replace (Z.to_nat (j + 1)) with (S (Z.to_nat j)) by lia.
      replace (Z.to_nat (m + j + 1)) with (S (Z.to_nat (m + j))) by lia.
      unfold C. replace (S (Z.to_nat (m + j)) - S (Z.to_nat j))%nat with (Z.to_nat m) by lia.
      replace (Z.to_nat (m + j) - Z.to_nat j)%nat with (Z.to_nat m) by lia.
      rewrite !fact_simpl, !mult_INR.
      replace (IZR (m + j + 1)) with (INR (S (Z.to_nat (m + j)))) by (rewrite INR_IZR_INZ; f_equal; lia).
      replace (IZR (j + 1)) with (INR (S (Z.to_nat j))) by (rewrite INR_IZR_INZ; f_equal; lia).
      pose proof (INR_fact_neq_0 (Z.to_nat j)). pose proof (INR_fact_neq_0 (Z.to_nat m)).
      assert (INR (S (Z.to_nat j)) <> 0)%R by (apply not_0_INR; lia).
      field. auto. }
    assert (W : wp (for_up 1 (i + 1) n1 (fun (j : Z) (r : R) => ndiv (nmul r (nofZ (n - i + j))) (nofZ j)))
               (fun r => r = Cb n i)).
    { apply wp_for_up with (P := fun j (r : R) => r = Cb (n - i + (j - 1)) (j - 1)).
      - lia.
      - numg. replace (1 - 1) with 0 by lia. symmetry. apply Cb_0. lia.
      - intros j r Hj ->. numg. rewrite Rdiv_ok by (apply not_0_IZR; lia). cbn [wp].
        replace (j + 1 - 1) with (j - 1 + 1) by lia.
        replace (n - i + (j - 1 + 1)) with ((n - i) + (j - 1) + 1) by lia.
        rewrite HS by lia.
        replace (n - i + (j - 1) + 1) with (n - i + j) by lia.
        replace (j - 1 + 1) with j by lia. reflexivity.
      - intros s ->. f_equal; lia. }
    destruct (wp_elim _ _ W) as (x & Hx & ->). exact Hx.
Qed.

Lemma Binomial_out n k : n < 0 \/ k < 0 \/ k > n -> Binomial (A := R) n k = Ok 0%R.
Proof.
  intros H. unfold Binomial.
  destruct (Z.ltb_spec n 0); [reflexivity|]. destruct (Z.ltb_spec k 0); [reflexivity|].
  destruct (Z.ltb_spec n k); [reflexivity|]. lia.
Qed.

Lemma Factorial_ok n : 0 <= n <= 20 -> Factorial n = Ok (Z.of_nat (fact (Z.to_nat n))).
Proof.
  intros H. unfold Factorial. destruct (Z.ltb_spec n 0); [lia|]. destruct (Z.ltb_spec 20 n); [lia|].
  assert (W : wp (for_up 2 (n + 1) 1 (fun i r => Ok (r * i)))
                 (fun r => r = Z.of_nat (fact (Z.to_nat n)))).
  { apply wp_for_up' with (P := fun i r => r = Z.of_nat (fact (Z.to_nat (i - 1)))).
    - reflexivity.
    - intros k r Hk ->. cbn [wp]. replace (k + 1 - 1) with k by lia.
      replace (Z.to_nat k) with (S (Z.to_nat (k - 1))) by lia.
      rewrite fact_simpl, Nat2Z.inj_mul. replace (Z.of_nat (S (Z.to_nat (k - 1)))) with k by lia. ring.
    - intros s ->. destruct (Z.max_spec 2 (n + 1)) as [[Hm ->]|[Hm ->]].
      + do 3 f_equal. lia.
      + assert (n = 0 \/ n = 1) as [->| ->] by lia; reflexivity. }
  destruct (wp_elim _ _ W) as (x & Hx & ->). exact Hx.
Qed.

(* ------------------------------------------------------------------ *)
(** * Matrix helpers *)

(* the product of an m x n by an n x p matrix *)
Lemma MatrixMultiply_ok (a b : list (list R)) m n p f g :
  0 < m -> 0 < n -> 0 <= p ->
  arr2 a m n f -> arr2 b n p g ->
  wp (MatrixMultiply a b) (fun c => arr2 c m p (fun i j => rsum 0 n (fun k => f i k * g k j)%R)).
Proof.
  intros Hm Hn Hp Ha Hb. unfold MatrixMultiply.
  destruct (arr2_row _ _ _ _ 0 Ha) as (r0 & Hr0 & Hr0'); [lia|].
  destruct (arr2_row _ _ _ _ 0 Hb) as (s0 & Hs0 & Hs0'); [lia|].
  rewrite Hr0, Hs0. cbn [bind].
  rewrite (arr2_len _ _ _ _ Ha), (arr_len _ _ _ Hr0'), (arr_len _ _ _ Hs0').
  apply wp_bind, wp_mkvec; [lia|]. intros row Hrow.
  apply wp_bind. apply (wp_mkvec2 n0 m p row); [lia|exact Hrow|]. intros c Hc.
  set (prod := fun i j => rsum 0 n (fun k => f i k * g k j)%R).
  apply wp_for_up with
    (P := fun i c => arr2 c m p (fun x y => if x <? i then prod x y else 0%R)).
  - lia.
  - eapply arr2_ext; [exact Hc|]. intros x y Hx Hy. zcase; [lia|reflexivity].
  - intros i c1 Hi H1.
    apply wp_for_up with
      (P := fun j c => arr2 c m p (fun x y =>
         if (x <? i) || ((x =? i) && (y <? j)) then prod x y else 0%R)).
    + lia.
    + eapply arr2_ext; [exact H1|]. intros x y Hx Hy. zcase; try reflexivity; lia.
    + intros j c2 Hj H2.
      apply wp_for_up with
        (P := fun k c => arr2 c m p (fun x y =>
           if (x =? i) && (y =? j) then rsum 0 k (fun k => f i k * g k j)%R
           else if (x <? i) || ((x =? i) && (y <? j)) then prod x y else 0%R)).
      * lia.
      * eapply arr2_ext; [exact H2|]. intros x y Hx Hy. rewrite rsum_nil by lia.
        zcase; try reflexivity; lia.
      * intros k c3 Hk H3. wget H3. wget Ha. wget Hb. wupd H3. intros c4 H4.
        eapply arr2_ext; [exact H4|]. intros x y Hx Hy. numg.
        rewrite !Z.eqb_refl. cbn [andb]. rewrite rsum_last by lia.
        zcase; try reflexivity; lia.
      * intros c3 H3. eapply arr2_ext; [exact H3|]. intros x y Hx Hy. unfold prod.
        zcase; subst; try reflexivity; lia.
    + intros c2 H2. eapply arr2_ext; [exact H2|]. intros x y Hx Hy.
      zcase; subst; try reflexivity; lia.
  - intros c1 H1. eapply arr2_ext; [exact H1|]. intros x y Hx Hy. zcase; first [reflexivity|lia].
Qed.

Lemma MakeDiagonal_ok n : 0 <= n ->
  wp (MakeDiagonal (A := R) n) (fun c => arr2 c n n (fun i j => if i =? j then 1%R else 0%R)).
Proof.
  intros Hn. unfold MakeDiagonal. apply wp_bind, wp_mkvec; [lia|]. intros c0 Hc0.
  set (d := fun i j : Z => if i =? j then 1%R else 0%R).
  apply wp_for_up with (P := fun i c => len c = n /\ forall a, 0 <= a < i ->
    exists row, get c a = Ok row /\ arr row n (d a)).
  - lia.
  - split; [apply (arr_len _ _ _ Hc0)|lia].
  - intros i c Hi [Hl Hr]. apply wp_bind, wp_mkvec; [lia|]. intros row Hrow.
    apply wp_bind.
    apply wp_for_up with (P := fun j row => arr row n (fun b => if b <? j then d i b else 0%R)).
    + lia.
    + eapply arr_ext; [exact Hrow|]. intros b Hb. zcase; [lia|reflexivity].
    + intros j row1 Hj H1. wupd H1. intros row2 H2. eapply arr_ext; [exact H2|].
      intros b Hb. cbn beta. unfold d. zcase; subst; try reflexivity; try lia.
    + intros row1 H1. apply upd_wp with (n := n); auto. intros c' Hl' Hs Ho. split; [exact Hl'|].
      intros a Ha. destruct (Z.eq_dec a i) as [->|Hne].
      * exists row1. split; [exact Hs|]. eapply arr_ext; [exact H1|]. intros b Hb. cbn beta. zcase; [reflexivity|lia].
      * rewrite Ho by auto. apply Hr. lia.
  - intros c [Hl Hr]. split; [exact Hl|]. exact Hr.
Qed.

Lemma Transpose_ok {T} (m : list (list T)) r c f : 0 < r -> 0 <= c ->
  arr2 m r c f -> wp (Transpose m) (fun m' => arr2 m' c r (fun i j => f j i)).
Proof.
  intros Hr Hc Hm. unfold Transpose. destruct (arr2_row _ _ _ _ 0 Hm) as (r0 & Hr0 & Hr0'); [lia|].
  rewrite Hr0. cbn [bind]. rewrite (arr_len _ _ _ Hr0'), (arr2_len _ _ _ _ Hm).
  apply wp_for_up with (P := fun i t => len t = i /\ forall a, 0 <= a < i ->
     exists row, get t a = Ok row /\ arr row r (fun j => f j a)).
  - lia.
  - split; [reflexivity|lia].
  - intros i t Hi [Hl Ht]. apply wp_bind.
    apply wp_for_up with (P := fun j temp => arr temp j (fun j => f j i)).
    + lia.
    + apply arr_nil.
    + intros j temp Hj H. wget Hm. cbn [wp]. apply arr_snoc; auto.
    + intros temp H. cbn [wp]. split; [rewrite len_app; cbn; lia|].
      intros a Ha. destruct (Z.eq_dec a i) as [->|Hne].
      * exists temp. split; [|exact H]. rewrite get_app_r by lia. replace (i - len t) with 0 by lia. reflexivity.
      * rewrite get_app_l by lia. apply Ht. lia.
  - intros t [Hl Ht]. split; [exact Hl|]. exact Ht.
Qed.

Lemma GetColumn_ok {T} (d : T) (m : list (list T)) r c f j : 0 <= j < c ->
  arr2 m r c f -> wp (GetColumn d m j) (fun col => arr col r (fun i => f i j)).
Proof.
  intros Hj Hm. unfold GetColumn. rewrite (arr2_len _ _ _ _ Hm).
  assert (0 <= r) by (rewrite <- (arr2_len _ _ _ _ Hm); apply len_nonneg).
  apply wp_bind, wp_mkvec; [lia|]. intros c0 Hc0.
  apply wp_for_up with (P := fun i col => arr col r (fun a => if a <? i then f a j else d)).
  - lia.
  - eapply arr_ext; [exact Hc0|]. intros a Ha. cbn beta. zcase; [lia|reflexivity].
  - intros i col Hi H1. wget Hm. wupd H1. intros col' H2. eapply arr_ext; [exact H2|].
    intros a Ha. cbn beta. zcase; subst; try reflexivity; lia.
  - intros col H1. eapply arr_ext; [exact H1|]. intros a Ha. cbn beta. zcase; [reflexivity|lia].
Qed.

Lemma arr2_inj {X} (l l' : list (list X)) r c f : arr2 l r c f -> arr2 l' r c f -> l = l'.
Proof.
  intros [H1 F1] [H2 F2]. apply list_ext. intros k.
  destruct (Nat.lt_ge_cases k (length l)) as [Hk|Hk].
  - assert (E : 0 <= Z.of_nat k < r) by (unfold len in H1; lia).
    destruct (F1 _ E) as (r1 & G1 & A1). destruct (F2 _ E) as (r2 & G2 & A2).
    pose proof (arr_inj _ _ _ _ A1 A2). subst r2.
    unfold get in G1, G2. destruct (Z.ltb_spec (Z.of_nat k) 0); [lia|].
    rewrite Nat2Z.id in G1, G2.
    destruct (nth_error l k), (nth_error l' k); congruence.
  - unfold len in *.
    rewrite (proj2 (nth_error_None l k)) by lia.
    symmetry. apply nth_error_None. lia.
Qed.
