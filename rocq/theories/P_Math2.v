(* Consequences of the MathUtils / Polynomials lemmas in specification form. *)
From Coq Require Import ZArith List Bool Reals Lra Lia.
From Verif Require Import Base Num Vec Tac Spec M_MathUtils M_Polynomials P_MathUtils P_Bern P_Power.
Import ListNotations.
Open Scope Z_scope.

Lemma MatrixMultiply_spec (a b : list (list R)) m n p f g :
  0 < m -> 0 < n -> 0 <= p -> is_mat a m n f -> is_mat b n p g ->
  returns (MatrixMultiply a b)
    (fun c => is_mat c m p (fun i j => rsum 0 n (fun k => f i k * g k j)%R)).
Proof. intros. apply wp_elim. apply MatrixMultiply_ok; assumption. Qed.

Lemma MatrixMultiply_assoc (a b c : list (list R)) m n p q f g h :
  0 < m -> 0 < n -> 0 < p -> 0 <= q -> is_mat a m n f -> is_mat b n p g -> is_mat c p q h ->
  returns (let! ab := MatrixMultiply a b in MatrixMultiply ab c) (fun x =>
  returns (let! bc := MatrixMultiply b c in MatrixMultiply a bc) (fun y => x = y)).
Proof.
  intros Hm Hn Hp Hq Ha Hb Hc.
  apply wp_elim. apply wp_bind. eapply wp_mono; [eapply MatrixMultiply_ok; [| | |exact Ha|exact Hb]; lia|].
  intros ab Hab. eapply wp_mono; [eapply MatrixMultiply_ok; [| | |exact Hab|exact Hc]; lia|].
  intros x Hx. apply wp_elim. apply wp_bind.
  eapply wp_mono; [eapply MatrixMultiply_ok; [| | |exact Hb|exact Hc]; lia|].
  intros bc Hbc. eapply wp_mono; [eapply MatrixMultiply_ok; [| | |exact Ha|exact Hbc]; lia|].
  intros y Hy. eapply arr2_inj; [exact Hx|].
  eapply arr2_ext; [exact Hy|]. intros i j Hi Hj. cbv beta.
  rewrite (rsum_ext 0 n _ (fun k => rsum 0 p (fun l => f i k * g k l * h l j)%R)).
  2:{ intros k Hk. rewrite <- rsum_scal. apply rsum_ext. intros; ring. }
  rewrite rsum_swap. apply rsum_ext. intros l Hl. rewrite <- rsum_scal_r. reflexivity.
Qed.

Lemma MatrixMultiply_id (a : list (list R)) m n f :
  0 < m -> 0 < n -> is_mat a m n f ->
  returns (let! i := MakeDiagonal m in MatrixMultiply i a) (fun x => x = a) /\
  returns (let! i := MakeDiagonal n in MatrixMultiply a i) (fun x => x = a).
Proof.
  intros Hm Hn Ha. split; apply wp_elim, wp_bind.
  - eapply wp_mono; [apply (MakeDiagonal_ok m); lia|]. intros d Hd.
    eapply wp_mono; [eapply MatrixMultiply_ok; [| | |exact Hd|exact Ha]; lia|].
    intros x Hx. eapply arr2_inj; [exact Hx|]. eapply arr2_ext; [exact Ha|].
    intros i j Hi Hj. cbv beta.
    rewrite (rsum_single 0 m i); [|lia|intros k Hk Hne; destruct (Z.eqb_spec i k); [lia|ring]].
    rewrite Z.eqb_refl. ring.
  - eapply wp_mono; [apply (MakeDiagonal_ok n); lia|]. intros d Hd.
    eapply wp_mono; [eapply MatrixMultiply_ok; [| | |exact Ha|exact Hd]; lia|].
    intros x Hx. eapply arr2_inj; [exact Hx|]. eapply arr2_ext; [exact Ha|].
    intros i j Hi Hj. cbv beta.
    rewrite (rsum_single 0 n j); [|lia|intros k Hk Hne; destruct (Z.eqb_spec k j); [lia|ring]].
    rewrite Z.eqb_refl. ring.
Qed.

Lemma Transpose_spec {T} (m : list (list T)) r c f : 0 < r -> 0 <= c -> is_mat m r c f ->
  returns (Transpose m) (fun m' => is_mat m' c r (fun i j => f j i)).
Proof. intros. apply wp_elim. apply Transpose_ok; assumption. Qed.

Lemma Transpose_invol {T} (m : list (list T)) r c f : 0 < r -> 0 < c -> is_mat m r c f ->
  returns (let! t := Transpose m in Transpose t) (fun m' => m' = m).
Proof.
  intros Hr Hc Hm. apply wp_elim, wp_bind. eapply wp_mono; [eapply Transpose_ok; [| |exact Hm]; lia|].
  intros t Ht. eapply wp_mono; [eapply Transpose_ok; [| |exact Ht]; lia|].
  intros m' Hm'. eapply arr2_inj; [exact Hm'|exact Hm].
Qed.

Lemma Transpose_product (a b : list (list R)) m n p f g :
  0 < m -> 0 < n -> 0 < p -> is_mat a m n f -> is_mat b n p g ->
  returns (let! ab := MatrixMultiply a b in Transpose ab) (fun x =>
  returns (let! ta := Transpose a in let! tb := Transpose b in MatrixMultiply tb ta) (fun y => x = y)).
Proof.
  intros Hm Hn Hp Ha Hb. apply wp_elim, wp_bind.
  eapply wp_mono; [eapply MatrixMultiply_ok; [| | |exact Ha|exact Hb]; lia|].
  intros ab Hab. eapply wp_mono; [eapply Transpose_ok; [| |exact Hab]; lia|].
  intros x Hx. apply wp_elim, wp_bind. eapply wp_mono; [eapply Transpose_ok; [| |exact Ha]; lia|].
  intros ta Hta. apply wp_bind. eapply wp_mono; [eapply Transpose_ok; [| |exact Hb]; lia|].
  intros tb Htb. eapply wp_mono; [eapply MatrixMultiply_ok; [| | |exact Htb|exact Hta]; lia|].
  intros y Hy. eapply arr2_inj; [exact Hx|]. eapply arr2_ext; [exact Hy|].
  intros i j Hi Hj. cbv beta. apply rsum_ext. intros; ring.
Qed.

Lemma GetColumn_spec {T} (d : T) (m : list (list T)) r c f j : 0 <= j < c -> is_mat m r c f ->
  returns (GetColumn d m j) (fun col => is_vec col r (fun i => f i j)).
Proof. intros. apply wp_elim. eapply GetColumn_ok; eassumption. Qed.

(* power basis *)
Lemma BezierToPowerMatrix_eval p : 0 <= p ->
  returns (BezierToPowerMatrix (A := R) p) (fun m => exists f, is_mat m (p + 1) (p + 1) f /\
    (forall k t, 0 <= k <= p -> poly (fun j => f j k) p t = bern p k t) /\
    (forall P t, poly (fun j => rsum 0 (p + 1) (fun k => f j k * P k)%R) p t
               = rsum 0 (p + 1) (fun k => bern p k t * P k)%R)).
Proof.
  intros Hp. destruct (wp_elim _ _ (BezierToPowerMatrix_ok p Hp)) as (m & Hm & Am).
  exists m. split; [exact Hm|]. exists (Mbp p). split; [exact Am|]. split.
  - intros k t Hk. apply Mbp_column. exact Hk.
  - intros P t. unfold poly.
    rewrite (rsum_ext 0 (p + 1) _ (fun j => rsum 0 (p + 1) (fun k => Mbp p j k * P k * t ^ Z.to_nat j)%R)).
    2:{ intros j Hj. rewrite <- rsum_scal_r. reflexivity. }
    rewrite rsum_swap. apply rsum_ext. intros k Hk. rewrite <- (Mbp_column p k t) by lia.
    unfold poly. rewrite <- rsum_scal_r. apply rsum_ext. intros; ring.
Qed.

Lemma PowerToBezierMatrix_inverse p : 0 <= p ->
  returns (BezierToPowerMatrix (A := R) p) (fun m =>
  returns (PowerToBezierMatrix p m) (fun m' =>
  returns (MakeDiagonal (p + 1)) (fun id =>
    MatrixMultiply m m' = Ok id /\ MatrixMultiply m' m = Ok id))).
Proof.
  intros Hp. apply wp_elim. eapply wp_mono; [apply (BezierToPowerMatrix_ok p Hp)|]. intros m Hm.
  apply wp_elim. eapply wp_mono; [apply (PowerToBezierMatrix_ok p m Hp Hm)|]. intros m' Hm'.
  apply wp_elim. eapply wp_mono; [apply (MakeDiagonal_ok (p + 1)); lia|]. intros d Hd. split.
  - destruct (wp_elim _ _ (MatrixMultiply_ok m m' (p + 1) (p + 1) (p + 1) _ _
      ltac:(lia) ltac:(lia) ltac:(lia) Hm Hm')) as (x & Hx & Ax). rewrite Hx. f_equal.
    eapply arr2_inj; [exact Ax|]. eapply arr2_ext; [exact Hd|]. intros i j Hi Hj. cbv beta.
    symmetry. apply Mbp_Mpb; lia.
  - destruct (wp_elim _ _ (MatrixMultiply_ok m' m (p + 1) (p + 1) (p + 1) _ _
      ltac:(lia) ltac:(lia) ltac:(lia) Hm' Hm)) as (x & Hx & Ax). rewrite Hx. f_equal.
    eapply arr2_inj; [exact Ax|]. eapply arr2_ext; [exact Hd|]. intros i j Hi Hj. cbv beta.
    symmetry. apply Mpb_Mbp; lia.
Qed.

(* Bernstein *)
Lemma AllBernstein_spec p t : 0 <= p -> (0 <= t <= 1)%R ->
  returns (AllBernstein p t) (fun l => is_vec l (p + 1) (fun i => bern p i t)).
Proof.
  intros Hp Ht. apply wp_elim. apply AllBernstein_ok; [exact Hp|].
  apply range_iff. split; left; lra.
Qed.

Lemma unit_range t : (0 <= t <= 1)%R -> validate_range t 0%R 1%R = Ok tt.
Proof. intros H. apply range_iff. split; left; lra. Qed.

Lemma Bernstein_good p i t : 0 <= i <= p -> i = 0 \/ i = 1 \/ i = p -> (0 <= t <= 1)%R ->
  Bernstein i p t = Ok (bern p i t).
Proof.
  intros Hi Hc Ht. pose proof (unit_range t Ht).
  destruct (Z.eq_dec i 0) as [->|]; [apply Bernstein_ends; auto|].
  destruct (Z.eq_dec i p) as [->|]; [apply Bernstein_ends; auto|].
  assert (i = 1) as -> by lia. rewrite Bernstein_interior by (auto; lia). do 3 f_equal. lia.
Qed.

Lemma Bernstein_inside p i t : 0 < i < p -> (0 <= t <= 1)%R ->
  Bernstein i p t = Ok (bern (p - i + 1) i t).
Proof. intros Hi Ht. apply Bernstein_interior; [exact Hi|apply unit_range; exact Ht]. Qed.

Lemma Horner2_spec p q m f u v : 0 < p -> 0 < q -> is_mat m (p + 1) (q + 1) f ->
  (0 <= u <= 1)%R -> (0 <= v <= 1)%R ->
  Horner2 p q m u v =
  Ok (rsum 0 (p + 1) (fun i => rsum 0 (q + 1) (fun j => f i j * u ^ Z.to_nat i * v ^ Z.to_nat j)%R)).
Proof.
  intros Hp Hq Hm Hu Hv. rewrite (Horner2_ok p q m f) by (auto using unit_range).
  reflexivity.
Qed.

Lemma Factorial_spec n :
  Factorial n = (if n <? 0 then Ok (-1) else if 20 <? n then Throw else Ok (Z.of_nat (fact (Z.to_nat n)))).
Proof.
  destruct (Z.ltb_spec n 0).
  - unfold Factorial. zcase; try lia; reflexivity.
  - destruct (Z.ltb_spec 20 n).
    + unfold Factorial. zcase; try lia. reflexivity.
    + apply Factorial_ok. lia.
Qed.

Lemma Factorial_bound n i : 0 <= i <= n -> n <= 20 ->
  Factorial i = Ok (Z.of_nat (fact (Z.to_nat i))) /\ Z.of_nat (fact (Z.to_nat i)) < 2 ^ 63.
Proof.
  intros Hi Hn. assert (E : Factorial i = Ok (Z.of_nat (fact (Z.to_nat i)))) by (apply Factorial_ok; lia).
  split; [exact E|].
  assert (C : i = 0 \/ i = 1 \/ i = 2 \/ i = 3 \/ i = 4 \/ i = 5 \/ i = 6 \/ i = 7 \/ i = 8 \/ i = 9 \/ i = 10 \/
    i = 11 \/ i = 12 \/ i = 13 \/ i = 14 \/ i = 15 \/ i = 16 \/ i = 17 \/ i = 18 \/ i = 19 \/ i = 20) by lia.
  assert (B : exists v, Factorial i = Ok v /\ v < 2 ^ 63).
  { repeat (destruct C as [->|C]; [eexists; split; [vm_compute; reflexivity|reflexivity]|]).
    subst i. eexists; split; [vm_compute; reflexivity|reflexivity]. }
  destruct B as (v & Hv & Bv). rewrite Hv in E. injection E as <-. exact Bv.
Qed.

Lemma Binomial_fact n k : 0 <= k <= n ->
  Binomial (A := R) n k = Ok (INR (fact (Z.to_nat n)) / (INR (fact (Z.to_nat k)) * INR (fact (Z.to_nat (n - k)))))%R.
Proof.
  intros H. rewrite Binomial_ok by exact H. unfold Cb, Binomial.C. do 6 f_equal. lia.
Qed.

Lemma compare_meaning (tol a b : R) :
  let d := (tol * (1 + Rmax (Rabs a) (Rabs b)))%R in
  (IsAlmostEqualTo_tol a b tol = true <-> (Rabs (a - b) <= d)%R) /\
  (IsLessThan_tol a b tol = true <-> (a + d < b)%R) /\
  (IsGreaterThan_tol a b tol = true <-> (b + d < a)%R).
Proof.
  intros d. rewrite aeq_spec, lt_spec, gt_spec. unfold thr. fold d.
  split; [reflexivity|]. split; split; lra.
Qed.

Lemma compare_nan (tol a b : PrimFloat.float) :
  PrimFloat.is_nan a = true \/ PrimFloat.is_nan b = true ->
  IsAlmostEqualTo_tol a b tol = false /\ IsLessThan_tol a b tol = false /\
  IsGreaterThan_tol a b tol = false /\ IsLessThanOrEqual_tol a b tol = false /\
  IsGreaterThanOrEqual_tol a b tol = false.
Proof.
  intros H. unfold IsAlmostEqualTo_tol, IsLessThan_tol, IsGreaterThan_tol, IsLessThanOrEqual_tol,
    IsGreaterThanOrEqual_tol. cbn [nisnan Num_F].
  destruct H as [-> | ->]; [|rewrite orb_true_r]; cbn [orb]; auto.
Qed.

Lemma compare_example :
  IsLessThan 1%R 2%R = true /\ IsAlmostEqualTo 1%R 1%R = true /\ IsGreaterThan 2%R 1%R = true.
Proof.
  split; [|split; [apply aeq_refl|]]; [apply lt_iff|apply gt_iff]; unfold thr, eps;
  rewrite !Rabs_right by lra; unfold Rmax; destruct (Rle_dec _ _); lra.
Qed.

Lemma mat_example : is_mat [[1; 2; 3]; [4; 5; 6]]%R 2 3 (fun i j => IZR (3 * i + j + 1)).
Proof.
  split; [reflexivity|]. intros i Hi.
  assert (C : i = 0 \/ i = 1) by lia.
  destruct C as [-> | ->]; eexists; (split; [reflexivity|]); (split; [reflexivity|]); intros j Hj;
  assert (C : j = 0 \/ j = 1 \/ j = 2) by lia; destruct C as [-> | [-> | ->]]; reflexivity.
Qed.
