(* Knot vector checks, multiplicity and span search. *)
From Coq Require Import ZArith List Bool Reals Lra Lia.
From Verif Require Import Base Num Vec Tac Spec M_MathUtils M_Polynomials P_MathUtils P_Bern.
Import ListNotations.
Open Scope Z_scope.

Lemma len_cons {X} (x : X) l : len (x :: l) = len l + 1.
Proof. unfold len. cbn [length]. lia. Qed.
Lemma val_0 x l : val (x :: l) 0 = x.
Proof. reflexivity. Qed.
Lemma val_cons x l i : 0 <= i -> val (x :: l) (i + 1) = val l i.
Proof. intros H. unfold val, at_. replace (Z.to_nat (i + 1)) with (S (Z.to_nat i)) by lia. reflexivity. Qed.

Lemma get_val (l : list R) i : 0 <= i < len l -> get l i = Ok (val l i).
Proof. intros H. apply get_at. exact H. Qed.

(* std::is_sorted decides sortedness *)
Lemma IsValidKnotVector_sorted (l : list R) : IsValidKnotVector l = true <-> sorted l.
Proof.
  induction l as [|x l IH].
  - split; [|reflexivity]. intros _ i j Hi Hij Hj. unfold len in Hj. cbn in Hj. lia.
  - destruct l as [|y l].
    + split; [|reflexivity]. intros _ i j Hi Hij Hj. unfold len in Hj. cbn in Hj.
      assert (i = 0) by lia. assert (j = 0) by lia. subst. lra.
    + cbn [IsValidKnotVector]. num. destruct (Rltb_spec y x) as [Hyx|Hyx].
      * split; [discriminate|]. intros Hs. specialize (Hs 0 1). rewrite !len_cons in Hs.
        pose proof (len_nonneg l).
        assert (val (x :: y :: l) 0 <= val (x :: y :: l) 1)%R as C by (apply Hs; lia).
        change (x <= y)%R in C. lra.
      * rewrite IH. split.
        -- intros Hs i j Hi Hij Hj. rewrite len_cons in Hj.
           destruct (Z.eq_dec j 0) as [->|Hj0]; [assert (i = 0) as -> by lia; lra|].
           replace j with ((j - 1) + 1) by lia. rewrite val_cons by lia.
           destruct (Z.eq_dec i 0) as [->|Hi0].
           ++ rewrite val_0. apply Rle_trans with y; [exact Hyx|].
              change y with (val (y :: l) 0) at 1. apply Hs; lia.
           ++ replace i with ((i - 1) + 1) by lia. rewrite val_cons by lia. apply Hs; lia.
        -- intros Hs i j Hi Hij Hj. rewrite <- (val_cons x _ i), <- (val_cons x _ j) by lia.
           apply Hs; [lia|lia|]. rewrite len_cons. lia.
Qed.

(* the parameter check against the first and last knot *)
Definition accepted (U : list R) (t : R) : Prop :=
  validate_range t (val U 0) (val U (len U - 1)) = Ok tt.

Lemma accepted_in U t : (val U 0 <= t <= val U (len U - 1))%R -> accepted U t.
Proof. intros H. apply range_iff. split; left; lra. Qed.

Lemma accepted_le U t : accepted U t ->
  (val U 0 - eps <= t <= val U (len U - 1) + eps)%R.
Proof.
  intros H. apply range_iff in H. destruct H as [H1 H2].
  assert (0 < eps)%R by (unfold eps; lra).
  split.
  - destruct H1 as [H1|H1]; [lra|]. apply Rabs_le_between in H1 || (unfold Rabs in H1; destruct (Rcase_abs _); lra).
  - destruct H2 as [H2|H2]; [lra|]. unfold Rabs in H2; destruct (Rcase_abs _); lra.
Qed.

Lemma check_knots_eq (U : list R) t : 0 < len U -> sorted U ->
  check_knots U t = validate_range t (val U 0) (val U (len U - 1)).
Proof.
  intros Hl Hs. unfold check_knots. destruct (Z.ltb_spec 0 (len U)); [|lia]. cbn [validate bind].
  apply IsValidKnotVector_sorted in Hs. rewrite Hs. cbn [validate bind].
  rewrite !get_val by lia. reflexivity.
Qed.

Lemma check_knots_ok (U : list R) t : 0 < len U -> sorted U -> accepted U t -> check_knots U t = Ok tt.
Proof. intros Hl Hs Ha. rewrite check_knots_eq by assumption. exact Ha. Qed.

Lemma check_knots_bad (U : list R) t : ~ (0 < len U /\ sorted U /\ accepted U t) -> check_knots U t = Throw.
Proof.
  intros H. destruct (Z.ltb_spec 0 (len U)) as [Hl|Hl].
  - destruct (IsValidKnotVector U) eqn:E.
    + apply IsValidKnotVector_sorted in E. rewrite check_knots_eq by assumption.
      destruct (range_cases t (val U 0) (val U (len U - 1))) as [C|C]; [|exact C].
      exfalso. apply H. auto.
    + unfold check_knots. destruct (Z.ltb_spec 0 (len U)); [|lia]. cbn [validate bind]. rewrite E. reflexivity.
  - unfold check_knots. destruct (Z.ltb_spec 0 (len U)); [lia|]. reflexivity.
Qed.

(* ------------------------------------------------------------------ *)
(** * Multiplicity *)

Definition near (t : R) (u : R) : bool := if Rle_dec (Rabs (t - u)) (eps * (1 + Rmax (Rabs t) (Rabs u))) then true else false.

Lemma aeq_near t u : IsAlmostEqualTo t u = near t u.
Proof.
  pose proof (aeq_iff t u) as H. unfold thr in H. unfold near.
  destruct (Rle_dec _ _), (IsAlmostEqualTo t u); intuition discriminate.
Qed.

Lemma firstn_succ_get {X} (l : list X) i x : get l i = Ok x -> 0 <= i ->
  firstn (Z.to_nat (i + 1)) l = firstn (Z.to_nat i) l ++ [x].
Proof.
  intros H Hi. unfold get in H. destruct (Z.ltb_spec i 0); [lia|].
  destruct (nth_error l (Z.to_nat i)) eqn:E; [|discriminate]. injection H as ->.
  replace (Z.to_nat (i + 1)) with (S (Z.to_nat i)) by lia. revert E. generalize (Z.to_nat i). intros k.
  revert l. induction k as [|k IH]; intros [|y l] E; try discriminate.
  - cbn in E. injection E as ->. reflexivity.
  - cbn in E. cbn [firstn app]. f_equal. apply IH. exact E.
Qed.

Lemma GetKnotMultiplicity_ok (U : list R) t : 0 < len U -> sorted U -> accepted U t ->
  GetKnotMultiplicity U t = Ok (len (filter (near t) U)).
Proof.
  intros Hl Hs Ha. unfold GetKnotMultiplicity. rewrite check_knots_ok by assumption. cbn [bind].
  assert (W : wp (for_up 0 (len U) 0 (fun index multi =>
    let! u := get U index in Ok (if IsAlmostEqualTo t u then multi + 1 else multi)))
    (fun r => r = len (filter (near t) U))).
  { apply wp_for_up with (P := fun i m => m = len (filter (near t) (firstn (Z.to_nat i) U))).
    - lia.
    - reflexivity.
    - intros i m Hi ->. rewrite get_val by lia. cbn [bind wp].
      rewrite (firstn_succ_get U i (val U i)) by (try apply get_val; lia).
      rewrite filter_app, len_app. cbn [filter]. rewrite aeq_near.
      destruct (near t (val U i)); unfold len at 3; cbn [length]; lia.
    - intros m ->. unfold len. rewrite Nat2Z.id, firstn_all. reflexivity. }
  destruct (wp_elim _ _ W) as (r & Hr & ->). exact Hr.
Qed.

(* ------------------------------------------------------------------ *)
(** * Span search *)

(* what the span search promises, with U the knots and n+1 the last domain knot *)
Definition span_result (p n : Z) (U : list R) (t : R) (i : Z) : Prop :=
  p <= i <= n /\
  ((IsGreaterThanOrEqual t (val U (n + 1)) = true /\ i = n) \/
   (IsGreaterThanOrEqual t (val U (n + 1)) = false /\ IsLessThanOrEqual t (val U p) = true /\ i = p) \/
   (IsGreaterThanOrEqual t (val U (n + 1)) = false /\ IsLessThanOrEqual t (val U p) = false /\
    (val U i <= t < val U (i + 1))%R)).

Lemma GetKnotSpanIndex_ok p (U : list R) t : 0 <= p -> 2 * p + 2 <= len U -> sorted U -> accepted U t ->
  wp (GetKnotSpanIndex p U t) (span_result p (len U - p - 2) U t).
Proof.
  intros Hp Hl Hs Ha. unfold GetKnotSpanIndex. wval. rewrite check_knots_ok by (try assumption; lia).
  cbn [bind]. set (n := len U - p - 2). rewrite (get_val U (n + 1)) by lia. cbn [bind].
  destruct (IsGreaterThanOrEqual t (val U (n + 1))) eqn:E1.
  { cbn [wp]. split; [lia|]. left. auto. }
  rewrite (get_val U p) by lia. cbn [bind].
  destruct (IsLessThanOrEqual t (val U p)) eqn:E2.
  { cbn [wp]. split; [lia|]. right. left. auto. }
  pose proof (proj1 (ge_false _ _) E1) as B1. pose proof (proj1 (le_false _ _) E2) as B2.
  pose proof (thr_eps_pos t (val U (n + 1))). pose proof (thr_eps_pos t (val U p)).
  apply wp_bind.
  apply wp_while with (mu := fun '(low, high, mid) => Z.to_nat (high - low))
    (I := fun '(low, high, mid) => p <= low < high /\ high <= n + 1 /\ mid = (low + high) / 2 /\
             (val U low <= t < val U high)%R).
  - split; [|split; [lia|split; [reflexivity|lra]]]. split; [lia|].
    destruct (Z_lt_dec p (n + 1)); [lia|]. exfalso. assert (n + 1 = p) by lia. lia.
  - unfold len in *. lia.
  - intros [[low high] mid] (Hlh & Hh & -> & Ht).
    assert (Hm : 2 * ((low + high) / 2) <= low + high < 2 * ((low + high) / 2) + 2).
    { pose proof (Z.div_mod (low + high) 2 ltac:(lia)). pose proof (Z.mod_pos_bound (low + high) 2 ltac:(lia)). lia. }
    set (mid := (low + high) / 2) in *.
    rewrite (get_val U mid) by lia. cbn [bind].
    rewrite (get_val U (mid + 1)) by lia. cbn [bind]. num.
    destruct (Rltb_spec t (val U mid)) as [C|C]; cbn [wp bind].
    + split.
      * split; [|split; [lia|split; [reflexivity|lra]]]. split; [lia|].
        destruct (Z.eq_dec low mid) as [e|]; [rewrite <- e in C; lra|lia].
      * destruct (Z.eq_dec low mid) as [e|]; [rewrite <- e in C; lra|lia].
    + destruct (Rleb_spec (val U (mid + 1)) t) as [D|D]; cbn [wp bind].
      * assert (mid <> low).
        { intros e. assert (high = low + 1) by lia. subst high. rewrite e in D. lra. }
        split; [|lia]. split; [lia|split; [lia|split; [reflexivity|lra]]].
      * split; [lia|]. right. right. auto.
Qed.

(* the while loop's exit: nothing else to do *)
Lemma span_total p (U : list R) t : 0 <= p -> 2 * p + 2 <= len U -> sorted U -> accepted U t ->
  exists i, GetKnotSpanIndex p U t = Ok i /\ span_result p (len U - p - 2) U t i.
Proof. intros. apply wp_elim. apply GetKnotSpanIndex_ok; assumption. Qed.

(* moving away from b keeps a tolerant comparison with b *)
Lemma lt_mono a a' b : (a' <= a)%R -> IsLessThan a b = true -> IsLessThan a' b = true.
Proof.
  rewrite !lt_iff. unfold thr. intros H1 H2. assert (E : (0 < eps < 1)%R) by (unfold eps; lra).
  assert (M : (Rmax (Rabs a') (Rabs b) <= Rmax (Rabs a) (Rabs b) + (a - a'))%R).
  { pose proof (Rmax_l (Rabs a) (Rabs b)). pose proof (Rmax_r (Rabs a) (Rabs b)).
    assert (Rabs a' <= Rabs a + (a - a'))%R.
    { unfold Rabs; destruct (Rcase_abs a), (Rcase_abs a'); lra. }
    apply Rmax_lub; lra. }
  nra.
Qed.
Lemma lt_mono_r a b b' : (b <= b')%R -> IsLessThan a b = true -> IsLessThan a b' = true.
Proof.
  rewrite !lt_iff. unfold thr. intros H1 H2. assert (E : (0 < eps < 1)%R) by (unfold eps; lra).
  assert (M : (Rmax (Rabs a) (Rabs b') <= Rmax (Rabs a) (Rabs b) + (b' - b))%R).
  { pose proof (Rmax_l (Rabs a) (Rabs b)). pose proof (Rmax_r (Rabs a) (Rabs b)).
    assert (Rabs b' <= Rabs b + (b' - b))%R.
    { unfold Rabs; destruct (Rcase_abs b), (Rcase_abs b'); lra. }
    apply Rmax_lub; lra. }
  nra.
Qed.
Lemma lt_strict a b : IsLessThan a b = true -> (a < b)%R.
Proof. rewrite lt_iff. pose proof (thr_eps_pos a b). lra. Qed.

Lemma ge_not_lt a b : IsGreaterThanOrEqual a b = negb (IsLessThan a b).
Proof. apply compare_ge_not_lt. Qed.
Lemma le_not_gt a b : IsLessThanOrEqual a b = negb (IsLessThan b a).
Proof. unfold IsLessThanOrEqual. rewrite compare_le_not_gt, compare_gt_lt. reflexivity. Qed.

(* When the first and last span of the domain are wider than the tolerance, the
   span returned for a parameter of the domain really contains it and is not empty. *)
Lemma span_contains p n (U : list R) t i :
  span_result p n U t i -> (val U p <= t <= val U (n + 1))%R ->
  IsLessThan (val U p) (val U (p + 1)) = true -> IsLessThan (val U n) (val U (n + 1)) = true ->
  (val U i <= t <= val U (i + 1))%R /\ (val U i < val U (i + 1))%R /\
  (t < val U (i + 1) \/ i = n)%R.
Proof.
  intros (Hi & Hc) Ht L1 L2. pose proof (lt_strict _ _ L1). pose proof (lt_strict _ _ L2).
  destruct Hc as [(E & ->)|[(E1 & E2 & ->)|(E1 & E2 & E3)]].
  - split; [|auto]. split; [|lra]. apply Rnot_lt_le. intros C.
    rewrite ge_not_lt, (lt_mono (val U n) t) in E by (try lra; exact L2). discriminate.
  - split; [|split; [lra|]].
    + split; [lra|]. apply Rnot_lt_le. intros C.
      rewrite le_not_gt, (lt_mono_r _ (val U (p + 1)) t) in E2 by (try lra; exact L1). discriminate.
    + left. apply Rnot_le_lt. intros C.
      rewrite le_not_gt, (lt_mono_r _ (val U (p + 1)) t) in E2 by (try lra; exact L1). discriminate.
  - split; [lra|split; lra].
Qed.
