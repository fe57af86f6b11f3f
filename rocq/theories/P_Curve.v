(* From the knot vector of a curve to the local algorithms. *)
From Coq Require Import ZArith List Bool Reals Lra Lia.
From Verif Require Import Base Num Vec Tac Spec M_MathUtils M_Polynomials P_MathUtils P_Bern P_Span P_Cox P_Basis P_Deriv P_Ders P_Ders1.
Import ListNotations.
Open Scope Z_scope.

Lemma tol_thr a b : tol a b = thr eps a b.
Proof. unfold tol, thr, eps. reflexivity. Qed.

Lemma tol_pos a b : (0 < tol a b)%R.
Proof. rewrite tol_thr. apply thr_eps_pos. Qed.

Lemma wide_lt a b : (a + tol a b < b)%R -> IsLessThan a b = true.
Proof. intros H. apply lt_iff. rewrite <- tol_thr. lra. Qed.

Lemma accepted_dom p n U t : curve_knots p n U -> in_domain p n U t -> accepted U t.
Proof.
  intros [Hp Hn Hl Hs _ _] [H1 H2]. apply accepted_in.
  pose proof (Hs 0 p ltac:(lia) ltac:(lia) ltac:(lia)). pose proof (Hs (n + 1) (len U - 1) ltac:(lia) ltac:(lia) ltac:(lia)). lra.
Qed.

Lemma span_of_ok p n U t k : curve_knots p n U -> span_of p n U t k -> span_ok U p k.
Proof.
  intros [Hp Hn Hl Hs _ _] (Hk & Hlt & _ & _). split; try assumption; lia.
Qed.

Lemma find_span p n U t : curve_knots p n U -> in_domain p n U t ->
  exists k, GetKnotSpanIndex p U t = Ok k /\ span_of p n U t k.
Proof.
  intros Hc Hd. pose proof (accepted_dom _ _ _ _ Hc Hd) as Ha. pose proof Hc as [Hp Hn Hl Hs H1 H2].
  destruct (span_total p U t Hp ltac:(lia) Hs Ha) as (k & Hk & Hr).
  replace (len U - p - 2) with n in Hr by lia.
  destruct (span_contains p n U t k Hr Hd (wide_lt _ _ H1) (wide_lt _ _ H2)) as (C1 & C2 & C3).
  exists k. split; [exact Hk|]. destruct Hr as (Hkr & _). split; [exact Hkr|]. split; [exact C2|]. split; [lra|].
  destruct C3 as [C3|C3]; [left; exact C3|]. subst k. destruct Hd as [_ Hd].
  destruct (Rle_lt_or_eq_dec _ _ Hd); [left|right]; auto.
Qed.

(* the span search returns any span of t: it is unique *)
Lemma span_of_unique p n U t k k' : curve_knots p n U -> span_of p n U t k -> span_of p n U t k' -> k = k'.
Proof.
  intros [Hp Hn Hl Hs _ _].
  assert (W : forall a b, span_of p n U t a -> span_of p n U t b -> a < b -> False).
  { intros a b (A1 & A2 & A3 & A4) (B1 & B2 & B3 & B4) Hab.
    pose proof (Hs (a + 1) b ltac:(lia) ltac:(lia) ltac:(lia)). destruct A4 as [A4|[A4 A5]]; [lra|lia]. }
  intros HA HB. destruct (Z_lt_dec k k'); [exfalso; eauto|]. destruct (Z_lt_dec k' k); [exfalso; eauto|]. lia.
Qed.

Lemma find_span_eq p n U t k : curve_knots p n U -> span_of p n U t k -> GetKnotSpanIndex p U t = Ok k.
Proof.
  intros Hc Hk. assert (Hd : in_domain p n U t).
  { destruct Hk as (H1 & H2 & H3 & H4). pose proof Hc as [Hp Hn Hl Hs _ _]. split.
    - pose proof (Hs p k ltac:(lia) ltac:(lia) ltac:(lia)). lra.
    - pose proof (Hs (k + 1) (n + 1) ltac:(lia) ltac:(lia) ltac:(lia)). destruct H4 as [H4|[-> ->]]; lra. }
  destruct (find_span p n U t Hc Hd) as (k' & E & Hk'). rewrite (span_of_unique p n U t k k' Hc Hk Hk'). exact E.
Qed.

Lemma span_of_dom p n U t k : curve_knots p n U -> span_of p n U t k -> in_domain p n U t.
Proof.
  intros Hc (H1 & H2 & H3 & H4). pose proof Hc as [Hp Hn Hl Hs _ _]. split.
  - pose proof (Hs p k ltac:(lia) ltac:(lia) ltac:(lia)). lra.
  - pose proof (Hs (k + 1) (n + 1) ltac:(lia) ltac:(lia) ltac:(lia)). destruct H4 as [H4|[-> ->]]; lra.
Qed.

(* on its span the basis is the span polynomial *)
Lemma NB_span p n U t k q i : curve_knots p n U -> span_of p n U t k -> 0 <= q <= p -> 0 <= i -> i + q + 1 <= n + p + 1 ->
  NB (val U) (val U (n + 1)) q i t = NS (val U) k q i t.
Proof.
  intros Hc Hk Hq Hi Hiq. pose proof Hc as [Hp Hn Hl Hs _ _]. pose proof Hk as (H1 & H2 & H3 & H4).
  apply N_on_span; [lia| | |].
  - intros j Hj Hjk. apply Hs; lia.
  - intros j Hj Hjk. apply Hs; lia.
  - destruct H4 as [H4|[E1 E2]].
    + left. pose proof (Hs (k + 1) (n + 1) ltac:(lia) ltac:(lia) ltac:(lia)). lra.
    + right. subst. lra.
Qed.

(* ---------------- statements for Properties2 ---------------- *)

Lemma getu_arrD {X} (l : list (option X)) n D f i : arrD l n D (fun i => Some (f i)) -> 0 <= i < n -> D i -> getu l i = Ok (f i).
Proof. intros H Hi Hd. apply (getu_D _ _ _ _ _ _ H Hi Hd). reflexivity. Qed.

Lemma BasisFunctions_spec p n U t : curve_knots p n U -> p <= 7 -> in_domain p n U t ->
  returns (let! k := GetKnotSpanIndex p U t in let! l := BasisFunctions k p U t in Ok (k, l))
    (fun '(k, l) => span_of p n U t k /\ len l = 8 /\
       (forall r, 0 <= r <= p -> getu l r = Ok (N (val U) (val U (n + 1)) (Z.to_nat p) (k - p + r) t)) /\
       (forall i, 0 <= i <= n -> i < k - p \/ k < i -> N (val U) (val U (n + 1)) (Z.to_nat p) i t = 0%R)).
Proof.
  intros Hc Hp7 Hd. destruct (find_span p n U t Hc Hd) as (k & E & Hk). rewrite E. cbn [bind].
  pose proof (span_of_ok _ _ _ _ _ Hc Hk) as Hs. pose proof (accepted_dom _ _ _ _ Hc Hd) as Ha.
  destruct (wp_elim _ _ (BasisFunctions_ok U p k t Hs Hp7 Ha)) as (l & El & Hl). rewrite El. cbn [bind].
  eexists. split; [reflexivity|]. pose proof Hc as [Hp Hn Hlen _ _ _]. pose proof Hk as (Hkn & _).
  split; [exact Hk|]. split; [exact (proj1 Hl)|]. split.
  - intros r Hr. rewrite (getu_arrD _ _ _ _ r Hl) by lia. f_equal.
    symmetry. apply (NB_span p n U t k p (k - p + r)); auto; lia.
  - intros i Hi Ho. change (NB (val U) (val U (n + 1)) p i t = 0%R).
    rewrite (NB_span p n U t k p i) by (auto; lia). apply NS_out; lia.
Qed.

(* any non-empty span, any parameter: the polynomial pieces *)
Lemma BasisFunctions_span p n U t k : curve_knots p n U -> p <= 7 -> p <= k <= n ->
  (val U k < val U (k + 1))%R -> (val U 0 <= t <= val U (len U - 1))%R ->
  returns (BasisFunctions k p U t) (fun l => len l = 8 /\
    forall r, 0 <= r <= p -> getu l r = Ok (Nspan (val U) k (Z.to_nat p) (k - p + r) t)).
Proof.
  intros [Hp Hn Hl Hs _ _] Hp7 Hk Hlt Ha. apply accepted_in in Ha.
  assert (So : span_ok U p k) by (split; try assumption; lia).
  destruct (wp_elim _ _ (BasisFunctions_ok U p k t So Hp7 Ha)) as (l & El & Hla). exists l. split; [exact El|].
  split; [exact (proj1 Hla)|]. intros r Hr. rewrite (getu_arrD _ _ _ _ r Hla) by lia. reflexivity.
Qed.

Lemma N_nonneg p n U t i : curve_knots p n U -> in_domain p n U t -> 0 <= i <= n ->
  (0 <= N (val U) (val U (n + 1)) (Z.to_nat p) i t)%R.
Proof.
  intros Hc Hd Hi. destruct (find_span p n U t Hc Hd) as (k & _ & Hk). pose proof Hc as [Hp Hn Hl Hs _ _].
  change (0 <= NB (val U) (val U (n + 1)) p i t)%R. rewrite (NB_span p n U t k p i) by (auto; lia).
  apply NS_nonneg; [lia|apply span_good; eapply span_of_ok; eauto|].
  destruct Hk as (_ & H2 & H3 & H4). split; [lra|]. destruct H4 as [H4|[-> ->]]; lra.
Qed.

Lemma N_sum p n U t : curve_knots p n U -> in_domain p n U t ->
  rsum 0 (n + 1) (fun i => N (val U) (val U (n + 1)) (Z.to_nat p) i t) = 1%R.
Proof.
  intros Hc Hd. destruct (find_span p n U t Hc Hd) as (k & _ & Hk). pose proof Hc as [Hp Hn Hl Hs _ _].
  pose proof Hk as (Hkn & _). pose proof (span_good _ _ _ (span_of_ok _ _ _ _ _ Hc Hk)) as Hg.
  rewrite (rsum_ext _ _ _ (fun i => NS (val U) k p i t)).
  2:{ intros i Hi. apply (NB_span p n U t k p i); auto; lia. }
  rewrite (rsum_split 0 (k - p) (n + 1)) by lia. rewrite (rsum_split (k - p) (k + 1) (n + 1)) by lia.
  rewrite (rsum_zero 0 (k - p)) by (intros; apply NS_out; lia).
  rewrite (rsum_zero (k + 1) (n + 1)) by (intros; apply NS_out; lia).
  rewrite (NS_sum (val U) k p t Hp Hg). ring.
Qed.

Lemma N_support p n U t i : curve_knots p n U -> in_domain p n U t -> 0 <= i <= n ->
  (t < val U i \/ val U (i + p + 1) < t)%R -> N (val U) (val U (n + 1)) (Z.to_nat p) i t = 0%R.
Proof.
  intros Hc Hd Hi Ho. destruct (find_span p n U t Hc Hd) as (k & _ & Hk). pose proof Hc as [Hp Hn Hl Hs _ _].
  change (NB (val U) (val U (n + 1)) p i t = 0%R). rewrite (NB_span p n U t k p i) by (auto; lia).
  apply NS_out; [lia|]. destruct Hk as (H1 & H2 & H3 & H4).
  destruct (Z_lt_dec i (k - p)); [left; lia|]. destruct (Z_lt_dec k i); [right; lia|]. exfalso.
  pose proof (Hs i k ltac:(lia) ltac:(lia) ltac:(lia)). pose proof (Hs (k + 1) (i + p + 1) ltac:(lia) ltac:(lia) ltac:(lia)).
  destruct H4 as [H4|[-> ->]]; lra.
Qed.

Lemma returned_basis p n U t : curve_knots p n U -> p <= 7 -> in_domain p n U t ->
  returns (let! k := GetKnotSpanIndex p U t in BasisFunctions k p U t)
    (fun l => exists f, (forall r, 0 <= r <= p -> getu l r = Ok (f r) /\ (0 <= f r)%R) /\ rsum 0 (p + 1) f = 1%R).
Proof.
  intros Hc Hp7 Hd. destruct (find_span p n U t Hc Hd) as (k & E & Hk). rewrite E. cbn [bind].
  pose proof (span_of_ok _ _ _ _ _ Hc Hk) as Hs. pose proof (accepted_dom _ _ _ _ Hc Hd) as Ha.
  destruct (wp_elim _ _ (BasisFunctions_ok U p k t Hs Hp7 Ha)) as (l & El & Hl). exists l. split; [exact El|].
  pose proof Hc as [Hp Hn Hlen _ _ _]. pose proof Hk as (Hkn & H2 & H3 & H4).
  exists (fun r => NS (val U) k p (k - p + r) t). split.
  - intros r Hr. rewrite (getu_arrD _ _ _ _ r Hl) by lia. split; [reflexivity|].
    apply NS_nonneg; [lia|apply span_good; exact Hs|]. split; [lra|]. destruct H4 as [H4|[-> ->]]; lra.
  - rewrite (rsum_shift (k - p) 0 (p + 1)). replace (0 + (k - p)) with (k - p) by lia. replace (p + 1 + (k - p)) with (k + 1) by lia.
    rewrite <- (NS_sum (val U) k p t Hp (span_good _ _ _ Hs)). apply rsum_ext. intros i Hi. f_equal. lia.
Qed.

Lemma AllBasisFunctions_spec p n U t : curve_knots p n U -> p <= 7 -> in_domain p n U t ->
  returns (let! k := GetKnotSpanIndex p U t in let! m := AllBasisFunctions k p U t in Ok (k, m))
    (fun '(k, m) => span_of p n U t k /\ len m = p + 1 /\
       (forall r q, 0 <= r <= q -> q <= p -> get2 m r q = Ok (N (val U) (val U (n + 1)) (Z.to_nat q) (k - q + r) t)) /\
       (forall j r, 0 <= r < j -> j <= p -> get2 m j r = Ok (val U (k + r + 1) - val U (k + 1 - j + r))%R)).
Proof.
  intros Hc Hp7 Hd. destruct (find_span p n U t Hc Hd) as (k & E & Hk). rewrite E. cbn [bind].
  pose proof (span_of_ok _ _ _ _ _ Hc Hk) as Hs. pose proof (accepted_dom _ _ _ _ Hc Hd) as Ha.
  destruct (wp_elim _ _ (AllBasisFunctions_ok U p k t Hs Hp7 Ha)) as (l & El & Hl). rewrite El. cbn [bind].
  eexists. split; [reflexivity|]. pose proof Hc as [Hp Hn Hlen _ _ _]. pose proof Hk as (Hkn & _).
  split; [exact Hk|]. split; [exact (proj1 Hl)|]. split.
  - intros r q Hr Hq. rewrite (arr2_get _ _ _ _ r q Hl) by lia. f_equal. unfold ndu_fn. zcase; [|lia].
    symmetry. apply (NB_span p n U t k q (k - q + r)); auto; lia.
  - intros j r Hr Hj. rewrite (arr2_get _ _ _ _ j r Hl) by lia. f_equal. unfold ndu_fn. zcase; [lia|]. reflexivity.
Qed.

Lemma GN_is_deriv p n U t k i m : curve_knots p n U -> span_of p n U t k -> 0 <= m <= p ->
  nth_deriv (Z.to_nat m) (Nspan (val U) k (Z.to_nat p) i) (fun x => GN (val U) k p i m x).
Proof.
  intros Hc Hk Hm. apply (NS_nth_deriv (val U) k p i m Hm). apply span_good. eapply span_of_ok; eauto.
Qed.

Lemma Derivatives_spec p n U t d : curve_knots p n U -> p <= 7 -> in_domain p n U t -> 0 <= d <= p ->
  returns (let! k := GetKnotSpanIndex p U t in let! m := BasisFunctionsDerivatives k p d U t in Ok (k, m))
    (fun '(k, ders) => span_of p n U t k /\ len ders = d + 1 /\
       (forall m r, 0 <= m <= d -> 0 <= r <= p -> exists g,
          nth_deriv (Z.to_nat m) (Nspan (val U) k (Z.to_nat p) (k - p + r)) g /\ get2 ders m r = Ok (g t)) /\
       (forall i x, 0 <= i <= n -> (val U k <= x < val U (k + 1))%R ->
          N (val U) (val U (n + 1)) (Z.to_nat p) i x = Nspan (val U) k (Z.to_nat p) i x)).
Proof.
  intros Hc Hp7 Hd Hdd. destruct (find_span p n U t Hc Hd) as (k & E & Hk). rewrite E. cbn [bind].
  pose proof (span_of_ok _ _ _ _ _ Hc Hk) as Hs. pose proof (accepted_dom _ _ _ _ Hc Hd) as Ha.
  destruct (wp_elim _ _ (BasisFunctionsDerivatives_ok U p k d t Hs Hp7 Hdd Ha)) as (l & El & Hl). rewrite El. cbn [bind].
  eexists. split; [reflexivity|]. pose proof Hc as [Hp Hn Hlen _ _ _]. pose proof Hk as (Hkn & Hlt & _).
  split; [exact Hk|]. split; [exact (proj1 Hl)|]. split.
  - intros m r Hm Hr. exists (fun x => GN (val U) k p (k - p + r) m x). split.
    + eapply GN_is_deriv; eauto. lia.
    + rewrite (arr2_get _ _ _ _ m r Hl) by lia. reflexivity.
  - intros i x Hi Hx. apply (NB_span p n U x k p i Hc); [|lia|lia|lia].
    split; [exact Hkn|]. split; [exact Hlt|]. split; [lra|]. left. lra.
Qed.

Lemma Derivatives_reject k p d (U : list R) t : p < d -> BasisFunctionsDerivatives k p d U t = Throw.
Proof.
  intros H. unfold BasisFunctionsDerivatives. destruct (0 <=? k); [|reflexivity]. cbn [validate bind].
  destruct ((0 <=? p) && (p <=? NURBSMaxDegree)); [|reflexivity]. cbn [validate bind].
  destruct (Z.leb_spec d p); [lia|reflexivity].
Qed.

Lemma FirstOrder_spec p n U t : curve_knots p n U -> 1 <= p <= 7 -> in_domain p n U t ->
  returns (let! k := GetKnotSpanIndex p U t in let! m := BasisFunctionsFirstOrderDerivative k p U t in Ok (k, m))
    (fun '(k, ders) => span_of p n U t k /\
       (forall r, 0 <= r <= p -> getu2 ders 0 r = Ok (Nspan (val U) k (Z.to_nat p) (k - p + r) t)) /\
       (forall r, 0 <= r <= p -> exists d, derivable_pt_lim (Nspan (val U) k (Z.to_nat p) (k - p + r)) t d /\
          getu2 ders 1 r = Ok d) /\
       (forall m, 0 <= m <= 1 -> exists full, BasisFunctionsDerivatives k p m U t = Ok full /\
          forall a r, 0 <= a <= m -> 0 <= r <= p -> getu2 ders a r = get2 full a r)).
Proof.
  intros Hc Hp7 Hd. destruct (find_span p n U t Hc Hd) as (k & E & Hk). rewrite E. cbn [bind].
  pose proof (span_of_ok _ _ _ _ _ Hc Hk) as Hs. pose proof (accepted_dom _ _ _ _ Hc Hd) as Ha.
  destruct (wp_elim _ _ (BasisFunctionsFirstOrderDerivative_ok U p k t Hs Hp7 Ha)) as (l & El & Hl). rewrite El. cbn [bind].
  eexists. split; [reflexivity|]. pose proof Hc as [Hp Hn Hlen _ _ _]. pose proof Hk as (Hkn & Hlt & _).
  split; [exact Hk|]. split; [|split].
  - intros r Hr. rewrite (getu2_D _ _ _ _ _ 0 r _ Hl) by (try lia; reflexivity). rewrite GN_0. reflexivity.
  - intros r Hr. exists (GN (val U) k p (k - p + r) 1 t). split.
    + eapply der_ext; [intros x; apply (GN_0 (val U) k p (k - p + r) x)|].
      apply der_GN; [lia|apply span_good; exact Hs].
    + rewrite (getu2_D _ _ _ _ _ 1 r _ Hl) by (try lia; reflexivity). reflexivity.
  - intros m Hm. destruct (wp_elim _ _ (BasisFunctionsDerivatives_ok U p k m t Hs ltac:(lia) ltac:(lia) Ha)) as (full & Ef & Hf).
    exists full. split; [exact Ef|]. intros a r Ha' Hr. rewrite (getu2_D _ _ _ _ _ a r _ Hl) by (try lia; reflexivity).
    rewrite (arr2_get _ _ _ _ a r Hf) by lia. reflexivity.
Qed.

(* ---------------- span search and multiplicity ---------------- *)

Lemma GetKnotSpanIndex_spec p U t : 0 <= p -> 2 * p + 2 <= len U -> sorted U ->
  (val U 0 <= t <= val U (len U - 1))%R ->
  returns (GetKnotSpanIndex p U t) (fun i =>
    p <= i <= len U - p - 2 /\
    ((t < val U p - tol t (val U p))%R -> i = p) /\
    ((val U (len U - p - 1) + tol t (val U (len U - p - 1)) < t)%R -> i = len U - p - 2) /\
    ((val U p + tol t (val U p) < t)%R -> (t + tol t (val U (len U - p - 1)) < val U (len U - p - 1))%R ->
        (val U i <= t < val U (i + 1))%R)).
Proof.
  intros Hp Hl Hs Ha. apply accepted_in in Ha. destruct (span_total p U t Hp Hl Hs Ha) as (i & E & Hi & Hc).
  exists i. split; [exact E|]. split; [exact Hi|].
  replace (len U - p - 2 + 1) with (len U - p - 1) in Hc by lia.
  rewrite (tol_thr t (val U p)), (tol_thr t (val U (len U - p - 1))).
  rewrite ge_iff, ge_false, le_iff, le_false in Hc.
  pose proof (thr_eps_pos t (val U p)). pose proof (thr_eps_pos t (val U (len U - p - 1))).
  pose proof (Hs p (len U - p - 1) ltac:(lia) ltac:(lia) ltac:(lia)).
  split; [|split].
  - intros C. destruct Hc as [(C1 & ->)|[(C1 & C2 & ->)|(C1 & C2 & C3)]]; [|reflexivity|exfalso; lra].
    exfalso.
    assert (L : IsLessThan t (val U p) = true) by (apply lt_iff; lra).
    apply (lt_mono_r t (val U p) (val U (len U - p - 1))) in L; [|lra]. apply lt_iff in L. lra.
  - intros C. destruct Hc as [(C1 & ->)|[(C1 & C2 & ->)|(C1 & C2 & C3)]]; [reflexivity|exfalso; lra|exfalso; lra].
  - intros C D. destruct Hc as [(C1 & ->)|[(C1 & C2 & ->)|(C1 & C2 & C3)]]; [lra|lra|lra].
Qed.

Lemma GetKnotSpanIndex_domain p n U t : curve_knots p n U -> in_domain p n U t ->
  returns (GetKnotSpanIndex p U t) (span_of p n U t).
Proof. intros Hc Hd. destruct (find_span p n U t Hc Hd) as (k & E & Hk). exists k. auto. Qed.

Lemma GetKnotMultiplicity_spec U t : 0 < len U -> sorted U -> (val U 0 <= t <= val U (len U - 1))%R ->
  GetKnotMultiplicity U t = Ok (len (filter (fun u => if Rle_dec (Rabs (t - u)) (tol t u) then true else false) U)).
Proof.
  intros Hl Hs Ha. rewrite GetKnotMultiplicity_ok by (try apply accepted_in; assumption). do 2 f_equal.
Qed.

Lemma GetKnotMultiplicity_exact U t : 0 < len U -> sorted U -> (val U 0 <= t <= val U (len U - 1))%R ->
  (forall u, In u U -> (Rabs (t - u) <= tol t u)%R -> u = t) ->
  GetKnotMultiplicity U t = Ok (Z.of_nat (count_occ Req_EM_T U t)).
Proof.
  intros Hl Hs Ha Hsep. rewrite GetKnotMultiplicity_spec by assumption. f_equal. clear Hl Hs Ha.
  unfold len. f_equal. induction U as [|u U IH]; [reflexivity|]. cbn [filter count_occ].
  specialize (IH (fun v Hv => Hsep v (or_intror Hv))).
  destruct (Rle_dec (Rabs (t - u)) (tol t u)) as [C|C]; destruct (Req_EM_T u t) as [D|D].
  - cbn [length]. f_equal. exact IH.
  - exfalso. apply D. apply Hsep; [left; reflexivity|exact C].
  - exfalso. apply C. subst u. rewrite Rminus_diag_eq, Rabs_R0 by reflexivity. left. apply tol_pos.
  - exact IH.
Qed.

Lemma reject_all p U t : ~ (0 < len U /\ sorted U /\ accepted U t) ->
  GetKnotMultiplicity U t = Throw /\ GetKnotSpanIndex p U t = Throw.
Proof.
  intros H. apply check_knots_bad in H. split.
  - unfold GetKnotMultiplicity. rewrite H. reflexivity.
  - unfold GetKnotSpanIndex. destruct (0 <=? p); [|reflexivity]. cbn [validate bind]. rewrite H. reflexivity.
Qed.

(* ---------------- concrete knots used in the examples ---------------- *)

Ltac zidx H := let i := fresh "i" in let j := fresh "j" in intros i j H; intros.

Definition Uex : list R := [0; 0; 0; 1; 2; 3; 4; 4; 5; 5; 5]%R.

Lemma sorted_cons x y l : (x <= y)%R -> sorted (y :: l) -> sorted (x :: y :: l).
Proof.
  intros Hxy Hs. apply IsValidKnotVector_sorted. cbn [IsValidKnotVector]. num.
  destruct (Rltb_spec y x); [lra|]. apply (proj2 (IsValidKnotVector_sorted (y :: l))). exact Hs.
Qed.
Lemma sorted_one x : sorted [x].
Proof. apply IsValidKnotVector_sorted. reflexivity. Qed.

Ltac sorted_tac := repeat (apply sorted_cons; [lra|]); apply sorted_one.

Lemma tol_le a b c : (Rabs a <= c)%R -> (Rabs b <= c)%R -> (tol a b <= 1 / 1000000 * (1 + c))%R.
Proof. intros H1 H2. unfold tol. pose proof (Rmax_lub _ _ _ H1 H2). lra. Qed.

Lemma Uex_ok : curve_knots 2 7 Uex.
Proof.
  split; try (unfold Uex, len; cbn; lia).
  - unfold Uex. sorted_tac.
  - change (val Uex 2) with 0%R. change (val Uex (2 + 1)) with 1%R.
    pose proof (tol_le 0 1 1 ltac:(rewrite Rabs_R0; lra) ltac:(rewrite Rabs_R1; lra)). lra.
  - change (val Uex 7) with 4%R. change (val Uex (7 + 1)) with 5%R.
    pose proof (tol_le 4 5 5 ltac:(rewrite Rabs_pos_eq; lra) ltac:(rewrite Rabs_pos_eq; lra)). lra.
Qed.

Lemma Uex_dom : in_domain 2 7 Uex (7 / 2) /\ in_domain 2 7 Uex 0 /\ in_domain 2 7 Uex 5.
Proof.
  unfold in_domain. change (val Uex 2) with 0%R. change (val Uex (7 + 1)) with 5%R. lra.
Qed.

(* the tolerance shortcut: last span narrower than the tolerance *)
Lemma span_narrow : exists p n U t i, 0 <= p <= n /\ len U = n + p + 2 /\ sorted U /\ in_domain p n U t /\
  (val U n < val U (n + 1))%R /\ GetKnotSpanIndex p U t = Ok i /\ (t < val U i)%R.
Proof.
  set (U := [0; 0; 1; 1 + 1 / 10000000; 1 + 1 / 10000000]%R).
  assert (Hs : sorted U) by (unfold U; sorted_tac).
  exists 1, 2, U, (1 - 1 / 10000000)%R, 2.
  assert (Hd : in_domain 1 2 U (1 - 1 / 10000000)).
  { unfold in_domain. change (val U 1) with 0%R. change (val U (2 + 1)) with (1 + 1 / 10000000)%R. lra. }
  split; [lia|]. split; [reflexivity|]. split; [exact Hs|]. split; [exact Hd|].
  split; [change (1 < 1 + 1 / 10000000)%R; lra|]. split; [|change (1 - 1 / 10000000 < 1)%R; lra].
  assert (Ha : accepted U (1 - 1 / 10000000)).
  { apply accepted_in. change (0 <= 1 - 1 / 10000000 <= 1 + 1 / 10000000)%R. lra. }
  destruct (span_total 1 U (1 - 1 / 10000000) ltac:(lia) ltac:(unfold U, len; cbn; lia) Hs Ha) as (i & E & Hi & Hc).
  change (len U - 1 - 2) with 2 in Hc. change (val U (2 + 1)) with (1 + 1 / 10000000)%R in Hc.
  rewrite E. f_equal. destruct Hc as [(_ & ->)|[(C & _)|(C & _)]]; [reflexivity| |];
    apply ge_false in C; unfold thr in C; unfold eps in C;
    pose proof (Rmax_r (Rabs (1 - 1 / 10000000)) (Rabs (1 + 1 / 10000000)));
    rewrite (Rabs_pos_eq (1 + 1 / 10000000)) in * by lra; lra.
Qed.

Lemma span_short : exists p U t, 0 <= p /\ 0 < len U /\ sorted U /\ (val U 0 <= t <= val U (len U - 1))%R /\
  GetKnotSpanIndex p U t = UB.
Proof.
  exists 3, [0; 1]%R, 0%R. assert (Hs : sorted [0; 1]%R) by sorted_tac.
  assert (Hd : (val [0; 1]%R 0 <= 0 <= val [0; 1]%R (len [0; 1]%R - 1))%R) by (change (0 <= 0 <= 1)%R; lra).
  split; [lia|]. split; [reflexivity|]. split; [exact Hs|]. split; [exact Hd|].
  unfold GetKnotSpanIndex. cbn [Z.leb Z.compare validate bind].
  rewrite check_knots_ok; [|reflexivity|exact Hs|apply accepted_in; exact Hd]. reflexivity.
Qed.

Lemma Uex_sep : forall u, In u Uex -> (Rabs (4 - u) <= tol 4 u)%R -> u = 4%R.
Proof.
  assert (W : forall u, (0 <= u <= 5)%R -> (u = 4 \/ u <= 3 \/ 5 <= u)%R -> (Rabs (4 - u) <= tol 4 u)%R -> u = 4%R).
  { intros u H [C|C] T; [exact C|]. exfalso.
    pose proof (tol_le 4 u 5 ltac:(rewrite Rabs_pos_eq; lra) ltac:(rewrite Rabs_pos_eq; lra)) as B.
    assert (1 <= Rabs (4 - u))%R by (unfold Rabs; destruct (Rcase_abs _); lra). lra. }
  unfold Uex. cbn [In]. intros u H. repeat (destruct H as [<-|H]; [apply W; lra|]). contradiction.
Qed.
