(* OneBasisFunction against the Cox-de Boor basis. *)
From Coq Require Import ZArith List Bool Reals Lra Lia.
From Verif Require Import Base Num Vec Tac Spec M_MathUtils M_Polynomials P_MathUtils P_Bern P_Span P_Cox P_Basis P_Curve.
Import ListNotations.
Open Scope Z_scope.

Lemma NB_0 U b i t : (t < b)%R -> NB U b 0 i t = if Rle_dec (U i) t then if Rlt_dec t (U (i + 1)) then 1%R else 0%R else 0%R.
Proof. intros H. unfold NB. cbn. unfold N0. destruct (Rlt_dec t b); [reflexivity|lra]. Qed.

Lemma NB_succ U b p i t : 0 < p ->
  NB U b p i t =
  (sdiv (t - U i) (U (i + p)%Z - U i) * NB U b (p - 1) i t +
   sdiv (U (i + p + 1)%Z - t) (U (i + p + 1)%Z - U (i + 1)%Z) * NB U b (p - 1) (i + 1) t)%R.
Proof. intros Hp. unfold NB, N. apply Nrec_succ. exact Hp. Qed.

(* local support, left-closed intervals *)
Lemma NB_out U b p i t : 0 <= p -> (t < b)%R ->
  (forall a c, i <= a -> a <= c -> c <= i + p + 1 -> (U a <= U c)%R) ->
  (t < U i \/ U (i + p + 1)%Z <= t)%R -> NB U b p i t = 0%R.
Proof.
  intros Hp Ht. revert p Hp i.
  apply (Zrange_ind 0 (fun p => forall i, (forall a c, i <= a -> a <= c -> c <= i + p + 1 -> (U a <= U c)%R) ->
    (t < U i \/ U (i + p + 1)%Z <= t)%R -> NB U b p i t = 0%R)).
  - intros i _ Ho. rewrite NB_0 by exact Ht. replace (i + 0 + 1) with (i + 1) in Ho by lia.
    destruct (Rle_dec (U i) t); [|reflexivity]. destruct (Rlt_dec t (U (i + 1))); [lra|reflexivity].
  - intros p Hp IH i Hs Ho. rewrite NB_succ by lia. replace (p + 1 - 1) with p by lia.
    rewrite (IH i), (IH (i + 1)); [ring| | | |].
    + intros; apply Hs; lia.
    + pose proof (Hs i (i + 1) ltac:(lia) ltac:(lia) ltac:(lia)). replace (i + 1 + p + 1) with (i + (p + 1) + 1) by lia. lra.
    + intros; apply Hs; lia.
    + pose proof (Hs (i + p + 1) (i + (p + 1) + 1) ltac:(lia) ltac:(lia) ltac:(lia)). lra.
Qed.

(* t is not within tolerance of a knot other than t *)
Definition knots_apart (U : list R) (t : R) : Prop :=
  forall i, 0 <= i < len U -> t = val U i \/ (tol t (val U i) < Rabs (t - val U i))%R.
(* no basis value of lower degree is small but not zero *)
Definition values_apart (U : list R) (b : R) (p i : Z) (t : R) : Prop :=
  forall q j, 0 <= q < p -> i <= j <= i + p - q ->
    let v := N (val U) b (Z.to_nat q) j t in v = 0%R \/ (tol v 0 < Rabs v)%R.

Lemma apart_lt U t i : knots_apart U t -> 0 <= i < len U -> IsLessThan t (val U i) = true <-> (t < val U i)%R.
Proof.
  intros H Hi. rewrite lt_iff, <- tol_thr. pose proof (tol_pos t (val U i)). destruct (H i Hi) as [->|C].
  - split; [|lra]. intros. pose proof (tol_pos (val U i) (val U i)). lra.
  - unfold Rabs in C. destruct (Rcase_abs _); split; lra.
Qed.
Lemma apart_ge U t i : knots_apart U t -> 0 <= i < len U -> IsGreaterThanOrEqual t (val U i) = true <-> (val U i <= t)%R.
Proof.
  intros H Hi. rewrite ge_not_lt. pose proof (apart_lt U t i H Hi) as A. destruct (IsLessThan t (val U i)); cbn [negb].
  - split; [discriminate|]. destruct A as [A _]. specialize (A eq_refl). lra.
  - split; [|reflexivity]. intros _. apply Rnot_lt_le. intros C. destruct A as [_ A]. specialize (A C). discriminate.
Qed.
Lemma apart_eq U t i : knots_apart U t -> 0 <= i < len U -> IsAlmostEqualTo t (val U i) = true <-> t = val U i.
Proof.
  intros H Hi. rewrite aeq_iff, <- tol_thr. destruct (H i Hi) as [E|C].
  - split; [intros; exact E|]. intros. rewrite <- E, Rminus_diag_eq, Rabs_R0 by reflexivity. left. apply tol_pos.
  - split; [lra|]. intros E. rewrite <- E in C. rewrite Rminus_diag_eq, Rabs_R0 in C by reflexivity. pose proof (tol_pos t t). lra.
Qed.

Lemma zero_eq v : (v = 0 \/ tol v 0 < Rabs v)%R -> IsAlmostEqualTo v n0 = true <-> v = 0%R.
Proof.
  intros H. rewrite aeq_iff, <- tol_thr. change n0 with 0%R. rewrite Rminus_0_r.
  split; [|intros ->; rewrite Rabs_R0; left; apply tol_pos]. intros. destruct H; [assumption|lra].
Qed.

Lemma bool_eq (b b' : bool) (P : Prop) : (b = true <-> P) -> (b' = true <-> P) -> b = b'.
Proof. destruct b, b'; intuition. Qed.

Lemma OneBasisFunction_ok (U : list R) b p i t :
  0 < p -> 0 <= i -> i + p + 1 < len U -> sorted U ->
  (val U 0 <= t < val U (len U - 1))%R -> (t < b)%R ->
  knots_apart U t -> values_apart U b p i t ->
  (i = 0 -> t = val U 0 -> val U p = val U 0 /\ (val U 0 < val U (p + 1))%R) ->
  OneBasisFunction i p U t = Ok (N (val U) b (Z.to_nat p) i t).
Proof.
  intros Hp Hi Hl Hs Ht Htb Hk Hv Hc.
  assert (W : wp (OneBasisFunction i p U t) (fun v => v = NB (val U) b p i t)).
  2:{ destruct (wp_elim _ _ W) as (v & -> & ->). reflexivity. }
  unfold OneBasisFunction. wval. wval.
  rewrite check_knots_ok by (try apply accepted_in; try assumption; try lia; lra). cbn [bind].
  rewrite !get_val by lia. cbn [bind].
  assert (Hmono : forall q j, 0 <= j -> j + q + 1 < len U -> (forall a c, j <= a -> a <= c -> c <= j + q + 1 -> (val U a <= val U c)%R)).
  { intros q j Hj Hq a c Ha Hac Hcq. apply Hs; lia. }
  destruct (((i =? 0) && IsAlmostEqualTo t (val U 0)) || ((i =? len U - 1 - p - 1) && IsAlmostEqualTo t (val U (len U - 1)))) eqn:E1.
  { apply orb_prop in E1. destruct E1 as [E1|E1]; apply andb_prop in E1; destruct E1 as [E1 E2].
    - apply Z.eqb_eq in E1. apply (apart_eq U t 0 Hk ltac:(lia)) in E2. destruct (Hc E1 E2) as [C1 C2]. cbn [wp].
      (* value 1 at the clamped start *)
      subst i. rewrite (N_on_span (val U) b p p 0 t); [|lia| | |].
      + symmetry. assert (G : forall q, 0 <= q -> q <= p -> NS (val U) p q (p - q) t = 1%R).
        { apply (Zrange_ind 0 (fun q => q <= p -> NS (val U) p q (p - q) t = 1%R)).
          - intros _. rewrite NS_0. destruct (Z.eqb_spec (p - 0) p); [reflexivity|lia].
          - intros q Hq IH Hqp. rewrite NS_succ by lia. rewrite (NS_out _ _ _ (p - (q + 1))) by lia.
            replace (p - (q + 1) + 1) with (p - q) by lia. replace (q + 1 - 1) with q by lia. rewrite IH by lia.
            replace (p - (q + 1) + (q + 1) + 1) with (p + 1) by lia.
            assert (val U (p - q) = val U 0)%R.
            { pose proof (Hs 0 (p - q) ltac:(lia) ltac:(lia) ltac:(lia)). pose proof (Hs (p - q) p ltac:(lia) ltac:(lia) ltac:(lia)). lra. }
            rewrite (sdiv_ok (val U (p + 1) - t)) by lra. rewrite H, E2. field. lra. }
        specialize (G p ltac:(lia) ltac:(lia)). rewrite Z.sub_diag in G. exact G.
      + intros j Hj Hjp. apply Hs; lia.
      + intros j Hj Hjp. apply Hs; lia.
      + left. lra.
    - apply (apart_eq U t (len U - 1) Hk ltac:(lia)) in E2. lra. }
  clear E1. cbn [bind].
  assert (Eo : (if IsLessThan t (val U i) then Ok true else Ok (IsGreaterThanOrEqual t (val U (i + p + 1)))) =
     Ok (if Rlt_dec t (val U i) then true else if Rle_dec (val U (i + p + 1)) t then true else false)).
  { pose proof (apart_lt U t i Hk ltac:(lia)) as A. pose proof (apart_ge U t (i + p + 1) Hk ltac:(lia)) as B.
    destruct (Rlt_dec t (val U i)) as [C|C].
    - destruct A as [_ A]. rewrite (A C). reflexivity.
    - destruct (IsLessThan t (val U i)); [exfalso; apply C, A; reflexivity|]. f_equal.
      destruct (Rle_dec (val U (i + p + 1)) t) as [D|D]; [apply B; exact D|].
      destruct (IsGreaterThanOrEqual t (val U (i + p + 1))); [exfalso; apply D, B; reflexivity|reflexivity]. }
  rewrite Eo. cbn [bind]. clear Eo.
  destruct (Rlt_dec t (val U i)) as [C|C].
  { cbn [wp]. symmetry. apply NB_out; [lia|exact Htb|apply Hmono; lia|left; exact C]. }
  destruct (Rle_dec (val U (i + p + 1)) t) as [D|D].
  { cbn [wp]. symmetry. apply NB_out; [lia|exact Htb|apply Hmono; lia|right; exact D]. }
  apply wp_bind, wp_mkvec; [lia|]. intros N1 HN1. apply wp_bind.
  apply wp_for_up with (P := fun j N => arr N (p + i + 1) (fun j' => if (j' <? j) then NB (val U) b 0 (i + j') t else 0%R)).
  { lia. }
  { eapply arr_ext; [exact HN1|]. intros j Hj. cbv beta. zcase; [lia|reflexivity]. }
  { intros j N Hj HN. rewrite (get_val U (i + j)) by lia. cbn [bind]. rewrite (get_val U (i + j + 1)) by lia. cbn [bind].
    set (v := NB (val U) b 0 (i + j) t).
    assert (Ev : (if IsGreaterThanOrEqual t (val U (i + j)) then Ok (IsLessThan t (val U (i + j + 1))) else Ok false) =
      Ok (if Req_EM_T v 1 then true else false)).
    { unfold v. rewrite NB_0 by exact Htb. pose proof (apart_ge U t (i + j) Hk ltac:(lia)) as A.
      pose proof (apart_lt U t (i + j + 1) Hk ltac:(lia)) as B.
      destruct (Rle_dec (val U (i + j)) t) as [a|a].
      - rewrite (proj2 A a). destruct (Rlt_dec t (val U (i + j + 1))) as [bb|bb].
        + rewrite (proj2 B bb). destruct (Req_EM_T 1 1); [reflexivity|lra].
        + destruct (IsLessThan t (val U (i + j + 1))); [exfalso; apply bb, B; reflexivity|].
          destruct (Req_EM_T 0 1); [lra|reflexivity].
      - destruct (IsGreaterThanOrEqual t (val U (i + j))); [exfalso; apply a, A; reflexivity|].
        destruct (Req_EM_T 0 1); [lra|reflexivity]. }
    rewrite Ev. cbn [bind].
    assert (Hv01 : v = 1%R \/ v = 0%R).
    { unfold v. rewrite NB_0 by exact Htb. destruct (Rle_dec _ _); [|auto]. destruct (Rlt_dec _ _); auto. }
    destruct (Req_EM_T v 1) as [e|e].
    - apply (arr_upd _ _ _ _ _ _ HN); [lia|]. intros N' HN'. eapply arr_ext; [exact HN'|]. intros j' Hj'. cbv beta.
      destruct (Z.eqb_spec j' j) as [->|]; [zcase; [|lia]; symmetry; exact e|]. zcase; try lia; reflexivity.
    - cbn [wp]. eapply arr_ext; [exact HN|]. intros j' Hj'. cbv beta. zcase; try lia; try reflexivity.
      assert (j' = j) as -> by lia. fold v. destruct Hv01; [contradiction|auto]. }
  intros N2 HN2. apply wp_bind.
  apply wp_for_up with (P := fun k N => arrD N (p + i + 1) (fun j' => j' <= p - k + 1) (fun j' => NB (val U) b (k - 1) (i + j') t)).
  { lia. }
  { split; [exact (arr_len _ _ _ HN2)|]. intros j Hj Hd. rewrite (arr_get _ _ _ _ HN2) by lia. f_equal. zcase; [reflexivity|lia]. }
  { intros k N Hk' HN.
    (* non-zero values only on their support *)
    assert (Hsup : forall j, 0 <= j <= p - k + 1 -> NB (val U) b (k - 1) (i + j) t <> 0%R ->
       (val U (i + j) <= t < val U (i + j + k))%R).
    { intros j Hj Hne. split; apply Rnot_lt_le || apply Rnot_le_lt; intros F; apply Hne, NB_out;
        try lia; try exact Htb; try (apply Hmono; lia).
      - left. exact F.
      - right. replace (i + j + (k - 1) + 1) with (i + j + k) by lia. exact F. }
    assert (Hz : forall j, 0 <= j <= p - k + 1 ->
       IsAlmostEqualTo (NB (val U) b (k - 1) (i + j) t) n0 = true <-> NB (val U) b (k - 1) (i + j) t = 0%R).
    { intros j Hj. apply zero_eq. apply Hv; lia. }
    rewrite (arrD_get _ _ _ _ _ HN) by lia. cbn [bind]. 
    rewrite ?get_val by lia. cbn [bind]. apply wp_bind.
    assert (Wsaved : wp (if negb (IsAlmostEqualTo (NB (val U) b (k - 1) (i + 0) t) n0) then
         ndiv (nmul (nsub t (val U i)) (NB (val U) b (k - 1) (i + 0) t)) (nsub (val U (i + k)) (val U i)) else Ok n0)
       (fun s => s = (sdiv (t - val U (i + 0)%Z) (val U (i + 0 + k)%Z - val U (i + 0)%Z) * NB (val U) b (k - 1) (i + 0) t)%R)).
    { pose proof (Hz 0 ltac:(lia)) as Z0. destruct (IsAlmostEqualTo _ n0); cbn [negb].
      - cbn [wp]. rewrite (proj1 Z0 eq_refl). rewrite Rmult_0_r. reflexivity.
      - assert (Hne : NB (val U) b (k - 1) (i + 0) t <> 0%R) by (intros F; apply Z0 in F; discriminate).
        pose proof (Hsup 0 ltac:(lia) Hne) as S0. rewrite !Z.add_0_r in *. numg.
        rewrite Rdiv_ok by lra. cbn [wp]. rewrite sdiv_ok by lra. field. lra. }
    eapply wp_mono; [exact Wsaved|]. clear Wsaved. intros saved ->. apply wp_bind.
    apply wp_for_up with (P := fun j '(N, saved) =>
      arrD N (p + i + 1) (fun j' => j' <= p - k + 1)
        (fun j' => if j' <? j then NB (val U) b k (i + j') t else NB (val U) b (k - 1) (i + j') t) /\
      saved = (sdiv (t - val U (i + j)%Z) (val U (i + j + k)%Z - val U (i + j)%Z) * NB (val U) b (k - 1) (i + j) t)%R).
    - lia.
    - split; [|reflexivity]. eapply arrD_ext; [exact HN|]. intros j Hj Hd. cbv beta in *. split; [lia|]. zcase; [lia|reflexivity].
    - intros j [N3 saved] Hj [HN3 ->].
      rewrite (get_val U (i + j + 1)) by lia. cbn [bind]. rewrite (get_val U (i + j + k + 1)) by lia. cbn [bind].
      assert (G : get N3 (j + 1) = Ok (NB (val U) b (k - 1) (i + (j + 1)) t)).
      { rewrite (arrD_get _ _ _ _ _ HN3) by lia. f_equal. zcase; [lia|reflexivity]. }
      rewrite G. cbn [bind]. clear G.
      pose proof (NB_succ (val U) b k (i + j) t ltac:(lia)) as ES.
      replace (i + j + 1) with (i + (j + 1)) in * by lia. 
      pose proof (Hz (j + 1) ltac:(lia)) as Z1.
      destruct (IsAlmostEqualTo _ n0).
      + rewrite (proj1 Z1 eq_refl) in ES. apply wp_bind.
        apply (arrD_upd _ _ _ _ _ _ _ HN3); [lia|]. intros N4 H4. cbn [wp]. split.
        * eapply arrD_ext; [exact H4|]. intros j' Hj' Hd. cbv beta. split; [auto|].
          destruct (Z.eqb_spec j' j) as [->|].
          -- destruct (Z.ltb_spec j (j + 1)); [|lia]. rewrite ES. ring.
          -- destruct (Z.ltb_spec j' j), (Z.ltb_spec j' (j + 1)); try lia; reflexivity.
        * rewrite (proj1 Z1 eq_refl). rewrite Rmult_0_r. reflexivity.
      + assert (Hne : NB (val U) b (k - 1) (i + (j + 1)) t <> 0%R) by (intros F; apply Z1 in F; discriminate).
        pose proof (Hsup (j + 1) ltac:(lia) Hne) as S1.
        replace (i + (j + 1) + k) with (i + j + k + 1) in * by lia. numg.
        rewrite Rdiv_ok by lra. cbn [bind]. apply wp_bind.
        apply (arrD_upd _ _ _ _ _ _ _ HN3); [lia|]. intros N4 H4. cbn [wp]. split.
        * eapply arrD_ext; [exact H4|]. intros j' Hj' Hd. cbv beta. split; [auto|].
          destruct (Z.eqb_spec j' j) as [->|].
          -- destruct (Z.ltb_spec j (j + 1)); [|lia]. rewrite ES.
             rewrite (sdiv_ok (val U (i + j + k + 1)%Z - t)) by lra. field. lra.
          -- destruct (Z.ltb_spec j' j), (Z.ltb_spec j' (j + 1)); try lia; reflexivity.
        * rewrite (sdiv_ok (t - val U (i + (j + 1))%Z)) by lra. field. lra.
    - intros [N3 saved] [HN3 _]. cbn [wp]. eapply arrD_ext; [exact HN3|]. intros j Hj Hd. cbv beta in *.
      replace (k + 1 - 1) with k by lia. split; [lia|]. zcase; [reflexivity|lia]. }
  intros N3 HN3. rewrite (arrD_get _ _ _ _ _ HN3) by lia. cbn [wp].
  replace (p + 1 - 1) with p by lia. rewrite Z.add_0_r. reflexivity.
Qed.

Lemma OneBasisFunction_end (U : list R) p : 0 < p -> 2 * p + 2 <= len U -> sorted U ->
  OneBasisFunction (len U - p - 2) p U (val U (len U - 1)) = Ok 1%R.
Proof.
  intros Hp Hl Hs. unfold OneBasisFunction. destruct (Z.leb_spec 0 (len U - p - 2)); [|lia]. cbn [validate bind].
  destruct (Z.ltb_spec 0 p); [|lia]. cbn [validate bind].
  pose proof (Hs 0 (len U - 1) ltac:(lia) ltac:(lia) ltac:(lia)).
  rewrite check_knots_ok by (try apply accepted_in; try assumption; try lia; lra). cbn [bind].
  rewrite !get_val by lia. cbn [bind]. rewrite aeq_refl.
  replace (len U - p - 2 =? len U - 1 - p - 1) with true by (symmetry; apply Z.eqb_eq; lia). rewrite orb_true_r. reflexivity.
Qed.

(* outside the support *)
Lemma OneBasisFunction_outside (U : list R) p i t :
  0 < p -> 0 <= i -> i + p + 1 < len U -> sorted U -> (val U 0 <= t <= val U (len U - 1))%R ->
  (tol t (val U 0) < t - val U 0)%R -> (tol t (val U (len U - 1)) < val U (len U - 1) - t)%R ->
  (t + tol t (val U i) < val U i \/ val U (i + p + 1) - tol t (val U (i + p + 1)) <= t)%R ->
  OneBasisFunction i p U t = Ok 0%R.
Proof.
  intros Hp Hi Hl Hs Ht H1 H2 Ho. unfold OneBasisFunction. destruct (Z.leb_spec 0 i); [|lia]. cbn [validate bind].
  destruct (Z.ltb_spec 0 p); [|lia]. cbn [validate bind].
  rewrite check_knots_ok by (try apply accepted_in; try assumption; try lia; lra). cbn [bind].
  rewrite !get_val by lia. cbn [bind].
  assert (E0 : IsAlmostEqualTo t (val U 0) = false).
  { apply aeq_false. rewrite <- tol_thr. unfold Rabs; destruct (Rcase_abs _); lra. }
  assert (E1 : IsAlmostEqualTo t (val U (len U - 1)) = false).
  { apply aeq_false. rewrite <- tol_thr. unfold Rabs; destruct (Rcase_abs _); lra. }
  rewrite E0, E1, !andb_false_r. cbn [orb].
  destruct (IsLessThan t (val U i)) eqn:EL; [reflexivity|]. cbn [bind].
  destruct Ho as [Ho|Ho].
  - assert (IsLessThan t (val U i) = true) by (apply lt_iff; rewrite <- tol_thr; lra). congruence.
  - assert (EG : IsGreaterThanOrEqual t (val U (i + p + 1)) = true) by (apply ge_iff; rewrite <- tol_thr; lra).
    rewrite EG. reflexivity.
Qed.

(* unclamped knots: 1 is returned at the first knot although the value is 0 *)
Lemma OneBasisFunction_unclamped : exists p i U t b, 0 < p /\ 0 <= i /\ i + p + 1 < len U /\ sorted U /\
  (val U 0 <= t < val U (len U - 1))%R /\ (t < b)%R /\ OneBasisFunction i p U t = Ok 1%R /\
  N (val U) b (Z.to_nat p) i t = 0%R.
Proof.
  exists 1, 0, [0; 1; 2; 3]%R, 0%R, 3%R. assert (Hs : sorted [0; 1; 2; 3]%R) by sorted_tac.
  split; [lia|]. split; [lia|]. split; [reflexivity|]. split; [exact Hs|]. split; [change (0 <= 0 < 3)%R; lra|]. split; [lra|]. split.
  - unfold OneBasisFunction. cbn [Z.leb Z.ltb Z.compare validate bind].
    rewrite check_knots_ok; [|reflexivity|exact Hs|apply accepted_in; change (0 <= 0 <= 3)%R; lra]. cbn [bind].
    rewrite !get_val by (unfold len; cbn; lia). cbn [bind]. change (val [0; 1; 2; 3]%R 0) with 0%R. rewrite aeq_refl. reflexivity.
  - change (NB (val [0; 1; 2; 3]%R) 3 1 0 0 = 0%R). rewrite NB_succ by lia. change (1 - 1) with 0.
    rewrite !NB_0 by lra. change (val [0; 1; 2; 3]%R 0) with 0%R. change (val [0; 1; 2; 3]%R (0 + 1)) with 1%R.
    change (val [0; 1; 2; 3]%R (0 + 1 + 1)) with 2%R.
    destruct (Rle_dec 1 0); [lra|]. rewrite (sdiv_ok (0 - 0)) by lra. field.
Qed.

(* the hypotheses are met at t = 7/2 *)
Lemma Uex_apart : knots_apart Uex (7 / 2).
Proof.
  assert (W : forall u, (0 <= u <= 5)%R -> (u <= 3 \/ 4 <= u)%R -> (7 / 2 = u \/ tol (7 / 2) u < Rabs (7 / 2 - u))%R).
  { intros u H C. right. pose proof (tol_le (7 / 2) u 5 ltac:(rewrite Rabs_pos_eq; lra) ltac:(rewrite Rabs_pos_eq; lra)).
    assert (1 / 2 <= Rabs (7 / 2 - u))%R by (unfold Rabs; destruct (Rcase_abs _); lra). lra. }
  intros i Hi. assert (In (val Uex i) Uex).
  { unfold val, at_. apply nth_In. unfold len in Hi. lia. }
  revert H. unfold Uex at 2. cbn [In]. intros H.
  apply W; repeat (destruct H as [H|H]; [rewrite <- H; lra|]); contradiction.
Qed.
