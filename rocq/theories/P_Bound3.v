(* Removing knots within an error bound comes to an end. *)
From Coq Require Import ZArith List Bool Reals Lra Lia.
From Verif Require Import Base Num Vec Tac Spec Spec4 Spec23 Spec24 M_MathUtils M_Polynomials M_Knots M_XYZ M_Bspline M_NurbsCurve M_Curve2 M_Interp M_Bound
  P_MathUtils P_Curve P_Span P_Ls4 P_Excess P_Ends P_Bound2.
Import ListNotations.
Open Scope Z_scope.
Local Notation curve := (Curve R (XYZW R)).

Lemma ends_bound_solve U P u o s : ends (bound_solve (A := R) U P u o s).
Proof.
  unfold bound_solve. destruct s as [[[[tm i0] j0] ii0] jj0]. apply ends_while with (I := fun _ => True) (mu := fun '(_, i, j, _, _) => Z.to_nat (j - i)); auto.
  - intros [[[[? ?] ?] ?] ?] _. fin.
  - intros [[[[temp i] j] ii] jj] _ E. injection E as E. apply Z.ltb_lt in E. split; [lia|]. split; [unfold bound_alpha; fin|]. do 10 (apply okp_bind, okp_any; intros ?). apply okp_ok. split; [exact I|lia].
Qed.
Global Hint Resolve ends_bound_solve : fin.
Lemma ends_bound (c : curve) i : ends (ComputerRemoveKnotErrorBound c i).
Proof. unfold ComputerRemoveKnotErrorBound, bound_alpha, validate_int_range. fin. Qed.
Global Hint Resolve ends_bound : fin.

(* the knots not yet given up *)
Definition open_knots (l : list R) : nat := length (filter (fun x => negb (Reqb x MaxDistance)) l).
Lemma open_le l : (open_knots l <= length l)%nat.
Proof. unfold open_knots. induction l as [|x l IH]; cbn [filter length]; [lia|]. destruct (negb _); cbn [length]; lia. Qed.
Lemma open_close l r b l' : get l r = Ok b -> Reqb b MaxDistance = false -> upd l r MaxDistance = Ok l' -> (open_knots l' < open_knots l)%nat /\ length l' = length l.
Proof.
  unfold open_knots. generalize (MaxDistance (A := R)). intros mx.
  unfold get, upd. destruct (r <? 0); [discriminate|]. destruct (nth_error l (Z.to_nat r)) as [y|] eqn:E; [|discriminate]. intros H Hb. injection H as ->. destruct (_ && _); [|discriminate]. intros H. injection H as <-.
  revert E. generalize (Z.to_nat r). induction l as [|x l IH]; intros [|n] E; cbn [nth_error] in E; try discriminate.
  - injection E as ->. cbn [upd_nat filter]. rewrite Hb. assert (EM : Reqb mx mx = true) by (destruct (Reqb_spec mx mx); [reflexivity|contradiction]). rewrite EM. cbn [negb length]. split; lia.
  - specialize (IH n E). cbn [upd_nat filter]. destruct (negb (Reqb x mx)); cbn [length]; lia.
Qed.

Lemma again_len newtc Br Ms s lo hi : okp (bound_again newtc Br Ms s lo hi) (fun '(Br', _) => len Br' = len Br - 1).
Proof.
  unfold bound_again. apply okp_bind. apply okp_for with (P := fun _ '(B, _, _) => len B = len Br).
  - reflexivity.
  - intros k [[B M'] s'] _ LB. do 2 (apply okp_bind, okp_any; intros ?). destruct (IsLessThan _ _).
    + apply okp_bind, okp_any. intros b. apply okp_bind, okp_updlen. intros _ B' LB'. apply okp_bind, okp_any. intros M2. apply okp_ok. congruence.
    + apply okp_bind, okp_updlen. intros _ B' LB'. apply okp_bind, okp_any. intros M2. apply okp_ok. congruence.
  - intros [[B M'] s'] LB. apply okp_bind. apply okp_for with (P := fun _ '(B, _) => len B = len Br).
    + exact LB.
    + intros k [B1 M1] _ LB1. apply okp_bind, okp_any. intros x. apply okp_bind, okp_updlen. intros _ B' LB'. do 2 (apply okp_bind, okp_any; intros ?). apply okp_ok. congruence.
    + intros [B1 M1] LB1. apply okp_bind. intros B2 EB. apply okp_ok. rewrite LB1 in EB. destruct (Z_lt_dec (len Br - 1) 0) as [N|N].
      * unfold resize in EB. destruct (Z.ltb_spec (len Br - 1) 0); [discriminate|lia].
      * apply (resize_len _ _ _ (proj1 (Z.nlt_ge _ _) N) _ EB).
Qed.

Definition left_over (st : bstate (A := R)) (K : nat) : nat := (length (bCP st) * (K + 1) + open_knots (bBr st) + 1)%nat.

Lemma remove_less p params st temp r lo hi K : (length (bBr st) <= K)%nat ->
  okp (bound_remove p params st temp r lo hi) (fun s => match s with Next st' => (length (bBr st') <= K)%nat /\ (left_over st' K < left_over st K)%nat | Stop _ => True end).
Proof.
  intros HK. unfold bound_remove. apply okp_bind, okp_any. intros ur. apply okp_bind. intros o Eo. apply okp_bind, okp_any. intros e.
  destruct (Z.leb_spec (len (ControlPoints (match o with Some c0 => c0 | None => mkCurve 0 [] [] end))) (p + 1)) as [Hl|Hl]; [apply okp_ok; exact I|].
  do 3 (apply okp_bind, okp_any; intros ?). apply okp_bind, okp_any. intros [Nl Nr]. apply okp_bind, okp_any. intros s. apply okp_bind. eapply okp_mono; [apply again_len|]. intros [Br Ms] LB. apply okp_ok. cbn [bBr bCP].
  destruct o as [c1|]; [|pose proof (RemoveKnot_degree _ _ _ Eo); cbn [Degree ControlPoints] in *; unfold len in Hl; cbn in Hl; lia].
  destruct (RemoveKnot_shape _ ur _ Eo) as (_ & _ & LP). cbn [ControlPoints] in LP. unfold len in LB, LP. split; [lia|]. unfold left_over. cbn [bBr bCP]. pose proof (open_le Br).
  assert (EL : length (bCP st) = S (length (ControlPoints c1))) by lia. rewrite EL. cbn [Nat.mul]. lia.
Qed.

Lemma round_less p n params m st K : (length (bBr st) <= K)%nat ->
  okp (bound_round p n params m st) (fun s => match s with Next st' => (length (bBr st') <= K)%nat /\ (left_over st' K < left_over st K)%nat | Stop _ => True end).
Proof.
  intros HK. unfold bound_round. apply okp_bind, okp_any. intros r. apply okp_bind. intros b Eb. num. destruct (Reqb b MaxDistance) eqn:EM; [apply okp_ok; exact I|].
  do 4 (apply okp_bind, okp_any; intros ?). apply okp_bind, okp_any. intros [rm temp]. destruct rm.
  - eapply okp_mono; [apply (remove_less _ _ _ _ _ _ _ K); exact HK|]. intros [st'|]; auto.
  - apply okp_bind. intros Br EB. destruct (open_close _ _ _ _ Eb EM EB) as (O1 & O2). apply okp_ok. cbn [bBr bCP]. split; [lia|]. unfold left_over. cbn [bBr bCP]. lia.
Qed.

Lemma ends_bound_test p params m st r s lo hi : ends (bound_test (A := R) p params m st r s lo hi).
Proof. unfold bound_test. fin. Qed.
Lemma ends_bound_shift p uk U Nl Nr r sr lo hi : ends (bound_shift (A := R) p uk U Nl Nr r sr lo hi).
Proof. unfold bound_shift. cbv zeta. fin. Qed.
Lemma ends_bound_again newtc Br Ms s lo hi : ends (bound_again (A := R) newtc Br Ms s lo hi).
Proof. unfold bound_again. cbv zeta. fin. Qed.
Lemma ends_bound_least Br i : ends (bound_least (A := R) Br i).
Proof. unfold bound_least. fin. Qed.
Global Hint Resolve ends_bound_test ends_bound_shift ends_bound_again ends_bound_least : fin.
Lemma ends_bound_remove p params st temp r lo hi : ends (bound_remove (A := R) p params st temp r lo hi).
Proof. unfold bound_remove. cbv zeta. fin. Qed.
Global Hint Resolve ends_bound_remove : fin.
Lemma ends_bound_round p n params m st : ends (bound_round (A := R) p n params m st).
Proof. unfold bound_round. fin. Qed.

Lemma start_len c Br Ms : okp (bound_start (A := R) c Br Ms) (fun '(Br', _) => len Br' = len Br).
Proof.
  unfold bound_start. apply okp_for with (P := fun _ '(B, _) => len B = len Br).
  - reflexivity.
  - intros k [B M'] _ LB. do 2 (apply okp_bind, okp_any; intros ?). destruct (IsLessThan _ _).
    + apply okp_bind, okp_any. intros b. apply okp_bind, okp_updlen. intros _ B' LB'. do 2 (apply okp_bind, okp_any; intros ?). apply okp_ok. congruence.
    + apply okp_bind, okp_updlen. intros _ B' LB'. apply okp_bind, okp_any. intros M2. apply okp_ok. congruence.
  - intros [B M'] LB. exact LB.
Qed.

Lemma Given_ends (c : curve) params errors m : ends (RemoveKnotsByGivenBound c params errors m).
Proof.
  unfold RemoveKnotsByGivenBound. do 3 (apply ends_bind; [fin|intros ? _]). apply ends_bind; [fin|]. intros Br EBr. do 4 (apply ends_bind; [fin|intros ? _]).
  apply ends_bind; [unfold bound_start; fin|]. intros [Br' Ms] EBr'. apply ends_bind; [unfold bound_ranges; fin|]. intros [Nl Nr] _.
  assert (L1 : (length Br' <= length (KnotVector c))%nat).
  { pose proof (start_len _ _ _ _ EBr') as L. cbv beta in L. assert (len Br = len (KnotVector c)) by (unfold mkvec in EBr; destruct (_ <? 0); [discriminate|]; injection EBr as <-; unfold len; rewrite repeat_length; lia). unfold len in *. lia. }
  apply ends_bind.
  - apply ends_while with (I := fun s => match s with Next st => (length (bBr st) <= length (KnotVector c))%nat | Stop _ => True end) (mu := fun s => match s with Next st => left_over st (length (KnotVector c)) | Stop _ => 0%nat end).
    + intros s _. fin.
    + intros [st|y0] HI E; [|discriminate]. split; [unfold left_over; lia|]. split; [apply ends_bound_round|]. eapply okp_mono; [apply (round_less _ _ _ _ _ (length (KnotVector c))), HI|]. intros [st'|y] H; [exact H|]. split; [exact I|]. unfold left_over. lia.
    + exact L1.
    + unfold left_over. cbn [bBr bCP]. pose proof (open_le Br'). nia.
  - intros [st|[[u cp] e]] E; [|fin]. exfalso.
    assert (G : forall fuel s0 st', while_ fuel (fun s => Ok (match s with Next _ => true | Stop _ => false end)) s0 (fun s => match s with Next st => bound_round (Degree c) (len (ControlPoints c) - 1) params m st | Stop _ => Ok s end) <> Ok (Next st')).
    { induction fuel as [|f IH]; intros [s0|y] st'; cbn [while_ bind]; try discriminate. destruct (bound_round _ _ _ _ _) as [s1|]; cbn [bind]; [apply IH|discriminate]. }
    exact (G _ _ _ E).
Qed.

Lemma Excessive_never (c : curve) : ends (RemoveExcessiveKnots c).
Proof.
  intros E. destruct (Excessive_ends _ _ E) as (c' & [EI|(u & ER)]).
  - unfold GetInternalKnotMultiplicityMap in EI. destruct (GetKnotMultiplicityMap _) as [|? [|]]; discriminate.
  - exact (ends_remove _ _ _ ER).
Qed.

(* where the removal of repeated knots fails *)
Lemma round_fail2 c e : round c = Err e -> GetInternalKnotMultiplicityMap (KnotVector c) = Err e \/ exists u, repeated_inside (KnotVector c) u /\ RemoveKnot c u 1 = Err e.
Proof.
  unfold round. destruct (GetInternalKnotMultiplicityMap (KnotVector c)) as [m|e'] eqn:Em; cbn [bind]; [|intros E; injection E as <-; left; reflexivity]. intros E. right. revert E. pose proof (GetInternal_any _ _ Em) as M. unfold for_upc.
  assert (G : forall k i, 0 <= i -> i + Z.of_nat k <= len m -> iter_upc k i (fun i _ => let! e := get m i in let '(u, currentMultiplicity) := e in if currentMultiplicity <=? 1 then Ok (Next tt) else let! q := RemoveKnot c u 1 in match q with Some tempResult => Ok (Stop tempResult) | None => Ok (Next tt) end) tt = Err e -> exists u, repeated_inside (KnotVector c) u /\ RemoveKnot c u 1 = Err e).
  { induction k as [|k IH]; intros i Hi Hl; cbn [iter_upc]; [discriminate|]. rewrite (get_at (0%R, 0)) by lia. cbn [bind]. destruct (at_ (0%R, 0) m i) as [u mu] eqn:Eu. assert (HI : In (u, mu) m) by (rewrite <- Eu; apply nth_In; unfold len in Hl; lia). destruct (Z.leb_spec mu 1); cbn [bind]; [apply IH; lia|].
    destruct (RemoveKnot c u 1) as [[c'|]|e'] eqn:ER; cbn [bind]; [discriminate|apply IH; lia|]. intros E. injection E as <-. exists u. split; [|exact ER]. apply M in HI as (_ & -> & I2 & I3). split; [lia|]. split; assumption. }
  apply G; [lia|]. pose proof (len_nonneg m). lia.
Qed.
Lemma rounds_fail : forall fuel c0 c e, trimmed c0 c -> (length (ControlPoints c) + 1 <= fuel)%nat -> rounds fuel (c, true) = Err e ->
  exists c', trimmed c0 c' /\ (GetInternalKnotMultiplicityMap (KnotVector c') = Err e \/ exists u, repeated_inside (KnotVector c') u /\ RemoveKnot c' u 1 = Err e).
Proof.
  induction fuel as [|f IH]; intros c0 c e HT Hf; [lia|]. unfold rounds. cbn [while_ bind]. fold (rounds f). destruct (round c) as [[s|c']|e'] eqn:ER; cbn [bind].
  - unfold rounds. destruct f; cbn [while_ bind]; discriminate.
  - intros E. pose proof (round_post c _ ER) as (u & RU & EU). apply (IH c0 c'); [exact (trimmed_snoc _ _ _ _ HT RU EU)| |exact E]. destruct (RemoveKnot_shape c u _ EU) as (_ & _ & P'). unfold len in P'. lia.
  - intros E. injection E as <-. exists c. split; [exact HT|]. apply round_fail2, ER.
Qed.
Lemma Excessive_fail c e : RemoveExcessiveKnots c = Err e -> exists c', trimmed c c' /\ (GetInternalKnotMultiplicityMap (KnotVector c') = Err e \/ exists u, repeated_inside (KnotVector c') u /\ RemoveKnot c' u 1 = Err e).
Proof. rewrite Excessive_eq. destruct (rounds _ _) as [s|e'] eqn:ER; cbn [bind]; [discriminate|]. intros E. injection E as <-. exact (rounds_fail _ _ _ _ (trimmed_same _) (Nat.le_refl _) ER). Qed.
