(* Degree elevation comes to an end, and so does the approximation within an error bound. *)
From Coq Require Import ZArith List Bool Reals Lra Lia.
From Verif Require Import Base Num Vec Tac Spec Spec2 Spec24 M_MathUtils M_Polynomials M_Knots M_XYZ M_Bspline M_NurbsCurve M_Curve2 M_Interp M_Bound
  P_MathUtils P_Span P_Curve P_Interp P_Interp2 P_Insert2 P_VSum P_Ls4 P_Excess P_Ends P_Bound2 P_Bound3.
Import ListNotations.
Open Scope Z_scope.
Local Notation curve := (Curve R (XYZW R)).

Lemma ends_get2 {X} (m : list (list X)) i j : ends (get2 m i j).
Proof. unfold get2. fin. Qed.
Lemma ends_upd2 {X} (m : list (list X)) i j x : ends (upd2 m i j x).
Proof. unfold upd2. fin. Qed.
Global Hint Resolve ends_get2 ends_upd2 : fin.
Lemma ends_Binomial n i : ends (Binomial (A := R) n i).
Proof. unfold Binomial, pascal_table. fin. Qed.
Lemma ends_Distance (a b : XYZ R) : ends (Distance a b).
Proof. unfold Distance. fin. Qed.
Global Hint Resolve ends_Binomial ends_Distance : fin.
Lemma ends_chord (Q : list (XYZ R)) : ends (GetChordParameterization Q).
Proof. unfold GetChordParameterization, parameters. fin. Qed.
Lemma ends_coefs p t : ends (elevate_coefs (A := R) p t).
Proof. unfold elevate_coefs. cbv zeta. fin. Qed.
Global Hint Resolve ends_chord ends_coefs : fin.

Lemma ends_down {S} hi lo (s : S) body : (forall k s, ends (body k s)) -> ends (for_down hi lo s body).
Proof.
  intros H. unfold for_down. assert (G : forall n i s, ends (iter_down n i body s)).
  { induction n as [|n IH]; intros i s0; cbn [iter_down]; [apply ends_ok|]. apply ends_bind; [apply H|]. intros s1 _. apply IH. }
  apply G.
Qed.

Lemma ends_elevate_remove ub ua den bet kind cind lbz ph oldr tr U first last s : 0 <= tr -> ends (elevate_remove (A := R) (T := XYZW R) ub ua den bet kind cind lbz ph oldr tr U first last s).
Proof.
  intros Ht. unfold elevate_remove. apply ends_bind; [|intros [[[[? ?] ?] ?] ?] _; fin].
  apply ends_while with (I := fun _ => True) (mu := fun '(_, _, i, j, _) => Z.to_nat (j - i + 1)); auto.
  - intros [[[[? ?] ?] ?] ?] _. fin.
  - intros [[[[Q e] i] j] kj] _ E. injection E as E. apply Z.ltb_lt in E. split; [lia|]. split; [fin|]. do 2 (apply okp_bind, okp_any; intros ?). apply okp_ok. split; [exact I|lia].
Qed.

Definition next_knot (U : list R) (m b : Z) : res bool := if b <? m then let! x := get U b in let! y := get U (b + 1) in Ok (IsAlmostEqualTo x y) else Ok false.
Lemma knots_end (U : list R) m b0 : ends (while_ (length U) (next_knot U m) b0 (fun b => Ok (b + 1))).
Proof.
  apply ends_while with (I := fun _ => True) (mu := fun b => Z.to_nat (Z.min (len U) (len U - 1 - b))); auto.
  - intros b _. unfold next_knot. fin.
  - intros b _. unfold next_knot. destruct (b <? m); [|discriminate]. destruct (get U b) as [x|] eqn:E1; [|discriminate]. destruct (get U (b + 1)) as [y|] eqn:E2; [|discriminate]. intros _. apply get_some in E1, E2. split; [lia|]. split; [fin|]. apply okp_ok. split; [exact I|lia].
  - unfold len. lia.
Qed.
Lemma knots_stop (U : list R) m : forall f b0, 0 <= b0 -> b0 < m -> okp (while_ f (next_knot U m) b0 (fun b => Ok (b + 1))) (fun b => b0 <= b /\ (b < m -> b + 1 < len U)).
Proof.
  induction f as [|f IH]; intros b0 H0 Hm; cbn [while_].
  - apply okp_bind. intros [|] E; [apply okp_err|]. apply okp_ok. split; [lia|]. intros _. unfold next_knot in E. destruct (Z.ltb_spec b0 m); [|lia]. destruct (get U b0) as [x|]; [|discriminate]. destruct (get U (b0 + 1)) as [y|] eqn:E2; [|discriminate]. apply get_some in E2. lia.
  - apply okp_bind. intros [|] E.
    + cbn [bind]. destruct (Z_lt_dec (b0 + 1) m) as [L|L]; [eapply okp_mono; [apply (IH (b0 + 1)); lia|]; intros b (Hb & Hb2); split; [lia|exact Hb2]|].
      assert (NK : next_knot U m (b0 + 1) = Ok false) by (unfold next_knot; destruct (Z.ltb_spec (b0 + 1) m); [lia|reflexivity]). destruct f; cbn [while_]; rewrite NK; cbn [bind]; apply okp_ok; lia.
    + apply okp_ok. split; [lia|]. intros _. unfold next_knot in E. destruct (Z.ltb_spec b0 m); [|lia]. destruct (get U b0) as [x|]; [|discriminate]. destruct (get U (b0 + 1)) as [y|] eqn:E2; [|discriminate]. apply get_some in E2. lia.
Qed.

Lemma ends_elevate_body p t m bez U P s : ends (elevate_body (A := R) (T := XYZW R) p t m bez U P s).
Proof.
  unfold elevate_body. cbv zeta. apply ends_bind; [apply knots_end|]. intros b _. apply ends_bind; [fin|]. intros ub _. apply ends_bind.
  { destruct (0 <? p - (b - e_b s + 1)); [|fin]. apply ends_bind; [fin|]. intros alfs _. apply ends_bind; [apply ends_down; intros; fin|]. intros alfs' _. apply ends_for. intros k [bp nb] _. apply ends_bind; [apply ends_down; intros; fin|]. intros bp' _. fin. }
  intros [bp nb] _. apply ends_bind; [fin|]. intros e0 _. apply ends_bind; [fin|]. intros e1 _. apply ends_bind.
  { destruct (1 <? e_r s); [|fin]. apply ends_bind; [fin|]. intros uk _. apply ends_bind; [fin|]. intros bet _. apply ends_bind; [|intros [[[? ?] ?] ?] _; fin].
    apply ends_for. intros k [[[Q e] fi] la] Hk. apply ends_bind; [apply ends_elevate_remove; lia|]. intros; fin. }
  intros [Q e2] _. fin.
Qed.

Lemma elevate_next p t m bez U P s : 0 <= e_b s -> e_b s < m -> okp (elevate_body (A := R) (T := XYZW R) p t m bez U P s) (fun s' => e_b s < e_b s' < len U \/ (e_b s <= e_b s' /\ m <= e_b s')).
Proof.
  intros H0 Hm. unfold elevate_body. cbv zeta. apply okp_bind. eapply okp_mono; [apply (knots_stop U m _ _ H0 Hm)|]. intros b (B1 & B2).
  apply okp_bind, okp_any. intros ub. apply okp_bind, okp_any. intros [bp nb]. do 2 (apply okp_bind, okp_any; intros ?). apply okp_bind, okp_any. intros [Q e]. apply okp_bind, okp_any. intros [V kind]. apply okp_bind, okp_any. intros [Q' cind].
  destruct (Z.ltb_spec b m) as [L|L].
  - do 2 (apply okp_bind, okp_any; intros ?). apply okp_ok. cbn [e_b]. left. lia.
  - apply okp_bind, okp_any. intros V'. apply okp_ok. cbn [e_b]. right. lia.
Qed.

Lemma ends_elevate (c : curve) t : ends (ElevateDegree c t).
Proof.
  unfold ElevateDegree. cbv zeta. set (p := Degree c). set (U := KnotVector c). set (m := len (ControlPoints c) - 1 + p + 1).
  apply ends_bind; [fin|]. intros [] _. apply ends_bind; [fin|]. intros bez _. apply ends_bind; [fin|]. intros ua Eu. apply get_some in Eu. destruct Eu as (LU & _). do 5 (apply ends_bind; [fin|intros ? _]).
  apply ends_bind; [fin|]. intros bp Eb. assert (Hp : 0 <= p + 1) by (unfold mkvec in Eb; destruct (Z.ltb_spec (p + 1) 0); [discriminate|assumption]). apply ends_bind; [fin|intros bp' _]. apply ends_bind; [fin|intros nb Enb].
  assert (Hp1 : 0 <= p - 1) by (unfold mkvec in Enb; destruct (Z.ltb_spec (p - 1) 0); [discriminate|assumption]).
  apply ends_bind; [|intros; fin].
  apply ends_while with (I := fun s => 0 <= e_b s) (mu := fun s => if e_b s <? m then Z.to_nat (Z.max 1 (len U - e_b s)) else 0%nat).
  - intros s _. fin.
  - intros s Hs E. injection E as E. rewrite E. apply Z.ltb_lt in E. split; [lia|]. split; [apply ends_elevate_body|]. eapply okp_mono; [apply (elevate_next _ _ _ _ _ _ _ Hs E)|]. intros s' HS. cbv beta in HS. split; [lia|]. destruct (Z.ltb_spec (e_b s') m); lia.
  - cbn [e_b]. lia.
  - cbn [e_b]. destruct (p + 1 <? m); unfold len in *; lia.
Qed.
Global Hint Resolve ends_elevate Given_ends : fin.
Lemma Approximation_ends p (Q : list (XYZ R)) e : ends (GlobalApproximationByErrorBound p Q e).
Proof. unfold GlobalApproximationByErrorBound. fin. Qed.

(* what is returned comes from the polygon of the points, its degree raised *)
Lemma Approximation_shape p (Q : list (XYZ R)) e c' : GlobalApproximationByErrorBound p Q e = Ok c' ->
  2 <= p < len Q /\ exists uk U P c0, GetChordParameterization Q = Ok uk /\ len U = len Q + 2 /\ val U 0 = 0%R /\ val U (len Q + 1) = 1%R /\ (forall i, 0 <= i < len Q -> val U (i + 1) = val uk i) /\
  len P = len Q /\ (forall i, 0 <= i < len Q -> pt P i = hom (pt Q i) 1) /\ ElevateDegree (mkCurve 1 U P) (p - 1) = Ok c0 /\ stripped c0 c'.
Proof.
  unfold GlobalApproximationByErrorBound. destruct (Z.ltb_spec 0 p) as [Hp|]; [|discriminate]. cbn [validate bind]. destruct (Z.ltb_spec p (len Q)) as [Hl|]; [|discriminate]. cbn [bind]. destruct (IsGreaterThan e n0); [|discriminate]. cbn [bind].
  destruct (GetChordParameterization Q) as [uk|] eqn:EU; [|discriminate]. cbn [bind].
  destruct (Chord_returns Q ltac:(lia)) as (uk' & EU' & LU & U0 & U1 & _). rewrite EU in EU'. injection EU' as <-.
  assert (W : exists U P, len U = len Q + 2 /\ val U 0 = 0%R /\ val U (len Q + 1) = 1%R /\ (forall i, 0 <= i < len Q -> val U (i + 1) = val uk i) /\ len P = len Q /\ (forall i, 0 <= i < len Q -> pt P i = hom (pt Q i) 1) /\
    forall er, mkvec (len Q) n0 = Ok er -> 
    (let! errors := mkvec (len Q) n0 in let! controlPoints := mkvec (len Q) xyzw0 in let! knotVector := mkvec (len Q + 2) n0 in
     let! knotVector := for_up 0 (len Q) knotVector (fun i v => let! u := get uk i in upd v (i + 1) u) in
     let! knotVector := upd knotVector 0 n0 in let! knotVector := upd knotVector (len knotVector - 1) n1 in
     let! controlPoints := for_up 0 (len Q) controlPoints (fun i v => let! q := get Q i in upd v i (mkW q n1)) in
     let! newtc := ElevateDegree (mkCurve 1 knotVector controlPoints) (p - 1) in let! r := RemoveKnotsByGivenBound newtc uk errors e in Ok (fst r)) =
    (let! newtc := ElevateDegree (mkCurve 1 U P) (p - 1) in let! r := RemoveKnotsByGivenBound newtc uk er e in Ok (fst r))).
  { unfold mkvec. destruct (Z.ltb_spec (len Q) 0); [lia|]. destruct (Z.ltb_spec (len Q + 2) 0); [lia|]. cbn [bind].
    assert (W1 : wp (let! v := for_up 0 (len Q) (repeat n0 (Z.to_nat (len Q + 2))) (fun i v => let! u := get uk i in upd v (i + 1) u) in let! v := upd v 0 n0 in upd v (len v - 1) n1)
      (fun U => arr U (len Q + 2) (fun i => if i =? len Q + 1 then 1%R else if i =? 0 then 0%R else val uk (i - 1)))).
    { apply wp_bind. apply wp_for_up with (P := fun h v => arr v (len Q + 2) (fun i => if (0 <? i) && (i <? h + 1) then val uk (i - 1) else 0%R)); [lia| | |].
      - eapply arr_ext; [apply (arr_repeat n0 (len Q + 2)); lia|]. intros i Hi. cbv beta. destruct (Z.ltb_spec 0 i), (Z.ltb_spec i (0 + 1)); try lia; reflexivity.
      - intros i v Hi HV. rewrite (get_val uk i) by lia. cbn [bind]. wupd HV. intros v' HV'. eapply arr_ext; [exact HV'|]. intros j Hj. cbv beta. destruct (Z.eqb_spec j (i + 1)) as [->|N].
        + destruct (Z.ltb_spec 0 (i + 1)), (Z.ltb_spec (i + 1) (i + 1 + 1)); try lia. cbn [andb]. f_equal. lia.
        + destruct (Z.ltb_spec 0 j), (Z.ltb_spec j (i + 1)), (Z.ltb_spec j (i + 1 + 1)); try lia; reflexivity.
      - intros v HV. wupd HV. intros v1 HV1. rewrite (arr_len _ _ _ HV1). wupd HV1. intros v2 HV2. eapply arr_ext; [exact HV2|]. intros j Hj. cbv beta. destruct (Z.eqb_spec j (len Q + 2 - 1)), (Z.eqb_spec j (len Q + 1)); try lia; [reflexivity|]. destruct (Z.eqb_spec j 0); [reflexivity|]. destruct (Z.ltb_spec 0 j), (Z.ltb_spec j (len Q + 1)); try lia; reflexivity. }
    destruct (wp_elim _ _ W1) as (U & E1 & A1).
    assert (W2 : wp (for_up 0 (len Q) (repeat xyzw0 (Z.to_nat (len Q))) (fun i v => let! q := get Q i in upd v i (mkW q n1))) (fun P => arr P (len Q) (fun i => mkW (pt Q i) n1))).
    { apply wp_for_up with (P := fun h v => arr v (len Q) (fun i => if i <? h then mkW (pt Q i) n1 else xyzw0)); [lia| | |].
      - eapply arr_ext; [apply (arr_repeat xyzw0 (len Q)); lia|]. intros i Hi. cbv beta. destruct (Z.ltb_spec i 0); [lia|reflexivity].
      - intros i v Hi HV. rewrite (get_at vzero Q i) by lia. cbn [bind]. wupd HV. intros v' HV'. eapply arr_ext; [exact HV'|]. intros j Hj. cbv beta. destruct (Z.eqb_spec j i) as [->|N].
        + destruct (Z.ltb_spec i (i + 1)); [reflexivity|lia].
        + destruct (Z.ltb_spec j i), (Z.ltb_spec j (i + 1)); try lia; reflexivity.
      - intros v HV. eapply arr_ext; [exact HV|]. intros j Hj. cbv beta. destruct (Z.ltb_spec j (len Q)); [reflexivity|lia]. }
    destruct (wp_elim _ _ W2) as (P & E2 & A2). exists U, P. split; [exact (arr_len _ _ _ A1)|]. split; [rewrite (P_Insert2.arr_val _ _ _ 0 A1 ltac:(lia)); destruct (Z.eqb_spec 0 (len Q + 1)); [lia|reflexivity]|].
    split; [rewrite (P_Insert2.arr_val _ _ _ (len Q + 1) A1 ltac:(lia)); rewrite Z.eqb_refl; reflexivity|]. split.
    { intros i Hi. rewrite (P_Insert2.arr_val _ _ _ (i + 1) A1 ltac:(lia)). destruct (Z.eqb_spec (i + 1) (len Q + 1)); [lia|]. destruct (Z.eqb_spec (i + 1) 0); [lia|]. f_equal. lia. }
    split; [exact (arr_len _ _ _ A2)|]. split.
    { intros i Hi. rewrite (arr_pt_eq _ _ _ i A2 ltac:(lia)). unfold mkW, hom. num. f_equal; ring. }
    intros er Eer. injection Eer as <-.
    destruct (for_up 0 (len Q) (repeat n0 _) _) as [v0|]; [|discriminate]. cbn [bind] in E1 |- *. destruct (upd v0 0 n0) as [v1|]; [|discriminate]. cbn [bind] in E1 |- *. rewrite E1. cbn [bind]. rewrite E2. reflexivity. }
  destruct W as (U & P & W1 & W2 & W3 & W4 & W5 & W6 & W7). destruct (mkvec (len Q) n0) as [er|] eqn:Eer; [|discriminate]. rewrite (W7 er eq_refl).
  destruct (ElevateDegree (mkCurve 1 U P) (p - 1)) as [c0|] eqn:EE; [|discriminate]. cbn [bind]. destruct (RemoveKnotsByGivenBound c0 uk er e) as [[c1 e1]|] eqn:EG; [|discriminate]. cbn [bind fst]. intros H. injection H as <-.
  split; [split; [|exact Hl]; unfold ElevateDegree in EE; destruct (Z.ltb_spec 0 (p - 1)); [lia|discriminate]|]. exists uk, U, P, c0. split; [reflexivity|]. do 6 (split; [assumption|]). split; [exact EE|exact (proj1 (Given_shape _ _ _ _ _ _ EG))].
Qed.
