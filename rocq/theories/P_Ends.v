(* Calls that come to an end, whatever the input. *)
From Coq Require Import ZArith List Bool Reals Lra Lia.
From Verif Require Import Base Num Vec Tac Spec M_MathUtils M_Polynomials M_Knots M_XYZ M_Bspline M_NurbsCurve M_Curve2 P_MathUtils P_Span P_Ls4.
Import ListNotations.
Open Scope Z_scope.

Definition ends {X} (m : res X) : Prop := m <> OutOfFuel.

Lemma ends_ok {X} (x : X) : ends (Ok x). Proof. discriminate. Qed.
Lemma ends_throw {X} : @ends X Throw. Proof. discriminate. Qed.
Lemma ends_bind {X Y} (m : res X) (f : X -> res Y) : ends m -> (forall x, m = Ok x -> ends (f x)) -> ends (bind m f).
Proof. unfold ends. intros H1 H2. destruct m as [x|e]; cbn [bind]; [apply H2; reflexivity|]. intros E. injection E as ->. apply H1. reflexivity. Qed.
Lemma ends_get {X} (l : list X) i : ends (get l i).
Proof. unfold get, ends. destruct (i <? 0); [discriminate|]. destruct nth_error; discriminate. Qed.
Lemma ends_upd {X} (l : list X) i x : ends (upd l i x).
Proof. unfold upd, ends. destruct (_ && _); discriminate. Qed.
Lemma ends_mkvec {X} n (x : X) : ends (mkvec n x).
Proof. unfold mkvec, ends. destruct (n <? 0); discriminate. Qed.
Lemma ends_validate b : ends (validate b).
Proof. unfold validate, ends. destruct b; discriminate. Qed.
Lemma ends_pop {X} (l : list X) : ends (pop_back l).
Proof. unfold pop_back, ends. destruct l; discriminate. Qed.
Lemma ends_resize {X} (l : list X) n x : ends (resize l n x).
Proof. unfold resize, ends. destruct (n <? 0); discriminate. Qed.
Lemma ends_div (a b : R) : ends (ndiv a b).
Proof. unfold ends. num. unfold Rdiv_. destruct (Req_EM_T b 0); discriminate. Qed.
Lemma ends_sqrt (a : R) : ends (nsqrt a).
Proof. unfold ends. num. unfold Rsqrt_. destruct (Rlt_dec a 0); discriminate. Qed.
Lemma ends_for {S} lo hi (s : S) body : (forall k s, lo <= k < hi -> ends (body k s)) -> ends (for_up lo hi s body).
Proof.
  intros H. unfold for_up. assert (G : forall n i s, lo <= i -> i + Z.of_nat n <= Z.max lo hi -> ends (iter_up n i body s)).
  { induction n as [|n IH]; intros i s0 Hi Hn; cbn [iter_up]; [apply ends_ok|]. apply ends_bind; [apply H; lia|]. intros s1 _. apply IH; lia. }
  apply G; lia.
Qed.
Lemma ends_forc {S T} lo hi (s : S) (body : Z -> S -> res (ctl S T)) : (forall k s, lo <= k < hi -> ends (body k s)) -> ends (for_upc lo hi s body).
Proof.
  intros H. unfold for_upc. assert (G : forall n i s, lo <= i -> i + Z.of_nat n <= Z.max lo hi -> ends (iter_upc n i body s)).
  { induction n as [|n IH]; intros i s0 Hi Hn; cbn [iter_upc]; [apply ends_ok|]. apply ends_bind; [apply H; lia|]. intros [s1|r] _; [apply IH; lia|apply ends_ok]. }
  apply G; lia.
Qed.
Lemma ends_while {S} (I : S -> Prop) (mu : S -> nat) cond body : (forall s, I s -> ends (cond s)) ->
  (forall s, I s -> cond s = Ok true -> (0 < mu s)%nat /\ ends (body s) /\ okp (body s) (fun s' => I s' /\ (mu s' < mu s)%nat)) ->
  forall fuel s, I s -> (mu s <= fuel)%nat -> ends (while_ fuel cond s body).
Proof.
  intros Hc Hb. induction fuel as [|f IH]; intros s Hs Hm; cbn [while_]; (apply ends_bind; [apply Hc, Hs|]); intros [|] E; try apply ends_ok.
  - destruct (Hb s Hs E) as (P0 & _). lia.
  - destruct (Hb s Hs E) as (_ & E1 & E2). apply ends_bind; [exact E1|]. intros s' Es. destruct (E2 s' Es) as (I' & M'). apply IH; [exact I'|lia].
Qed.

Create HintDb fin.
Global Hint Resolve ends_ok ends_throw ends_get ends_upd ends_mkvec ends_validate ends_pop ends_resize ends_div ends_sqrt : fin.

(* straight-line code *)
Ltac fin := repeat first
  [ progress auto with fin
  | apply ends_bind; [|intros ? _]
  | apply ends_for; intros ? ? _
  | apply ends_forc; intros ? ? _
  | match goal with
    | |- ends (if ?b then _ else _) => destruct b
    | |- ends (let (_, _) := ?x in _) => destruct x
    | |- ends (match ?x with _ => _ end) => destruct x
    end ].

Lemma ends_xyzw_div (a : XYZW R) d : ends (xyzw_div a d).
Proof. unfold xyzw_div. fin. Qed.
Lemma ends_xyzw_Distance (a b : XYZW R) : ends (xyzw_Distance a b).
Proof. unfold xyzw_Distance. fin. Qed.
Lemma ends_ToXYZ (a : XYZW R) b : ends (ToXYZ a b).
Proof. unfold ToXYZ. fin. Qed.
Lemma ends_Length (a : XYZ R) : ends (Length a).
Proof. unfold Length. fin. Qed.
Lemma ends_range (t a b : R) : ends (validate_range t a b).
Proof. unfold validate_range. fin. Qed.
Global Hint Resolve ends_xyzw_div ends_xyzw_Distance ends_ToXYZ ends_Length ends_range : fin.
Lemma ends_domain (U : list R) t : ends (validate_domain U t).
Proof. unfold validate_domain. fin. Qed.
Lemma ends_check (U : list R) t : ends (check_knots U t).
Proof. unfold check_knots. fin. Qed.
Global Hint Resolve ends_domain ends_check : fin.
Lemma ends_mult (U : list R) t : ends (GetKnotMultiplicity U t).
Proof. unfold GetKnotMultiplicity. fin. Qed.
Lemma ends_tolerance (P : list (XYZW R)) : ends (ComputeCurveModifyTolerance P).
Proof. unfold ComputeCurveModifyTolerance. fin. Qed.
Lemma ends_one i p (U : list R) t : ends (OneBasisFunction i p U t).
Proof. unfold OneBasisFunction. fin. Qed.
Global Hint Resolve ends_mult ends_tolerance ends_one : fin.

Lemma get_some (U : list R) i x : get U i = Ok x -> 0 <= i < len U /\ x = val U i.
Proof.
  intros E. unfold get in E. destruct (Z.ltb_spec i 0); [discriminate|]. destruct (nth_error U (Z.to_nat i)) as [y|] eqn:EN; [|discriminate]. injection E as <-.
  assert (Hi : 0 <= i < len U) by (apply nth_error_Some_lt in EN || (assert (nth_error U (Z.to_nat i) <> None) by congruence; apply nth_error_Some in H0; unfold len; lia)).
  split; [exact Hi|]. pose proof (get_val U i Hi) as G. unfold get in G. destruct (Z.ltb_spec i 0); [lia|]. rewrite EN in G. congruence.
Qed.

Lemma ends_span p (U : list R) t : ends (GetKnotSpanIndex p U t).
Proof.
  unfold GetKnotSpanIndex. apply ends_bind; [fin|]. intros [] Ep. assert (Hp : 0 <= p) by (unfold validate in Ep; destruct (Z.leb_spec 0 p); [lia|discriminate]).
  apply ends_bind; [fin|]. intros [] Ec. assert (HS : sorted U).
  { unfold check_knots in Ec. destruct (0 <? len U); [|discriminate]. cbn [validate bind] in Ec. destruct (IsValidKnotVector U) eqn:EV; [|discriminate]. apply IsValidKnotVector_sorted, EV. }
  set (n := len U - p - 2). apply ends_bind; [fin|]. intros un En. apply get_some in En. destruct En as (Rn & ->).
  destruct (IsGreaterThanOrEqual t (val U (n + 1))) eqn:E1; [fin|]. apply ends_bind; [fin|]. intros ud Ed. apply get_some in Ed. destruct Ed as (Rd & ->).
  destruct (IsLessThanOrEqual t (val U p)) eqn:E2; [fin|].
  pose proof (proj1 (ge_false _ _) E1) as B1. pose proof (proj1 (le_false _ _) E2) as B2.
  pose proof (thr_eps_pos t (val U (n + 1))). pose proof (thr_eps_pos t (val U p)).
  apply ends_bind; [|intros [[? ?] ?] _; fin].
  apply ends_while with (mu := fun '(low, high, mid) => Z.to_nat (high - low))
    (I := fun '(low, high, mid) => 0 <= low < high /\ high < len U /\ mid = (low + high) / 2 /\ (val U low <= t < val U high)%R).
  - intros [[low high] mid] _. fin.
  - intros [[low high] mid] (Hlh & Hh & -> & Ht) Ec'.
    assert (Hm : 2 * ((low + high) / 2) <= low + high < 2 * ((low + high) / 2) + 2).
    { pose proof (Z.div_mod (low + high) 2 ltac:(lia)). pose proof (Z.mod_pos_bound (low + high) 2 ltac:(lia)). lia. }
    set (mid := (low + high) / 2) in *. rewrite (get_val U mid) in * by lia. cbn [bind] in *.
    split; [lia|]. split; [fin|]. num. destruct (Rltb_spec t (val U mid)) as [C|C].
    + apply okp_ok. split; [split; [|split; [lia|split; [reflexivity|lra]]]; split; [lia|]|].
      * destruct (Z.eq_dec low mid) as [e|]; [rewrite <- e in C; lra|lia].
      * destruct (Z.eq_dec low mid) as [e|]; [rewrite <- e in C; lra|lia].
    + rewrite (get_val U (mid + 1)) in Ec' by lia. cbn [bind] in Ec'. destruct (Rleb_spec (val U (mid + 1)) t) as [D|D]; [|discriminate].
      assert (mid <> low) by (intros e; assert (high = low + 1) by lia; subst high; rewrite e in D; lra).
      apply okp_ok. split; [split; [lia|split; [lia|split; [reflexivity|lra]]]|lia].
  - split; [|split; [lia|split; [reflexivity|lra]]]. split; [lia|]. destruct (Z_lt_dec p (n + 1)); [lia|]. exfalso. pose proof (HS (n + 1) p ltac:(lia) ltac:(lia) ltac:(lia)). lra.
  - unfold len, n in *. lia.
Qed.
Global Hint Resolve ends_span : fin.

Lemma ends_remove_solve u o t U P s : 0 <= t -> ends (remove_solve (A := R) u o t U P s).
Proof.
  intros Ht. unfold remove_solve. destruct s as [[[[tm i0] j0] ii0] jj0]. apply ends_while with (I := fun _ => True) (mu := fun '(_, i, j, _, _) => Z.to_nat (j - i + 1)); auto.
  - intros [[[[? ?] ?] ?] ?] _. fin.
  - intros [[[[temp i] j] ii] jj] _ E. injection E as E. apply Z.leb_le in E. split; [lia|]. split; [fin|]. do 8 (apply okp_bind, okp_any; intros ?). do 6 (apply okp_bind, okp_any; intros ?). apply okp_ok. split; [exact I|lia].
Qed.

Lemma ends_remove (c : Curve R (XYZW R)) u times : ends (RemoveKnot c u times).
Proof.
  unfold RemoveKnot. repeat (apply ends_bind; [solve [fin]|intros ? _]). apply ends_bind.
  - apply ends_forc. intros t [[[Q temp] f] l] Ht. repeat (apply ends_bind; [solve [fin]|intros ? _]). apply ends_bind; [apply ends_remove_solve; lia|]. intros [[[[tm i] j] ii] jj] _.
    apply ends_bind; [fin|]. intros rf _. destruct (negb rf); [fin|]. apply ends_bind; [|intros [[? ?] ?] _; fin].
    apply ends_while with (I := fun _ => True) (mu := fun '(_, i, j) => Z.to_nat (j - i + 1)); auto.
    + intros [[? ?] ?] _. fin.
    + intros [[Q' i'] j'] _ E. injection E as E. apply Z.ltb_lt in E. split; [lia|]. split; [fin|]. do 4 (apply okp_bind, okp_any; intros ?). apply okp_ok. split; [exact I|lia].
  - intros c' _. fin.
Qed.
Global Hint Resolve ends_remove : fin.
