(* Removing knots within an error bound. *)
From Coq Require Import ZArith List Bool Reals Lra Lia.
From Verif Require Import Base Num Vec Tac Spec Spec4 Spec24 M_MathUtils M_Polynomials M_Knots M_XYZ M_Bspline M_NurbsCurve M_Curve2 M_Interp M_Bound
  P_MathUtils P_Curve P_Span P_Ls4 P_Excess P_Ends.
Import ListNotations.
Open Scope Z_scope.
Local Notation curve := (Curve R (XYZW R)).

Lemma stripped_snoc a c u c' : stripped a c -> In u (KnotVector c) -> RemoveKnot c u 1 = Ok (Some c') -> stripped a c'.
Proof. intros H. revert c'. induction H as [c|c v c1 c2 Hv E H IH]; intros c' Hu E'; [eapply stripped_step; [exact Hu|exact E'|constructor]|]. eapply stripped_step; [exact Hv|exact E|]. apply IH; assumption. Qed.

Lemma within_iff e m : IsGreaterThan e m = false <-> within e m.
Proof.
  unfold within. rewrite tol_thr. destruct (IsGreaterThan e m) eqn:E.
  - apply gt_iff in E. split; [discriminate|lra].
  - split; [|reflexivity]. intros _. destruct (Rle_dec e (m + thr eps e m)); [assumption|]. assert (IsGreaterThan e m = true) by (apply gt_iff; lra). congruence.
Qed.

Lemma get_in {X} (l : list X) i x : get l i = Ok x -> In x l.
Proof. unfold get. destruct (i <? 0); [discriminate|]. destruct (nth_error l (Z.to_nat i)) eqn:E; [|discriminate]. intros H. injection H as <-. exact (nth_error_In _ _ E). Qed.

Lemma resize_len {X} (l : list X) n x : 0 <= n -> okp (resize l n x) (fun l' => len l' = n).
Proof.
  intros Hn l'. unfold resize. destruct (Z.ltb_spec n 0); [lia|]. intros E. injection E as <-. unfold len. rewrite app_length, firstn_length, repeat_length. lia.
Qed.

Lemma RemoveKnot_degree (c : curve) u : okp (RemoveKnot c u 1) (fun _ => 0 <= Degree c).
Proof.
  unfold RemoveKnot. do 4 (apply okp_bind, okp_any; intros ?). apply okp_bind. intros r E. apply okp_any. intros _. unfold GetKnotSpanIndex in E. destruct (Z.leb_spec 0 (Degree c)); [assumption|discriminate].
Qed.

Section Given.
Variables (c : curve) (params errors : list R) (maxError : R).
Let p := Degree c.
Hypothesis Lpe : len params = len errors.

(* the errors so far *)
Definition errs_ok (l : list R) : Prop := len l = len errors /\ forall i, 0 <= i < len errors -> val l i = val errors i \/ within (val l i) maxError.
Definition good_curve (u : list R) (cp : list (XYZW R)) : Prop := stripped c (mkCurve p u cp) /\ (mkCurve p u cp = c \/ p + 1 < len cp).
Definition good_state (s : ctl (bstate (A := R)) (list R * list (XYZW R) * list R)) : Prop :=
  match s with
  | Next st => good_curve (bU st) (bCP st) /\ errs_ok (bErr st) /\ len (bTemp st) = len errors
  | Stop (u, cp, e) => good_curve u cp /\ errs_ok e
  end.

Lemma test_shape st r s lo hi : len (bTemp st) = len errors -> okp (bound_test p params maxError st r s lo hi) (fun '(b, temp) => len temp = len errors /\ (b = true -> forall i, 0 <= i -> lo <= i <= hi -> within (val temp i) maxError)).
Proof.
  intros LT. unfold bound_test. apply okp_bind. unfold for_upc.
  eapply okp_mono; [apply (okp_iterc (fun k (t : list R) => len t = len errors /\ forall i, 0 <= i -> lo <= i < k -> within (val t i) maxError) (fun t => len t = len errors))|].
  - split; [exact LT|]. intros; lia.
  - intros k t Hk (L & W). apply okp_bind, okp_any. intros u. apply okp_bind, okp_any. intros b. apply okp_bind, okp_any. intros e. apply okp_bind, okp_any. intros e0. apply okp_bind.
    pose proof (P_Bern.arr_val t) as AT. rewrite L in AT. apply (okp_upd _ _ _ _ _ _ AT). intros Hr t' AT'. destruct (IsGreaterThan _ maxError) eqn:EG; apply okp_ok; [exact (arr_len _ _ _ AT')|]. split; [exact (arr_len _ _ _ AT')|].
    intros i Hi0 Hi. destruct (Z.eq_dec i k) as [->|Ne].
    + rewrite (P_Insert2.arr_val _ _ _ k AT') by lia. cbv beta. rewrite Z.eqb_refl. apply within_iff, EG.
    + rewrite (P_Insert2.arr_val _ _ _ i AT') by lia. cbv beta. rewrite (proj2 (Z.eqb_neq i k)) by lia. apply W; lia.
  - intros [t|t] H; apply okp_ok.
    + destruct H as (L & W). split; [exact L|]. intros _ i Hi0 Hi. apply W; lia.
    + split; [exact H|discriminate].
Qed.

Lemma copy_shape l temp lo hi : errs_ok l -> len temp = len errors -> (forall i, 0 <= i -> lo <= i <= hi -> within (val temp i) maxError) ->
  okp (for_up lo (hi + 1) l (fun i errors => let! t := get temp i in upd errors i t)) errs_ok.
Proof.
  intros HE LT HW. apply okp_for with (P := fun _ => errs_ok); [exact HE| |auto]. intros k e Hk (L & W). intros e' E. destruct (get temp k) as [x|] eqn:EG; [|discriminate]. cbn [bind] in E. apply get_some in EG. destruct EG as (Hkr & ->).
  pose proof (P_Bern.arr_val e) as AE. rewrite L in AE. revert E. apply (okp_upd _ _ _ _ _ _ AE). intros Hr e1 A1. split; [exact (arr_len _ _ _ A1)|]. intros i Hi. rewrite (P_Insert2.arr_val _ _ _ i A1) by lia. cbv beta.
  destruct (Z.eqb_spec i k) as [->|]; [right; apply HW; lia|apply W; lia].
Qed.

Lemma remove_shape st temp r lo hi : good_state (Next st) -> len temp = len errors -> (forall i, 0 <= i -> lo <= i <= hi -> within (val temp i) maxError) ->
  okp (bound_remove p params st temp r lo hi) good_state.
Proof.
  intros ((G1 & G2) & HE & LT) LT' HW. unfold bound_remove. apply okp_bind. intros ur Eu. apply okp_bind. intros o Eo. apply okp_bind. eapply okp_mono; [apply copy_shape; assumption|]. intros e HE'.
  destruct (Z.leb_spec (len (ControlPoints (match o with Some c0 => c0 | None => mkCurve 0 [] [] end))) (p + 1)) as [Hl|Hl]; [apply okp_ok; split; [split; assumption|exact HE']|].
  do 3 (apply okp_bind, okp_any; intros ?). apply okp_bind, okp_any. intros [Nl Nr]. apply okp_bind, okp_any. intros s. apply okp_bind, okp_any. intros [Br Ms]. apply okp_ok. cbn [good_state bU bCP bErr bTemp].
  destruct o as [c1|]; [|cbn [ControlPoints] in Hl; unfold len in Hl; cbn in Hl; destruct (Z_lt_dec (p + 1) 0); [|lia]].
  - split; [|split; assumption]. destruct (RemoveKnot_shape _ ur _ Eo) as (D1 & _). cbn [Degree] in D1. assert (E1 : mkCurve p (KnotVector c1) (ControlPoints c1) = c1) by (destruct c1; cbn in *; congruence).
    split; [|right; exact Hl]. rewrite E1. eapply stripped_snoc; [exact G1| |exact Eo]. cbn [KnotVector]. exact (get_in _ _ _ Eu).
  - pose proof (RemoveKnot_degree _ _ _ Eo). cbn [Degree] in *. lia.
Qed.

Lemma round_state n st : good_state (Next st) -> okp (bound_round p n params maxError st) good_state.
Proof.
  intros ((G1 & G2) & HE & LT). unfold bound_round. apply okp_bind, okp_any. intros r. apply okp_bind, okp_any. intros b. destruct (neqb b MaxDistance); [apply okp_ok; split; [split; assumption|exact HE]|].
  do 4 (apply okp_bind, okp_any; intros ?). apply okp_bind. eapply okp_mono; [apply test_shape, LT|]. intros [rm temp] (LT' & HW). destruct rm.
  - apply remove_shape; [split; [split; assumption|]; split; [exact HE|exact LT']|exact LT'|]. apply HW. reflexivity.
  - apply okp_bind, okp_any. intros Br. apply okp_ok. split; [split; assumption|]. split; [exact HE|exact LT'].
Qed.

Lemma Given_shape0 : okp (RemoveKnotsByGivenBound c params errors maxError) (fun '(c', e) => stripped c c' /\ (c' = c \/ p + 1 < len (ControlPoints c')) /\ errs_ok e).
Proof.
  unfold RemoveKnotsByGivenBound. do 3 (apply okp_bind, okp_any; intros ?). do 4 (apply okp_bind, okp_any; intros ?). apply okp_bind, okp_mkvec. intros _ temp AT. apply okp_bind, okp_any. intros [Br Ms]. apply okp_bind, okp_any. intros [Nl Nr].
  apply okp_bind. eapply okp_mono; [apply okp_while with (P := good_state) (Q := good_state); [|auto|]|].
  - intros [st|[[u cp] e]] Hs; [apply round_state, Hs|apply okp_ok, Hs].
  - assert (EC : mkCurve p (KnotVector c) (ControlPoints c) = c) by (unfold p; destruct c; reflexivity). cbn [good_state bU bCP bErr bTemp]. unfold good_curve. rewrite EC. split; [split; [constructor|left; reflexivity]|]. split; [split; [reflexivity|left; reflexivity]|]. rewrite <- Lpe. exact (arr_len _ _ _ AT).
  - intros [st|[[u cp] e]] Hs; [apply okp_err|]. destruct Hs as ((G1 & G2) & HE). apply okp_ok. split; [exact G1|]. split; [exact G2|exact HE].
Qed.
End Given.

Lemma Given_shape (c c' : curve) params errors maxError e : RemoveKnotsByGivenBound c params errors maxError = Ok (c', e) ->
  stripped c c' /\ (c' = c \/ Degree c + 1 < len (ControlPoints c')) /\ len e = len errors /\ forall i, 0 <= i < len errors -> val e i = val errors i \/ within (val e i) maxError.
Proof.
  intros E. assert (L : len params = len errors).
  { unfold RemoveKnotsByGivenBound in E. destruct (0 <? len params); [|discriminate]. cbn [validate bind] in E. destruct (Z.eqb_spec (len params) (len errors)); [assumption|discriminate]. }
  exact (Given_shape0 c params errors maxError L (c', e) E).
Qed.

(* the number of knots removed *)
Lemma stripped_shape (c c' : curve) : stripped c c' -> exists m, shorter c c' m.
Proof.
  intros H. induction H as [c|c u c1 c2 Hu E H (m & M0 & D & K & P)]; [exists 0; apply shorter_refl|]. destruct (RemoveKnot_shape c u _ E) as (D' & K' & P').
  exists (m + 1). unfold shorter. rewrite D, K, P, D', K', P'. repeat split; lia.
Qed.

(* with one inner knot there is never anything removed *)
Lemma Given_one_knot (c c' : curve) params errors maxError e : len (ControlPoints c) <= Degree c + 2 -> RemoveKnotsByGivenBound c params errors maxError = Ok (c', e) -> c' = c.
Proof.
  intros HL E. destruct (Given_shape _ _ _ _ _ _ E) as (S1 & [->|S2] & _); [reflexivity|]. destruct S1 as [c|c u c1 c2 Hu E1 H]; [reflexivity|].
  exfalso. destruct (stripped_shape _ _ H) as (m & M0 & _ & _ & P). destruct (RemoveKnot_shape c u _ E1) as (_ & _ & P'). lia.
Qed.
