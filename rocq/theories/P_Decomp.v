(* Decomposition into Bezier pieces. *)
From Coq Require Import ZArith List Bool Reals Lra Lia Permutation.
From Verif Require Import Base Num Vec Tac Spec Spec2 Spec4 M_MathUtils M_Polynomials M_XYZ M_Bspline M_NurbsCurve M_Knots M_Curve2
  P_MathUtils P_Span P_Cox P_Basis P_VSum P_Curve P_Bspline P_Loop P_Blossom P_Insert P_Insert2 P_Refine P_Reverse P_Split P_Merge.
Import ListNotations.
Open Scope Z_scope.

(* number of steps upwards among U_0 .. U_i *)
Fixpoint jumps_n (U : Z -> R) (i : nat) : Z :=
  match i with O => 0 | S k => jumps_n U k + (if Req_EM_T (U (Z.of_nat (S k))) (U (Z.of_nat k)) then 0 else 1) end.
Definition jumps (U : Z -> R) (i : Z) : Z := jumps_n U (Z.to_nat i).

Lemma jumps_0 U : jumps U 0 = 0.
Proof. reflexivity. Qed.
Lemma jumps_succ U i : 0 <= i -> jumps U (i + 1) = jumps U i + (if Req_EM_T (U (i + 1)) (U i) then 0 else 1).
Proof.
  intros H. unfold jumps. replace (Z.to_nat (i + 1)) with (S (Z.to_nat i)) by lia. cbn [jumps_n].
  replace (Z.of_nat (S (Z.to_nat i))) with (i + 1) by lia. rewrite Z2Nat.id by lia. reflexivity.
Qed.
Lemma jumps_mono U i j : 0 <= i -> i <= j -> jumps U i <= jumps U j.
Proof.
  intros Hi Hj. revert Hj. apply (Zrange_ind i (fun j => jumps U i <= jumps U j)); [lia|]. intros k Hk H. rewrite jumps_succ by lia. destruct (Req_EM_T _ _); lia.
Qed.
Lemma jumps_flat U i j : 0 <= i -> i <= j -> (forall k, i <= k <= j -> U k = U i) -> jumps U j = jumps U i.
Proof.
  intros Hi Hj. revert Hj. apply (Zrange_ind i (fun j => (forall k, i <= k <= j -> U k = U i) -> jumps U j = jumps U i)); [reflexivity|].
  intros k Hk IH H. rewrite jumps_succ by lia. rewrite IH by (intros; apply H; lia). rewrite (H (k + 1)), (H k) by lia. destruct (Req_EM_T _ _); [lia|congruence].
Qed.

Lemma repeat_snoc {X} (x : X) k : 0 <= k -> repeat x (Z.to_nat (k + 1)) = repeat x (Z.to_nat k) ++ [x].
Proof. intros H. replace (Z.to_nat (k + 1)) with (Z.to_nat k + 1)%nat by lia. rewrite repeat_app. reflexivity. Qed.
Lemma repeat_cons' {X} (x : X) k : 0 < k -> repeat x (Z.to_nat k) = x :: repeat x (Z.to_nat (k - 1)).
Proof. intros H. replace (Z.to_nat k) with (S (Z.to_nat (k - 1))) by lia. reflexivity. Qed.
Lemma len_rep {X} (x : X) k : 0 <= k -> len (repeat x (Z.to_nat k)) = k.
Proof. intros H. rewrite len_repeat. lia. Qed.
Lemma len_win U i p : 0 <= p -> len (win U i p) = p.
Proof. intros H. unfold len. rewrite win_len. lia. Qed.

Lemma aeq_apart x y : apart x y -> IsAlmostEqualTo x y = (if Req_EM_T x y then true else false).
Proof.
  intros H. destruct (Req_EM_T x y) as [->|Hn].
  - apply aeq_iff. rewrite <- tol_thr. unfold Rminus. rewrite Rplus_opp_r, Rabs_R0. apply Rlt_le, tol_pos.
  - apply aeq_false. rewrite <- tol_thr. destruct H as [->|H]; [contradiction|]. pose proof (tol_pos x y). lra.
Qed.

Lemma bez_val p i : 0 <= p -> 0 <= i <= 2 * p + 1 -> val (bezier_knots p) i = if i <=? p then 0%R else 1%R.
Proof.
  intros Hp Hi. assert (A : arr (bezier_knots p) (p + 1 + (p + 1)) (fun i => if i <? p + 1 then 0%R else 1%R)).
  { unfold bezier_knots. apply (arr_app _ _ (p + 1) (p + 1) (fun _ => 0%R) (fun _ => 1%R)); apply arr_repeat; lia. }
  rewrite (arr_val _ _ _ _ A) by lia. destruct (Z.ltb_spec i (p + 1)), (Z.leb_spec i p); try reflexivity; lia.
Qed.

Lemma wp_run {X Y} (r : res X) (R0 : X -> Prop) (k : X -> res Y) (G : res Y -> Prop) : wp r R0 -> (forall x, R0 x -> G (k x)) -> G (bind r k).
Proof. intros H HG. destruct (wp_elim _ _ H) as (x & -> & Hx). apply HG. exact Hx. Qed.

Lemma while_diverges {S} (I : S -> Prop) cond body fuel s :
  (forall s, I s -> cond s = Ok true /\ exists s', body s = Ok s' /\ I s') -> I s -> while_ fuel cond s body = OutOfFuel.
Proof.
  intros H. revert s. induction fuel as [|f IH]; intros s Hs; cbn [while_]; destruct (H s Hs) as (-> & s' & Eb & Hs'); cbn [bind]; [reflexivity|].
  rewrite Eb. cbn [bind]. apply IH. exact Hs'.
Qed.

Section Dec.
Context {T : Type} {V : Vec R T} {L : VecL T}.

Lemma bez_knots_ok p : 0 <= p -> curve_knots p p (bezier_knots p).
Proof.
  intros Hp. assert (HL : len (bezier_knots p) = p + p + 2) by (unfold bezier_knots; rewrite len_app, !len_rep by lia; lia).
  pose proof (tol_le 0 1 1 ltac:(rewrite Rabs_R0; lra) ltac:(rewrite Rabs_R1; lra)).
  split; try lia.
  - intros i j Hi Hij Hj. rewrite !bez_val by lia. destruct (Z.leb_spec i p), (Z.leb_spec j p); try lra; lia.
  - rewrite !bez_val by lia. destruct (Z.leb_spec p p), (Z.leb_spec (p + 1) p); try lia. lra.
  - rewrite !bez_val by lia. destruct (Z.leb_spec p p), (Z.leb_spec (p + 1) p); try lia. lra.
Qed.

(* a point of the Bezier curve with the control points f(ua..ua ub..ub) *)
Lemma bez_point p n U (P Q : list T) a s : curve_knots p n U -> p <= a <= n -> (val U a < val U (a + 1))%R ->
  occ U (val U (a + 1)) <= p \/ a = n ->
  (forall k, 0 <= k <= p -> pt Q k = bl (val U) p (pt P) (repeat (val U a) (Z.to_nat (p - k)) ++ repeat (val U (a + 1)) (Z.to_nat k)) a) ->
  (0 <= s <= 1)%R ->
  curve_point p p (bezier_knots p) Q s = curve_point p n U P ((1 - s) * val U a + s * val U (a + 1)).
Proof.
  intros HU Ha Hlt Hocc HQ Hs. pose proof HU as [Hp Hn HL HS _ _]. set (ua := val U a) in *. set (ub := val U (a + 1)) in *.
  set (t := ((1 - s) * ua + s * ub)%R).
  assert (KS : span_of p p (bezier_knots p) s p).
  { split; [lia|]. rewrite !bez_val by lia. destruct (Z.leb_spec p p), (Z.leb_spec (p + 1) p); try lia. split; [lra|]. split; [lra|].
    destruct (Req_EM_T s 1); [right; split; [reflexivity|assumption]|left; lra]. }
  rewrite (curve_point_span _ _ _ _ _ _ (bez_knots_ok p Hp) KS).
  assert (Gu : good (val U) a p) by (apply (span_good p n); auto).
  assert (E : curve_point p n U P t = span_curve a p U P t).
  { destruct (Req_EM_T s 0) as [E0|E0].
    - assert (Et : t = ua) by (unfold t; rewrite E0; ring). apply curve_point_span; [exact HU|]. split; [lia|]. fold ua ub. split; [exact Hlt|]. split; [lra|]. left. lra.
    - assert (0 < s * (ub - ua))%R by (apply Rmult_lt_0_compat; lra). assert (0 <= (1 - s) * (ub - ua))%R by (apply Rmult_le_pos; lra).
      assert (E1 : (t = ua + s * (ub - ua))%R) by (unfold t; ring). assert (E2 : (t = ub - (1 - s) * (ub - ua))%R) by (unfold t; ring).
      apply curve_point_left; [exact HU|lia|fold ua; lra|fold ub; lra|].
      destruct (Req_EM_T s 1) as [E3|E3].
      + assert (Et : t = ub) by (rewrite E2, E3; ring). rewrite Et. destruct Hocc as [Ho| ->]; [left; exact Ho|right; reflexivity].
      + left. assert (0 < (1 - s) * (ub - ua))%R by (apply Rmult_lt_0_compat; lra).
        pose proof (count_sorted U t a HS ltac:(lia) ltac:(fold ua; lra) ltac:(fold ub; lra)) as (C1 & C2 & C3).
        destruct (Z.eq_dec (Z.of_nat (count_occ Req_EM_T U t)) 0) as [->|Hc]; [lia|]. specialize (C2 a ltac:(lia)). fold ua in C2. lra. }
  rewrite E, (span_curve_bl a p U P t) by assumption. set (K := fun j => if j <=? p then ua else ub).
  assert (GK : good K p p).
  { unfold K. split; [destruct (Z.leb_spec p p), (Z.leb_spec (p + 1) p); try lia; exact Hlt|]. intros i j Hi Hij Hj. destruct (Z.leb_spec i p), (Z.leb_spec j p); try lra; lia. }
  assert (EB : span_curve p p (bezier_knots p) Q s = comb (p - p) (p + 1) (fun i => NS K p p i t) (pt Q)).
  { unfold span_curve. apply comb_ext. intros i Hi. split; [|reflexivity].
    pose proof (NS_affine (val (bezier_knots p)) K 0 p (ub - ua) ua s ltac:(lra) p Hp i) as HA. rewrite !Z.add_0_l in HA.
    replace t with ((ub - ua) * s + ua)%R by (unfold t; ring). symmetry. apply HA. intros j Hj. rewrite bez_val by lia. unfold K. rewrite Z.add_0_l. destruct (Z.leb_spec j p); ring. }
  rewrite EB, (bl_diag K p p (pt Q) t Hp GK). apply polar_same; auto; [|apply len_rep; exact Hp].
  intros i Hi. rewrite HQ by lia. f_equal. rewrite <- (Zplus_minus (p - i) p) at 2. rewrite win_app by lia.
  f_equal; [rewrite (win_const _ _ _ ua); [reflexivity|]|replace (p - (p - i)) with i by lia; rewrite (win_const _ _ _ ub); [reflexivity|]].
  - intros r Hr. unfold K. destruct (Z.leb_spec (i + r) p); [reflexivity|lia].
  - intros r Hr. unfold K. destruct (Z.leb_spec (i + (p - i) + r) p); [lia|reflexivity].
Qed.

Variables (p n : Z) (U : list R) (P : list T).
Hypothesis HU : curve_knots p n U.
Hypothesis HP : len P = n + 1.
Hypothesis Hcl : clamped_knots p n U.
Hypothesis Hap : forall x y, In x U -> In y U -> apart x y.
Let m := n + p + 1.
Let pu := ck_p _ _ _ HU.
Let nu := ck_n _ _ _ HU.
Let HL := ck_len _ _ _ HU.
Let HS := ck_sorted _ _ _ HU.

Lemma knot_aeq i j : 0 <= i <= m -> 0 <= j <= m -> IsAlmostEqualTo (val U i) (val U j) = (if Req_EM_T (val U i) (val U j) then true else false).
Proof. intros Hi Hj. apply aeq_apart, Hap; apply val_In; rewrite HL; unfold m in *; lia. Qed.

Lemma AU : arr U (m + 1) (val U).
Proof. replace (m + 1) with (len U) by (rewrite HL; unfold m; lia). apply arr_at. Qed.

Lemma last_run i : n + 1 <= i <= m -> val U i = val U m.
Proof.
  intros Hi. destruct Hcl as [_ E]. fold m in E. pose proof (HS (n + 1) i ltac:(unfold m in *; lia) ltac:(lia) ltac:(rewrite HL; unfold m in *; lia)).
  pose proof (HS i m ltac:(unfold m in *; lia) ltac:(lia) ltac:(rewrite HL; unfold m; lia)). lra.
Qed.
Lemma first_run i : 0 <= i <= p -> val U i = val U p.
Proof.
  intros Hi. destruct Hcl as [E _]. pose proof (HS 0 i ltac:(lia) ltac:(lia) ltac:(rewrite HL; lia)).
  pose proof (HS i p ltac:(lia) ltac:(lia) ltac:(rewrite HL; lia)). lra.
Qed.

Lemma dec_run_ok b (Q : Z -> Prop) : 0 <= b <= m ->
  (forall b', b <= b' <= m -> (forall j, b <= j <= b' -> val U j = val U b) -> b' = m \/ (b' < m /\ (val U b' < val U (b' + 1))%R) -> Q b') ->
  wp (dec_run (length U) m U b) Q.
Proof.
  intros Hb HQ. unfold dec_run.
  apply wp_while with (I := fun x => b <= x <= m /\ forall j, b <= j <= x -> val U j = val U b) (mu := fun x => Z.to_nat (m - x)).
  - split; [lia|]. intros j Hj. replace j with b by lia. reflexivity.
  - unfold len in HL. unfold m in *. lia.
  - intros x [Hx He]. destruct (Z.ltb_spec x m).
    + pose proof AU as AU. wget AU. wget AU. rewrite knot_aeq by lia. destruct (Req_EM_T (val U (x + 1)) (val U x)) as [E|E]; cbn [wp].
      * split; [|lia]. split; [lia|]. intros j Hj. destruct (Z.eq_dec j (x + 1)) as [->|]; [rewrite E; apply He; lia|apply He; lia].
      * apply HQ; auto. right. split; [lia|]. pose proof (HS x (x + 1) ltac:(lia) ltac:(lia) ltac:(rewrite HL; unfold m in *; lia)). lra.
    + cbn [wp]. apply HQ; auto. left. lia.
Qed.

(* the run of equal knots after a break at a: it is the last one, or lies inside *)
Lemma run_cases a b : p <= a <= n -> (val U a < val U (a + 1))%R -> a + 1 <= b <= m -> (forall j, a + 1 <= j <= b -> val U j = val U (a + 1)) ->
  b = m \/ (b < m /\ (val U b < val U (b + 1))%R) ->
  (b = m /\ a = n) \/ (b <= n /\ occ U (val U b) = b - a /\ (val U p < val U b < val U (n + 1))%R /\ (val U b < val U (b + 1))%R).
Proof.
  intros Ha Hlt Hb He Hor. pose proof (ck_last _ _ _ HU) as H2. pose proof (tol_pos (val U n) (val U (n + 1))). destruct Hor as [->|[Hbm Hb1]].
  - left. split; [reflexivity|]. destruct (Z.eq_dec a n); [assumption|]. exfalso.
    assert (val U (a + 1) = val U m)%R by (symmetry; apply He; lia). rewrite <- (last_run (n + 1)) in * by (unfold m in *; lia).
    pose proof (HS (a + 1) n ltac:(lia) ltac:(lia) ltac:(rewrite HL; lia)). lra.
  - right. assert (Hbn : b <= n).
    { destruct (Z_le_gt_dec b n); [assumption|]. rewrite (last_run b), (last_run (b + 1)) in Hb1 by lia. lra. }
    split; [exact Hbn|]. assert (Eb : val U b = val U (a + 1)) by (apply He; lia).
    split; [|split; [|exact Hb1]].
    + unfold occ. rewrite (count_range U (val U b) (a + 1) (b + 1)); try (rewrite ?HL; lia).
      * intros i Hi. pose proof (HS i a ltac:(lia) ltac:(lia) ltac:(rewrite HL; lia)). lra.
      * intros i Hi. rewrite Eb. apply He. lia.
      * intros i Hi. pose proof (HS (b + 1) i ltac:(lia) ltac:(lia) ltac:(lia)). lra.
    + pose proof (HS p a ltac:(lia) ltac:(lia) ltac:(rewrite HL; lia)). pose proof (HS (b + 1) (n + 1) ltac:(lia) ltac:(lia) ltac:(rewrite HL; lia)). lra.
Qed.

(* control points of the current segment before knots are inserted *)
Definition cur a k := bl (val U) p (pt P) (repeat (val U a) (Z.to_nat (p - k)) ++ win (val U) a k) a.
(* ... and of the finished segment *)
Definition fin a k := bl (val U) p (pt P) (repeat (val U a) (Z.to_nat (p - k)) ++ repeat (val U (a + 1)) (Z.to_nat k)) a.
(* ... and after the end knot has been inserted j times *)
Definition mid a b j k := if k <? b - a + j then fin a k else
  bl (val U) p (pt P) (repeat (val U a) (Z.to_nat (p - k)) ++ repeat (val U (a + 1)) (Z.to_nat (b - a + j)) ++ win (val U) b (k - (b - a) - j)) a.

Section Pass.
Variables (a b : Z).
Hypothesis Ha : p <= a <= n.
Hypothesis Hlt : (val U a < val U (a + 1))%R.
Hypothesis Hb : a + 1 <= b <= n.
Hypothesis He : forall j, a + 1 <= j <= b -> val U j = val U (a + 1).
Hypothesis Hb1 : (val U b < val U (b + 1))%R.
Hypothesis Hmu : b - a <= p.

Let Ga : good (val U) a p := span_good p n U a HU Ha Hlt.
Let Gb : good (val U) b p := span_good p n U b HU (conj (Z.le_trans _ _ _ (proj1 Ha) (Z.le_trans _ _ _ (Z.le_succ_diag_r a) (proj1 Hb))) (proj2 Hb)) Hb1.

Lemma mid_0 k : 0 <= k <= p -> mid a b 0 k = cur a k.
Proof.
  intros Hk. unfold mid, cur, fin. destruct (Z.ltb_spec k (b - a + 0)).
  - do 2 f_equal. symmetry. apply win_const. intros r Hr. apply He. lia.
  - do 2 f_equal. replace k with (b - a + (k - (b - a))) at 2 by lia. rewrite win_app by lia. f_equal.
    + rewrite Z.add_0_r. symmetry. apply win_const. intros r Hr. apply He. lia.
    + replace (a + (b - a)) with b by lia. f_equal. lia.
Qed.

Lemma mid_end k : 0 <= k <= p -> mid a b (p - (b - a)) k = fin a k.
Proof.
  intros Hk. unfold mid. destruct (Z.ltb_spec k (b - a + (p - (b - a)))); [reflexivity|]. assert (k = p) as -> by lia.
  unfold fin. rewrite (win_nil _ _ (p - (b - a) - (p - (b - a)))) by lia. rewrite app_nil_r. do 4 f_equal. lia.
Qed.

Lemma mid_step j k : 1 <= j <= p - (b - a) -> b - a + j <= k <= p ->
  let al := ((val U b - val U a) / (val U (a + (k - j + 1)) - val U a))%R in
  vadd (vscale al (mid a b (j - 1) k)) (vscale (1 - al)%R (mid a b (j - 1) (k - 1))) = mid a b j k.
Proof.
  intros Hj Hk al. set (mu := b - a) in *. unfold mid. fold mu.
  destruct (Z.ltb_spec k (mu + (j - 1))); [lia|]. destruct (Z.ltb_spec k (mu + j)); [lia|].
  set (ua := val U a). set (ub := val U (a + 1)). set (w := val U (a + (k - j + 1))).
  set (rest := repeat ua (Z.to_nat (p - k)) ++ repeat ub (Z.to_nat (mu + (j - 1))) ++ win (val U) b (k - mu - j)).
  assert (Lr : len rest = p - 1) by (unfold rest; rewrite !len_app, !len_rep, len_win by lia; lia).
  set (f := fun l => bl (val U) p (pt P) l a).
  assert (PF : polar p f) by (apply bl_polar; assumption). destruct PF as [Sy Af].
  assert (Eub : val U b = ub) by (apply He; lia).
  assert (Hw : (ua < w)%R).
  { unfold w, ua. pose proof (HS (a + 1) (a + (k - j + 1)) ltac:(lia) ltac:(lia) ltac:(rewrite HL; lia)). lra. }
  assert (E1 : bl (val U) p (pt P) (repeat ua (Z.to_nat (p - k)) ++ repeat ub (Z.to_nat (mu + (j - 1))) ++ win (val U) b (k - mu - (j - 1))) a = f (w :: rest)).
  { apply Sy; [|rewrite !len_app, !len_rep, len_win by lia; lia]. rewrite (win_snoc (val U) b (k - mu - (j - 1))) by lia.
    replace (k - mu - (j - 1) - 1) with (k - mu - j) by lia. replace (b + (k - mu - (j - 1))) with (a + (k - j + 1)) by (unfold mu; lia). fold w.
    rewrite !app_assoc. rewrite <- Permutation_cons_append. unfold rest. rewrite !app_assoc. reflexivity. }
  assert (E2 : (if k - 1 <? mu + (j - 1) then fin a (k - 1) else
     bl (val U) p (pt P) (repeat ua (Z.to_nat (p - (k - 1))) ++ repeat ub (Z.to_nat (mu + (j - 1))) ++ win (val U) b (k - 1 - mu - (j - 1))) a) = f (ua :: rest)).
  { destruct (Z.ltb_spec (k - 1) (mu + (j - 1))); [lia|]. unfold f, rest. replace (p - (k - 1)) with (p - k + 1) by lia.
    rewrite (repeat_cons' ua (p - k + 1)) by lia. replace (p - k + 1 - 1) with (p - k) by lia. cbn [app]. do 4 f_equal. f_equal. lia. }
  assert (E3 : bl (val U) p (pt P) (repeat ua (Z.to_nat (p - k)) ++ repeat ub (Z.to_nat (mu + j)) ++ win (val U) b (k - mu - j)) a = f (ub :: rest)).
  { apply Sy; [|rewrite !len_app, !len_rep, len_win by lia; lia]. unfold rest. rewrite (repeat_cons' ub (mu + j)) by lia. replace (mu + j - 1) with (mu + (j - 1)) by lia.
    cbn [app]. symmetry. apply Permutation_middle. }
  rewrite E1, E2, E3. rewrite <- Af; [|ring|exact Lr]. f_equal. f_equal. unfold al. rewrite Eub. fold ua w. field. lra.
Qed.

(* what is saved for the next segment *)
Lemma mid_next j : 0 <= j <= p - (b - a) -> mid a b j p = cur b (p - (b - a) - j).
Proof.
  intros Hj. set (mu := b - a) in *. set (ub := val U (a + 1)). assert (Eub : val U b = ub) by (apply He; lia).
  assert (W : win (val U) a (p - j) = repeat ub (Z.to_nat mu) ++ win (val U) b (p - mu - j)).
  { replace (p - j) with (mu + (p - mu - j)) by lia. rewrite win_app by lia. replace (a + mu) with b by (unfold mu; lia). f_equal.
    apply win_const. intros r Hr. apply He. unfold mu in *. lia. }
  assert (Hl : forall k, 0 <= k -> repeat ub (Z.to_nat (mu + k)) = repeat ub (Z.to_nat k) ++ repeat ub (Z.to_nat mu)).
  { intros k Hk. rewrite <- repeat_app. f_equal. lia. }
  assert (E1 : mid a b j p = bl (val U) p (pt P) (repeat ub (Z.to_nat j)) a).
  { rewrite <- (bl_part (val U) a p (pt P) (repeat ub (Z.to_nat j)) a); rewrite ?len_rep by lia; auto; try lia. rewrite W.
    unfold mid. fold mu ub. destruct (Z.ltb_spec p (mu + j)).
    - lia.
    - replace (p - p) with 0 by lia. cbn [Z.to_nat repeat app]. rewrite Hl by lia. rewrite <- app_assoc. reflexivity. }
  rewrite E1. rewrite <- (bl_part (val U) b p (pt P) (repeat ub (Z.to_nat j)) a); rewrite ?len_rep by lia; auto; try (unfold mu in *; lia).
  rewrite W. unfold cur. rewrite Eub. replace (p - (p - mu - j)) with (mu + j) by lia. rewrite Hl by lia. rewrite <- app_assoc. reflexivity.
Qed.

(* the control points copied to the next segment *)
Lemma cur_next k : p - (b - a) <= k <= p -> cur b k = pt P (b - p + k).
Proof.
  intros Hk. unfold cur. rewrite <- (bl_knots (val U) b p (pt P) (b - p + k)) by (auto; lia). f_equal.
  replace p with (p - k + k) at 3 by lia. rewrite win_app by lia. f_equal; [|f_equal; lia].
  symmetry. apply win_const. intros r Hr. rewrite (He b) by lia. apply He. lia.
Qed.

Lemma mid_low j k : 0 <= j -> 0 <= k <= b - a + j -> mid a b j k = fin a k.
Proof.
  intros Hj Hk. unfold mid. destruct (Z.ltb_spec k (b - a + j)); [reflexivity|]. assert (E : k = b - a + j) by lia.
  unfold fin. rewrite (win_nil _ _ (k - (b - a) - j)) by lia. rewrite app_nil_r. rewrite E. reflexivity.
Qed.

Variables (bz : list (list T)) (rows nb : Z) (F : Z -> Z -> T).
Hypothesis Hbz : arr2D bz rows (p + 1) (fun x k => x <= nb) F.
Hypothesis Hnb : 0 <= nb.
Hypothesis Hrows : nb + 1 < rows.
Hypothesis Hcur : forall k, 0 <= k <= p -> F nb k = cur a k.

Definition after_pass (bz' : list (list T)) : Prop :=
  arr2D bz' rows (p + 1) (fun x k => x <= nb + 1) (fun x k => if x <? nb then F x k else if x =? nb then fin a k else cur b k).

(* the part of the loop body that depends on the counted multiplicity *)
Definition dec_tail (multi : Z) : res (list (list T) * Z * Z * Z) :=
    let! ub := get U b in
    let! ua := get U a in
    let numerator := nsub ub ua in
    let! alphaVector := mkvec (p + 1) n0 in
    let! alphaVector := for_down p (multi + 1) alphaVector (fun j v =>
      let! x := get U (a + j) in
      let! q := ndiv numerator (nsub x ua) in
      upd v (j - multi - 1) q) in
    let r := p - multi in
    let! bz := for_up 1 (r + 1) bz (fun j bz =>
      let save := r - j in
      let s := multi + j in
      let! bz := for_down p s bz (fun k bz =>
        let! alpha := get alphaVector (k - s) in
        let! x := get2 bz nb k in
        let! y := get2 bz nb (k - 1) in
        upd2 bz nb k (blend alpha x y)) in
      if b <? m then
        let! x := get2 bz nb p in
        upd2 bz (nb + 1) save x
      else Ok bz) in
    let nb := nb + 1 in
    if b <? m then
      let! bz := for_up (p - multi) (p + 1) bz (fun i bz =>
        let! x := get P (b - p + i) in
        upd2 bz nb i x) in
      Ok (bz, b, b + 1, nb)
    else Ok (bz, a, b, nb).

Lemma copy_next bz1 lo (Q : list (list T) * Z * Z * Z -> Prop) : p - (b - a) <= lo <= p ->
  arr2D bz1 rows (p + 1) (fun x k => x <= nb \/ (x = nb + 1 /\ k < lo)) (fun x k => if x <? nb then F x k else if x =? nb then fin a k else cur b k) ->
  (forall bz', after_pass bz' -> Q (bz', b, b + 1, nb + 1)) ->
  wp (let! bz := for_up lo (p + 1) bz1 (fun i bz => let! x := get P (b - p + i) in upd2 bz (nb + 1) i x) in Ok (bz, b, b + 1, nb + 1)) Q.
Proof.
  intros Hlo H1 HQ. pose proof (arr_pt P _ HP) as AP. apply wp_bind.
  apply wp_for_up with (P := fun i bz => arr2D bz rows (p + 1) (fun x k => x <= nb \/ (x = nb + 1 /\ k < i)) (fun x k => if x <? nb then F x k else if x =? nb then fin a k else cur b k)); [lia|exact H1| |].
  - intros i v Hi Hv. wget AP. eapply arr2D_set; [exact Hv|lia|lia| | |intros v' Hv'; exact Hv'].
    + cbv beta. destruct (Z.ltb_spec (nb + 1) nb); [lia|]. destruct (Z.eqb_spec (nb + 1) nb); [lia|]. symmetry. apply cur_next. lia.
    + dl.
  - intros v Hv. cbn [wp]. apply HQ. eapply arr2D_ext; [exact Hv|]. intros i j Hi Hj Hd. split; [lia|reflexivity].
Qed.

Lemma dec_tail_ok (Q : list (list T) * Z * Z * Z -> Prop) : b - a < p ->
  (forall bz', after_pass bz' -> Q (bz', b, b + 1, nb + 1)) -> wp (dec_tail (b - a)) Q.
Proof.
  intros Hm HQ. pose proof AU as AU. assert (Hbm : b < m) by (unfold m; lia). unfold dec_tail. set (mu := b - a) in *. wget AU. wget AU. num.
  set (alf := fun x => ((val U b - val U a) / (val U (a + (x + mu + 1)) - val U a))%R).
  apply wp_bind. apply wp_mkvec; [lia|]. intros v0 Hv0. apply wp_bind.
  apply wp_for_down with (P := fun k v => arrD v (p + 1) (fun x => k - mu <= x <= p - mu - 1) alf); [lia| | |].
  { eapply arrD_ext; [apply arrD_of_arr; exact Hv0|]. instantiate (1 := fun _ => False). intros; lia. }
  { intros k v Hk Hv. wget AU.
    pose proof (HS (a + 1) (a + k) ltac:(lia) ltac:(unfold mu in *; lia) ltac:(rewrite HL; lia)). rewrite Rdiv_ok by lra. cbn [bind].
    eapply arrD_set; [exact Hv|unfold mu in *; lia| | |intros v' Hv'; exact Hv'].
    - unfold alf. replace (k - mu - 1 + mu + 1) with k by lia. reflexivity.
    - dl. }
  intros al Hal. apply wp_bind.
  set (G := fun j x k => if x <? nb then F x k else if x =? nb then mid a b (j - 1) k else cur b k).
  apply wp_for_up with (P := fun j bz => arr2D bz rows (p + 1) (fun x k => x <= nb \/ (x = nb + 1 /\ p - mu - (j - 1) <= k < p - mu)) (G j)); [lia| | |].
  { eapply arr2D_ext; [exact Hbz|]. intros x k Hx Hk Hd. split; [dl|]. unfold G. destruct (Z.ltb_spec x nb); [reflexivity|].
    destruct (Z.eqb_spec x nb) as [->|]; [|lia]. rewrite Hcur by lia. symmetry. apply mid_0. lia. }
  { intros j bj Hj Hbj. apply wp_bind.
    set (G' := fun k x k' => if x <? nb then F x k' else if x =? nb then (if k <? k' then mid a b j k' else mid a b (j - 1) k') else cur b k').
    apply wp_for_down with (P := fun k bz => arr2D bz rows (p + 1) (fun x k => x <= nb \/ (x = nb + 1 /\ p - mu - (j - 1) <= k < p - mu)) (G' k)); [lia| | |].
    { eapply arr2D_ext; [exact Hbj|]. intros x k Hx Hk Hd. split; [exact Hd|]. unfold G, G'. destruct (Z.ltb_spec p k); [lia|reflexivity]. }
    { intros k bk Hk Hbk.
      assert (Eal : get al (k - (mu + j)) = Ok (alf (k - (mu + j)))) by (apply (arrD_get _ _ _ _ _ Hal); lia). rewrite Eal. cbn [bind].
      rewrite (arr2D_get _ _ _ _ _ nb k Hbk) by lia. cbn [bind]. rewrite (arr2D_get _ _ _ _ _ nb (k - 1) Hbk) by lia. cbn [bind].
      eapply arr2D_upd; [exact Hbk|lia|lia|]. intros b' Hb'. eapply arr2D_ext; [exact Hb'|]. intros x k' Hx Hk' Hd. split; [dl|]. cbv beta.
      unfold G'. destruct (Z.eqb_spec x nb) as [->|Hx1]; cbn [andb].
      - destruct (Z.ltb_spec nb nb); [lia|]. destruct (Z.ltb_spec k k); [lia|]. destruct (Z.ltb_spec k (k - 1)); [lia|].
        destruct (Z.eqb_spec k' k) as [->|Hk1].
        + destruct (Z.ltb_spec (k - 1) k); [|lia]. rewrite <- (mid_step j k) by (unfold mu in *; lia). unfold alf.
          replace (a + (k - (mu + j) + mu + 1)) with (a + (k - j + 1)) by lia. rewrite !Z.eqb_refl. reflexivity.
        + destruct (Z.ltb_spec (k - 1) k'), (Z.ltb_spec k k'); try lia; reflexivity.
      - destruct (Z.ltb_spec x nb); reflexivity. }
    intros b1 Hb1'. rewrite (proj2 (Z.ltb_lt b m)) by lia. rewrite (arr2D_get _ _ _ _ _ nb p Hb1') by lia. cbn [bind].
    assert (Hb2 : arr2D b1 rows (p + 1) (fun x k => x <= nb \/ (x = nb + 1 /\ p - mu - (j - 1) <= k < p - mu)) (G (j + 1))).
    { eapply arr2D_ext; [exact Hb1'|]. intros x k Hx Hk Hd. split; [exact Hd|]. unfold G, G'. replace (j + 1 - 1) with j by lia. destruct (Z.ltb_spec x nb); [reflexivity|].
      destruct (Z.eqb_spec x nb) as [->|]; [|reflexivity]. destruct (Z.ltb_spec (mu + j - 1) k); [reflexivity|]. rewrite !mid_low by (fold mu; lia). reflexivity. }
    eapply arr2D_set; [exact Hb2|lia|lia| | |intros b' Hb'; exact Hb'].
    - unfold G, G'. destruct (Z.ltb_spec nb nb); [lia|]. rewrite Z.eqb_refl. destruct (Z.ltb_spec (nb + 1) nb); [lia|]. destruct (Z.eqb_spec (nb + 1) nb); [lia|].
      destruct (Z.ltb_spec (mu + j - 1) p); [|lia]. apply mid_next. fold mu. lia.
    - intros x k Hx Hk Hd. destruct (Z.eq_dec x (nb + 1)); [destruct (Z.eq_dec k (p - mu - j)); dl|dl]. }
  intros b2 Hb2. cbv zeta. rewrite (proj2 (Z.ltb_lt b m)) by lia. apply copy_next; [fold mu; lia| |exact HQ].
  eapply arr2D_ext; [exact Hb2|]. intros x k Hx Hk Hd. split; [dl|]. unfold G. replace (p - mu + 1 - 1) with (p - mu) by lia.
  destruct (Z.ltb_spec x nb); [reflexivity|]. destruct (Z.eqb_spec x nb) as [->|]; [|reflexivity]. apply mid_end. lia.
Qed.

(* degree 2 with a double knot: the second pass counts it once *)
Lemma dec_tail_two (Q : list (list T) * Z * Z * Z -> Prop) : p = 2 -> b = a + 2 ->
  (forall bz', after_pass bz' -> Q (bz', b, b + 1, nb + 1)) -> wp (dec_tail 1) Q.
Proof.
  intros Ep Eb HQ. pose proof AU as AU. assert (Hbm : b < m) by (unfold m; lia). unfold dec_tail. rewrite Ep. wget AU. wget AU. num.
  assert (Eu : val U (a + 2) = val U b) by (f_equal; lia). assert (Eb1 : val U b = val U (a + 1)) by (apply He; lia).
  apply wp_bind. apply wp_mkvec; [lia|]. intros v0 Hv0. apply wp_bind.
  apply wp_for_down with (P := fun k v => arrD v (2 + 1) (fun x => k = 1 /\ x = 0) (fun _ => 1%R)); [lia| | |].
  { eapply arrD_ext; [apply arrD_of_arr; exact Hv0|]. instantiate (1 := fun _ => False). intros; lia. }
  { intros k v Hk Hv. assert (k = 2) as -> by lia. wget AU. rewrite Eu. rewrite Rdiv_ok by lra. cbn [bind].
    eapply arrD_set; [exact Hv|lia| | |intros v' Hv'; exact Hv'].
    - cbv beta. field. lra.
    - dl. }
  intros al Hal. apply wp_bind. assert (Eal : get al 0 = Ok 1%R) by (apply (arrD_get _ _ _ _ _ Hal); lia).
  assert (Efin : forall k, 0 <= k <= 2 -> F nb k = fin a k).
  { intros k Hk. rewrite Hcur by lia. unfold cur, fin. do 2 f_equal. apply win_const. intros r Hr. apply He. lia. }
  apply wp_for_up with (P := fun j bz => arr2D bz rows (p + 1) (fun x k => x <= nb \/ (x = nb + 1 /\ j = 2 /\ k < 1)) (fun x k => if x <? nb then F x k else if x =? nb then fin a k else cur b k)); [lia| | |].
  { eapply arr2D_ext; [exact Hbz|]. intros x k Hx Hk Hd. split; [lia|]. destruct (Z.ltb_spec x nb); [reflexivity|].
    destruct (Z.eqb_spec x nb) as [->|]; [|lia]. apply Efin. lia. }
  { intros j bj Hj Hbj. assert (j = 1) as -> by lia. apply wp_bind.
    apply wp_for_down with (P := fun _ bz => arr2D bz rows (p + 1) (fun x k => x <= nb) (fun x k => if x <? nb then F x k else if x =? nb then fin a k else cur b k)); [lia| | |].
    { eapply arr2D_ext; [exact Hbj|]. intros x k Hx Hk Hd. split; [lia|reflexivity]. }
    { intros k bk Hk Hbk. assert (k = 2) as -> by lia. change (2 - (1 + 1)) with 0. rewrite Eal. cbn [bind].
      rewrite (arr2D_get _ _ _ _ _ nb 2 Hbk) by lia. cbn [bind]. rewrite (arr2D_get _ _ _ _ _ nb (2 - 1) Hbk) by lia. cbn [bind].
      eapply arr2D_set; [exact Hbk|lia|lia| | |intros b' Hb'; exact Hb'].
      - cbv beta. destruct (Z.ltb_spec nb nb); [lia|]. rewrite Z.eqb_refl. unfold blend. num. apply co_ext. intros i. rewrite co_add, !co_scale. ring.
      - dl. }
    intros b1 Hb1'. rewrite (proj2 (Z.ltb_lt b m)) by lia. rewrite (arr2D_get _ _ _ _ _ nb 2 Hb1') by lia. cbn [bind].
    eapply arr2D_set; [exact Hb1'|lia|lia| | |intros b' Hb'; exact Hb'].
    - cbv beta. destruct (Z.ltb_spec nb nb); [lia|]. rewrite Z.eqb_refl. destruct (Z.ltb_spec (nb + 1) nb); [lia|]. destruct (Z.eqb_spec (nb + 1) nb); [lia|].
      change (2 - 1 - 1) with 0. pose proof (mid_next 0 ltac:(lia)) as E. replace (p - (b - a) - 0) with 0 in E by lia. rewrite <- E, mid_low by lia. rewrite Ep. reflexivity.
    - dl. }
  intros b2 Hb2. cbv zeta. rewrite (proj2 (Z.ltb_lt b m)) by lia. pose proof (copy_next b2 1 Q ltac:(lia)) as HC. rewrite Ep in HC. apply HC; [|exact HQ].
  rewrite Ep in Hb2. eapply arr2D_ext; [exact Hb2|]. intros x k Hx Hk Hd. split; [dl|reflexivity].
Qed.
End Pass.

Definition rows := jumps (val U) m.

Definition seg_done (B : list R) (F : Z -> Z -> T) (x : Z) : Prop := exists a, p <= a <= n /\ (val U a < val U (a + 1))%R /\
  val B x = val U a /\ val B (x + 1) = val U (a + 1) /\ (occ U (val U (a + 1)) <= p \/ a = n) /\ forall k, 0 <= k <= p -> F x k = fin a k.

Definition Inv (s : list (list T) * Z * Z * Z) : Prop := let '(bz, a, b, nb) := s in
  p <= a <= n /\ (val U a < val U (a + 1))%R /\ nb = jumps (val U) a /\
  (exists B F, len B = nb + 1 /\ increasing B /\ (forall x, In x B <-> exists i, 0 <= i <= a /\ val U i = x) /\ val B nb = val U a /\
     arr2D bz rows (p + 1) (fun x k => x <= nb) F /\ (forall k, 0 <= k <= p -> F nb k = cur a k) /\ (forall x, 0 <= x < nb -> seg_done B F x)) /\
  (b = a + 1 \/ (b = m /\ a = n) \/ (p = 2 /\ b = a + 2 /\ b <= n /\ val U b = val U (a + 1) /\ (val U b < val U (b + 1))%R)).

Lemma inc_snoc B x : increasing B -> (0 < len B -> (val B (len B - 1) < x)%R) -> increasing (B ++ [x]).
Proof.
  intros HB Hx i j Hi Hij Hj. rewrite len_app in Hj. cbn in Hj.
  assert (A : arr (B ++ [x]) (len B + 1) (fun i => if i <? len B then val B i else x)).
  { apply (arr_snoc _ _ (fun i => if i <? len B then val B i else x)); [|destruct (Z.ltb_spec (len B) (len B)); [lia|reflexivity]].
    eapply arr_ext; [apply (arr_at 0%R)|]. intros k Hk. destruct (Z.ltb_spec k (len B)); [reflexivity|lia]. }
  rewrite !(arr_val _ _ _ _ A) by lia. destruct (Z.ltb_spec i (len B)); [|lia]. destruct (Z.ltb_spec j (len B)); [apply HB; lia|].
  specialize (Hx ltac:(lia)). destruct (Z.eq_dec i (len B - 1)) as [->|]; [exact Hx|]. pose proof (HB i (len B - 1) ltac:(lia) ltac:(lia) ltac:(lia)). lra.
Qed.

Lemma val_snoc_l (B : list R) x i : 0 <= i < len B -> val (B ++ [x]) i = val B i.
Proof.
  intros Hi. assert (G : get (B ++ [x]) i = get B i) by (apply get_app_l; lia). rewrite (get_at 0%R B i Hi) in G.
  rewrite (get_at 0%R (B ++ [x]) i) in G by (rewrite len_app; cbn; lia). injection G as G. exact G.
Qed.
Lemma val_snoc_r (B : list R) x : val (B ++ [x]) (len B) = x.
Proof.
  assert (G : get (B ++ [x]) (len B) = Ok x) by (rewrite get_app_r by lia; rewrite Z.sub_diag; reflexivity).
  rewrite (get_at 0%R (B ++ [x])) in G by (rewrite len_app; pose proof (len_nonneg B); cbn; lia). injection G as G. exact G.
Qed.

Lemma after_inv bz' a b nb B F : p <= a <= n -> (val U a < val U (a + 1))%R -> nb = jumps (val U) a -> a + 1 <= b <= n ->
  (forall j, a + 1 <= j <= b -> val U j = val U (a + 1)) -> (val U b < val U (b + 1))%R -> occ U (val U b) <= p ->
  len B = nb + 1 -> increasing B -> (forall x, In x B <-> exists i, 0 <= i <= a /\ val U i = x) -> val B nb = val U a -> (forall x, 0 <= x < nb -> seg_done B F x) ->
  after_pass a b rows nb F bz' -> Inv (bz', b, b + 1, nb + 1).
Proof.
  intros Ha Hlt Enb Hb He Hb1 Ho LB IB Bin Bl Hd Hap'. assert (Eb : val U b = val U (a + 1)) by (apply He; lia).
  assert (0 <= nb) by (rewrite Enb; pose proof (jumps_mono (val U) 0 a ltac:(lia) ltac:(lia)); rewrite jumps_0 in *; lia).
  split; [lia|]. split; [exact Hb1|]. split.
  { rewrite Enb. rewrite (jumps_flat (val U) (a + 1) b) by (try lia; intros; apply He; lia). rewrite jumps_succ by lia. destruct (Req_EM_T (val U (a + 1)) (val U a)); [lra|reflexivity]. }
  split; [|left; reflexivity].
  exists (B ++ [val U b]), (fun x k => if x <? nb then F x k else if x =? nb then fin a k else cur b k).
  split; [rewrite len_app; cbn; lia|]. split.
  { apply inc_snoc; [exact IB|]. intros _. replace (len B - 1) with nb by lia. lra. }
  split.
  { intros x. rewrite in_app_iff, Bin. cbn [In]. split.
    - intros [(i & Hi & E)|[E|[]]]; [exists i; split; [lia|exact E]|exists b; split; [lia|exact E]].
    - intros (i & Hi & E). destruct (Z_le_gt_dec i a); [left; exists i; split; [lia|exact E]|]. right. left. rewrite <- E, Eb. symmetry. apply He. lia. }
  split; [rewrite <- LB; apply val_snoc_r|]. split; [exact Hap'|]. split.
  { intros k Hk. destruct (Z.ltb_spec (nb + 1) nb); [lia|]. destruct (Z.eqb_spec (nb + 1) nb); [lia|reflexivity]. }
  intros x Hx. destruct (Z.eq_dec x nb) as [->|].
  - exists a. split; [lia|]. split; [exact Hlt|]. split; [rewrite val_snoc_l by lia; exact Bl|]. split; [rewrite <- LB, val_snoc_r; exact Eb|].
    split; [left; rewrite <- Eb; exact Ho|]. intros k Hk. destruct (Z.ltb_spec nb nb); [lia|]. rewrite Z.eqb_refl. reflexivity.
  - destruct (Hd x ltac:(lia)) as (a' & A1 & A2 & A3 & A4 & A5 & A6). exists a'. split; [exact A1|]. split; [exact A2|]. rewrite !val_snoc_l by lia. split; [exact A3|]. split; [exact A4|]. split; [exact A5|].
    intros k Hk. destruct (Z.ltb_spec x nb); [apply A6; exact Hk|lia].
Qed.

Lemma more_rows a b : p <= a -> (val U a < val U (a + 1))%R -> a + 1 <= b <= n -> (val U b < val U (b + 1))%R -> jumps (val U) a + 1 < rows.
Proof.
  intros Ha Hlt Hb Hb1. unfold rows. pose proof (jumps_mono (val U) (a + 1) b ltac:(lia) ltac:(lia)). pose proof (jumps_mono (val U) (b + 1) m ltac:(lia) ltac:(unfold m; lia)).
  rewrite !jumps_succ in * by lia. destruct (Req_EM_T (val U (a + 1)) (val U a)); [lra|]. destruct (Req_EM_T (val U (b + 1)) (val U b)); [lra|]. lia.
Qed.

Lemma bez_loop {X} (k : list R -> res X) (G : res X -> Prop) : G (k (bezier_knots p)) ->
  G (let! bezierKnots := mkvec (2 * (p + 1)) n0 in
      let! bezierKnots := for_up 0 (Z.quot (2 * (p + 1)) 2) bezierKnots (fun i v => upd v i n0) in
      let! bezierKnots := for_up (Z.quot (2 * (p + 1)) 2) (2 * (p + 1)) bezierKnots (fun i v => upd v i n1) in k bezierKnots).
Proof.
  intros HG. replace (Z.quot (2 * (p + 1)) 2) with (p + 1) by (rewrite Z.mul_comm, Z.quot_mul; lia). change (n0 : R) with 0%R. change (n1 : R) with 1%R.
  set (f := fun i => if i <? p + 1 then 0%R else 1%R).
  eapply wp_run; [apply wp_mkvec with (Q := fun l => arr l (2 * (p + 1)) (fun _ => 0%R)); [lia|auto]|]. intros v0 Hv0.
  eapply wp_run.
  { apply (wp_fill 0 (p + 1) 0 (2 * (p + 1)) (fun _ => False) f v0); [split; [apply (arr_len _ _ _ Hv0)|tauto]|lia| |intros v H; exact H].
    intros i v Hi _. unfold f. rewrite Z.add_0_r. destruct (Z.ltb_spec i (p + 1)); [reflexivity|lia]. }
  intros v1 Hv1. eapply wp_run.
  { apply (wp_fill (p + 1) (2 * (p + 1)) 0 (2 * (p + 1)) _ f v1 _ _ Hv1); [lia| |intros v H; exact H].
    intros i v Hi _. unfold f. rewrite Z.add_0_r. destruct (Z.ltb_spec i (p + 1)); [lia|reflexivity]. }
  intros v2 Hv2. assert (A2 : arr v2 (2 * (p + 1)) f) by (eapply arr_of_arrD; [exact Hv2|]; dl).
  replace v2 with (bezier_knots p); [exact HG|]. eapply arr_inj; [|exact A2]. replace (2 * (p + 1)) with (p + 1 + (p + 1)) by lia.
  unfold bezier_knots, f. apply (arr_app _ _ (p + 1) (p + 1) (fun _ => 0%R) (fun _ => 1%R)); apply arr_repeat; lia.
Qed.

Lemma occ_small x : (forall x, (val U p < x < val U (n + 1))%R -> occ U x <= p + 1) -> In x U -> occ U x <= p + 1.
Proof.
  intros Hin Hx. destruct (In_val _ _ Hx) as (i & Hi & Ei). pose proof (ck_first _ _ _ HU) as H1. pose proof (ck_last _ _ _ HU) as H2.
  pose proof (tol_pos (val U p) (val U (p + 1))). pose proof (tol_pos (val U n) (val U (n + 1))). unfold occ.
  destruct (Rlt_le_dec (val U p) x) as [Hp|Hp]; [destruct (Rlt_le_dec x (val U (n + 1))) as [Hn|Hn]|].
  - specialize (Hin x (conj Hp Hn)). unfold occ in Hin. lia.
  - rewrite (count_range U x (n + 1) (len U)); try lia.
    + intros j Hj. pose proof (HS j n ltac:(lia) ltac:(lia) ltac:(lia)). lra.
    + intros j Hj. rewrite (last_run j) by (unfold m; lia). pose proof (HS i m ltac:(lia) ltac:(unfold m; lia) ltac:(unfold m; lia)). rewrite <- (last_run (n + 1)) in * by (unfold m; lia). lra.
  - rewrite (count_range U x 0 (p + 1)); try lia.
    + intros j Hj. rewrite first_run by lia. pose proof (HS 0 i ltac:(lia) ltac:(lia) ltac:(lia)). rewrite (first_run 0) in * by lia. lra.
    + intros j Hj. pose proof (HS (p + 1) j ltac:(lia) ltac:(lia) ltac:(lia)). lra.
Qed.

(* everything before the loop *)
Lemma dec_start fuel (G : res (list (Curve R T)) -> Prop) : (forall x, (val U p < x < val U (n + 1))%R -> occ U x <= p + 1) ->
  (forall bz1, 0 < rows -> arr2D bz1 rows (p + 1) (fun x k => x = 0 /\ k < p + 1) (fun _ k => pt P k) ->
    G (let! s := while_ fuel (fun '(_, _, b, _) => Ok (b <? m)) (bz1, p, p + 1, 0) (dec_body p m U P) in
       let '(bz, _, _, _) := s in Ok (map (mkCurve p (bezier_knots p)) bz))) ->
  G (DecomposeToBeziers fuel (mkCurve p U P)).
Proof.
  intros Hocc HG. unfold DecomposeToBeziers. cbn [Degree KnotVector ControlPoints]. cbv zeta. pose proof AU as AU.
  pose proof (ck_first _ _ _ HU) as H1. pose proof (tol_pos (val U p) (val U (p + 1))).
  apply wp_run with (R0 := fun _ => True).
  { apply wp_for_up with (P := fun _ _ => True); [lia|exact I| |auto].
    intros i _ Hi _. rewrite HL in Hi. wget AU. rewrite GetKnotMultiplicity_exact; [|lia|exact HS| |].
    - cbn [bind]. pose proof (occ_small (val U i) Hocc (val_In U i ltac:(lia))) as Ho. unfold occ in Ho. unfold validate. destruct (Z.leb_spec (Z.of_nat (count_occ Req_EM_T U (val U i))) (p + 1)); [exact I|lia].
    - split; apply HS; lia.
    - apply apart_exact. intros y Hy. apply Hap; [apply val_In; lia|exact Hy]. }
  intros _ _. apply bez_loop. rewrite HP. replace (n + 1 - 1) with n by lia. fold m.
  apply wp_run with (R0 := fun x => x = 1 + jumps (val U) m).
  { apply wp_for_up with (P := fun i x => x = if i =? 0 then 0 else 1 + jumps (val U) (i - 1)); [unfold m; lia|reflexivity| |].
    - intros i x Hi ->. destruct (Z.eqb_spec i 0) as [->|Hi0]; [cbn [wp]; destruct (Z.eqb_spec (0 + 1) 0); [lia|]; reflexivity|].
      wget AU. wget AU. rewrite knot_aeq by lia. cbn [wp]. destruct (Z.eqb_spec (i + 1) 0); [lia|]. replace (i + 1 - 1) with (i - 1 + 1) by lia. rewrite jumps_succ by lia.
      replace (i - 1 + 1) with i by lia. destruct (Req_EM_T (val U i) (val U (i - 1))); cbn [negb]; lia.
    - intros x ->. destruct (Z.eqb_spec (m + 1) 0); [unfold m in *; lia|]. replace (m + 1 - 1) with m by lia. reflexivity. }
  intros x ->. replace (1 + jumps (val U) m - 1) with rows by (unfold rows; lia).
  assert (Hr : 0 < rows).
  { unfold rows. pose proof (jumps_mono (val U) (p + 1) m ltac:(lia) ltac:(unfold m; lia)) as J. rewrite jumps_succ in J by lia. destruct (Req_EM_T (val U (p + 1)) (val U p)); [lra|].
    pose proof (jumps_mono (val U) 0 p ltac:(lia) ltac:(lia)). rewrite jumps_0 in *. lia. }
  eapply wp_run; [apply wp_mkvec with (Q := fun l => arr l (p + 1) (fun _ => vzero)); [lia|auto]|]. intros row Hrow.
  eapply wp_run; [apply (wp_mkvec2 vzero rows (p + 1) row (fun b => arr2 b rows (p + 1) (fun _ _ => vzero))); [lia|exact Hrow|auto]|]. intros bz0 Hbz0.
  pose proof (arr_pt P _ HP) as AP. eapply wp_run; [|intros bz1 Hbz1; apply HG; [exact Hr|exact Hbz1]].
  apply wp_for_up with (P := fun i bz => arr2D bz rows (p + 1) (fun x k => x = 0 /\ k < i) (fun _ k => pt P k)); [lia| | |auto].
  { eapply arr2D_ext; [apply (arr2_D _ _ _ (fun _ _ => False)); exact Hbz0|]. intros; lia. }
  { intros i v Hi Hv. wget AP. eapply arr2D_set; [exact Hv|lia|lia|reflexivity| |intros v' Hv'; exact Hv']. dl. }
Qed.

(* degree 1: the multiplicity is never below the degree, so no segment is ever finished *)
Lemma dec_linear fuel : p = 1 -> 2 <= n -> (forall x, (val U p < x < val U (n + 1))%R -> occ U x <= p + 1) ->
  DecomposeToBeziers fuel (mkCurve p U P) = OutOfFuel.
Proof.
  intros Ep Hn2 Hocc. apply (dec_start fuel (fun r => r = OutOfFuel) Hocc). intros bz1 _ _.
  rewrite (while_diverges (fun s => 1 <= snd (fst s) <= n)); [reflexivity| |cbn [fst snd]; lia].
  intros [[[bz a] b] nb] Hb. cbn [fst snd] in Hb. destruct (Z.ltb_spec b m); [|unfold m in *; lia]. split; [reflexivity|].
  unfold dec_body. assert (HR : wp (dec_run (length U) m U b) (fun b' => b <= b' <= n)).
  { apply dec_run_ok; [lia|]. intros b' Hb' He _. split; [lia|]. destruct (Z_le_gt_dec b' n); [assumption|].
    specialize (He (n + 1) ltac:(lia)). pose proof (ck_last _ _ _ HU). pose proof (tol_pos (val U n) (val U (n + 1))).
    pose proof (HS b n ltac:(lia) ltac:(lia) ltac:(rewrite HL; lia)). lra. }
  destruct (wp_elim _ _ HR) as (b' & E & Hb'). rewrite E. cbn [bind]. destruct (Z.ltb_spec (b' - b + 1) p); [lia|].
  eexists. split; [reflexivity|]. cbn [fst snd]. lia.
Qed.

Hypothesis Hmul : forall x, (val U p < x < val U (n + 1))%R -> occ U x < p \/ (p = 2 /\ occ U x = 2).

Lemma dec_body_ok bz a b nb : Inv (bz, a, b, nb) -> b < m ->
  wp (dec_body p m U P (bz, a, b, nb)) (fun s' => Inv s' /\ b < snd (fst s') <= m).
Proof.
  intros (Ha & Hlt & Enb & (B & F & LB & IB & Bin & Bl & HF & Hc & Hd) & Hor) Hbm.
  assert (Hnb : 0 <= nb) by (rewrite Enb; pose proof (jumps_mono (val U) 0 a ltac:(lia) ltac:(lia)); rewrite jumps_0 in *; lia).
  unfold dec_body. apply wp_bind. apply dec_run_ok; [lia|]. intros b' Hb' He Hend.
  destruct Hor as [->|[[-> ->]|(Ep & Eb & Hbn & E1 & E2)]]; [|lia|].
  - replace (b' - (a + 1) + 1) with (b' - a) by lia.
    destruct (run_cases a b' Ha Hlt Hb' He Hend) as [[-> ->]|(Hbn & Eo & Hin & Hb1)].
    + destruct (Z.ltb_spec (m - n) p); [unfold m in *; lia|]. cbn [wp]. split; [|cbn [fst snd]; unfold m in *; lia].
      split; [lia|]. split; [exact Hlt|]. split; [exact Enb|]. split; [exists B, F; auto 10|]. right. left. auto.
    + specialize (Hmul _ Hin). destruct (Z.ltb_spec (b' - a) p) as [Hlp|Hlp].
      * change (wp (dec_tail a b' bz nb (b' - a)) (fun s' => Inv s' /\ a + 1 < snd (fst s') <= m)).
        apply (dec_tail_ok a b' Ha Hlt ltac:(lia) He Hb1 ltac:(lia) bz rows nb F HF Hnb); auto.
        { rewrite Enb. apply (more_rows a b'); auto; lia. }
        intros bz' Hz. split; [|cbn [fst snd]; unfold m in *; lia]. apply (after_inv bz' a b' nb B F); auto; lia.
      * destruct Hmul as [|[E2 E3]]; [lia|]. cbn [wp]. split; [|cbn [fst snd]; unfold m in *; lia].
        split; [lia|]. split; [exact Hlt|]. split; [exact Enb|]. split; [exists B, F; auto 10|]. right. right. split; [exact E2|]. split; [lia|]. split; [exact Hbn|]. split; [apply He; lia|exact Hb1].
  - assert (b' = b) as ->. { destruct (Z.eq_dec b' b); [assumption|]. specialize (He (b + 1) ltac:(lia)). lra. }
    replace (b - b + 1) with 1 by lia. destruct (Z.ltb_spec 1 p); [|lia].
    assert (He2 : forall j, a + 1 <= j <= b -> val U j = val U (a + 1)).
    { intros j Hj. destruct (Z.eq_dec j (a + 1)) as [->|]; [reflexivity|]. replace j with b by lia. exact E1. }
    assert (Hin : (val U p < val U b < val U (n + 1))%R).
    { pose proof (HS p a ltac:(lia) ltac:(lia) ltac:(rewrite HL; lia)). pose proof (HS (b + 1) (n + 1) ltac:(lia) ltac:(lia) ltac:(rewrite HL; lia)). lra. }
    change (wp (dec_tail a b bz nb 1) (fun s' => Inv s' /\ b < snd (fst s') <= m)).
    apply (dec_tail_two a b Ha Hlt ltac:(lia) He2 E2 ltac:(lia) bz rows nb F HF Hnb); auto.
    { rewrite Enb. apply (more_rows a b); auto; lia. }
    intros bz' Hz. split; [|cbn [fst snd]; unfold m in *; lia]. specialize (Hmul _ Hin). apply (after_inv bz' a b nb B F); auto; lia.
Qed.

Lemma Decompose_ok fuel : n <= Z.of_nat fuel ->
  returns (DecomposeToBeziers fuel (mkCurve p U P)) (fun cs => exists B, increasing B /\ (forall x, In x B <-> In x U) /\ len cs = len B - 1 /\
    forall j, 0 <= j < len cs -> exists Q, get cs j = Ok (mkCurve p (bezier_knots p) Q) /\ len Q = p + 1 /\
      forall s, (0 <= s <= 1)%R -> curve_point p p (bezier_knots p) Q s = curve_point p n U P ((1 - s) * val B j + s * val B (j + 1))).
Proof.
  intros Hfuel. apply wp_elim. apply (dec_start fuel (fun r => wp r _)).
  { intros x Hx. specialize (Hmul x Hx). lia. }
  intros bz1 Hr Hbz1. apply wp_bind. pose proof (ck_first _ _ _ HU) as H1. pose proof (tol_pos (val U p) (val U (p + 1))).
  assert (J0 : jumps (val U) p = 0) by (rewrite (jumps_flat (val U) 0 p) by (try lia; intros k Hk; rewrite (first_run k), (first_run 0) by lia; reflexivity); apply jumps_0).
  apply wp_while with (I := fun s => Inv s /\ snd (fst s) <= m) (mu := fun s => Z.to_nat (m - snd (fst s))).
  { split; [|cbn [fst snd]; unfold m; lia]. split; [lia|]. split; [lra|]. split; [lia|]. split; [|left; reflexivity].
    exists [val U p], (fun _ k => pt P k). split; [reflexivity|]. split; [intros i j Hi Hij Hj; cbn in Hj; lia|]. split.
    { intros x. cbn [In]. split; [intros [E|[]]; exists p; split; [lia|exact E]|]. intros (i & Hi & E). left. rewrite <- E. symmetry. apply first_run. lia. }
    split; [reflexivity|]. split; [eapply arr2D_ext; [exact Hbz1|]; intros x k Hx Hk Hd; split; [dl|reflexivity]|]. split; [|intros; lia].
    intros k Hk. unfold cur. assert (G : good (val U) p p) by (apply (span_good p n); auto; [lia|lra]). rewrite <- (bl_knots (val U) p p (pt P) k) by (auto; lia). f_equal.
    assert (Ew : win (val U) k (p - k + k) = repeat (val U p) (Z.to_nat (p - k)) ++ win (val U) p k).
    { rewrite win_app by lia. f_equal; [|f_equal; lia]. apply win_const. intros r0 Hr0. apply first_run. lia. }
    replace (p - k + k) with p in Ew by lia. rewrite Ew. reflexivity. }
  { cbn [fst snd]. unfold m. lia. }
  intros [[[bz a] b] nb] [HI Hbm]. cbn [fst snd] in *. cbn [wp]. destruct (Z.ltb_spec b m).
  { eapply wp_mono; [apply dec_body_ok; assumption|]. cbv beta. intros [[[bz' a'] b'] nb'] [HI' Hb']. cbn [fst snd] in *. split; [split; [exact HI'|lia]|lia]. }
  destruct HI as (Ha & Hlt & Enb & (B & F & LB & IB & Bin & Bl & HF & Hc & Hd) & Hor).
  assert (a = n) as ->. { destruct Hor as [->|[[_ ->]|(? & ? & ? & _)]]; unfold m in *; lia. }
  assert (Er : rows = nb + 1).
  { unfold rows. rewrite (jumps_flat (val U) (n + 1) m) by (try (unfold m; lia); intros k Hk; rewrite (last_run k), (last_run (n + 1)) by (unfold m in *; lia); reflexivity).
    rewrite jumps_succ by lia. rewrite <- Enb. destruct (Req_EM_T (val U (n + 1)) (val U n)); [lra|reflexivity]. }
  assert (Hnb : 0 <= nb) by lia. assert (Hf : forall k, 0 <= k <= p -> F nb k = fin n k).
  { intros k Hk. rewrite Hc by lia. unfold cur, fin. do 2 f_equal. apply win_const. intros r Hrr. rewrite (last_run (n + r)), (last_run (n + 1)) by (unfold m; lia). reflexivity. }
  cbn [wp]. set (B' := B ++ [val U (n + 1)]). exists B'.
  assert (LB' : len B' = nb + 2) by (unfold B'; rewrite len_app; cbn; lia).
  assert (Lm : len (map (mkCurve p (bezier_knots p)) bz) = nb + 1) by (destruct HF as [Hl _]; unfold len in *; rewrite map_length; lia).
  split; [apply inc_snoc; [exact IB|]; intros _; replace (len B - 1) with nb by lia; lra|]. split.
  { intros x. unfold B'. rewrite in_app_iff, Bin. cbn [In]. split.
    - intros [(i & Hi & <-)|[<-|[]]]; apply val_In; lia.
    - intros Hx. destruct (In_val _ _ Hx) as (i & Hi & E). destruct (Z_le_gt_dec i n); [left; exists i; split; [lia|exact E]|].
      right. left. rewrite <- E, (last_run i), (last_run (n + 1)) by (unfold m; lia). reflexivity. }
  split; [lia|]. rewrite Lm. intros j Hj.
  assert (Hsd : seg_done B' F j).
  { destruct (Z.eq_dec j nb) as [->|].
    - exists n. split; [lia|]. split; [exact Hlt|]. unfold B'. split; [rewrite val_snoc_l by lia; exact Bl|]. split; [rewrite <- LB; apply val_snoc_r|]. split; [right; reflexivity|exact Hf].
    - destruct (Hd j ltac:(lia)) as (a' & A1 & A2 & A3 & A4 & A5 & A6). exists a'. unfold B'. rewrite !val_snoc_l by lia. auto 10. }
  destruct Hsd as (a' & A1 & A2 & A3 & A4 & A5 & A6). destruct HF as [Hl HF]. destruct (HF j ltac:(lia)) as (Q & EQ & AQ).
  exists Q. split; [|split; [apply AQ|]].
  - unfold get in *. destruct (j <? 0); [discriminate|]. rewrite nth_error_map. destruct (nth_error bz (Z.to_nat j)); [|discriminate]. injection EQ as ->. reflexivity.
  - intros s Hs. rewrite A3, A4. apply bez_point; auto. intros k Hk. fold (fin a' k). rewrite <- A6 by exact Hk.
    assert (G : get Q k = Ok (F j k)) by (apply (arrD_get _ _ _ _ _ AQ); lia). unfold pt. rewrite (get_at vzero Q k) in G by (destruct AQ as [-> _]; lia). injection G as G. exact G.
Qed.

End Dec.
