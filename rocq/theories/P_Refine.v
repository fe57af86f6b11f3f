(* Knot refinement. *)
From Coq Require Import ZArith List Bool Reals Lra Lia Permutation.
From Verif Require Import Base Num Vec Tac Spec Spec2 M_MathUtils M_Polynomials M_Bspline M_NurbsCurve
  P_MathUtils P_Span P_Cox P_Vec P_VSum P_Curve P_Bspline P_Blossom P_Insert P_Insert2 P_Loop.
Import ListNotations.
Open Scope Z_scope.

Lemma In_val x (l : list R) : In x l -> exists i, 0 <= i < len l /\ val l i = x.
Proof.
  intros H. destruct (In_nth l x 0%R H) as (i & Hi & E). exists (Z.of_nat i). split; [unfold len; lia|].
  unfold val, at_. rewrite Nat2Z.id. exact E.
Qed.

Lemma apart_sym x y : apart x y -> apart y x.
Proof. intros [->|H]; [left; reflexivity|right]. rewrite tol_sym, Rabs_minus_sym. exact H. Qed.

Lemma apart_lt x y : apart x y -> (x < y)%R -> (x + tol x y < y)%R.
Proof. intros [->|H] Hlt; [lra|]. rewrite Rabs_left in H by lra. pose proof (tol_pos x y). lra. Qed.

Lemma apart_diff x y : apart x y -> IsAlmostEqualTo (x - y)%R 0%R = true -> x = y.
Proof.
  intros [->|H] E; [reflexivity|]. apply aeq_iff in E. rewrite <- tol_thr in E. exfalso.
  assert (tol (x - y) 0 <= 2 * tol x y)%R; [|rewrite Rminus_0_r in E; lra].
  unfold tol. rewrite Rabs_R0, Rmax_left by apply Rabs_pos. pose proof (Rmax_l (Rabs x) (Rabs y)). pose proof (Rmax_r (Rabs x) (Rabs y)).
  pose proof (Rabs_triang x (- y)) as Tr. rewrite Rabs_Ropp in Tr. unfold Rminus. lra.
Qed.

Lemma aeq_small d : IsAlmostEqualTo d 0%R = true -> (Rabs d <= 1 / 999999)%R.
Proof.
  intros E. apply aeq_iff in E. rewrite <- tol_thr in E. unfold tol in E. rewrite Rabs_R0, Rminus_0_r, Rmax_left in E by apply Rabs_pos. lra.
Qed.

Lemma apart_big x y : apart x y -> (x < y)%R -> (2 / 1000000 < y - x)%R.
Proof.
  intros [->|H] Hlt; [lra|]. rewrite Rabs_left in H by lra. unfold tol in H. pose proof (Rmax_l (Rabs x) (Rabs y)). pose proof (Rabs_pos x). lra.
Qed.

Section Refine.
Context {T : Type} {VV : Vec R T} {L : VecL T}.

(* the points D over the knots V (control points 0..n) have on every non-empty span the
   polar values of the curve with knots U and points P *)
Definition refines (p m : Z) (U : Z -> R) (P : Z -> T) (n : Z) (V : Z -> R) (D : Z -> T) : Prop :=
  forall q kk, p <= q <= n -> (V q < V (q + 1)%Z)%R -> p <= kk <= m -> good U kk p -> (U kk <= V q)%R -> (V (q + 1)%Z <= U (kk + 1)%Z)%R ->
  forall x, q - p <= x <= q -> D x = bl U p P (win V x p) kk.

Lemma refines_point p n U (P : list T) n' V Q t : curve_knots p n U -> curve_knots p n' V ->
  (forall x, In x U -> In x V) -> val V p = val U p -> val V (n' + 1) = val U (n + 1) ->
  refines p n (val U) (pt P) n' (val V) (pt Q) -> in_domain p n U t ->
  curve_point p n' V Q t = curve_point p n U P t.
Proof.
  intros Hc Hc' Hin Ef El Hr Hd. pose proof Hc as [Hp Hn Hl Hs _ _]. pose proof Hc' as [_ Hn' Hl' Hs' _ _].
  assert (Hd' : in_domain p n' V t) by (unfold in_domain in *; rewrite Ef, El; exact Hd).
  destruct (find_span _ _ _ _ Hc Hd) as (kk & _ & Hk). destruct (find_span _ _ _ _ Hc' Hd') as (q & _ & Hq).
  apply (refine_point p n U P n' V Q t kk q); auto. pose proof (span_of_good _ _ _ _ _ Hc Hk) as Hg.
  destruct Hk as (K1 & K2 & K3 & K4). destruct Hq as (Q1 & Q2 & Q3 & Q4).
  apply (Hr q kk); auto.
  - destruct (In_val _ _ (Hin _ (val_In U kk ltac:(lia)))) as (x & Hx & Ex). rewrite <- Ex.
    destruct (Z.le_gt_cases x q) as [C|C]; [apply Hs'; lia|].
    pose proof (Hs' (q + 1) x ltac:(lia) ltac:(lia) ltac:(lia)). destruct Q4 as [Q4|[Q4 Q5]]; [lra|].
    subst q. rewrite Q5, El in *. pose proof (Hs (kk + 1) (n + 1) ltac:(lia) ltac:(lia) ltac:(lia)). lra.
  - destruct Q4 as [Q4|[Q4 Q5]].
    + destruct (In_val _ _ (Hin _ (val_In U (kk + 1) ltac:(lia)))) as (x & Hx & Ex). rewrite <- Ex.
      destruct (Z.le_gt_cases (q + 1) x) as [C|C]; [apply Hs'; lia|].
      pose proof (Hs' x q ltac:(lia) ltac:(lia) ltac:(lia)). destruct K4 as [K4|[K4 K5]]; [lra|]. subst kk.
      pose proof (Hs' (q + 1) (n' + 1) ltac:(lia) ltac:(lia) ltac:(lia)). lra.
    + subst q. rewrite El. destruct K4 as [K4|[K4 K5]]; [|subst kk; lra].
      pose proof (Hs (kk + 1) (n + 1) ltac:(lia) ltac:(lia) ltac:(lia)). lra.
Qed.

(* one insertion *)
Definition insD (p i : Z) (V : Z -> R) (D : Z -> T) (X : R) (x : Z) : T :=
  if x <=? i - p then D x else if i <? x then D (x - 1)
  else if Req_EM_T (V (x + p)) X then D x else deB V p D X x.

Lemma insU_1 V i X x : insU V i 1 X x = if x <=? i then V x else if x =? i + 1 then X else V (x - 1).
Proof.
  unfold insU. destruct (Z.leb_spec x i); [reflexivity|]. destruct (Z.leb_spec x (i + 1)), (Z.eqb_spec x (i + 1)); try lia; reflexivity.
Qed.

Lemma win_ins_perm p V i X x : i - p < x <= i -> Permutation (win (insU V i 1 X) x p) (X :: win V x (p - 1)).
Proof.
  intros Hx. replace (win (insU V i 1 X) x p) with (win (insU V i 1 X) x ((i - x) + (1 + (p - 1 - (i - x))))) by (f_equal; lia).
  rewrite win_app by lia. rewrite win_app by lia.
  replace (win V x (p - 1)) with (win V x ((i - x) + (p - 1 - (i - x)))) by (f_equal; lia). rewrite win_app by lia.
  rewrite (win_ext (insU V i 1 X) V x x (i - x)).
  2:{ intros r Hr. rewrite insU_1. destruct (Z.leb_spec (x + r) i); [reflexivity|lia]. }
  rewrite (win_ext (insU V i 1 X) V (x + (i - x) + 1) (x + (i - x)) (p - 1 - (i - x))).
  2:{ intros r Hr. rewrite insU_1. destruct (Z.leb_spec (x + (i - x) + 1 + r) i); [lia|]. destruct (Z.eqb_spec (x + (i - x) + 1 + r) (i + 1)); [lia|f_equal; lia]. }
  rewrite (win_cons _ (x + (i - x)) 1) by lia. change (1 - 1) with 0. rewrite (win_nil _ _ 0) by lia. rewrite insU_1. replace (x + (i - x) + 1) with (i + 1) by lia.
  destruct (Z.leb_spec (i + 1) i); [lia|]. rewrite Z.eqb_refl. cbn [app]. symmetry. apply Permutation_middle.
Qed.

Lemma refines_insert p m U P V n D i X : 0 <= p -> p <= i <= n ->
  (forall a b, 0 <= a -> a <= b -> b <= n + p + 1 -> (V a <= V b)%R) ->
  (forall z, 0 <= z <= m + p + 1 -> exists y, 0 <= y <= n + p + 1 /\ V y = U z) ->
  (V i <= X <= V (i + 1)%Z)%R ->
  refines p m U P n V D -> refines p m U P (n + 1) (insU V i 1 X) (insD p i V D X).
Proof.
  intros Hp Hi Hs Hin HX HR q' kk Hq Hlt Hkk Hg H1 H2 x Hx.
  assert (Low : (U kk <= X)%R -> (X < V (i + 1)%Z)%R -> (U kk <= V i)%R).
  { intros G1 G2. destruct (Hin kk ltac:(lia)) as (y & Hy & Ey). rewrite <- Ey.
    destruct (Z.le_gt_cases y i) as [C|C]; [apply Hs; lia|]. pose proof (Hs (i + 1) y ltac:(lia) ltac:(lia) ltac:(lia)). lra. }
  assert (High : (X <= U (kk + 1)%Z)%R -> (V i < X)%R -> (V (i + 1)%Z <= U (kk + 1)%Z)%R).
  { intros G1 G2. destruct (Hin (kk + 1) ltac:(lia)) as (y & Hy & Ey). rewrite <- Ey.
    destruct (Z.le_gt_cases (i + 1) y) as [C|C]; [apply Hs; lia|]. pose proof (Hs y i ltac:(lia) ltac:(lia) ltac:(lia)). lra. }
  (* points in the affected range, from the old span q *)
  assert (Mid : forall q, p <= q <= n -> (V q < V (q + 1)%Z)%R -> (U kk <= V q)%R -> (V (q + 1)%Z <= U (kk + 1)%Z)%R ->
    q - p <= x - 1 -> x <= q -> i - p < x <= i -> insD p i V D X x = bl U p P (win (insU V i 1 X) x p) kk).
  { intros q Q1 Q2 Q3 Q4 Q5 Q6 Q7. unfold insD. destruct (Z.leb_spec x (i - p)); [lia|]. destruct (Z.ltb_spec i x); [lia|].
    rewrite (bl_perm U kk _ _ (win_ins_perm p V i X x Q7)) by (auto; unfold len; rewrite win_len; lia).
    destruct (Req_EM_T (V (x + p)) X) as [E|E].
    - rewrite (HR q kk) by (auto; lia). apply (bl_perm U kk); [|exact Hg|unfold len; rewrite win_len; lia].
      rewrite <- E. apply win_snoc_perm. lia.
    - pose proof (Hs x i ltac:(lia) ltac:(lia) ltac:(lia)) as S1. pose proof (Hs (i + 1) (x + p) ltac:(lia) ltac:(lia) ltac:(lia)) as S2.
      unfold deB. set (al := ((X - V x) / (V (x + p)%Z - V x))%R).
      assert (EX : X = (al * V (x + p)%Z + (1 - al) * V x)%R) by (unfold al; field; lra).
      rewrite EX. rewrite bl_affine by ring. rewrite (HR q kk Q1 Q2 Hkk Hg Q3 Q4 x), (HR q kk Q1 Q2 Hkk Hg Q3 Q4 (x - 1)) by lia.
      f_equal; f_equal; apply (bl_perm U kk); auto; try (unfold len; rewrite win_len; lia).
      + apply win_snoc_perm. lia.
      + rewrite (win_cons V (x - 1)) by lia. replace (x - 1 + 1) with x by lia. apply Permutation_refl. }
  (* points right of it *)
  assert (Hi2 : forall q, p <= q <= n -> (V q < V (q + 1)%Z)%R -> (U kk <= V q)%R -> (V (q + 1)%Z <= U (kk + 1)%Z)%R ->
    q - p <= x - 1 <= q -> i < x -> insD p i V D X x = bl U p P (win (insU V i 1 X) x p) kk).
  { intros q Q1 Q2 Q3 Q4 Q5 Q6. unfold insD. destruct (Z.leb_spec x (i - p)); [lia|]. destruct (Z.ltb_spec i x); [|lia].
    rewrite (HR q kk) by (auto; lia). f_equal. apply win_ext. intros r Hr. rewrite insU_1.
    destruct (Z.leb_spec (x + r) i); [lia|]. destruct (Z.eqb_spec (x + r) (i + 1)); [lia|f_equal; lia]. }
  rewrite (insU_1 V i X q'), (insU_1 V i X (q' + 1)) in Hlt. rewrite insU_1 in H1, H2. revert Hlt H1 H2.
  destruct (Z.leb_spec q' i) as [C1|C1].
  - (* at or left of the insertion *)
    intros Hlt H1 H2.
    assert (Q2 : (V q' < V (q' + 1)%Z)%R /\ (V (q' + 1)%Z <= U (kk + 1)%Z)%R).
    { revert Hlt H2. destruct (Z.leb_spec (q' + 1) i); [auto|]. destruct (Z.eqb_spec (q' + 1) (i + 1)); [|lia]. assert (q' = i) by lia. subst q'.
      intros. split; [lra|]. apply High; lra. }
    destruct Q2 as [Q2 Q3]. destruct (Z.le_gt_cases x (i - p)) as [C2|C2].
    + unfold insD. destruct (Z.leb_spec x (i - p)); [|lia]. rewrite (HR q' kk) by (auto; lia). f_equal. apply win_ext.
      intros r Hr. rewrite insU_1. destruct (Z.leb_spec (x + r) i); [reflexivity|lia].
    + apply (Mid q'); auto; lia.
  - destruct (Z.leb_spec (q' + 1) i); [lia|]. destruct (Z.eqb_spec (q' + 1) (i + 1)); [lia|]. intros Hlt H1 H2.
    assert (Q2 : (V (q' - 1)%Z < V (q' - 1 + 1)%Z)%R /\ (U kk <= V (q' - 1)%Z)%R /\ (V (q' - 1 + 1)%Z <= U (kk + 1)%Z)%R).
    { replace (q' + 1 - 1) with q' in * by lia. replace (q' - 1 + 1) with q' by lia. revert Hlt H1.
      destruct (Z.eqb_spec q' (i + 1)) as [->|].
      - replace (i + 1 - 1) with i by lia. intros. split; [lra|]. split; [apply Low; lra|exact H2].
      - auto. }
    destruct Q2 as (Q2 & Q3 & Q4). destruct (Z.le_gt_cases x i) as [C2|C2].
    + apply (Mid (q' - 1)); auto; lia.
    + apply (Hi2 (q' - 1)); auto; lia.
Qed.

Lemma skipn_val (X : list R) j : 0 <= j < len X -> skipn (Z.to_nat j) X = val X j :: skipn (Z.to_nat (j + 1)) X.
Proof.
  intros H. unfold val, at_. replace (Z.to_nat (j + 1)) with (S (Z.to_nat j)) by lia.
  assert (Hl : (Z.to_nat j < length X)%nat) by (unfold len in H; lia). revert Hl. generalize (Z.to_nat j) as m. clear H.
  induction X as [|x X IH]; intros m Hm; [cbn in Hm; lia|]. destruct m as [|m]; [reflexivity|]. cbn in Hm |- *. rewrite IH by lia. reflexivity.
Qed.

(* the state before the insertion of X_j: X_{j+1} .. X_r are merged into V *)
Record rstate (p n : Z) (U X : list R) (P : list T) (r a j i : Z) (V : list R) (D : Z -> T) : Prop := {
  rs_len : len V = n + p + 2 + (r - j);
  rs_sorted : sorted V;
  rs_perm : Permutation V (skipn (Z.to_nat (j + 1)) X ++ U);
  rs_i : a <= i <= n + p;
  rs_low : forall x, 0 <= x <= i -> val V x = val U x;
  rs_high : forall x, n + 1 + (r - j) <= x < n + p + 2 + (r - j) -> val V x = val U (x - (r - j));
  rs_next : 0 <= j -> (val X j <= val V (i + 1))%R;
  rs_end : val V (n + (r - j)) = val U n \/ In (val V (n + (r - j))) X;
  rs_pts : forall x, 0 <= x <= i - p -> D x = pt P x;
  rs_ref : refines p n (val U) (pt P) (n + (r - j)) (val V) D }.

Definition rarrU (p n r a j k : Z) (U V Ub : list R) : Prop :=
  arrD Ub (n + p + r + 3) (fun x => x <= a \/ k < x) (fun x => if x <=? k then val U x else val V (x - (j + 1))).
Definition rarrQ (p n r a j k : Z) (P : list T) (D : Z -> T) (Q : list T) : Prop :=
  arrD Q (n + r + 2) (fun x => x <= a - p \/ k - p <= x) (fun x => if x <? k - p then pt P x else D (x - (j + 1))).

Section Run.
Variables (p n : Z) (U X : list R) (P : list T) (r a : Z).
Hypotheses (Hp : 0 <= p) (Hn : p <= n) (Hl : len U = n + p + 2) (HP : len P = n + 1) (HX : len X = r + 1) (Hr : 0 <= r)
  (HsU : sorted U) (HsX : sorted X) (Ha : p <= a <= n) (Hax : (val U a <= val X 0)%R)
  (Hxn : (val X r < val U (n + 1))%R)
  (Hsep : forall x y, In x X -> In y (X ++ U) -> apart x y).

Lemma X_ge j : 0 <= j <= r -> (val U a <= val X j)%R.
Proof. intros Hj. pose proof (HsX 0 j ltac:(lia) ltac:(lia) ltac:(lia)). lra. Qed.
Lemma X_lt j : 0 <= j <= r -> (val X j < val U (n + 1))%R.
Proof. intros Hj. pose proof (HsX j r ltac:(lia) ltac:(lia) ltac:(lia)). lra. Qed.

Lemma refine_shift_ok j i V D Ub Q fuel : 0 <= j <= r -> rstate p n U X P r a j i V D ->
  rarrU p n r a j (i + j + 1) U V Ub -> rarrQ p n r a j (i + j + 1) P D Q -> (n + p < Z.of_nat fuel) ->
  wp (refine_shift fuel p a U P (val X j) (Ub, Q, i, i + j + 1)) (fun '(Ub', Q', i', k') =>
    k' = i' + j + 1 /\ a <= i' <= n /\ (val U i' <= val X j)%R /\ rstate p n U X P r a j i' V D /\
    rarrU p n r a j k' U V Ub' /\ rarrQ p n r a j k' P D Q').
Proof.
  intros Hj HS HU HQ Hf. unfold refine_shift.
  assert (AU : arr U (n + p + 2) (val U)) by (rewrite <- Hl; apply arr_at). pose proof (arr_pt P _ HP) as AP.
  apply wp_while with (mu := fun '(_, _, i', _) => Z.to_nat (i' - a))
    (I := fun '(Ub', Q', i', k') => k' = i' + j + 1 /\ rstate p n U X P r a j i' V D /\ rarrU p n r a j k' U V Ub' /\ rarrQ p n r a j k' P D Q').
  - auto.
  - pose proof (rs_i _ _ _ _ _ _ _ _ _ _ _ HS). lia.
  - clear Ub Q HU HQ i HS. intros [[[Ub Q] i] k] (-> & HS & HU & HQ). destruct (rs_i _ _ _ _ _ _ _ _ _ _ _ HS) as [I1 I2].
    wget AU. cbn [wp]. change (nleb (val X j) (val U i)) with (Rleb (val X j) (val U i)).
    destruct (Rleb_spec (val X j) (val U i)) as [C|C]; destruct (Z.ltb_spec a i) as [C'|C']; cbn [andb].
    + (* shift *)
      assert (Hi : i - p - 1 <= n) by lia. wget AP.
      assert (Ei : (val U i <= val V (i + 1))%R).
      { rewrite <- (rs_low _ _ _ _ _ _ _ _ _ _ _ HS i) by lia. apply (rs_sorted _ _ _ _ _ _ _ _ _ _ _ HS); try lia.
        rewrite (rs_len _ _ _ _ _ _ _ _ _ _ _ HS). lia. }
      unfold rarrU, rarrQ in HU, HQ.
      wupd HQ. intros Q' HQ'. cbv beta. wupd HU. intros Ub' HU'. cbn [wp]. split; [|lia]. split; [lia|]. split; [|split].
      * destruct HS as [S1 S2 S3 S4 S5 S6 S7 S8 S9 S10]. split; auto; try lia.
        -- intros x Hx. apply S5. lia.
        -- intros _. replace (i - 1 + 1) with i by lia. rewrite S5 by lia. exact C.
        -- intros x Hx. apply S9. lia.
      * eapply arrD_ext; [exact HU'|]. cbv beta. intros x Hx Hd. split; [lia|].
        destruct (Z.eqb_spec x (i + j + 1)) as [->|].
        -- destruct (Z.leb_spec (i + j + 1) (i + j + 1 - 1)); [lia|]. replace (i + j + 1 - (j + 1)) with i by lia. symmetry. apply (rs_low _ _ _ _ _ _ _ _ _ _ _ HS). lia.
        -- zcase; try lia; reflexivity.
      * eapply arrD_ext; [exact HQ'|]. cbv beta. intros x Hx Hd. split; [lia|].
        destruct (Z.eqb_spec x (i + j + 1 - p - 1)) as [->|].
        -- destruct (Z.ltb_spec (i + j + 1 - p - 1) (i + j + 1 - 1 - p)); [lia|]. replace (i + j + 1 - p - 1 - (j + 1)) with (i - p - 1) by lia. symmetry. apply (rs_pts _ _ _ _ _ _ _ _ _ _ _ HS). lia.
        -- zcase; try lia; reflexivity.
    + assert (i = a) by lia. subst i. pose proof (X_ge j Hj). split; [reflexivity|]. split; [lia|]. split; [lra|]. auto.
    + split; [reflexivity|]. split; [|split; [lra|auto]].
      split; [lia|]. pose proof (X_lt j Hj). destruct (Z.le_gt_cases i n) as [G|G]; [exact G|]. pose proof (HsU (n + 1) i ltac:(lia) ltac:(lia) ltac:(lia)). lra.
    + assert (i = a) by lia. subst i. split; [reflexivity|]. split; [lia|]. split; [lra|]. auto.
Qed.

(* X_j goes behind index i of V *)
Lemma refine_insert_ok j i V D Ub Q : 0 <= j <= r -> a <= i <= n -> (val U i <= val X j)%R -> rstate p n U X P r a j i V D ->
  rarrU p n r a j (i + j + 1) U V Ub -> rarrQ p n r a j (i + j + 1) P D Q ->
  exists V' D', rstate p n U X P r a (j - 1) i V' D' /\ val V' (i + 1) = val X j /\
    arr V' (len V + 1) (insU (val V) i 1 (val X j)) /\ (forall x, D' x = insD p i (val V) D (val X j) x).
Proof.
  intros Hj Hi Hui HS HU HQ. destruct HS as [S1 S2 S3 S4 S5 S6 S7 S8 S9 S10].
  set (V' := mklist (len V + 1) (insU (val V) i 1 (val X j))).
  assert (AV : arr V' (len V + 1) (insU (val V) i 1 (val X j))) by (apply arr_mklist; lia).
  exists V', (insD p i (val V) D (val X j)).
  assert (Hvi : val V i = val U i) by (apply S5; lia).
  assert (HXI : (val V i <= val X j <= val V (i + 1))%R) by (rewrite Hvi; split; [exact Hui|apply S7; lia]).
  assert (EV : forall x, 0 <= x < len V + 1 -> val V' x = insU (val V) i 1 (val X j) x) by (intros; apply (arr_val _ _ _ _ AV); auto).
  split; [|split; [|split; auto]].
  2:{ rewrite EV by lia. rewrite insU_1. zcase; try lia; reflexivity. }
  split.
  - rewrite (arr_len _ _ _ AV). lia.
  - intros x y Hx Hxy Hy. rewrite (arr_len _ _ _ AV) in Hy. rewrite !EV by lia. rewrite (insU_1 _ _ _ x), (insU_1 _ _ _ y).
    destruct (Z.leb_spec x i), (Z.leb_spec y i); try lia.
    + apply S2; lia.
    + destruct (Z.eqb_spec y (i + 1)).
      * pose proof (S2 x i ltac:(lia) ltac:(lia) ltac:(lia)). lra.
      * apply S2; lia.
    + destruct (Z.eqb_spec x (i + 1)), (Z.eqb_spec y (i + 1)); try lia; try lra.
      * pose proof (S2 (i + 1) (y - 1) ltac:(lia) ltac:(lia) ltac:(lia)). lra.
      * apply S2; lia.
  - replace (j - 1 + 1) with j by lia. rewrite skipn_val by lia. cbn [app].
    transitivity (repeat (val X j) (Z.to_nat 1) ++ V); [|cbn; apply perm_skip; exact S3].
    apply (insU_perm V V' i 1); try lia. exact AV.
  - lia.
  - intros x Hx. rewrite EV by lia. rewrite insU_1. destruct (Z.leb_spec x i); [apply S5; lia|lia].
  - intros x Hx. rewrite EV by lia. rewrite insU_1. destruct (Z.leb_spec x i); [lia|]. destruct (Z.eqb_spec x (i + 1)); [lia|].
    rewrite S6 by lia. f_equal. lia.
  - intros Hj'. rewrite EV by lia. rewrite insU_1. destruct (Z.leb_spec (i + 1) i); [lia|]. rewrite Z.eqb_refl.
    apply HsX; lia.
  - rewrite EV by lia. rewrite insU_1. destruct (Z.leb_spec (n + (r - (j - 1))) i); [lia|].
    destruct (Z.eqb_spec (n + (r - (j - 1))) (i + 1)); [right; apply val_In; lia|]. replace (n + (r - (j - 1)) - 1) with (n + (r - j)) by lia. exact S8.
  - intros x Hx. unfold insD. destruct (Z.leb_spec x (i - p)); [apply S9; lia|lia].
  - replace (n + (r - (j - 1))) with (n + (r - j) + 1) by lia.
    assert (R' : refines p n (val U) (pt P) (n + (r - j) + 1) (insU (val V) i 1 (val X j)) (insD p i (val V) D (val X j))).
    { apply refines_insert; auto; try lia.
      - intros x y Hx Hxy Hy. apply S2; lia.
      - intros z Hz. destruct (In_val (val U z) V) as (y & Hy & Ey).
        + apply (Permutation_in _ (Permutation_sym S3)). apply in_or_app. right. apply val_In. lia.
        + exists y. split; [lia|exact Ey]. }
    intros q kk Hq Hlt Hkk Hg H1 H2 x Hx. rewrite EV in Hlt, H1, H2 by lia. rewrite (EV (q + 1)) in Hlt by lia.
    rewrite (R' q kk) by auto. f_equal. apply win_ext. intros y Hy. symmetry. apply EV. lia.
Qed.

Lemma refine_round j i V D Ub Q fuel : 0 <= j <= r -> rstate p n U X P r a j i V D ->
  rarrU p n r a j (i + j + 1) U V Ub -> rarrQ p n r a j (i + j + 1) P D Q -> (n + p < Z.of_nat fuel) ->
  wp (let! s := refine_shift fuel p a U P (val X j) (Ub, Q, i, i + j + 1) in
      let '(insertedKnotVector, updatedControlPoints, i, k) := s in
      let! c := get updatedControlPoints (k - p) in
      let! updatedControlPoints := upd updatedControlPoints (k - p - 1) c in
      let! updatedControlPoints := for_up 1 (p + 1) updatedControlPoints (fun l updatedControlPoints =>
        let ind := k - p + l in
        let! ukl := get insertedKnotVector (k + l) in
        let num := nsub ukl (val X j) in
        let! uil := get U (i - p + l) in
        let denom := nsub ukl uil in
        if IsAlmostEqualTo num n0 || IsAlmostEqualTo denom n0 then
          let! c := get updatedControlPoints ind in
          upd updatedControlPoints (ind - 1) c
        else
          let! alpha := ndiv num denom in
          let! x := get updatedControlPoints (ind - 1) in
          let! y := get updatedControlPoints ind in
          upd updatedControlPoints (ind - 1) (blend alpha x y)) in
      let! insertedKnotVector := upd insertedKnotVector k (val X j) in
      Ok (insertedKnotVector, updatedControlPoints, i, k - 1))
    (fun '(Ub', Q', i', k') => k' = i' + j /\ i' <= n /\ (val U i' <= val X j)%R /\ exists V' D', val V' (i' + 1) = val X j /\
       rstate p n U X P r a (j - 1) i' V' D' /\ rarrU p n r a (j - 1) k' U V' Ub' /\ rarrQ p n r a (j - 1) k' P D' Q').
Proof.
  intros Hj HS HU HQ Hf. apply wp_bind.
  eapply wp_mono; [apply (refine_shift_ok j i V D Ub Q fuel); auto|]. clear Ub Q i HS HU HQ.
  intros [[[Ub Q] i] k] (-> & Hi & Hui & HS & HU & HQ).
  destruct (refine_insert_ok j i V D Ub Q Hj Hi Hui HS HU HQ) as (V' & D' & HS' & EX & AV & ED).
  assert (AU : arr U (n + p + 2) (val U)) by (rewrite <- Hl; apply arr_at).
  destruct HS as [S1 S2 S3 S4 S5 S6 S7 S8 S9 S10].
  unfold rarrQ in HQ. wget HQ.
  replace (i + j + 1 - p <? i + j + 1 - p) with false by (symmetry; apply Z.ltb_irrefl). replace (i + j + 1 - p - (j + 1)) with (i - p) by lia.
  wupd HQ. intros Q1 HQ1. cbv beta. apply wp_bind.
  apply wp_for_up with (P := fun l Q => arrD Q (n + r + 2) (fun x => x <= a - p \/ i + j + 1 - p - 1 <= x)
    (fun x => if x <? i + j - p then pt P x else if x <? i + j - p + l then D' (x - j) else D (x - (j + 1)))); [lia| | |].
  - eapply arrD_ext; [exact HQ1|]. cbv beta. intros x Hx Hd. split; [lia|]. clear HQ1.
    destruct (Z.eqb_spec x (i + j + 1 - p - 1)) as [->|].
    + destruct (Z.ltb_spec (i + j + 1 - p - 1) (i + j - p)); [lia|]. destruct (Z.ltb_spec (i + j + 1 - p - 1) (i + j - p + 1)); [|lia].
      rewrite ED. unfold insD. replace (i + j + 1 - p - 1 - j) with (i - p) by lia. destruct (Z.leb_spec (i - p) (i - p)); [reflexivity|lia].
    + zcase; try lia; reflexivity.
  - clear Q1 HQ1 Q HQ. intros l Q Hlr HQ. cbv zeta. rewrite (arrD_get _ _ _ _ _ HU) by lia. cbn [bind].
    destruct (Z.leb_spec (i + j + 1 + l) (i + j + 1)); [lia|]. replace (i + j + 1 + l - (j + 1)) with (i + l) by lia. wget AU. num.
    assert (Evx : val U (i - p + l) = val V (i - p + l)) by (symmetry; apply S5; lia). rewrite Evx.
    assert (O1 : (val V (i - p + l) <= val X j <= val V (i + l))%R).
    { pose proof (S2 (i - p + l) i ltac:(lia) ltac:(lia) ltac:(lia)). pose proof (S2 (i + 1) (i + l) ltac:(lia) ltac:(lia) ltac:(lia)).
      pose proof (S7 ltac:(lia)). rewrite (S5 i) in * by lia. lra. }
    assert (In1 : In (val V (i + l)) (X ++ U)).
    { pose proof (Permutation_in _ S3 (val_In V (i + l) ltac:(lia))) as G. apply in_app_or in G. apply in_or_app. destruct G as [G|G]; [left|right; exact G].
      rewrite <- (firstn_skipn (Z.to_nat (j + 1)) X). apply in_or_app. right. exact G. }
    pose proof (Hsep (val X j) (val V (i + l)) (val_In X j ltac:(lia)) In1) as Ap.
    assert (EDx : D' (i - p + l) = if Req_EM_T (val V (i - p + l + p)) (val X j) then D (i - p + l) else deB (val V) p D (val X j) (i - p + l)).
    { rewrite ED. unfold insD. destruct (Z.leb_spec (i - p + l) (i - p)); [lia|]. destruct (Z.ltb_spec i (i - p + l)); [lia|]. reflexivity. }
    replace (i - p + l + p) with (i + l) in EDx by lia.
    assert (Qi : get Q (i + j + 1 - p + l) = Ok (D (i - p + l))).
    { rewrite (arrD_get _ _ _ _ _ HQ) by lia. f_equal. zcase; try lia. f_equal. lia. }
    assert (Qi1 : get Q (i + j + 1 - p + l - 1) = Ok (D (i - p + l - 1))).
    { rewrite (arrD_get _ _ _ _ _ HQ) by lia. f_equal. zcase; try lia. f_equal. lia. }
    assert (Fin : forall v, v = D' (i - p + l) -> wp (upd Q (i + j + 1 - p + l - 1) v) (fun Q => arrD Q (n + r + 2) (fun x => x <= a - p \/ i + j + 1 - p - 1 <= x)
      (fun x => if x <? i + j - p then pt P x else if x <? i + j - p + (l + 1) then D' (x - j) else D (x - (j + 1))))).
    { intros v ->. wupd HQ. intros Q' HQ'. eapply arrD_ext; [exact HQ'|]. cbv beta. intros x Hx Hd. split; [lia|].
      destruct (Z.eqb_spec x (i + j + 1 - p + l - 1)) as [->|].
      - zcase; try lia. f_equal. lia.
      - zcase; try lia; reflexivity. }
    destruct (Req_EM_T (val V (i + l)) (val X j)) as [E|E].
    + rewrite E. rewrite Rminus_diag_eq by reflexivity. rewrite aeq_refl. cbn [orb]. rewrite Qi. cbn [bind]. apply Fin. auto.
    + pose proof (apart_big _ _ Ap ltac:(lra)) as Big.
      assert (F : forall d, (2 / 1000000 < d)%R -> IsAlmostEqualTo d 0%R = false).
      { intros d Hd. destruct (IsAlmostEqualTo d 0%R) eqn:Ed; [|reflexivity]. apply aeq_small in Ed. rewrite Rabs_right in Ed by lra. lra. }
      rewrite !F by lra. cbn [orb]. rewrite Rdiv_ok by lra. cbn [bind]. rewrite Qi1. cbn [bind]. rewrite Qi. cbn [bind]. apply Fin.
      rewrite EDx. unfold blend, deB. replace (i - p + l + p) with (i + l) by lia.
      set (den := (val V (i + l) - val V (i - p + l))%R). 
      replace ((val X j - val V (i - p + l)) / den)%R with (1 - (val V (i + l) - val X j) / den)%R by (unfold den; field; lra).
      num. vec. ring.
  - clear Q1 HQ1 Q HQ. intros Q HQ. unfold rarrU in HU. wupd HU. intros Ub' HU'. cbn [wp].
    split; [lia|]. split; [lia|]. split; [exact Hui|]. exists V', D'. split; [exact EX|]. split; [exact HS'|]. unfold rarrU, rarrQ. replace (i + j + 1 - 1) with (i + j) by lia. split.
    + eapply arrD_ext; [exact HU'|]. cbv beta. intros x Hx Hd. split; [lia|].
      destruct (Z.eqb_spec x (i + j + 1)) as [->|].
      * destruct (Z.leb_spec (i + j + 1) (i + j)); [lia|]. replace (i + j + 1 - (j - 1 + 1)) with (i + 1) by lia. auto.
      * destruct (Z.leb_spec x (i + j + 1)), (Z.leb_spec x (i + j)); try lia; [reflexivity|].
        rewrite (arr_val _ _ _ _ AV) by lia. rewrite insU_1. zcase; try lia. f_equal. lia.
    + eapply arrD_ext; [exact HQ|]. cbv beta. intros x Hx Hd. split; [lia|].
      destruct (Z.ltb_spec x (i + j - p)); [reflexivity|]. replace (j - 1 + 1) with j by lia.
      destruct (Z.ltb_spec x (i + j - p + (p + 1))); [reflexivity|]. rewrite ED. unfold insD. zcase; try lia. f_equal. lia.
Qed.
End Run.

Lemma RefineKnotVector_refines p n U (P : list T) X : curve_knots p n U -> len P = n + 1 -> 0 < len X -> sorted X ->
  (forall x, In x X -> (val U p < x < val U (n + 1))%R) -> (forall x y, In x X -> In y (X ++ U) -> apart x y) ->
  returns (RefineKnotVector (mkCurve p U P) X) (fun c => exists U' Q, c = mkCurve p U' Q /\
    curve_knots p (n + len X) U' /\ len Q = n + len X + 1 /\ Permutation U' (X ++ U) /\
    val U' p = val U p /\ val U' (n + len X + 1) = val U (n + 1) /\
    refines p n (val U) (pt P) (n + len X) (val U') (pt Q)).
Proof.
  intros Hc HP HX HsX Hin Hsep. pose proof Hc as [Hp Hn Hl HsU H1 H2]. apply wp_elim.
  set (r := len X - 1). assert (HXr : len X = r + 1) by lia. assert (Hr : 0 <= r) by lia. clearbody r.
  pose proof (Hin _ (val_In X 0 ltac:(lia))) as Hx0. pose proof (Hin _ (val_In X r ltac:(lia))) as Hxr.
  assert (AX : arr X (r + 1) (val X)) by (rewrite <- HXr; apply arr_at).
  assert (AU : arr U (n + p + 2) (val U)) by (rewrite <- Hl; apply arr_at). pose proof (arr_pt P _ HP) as AP.
  unfold RefineKnotVector. cbn [Degree KnotVector ControlPoints]. wval.
  rewrite HP, HXr. replace (r + 1 - 1) with r by lia. replace (n + 1 - 1) with n by lia. wget AX.
  destruct (find_span p n U (val X 0) Hc ltac:(unfold in_domain; lra)) as (a & -> & Ha). cbn [bind]. wget AX.
  destruct (find_span p n U (val X r) Hc ltac:(unfold in_domain; lra)) as (b & -> & Hb). cbn [bind].
  destruct Ha as (Ha1 & Ha2 & Ha3 & Ha4). destruct Hb as (Hb1 & Hb2 & Hb3 & Hb4).
  assert (Ha5 : (val X 0 < val U (a + 1))%R) by (destruct Ha4 as [?|[-> ?]]; lra).
  assert (Hb5 : (val X r < val U (b + 1))%R) by (destruct Hb4 as [?|[-> ?]]; lra).
  assert (Hab : a <= b).
  { destruct (Z.le_gt_cases a b); [assumption|]. pose proof (HsU (b + 1) a ltac:(lia) ltac:(lia) ltac:(lia)). pose proof (HsX 0 r ltac:(lia) ltac:(lia) ltac:(lia)). lra. }
  (* initial copies *)
  apply wp_bind. apply wp_mkvec; [lia|]. intros v Hv. apply wp_bind.
  replace (n + p + 1 + r + 2) with (n + p + r + 3) in * by lia.
  set (fU := fun x => if x <=? b + p + r + 1 then val U x else val U (x - (r + 1))).
  apply (wp_fill 0 (a + 1) 0 (n + p + r + 3) (fun _ => False) fU v).
  { split; [apply (arr_len _ _ _ Hv)|tauto]. } { lia. }
  { intros x v' Hx _. wget AU. rewrite Z.add_0_r. unfold fU. destruct (Z.leb_spec x (b + p + r + 1)); [reflexivity|lia]. }
  clear v Hv. intros v Hv. apply wp_bind.
  apply (wp_fill (b + 1 + p) (n + p + 1 + 1) (r + 1) (n + p + r + 3) _ fU v _ _ Hv).
  { lia. }
  { intros x v' Hx _. wget AU. replace (x + r + 1) with (x + (r + 1)) by lia. unfold fU. destruct (Z.leb_spec (x + (r + 1)) (b + p + r + 1)); [lia|]. do 2 f_equal. lia. }
  clear v Hv. intros Ub HUb. apply wp_bind. apply wp_mkvec; [lia|]. intros q Hq. apply wp_bind.
  set (fQ := fun x => if x <? b + r + 1 then pt P x else pt P (x - (r + 1))).
  apply (wp_fill 0 (a - p + 1) 0 (n + r + 2) (fun _ => False) fQ q).
  { split; [apply (arr_len _ _ _ Hq)|tauto]. } { lia. }
  { intros x v' Hx _. wget AP. rewrite Z.add_0_r. unfold fQ. destruct (Z.ltb_spec x (b + r + 1)); [reflexivity|lia]. }
  clear q Hq. intros q Hq. apply wp_bind. replace (b + 1 - 1) with b by lia.
  apply (wp_fill b (n + 1) (r + 1) (n + r + 2) _ fQ q _ _ Hq).
  { lia. }
  { intros x v' Hx _. wget AP. replace (x + r + 1) with (x + (r + 1)) by lia. unfold fQ. destruct (Z.ltb_spec (x + (r + 1)) (b + r + 1)); [lia|]. do 2 f_equal. lia. }
  clear q Hq. intros Q HQ. apply wp_bind.
  replace (b + 1 + p - 1) with (b + p) by lia. replace (b + 1 + p + r) with (b + p + r + 1) by lia.
  apply wp_for_down with (P := fun j '(Ub, Q, i, k) => k = i + j + 1 /\
    (j < r -> i <= n /\ (val U i <= val X (j + 1))%R) /\
    exists V D, (j < r -> val V (i + 1) = val X (j + 1)) /\ rstate p n U X P r a j i V D /\ rarrU p n r a j k U V Ub /\ rarrQ p n r a j k P D Q).
  - lia.
  - split; [lia|]. split; [lia|]. exists U, (pt P). split; [lia|]. split; [|split].
    + split; try lia; auto.
      * rewrite skipn_all2 by (unfold len in HXr; lia). apply Permutation_refl.
      * intros x Hx. f_equal. lia.
      * intros _. pose proof (HsU (b + 1) (b + p + 1) ltac:(lia) ltac:(lia) ltac:(lia)). lra.
      * left. f_equal. lia.
      * intros z kk Hz Hlt Hkk Hg G1 G2 x Hx.
        assert (z = kk) as ->.
        { destruct (Z.lt_trichotomy z kk) as [C|[C|C]]; [|exact C|].
          - pose proof (HsU (z + 1) kk ltac:(lia) ltac:(lia) ltac:(lia)). lra.
          - pose proof (HsU (kk + 1) z ltac:(lia) ltac:(lia) ltac:(lia)). lra. }
        symmetry. apply bl_knots; auto.
    + eapply arrD_ext; [exact HUb|]. cbv beta. intros x Hx Hd. split; [lia|]. reflexivity.
    + eapply arrD_ext; [exact HQ|]. cbv beta. intros x Hx Hd. split; [lia|]. unfold fQ. zcase; try lia; reflexivity.
  - clear Ub HUb Q HQ. intros j [[[Ub Q] i] k] Hj (-> & Hlast & V & D & _ & HS & HU & HQ). wget AX.
    eapply wp_mono; [apply (refine_round p n U X P r a) with (V := V) (D := D); auto; try lia; try lra|].
    { unfold len in Hl. lia. }
    intros [[[Ub' Q'] i'] k'] (-> & Hi' & Hui & V' & D' & EX & HS' & HU' & HQ').
    replace (j - 1 + 1) with j by lia. split; [lia|]. split; [auto|]. exists V', D'. auto.
  - clear Ub HUb Q HQ. intros [[[Ub Q] i] k] (-> & Hlast & V & D & EX & HS & HU & HQ). cbn [wp].
    replace (0 - 1) with (-1) in * by lia. destruct (Hlast ltac:(lia)) as (Hi & Hui). change (-1 + 1) with 0 in *. specialize (EX ltac:(lia)).
    destruct HS as [S1 S2 S3 S4 S5 S6 S7 S8 S9 S10]. replace (r - -1) with (r + 1) in * by lia.
    assert (i = a) as ->.
    { destruct (Z.le_gt_cases i a); [lia|]. pose proof (HsU (a + 1) i ltac:(lia) ltac:(lia) ltac:(lia)). lra. }
    replace (a + -1 + 1) with a in * by lia. change (Z.to_nat (-1 + 1)) with 0%nat in S3. cbn [skipn] in S3.
    assert (EU : Ub = V).
    { apply (arr_inj _ _ (n + p + r + 3) (val V)).
      - eapply arr_of_arrD; [eapply arrD_ext; [exact HU|]|].
        + cbv beta. intros x Hx Hd. split; [exact Hd|]. replace (x - (-1 + 1)) with x by lia. zcase; [symmetry; apply S5; lia|reflexivity].
        + cbv beta. lia.
      - replace (n + p + r + 3) with (len V) by lia. apply arr_at. }
    assert (AQ : arr Q (n + r + 2) D).
    { eapply arr_of_arrD; [eapply arrD_ext; [exact HQ|]|].
      - cbv beta. intros x Hx Hd. split; [exact Hd|]. replace (x - (-1 + 1)) with x by lia. zcase; [symmetry; apply S9; lia|reflexivity].
      - cbv beta. lia. }
    subst Ub. exists V, Q. split; [reflexivity|].
    assert (Hfirst : val V p = val U p) by (apply S5; lia).
    assert (Hlast' : val V (n + (r + 1) + 1) = val U (n + 1)) by (rewrite S6 by lia; f_equal; lia).
    assert (Hc' : curve_knots p (n + (r + 1)) V).
    { split; try lia; auto.
      - rewrite Hfirst. destruct (Z.eq_dec a p) as [->|Hap].
        + rewrite EX. apply apart_lt; [|apply Hx0]. apply apart_sym. apply Hsep; [apply val_In; lia|]. apply in_or_app. right. apply val_In. lia.
        + rewrite S5 by lia. exact H1.
      - rewrite Hlast'. destruct S8 as [-> | S8]; [exact H2|]. apply apart_lt.
        + apply Hsep; [exact S8|]. apply in_or_app. right. apply val_In. lia.
        + apply Hin. exact S8. }
    split; [exact Hc'|]. split; [rewrite (arr_len _ _ _ AQ); lia|]. split; [exact S3|]. split; [exact Hfirst|]. split; [exact Hlast'|].
    intros z kk Hz Hlt Hkk Hg G1 G2 x Hx. rewrite (arr_pt_eq _ _ _ _ AQ) by lia. apply (S10 z kk); auto.
Qed.

Lemma RefineKnotVector_preserves p n U (P : list T) X : curve_knots p n U -> len P = n + 1 -> 0 < len X -> sorted X ->
  (forall x, In x X -> (val U p < x < val U (n + 1))%R) -> (forall x y, In x X -> In y (X ++ U) -> apart x y) ->
  returns (RefineKnotVector (mkCurve p U P) X) (fun c => exists U' Q, c = mkCurve p U' Q /\
    curve_knots p (n + len X) U' /\ len Q = n + len X + 1 /\ Permutation U' (X ++ U) /\
    (forall t, in_domain p n U t <-> in_domain p (n + len X) U' t) /\
    (forall t, in_domain p n U t -> curve_point p (n + len X) U' Q t = curve_point p n U P t)).
Proof.
  intros Hc HP HX HsX Hin Hsep.
  destruct (RefineKnotVector_refines p n U P X Hc HP HX HsX Hin Hsep) as (c & E & U' & Q & -> & Hc' & HQ & Hperm & Ef & El & Hr).
  exists (mkCurve p U' Q). split; [exact E|]. exists U', Q. split; [reflexivity|]. do 3 (split; [assumption|]). split.
  - intros t. unfold in_domain. rewrite Ef, El. tauto.
  - intros t Hd. apply (refines_point p n U P); auto. intros x Hx. apply (Permutation_in _ (Permutation_sym Hperm)). apply in_or_app. auto.
Qed.
End Refine.
