(* Decomposition of a surface into Bezier patches. *)
From Coq Require Import ZArith List Bool Reals Lra Lia Permutation.
From Verif Require Import Base Num Vec Tac Spec Spec2 Spec4 M_MathUtils M_Polynomials M_XYZ M_Bspline M_NurbsCurve M_Knots M_Curve2 M_Surface M_Area
  P_MathUtils P_Span P_Cox P_Basis P_VSum P_Curve P_Bspline P_BsplineS P_Loop P_Blossom P_Insert P_Insert2 P_Refine P_Reverse P_Split P_Merge P_Decomp P_Vol1 P_SDec.
Import ListNotations M_Area.
Open Scope Z_scope.

(* the distinct knots *)
Definition breaks (p : Z) (U : list R) (i : Z) : list R := map (val U) (spans p U i) ++ [val U i].

Lemma breaks_ok p n U i : curve_knots p n U -> p <= i <= n + 1 ->
  increasing (breaks p U i) /\ (forall x, In x (breaks p U i) <-> exists j, p <= j <= i /\ val U j = x) /\
  forall x, 0 <= x < len (spans p U i) -> val (breaks p U i) x = val U (at_ 0 (spans p U i) x) /\ val (breaks p U i) (x + 1) = val U (at_ 0 (spans p U i) x + 1).
Proof.
  intros HU Hi. pose proof (ck_p _ _ _ HU) as pu. pose proof (ck_len _ _ _ HU) as HL. pose proof (ck_sorted _ _ _ HU) as HS.
  assert (LM : forall i, len (map (val U) (spans p U i)) = len (spans p U i)) by (intros; unfold len; rewrite map_length; reflexivity).
  assert (G : forall d, p + Z.of_nat d <= n + 1 -> let i := p + Z.of_nat d in
     increasing (breaks p U i) /\ (forall x, In x (breaks p U i) <-> exists j, p <= j <= i /\ val U j = x) /\
     forall x, 0 <= x < len (spans p U i) -> val (breaks p U i) x = val U (at_ 0 (spans p U i) x) /\ val (breaks p U i) (x + 1) = val U (at_ 0 (spans p U i) x + 1)).
  { induction d as [|d IH]; intros Hd i0; subst i0.
    - replace (p + Z.of_nat 0) with p by lia. unfold breaks. rewrite spans_0. cbn [map app]. split; [intros a b Ha Hab Hb; cbn in Hb; lia|]. split.
      + intros x. cbn [In]. split; [intros [E|[]]; exists p; split; [lia|exact E]|]. intros (j & Hj & E). left. rewrite <- E. f_equal. lia.
      + intros x Hx. cbn in Hx. lia.
    - destruct (IH ltac:(lia)) as (I1 & I2 & I3). clear IH. cbv zeta in *. set (i0 := p + Z.of_nat d) in *. replace (p + Z.of_nat (S d)) with (i0 + 1) by lia.
      pose proof (HS i0 (i0 + 1) ltac:(lia) ltac:(lia) ltac:(rewrite HL; lia)) as S1. unfold breaks in *. rewrite spans_succ by lia. unfold strict. destruct (Rlt_dec (val U i0) (val U (i0 + 1))) as [Hlt|Hlt].
      + assert (EB : map (val U) (spans p U i0 ++ [i0]) ++ [val U (i0 + 1)] = (map (val U) (spans p U i0) ++ [val U i0]) ++ [val U (i0 + 1)]) by (rewrite map_app; reflexivity).
        rewrite EB. set (B := map (val U) (spans p U i0) ++ [val U i0]) in *. assert (LB : len B = len (spans p U i0) + 1) by (unfold B; rewrite len_app, LM; reflexivity).
        assert (Bl : val B (len (spans p U i0)) = val U i0) by (unfold B; rewrite <- LM; apply (val_snoc_r p n)). pose proof (len_nonneg (spans p U i0)) as L0. split; [|split].
        * apply (inc_snoc p n); [exact I1|]. intros _. replace (len B - 1) with (len (spans p U i0)) by lia. rewrite Bl. exact Hlt.
        * intros x. rewrite in_app_iff, I2. cbn [In]. split.
          -- intros [(j & Hj & E)|[E|[]]]; [exists j; split; [lia|exact E]|exists (i0 + 1); split; [lia|exact E]].
          -- intros (j & Hj & E). destruct (Z.eq_dec j (i0 + 1)) as [->|]; [right; left; exact E|left; exists j; split; [lia|exact E]].
        * intros x Hx. rewrite len_app in Hx. change (len [i0]) with 1 in Hx. destruct (Z.eq_dec x (len (spans p U i0))) as [->|].
          -- rewrite at_snoc_r. rewrite (val_snoc_l p n) by lia. split; [exact Bl|]. rewrite <- LB. apply (val_snoc_r p n).
          -- rewrite at_snoc_l by lia. rewrite !(val_snoc_l p n) by lia. apply I3. lia.
      + assert (E : val U (i0 + 1) = val U i0) by lra. rewrite E, app_nil_r. split; [exact I1|]. split; [|exact I3]. intros x. rewrite I2. split.
        * intros (j & Hj & Ej). exists j. split; [lia|exact Ej].
        * intros (j & Hj & Ej). destruct (Z.eq_dec j (i0 + 1)) as [->|]; [exists i0; split; [lia|congruence]|exists j; split; [lia|exact Ej]]. }
  specialize (G (Z.to_nat (i - p)) ltac:(lia)). replace (p + Z.of_nat (Z.to_nat (i - p))) with i in G by lia. exact G.
Qed.

Lemma sdec_knots_ok p n U : curve_knots p n U -> sdec_knots p = Ok (bezier_knots p).
Proof.
  intros HU. unfold sdec_knots. rewrite <- (bind_ret (for_up (Z.quot (2 * (p + 1)) 2) _ _ _)) || idtac.
  pose proof (bez_loop p n U HU (fun l => Ok l) (fun r => r = Ok (bezier_knots p)) eq_refl) as E. rewrite <- E. destruct (mkvec (2 * (p + 1)) n0) as [v|]; [|reflexivity]. cbn [bind].
  destruct (for_up 0 _ v _) as [v1|]; [|reflexivity]. cbn [bind]. rewrite bind_ret. reflexivity.
Qed.

Lemma nth_error_firstn_lt {X} (l : list X) k i : (i < k)%nat -> nth_error (firstn k l) i = nth_error l i.
Proof. revert k i. induction l as [|x l IH]; intros [|k] [|i] H; try lia; try reflexivity. cbn. apply IH. lia. Qed.

Section S.
Context {T : Type} {V : Vec R T} {L : VecL T}.

Lemma A3get n m l bz (F : Z -> Z -> Z -> T) i j k : arr3 bz n m l F -> 0 <= i < n -> 0 <= j < m -> 0 <= k < l -> get3 bz i j k = Ok (F i j k).
Proof. exact (arr3_get bz n m l F i j k). Qed.
Lemma A3upd n m l bz (F : Z -> Z -> Z -> T) i j k y : arr3 bz n m l F -> 0 <= i < n -> 0 <= j < m -> 0 <= k < l ->
  wp (upd3 bz i j k y) (fun bz' => arr3 bz' n m l (fun a b c => if (a =? i) && (b =? j) && (c =? k) then y else F a b c)).
Proof. intros H Hi Hj Hk. exact (arr3_upd bz n m l F i j k y _ H Hi Hj Hk (fun _ H' => H')). Qed.

Variables (p n : Z) (U : list R) (q m : Z) (W : list R) (P : list (list T)).
Hypothesis HU : curve_knots p n U.
Hypothesis HW : curve_knots q m W.
Hypothesis CU : clamped_knots p n U.
Hypothesis CW : clamped_knots q m W.
Hypothesis AU : forall x y, In x U -> In y U -> apart x y.
Hypothesis AW : forall x y, In x W -> In y W -> apart x y.
Hypothesis MU : forall x, (val U p < x < val U (n + 1))%R -> occ U x <= p.
Hypothesis MW : forall x, (val W q < x < val W (m + 1))%R -> occ W x <= q.
Hypothesis Hp : 1 <= p.
Hypothesis Hq : 1 <= q.
Hypothesis HP : net (n + 1) (m + 1) P.

Definition column c := mklist (n + 1) (fun i => pt2 P i c).
Lemma pt_column c i : 0 <= i <= n -> pt (column c) i = pt2 P i c.
Proof. intros H. unfold pt, column. apply (arr_at_eq vzero _ (n + 1) (fun i => pt2 P i c)); [apply arr_mklist; lia|lia]. Qed.

Let SU := spans p U (n + 1).
Let SV := spans q W (m + 1).
(* the strip over a span *)
Definition strip a : list (list T) := mklist (p + 1) (fun i => mklist (m + 1) (fun c => fin p U (column c) a i)).
Lemma strip_arr a : arr2 (strip a) (p + 1) (m + 1) (fun i c => fin p U (column c) a i).
Proof.
  pose proof (ck_p _ _ _ HU). pose proof (ck_n _ _ _ HW). pose proof (ck_p _ _ _ HW). pose proof (arr_mklist (p + 1) (fun i => mklist (m + 1) (fun c => fin p U (column c) a i)) ltac:(lia)) as A. split; [apply A|].
  intros i Hi. eexists. split; [apply (arr_get _ _ _ _ A); lia|]. apply arr_mklist. lia.
Qed.

(* control points of a patch *)
Definition pat x y i j : T := fin q W (at_ nil (strip (at_ 0 SU x)) i) (at_ 0 SV y) j.

Notation RU := (RD p (m + 1) (n + 1 - p) (fun bz F => arr3 bz (n + 1 - p) (p + 1) (m + 1) F)).
Notation N2 := ((n + 1 - p) * (m + 1 - q)).
Notation RV := (RD q (p + 1) N2 (fun bz F => arr3 bz N2 (p + 1) (q + 1) (fun x i j => F x j i))).

Lemma strict_occ (r k : Z) (K : list R) a : curve_knots r k K -> (forall x, (val K r < x < val K (k + 1))%R -> occ K x <= r) -> r <= a < k + 1 -> (val K a < val K (a + 1))%R ->
  occ K (val K (a + 1)) <= r \/ a = k.
Proof.
  intros HK HM Ha Hlt. destruct (Z.eq_dec a k); [right; assumption|left]. apply HM. pose proof (ck_len _ _ _ HK) as HL. pose proof (ck_sorted _ _ _ HK) as HS. pose proof (ck_p _ _ _ HK).
  pose proof (HS r a ltac:(lia) ltac:(lia) ltac:(rewrite HL; lia)). pose proof (HS (a + 1) k ltac:(lia) ltac:(lia) ltac:(rewrite HL; lia)).
  pose proof (ck_last _ _ _ HK). pose proof (tol_pos (val K k) (val K (k + 1))). lra.
Qed.

Lemma pat_point x y (Q : list (list T)) s t : 0 <= x < len SU -> 0 <= y < len SV -> arr2 Q (p + 1) (q + 1) (pat x y) -> (0 <= s <= 1)%R -> (0 <= t <= 1)%R ->
  let a := at_ 0 SU x in let b := at_ 0 SV y in
  surface_point p p (bezier_knots p) q q (bezier_knots q) Q s t = surface_point p n U q m W P ((1 - s) * val U a + s * val U (a + 1)) ((1 - t) * val W b + t * val W (b + 1)).
Proof.
  pose proof (ck_p _ _ _ HU) as p0. pose proof (ck_n _ _ _ HU) as n0. pose proof (ck_p _ _ _ HW) as q0. pose proof (ck_n _ _ _ HW) as m0.
  intros Hx Hy HQ Hs Ht a b.
  assert (Ia : In a SU) by (apply (get_In SU x); rewrite (get_at 0) by lia; reflexivity). assert (Ib : In b SV) by (apply (get_In SV y); rewrite (get_at 0) by lia; reflexivity).
  apply spans_In in Ia; [|lia]. apply spans_In in Ib; [|lia]. destruct Ia as (Ha & La), Ib as (Hb & Lb).
  set (u := ((1 - s) * val U a + s * val U (a + 1))%R). set (v := ((1 - t) * val W b + t * val W (b + 1))%R).
  assert (E1 : surface_point p p (bezier_knots p) q q (bezier_knots q) Q s t =
    comb 0 (p + 1) (fun i => N (val (bezier_knots p)) (val (bezier_knots p) (p + 1)) (Z.to_nat p) i s) (fun i => comb 0 (m + 1) (fun j => N (val W) (val W (m + 1)) (Z.to_nat q) j v) (fun c => fin p U (column c) a i))).
  { unfold surface_point. apply comb_ext. intros i Hi. split; [reflexivity|].
    assert (B : curve_point q q (bezier_knots q) (at_ nil Q i) t = curve_point q m W (at_ nil (strip a) i) v).
    { apply bez_point; try assumption; [lia|apply (strict_occ q m); auto|]. intros k Hk. change (pt2 Q i k = pat x y i k). apply (pt2_arr2 _ _ _ _ i k HQ); lia. }
    transitivity (curve_point q m W (at_ nil (strip a) i) v); [exact B|]. unfold curve_point. apply comb_ext. intros j Hj. split; [reflexivity|].
    exact (pt2_arr2 _ _ _ _ i j (strip_arr a) ltac:(lia) ltac:(lia)). }
  rewrite E1. rewrite (comb_swap 0 (p + 1) 0 (m + 1) _ _ (fun i c => fin p U (column c) a i)).
  assert (E2 : surface_point p n U q m W P u v = comb 0 (m + 1) (fun j => N (val W) (val W (m + 1)) (Z.to_nat q) j v) (fun j => comb 0 (n + 1) (fun i => N (val U) (val U (n + 1)) (Z.to_nat p) i u) (fun i => pt2 P i j))).
  { unfold surface_point. exact (comb_swap 0 (n + 1) 0 (m + 1) _ _ (fun i j => pt2 P i j)). }
  rewrite E2. apply comb_ext. intros j Hj. split; [reflexivity|].
  transitivity (curve_point p p (bezier_knots p) (mklist (p + 1) (fun i => fin p U (column j) a i)) s).
  { unfold curve_point. apply comb_ext. intros i Hi. split; [reflexivity|]. symmetry. unfold pt. apply (arr_at_eq vzero _ (p + 1) (fun i => fin p U (column j) a i)); [apply arr_mklist; lia|lia]. }
  transitivity (curve_point p n U (column j) u).
  { apply bez_point; try assumption; [lia|apply (strict_occ p n); auto|]. intros k Hk. unfold pt. apply (arr_at_eq vzero _ (p + 1) (fun i => fin p U (column j) a i)); [apply arr_mklist; lia|lia]. }
  unfold curve_point. apply comb_ext. intros i Hi. split; [reflexivity|]. apply pt_column. lia.
Qed.

Lemma arr2_inj (A B : list (list T)) r c f : arr2 A r c f -> arr2 B r c f -> A = B.
Proof.
  intros (La & HA) (Lb & HB). apply (arr_inj _ _ r (fun i => at_ nil A i)); [split; [exact La|intros i Hi; apply get_at; lia]|]. split; [exact Lb|].
  intros i Hi. destruct (HA i Hi) as (ra & Ea & Aa). destruct (HB i Hi) as (rb & Eb & Ab). rewrite Eb. rewrite (get_at nil) in Ea by lia. injection Ea as ->. f_equal. exact (arr_inj _ _ _ _ Ab Aa).
Qed.

Lemma uget bz (F : Z -> Z -> Z -> T) x k c : arr3 bz (n + 1 - p) (p + 1) (m + 1) F -> 0 <= x < n + 1 - p -> 0 <= k <= p -> 0 <= c < m + 1 -> get3 bz x k c = Ok (F x k c).
Proof. intros H Hx Hk Hc. apply (A3get _ _ _ _ _ _ _ _ H); lia. Qed.
Lemma uupd bz (F : Z -> Z -> Z -> T) x k c y : arr3 bz (n + 1 - p) (p + 1) (m + 1) F -> 0 <= x < n + 1 - p -> 0 <= k <= p -> 0 <= c < m + 1 ->
  wp (upd3 bz x k c y) (fun bz' => arr3 bz' (n + 1 - p) (p + 1) (m + 1) (fun x' k' c' => if (x' =? x) && (k' =? k) && (c' =? c) then y else F x' k' c')).
Proof. intros H Hx Hk Hc. apply (A3upd _ _ _ _ _ _ _ _ _ H); lia. Qed.
Lemma vget bz (F : Z -> Z -> Z -> T) x k c : arr3 bz N2 (p + 1) (q + 1) (fun x i j => F x j i) -> 0 <= x < N2 -> 0 <= k <= q -> 0 <= c < p + 1 -> get3 bz x c k = Ok (F x k c).
Proof. intros H Hx Hk Hc. exact (A3get _ _ _ _ _ x c k H Hx Hc ltac:(lia)). Qed.
Lemma vupd bz (F : Z -> Z -> Z -> T) x k c y : arr3 bz N2 (p + 1) (q + 1) (fun x i j => F x j i) -> 0 <= x < N2 -> 0 <= k <= q -> 0 <= c < p + 1 ->
  wp (upd3 bz x c k y) (fun bz' => arr3 bz' N2 (p + 1) (q + 1) (fun x' i j => if (x' =? x) && (j =? k) && (i =? c) then y else F x' j i)).
Proof.
  intros H Hx Hk Hc. eapply wp_mono; [apply (A3upd _ _ _ _ _ x c k y H); lia|]. cbv beta. intros bz' H'. eapply arr3_ext; [exact H'|]. intros i j k' Hi Hj Hk'. cbv beta.
  destruct (i =? x), (j =? c), (k' =? k); reflexivity.
Qed.

Definition finished x (k c : Z) : T := pat (x / len SV) (x mod len SV) c k.

Lemma decompose_run fuel : n + p + 1 <= Z.of_nat fuel -> m + q + 1 <= Z.of_nat fuel ->
  wp (SurfaceDecomposeToBeziers fuel (mkSurface p q U W P)) (fun Ss => len Ss = len SU * len SV /\
    forall x y, 0 <= x < len SU -> 0 <= y < len SV -> exists Q, get Ss (x * len SV + y) = Ok (mkSurface p q (bezier_knots p) (bezier_knots q) Q) /\ arr2 Q (p + 1) (q + 1) (pat x y)).
Proof.
  pose proof (ck_p _ _ _ HU) as p0. pose proof (ck_n _ _ _ HU) as n0'. pose proof (ck_p _ _ _ HW) as q0. pose proof (ck_n _ _ _ HW) as m0. pose proof HP as (LP & LR).
  pose proof (arr2_net _ _ _ HP) as AP. pose proof (spans_len p U (n + 1) ltac:(lia)) as LU. fold SU in LU. pose proof (spans_len q W (m + 1) ltac:(lia)) as LV. fold SV in LV.
  pose proof (len_nonneg SU) as LU0. pose proof (len_nonneg SV) as LV0.
  intros Hf1 Hf2. unfold SurfaceDecomposeToBeziers. cbn [DegreeU DegreeV KnotVectorU KnotVectorV SControlPoints]. rewrite (get_at nil P 0) by lia. cbn [bind]. rewrite (LR 0) by lia. rewrite LP.
  rewrite (sdec_knots_ok p n U HU), (sdec_knots_ok q m W HW). cbn [bind].
  apply wp_bind. apply wp_mkvec; [lia|]. intros row Hrow. apply wp_bind. apply (wp_mkvec2 vzero (p + 1) (m + 1) row); [lia|exact Hrow|]. intros pa Hpa.
  apply wp_bind. apply wp_mkvec; [lia|]. intros temp Htemp.
  assert (T0 : RU temp (fun x k _ => x = 0 /\ k < 0) (fun _ k c => pt2 P k c)).
  { exists (fun _ _ _ => vzero). split; [|intros; lia]. split; [apply Htemp|]. intros i Hi. exists pa. split; [apply (arr_get _ _ _ _ Htemp); lia|exact Hpa]. }
  cbv zeta. apply wp_bind.
  apply wp_for_up with (P := fun i temp => RU temp (fun x k _ => x = 0 /\ k < i) (fun _ k c => pt2 P k c)); [lia|exact T0| |].
  { intros i ti Hi Hti. eapply (loop_row p n (m + 1) (n + 1 - p) upd3 _ ltac:(lia) uupd _ _ _ 0 i (fun c => pt2 P i c)); [exact Hti|lia|lia| |].
    - intros c b' Hc _. wget AP. reflexivity.
    - intros b' Hb'. eapply RD_ext; [exact Hb'|]. intros x k c Hx Hk Hc Hd. cbv beta in *. split; [lia|]. destruct (Z.eqb_spec x 0), (Z.eqb_spec k i) as [->|]; reflexivity. }
  clear temp Htemp T0 Hpa Hrow pa row. intros temp Htemp.
  apply wp_bind. apply wp_mkvec; [lia|]. intros al Hal. apply wp_bind.
  replace (n + 1 - 1 + p + 1) with (n + p + 1) by lia.
  change (sdec_u p (m + 1) (n + p + 1) U P) with (gen_body p n U (m + 1) get3 upd3 (fun i c => get2 P i c)).
  eapply wp_mono.
  { apply (gen_loop p n U HU CU AU MU (m + 1) (n + 1 - p) get3 upd3 _ ltac:(lia) uget uupd (fun i c => get2 P i c) column) with (g := fun _ k c => pt2 P k c) (La := Z.max p q + 1); try lia.
    - intros i c Hi Hc. rewrite pt_column by lia. apply (arr2_get _ _ _ _ _ _ AP); lia.
    - apply Hal.
    - eapply RD_ext; [exact Htemp|]. intros x k c Hx Hk Hc Hd. cbv beta in *. split; [lia|reflexivity].
    - intros k c Hk Hc. rewrite (cur_first p n U HU CU column c k Hk). rewrite pt_column by lia. reflexivity. }
  clear temp Htemp al Hal. intros [[[[temp al] a1] b1] size] (Lal & Es & HT). cbv beta in *. unfold Sp in *. fold SU in Es, HT. cbn [fst snd].
  assert (Hsz : size = len SU) by lia. clear Es. rewrite Hsz in *. clear Hsz size. destruct HT as (F & HF & HFe).
  assert (GT : forall x, 0 <= x < len SU -> get temp x = Ok (strip (at_ 0 SU x))).
  { intros x Hx. destruct HF as (HFl & HF). destruct (HF x ltac:(lia)) as (pa & Epa & Apa). rewrite Epa. f_equal. apply (arr2_inj _ _ (p + 1) (m + 1) (F x)); [exact Apa|].
    eapply arr2_ext; [apply strip_arr|]. intros i c Hi Hc. cbv beta. rewrite HFe by lia. destruct (Z.ltb_spec x 0); [lia|]. rewrite Z.sub_0_r. reflexivity. }
  assert (Lt : len temp = n + 1 - p) by apply HF. clear F HF HFe.
  apply wp_bind. apply wp_mkvec; [lia|]. intros row Hrow. apply wp_bind. apply (wp_mkvec2 vzero (p + 1) (q + 1) row); [lia|exact Hrow|]. intros pa Hpa.
  rewrite Lt. apply wp_bind. apply wp_mkvec; [nia|]. intros bz0 Hbz0. cbv zeta. apply wp_bind.
  apply wp_for_up with (P := fun np '(bz, al, nb) => len al = Z.max p q + 1 /\ nb = np * len SV /\ RV bz (fun x _ _ => x < nb) finished); [lia| | |].
  { split; [exact Lal|]. split; [lia|]. exists (fun _ _ _ => vzero). split; [|intros; lia]. split; [apply Hbz0|]. intros i Hi. exists pa. split; [apply (arr_get _ _ _ _ Hbz0); lia|exact Hpa]. }
  { clear al Lal. intros np [[bz al] nb] Hnp (Lal & Enb & HB). rewrite (GT np) by lia. cbn [bind]. pose proof (strip_arr (at_ 0 SU np)) as AS. set (tp := strip (at_ 0 SU np)) in *.
    assert (Hroom : nb + (m - q) < N2) by nia. assert (Hnb0 : 0 <= nb) by nia.
    set (g := fun x (k c : Z) => if x <? nb then finished x k c else pt2 tp c k).
    apply wp_bind. apply wp_for_up with (P := fun i bz => RV bz (fun x k c => x < nb \/ (x = nb /\ c < i)) g); [lia| | |].
    { eapply RD_ext; [exact HB|]. intros x k c Hx Hk Hc Hd. cbv beta in *. split; [lia|]. unfold g. destruct (Z.ltb_spec x nb); [reflexivity|lia]. }
    { intros i bi Hi Hbi. apply wp_for_up with (P := fun j bz => RV bz (fun x k c => x < nb \/ (x = nb /\ (c < i \/ (c = i /\ k < j)))) g); [lia| | |].
      - eapply RD_ext; [exact Hbi|]. intros x k c Hx Hk Hc Hd. cbv beta in *. split; [lia|reflexivity].
      - intros j bj Hj Hbj. pose proof (arr2_net _ _ _ (net_arr2 _ _ _ _ AS)) as AT. wget AT.
        eapply (RD_upd q m (p + 1) N2 (fun bz x k c y => upd3 bz x c k y) _ vupd _ _ _ nb j i); [exact Hbj|lia|lia|lia|]. intros b' Hb'. eapply RD_ext; [exact Hb'|].
        intros x k c Hx Hk Hc Hd. cbv beta in *. split; [lia|]. unfold g. destruct (Z.eqb_spec x nb) as [->|], (Z.eqb_spec k j) as [->|], (Z.eqb_spec c i) as [->|]; cbn [andb]; try reflexivity.
        rewrite Z.ltb_irrefl. reflexivity.
      - intros bj Hbj. eapply RD_ext; [exact Hbj|]. intros x k c Hx Hk Hc Hd. cbv beta in *. split; [lia|reflexivity]. }
    intros bz1 Hbz1. apply wp_bind. replace (m + 1 + q) with (m + q + 1) by lia.
    change (sdec_v p q (m + q + 1) W tp) with (gen_body q m W (p + 1) (fun bz x k c => get3 bz x c k) (fun bz x k c y => upd3 bz x c k y) (fun i c => get2 tp c i)).
    eapply wp_mono.
    { apply (gen_loop q m W HW CW AW MW (p + 1) N2 (fun bz x k c => get3 bz x c k) (fun bz x k c y => upd3 bz x c k y) _ ltac:(lia) vget vupd (fun i c => get2 tp c i) (fun c => at_ nil tp c)) with (g := g) (La := Z.max p q + 1) (nb0 := nb); try lia.
      - intros i c Hi Hc. pose proof (arr2_net _ _ _ (net_arr2 _ _ _ _ AS)) as AT. apply (arr2_get _ _ _ _ _ _ AT); lia.
      - eapply RD_ext; [exact Hbz1|]. intros x k c Hx Hk Hc Hd. cbv beta in *. split; [lia|reflexivity].
      - intros k c Hk Hc. rewrite (cur_first q m W HW CW (fun c => at_ nil tp c) c k Hk). unfold g. rewrite Z.ltb_irrefl. reflexivity. }
    intros [[[[bz2 al2] a2] b2] nb2] (L2 & E2 & HR2). unfold Sp in *. fold SV in E2, HR2. cbn [wp]. split; [exact L2|]. split; [lia|].
    eapply RD_ext; [exact HR2|]. intros x k c Hx Hk Hc Hd. cbv beta in *. split; [exact Hd|]. destruct (Z.ltb_spec x nb) as [Hl|Hl].
    - unfold g. destruct (Z.ltb_spec x nb); [reflexivity|lia].
    - unfold finished, pat. assert (Ed : x / len SV = np) by (symmetry; apply (Z.div_unique x (len SV) np (x - nb)); lia). assert (Er : x mod len SV = x - nb) by (symmetry; apply (Z.mod_unique x (len SV) np (x - nb)); lia).
      rewrite Ed, Er. reflexivity. }
  intros [[bz al2] nb] (L2 & Enb & (F & HF & HFe)). cbv beta in HF, HFe. pose proof HF as (Lbz & HFr).
  assert (Hle : nb <= N2) by nia.
  set (bz' := if 0 <? len bz - nb then firstn (Z.to_nat nb) bz else bz).
  assert (Lb' : len bz' = nb). { unfold bz'. destruct (Z.ltb_spec 0 (len bz - nb)); [|lia]. unfold len in *. rewrite firstn_length. nia. }
  assert (Gb' : forall x, 0 <= x < nb -> get bz' x = get bz x).
  { intros x Hx. unfold bz'. destruct (Z.ltb_spec 0 (len bz - nb)); [|reflexivity]. unfold get. destruct (Z.ltb_spec x 0); [lia|]. rewrite nth_error_firstn_lt by lia. reflexivity. }
  cbn [wp]. split; [unfold len in *; rewrite map_length; lia|]. intros x y Hx Hy. assert (Hxy : 0 <= x * len SV + y < nb) by nia.
  destruct (HFr (x * len SV + y) ltac:(lia)) as (Q & EQ & AQ). exists Q. split.
  - pose proof (Gb' _ Hxy) as E. rewrite EQ in E. unfold get in *. destruct (x * len SV + y <? 0); [discriminate|]. rewrite nth_error_map. destruct (nth_error bz' (Z.to_nat (x * len SV + y))); [|discriminate]. injection E as ->. reflexivity.
  - eapply arr2_ext; [exact AQ|]. intros i j Hi Hj. cbv beta. rewrite HFe by lia. unfold finished.
    assert (Ed : (x * len SV + y) / len SV = x) by (symmetry; apply (Z.div_unique _ (len SV) x y); lia). assert (Er : (x * len SV + y) mod len SV = y) by (symmetry; apply (Z.mod_unique _ (len SV) x y); lia).
    rewrite Ed, Er. reflexivity.
Qed.

Lemma decompose_surface fuel : n + p + 1 <= Z.of_nat fuel -> m + q + 1 <= Z.of_nat fuel ->
  returns (SurfaceDecomposeToBeziers fuel (mkSurface p q U W P)) (fun Ss => exists B C, increasing B /\ (forall x, In x B <-> In x U) /\ increasing C /\ (forall x, In x C <-> In x W) /\
    len Ss = (len B - 1) * (len C - 1) /\
    forall i j, 0 <= i < len B - 1 -> 0 <= j < len C - 1 -> exists Q, get Ss (i * (len C - 1) + j) = Ok (mkSurface p q (bezier_knots p) (bezier_knots q) Q) /\ net (p + 1) (q + 1) Q /\
      forall s t, (0 <= s <= 1)%R -> (0 <= t <= 1)%R -> surface_point p p (bezier_knots p) q q (bezier_knots q) Q s t =
        surface_point p n U q m W P ((1 - s) * val B i + s * val B (i + 1)) ((1 - t) * val C j + t * val C (j + 1))).
Proof.
  pose proof (ck_p _ _ _ HU) as p0. pose proof (ck_n _ _ _ HU) as n0'. pose proof (ck_p _ _ _ HW) as q0. pose proof (ck_n _ _ _ HW) as m0.
  intros Hf1 Hf2. apply wp_elim. eapply wp_mono; [apply (decompose_run fuel Hf1 Hf2)|]. cbv beta. intros Ss (LS & HSs).
  assert (BR : forall r k K, curve_knots r k K -> clamped_knots r k K -> 0 <= r -> r <= k -> increasing (breaks r K (k + 1)) /\ (forall x, In x (breaks r K (k + 1)) <-> In x K) /\ len (breaks r K (k + 1)) = len (spans r K (k + 1)) + 1 /\
    forall x, 0 <= x < len (spans r K (k + 1)) -> val (breaks r K (k + 1)) x = val K (at_ 0 (spans r K (k + 1)) x) /\ val (breaks r K (k + 1)) (x + 1) = val K (at_ 0 (spans r K (k + 1)) x + 1)).
  { intros r k K HK CK Hr Hk. destruct (breaks_ok r k K (k + 1) HK ltac:(lia)) as (B1 & B2 & B3). split; [exact B1|]. split; [|split; [unfold breaks; rewrite len_app; unfold len; rewrite map_length; reflexivity|exact B3]].
    intros x. rewrite B2. pose proof (ck_len _ _ _ HK) as HL. split; [intros (j & Hj & <-); apply val_In; lia|]. intros Hx. destruct (In_val _ _ Hx) as (i & Hi & E).
    destruct (Z_lt_le_dec i r); [exists r; split; [lia|]; rewrite <- E; symmetry; apply (first_run r k K HK CK); lia|]. destruct (Z_le_gt_dec i (k + 1)); [exists i; split; [lia|exact E]|].
    exists (k + 1). split; [lia|]. rewrite <- E. rewrite (last_run r k K HK CK i), (last_run r k K HK CK (k + 1)) by lia. reflexivity. }
  destruct (BR p n U HU CU p0 ltac:(lia)) as (B1 & B2 & B3 & B4). destruct (BR q m W HW CW q0 ltac:(lia)) as (C1 & C2 & C3 & C4). fold SU in B3, B4. fold SV in C3, C4.
  exists (breaks p U (n + 1)), (breaks q W (m + 1)). split; [exact B1|]. split; [exact B2|]. split; [exact C1|]. split; [exact C2|]. rewrite B3, C3. replace (len SU + 1 - 1) with (len SU) by lia. replace (len SV + 1 - 1) with (len SV) by lia.
  split; [exact LS|]. intros i j Hi Hj. destruct (HSs i j Hi Hj) as (Q & EQ & AQ). exists Q. split; [exact EQ|]. split; [apply (net_arr2 _ _ _ _ AQ)|]. intros s t Hs Ht.
  destruct (B4 i Hi) as (-> & ->). destruct (C4 j Hj) as (-> & ->). apply (pat_point i j Q s t Hi Hj AQ Hs Ht).
Qed.
End S.
