(* Least squares between fixed ends: the windows of the basis functions and the normal equations. *)
From Coq Require Import ZArith List Bool Reals Lra Lia.
From Verif Require Import Base Num Vec Tac Spec Spec2 Spec3 Spec6 M_MathUtils M_Polynomials M_XYZ M_Bspline M_NurbsCurve M_Interp M_Fit M_Fit3
  P_MathUtils P_Math2 P_Span P_Cox P_XYZ P_Vec P_VSum P_Curve P_Bspline P_Basis P_Loop P_OneBasis P_Fit P_Interp2 P_Interp P_Lsq P_Lsq3.
Import ListNotations.
Open Scope Z_scope.

Lemma ls_knots_eq p n us : 0 <= p -> p <= n -> n - p + 1 <= len us -> ls_knots p n (len us - 1) us = ComputeKnotVector p (n + 1) us.
Proof.
  intros Hp Hn Hk. destruct (wp_elim _ _ (ComputeKnotVector_ok p n us Hp Hn Hk)) as (U & -> & HU).
  assert (H : wp (ls_knots p n (len us - 1) us) (fun V => arr V (n + p + 2) (fit_knot p n us))).
  { pose proof (P_Bern.arr_val us) as HA. unfold ls_knots. num. cbn [nfloor Floor_R]. replace (len us - 1 + 1) with (len us) by lia. apply wp_bind. apply wp_mkvec; [lia|]. intros v Hv.
    assert (HZ : IZR (n - p + 1) <> 0%R) by (apply not_0_IZR; lia). rewrite Rdiv_ok by exact HZ. cbn [bind]. apply wp_bind.
    apply wp_for_up with (P := fun i v => arr v (n + p + 2) (fun j => if j <? i then 0%R else 1%R)); [lia| | |].
    - apply (arr_ext _ _ _ _ Hv). intros j Hj. destruct (Z.ltb_spec j 0); [lia|reflexivity].
    - intros i w Hi Hw. apply (arr_upd _ _ _ _ _ _ Hw); [lia|]. intros w' Hw'. apply (arr_ext _ _ _ _ Hw'). intros j Hj. cbv beta. destruct (Z.eqb_spec j i), (Z.ltb_spec j i), (Z.ltb_spec j (i + 1)); try lia; reflexivity.
    - intros w Hw. apply wp_for_up with (P := fun i v => arr v (n + p + 2) (fun j => if (j <? p + i) || (n <? j) then fit_knot p n us j else 1%R)); [lia| | |].
      + apply (arr_ext _ _ _ _ Hw). intros j Hj. cbv beta. unfold fit_knot. destruct (Z.ltb_spec j (p + 1)), (Z.leb_spec j p), (Z.ltb_spec n j); cbn [orb]; try lia; reflexivity.
      + intros j w' Hj Hw'. pose proof (fit_range p n us j Hn Hk ltac:(lia)) as HR. wget HA. wget HA. apply (arr_upd _ _ _ _ _ _ Hw'); [lia|]. intros w2 Hw2. apply (arr_ext _ _ _ _ Hw2). intros i Hi. cbv beta.
        destruct (Z.eqb_spec i (p + j)) as [->|Ne].
        * destruct (Z.ltb_spec (p + j) (p + (j + 1))); [|lia]. cbn [orb]. unfold fit_knot. destruct (Z.leb_spec (p + j) p); [lia|]. destruct (Z.ltb_spec n (p + j)); [lia|]. replace (p + j - p) with j by lia. reflexivity.
        * destruct (Z.ltb_spec i (p + j)), (Z.ltb_spec i (p + (j + 1))); try lia; reflexivity.
      + intros w' Hw'. apply (arr_ext _ _ _ _ Hw'). intros j Hj. cbv beta. destruct (Z.ltb_spec j (p + (n - p + 1))), (Z.ltb_spec n j); cbn [orb]; try lia; reflexivity. }
  destruct (wp_elim _ _ H) as (V & -> & HV). f_equal. exact (arr_inj _ _ _ _ HV HU).
Qed.

Lemma sub_sum lo hi k (g : Z -> R) : 0 <= lo -> hi <= k -> (forall r, 0 <= r < k -> ~ lo <= r < hi -> g r = 0%R) -> rsum lo hi g = rsum 0 k g.
Proof.
  intros Hlo Hhi Hz. destruct (Z.le_gt_cases hi lo).
  - rewrite rsum_nil by lia. symmetry. apply rsum_zero. intros r Hr. apply Hz; lia.
  - rewrite (rsum_split 0 lo k) by lia. rewrite (rsum_split lo hi k) by lia. rewrite (rsum_zero 0 lo), (rsum_zero hi k); [ring| |]; intros r Hr; apply Hz; lia.
Qed.

Section Ls.
Variables (p n m : Z) (U us : list R).
Hypothesis HU : curve_knots p n U.
Hypothesis Hp1 : 1 <= p.
Hypothesis Hp7 : p <= 7.
Hypothesis Hn2 : 2 <= n.
Hypothesis Hm : 1 <= m.
Hypothesis Hus : len us = m + 1.
Hypothesis Hsort : sorted us.
Hypothesis Hdom : forall i, 0 <= i <= m -> in_domain p n U (val us i).

Definition lsp (r : Z) : Z := match GetKnotSpanIndex p U (val us (r + 1)) with Ok k => k | Err _ => 0 end.
Definition la (r l : Z) : R := N (val U) (val U (n + 1)) (Z.to_nat p) (l + 1) (val us (r + 1)).

Lemma lsp_ok r : 0 <= r < m - 1 -> GetKnotSpanIndex p U (val us (r + 1)) = Ok (lsp r) /\ span_of p n U (val us (r + 1)) (lsp r).
Proof. intros Hr. unfold lsp. destruct (find_span p n U (val us (r + 1)) HU (Hdom (r + 1) ltac:(lia))) as (k & -> & Hk). split; [reflexivity|exact Hk]. Qed.
Lemma lsp_in r : 0 <= r < m - 1 -> p <= lsp r <= n.
Proof. intros Hr. destruct (lsp_ok r Hr) as (_ & Hk & _). exact Hk. Qed.
Lemma lsp_mono r r' : 0 <= r <= r' -> r' < m - 1 -> lsp r <= lsp r'.
Proof.
  intros Hr Hr'. destruct (Z.le_gt_cases (lsp r) (lsp r')) as [|G]; [assumption|]. exfalso. destruct (lsp_ok r ltac:(lia)) as (_ & K1 & K2 & K3 & K4). destruct (lsp_ok r' ltac:(lia)) as (_ & L1 & L2 & L3 & L4).
  pose proof HU as [Hp Hn Hl Hs _ _]. pose proof (Hs (lsp r' + 1) (lsp r) ltac:(lia) ltac:(lia) ltac:(lia)). pose proof (Hsort (r + 1) (r' + 1) ltac:(lia) ltac:(lia) ltac:(lia)). destruct L4 as [L4|(L4 & _)]; [lra|lia].
Qed.
Lemma la_eq r l : 0 <= r < m - 1 -> 0 <= l <= n - 2 -> la r l = NS (val U) (lsp r) p (l + 1) (val us (r + 1)).
Proof. intros Hr Hl. destruct (lsp_ok r Hr) as (_ & Hk). apply (NB_span p n U _ (lsp r) p (l + 1) HU Hk); lia. Qed.
Lemma la_zero r l : 0 <= r < m - 1 -> 0 <= l <= n - 2 -> l + 1 < lsp r - p \/ lsp r < l + 1 -> la r l = 0%R.
Proof. intros Hr Hl Ho. rewrite la_eq by assumption. apply NS_out; lia. Qed.

Definition lidx r := Z.max 0 (lsp r - p - 1).
Definition lhk r := if (lsp r =? p) || (lsp r =? n) then p - 1 else p.
Definition loff r := if lsp r =? p then 1 else 0.
Definition lent r k : R := if k <=? lhk r then NS (val U) (lsp r) p (lsp r - p + (loff r + k)) (val us (r + 1)) else 0%R.
Lemma lent_a r l : 0 <= r < m - 1 -> 0 <= l <= n - 2 -> l + 1 <= lsp r <= l + 1 + p -> 0 <= l - lidx r <= p /\ lent r (l - lidx r) = la r l.
Proof.
  intros Hr Hl Hs. pose proof (lsp_in r Hr). rewrite la_eq by assumption. unfold lidx, lent, lhk, loff.
  destruct (Z.eqb_spec (lsp r) p) as [E|E]; cbn [orb].
  - replace (Z.max 0 (lsp r - p - 1)) with 0 by lia. split; [lia|]. destruct (Z.leb_spec (l - 0) (p - 1)); [|lia]. f_equal; lia.
  - replace (Z.max 0 (lsp r - p - 1)) with (lsp r - p - 1) by lia. split; [lia|]. destruct (Z.eqb_spec (lsp r) n); [destruct (Z.leb_spec (l - (lsp r - p - 1)) (p - 1)); [|lia]|destruct (Z.leb_spec (l - (lsp r - p - 1)) p); [|lia]]; f_equal; lia.
Qed.

(* the windows known once span q has been reached *)
Definition ends (st en : list Z) (q : Z) : Prop := exists fs fe, arr st (n - 1) fs /\ arr en (n - 1) fe /\
  (forall l, 0 <= l <= n - 2 -> l + 1 <= q -> 0 <= fs l /\ forall r, 0 <= r < m - 1 -> (fs l <= r <-> l + 1 <= lsp r)) /\
  (forall l, 0 <= l <= n - 2 -> l <= q - p - 2 -> -1 <= fe l <= m - 2 /\ forall r, 0 <= r < m - 1 -> (r <= fe l <-> lsp r <= l + 1 + p)) /\
  (q - p - 2 < 0 -> fe 0 = -2).

Lemma shift_ok i q k st en : 1 <= i < m -> p <= q -> q < lsp (i - 1) -> (forall r, 0 <= r < i - 1 -> lsp r <= q) -> ends st en q ->
  wp (ls_shift n i k (st, en, q - 1, q - p - 2)) (fun s => exists st' en', s = (st', en', q, q - p - 1) /\ ends st' en' (q + 1)).
Proof.
  intros Hi Hq Hj Hlow (fs & fe & As & Ae & Fs & Fe & F0). pose proof (lsp_in (i - 1) ltac:(lia)) as Hjn. unfold ls_shift. replace (q - 1 + 1) with q by lia. replace (q - p - 2 + 1) with (q - p - 1) by lia.
  assert (Mid : forall r, 0 <= r < m - 1 -> (r <= i - 2 -> lsp r <= q) /\ (i - 1 <= r -> q < lsp r)). { intros r Hr. split; intros H; [apply Hlow; lia|]. pose proof (lsp_mono (i - 1) r ltac:(lia) ltac:(lia)). lia. }
  assert (A1 : wp (if q <=? n - 2 then upd st q (i - 1) else Ok st) (fun st' => exists fs', arr st' (n - 1) fs' /\ forall l, 0 <= l <= n - 2 -> l + 1 <= q + 1 -> 0 <= fs' l /\ forall r, 0 <= r < m - 1 -> (fs' l <= r <-> l + 1 <= lsp r))).
  { destruct (Z.leb_spec q (n - 2)).
    - apply (arr_upd _ _ _ _ _ _ As); [lia|]. intros st' As'. eexists. split; [exact As'|]. intros l Hl Hlq. cbv beta. destruct (Z.eqb_spec l q) as [->|Ne]; [|apply Fs; lia]. split; [lia|]. intros r Hr. destruct (Mid r Hr). lia.
    - apply wp_ok. exists fs. split; [exact As|]. intros l Hl Hlq. apply Fs; lia. }
  apply wp_bind. eapply wp_mono; [exact A1|]. cbv beta. intros st' (fs' & As' & Fs').
  assert (A2 : wp (if 0 <=? q - p - 1 then upd en (q - p - 1) (i - 2) else Ok en) (fun en' => exists fe', arr en' (n - 1) fe' /\
    (forall l, 0 <= l <= n - 2 -> l <= q + 1 - p - 2 -> -1 <= fe' l <= m - 2 /\ forall r, 0 <= r < m - 1 -> (r <= fe' l <-> lsp r <= l + 1 + p)) /\ (q + 1 - p - 2 < 0 -> fe' 0 = -2))).
  { destruct (Z.leb_spec 0 (q - p - 1)).
    - apply (arr_upd _ _ _ _ _ _ Ae); [lia|]. intros en' Ae'. eexists. split; [exact Ae'|]. split; [|lia]. intros l Hl Hlq. cbv beta. destruct (Z.eqb_spec l (q - p - 1)) as [->|Ne]; [|apply Fe; lia]. split; [lia|]. intros r Hr. destruct (Mid r Hr). lia.
    - apply wp_ok. exists fe. split; [exact Ae|]. split; [|intros; apply F0; lia]. intros l Hl Hlq. lia. }
  apply wp_bind. eapply wp_mono; [exact A2|]. cbv beta. intros en' (fe' & Ae' & Fe' & F0').
  apply wp_ok. exists st', en'. split; [reflexivity|]. exists fs', fe'. repeat (split; [assumption|]). exact F0'.
Qed.

Definition linv (i : Z) (st : LsState) : Prop :=
  arr (ls_index st) (m - 1) (fun r => if r <? i - 1 then lidx r else 0) /\
  arr2 (ls_B st) (m - 1) (p + 1) (fun r k => if r <? i - 1 then lent r k else 0%R) /\
  p <= ls_rj st <= n /\ ls_sj st = ls_rj st - 1 /\ ls_ej st = ls_rj st - p - 2 /\
  (forall r, 0 <= r < i - 1 -> lsp r <= ls_rj st) /\ ends (ls_start st) (ls_end st) (ls_rj st) /\ (ls_rj st = p \/ exists r, 0 <= r < i - 1 /\ ls_rj st = lsp r).

Lemma point_ok i st : 1 <= i < m -> linv i st -> wp (ls_point p n U us i st) (linv (i + 1)).
Proof.
  intros Hi (Ax & AB & Hrj & Esj & Eej & Hlow & He & Hat). pose proof HU as [Hp0 Hn Hl _ _ _]. pose proof (P_Bern.arr_val us) as Au. rewrite Hus in Au.
  destruct (lsp_ok (i - 1) ltac:(lia)) as (Ej & Hk). replace (i - 1 + 1) with i in Ej, Hk by lia. pose proof (lsp_in (i - 1) ltac:(lia)) as Hjn.
  unfold ls_point. wget Au. rewrite Ej. cbn [bind].
  destruct (wp_elim _ _ (BasisFunctions_ok U p (lsp (i - 1)) (val us i) (span_of_ok _ _ _ _ _ HU Hk) Hp7 (accepted_dom _ _ _ _ HU (Hdom i ltac:(lia))))) as (bl & -> & Hbl). cbn [bind].
  assert (EO : (if lsp (i - 1) =? p then 1%Z else 0%Z) = loff (i - 1)) by reflexivity. rewrite EO. assert (EH : (if (lsp (i - 1) =? p) || (lsp (i - 1) =? n) then p - 1 else p) = lhk (i - 1)) by reflexivity. rewrite EH.
  assert (Hhk : 0 <= lhk (i - 1) <= p /\ 0 <= loff (i - 1) /\ loff (i - 1) + lhk (i - 1) <= p). { unfold lhk, loff. destruct (Z.eqb_spec (lsp (i - 1)) p), (Z.eqb_spec (lsp (i - 1)) n); cbn [orb]; lia. }
  apply wp_bind. apply wp_for_up with (P := fun k B => arr2 B (m - 1) (p + 1) (fun r c => if r <? i - 1 then lent r c else if (r =? i - 1) && (c <? k) then lent r c else 0%R)); [lia| | |].
  { apply (arr2_ext _ _ _ _ _ AB). intros r c Hr Hc. destruct (r <? i - 1); [reflexivity|]. destruct (Z.ltb_spec c 0); [lia|]. rewrite andb_false_r. reflexivity. }
  { intros k B Hk' AB'. unfold getu. rewrite (arrD_get _ _ _ _ _ Hbl) by lia. cbn [bind]. apply (arr2_upd _ _ _ _ _ _ _ _ AB'); [lia|lia|]. intros B' AB2. apply (arr2_ext _ _ _ _ _ AB2). intros r c Hr Hc. cbv beta.
    destruct (Z.eqb_spec r (i - 1)) as [->|Nr]; cbn [andb].
    - destruct (Z.ltb_spec (i - 1) (i - 1)); [lia|]. destruct (Z.eqb_spec c k) as [->|Nc]; [destruct (Z.ltb_spec k (k + 1)); [|lia]|destruct (Z.ltb_spec c k), (Z.ltb_spec c (k + 1)); try lia; reflexivity].
      unfold lent. destruct (Z.leb_spec k (lhk (i - 1))); [|lia]. replace (i - 1 + 1) with i by lia. reflexivity.
    - reflexivity. }
  intros B' AB'. apply wp_bind. apply (arr_upd _ _ _ _ _ _ Ax); [lia|]. intros x' Ax'.
  assert (Ax2 : arr x' (m - 1) (fun r => if r <? i + 1 - 1 then lidx r else 0)). { apply (arr_ext _ _ _ _ Ax'). intros r Hr. cbv beta. destruct (Z.eqb_spec r (i - 1)) as [->|]; [destruct (Z.ltb_spec (i - 1) (i + 1 - 1)); [reflexivity|lia]|]. destruct (Z.ltb_spec r (i - 1)), (Z.ltb_spec r (i + 1 - 1)); try lia; reflexivity. }
  assert (AB2 : arr2 B' (m - 1) (p + 1) (fun r k => if r <? i + 1 - 1 then lent r k else 0%R)).
  { apply (arr2_ext _ _ _ _ _ AB'). intros r c Hr Hc. cbv beta. destruct (Z.ltb_spec r (i - 1)), (Z.ltb_spec r (i + 1 - 1)), (Z.eqb_spec r (i - 1)); cbn [andb]; try lia; try reflexivity.
    destruct (Z.ltb_spec c (lhk (i - 1) + 1)); [reflexivity|]. subst r. unfold lent. destruct (Z.leb_spec c (lhk (i - 1))); [lia|reflexivity]. }
  destruct (Z.ltb_spec (ls_rj st) (lsp (i - 1))) as [G|G].
  - apply wp_bind. rewrite Esj, Eej.
    apply wp_for_up with (P := fun k s => exists st' en', s = (st', en', ls_rj st + k - 2, ls_rj st + k - 1 - p - 2) /\ ends st' en' (ls_rj st + k - 1)); [lia| | |].
    + exists (ls_start st), (ls_end st). split; [f_equal; [f_equal|]; lia|]. replace (ls_rj st + 1 - 1) with (ls_rj st) by lia. exact He.
    + intros k s Hk' (st' & en' & -> & He'). pose proof (shift_ok i (ls_rj st + k - 1) k st' en' Hi ltac:(lia) ltac:(lia) ltac:(intros r Hr; specialize (Hlow r Hr); lia) He') as W.
      replace (ls_rj st + k - 1 - 1) with (ls_rj st + k - 2) in W by lia. eapply wp_mono; [exact W|]. cbv beta. intros s (st2 & en2 & -> & He2). exists st2, en2. split; [f_equal; [f_equal|]; lia|]. replace (ls_rj st + (k + 1) - 1) with (ls_rj st + k - 1 + 1) by lia. exact He2.
    + intros s (st' & en' & -> & He'). apply wp_ok. unfold linv. cbn [ls_start ls_end ls_index ls_B ls_rj ls_sj ls_ej]. split; [exact Ax2|]. split; [exact AB2|]. split; [lia|]. split; [lia|]. split; [lia|]. split.
      * intros r Hr. apply lsp_mono; lia.
      * replace (ls_rj st + (lsp (i - 1) - ls_rj st + 1) - 1) with (lsp (i - 1)) in He' by lia. split; [exact He'|]. right. exists (i - 1). split; [lia|reflexivity].
  - apply wp_ok. unfold linv. cbn [ls_start ls_end ls_index ls_B ls_rj ls_sj ls_ej]. split; [exact Ax2|]. split; [exact AB2|]. split; [exact Hrj|]. split; [exact Esj|]. split; [exact Eej|]. split; [|split; [exact He|]].
    + intros r Hr. destruct (Z.eq_dec r (i - 1)) as [->|]; [exact G|]. apply Hlow. lia.
    + destruct Hat as [Hat|(r & Hr & Hat)]; [left; exact Hat|right]. exists r. split; [lia|exact Hat].
Qed.

(* windows of all interior functions *)
Definition window (st en : list Z) : Prop := exists fs fe, arr st (n - 1) fs /\ arr en (n - 1) fe /\
  forall l, 0 <= l <= n - 2 -> 0 <= fs l /\ fe l <= m - 2 /\ forall r, 0 <= r < m - 1 -> (fs l <= r <-> l + 1 <= lsp r) /\ (r <= fe l <-> lsp r <= l + 1 + p).

Lemma filled_ok st : linv m st -> n - 2 <= ls_sj st -> wp (for_up (Z.max 0 (ls_ej st + 1)) (n - 1) (ls_end st) (fun i v => upd v i (m - 2))) (fun en => window (ls_start st) en).
Proof.
  intros (_ & _ & Hrj & Esj & Eej & Hlow & (fs & fe & As & Ae & Fs & Fe & _) & _) Hs. pose proof HU as [_ Hn _ _ _ _].
  apply wp_for_up with (P := fun i v => arr v (n - 1) (fun l => if (Z.max 0 (ls_ej st + 1) <=? l) && (l <? i) then m - 2 else fe l)); [lia| | |].
  - apply (arr_ext _ _ _ _ Ae). intros l Hl. destruct (Z.leb_spec (Z.max 0 (ls_ej st + 1)) l), (Z.ltb_spec l (Z.max 0 (ls_ej st + 1))); try lia; reflexivity.
  - intros i v Hi Av. apply (arr_upd _ _ _ _ _ _ Av); [lia|]. intros v' Av'. apply (arr_ext _ _ _ _ Av'). intros l Hl. cbv beta. destruct (Z.eqb_spec l i), (Z.leb_spec (Z.max 0 (ls_ej st + 1)) l), (Z.ltb_spec l i), (Z.ltb_spec l (i + 1)); cbn [andb]; try lia; reflexivity.
  - intros v Av. exists fs. eexists. split; [exact As|]. split; [exact Av|]. intros l Hl. cbv beta. destruct (Fs l Hl ltac:(lia)) as (F1 & F2). split; [exact F1|].
    destruct (Z.leb_spec (Z.max 0 (ls_ej st + 1)) l), (Z.ltb_spec l (n - 1)); cbn [andb]; try lia.
    + split; [lia|]. intros r Hr. split; [apply F2, Hr|]. specialize (Hlow r ltac:(lia)). lia.
    + destruct (Fe l Hl ltac:(lia)) as (F3 & F4). split; [lia|]. intros r Hr. split; [apply F2, Hr|apply F4, Hr].
Qed.

Variables (start ending index : list Z) (B : list (list R)).
Hypothesis HW : window start ending.
Hypothesis Hx : arr index (m - 1) lidx.
Hypothesis HB : arr2 B (m - 1) (p + 1) lent.

Definition lband (r c : Z) : R := if (0 <=? r + c - p) && (r + c - p <? n - 1) then rsum 0 (m - 1) (fun k => la k r * la k (r + c - p))%R else 0%R.
Lemma band_ok N0 : arr2 N0 (n - 1) (2 * p + 1) (fun _ _ => 0%R) -> wp (ls_band p n start ending index B N0) (fun M => arr2 M (n - 1) (2 * p + 1) lband).
Proof.
  intros A0. destruct HW as (fs & fe & As & Ae & F). unfold ls_band.
  apply wp_for_up with (P := fun i M => arr2 M (n - 1) (2 * p + 1) (fun r c => if r <? i then lband r c else 0%R)); [lia| | |].
  - apply (arr2_ext _ _ _ _ _ A0). intros r c Hr Hc. destruct (Z.ltb_spec r 0); [lia|reflexivity].
  - intros i M Hi AM. apply wp_for_up with (P := fun j M => arr2 M (n - 1) (2 * p + 1) (fun r c => if r <? i then lband r c else if (r =? i) && (c <? j - i + p) then lband r c else 0%R)); [lia| | |].
    + apply (arr2_ext _ _ _ _ _ AM). intros r c Hr Hc. destruct (Z.ltb_spec r i); [reflexivity|]. destruct (Z.eqb_spec r i) as [->|]; cbn [andb]; [|reflexivity]. destruct (Z.ltb_spec c (Z.max 0 (i - p) - i + p)); [|reflexivity].
      unfold lband. destruct (Z.leb_spec 0 (i + c - p)); [lia|]. reflexivity.
    + intros j M' Hj AM'. wget As. wget As. wget Ae. wget Ae. destruct (F i ltac:(lia)) as (Fi1 & Fi2 & Fi). destruct (F j ltac:(lia)) as (Fj1 & Fj2 & Fj).
      apply wp_for_up' with (P := fun k M => arr2 M (n - 1) (2 * p + 1) (fun r c => if r <? i then lband r c else if (r =? i) && (c <? j - i + p) then lband r c else if (r =? i) && (c =? j - i + p) then rsum (Z.max (fs i) (fs j)) k (fun k => la k i * la k j)%R else 0%R)).
      * apply (arr2_ext _ _ _ _ _ AM'). intros r c Hr Hc. rewrite rsum_nil by lia. destruct (r <? i); [reflexivity|]. destruct ((r =? i) && (c <? j - i + p)); [reflexivity|]. destruct ((r =? i) && (c =? j - i + p)); reflexivity.
      * intros k M2 Hk AM2. assert (Hkr : 0 <= k < m - 1) by lia. destruct (Fi k Hkr) as (Fa & Fb). destruct (Fj k Hkr) as (Fc & Fd).
        destruct (lent_a k i Hkr ltac:(lia) ltac:(lia)) as (Ri & Ei). destruct (lent_a k j Hkr ltac:(lia) ltac:(lia)) as (Rj & Ej).
        wget Hx. rewrite (arr2_get _ _ _ _ _ _ HB) by lia. cbn [bind]. rewrite (arr2_get _ _ _ _ _ _ HB) by lia. cbn [bind]. rewrite (arr2_get _ _ _ _ _ _ AM2) by lia. cbn [bind]. rewrite Ei, Ej.
        apply (arr2_upd _ _ _ _ _ _ _ _ AM2); [lia|lia|]. intros M3 AM3. apply (arr2_ext _ _ _ _ _ AM3). intros r c Hr Hc. cbv beta.
        destruct (Z.eqb_spec r i) as [->|Nr]; cbn [andb]; [|destruct (r <? i); reflexivity]. destruct (Z.ltb_spec i i); [lia|]. destruct (Z.eqb_spec c (j - i + p)) as [->|Nc]; [|reflexivity].
        destruct (Z.ltb_spec (j - i + p) (j - i + p)); [lia|]. rewrite ?Z.ltb_irrefl, ?Z.eqb_refl. cbn [andb]. rewrite rsum_last by lia. reflexivity.
      * intros M2 AM2. apply (arr2_ext _ _ _ _ _ AM2). intros r c Hr Hc. destruct (Z.ltb_spec r i); [reflexivity|]. destruct (Z.eqb_spec r i) as [->|]; cbn [andb]; [|reflexivity].
        destruct (Z.ltb_spec c (j - i + p)), (Z.ltb_spec c (j + 1 - i + p)), (Z.eqb_spec c (j - i + p)); try lia; try reflexivity. subst c.
        unfold lband. replace (i + (j - i + p) - p) with j by lia. destruct (Z.leb_spec 0 j), (Z.ltb_spec j (n - 1)); cbn [andb]; try lia.
        replace (rsum (Z.max (fs i) (fs j)) (Z.max (Z.max (fs i) (fs j)) (Z.min (fe i) (fe j) + 1)) (fun k => la k i * la k j)%R) with (rsum (Z.max (fs i) (fs j)) (Z.min (fe i) (fe j) + 1) (fun k => la k i * la k j)%R).
        -- apply sub_sum; [lia|lia|]. intros k Hk Ho. destruct (Fi k Hk) as (Fa & Fb). destruct (Fj k Hk) as (Fc & Fd).
           assert (O : ~ (i + 1 <= lsp k <= i + 1 + p) \/ ~ (j + 1 <= lsp k <= j + 1 + p)) by lia. destruct O as [O|O]; [rewrite (la_zero k i)|rewrite (la_zero k j)]; try lia; ring.
        -- destruct (Z.le_gt_cases (Z.min (fe i) (fe j) + 1) (Z.max (fs i) (fs j))); [rewrite !rsum_nil by lia; reflexivity|f_equal; lia].
    + intros M' AM'. apply (arr2_ext _ _ _ _ _ AM'). intros r c Hr Hc. destruct (Z.ltb_spec r i), (Z.ltb_spec r (i + 1)), (Z.eqb_spec r i); cbn [andb]; try lia; try reflexivity. subst r.
      destruct (Z.ltb_spec c (Z.min (n - 2) (i + p) + 1 - i + p)); [reflexivity|]. unfold lband. destruct (Z.ltb_spec (i + c - p) (n - 1)); [lia|]. rewrite andb_false_r. reflexivity.
  - intros M AM. apply (arr2_ext _ _ _ _ _ AM). intros r c Hr Hc. destruct (Z.ltb_spec r (n - 1)); [reflexivity|lia].
Qed.

(* right hand sides *)
Lemma right_ok Rk (q : Z -> XYZ R) : arr Rk (m - 1) q -> wp (ls_right n start ending index B Rk) (fun Rv => arr Rv (n - 1) (fun l => comb 0 (m - 1) (fun k => la k l) q)).
Proof.
  intros Ar. destruct HW as (fs & fe & As & Ae & F). unfold ls_right. apply wp_bind, wp_mkvec; [lia|]. intros R0 AR0.
  apply wp_for_up with (P := fun i v => arr v (n - 1) (fun l => if l <? i - 1 then comb 0 (m - 1) (fun k => la k l) q else xyz0)); [lia| | |].
  - apply (arr_ext _ _ _ _ AR0). intros l Hl. destruct (Z.ltb_spec l (1 - 1)); [lia|reflexivity].
  - intros i v Hi Av. wget As. wget Ae. destruct (F (i - 1) ltac:(lia)) as (F1 & F2 & F3).
    apply wp_for_up' with (P := fun k v => arr v (n - 1) (fun l => if l <? i - 1 then comb 0 (m - 1) (fun k => la k l) q else if l =? i - 1 then comb (fs (i - 1)) k (fun k => la k (i - 1)) q else xyz0)).
    + apply (arr_ext _ _ _ _ Av). intros l Hl. cbv beta. destruct (l <? i - 1); [reflexivity|]. destruct (l =? i - 1); [|reflexivity]. unfold comb. rewrite vsum_nil by lia. reflexivity.
    + intros k v' Hk Av'. assert (Hkr : 0 <= k < m - 1) by lia. destruct (F3 k Hkr) as (Fa & Fb). destruct (lent_a k (i - 1) Hkr ltac:(lia) ltac:(lia)) as (Ri & Ei).
      wget Ar. wget Hx. replace (i - lidx k - 1) with (i - 1 - lidx k) by lia. rewrite (arr2_get _ _ _ _ _ _ HB) by lia. cbn [bind]. rewrite (arr_get _ _ _ _ Av') by lia. cbn [bind]. rewrite Ei.
      apply (arr_upd _ _ _ _ _ _ Av'); [lia|]. intros v2 Av2. apply (arr_ext _ _ _ _ Av2). intros l Hl. cbv beta. destruct (Z.eqb_spec l (i - 1)) as [->|Nl]; [|reflexivity].
      rewrite ?Z.ltb_irrefl, ?Z.eqb_refl. unfold comb. rewrite vsum_last by lia. reflexivity.
    + intros v' Av'. apply (arr_ext _ _ _ _ Av'). intros l Hl. cbv beta. destruct (Z.ltb_spec l (i - 1)), (Z.ltb_spec l (i + 1 - 1)), (Z.eqb_spec l (i - 1)); try lia; try reflexivity. subst l.
      apply co_ext. intros c. rewrite !co_comb. replace (rsum (fs (i - 1)) (Z.max (fs (i - 1)) (fe (i - 1) + 1)) (fun k => la k (i - 1) * co c (q k))%R) with (rsum (fs (i - 1)) (fe (i - 1) + 1) (fun k => la k (i - 1) * co c (q k))%R).
      * apply sub_sum; [lia|lia|]. intros k Hk Ho. destruct (F3 k Hk) as (Fa & Fb). rewrite (la_zero k (i - 1)); [ring|lia|lia|lia].
      * destruct (Z.le_gt_cases (fe (i - 1) + 1) (fs (i - 1))); [rewrite !rsum_nil by lia; reflexivity|f_equal; lia].
  - intros v Av. apply (arr_ext _ _ _ _ Av). intros l Hl. cbv beta. destruct (Z.ltb_spec l (n - 1)); [reflexivity|lia].
Qed.
End Ls.
