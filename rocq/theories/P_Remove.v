(* Knot removal: one removal when degree and multiplicity have the same parity. *)
From Coq Require Import ZArith List Bool Reals Lra Lia Permutation.
From Verif Require Import Base Num Vec Tac Spec Spec2 Spec3 Spec4 Spec5 M_MathUtils M_Polynomials M_XYZ M_Bspline M_NurbsCurve M_Curve2
  P_Loop P_MathUtils P_VSum P_Curve P_Bspline P_Blossom P_Insert P_Insert2 P_Reduce P_Reduce2.
Import ListNotations.
Open Scope Z_scope.

Lemma pop_back_arr {X} (l : list X) n f : 0 <= n -> arr l (n + 1) f -> exists l', pop_back l = Ok l' /\ arr l' n f.
Proof.
  intros Hn [HL HG]. destruct (exists_last (l := l)) as (l' & x & ->). { intros ->. cbn in HL. lia. }
  exists l'. split.
  - unfold pop_back. rewrite removelast_last. destruct (l' ++ [x]) eqn:E; [apply app_eq_nil in E; destruct E; discriminate|reflexivity].
  - rewrite len_app in HL. change (len [x]) with 1 in HL. split; [lia|]. intros i Hi. rewrite <- (HG i) by lia. symmetry. apply get_app_l. lia.
Qed.

Lemma dist4_self a : dist4 a a = 0%R.
Proof. unfold dist4. replace ((wx a - wx a) ^ 2 + (wy a - wy a) ^ 2 + (wz a - wz a) ^ 2 + (ww a - ww a) ^ 2)%R with 0%R by ring. apply sqrt_0. Qed.

Lemma upd_len {X} (l : list X) n i x : len l = n -> 0 <= i < n -> wp (upd l i x) (fun l' => len l' = n).
Proof.
  intros HL Hi. assert (Hd : exists f : Z -> X, arr l n f).
  { destruct l as [|y l]; [cbn in HL; lia|]. exists (at_ y (y :: l)). rewrite <- HL. apply arr_at. }
  destruct Hd as (f & Hf). apply (arr_upd _ _ _ _ _ _ Hf); [exact Hi|]. intros l' Hl'. apply Hl'.
Qed.

Lemma get_len {X} (l : list X) n i : len l = n -> 0 <= i < n -> exists x, get l i = Ok x.
Proof.
  intros HL Hi. destruct l as [|y l]; [cbn in HL; lia|]. pose proof (arr_at y (y :: l)) as A. rewrite HL in A. exists (at_ y (y :: l) i). apply A. exact Hi.
Qed.

Lemma for_up_one {S} (s : S) (body : Z -> S -> res S) : for_up 0 1 s body = body 0 s.
Proof. unfold for_up. change (Z.to_nat (1 - 0)) with 1%nat. cbn [iter_up]. apply bind_ret. Qed.

Section Remove.
Variables (p n : Z) (U : list R) (P : list (XYZW R)) (u : R) (k s : Z).
Hypothesis HU : curve_knots p n U.
Hypothesis HP : len P = n + 1.
Hypothesis HH : heavy P.
Hypothesis Hk : span_of p n U u k.
Hypothesis Hin : (val U p < u < val U (n + 1))%R.
Hypothesis Hsep : forall x, In x U -> (Rabs (u - x) <= tol u x)%R -> x = u.
Hypothesis Hs : s = occ U u.
Hypothesis Hs1 : 1 <= s <= p.

Lemma rem_facts : (u < val U (k + 1))%R /\ p < k <= n /\ s <= k - p /\ (forall i, k - s < i <= k -> val U i = u) /\ (forall i, 0 <= i <= k - s -> (val U i < u)%R) /\
  (forall i, k < i <= n + p + 1 -> (u < val U i)%R).
Proof.
  pose proof HU as [Hp Hn HL HS _ _]. pose proof Hk as (Hkr & Hlt & Hku & Hku').
  assert (Hku1 : (u < val U (k + 1))%R) by (destruct Hku' as [?|[-> ->]]; lra).
  destruct (count_sorted U u k HS ltac:(lia) Hku Hku1) as (C1 & C2 & C3). fold (occ U u) in C1, C2, C3. rewrite <- Hs in C1, C2, C3.
  assert (k - s >= p). { destruct (Z_lt_dec (k - s) p); [|lia]. exfalso. pose proof (C2 (k - s + 1) ltac:(lia)). pose proof (HS (k - s + 1) p ltac:(lia) ltac:(lia) ltac:(lia)). lra. }
  split; [exact Hku1|]. split; [lia|]. split; [lia|]. split; [exact C2|]. split; [exact C3|].
  intros i Hi. pose proof (HS (k + 1) i ltac:(lia) ltac:(lia) ltac:(lia)). lra.
Qed.

(* the knots without the knot k *)
Definition dropU (i : Z) : R := if i <? k then val U i else val U (i + 1).

Lemma RemoveKnot_even : Z.even (p - s) = true ->
  wp (RemoveKnot (mkCurve p U P) u 1) (fun o => exists U' Q g, o = Some (mkCurve p U' Q) /\ arr U' (n + p + 1) dropU /\ arr Q n g /\
    (forall i, 0 <= i < k - p -> g i = pt P i) /\ (forall i, k - p + (p - s) / 2 <= i < n -> g i = pt P (i + 1))).
Proof.
  intros Hev. destruct rem_facts as (Hku1 & Hkn & Hks & R1 & R2 & R3). pose proof HU as [Hp Hn HL HS _ _].
  apply Z.even_spec in Hev. destruct Hev as [e He]. rewrite He. replace (2 * e / 2) with e by (rewrite Z.mul_comm, Z.div_mul; lia).
  assert (Hd : in_domain p n U u) by (split; lra).
  pose proof (arr_pt P _ HP) as AP. pose proof (P_Bern.arr_val U) as AU. rewrite HL in AU.
  unfold RemoveKnot. cbn [Degree KnotVector ControlPoints]. rewrite (domain_ok p n U u HU Hd). cbn [bind validate Z.ltb Z.compare].
  apply wp_bind. eapply wp_mono; [apply tolerance_ok; exact HH|]. intros tl Htl. pose proof (modify_tolerance_pos P tl HH Htl) as Htl0. clear Htl.
  assert (EM : GetKnotMultiplicity U u = Ok s).
  { rewrite Hs. apply GetKnotMultiplicity_exact; auto; [lia|]. pose proof (HS 0 p ltac:(lia) ltac:(lia) ltac:(lia)). pose proof (HS (n + 1) (len U - 1) ltac:(lia) ltac:(lia) ltac:(lia)). lra. }
  rewrite EM. cbn [bind]. rewrite (find_span_eq p n U u k HU Hk). cbn [bind]. rewrite HP. replace (n + 1 - 1) with n by lia.
  set (first := k - p). set (last := k - s). assert (Ed : last = first + 2 * e) by (unfold last, first; lia).
  (* the knots *)
  apply wp_bind. apply wp_for_up with (P := fun h v => arr v (n + p + 2) (fun i => if i <? k then val U i else if i <? h - 1 then val U (i + 1) else val U i)); [lia| | |].
  { eapply arr_ext; [exact AU|]. intros i Hi. cbv beta. destruct (Z.ltb_spec i k); [reflexivity|]. destruct (Z.ltb_spec i (k + 1 - 1)); [lia|reflexivity]. }
  { intros h v Hh Hv. wget Hv. wupd Hv. intros v' Hv'. eapply arr_ext; [exact Hv'|]. intros i Hi. cbv beta.
    destruct (Z.eqb_spec i (h - 1)) as [->|].
    - destruct (Z.ltb_spec (h - 1) k); [lia|]. destruct (Z.ltb_spec (h - 1) (h + 1 - 1)); [|lia]. destruct (Z.ltb_spec h k); [lia|]. destruct (Z.ltb_spec h (h - 1)); [lia|]. f_equal. lia.
    - destruct (Z.ltb_spec i k); [reflexivity|]. destruct (Z.ltb_spec i (h - 1)), (Z.ltb_spec i (h + 1 - 1)); try reflexivity; lia. }
  intros W HW. rewrite for_up_one. destruct (pop_back_arr W (n + p + 1) _ ltac:(lia) ltac:(replace (n + p + 1 + 1) with (n + p + 2) by lia; exact HW)) as (U' & -> & HU'). cbn [bind].
  assert (HU2 : arr U' (n + p + 1) dropU).
  { eapply arr_ext; [exact HU'|]. intros i Hi. cbv beta. unfold dropU. destruct (Z.ltb_spec i k); [reflexivity|]. destruct (Z.ltb_spec i (n + p + 1 + 1 - 1)); [reflexivity|lia]. }
  clear HU' W HW. apply wp_bind. apply wp_mkvec; [lia|]. intros temp0 HT0. cbv beta. pose proof (arr_len _ _ _ HT0) as LT0. clear HT0.
  (* the single round *)
  apply wp_bind. apply wp_for_upc with (F := fun _ => False)
    (P := fun h '(Q, temp, f, l) => if h =? 0 then Q = P /\ len temp = 2 * p + 1 /\ f = first /\ l = last
       else exists g, arr Q (n + 1) g /\ forall i, 0 <= i < first -> g i = pt P i).
  { cbn [Z.eqb]. auto. }
  { intros h [[[Q temp] f] l] Hh. assert (h = 0) as -> by lia. cbn [Z.eqb Z.add]. intros (-> & LT & -> & ->).
    wget AP. apply wp_bind. eapply wp_mono; [apply (upd_len temp (2 * p + 1)); [exact LT|lia]|]. intros temp1 LT1. cbv beta in LT1.
    wget AP. apply wp_bind. eapply wp_mono; [apply (upd_len temp1 (2 * p + 1)); [exact LT1|unfold last, first; lia]|]. intros temp2 LT2. cbv beta in LT2.
    apply wp_bind. eapply wp_mono with (P := fun '(temp, i, j, ii, jj) => len temp = 2 * p + 1 /\ i = first + e + 1 /\ j = first + e - 1 /\ ii = e + 2 /\ jj = e).
    { unfold remove_solve. apply wp_while with (mu := fun '(_, i, j, _, _) => Z.to_nat (j - i + 1))
        (I := fun '(temp, i, j, ii, jj) => exists c, len temp = 2 * p + 1 /\ 0 <= c <= e + 1 /\ i = first + c /\ j = last - c /\ ii = 1 + c /\ jj = 2 * e + 1 - c).
      - exists 0. unfold last, first. repeat split; try lia; auto.
      - cbn. lia.
      - intros [[[[tm i] j] ii] jj] (c & LTm & Hc & -> & -> & -> & ->). cbn [wp]. destruct (Z.leb_spec 0 (last - c - (first + c))).
        + assert (Hce : c <= e) by lia. unfold last, first in *.
          pose proof (R2 (k - p + c) ltac:(lia)) as I1. pose proof (R3 (k - p + c + (p + 1) + 0) ltac:(lia)) as I2. pose proof (R2 (k - s - c) ltac:(lia)) as J1. pose proof (R3 (k - s - c + (p + 1)) ltac:(lia)) as J2.
          wget AU. wget AU. num. rewrite Rdiv_ok by lra. cbn [bind]. replace (k - s - c - 0) with (k - s - c) by lia. wget AU. wget AU. rewrite Rdiv_ok by lra. cbn [bind]. wget AP.
          destruct (get_len tm (2 * p + 1) (1 + c - 1) LTm ltac:(lia)) as (x & ->). cbn [bind].
          assert (A1 : ((u - val U (k - p + c)) / (val U (k - p + c + (p + 1) + 0) - val U (k - p + c)) <> 0)%R) by (apply Rgt_not_eq, Rdiv_lt_0_compat; lra).
          assert (A2 : (1 - (u - val U (k - s - c)) / (val U (k - s - c + (p + 1)) - val U (k - s - c)) <> 0)%R).
          { replace (1 - (u - val U (k - s - c)) / (val U (k - s - c + (p + 1)) - val U (k - s - c)))%R with ((val U (k - s - c + (p + 1)) - u) / (val U (k - s - c + (p + 1)) - val U (k - s - c)))%R by (field; lra). apply Rgt_not_eq, Rdiv_lt_0_compat; lra. }
          unfold xyzw_div. num. rewrite !(Rdiv_ok _ _ A1). cbn [bind]. apply wp_bind. eapply wp_mono; [apply (upd_len tm (2 * p + 1)); [exact LTm|lia]|]. intros tm1 L1. cbv beta in L1.
          wget AP. destruct (get_len tm1 (2 * p + 1) (2 * e + 1 - c + 1) L1 ltac:(lia)) as (y & ->). cbn [bind]. rewrite !(Rdiv_ok _ _ A2). cbn [bind].
          apply wp_bind. eapply wp_mono; [apply (upd_len tm1 (2 * p + 1)); [exact L1|lia]|]. intros tm2 L2. cbv beta in L2. cbn [wp]. split; [|lia].
          exists (c + 1). repeat split; lia.
        + repeat split; lia. }
    intros [[[[tm i] j] ii] jj] (LTm & -> & -> & -> & ->).
    rewrite (proj2 (Z.ltb_lt (first + e - 1 - (first + e + 1)) 0)) by lia. replace (e + 2 - 1) with (e + 1) by lia.
    destruct (get_len tm (2 * p + 1) (e + 1) LTm ltac:(lia)) as (x & ->). cbn [bind]. rewrite xyzw_Distance_eq, dist4_self. cbn [bind].
    assert (ELE : IsLessThanOrEqual 0%R tl = true) by (apply le_iff; pose proof (tol_pos 0 tl) as Htp; rewrite tol_thr in Htp; lra).
    rewrite ELE. cbn [negb]. apply wp_bind.
    apply wp_while with (mu := fun '(_, i, j) => Z.to_nat (j - i + 1))
        (I := fun '(Q, i, j) => exists c g, 0 <= c <= e + 1 /\ i = first + c /\ j = last - c /\ arr Q (n + 1) g /\ forall i, 0 <= i < first -> g i = pt P i).
    - exists 0, (pt P). repeat split; try lia; auto; apply AP.
    - cbn. lia.
    - intros [[Q i] j] (c & g & Hc & -> & -> & AQ & Hg). cbn [wp]. destruct (Z.ltb_spec 0 (last - c - (first + c))).
      + unfold last, first in *. destruct (get_len tm (2 * p + 1) (k - p + c - (k - p - 1)) LTm ltac:(lia)) as (x1 & ->). cbn [bind]. wupd AQ. intros Q1 A1.
        destruct (get_len tm (2 * p + 1) (k - s - c - (k - p - 1)) LTm ltac:(lia)) as (x2 & ->). cbn [bind]. wupd A1. intros Q2 A2. cbn [wp]. split; [|lia].
        exists (c + 1). eexists. split; [lia|]. split; [lia|]. split; [lia|]. split; [exact A2|]. intros i Hi. cbv beta. rewrite !(proj2 (Z.eqb_neq i _)) by lia. apply Hg. exact Hi.
      + cbn [wp]. exists g. auto. }
  2:{ intros r []. }
  intros [[[Q tm] f] l] HQ. change (Z.max 0 1) with 1 in HQ. cbn [Z.eqb] in HQ. destruct HQ as (g & AQ & Hg). cbn [Z.eqb].
  assert (EQ : Z.quot (2 * k - s - p) 2 = first + e) by (rewrite Z.quot_div_nonneg by lia; unfold first; replace (2 * k - s - p) with ((k - p + e) * 2) by lia; apply Z.div_mul; lia).
  rewrite EQ. unfold for_up at 1. cbn [Z.sub Z.to_nat Z.add Z.opp Z.pos_sub iter_up bind].
  apply wp_bind. apply wp_for_up with (P := fun h '(Q, j) => exists g, j = h - 1 /\ arr Q (n + 1) g /\ (forall i, 0 <= i < first -> g i = pt P i) /\ forall i, first + e <= i < h - 1 -> g i = pt P (i + 1)).
  { unfold first. lia. }
  { exists g. split; [lia|]. split; [exact AQ|]. split; [exact Hg|]. intros; lia. }
  { clear Q AQ g Hg. intros h [Q j] Hh (g & -> & AQ & Hg & Hg2). wget AP. wupd AQ. intros Q1 A1. cbn [wp]. eexists. split; [lia|]. split; [exact A1|]. split.
    - intros i Hi. cbv beta. rewrite (proj2 (Z.eqb_neq i _)) by lia. apply Hg. exact Hi.
    - intros i Hi. cbv beta. destruct (Z.eqb_spec i (h - 1)) as [->|]; [f_equal; lia|apply Hg2; lia]. }
  clear Q AQ g Hg. intros [Q j] (g & -> & AQ & Hg & Hg2). cbn [fst]. rewrite for_up_one. destruct (pop_back_arr Q n g ltac:(lia) AQ) as (Q' & -> & AQ'). cbn [bind wp].
  exists U', Q', g. split; [reflexivity|]. split; [exact HU2|]. split; [exact AQ'|]. split; [exact Hg|]. intros i Hi. apply Hg2. unfold first. lia.
Qed.
End Remove.

Lemma RemoveKnot_full p n U P u k : curve_knots p n U -> len P = n + 1 -> heavy P -> span_of p n U u k -> (val U p < u < val U (n + 1))%R ->
  (forall x, In x U -> (Rabs (u - x) <= tol u x)%R -> x = u) -> occ U u = p -> 1 <= p ->
  returns (RemoveKnot (mkCurve p U P) u 1) (fun o => exists U' Q, o = Some (mkCurve p U' Q) /\ arr U' (n + p + 1) (fun i => if i <? k then val U i else val U (i + 1)) /\
    arr Q n (fun i => if i <? k - p then pt P i else pt P (i + 1))).
Proof.
  intros HU HP HH Hk Hin Hsep Ho Hp. destruct (wp_elim _ _ (RemoveKnot_even p n U P u k p HU HP HH Hk Hin Hsep (eq_sym Ho) ltac:(lia) ltac:(rewrite Z.sub_diag; reflexivity))) as (o & -> & U' & Q & g & -> & AU & AQ & G1 & G2).
  eexists. split; [reflexivity|]. exists U', Q. split; [reflexivity|]. split; [exact AU|]. eapply arr_ext; [exact AQ|]. intros i Hi. cbv beta.
  destruct (Z.ltb_spec i (k - p)); [apply G1; lia|]. apply G2. rewrite Z.sub_diag, Z.div_0_l by lia. lia.
Qed.

Lemma insert_remove p n U P u res0 : curve_knots p n U -> len P = n + 1 -> heavy P -> (val U p < u < val U (n + 1))%R ->
  (forall x, In x U -> (Rabs (u - x) <= tol u x)%R -> x = u) -> occ U u = p - 1 -> 1 <= p ->
  (let! r := InsertKnot (mkCurve p U P) u 1 res0 in RemoveKnot (snd r) u 1) = Ok (Some (mkCurve p U P)).
Proof.
  intros HU HP HH Hin Hsep Ho Hp1. pose proof HU as [Hp Hn HL HS _ _].
  destruct (find_span p n U u HU ltac:(split; lra)) as (k & _ & Hk).
  destruct (InsertKnot_arr p n U P u 1 k res0 HU HP ltac:(lia) Hk ltac:(lra) Hsep) as (_ & B). cbv zeta in B. fold (occ U u) in B. rewrite Ho in B.
  assert (Er : inserted p (p - 1) 1 = 1) by (unfold inserted; destruct (Z.ltb_spec (p + 1) (p - 1 + 1)); [lia|reflexivity]). rewrite Er in B.
  destruct (wp_elim _ _ (B ltac:(lia))) as ([r' c] & E & U' & Q & -> & -> & AU' & AQ). clear B.
  destruct (InsertKnot_preserves p n U P u 1 res0 HU HP ltac:(lia) Hin Hsep) as (_ & B). cbv zeta in B. fold (occ U u) in B. rewrite Ho in B. fold (inserted p (p - 1) 1) in B. rewrite Er in B.
  destruct (B ltac:(lia)) as (x & E' & Hx). clear B. rewrite E in E'. injection E' as <-. destruct Hx as (_ & U2 & Q2 & EC & HU' & LQ & Perm & _ & _). injection EC as <- <-.
  rewrite E. cbn [bind snd]. clear E.
  pose proof Hk as (Hkr & Hlt & Hku & Hku'). assert (Hku1 : (u < val U (k + 1))%R) by (destruct Hku' as [?|[-> ->]]; lra).
  assert (VU : forall i, 0 <= i < n + p + 2 + 1 -> val U' i = insU (val U) k 1 u i) by (intros i Hi; exact (P_Insert2.arr_val _ _ _ i AU' Hi)).
  assert (Hk' : span_of p (n + 1) U' u (k + 1)).
  { split; [lia|]. rewrite !VU by lia. unfold insU. destruct (Z.leb_spec (k + 1) k); [lia|]. destruct (Z.leb_spec (k + 1) (k + 1)); [|lia]. destruct (Z.leb_spec (k + 1 + 1) k); [lia|].
    destruct (Z.leb_spec (k + 1 + 1) (k + 1)); [lia|]. replace (k + 1 + 1 - 1) with (k + 1) by lia. split; [lra|]. split; [lra|]. left. lra. }
  destruct (count_sorted U u k HS ltac:(lia) Hku Hku1) as (C1 & C2 & C3). fold (occ U u) in C1, C2, C3. rewrite Ho in C1, C2, C3.
  assert (Hkp : p < k \/ 1 = p). { destruct (Z.eq_dec p 1); [right; lia|left]. destruct (Z.eq_dec k p) as [->|]; [|lia]. pose proof (C2 p ltac:(lia)). lra. }
  assert (Hin' : (val U' p < u < val U' (n + 1 + 1))%R).
  { rewrite !VU by lia. unfold insU. destruct (Z.leb_spec p k); [|lia]. destruct (Z.leb_spec (n + 1 + 1) k); [lia|]. destruct (Z.leb_spec (n + 1 + 1) (k + 1)); [lia|]. replace (n + 1 + 1 - 1) with (n + 1) by lia. exact Hin. }
  assert (Hsep' : forall x, In x U' -> (Rabs (u - x) <= tol u x)%R -> x = u).
  { intros x Hx. apply (Permutation_in _ Perm) in Hx. change (repeat u (Z.to_nat 1) ++ U) with (u :: U) in Hx. destruct Hx as [->|Hx]; [auto|apply Hsep; exact Hx]. }
  assert (Ho' : occ U' u = p).
  { rewrite (P_KnotMap.occ_perm _ _ u Perm). change (repeat u (Z.to_nat 1) ++ U) with (u :: U). rewrite P_KnotMap.occ_cons. destruct (Req_EM_T u u); [lia|lra]. }
  assert (VQ : forall i, 0 <= i < n + 1 + 1 -> pt Q i = insP (val U) (pt P) p k (p - 1) 1 u i) by (intros i Hi; exact (arr_pt_eq _ _ _ i AQ Hi)).
  assert (HHQ : heavy Q).
  { intros i Hi. rewrite LQ in Hi. rewrite VQ by lia. unfold insP. destruct (Z.leb_spec i (k - p)); [apply HH; lia|]. destruct (Z.leb_spec (k - (p - 1) + 1) i); [apply HH; lia|].
    destruct (Z.ltb_spec i (k - (p - 1))); [lia|]. assert (i = k - p + 1) as -> by lia. replace (Z.min (k - (p - 1) + 1 - (k - p + 1)) (p - (p - 1))) with 1 by lia.
    replace (k - (p - 1)) with (k - p + 1) by lia. unfold tab.
    change (repeat u (Z.to_nat 1)) with [u]. cbn [bl]. unfold deB. replace (k - p + 1 + p) with (k + 1) by lia. replace (k - p + 1 - 1) with (k - p) by lia.
    assert (S1 : (val U (k - p + 1) <= val U k)%R) by (apply HS; lia).
    cbn [vadd vscale Vec_XYZW]. unfold xyzw_add, xyzw_scale. cbn [ww]. num. rewrite (Rmult_comm (ww (pt P (k - p + 1)))), (Rmult_comm (ww (pt P (k - p)))). apply heavy_mix; [apply HH; lia|apply HH; lia|]. split.
    - apply Rmult_le_pos; [lra|]. apply Rlt_le, Rinv_0_lt_compat. lra.
    - apply (Rmult_le_reg_r (val U (k + 1) - val U (k - p + 1))); [lra|]. unfold Rdiv. rewrite Rmult_assoc, Rinv_l by lra. lra. }
  destruct (RemoveKnot_full p (n + 1) U' Q u (k + 1) HU' ltac:(lia) HHQ Hk' Hin' Hsep' Ho' Hp1) as (o & -> & U2 & Q2 & -> & AU2 & AQ2). do 3 f_equal.
  - apply (arr_inj _ _ (n + p + 2) (val U)); [|rewrite <- HL; apply P_Bern.arr_val]. replace (n + p + 2) with (n + 1 + p + 1) by lia. eapply arr_ext; [exact AU2|]. intros i Hi. cbv beta. rewrite !VU by lia. unfold insU.
    destruct (Z.ltb_spec i (k + 1)).
    + destruct (Z.leb_spec i k); [reflexivity|lia].
    + destruct (Z.leb_spec (i + 1) k); [lia|]. destruct (Z.leb_spec (i + 1) (k + 1)); [lia|]. f_equal. lia.
  - apply (arr_inj _ _ (n + 1) (pt P)); [|apply arr_pt; exact HP]. eapply arr_ext; [exact AQ2|]. intros i Hi. cbv beta. rewrite !VQ by lia. unfold insP.
    destruct (Z.ltb_spec i (k + 1 - p)).
    + destruct (Z.leb_spec i (k - p)); [reflexivity|lia].
    + destruct (Z.leb_spec (i + 1) (k - p)); [lia|]. destruct (Z.leb_spec (k - (p - 1) + 1) (i + 1)); [f_equal; lia|lia].
Qed.

Lemma RemoveKnot_unchecked p n U P u : curve_knots p n U -> len P = n + 1 -> heavy P -> (val U p < u < val U (n + 1))%R ->
  (forall x, In x U -> (Rabs (u - x) <= tol u x)%R -> x = u) -> 1 <= occ U u <= p -> Z.even (p - occ U u) = true ->
  returns (RemoveKnot (mkCurve p U P) u 1) (fun o => exists U' Q, o = Some (mkCurve p U' Q) /\ len U' = n + p + 1 /\ len Q = n).
Proof.
  intros HU HP HH Hin Hsep Ho Hev. destruct (find_span p n U u HU ltac:(split; lra)) as (k & _ & Hk).
  destruct (wp_elim _ _ (RemoveKnot_even p n U P u k (occ U u) HU HP HH Hk Hin Hsep eq_refl Ho Hev)) as (o & -> & U' & Q & g & -> & AU & AQ & _ & _).
  eexists. split; [reflexivity|]. exists U', Q. split; [reflexivity|]. split; [exact (arr_len _ _ _ AU)|exact (arr_len _ _ _ AQ)].
Qed.
