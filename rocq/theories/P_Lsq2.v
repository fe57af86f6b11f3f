(* Least squares with weights and constraints: the run of the function. *)
From Coq Require Import ZArith List Bool Reals Lra Lia Permutation Sorted.
From Verif Require Import Base Num Vec Tac Spec Spec2 Spec3 Spec6 Spec20 M_MathUtils M_Polynomials M_XYZ M_Bspline M_NurbsCurve M_Interp M_Fit M_Fit2
  P_MathUtils P_Math2 P_Span P_Cox P_Deriv P_Ders P_XYZ P_Vec P_VSum P_Curve P_Bspline P_BsplineS P_Loop P_Basis P_Fit P_Interp2 P_Interp P_Local P_Lsq.
Import ListNotations.
Open Scope Z_scope.

Definition zseq (m : Z) : list Z := map Z.of_nat (seq 0 (Z.to_nat m)).

Lemma zseq_in m x : In x (zseq m) <-> 0 <= x < m.
Proof.
  unfold zseq. rewrite in_map_iff. split.
  - intros (k & <- & K). apply in_seq in K. lia.
  - intros Hx. exists (Z.to_nat x). split; [lia|]. apply in_seq. lia.
Qed.
Lemma zseq_nodup m : NoDup (zseq m).
Proof. unfold zseq. apply FinFun.Injective_map_NoDup; [intros a b; lia|apply seq_NoDup]. Qed.

Lemma insert_perm key a l : Permutation (insert_order key a l) (a :: l).
Proof.
  induction l as [|b l IH]; cbn [insert_order]; [apply Permutation_refl|]. destruct (key a <? key b); [apply Permutation_refl|].
  eapply Permutation_trans; [apply perm_skip, IH|apply perm_swap].
Qed.
Lemma sort_perm key l : Permutation (sort_order key l) l.
Proof. induction l as [|a l IH]; cbn [sort_order]; [apply Permutation_refl|]. eapply Permutation_trans; [apply insert_perm|apply perm_skip, IH]. Qed.
Lemma insert_sorted key a l : StronglySorted (fun x y => key x <= key y) l -> StronglySorted (fun x y => key x <= key y) (insert_order key a l).
Proof.
  induction l as [|b l IH]; cbn [insert_order]; intros S; [constructor; [constructor|constructor]|]. inversion S as [|? ? S1 F1]; subst. destruct (Z.ltb_spec (key a) (key b)).
  - constructor; [exact S|]. constructor; [lia|]. rewrite Forall_forall in *. intros x Hx. specialize (F1 x Hx). lia.
  - constructor; [apply IH, S1|]. rewrite Forall_forall in *. intros x Hx. apply (Permutation_in _ (insert_perm key a l)) in Hx. destruct Hx as [<-|Hx]; [lia|apply F1, Hx].
Qed.
Lemma sort_sorted key l : StronglySorted (fun x y => key x <= key y) (sort_order key l).
Proof. induction l as [|a l IH]; cbn [sort_order]; [constructor|]. apply insert_sorted, IH. Qed.
Lemma sorted_at (Rl : Z -> Z -> Prop) l : StronglySorted Rl l -> forall i j, 0 <= i < j -> j < len l -> Rl (at_ 0 l i) (at_ 0 l j).
Proof.
  induction 1 as [|a l SS IH F]; intros i j Hi Hj; unfold len in Hj; cbn [length] in Hj; [lia|]. rewrite Forall_forall in F. unfold at_.
  replace (Z.to_nat j) with (S (Z.to_nat (j - 1))) by lia. cbn [nth]. destruct (Z.eq_dec i 0) as [->|N0].
  - cbn. apply F. apply nth_In. lia.
  - replace (Z.to_nat i) with (S (Z.to_nat (i - 1))) by lia. cbn [nth]. apply (IH (i - 1) (j - 1)); unfold len; lia.
Qed.
Lemma at_in l i : 0 <= i < len l -> In (at_ 0 l i) l.
Proof. intros H. unfold at_. apply nth_In. unfold len in H. lia. Qed.
Lemma in_at l x : In x l -> exists i, 0 <= i < len l /\ at_ 0 l i = x.
Proof. intros H. destruct (In_nth l x 0 H) as (k & K & E). exists (Z.of_nat k). unfold len, at_. rewrite Nat2Z.id. split; [lia|exact E]. Qed.
Lemma at_inj l i j : NoDup l -> 0 <= i < len l -> 0 <= j < len l -> at_ 0 l i = at_ 0 l j -> i = j.
Proof. intros ND Hi Hj E. unfold at_ in E. unfold len in *. assert (Z.to_nat i = Z.to_nat j); [|lia]. apply (proj1 (NoDup_nth l 0) ND); [lia|lia|exact E]. Qed.

Lemma filter_app1 f (s : list Z) x : filter f (s ++ [x]) = if f x then filter f s ++ [x] else filter f s.
Proof. rewrite filter_app. cbn [filter]. destruct (f x); [reflexivity|apply app_nil_r]. Qed.
Lemma at_snoc_l (l : list Z) x i : 0 <= i < len l -> at_ 0 (l ++ [x]) i = at_ 0 l i.
Proof. intros H. unfold at_, len in *. apply app_nth1. lia. Qed.
Lemma at_snoc_r (l : list Z) x : at_ 0 (l ++ [x]) (len l) = x.
Proof. unfold at_, len. rewrite Nat2Z.id, app_nth2 by lia. rewrite Nat.sub_diag. reflexivity. Qed.
Lemma len_snoc {X} (l : list X) x : len (l ++ [x]) = len l + 1.
Proof. unfold len. rewrite app_length. cbn. lia. Qed.

Lemma fill_row_ok mat rows n p k row f g (vals : Z -> res R) : arr2 mat rows (n + 1) f -> 0 <= row < rows -> 0 <= p -> p <= k <= n ->
  (forall j, 0 <= j <= p -> vals j = Ok (g (k - p + j))) ->
  wp (fill_row mat row (k - p) p (n + 1) vals) (fun m => arr2 m rows (n + 1) (fun r l => if (r =? row) && ((k - p <=? l) && (l <=? k)) then g l else f r l)).
Proof.
  intros AM Hr Hp Hk Hv. unfold fill_row.
  apply wp_for_up with (P := fun j m => arr2 m rows (n + 1) (fun r l => if (r =? row) && ((k - p <=? l) && (l <? k - p + j)) then g l else f r l)); [lia| | |].
  - apply (arr2_ext _ _ _ _ _ AM). intros r l Hr' Hl. destruct (Z.leb_spec (k - p) l), (Z.ltb_spec l (k - p + 0)); try lia; rewrite ?andb_false_r; reflexivity.
  - intros j m Hj Am. destruct (Z.leb_spec 0 (k - p + j)); [|lia]. destruct (Z.ltb_spec (k - p + j) (n + 1)); [|lia]. cbn [andb]. rewrite Hv by lia. cbn [bind].
    apply (arr2_upd _ _ _ _ _ _ _ _ Am); [lia|lia|]. intros m' Am'. apply (arr2_ext _ _ _ _ _ Am'). intros r l Hr' Hl. cbv beta.
    destruct (Z.eqb_spec r row), (Z.eqb_spec l (k - p + j)), (Z.leb_spec (k - p) l), (Z.ltb_spec l (k - p + j)), (Z.ltb_spec l (k - p + (j + 1))); cbn [andb]; subst; try lia; reflexivity.
  - intros m Am. apply (arr2_ext _ _ _ _ _ Am). intros r l Hr' Hl. destruct (Z.ltb_spec l (k - p + (p + 1))), (Z.leb_spec l k); try lia; reflexivity.
Qed.

Section Run.
Variable solve : list (list R) -> list (list R) -> res (list (list R)).
Hypothesis Hsolve : exact_solver solve.
Variables (p n : Z) (U us : list R) (Q D : list (XYZ R)) (W Wt : list R) (J : list Z).
Hypothesis HU : curve_knots p n U.
Hypothesis Hp1 : 1 <= p.
Hypothesis Hp7 : p <= 7.
Hypothesis HpQ : p < len Q.
Hypothesis Hus : len us = len Q.
Hypothesis Hdom : forall i, 0 <= i < len Q -> in_domain p n U (val us i).
Hypothesis HW : len W = len Q.
Hypothesis HJ : len J = len D.
Hypothesis HWt : len Wt = len D.
Hypothesis HJr : forall j, In j J -> 0 <= j < len Q.
Hypothesis HJn : NoDup J.
Let m := len Q + len D.
Let data := fit_data us Q W D J Wt.
Let par r := d_par (data r).
Let ord r := d_ord (data r).
Let tgt r := d_target (data r).
Let wgt r := d_weight (data r).
Let cnt r := is_counted (data r).
Let hld r := is_held (data r).

Definition spx (r : Z) : Z := match GetKnotSpanIndex p U (d_par (fit_data us Q W D J Wt r)) with Ok k => k | Err _ => 0 end.
Definition coef (r l : Z) : R := if (spx r - p <=? l) && (l <=? spx r) then GN (val U) (spx r) p l (d_ord (fit_data us Q W D J Wt r)) (d_par (fit_data us Q W D J Wt r)) else 0%R.

Lemma par_dom r : 0 <= r < m -> in_domain p n U (par r).
Proof.
  unfold m. intros Hr. unfold par, data, fit_data. destruct (Z.ltb_spec r (len Q)); cbn [d_par]; apply Hdom; [lia|]. apply HJr, at_in. lia.
Qed.
Lemma spx_ok r : 0 <= r < m -> GetKnotSpanIndex p U (par r) = Ok (spx r) /\ span_of p n U (par r) (spx r).
Proof. intros Hr. unfold spx. fold data. fold (par r). destruct (find_span p n U (par r) HU (par_dom r Hr)) as (k & -> & Hk). split; [reflexivity|exact Hk]. Qed.
Lemma spx_in r : 0 <= r < m -> p <= spx r <= n.
Proof. intros Hr. destruct (spx_ok r Hr) as (_ & Hk). destruct Hk; lia. Qed.

Lemma gt_cnt r : IsGreaterThan (wgt r) 0%R = cnt r.
Proof.
  unfold cnt, is_counted. fold (wgt r). destruct (Rlt_dec (tol (wgt r) 0) (wgt r)) as [L|L].
  - apply gt_iff. rewrite <- tol_thr. lra.
  - destruct (IsGreaterThan (wgt r) 0%R) eqn:E; [|reflexivity]. exfalso. apply L. apply gt_iff in E. rewrite <- tol_thr in E. lra.
Qed.
Lemma lt_hld r : IsLessThan (wgt r) 0%R = hld r.
Proof.
  unfold hld, is_held. fold (wgt r). destruct (Rlt_dec (tol (wgt r) 0) (- wgt r)) as [L|L].
  - apply lt_iff. rewrite <- tol_thr. lra.
  - destruct (IsLessThan (wgt r) 0%R) eqn:E; [|reflexivity]. exfalso. apply L. apply lt_iff in E. rewrite <- tol_thr in E. lra.
Qed.
Lemma not_both r : cnt r = true -> hld r = false.
Proof. unfold cnt, hld, is_counted, is_held. fold (wgt r). pose proof (tol_pos (wgt r) 0). destruct (Rlt_dec (tol (wgt r) 0) (wgt r)), (Rlt_dec (tol (wgt r) 0) (- wgt r)); try reflexivity; try discriminate. lra. Qed.

Let mu := number m cnt.
Let mc := number m hld.

Definition filled (s : list Z) (st : FitState) : Prop :=
  arr2 (fN st) mu (n + 1) (fun r l => if r <? len (filter cnt s) then coef (at_ 0 (filter cnt s) r) l else 0%R) /\
  arr2 (fM st) mc (n + 1) (fun r l => if r <? len (filter hld s) then coef (at_ 0 (filter hld s) r) l else 0%R) /\
  arr (fS st) mu (fun r => if r <? len (filter cnt s) then xyz_scale (wgt (at_ 0 (filter cnt s) r)) (tgt (at_ 0 (filter cnt s) r)) else xyz0) /\
  arr (fT st) mc (fun r => if r <? len (filter hld s) then tgt (at_ 0 (filter hld s) r) else xyz0) /\
  arr (fW st) mu (fun r => if r <? len (filter cnt s) then wgt (at_ 0 (filter cnt s) r) else 0%R) /\
  fmu st = len (filter cnt s) /\ fmc st = len (filter hld s).

Lemma room f s x : NoDup s -> (forall y, In y s -> 0 <= y < m) -> ~ In x s -> 0 <= x < m -> f x = true -> len (filter f s) < number m f.
Proof.
  intros ND Hs Nx Hx Fx. unfold number. fold (zseq m). enough (length (filter f (x :: s)) <= length (filter f (zseq m)))%nat by (cbn [filter] in *; rewrite Fx in *; cbn [length] in *; unfold len; lia).
  apply NoDup_incl_length; [apply NoDup_filter; constructor; assumption|]. intros y Hy. apply filter_In in Hy. destruct Hy as (Hy & Fy). apply filter_In. split; [|exact Fy]. apply zseq_in. destruct Hy as [<-|Hy]; [exact Hx|apply Hs, Hy].
Qed.

Lemma entry_ok s st x values : filled s st -> NoDup s -> (forall y, In y s -> 0 <= y < m) -> ~ In x s -> 0 <= x < m ->
  returns values (fun vals => forall j, 0 <= j <= p -> vals j = Ok (coef x (spx x - p + j))) ->
  wp (fit_entry st (wgt x) (tgt x) (spx x - p) p (n + 1) values) (fun st' => filled (s ++ [x]) st' /\ ftan st' = ftan st).
Proof.
  intros (AN & AM & AS & AT & AW & Emu & Emc) ND Hs Nx Hx (vals & -> & Hv). unfold fit_entry. num. rewrite gt_cnt, lt_hld.
  pose proof (spx_in x Hx) as Hk. destruct (cnt x) eqn:Cx.
  - pose proof (room cnt s x ND Hs Nx Hx Cx) as Rm. fold mu in Rm. cbn [bind]. rewrite Emu. pose proof (len_nonneg (filter cnt s)) as L0.
    apply wp_bind. eapply wp_mono; [apply (fill_row_ok _ _ n p (spx x) _ _ (coef x) vals AN); [lia|lia|lia|exact Hv]|]. cbv beta. intros N' AN'.
    apply wp_bind. apply (arr_upd _ _ _ _ _ _ AW); [lia|]. intros W' AW'. apply wp_bind. apply (arr_upd _ _ _ _ _ _ AS); [lia|]. intros S' AS'. apply wp_ok. cbn [ftan]. split; [|reflexivity].
    unfold filled. cbn [fN fM fS fT fW fmu fmc]. rewrite !filter_app1, Cx, (not_both x Cx). split; [|split; [exact AM|split; [|split; [exact AT|split; [|split; [rewrite len_snoc; reflexivity|exact Emc]]]]]].
    + apply (arr2_ext _ _ _ _ _ AN'). intros r l Hr Hl. cbv beta. rewrite len_snoc. destruct (Z.eqb_spec r (len (filter cnt s))) as [->|Ne]; cbn [andb].
      * destruct (Z.ltb_spec (len (filter cnt s)) (len (filter cnt s) + 1)); [|lia]. rewrite at_snoc_r. destruct (Z.ltb_spec (len (filter cnt s)) (len (filter cnt s))); [lia|]. unfold coef. destruct (Z.leb_spec (spx x - p) l), (Z.leb_spec l (spx x)); reflexivity.
      * destruct (Z.ltb_spec r (len (filter cnt s) + 1)), (Z.ltb_spec r (len (filter cnt s))); try lia; [rewrite at_snoc_l by lia|]; reflexivity.
    + apply (arr_ext _ _ _ _ AS'). intros r Hr. cbv beta. rewrite len_snoc. destruct (Z.eqb_spec r (len (filter cnt s))) as [->|Ne].
      * destruct (Z.ltb_spec (len (filter cnt s)) (len (filter cnt s) + 1)); [|lia]. rewrite at_snoc_r. reflexivity.
      * destruct (Z.ltb_spec r (len (filter cnt s) + 1)), (Z.ltb_spec r (len (filter cnt s))); try lia; [rewrite at_snoc_l by lia|]; reflexivity.
    + apply (arr_ext _ _ _ _ AW'). intros r Hr. cbv beta. rewrite len_snoc. destruct (Z.eqb_spec r (len (filter cnt s))) as [->|Ne].
      * destruct (Z.ltb_spec (len (filter cnt s)) (len (filter cnt s) + 1)); [|lia]. rewrite at_snoc_r. reflexivity.
      * destruct (Z.ltb_spec r (len (filter cnt s) + 1)), (Z.ltb_spec r (len (filter cnt s))); try lia; [rewrite at_snoc_l by lia|]; reflexivity.
  - destruct (hld x) eqn:Hx'.
    + pose proof (room hld s x ND Hs Nx Hx Hx') as Rm. fold mc in Rm. cbn [bind]. rewrite Emc. pose proof (len_nonneg (filter hld s)) as L0.
      apply wp_bind. eapply wp_mono; [apply (fill_row_ok _ _ n p (spx x) _ _ (coef x) vals AM); [lia|lia|lia|exact Hv]|]. cbv beta. intros M' AM'.
      apply wp_bind. apply (arr_upd _ _ _ _ _ _ AT); [lia|]. intros T' AT'. apply wp_ok. cbn [ftan]. split; [|reflexivity].
      unfold filled. cbn [fN fM fS fT fW fmu fmc]. rewrite !filter_app1, Cx, Hx'. split; [exact AN|split; [|split; [exact AS|split; [|split; [exact AW|split; [exact Emu|rewrite len_snoc; reflexivity]]]]]].
      * apply (arr2_ext _ _ _ _ _ AM'). intros r l Hr Hl. cbv beta. rewrite len_snoc. destruct (Z.eqb_spec r (len (filter hld s))) as [->|Ne]; cbn [andb].
        -- destruct (Z.ltb_spec (len (filter hld s)) (len (filter hld s) + 1)); [|lia]. rewrite at_snoc_r. destruct (Z.ltb_spec (len (filter hld s)) (len (filter hld s))); [lia|]. unfold coef. destruct (Z.leb_spec (spx x - p) l), (Z.leb_spec l (spx x)); reflexivity.
        -- destruct (Z.ltb_spec r (len (filter hld s) + 1)), (Z.ltb_spec r (len (filter hld s))); try lia; [rewrite at_snoc_l by lia|]; reflexivity.
      * apply (arr_ext _ _ _ _ AT'). intros r Hr. cbv beta. rewrite len_snoc. destruct (Z.eqb_spec r (len (filter hld s))) as [->|Ne].
        -- destruct (Z.ltb_spec (len (filter hld s)) (len (filter hld s) + 1)); [|lia]. rewrite at_snoc_r. reflexivity.
        -- destruct (Z.ltb_spec r (len (filter hld s) + 1)), (Z.ltb_spec r (len (filter hld s))); try lia; [rewrite at_snoc_l by lia|]; reflexivity.
    + apply wp_ok. split; [|reflexivity]. unfold filled. rewrite !filter_app1, Cx, Hx'. repeat split; assumption || apply AN || apply AM || apply AS || apply AT || apply AW.
Qed.

Let key a := at_ 0 J a.
Let order := sort_order key (zseq (len D)).

Lemma order_perm : Permutation order (zseq (len D)).
Proof. apply sort_perm. Qed.
Lemma order_len : len order = len D.
Proof. unfold len at 1. rewrite (Permutation_length order_perm). unfold zseq. rewrite map_length, seq_length. pose proof (len_nonneg D). lia. Qed.
Lemma order_nodup : NoDup order.
Proof. apply (Permutation_NoDup (Permutation_sym order_perm)). apply zseq_nodup. Qed.
Lemma order_in x : In x order <-> 0 <= x < len D.
Proof. rewrite <- zseq_in. split; apply Permutation_in; [|apply Permutation_sym]; apply order_perm. Qed.
Lemma order_range j : 0 <= j < len D -> 0 <= at_ 0 order j < len D.
Proof. intros Hj. apply order_in, at_in. rewrite order_len. exact Hj. Qed.
Lemma order_keys i j : 0 <= i < j -> j < len D -> key (at_ 0 order i) < key (at_ 0 order j).
Proof.
  intros Hi Hj. pose proof (sorted_at _ _ (sort_sorted key (zseq (len D))) i j Hi ltac:(fold order; rewrite order_len; exact Hj)) as L. fold order in L. cbv beta in L.
  enough (key (at_ 0 order i) <> key (at_ 0 order j)) by lia. intros E. unfold key in E. apply at_inj in E; [|exact HJn|rewrite HJ; apply order_range; lia|rewrite HJ; apply order_range; lia].
  apply at_inj in E; [lia|exact order_nodup|rewrite order_len; lia|rewrite order_len; lia].
Qed.

Lemma point_values i : 0 <= i < len Q -> returns (let! basis := BasisFunctions (spx i) p U (par i) in Ok (fun k => getu basis k)) (fun vals => forall j, 0 <= j <= p -> vals j = Ok (coef i (spx i - p + j))).
Proof.
  intros Hi. pose proof (len_nonneg D) as LD. assert (Hm : 0 <= i < m) by (unfold m; lia). destruct (spx_ok i Hm) as (_ & Hk). pose proof (spx_in i Hm) as Hkn.
  destruct (wp_elim _ _ (BasisFunctions_ok U p (spx i) (par i) (span_of_ok _ _ _ _ _ HU Hk) Hp7 (accepted_dom _ _ _ _ HU (par_dom i Hm)))) as (b & -> & Lb & Hb). cbn [bind]. eexists. split; [reflexivity|].
  intros j Hj. cbv beta. unfold getu. rewrite Hb by lia. cbn [bind]. unfold coef. fold data. fold (par i). fold (ord i). destruct (Z.leb_spec (spx i - p) (spx i - p + j)); [|lia]. destruct (Z.leb_spec (spx i - p + j) (spx i)); [|lia]. cbn [andb].
  assert (E : ord i = 0). { unfold ord, data, fit_data. destruct (Z.ltb_spec i (len Q)); [reflexivity|lia]. } rewrite E, GN_0. reflexivity.
Qed.
Lemma tangent_values j : 0 <= j < len D -> returns (BasisFunctionsDerivatives (spx (len Q + j)) p 1 U (par (len Q + j))) (fun d => forall a, 0 <= a <= p -> get2 d 1 a = Ok (coef (len Q + j) (spx (len Q + j) - p + a))).
Proof.
  intros Hj. pose proof (len_nonneg Q) as LQ. assert (Hm : 0 <= len Q + j < m) by (unfold m; lia). destruct (spx_ok _ Hm) as (_ & Hk). pose proof (spx_in _ Hm) as Hkn.
  destruct (wp_elim _ _ (BasisFunctionsDerivatives_ok U p _ 1 _ (span_of_ok _ _ _ _ _ HU Hk) Hp7 ltac:(lia) (accepted_dom _ _ _ _ HU (par_dom _ Hm)))) as (b & -> & Ab). eexists. split; [reflexivity|].
  intros a Ha. rewrite (arr2_get _ _ _ _ 1 a Ab) by lia. unfold coef. fold data. fold (par (len Q + j)). fold (ord (len Q + j)). destruct (Z.leb_spec (spx (len Q + j) - p) (spx (len Q + j) - p + a)); [|lia]. destruct (Z.leb_spec (spx (len Q + j) - p + a) (spx (len Q + j))); [|lia]. cbn [andb].
  assert (E : ord (len Q + j) = 1). { unfold ord, data, fit_data. destruct (Z.ltb_spec (len Q + j) (len Q)); [lia|reflexivity]. } rewrite E. reflexivity.
Qed.

(* what the loop knows after the points before i *)
Definition before (i : Z) (st : FitState) : Prop := exists s, filled s st /\ NoDup s /\ 0 <= ftan st <= len D /\
  (forall x, In x s <-> 0 <= x < i \/ exists j, 0 <= j < ftan st /\ x = len Q + at_ 0 order j) /\
  (forall j, 0 <= j < ftan st -> key (at_ 0 order j) < i) /\ (forall j, ftan st <= j < len D -> i <= key (at_ 0 order j)).

Lemma point_step i st : 0 <= i < len Q -> before i st -> wp (fit_point p (n + 1) U us Q W D J order Wt i st) (before (i + 1)).
Proof.
  intros Hi (s & Fs & ND & Ht & Hin & Hlo & Hhi). pose proof (len_nonneg D) as LD. assert (Hm : 0 <= i < m) by (unfold m; lia). unfold fit_point. rewrite order_len.
  assert (Eh : (if ftan st <? len D then let! o := get order (ftan st) in let! idx := get J o in Ok (idx =? i) else Ok false) = Ok ((ftan st <? len D) && (key (at_ 0 order (ftan st)) =? i))).
  { destruct (Z.ltb_spec (ftan st) (len D)); [|reflexivity]. rewrite (get_at 0) by (rewrite order_len; lia). cbn [bind]. pose proof (order_range (ftan st) ltac:(lia)). rewrite (get_at 0) by lia. reflexivity. }
  rewrite Eh. cbn [bind]. clear Eh. rewrite get_val by lia. cbn [bind].
  assert (Ep : val us i = par i) by (unfold par, data, fit_data; destruct (Z.ltb_spec i (len Q)); [reflexivity|lia]). rewrite Ep.
  destruct (spx_ok i Hm) as (Es & Hk). rewrite Es. cbn [bind]. rewrite get_val by lia. cbn [bind]. rewrite (get_at vzero) by lia. cbn [bind].
  replace (val W i) with (wgt i) by (unfold wgt, data, fit_data; destruct (Z.ltb_spec i (len Q)); [reflexivity|lia]). replace (at_ vzero Q i) with (tgt i) by (unfold tgt, data, fit_data; destruct (Z.ltb_spec i (len Q)); [reflexivity|lia]).
  assert (Hs : forall y, In y s -> 0 <= y < m). { intros y Hy. apply Hin in Hy. destruct Hy as [Hy|(j & Hj & ->)]; unfold m; [lia|]. pose proof (order_range j ltac:(lia)). lia. }
  assert (Ni : ~ In i s). { intros K. apply Hin in K. destruct K as [K|(j & Hj & E)]; [lia|]. pose proof (order_range j ltac:(lia)). lia. }
  apply wp_bind. eapply wp_mono; [apply (entry_ok s st i _ Fs ND Hs Ni Hm (point_values i Hi))|]. cbv beta. intros st1 (F1 & T1).
  assert (ND1 : NoDup (s ++ [i])). { apply (Permutation_NoDup (l := i :: s)); [apply Permutation_cons_append|]. constructor; assumption. }
  destruct (Z.ltb_spec (ftan st) (len D)) as [Lt|Lt]; [destruct (Z.eqb_spec (key (at_ 0 order (ftan st))) i) as [Ek|Ek]|]; cbn [andb].
  - pose proof (order_range (ftan st) ltac:(lia)) as Ho. set (o := at_ 0 order (ftan st)) in *. rewrite T1. rewrite (get_at 0) by (rewrite order_len; lia). cbn [bind]. fold o. rewrite (get_at vzero) by lia. cbn [bind]. rewrite get_val by lia. cbn [bind].
    assert (Hm2 : 0 <= len Q + o < m) by (unfold m; lia).
    assert (Ep2 : par i = par (len Q + o)). { rewrite <- Ep. unfold par, data, fit_data. destruct (Z.ltb_spec (len Q + o) (len Q)); [lia|]. cbn [d_par]. replace (len Q + o - len Q) with o by lia. fold (key o). rewrite Ek. reflexivity. }
    assert (Es2 : spx i = spx (len Q + o)). { destruct (spx_ok _ Hm2) as (E2 & _). rewrite <- Ep2, Es in E2. injection E2 as E2. exact E2. }
    rewrite Ep2, Es2. destruct (tangent_values o Ho) as (ders & Ed & Hd). rewrite Ed. cbn [bind].
    replace (val Wt o) with (wgt (len Q + o)) by (unfold wgt, data, fit_data; destruct (Z.ltb_spec (len Q + o) (len Q)); [lia|]; cbn [d_weight]; do 2 f_equal; lia).
    replace (at_ vzero D o) with (tgt (len Q + o)) by (unfold tgt, data, fit_data; destruct (Z.ltb_spec (len Q + o) (len Q)); [lia|]; cbn [d_target]; unfold pt; f_equal; lia).
    assert (Hin1 : forall y, In y (s ++ [i]) <-> In y s \/ y = i) by (intros y; rewrite in_app_iff; cbn [In]; intuition).
    assert (N2 : ~ In (len Q + o) (s ++ [i])). { rewrite Hin1. intros [K|K]; [|lia]. apply Hin in K. destruct K as [K|(j & Hj & E)]; [lia|]. assert (E2 : at_ 0 order j = o) by lia. unfold o in E2. apply at_inj in E2; [lia|exact order_nodup|rewrite order_len; lia|rewrite order_len; lia]. }
    apply wp_bind. eapply wp_mono; [apply (entry_ok (s ++ [i]) st1 (len Q + o) _ F1 ND1)|].
    + intros y Hy. apply Hin1 in Hy. destruct Hy as [Hy| ->]; [apply Hs, Hy|exact Hm].
    + exact N2.
    + exact Hm2.
    + eexists. split; [reflexivity|]. exact Hd.
    + cbv beta. intros st2 (F2 & T2). apply wp_ok. exists ((s ++ [i]) ++ [len Q + o]). cbn [ftan fN fM fS fT fW fmu fmc]. rewrite T2, T1. split; [exact F2|]. split; [apply (Permutation_NoDup (l := (len Q + o) :: (s ++ [i]))); [apply Permutation_cons_append|]; constructor; assumption|]. split; [lia|]. split; [|split].
      * intros x. rewrite in_app_iff, Hin1, Hin. cbn [In]. split.
        -- intros [[[K|(j & Hj & E)]|K]|[K|[]]]; [left; lia|right; exists j; split; [lia|exact E]|left; lia|]. right. exists (ftan st). split; [lia|symmetry; exact K].
        -- intros [K|(j & Hj & E)]; [destruct (Z.eq_dec x i); [left; right; assumption|left; left; left; lia]|]. destruct (Z.eq_dec j (ftan st)) as [->|]; [right; left; symmetry; exact E|]. left. left. right. exists j. split; [lia|exact E].
      * intros j Hj. destruct (Z.eq_dec j (ftan st)) as [->|]; [fold o; lia|]. specialize (Hlo j ltac:(lia)). lia.
      * intros j Hj. pose proof (order_keys (ftan st) j ltac:(lia) ltac:(lia)) as K. fold o in K. lia.
  - apply wp_ok. exists (s ++ [i]). rewrite T1. split; [exact F1|]. split; [exact ND1|]. split; [lia|]. split; [|split].
    + intros x. rewrite in_app_iff, Hin. cbn [In]. split; [intros [[K|K]|[K|[]]]; [left; lia|right; exact K|left; lia]|]. intros [K|K]; [destruct (Z.eq_dec x i); [right; left; auto|left; left; lia]|left; right; exact K].
    + intros j Hj. specialize (Hlo j Hj). lia.
    + intros j Hj. pose proof (Hhi (ftan st) ltac:(lia)). destruct (Z.eq_dec j (ftan st)) as [->|]; [lia|]. pose proof (order_keys (ftan st) j ltac:(lia) ltac:(lia)). lia.
  - apply wp_ok. exists (s ++ [i]). rewrite T1. split; [exact F1|]. split; [exact ND1|]. split; [lia|]. split; [|split].
    + intros x. rewrite in_app_iff, Hin. cbn [In]. split; [intros [[K|K]|[K|[]]]; [left; lia|right; exact K|left; lia]|]. intros [K|K]; [destruct (Z.eq_dec x i); [right; left; auto|left; left; lia]|left; right; exact K].
    + intros j Hj. specialize (Hlo j Hj). lia.
    + intros j Hj. lia.
Qed.

Lemma loop_ok N0 M0 S0 T0 W0 : arr2 N0 mu (n + 1) (fun _ _ => 0%R) -> arr2 M0 mc (n + 1) (fun _ _ => 0%R) -> arr S0 mu (fun _ => xyz0) -> arr T0 mc (fun _ => xyz0) -> arr W0 mu (fun _ => 0%R) ->
  wp (for_up 0 (len Q) (mkFit N0 M0 S0 T0 W0 0 0 0) (fit_point p (n + 1) U us Q W D J order Wt)) (fun st => exists s, Permutation s (zseq m) /\ filled s st).
Proof.
  intros A1 A2 A3 A4 A5. pose proof (len_nonneg D) as LD. pose proof (len_nonneg Q) as LQ. apply wp_for_up with (P := fun i st => before i st); [lia| | |].
  - exists []. cbn [ftan]. split; [|split; [constructor|split; [lia|split; [|split]]]].
    + unfold filled. cbn [fN fM fS fT fW fmu fmc filter]. change (len (@nil Z)) with 0. repeat split; [apply A1|apply (arr2_ext _ _ _ _ _ A1)|apply A2|apply (arr2_ext _ _ _ _ _ A2)|apply A3|apply (arr_ext _ _ _ _ A3)|apply A4|apply (arr_ext _ _ _ _ A4)|apply A5|apply (arr_ext _ _ _ _ A5)];
        intros; match goal with |- context [?r <? 0] => destruct (Z.ltb_spec r 0); [lia|reflexivity] end.
    + intros x. split; [intros []|]. intros [K|(j & K & _)]; lia.
    + intros j Hj. lia.
    + intros j Hj. pose proof (order_range j ltac:(lia)). unfold key. apply HJr, at_in. lia.
  - intros i st Hi B. apply point_step; assumption.
  - intros st (s & Fs & ND & Ht & Hin & Hlo & Hhi). exists s. split; [|exact Fs]. apply NoDup_Permutation; [exact ND|apply zseq_nodup|]. intros x. rewrite Hin, zseq_in. unfold m.
    assert (ET : ftan st = len D). { destruct (Z.eq_dec (ftan st) (len D)); [assumption|]. specialize (Hhi (ftan st) ltac:(lia)). pose proof (order_range (ftan st) ltac:(lia)) as Ho. assert (K : 0 <= key (at_ 0 order (ftan st)) < len Q) by (unfold key; apply HJr, at_in; lia). lia. }
    split.
    + intros [K|(j & Hj & ->)]; [lia|]. pose proof (order_range j ltac:(lia)). lia.
    + intros K. destruct (Z.lt_ge_cases x (len Q)); [left; lia|right]. destruct (in_at order (x - len Q)) as (j & Hj & E); [apply order_in; lia|]. exists j. rewrite order_len in Hj. split; [lia|lia].
Qed.
End Run.
