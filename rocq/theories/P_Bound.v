(* The error bound of the removal of one knot. *)
From Coq Require Import ZArith List Bool Reals Lra Lia Permutation.
From Verif Require Import Base Num Vec Tac Spec Spec2 Spec3 Spec4 Spec5 M_MathUtils M_Polynomials M_XYZ M_Bspline M_NurbsCurve M_Curve2 M_Bound
  P_Loop P_MathUtils P_VSum P_Curve P_Bspline P_Blossom P_Insert P_Insert2 P_Reduce P_Make P_Remove P_Interp.
Import ListNotations.
Open Scope Z_scope.

Lemma wide_right a b c : (b <= c)%R -> (a + tol a b < b)%R -> (a + tol a c < c)%R.
Proof.
  intros H. unfold tol. assert (Rmax (Rabs a) (Rabs c) <= Rmax (Rabs a) (Rabs b) + (c - b))%R; [|lra].
  pose proof (Rmax_l (Rabs a) (Rabs b)). pose proof (Rmax_r (Rabs a) (Rabs b)). apply Rmax_lub; [lra|]. assert (Rabs c <= Rabs b + (c - b))%R; [|lra]. unfold Rabs. repeat destruct Rcase_abs; lra.
Qed.
Lemma wide_left a b c : (c <= a)%R -> (a + tol a b < b)%R -> (c + tol c b < b)%R.
Proof.
  intros H. unfold tol. assert (Rmax (Rabs c) (Rabs b) <= Rmax (Rabs a) (Rabs b) + (a - c))%R; [|lra].
  pose proof (Rmax_l (Rabs a) (Rabs b)). pose proof (Rmax_r (Rabs a) (Rabs b)). apply Rmax_lub; [|lra]. assert (Rabs c <= Rabs a + (a - c))%R; [|lra]. unfold Rabs. repeat destruct Rcase_abs; lra.
Qed.

(* two curves that differ in one control point *)
Lemma one_point p n U (P Q : list (XYZW R)) q t : curve_knots p n U -> in_domain p n U t -> 0 <= q <= n -> (forall i, 0 <= i <= n -> i <> q -> pt Q i = pt P i) ->
  (dist4 (curve_point p n U P t) (curve_point p n U Q t) <= dist4 (pt P q) (pt Q q))%R.
Proof.
  intros HU Hd Hq HE. set (w := fun i => N (val U) (val U (n + 1)) (Z.to_nat p) i t). pose proof (N_nonneg p n U t q HU Hd Hq) as N0. change (0 <= w q)%R in N0.
  assert (N1 : (w q <= 1)%R).
  { pose proof (N_sum p n U t HU Hd) as S1. change (rsum 0 (n + 1) w = 1%R) in S1. rewrite <- S1. rewrite (rsum_split 0 q (n + 1)) by lia. rewrite (rsum_first q) by lia.
    assert (0 <= rsum 0 q w)%R by (apply P_Interp.rsum_nonneg; intros i Hi; apply (N_nonneg p n U t i HU Hd); lia).
    assert (0 <= rsum (q + 1) (n + 1) w)%R by (apply P_Interp.rsum_nonneg; intros i Hi; apply (N_nonneg p n U t i HU Hd); lia). lra. }
  assert (E1 : curve_point p n U P t = vadd (curve_point p n U Q t) (vscale (w q) (vsub (pt P q) (pt Q q)))).
  { apply co_ext. intros c. unfold curve_point. rewrite co_add, co_scale, co_sub, !co_comb. fold w.
    rewrite (rsum_split 0 q (n + 1)) by lia. rewrite (rsum_split 0 q (n + 1) (fun i => (w i * co c (pt Q i))%R)) by lia. rewrite !(rsum_first q) by lia.
    rewrite (rsum_ext 0 q (fun i => (w i * co c (pt Q i))%R) (fun i => (w i * co c (pt P i))%R)) by (intros i Hi; rewrite HE by lia; reflexivity).
    rewrite (rsum_ext (q + 1) (n + 1) (fun i => (w i * co c (pt Q i))%R) (fun i => (w i * co c (pt P i))%R)) by (intros i Hi; rewrite HE by lia; reflexivity).
    unfold w. ring. }
  rewrite (dist4_norm _ _ _ _ E1). rewrite (dist4_norm (pt P q) (pt Q q) (vsub (pt P q) (pt Q q)) 1) by vring.
  rewrite (Rabs_pos_eq (w q)) by lra. rewrite Rabs_R1. apply Rmult_le_compat_r; [apply norm4_nonneg|exact N1].
Qed.

Section Bound.
Variables (p n : Z) (U : list R) (P : list (XYZW R)) (u : R) (k s : Z).
Hypothesis HU : curve_knots p n U.
Hypothesis HP : len P = n + 1.
Hypothesis Hk : span_of p n U u k.
Hypothesis Hin : (val U p < u < val U (n + 1))%R.
Hypothesis Hsep : forall x, In x U -> (Rabs (u - x) <= tol u x)%R -> x = u.
Hypothesis Hs : s = occ U u.
Hypothesis Hs1 : 1 <= s <= p.

Let off := k - p - 1.
Let last := k - s.
Let d := p - s.

(* the weight of the insertion at i *)
Definition wgt (i : Z) : R := ((u - val U i) / (val U (i + (p + 1)) - val U i))%R.

(* the points found from the left and from the right *)
Fixpoint lft (c : nat) : XYZW R :=
  match c with
  | O => pt P off
  | S c' => let i := off + Z.of_nat c in vscale (/ wgt i)%R (vsub (pt P i) (vscale (1 - wgt i)%R (lft c')))
  end.
Fixpoint rgt (c : nat) : XYZW R :=
  match c with
  | O => pt P (last + 1)
  | S c' => let i := last + 1 - Z.of_nat c in vscale (/ (1 - wgt i))%R (vsub (pt P i) (vscale (wgt i) (rgt c')))
  end.

Lemma facts : (u < val U (k + 1))%R /\ p < k <= n /\ s <= k - p /\ (forall i, k - s < i <= k -> val U i = u) /\ (forall i, 0 <= i <= k - s -> (val U i < u)%R) /\
  (forall i, k < i <= n + p + 1 -> (u < val U i)%R).
Proof.
  pose proof HU as [Hp Hn HL HS _ _]. pose proof Hk as (Hkr & Hlt & Hku & Hku').
  assert (Hku1 : (u < val U (k + 1))%R) by (destruct Hku' as [?|[-> ->]]; lra).
  destruct (count_sorted U u k HS ltac:(lia) Hku Hku1) as (C1 & C2 & C3). fold (occ U u) in C1, C2, C3. rewrite <- Hs in C1, C2, C3.
  assert (k - s >= p). { destruct (Z_lt_dec (k - s) p); [|lia]. exfalso. pose proof (C2 (k - s + 1) ltac:(lia)). pose proof (HS (k - s + 1) p ltac:(lia) ltac:(lia) ltac:(lia)). lra. }
  split; [exact Hku1|]. split; [lia|]. split; [lia|]. split; [exact C2|]. split; [exact C3|].
  intros i Hi. pose proof (HS (k + 1) i ltac:(lia) ltac:(lia) ltac:(lia)). lra.
Qed.

Lemma wgt_ok i : off < i <= last -> (0 < wgt i < 1)%R.
Proof.
  destruct facts as (_ & Hkn & _ & _ & R2 & R3). intros Hi. unfold off, last in Hi.
  pose proof (R2 i ltac:(lia)). pose proof (R3 (i + (p + 1)) ltac:(lia)). unfold wgt. split; [apply Rdiv_lt_0_compat; lra|].
  apply (Rmult_lt_reg_r (val U (i + (p + 1)) - val U i)); [lra|]. unfold Rdiv. rewrite Rmult_assoc, Rinv_l by lra. lra.
Qed.

Lemma alpha_ok i : off < i <= last -> bound_alpha U u (p + 1) i = Ok (wgt i).
Proof.
  destruct facts as (_ & Hkn & _ & _ & R2 & R3). intros Hi. unfold off, last in Hi. pose proof HU as [Hp Hn HL HS _ _].
  pose proof (P_Bern.arr_val U) as [_ AU]. rewrite HL in AU.
  pose proof (R2 i ltac:(lia)). pose proof (R3 (i + (p + 1)) ltac:(lia)). unfold bound_alpha. rewrite !AU by lia. cbn [bind]. num. rewrite Rdiv_ok by lra. reflexivity.
Qed.

Lemma mid : exists c, 0 <= c /\ (d = 2 * c \/ d = 2 * c - 1).
Proof. exists ((d + 1) / 2). pose proof (Z.div_mod (d + 1) 2 ltac:(lia)). pose proof (Z.mod_pos_bound (d + 1) 2 ltac:(lia)). unfold d in *. lia. Qed.

Lemma div_eq (x : XYZW R) a : a <> 0%R -> xyzw_div x a = Ok (vscale (/ a)%R x).
Proof. exact (vdiv_ok x a). Qed.

Lemma Bound_eq c : 0 <= c -> d = 2 * c \/ d = 2 * c - 1 ->
  ComputerRemoveKnotErrorBound (mkCurve p U P) k = Ok (if d =? 2 * c
    then dist4 (pt P (off + c + 1)) (vadd (vscale (wgt (off + c + 1)) (rgt (Z.to_nat c))) (vscale (1 - wgt (off + c + 1))%R (lft (Z.to_nat c))))
    else dist4 (lft (Z.to_nat c)) (rgt (Z.to_nat c))).
Proof.
  intros Hc0 Hc. destruct facts as (Hku1 & Hkn & Hks & R1 & R2 & R3). pose proof HU as [Hp Hn HL HS _ _].
  assert (Ek : val U k = u) by (apply R1; lia).
  assert (Hd : in_domain p n U u) by (split; lra).
  pose proof (arr_pt P _ HP) as AP. pose proof (P_Bern.arr_val U) as AU. rewrite HL in AU.
  unfold ComputerRemoveKnotErrorBound. cbn [Degree KnotVector ControlPoints]. rewrite HL.
  rewrite (proj2 (Z.eqb_neq (n + p + 2) 0)) by lia.
  assert (EV : validate_int_range k 0 (n + p + 2 - 1) = Ok tt).
  { unfold validate_int_range. first [rewrite (proj2 (Z.leb_le 0 k)), (proj2 (Z.leb_le k (n + p + 2 - 1))) by lia; reflexivity
     |rewrite (proj2 (Z.ltb_ge k 0)), (proj2 (Z.ltb_ge (n + p + 2 - 1) k)) by lia; reflexivity]. }
  rewrite EV. cbn [bind]. rewrite (proj2 AU k) by lia. cbn [bind]. rewrite Ek.
  assert (EM : GetKnotMultiplicity U u = Ok s).
  { rewrite Hs. apply GetKnotMultiplicity_exact; auto; [lia|]. pose proof (HS 0 p ltac:(lia) ltac:(lia) ltac:(lia)). pose proof (HS (n + 1) (len U - 1) ltac:(lia) ltac:(lia) ltac:(lia)). lra. }
  rewrite EM. cbn [bind]. fold last. fold off. replace (k - p - 1) with off by reflexivity. replace (k - p) with (off + 1) by (unfold off; lia).
  match goal with |- ?m = Ok ?v => enough (W : wp m (fun x => x = v)) by (destruct (wp_elim _ _ W) as (x & -> & ->); reflexivity) end.
  apply wp_bind. apply wp_mkvec; [lia|]. intros t0 H0. cbv beta. wget AP. wupd H0. intros t1 H1. wget AP.
  assert (Ld : last + 1 - off = d + 2) by (unfold last, off, d; lia). rewrite Ld. replace (last - off) with (d + 1) by lia. assert (0 <= d) by (unfold d; lia).
  wupd H1. intros t2 H2.
  apply wp_bind. eapply wp_mono with (P := fun '(temp, i, j, ii, jj) => exists f, arr temp (n + p + 2) f /\ (forall x, 0 <= x <= c -> f x = lft (Z.to_nat x)) /\ (forall y, 0 <= y <= c -> f (d + 2 - y) = rgt (Z.to_nat y)) /\
    i = off + 1 + c /\ j = last - c /\ ii = 1 + c /\ jj = d + 1 - c).
  { unfold bound_solve. apply wp_while with (mu := fun '(_, i, j, _, _) => Z.to_nat (j - i))
      (I := fun '(temp, i, j, ii, jj) => exists h f, 0 <= h <= c /\ arr temp (n + p + 2) f /\ (forall x, 0 <= x <= h -> f x = lft (Z.to_nat x)) /\ (forall y, 0 <= y <= h -> f (d + 2 - y) = rgt (Z.to_nat y)) /\
        i = off + 1 + h /\ j = last - h /\ ii = 1 + h /\ jj = d + 1 - h).
    - exists 0. eexists. split; [lia|]. split; [exact H2|]. cbv beta. split; [|split; [|lia]].
      + intros x Hx. assert (x = 0) as -> by lia. rewrite (proj2 (Z.eqb_neq 0 (d + 2))) by lia. reflexivity.
      + intros y Hy. assert (y = 0) as -> by lia. rewrite Z.sub_0_r, Z.eqb_refl. reflexivity.
    - cbn. lia.
    - intros [[[[tm i] j] ii] jj] (h & f & Hh & AT & F1 & F2 & -> & -> & -> & ->). cbn [wp]. destruct (Z.ltb_spec 0 (last - h - (off + 1 + h))).
      + assert (Hhc : 2 * h < d) by lia. rewrite (alpha_ok (off + 1 + h)) by lia. cbn [bind]. rewrite (alpha_ok (last - h)) by lia. cbn [bind].
        pose proof (wgt_ok (off + 1 + h) ltac:(lia)). pose proof (wgt_ok (last - h) ltac:(lia)).
        assert (k <= n /\ p < k) by lia. unfold d in *.
        wget AP. wget AT. rewrite div_eq by lra. cbn [bind]. wupd AT. intros tm1 A1. wget AP. wget A1. num. rewrite div_eq by lra. cbn [bind]. wupd A1. intros tm2 A2. cbn [wp]. split; [|lia].
        exists (h + 1). eexists. split; [lia|]. split; [exact A2|]. cbv beta. split; [|split; [|lia]].
        * intros x Hx. rewrite (proj2 (Z.eqb_neq x (p - s + 1 - h))) by lia. destruct (Z.eqb_spec x (1 + h)) as [->|]; [|apply F1; lia].
          replace (Z.to_nat (1 + h)) with (S (Z.to_nat h)) by lia. cbn [lft]. replace (1 + h - 1) with h by lia. rewrite F1 by lia. rewrite !Nat2Z.inj_succ, !Z2Nat.id by lia. replace (off + Z.succ h) with (off + 1 + h) by lia. reflexivity.
        * intros y Hy. destruct (Z.eqb_spec (p - s + 2 - y) (p - s + 1 - h)) as [E|E].
          -- assert (y = h + 1) as -> by lia. replace (Z.to_nat (h + 1)) with (S (Z.to_nat h)) by lia. cbn [rgt].
             rewrite (proj2 (Z.eqb_neq (p - s + 1 - h + 1) (1 + h))) by lia. replace (p - s + 1 - h + 1) with (p - s + 2 - h) by lia. rewrite F2 by lia. rewrite !Nat2Z.inj_succ, !Z2Nat.id by lia.
             replace (last + 1 - Z.succ h) with (last - h) by lia. reflexivity.
          -- rewrite (proj2 (Z.eqb_neq _ (1 + h))) by lia. apply F2. lia.
      + assert (h = c) as -> by lia. exists f. split; [exact AT|]. split; [exact F1|]. split; [exact F2|]. lia. }
  intros [[[[tm i] j] ii] jj] (f & AT & F1 & F2 & -> & -> & -> & ->).
  destruct (Z.ltb_spec (last - c - (off + 1 + c)) 0); destruct (Z.eqb_spec d (2 * c)); try lia.
  - unfold d in *. wget AT. wget AT. rewrite xyzw_Distance_eq. cbn [wp]. replace (1 + c - 1) with c by lia. replace (p - s + 1 - c + 1) with (p - s + 2 - c) by lia. rewrite (F1 c), (F2 c) by lia. reflexivity.
  - unfold d in *. rewrite (alpha_ok (off + 1 + c)) by lia. cbn [bind]. wget AP. wget AT. wget AT. rewrite xyzw_Distance_eq. cbn [wp]. replace (1 + c - 1) with c by lia. replace (1 + c + 1) with (p - s + 2 - c) by lia. rewrite (F1 c), (F2 c) by lia.
    replace (off + 1 + c) with (off + c + 1) by lia. reflexivity.
Qed.

Lemma lft_eq c : (0 < c)%nat -> Z.of_nat c <= d + 1 -> vadd (vscale (wgt (off + Z.of_nat c)) (lft c)) (vscale (1 - wgt (off + Z.of_nat c))%R (lft (c - 1))) = pt P (off + Z.of_nat c).
Proof.
  intros Hc Hd. destruct c as [|c]; [lia|]. replace (S c - 1)%nat with c by lia. cbn [lft]. pose proof (wgt_ok (off + Z.of_nat (S c)) ltac:(unfold last, off, d in *; lia)). vfield. lra.
Qed.
Lemma rgt_eq c : (0 < c)%nat -> Z.of_nat c <= d + 1 -> vadd (vscale (wgt (last + 1 - Z.of_nat c)) (rgt (c - 1))) (vscale (1 - wgt (last + 1 - Z.of_nat c))%R (rgt c)) = pt P (last + 1 - Z.of_nat c).
Proof.
  intros Hc Hd. destruct c as [|c]; [lia|]. replace (S c - 1)%nat with c by lia. cbn [rgt]. pose proof (wgt_ok (last + 1 - Z.of_nat (S c)) ltac:(unfold last, off, d in *; lia)). vfield. lra.
Qed.

(* the knots and the control points without the knot *)
Definition lessU : list R := mklist (n + p + 1) (fun i => if i <? k then val U i else val U (i + 1)).
Definition lessP (c : Z) : list (XYZW R) := mklist n (fun i => if i <=? off then pt P i else if i <=? off + c then lft (Z.to_nat (i - off)) else if i <? last then rgt (Z.to_nat (last - i)) else pt P (i + 1)).

Lemma lessU_len : len lessU = n + p + 1.
Proof. pose proof HU as [Hp Hn HL HS _ _]. exact (arr_len _ _ _ (arr_mklist (n + p + 1) _ ltac:(lia))). Qed.
Lemma lessU_val i : 0 <= i < n + p + 1 -> val lessU i = if i <? k then val U i else val U (i + 1).
Proof. intros Hi. pose proof HU as [Hp Hn HL HS _ _]. exact (P_Insert2.arr_val _ _ _ i (arr_mklist (n + p + 1) _ ltac:(lia)) Hi). Qed.

Lemma lessU_ins : arr U (n - 1 + p + 2 + 1) (insU (val lessU) (k - 1) 1 u).
Proof.
  destruct facts as (Hku1 & Hkn & Hks & R1 & R2 & R3). pose proof HU as [Hp Hn HL HS _ _]. pose proof (P_Bern.arr_val U) as AU. rewrite HL in AU. replace (n - 1 + p + 2 + 1) with (n + p + 2) by lia.
  eapply arr_ext; [exact AU|]. intros i Hi. cbv beta. unfold insU. destruct (Z.leb_spec i (k - 1)).
  - rewrite lessU_val by lia. rewrite (proj2 (Z.ltb_lt i k)) by lia. reflexivity.
  - destruct (Z.leb_spec i (k - 1 + 1)); [apply R1; lia|]. rewrite lessU_val by lia. rewrite (proj2 (Z.ltb_ge (i - 1) k)) by lia. f_equal. lia.
Qed.

Lemma lessU_knots : curve_knots p (n - 1) lessU.
Proof.
  destruct facts as (Hku1 & Hkn & Hks & R1 & R2 & R3). pose proof HU as [Hp Hn HL HS H1 H2].
  constructor; try lia.
  - rewrite lessU_len. lia.
  - intros i j Hi Hij Hj. rewrite lessU_len in Hj. rewrite !lessU_val by lia. destruct (Z.ltb_spec i k), (Z.ltb_spec j k); apply HS; lia.
  - rewrite !lessU_val by lia. rewrite (proj2 (Z.ltb_lt p k)) by lia. destruct (Z.ltb_spec (p + 1) k); [exact H1|]. apply (wide_right _ (val U (p + 1))); [apply HS; lia|exact H1].
  - rewrite !lessU_val by lia. replace (n - 1 + 1) with n by lia. destruct (Z.ltb_spec n k); [lia|]. destruct (Z.ltb_spec (n - 1) k); [|replace (n - 1 + 1) with n by lia; exact H2]. apply (wide_left (val U n)); [apply HS; lia|exact H2].
Qed.

Lemma lessU_span : span_of p (n - 1) lessU u (k - 1).
Proof.
  destruct facts as (Hku1 & Hkn & Hks & R1 & R2 & R3). pose proof HU as [Hp Hn HL HS H1 H2].
  assert (val U (k - 1) <= u)%R by (rewrite <- (R1 k) by lia; apply HS; lia).
  split; [lia|]. rewrite !lessU_val by lia. rewrite (proj2 (Z.ltb_lt (k - 1) k)) by lia. rewrite (proj2 (Z.ltb_ge (k - 1 + 1) k)) by lia. replace (k - 1 + 1 + 1) with (k + 1) by lia. split; [lra|]. split; [lra|]. left. lra.
Qed.

Lemma lessU_ends : val lessU p = val U p /\ val lessU (n - 1 + 1) = val U (n + 1).
Proof.
  destruct facts as (Hku1 & Hkn & Hks & R1 & R2 & R3). pose proof HU as [Hp Hn HL HS H1 H2]. rewrite !lessU_val by lia. rewrite (proj2 (Z.ltb_lt p k)) by lia. rewrite (proj2 (Z.ltb_ge (n - 1 + 1) k)) by lia. split; [reflexivity|]. f_equal. lia.
Qed.

Lemma lessU_in x : In x lessU -> In x U.
Proof.
  pose proof HU as [Hp Hn HL HS H1 H2]. intros Hx. unfold lessU, mklist in Hx. apply in_map_iff in Hx. destruct Hx as (i & <- & Hi). apply in_seq in Hi. destruct (Z.ltb_spec (Z.of_nat i) k); apply val_In; lia.
Qed.

Lemma Bound_ok : returns (ComputerRemoveKnotErrorBound (mkCurve p U P) k) (fun e => (0 <= e)%R /\ exists Vk Q, Permutation U (u :: Vk) /\ curve_knots p (n - 1) Vk /\ len Q = n /\
  forall t, in_domain p n U t -> in_domain p (n - 1) Vk t /\ (dist4 (curve_point p n U P t) (curve_point p (n - 1) Vk Q t) <= e)%R).
Proof.
  destruct facts as (Hku1 & Hkn & Hks & R1 & R2 & R3). pose proof HU as [Hp Hn HL HS H1 H2]. destruct mid as (c & Hc0 & Hc).
  eexists. split; [apply (Bound_eq c Hc0 Hc)|].
  assert (P0 : forall a b, (0 <= dist4 a b)%R) by (intros a b; unfold dist4; apply sqrt_pos).
  split; [destruct (d =? 2 * c); apply P0|]. exists lessU, (lessP c). pose proof lessU_ends as (E1 & E2).
  assert (Hdec : d = p - s /\ off = k - p - 1 /\ last = k - s) by (split; [reflexivity|]; split; reflexivity).
  assert (AL : arr (lessP c) n (fun i => if i <=? off then pt P i else if i <=? off + c then lft (Z.to_nat (i - off)) else if i <? last then rgt (Z.to_nat (last - i)) else pt P (i + 1))) by (apply arr_mklist; lia).
  pose proof lessU_len as LUL.
  split. { apply (insU_perm lessU U (k - 1) 1 u); [lia|rewrite LUL; lia|]. rewrite LUL. pose proof lessU_ins as HI. replace (n - 1 + p + 2 + 1) with (n + p + 1 + 1) in HI by lia. exact HI. }
  split; [apply lessU_knots|]. split; [exact (arr_len _ _ _ AL)|]. intros t Ht. assert (Ht' : in_domain p (n - 1) lessU t) by (unfold in_domain; rewrite E1, E2; exact Ht). split; [exact Ht'|].
  set (Q := mklist (n + 1) (insP (val lessU) (pt (lessP c)) p (k - 1) (s - 1) 1 u)).
  assert (AQ : arr Q (n - 1 + 1 + 1) (insP (val lessU) (pt (lessP c)) p (k - 1) (s - 1) 1 u)) by (replace (n - 1 + 1 + 1) with (n + 1) by lia; apply arr_mklist; lia).
  pose proof (ins_curve p (n - 1) lessU (lessP c) Q u (k - 1) (s - 1) 1 U t lessU_knots ltac:(rewrite E1, E2; exact Hin) ltac:(intros x Hx; apply Hsep; apply lessU_in; exact Hx) lessU_span ltac:(lia) ltac:(lia) ltac:(lia)
    ltac:(intros i Hi; rewrite lessU_val by lia; rewrite (proj2 (Z.ltb_lt i k)) by lia; apply R1; lia) lessU_ins AQ Ht') as EC.
  replace (n - 1 + 1) with n in EC by lia. rewrite <- EC.
  assert (VL : forall i, 0 <= i < n -> pt (lessP c) i = if i <=? off then pt P i else if i <=? off + c then lft (Z.to_nat (i - off)) else if i <? last then rgt (Z.to_nat (last - i)) else pt P (i + 1)) by (intros i Hi; exact (arr_pt_eq _ _ _ i AL Hi)).
  assert (VLl : forall i, off <= i <= off + c -> pt (lessP c) i = lft (Z.to_nat (i - off))).
  { intros i Hi. rewrite VL by lia. destruct (Z.leb_spec i off); [assert (i = off) as -> by lia; rewrite Z.sub_diag; reflexivity|]. rewrite (proj2 (Z.leb_le i (off + c))) by lia. reflexivity. }
  assert (VLr : forall i, off + c < i <= last -> pt (lessP c) i = rgt (Z.to_nat (last - i))).
  { intros i Hi. rewrite VL by lia. rewrite (proj2 (Z.leb_gt i off)), (proj2 (Z.leb_gt i (off + c))) by lia. destruct (Z.ltb_spec i last); [reflexivity|]. assert (i = last) as -> by lia. rewrite Z.sub_diag. reflexivity. }
  assert (VQ : forall i, 0 <= i <= n -> pt Q i = if i <=? off then pt P i else if last + 1 <=? i then pt P i else vadd (vscale (wgt i) (pt (lessP c) i)) (vscale (1 - wgt i)%R (pt (lessP c) (i - 1)))).
  { intros i Hi. rewrite (arr_pt_eq _ _ _ i AQ) by lia. unfold insP. replace (k - 1 - p) with off by lia. replace (k - 1 - (s - 1) + 1) with (last + 1) by lia. replace (k - 1 - (s - 1)) with last by lia.
    destruct (Z.leb_spec i off). { rewrite VL by lia. rewrite (proj2 (Z.leb_le i off)) by lia. reflexivity. }
    destruct (Z.leb_spec (last + 1) i). { rewrite VL by lia. rewrite (proj2 (Z.leb_gt (i - 1) off)), (proj2 (Z.leb_gt (i - 1) (off + c))) by lia. destruct (Z.ltb_spec (i - 1) last); [lia|]. f_equal. lia. }
    assert (ET : tab (val lessU) (pt (lessP c)) p u 1 i = vadd (vscale (wgt i) (pt (lessP c) i)) (vscale (1 - wgt i)%R (pt (lessP c) (i - 1)))).
    { unfold tab. change (repeat u (Z.to_nat 1)) with [u]. cbn [bl]. unfold deB, wgt. rewrite !lessU_val by lia. rewrite (proj2 (Z.ltb_lt i k)), (proj2 (Z.ltb_ge (i + p) k)) by lia. replace (i + p + 1) with (i + (p + 1)) by lia. reflexivity. }
    destruct (Z.ltb_spec i last).
    - replace (Z.min (i - off) 1) with 1 by lia. exact ET.
    - assert (i = last) as -> by lia. replace (Z.min (last + 1 - last) (p - (s - 1))) with 1 by lia. exact ET. }
  set (q := off + c + 1). assert (Hq : off < q <= last) by (unfold q; lia).
  eapply Rle_trans; [apply (one_point p n U P Q q t HU Ht ltac:(lia))|].
  { intros i Hi Hne. rewrite VQ by lia. destruct (Z.leb_spec i off); [reflexivity|]. destruct (Z.leb_spec (last + 1) i); [reflexivity|]. destruct (Z_lt_dec i q).
    - rewrite !VLl by lia. replace (Z.to_nat (i - 1 - off)) with (Z.to_nat (i - off) - 1)%nat by lia. pose proof (lft_eq (Z.to_nat (i - off)) ltac:(lia) ltac:(lia)) as LE. rewrite Z2Nat.id in LE by lia. replace (off + (i - off)) with i in LE by lia. exact LE.
    - rewrite !VLr by lia. pose proof (rgt_eq (Z.to_nat (last - i + 1)) ltac:(lia) ltac:(lia)) as RE. rewrite Z2Nat.id in RE by lia. replace (last + 1 - (last - i + 1)) with i in RE by lia.
      replace (Z.to_nat (last - i + 1) - 1)%nat with (Z.to_nat (last - i)) in RE by lia. replace (last - (i - 1)) with (last - i + 1) by lia. exact RE. }
  rewrite (VQ q) by lia. rewrite (proj2 (Z.leb_gt q off)), (proj2 (Z.leb_gt (last + 1) q)) by lia. rewrite (VLl (q - 1)) by lia. rewrite (VLr q) by lia. replace (Z.to_nat (q - 1 - off)) with (Z.to_nat c) by lia.
  destruct (Z.eqb_spec d (2 * c)) as [Ed|Ed].
  - replace (Z.to_nat (last - q)) with (Z.to_nat c) by lia. apply Rle_refl.
  - pose proof (rgt_eq (Z.to_nat c) ltac:(lia) ltac:(lia)) as RE. rewrite Z2Nat.id in RE by lia. replace (last + 1 - c) with q in RE by lia. rewrite <- RE. replace (Z.to_nat (last - q)) with (Z.to_nat c - 1)%nat by lia.
    pose proof (wgt_ok q Hq). set (A := rgt (Z.to_nat c - 1)). set (B := rgt (Z.to_nat c)). set (L := lft (Z.to_nat c)).
    rewrite (dist4_norm _ _ (vsub L B) (wgt q - 1)%R) by vring. rewrite (dist4_norm L B (vsub L B) 1) by vring. rewrite Rabs_R1. apply Rmult_le_compat_r; [apply norm4_nonneg|]. unfold Rabs. destruct Rcase_abs; lra.
Qed.

(* the points of a curve with the knot removed, put back in: nothing is lost *)
Lemma Bound_zero (f : Z -> XYZW R) : (forall i, off < i <= last -> pt P i = vadd (vscale (wgt i) (f i)) (vscale (1 - wgt i)%R (f (i - 1)))) -> pt P off = f off -> pt P (last + 1) = f last ->
  ComputerRemoveKnotErrorBound (mkCurve p U P) k = Ok 0%R.
Proof.
  intros HM HL HR. destruct mid as (c & Hc0 & Hc). rewrite (Bound_eq c Hc0 Hc).
  assert (FL : forall x, Z.of_nat x <= d + 1 -> lft x = f (off + Z.of_nat x)).
  { induction x as [|x IH]; intros Hx; cbn [lft]; [rewrite HL; f_equal; lia|]. rewrite IH by lia. pose proof (wgt_ok (off + Z.of_nat (S x)) ltac:(unfold off, last, d in *; lia)). rewrite HM by (unfold off, last, d in *; lia). replace (off + Z.of_nat (S x) - 1) with (off + Z.of_nat x) by lia. vfield. lra. }
  assert (FR : forall x, Z.of_nat x <= d + 1 -> rgt x = f (last - Z.of_nat x)).
  { induction x as [|x IH]; intros Hx; cbn [rgt]; [rewrite HR; f_equal; lia|]. rewrite IH by lia. pose proof (wgt_ok (last + 1 - Z.of_nat (S x)) ltac:(unfold off, last, d in *; lia)). rewrite HM by (unfold off, last, d in *; lia). replace (last + 1 - Z.of_nat (S x) - 1) with (last - Z.of_nat (S x)) by lia. replace (last + 1 - Z.of_nat (S x)) with (last - Z.of_nat x) by lia. vfield. replace (last - Z.of_nat x) with (last + 1 - Z.of_nat (S x)) by lia. lra. }
  assert (d = last - off - 1) by (unfold off, last, d; lia). assert (0 <= d) by (unfold d; lia). rewrite FL, FR by lia. rewrite Z2Nat.id by lia. f_equal. destruct (Z.eqb_spec d (2 * c)).
  - rewrite HM by lia. replace (last - c) with (off + c + 1) by lia. replace (off + c + 1 - 1) with (off + c) by lia. apply dist4_self.
  - replace (last - c) with (off + c) by lia. apply dist4_self.
Qed.
End Bound.

Lemma Bound_inserted p n U P u res0 : curve_knots p n U -> len P = n + 1 -> (val U p < u < val U (n + 1))%R ->
  (forall x, In x U -> (Rabs (u - x) <= tol u x)%R -> x = u) -> occ U u < p ->
  returns (InsertKnot (mkCurve p U P) u 1 res0) (fun '(r, c) => exists k, 0 <= k < len (KnotVector c) - 1 /\ val (KnotVector c) k = u /\ (u < val (KnotVector c) (k + 1))%R /\ ComputerRemoveKnotErrorBound c k = Ok 0%R).
Proof.
  intros HU HP Hin Hsep Ho. pose proof HU as [Hp Hn HL HS _ _]. set (s := occ U u) in *. assert (0 <= s) by (unfold s, occ; lia).
  destruct (find_span p n U u HU ltac:(split; lra)) as (k & _ & Hk).
  destruct (InsertKnot_arr p n U P u 1 k res0 HU HP ltac:(lia) Hk ltac:(lra) Hsep) as (_ & B). cbv zeta in B. fold (occ U u) in B. fold s in B.
  assert (Er : inserted p s 1 = 1) by (unfold inserted; destruct (Z.ltb_spec (p + 1) (s + 1)); [lia|reflexivity]). rewrite Er in B.
  destruct (wp_elim _ _ (B ltac:(lia))) as ([r' c] & E & U' & Q & -> & -> & AU' & AQ). clear B.
  destruct (InsertKnot_preserves p n U P u 1 res0 HU HP ltac:(lia) Hin Hsep) as (_ & B). cbv zeta in B. fold (occ U u) in B. fold s in B. fold (inserted p s 1) in B. rewrite Er in B.
  destruct (B ltac:(lia)) as (x & E' & Hx). clear B. rewrite E in E'. injection E' as <-. destruct Hx as (_ & U2 & Q2 & EC & HU' & LQ & Perm & _ & _). injection EC as <- <-.
  exists (1, mkCurve p U' Q). split; [exact E|]. cbn [KnotVector]. clear E. exists (k + 1).
  pose proof Hk as (Hkr & Hlt & Hku & Hku'). assert (Hku1 : (u < val U (k + 1))%R) by (destruct Hku' as [?|[-> ->]]; lra).
  assert (VU : forall i, 0 <= i < n + p + 2 + 1 -> val U' i = insU (val U) k 1 u i) by (intros i Hi; exact (P_Insert2.arr_val _ _ _ i AU' Hi)).
  assert (Vk : val U' (k + 1) = u /\ val U' (k + 1 + 1) = val U (k + 1)).
  { rewrite !VU by lia. unfold insU. destruct (Z.leb_spec (k + 1) k); [lia|]. destruct (Z.leb_spec (k + 1) (k + 1)); [|lia]. destruct (Z.leb_spec (k + 1 + 1) k); [lia|].
    destruct (Z.leb_spec (k + 1 + 1) (k + 1)); [lia|]. replace (k + 1 + 1 - 1) with (k + 1) by lia. auto. }
  destruct Vk as [Vk Vk1]. split; [rewrite (arr_len _ _ _ AU'); lia|]. split; [exact Vk|]. split; [lra|].
  assert (Hk' : span_of p (n + 1) U' u (k + 1)) by (split; [lia|]; rewrite Vk, Vk1; split; [lra|]; split; [lra|left; lra]).
  destruct (count_sorted U u k HS ltac:(lia) Hku Hku1) as (C1 & C2 & C3). fold (occ U u) in C1, C2, C3. fold s in C1, C2, C3.
  assert (Hin' : (val U' p < u < val U' (n + 1 + 1))%R).
  { rewrite !VU by lia. unfold insU. destruct (Z.leb_spec p k); [|lia]. destruct (Z.leb_spec (n + 1 + 1) k); [lia|]. destruct (Z.leb_spec (n + 1 + 1) (k + 1)); [lia|]. replace (n + 1 + 1 - 1) with (n + 1) by lia. exact Hin. }
  assert (Hsep' : forall x, In x U' -> (Rabs (u - x) <= tol u x)%R -> x = u).
  { intros x Hx. apply (Permutation_in _ Perm) in Hx. change (repeat u (Z.to_nat 1) ++ U) with (u :: U) in Hx. destruct Hx as [->|Hx]; [auto|apply Hsep; exact Hx]. }
  assert (Ho' : s + 1 = occ U' u).
  { rewrite (P_KnotMap.occ_perm _ _ u Perm). change (repeat u (Z.to_nat 1) ++ U) with (u :: U). rewrite P_KnotMap.occ_cons. destruct (Req_EM_T u u); [fold s; lia|lra]. }
  assert (VQ : forall i, 0 <= i < n + 1 + 1 -> pt Q i = insP (val U) (pt P) p k s 1 u i) by (intros i Hi; exact (arr_pt_eq _ _ _ i AQ Hi)).
  assert (Hks : p <= k - s). { destruct (Z_lt_dec (k - s) p); [|lia]. exfalso. pose proof (C2 (k - s + 1)). destruct (Z.eq_dec s 0); [lia|]. pose proof (H0 ltac:(lia)). pose proof (HS (k - s + 1) p ltac:(lia) ltac:(lia) ltac:(lia)). lra. }
  apply (Bound_zero p (n + 1) U' Q u (k + 1) (s + 1) HU' ltac:(lia) Hk' Hin' Hsep' Ho' ltac:(lia) (pt P)).
  - intros i Hi. rewrite VQ by lia. unfold insP. rewrite (proj2 (Z.leb_gt i (k - p))) by lia. rewrite (proj2 (Z.leb_gt (k - s + 1) i)) by lia.
    assert (ET : tab (val U) (pt P) p u 1 i = vadd (vscale (wgt p U' u i) (pt P i)) (vscale (1 - wgt p U' u i)%R (pt P (i - 1)))).
    { unfold tab. change (repeat u (Z.to_nat 1)) with [u]. cbn [bl]. unfold deB, wgt. rewrite !VU by lia. unfold insU. rewrite (proj2 (Z.leb_le i k)), (proj2 (Z.leb_gt (i + (p + 1)) k)), (proj2 (Z.leb_gt (i + (p + 1)) (k + 1))) by lia. replace (i + (p + 1) - 1) with (i + p) by lia. reflexivity. }
    destruct (Z.ltb_spec i (k - s)).
    + replace (Z.min (i - (k - p)) 1) with 1 by lia. exact ET.
    + assert (i = k - s) as -> by lia. replace (Z.min (k - s + 1 - (k - s)) (p - s)) with 1 by lia. exact ET.
  - rewrite VQ by lia. unfold insP. rewrite (proj2 (Z.leb_le (k + 1 - p - 1) (k - p))) by lia. reflexivity.
  - rewrite VQ by lia. unfold insP. rewrite (proj2 (Z.leb_gt (k + 1 - (s + 1) + 1) (k - p))) by lia. rewrite (proj2 (Z.leb_le (k - s + 1) (k + 1 - (s + 1) + 1))) by lia. f_equal. lia.
Qed.
