(* Knot insertion: control points outside the affected range; an existing knot that is
   close to, but different from, the inserted one. *)
From Coq Require Import ZArith List Bool Reals Lra Lia.
From Verif Require Import Base Num Vec Tac Spec M_MathUtils M_Polynomials M_Bspline M_NurbsCurve
  P_MathUtils P_Cox P_Vec P_VSum P_Curve P_Bspline P_Blossom P_Insert P_Insert2.
Import ListNotations.
Open Scope Z_scope.

Lemma InsertKnot_outer {T} {V : Vec R T} {L : VecL T} p n U (P : list T) u times res0 k : curve_knots p n U -> len P = n + 1 -> 0 < times ->
  span_of p n U u k -> (u < val U (n + 1))%R -> (forall x, In x U -> (Rabs (u - x) <= tol u x)%R -> x = u) ->
  let s := Z.of_nat (count_occ Req_EM_T U u) in
  let r := inserted p s times in
  0 < r -> returns (InsertKnot (mkCurve p U P) u times res0) (fun '(r', c) => r' = r /\
     len (KnotVector c) = len U + r /\ len (ControlPoints c) = len P + r /\ Degree c = p /\
     (forall i, 0 <= i <= k - p -> get (ControlPoints c) i = get P i) /\
     (forall i, k - s <= i <= n -> get (ControlPoints c) (i + r) = get P i)).
Proof.
  intros Hc HP Ht Hk Hu Hsep s r Hr. pose proof Hc as [Hp Hn Hl Hsort _ _].
  destruct (InsertKnot_arr p n U P u times k res0 Hc HP Ht Hk Hu Hsep) as (_ & B). fold s r in B.
  destruct (wp_elim _ _ (B Hr)) as ([r' c] & E & U' & Q & -> & -> & HU' & HQ).
  exists (r, mkCurve p U' Q). split; [exact E|]. cbn [KnotVector ControlPoints Degree].
  pose proof Hk as (Hkr & Hlt & Hku & Hku'). assert (Hku1 : (u < val U (k + 1))%R) by (destruct Hku' as [?|[-> ->]]; lra).
  destruct (count_sorted U u k Hsort ltac:(lia) Hku Hku1) as (Hs1 & Hs2 & Hs3). fold s in Hs1, Hs2, Hs3.
  assert (Hsr : s + r <= p + 1) by (unfold r, inserted in *; destruct (Z.ltb_spec (p + 1) (s + times)); lia).
  pose proof (arr_pt P _ HP) as AP.
  split; [reflexivity|]. split; [rewrite (arr_len _ _ _ HU'); lia|]. split; [rewrite (arr_len _ _ _ HQ); lia|]. split; [reflexivity|]. split.
  - intros i Hi. rewrite (arr_get _ _ _ _ HQ), (arr_get _ _ _ _ AP) by lia. f_equal. unfold insP. destruct (Z.leb_spec i (k - p)); [reflexivity|lia].
  - intros i Hi. rewrite (arr_get _ _ _ _ HQ), (arr_get _ _ _ _ AP) by lia. f_equal. unfold insP.
    destruct (Z.leb_spec (i + r) (k - p)); [lia|]. destruct (Z.leb_spec (k - s + r) (i + r)); [f_equal; lia|lia].
Qed.

(* inserting 1 + 10^-7 into a polyline with a knot at 1 *)
Definition Unear : list R := [0; 0; 1; 2; 2]%R.
Definition unear : R := (1 + 1 / 10000000)%R.

Lemma Unear_ok : curve_knots 1 2 Unear.
Proof.
  split; try (unfold Unear, len; cbn; lia).
  - unfold Unear. sorted_tac.
  - change (0 + tol 0 1 < 1)%R. pose proof (tol_le 0 1 1) as E. rewrite Rabs_R0, Rabs_R1 in E. lra.
  - change (1 + tol 1 2 < 2)%R. pose proof (tol_le 1 2 2) as E. rewrite Rabs_R1, (Rabs_right 2) in E by lra. lra.
Qed.

Lemma Insert_near : exists c t, InsertKnot (mkCurve 1 Unear [0; 1; 5]%R) unear 1 emptyCurve = Ok (1, c) /\
  curve_knots 1 3 (KnotVector c) /\ in_domain 1 2 Unear t /\
  curve_point 1 3 (KnotVector c) (ControlPoints c) t <> curve_point 1 2 Unear [0; 1; 5]%R t.
Proof.
  set (U' := [0; 0; 1; unear; 2; 2]%R). set (Q := [0; 1; 1; 5]%R).
  assert (Hk : span_of 1 2 Unear unear 2).
  { split; [lia|]. change ((1 < 2)%R /\ (1 <= unear)%R /\ ((unear < 2)%R \/ 2 = 2 /\ unear = 2%R)). unfold unear. repeat split; try lra; left; lra. }
  assert (Hc' : curve_knots 1 3 U').
  { split; try (unfold U', len; cbn; lia).
    - unfold U', unear. sorted_tac.
    - change (0 + tol 0 1 < 1)%R. pose proof (tol_le 0 1 1) as E. rewrite Rabs_R0, Rabs_R1 in E. lra.
    - change (unear + tol unear 2 < 2)%R. pose proof (tol_le unear 2 2) as E. unfold unear in *.
      rewrite (Rabs_right 2), (Rabs_right (1 + 1 / 10000000)) in E by lra. lra. }
  exists (mkCurve 1 U' Q), unear. split; [|split; [|split]].
  - unfold InsertKnot. cbn [Degree KnotVector ControlPoints validate Z.ltb Z.compare bind].
    rewrite (find_span_eq 1 2 Unear unear 2 Unear_ok Hk). cbn [bind].
    rewrite GetKnotMultiplicity_spec; [|reflexivity|apply Unear_ok|change (0 <= unear <= 2)%R; unfold unear; lra].
    assert (Ef : filter (fun u => if Rle_dec (Rabs (unear - u)) (tol unear u) then true else false) Unear = [1%R]).
    { assert (F : forall x, (x = 0 \/ x = 2)%R -> (if Rle_dec (Rabs (unear - x)) (tol unear x) then true else false) = false).
      { intros x Hx. destruct (Rle_dec _ _) as [C|C]; [|reflexivity]. exfalso. revert C. apply Rlt_not_le.
        apply Rle_lt_trans with (1 / 10)%R; [|unfold unear; destruct Hx as [-> | ->]; unfold Rabs; destruct (Rcase_abs _); lra].
        apply Rle_trans with (1 := tol_le unear x 2 ltac:(unfold unear; rewrite Rabs_right; lra) ltac:(destruct Hx as [-> | ->]; rewrite Rabs_right; lra)). lra. }
      assert (G : (if Rle_dec (Rabs (unear - 1)) (tol unear 1) then true else false) = true).
      { destruct (Rle_dec _ _) as [C|C]; [reflexivity|]. exfalso. apply C. unfold tol. pose proof (Rmax_r (Rabs unear) (Rabs 1)) as E. rewrite Rabs_R1 in *.
        unfold unear at 1. rewrite Rabs_right by lra. lra. }
      unfold Unear. cbn [filter]. rewrite (F 0%R), (F 2%R), G by auto. reflexivity. }
    rewrite Ef. change (len [1%R]) with 1. cbn [bind].
    change (Ok (1, mkCurve 1 (std_sort U') Q) = Ok (1, mkCurve 1 U' Q)). rewrite std_sort_sorted by apply Hc'. reflexivity.
  - exact Hc'.
  - unfold in_domain. change (0 <= unear <= 2)%R. unfold unear. lra.
  - cbn [KnotVector ControlPoints].
    assert (Hk' : span_of 1 3 U' unear 3).
    { split; [lia|]. change ((unear < 2)%R /\ (unear <= unear)%R /\ ((unear < 2)%R \/ 3 = 3 /\ unear = 2%R)). unfold unear. repeat split; try lra; left; lra. }
    rewrite (curve_point_span 1 3 U' Q unear 3) by auto. rewrite (curve_point_span 1 2 Unear _ unear 2) by (auto; apply Unear_ok).
    rewrite !span_curve_bl by (try lia; eapply span_of_good; eauto using Unear_ok).
    change (bl (val U') 1 (pt Q) (repeat unear (Z.to_nat 1)) 3) with (deB (val U') 1 (pt Q) unear 3).
    change (bl (val Unear) 1 (pt [0; 1; 5]%R) (repeat unear (Z.to_nat 1)) 2) with (deB (val Unear) 1 (pt [0; 1; 5]%R) unear 2).
    unfold deB. change (val U' 3) with unear. change (val U' (3 + 1)) with 2%R. change (val Unear 2) with 1%R. change (val Unear (2 + 1)) with 2%R.
    change (pt Q 3) with 5%R. change (pt Q (3 - 1)) with 1%R. change (pt [0; 1; 5]%R 2) with 5%R. change (pt [0; 1; 5]%R (2 - 1)) with 1%R.
    unfold vadd, vscale, Vec_scalar. num.
    unfold Rdiv. rewrite Rminus_diag_eq by reflexivity. unfold unear. lra.
Qed.
