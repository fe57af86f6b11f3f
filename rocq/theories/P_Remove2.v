(* Knot removal: parameters in the first span, and parameters that are not knots. *)
From Coq Require Import ZArith List Bool Reals Lra Lia.
From Verif Require Import Base Num Vec Tac Spec Spec2 Spec3 Spec4 Spec5 M_MathUtils M_Polynomials M_XYZ M_Bspline M_NurbsCurve M_Curve2
  P_Loop P_MathUtils P_VSum P_Curve P_Bspline P_Insert P_Insert2 P_Reduce P_Remove.
Import ListNotations.
Open Scope Z_scope.

Lemma RemoveKnot_first p n U P u times : curve_knots p n U -> len P = n + 1 -> heavy P -> span_of p n U u p -> 0 < times <= p + 1 ->
  RemoveKnot (mkCurve p U P) u times = UB.
Proof.
  intros HU HP HH Hk Ht. pose proof HU as [Hp Hn HL HS _ _]. pose proof Hk as (_ & Hlt & Hu1 & Hu2).
  assert (Hd : in_domain p n U u). { pose proof (HS (p + 1) (n + 1) ltac:(lia) ltac:(lia) ltac:(lia)). split; [lra|]. destruct Hu2 as [?|[_ ->]]; lra. }
  unfold RemoveKnot. cbn [Degree KnotVector ControlPoints]. rewrite (domain_ok p n U u HU Hd). cbn [bind]. destruct (Z.ltb_spec 0 times); [|lia]. cbn [bind validate].
  destruct (wp_elim _ _ (tolerance_ok P HH)) as (tl & -> & _). cbn [bind].
  rewrite GetKnotMultiplicity_spec.
  2: lia. 2: exact HS. 2: { destruct Hd. pose proof (HS 0 p ltac:(lia) ltac:(lia) ltac:(lia)). pose proof (HS (n + 1) (len U - 1) ltac:(lia) ltac:(lia) ltac:(lia)). lra. }
  cbn [bind]. match goal with |- context [len (filter ?f U)] => set (s := len (filter f U)) end. rewrite (find_span_eq p n U u p HU Hk). cbn [bind]. rewrite HP. replace (n + 1 - 1) with n by lia.
  match goal with |- bind ?m _ = _ => assert (W : wp m (fun v => len v = n + p + 2)) end.
  { apply wp_for_up with (P := fun _ v => len v = n + p + 2); [lia|exact HL| |auto]. intros h v Hh Hv. destruct (get_len v _ h Hv ltac:(lia)) as (x & ->). cbn [bind].
    eapply wp_mono; [apply (upd_len _ (n + p + 2)); [exact Hv|lia]|]. auto. }
  destruct (wp_elim _ _ W) as (v & -> & Lv). clear W. cbn [bind].
  match goal with |- bind ?m _ = _ => assert (W : wp m (fun v => len v = n + p + 2 - times)) end.
  { apply wp_for_up with (P := fun h v => len v = n + p + 2 - h); [lia|lia| |auto]. intros h w Hh Hw.
    destruct (pop_back_arr w (n + p + 1 - h) (val w) ltac:(lia)) as (w' & -> & Aw). { replace (n + p + 1 - h + 1) with (len w) by lia. apply P_Bern.arr_val. }
    cbn [wp]. rewrite (arr_len _ _ _ Aw). lia. }
  destruct (wp_elim _ _ W) as (w & -> & _). clear W. cbn [bind].
  destruct (wp_elim _ _ (wp_mkvec (xyzw0 (A := R)) (2 * p + 1) (fun _ => True) ltac:(lia) (fun _ _ => I))) as (tm & -> & _). cbn [bind].
  unfold for_upc. replace (Z.to_nat (times - 0)) with (Datatypes.S (Z.to_nat (times - 1))) by lia. cbn [iter_upc]. rewrite Z.sub_diag. reflexivity.
Qed.
