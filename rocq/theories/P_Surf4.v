(* Removing knots from surfaces and reducing their degree. *)
From Coq Require Import ZArith List Bool Reals Lra Lia Permutation Classical.
From Verif Require Import Base Num Vec Tac Spec Spec2 Spec3 Spec4 Spec5 Spec12 M_MathUtils M_XYZ M_Knots M_Bspline M_NurbsCurve M_Curve2 M_Surface M_Surface2
  P_Loop P_VSum P_Curve P_Bspline P_Insert P_Insert2 P_Refine P_KnotMap P_BsplineS P_Surface P_Surface2 P_Elevate P_Ruled P_Remove P_Reduce P_Reduce2 P_Surf3.
Import ListNotations.
Open Scope Z_scope.

Lemma heavy_line (b : bool) n m (P : list (list W4)) a H : heavy_net n m P -> 0 <= a <= (if b then m else n) -> is_line2 b ((if b then n else m) + 1) P a H -> heavy H.
Proof.
  intros HH Ha [LH HL] i Hi. rewrite LH in Hi. rewrite HL by exact Hi. unfold on_line2. destruct b; apply HH; lia.
Qed.

(* every line of the surface after an insertion is the line before after an insertion *)
Lemma SurfaceInsert_lines n m (S : Surface R W4) u b : valid_surface n m S ->
  let p := degree_along b S in let U := knots_along b S in let l := if b then n else m in
  (val U p < u < val U (l + 1))%R -> (forall x, In x U -> (Rabs (u - x) <= tol u x)%R -> x = u) -> occ U u = p - 1 -> 1 <= p ->
  exists K M, SurfaceInsertKnot S u 1 b = Ok (with_along b S p K M) /\ net ((if b then n + 1 else n) + 1) ((if b then m else m + 1) + 1) M /\
    forall a H H' res0, 0 <= a <= (if b then m else n) -> is_line2 b (l + 1) (SControlPoints S) a H -> is_line2 b (l + 1 + 1) M a H' ->
      exists r, InsertKnot (mkCurve p U H) u 1 res0 = Ok (r, mkCurve p K H').
Proof.
  intros HS p U l Hu Hsep Ho Hp1. destruct (along_knots n m S b HS) as (KU & _). fold p U l in KU. pose proof KU as [Hp Hl HlU _ _ _].
  assert (Er : sinserted p (p - 1) 1 = 1) by (unfold sinserted; lia).
  assert (Ei : inserted p (p - 1) 1 = 1) by (unfold inserted; destruct (Z.ltb_spec (p + 1) (p - 1 + 1)); [lia|reflexivity]).
  assert (Line : forall K k H Q res0, span_of p l U u k -> len H = l + 1 -> arr K (l + p + 2 + 1) (insU (val U) k 1 u) -> arr Q (l + 1 + 1) (insP (val U) (pt H) p k (p - 1) 1 u) ->
    exists r, InsertKnot (mkCurve p U H) u 1 res0 = Ok (r, mkCurve p K Q)).
  { intros K k H Q res0 Hk LH AK AQ. destruct (InsertKnot_arr p l U H u 1 k res0 KU LH ltac:(lia) Hk ltac:(lra) Hsep) as (_ & B). cbv zeta in B. fold (occ U u) in B. rewrite Ho, Ei in B.
    destruct (wp_elim _ _ (B ltac:(lia))) as ([r' c] & E & U' & Q' & -> & -> & AU' & AQ'). exists 1. rewrite E. rewrite (arr_inj _ _ _ _ AU' AK), (arr_inj _ _ _ _ AQ' AQ). reflexivity. }
  unfold p, U, l in *. destruct b; cbn [degree_along knots_along] in *.
  - destruct (SurfaceInsert_u_arr n m S u 1 HS Hu Hsep ltac:(lia)) as (_ & B). cbv zeta in B. fold (occ (KnotVectorU S) u) in B. rewrite Ho, Er in B.
    destruct (B ltac:(lia)) as (S' & E & HS' & D1 & D2 & D3 & _ & (k & Hk & AK & A2) & _). exists (KnotVectorU S'), (SControlPoints S').
    split; [rewrite E; f_equal; destruct S'; cbn in *; subst; reflexivity|]. split; [apply HS'|].
    intros a H H' res0 Ha [LH HH] [LH' HH']. apply (Line _ k); [exact Hk|exact LH|exact AK|]. eapply arr_ext; [apply arr_pt; exact LH'|]. intros i Hi. cbv beta. rewrite HH' by lia. unfold on_line2.
    rewrite (pt2_arr2 _ _ _ _ _ _ A2) by lia. do 2 f_equal.
    apply (arr_inj _ _ (n + 1) (pt H)); [|apply arr_pt; exact LH]. eapply arr_ext; [apply arr_mklist; lia|]. intros j Hj. cbv beta. rewrite HH by lia. reflexivity.
  - destruct (SurfaceInsert_v_arr n m S u 1 HS Hu Hsep ltac:(lia)) as (_ & B). cbv zeta in B. fold (occ (KnotVectorV S) u) in B. rewrite Ho, Er in B.
    destruct (B ltac:(lia)) as (S' & E & HS' & D1 & D2 & D3 & _ & (k & Hk & AK & A2) & _). exists (KnotVectorV S'), (SControlPoints S').
    split; [rewrite E; f_equal; destruct S'; cbn in *; subst; reflexivity|]. split; [apply HS'|].
    intros a H H' res0 Ha [LH HH] [LH' HH']. apply (Line _ k); [exact Hk|exact LH|exact AK|]. eapply arr_ext; [apply arr_pt; exact LH'|]. intros i Hi. cbv beta. rewrite HH' by lia. unfold on_line2.
    rewrite (pt2_arr2 _ _ _ _ _ _ A2) by lia. do 2 f_equal.
    apply (arr_inj _ _ (m + 1) (pt H)); [|apply arr_pt; exact LH]. eapply arr_ext; [apply arr_pt; apply HS; lia|]. intros j Hj. cbv beta. rewrite HH by lia. reflexivity.
Qed.

Lemma surface_insert_remove n m (S : Surface R W4) u b : valid_surface n m S -> heavy_net n m (SControlPoints S) ->
  let p := degree_along b S in let U := knots_along b S in let l := if b then n else m in
  (val U p < u < val U (l + 1))%R -> (forall x, In x U -> (Rabs (u - x) <= tol u x)%R -> x = u) -> occ U u = p - 1 -> 1 <= p ->
  (let! S' := SurfaceInsertKnot S u 1 b in SurfaceRemoveKnot S' u 1 b) = Ok S.
Proof.
  intros HS HH p U l Hu Hsep Ho Hp1. destruct (along_knots n m S b HS) as (KU & _). fold p U l in KU.
  pose proof HS as (KU1 & KV1 & HP & _ & _). pose proof (ck_n _ _ _ KU1) as N1. pose proof (ck_n _ _ _ KV1) as N2. pose proof (ck_p _ _ _ KU1) as N3. pose proof (ck_p _ _ _ KV1) as N4.
  destruct (SurfaceInsert_lines n m S u b HS Hu Hsep Ho Hp1) as (K & M & E & HM & Hl). fold p U l in E, Hl. rewrite E. cbn [bind].
  destruct (along_with b S p K M) as (E1 & E2 & E3 & _). unfold SurfaceRemoveKnot. rewrite E1, E2, E3.
  assert (Hrow : forall a H', 0 <= a <= (if b then m else n) -> is_line2 b (l + 1 + 1) M a H' ->
    exists H, is_line2 b (l + 1) (SControlPoints S) a H /\ RemoveKnot (mkCurve p K H') u 1 = Ok (Some (mkCurve p U H))).
  { intros a H' Ha HH'. destruct (some_line2 b n m (SControlPoints S) a HP ltac:(lia) ltac:(lia)) as (H & HHl). exists H. split; [exact HHl|].
    destruct (Hl a H H' emptyCurve Ha HHl HH') as (r & EI). pose proof (insert_remove p l U H u emptyCurve KU (proj1 HHl) (heavy_line b n m _ a H HH Ha HHl) Hu Hsep Ho Hp1) as G. rewrite EI in G. exact G. }
  assert (VD : validate_domain K u = Ok tt).
  { destruct (some_line2 b (if b then n + 1 else n) (if b then m else m + 1) M 0 HM) as (H' & HH'); [destruct b; lia|destruct b; lia|].
    destruct (Hrow 0 H') as (H & _ & G); [destruct b; lia|destruct b; exact HH'|]. unfold RemoveKnot in G. cbn [KnotVector] in G. destruct (validate_domain K u) as [[]|]; [reflexivity|discriminate G]. }
  rewrite VD. cbn [bind]. change (0 <? 1) with true. cbn [validate bind].
  rewrite (lines_back n m (SControlPoints S) M b (remove_or_empty p K u 1) p U (l + 1)); [| | | |exact HP| |].
  - cbn [bind]. rewrite with_with. f_equal. apply along_with; reflexivity.
  - lia.
  - lia.
  - unfold l; destruct b; lia.
  - unfold l. destruct b; exact HM.
  - intros a H' Ha HH'. destruct (Hrow a H' Ha HH') as (H & HHl & G). exists H. unfold remove_or_empty. rewrite G. cbn [bind]. split; [reflexivity|exact HHl].
Qed.

(* a knot of full multiplicity: the points on it go *)
Lemma SurfaceRemove_full n m (S : Surface R W4) u b k : valid_surface n m S -> heavy_net n m (SControlPoints S) ->
  let p := degree_along b S in let U := knots_along b S in let l := if b then n else m in
  span_of p l U u k -> (val U p < u < val U (l + 1))%R -> (forall x, In x U -> (Rabs (u - x) <= tol u x)%R -> x = u) -> occ U u = p -> 1 <= p ->
  returns (SurfaceRemoveKnot S u 1 b) (fun S' =>
    degree_along b S' = p /\ degree_along (negb b) S' = degree_along (negb b) S /\ knots_along (negb b) S' = knots_along (negb b) S /\
    arr (knots_along b S') (l + p + 1) (fun i => if i <? k then val U i else val U (i + 1)) /\
    net (if b then n else n + 1) (if b then m + 1 else m) (SControlPoints S') /\
    forall a i, 0 <= a <= (if b then m else n) -> 0 <= i < l ->
      on_line2 b (SControlPoints S') a i = on_line2 b (SControlPoints S) a (if i <? k - p then i else i + 1)).
Proof.
  intros HS HH p U l Hk Hu Hsep Ho Hp1. destruct (along_knots n m S b HS) as (KU & _). fold p U l in KU. pose proof KU as [Hp Hl HlU HsU _ _].
  pose proof HS as (KU1 & KV1 & HP & _ & _). pose proof (ck_n _ _ _ KU1) as N1. pose proof (ck_n _ _ _ KV1) as N2. pose proof (ck_p _ _ _ KU1) as N3. pose proof (ck_p _ _ _ KV1) as N4.
  assert (Hl1 : p < l). { destruct (Z.eq_dec l p) as [El|]; [|lia]. exfalso. rewrite El in *. pose proof Hk as (K1 & K2 & K3 & K4). assert (k = p) as -> by lia.
    assert (G : In u U). { destruct (count_occ_In Req_EM_T U u) as [_ G]. apply G. unfold occ in Ho. lia. } destruct (In_val _ _ G) as (i & Hi & Ei).
    destruct (Z_le_gt_dec i p); [pose proof (HsU i p ltac:(lia) ltac:(lia) ltac:(lia))|pose proof (HsU (p + 1) i ltac:(lia) ltac:(lia) ltac:(lia))]; lra. }
  set (K := mklist (l + p + 1) (fun i => if i <? k then val U i else val U (i + 1))).
  assert (AK : arr K (l + p + 1) (fun i => if i <? k then val U i else val U (i + 1))) by (apply arr_mklist; lia).
  assert (Hrow : forall a H, 0 <= a <= (if b then m else n) -> is_line2 b (l + 1) (SControlPoints S) a H ->
    exists Q, RemoveKnot (mkCurve p U H) u 1 = Ok (Some (mkCurve p K Q)) /\ arr Q l (fun i => if i <? k - p then pt H i else pt H (i + 1))).
  { intros a H Ha HHl. destruct (RemoveKnot_full p l U H u k KU (proj1 HHl) (heavy_line b n m _ a H HH Ha HHl) Hk Hu Hsep Ho Hp1) as (o & E & U' & Q & -> & AU & AQ).
    exists Q. rewrite E, (arr_inj _ _ _ _ AU AK). split; [reflexivity|exact AQ]. }
  destruct (lines_changed_ok n m (SControlPoints S) b (remove_or_empty p U u 1) ltac:(lia) ltac:(lia) HP p K (l - 1) (fun a H Q => arr Q l (fun i => if i <? k - p then pt H i else pt H (i + 1))) ltac:(lia))
    as (M & E & HM & RM).
  { intros a H Ha HHl. destruct (Hrow a H Ha HHl) as (Q & EQ & AQ). exists Q. unfold remove_or_empty. rewrite EQ. split; [reflexivity|]. split; [rewrite (arr_len _ _ _ AQ); lia|exact AQ]. }
  assert (VD : validate_domain U u = Ok tt).
  { destruct (some_line2 b n m (SControlPoints S) 0 HP ltac:(lia) ltac:(lia)) as (H' & HH'). destruct (Hrow 0 H') as (Q & G & _); [destruct b; lia|exact HH'|].
    unfold RemoveKnot in G. cbn [KnotVector] in G. destruct (validate_domain U u) as [[]|]; [reflexivity|discriminate G]. }
  apply wp_elim. unfold SurfaceRemoveKnot. fold p U. rewrite VD. cbn [bind]. change (0 <? 1) with true. cbn [validate bind]. rewrite E. cbn [bind wp].
  destruct (along_with b S p K M) as (E1 & E2 & E3 & _). rewrite E1, E2, E3. split; [reflexivity|]. split; [destruct b; reflexivity|]. split; [destruct b; reflexivity|]. split; [exact AK|].
  replace (l - 1 + 1) with l in * by lia. split; [unfold l in *; destruct b; exact HM|].
  intros a i Ha Hi. destruct (RM a Ha) as (H' & Q & [LH HHl] & [LQ HQ] & AQ). rewrite <- HQ by exact Hi. rewrite (arr_pt_eq _ _ _ i AQ Hi). destruct (i <? k - p); apply HHl; lia.
Qed.

(** * Degree reduction *)
Lemma surface_elevate_reduce n m (S : Surface R W4) b : valid_surface n m S -> heavy_net n m (SControlPoints S) ->
  let p := degree_along b S in let U := knots_along b S in let l := if b then n else m in
  l = p -> 1 <= p -> clamped_knots p p U -> (forall x y, In x U -> In y U -> apart x y) ->
  (let! S' := SurfaceElevateDegree S 1 b in SurfaceReduceDegree S' b) = Ok (Some S).
Proof.
  intros HS HH p U l El Hp1 Hcl Hap. destruct (along_knots n m S b HS) as (KU & _). fold p U l in KU. rewrite El in KU.
  pose proof HS as (KU1 & KV1 & HP & _ & _). pose proof (ck_n _ _ _ KU1) as N1. pose proof (ck_n _ _ _ KV1) as N2. pose proof (ck_p _ _ _ KU1) as N3. pose proof (ck_p _ _ _ KV1) as N4.
  assert (Hsim : forall i, p <= i <= p -> (val U i < val U (i + 1))%R).
  { intros i Hi. assert (i = p) as -> by lia. pose proof (ck_first _ _ _ KU). pose proof (tol_pos (val U p) (val U (p + 1))). lra. }
  destruct (elevate_lines p p U 1 KU Hp1 ltac:(lia) Hcl Hap Hsim) as (K & KK & _ & _ & _ & _ & Hop). replace (p + (p - p + 1) * 1) with (p + 1) in * by lia.
  destruct (lines_changed_ok n m (SControlPoints S) b (fun row => let! newtc := ElevateDegree (mkCurve p U row) 1 in Ok (Some newtc)) ltac:(lia) ltac:(lia) HP (p + 1) K (p + 1)
    (fun a H Q => ElevateDegree (mkCurve p U H) 1 = Ok (mkCurve (p + 1) K Q)) ltac:(lia)) as (M & E & HM & RM).
  { intros a H Ha HHl. destruct (Hop H) as (Q & EQ & LQ & _); [rewrite (proj1 HHl); fold l; lia|]. exists Q. rewrite EQ. split; [reflexivity|]. split; [exact LQ|reflexivity]. }
  unfold SurfaceElevateDegree. fold p U. change (0 <? 1) with true. cbn [validate bind]. rewrite E. cbn [bind].
  destruct (along_with b S (p + 1) K M) as (E1 & E2 & E3 & _). unfold SurfaceReduceDegree. rewrite E1, E2, E3.
  rewrite (lines_back n m (SControlPoints S) M b _ p U (p + 1)); [| | | |exact HP| |].
  - cbn [bind]. rewrite with_with. do 2 f_equal. apply along_with; [|reflexivity|reflexivity]. fold p. lia.
  - lia.
  - lia.
  - lia.
  - destruct b; exact HM.
  - intros a H' Ha HH'. destruct (RM a Ha) as (H & Q & HHl & HQ & G). exists H. rewrite (line_unique _ _ _ _ _ _ HH' HQ). split; [|exact HHl].
    pose proof (elevate_reduce p U H Hp1 KU Hcl Hap) as ER. rewrite G in ER. apply ER; [rewrite (proj1 HHl); fold l; lia|]. apply (heavy_line b n m _ a H HH Ha HHl).
Qed.

(* several spans: nothing is done *)
Lemma SurfaceReduce_other n m (S : Surface R W4) b : valid_surface n m S -> heavy_net n m (SControlPoints S) -> degree_along b S < (if b then n else m) ->
  SurfaceReduceDegree S b = Ok None.
Proof.
  intros HS HH Hl. pose proof HS as (KU1 & KV1 & HP & _ & _). pose proof (ck_n _ _ _ KU1) as N1. pose proof (ck_n _ _ _ KV1) as N2. pose proof (ck_p _ _ _ KU1) as N3. pose proof (ck_p _ _ _ KV1) as N4.
  unfold SurfaceReduceDegree. rewrite (lines_changed_none n m); [reflexivity|lia|lia|exact HP| |].
  - intros a H Ha HHl. exists None. apply ReduceDegree_other; [rewrite (proj1 HHl); lia|]. apply (heavy_line b n m _ a H HH Ha HHl).
  - destruct (some_line2 b n m (SControlPoints S) 0 HP ltac:(lia) ltac:(lia)) as (H & HHl). exists 0, H. split; [destruct b; lia|]. split; [exact HHl|].
    apply ReduceDegree_other; [rewrite (proj1 HHl); lia|]. apply (heavy_line b n m _ 0 H HH); [destruct b; lia|exact HHl].
Qed.

(* a surface that is returned has lines of control points whose curves are close to those of the given ones *)
Lemma SurfaceReduce_close n m (S : Surface R W4) b : valid_surface n m S -> heavy_net n m (SControlPoints S) ->
  let p := degree_along b S in let U := knots_along b S in let l := if b then n else m in
  l = p -> 2 <= p -> clamped_knots p p U ->
  returns (SurfaceReduceDegree S b) (fun o => match o with
    | None => True
    | Some S' => degree_along b S' = p - 1 /\ knots_along b S' = bezier_on (p - 1) (val U p) (val U (p + 1)) /\
        degree_along (negb b) S' = degree_along (negb b) S /\ knots_along (negb b) S' = knots_along (negb b) S /\
        net (if b then n else n + 1) (if b then m + 1 else m) (SControlPoints S') /\
        forall a H H', 0 <= a <= (if b then m else n) -> is_line2 b (p + 1) (SControlPoints S) a H -> is_line2 b p (SControlPoints S') a H' ->
          pt H' 0 = pt H 0 /\ pt H' (p - 1) = pt H p /\ forall s, in_domain p p U s ->
          (0 < ww (curve_point (p - 1) (p - 1) (knots_along b S') H' s))%R /\
          (dist3 (proj (curve_point p p U H s)) (proj (curve_point (p - 1) (p - 1) (knots_along b S') H' s)) <= if Z.even p then 1 / 9999 else 1 / 4999)%R
    end).
Proof.
  intros HS HH p U l El Hp2 Hcl. destruct (along_knots n m S b HS) as (KU & _). fold p U l in KU. rewrite El in KU.
  pose proof HS as (KU1 & KV1 & HP & _ & _). pose proof (ck_n _ _ _ KU1) as N1. pose proof (ck_n _ _ _ KV1) as N2. pose proof (ck_p _ _ _ KU1) as N3. pose proof (ck_p _ _ _ KV1) as N4.
  set (K := bezier_on (p - 1) (val U p) (val U (p + 1))).
  set (Close := fun H H' : list W4 => pt H' 0 = pt H 0 /\ pt H' (p - 1) = pt H p /\ forall s, in_domain p p U s ->
          (0 < ww (curve_point (p - 1) (p - 1) K H' s))%R /\
          (dist3 (proj (curve_point p p U H s)) (proj (curve_point (p - 1) (p - 1) K H' s)) <= if Z.even p then 1 / 9999 else 1 / 4999)%R).
  assert (Hrow : forall a H, 0 <= a <= (if b then m else n) -> is_line2 b (l + 1) (SControlPoints S) a H ->
    ReduceDegree (mkCurve p U H) = Ok None \/ exists Q, ReduceDegree (mkCurve p U H) = Ok (Some (mkCurve (p - 1) K Q)) /\ len Q = p - 1 + 1 /\ Close H Q).
  { intros a H Ha HHl. destruct (ReduceDegree_close p U H Hp2 KU Hcl) as (o & Eo & Ho); [rewrite (proj1 HHl), El; reflexivity|apply (heavy_line b n m _ a H HH Ha HHl)|].
    destruct o as [[dc kc cc]|]; [|left; exact Eo]. right. cbn [Degree KnotVector ControlPoints] in Ho. destruct Ho as (-> & -> & Lc & Hc). exists cc. split; [exact Eo|]. split; [lia|exact Hc]. }
  assert (D : (exists a H, 0 <= a <= (if b then m else n) /\ is_line2 b (l + 1) (SControlPoints S) a H /\ ReduceDegree (mkCurve p U H) = Ok None) \/
    forall a H, 0 <= a <= (if b then m else n) -> is_line2 b (l + 1) (SControlPoints S) a H -> exists Q, ReduceDegree (mkCurve p U H) = Ok (Some (mkCurve (p - 1) K Q)) /\ len Q = p - 1 + 1 /\ Close H Q).
  { match goal with |- ?A \/ _ => destruct (classic A) as [D|D]; [left; exact D|right] end.
    intros a H Ha HHl. destruct (Hrow a H Ha HHl) as [E|G]; [|exact G]. exfalso. apply D. exists a, H. auto. }
  apply wp_elim. unfold SurfaceReduceDegree. fold p U. destruct D as [D|D].
  - rewrite (lines_changed_none n m _ b _ ltac:(lia) ltac:(lia) HP); [exact I| |exact D].
    intros a H Ha HHl. destruct (Hrow a H Ha HHl) as [->|(Q & -> & _)]; eexists; reflexivity.
  - destruct (lines_changed_ok n m (SControlPoints S) b _ ltac:(lia) ltac:(lia) HP (p - 1) K (p - 1) (fun _ => Close) ltac:(lia) D) as (M & -> & HM & RM). cbn [bind wp].
    destruct (along_with b S (p - 1) K M) as (E1 & E2 & E3 & _). rewrite E1, E2, E3. do 2 (split; [reflexivity|]). split; [destruct b; reflexivity|]. split; [destruct b; reflexivity|].
    replace (p - 1 + 1) with p in * by lia. split; [unfold l in El; destruct b; rewrite ?El; exact HM|].
    intros a H H' Ha HHl HHl'. destruct (RM a Ha) as (H0 & H0' & A & B & C). rewrite <- El in HHl at 1. rewrite (line_unique _ _ _ _ _ _ HHl A), (line_unique _ _ _ _ _ _ HHl' B). exact C.
Qed.
