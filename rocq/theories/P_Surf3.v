(* Surface operations made of a curve operation applied to every line. *)
From Coq Require Import ZArith List Bool Reals Lra Lia Permutation.
From Verif Require Import Base Num Vec Tac Spec Spec2 Spec3 Spec4 Spec5 Spec12 M_MathUtils M_XYZ M_Knots M_Bspline M_NurbsCurve M_Curve2 M_Surface M_Surface2
  P_Loop P_VSum P_Curve P_Bspline P_Insert P_Insert2 P_KnotMap P_BsplineS P_Surface P_Surface2 P_Elevate P_Ruled P_Refine.
Import ListNotations.
Open Scope Z_scope.

Notation W4 := (XYZW R).

Lemma at_snoc_last {X} (d : X) a y : at_ d (a ++ [y]) (len a) = y.
Proof. unfold at_, len. rewrite Nat2Z.id, app_nth2, Nat.sub_diag by lia. reflexivity. Qed.
Lemma at_snoc_old {X} (d : X) l1 l2 i : 0 <= i < len l1 -> at_ d (l1 ++ l2) i = at_ d l1 i.
Proof. intros H. unfold at_, len in *. apply app_nth1. lia. Qed.

Lemma pt2_row (P : list (list W4)) i j : pt2 P i j = pt (at_ nil P i) j.
Proof. reflexivity. Qed.

Lemma rows_changed_ok rows r c (op : list W4 -> res (option (Curve R W4))) p' U' c' (Rel : Z -> list W4 -> list W4 -> Prop) : net r c rows -> 0 < r ->
  (forall i, 0 <= i < r -> exists Q, op (at_ nil rows i) = Ok (Some (mkCurve p' U' Q)) /\ len Q = c' /\ Rel i (at_ nil rows i) Q) ->
  exists M, rows_changed rows op = Ok (Some (U', M)) /\ net r c' M /\ forall i, 0 <= i < r -> Rel i (at_ nil rows i) (at_ nil M i).
Proof.
  intros [Hl Hr] H0 Hop.
  enough (G : returns (rows_changed rows op) (fun o => exists M, o = Some (U', M) /\ net r c' M /\ forall i, 0 <= i < r -> Rel i (at_ nil rows i) (at_ nil M i))).
  { destruct G as (o & -> & M & -> & G). exists M. auto. }
  apply wp_elim. unfold rows_changed. rewrite Hl. apply wp_bind.
  apply wp_for_upc with (P := fun k '(K, M) => len M = k /\ (0 < k -> K = U') /\ forall i, 0 <= i < k -> len (at_ nil M i) = c' /\ Rel i (at_ nil rows i) (at_ nil M i)) (F := fun _ => False).
  - split; [reflexivity|]. split; [lia|]. intros; lia.
  - intros k [K M] Hk (L & _ & HM). rewrite (get_at nil) by lia. cbn [bind]. destruct (Hop k Hk) as (Q & -> & LQ & RQ). cbn [bind wp KnotVector ControlPoints].
    split; [rewrite len_app, L; reflexivity|]. split; [reflexivity|]. intros i Hi. destruct (Z.eq_dec i k) as [->|].
    + replace (at_ nil (M ++ [Q]) k) with Q by (rewrite <- L; symmetry; apply at_snoc_last). auto.
    + rewrite at_snoc_old by lia. apply HM. lia.
  - intros [K M]. rewrite Z.max_r by lia. intros (L & E & HM). cbn [wp]. rewrite (E H0). exists M. split; [reflexivity|]. split; [split; [exact L|intros i Hi; apply HM, Hi]|]. intros i Hi. apply HM, Hi.
  - intros _ [].
Qed.

Lemma rows_changed_none rows r c (op : list W4 -> res (option (Curve R W4))) : net r c rows ->
  (forall i, 0 <= i < r -> exists o, op (at_ nil rows i) = Ok o) -> (exists i, 0 <= i < r /\ op (at_ nil rows i) = Ok None) ->
  rows_changed rows op = Ok None.
Proof.
  intros [Hl Hr] Hop (j & Hj & Ej). apply wp_eq. unfold rows_changed. rewrite Hl. apply wp_bind.
  apply wp_for_upc with (P := fun k _ => k <= j) (F := fun _ => True).
  - lia.
  - intros k [K M] Hk Hkj. rewrite (get_at nil) by lia. cbn [bind]. destruct (Hop k Hk) as (o & E). destruct (Z.eq_dec k j) as [->|].
    + rewrite Ej. exact I.
    + rewrite E. cbn [bind]. destruct o; cbn [wp]; [lia|exact I].
  - intros s. lia.
  - reflexivity.
Qed.

Section Lines.
Variables (n m : Z) (P : list (list W4)) (b : bool) (op : list W4 -> res (option (Curve R W4))).
Hypotheses (Hn : 0 <= n) (Hm : 0 <= m) (HP : net (n + 1) (m + 1) P).
Let l := if b then n else m.
Let lines := if b then m else n.

Lemma lines_changed_ok p' U' l' (Rel : Z -> list W4 -> list W4 -> Prop) : 0 <= l' ->
  (forall a H, 0 <= a <= lines -> is_line2 b (l + 1) P a H -> exists Q, op H = Ok (Some (mkCurve p' U' Q)) /\ len Q = l' + 1 /\ Rel a H Q) ->
  exists M, lines_changed P b op = Ok (Some (U', M)) /\ net (if b then l' + 1 else n + 1) (if b then m + 1 else l' + 1) M /\
    forall a, 0 <= a <= lines -> exists H H', is_line2 b (l + 1) P a H /\ is_line2 b (l' + 1) M a H' /\ Rel a H H'.
Proof.
  unfold l, lines. clear l lines. intros Hl' Hop. destruct b.
  - destruct (transposed n m P Hn Hm HP) as (Q & E & HQ & _ & Hpt).
    destruct (rows_changed_ok Q (m + 1) (n + 1) op p' U' (l' + 1) Rel) with (1 := HQ) as (M & EM & HM & RM); [lia| |].
    { intros a Ha. apply (Hop a); [lia|]. split; [apply HQ; lia|]. intros i Hi. unfold on_line2. rewrite <- Hpt by lia. reflexivity. }
    destruct (transposed m l' M Hm Hl' HM) as (M' & EM' & HM' & _ & Hpt').
    exists M'. unfold lines_changed. rewrite E. cbn [bind]. rewrite EM. cbn [bind]. rewrite EM'. split; [reflexivity|]. split; [exact HM'|].
    intros a Ha. exists (at_ nil Q a), (at_ nil M a). split; [|split; [|apply RM; lia]].
    + split; [apply HQ; lia|]. intros i Hi. unfold on_line2. rewrite <- Hpt by lia. reflexivity.
    + split; [apply HM; lia|]. intros i Hi. unfold on_line2. rewrite (Hpt' a i) by lia. reflexivity.
  - destruct (rows_changed_ok P (n + 1) (m + 1) op p' U' (l' + 1) Rel HP) as (M & EM & HM & RM); [lia| |].
    { intros a Ha. apply (Hop a); [lia|]. split; [apply HP; lia|]. reflexivity. }
    exists M. split; [exact EM|]. split; [exact HM|]. intros a Ha. exists (at_ nil P a), (at_ nil M a).
    split; [split; [apply HP; lia|reflexivity]|]. split; [split; [apply HM; lia|reflexivity]|]. apply RM. lia.
Qed.

Lemma lines_changed_none : (forall a H, 0 <= a <= lines -> is_line2 b (l + 1) P a H -> exists o, op H = Ok o) ->
  (exists a H, 0 <= a <= lines /\ is_line2 b (l + 1) P a H /\ op H = Ok None) -> lines_changed P b op = Ok None.
Proof.
  unfold l, lines. clear l lines. intros Hop (a & H & Ha & HH & E).
  assert (U : forall (A B : list W4) k, len A = k -> len B = k -> (forall i, 0 <= i < k -> pt A i = pt B i) -> A = B).
  { intros A B k LA LB G. apply (arr_inj _ _ k (pt B)); [|apply arr_pt; exact LB]. eapply arr_ext; [apply arr_pt; exact LA|]. intros i Hi. apply G. exact Hi. }
  destruct b.
  - destruct (transposed n m P Hn Hm HP) as (Q & EQ & HQ & _ & Hpt). unfold lines_changed. rewrite EQ. cbn [bind].
    rewrite (rows_changed_none Q (m + 1) (n + 1)); [reflexivity|exact HQ| |].
    + intros i Hi. apply (Hop i); [lia|]. split; [apply HQ; lia|]. intros j Hj. unfold on_line2. rewrite <- Hpt by lia. reflexivity.
    + exists a. split; [lia|]. rewrite <- E. f_equal. apply (U _ _ (n + 1)); [apply HQ; lia|apply HH|]. intros i Hi. destruct HH as [_ HH]. rewrite HH by exact Hi. unfold on_line2. rewrite <- Hpt by lia. reflexivity.
  - unfold lines_changed. apply (rows_changed_none P (n + 1) (m + 1)); [exact HP| |].
    + intros i Hi. apply (Hop i); [lia|]. split; [apply HP; lia|reflexivity].
    + exists a. split; [lia|]. rewrite <- E. f_equal. apply (U _ _ (m + 1)); [apply HP; lia|apply HH|]. intros i Hi. destruct HH as [_ HH]. rewrite HH by exact Hi. reflexivity.
Qed.
End Lines.

Lemma line_unique b l (P : list (list W4)) a H H' : is_line2 b l P a H -> is_line2 b l P a H' -> H = H'.
Proof.
  intros [L1 G1] [L2 G2]. apply (arr_inj _ _ l (pt H')); [|apply arr_pt; exact L2]. eapply arr_ext; [apply arr_pt; exact L1|]. intros i Hi. cbv beta. rewrite G1, G2 by exact Hi. reflexivity.
Qed.

Lemma net_eq r c (P Q : list (list W4)) : net r c P -> net r c Q -> (forall i j, 0 <= i < r -> 0 <= j < c -> pt2 P i j = pt2 Q i j) -> P = Q.
Proof.
  intros [LP RP] [LQ RQ] G. apply (arr_inj _ _ r (at_ nil Q)); [|rewrite <- LQ; apply arr_at]. eapply arr_ext; [rewrite <- LP; apply arr_at|]. intros i Hi. cbv beta.
  apply (arr_inj _ _ c (pt (at_ nil Q i))); [|apply arr_pt, RQ, Hi]. eapply arr_ext; [apply arr_pt, RP, Hi|]. intros j Hj. apply G; assumption.
Qed.

(* a line of a net *)
Lemma some_line2 (b : bool) n m (P : list (list W4)) a : net (n + 1) (m + 1) P -> 0 <= n -> 0 <= m -> exists H, is_line2 b ((if b then n else m) + 1) P a H.
Proof.
  intros _ Hn Hm. exists (mklist ((if b then n else m) + 1) (fun i : Z => on_line2 b P a i)).
  assert (A : arr (mklist ((if b then n else m) + 1) (fun i => on_line2 b P a i)) ((if b then n else m) + 1) (fun i => on_line2 b P a i)) by (apply arr_mklist; destruct b; lia).
  split; [apply (arr_len _ _ _ A)|]. intros i Hi. apply (arr_pt_eq _ _ _ i A Hi).
Qed.

Lemma lines_back n m (P M : list (list W4)) (b : bool) (op : list W4 -> res (option (Curve R W4))) p' U' l : 0 <= n -> 0 <= m -> 0 <= l -> net (n + 1) (m + 1) P -> net ((if b then l else n) + 1) ((if b then m else l) + 1) M ->
  (forall a H, 0 <= a <= (if b then m else n) -> is_line2 b (l + 1) M a H ->
     exists Q, op H = Ok (Some (mkCurve p' U' Q)) /\ is_line2 b ((if b then n else m) + 1) P a Q) ->
  lines_changed M b op = Ok (Some (U', P)).
Proof.
  intros Hn Hm Hl HP HM Hop.
  destruct (lines_changed_ok (if b then l else n) (if b then m else l) M b op ltac:(destruct b; lia) ltac:(destruct b; lia) HM p' U' (if b then n else m)
    (fun a _ Q => is_line2 b ((if b then n else m) + 1) P a Q) ltac:(destruct b; lia)) as (P' & E & HP' & RP).
  - intros a H Ha HH. destruct (Hop a H) as (Q & E & HQ); [destruct b; exact Ha|destruct b; exact HH|]. exists Q. split; [exact E|]. split; [apply HQ|exact HQ].
  - rewrite E. do 3 f_equal. apply (net_eq (n + 1) (m + 1)); [destruct b; exact HP'|exact HP|]. intros i j Hi Hj. destruct b.
    + destruct (RP j ltac:(lia)) as (_ & H' & _ & [_ A] & [_ B]). transitivity (pt H' i); [symmetry; apply (A i); lia|apply (B i); lia].
    + destruct (RP i ltac:(lia)) as (_ & H' & _ & [_ A] & [_ B]). transitivity (pt H' j); [symmetry; apply (A j); lia|apply (B j); lia].
Qed.

(* every line keeps its points: so does the surface *)
Lemma lines_kept2 n m (S : Surface R W4) b op p' U' l' : valid_surface n m S -> curve_knots p' l' U' -> p' <= 7 ->
  let p := degree_along b S in let U := knots_along b S in let l := if b then n else m in
  (forall t, in_domain p l U t -> in_domain p' l' U' t) ->
  (forall a H, 0 <= a <= (if b then m else n) -> is_line2 b (l + 1) (SControlPoints S) a H -> exists Q, op H = Ok (Some (mkCurve p' U' Q)) /\ len Q = l' + 1 /\
     forall t, in_domain p l U t -> curve_point p' l' U' Q t = curve_point p l U H t) ->
  exists M, lines_changed (SControlPoints S) b op = Ok (Some (U', M)) /\ resized b n m l' S (with_along b S p' U' M) /\ same_points n m S (with_along b S p' U' M).
Proof.
  intros HS HU' H7' p U l Hdom Hop. pose proof HS as (KU & KV & HP & H7 & H77). pose proof (ck_n _ _ _ KU). pose proof (ck_n _ _ _ KV). pose proof (ck_p _ _ _ KU). pose proof (ck_p _ _ _ KV).
  pose proof (ck_n _ _ _ HU'). pose proof (ck_p _ _ _ HU').
  destruct (lines_changed_ok n m (SControlPoints S) b op ltac:(lia) ltac:(lia) HP p' U' l' (fun _ H Q => forall t, in_domain p l U t -> curve_point p' l' U' Q t = curve_point p l U H t) ltac:(lia) Hop)
    as (M & E & HM & RM).
  exists M. split; [exact E|]. destruct S as [dU dV kU kV cp].
  assert (VS : valid_surface (if b then l' else n) (if b then m else l') (with_along b (mkSurface dU dV kU kV cp) p' U' M)).
  { unfold with_along. cbn [DegreeU DegreeV KnotVectorU KnotVectorV SControlPoints] in *. destruct b; (split; [assumption|]); (split; [assumption|]); (split; [exact HM|]); split; assumption. }
  split; [split; [exact VS|destruct b; split; reflexivity]|].
  intros u v Du Dv. rewrite (surface_eval n m (mkSurface dU dV kU kV cp) u v HS Du Dv). clear Hop E.
  rewrite (surface_eval (if b then l' else n) (if b then m else l')); [|exact VS| |].
  2:{ unfold u_domain, with_along in *. destruct b; cbn in *; [apply Hdom; exact Du|exact Du]. }
  2:{ unfold v_domain, with_along in *. destruct b; cbn in *; [exact Dv|apply Hdom; exact Dv]. }
  f_equal. unfold with_along. destruct b; cbn [DegreeU DegreeV KnotVectorU KnotVectorV SControlPoints degree_along knots_along] in *.
  - unfold u_domain, v_domain in *. cbn in Du, Dv. unfold surface_point.
    rewrite (comb_swap 0 (l' + 1) 0 (m + 1)), (comb_swap 0 (n + 1) 0 (m + 1)).
    apply comb_ext. intros a Ha. split; [reflexivity|]. destruct (RM a ltac:(lia)) as (H' & Q & [LH HH] & [LQ HQ] & G). specialize (G u Du).
    unfold curve_point in G. etransitivity; [|etransitivity; [exact G|]]; apply comb_ext; intros i Hi; (split; [reflexivity|]); [symmetry; apply (HQ i)|apply (HH i)]; lia.
  - unfold u_domain, v_domain in *. cbn in Du, Dv. unfold surface_point. apply comb_ext. intros i Hi. split; [reflexivity|]. destruct (RM i ltac:(lia)) as (H' & Q & [LH HH] & [LQ HQ] & G).
    specialize (G v Dv). unfold curve_point in *. etransitivity; [|etransitivity; [exact G|]]; apply comb_ext; intros j Hj; (split; [reflexivity|]); [symmetry; apply (HQ j)|apply (HH j)]; lia.
Qed.

(** * Degree *)
(* raising the degree gives every curve over U the same knots *)
Lemma elevate_lines p l U times : curve_knots p l U -> 1 <= p -> 1 <= times -> clamped_knots p l U -> (forall x y, In x U -> In y U -> apart x y) ->
  (forall i, p <= i <= l -> (val U i < val U (i + 1))%R) ->
  let l' := l + (l - p + 1) * times in
  exists K, curve_knots (p + times) l' K /\ clamped_knots (p + times) l' K /\ (forall x, In x K <-> In x U) /\ (forall x, In x U -> occ K x = occ U x + times) /\
    (forall t, in_domain p l U t -> in_domain (p + times) l' K t) /\
    forall line : list W4, len line = l + 1 -> exists Q, ElevateDegree (mkCurve p U line) times = Ok (mkCurve (p + times) K Q) /\ len Q = l' + 1 /\
      forall s, in_domain p l U s -> curve_point (p + times) l' K Q s = curve_point p l U line s.
Proof.
  intros KU Hp1 Ht Hcl Hap Hsim l'. pose proof KU as [Hp Hl HlU _ _ _].
  assert (Hop : forall line : list W4, len line = l + 1 -> exists U' Q, ElevateDegree (mkCurve p U line) times = Ok (mkCurve (p + times) U' Q) /\
     curve_knots (p + times) l' U' /\ len Q = l' + 1 /\ clamped_knots (p + times) l' U' /\ (forall x, In x U' <-> In x U) /\ (forall x, In x U -> occ U' x = occ U x + times) /\
    forall s, in_domain p l U s -> curve_point (p + times) l' U' Q s = curve_point p l U line s).
  { intros line HL. destruct (ElevateDegree_full p l U line times KU HL Hcl Hap Hp1 Ht Hsim) as (c & E & n1 & U' & Q & -> & -> & H). exists U', Q. split; [exact E|exact H]. }
  destruct (Hop (mklist (l + 1) (fun _ => xyzw0))) as (K & _ & _ & KK & _ & CK & IK & OK & _); [eapply arr_len, arr_mklist; lia|].
  assert (DK : forall t, in_domain p l U t -> in_domain (p + times) l' K t).
  { assert (E0 : val K (p + times) = val U p /\ val K (l' + 1) = val U (l + 1)).
    { pose proof (ck_sorted _ _ _ KK) as SK. pose proof (ck_sorted _ _ _ KU) as SU. pose proof (ck_len _ _ _ KK) as LK. pose proof (ck_n _ _ _ KK) as NK. pose proof CK as (C1 & C2). pose proof Hcl as (C3 & C4). rewrite <- C1, C2, <- C3, C4.
      split; apply Rle_antisym.
      - assert (G : In (val U 0) K) by (apply IK; apply val_In; lia). destruct (In_val _ _ G) as (i & Hi & <-). apply SK; lia.
      - assert (G : In (val K 0) U) by (apply IK; apply val_In; lia). destruct (In_val _ _ G) as (i & Hi & <-). apply SU; lia.
      - assert (G : In (val K (l' + (p + times) + 1)) U) by (apply IK; apply val_In; lia). destruct (In_val _ _ G) as (i & Hi & <-). apply SU; lia.
      - assert (G : In (val U (l + p + 1)) K) by (apply IK; apply val_In; lia). destruct (In_val _ _ G) as (i & Hi & <-). apply SK; lia. }
    destruct E0 as (E1 & E2). intros t. unfold in_domain. rewrite E1, E2. tauto. }
  exists K. do 5 (split; [assumption|]).
  intros H LH. destruct (Hop H LH) as (K' & Q & EE & K1 & LQ & C1 & I1 & O1 & HQ). assert (K' = K) as ->.
  { apply sorted_perm_eq; [apply (ck_sorted _ _ _ K1)|apply (ck_sorted _ _ _ KK)|]. apply (Permutation_count_occ Req_EM_T). intros x. apply Nat2Z.inj.
    destruct (in_dec Req_EM_T x U) as [Hx|Hx]; [exact (eq_trans (O1 x Hx) (eq_sym (OK x Hx)))|].
    rewrite (proj1 (count_occ_not_In Req_EM_T K' x)), (proj1 (count_occ_not_In Req_EM_T K x)); [reflexivity| |]; rewrite ?IK, ?I1; exact Hx. }
  exists Q. split; [exact EE|]. split; [exact LQ|exact HQ].
Qed.

Lemma along_with b (S : Surface R W4) p K M : degree_along b (with_along b S p K M) = p /\ knots_along b (with_along b S p K M) = K /\ SControlPoints (with_along b S p K M) = M /\
  (p = degree_along b S -> K = knots_along b S -> M = SControlPoints S -> with_along b S p K M = S).
Proof. destruct S, b; (do 3 (split; [reflexivity|])); cbn; intros; subst; reflexivity. Qed.

Lemma with_with b (S : Surface R W4) p K M p' K' M' : with_along b (with_along b S p K M) p' K' M' = with_along b S p' K' M'.
Proof. destruct b; reflexivity. Qed.

Lemma along_knots n m (S : Surface R W4) b : valid_surface n m S -> curve_knots (degree_along b S) (if b then n else m) (knots_along b S) /\ degree_along b S <= 7.
Proof. intros HS. destruct b; split; apply HS. Qed.

Lemma SurfaceElevateDegree_ok n m (S : Surface R W4) b times : valid_surface n m S ->
  let p := degree_along b S in let U := knots_along b S in let l := if b then n else m in
  1 <= p -> 1 <= times -> p + times <= 7 -> clamped_knots p l U -> (forall x y, In x U -> In y U -> apart x y) ->
  (forall i, p <= i <= l -> (val U i < val U (i + 1))%R) ->
  returns (SurfaceElevateDegree S times b) (fun S' =>
    resized b n m (l + (l - p + 1) * times) S S' /\ degree_along b S' = p + times /\ clamped_knots (p + times) (l + (l - p + 1) * times) (knots_along b S') /\
    (forall x, In x (knots_along b S') <-> In x U) /\ (forall x, In x U -> occ (knots_along b S') x = occ U x + times) /\
    same_points n m S S').
Proof.
  intros HS p U l Hp1 Ht H7 Hcl Hap Hsim. destruct (along_knots n m S b HS) as (KU & _).
  destruct (elevate_lines p l U times KU Hp1 Ht Hcl Hap Hsim) as (K & KK & CK & IK & OK & DK & Hop).
  destruct (lines_kept2 n m S b (fun row => let! newtc := ElevateDegree (mkCurve p U row) times in Ok (Some newtc)) (p + times) K (l + (l - p + 1) * times) HS KK H7 DK) as (M & E & H1 & H2).
  { intros a H _ [LH _]. destruct (Hop H LH) as (Q & -> & HQ). exists Q. split; [reflexivity|exact HQ]. }
  apply wp_elim. unfold SurfaceElevateDegree. fold p U. rewrite (proj2 (Z.ltb_lt 0 times)) by lia. cbn [validate bind]. rewrite E. cbn [bind wp].
  split; [exact H1|]. destruct (along_with b S (p + times) K M) as (G1 & G2 & _). rewrite G1, G2. auto.
Qed.
