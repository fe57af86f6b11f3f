(* Volumes: knot insertion, degree elevation, reversal, and the calls that write outside the net. *)
From Coq Require Import ZArith List Bool Reals Lra Lia Permutation.
From Verif Require Import Base Num Vec Tac Spec Spec2 Spec4 Spec11 M_MathUtils M_Polynomials M_XYZ M_Bspline M_NurbsCurve M_Knots M_Curve2 M_Surface M_Volume
  P_MathUtils P_Span P_Cox P_Basis P_VSum P_Curve P_Bspline P_BsplineS P_Loop P_Insert P_Insert2 P_Refine P_Reverse P_Surface P_Split P_Elevate P_Vol1.
Import ListNotations.
Open Scope Z_scope.

Lemma put_same {X} d (x : X) t : put d x t d = x.
Proof. destruct d; reflexivity. Qed.
Lemma put_other {X} d e (x : X) t : e <> d -> put d x t e = t e.
Proof. destruct d, e; intros H; try reflexivity; congruence. Qed.
Lemma outer_ne d : outer d <> d. Proof. destruct d; discriminate. Qed.
Lemma inner_ne d : inner d <> d. Proof. destruct d; discriminate. Qed.
Lemma dir_dec (d e : VolumeDirection) : {d = e} + {d <> e}.
Proof. decide equality. Qed.

Lemma for_up_split {S} (body : Z -> S -> res S) k hi : k <= hi -> forall lo s, lo <= k -> for_up lo hi s body = bind (for_up lo k s body) (fun s => for_up k hi s body).
Proof.
  intros Hk lo. remember (Z.to_nat (k - lo)) as m eqn:Em. revert lo Em. induction m as [|m IH]; intros lo Em s Hlo.
  - assert (lo = k) as -> by lia. rewrite (for_up_nil k k) by lia. reflexivity.
  - rewrite (for_up_first lo hi), (for_up_first lo k) by lia. rewrite bind_assoc. destruct (body lo s) as [s'|e]; [|reflexivity]. cbn [bind]. apply IH; lia.
Qed.

(* the first part of a loop succeeds, the next iteration fails *)
Lemma for_up_fail {S} (body : Z -> S -> res S) lo k hi s e (Q : S -> Prop) : lo <= k < hi -> wp (for_up lo k s body) Q ->
  (forall s', Q s' -> body k s' = Err e) -> for_up lo hi s body = Err e.
Proof.
  intros H W F. rewrite (for_up_split body k) by lia. destruct (wp_elim _ _ W) as (s' & -> & HQ). cbn [bind]. rewrite for_up_first by lia. rewrite (F s' HQ). reflexivity.
Qed.

Section V2.
Context {T : Type} {V : Vec R T} {L : VecL T}.

Lemma with_same d (S : Volume R T) p U P : degree_in d (with_line d S p U P) = p /\ knots_in d (with_line d S p U P) = U /\
  VControlPoints (with_line d S p U P) = P.
Proof. destruct d; repeat split. Qed.
Lemma with_but d (S : Volume R T) p U P : same_but d S (with_line d S p U P).
Proof. intros e He. destruct d, e; try congruence; split; reflexivity. Qed.

Lemma valid_size sz (S : Volume R T) : valid_volume sz S -> forall d, 0 <= sz d.
Proof. intros (HK & _) d. destruct (HK d) as ([Hp Hn _ _ _ _] & _). lia. Qed.

Lemma valid_with d sz (S : Volume R T) p' n' U' P' : valid_volume sz S -> curve_knots p' n' U' -> p' <= 7 ->
  arrL d P' (n' + 1) (sz (outer d) + 1) (sz (inner d) + 1) (cell d P') -> valid_volume (put d n' sz) (with_line d S p' U' P').
Proof.
  intros (HK & HP) KU H7 A. destruct (with_same d S p' U' P') as (E1 & E2 & E3). split.
  - intros e. destruct (dir_dec e d) as [->|Ne].
    + rewrite E1, E2, put_same. split; assumption.
    + destruct (with_but d S p' U' P' e Ne) as (-> & ->). rewrite put_other by exact Ne. apply HK.
  - rewrite E3. apply (net_of_arrL d (put d n' sz) P' (cell d P')). rewrite put_same, !put_other by (apply outer_ne || apply inner_ne). exact A.
Qed.

Lemma basis_curve sz (S : Volume R T) t d (f : Z -> T) line : (forall i, 0 <= i <= sz d -> pt line i = f i) ->
  comb 0 (sz d + 1) (basis sz S t d) f = curve_point (degree_in d S) (sz d) (knots_in d S) line (t d).
Proof. intros H. unfold curve_point. apply comb_ext. intros i Hi. split; [reflexivity|]. symmetry. apply H. lia. Qed.

(* a curve operation applied to every line *)
Lemma lines_replaced d sz (S : Volume R T) (op : list T -> res (Curve R T)) new g0 p' n' K tm (Dom : (VolumeDirection -> R) -> Prop) :
  valid_volume sz S -> arrL d new (n' + 1) (sz (outer d) + 1) (sz (inner d) + 1) g0 -> curve_knots p' n' K -> p' <= 7 ->
  (forall t, in_volume sz S t -> in_domain p' n' K (tm (t d))) ->
  (forall line, len line = sz d + 1 -> exists Q, op line = Ok (mkCurve p' K Q) /\ len Q = n' + 1 /\
     forall t, in_volume sz S t -> Dom t -> curve_point p' n' K Q (tm (t d)) = curve_point (degree_in d S) (sz d) (knots_in d S) line (t d)) ->
  returns (each_line d (sz DirU) (sz DirV) (sz DirW) (VControlPoints S) op new) (fun r =>
    let S' := with_line d S p' (fst r) (snd r) in
    valid_volume (put d n' sz) S' /\ same_but d S S' /\ degree_in d S' = p' /\ knots_in d S' = K /\
    (forall t, in_volume sz S t -> in_volume (put d n' sz) S' (put d (tm (t d)) t)) /\
    forall t, in_volume sz S t -> Dom t -> volume_point (put d n' sz) S' (put d (tm (t d)) t) = volume_point sz S t).
Proof.
  intros HS Hnew HK H7 Hdom Hop. pose proof (valid_size sz S HS) as H0. pose proof HK as [Hp' Hn' _ _ _ _].
  destruct (each_line_ok d sz (VControlPoints S) op new (n' + 1) (n' + 1) g0 K
     (fun line Q => forall t, in_volume sz S t -> Dom t -> curve_point p' n' K Q (tm (t d)) = curve_point (degree_in d S) (sz d) (knots_in d S) line (t d)))
    as ([K' P'] & E & -> & A & HL); [exact H0|apply HS|exact Hnew| |lia|].
  { intros line Hl. destruct (Hop line Hl) as (Q & EQ & LQ & HQ). exists (mkCurve p' K Q). split; [exact EQ|]. cbn. repeat split; auto. }
  exists (K, P'). split; [exact E|]. cbn [fst snd]. cbv zeta. destruct (with_same d S p' K P') as (E1 & E2 & E3). pose proof (with_but d S p' K P') as HB.
  set (S' := with_line d S p' K P') in *.
  split; [apply valid_with; assumption|]. split; [exact HB|]. split; [exact E1|]. split; [exact E2|]. split.
  - intros t Ht e. destruct (dir_dec e d) as [->|Ne].
    + rewrite E1, E2, !put_same. apply Hdom. exact Ht.
    + destruct (HB e Ne) as (-> & ->). rewrite !put_other by exact Ne. apply Ht.
  - intros t Ht HD. apply (volume_lines d); [exact HB|intros e He; rewrite !put_other by exact He; split; reflexivity|].
    intros a b Ha Hb. destruct (HL a b Ha Hb) as (line & Q & L1 & L2 & L3 & L4 & L5).
    rewrite (basis_curve (put d n' sz) S' _ d _ Q); [|intros i Hi; rewrite put_same in Hi; rewrite E3; apply L4; lia].
    rewrite (basis_curve sz S t d _ line L3). rewrite E1, E2, !put_same. apply L5; assumption.
Qed.

Lemma put_self d (t : VolumeDirection -> R) : forall e, put d (t d) t e = t e.
Proof. intros e. destruct (dir_dec e d) as [->|Ne]; [apply put_same|apply put_other; exact Ne]. Qed.

Lemma volume_point_ext sz (S : Volume R T) t t' : (forall e, t e = t' e) -> volume_point sz S t = volume_point sz S t'.
Proof. intros H. unfold volume_point. cbv zeta. rewrite !H. reflexivity. Qed.
Lemma in_volume_ext sz (S : Volume R T) t t' : (forall e, t e = t' e) -> in_volume sz S t -> in_volume sz S t'.
Proof. intros H Ht e. rewrite <- H. apply Ht. Qed.

(* the op of a curve operation that keeps the parameters *)
Lemma lines_kept d sz (S : Volume R T) (op : list T -> res (Curve R T)) new g0 p' n' K :
  valid_volume sz S -> arrL d new (n' + 1) (sz (outer d) + 1) (sz (inner d) + 1) g0 -> curve_knots p' n' K -> p' <= 7 ->
  (forall t, in_domain (degree_in d S) (sz d) (knots_in d S) t -> in_domain p' n' K t) ->
  (forall line, len line = sz d + 1 -> exists Q, op line = Ok (mkCurve p' K Q) /\ len Q = n' + 1 /\
     forall t, in_domain (degree_in d S) (sz d) (knots_in d S) t -> curve_point p' n' K Q t = curve_point (degree_in d S) (sz d) (knots_in d S) line t) ->
  returns (each_line d (sz DirU) (sz DirV) (sz DirW) (VControlPoints S) op new) (fun r =>
    let S' := with_line d S p' (fst r) (snd r) in
    valid_volume (put d n' sz) S' /\ same_but d S S' /\ degree_in d S' = p' /\ knots_in d S' = K /\
    forall t, in_volume sz S t -> in_volume (put d n' sz) S' t /\ volume_point (put d n' sz) S' t = volume_point sz S t).
Proof.
  intros HS Hnew HK H7 Hdom Hop.
  destruct (lines_replaced d sz S op new g0 p' n' K (fun x => x) (fun _ => True) HS Hnew HK H7 (fun t Ht => Hdom _ (Ht d))) as (r & E & H1 & H2 & H3 & H4 & H5 & H6).
  { intros line Hl. destruct (Hop line Hl) as (Q & EQ & LQ & HQ). exists Q. split; [exact EQ|]. split; [exact LQ|]. intros t Ht _. apply HQ. apply Ht. }
  exists r. split; [exact E|]. cbv zeta in *. do 4 (split; [assumption|]). intros t Ht. split.
  - apply (in_volume_ext _ _ _ _ (put_self d t)). apply H5. exact Ht.
  - rewrite <- (H6 t Ht I). apply volume_point_ext. intros e. symmetry. apply put_self.
Qed.

Lemma net3_sizes r c e r' c' e' (P : list (list (list T))) : net3 r c e P -> net3 r' c' e' P -> 0 < r -> 0 < c -> r = r' /\ c = c' /\ e = e'.
Proof.
  intros [L1 H1] [L2 H2] Hr Hc. destruct (H1 0 ltac:(lia)) as [L3 H3]. destruct (H2 0 ltac:(lia)) as [L4 H4].
  pose proof (H3 0 ltac:(lia)). pose proof (H4 0 ltac:(lia)). lia.
Qed.

Lemma some_line n : 0 <= n -> exists line : list T, len line = n + 1.
Proof. intros H. exists (repeat vzero (Z.to_nat (n + 1))). rewrite len_repeat. lia. Qed.

Ltac start HS := pose proof (valid_size _ _ HS) as H0; pose proof HS as (HK & HP).

Lemma VolumeInsertKnot_full sz (S : Volume R T) d u times : valid_volume sz S -> 1 <= times ->
  (val (knots_in d S) (degree_in d S) < u < val (knots_in d S) (sz d + 1))%R -> (forall y, In y (knots_in d S) -> apart u y) ->
  occ (knots_in d S) u + times <= degree_in d S + 1 ->
  returns (VolumeInsertKnot S u times d) (fun S' =>
    valid_volume (put d (sz d + times) sz) S' /\ same_but d S S' /\ degree_in d S' = degree_in d S /\
    Permutation (knots_in d S') (repeat u (Z.to_nat times) ++ knots_in d S) /\
    (forall x, in_domain (degree_in d S) (sz d) (knots_in d S) x <-> in_domain (degree_in d S) (sz d + times) (knots_in d S') x) /\
    forall t, in_volume sz S t -> in_volume (put d (sz d + times) sz) S' t /\ volume_point (put d (sz d + times) sz) S' t = volume_point sz S t).
Proof.
  intros HS Ht Hu Hap Ho. start HS. pose proof (apart_exact u _ Hap) as Hex. destruct (HK d) as (KU & H7). set (U := knots_in d S) in *. set (p := degree_in d S) in *. set (n := sz d) in *.
  assert (Er : inserted p (Z.of_nat (count_occ Req_EM_T U u)) times = times).
  { unfold inserted. fold (occ U u). destruct (Z.ltb_spec (p + 1) (occ U u + times)); [lia|reflexivity]. }
  assert (Hop : forall line : list T, len line = n + 1 -> exists U' Q, InsertKnot (mkCurve p U line) u times emptyCurve = Ok (times, mkCurve p U' Q) /\
     curve_knots p (n + times) U' /\ len Q = n + times + 1 /\ Permutation U' (repeat u (Z.to_nat times) ++ U) /\
     (forall t, in_domain p n U t <-> in_domain p (n + times) U' t) /\
       (forall t, in_domain p n U t -> curve_point p (n + times) U' Q t = curve_point p n U line t)).
  { intros line Hl. destruct (InsertKnot_preserves p n U line u times emptyCurve KU Hl ltac:(lia) Hu Hex) as (_ & B). cbv zeta in B. rewrite Er in B.
    destruct (B ltac:(lia)) as ([r' c] & E & -> & U' & Q & -> & H). exists U', Q. split; [exact E|exact H]. }
  destruct (some_line n) as (l0 & Hl0); [apply H0|]. destruct (Hop l0 Hl0) as (K & _ & _ & KK & _ & PK & DK & _).
  apply wp_elim. unfold VolumeInsertKnot. fold p U. rewrite (net_size_ok sz) by assumption. cbn [bind]. rewrite extents_ok. apply wp_bind. apply new_net_ok; [exact H0|fold n; pose proof (H0 d); unfold n; lia|].
  intros new Hnew. apply wp_bind.
  destruct (lines_kept d sz S (fun line => let! c := InsertKnot (mkCurve p U line) u times emptyCurve in Ok (snd c)) new _ p (n + times) K HS Hnew KK H7 (fun t => proj1 (DK t)))
    as (r & E & H1 & H2 & H3 & H4 & H5).
  - intros line Hl. destruct (Hop line Hl) as (K' & Q & E & K1 & LQ & P1 & _ & HQ). assert (K' = K) as ->.
    { apply sorted_perm_eq; [apply (ck_sorted _ _ _ K1)|apply (ck_sorted _ _ _ KK)|]. rewrite P1. symmetry. exact PK. }
    exists Q. split; [rewrite E; reflexivity|]. split; [exact LQ|exact HQ].
  - rewrite E. cbn [wp]. do 3 (split; [assumption|]). rewrite H4. split; [exact PK|]. split; [exact DK|exact H5].
Qed.

Lemma VolumeInsertKnot_ok sz (S : Volume R T) d u times : valid_volume sz S -> 1 <= times ->
  (val (knots_in d S) (degree_in d S) < u < val (knots_in d S) (sz d + 1))%R -> (forall y, In y (knots_in d S) -> apart u y) ->
  occ (knots_in d S) u + times <= degree_in d S + 1 ->
  returns (VolumeInsertKnot S u times d) (fun S' =>
    valid_volume (put d (sz d + times) sz) S' /\ same_but d S S' /\ degree_in d S' = degree_in d S /\
    Permutation (knots_in d S') (repeat u (Z.to_nat times) ++ knots_in d S) /\
    (forall t, in_volume sz S t <-> in_volume (put d (sz d + times) sz) S' t) /\
    forall t, in_volume sz S t -> volume_point (put d (sz d + times) sz) S' t = volume_point sz S t).
Proof.
  intros HS Ht Hu Hap Ho. destruct (VolumeInsertKnot_full sz S d u times HS Ht Hu Hap Ho) as (S' & E & H1 & H2 & H3 & H4 & H5 & H6). exists S'. split; [exact E|]. do 4 (split; [assumption|]). split.
  - intros t. split; [intros G; apply H6; exact G|]. intros G e. specialize (G e). destruct (dir_dec e d) as [->|Ne].
    + rewrite put_same, H3 in G. apply H5. exact G.
    + destruct (H2 e Ne) as (E1 & E2). rewrite put_other, E1, E2 in G by exact Ne. exact G.
  - intros t G. apply H6. exact G.
Qed.

(* more knots than fit: too few are inserted for the net that was made *)
Lemma VolumeInsertKnot_over sz (S : Volume R T) d u times : valid_volume sz S -> 1 <= times ->
  (val (knots_in d S) (degree_in d S) < u < val (knots_in d S) (sz d + 1))%R -> (forall y, In y (knots_in d S) -> apart u y) ->
  degree_in d S + 1 < occ (knots_in d S) u + times ->
  returns (VolumeInsertKnot S u times d) (fun S' => forall sz', ~ valid_volume sz' S').
Proof.
  intros HS Ht Hu Hap Ho. start HS. pose proof (apart_exact u _ Hap) as Hex. destruct (HK d) as (KU & H7). set (U := knots_in d S) in *. set (p := degree_in d S) in *. set (n := sz d) in *.
  pose proof (H0 d) as Hn0. fold n in Hn0. pose proof KU as [Hp Hn HlU _ _ _].
  set (r := p - 1 - occ U u).
  assert (Er : inserted p (Z.of_nat (count_occ Req_EM_T U u)) times = r).
  { unfold inserted. fold (occ U u). destruct (Z.ltb_spec (p + 1) (occ U u + times)); [reflexivity|lia]. }
  set (e := if 0 <? r then n + r + 1 else 0).
  assert (Hop : exists K, len K <> n + times + p + 2 /\ forall line : list T, len line = n + 1 -> exists c r', InsertKnot (mkCurve p U line) u times emptyCurve = Ok (r', c) /\
     KnotVector c = K /\ len (ControlPoints c) = e /\ True).
  { unfold e. destruct (Z.ltb_spec 0 r) as [C|C].
    - destruct (some_line n Hn0) as (l0 & Hl0).
      assert (G : forall line : list T, len line = n + 1 -> exists U' Q, InsertKnot (mkCurve p U line) u times emptyCurve = Ok (r, mkCurve p U' Q) /\
         curve_knots p (n + r) U' /\ len Q = n + r + 1 /\ Permutation U' (repeat u (Z.to_nat r) ++ U)).
      { intros line Hl. destruct (InsertKnot_preserves p n U line u times emptyCurve KU Hl ltac:(lia) Hu Hex) as (_ & B). cbv zeta in B. rewrite Er in B.
        destruct (B ltac:(lia)) as ([r' c] & E & -> & U' & Q & -> & H1 & H2 & H3 & _). exists U', Q. do 3 (split; [assumption|]). assumption. }
      destruct (G l0 Hl0) as (K & Q0 & _ & KK & _ & PK). exists K. split.
      + rewrite (ck_len _ _ _ KK). unfold r in *. pose proof (Zle_0_nat (count_occ Req_EM_T U u)). unfold occ in *. lia.
      + intros line Hl. destruct (G line Hl) as (K' & Q & E & K1 & LQ & P1). assert (K' = K) as ->.
        { apply sorted_perm_eq; [apply (ck_sorted _ _ _ K1)|apply (ck_sorted _ _ _ KK)|]. rewrite P1. symmetry. exact PK. }
        exists (mkCurve p K Q), r. repeat split; assumption.
    - exists []. split; [change (len (@nil R)) with 0; lia|]. intros line Hl.
      destruct (InsertKnot_preserves p n U line u times emptyCurve KU Hl ltac:(lia) Hu Hex) as (B & _). cbv zeta in B. rewrite Er in B.
      exists emptyCurve, 0. repeat split. apply B. exact C. }
  destruct Hop as (K & HK' & Hop).
  apply wp_elim. unfold VolumeInsertKnot. fold p U. rewrite (net_size_ok sz) by assumption. cbn [bind]. rewrite extents_ok. apply wp_bind. apply new_net_ok; [exact H0|fold n; lia|].
  intros new Hnew. apply wp_bind.
  destruct (each_line_ok d sz (VControlPoints S) (fun line => let! c := InsertKnot (mkCurve p U line) u times emptyCurve in Ok (snd c)) new (n + times + 1) e _ K (fun _ _ => True) H0 HP Hnew)
    as ([K' P'] & E & -> & A & _).
  - intros line Hl. destruct (Hop line Hl) as (c & r' & Ec & H). exists c. split; [rewrite Ec; reflexivity|exact H].
  - unfold e. pose proof (Zle_0_nat (count_occ Req_EM_T U u)). unfold r, occ in *. destruct (Z.ltb_spec 0 (p - 1 - Z.of_nat (count_occ Req_EM_T U u))); lia.
  - rewrite E. cbn [wp fst snd]. intros sz' (HK2 & HP2). destruct (with_same d S p K P') as (E1 & E2 & E3). destruct (HK2 d) as (KU2 & _). rewrite E1, E2 in KU2.
    apply HK'. rewrite (ck_len _ _ _ KU2). rewrite E3 in HP2.
    assert (N : net3 (put d (n + times) sz DirU + 1) (put d (n + times) sz DirV + 1) (put d (n + times) sz DirW + 1) P').
    { apply (net_of_arrL d (put d (n + times) sz) P' (cell d P')). rewrite put_same, !put_other by (apply outer_ne || apply inner_ne). exact A. }
    assert (G : forall e, 0 <= put d (n + times) sz e) by (intros e'; destruct (dir_dec e' d) as [->|Ne]; [rewrite put_same; lia|rewrite put_other by exact Ne; apply H0]).
    destruct (net3_sizes _ _ _ _ _ _ _ N HP2) as (S1 & S2 & S3); [pose proof (G DirU); lia|pose proof (G DirV); lia|].
    assert (sz' d = n + times); [|lia]. pose proof (put_same d (n + times) sz) as Ed. destruct d; lia.
Qed.

Lemma VolumeElevateDegree_ok sz (S : Volume R T) d times : valid_volume sz S -> 1 <= degree_in d S -> 1 <= times -> degree_in d S + times <= 7 ->
  clamped_knots (degree_in d S) (sz d) (knots_in d S) -> (forall x y, In x (knots_in d S) -> In y (knots_in d S) -> apart x y) ->
  (forall i, degree_in d S <= i <= sz d -> (val (knots_in d S) i < val (knots_in d S) (i + 1))%R) ->
  let sz' := put d (sz d + (sz d - degree_in d S + 1) * times) sz in
  returns (VolumeElevateDegree S times d) (fun S' =>
    valid_volume sz' S' /\ same_but d S S' /\ degree_in d S' = degree_in d S + times /\
    (forall x, In x (knots_in d S') <-> In x (knots_in d S)) /\ (forall x, In x (knots_in d S) -> occ (knots_in d S') x = occ (knots_in d S) x + times) /\
    forall t, in_volume sz S t -> in_volume sz' S' t /\ volume_point sz' S' t = volume_point sz S t).
Proof.
  intros HS Hp1 Ht H77 Hcl Hap Hsim sz'. start HS. destruct (HK d) as (KU & H7). set (U := knots_in d S) in *. set (p := degree_in d S) in *. set (n := sz d) in *.
  set (n' := n + (n - p + 1) * times) in *. pose proof KU as [Hp Hn HlU _ _ _]. assert (Hn' : n <= n') by (unfold n'; nia).
  assert (Hop : forall line : list T, len line = n + 1 -> exists U' Q, ElevateDegree (mkCurve p U line) times = Ok (mkCurve (p + times) U' Q) /\
     curve_knots (p + times) n' U' /\ len Q = n' + 1 /\ clamped_knots (p + times) n' U' /\ (forall x, In x U' <-> In x U) /\ (forall x, In x U -> occ U' x = occ U x + times) /\
    forall s, in_domain p n U s -> curve_point (p + times) n' U' Q s = curve_point p n U line s).
  { intros line Hl. destruct (ElevateDegree_full p n U line times KU Hl Hcl Hap Hp1 Ht Hsim) as (c & E & n1 & U' & Q & -> & -> & H). exists U', Q. split; [exact E|exact H]. }
  destruct (some_line n) as (l0 & Hl0); [apply H0|]. destruct (Hop l0 Hl0) as (K & _ & _ & KK & _ & CK & IK & OK & _).
  assert (DK : forall t, in_domain p n U t -> in_domain (p + times) n' K t).
  { assert (E0 : val K (p + times) = val U p /\ val K (n' + 1) = val U (n + 1)).
    { destruct CK as (C1 & C2), Hcl as (C3 & C4). pose proof (ck_sorted _ _ _ KK) as SK. pose proof (ck_sorted _ _ _ KU) as SU. pose proof (ck_len _ _ _ KK) as LK. rewrite <- C1, C2, <- C3, C4.
      split; apply Rle_antisym.
      - assert (G : In (val U 0) K) by (apply IK; apply val_In; lia). destruct (In_val _ _ G) as (i & Hi & <-). apply SK; lia.
      - assert (G : In (val K 0) U) by (apply IK; apply val_In; lia). destruct (In_val _ _ G) as (i & Hi & <-). apply SU; lia.
      - assert (G : In (val K (n' + (p + times) + 1)) U) by (apply IK; apply val_In; lia). destruct (In_val _ _ G) as (i & Hi & <-). apply SU; lia.
      - assert (G : In (val U (n + p + 1)) K) by (apply IK; apply val_In; lia). destruct (In_val _ _ G) as (i & Hi & <-). apply SK; lia. }
    destruct E0 as (E1 & E2). intros t. unfold in_domain. rewrite E1, E2. tauto. }
  apply wp_elim. unfold VolumeElevateDegree. fold p U. rewrite (net_size_ok sz) by assumption. cbn [bind]. rewrite extents_ok. fold n.
  replace (n + (len U - (p + 1) - (p + 1) + 1) * times) with n' by (unfold n'; rewrite HlU; f_equal; ring).
  apply wp_bind. apply new_net_ok; [exact H0|pose proof (H0 d); unfold n in *; lia|].
  intros new Hnew. apply wp_bind.
  destruct (lines_kept d sz S (fun line => ElevateDegree (mkCurve p U line) times) new _ (p + times) n' K HS Hnew KK H77 DK)
    as (r & E & H1 & H2 & H3 & H4 & H5).
  - intros line Hl. destruct (Hop line Hl) as (K' & Q & E & K1 & LQ & C1 & I1 & O1 & HQ). assert (K' = K) as ->.
    { apply sorted_perm_eq; [apply (ck_sorted _ _ _ K1)|apply (ck_sorted _ _ _ KK)|]. apply (Permutation_count_occ Req_EM_T). intros x. apply Nat2Z.inj.
      destruct (in_dec Req_EM_T x U) as [Hx|Hx]; [exact (eq_trans (O1 x Hx) (eq_sym (OK x Hx)))|].
      rewrite (proj1 (count_occ_not_In Req_EM_T K' x)), (proj1 (count_occ_not_In Req_EM_T K x)); [reflexivity| |]; rewrite ?IK, ?I1; exact Hx. }
    exists Q. split; [exact E|]. split; [exact LQ|exact HQ].
  - rewrite E. cbn [wp]. do 3 (split; [assumption|]). rewrite H4. split; [exact IK|]. split; [exact OK|exact H5].
Qed.

Lemma VolumeReverse_ok sz (S : Volume R T) : valid_volume sz S -> wide_ends (VDegreeU S) (sz DirU) (VKnotsU S) ->
  returns (VolumeReverse S DirU) (fun S' => valid_volume sz S' /\ same_but DirU S S' /\ VDegreeU S' = VDegreeU S /\
    (forall i, 0 <= i < len (VKnotsU S) -> val (VKnotsU S') i = mirrored (VKnotsU S) (val (VKnotsU S) (len (VKnotsU S) - 1 - i))) /\
    forall t, in_volume sz S t -> in_volume sz S' (put DirU (mirrored (VKnotsU S) (t DirU)) t) /\
      (occ (VKnotsU S) (t DirU) <= VDegreeU S \/ t DirU = val (VKnotsU S) (VDegreeU S) \/ t DirU = val (VKnotsU S) (sz DirU + 1) ->
       volume_point sz S' (put DirU (mirrored (VKnotsU S) (t DirU)) t) = volume_point sz S t)).
Proof.
  intros HS Hw. start HS. destruct (HK DirU) as (KU & H7). cbn [degree_in knots_in] in *. set (U := VKnotsU S) in *. set (p := VDegreeU S) in *. set (n := sz DirU) in *.
  pose proof KU as [Hp Hn HlU _ _ _].
  assert (Em : forall x, mirrored U x = (val U 0 + val U (n + p + 1) - x)%R) by (intros x; unfold mirrored; rewrite HlU; do 3 f_equal; lia).
  assert (Hop : forall line : list T, len line = n + 1 -> exists W Q, Reverse (mkCurve p U line) = Ok (mkCurve p W Q) /\ curve_knots p n W /\ len Q = n + 1 /\
    (forall i, 0 <= i <= n + p + 1 -> val W i = (val U 0 + val U (n + p + 1) - val U (n + p + 1 - i))%R) /\
    (forall t, in_domain p n U t -> Z.of_nat (count_occ Req_EM_T U t) <= p \/ t = val U p \/ t = val U (n + 1) ->
       GetPointOnCurve (mkCurve p W Q) (val U 0 + val U (n + p + 1) - t)%R = GetPointOnCurve (mkCurve p U line) t)).
  { intros line Hl. destruct (Reverse_ok p n U line KU Hw H7 Hl) as (c & E & W & Q & -> & H1 & H2 & _ & H3 & H4). exists W, Q. split; [exact E|]. do 3 (split; [assumption|]). exact H4. }
  destruct (some_line n) as (l0 & Hl0); [apply H0|]. destruct (Hop l0 Hl0) as (K & _ & _ & KK & _ & EK & _).
  assert (DK : forall t, in_domain p n U t -> in_domain p n K (mirrored U t)).
  { intros t (D1 & D2). unfold in_domain. rewrite Em, !EK by lia. replace (n + p + 1 - p) with (n + 1) by lia. replace (n + p + 1 - (n + 1)) with p by lia. lra. }
  apply wp_elim. unfold VolumeReverse. cbn [degree_in knots_in]. fold p U. rewrite (net_size_ok sz) by assumption. cbn [bind]. apply wp_bind. apply new_net_ok; [exact H0|pose proof (H0 DirU); lia|].
  intros new Hnew. apply wp_bind.
  destruct (lines_replaced DirU sz S (fun line => Reverse (mkCurve p U line)) new _ p n K (mirrored U)
     (fun t => occ U (t DirU) <= p \/ t DirU = val U p \/ t DirU = val U (n + 1)) HS Hnew KK H7 (fun t Ht => DK _ (Ht DirU)))
    as (r & E & H1 & H2 & H3 & H4 & H5 & H6).
  - intros line Hl. destruct (Hop line Hl) as (K' & Q & E & K1 & LQ & EK1 & HQ). assert (K' = K) as ->.
    { assert (A1 : arr K (n + p + 2) (val K)) by (rewrite <- (ck_len _ _ _ KK); apply arr_at).
      assert (A2 : arr K' (n + p + 2) (val K')) by (rewrite <- (ck_len _ _ _ K1); apply arr_at).
      eapply (arr_inj _ _ (n + p + 2) (val K)); [|exact A1]. eapply arr_ext; [exact A2|]. intros i Hi. cbv beta. rewrite EK, EK1 by lia. reflexivity. }
    exists Q. split; [exact E|]. split; [exact LQ|]. intros t Ht HD. specialize (HQ (t DirU) (Ht DirU) HD). rewrite <- Em in HQ.
    rewrite (GetPointOnCurve_ok p n U line) in HQ by (auto; apply (Ht DirU)). rewrite (GetPointOnCurve_ok p n K Q) in HQ by (auto; apply DK; apply (Ht DirU)). injection HQ as HQ. exact HQ.
  - rewrite E. cbn [wp]. set (S' := with_line DirU S p (fst r) (snd r)) in *.
    assert (Es : forall e, put DirU n sz e = sz e) by (intros e; destruct (dir_dec e DirU) as [->|Ne]; [reflexivity|apply put_other; exact Ne]).
    assert (Ev : forall X, volume_point (put DirU n sz) S' X = volume_point sz S' X) by (intros X; unfold volume_point; cbv zeta; rewrite !Es; reflexivity).
    split.
    { destruct H1 as (G1 & G2). split; [intros e; specialize (G1 e); rewrite Es in G1; exact G1|rewrite !Es in G2; exact G2]. }
    split; [exact H2|]. split; [exact H3|]. cbn [knots_in] in H4. rewrite H4. split.
    { intros i Hi. rewrite HlU in *. rewrite Em, EK by lia. do 2 f_equal. lia. }
    intros t Ht. split; [|intros HD; rewrite <- Ev; apply H6; assumption].
    intros e. specialize (H5 t Ht e). rewrite Es in H5. exact H5.
Qed.

(* the curve of the first line cannot be written *)
Lemma each_line_fails d sz (P : list (list (list T))) (op : list T -> res (Curve R T)) new e : (forall d, 0 <= sz d) -> net3 (sz DirU + 1) (sz DirV + 1) (sz DirW + 1) P ->
  (forall line, len line = sz d + 1 -> exists c, op line = Ok c /\
     for_up 0 (len (ControlPoints c)) new (fun i new => let! x := get (ControlPoints c) i in line_upd d new i 0 0 x) = Err e) ->
  each_line d (sz DirU) (sz DirV) (sz DirW) P op new = Err e.
Proof.
  intros H0 HP Hop. apply (net_along_iff d) in HP. pose proof (H0 d) as Hd. pose proof (H0 (outer d)) as Ho. pose proof (H0 (inner d)) as Hi.
  unfold each_line. rewrite extents_ok. apply iter_first; [lia|]. apply iter_first; [lia|].
  assert (F : wp (let! line := mkvec (sz d + 1) vzero in for_up 0 (sz d + 1) line (fun i line => let! x := line_get d P i 0 0 in upd line i x)) (fun line => len line = sz d + 1)).
  { apply wp_bind. apply wp_mkvec; [lia|]. intros l0 Hl0. apply (wp_fill_all (sz d + 1) (fun i => cell d P i 0 0)); [lia|apply Hl0| |].
    - intros i v Hi0 _. rewrite (arrL_get _ _ _ _ _ _ i 0 0 HP) by lia. reflexivity.
    - intros line Hline. apply Hline. }
  destruct (wp_elim _ _ F) as (line & El & Ll). rewrite <- bind_assoc. rewrite El. cbn [bind]. destruct (Hop line Ll) as (c & -> & Ec). cbn [bind]. rewrite Ec. reflexivity.
Qed.

Lemma arrL_over d P c o n (g : Z -> Z -> Z -> T) x : arrL d P c o n g -> 0 < c -> 0 < o -> 0 < n -> line_upd d P c 0 0 x = UB.
Proof.
  assert (Gu : forall X (l : list X), get l (len l) = UB).
  { intros X l. unfold get. pose proof (len_nonneg l). destruct (Z.ltb_spec (len l) 0); [lia|]. rewrite (proj2 (nth_error_None _ _)); [reflexivity|]. unfold len. lia. }
  intros H Hc Ho Hn. destruct d; cbn in *.
  - destruct H as [Hl _]. unfold upd3. rewrite <- Hl at 1. rewrite Gu. reflexivity.
  - destruct H as [Hl H]. destruct (H 0 ltac:(lia)) as (p & E & Hp & _). unfold upd3. rewrite E. cbn [bind]. unfold upd2. rewrite <- Hp. rewrite Gu. reflexivity.
  - destruct H as [Hl H]. destruct (H 0 ltac:(lia)) as (p & E & Hp & Hq). unfold upd3. rewrite E. cbn [bind]. unfold upd2. destruct (Hq 0 ltac:(lia)) as (r & Er & Hr & _). rewrite Er. cbn [bind].
    unfold upd. rewrite <- Hr. rewrite Z.ltb_irrefl, andb_false_r. reflexivity.
Qed.

Lemma VolumeRefineKnotVector_ub sz (S : Volume R T) d X : valid_volume sz S -> refinable (degree_in d S) (sz d) (knots_in d S) X ->
  VolumeRefineKnotVector S X d = UB.
Proof.
  intros HS (HX & HsX & Hin & Hsep). start HS. destruct (HK d) as (KU & H7). pose proof (H0 d). pose proof (H0 (outer d)). pose proof (H0 (inner d)).
  unfold VolumeRefineKnotVector. rewrite (net_size_ok sz) by assumption. cbn [bind]. rewrite extents_ok. replace (sz d + (len X - 1) + 1) with (sz d + len X) by lia.
  destruct (wp_elim _ _ (new_net_ok d sz (sz d + len X) (fun P => arrL d P (sz d + len X) (sz (outer d) + 1) (sz (inner d) + 1) (fun _ _ _ => vzero)) H0 ltac:(lia) (fun P HP => HP))) as (new & -> & Hnew). cbn [bind].
  rewrite (each_line_fails d sz _ _ new EUB H0 HP); [reflexivity|]. intros line Hl.
  destruct (RefineKnotVector_preserves (degree_in d S) (sz d) (knots_in d S) line X KU Hl HX HsX Hin Hsep) as (c & E & U' & Q & -> & _ & LQ & _).
  eexists. split; [exact E|]. cbn [ControlPoints]. rewrite LQ. pose proof (arr_pt Q _ LQ) as AQ.
  apply (for_up_fail _ 0 (sz d + len X) _ _ _ (fun N => exists g, arrL d N (sz d + len X) (sz (outer d) + 1) (sz (inner d) + 1) g)); [lia| |].
  - apply wp_for_up with (P := fun _ N => exists g, arrL d N (sz d + len X) (sz (outer d) + 1) (sz (inner d) + 1) g); [lia|eexists; exact Hnew| |auto].
    intros i N Hi (g & Hg). wget AQ. apply (arrL_upd _ _ _ _ _ _ i 0 0 _ _ Hg); [lia|lia|lia|]. intros N' HN'. eexists. exact HN'.
  - intros N (g & Hg). rewrite (arr_get _ _ _ _ AQ) by lia. cbn [bind]. apply (arrL_over _ _ _ _ _ _ _ Hg); lia.
Qed.

Lemma VolumeReverse_ub sz (S : Volume R T) d : valid_volume sz S -> d <> DirU -> VolumeReverse S d = UB.
Proof.
  intros HS Hd. start HS. destruct (HK d) as (KU & H7). pose proof (H0 d).
  unfold VolumeReverse. rewrite (net_size_ok sz) by assumption. cbn [bind].
  assert (E0 : match d with DirU => new_net d (sz DirU) (sz DirV) (sz DirW) (sz DirU + 1) | _ => Ok [] end = Ok (@nil (list (list T)))) by (destruct d; congruence).
  rewrite E0. cbn [bind]. rewrite (each_line_fails d sz _ _ [] EUB H0 HP); [reflexivity|]. intros line Hl.
  destruct (Reverse_arr (degree_in d S) (sz d) (knots_in d S) line KU) as (W & E & _). eexists. split; [exact E|]. cbn [ControlPoints].
  assert (LQ : len (rev line) = sz d + 1) by (unfold len; rewrite rev_length; exact Hl). rewrite LQ. pose proof (arr_pt (rev line) _ LQ) as AQ.
  apply iter_first; [lia|]. rewrite (arr_get _ _ _ _ AQ) by lia. cbn [bind]. destruct d; reflexivity.
Qed.
End V2.
