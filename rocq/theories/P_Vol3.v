(* Volumes: splitting, extraction of sections, exchanging directions. *)
From Coq Require Import ZArith List Bool Reals Lra Lia Permutation.
From Verif Require Import Base Num Vec Tac Spec Spec2 Spec4 Spec11 M_MathUtils M_Polynomials M_XYZ M_Bspline M_NurbsCurve M_Knots M_Curve2 M_Surface M_Volume
  P_MathUtils P_Span P_Cox P_Basis P_VSum P_Curve P_Bspline P_BsplineS P_Loop P_Insert P_Insert2 P_Refine P_Reverse P_Surface P_Split P_Vol1 P_Vol2.
Import ListNotations.
Open Scope Z_scope.

Lemma slice_ok {X} (l : list X) lo hi : 0 <= lo <= hi -> hi <= len l ->
  exists r, slice l lo hi = Ok r /\ len r = hi - lo /\ forall i, 0 <= i < hi - lo -> get r i = get l (lo + i).
Proof.
  intros H1 H2. unfold slice. destruct (Z.leb_spec 0 lo); [|lia]. destruct (Z.leb_spec lo hi); [|lia]. destruct (Z.leb_spec hi (len l)); [|lia]. cbn [andb].
  eexists. split; [reflexivity|]. unfold len in *. rewrite firstn_length, skipn_length. split; [lia|]. intros i Hi. unfold get. destruct (Z.ltb_spec i 0); [lia|]. destruct (Z.ltb_spec (lo + i) 0); [lia|].
  assert (E : nth_error (firstn (Z.to_nat (hi - lo)) (skipn (Z.to_nat lo) l)) (Z.to_nat i) = nth_error l (Z.to_nat (lo + i))).
  { assert (Ef : forall (k m : nat) (L : list X), (k < m)%nat -> nth_error (firstn m L) k = nth_error L k).
    { clear. induction k as [|k IH]; intros [|m] [|x L] H; try lia; try reflexivity. cbn. apply IH. lia. }
    rewrite Ef by lia. rewrite Z2Nat.inj_add by lia. generalize (Z.to_nat lo) as a. clear. intros a. revert l. induction a as [|a IH]; intros l; [reflexivity|].
    destruct l as [|x l]; [cbn; destruct (Z.to_nat i); reflexivity|]. cbn. apply IH. }
  rewrite E. reflexivity.
Qed.

Lemma map_res_ok {X Y} (f : X -> res Y) (Q : Z -> Y -> Prop) l : forall N g, arr l N g -> (forall i, 0 <= i < N -> exists y, f (g i) = Ok y /\ Q i y) ->
  exists r, map_res f l = Ok r /\ len r = N /\ forall i, 0 <= i < N -> exists y, get r i = Ok y /\ Q i y.
Proof.
  revert Q. induction l as [|x l IH]; intros Q N g A H.
  - exists []. split; [reflexivity|]. pose proof (arr_len _ _ _ A) as E. change (len (@nil X)) with 0 in E. split; [exact E|]. intros; lia.
  - pose proof (arr_len _ _ _ A) as E. assert (El : len (x :: l) = len l + 1) by (unfold len; cbn [length]; lia). pose proof (len_nonneg l).
    assert (Ex : g 0 = x). { pose proof (arr_get _ _ _ 0 A ltac:(lia)) as G. cbn in G. injection G as <-. reflexivity. }
    assert (Gs : forall i, 0 <= i -> get (x :: l) (i + 1) = get l i).
    { intros i Hi. unfold get. destruct (Z.ltb_spec (i + 1) 0); [lia|]. destruct (Z.ltb_spec i 0); [lia|]. replace (Z.to_nat (i + 1)) with (Datatypes.S (Z.to_nat i)) by lia. reflexivity. }
    destruct (H 0 ltac:(lia)) as (y & Ey & Qy). rewrite Ex in Ey.
    destruct (IH (fun i => Q (i + 1)) (N - 1) (fun i => g (i + 1))) as (r & Er & Lr & Hr).
    + split; [lia|]. intros i Hi. rewrite <- Gs by lia. apply (arr_get _ _ _ _ A). lia.
    + intros i Hi. apply H. lia.
    + exists (y :: r). cbn [map_res]. rewrite Ey. cbn [bind]. rewrite Er. split; [reflexivity|]. assert (Lr' : len (y :: r) = len r + 1) by (unfold len; cbn [length]; lia). split; [lia|].
      intros i Hi. destruct (Z.eq_dec i 0) as [->|Ni]; [exists y; split; [reflexivity|exact Qy]|]. destruct (Hr (i - 1) ltac:(lia)) as (z & Ez & Qz).
      exists z. split; [|replace (i - 1 + 1) with i in Qz by lia; exact Qz]. revert Ez. unfold get. destruct (Z.ltb_spec (i - 1) 0); [lia|]. destruct (Z.ltb_spec i 0); [lia|].
      replace (Z.to_nat i) with (Datatypes.S (Z.to_nat (i - 1))) by lia. auto.
Qed.

(* (to_hi hi N): where a slice of N elements ends *)
Definition to_hi (hi : option Z) (N : Z) : Z := match hi with Some h => h | None => N end.

Lemma slice_arr2 {X} (p : list (list X)) c o g lo hi : arr2 p c o g -> 0 <= lo <= hi -> hi <= c ->
  exists p', slice p lo hi = Ok p' /\ arr2 p' (hi - lo) o (fun i => g (lo + i)).
Proof.
  intros [Hl H] H1 H2. destruct (slice_ok p lo hi H1 ltac:(lia)) as (r & E & Lr & Gr). exists r. split; [exact E|]. split; [exact Lr|].
  intros i Hi. destruct (H (lo + i) ltac:(lia)) as (row & Er & Ar). exists row. split; [rewrite Gr by lia; exact Er|exact Ar].
Qed.

Section V3.
Context {T : Type} {V : Vec R T} {L : VecL T}.

Lemma net_slice_ok d (P : list (list (list T))) c o n g lo hi : arrL d P c o n g -> 0 <= lo <= to_hi hi c -> to_hi hi c <= c ->
  exists P', net_slice d P lo hi = Ok P' /\ arrL d P' (to_hi hi c - lo) o n (fun i a b => g (lo + i) a b).
Proof.
  intros A H1 H2. destruct d; cbn [net_slice arrL] in *.
  - pose proof A as [Hl H]. change (match hi with Some h => h | None => len P end) with (to_hi hi (len P)). rewrite Hl.
    destruct (slice_ok P lo (to_hi hi c) H1 ltac:(lia)) as (r & E & Lr & Gr). exists r. split; [exact E|]. split; [exact Lr|].
    intros i Hi. destruct (H (lo + i) ltac:(lia)) as (p & Ep & Ap). exists p. split; [rewrite Gr by lia; exact Ep|exact Ap].
  - pose proof A as [Hl H]. pose proof (arr_at nil P) as AP. rewrite Hl in AP.
    destruct (map_res_ok (fun plane => slice plane lo (match hi with Some h => h | None => len plane end)) (fun b p' => arr2 p' (to_hi hi c - lo) o (fun i a => g (lo + i) a b)) P n (at_ nil P) AP) as (r & E & Lr & Hr).
    + intros b Hb. destruct (H b Hb) as (p & Ep & Ap). rewrite (get_at nil) in Ep by lia. injection Ep as ->. pose proof Ap as [Lp _].
      change (match hi with Some h => h | None => len p end) with (to_hi hi (len p)). rewrite Lp.
      apply (slice_arr2 _ _ _ _ _ _ Ap H1 H2).
    + exists r. split; [exact E|]. split; [exact Lr|exact Hr].
  - pose proof A as [Hl H]. pose proof (arr_at nil P) as AP. rewrite Hl in AP.
    destruct (map_res_ok (fun plane => map_res (fun row => slice row lo (match hi with Some h => h | None => len row end)) plane)
      (fun b p' => arr2 p' o (to_hi hi c - lo) (fun a i => g (lo + i) a b)) P n (at_ nil P) AP) as (r & E & Lr & Hr).
    + intros b Hb. destruct (H b Hb) as (p & Ep & Ap). rewrite (get_at nil) in Ep by lia. injection Ep as <-. pose proof Ap as [Lp Hp].
      pose proof (arr_at nil (at_ nil P b)) as Aq. rewrite Lp in Aq.
      destruct (map_res_ok (fun row => slice row lo (match hi with Some h => h | None => len row end)) (fun a row' => arr row' (to_hi hi c - lo) (fun i => g (lo + i) a b)) (at_ nil P b) o (at_ nil (at_ nil P b)) Aq) as (r & E & Lr & Hr).
      * intros a Ha. destruct (Hp a Ha) as (row & Er & Ar). rewrite (get_at nil) in Er by lia. injection Er as ->. pose proof (arr_len _ _ _ Ar) as Lrow.
        change (match hi with Some h => h | None => len row end) with (to_hi hi (len row)). rewrite Lrow.
        destruct (slice_ok row lo (to_hi hi c) H1 ltac:(lia)) as (r & E & Lr & Gr). exists r. split; [exact E|]. split; [exact Lr|]. intros i Hi. rewrite Gr by lia. apply (arr_get _ _ _ _ Ar). lia.
      * exists r. split; [exact E|]. split; [exact Lr|exact Hr].
    + exists r. split; [exact E|]. split; [exact Lr|exact Hr].
Qed.

(* the two parts of a curve with a knot of multiplicity p *)
Section Parts.
Context (p n : Z) (W : list R) (u : R) (k : Z).
Hypothesis HW : curve_knots p n W.
Hypothesis Hp1 : 1 <= p.
Hypothesis Hu : (val W p < u < val W (n + 1))%R.
Hypothesis Hap : forall y, In y W -> apart u y.
Hypothesis Ho : occ W u = p.
Hypothesis Hk : span_of p n W u k.

Lemma parts_span : 2 * p <= k /\ k <= n /\ (u < val W (k + 1))%R /\ (forall i, k - p < i <= k -> val W i = u) /\ (forall i, 0 <= i <= k - p -> (val W i < u)%R).
Proof.
  pose proof HW as [_ Hn Hl Hs _ _]. destruct Hk as (K1 & K2 & K3 & K4). assert (K5 : (u < val W (k + 1))%R) by (destruct K4 as [?|[-> ?]]; lra).
  destruct (count_sorted W u k Hs ltac:(lia) K3 K5) as (C1 & C2 & C3). fold (occ W u) in C1, C2, C3. rewrite Ho in C1, C2, C3.
  split; [|split; [lia|split; [exact K5|split; assumption]]].
  destruct (Z.le_gt_cases (2 * p) k) as [C|C]; [exact C|]. specialize (C2 p ltac:(lia)). lra.
Qed.

Lemma left_part X : arr X (k + 2) (fun i => if i =? k + 1 then u else val W i) ->
  curve_knots p (k - p) X /\ val X p = val W p /\ val X (k - p + 1) = u /\
  forall (Q D : list T), (forall i, 0 <= i <= k - p -> pt D i = pt Q i) -> forall t, in_domain p (k - p) X t -> curve_point p (k - p) X D t = curve_point p n W Q t.
Proof.
  intros AX. destruct parts_span as (S1 & S2 & S3 & S4 & S5). pose proof HW as [_ Hn Hl Hs W1 W2].
  assert (EX : forall i, 0 <= i <= k -> val X i = val W i) by (intros i Hi; rewrite (arr_val _ _ _ i AX) by lia; destruct (Z.eqb_spec i (k + 1)); [lia|reflexivity]).
  assert (Ee : val X (k + 1) = u) by (rewrite (arr_val _ _ _ _ AX) by lia; rewrite Z.eqb_refl; reflexivity).
  assert (KX : curve_knots p (k - p) X).
  { split; try lia.
    - rewrite (arr_len _ _ _ AX). lia.
    - intros i j Hi Hij Hj. rewrite (arr_len _ _ _ AX) in Hj. destruct (Z.eq_dec j (k + 1)) as [->|Nj].
      + rewrite Ee. destruct (Z.eq_dec i (k + 1)) as [->|Ni]; [rewrite Ee; lra|]. rewrite EX by lia. rewrite <- (S4 k) by lia. apply Hs; lia.
      + rewrite !EX by lia. apply Hs; lia.
    - rewrite !EX by lia. exact W1.
    - rewrite !EX by lia. rewrite (S4 (k - p + 1)) by lia. apply apart_lt; [apply apart_sym; apply Hap; apply val_In; lia|apply S5; lia]. }
  split; [exact KX|]. split; [apply EX; lia|]. split; [rewrite EX by lia; apply S4; lia|].
  intros Q D HD t Ht. apply (piece_point p n W Q n W Q 0 (k - p) X D); auto; try lia.
  - intros i Hi. rewrite EX by lia. f_equal.
  - apply refines_refl. exact HW.
  - destruct Ht as (_ & Ht). rewrite EX in * by lia. rewrite (S4 (k - p + 1)) in * by lia. destruct (Req_EM_T t u) as [->|Ne]; [right; left; lia|left; lra].
Qed.

Lemma right_part X : arr X (n - k + p + p + 2) (fun i => if i =? 0 then u else val W (k - p + i)) ->
  curve_knots p (n - k + p) X /\ val X p = u /\ val X (n - k + p + 1) = val W (n + 1) /\
  forall (Q D : list T), (forall i, 0 <= i <= n - k + p -> pt D i = pt Q (k - p + i)) -> forall t, in_domain p (n - k + p) X t -> curve_point p (n - k + p) X D t = curve_point p n W Q t.
Proof.
  intros AX. destruct parts_span as (S1 & S2 & S3 & S4 & S5). pose proof HW as [_ Hn Hl Hs W1 W2].
  assert (EX : forall i, 1 <= i <= n - k + p + p + 1 -> val X i = val W (k - p + i)) by (intros i Hi; rewrite (arr_val _ _ _ i AX) by lia; destruct (Z.eqb_spec i 0); [lia|reflexivity]).
  assert (Ee : val X 0 = u) by (rewrite (arr_val _ _ _ _ AX) by lia; reflexivity).
  assert (El : val X (n - k + p + 1) = val W (n + 1)) by (rewrite EX by lia; f_equal; lia).
  assert (KX : curve_knots p (n - k + p) X).
  { split; try lia.
    - rewrite (arr_len _ _ _ AX). lia.
    - intros i j Hi Hij Hj. rewrite (arr_len _ _ _ AX) in Hj. destruct (Z.eq_dec i 0) as [->|Ni].
      + rewrite Ee. destruct (Z.eq_dec j 0) as [->|Nj]; [rewrite Ee; lra|]. rewrite EX by lia. rewrite <- (S4 (k - p + 1)) by lia. apply Hs; lia.
      + rewrite !EX by lia. apply Hs; lia.
    - rewrite !EX by lia. replace (k - p + p) with k by lia. replace (k - p + (p + 1)) with (k + 1) by lia. rewrite (S4 k) by lia.
      apply apart_lt; [apply Hap; apply val_In; lia|exact S3].
    - rewrite !EX by lia. replace (k - p + (n - k + p)) with n by lia. replace (k - p + (n - k + p + 1)) with (n + 1) by lia. exact W2. }
  split; [exact KX|]. split; [rewrite EX by lia; apply S4; lia|]. split; [exact El|].
  intros Q D HD t Ht. apply (piece_point p n W Q n W Q (k - p) (n - k + p) X D); auto; try lia.
  - intros i Hi. rewrite EX by lia. reflexivity.
  - apply refines_refl. exact HW.
  - destruct Ht as (_ & Ht). rewrite El in *. destruct (Req_EM_T t (val W (n + 1))) as [->|Ne]; [auto|left; lra].
Qed.
End Parts.

(* a volume whose lines along d are stretches of the lines of another *)
Lemma part_volume d sz (S : Volume R T) n' X P' lo : valid_volume sz S -> 0 <= lo -> lo + n' <= sz d -> curve_knots (degree_in d S) n' X ->
  arrL d P' (n' + 1) (sz (outer d) + 1) (sz (inner d) + 1) (fun i a b => cell d (VControlPoints S) (lo + i) a b) ->
  (forall (Q D : list T), (forall i, 0 <= i <= n' -> pt D i = pt Q (lo + i)) -> forall t, in_domain (degree_in d S) n' X t ->
     curve_point (degree_in d S) n' X D t = curve_point (degree_in d S) (sz d) (knots_in d S) Q t) ->
  let S' := with_line d S (degree_in d S) X P' in
  valid_volume (put d n' sz) S' /\ forall t, in_volume (put d n' sz) S' t -> volume_point (put d n' sz) S' t = volume_point sz S t.
Proof.
  intros HS Hlo Hhi KX A HQ S'. pose proof HS as (HK & HP). destruct (HK d) as (KU & H7). destruct (with_same d S (degree_in d S) X P') as (E1 & E2 & E3). pose proof KX as [Hp Hn _ _ _ _].
  fold S' in E1, E2, E3. pose proof (with_but d S (degree_in d S) X P') as HB. fold S' in HB.
  assert (EC : forall i a b, 0 <= i <= n' -> 0 <= a <= sz (outer d) -> 0 <= b <= sz (inner d) -> cell d P' i a b = cell d (VControlPoints S) (lo + i) a b).
  { intros i a b Hi Ha Hb. apply (cell_arrL _ _ _ _ _ _ _ _ _ A); lia. }
  split.
  - apply valid_with; auto. eapply arrL_ext; [exact A|]. intros i a b Hi Ha Hb. cbv beta. symmetry. apply EC; lia.
  - intros t Ht. apply (volume_lines d); [exact HB|intros e He; rewrite put_other by exact He; split; reflexivity|]. intros a b Ha Hb.
    pose proof (arr_mklist (sz d + 1) (fun i => cell d (VControlPoints S) i a b) ltac:(lia)) as A1.
    pose proof (arr_mklist (n' + 1) (fun i => cell d (VControlPoints S) (lo + i) a b) ltac:(lia)) as A2.
    set (Q := mklist (sz d + 1) _) in *. set (D := mklist (n' + 1) _) in *.
    rewrite (basis_curve (put d n' sz) S' t d _ D); [|intros i Hi; rewrite put_same in Hi; rewrite E3, EC by lia; apply (arr_pt_eq _ _ _ _ A2); lia].
    rewrite (basis_curve sz S t d _ Q); [|intros i Hi; apply (arr_pt_eq _ _ _ _ A1); lia].
    specialize (Ht d). rewrite put_same, E1, E2 in *. apply HQ; [|exact Ht]. intros i Hi. rewrite (arr_pt_eq _ _ _ _ A2), (arr_pt_eq _ _ _ _ A1) by lia. reflexivity.
Qed.

Lemma cell_arr d sz (P : list (list (list T))) : net3 (sz DirU + 1) (sz DirV + 1) (sz DirW + 1) P -> arrL d P (sz d + 1) (sz (outer d) + 1) (sz (inner d) + 1) (cell d P).
Proof. apply net_along_iff. Qed.

(* the volume in which u has the multiplicity of the degree *)
Lemma split_prepare sz (S : Volume R T) d u : valid_volume sz S -> 1 <= degree_in d S ->
  (val (knots_in d S) (degree_in d S) < u < val (knots_in d S) (sz d + 1))%R -> (forall y, In y (knots_in d S) -> apart u y) ->
  occ (knots_in d S) u <= degree_in d S ->
  exists sz1 S1 k, (let! k := GetKnotSpanIndex (degree_in d S) (knots_in d S) u in
    let! s := GetKnotMultiplicity (knots_in d S) u in
    if 0 <? degree_in d S - s then
      let! insertVolume := VolumeInsertKnot S u (degree_in d S - s) d in
      let! k := GetKnotSpanIndex (degree_in d S) (knots_in d insertVolume) u in
      let! s := GetKnotMultiplicity (knots_in d insertVolume) u in
      Ok (insertVolume, k, s)
    else Ok (S, k, s)) = Ok (S1, k, degree_in d S) /\ valid_volume sz1 S1 /\ (forall e, e <> d -> sz1 e = sz e) /\ same_but d S S1 /\ degree_in d S1 = degree_in d S /\
    span_of (degree_in d S) (sz1 d) (knots_in d S1) u k /\ occ (knots_in d S1) u = degree_in d S /\ (forall y, In y (knots_in d S1) -> apart u y) /\
    val (knots_in d S1) (degree_in d S) = val (knots_in d S) (degree_in d S) /\ val (knots_in d S1) (sz1 d + 1) = val (knots_in d S) (sz d + 1) /\
    forall t, in_volume sz S t -> volume_point sz1 S1 t = volume_point sz S t.
Proof.
  intros HS Hp1 Hu Hap Ho. pose proof HS as (HK & _). destruct (HK d) as (KU & H7). set (p := degree_in d S) in *. set (U := knots_in d S) in *. set (n := sz d) in *.
  pose proof KU as [_ Hn HlU HsU U1 U2].
  assert (Gm : forall W m, curve_knots p m W -> (val W p < u < val W (m + 1))%R -> (forall y, In y W -> apart u y) -> GetKnotMultiplicity W u = Ok (occ W u)).
  { intros W m KW Hw Ha. pose proof KW as [_ Hm HlW HsW _ _]. pose proof (HsW 0 p ltac:(lia) ltac:(lia) ltac:(lia)). pose proof (HsW (m + 1) (len W - 1) ltac:(lia) ltac:(lia) ltac:(lia)).
    apply (GetKnotMultiplicity_exact W u); auto; try lia; [lra|]. apply (apart_exact u W Ha). }
  destruct (find_span p n U u KU ltac:(unfold in_domain; lra)) as (k & -> & Hk). cbn [bind]. rewrite (Gm U n KU Hu Hap). cbn [bind].
  assert (Os : 0 <= occ U u) by (unfold occ; lia).
  destruct (Z.ltb_spec 0 (p - occ U u)) as [C|C].
  - destruct (VolumeInsertKnot_full sz S d u (p - occ U u) HS ltac:(lia) Hu Hap ltac:(fold p U; lia)) as (S1 & -> & V1 & B1 & D1 & P1 & DD & H1). cbn [bind].
    fold p U n in V1, D1, P1, H1. set (sz1 := put d (n + (p - occ U u)) sz) in *. assert (Ez : sz1 d = n + (p - occ U u)) by apply put_same.
    pose proof V1 as (HK1 & _). destruct (HK1 d) as (KW & _). rewrite D1 in KW. set (W := knots_in d S1) in *.
    assert (InW : forall y, In y W -> apart u y).
    { intros y Hy. apply (Permutation_in _ P1) in Hy. apply in_app_or in Hy. destruct Hy as [Hy|Hy]; [left; symmetry; apply (repeat_spec _ _ _ Hy)|apply Hap; exact Hy]. }
    assert (Ends : val W p = val U p /\ val W (sz1 d + 1) = val U (n + 1)).
    { fold p U n in DD. rewrite Ez. pose proof KW as [_ Hm HlW HsW _ _]. rewrite Ez in *. pose proof (HsW p (n + (p - occ U u) + 1) ltac:(lia) ltac:(lia) ltac:(lia)) as M1. unfold in_domain in DD.
      pose proof (proj1 (DD (val U p)) ltac:(lra)). pose proof (proj1 (DD (val U (n + 1))) ltac:(lra)).
      pose proof (proj2 (DD (val W p)) ltac:(lra)). pose proof (proj2 (DD (val W (n + (p - occ U u) + 1))) ltac:(lra)). lra. }
    destruct Ends as (E1 & E2). destruct (find_span p (sz1 d) W u KW ltac:(unfold in_domain; lra)) as (k1 & -> & Hk1). cbn [bind].
    rewrite (Gm W (sz1 d) KW ltac:(lra) InW). cbn [bind].
    assert (OW : occ W u = p) by (rewrite (occ_perm _ _ _ P1), occ_app, occ_repeat by lia; lia).
    exists sz1, S1, k1. rewrite OW. split; [reflexivity|]. split; [exact V1|]. split; [intros e Ne; apply put_other; exact Ne|]. split; [exact B1|]. split; [exact D1|].
    split; [exact Hk1|]. split; [exact OW|]. split; [exact InW|]. split; [exact E1|]. split; [exact E2|]. intros t Ht. apply H1. exact Ht.
  - assert (OU : occ U u = p) by lia. exists sz, S, k. rewrite OU. split; [reflexivity|]. split; [exact HS|]. split; [reflexivity|]. split; [intros e _; split; reflexivity|]. split; [reflexivity|].
    fold U. split; [exact Hk|]. split; [exact OU|]. split; [exact Hap|]. repeat split.
Qed.

Lemma put_put {X} d (x y : X) t : forall e, put d x (put d y t) e = put d x t e.
Proof. intros e. unfold put. destruct (same e d); reflexivity. Qed.

Lemma VolumeSplitAt_ok sz (S : Volume R T) d u : valid_volume sz S -> 1 <= degree_in d S ->
  (val (knots_in d S) (degree_in d S) < u < val (knots_in d S) (sz d + 1))%R -> (forall y, In y (knots_in d S) -> apart u y) ->
  occ (knots_in d S) u <= degree_in d S ->
  returns (VolumeSplitAt S u d) (fun '(A, B) => exists nl nr,
    valid_volume (put d nl sz) A /\ same_but d S A /\ degree_in d A = degree_in d S /\
    valid_volume (put d nr sz) B /\ same_but d S B /\ degree_in d B = degree_in d S /\
    val (knots_in d A) (degree_in d S) = val (knots_in d S) (degree_in d S) /\ val (knots_in d A) (nl + 1) = u /\
    val (knots_in d B) (degree_in d S) = u /\ val (knots_in d B) (nr + 1) = val (knots_in d S) (sz d + 1) /\
    (forall t, in_volume (put d nl sz) A t -> volume_point (put d nl sz) A t = volume_point sz S t) /\
    (forall t, in_volume (put d nr sz) B t -> volume_point (put d nr sz) B t = volume_point sz S t)).
Proof.
  intros HS Hp1 Hu Hap Ho. destruct (split_prepare sz S d u HS Hp1 Hu Hap Ho) as (sz1 & S1 & k & E & V1 & Z1 & B1 & D1 & Hk & OW & ApW & E1 & E2 & HPt).
  pose proof HS as (HK & _). destruct (HK d) as (KU & H7). pose proof V1 as (HK1 & HP1). destruct (HK1 d) as (KW & _). rewrite D1 in KW.
  set (p := degree_in d S) in *. set (U := knots_in d S) in *. set (n := sz d) in *. set (W := knots_in d S1) in *. set (m := sz1 d) in *.
  pose proof KU as [_ Hn HlU HsU _ _]. pose proof KW as [_ Hm HlW HsW _ _].
  assert (AU : arr U (n + p + 2) (val U)) by (rewrite <- HlU; apply arr_at). assert (AW : arr W (m + p + 2) (val W)) by (rewrite <- HlW; apply arr_at).
  assert (Hu1 : (val W p < u < val W (m + 1))%R) by lra.
  destruct (parts_span p m W u k KW Hp1 Hu1 OW Hk) as (S1' & S2 & S3 & S4 & S5).
  apply wp_elim. unfold VolumeSplitAt. fold p U. rewrite HlU. wget AU. wget AU.
  assert (F1 : IsAlmostEqualTo u (val U 0) = false).
  { apply aeq_false. rewrite <- tol_thr. pose proof (HsU 0 p ltac:(lia) ltac:(lia) ltac:(lia)). destruct (Hap (val U 0)) as [G|G]; [apply val_In; lia|lra|]. pose proof (tol_pos u (val U 0)). lra. }
  assert (F2 : IsAlmostEqualTo u (val U (n + p + 2 - 1)) = false).
  { apply aeq_false. rewrite <- tol_thr. pose proof (HsU (n + 1) (n + p + 2 - 1) ltac:(lia) ltac:(lia) ltac:(lia)). destruct (Hap (val U (n + p + 2 - 1))) as [G|G]; [apply val_In; lia|lra|].
    pose proof (tol_pos u (val U (n + p + 2 - 1))). lra. }
  rewrite F1, F2. cbn [orb].
  (* the code's own grouping *)
  revert E. destruct (GetKnotSpanIndex p U u) as [k0|e0]; [|discriminate]. cbn [bind]. destruct (GetKnotMultiplicity U u) as [s0|e0]; [|discriminate]. cbn [bind]. intros E. rewrite E. cbn [bind]. clear E k0 s0.
  fold W. rewrite HlW. apply wp_bind. apply (resize_arr W _ (val W) (k + 2) _ _ AW ltac:(lia)). intros X0 A0. rewrite (arr_len _ _ _ A0). apply wp_bind.
  replace (k + 2 - 1) with (k + 1) by lia. eapply arr_upd; [exact A0|lia|]. intros XL AL. cbn [wp]. clear X0 A0.
  destruct (slice_ok W (k - p + 1) (m + p + 2) ltac:(lia) ltac:(lia)) as (tl & -> & Ltl & Gtl). cbn [bind].
  pose proof (cell_arr d sz1 (VControlPoints S1) HP1) as AC. fold m in AC.
  destruct (net_slice_ok d _ _ _ _ _ 0 (Some (k - p + 1)) AC) as (PL & -> & AL'); cbn [to_hi]; try lia. cbn [bind].
  destruct (net_slice_ok d _ _ _ _ _ (k - p) None AC) as (PR & -> & AR'); cbn [to_hi]; try lia. cbn [bind wp]. cbn [to_hi] in AL', AR'.
  assert (AR : arr (u :: tl) (m - k + p + p + 2) (fun i => if i =? 0 then u else val W (k - p + i))).
  { split; [unfold len in *; cbn [length]; lia|]. intros i Hi. destruct (Z.eqb_spec i 0) as [->|Ni]; [reflexivity|].
    assert (Gs : get (u :: tl) i = get tl (i - 1)).
    { unfold get. destruct (Z.ltb_spec i 0); [lia|]. destruct (Z.ltb_spec (i - 1) 0); [lia|]. replace (Z.to_nat i) with (Datatypes.S (Z.to_nat (i - 1))) by lia. reflexivity. }
    rewrite Gs, Gtl by lia. rewrite (arr_get _ _ _ _ AW) by lia. do 2 f_equal. lia. }
  destruct (left_part p m W u k KW Hp1 Hu1 ApW OW Hk XL AL) as (KL & L1 & L2 & L3).
  destruct (right_part p m W u k KW Hp1 Hu1 ApW OW Hk (u :: tl) AR) as (KR & R1 & R2 & R3).
  assert (EZo : forall e, e <> d -> sz1 e = sz e) by exact Z1.
  destruct (part_volume d sz1 S1 (k - p) XL PL 0) as (VA & PA); [exact V1|lia|fold m; lia|rewrite D1; exact KL| | |].
  { eapply arrL_ext; [|intros i a b Hi Ha Hb; reflexivity]. replace (k - p + 1) with (k - p + 1 - 0) by lia. exact AL'. }
  { rewrite D1. intros Q D HD. apply L3. intros i Hi. rewrite HD by lia. f_equal. }
  destruct (part_volume d sz1 S1 (m - k + p) (u :: tl) PR (k - p)) as (VB & PB); [exact V1|lia|fold m; lia|rewrite D1; exact KR| | |].
  { replace (m - k + p + 1) with (m + 1 - (k - p)) by lia. exact AR'. }
  { rewrite D1. exact R3. }
  rewrite D1 in VA, PA, VB, PB.
  assert (Ep : forall x e, put d x sz1 e = put d x sz e) by (intros x e; destruct (dir_dec e d) as [->|Ne]; [rewrite !put_same; reflexivity|rewrite !put_other by exact Ne; apply Z1; exact Ne]).
  assert (Ev : forall x (S' : Volume R T) t, volume_point (put d x sz1) S' t = volume_point (put d x sz) S' t) by (intros; unfold volume_point; cbv zeta; rewrite !Ep; reflexivity).
  assert (Evv : forall x (S' : Volume R T), valid_volume (put d x sz1) S' -> valid_volume (put d x sz) S').
  { intros x S' (G1 & G2). split; [intros e; specialize (G1 e); rewrite Ep in G1; exact G1|rewrite !Ep in G2; exact G2]. }
  assert (Evi : forall x (S' : Volume R T) t, in_volume (put d x sz) S' t -> in_volume (put d x sz1) S' t) by (intros x S' t G e; specialize (G e); rewrite Ep; exact G).
  destruct (with_same d S1 p XL PL) as (WA1 & WA2 & _). destruct (with_same d S1 p (u :: tl) PR) as (WB1 & WB2 & _).
  assert (SA : forall X P', same_but d S (with_line d S1 p X P')).
  { intros X P' e Ne. destruct (with_but d S1 p X P' e Ne) as (-> & ->). apply B1. exact Ne. }
  exists (k - p), (m - k + p). split; [apply Evv; exact VA|]. split; [apply SA|]. split; [exact WA1|]. split; [apply Evv; exact VB|]. split; [apply SA|]. split; [exact WB1|].
  rewrite WA2, WB2. split; [rewrite L1; exact E1|]. split; [exact L2|]. split; [exact R1|]. split; [rewrite R2; exact E2|].
  assert (Sub : forall X P' x t, in_volume (put d x sz) (with_line d S1 p X P') t -> (val U p <= t d <= val U (n + 1))%R -> in_volume sz S t).
  { intros X P' x t G Gd e. destruct (dir_dec e d) as [->|Ne]; [exact Gd|]. specialize (G e). destruct (SA X P' e Ne) as (Q1 & Q2). rewrite Q1, Q2, put_other in G by exact Ne. exact G. }
  split; intros t Ht.
  - rewrite <- Ev, (PA t (Evi _ _ _ Ht)). apply HPt. apply (Sub _ _ _ _ Ht). specialize (Ht d). rewrite put_same, WA1, WA2 in Ht. unfold in_domain in Ht. rewrite L1, L2 in Ht. lra.
  - rewrite <- Ev, (PB t (Evi _ _ _ Ht)). apply HPt. apply (Sub _ _ _ _ Ht). specialize (Ht d). rewrite put_same, WB1, WB2 in Ht. unfold in_domain in Ht. rewrite R1, R2 in Ht. lra.
Qed.

(* at the ends of the knots both parts are the whole volume *)
Lemma VolumeSplitAt_ends sz (S : Volume R T) d u : valid_volume sz S -> u = val (knots_in d S) 0 \/ u = val (knots_in d S) (len (knots_in d S) - 1) ->
  VolumeSplitAt S u d = Ok (S, S).
Proof.
  intros HS Hu. pose proof HS as (HK & _). destruct (HK d) as ([Hp Hn HlU _ _ _] & _). set (U := knots_in d S) in *. set (p := degree_in d S) in *.
  assert (AU : arr U (len U) (val U)) by apply arr_at. unfold VolumeSplitAt. fold U p. rewrite (arr_get _ _ _ _ AU), (arr_get _ _ _ _ AU) by lia. cbn [bind].
  assert (G : IsAlmostEqualTo u (val U 0) || IsAlmostEqualTo u (val U (len U - 1)) = true); [|rewrite G; reflexivity].
  apply orb_true_iff. destruct Hu as [->| ->]; [left|right]; apply compare_aeq_refl; unfold DoubleEpsilon; num; lra.
Qed.
End V3.
