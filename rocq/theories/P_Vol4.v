(* Volumes: exchanging directions, iso-curves, closedness, sections, derivatives. *)
From Coq Require Import ZArith List Bool Reals Lra Lia Permutation.
From Verif Require Import Base Num Vec Tac Spec Spec2 Spec4 Spec5 Spec11 M_MathUtils M_Polynomials M_XYZ M_Bspline M_NurbsCurve M_Knots M_Curve2 M_Surface M_Shape M_Volume
  P_MathUtils P_Span P_Cox P_Basis P_VSum P_Curve P_Bspline P_BsplineS P_Loop P_Insert P_Insert2 P_Refine P_Reverse P_Surface P_Split P_Vol1 P_Vol2 P_Vol3.
Import ListNotations.
Open Scope Z_scope.

Section V4.
Context {T : Type} {V : Vec R T} {L : VecL T}.

(** * Exchanging directions *)
Lemma swapped_net_ok n m l rd (f : Z -> Z -> Z -> T) : 0 <= n -> 0 <= m -> 0 <= l ->
  (forall a b c, 0 <= a < n -> 0 <= b < m -> 0 <= c < l -> rd a b c = Ok (f a b c)) ->
  returns (swapped_net n m l rd) (fun P => arr3 P n m l f).
Proof.
  intros Hn Hm Hl Hrd. apply wp_elim. unfold swapped_net. apply wp_bind. apply wp_mkvec; [lia|]. intros P0 A0.
  apply wp_for_up with (P := fun h P => len P = n /\ forall a, 0 <= a < h -> exists p, get P a = Ok p /\ arr2 p m l (f a)); [lia| | |].
  - split; [apply A0|]. intros; lia.
  - intros a P Ha (LP & HP). apply wp_bind. apply wp_mkvec; [lia|]. intros p0 Ap0. apply wp_bind.
    apply wp_for_up with (P := fun h p => len p = m /\ forall b, 0 <= b < h -> exists row, get p b = Ok row /\ arr row l (f a b)); [lia| | |].
    + split; [apply Ap0|]. intros; lia.
    + intros b p Hb (Lp & Hp). apply wp_bind. apply wp_mkvec; [lia|]. intros r0 Ar0. apply wp_bind.
      apply (wp_fill_all l (f a b)); [lia|apply Ar0|intros c v Hc _; rewrite Hrd by lia; reflexivity|].
      intros row Arow. apply upd_wp with (n := m); auto. intros p' L' G1 G2. split; [exact L'|]. intros b' Hb'. destruct (Z.eq_dec b' b) as [->|Ne].
      * exists row. split; [exact G1|exact Arow].
      * rewrite G2 by exact Ne. apply Hp. lia.
    + intros p (Lp & Hp). apply upd_wp with (n := n); auto. intros P' L' G1 G2. split; [exact L'|]. intros a' Ha'. destruct (Z.eq_dec a' a) as [->|Ne].
      * exists p. split; [exact G1|]. split; [exact Lp|exact Hp].
      * rewrite G2 by exact Ne. apply HP. lia.
  - intros P (LP & HP). split; [exact LP|exact HP].
Qed.

Lemma VolumeSwap_ok sz (S S0 : Volume R T) d e : valid_volume sz S -> earlier d e = true ->
  returns (VolumeSwap S d e S0) (fun S' => valid_volume (exchanged d e sz) S' /\
    (forall f, degree_in f S' = exchanged d e (fun f => degree_in f S) f /\ knots_in f S' = exchanged d e (fun f => knots_in f S) f) /\
    forall t, in_volume sz S t -> in_volume (exchanged d e sz) S' (exchanged d e t) /\ volume_point (exchanged d e sz) S' (exchanged d e t) = volume_point sz S t).
Proof.
  intros HS Hh. pose proof (valid_size _ _ HS) as H0. pose proof HS as (HK & HP). pose proof (arr3_net _ _ _ _ HP) as AP. pose proof (H0 DirU). pose proof (H0 DirV). pose proof (H0 DirW).
  pose proof HP as [LP HP0]. destruct (HP0 0 ltac:(lia)) as (L0 & L00). specialize (L00 0 ltac:(lia)).
  apply wp_elim. unfold VolumeSwap. set (P := VControlPoints S) in *. rewrite (get_at nil) by lia. cbn [bind]. rewrite (get_at nil) by lia. cbn [bind]. rewrite LP, L0, L00.
  destruct S as [p q r U W X P1]. cbn [VDegreeU VDegreeV VDegreeW VKnotsU VKnotsV VKnotsW VControlPoints] in *. subst P.
  assert (Sw : forall (n m : Z) w w' (f : Z -> Z -> T), comb 0 n w (fun i => comb 0 m w' (fun j => f i j)) = comb 0 m w' (fun j => comb 0 n w (fun i => f i j)))
    by (intros; apply comb_swap).
  pose proof (HK DirU) as KU. pose proof (HK DirV) as KV. pose proof (HK DirW) as KW. cbn [degree_in knots_in VDegreeU VDegreeV VDegreeW VKnotsU VKnotsV VKnotsW] in KU, KV, KW.
  assert (Fin : forall (S' : Volume R T) N f, arr3 N (exchanged d e sz DirU + 1) (exchanged d e sz DirV + 1) (exchanged d e sz DirW + 1) f -> VControlPoints S' = N ->
    (forall g, degree_in g S' = exchanged d e (fun f => degree_in f (mkVolume p q r U W X P1)) g /\ knots_in g S' = exchanged d e (fun f => knots_in f (mkVolume p q r U W X P1)) g) ->
    (forall t, in_volume sz (mkVolume p q r U W X P1) t -> volume_point (exchanged d e sz) S' (exchanged d e t) = volume_point sz (mkVolume p q r U W X P1) t) ->
    valid_volume (exchanged d e sz) S' /\
    (forall f, degree_in f S' = exchanged d e (fun f => degree_in f (mkVolume p q r U W X P1)) f /\ knots_in f S' = exchanged d e (fun f => knots_in f (mkVolume p q r U W X P1)) f) /\
    forall t, in_volume sz (mkVolume p q r U W X P1) t -> in_volume (exchanged d e sz) S' (exchanged d e t) /\ volume_point (exchanged d e sz) S' (exchanged d e t) = volume_point sz (mkVolume p q r U W X P1) t).
  { intros S' N f A EN HD HV. split; [|split; [exact HD|intros t Ht; split; [|apply HV; exact Ht]]].
    - split; [|rewrite EN; apply (net_arr3 _ _ _ _ _ A)]. intros g. destruct (HD g) as (-> & ->). unfold exchanged. destruct (same g d); [apply HK|]. destruct (same g e); apply HK.
    - intros g. destruct (HD g) as (-> & ->). unfold exchanged. destruct (same g d); [apply Ht|]. destruct (same g e); apply Ht. }
  assert (RD : forall i j k, 0 <= i < sz DirU + 1 -> 0 <= j < sz DirV + 1 -> 0 <= k < sz DirW + 1 -> get3 P1 i j k = Ok (pt3 P1 i j k)) by (intros; apply (arr3_get _ _ _ _ _ _ _ _ AP); lia).
  destruct d, e; try discriminate; clear Hh; apply wp_bind.
  - destruct (swapped_net_ok (sz DirV + 1) (sz DirU + 1) (sz DirW + 1) (fun j i k => get3 P1 i j k) (fun j i k => pt3 P1 i j k)) as (N & -> & A); try lia; [intros; apply RD; lia|].
    cbn [wp]. eapply Fin; [exact A|reflexivity|intros []; split; reflexivity|]. intros t Ht. unfold volume_point. cbn -[comb pt3]. rewrite Sw.
    apply comb_ext. intros i Hi. split; [reflexivity|]. apply comb_ext. intros j Hj. split; [reflexivity|]. apply comb_ext. intros k Hk. split; [reflexivity|].
    apply (pt3_arr3 _ _ _ _ _ _ _ _ A); lia.
  - destruct (swapped_net_ok (sz DirW + 1) (sz DirV + 1) (sz DirU + 1) (fun k j i => get3 P1 i j k) (fun k j i => pt3 P1 i j k)) as (N & -> & A); try lia; [intros; apply RD; lia|].
    cbn [wp]. eapply Fin; [exact A|reflexivity|intros []; split; reflexivity|]. intros t Ht. rewrite (volume_along DirU sz). unfold volume_point, basis. cbn -[comb pt3].
    apply comb_ext. intros i Hi. split; [reflexivity|]. apply comb_ext. intros j Hj. split; [reflexivity|]. apply comb_ext. intros k Hk. split; [reflexivity|].
    apply (pt3_arr3 _ _ _ _ _ _ _ _ A); lia.
  - destruct (swapped_net_ok (sz DirU + 1) (sz DirW + 1) (sz DirV + 1) (fun i k j => get3 P1 i j k) (fun i k j => pt3 P1 i j k)) as (N & -> & A); try lia; [intros; apply RD; lia|].
    cbn [wp]. eapply Fin; [exact A|reflexivity|intros []; split; reflexivity|]. intros t Ht. unfold volume_point. cbn -[comb pt3].
    apply comb_ext. intros i Hi. split; [reflexivity|]. rewrite Sw. apply comb_ext. intros j Hj. split; [reflexivity|]. apply comb_ext. intros k Hk. split; [reflexivity|].
    apply (pt3_arr3 _ _ _ _ _ _ _ _ A); lia.
Qed.

Lemma VolumeSwap_other sz (S S0 : Volume R T) d e : valid_volume sz S -> earlier d e = false -> VolumeSwap S d e S0 = Ok S0.
Proof.
  intros HS Hh. pose proof (valid_size _ _ HS) as H0. pose proof HS as (HK & [LP HP0]). pose proof (H0 DirU). pose proof (H0 DirV). destruct (HP0 0 ltac:(lia)) as (L0 & L00).
  unfold VolumeSwap. rewrite (get_at nil) by lia. cbn [bind]. rewrite (get_at nil) by lia. cbn [bind]. destruct d, e; reflexivity || discriminate.
Qed.

(** * Iso-curves *)
Lemma vsum_out a lo hi (b : Z -> R) (f : Z -> T) : vsum lo hi (fun k => vscale (a * b k)%R (f k)) = vscale a (vsum lo hi (fun k => vscale (b k) (f k))).
Proof.
  apply co_ext. intros c. rewrite co_scale, !co_vsum. unfold rsum. generalize (Z.to_nat (hi - lo)). intros n. induction n as [|n IH]; cbn; [ring|]. rewrite IH, !co_scale. ring.
Qed.

Lemma clampParam_ok q m W v : curve_knots q m W -> clampParam v W q = Ok (clamped (val W q) (val W (m + 1)) v).
Proof.
  intros KW. pose proof KW as [Hq Hm Hl _ _ _]. assert (AW : arr W (m + q + 2) (val W)) by (rewrite <- Hl; apply arr_at).
  unfold clampParam. rewrite (arr_get _ _ _ _ AW) by lia. cbn [bind]. rewrite Hl. replace (m + q + 2 - q - 1) with (m + 1) by lia. rewrite (arr_get _ _ _ _ AW) by lia. cbn [bind].
  apply (clamp_dom q m W v KW).
Qed.

Lemma iso_branch_ok degree knots count q m W v r l X w cp (f : Z -> Z -> Z -> T) : curve_knots q m W -> q <= 7 -> curve_knots r l X -> r <= 7 -> 0 <= count ->
  (forall i a b, 0 <= i < count -> 0 <= a <= m -> 0 <= b <= l -> cp i a b = Ok (f i a b)) ->
  returns (iso_branch degree knots count q W v r X w cp) (fun c => exists Q, c = mkCurve degree knots Q /\ arr Q count (fun i =>
    comb 0 (m + 1) (fun a => N (val W) (val W (m + 1)) (Z.to_nat q) a (clamped (val W q) (val W (m + 1)) v)) (fun a =>
      comb 0 (l + 1) (fun b => N (val X) (val X (l + 1)) (Z.to_nat r) b (clamped (val X r) (val X (l + 1)) w)) (fun b => f i a b)))).
Proof.
  intros KW W7 KX X7 Hc Hcp. destruct (clamp_dom q m W v KW) as (DV & _). destruct (clamp_dom r l X w KX) as (DW & _).
  unfold iso_branch. rewrite (clampParam_ok q m W v KW), (clampParam_ok r l X w KX). cbn [bind].
  set (v' := clamped (val W q) (val W (m + 1)) v) in *. set (w' := clamped (val X r) (val X (l + 1)) w) in *.
  destruct (find_span _ _ _ _ KW DV) as (kv & -> & Hkv). cbn [bind]. destruct (find_span _ _ _ _ KX DW) as (kw & -> & Hkw). cbn [bind].
  destruct (wp_elim _ _ (BasisFunctions_ok W q kv v' (span_of_ok _ _ _ _ _ KW Hkv) W7 (accepted_dom _ _ _ _ KW DV))) as (N1 & -> & H1). cbn [bind].
  destruct (wp_elim _ _ (BasisFunctions_ok X r kw w' (span_of_ok _ _ _ _ _ KX Hkw) X7 (accepted_dom _ _ _ _ KX DW))) as (N2 & -> & H2). cbn [bind].
  pose proof KW as [Hq Hm _ _ _ _]. pose proof KX as [Hr Hl _ _ _ _]. pose proof Hkv as (Iv & _). pose proof Hkw as (Iw & _).
  apply wp_elim. apply wp_bind.
  apply (wp_push 0 count (fun i => comb 0 (m + 1) (fun a => N (val W) (val W (m + 1)) (Z.to_nat q) a v') (fun a => comb 0 (l + 1) (fun b => N (val X) (val X (l + 1)) (Z.to_nat r) b w') (fun b => f i a b)))); [lia| |].
  - intros i Q Hi _.
    rewrite (acc_loop0 0 (q + 1) (fun j => vscale (NS (val W) kv q (kv - q + j) v') (comb 0 (l + 1) (fun b => N (val X) (val X (l + 1)) (Z.to_nat r) b w') (fun b => f i (kv - q + j) b)))); [|lia|].
    + cbn [bind]. do 3 f_equal. apply (basis_loop q m W v' kv N1 (fun a => comb 0 (l + 1) (fun b => N (val X) (val X (l + 1)) (Z.to_nat r) b w') (fun b => f i a b))); assumption.
    + intros j x Hj. rewrite (acc_loop 0 (r + 1) x (fun k => vscale (NS (val W) kv q (kv - q + j) v' * NS (val X) kw r (kw - r + k) w')%R (f i (kv - q + j) (kw - r + k)))); [|lia|].
      * do 2 f_equal. rewrite (vsum_out _ 0 (r + 1) (fun k => NS (val X) kw r (kw - r + k) w') (fun k => f i (kv - q + j) (kw - r + k))). f_equal.
        apply (basis_loop r l X w' kw N2 (fun b => f i (kv - q + j) b)); assumption.
      * intros k y Hk. rewrite (getu_arrD _ _ _ _ j H1), (getu_arrD _ _ _ _ k H2) by lia. cbn [bind]. rewrite Hcp by lia. reflexivity.
  - intros Q AQ. cbn [wp]. exists Q. split; [reflexivity|]. replace count with (count - 0) by lia. eapply arr_ext; [exact AQ|]. intros i Hi. cbv beta. rewrite Z.add_0_r. reflexivity.
Qed.

Lemma minus_one_test x : IsAlmostEqualTo x (nopp n1 : R) = true <-> (Rabs (x + 1) <= tol x (- 1))%R.
Proof.
  replace (nopp n1 : R) with (- 1)%R by (num; lra). rewrite aeq_iff, <- tol_thr. replace (x - - 1)%R with (x + 1)%R by ring. tauto.
Qed.

Lemma VolumeIsoCurve_ok sz (S : Volume R T) q d : valid_volume sz S -> (Rabs (q d + 1) <= tol (q d) (- 1))%R ->
  (forall e, earlier e d = true -> (tol (q e) (- 1) < Rabs (q e + 1))%R) ->
  returns (VolumeIsoCurve S (q DirU) (q DirV) (q DirW)) (fun c => exists Q, c = mkCurve (degree_in d S) (knots_in d S) Q /\ len Q = sz d + 1 /\
    forall t, in_domain (degree_in d S) (sz d) (knots_in d S) t ->
      curve_point (degree_in d S) (sz d) (knots_in d S) Q t = volume_point sz S (on_line sz S d q t)).
Proof.
  intros HS Hd He. pose proof (valid_size _ _ HS) as H0. pose proof HS as (HK & HP). pose proof (arr3_net _ _ _ _ HP) as AP. pose proof (H0 DirU). pose proof (H0 DirV). pose proof (H0 DirW).
  pose proof HP as [LP HP0]. destruct (HP0 0 ltac:(lia)) as (L0 & L00). specialize (L00 0 ltac:(lia)).
  unfold VolumeIsoCurve. destruct S as [p r s U W X P]. cbn [VDegreeU VDegreeV VDegreeW VKnotsU VKnotsV VKnotsW VControlPoints] in *.
  rewrite LP. destruct (Z.eqb_spec (sz DirU + 1) 0); [lia|]. rewrite (get_at nil) by lia. cbn [bind]. rewrite L0. destruct (Z.eqb_spec (sz DirV + 1) 0); [lia|].
  rewrite (get_at nil) by lia. cbn [bind]. rewrite L00.
  assert (F : forall e, earlier e d = true -> IsAlmostEqualTo (q e) (nopp n1) = false).
  { intros e Hee. specialize (He e Hee). destruct (IsAlmostEqualTo (q e) (nopp n1)) eqn:G; [|reflexivity]. apply minus_one_test in G. lra. }
  apply minus_one_test in Hd.
  destruct (HK DirU) as (KU & U7). destruct (HK DirV) as (KV & V7). destruct (HK DirW) as (KW & W7). cbn [degree_in knots_in VDegreeU VDegreeV VDegreeW VKnotsU VKnotsV VKnotsW] in KU, KV, KW, U7, V7, W7.
  assert (Sw : forall (n m : Z) w w' (f : Z -> Z -> T), comb 0 n w (fun i => comb 0 m w' (fun j => f i j)) = comb 0 m w' (fun j => comb 0 n w (fun i => f i j)))
    by (intros; apply comb_swap).
  assert (RD : forall i j k, 0 <= i < sz DirU + 1 -> 0 <= j < sz DirV + 1 -> 0 <= k < sz DirW + 1 -> get3 P i j k = Ok (pt3 P i j k)) by (intros; apply (arr3_get _ _ _ _ _ _ _ _ AP); lia).
  destruct d.
  - rewrite Hd.
    destruct (iso_branch_ok p U (sz DirU + 1) r (sz DirV) W (q DirV) s (sz DirW) X (q DirW) (fun i a b => get3 P i a b) (fun i a b => pt3 P i a b) KV V7 KW W7 ltac:(lia)) as (c & E & Q & -> & AQ); [intros; apply RD; lia|].
    exists (mkCurve p U Q). split; [exact E|]. exists Q. split; [reflexivity|]. split; [apply AQ|]. intros t Ht. unfold curve_point, volume_point. cbn -[comb pt3 N val].
    apply comb_ext. intros i Hi. split; [reflexivity|]. apply (arr_pt_eq _ _ _ _ AQ). lia.
  - rewrite (F DirU eq_refl), Hd.
    destruct (iso_branch_ok r W (sz DirV + 1) p (sz DirU) U (q DirU) s (sz DirW) X (q DirW) (fun j a b => get3 P a j b) (fun j a b => pt3 P a j b) KU U7 KW W7 ltac:(lia)) as (c & E & Q & -> & AQ); [intros; apply RD; lia|].
    exists (mkCurve r W Q). split; [exact E|]. exists Q. split; [reflexivity|]. split; [apply AQ|]. intros t Ht. unfold curve_point, volume_point. cbn -[comb pt3 N val].
    rewrite Sw. apply comb_ext. intros i Hi. split; [reflexivity|]. apply (arr_pt_eq _ _ _ _ AQ). lia.
  - rewrite (F DirU eq_refl), (F DirV eq_refl), Hd.
    destruct (iso_branch_ok s X (sz DirW + 1) p (sz DirU) U (q DirU) r (sz DirV) W (q DirV) (fun k a b => get3 P a b k) (fun k a b => pt3 P a b k) KU U7 KV V7 ltac:(lia)) as (c & E & Q & -> & AQ); [intros; apply RD; lia|].
    exists (mkCurve s X Q). split; [exact E|]. exists Q. split; [reflexivity|]. split; [apply AQ|]. intros t Ht. unfold curve_point, volume_point. cbn -[comb pt3 N val].
    transitivity (comb 0 (sz DirW + 1) (fun i => N (val X) (val X (sz DirW + 1)) (Z.to_nat s) i t) (fun k =>
      comb 0 (sz DirU + 1) (fun a => N (val U) (val U (sz DirU + 1)) (Z.to_nat p) a (clamped (val U p) (val U (sz DirU + 1)) (q DirU))) (fun a =>
       comb 0 (sz DirV + 1) (fun b => N (val W) (val W (sz DirV + 1)) (Z.to_nat r) b (clamped (val W r) (val W (sz DirV + 1)) (q DirV))) (fun b => pt3 P a b k)))).
    { apply comb_ext. intros i Hi. split; [reflexivity|]. apply (arr_pt_eq _ _ _ _ AQ). lia. }
    rewrite Sw. apply comb_ext. intros i Hi. split; [reflexivity|]. apply Sw.
Qed.

Lemma VolumeIsoCurve_none sz (S : Volume R T) q : valid_volume sz S -> (forall e, (tol (q e) (- 1) < Rabs (q e + 1))%R) ->
  VolumeIsoCurve S (q DirU) (q DirV) (q DirW) = Ok emptyCurve.
Proof.
  intros HS He. pose proof (valid_size _ _ HS) as H0. pose proof HS as (HK & [LP HP0]). pose proof (H0 DirU). pose proof (H0 DirV). destruct (HP0 0 ltac:(lia)) as (L0 & L00).
  unfold VolumeIsoCurve. rewrite LP. destruct (Z.eqb_spec (sz DirU + 1) 0); [lia|]. rewrite (get_at nil) by lia. cbn [bind]. rewrite L0. destruct (Z.eqb_spec (sz DirV + 1) 0); [lia|].
  rewrite (get_at nil) by lia. cbn [bind].
  assert (F : forall e, IsAlmostEqualTo (q e) (nopp n1) = false).
  { intros e. specialize (He e). destruct (IsAlmostEqualTo (q e) (nopp n1)) eqn:G; [|reflexivity]. apply minus_one_test in G. lra. }
  rewrite !F. reflexivity.
Qed.

(** * Sections *)
Lemma VolumeExtract_unchanged (S : Volume R T) u d X : forall b X', VolumeExtract S u d X = Ok (b, X') -> X' = X.
Proof.
  intros b X' E. unfold VolumeExtract in E.
  repeat match type of E with bind ?m _ = Ok _ => destruct m as [?|?]; [cbn [bind] in E|discriminate] | (if ?c then _ else _) = Ok _ => destruct c
    | (let '(_, _) := ?r in _) = Ok _ => destruct r as [[? ?] ?] end; try discriminate.
  injection E as _ <-. reflexivity.
Qed.
End V4.

(** * Derivatives *)
Definition wlp {X} (m : res X) (Q : X -> Prop) : Prop := forall x, m = Ok x -> Q x.
Lemma wlp_bind {X Y} (m : res X) (f : X -> res Y) Q : wlp m (fun x => wlp (f x) Q) -> wlp (bind m f) Q.
Proof. intros H y E. destruct m as [x|e]; [|discriminate]. apply (H x eq_refl y E). Qed.
Lemma wlp_top {X Y} (m : res X) (f : X -> res Y) Q : (forall x, m = Ok x -> wlp (f x) Q) -> wlp (bind m f) Q.
Proof. intros H. apply wlp_bind. exact H. Qed.
Lemma wlp_for_up {S} (I : S -> Prop) body : forall lo hi s, I s -> (forall k s, lo <= k < hi -> I s -> wlp (body k s) I) -> wlp (for_up lo hi s body) I.
Proof.
  intros lo hi. remember (Z.to_nat (hi - lo)) as m eqn:Em. revert lo Em. induction m as [|m IH]; intros lo Em s Hs Hb.
  - rewrite for_up_nil by lia. intros x E. injection E as <-. exact Hs.
  - rewrite for_up_first by lia. apply wlp_bind. intros s' E. apply IH; [lia|apply (Hb lo s ltac:(lia) Hs s' E)|]. intros k s0 Hk. apply Hb. lia.
Qed.

Definition fails {X} (m : res X) : Prop := forall x, m <> Ok x.
Lemma fails_bind {X Y} (m : res X) (f : X -> res Y) : (forall x, m = Ok x -> fails (f x)) -> fails (bind m f).
Proof. intros H y E. destruct m as [x|e]; [|discriminate]. apply (H x eq_refl y E). Qed.
Lemma fails_for_up {S} lo hi (s : S) body : lo < hi -> fails (body lo s) -> fails (for_up lo hi s body).
Proof. intros H F. rewrite for_up_first by exact H. destruct (body lo s) as [x|e] ; [destruct (F x eq_refl)|]. intros y. discriminate. Qed.
Lemma fails_for_upc {S X} lo hi (s : S) (body : Z -> S -> res (ctl S X)) : lo < hi -> fails (body lo s) -> fails (for_upc lo hi s body).
Proof.
  intros H F. unfold for_upc. replace (Z.to_nat (hi - lo)) with (Datatypes.S (Z.to_nat (hi - lo - 1))) by lia. cbn [iter_upc]. destruct (body lo s) as [x|e] ; [destruct (F x eq_refl)|]. intros y. discriminate.
Qed.
Lemma fails_lift {X Y} (m : res X) (f : X -> res Y) : fails m -> fails (bind m f).
Proof. intros H. apply fails_bind. intros x E. destruct (H x E). Qed.

(* every element is z *)
Definition all1 {X} (z : X) (l : list X) : Prop := forall i x, get l i = Ok x -> x = z.
Definition all3 {X} (z : X) (P : list (list (list X))) : Prop := forall i j k x, get3 P i j k = Ok x -> x = z.

Lemma get_nonneg {X} (l : list X) i x : get l i = Ok x -> 0 <= i < len l.
Proof.
  unfold get. destruct (Z.ltb_spec i 0); [discriminate|]. destruct (nth_error l (Z.to_nat i)) as [y|] eqn:E; [|discriminate]. intros _.
  assert (Z.to_nat i < length l)%nat by (apply nth_error_Some; congruence). unfold len. lia.
Qed.
Lemma upd_inv {X} (l : list X) i v l' : upd l i v = Ok l' -> forall k x, get l' k = Ok x -> (k = i /\ x = v) \/ get l k = Ok x.
Proof.
  intros E k x G. assert (Hi : 0 <= i < len l). { unfold upd in E. destruct (Z.leb_spec 0 i), (Z.ltb_spec i (len l)); try discriminate. lia. }
  assert (W : wp (upd l i v) (fun l' => forall k x, get l' k = Ok x -> (k = i /\ x = v) \/ get l k = Ok x)).
  { apply upd_wp with (n := len l); auto. intros l1 L1 G1 G2 k0 x0 G0. destruct (Z.eq_dec k0 i) as [->|Ne]; [left; split; [reflexivity|congruence]|right; rewrite <- G2 by exact Ne; exact G0]. }
  rewrite E in W. apply (W k x G).
Qed.
Lemma all1_upd {X} (z : X) l i v : all1 z l -> v = z -> wlp (upd l i v) (all1 z).
Proof. intros H -> l' E k x G. destruct (upd_inv _ _ _ _ E k x G) as [[_ ->]|G']; [reflexivity|apply (H k x G')]. Qed.
Lemma all3_upd {X} (z : X) P i j k v : all3 z P -> v = z -> wlp (upd3 P i j k v) (all3 z).
Proof.
  intros H -> P' E a b c x G. unfold upd3 in E. destruct (get P i) as [p|] eqn:E1; [|discriminate]. cbn [bind] in E. unfold upd2 in E.
  destruct (get p j) as [r|] eqn:E2; [|discriminate]. cbn [bind] in E. destruct (upd r k z) as [r'|] eqn:E3; [|discriminate]. cbn [bind] in E.
  destruct (upd p j r') as [p'|] eqn:E4; [|discriminate]. cbn [bind] in E.
  unfold get3 in G. destruct (get P' a) as [pa|] eqn:G1; [|discriminate]. cbn [bind] in G. unfold get2 in G. destruct (get pa b) as [rb|] eqn:G2; [|discriminate]. cbn [bind] in G.
  destruct (upd_inv _ _ _ _ E _ _ G1) as [[-> ->]|G1'].
  - destruct (upd_inv _ _ _ _ E4 _ _ G2) as [[-> ->]|G2'].
    + destruct (upd_inv _ _ _ _ E3 _ _ G) as [[_ ->]|G']; [reflexivity|]. apply (H i j c). unfold get3, get2. rewrite E1. cbn [bind]. rewrite E2. exact G'.
    + apply (H i b c). unfold get3, get2. rewrite E1. cbn [bind]. rewrite G2'. exact G.
  - apply (H a b c). unfold get3, get2. rewrite G1'. cbn [bind]. rewrite G2. exact G.
Qed.
Lemma all1_const {X Y} (z : X) (l : list Y) : all1 z (map (fun _ => z) l).
Proof.
  intros i x G. unfold get in G. destruct (i <? 0); [discriminate|]. rewrite nth_error_map in G. destruct (nth_error l (Z.to_nat i)); [|discriminate]. cbn in G. congruence.
Qed.
Lemma get_mkvec {X} n (z : X) l i x : mkvec n z = Ok l -> get l i = Ok x -> x = z.
Proof.
  unfold mkvec. destruct (n <? 0); [discriminate|]. intros E G. injection E as <-. unfold get in G. destruct (i <? 0); [discriminate|].
  destruct (nth_error (repeat z (Z.to_nat n)) (Z.to_nat i)) as [y|] eqn:E; [|discriminate]. injection G as <-. apply nth_error_In in E. apply (repeat_spec _ _ _ E).
Qed.
Lemma all3_mkvec {X} (z : X) n m l : wlp (mkvec3 n m l z) (all3 z).
Proof.
  unfold mkvec3. apply wlp_top. intros row E1. apply wlp_top. intros p E2. intros P E3 i j k x G. unfold get3, get2 in G.
  destruct (get P i) as [p'|] eqn:G1; [|discriminate]. cbn [bind] in G. destruct (get p' j) as [r|] eqn:G2; [|discriminate]. cbn [bind] in G.
  rewrite (get_mkvec _ _ _ _ _ E3 G1) in G2. rewrite (get_mkvec _ _ _ _ _ E2 G2) in G. apply (get_mkvec _ _ _ _ _ E1 G).
Qed.

Section D.
Context {T : Type} {V : Vec R T} {L : VecL T}.

Lemma zero_plus n : vadd (@vzero R T V) (vscale n vzero) = vzero.
Proof. vec. ring. Qed.

Lemma VolumeHomDerivatives_zero (S : Volume R T) der u v w : wlp (VolumeHomDerivatives S der u v w) (all3 vzero).
Proof.
  unfold VolumeHomDerivatives. apply wlp_top. intros D0 E0. pose proof (all3_mkvec _ _ _ _ _ E0) as Z0. do 8 (apply wlp_top; intros ? ?).
  apply wlp_top. intros [[t1 t2] D] E. intros D' ED. injection ED as <-.
  assert (W : forall r, wlp r (fun r : list T * list T * list (list (list T)) => all3 vzero (snd r)) -> r = Ok (t1, t2, D) -> all3 vzero D) by (intros r G Er; apply (G _ Er)).
  refine (W _ _ E). clear W E. apply wlp_for_up; [exact Z0|]. intros a r Ha Hr. apply wlp_for_up; [exact Hr|]. intros b [[s1 s2] D1] Hb HD. cbn [snd] in HD.
  apply wlp_bind. intros [s1' s2'] E.
  assert (Zs : all1 vzero s2').
  { assert (W : forall r, wlp r (fun r : list T * list T => all1 vzero (snd r)) -> r = Ok (s1', s2') -> all1 vzero s2') by (intros r0 G Er; apply (G _ Er)).
    refine (W _ _ E). clear W E. apply wlp_for_up; [apply all1_const|]. intros z [q1 q2] Hz Hq. cbn [snd] in Hq. apply wlp_top. intros q1' _. apply wlp_bind. intros q2' E.
    intros xx Ex. injection Ex as <-. cbn [snd]. revert E. apply (wlp_for_up (all1 vzero)); [exact Hq|]. intros y q Hy Hq0. apply wlp_top. intros nv _. apply wlp_top. intros c Ec. apply wlp_top. intros t Et.
    apply all1_upd; [exact Hq0|]. rewrite (Hq0 _ _ Ec), (Hq0 _ _ Et). apply zero_plus. }
  apply wlp_bind. intros D2 E2. intros xx Ex. injection Ex as <-. cbn [snd]. revert E2. apply (wlp_for_up (all3 vzero)); [exact HD|]. intros c D3 Hc HD3. apply wlp_for_up; [exact HD3|]. intros z D4 Hz HD4.
  apply wlp_top. intros nw _. apply wlp_top. intros t Et. apply wlp_top. intros x9 Ex9. apply all3_upd; [exact HD4|]. rewrite (Zs _ _ Et), (HD4 _ _ _ _ Ex9). apply zero_plus.
Qed.
End D.

Lemma VolumeDerivatives_fail (S : Volume R (XYZW R)) der u v w : fails (ComputeVolumeRationalDerivatives S der u v w).
Proof.
  unfold ComputeVolumeRationalDerivatives. apply fails_bind. intros D ED. pose proof (VolumeHomDerivatives_zero _ _ _ _ _ _ ED) as ZD.
  apply fails_bind. intros A EA. apply fails_bind. intros W EW. pose proof (all3_mkvec _ _ _ _ _ EW) as ZW. apply fails_bind. intros D0 ED0.
  apply fails_bind. intros d0 Ed0. apply fails_bind. intros d00 Ed00. apply fails_bind. intros [A' W'] E.
  assert (ZW' : all3 n0 W').
  { assert (G : forall r, wlp r (fun r : list (list (list (XYZ R))) * list (list (list R)) => all3 n0 (snd r)) -> r = Ok (A', W') -> all3 n0 W') by (intros r G Er; apply (G _ Er)).
    refine (G _ _ E). clear G E. apply wlp_for_up; [exact ZW|]. intros i r1 Hi H1. apply wlp_for_up; [exact H1|]. intros j r2 Hj H2. apply wlp_for_up; [exact H2|]. intros k [A3 W3] Hk H3. cbn [snd] in H3.
    apply wlp_top. intros d Ed. apply wlp_top. intros x Ex. apply wlp_top. intros A4 EA4. apply wlp_top. intros W4 EW4. intros y Ey. injection Ey as <-. cbn [snd].
    revert EW4. apply all3_upd; [exact H3|]. rewrite (ZD _ _ _ _ Ed). reflexivity. }
  (* there is at least one derivative, the division by the weight fails *)
  assert (Hd : 0 <= der).
  { destruct (Z.le_gt_cases 0 der) as [C|C]; [exact C|exfalso]. unfold mkvec3 in EW. assert (Ne : forall X (x : X) l, mkvec (der + 1) x = Ok l -> l = []).
    { intros X x l. unfold mkvec. destruct (Z.ltb_spec (der + 1) 0); [discriminate|]. replace (Z.to_nat (der + 1)) with 0%nat by lia. intros Q. injection Q as <-. reflexivity. }
    unfold VolumeHomDerivatives in ED. destruct (mkvec3 (der + 1) (der + 1) (der + 1) vzero) as [Z|] eqn:EZ; [|discriminate]. cbn [bind] in ED.
    destruct (mkvec (VDegreeV S + 1) vzero); [|discriminate]. cbn [bind] in ED. destruct (mkvec (VDegreeW S + 1) vzero); [|discriminate]. cbn [bind] in ED.
    assert (EZ' : Z = []).
    { unfold mkvec3 in EZ. destruct (mkvec (der + 1) vzero) as [q1|]; [|discriminate]. cbn [bind] in EZ. destruct (mkvec (der + 1) q1); [|discriminate]. cbn [bind] in EZ. apply (Ne _ _ _ EZ). }
    repeat match type of ED with bind (GetKnotSpanIndex _ _ _) _ = Ok _ => destruct (GetKnotSpanIndex _ _ _) in ED; [cbn [bind] in ED|discriminate]
      | bind (BasisFunctionsDerivatives ?a ?b ?c ?d ?e) _ = Ok _ => destruct (BasisFunctionsDerivatives a b c d e) as [?|?]; [cbn [bind] in ED|discriminate] end.
    cbv zeta in ED. rewrite for_up_nil in ED by lia. cbn [bind] in ED. injection ED as <-. rewrite EZ' in Ed0. discriminate. }
  apply fails_for_up; [lia|]. apply fails_for_up; [lia|]. apply fails_for_up; [lia|].
  apply fails_bind. intros g _. rewrite for_up_nil by lia. cbn [bind]. rewrite for_up_nil by lia. cbn [bind]. rewrite for_up_nil by lia. cbn [bind].
  apply fails_bind. intros w0 Ew0. rewrite (ZW' _ _ _ _ Ew0). apply fails_lift. intros x Ex. pose proof (vdiv_zero (T := XYZ R) g) as G0. change (xyz_div g 0%R = NonFin) in G0. change (xyz_div g 0%R = Ok x) in Ex. congruence.
Qed.

Lemma VolumeCheck_fail (S : Volume R (XYZW R)) : fails (VolumeCheck S).
Proof.
  unfold VolumeCheck. do 9 (apply fails_bind; intros ? _). apply fails_lift. apply fails_for_upc; [lia|]. apply fails_for_upc; [lia|]. apply fails_for_upc; [lia|].
  apply fails_lift. apply VolumeDerivatives_fail.
Qed.

Lemma GetParamOnVolume_fail fuel (S : Volume R (XYZW R)) P : fails (GetParamOnVolume fuel S P).
Proof.
  unfold GetParamOnVolume. do 12 (apply fails_bind; intros ? _). apply fails_bind. intros [[a b] c] _. apply fails_lift. apply fails_for_upc; [lia|]. apply fails_lift. apply VolumeDerivatives_fail.
Qed.
