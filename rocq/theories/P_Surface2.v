(* Knot insertion into surfaces, in either direction. *)
From Coq Require Import ZArith List Bool Reals Lra Lia Permutation.
From Verif Require Import Base Num Vec Tac Spec Spec2 Spec4 M_MathUtils M_Polynomials M_Bspline M_NurbsCurve M_Knots M_Curve2 M_Surface
  P_MathUtils P_Span P_Cox P_Basis P_VSum P_Curve P_Bspline P_BsplineS P_Loop P_Blossom P_Insert P_Insert2 P_Refine P_Reverse P_Reparam P_Math2 P_KnotMap P_KnotMap2 P_Surface.
Import ListNotations.
Open Scope Z_scope.

Section Ins.
Context {T : Type} {V : Vec R T} {L : VecL T}.

Section Line.
Context (p n : Z) (U : list R) (u : R) (k s r : Z).
Hypothesis Hc : curve_knots p n U.
Hypothesis Hk : span_of p n U u k.
Hypothesis Hun : (u < val U (n + 1))%R.
Hypothesis Hs : 0 <= s.
Hypothesis Hr : 1 <= r.
Hypothesis Hsr : s + r <= p.

Let al (i j : Z) : R := ((u - val U (k - p + j + i)) / (val U (i + k + 1) - val U (k - p + j + i)))%R.
Let alD (i j : Z) : Prop := 1 <= j <= r /\ 0 <= i <= p - j - s.

Lemma gap i j : alD i j -> (val U (k - p + j + i) < val U (i + k + 1))%R.
Proof.
  intros [H1 H2]. pose proof Hc as [Hp Hn Hl Hsort _ _]. pose proof Hk as (Hkr & Hlt & Hku & Hku').
  pose proof (Hsort (k - p + j + i) k ltac:(lia) ltac:(lia) ltac:(lia)). pose proof (Hsort (k + 1) (i + k + 1) ltac:(lia) ltac:(lia) ltac:(lia)). lra.
Qed.

Lemma insert_alpha_ok : wp (insert_alpha p s r k U u) (fun a => arr2D a (p - s) (r + 1) alD al).
Proof.
  pose proof Hc as [Hp Hn Hl Hsort _ _]. pose proof Hk as (Hkr & Hlt & Hku & Hku').
  assert (AU : arr U (n + p + 2) (val U)) by (rewrite <- Hl; apply arr_at).
  unfold insert_alpha. apply wp_bind. apply wp_mkvec; [lia|]. intros row Hrow. apply wp_bind. eapply wp_mkvec2; [lia|exact Hrow|]. intros a Ha.
  apply wp_for_up with (P := fun h a => arr2D a (p - s) (r + 1) (fun i j => alD i j /\ j < h) al); [lia| | |].
  - eapply arr2D_ext; [apply (arr2_D _ _ _ (fun _ _ => False)); exact Ha|]. intros i j Hi Hj [HD HD']. unfold alD in HD. lia.
  - clear a Ha. intros j a Hj Ha.
    apply wp_for_up' with (P := fun h a => arr2D a (p - s) (r + 1) (fun i j' => alD i j' /\ (j' < j \/ (j' = j /\ i < h))) al).
    + eapply arr2D_ext; [exact Ha|]. intros i j' Hi Hj' [HD HD']. split; [|reflexivity]. split; [exact HD|]. unfold alD in HD. lia.
    + clear a Ha. intros i a Hi Ha. wget AU. wget AU.
      assert (HD : alD i j) by (unfold alD; lia). pose proof (gap i j HD) as G.
      change (ndiv (nsub u (val U (k - p + j + i))) (nsub (val U (i + k + 1)) (val U (k - p + j + i)))) with
        (Rdiv_ (u - val U (k - p + j + i)) (val U (i + k + 1) - val U (k - p + j + i))).
      rewrite Rdiv_ok by lra. cbn [bind]. eapply arr2D_set; [exact Ha|lia|lia|reflexivity| |intros a' Ha'; exact Ha'].
      intros x y Hx Hy [H1 H2]. destruct (Z.eq_dec x i), (Z.eq_dec y j); [left; auto|right; split; [exact H1|lia]..].
    + clear a Ha. intros a Ha. eapply arr2D_ext; [exact Ha|]. intros x y Hx Hy [H1 H2]. split; [|reflexivity]. split; [exact H1|]. unfold alD in H1. lia.
  - clear a Ha. intros a Ha. eapply arr2D_ext; [exact Ha|]. intros x y Hx Hy H1. split; [|reflexivity]. split; [exact H1|]. unfold alD in H1. lia.
Qed.

Section Store.
Context {St : Type} (Rel : St -> (Z -> T) -> Prop) (rd : Z -> res T) (wr : St -> Z -> T -> res St) (P : list T).
Hypothesis Hrd : forall i, 0 <= i <= n -> rd i = Ok (pt P i).
Hypothesis Hwr : forall st f i x (Q : St -> Prop), Rel st f -> 0 <= i < n + 1 + r ->
  (forall st', Rel st' (fun j => if j =? i then x else f j) -> Q st') -> wp (wr st i x) Q.

Let F := insP (val U) (pt P) p k s r u.
Let RD (st : St) (D : Z -> Prop) : Prop := exists f, Rel st f /\ forall i, 0 <= i < n + 1 + r -> D i -> f i = F i.

Lemma RD_ext st (D D' : Z -> Prop) : RD st D -> (forall i, 0 <= i < n + 1 + r -> D' i -> D i) -> RD st D'.
Proof. intros (f & H1 & H2) H. exists f. split; [exact H1|]. intros i Hi HD. apply H2; auto. Qed.
Lemma RD_set st (D D' : Z -> Prop) i x (Q : St -> Prop) : RD st D -> 0 <= i < n + 1 + r -> x = F i ->
  (forall j, 0 <= j < n + 1 + r -> D' j -> j = i \/ D j) -> (forall st', RD st' D' -> Q st') -> wp (wr st i x) Q.
Proof.
  intros (f & H1 & H2) Hi -> HD HQ. eapply Hwr; [exact H1|exact Hi|]. intros st' H'. apply HQ. exists (fun j => if j =? i then F i else f j). split; [exact H'|].
  intros j Hj Dj. cbv beta. destruct (Z.eqb_spec j i) as [->|Hne]; [reflexivity|]. destruct (HD j Hj Dj) as [E|E]; [contradiction|]. apply H2; auto.
Qed.

Lemma insert_line_ok alpha temp w0 st f0 : arr2D alpha (p - s) (r + 1) alD al -> arr temp (p + 1) w0 -> Rel st f0 ->
  wp (insert_line p s r k (n + 1) alpha rd wr temp st) (fun '(temp', st') => (exists w1, arr temp' (p + 1) w1) /\
     exists f, Rel st' f /\ forall i, 0 <= i < n + 1 + r -> f i = F i).
Proof.
  intros Hal Ht Hst. pose proof Hc as [Hp Hn Hl Hsort _ _]. pose proof Hk as (Hkr & Hlt & Hku & Hku').
  unfold insert_line. apply wp_bind.
  apply wp_for_up with (P := fun h q => RD q (fun i => i < h)); [lia| | |].
  { exists f0. split; [exact Hst|]. dl. }
  { intros i q' Hi Hq'. rewrite Hrd by lia. cbn [bind]. eapply RD_set; [exact Hq'|lia| | |intros q'' H''; exact H''].
    - unfold F, insP. destruct (Z.leb_spec i (k - p)); [reflexivity|lia].
    - intros j Hj; cbv beta; lia. }
  clear st Hst. intros q Hq. apply wp_bind.
  apply wp_for_up with (P := fun h q => RD q (fun i => i <= k - p \/ k - s + r <= i < h + r)); [lia| | |].
  { eapply RD_ext; [exact Hq|]. dl. }
  { intros i q' Hi Hq'. rewrite Hrd by lia. cbn [bind]. eapply RD_set; [exact Hq'|lia| | |intros q'' H''; exact H''].
    - unfold F, insP. destruct (Z.leb_spec (i + r) (k - p)); [lia|]. destruct (Z.leb_spec (k - s + r) (i + r)); [f_equal; lia|lia].
    - intros j Hj; cbv beta; lia. }
  clear q Hq. intros q Hq. apply wp_bind.
  set (tb := tab (val U) (pt P) p u).
  set (tv := fun j i => tb (Z.min j (p - s - i)) (k - p + Z.min j (p - s - i) + i)).
  apply wp_for_up with (P := fun h w => arrD w (p + 1) (fun i => i < h) (tv 0)); [lia| | |].
  { eapply arrD_ext; [apply arrD_of_arr with (D := fun _ => False); exact Ht|]; dx. }
  { intros i w' Hi Hw'. rewrite Hrd by lia. cbn [bind]. eapply arrD_set; [exact Hw'|lia| | |intros w'' H''; exact H''].
    - unfold tv. replace (Z.min 0 (p - s - i)) with 0 by lia. unfold tb. rewrite tab_0. f_equal. lia.
    - dl. }
  clear temp Ht. intros w Hw. apply wp_bind.
  apply wp_for_up with (P := fun h '(w, q) => arrD w (p + 1) (fun i => i <= p - s) (tv (h - 1)) /\
    RD q (fun i => i <= k - p + (h - 1) \/ k - s + r - (h - 1) <= i)); [lia| | |].
  { split; [eapply arrD_ext; [exact Hw|]; dx|]. eapply RD_ext; [exact Hq|]. dl. }
  { clear w q Hw Hq. intros j [w q] Hj [Hw Hq]. replace (j + 1 - 1) with j in * by lia. cbv beta iota zeta.
    apply wp_bind.
    apply wp_for_up' with (P := fun h w => arrD w (p + 1) (fun i => i <= p - s) (fun i => if i <? h then tv j i else tv (j - 1) i)).
    - eapply arrD_ext; [exact Hw|]. intros i Hi HD. split; [exact HD|]. destruct (Z.ltb_spec i 0); [lia|reflexivity].
    - intros i w' Hi Hw'. assert (HD : alD i j) by (unfold alD; lia). rewrite (arr2D_get _ _ _ _ _ _ _ Hal) by (try lia; exact HD). cbn [bind].
      wget Hw'. wget Hw'. eapply arrD_upd; [exact Hw'|lia|]. intros w'' H''.
      eapply arrD_ext; [exact H''|]. intros x Hx HDx. cbv beta. split; [right; exact HDx|].
      destruct (Z.eqb_spec x i) as [->|Hne].
      + destruct (Z.ltb_spec i (i + 1)); [|lia]. destruct (Z.ltb_spec (i + 1) i); [lia|]. destruct (Z.ltb_spec i i); [lia|].
        unfold al, tv. rewrite !Z.min_l by lia. unfold tb. rewrite (tab_succ _ _ _ _ j) by lia.
        rewrite <- blend_deB. f_equal; f_equal; try lia; f_equal; f_equal; lia.
      + destruct (Z.ltb_spec x i), (Z.ltb_spec x (i + 1)); reflexivity || lia.
    - intros w' Hw'.
      assert (Hw2 : arrD w' (p + 1) (fun i => i <= p - s) (tv j)).
      { eapply arrD_ext; [exact Hw'|]. intros i Hi HD. split; [exact HD|]. cbv beta. destruct (Z.ltb_spec i (Z.max 0 (p - j - s + 1))); [reflexivity|].
        unfold tv. rewrite !Z.min_r by lia. reflexivity. }
      clear Hw' Hw. wget Hw2.
      apply wp_bind. eapply RD_set with (D' := fun i => i <= k - p + j \/ k - s + r - (j - 1) <= i); [exact Hq|lia| | |].
      { unfold F, insP, tv. destruct (Z.leb_spec (k - p + j) (k - p)); [lia|].
        destruct (Z.leb_spec (k - s + r) (k - p + j)) as [C|C]; [lia|].
        unfold tb. destruct (Z.ltb_spec (k - p + j) (k - s)); f_equal; lia. }
      { intros i Hi; cbv beta; lia. }
      clear q Hq. intros q Hq. wget Hw2. apply wp_bind.
      eapply RD_set with (D' := fun i => i <= k - p + j \/ k - s + r - j <= i); [exact Hq|lia| | |].
      { unfold F, insP, tv, tb. destruct (Z.leb_spec (k + r - j - s) (k - p)); [lia|]. destruct (Z.leb_spec (k - s + r) (k + r - j - s)); [lia|].
        destruct (Z.ltb_spec (k + r - j - s) (k - s)); [lia|]. f_equal; lia. }
      { intros i Hi; cbv beta; lia. }
      intros q' Hq'. split; [exact Hw2|]. exact Hq'. }
  clear w q Hw Hq. intros [w q] [Hw Hq]. replace (r + 1 - 1) with r in * by lia. cbv beta iota.
  destruct (Z.ltb_spec r 1); [lia|]. apply wp_bind.
  apply wp_for_up' with (P := fun h q => RD q (fun i => i < h \/ k - s <= i)).
  { eapply RD_ext; [exact Hq|]. dl. }
  { intros i q' Hi Hq'. wget Hw. eapply RD_set; [exact Hq'|lia| | |intros q'' H''; exact H''].
    - unfold F, insP, tv, tb. destruct (Z.leb_spec i (k - p)); [lia|]. destruct (Z.leb_spec (k - s + r) i); [lia|].
      destruct (Z.ltb_spec i (k - s)); [|lia]. f_equal; lia.
    - intros j Hj; cbv beta; lia. }
  clear q Hq. intros q (f & H1 & H2). cbn [wp]. split.
  - exists (at_ vzero w). destruct Hw as [<- _]. apply arr_at.
  - exists f. split; [exact H1|]. intros i Hi. apply H2; [exact Hi|lia].
Qed.
End Store.

(* the knots *)
Lemma insert_knots_ok (X : Type) (K : list R -> res X) (Q : X -> Prop) : (forall v, arr v (n + p + 2 + r) (insU (val U) k r u) -> wp (K v) Q) ->
  wp (
    let! v := mkvec (len U + r) n0 in
    let! v := for_up 0 (k + 1) v (fun i v => let! x := get U i in upd v i x) in
    let! v := for_up 1 (r + 1) v (fun i v => upd v (k + i) u) in
    let! v := for_up (k + 1) (len U) v (fun i v => let! x := get U i in upd v (i + r) x) in K v) Q.
Proof.
  intros HK. pose proof Hc as [Hp Hn Hl Hsort _ _]. pose proof Hk as (Hkr & Hlt & Hku & Hku').
  assert (AU : arr U (n + p + 2) (val U)) by (rewrite <- Hl; apply arr_at). rewrite Hl.
  apply wp_bind. apply wp_mkvec; [lia|]. intros v Hv. apply wp_bind.
  apply wp_for_up with (P := fun h v => arrD v (n + p + 2 + r) (fun i => i < h) (insU (val U) k r u)); [lia| | |].
  { eapply arrD_ext; [apply arrD_of_arr with (D := fun _ => False); exact Hv|]; dx. }
  { intros i v' Hi Hv'. wget AU. eapply arrD_set; [exact Hv'|lia| | |intros v'' H''; exact H''].
    - unfold insU. destruct (Z.leb_spec i k); [reflexivity|lia].
    - dl. }
  clear v Hv. intros v Hv. apply wp_bind.
  apply wp_for_up with (P := fun h v => arrD v (n + p + 2 + r) (fun i => i < k + h) (insU (val U) k r u)); [lia| | |].
  { eapply arrD_ext; [exact Hv|]; dx. }
  { intros i v' Hi Hv'. eapply arrD_set; [exact Hv'|lia| | |intros v'' H''; exact H''].
    - unfold insU. destruct (Z.leb_spec (k + i) k); [lia|]. destruct (Z.leb_spec (k + i) (k + r)); [reflexivity|lia].
    - dl. }
  clear v Hv. intros v Hv. apply wp_bind.
  apply wp_for_up with (P := fun h v => arrD v (n + p + 2 + r) (fun i => i < h + r) (insU (val U) k r u)); [lia| | |].
  { eapply arrD_ext; [exact Hv|]; dx. }
  { intros i v' Hi Hv'. wget AU. eapply arrD_set; [exact Hv'|lia| | |intros v'' H''; exact H''].
    - unfold insU. destruct (Z.leb_spec (i + r) k); [lia|]. destruct (Z.leb_spec (i + r) (k + r)); [lia|f_equal; lia].
    - dl. }
  clear v Hv. intros v Hv. apply HK. eapply arr_of_arrD; [exact Hv|dl].
Qed.
End Line.

(* copies really inserted by the surface operation *)
Definition sinserted (p s times : Z) : Z := Z.min times (p - s).

Lemma mult_exact p n U u k : curve_knots p n U -> span_of p n U u k -> (val U p < u < val U (n + 1))%R ->
  (forall x, In x U -> (Rabs (u - x) <= tol u x)%R -> x = u) ->
  let s := Z.of_nat (count_occ Req_EM_T U u) in
  GetKnotSpanIndex p U u = Ok k /\ GetKnotMultiplicity U u = Ok s /\ 0 <= s <= k + 1 /\ (forall i, k - s < i <= k -> val U i = u).
Proof.
  intros Hc Hk Hu Hsep s. pose proof Hc as [Hp Hn Hl Hsort _ _]. pose proof Hk as (Hkr & Hlt & Hku & Hku').
  assert (Hku1 : (u < val U (k + 1))%R) by (destruct Hku' as [?|[-> ->]]; lra).
  pose proof (Hsort 0 k ltac:(lia) ltac:(lia) ltac:(lia)) as H0k. pose proof (Hsort (k + 1) (len U - 1) ltac:(lia) ltac:(lia) ltac:(lia)) as Hkl.
  destruct (count_sorted U u k Hsort ltac:(lia) Hku Hku1) as (Hs1 & Hs2 & Hs3).
  split; [apply (find_span_eq p n); auto|]. split; [apply GetKnotMultiplicity_exact; auto; [lia|lra]|]. split; [exact Hs1|exact Hs2].
Qed.

Lemma SurfaceInsert_v_arr n m (S : Surface R T) v times : valid_surface n m S ->
  (val (KnotVectorV S) (DegreeV S) < v < val (KnotVectorV S) (m + 1))%R ->
  (forall x, In x (KnotVectorV S) -> (Rabs (v - x) <= tol v x)%R -> x = v) -> 1 <= times ->
  let s := Z.of_nat (count_occ Req_EM_T (KnotVectorV S) v) in
  let r := sinserted (DegreeV S) s times in
  (s = DegreeV S -> SurfaceInsertKnot S v times false = Ok S) /\
  (s < DegreeV S -> returns (SurfaceInsertKnot S v times false) (fun S' => valid_surface n (m + r) S' /\
    DegreeU S' = DegreeU S /\ DegreeV S' = DegreeV S /\ KnotVectorU S' = KnotVectorU S /\
    Permutation (KnotVectorV S') (repeat v (Z.to_nat r) ++ KnotVectorV S) /\
    (exists k, span_of (DegreeV S) m (KnotVectorV S) v k /\ arr (KnotVectorV S') (m + DegreeV S + 2 + r) (insU (val (KnotVectorV S)) k r v) /\
       arr2 (SControlPoints S') (n + 1) (m + r + 1) (fun i j => insP (val (KnotVectorV S)) (pt (at_ nil (SControlPoints S) i)) (DegreeV S) k s r v j)) /\
    forall u t, u_domain n S u -> v_domain m S t -> GetPointOnSurface S' u t = GetPointOnSurface S u t)).
Proof.
  intros HS Hv Hsep Ht s r. pose proof HS as (HU & HW & HP & H7 & H7'). destruct S as [p q U W P]. unfold u_domain, v_domain.
  cbn [DegreeU DegreeV KnotVectorU KnotVectorV SControlPoints] in *. pose proof HU as [Hp Hn HlU _ _ _]. pose proof HW as [Hq Hm HlW HsW _ _].
  destruct (find_span q m W v HW ltac:(unfold in_domain; lra)) as (k & _ & Hk).
  destruct (mult_exact q m W v k HW Hk Hv Hsep) as (ES & EM & Hs & Hsv). fold s in EM, Hs, Hsv.
  unfold SurfaceInsertKnot. cbn [DegreeU DegreeV KnotVectorU KnotVectorV SControlPoints].
  rewrite (get_at nil) by (rewrite (proj1 HP); lia). cbn [bind]. rewrite (proj2 HP 0) by lia.
  assert (EV : IsValidNurbs q (len W) (m + 1) = true) by (unfold IsValidNurbs; rewrite HlW; apply Z.eqb_eq; lia).
  rewrite EV. cbn [validate bind]. rewrite ES. cbn [bind]. rewrite EM. cbn [bind]. split.
  { intros ->. rewrite Z.eqb_refl. reflexivity. }
  intros Hsq. destruct (Z.eqb_spec s q); [lia|].
  assert (Er : (if q <? times + s then q - s else times) = r) by (unfold r, sinserted; destruct (Z.ltb_spec q (times + s)); lia).
  rewrite Er. assert (Hr : 1 <= r) by (unfold r, sinserted; lia). assert (Hsr : s + r <= q) by (unfold r, sinserted; lia). clearbody r s. clear Er EM EV.
  apply wp_elim. apply (insert_knots_ok q m W v k s r HW Hk ltac:(lia) Hr Hsr). intros W' HW'. apply wp_bind.
  eapply wp_mono; [apply (insert_alpha_ok q m W v k s r HW Hk ltac:(lra)); lia|]. cbv beta. intros alpha Hal. apply wp_bind. apply wp_mkvec; [lia|]. intros temp Htemp.
  cbn [bind]. rewrite ?(proj2 HP 0), (proj1 HP) by lia.
  apply wp_bind. apply wp_mkvec; [lia|]. intros row Hrow. apply wp_bind. eapply wp_mkvec2; [lia|exact Hrow|]. intros up Hup.
  set (Fv := fun i j => insP (val W) (pt (at_ nil P i)) q k s r v j).
  apply wp_bind.
  apply wp_for_up with (P := fun h '(temp, up) => (exists w, arr temp (q + 1) w) /\ exists g, arr2 up (n + 1) (m + 1 + r) g /\
     forall i j, 0 <= i < h -> 0 <= j < m + 1 + r -> g i j = Fv i j); [lia| | |].
  - split; [eexists; exact Htemp|]. eexists. split; [exact Hup|]. intros; lia.
  - clear temp Htemp up Hup row Hrow. intros i [temp up] Hi ((w & Htemp) & g & Hup & Hg).
    eapply wp_mono; [eapply (insert_line_ok q m W v k s r HW Hk ltac:(lia) Hr Hsr
       (fun up f => arr2 up (n + 1) (m + 1 + r) (fun a b => if a =? i then f b else g a b)) _ _ (at_ nil P i)) with (f0 := g i); [| |exact Hal|exact Htemp|]|].
    + intros j Hj. unfold get2. rewrite (get_at nil) by (rewrite (proj1 HP); lia). cbn [bind]. apply (arr_get _ _ _ j (arr_pt _ _ (proj2 HP i Hi))). lia.
    + intros st f j x Q Hst Hj HQ. apply (arr2_upd _ _ _ _ _ _ _ _ Hst); [lia|lia|]. intros st' Hst'. apply HQ. eapply arr2_ext; [exact Hst'|].
      intros a b Ha Hb. cbv beta. destruct (Z.eqb_spec a i), (Z.eqb_spec b j); reflexivity.
    + eapply arr2_ext; [exact Hup|]. intros a b Ha Hb. cbv beta. destruct (Z.eqb_spec a i) as [->|]; reflexivity.
    + intros [temp' up'] (Hw' & f & Hup' & Hf). split; [exact Hw'|]. eexists. split; [exact Hup'|]. cbv beta.
      intros a b Ha Hb. destruct (Z.eqb_spec a i) as [->|]; [apply Hf; exact Hb|apply Hg; [lia|exact Hb]].
  - clear temp Htemp up Hup row Hrow. intros [temp Q] (_ & g & HQ & Hg). cbn [wp snd DegreeU DegreeV KnotVectorU KnotVectorV SControlPoints].
    assert (AQ : arr2 Q (n + 1) (m + r + 1) Fv) by (eapply arr2_ext; [replace (m + r + 1) with (m + 1 + r) by lia; exact HQ|]; intros i j Hi Hj; apply Hg; lia).
    assert (HS' : valid_surface n (m + r) (mkSurface p q U W' Q)).
    { split; [exact HU|]. split; [apply (ins_knots q m W v k r W'); auto|]. split; [apply (net_arr2 _ _ _ _ AQ)|]. split; assumption. }
    split; [exact HS'|]. do 3 (split; [reflexivity|]). split; [apply (insU_perm W W' k r v); [lia| |rewrite HlW; exact HW']|].
    { pose proof Hk as (Hkr & _). lia. }
    split; [exists k; split; [exact Hk|]; split; [exact HW'|exact AQ]|]. intros u t Du Dt. rewrite (GetPointOnSurface_ok p n U q m W P) by auto.
    rewrite (GetPointOnSurface_ok p n U q (m + r) W' Q); auto; [|apply HS'|apply HS'|apply (ins_domain q m W v k r W'); auto].
    f_equal. apply surface_point_rowwise. intros i Hi.
    destruct (arr2_row _ _ _ _ i AQ ltac:(lia)) as (rowi & E & Arow).
    assert (Erow : at_ nil Q i = rowi) by (rewrite (get_at nil) in E by (rewrite (arr2_len _ _ _ _ AQ); lia); congruence).
    rewrite Erow. apply (ins_curve q m W (at_ nil P i) rowi v k s r W' t); auto; [lia|lia|].
    replace (m + 1 + r) with (m + r + 1) by lia. exact Arow.
Qed.

Lemma SurfaceInsert_v n m (S : Surface R T) v times : valid_surface n m S ->
  (val (KnotVectorV S) (DegreeV S) < v < val (KnotVectorV S) (m + 1))%R ->
  (forall x, In x (KnotVectorV S) -> (Rabs (v - x) <= tol v x)%R -> x = v) -> 1 <= times ->
  let s := Z.of_nat (count_occ Req_EM_T (KnotVectorV S) v) in
  let r := sinserted (DegreeV S) s times in
  (s = DegreeV S -> SurfaceInsertKnot S v times false = Ok S) /\
  (s < DegreeV S -> returns (SurfaceInsertKnot S v times false) (fun S' => valid_surface n (m + r) S' /\
    DegreeU S' = DegreeU S /\ DegreeV S' = DegreeV S /\ KnotVectorU S' = KnotVectorU S /\
    Permutation (KnotVectorV S') (repeat v (Z.to_nat r) ++ KnotVectorV S) /\
    forall u t, u_domain n S u -> v_domain m S t -> GetPointOnSurface S' u t = GetPointOnSurface S u t)).
Proof.
  intros HS Hv Hsep Ht s r. destruct (SurfaceInsert_v_arr n m S v times HS Hv Hsep Ht) as (H1 & H2). split; [exact H1|]. intros Hs.
  destruct (H2 Hs) as (S' & E & A1 & A2 & A3 & A4 & A5 & _ & A6). exists S'. split; [exact E|]. fold s in A1, A5. auto 10.
Qed.

Lemma SurfaceInsert_u_arr n m (S : Surface R T) v times : valid_surface n m S ->
  (val (KnotVectorU S) (DegreeU S) < v < val (KnotVectorU S) (n + 1))%R ->
  (forall x, In x (KnotVectorU S) -> (Rabs (v - x) <= tol v x)%R -> x = v) -> 1 <= times ->
  let s := Z.of_nat (count_occ Req_EM_T (KnotVectorU S) v) in
  let r := sinserted (DegreeU S) s times in
  (s = DegreeU S -> SurfaceInsertKnot S v times true = Ok S) /\
  (s < DegreeU S -> returns (SurfaceInsertKnot S v times true) (fun S' => valid_surface (n + r) m S' /\
    DegreeU S' = DegreeU S /\ DegreeV S' = DegreeV S /\ KnotVectorV S' = KnotVectorV S /\
    Permutation (KnotVectorU S') (repeat v (Z.to_nat r) ++ KnotVectorU S) /\
    (exists k, span_of (DegreeU S) n (KnotVectorU S) v k /\ arr (KnotVectorU S') (n + DegreeU S + 2 + r) (insU (val (KnotVectorU S)) k r v) /\
       arr2 (SControlPoints S') (n + r + 1) (m + 1) (fun i j => insP (val (KnotVectorU S)) (pt (mklist (n + 1) (fun i => pt2 (SControlPoints S) i j))) (DegreeU S) k s r v i)) /\
    forall u t, u_domain n S u -> v_domain m S t -> GetPointOnSurface S' u t = GetPointOnSurface S u t)).
Proof.
  intros HS Hv Hsep Ht s r. pose proof HS as (HU & HW & HP & H7 & H7'). destruct S as [p q U W P]. unfold u_domain, v_domain.
  cbn [DegreeU DegreeV KnotVectorU KnotVectorV SControlPoints] in *. pose proof HU as [Hp Hn HlU HsU _ _]. pose proof HW as [Hq Hm HlW HsW _ _].
  destruct (find_span p n U v HU ltac:(unfold in_domain; lra)) as (k & _ & Hk).
  destruct (mult_exact p n U v k HU Hk Hv Hsep) as (ES & EM & Hs & Hsv). fold s in EM, Hs, Hsv.
  unfold SurfaceInsertKnot. cbn [DegreeU DegreeV KnotVectorU KnotVectorV SControlPoints].
  rewrite (proj1 HP).
  assert (EV : IsValidNurbs p (len U) (n + 1) = true) by (unfold IsValidNurbs; rewrite HlU; apply Z.eqb_eq; lia).
  rewrite EV. cbn [validate bind]. rewrite ES. cbn [bind]. rewrite EM. cbn [bind]. split.
  { intros ->. rewrite Z.eqb_refl. reflexivity. }
  intros Hsq. destruct (Z.eqb_spec s p); [lia|].
  assert (Er : (if p <? times + s then p - s else times) = r) by (unfold r, sinserted; destruct (Z.ltb_spec p (times + s)); lia).
  rewrite Er. assert (Hr : 1 <= r) by (unfold r, sinserted; lia). assert (Hsr : s + r <= p) by (unfold r, sinserted; lia). clearbody r s. clear Er EM EV.
  apply wp_elim. apply (insert_knots_ok p n U v k s r HU Hk ltac:(lia) Hr Hsr). intros U' HU'. apply wp_bind.
  eapply wp_mono; [apply (insert_alpha_ok p n U v k s r HU Hk ltac:(lra)); lia|]. cbv beta. intros alpha Hal. apply wp_bind. apply wp_mkvec; [lia|]. intros temp Htemp.
  rewrite (get_at nil) by (rewrite (proj1 HP); lia). cbn [bind]. rewrite (proj2 HP 0) by lia.
  apply wp_bind. apply wp_mkvec; [lia|]. intros row Hrow. apply wp_bind. eapply wp_mkvec2; [lia|exact Hrow|]. intros up Hup.
  set (colp := fun j => mklist (n + 1) (fun i => pt2 P i j)).
  assert (Acol : forall j, arr (colp j) (n + 1) (fun i => pt2 P i j)) by (intros j; apply arr_mklist; lia).
  set (Fv := fun i j => insP (val U) (pt (colp j)) p k s r v i).
  apply wp_bind.
  apply wp_for_up with (P := fun h '(temp, up) => (exists w, arr temp (p + 1) w) /\ exists g, arr2 up (n + 1 + r) (m + 1) g /\
     forall i j, 0 <= j < h -> 0 <= i < n + 1 + r -> g i j = Fv i j); [lia| | |].
  - split; [eexists; exact Htemp|]. eexists. split; [exact Hup|]. intros; lia.
  - clear temp Htemp up Hup row Hrow. intros j [temp up] Hj ((w & Htemp) & g & Hup & Hg).
    eapply wp_mono; [eapply (insert_line_ok p n U v k s r HU Hk ltac:(lia) Hr Hsr
       (fun up f => arr2 up (n + 1 + r) (m + 1) (fun a b => if b =? j then f a else g a b)) _ _ (colp j)) with (f0 := fun i => g i j); [| |exact Hal|exact Htemp|]|].
    + intros i Hi. rewrite (arr2_get _ _ _ _ i j (arr2_net _ _ _ HP)) by lia. f_equal. symmetry. apply (arr_pt_eq _ _ _ _ (Acol j)). lia.
    + intros st f i x Q Hst Hi HQ. apply (arr2_upd _ _ _ _ _ _ _ _ Hst); [lia|lia|]. intros st' Hst'. apply HQ. eapply arr2_ext; [exact Hst'|].
      intros a b Ha Hb. cbv beta. destruct (Z.eqb_spec a i), (Z.eqb_spec b j); reflexivity.
    + eapply arr2_ext; [exact Hup|]. intros a b Ha Hb. cbv beta. destruct (Z.eqb_spec b j) as [->|]; reflexivity.
    + intros [temp' up'] (Hw' & f & Hup' & Hf). split; [exact Hw'|]. eexists. split; [exact Hup'|]. cbv beta.
      intros a b Ha Hb. destruct (Z.eqb_spec b j) as [->|]; [apply Hf; exact Hb|apply Hg; [lia|exact Hb]].
  - clear temp Htemp up Hup row Hrow. intros [temp Q] (_ & g & HQ & Hg). cbn [wp snd DegreeU DegreeV KnotVectorU KnotVectorV SControlPoints].
    assert (AQ : arr2 Q (n + r + 1) (m + 1) Fv) by (eapply arr2_ext; [replace (n + r + 1) with (n + 1 + r) by lia; exact HQ|]; intros i j Hi Hj; apply Hg; lia).
    assert (HS' : valid_surface (n + r) m (mkSurface p q U' W Q)).
    { split; [apply (ins_knots p n U v k r U'); auto|]. split; [exact HW|]. split; [apply (net_arr2 _ _ _ _ AQ)|]. split; assumption. }
    split; [exact HS'|]. do 3 (split; [reflexivity|]). split; [apply (insU_perm U U' k r v); [lia| |rewrite HlU; exact HU']|].
    { pose proof Hk as (Hkr & _). lia. }
    split; [exists k; split; [exact Hk|]; split; [exact HU'|exact AQ]|]. intros u t Du Dt. rewrite (GetPointOnSurface_ok p n U q m W P) by auto.
    rewrite (GetPointOnSurface_ok p (n + r) U' q m W Q); auto; [|apply HS'|apply HS'|apply (ins_domain p n U v k r U'); auto].
    f_equal. apply surface_point_colwise; [lia|lia|]. intros j col col' Hj A A'.
    rewrite (arr_inj _ _ _ _ A (Acol j)).
    apply (ins_curve p n U (colp j) col' v k s r U' u); auto; [lia|lia|].
    replace (n + 1 + r) with (n + r + 1) by lia. eapply arr_ext; [exact A'|]. intros i Hi. cbv beta.
    apply (pt2_arr2 _ _ _ _ _ _ AQ); lia.
Qed.
Lemma SurfaceInsert_u n m (S : Surface R T) v times : valid_surface n m S ->
  (val (KnotVectorU S) (DegreeU S) < v < val (KnotVectorU S) (n + 1))%R ->
  (forall x, In x (KnotVectorU S) -> (Rabs (v - x) <= tol v x)%R -> x = v) -> 1 <= times ->
  let s := Z.of_nat (count_occ Req_EM_T (KnotVectorU S) v) in
  let r := sinserted (DegreeU S) s times in
  (s = DegreeU S -> SurfaceInsertKnot S v times true = Ok S) /\
  (s < DegreeU S -> returns (SurfaceInsertKnot S v times true) (fun S' => valid_surface (n + r) m S' /\
    DegreeU S' = DegreeU S /\ DegreeV S' = DegreeV S /\ KnotVectorV S' = KnotVectorV S /\
    Permutation (KnotVectorU S') (repeat v (Z.to_nat r) ++ KnotVectorU S) /\
    forall u t, u_domain n S u -> v_domain m S t -> GetPointOnSurface S' u t = GetPointOnSurface S u t)).
Proof.
  intros HS Hv Hsep Ht s r. destruct (SurfaceInsert_u_arr n m S v times HS Hv Hsep Ht) as (H1 & H2). split; [exact H1|]. intros Hs.
  destruct (H2 Hs) as (S' & E & A1 & A2 & A3 & A4 & A5 & _ & A6). exists S'. split; [exact E|]. fold s in A1, A5. auto 10.
Qed.

End Ins.
