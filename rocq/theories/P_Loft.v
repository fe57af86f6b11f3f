(* Surfaces through a sequence of sections. *)
From Coq Require Import ZArith List Bool Reals Lra Lia.
From Verif Require Import Base Num Vec Tac Spec Spec2 Spec3 Spec4 Spec5 Spec6 Spec8 Spec10 Spec12 Spec13 M_MathUtils M_XYZ M_Bspline M_NurbsCurve M_Curve2 M_Interp M_Fit M_Surface M_Surface2
  P_MathUtils P_Span P_Cox P_Basis P_Vec P_XYZ P_VSum P_Curve P_Bspline P_BsplineS P_Loop P_Nurbs P_Surface P_Geom P_Interp P_Interp2 P_Fit P_Surf3 P_Surf5 P_Surf7 P_Vol2.
Import ListNotations.
Open Scope Z_scope.

Lemma degree_max_ok (l : list (Curve R W4)) p : forall d, d <= p -> (forall c, In c l -> Degree c <= p) -> d = p \/ (exists c, In c l /\ Degree c = p) ->
  fold_left (fun d (c : Curve R W4) => if d <? Degree c then Degree c else d) l d = p.
Proof.
  induction l as [|c l IH]; intros d Hd Hl He; cbn [fold_left].
  - destruct He as [|(c & [] & _)]; assumption.
  - pose proof (Hl c (or_introl eq_refl)) as Hc. apply IH.
    + destruct (d <? Degree c); assumption.
    + intros c' Hc'. apply Hl. right. exact Hc'.
    + destruct (Z.ltb_spec d (Degree c)) as [H|H].
      * destruct He as [->|(c' & [->|Hc'] & E)]; [lia|left; exact E|right; exists c'; auto].
      * destruct He as [->|(c' & [->|Hc'] & E)]; [left; reflexivity|left; lia|right; exists c'; auto].
Qed.

Lemma interpolation_knots solve p (Q : list (XYZ R)) us c : us <> [] -> GlobalInterpolation solve p Q us = Ok c -> AverageKnotVector p us = Ok (KnotVector c).
Proof.
  intros Hu H. unfold GlobalInterpolation in H. assert (E : len us <> 0) by (destruct us; [contradiction|rewrite len_cons; pose proof (len_nonneg us); lia]).
  destruct (Z.eqb_spec (len us) 0); [contradiction|].
  destruct ((0 <=? p) && (p <=? NURBSMaxDegree)); cbn [validate bind] in H; [|discriminate].
  destruct (p <? len Q); cbn [validate bind] in H; [|discriminate]. destruct (len us =? len Q); cbn [validate bind] in H; [|discriminate].
  destruct (AverageKnotVector p us) as [U|]; cbn [bind] in H; [|discriminate]. f_equal.
  repeat match type of H with bind ?m _ = _ => destruct m; cbn [bind] in H; [|discriminate] end. inversion H. reflexivity.
Qed.

Lemma comb_scale lo hi a k (g : Z -> W4) : comb lo hi a (fun i => vscale k (g i)) = vscale k (comb lo hi a g).
Proof.
  apply co_ext. intros c. rewrite co_comb, co_scale, co_comb, <- rsum_scal. apply rsum_ext. intros i Hi. rewrite co_scale. ring.
Qed.
Lemma divided_ok (x : W4) : ww x <> 0%R -> divided x = Ok (proj x).
Proof. intros H. unfold divided. rewrite !Rdiv_ok by exact H. reflexivity. Qed.

Section Loft.
Variable solve : list (list R) -> list (list R) -> res (list (list R)).
Hypothesis Hsolve : exact_solver solve.
Variables (p n : Z) (U : Z -> list R) (K q : Z) (vl : list R) (sections : list (Curve R W4)) (P : Z -> list W4) (w : Z -> Z -> R).
Hypothesis HU : curve_knots p n (U 0).
Hypothesis H7 : p <= 7.
Hypothesis Hlen : len sections = K + 1.
Hypothesis Hraise : forall k, 0 <= k <= K -> exists c, get sections k = Ok c /\ raised_to p (U k) c (P k).
Hypothesis Htop : exists k c, get sections k = Ok c /\ Degree c = p.
Hypothesis HP' : forall k, 0 <= k <= K -> n + 1 <= len (P k).
Hypothesis Hw : forall k i, 0 <= k <= K -> 0 <= i <= n -> ww (pt (P k) i) = w k i.
Hypothesis Hheavy : forall k i, 0 <= k <= K -> 0 <= i <= n -> (tol (w k i) 0 < w k i)%R.
Hypothesis HK : 1 <= K.

Lemma w_pos k i : 0 <= k <= K -> 0 <= i <= n -> (0 < w k i)%R.
Proof. intros Hk Hi. pose proof (Hheavy k i Hk Hi) as H. unfold tol in H. pose proof (Rmax_r (Rabs (w k i)) (Rabs 0)). pose proof (Rabs_pos 0). lra. Qed.

Hypothesis Hp1 : 0 <= p.
Lemma loft_degree : fold_left (fun d (c : Curve R W4) => if d <? Degree c then Degree c else d) sections 0 = p.
Proof.
  apply degree_max_ok; [lia| |].
  - intros c Hc. destruct (In_nth _ _ c Hc) as (k & Hk & Ek). destruct (Hraise (Z.of_nat k)) as (c' & Ec & c'' & _ & _ & Hd); [unfold len in Hlen; lia|].
    assert (c' = c). { rewrite (get_at c) in Ec by (unfold len; lia). unfold at_ in Ec. rewrite Nat2Z.id, Ek in Ec. congruence. }
    subst c'. destruct Hd as [(-> & _)|(H & _)]; lia.
  - right. destruct Htop as (k & c & Ec & Ed). exists c. split; [|exact Ed]. unfold get in Ec. destruct (k <? 0); [discriminate|]. destruct (nth_error sections (Z.to_nat k)) eqn:E; [|discriminate]. injection Ec as <-. apply (nth_error_In _ _ E).
Qed.

Lemma loft_internals {X} (k : list (Curve R W4) -> res X) (Q : X -> Prop) :
  (forall l, arr l (K + 1) (fun k => mkCurve p (U k) (P k)) -> wp (k l) Q) ->
  wp (let! internals := for_up 0 (K + 1) [] (fun k internals => let! current := get sections k in let! current := loft_raise p current in Ok (internals ++ [current])) in k internals) Q.
Proof.
  intros HQ. apply wp_bind. apply (wp_push 0 (K + 1) (fun k => mkCurve p (U k) (P k))); [lia| |].
  - intros i v' Hi _. destruct (Hraise i ltac:(lia)) as (c & -> & c' & EU & EP & Hd). cbn [bind]. unfold loft_raise. destruct Hd as [(Ed & ->)|(Hd & E)].
    + rewrite Ed, Z.ltb_irrefl. cbn [bind]. destruct c as [d V A]. cbn [Degree KnotVector ControlPoints] in *. subst. reflexivity.
    + destruct (Z.ltb_spec (Degree c) p); [|lia]. rewrite E. cbn [bind]. rewrite EU, EP. reflexivity.
  - intros l Hl. apply HQ. rewrite Z.sub_0_r in Hl. eapply arr_ext; [exact Hl|]. intros i Hi. cbv beta. replace (i + 0) with i by lia. reflexivity.
Qed.

Lemma loft_points l : arr l (K + 1) (fun k => mkCurve p (U k) (P k)) -> arr (map (@ControlPoints R W4) l) (K + 1) P.
Proof.
  intros (L & G). split; [unfold len in *; rewrite map_length; exact L|]. intros i Hi. specialize (G i Hi). unfold get in *. destruct (i <? 0); [discriminate|].
  rewrite nth_error_map. destruct (nth_error l (Z.to_nat i)); [|discriminate]. cbn [option_map]. injection G as ->. reflexivity.
Qed.
Lemma loft_get2 X k i : arr X (K + 1) P -> 0 <= k <= K -> 0 <= i <= n -> get2 X k i = Ok (pt (P k) i).
Proof. intros HX Hk Hi. unfold get2. rewrite (proj2 HX) by lia. cbn [bind]. apply get_at. pose proof (HP' k ltac:(lia)). lia. Qed.


Local Notation along := (along P).
Local Notation mean_share := (mean_share n K P).
Hypothesis HP : forall k, 0 <= k <= K -> len (P k) = n + 1.
Lemma loft_params_ok X : arr X (K + 1) P -> (forall i, 0 <= i <= n -> chord_length (along i) K <> 0%R) -> wp (loft_params X (K + 1)) (fun v => arr v (K + 1) mean_share).
Proof.
  intros HX Hc. pose proof HU as [Hp Hn _ _ _ _]. assert (Hn1 : (0 < IZR (n + 1))%R) by (apply IZR_lt; lia).
  assert (M0 : mean_share 0 = 0%R).
  { unfold mean_share. rewrite (rsum_ext _ _ _ (fun _ => 0 * 0)%R), rsum_scal; [field; lra|]. intros i Hi. unfold chord_length at 1. rewrite rsum_nil by lia. unfold Rdiv. ring. }
  assert (M1 : mean_share K = 1%R).
  { unfold mean_share. rewrite (rsum_ext _ _ _ (fun _ => 1)%R), rsum_const by (lia || (intros i Hi; field; apply Hc; lia)). rewrite Z.sub_0_r. field. lra. }
  unfold loft_params. replace (K + 1 - 1) with K by lia. apply wp_bind. apply wp_mkvec; [lia|]. intros v0 Hv0.
  apply wp_bind. eapply arr_upd; [exact Hv0|lia|]. intros v1 Hv1. apply wp_bind. eapply arr_upd; [exact Hv1|lia|]. intros v2 Hv2.
  apply wp_for_up with (P := fun h v => arr v (K + 1) (fun k => if k <? h then mean_share k else if k =? K then 1%R else 0%R)); [lia| | |].
  - eapply arr_ext; [exact Hv2|]. cbv beta. intros i Hi. destruct (Z.ltb_spec i 1); [assert (i = 0) as -> by lia; rewrite M0; destruct (Z.eqb_spec 0 K); [lia|]; reflexivity|]. destruct (i =? K); [reflexivity|]. destruct (i =? 0); reflexivity.
  - intros k v Hk Hv. rewrite (proj2 HX) by lia. cbn [bind]. rewrite HP by lia. replace (n + 1 - 1 + 1) with (n + 1) by lia. apply wp_bind.
    rewrite (for_up_acc_R 0 (n + 1) (fun i => dist3 (along i k) (along i (k - 1)) / chord_length (along i) K)%R); [| lia |].
    2:{ intros i x Hi. rewrite (loft_get2 X k i HX), (loft_get2 X (k - 1) i HX) by lia. cbn [bind].
      assert (TX : forall k, 0 <= k <= K -> ToXYZ (pt (P k) i) true = Ok (along i k)).
      { intros k' Hk'. apply heavy_ToXYZ. rewrite Hw by lia. apply Hheavy; lia. }
      rewrite !TX by lia. cbn [bind]. rewrite Distance_eq. cbn [bind].
      match goal with |- (let! t := ?m in _) = _ => assert (T : returns m (fun t => arr t (K + 1) (along i))) end.
      { apply wp_elim. apply (wp_push 0 (K + 1) (along i)); [lia| |].
        - intros j v' Hj _. rewrite (loft_get2 X j i HX) by lia. cbn [bind]. rewrite TX by lia. reflexivity.
        - intros v' Hv'. rewrite Z.sub_0_r in Hv'. eapply arr_ext; [exact Hv'|]. cbv beta. intros j Hj. f_equal. lia. }
      destruct T as (t & -> & Ht). cbn [bind]. rewrite (proj1 (Lengths_ok t)). cbn [bind]. rewrite (proj1 Ht). replace (K + 1 - 1) with K by lia.
      replace (chord_length (pt t) K) with (chord_length (along i) K).
      2:{ unfold chord_length. apply rsum_ext. intros j Hj. f_equal; symmetry; apply (arr_at_eq _ _ _ _ _ Ht); lia. }
      rewrite Rdiv_ok by (apply Hc; lia). reflexivity. }
    apply wp_ok. rewrite (proj2 Hv) by lia. cbn [bind]. rewrite Rdiv_ok by (num; lra). cbn [bind].
    eapply arr_upd; [exact Hv|lia|]. intros v' Hv'. eapply arr_ext; [exact Hv'|]. cbv beta. intros j Hj. destruct (Z.eqb_spec j k) as [->|].
    + destruct (Z.ltb_spec k (k + 1)); [|lia]. destruct (Z.ltb_spec (k - 1) k); [|lia]. num. unfold mean_share.
      rewrite Rplus_0_l. replace (1 / IZR (n + 1) * rsum 0 (n + 1) (fun i => dist3 (along i k) (along i (k - 1)) / chord_length (along i) K))%R with (rsum 0 (n + 1) (fun i => dist3 (along i k) (along i (k - 1)) / chord_length (along i) K) / IZR (n + 1))%R by (field; lra).
      unfold Rdiv at 1 3 5. rewrite <- Rmult_plus_distr_r. f_equal. rewrite <- rsum_plus. apply rsum_ext. intros i Hi. rewrite (chord_step (along i) k) by lia. unfold Rdiv. ring.
    + destruct (Z.ltb_spec j (k + 1)), (Z.ltb_spec j k); try lia; reflexivity.
  - intros v Hv. eapply arr_ext; [exact Hv|]. cbv beta. intros k Hk. destruct (Z.ltb_spec k K); [reflexivity|]. destruct (Z.eqb_spec k K) as [->|]; [|lia]. symmetry. exact M1.
Qed.

Lemma loft_default d : (forall i, 0 <= i <= n -> chord_length (along i) K <> 0%R) -> exists v, arr v (K + 1) mean_share /\ CreateLoftSurface solve sections d [] = CreateLoftSurface solve sections p v.
Proof.
  intros Hc. assert (EI : returns (for_up 0 (K + 1) [] (fun k internals => let! current := get sections k in let! current := loft_raise p current in Ok (internals ++ [current]))) (fun l => arr l (K + 1) (fun k => mkCurve p (U k) (P k)))).
  { apply wp_elim. pose proof (loft_internals (X := list (Curve R W4)) (fun l => Ok l) (fun l => arr l (K + 1) (fun k => mkCurve p (U k) (P k))) (fun l H => H)) as G. destruct (for_up _ _ _ _); exact G. }
  destruct EI as (l & El & Hl). destruct (wp_elim _ _ (loft_params_ok _ (loft_points _ Hl) Hc)) as (v & Ev & Hv). exists v. split; [exact Hv|].
  unfold CreateLoftSurface. rewrite loft_degree, Hlen, El. cbn [bind]. cbv zeta. rewrite Ev. destruct (Z.eqb_spec (len v) 0) as [E|E]; [pose proof (proj1 Hv); lia|]. reflexivity.
Qed.

(* parameters in the wrong number, for instance an actual knot vector *)
Lemma loft_count d v : 1 <= d -> d < len v -> len v <> K + 1 -> CreateLoftSurface solve sections d v = Throw.
Proof.
  intros Hd Hdv Hv. assert (EI : returns (for_up 0 (K + 1) [] (fun k internals => let! current := get sections k in let! current := loft_raise p current in Ok (internals ++ [current]))) (fun l => arr l (K + 1) (fun k => mkCurve p (U k) (P k)))).
  { apply wp_elim. pose proof (loft_internals (X := list (Curve R W4)) (fun l => Ok l) (fun l => arr l (K + 1) (fun k => mkCurve p (U k) (P k))) (fun l H => H)) as G. destruct (for_up _ _ _ _); exact G. }
  destruct EI as (l & El & Hl). pose proof HU as [Hp Hn _ _ _ _]. pose proof (loft_points _ Hl) as HX.
  unfold CreateLoftSurface. rewrite loft_degree, Hlen, El. cbn [bind]. cbv zeta. destruct (Z.eqb_spec (len v) 0) as [E|E]; [lia|]. cbn [bind].
  destruct (wp_elim _ _ (Average_ok d v ltac:(lia) ltac:(lia))) as (V & -> & _). cbn [bind]. rewrite (proj2 HX) by lia. cbn [bind]. rewrite HP by lia.
  rewrite for_up_first by lia. 
  match goal with |- context [for_up 0 (K + 1) ([], []) ?f] => assert (T : returns (for_up 0 (K + 1) ([], []) f) (fun '(a, b) => len a = K + 1)) end.
  { apply wp_elim. apply wp_for_up with (P := fun h '(a, b) => len a = h); [lia|reflexivity| |].
    - intros k [a b] Hk La. rewrite (loft_get2 _ k 0 HX) by lia. cbn [bind]. rewrite divided_ok by (rewrite Hw by lia; pose proof (w_pos k 0 ltac:(lia) ltac:(lia)); lra). cbn [bind]. apply wp_ok. rewrite len_app, La. reflexivity.
    - intros [a b] La. exact La. }
  destruct T as ([a b] & -> & La). cbn [bind].
  assert (G : GlobalInterpolation solve d a v = Throw); [|rewrite G; reflexivity]. unfold GlobalInterpolation.
  destruct ((0 <=? d) && (d <=? NURBSMaxDegree)); [|reflexivity]. cbn [validate bind]. destruct (d <? len a); [|reflexivity]. cbn [validate bind].
  destruct (Z.eqb_spec (len v) 0); [lia|]. rewrite La. destruct (Z.eqb_spec (len v) (K + 1)); [lia|]. reflexivity.
Qed.

Hypothesis Hq : 1 <= q <= 7.
Hypothesis HqK : q <= K.
Hypothesis Lvl : len vl = K + 1.
Hypothesis Hinc : forall i j, 0 <= i < j -> j <= K -> (val vl i < val vl j)%R.
Hypothesis Hfirst : val vl 0 = 0%R.
Hypothesis Hlast : val vl K = 1%R.
Hypothesis Hgap : (2 / 1000000 < val vl 1)%R.
Hypothesis Hgap' : (val vl (K - 1) < 1 - 2 / 1000000)%R.

(* the row of the net through the points with index c: the points T of a curve through them, with the weights of the sections put on *)
Definition column (V : list R) (c : Z) (row : list W4) : Prop := len row = K + 1 /\ exists T, len T = K + 1 /\
  (forall j, 0 <= j <= K -> ww (pt T j) = 1%R /\ pt row j = vscale (w j c) (pt T j)) /\
  forall k, 0 <= k <= K -> curve_point q K V T (val vl k) = hom (along c k) 1.

Lemma loft_column X V c : AverageKnotVector q vl = Ok V -> arr X (K + 1) P -> 0 <= c <= n ->
  returns (let! tw := for_up 0 (K + 1) ([], []) (fun k '(temp, weightCache) =>
      let! cp := get2 X k c in
      let! p := divided cp in
      Ok (temp ++ [p], weightCache ++ [ww cp])) in
    let '(temp, weightCache) := tw in
    let! tc := GlobalInterpolation solve q temp vl in
    for_up 0 (len (ControlPoints tc)) (ControlPoints tc) (fun i cps =>
      let! cp := get cps i in
      let! p := divided cp in
      let! w := get weightCache i in
      upd cps i (mkW p w))) (column V c).
Proof.
  intros EV HX Hc. apply wp_elim. apply wp_bind.
  apply wp_for_up with (P := fun h '(a, b) => arr a h (fun k => proj (pt (P k) c)) /\ arr b h (fun k => w k c)); [lia| | |].
  - split; apply arr_nil.
  - intros k [a b] Hk (Ha & Hb). rewrite (loft_get2 X k c HX) by lia. cbn [bind]. rewrite divided_ok by (rewrite Hw by lia; pose proof (w_pos k c ltac:(lia) Hc); lra). cbn [bind]. apply wp_ok.
    split; apply arr_snoc; try assumption; [reflexivity|]. (apply Hw || (symmetry; apply Hw)); lia.
  - intros [temp cache] (Ht & Hcache).
    assert (Lt : len temp = K + 1) by apply Ht.
    pose proof (Interpolation_ok solve Hsolve q temp vl) as IO. cbv zeta in IO. rewrite Lt in IO. replace (K + 1 - 1) with K in IO by lia.
    destruct (IO Hq HqK Lvl Hinc Hfirst Hlast Hgap Hgap') as (tc & Etc & _ & CU & Ltc & Wtc & Ctc & _ & _). rewrite Etc. cbn [bind].
    assert (EV' : KnotVector tc = V). { apply interpolation_knots in Etc; [congruence|]. intros ->. cbn in Lvl. lia. }
    rewrite EV' in Ctc. rewrite Ltc. 
    set (g := fun j => vscale (w j c) (pt (ControlPoints tc) j)).
    apply wp_for_up with (P := fun h v => arr v (K + 1) (fun j => if j <? h then g j else pt (ControlPoints tc) j)); [lia| | |].
    + split; [exact Ltc|]. intros i Hi. destruct (Z.ltb_spec i 0); [lia|]. apply get_at. lia.
    + intros i v Hi Hv. rewrite (proj2 Hv) by lia. rewrite Z.ltb_irrefl. cbn [bind]. rewrite divided_ok by (rewrite Wtc by lia; lra). cbn [bind]. rewrite (proj2 Hcache) by lia. cbn [bind].
      eapply arr_upd; [exact Hv|lia|]. intros v' Hv'. eapply arr_ext; [exact Hv'|]. cbv beta. intros j Hj. destruct (Z.eqb_spec j i) as [->|].
      * destruct (Z.ltb_spec i (i + 1)); [|lia]. unfold g, mkW, proj. pose proof (Wtc i ltac:(lia)) as E. revert E. generalize (pt (ControlPoints tc) i). intros [x1 x2 x3 x4]. cbn [wx wy wz ww]. intros ->. cbn. unfold xyzw_scale. num. cbn [wx wy wz ww gx gy gz]. f_equal; field.
      * destruct (Z.ltb_spec j (i + 1)), (Z.ltb_spec j i); try lia; reflexivity.
    + intros row Hrow. assert (EP : forall j, 0 <= j <= K -> pt row j = g j).
      { intros j Hj. etransitivity; [apply (arr_at_eq _ _ _ _ j Hrow); lia|]. cbv beta. destruct (Z.ltb_spec j (K + 1)); [reflexivity|lia]. }
      split; [apply Hrow|]. exists (ControlPoints tc). split; [exact Ltc|]. split; [intros j Hj; split; [apply Wtc; lia|apply EP; lia]|]. intros k Hk.
      rewrite Ctc by lia. f_equal. apply (arr_at_eq _ _ _ _ k Ht); lia.
Qed.

Lemma loft_short : 0 <= n -> (forall k i, 0 <= k <= K -> 0 <= i < len (P k) -> ww (pt (P k) i) <> 0%R) -> n + 1 < len (P 0) -> (exists k, 0 <= k <= K /\ len (P k) = n + 1) -> CreateLoftSurface solve sections q vl = UB.
Proof.
  intros Hn Hnz Hlong (k0 & Hk0 & Hshort).
  assert (EI : returns (for_up 0 (K + 1) [] (fun k internals => let! current := get sections k in let! current := loft_raise p current in Ok (internals ++ [current]))) (fun l => arr l (K + 1) (fun k => mkCurve p (U k) (P k)))).
  { apply wp_elim. pose proof (loft_internals (X := list (Curve R W4)) (fun l => Ok l) (fun l => arr l (K + 1) (fun k => mkCurve p (U k) (P k))) (fun l H => H)) as G. destruct (for_up _ _ _ _); exact G. }
  destruct EI as (l & El & Hl). pose proof (loft_points _ Hl) as HX.
  unfold CreateLoftSurface. rewrite loft_degree, Hlen, El. cbn [bind]. cbv zeta. clear El. destruct (Z.eqb_spec (len vl) 0) as [E|E]; [lia|]. cbn [bind].
  destruct (wp_elim _ _ (Average_ok q vl ltac:(lia) ltac:(lia))) as (V & EV & _). rewrite EV. cbn [bind]. rewrite (proj2 HX) by lia. cbn [bind].
  match goal with |- bind (for_up 0 (len (P 0)) [] ?f) _ = _ => assert (T : for_up 0 (len (P 0)) [] f = UB) end; [|rewrite T; reflexivity].
  apply (for_up_fail _ 0 (n + 1) (len (P 0)) _ EUB (fun _ => True)); [lia| |].
  - apply wp_for_up with (P := fun _ _ => True); [lia|exact I| |intros; exact I].
    intros c M Hc _. destruct (loft_column _ V c EV HX ltac:(lia)) as (row & E' & Hrow).
    match type of E' with ?m = _ => match goal with |- wp ?g _ => replace g with (let! cps := m in Ok (M ++ [cps])) end end.
    2:{ cbn [bind]. destruct (for_up 0 (K + 1) _ _) as [[a b]|]; [|reflexivity]. cbn [bind]. destruct (GlobalInterpolation _ _ _ _); reflexivity. }
    rewrite E'. exact I.
  - intros M _. assert (EX : exists k1, 0 <= k1 <= K /\ len (P k1) = n + 1 /\ forall k, 0 <= k < k1 -> n + 1 < len (P k)).
    { revert Hk0 Hshort. clear -HP'. intros Hk0. pattern k0. revert HP'. 
      assert (G : forall m : nat, forall k, 0 <= k <= Z.of_nat m -> k <= K -> (forall k, 0 <= k <= K -> n + 1 <= len (P k)) -> len (P k) = n + 1 -> exists k1, 0 <= k1 <= K /\ len (P k1) = n + 1 /\ forall k, 0 <= k < k1 -> n + 1 < len (P k)).
      { intros m. induction m as [|m IH]; intros k Hk HkK HA Ek; [exists k; split; [lia|split; [exact Ek|lia]]|].
        destruct (Z.le_gt_cases k (Z.of_nat m)) as [Hl|Hl]; [apply (IH k); try lia; assumption|].
        assert (DEC : (exists j, 0 <= j < k /\ len (P j) = n + 1) \/ forall j, 0 <= j < k -> n + 1 < len (P j)).
        { clear -HA HkK. assert (G : forall t : nat, Z.of_nat t <= k -> (exists j, 0 <= j < Z.of_nat t /\ len (P j) = n + 1) \/ forall j, 0 <= j < Z.of_nat t -> n + 1 < len (P j)).
          { intros t. induction t as [|t IH]; intros Ht; [right; lia|]. destruct (IH ltac:(lia)) as [(j & Hj & E)|H]; [left; exists j; split; [lia|exact E]|].
            destruct (Z.eq_dec (len (P (Z.of_nat t))) (n + 1)) as [E|E]; [left; exists (Z.of_nat t); split; [lia|exact E]|].
            right. intros j Hj. destruct (Z.eq_dec j (Z.of_nat t)) as [->|]; [pose proof (HA (Z.of_nat t) ltac:(lia)); lia|apply H; lia]. }
          destruct (Z.le_gt_cases 0 k); [|right; lia]. destruct (G (Z.to_nat k) ltac:(lia)) as [(j & Hj & E)|H']; [left; exists j; split; [lia|exact E]|right; intros j Hj; apply H'; lia]. }
        destruct DEC as [(j & Hj & E)|H]; [apply (IH j); try lia; assumption|]. exists k. split; [lia|]. split; [exact Ek|exact H]. }
      intros HA Ek. apply (G (Z.to_nat k0) k0); try lia; assumption. }
    destruct EX as (k1 & Hk1 & Ek1 & Hbefore). 
    match goal with |- bind ?m _ = _ => assert (T : m = UB) end; [|rewrite T; reflexivity].
    apply (for_up_fail _ 0 k1 (K + 1) _ EUB (fun _ => True)); [lia| |].
    + apply wp_for_up with (P := fun _ _ => True); [lia|exact I| |intros; exact I]. intros k [a b] Hk _. unfold get2. rewrite (proj2 HX) by lia. cbn [bind]. rewrite (get_at vzero) by (pose proof (Hbefore k Hk); lia). cbn [bind].
      fold (pt (P k) (n + 1)). rewrite divided_ok by (apply Hnz; pose proof (Hbefore k Hk); lia). exact I.
    + intros [a b] _. unfold get2. rewrite (proj2 HX) by lia. cbn [bind]. unfold get. destruct (Z.ltb_spec (n + 1) 0); [lia|].
      destruct (nth_error (P k1) (Z.to_nat (n + 1))) eqn:EN; [|reflexivity]. exfalso. assert (nth_error (P k1) (Z.to_nat (n + 1)) <> None) by congruence. apply nth_error_Some in H0. unfold len in Ek1. lia.
Qed.

Lemma loft_net : returns (CreateLoftSurface solve sections q vl) (fun S =>
  valid_surface n K S /\ heavy_net n K (SControlPoints S) /\ DegreeU S = p /\ DegreeV S = q /\ KnotVectorU S = U 0 /\ clamped_unit q K (KnotVectorV S) /\
  AverageKnotVector q vl = Ok (KnotVectorV S) /\ forall c, 0 <= c <= n -> column (KnotVectorV S) c (at_ nil (SControlPoints S) c)).
Proof.
  apply wp_elim. unfold CreateLoftSurface. rewrite loft_degree, Hlen. apply loft_internals. intros l Hl. cbv zeta.
  destruct (Z.eqb_spec (len vl) 0); [lia|]. cbn [bind].
  assert (KO : wp (AverageKnotVector q vl) (fun V => curve_knots q K V /\ clamped_unit q K V)).
  { pose (Q := repeat (mkXYZ 0 0 0)%R (Z.to_nat (K + 1))). assert (LQ : len Q = K + 1) by (unfold len, Q; rewrite repeat_length; lia).
    pose proof (knots_ok q Q vl) as G. cbv zeta in G. rewrite LQ in G. replace (K + 1 - 1) with K in G by lia.
    eapply wp_mono; [exact (G Hq HqK Lvl Hinc Hfirst Hlast Hgap Hgap')|]. cbv beta. tauto. }
  destruct (wp_elim _ _ KO) as (V & EV & HV & CV). rewrite EV. cbn [bind]. pose proof (loft_points _ Hl) as HX. rewrite (proj2 HX) by lia. cbn [bind]. rewrite HP by lia.
  pose proof HU as [Hp Hn _ _ _ _].
  apply wp_bind. apply wp_for_up with (P := fun h M => len M = h /\ forall c, 0 <= c < h -> column V c (at_ nil M c)); [lia| | |].
  - split; [reflexivity|]. intros; lia.
  - intros c M Hc (LM & HM). destruct (loft_column _ V c EV HX ltac:(lia)) as (row & E & Hrow).
    match type of E with ?m = _ => match goal with |- wp ?g _ => replace g with (let! cps := m in Ok (M ++ [cps])) end end.
    2:{ cbn [bind]. destruct (for_up 0 (K + 1) _ _) as [[a b]|]; [|reflexivity]. cbn [bind]. destruct (GlobalInterpolation _ _ _ _); reflexivity. }
    rewrite E. cbn [bind]. apply wp_ok. split; [rewrite len_app, LM; reflexivity|]. intros i Hi. destruct (Z.eq_dec i c) as [->|].
    + replace (at_ nil (M ++ [row]) c) with row by (rewrite <- LM; symmetry; apply at_snoc_last). exact Hrow.
    + rewrite at_snoc_old by lia. apply HM. lia.
  - intros M (LM & HM). rewrite (proj2 Hl) by lia. cbn [bind KnotVector]. apply wp_ok. cbn [DegreeU DegreeV KnotVectorU KnotVectorV SControlPoints].
    split. { split; [exact HU|]. split; [exact HV|]. split; [split; [exact LM|]; intros i Hi; apply HM; lia|]. cbn [DegreeU DegreeV]. lia. }
    split. { intros i j Hi Hj. cbv zeta. rewrite pt2_row. destruct (HM i ltac:(lia)) as (_ & T & _ & HT & _). destruct (HT j Hj) as (E1 & ->).
      replace (ww (vscale (w j i) (pt T j))) with (w j i); [apply Hheavy; lia|]. revert E1. generalize (pt T j). intros [x1 x2 x3 x4]. cbn [ww]. intros ->. cbn. num. cbn [ww]. num. ring. }
    split; [reflexivity|]. split; [reflexivity|]. split; [reflexivity|]. split; [exact CV|]. split; [reflexivity|]. intros c Hc. apply HM. lia.
Qed.

Lemma loft_surface : (forall k i, 0 <= k <= K -> 0 <= i <= n -> w k i = w 0 i) -> returns (CreateLoftSurface solve sections q vl) (fun S =>
  valid_surface n K S /\ heavy_net n K (SControlPoints S) /\ DegreeU S = p /\ DegreeV S = q /\ KnotVectorU S = U 0 /\ clamped_unit q K (KnotVectorV S) /\
  forall k u, 0 <= k <= K -> surface_point p n (U 0) q K (KnotVectorV S) (SControlPoints S) u (val vl k) = curve_point p n (U 0) (P k) u).
Proof.
  intros Hsame. destruct loft_net as (S & E & V1 & V2 & V3 & V4 & V5 & V6 & _ & G). exists S. split; [exact E|]. split; [exact V1|]. split; [exact V2|]. split; [exact V3|]. split; [exact V4|]. split; [exact V5|]. split; [exact V6|].
  intros k u Hk. unfold surface_point, curve_point. apply comb_ext. intros i Hi. split; [reflexivity|]. destruct (G i ltac:(lia)) as (_ & T & LT & HT & IT). specialize (IT k Hk). pose proof HU as [Hp Hn _ _ _ _]. 
  transitivity (vscale (w 0 i) (curve_point q K (KnotVectorV S) T (val vl k))).
  - unfold curve_point. rewrite <- comb_scale. apply comb_ext. intros j Hj. split; [reflexivity|]. rewrite pt2_row. rewrite (proj2 (HT j ltac:(lia))). rewrite Hsame by lia. reflexivity.
  - rewrite IT. pose proof (w_pos 0 i ltac:(lia) ltac:(lia)) as W. pose proof (Hw k i Hk ltac:(lia)) as E'. rewrite Hsame in E' by lia. unfold along. revert E'. generalize (pt (P k) i). intros [x1 x2 x3 x4]. cbn [ww]. intros ->.
    unfold hom, proj. cbn. unfold xyzw_scale. num. cbn [wx wy wz ww gx gy gz]. f_equal; field; lra.
Qed.
End Loft.


Lemma sections_w p U K P sections n : raised_sections p U K P sections -> (forall k, 0 <= k <= K -> n + 1 <= len (P k)) -> forall k i, 0 <= k <= K -> 0 <= i <= n -> (tol (ww (pt (P k) i)) 0 < ww (pt (P k) i))%R.
Proof. intros (_ & _ & _ & _ & _ & HH) HP k i Hk Hi. apply (HH k Hk). pose proof (HP k Hk). lia. Qed.

Lemma Loft_ok solve p n U K P sections q vl : exact_solver solve -> raised_sections p U K P sections -> p <= 7 -> curve_knots p n (U 0) ->
  (forall k, 0 <= k <= K -> len (P k) = n + 1) -> (forall k i, 0 <= k <= K -> 0 <= i <= n -> ww (pt (P k) i) = ww (pt (P 0) i)) ->
  1 <= q <= 7 -> q <= K -> len vl = K + 1 -> section_params K (val vl) ->
  returns (CreateLoftSurface solve sections q vl) (fun S =>
    valid_surface n K S /\ heavy_net n K (SControlPoints S) /\ DegreeU S = p /\ DegreeV S = q /\ KnotVectorU S = U 0 /\ clamped_unit q K (KnotVectorV S) /\
    forall k u, 0 <= k <= K -> surface_point p n (U 0) q K (KnotVectorV S) (SControlPoints S) u (val vl k) = curve_point p n (U 0) (P k) u).
Proof.
  intros Hs HR H7 HU HP Hw Hq HqK Lv (V1 & V2 & V3 & V4 & V5). pose proof HR as (H1 & H2 & H3 & H4 & H5 & _).
  assert (HP' : forall k, 0 <= k <= K -> n + 1 <= len (P k)) by (intros k Hk; rewrite HP by exact Hk; lia).
  apply (loft_surface solve Hs p n U K q vl sections P (fun k i => ww (pt (P k) i))); try assumption; [reflexivity|]. exact (sections_w _ _ _ _ _ _ HR HP').
Qed.

Lemma Loft_default_ok solve p n U K P sections d : exact_solver solve -> raised_sections p U K P sections -> 1 <= p <= 7 -> p <= K -> curve_knots p n (U 0) ->
  (forall k, 0 <= k <= K -> len (P k) = n + 1) -> (forall k i, 0 <= k <= K -> 0 <= i <= n -> ww (pt (P k) i) = ww (pt (P 0) i)) ->
  (forall i, 0 <= i <= n -> chord_length (Spec13.along P i) K <> 0%R) -> section_params K (Spec13.mean_share n K P) ->
  returns (CreateLoftSurface solve sections d []) (fun S =>
    valid_surface n K S /\ heavy_net n K (SControlPoints S) /\ DegreeU S = p /\ DegreeV S = p /\ KnotVectorU S = U 0 /\ clamped_unit p K (KnotVectorV S) /\
    forall k u, 0 <= k <= K -> surface_point p n (U 0) p K (KnotVectorV S) (SControlPoints S) u (Spec13.mean_share n K P k) = curve_point p n (U 0) (P k) u).
Proof.
  intros Hs HR H7 HpK HU HP Hw Hc (V1 & V2 & V3 & V4 & V5). pose proof HR as (H1 & H2 & H3 & H4 & H5 & _).
  assert (HP' : forall k, 0 <= k <= K -> n + 1 <= len (P k)) by (intros k Hk; rewrite HP by exact Hk; lia).
  destruct (loft_default solve p n U K sections P (fun k i => ww (pt (P k) i)) HU H1 H4 H5 HP' ltac:(reflexivity) (sections_w _ _ _ _ _ _ HR HP') H2 H3 HP d Hc) as (v & Hv & ->).
  assert (EV : forall k, 0 <= k <= K -> val v k = Spec13.mean_share n K P k) by (intros k Hk; apply (arr_at_eq _ _ _ _ _ Hv); lia).
  destruct (Loft_ok solve p n U K P sections p v Hs HR ltac:(lia) HU HP Hw H7 HpK (proj1 Hv)) as (S & E & G1 & G2 & G3 & G4 & G5 & G6 & G).
  { repeat split.
    - intros i j Hi Hj. rewrite !EV by lia. apply V1; lia.
    - rewrite EV by lia. exact V2.
    - rewrite EV by lia. exact V3.
    - rewrite EV by lia. exact V4.
    - rewrite EV by lia. exact V5. }
  exists S. split; [exact E|]. split; [exact G1|]. split; [exact G2|]. split; [exact G3|]. split; [exact G4|]. split; [exact G5|]. split; [exact G6|].
  intros k u Hk. rewrite <- EV by exact Hk. apply G, Hk.
Qed.

Lemma Loft_count solve p n U K P sections d v : raised_sections p U K P sections -> curve_knots p n (U 0) ->
  (forall k, 0 <= k <= K -> len (P k) = n + 1) -> 1 <= d -> d < len v -> len v <> K + 1 -> CreateLoftSurface solve sections d v = Throw.
Proof.
  intros HR HU HP Hd Hdv Hv. pose proof HR as (H1 & H2 & H3 & H4 & H5 & _).
  assert (HP' : forall k, 0 <= k <= K -> n + 1 <= len (P k)) by (intros k Hk; rewrite HP by exact Hk; lia).
  apply (loft_count solve p n U K sections P (fun k i => ww (pt (P k) i))); try assumption; [reflexivity|]. exact (sections_w _ _ _ _ _ _ HR HP').
Qed.

Lemma Loft_short solve p U K P sections q vl k0 : exact_solver solve -> raised_sections p U K P sections ->
  1 <= q <= 7 -> q <= K -> len vl = K + 1 -> section_params K (val vl) ->
  0 <= k0 <= K -> 0 < len (P k0) < len (P 0) -> (forall k, 0 <= k <= K -> len (P k0) <= len (P k)) ->
  CreateLoftSurface solve sections q vl = UB.
Proof.
  intros Hs HR Hq HqK Lv (V1 & V2 & V3 & V4 & V5) Hk0 Hl Hmin. pose proof HR as (H1 & H2 & H3 & H4 & H5 & HH). set (n := len (P k0) - 1).
  assert (HP' : forall k, 0 <= k <= K -> n + 1 <= len (P k)) by (intros k Hk; pose proof (Hmin k Hk); unfold n; lia).
  apply (loft_short solve Hs p n U K q vl sections P (fun k i => ww (pt (P k) i))); try assumption; try (unfold n; lia).
  - reflexivity.
  - exact (sections_w _ _ _ _ _ _ HR HP').
  - intros k i Hk Hi. pose proof (HH k Hk i Hi) as G. unfold tol in G. pose proof (Rmax_r (Rabs (ww (pt (P k) i))) (Rabs 0)). pose proof (Rabs_pos 0). lra.
  - exists k0. split; [exact Hk0|unfold n; lia].
Qed.

(* the knots of all sections but the first are never looked at *)
Lemma Loft_knots solve p (sections sections' : list (Curve R W4)) q vl : 0 < p -> len sections' = len sections -> get sections' 0 = get sections 0 ->
  (forall k, 0 <= k < len sections -> exists c c', get sections k = Ok c /\ get sections' k = Ok c' /\ Degree c = p /\ Degree c' = p /\ ControlPoints c' = ControlPoints c) ->
  CreateLoftSurface solve sections' q vl = CreateLoftSurface solve sections q vl.
Proof.
  intros Hp Hl H0 Hk.
  assert (DM : forall l : list (Curve R W4), 0 < len l -> (forall k, 0 <= k < len l -> exists c, get l k = Ok c /\ Degree c = p) -> fold_left (fun d (c : Curve R W4) => if d <? Degree c then Degree c else d) l 0 = p).
  { intros l L HD. apply degree_max_ok; [lia| |].
    - intros c Hc. destruct (In_nth _ _ c Hc) as (k & Hk' & Ek). destruct (HD (Z.of_nat k)) as (c' & Ec & Hd); [unfold len; lia|].
      rewrite (get_at c) in Ec by (unfold len; lia). unfold at_ in Ec. rewrite Nat2Z.id, Ek in Ec. injection Ec as ->. lia.
    - right. destruct (HD 0 ltac:(lia)) as (c & Ec & Hd). exists c. split; [|exact Hd]. unfold get in Ec. destruct l; [discriminate|]. injection Ec as ->. left. reflexivity. }
  assert (IN : forall l : list (Curve R W4), (forall k, 0 <= k < len l -> exists c, get l k = Ok c /\ Degree c = p) ->
     for_up 0 (len l) [] (fun k internals => let! current := get l k in let! current := loft_raise p current in Ok (internals ++ [current])) = Ok l).
  { intros l HD. destruct l as [|c0 l0]; [reflexivity|]. set (l := c0 :: l0) in *. apply wp_eq. apply (wp_push 0 (len l) (at_ c0 l)); [apply len_nonneg| |].
    - intros k v' Hk' _. destruct (HD k Hk') as (c & Ec & Hd). rewrite Ec. cbn [bind]. unfold loft_raise. rewrite Hd, Z.ltb_irrefl. cbn [bind]. rewrite (get_at c0) in Ec by lia. congruence.
    - intros v Hv. rewrite Z.sub_0_r in Hv. apply (arr_inj v l (len l) (at_ c0 l)).
      + eapply arr_ext; [exact Hv|]. intros i Hi. cbv beta. f_equal. lia.
      + split; [reflexivity|]. intros i Hi. apply get_at. lia. }
  destruct (Z.eq_dec (len sections) 0) as [E0|E0].
  { assert (N : forall l : list (Curve R W4), len l = 0 -> l = []) by (intros [|c l] H; [reflexivity|rewrite len_cons in H; pose proof (len_nonneg l); lia]). rewrite (N sections), (N sections') by lia. reflexivity. }
  pose proof (len_nonneg sections) as LN.
  assert (D : forall k, 0 <= k < len sections -> exists c, get sections k = Ok c /\ Degree c = p) by (intros k H; destruct (Hk k H) as (c & c' & E1 & E2 & E3 & _); exists c; auto).
  assert (D' : forall k, 0 <= k < len sections' -> exists c, get sections' k = Ok c /\ Degree c = p) by (intros k H; destruct (Hk k ltac:(lia)) as (c & c' & E1 & E2 & E3 & E4 & _); exists c'; auto).
  assert (EM : map (@ControlPoints R W4) sections' = map (@ControlPoints R W4) sections).
  { pose (f := fun k => ControlPoints (at_ (mkCurve 0 [] []) sections k)). apply (arr_inj _ _ (len sections) f).
    - split; [unfold len in *; rewrite map_length; exact Hl|]. intros k H. destruct (Hk k H) as (c & c' & E1 & E2 & _ & _ & EC). unfold f. rewrite (get_at (mkCurve 0 [] [])) in E1 by lia. injection E1 as ->. rewrite <- EC.
      unfold get in *. destruct (k <? 0); [discriminate|]. rewrite nth_error_map. destruct (nth_error sections' (Z.to_nat k)); [|discriminate]. injection E2 as ->. reflexivity.
    - split; [unfold len in *; rewrite map_length; reflexivity|]. intros k H. destruct (Hk k H) as (c & c' & E1 & E2 & _ & _ & EC). unfold f. pose proof E1 as E1'. rewrite (get_at (mkCurve 0 [] [])) in E1' by lia. injection E1' as ->.
      unfold get in *. destruct (k <? 0); [discriminate|]. rewrite nth_error_map. destruct (nth_error sections (Z.to_nat k)); [|discriminate]. injection E1 as ->. reflexivity. }
  unfold CreateLoftSurface. rewrite (DM sections), (DM sections') by (assumption || lia). rewrite (IN sections D), (IN sections' D'). cbn [bind]. cbv zeta. rewrite EM, Hl, H0. reflexivity.
Qed.
