(* B-spline surfaces: evaluation and derivatives. *)
From Coq Require Import ZArith List Bool Reals Lra Lia.
From Verif Require Import Base Num Vec Tac Spec M_MathUtils M_Polynomials M_Bspline
  P_MathUtils P_Bern P_Span P_Cox P_Basis P_Deriv P_Ders P_Ders1 P_Curve P_VSum P_Bspline.
Import ListNotations.
Open Scope Z_scope.

Section Srf.
Context {T : Type} {V : Vec R T} {L : VecL T}.

Lemma arr2_net r c (P : list (list T)) : net r c P -> arr2 P r c (pt2 P).
Proof.
  intros [Hr Hc]. split; [exact Hr|]. intros i Hi. exists (at_ nil P i). split; [apply get_at; lia|].
  apply arr_pt. apply Hc. exact Hi.
Qed.

Lemma net_arr2 r c (P : list (list T)) f : arr2 P r c f -> net r c P.
Proof.
  intros [Hr Hc]. split; [exact Hr|]. intros i Hi. destruct (Hc i Hi) as (row & E & Hrow & _).
  rewrite (get_at nil) in E by lia. injection E as ->. exact Hrow.
Qed.

Lemma pt2_arr2 r c (P : list (list T)) f i j : arr2 P r c f -> 0 <= i < r -> 0 <= j < c -> pt2 P i j = f i j.
Proof.
  intros H Hi Hj. pose proof (arr2_get _ _ _ _ _ _ (arr2_net _ _ _ (net_arr2 _ _ _ _ H)) Hi Hj) as E1.
  rewrite (arr2_get _ _ _ _ _ _ H Hi Hj) in E1. congruence.
Qed.

(* the two directions commute *)
Lemma comb_swap lo hi lo' hi' w w' (P : Z -> Z -> T) :
  comb lo hi w (fun i => comb lo' hi' w' (fun j => P i j)) = comb lo' hi' w' (fun j => comb lo hi w (fun i => P i j)).
Proof.
  apply co_ext. intros k. rewrite !co_comb.
  rewrite (rsum_ext lo hi _ (fun i => rsum lo' hi' (fun j => w i * w' j * co k (P i j)))%R).
  2:{ intros i Hi. rewrite co_comb, <- rsum_scal. apply rsum_ext. intros. ring. }
  rewrite rsum_swap. apply rsum_ext. intros j Hj. rewrite co_comb, <- rsum_scal. apply rsum_ext. intros. ring.
Qed.

Lemma surface_point_span p n U q m W (P : list (list T)) u v ku kv :
  curve_knots p n U -> curve_knots q m W -> span_of p n U u ku -> span_of q m W v kv ->
  surface_point p n U q m W P u v = span_patch ku p U kv q W P u v.
Proof.
  intros HU HW Hku Hkv. pose proof HU as [Hp Hn Hl _ _ _]. pose proof HW as [Hq Hm Hl' _ _ _].
  pose proof Hku as (Hkn & _). pose proof Hkv as (Hkm & _). unfold surface_point, span_patch.
  rewrite (comb_ext 0 (n + 1) _ (fun i => NS (val U) ku p i u) _
    (fun i => comb (kv - q) (kv + 1) (fun j => NS (val W) kv q j v) (pt2 P i))).
  - apply comb_restrict; try lia. intros i Hi Ho. apply NS_out; lia.
  - intros i Hi. split; [apply (NB_span p n U u ku p i); auto; lia|].
    rewrite (comb_ext 0 (m + 1) _ (fun j => NS (val W) kv q j v) (pt2 P i) (pt2 P i)).
    + apply comb_restrict; try lia. intros j Hj Ho. apply NS_out; lia.
    + intros j Hj. split; [|reflexivity]. apply (NB_span q m W v kv q j); auto; lia.
Qed.

Lemma comb_from k p w (P : Z -> T) : comb (k - p) (k + 1) w P = vsum 0 (p + 1) (fun i => vscale (w (k - p + i)) (P (k - p + i))).
Proof.
  rewrite (comb_shift (- (k - p))). unfold comb.
  replace (k - p + - (k - p)) with 0 by lia. replace (k + 1 + - (k - p)) with (p + 1) by lia.
  apply vsum_ext. intros i Hi. replace (i - - (k - p)) with (k - p + i) by lia. reflexivity.
Qed.

Lemma GetPointOnSurface_span p n U q m W (P : list (list T)) u v ku kv :
  curve_knots p n U -> curve_knots q m W -> p <= 7 -> q <= 7 -> net (n + 1) (m + 1) P ->
  span_of p n U u ku -> span_of q m W v kv ->
  GetPointOnSurface (mkSurface p q U W P) u v = Ok (span_patch ku p U kv q W P u v).
Proof.
  intros HU HW Hp7 Hq7 HP Hku Hkv. pose proof (span_of_dom _ _ _ _ _ HU Hku) as Du. pose proof (span_of_dom _ _ _ _ _ HW Hkv) as Dv.
  pose proof HU as [Hp Hn Hl _ _ _]. pose proof HW as [Hq Hm Hl' _ _ _].
  unfold GetPointOnSurface. cbn [DegreeU DegreeV KnotVectorU KnotVectorV SControlPoints].
  rewrite (domain_ok p n U u HU Du), (domain_ok q m W v HW Dv). cbn [bind].
  rewrite (find_span_eq p n U u ku HU Hku). cbn [bind].
  destruct (wp_elim _ _ (BasisFunctions_ok U p ku u (span_of_ok _ _ _ _ _ HU Hku) Hp7 (accepted_dom _ _ _ _ HU Du))) as (lu & -> & Hlu). cbn [bind].
  rewrite (find_span_eq q m W v kv HW Hkv). cbn [bind].
  destruct (wp_elim _ _ (BasisFunctions_ok W q kv v (span_of_ok _ _ _ _ _ HW Hkv) Hq7 (accepted_dom _ _ _ _ HW Dv))) as (lv & -> & Hlv). cbn [bind].
  pose proof (arr2_net _ _ _ HP) as HPa. pose proof Hku as (Hkn & _). pose proof Hkv as (Hkm & _).
  rewrite (acc_loop0 0 (q + 1) (fun l => vscale (NS (val W) kv q (kv - q + l) v)
     (comb (ku - p) (ku + 1) (fun i => NS (val U) ku p i u) (fun i => pt2 P i (kv - q + l))))); [|lia|].
  - f_equal. unfold span_patch. change (fun i => comb (kv - q) (kv + 1) (fun j => Nspan (val W) kv (Z.to_nat q) j v) (pt2 P i))
      with (fun i => comb (kv - q) (kv + 1) (fun j => Nspan (val W) kv (Z.to_nat q) j v) (fun j => pt2 P i j)).
    rewrite (comb_swap _ _ _ _ _ _ (pt2 P)). rewrite (comb_from kv q). reflexivity.
  - intros l x Hl0.
    rewrite (acc_loop0 0 (p + 1) (fun k => vscale (NS (val U) ku p (ku - p + k) u) (pt2 P (ku - p + k) (kv - q + l)))); [|lia|].
    + cbn [bind]. rewrite (getu_arrD _ _ _ _ l Hlv) by lia. cbn [bind]. rewrite (comb_from ku p). reflexivity.
    + intros k y Hk. rewrite (getu_arrD _ _ _ _ k Hlu) by lia. cbn [bind]. wget HPa. reflexivity.
Qed.

Lemma GetPointOnSurface_ok p n U q m W (P : list (list T)) u v :
  curve_knots p n U -> curve_knots q m W -> p <= 7 -> q <= 7 -> net (n + 1) (m + 1) P ->
  in_domain p n U u -> in_domain q m W v ->
  GetPointOnSurface (mkSurface p q U W P) u v = Ok (surface_point p n U q m W P u v).
Proof.
  intros HU HW Hp7 Hq7 HP Du Dv. destruct (find_span p n U u HU Du) as (ku & _ & Hku). destruct (find_span q m W v HW Dv) as (kv & _ & Hkv).
  rewrite (surface_point_span p n U q m W P u v ku kv) by auto. apply (GetPointOnSurface_span p n U q m); auto.
Qed.

(* evaluating the rows first and then the resulting curve, or the columns first *)
Lemma surface_rows p n U q m W (P : list (list T)) u v rows :
  curve_knots p n U -> curve_knots q m W -> p <= 7 -> q <= 7 -> net (n + 1) (m + 1) P ->
  in_domain p n U u -> in_domain q m W v -> len rows = n + 1 ->
  (forall i, 0 <= i <= n -> GetPointOnCurve (mkCurve q W (at_ nil P i)) v = Ok (pt rows i)) ->
  GetPointOnSurface (mkSurface p q U W P) u v = GetPointOnCurve (mkCurve p U rows) u.
Proof.
  intros HU HW Hp7 Hq7 HP Du Dv Hr H. rewrite (GetPointOnSurface_ok p n U q m) by auto. rewrite (GetPointOnCurve_ok p n) by auto. f_equal.
  unfold surface_point, curve_point. apply comb_ext. intros i Hi. split; [reflexivity|].
  specialize (H i ltac:(lia)). rewrite (GetPointOnCurve_ok q m) in H; auto; [|apply HP; lia]. injection H as <-. reflexivity.
Qed.

Lemma surface_cols p n U q m W (P : list (list T)) u v cols :
  curve_knots p n U -> curve_knots q m W -> p <= 7 -> q <= 7 -> net (n + 1) (m + 1) P ->
  in_domain p n U u -> in_domain q m W v -> len cols = m + 1 ->
  (forall j col, 0 <= j <= m -> len col = n + 1 -> (forall i, 0 <= i <= n -> pt col i = pt2 P i j) ->
     GetPointOnCurve (mkCurve p U col) u = Ok (pt cols j)) ->
  GetPointOnSurface (mkSurface p q U W P) u v = GetPointOnCurve (mkCurve q W cols) v.
Proof.
  intros HU HW Hp7 Hq7 HP Du Dv Hr H. rewrite (GetPointOnSurface_ok p n U q m) by auto. rewrite (GetPointOnCurve_ok q m) by auto. f_equal.
  unfold surface_point, curve_point.
  change (fun i => comb 0 (m + 1) (fun j => N (val W) (val W (m + 1)) (Z.to_nat q) j v) (pt2 P i))
      with (fun i => comb 0 (m + 1) (fun j => N (val W) (val W (m + 1)) (Z.to_nat q) j v) (fun j => pt2 P i j)).
  rewrite (comb_swap _ _ _ _ _ _ (pt2 P)). apply comb_ext. intros j Hj. split; [reflexivity|].
  pose proof HU as [Hp Hn _ _ _ _].
  pose proof (arr_mklist (n + 1) (fun i => pt2 P i j) ltac:(lia)) as Hcol. set (col := mklist (n + 1) (fun i => pt2 P i j)) in *.
  assert (E : forall i, 0 <= i <= n -> pt col i = pt2 P i j) by (intros i Hi; apply (arr_at_eq vzero _ _ _ i Hcol); lia).
  specialize (H j col ltac:(lia) (arr_len _ _ _ Hcol) E). rewrite (GetPointOnCurve_ok p n) in H; auto; [|apply Hcol]. injection H as <-.
  unfold curve_point. apply comb_ext. intros i Hi. split; [reflexivity|]. symmetry. apply E. lia.
Qed.

(* ---------------- derivatives ---------------- *)
Definition dpatch (ku p : Z) (U : list R) (kv q : Z) (W : list R) (P : list (list T)) (k l : Z) (u v : R) : T :=
  comb (ku - p) (ku + 1) (fun i => GN (val U) ku p i k u)
    (fun i => comb (kv - q) (kv + 1) (fun j => GN (val W) kv q j l v) (pt2 P i)).

Lemma vderiv_comb m lo hi (f g : Z -> R -> R) (P : Z -> T) : 0 <= m ->
  (forall i, lo <= i < hi -> nth_deriv (Z.to_nat m) (f i) (g i)) ->
  vderiv m (fun t => comb lo hi (fun i => f i t) P) (fun t => comb lo hi (fun i => g i t) P).
Proof.
  intros Hm H c. eapply nth_deriv_ext; [intros t; symmetry; apply co_comb|].
  eapply nth_deriv_ext_r; [intros t; symmetry; apply co_comb|].
  apply (nth_deriv_rsum (Z.to_nat m) lo hi f g (fun i => co c (P i))). exact H.
Qed.

Lemma vderiv_ext m (f f' g g' : R -> T) : (forall t, f t = f' t) -> (forall t, g t = g' t) -> vderiv m f g -> vderiv m f' g'.
Proof.
  intros Hf Hg H c. eapply nth_deriv_ext; [intros t; rewrite <- Hf; reflexivity|].
  eapply nth_deriv_ext_r; [intros t; rewrite <- Hg; reflexivity|]. apply H.
Qed.

Lemma dpatch_deriv ku p U kv q W P k l : 0 <= p -> 0 <= q -> 0 <= k -> 0 <= l -> good (val U) ku p -> good (val W) kv q ->
  pderiv k l (span_patch ku p U kv q W P) (dpatch ku p U kv q W P k l).
Proof.
  intros Hp Hq Hk Hl GU GW.
  exists (fun x y => comb (ku - p) (ku + 1) (fun i => Nspan (val U) ku (Z.to_nat p) i x)
     (fun i => comb (kv - q) (kv + 1) (fun j => GN (val W) kv q j l y) (pt2 P i))). split.
  - intros x.
    eapply vderiv_ext with
      (f := fun y => comb (kv - q) (kv + 1) (fun j => Nspan (val W) kv (Z.to_nat q) j y) (fun j => comb (ku - p) (ku + 1) (fun i => Nspan (val U) ku (Z.to_nat p) i x) (fun i => pt2 P i j)))
      (g := fun y => comb (kv - q) (kv + 1) (fun j => GN (val W) kv q j l y) (fun j => comb (ku - p) (ku + 1) (fun i => Nspan (val U) ku (Z.to_nat p) i x) (fun i => pt2 P i j))).
    + intros t. unfold span_patch. symmetry. apply (comb_swap _ _ _ _ _ _ (pt2 P)).
    + intros t. symmetry. apply (comb_swap _ _ _ _ _ _ (pt2 P)).
    + apply (vderiv_comb l _ _ (fun j y => Nspan (val W) kv (Z.to_nat q) j y) (fun j y => GN (val W) kv q j l y)); [exact Hl|].
      intros j Hj. apply (NS_nth_deriv_all (val W) kv q j l); auto.
  - intros y. unfold dpatch.
    apply (vderiv_comb k _ _ (fun i x => Nspan (val U) ku (Z.to_nat p) i x) (fun i x => GN (val U) ku p i k x)); [exact Hk|].
    intros i Hi. apply (NS_nth_deriv_all (val U) ku p i k); auto.
Qed.

Lemma SurfaceLoops_ok p q ku kv du dv d (Nu Nv : Z -> Z -> res R) gu gv (P : list (list T)) n m tmp nt der nr nc g :
  0 <= p -> 0 <= q -> p <= ku <= n -> q <= kv <= m -> net (n + 1) (m + 1) P ->
  (forall a r, 0 <= a <= du -> 0 <= r <= p -> Nu a r = Ok (gu a r)) ->
  (forall a s, 0 <= a <= Z.min d dv -> 0 <= s <= q -> Nv a s = Ok (gv a s)) ->
  len tmp = nt -> q < nt -> arr2 der nr nc g -> 0 <= du < nr -> 0 <= Z.min d dv < nc ->
  wp (SurfaceDerivativeLoops p q ku kv du dv d Nu Nv P tmp der)
     (fun r => arr2 r nr nc (fun a b => if (a <=? du) && (b <=? Z.min d dv)
        then vadd (g a b) (vsum 0 (q + 1) (fun s => vscale (gv b s) (vsum 0 (p + 1) (fun r => vscale (gu a r) (pt2 P (ku - p + r) (kv - q + s))))))
        else g a b)).
Proof.
  intros Hp Hq Hku Hkv HP HNu HNv Ht Hnt Hder Hdu Hdv. unfold SurfaceDerivativeLoops.
  pose proof (arr2_net _ _ _ HP) as HPa.
  set (X := fun a s => vsum 0 (p + 1) (fun r => vscale (gu a r) (pt2 P (ku - p + r) (kv - q + s)))).
  set (Y := fun a b => vsum 0 (q + 1) (fun s => vscale (gv b s) (X a s))).
  set (dd := Z.min d dv) in *.
  apply wp_bind.
  apply wp_for_up with (P := fun k '(tmp, der) => len tmp = nt /\ arr2 der nr nc (fun a b => if (a <? k) && (b <=? dd) then vadd (g a b) (Y a b) else g a b)); [lia| | |].
  - split; [exact Ht|]. eapply arr2_ext; [exact Hder|]. intros a b Ha Hb. zcase; try lia; reflexivity.
  - intros k [t1 d1] Hk [Ht1 Hd1]. apply wp_bind.
    apply wp_for_up with (P := fun s t => arrD t nt (fun a => a < s) (fun a => X k a)); [lia| | |].
    + split; [exact Ht1|]. intros i Hi Hd'. exfalso. cbv beta in *. lia.
    + intros s t2 Hs Ht2. apply wp_bind. apply (arrD_upd _ _ _ _ _ _ _ Ht2); [lia|]. intros t3 Ht3.
      apply wp_for_up with (P := fun r t => arrD t nt (fun a => a < s + 1) (fun a => if a =? s then vsum 0 r (fun r => vscale (gu k r) (pt2 P (ku - p + r) (kv - q + s))) else X k a)); [lia| | |].
      * eapply arrD_ext; [exact Ht3|]. intros a Ha Hd'. split; [dl|]. zcase; [rewrite vsum_nil by lia|]; reflexivity.
      * intros r t4 Hr Ht4. rewrite HNu by lia. cbn [bind]. wget HPa. wget Ht4. rewrite Z.eqb_refl.
        wupd Ht4. intros t5 Ht5. eapply arrD_ext; [exact Ht5|]. intros a Ha Hd'. split; [right; exact Hd'|]. cbv beta.
        destruct (Z.eqb_spec a s) as [->|]; [|reflexivity]. rewrite vsum_last by lia. reflexivity.
      * intros t4 Ht4. eapply arrD_ext; [exact Ht4|]. intros a Ha Hd'. split; [dl|]. cbv beta. destruct (Z.eqb_spec a s) as [->|]; reflexivity.
    + intros t2 Ht2. apply wp_bind.
      apply wp_for_up with (P := fun l der => arr2 der nr nc (fun a b => if ((a <? k) && (b <=? dd)) || ((a =? k) && (b <? l)) then vadd (g a b) (Y a b) else g a b)); [fold dd; lia| | |].
      * eapply arr2_ext; [exact Hd1|]. intros a b Ha Hb. zcase; try lia; reflexivity.
      * intros l d2 Hl Hd2.
        apply (acc_arr2 0 (q + 1) k l nr nc d2 _ (fun s => vscale (gv l s) (X k s)) _ _ ltac:(lia) Hd2 ltac:(lia) ltac:(lia)).
        -- intros s d3 Hs. rewrite HNv by lia. cbn [bind]. rewrite (arrD_get _ _ _ _ _ Ht2) by dl. reflexivity.
        -- intros d3 Hd3. eapply arr2_ext; [exact Hd3|]. intros a b Ha Hb. cbv beta.
           destruct (Z.eqb_spec a k) as [->|]; destruct (Z.eqb_spec b l) as [->|]; cbn [andb orb]; try (zcase; try lia; reflexivity).
      * intros d2 Hd2. cbn [wp]. split; [apply Ht2|]. eapply arr2_ext; [exact Hd2|]. intros a b Ha Hb. fold dd. zcase; try lia; reflexivity.
  - intros [t1 d1] [Ht1 Hd1]. cbn [wp snd]. eapply arr2_ext; [exact Hd1|]. intros a b Ha Hb. cbv beta.
    replace (a <? du + 1) with (a <=? du) by (zcase; lia || reflexivity). reflexivity.
Qed.

Lemma dpatch_vsum ku p U kv q W P k l u v : dpatch ku p U kv q W P k l u v =
  vsum 0 (q + 1) (fun s => vscale (GN (val W) kv q (kv - q + s) l v) (vsum 0 (p + 1) (fun r => vscale (GN (val U) ku p (ku - p + r) k u) (pt2 P (ku - p + r) (kv - q + s))))).
Proof.
  unfold dpatch.
  change (fun i => comb (kv - q) (kv + 1) (fun j => GN (val W) kv q j l v) (pt2 P i))
      with (fun i => comb (kv - q) (kv + 1) (fun j => GN (val W) kv q j l v) (fun j => pt2 P i j)).
  rewrite (comb_swap _ _ _ _ _ _ (pt2 P)). rewrite (comb_from kv q). apply vsum_ext. intros s Hs. f_equal. apply (comb_from ku p).
Qed.

Lemma SurfaceDerivatives_span p n U q m W (P : list (list T)) u v ku kv d :
  curve_knots p n U -> curve_knots q m W -> p <= 7 -> q <= 7 -> net (n + 1) (m + 1) P ->
  span_of p n U u ku -> span_of q m W v kv -> 0 < d -> d <= p -> d <= q ->
  wp (SurfaceComputeDerivatives (mkSurface p q U W P) d u v)
    (fun D => arr2 D (d + 1) (d + 1) (fun k l => dpatch ku p U kv q W P k l u v)).
Proof.
  intros HU HW Hp7 Hq7 HP Hku Hkv Hd Hdp Hdq. pose proof (span_of_dom _ _ _ _ _ HU Hku) as Du. pose proof (span_of_dom _ _ _ _ _ HW Hkv) as Dv.
  pose proof HU as [Hp Hn Hl _ _ _]. pose proof HW as [Hq Hm Hl' _ _ _].
  unfold SurfaceComputeDerivatives. cbn [DegreeU DegreeV KnotVectorU KnotVectorV SControlPoints]. wval.
  rewrite (domain_ok p n U u HU Du), (domain_ok q m W v HW Dv). cbn [bind].
  apply wp_bind. apply wp_mkvec; [lia|]. intros row Hrow. apply wp_bind. eapply wp_mkvec2; [lia|exact Hrow|]. intros der Hder.
  rewrite (find_span_eq p n U u ku HU Hku). cbn [bind].
  destruct (wp_elim _ _ (BasisFunctionsDerivatives_ok U p ku d u (span_of_ok _ _ _ _ _ HU Hku) Hp7 ltac:(lia) (accepted_dom _ _ _ _ HU Du))) as (Bu & -> & HBu). cbn [bind].
  rewrite (find_span_eq q m W v kv HW Hkv). cbn [bind].
  destruct (wp_elim _ _ (BasisFunctionsDerivatives_ok W q kv d v (span_of_ok _ _ _ _ _ HW Hkv) Hq7 ltac:(lia) (accepted_dom _ _ _ _ HW Dv))) as (Bv & -> & HBv). cbn [bind].
  apply wp_bind. apply wp_mkvec; [lia|]. intros tmp Htmp. pose proof Hku as (Hkn & _). pose proof Hkv as (Hkm & _).
  eapply wp_mono.
  - apply (SurfaceLoops_ok p q ku kv (Z.min d p) (Z.min d q) d (get2 Bu) (get2 Bv) (fun a r => GN (val U) ku p (ku - p + r) a u) (fun a r => GN (val W) kv q (kv - q + r) a v) P n m tmp (q + 1) der (d + 1) (d + 1) (fun _ _ => vzero)); auto; try lia.
    + intros a r Ha Hr. apply (arr2_get _ _ _ _ a r HBu); lia.
    + intros a r Ha Hr. apply (arr2_get _ _ _ _ a r HBv); lia.
    + apply Htmp.
  - intros D HD. eapply arr2_ext; [exact HD|]. intros k l Hk Hl0. cbv beta. rewrite dpatch_vsum.
    destruct (Z.leb_spec k (Z.min d p)); [|lia]. destruct (Z.leb_spec l (Z.min d (Z.min d q))); [|lia]. cbn [andb]. apply vadd_0_l.
Qed.

Lemma SurfaceDerivatives_reject p n U q m W (P : list (list T)) u v d :
  curve_knots p n U -> curve_knots q m W -> p <= 7 -> q <= 7 ->
  in_domain p n U u -> in_domain q m W v -> 0 < d -> p < d \/ q < d ->
  SurfaceComputeDerivatives (mkSurface p q U W P) d u v = Throw.
Proof.
  intros HU HW Hp7 Hq7 Du Dv Hd Ho.
  unfold SurfaceComputeDerivatives. cbn [DegreeU DegreeV KnotVectorU KnotVectorV SControlPoints].
  destruct (Z.ltb_spec 0 d); [|lia]. cbn [validate bind].
  rewrite (domain_ok p n U u HU Du), (domain_ok q m W v HW Dv). cbn [bind].
  unfold mkvec. destruct (Z.ltb_spec (d + 1) 0); [lia|]. cbn [bind].
  destruct (find_span p n U u HU Du) as (ku & -> & Hku). destruct (find_span q m W v HW Dv) as (kv & Ev & Hkv). cbn [bind].
  destruct (Z_lt_dec p d).
  { rewrite Derivatives_reject by lia. reflexivity. }
  pose proof HU as [Hp Hn Hl _ _ _]. pose proof HW as [Hq Hm Hl' _ _ _].
  destruct (wp_elim _ _ (BasisFunctionsDerivatives_ok U p ku d u (span_of_ok _ _ _ _ _ HU Hku) Hp7 ltac:(lia) (accepted_dom _ _ _ _ HU Du))) as (Bu & -> & HBu). cbn [bind].
  rewrite Ev. cbn [bind]. rewrite Derivatives_reject by lia. reflexivity.
Qed.

Lemma FirstOrder_surface p n U q m W (P : list (list T)) u v ku kv D0 :
  curve_knots p n U -> curve_knots q m W -> 1 <= p <= 7 -> 1 <= q <= 7 -> net (n + 1) (m + 1) P ->
  span_of p n U u ku -> span_of q m W v kv -> arr2 D0 2 2 (fun _ _ => vzero) ->
  wp (SurfaceComputeFirstOrderDerivative (mkSurface p q U W P) u v D0)
    (fun D => arr2 D 2 2 (fun k l => dpatch ku p U kv q W P k l u v)).
Proof.
  intros HU HW Hp7 Hq7 HP Hku Hkv HD0. pose proof (span_of_dom _ _ _ _ _ HU Hku) as Du. pose proof (span_of_dom _ _ _ _ _ HW Hkv) as Dv.
  pose proof HU as [Hp Hn Hl _ _ _]. pose proof HW as [Hq Hm Hl' _ _ _].
  unfold SurfaceComputeFirstOrderDerivative. cbn [DegreeU DegreeV KnotVectorU KnotVectorV SControlPoints].
  rewrite (domain_ok p n U u HU Du), (domain_ok q m W v HW Dv). cbn [bind].
  rewrite (find_span_eq p n U u ku HU Hku). cbn [bind].
  destruct (wp_elim _ _ (BasisFunctionsFirstOrderDerivative_ok U p ku u (span_of_ok _ _ _ _ _ HU Hku) Hp7 (accepted_dom _ _ _ _ HU Du))) as (Bu & -> & HBu). cbn [bind].
  rewrite (find_span_eq q m W v kv HW Hkv). cbn [bind].
  destruct (wp_elim _ _ (BasisFunctionsFirstOrderDerivative_ok W q kv v (span_of_ok _ _ _ _ _ HW Hkv) Hq7 (accepted_dom _ _ _ _ HW Dv))) as (Bv & -> & HBv). cbn [bind].
  apply wp_bind. apply wp_mkvec; [unfold NURBSMaxDegree; lia|]. intros tmp Htmp. pose proof Hku as (Hkn & _). pose proof Hkv as (Hkm & _).
  eapply wp_mono.
  - apply (SurfaceLoops_ok p q ku kv (Z.min 1 p) (Z.min 1 q) 1 (getu2 Bu) (getu2 Bv) (fun a r => GN (val U) ku p (ku - p + r) a u) (fun a r => GN (val W) kv q (kv - q + r) a v) P n m tmp 8 D0 2 2 (fun _ _ => vzero)); auto; try lia.
    + intros a r Ha Hr. rewrite (getu2_D _ _ _ _ _ a r _ HBu) by (try lia; reflexivity). reflexivity.
    + intros a r Ha Hr. rewrite (getu2_D _ _ _ _ _ a r _ HBv) by (try lia; reflexivity). reflexivity.
    + apply Htmp.
  - intros D HD. eapply arr2_ext; [exact HD|]. intros k l Hk Hl0. cbv beta. rewrite dpatch_vsum.
    destruct (Z.leb_spec k (Z.min 1 p)); [|lia]. destruct (Z.leb_spec l (Z.min 1 (Z.min 1 q))); [|lia]. cbn [andb]. apply vadd_0_l.
Qed.

Lemma SurfaceDerivatives_spec p n U q m W (P : list (list T)) u v d :
  curve_knots p n U -> curve_knots q m W -> p <= 7 -> q <= 7 -> net (n + 1) (m + 1) P ->
  in_domain p n U u -> in_domain q m W v -> 0 < d -> d <= p -> d <= q ->
  returns (SurfaceComputeDerivatives (mkSurface p q U W P) d u v) (fun D =>
    len D = d + 1 /\ exists ku kv, span_of p n U u ku /\ span_of q m W v kv /\
    forall k l, 0 <= k <= d -> 0 <= l <= d ->
      exists G, pderiv k l (span_patch ku p U kv q W P) G /\ get2 D k l = Ok (G u v)).
Proof.
  intros HU HW Hp7 Hq7 HP Du Dv Hd Hdp Hdq.
  destruct (find_span p n U u HU Du) as (ku & _ & Hku). destruct (find_span q m W v HW Dv) as (kv & _ & Hkv).
  destruct (wp_elim _ _ (SurfaceDerivatives_span p n U q m W P u v ku kv d HU HW Hp7 Hq7 HP Hku Hkv Hd Hdp Hdq)) as (D & E & HD).
  exists D. split; [exact E|]. split; [apply HD|]. exists ku, kv. split; [exact Hku|]. split; [exact Hkv|]. intros k l Hk Hl.
  exists (dpatch ku p U kv q W P k l). split.
  - apply dpatch_deriv; try lia; apply span_good; eapply span_of_ok; eauto.
  - apply (arr2_get _ _ _ _ k l HD); lia.
Qed.

Lemma FirstOrder_surface_spec p n U q m W (P : list (list T)) u v D0 :
  curve_knots p n U -> curve_knots q m W -> 1 <= p <= 7 -> 1 <= q <= 7 -> net (n + 1) (m + 1) P ->
  in_domain p n U u -> in_domain q m W v -> is_mat D0 2 2 (fun _ _ => vzero) ->
  returns (SurfaceComputeFirstOrderDerivative (mkSurface p q U W P) u v D0) (fun D =>
    exists ku kv, span_of p n U u ku /\ span_of q m W v kv /\
    forall k l, 0 <= k <= 1 -> 0 <= l <= 1 ->
      exists G, pderiv k l (span_patch ku p U kv q W P) G /\ get2 D k l = Ok (G u v)).
Proof.
  intros HU HW Hp7 Hq7 HP Du Dv HD0.
  destruct (find_span p n U u HU Du) as (ku & _ & Hku). destruct (find_span q m W v HW Dv) as (kv & _ & Hkv).
  destruct (wp_elim _ _ (FirstOrder_surface p n U q m W P u v ku kv D0 HU HW Hp7 Hq7 HP Hku Hkv HD0)) as (D & E & HD).
  exists D. split; [exact E|]. exists ku, kv. split; [exact Hku|]. split; [exact Hkv|]. intros k l Hk Hl.
  exists (dpatch ku p U kv q W P k l). split.
  - apply dpatch_deriv; try lia; apply span_good; eapply span_of_ok; eauto.
  - apply (arr2_get _ _ _ _ k l HD); lia.
Qed.

(* ---------------- ComputeDerivativesByAllBasisFunctions for surfaces ---------------- *)
Definition sh4 (K : list (list (list (list T)))) (a b r c : Z) : Prop :=
  len K = a /\ forall k, 0 <= k < a -> exists A, get K k = Ok A /\ len A = b /\
  forall l, 0 <= l < b -> exists M, get A l = Ok M /\ len M = r /\
  forall i, 0 <= i < r -> exists row, get M i = Ok row /\ len row = c.

Lemma sh4_put K a b r c k l i j x (Q : list (list (list (list T))) -> Prop) : sh4 K a b r c ->
  0 <= k < a -> 0 <= l < b -> 0 <= i < r -> 0 <= j < c -> (forall K', sh4 K' a b r c -> Q K') ->
  wp (let! A := get K k in let! M := get A l in let! M := upd2 M i j x in let! A := upd A l M in upd K k A) Q.
Proof.
  intros [HK HA] Hk Hl Hi Hj HQ. destruct (HA k Hk) as (A & -> & HlA & HM). cbn [bind].
  destruct (HM l Hl) as (M & -> & HlM & HR). cbn [bind]. unfold upd2. destruct (HR i Hi) as (row & -> & Hrow). cbn [bind].
  wnorm. apply wp_bind. apply (upd_wp row c); auto. intros row' Hrow' _ _.
  apply wp_bind. apply (upd_wp M r); auto. intros M' HlM' HsM HoM.
  apply wp_bind. apply (upd_wp A b); auto. intros A' HlA' HsA HoA.
  apply (upd_wp K a); auto. intros K' HlK' HsK HoK. apply HQ. split; [exact HlK'|].
  intros k' Hk'. destruct (Z.eq_dec k' k) as [->|Hne].
  2:{ rewrite HoK by auto. apply HA. exact Hk'. }
  exists A'. split; [exact HsK|]. split; [exact HlA'|]. intros l' Hl'. destruct (Z.eq_dec l' l) as [->|Hne].
  2:{ rewrite HoA by auto. apply HM. exact Hl'. }
  exists M'. split; [exact HsA|]. split; [exact HlM'|]. intros i' Hi'. destruct (Z.eq_dec i' i) as [->|Hne].
  2:{ rewrite HoM by auto. apply HR. exact Hi'. }
  exists row'. auto.
Qed.

Lemma iter_first {S} lo hi (s : S) body e : lo < hi -> body lo s = Err e -> for_up lo hi s body = Err e.
Proof.
  intros H E. unfold for_up. replace (Z.to_nat (hi - lo)) with (Datatypes.S (Z.to_nat (hi - lo - 1))) by lia.
  cbn [iter_up]. rewrite E. reflexivity.
Qed.

(* constant knots: the difference quotient divides by zero *)
Lemma const_knots_nonfin q W c (row : list T) d : 1 <= q -> 1 <= d -> arr W (len W) (fun _ => c) -> 2 * q + 2 <= len W -> q < len row ->
  ComputeControlPointsOfDerivatives (mkCurve q W row) d 0 q = NonFin.
Proof.
  intros Hq Hd HW HlW Hr. unfold ComputeControlPointsOfDerivatives. cbn [Degree KnotVector ControlPoints].
  destruct (Z.ltb_spec 0 d); [|lia]. cbn [validate bind]. unfold validate_int_range.
  destruct (Z.ltb_spec 0 0); [lia|]. destruct (Z.ltb_spec q 0); [lia|]. cbn [orb negb validate bind].
  unfold mkvec at 1. destruct (Z.ltb_spec (q - 0 + 1) 0); [lia|]. cbn [bind].
  pose proof (arr_repeat (vzero : T) (q - 0 + 1) ltac:(lia)) as Z0.
  unfold mkvec. destruct (Z.ltb_spec (d + 1) 0); [lia|]. cbn [bind].
  pose proof (arr2_repeat (vzero : T) (d + 1) (q - 0 + 1) _ ltac:(lia) Z0) as Z00.
  pose proof (arr_pt row (len row) eq_refl) as Hra.
  match goal with |- bind (for_up _ _ ?KK ?b) _ = _ => assert (E : wp (for_up 0 (q - 0 + 1) KK b) (fun K => exists f, arr2 K (d + 1) (q - 0 + 1) f)) end.
  { apply wp_for_up with (P := fun _ K => exists f, arr2 K (d + 1) (q - 0 + 1) f); [lia| eauto | |auto].
    intros i K Hi [f Hf]. wget Hra. wupd Hf. intros K' HK'. eauto. }
  destruct (wp_elim _ _ E) as (K & -> & f & Hf). cbn [bind].
  apply iter_first; [lia|]. apply iter_first; [lia|].
  wget Hf. wget Hf. wget HW. wget HW. numg. replace (c - c)%R with 0%R by ring. rewrite vdiv_zero. reflexivity.
Qed.

Lemma surface_by_all_basis_nonfin p n U q m W (P : list (list T)) u v d :
  curve_knots p n U -> curve_knots q m W -> 1 <= p <= 7 -> 1 <= q <= 7 -> net (n + 1) (m + 1) P ->
  in_domain p n U u -> in_domain q m W v -> 0 < d ->
  SurfaceComputeDerivativesByAllBasisFunctions (mkSurface p q U W P) d u v = NonFin.
Proof.
  intros HU HW Hp7 Hq7 HP Du Dv Hd. pose proof HU as [Hp Hn Hl _ _ _]. pose proof HW as [Hq Hm Hl' _ _ _].
  destruct (find_span p n U u HU Du) as (ku & Eu & Hku). destruct (find_span q m W v HW Dv) as (kv & Ev & Hkv).
  pose proof Hku as (Hkn & _). pose proof Hkv as (Hkm & _).
  unfold SurfaceComputeDerivativesByAllBasisFunctions. cbn [DegreeU DegreeV KnotVectorU KnotVectorV].
  destruct (Z.ltb_spec 0 d); [|lia]. cbn [validate bind].
  rewrite (domain_ok p n U u HU Du), (domain_ok q m W v HW Dv). cbn [bind].
  unfold mkvec at 1. destruct (Z.ltb_spec (d + 1) 0); [lia|]. cbn [bind].
  unfold mkvec at 1. destruct (Z.ltb_spec (d + 1) 0); [lia|]. cbn [bind].
  rewrite Eu, Ev. cbn [bind].
  pose proof (span_of_ok _ _ _ _ _ HU Hku) as Su. pose proof (span_of_ok _ _ _ _ _ HW Hkv) as Sv.
  destruct (wp_elim _ _ (AllBasisFunctions_ok U p ku u Su ltac:(lia) (accepted_dom _ _ _ _ HU Du))) as (Bu & -> & _). cbn [bind].
  destruct (wp_elim _ _ (AllBasisFunctions_ok W q kv v Sv ltac:(lia) (accepted_dom _ _ _ _ HW Dv))) as (Bv & -> & _). cbn [bind].
  match goal with |- bind ?c _ = _ => assert (E : c = NonFin); [|rewrite E; reflexivity] end.
  unfold SurfaceComputeControlPointsOfDerivatives. cbn [DegreeU DegreeV KnotVectorU KnotVectorV SControlPoints].
  destruct (Z.ltb_spec 0 d); [|lia]. cbn [validate bind]. unfold validate_int_range.
  destruct (Z.ltb_spec (ku - p) 0); [lia|]. destruct (Z.ltb_spec ku (ku - p)); [lia|]. cbn [orb negb validate bind].
  destruct (Z.ltb_spec (kv - q) 0); [lia|]. destruct (Z.ltb_spec kv (kv - q)); [lia|]. cbn [orb negb validate bind].
  rewrite (domain_ok p n U u HU Du), (domain_ok q m W v HW Dv). cbn [bind].
  destruct HP as [HP HPr]. pose proof (arr2_net _ _ _ (conj HP HPr)) as HPa.
  rewrite (get_at nil P 0) by lia. cbn [bind]. rewrite (HPr 0) by lia. rewrite HP.
  unfold mkvec at 1. destruct (Z.ltb_spec (m + 1) 0); [lia|]. cbn [bind].
  unfold mkvec at 1. destruct (Z.ltb_spec (n + 1) 0); [lia|]. cbn [bind].
  unfold mkvec at 1. destruct (Z.ltb_spec (d + 1) 0); [lia|]. cbn [bind].
  unfold mkvec at 1. destruct (Z.ltb_spec (d + 1) 0); [lia|]. cbn [bind].
  match goal with |- bind (for_up _ _ ?KK ?b) _ = _ =>
    assert (E : wp (for_up (kv - q) (kv + 1) KK b) (fun K => sh4 K (d + 1) (d + 1) (n + 1) (m + 1))) end.
  { apply wp_for_up with (P := fun _ K => sh4 K (d + 1) (d + 1) (n + 1) (m + 1)); [lia| | |auto].
    - split; [rewrite len_repeat; lia|]. intros k Hk. eexists. split; [apply (arr_get _ _ _ _ (arr_repeat _ (d + 1) ltac:(lia))); lia|].
      split; [rewrite len_repeat; lia|]. intros l Hl0. eexists. split; [apply (arr_get _ _ _ _ (arr_repeat _ (d + 1) ltac:(lia))); lia|].
      split; [rewrite len_repeat; lia|]. intros i Hi. eexists. split; [apply (arr_get _ _ _ _ (arr_repeat _ (n + 1) ltac:(lia))); lia|].
      rewrite len_repeat. lia.
    - intros j K Hj HK. apply wp_bind.
      apply wp_for_up with (P := fun i pts => arr pts i (fun i => pt2 P i j)); [lia|apply arr_nil| |].
      + intros i pts Hi Hpts. wget HPa. cbn [wp]. apply arr_snoc; auto.
      + intros pts Hpts. apply wp_bind.
        eapply wp_mono; [apply (DerivativePoints_ok p U pts (Z.min d p) (ku - p) ku); try lia|].
        * rewrite (arr_len _ _ _ Hpts). lia.
        * intros a i Ha Hi E. pose proof (span_good _ _ _ Su) as Hg.
          pose proof (good_den (val U) ku p (i + a) (i + p + 1) Hg ltac:(lia) ltac:(lia) ltac:(lia) ltac:(lia)). lra.
        * intros tmp Htmp. cbv beta in Htmp.
          apply wp_for_up with (P := fun _ K => sh4 K (d + 1) (d + 1) (n + 1) (m + 1)); [lia|exact HK| |auto].
          intros k K1 Hk HK1. apply wp_for_up' with (P := fun _ K => sh4 K (d + 1) (d + 1) (n + 1) (m + 1)); [exact HK1| |auto].
          intros i K2 Hi HK2. wget Htmp. eapply sh4_put; [exact HK2|lia|lia|lia|lia|auto]. }
  destruct (wp_elim _ _ E) as (K & -> & HK). cbn [bind]. clear E.
  unfold mkvec at 1. destruct (Z.ltb_spec (len W) 0); [lia|]. cbn [bind].
  apply iter_first; [lia|]. apply iter_first; [lia|].
  destruct HK as [_ HK]. destruct (HK 0 ltac:(lia)) as (KA & -> & _ & HK1). cbn [bind].
  destruct (HK1 0 ltac:(lia)) as (KM & -> & _ & HK2). cbn [bind].
  destruct (HK2 0 ltac:(lia)) as (row & -> & Hrow). cbn [bind].
  replace (kv - (kv - q)) with q by lia.
  rewrite (const_knots_nonfin q _ (IZR (kv - q))); [reflexivity|lia|lia| | |lia].
  - rewrite len_repeat. replace (Z.of_nat (Z.to_nat (len W))) with (len W) by lia. apply arr_repeat. lia.
  - rewrite len_repeat. lia.
Qed.

End Srf.
