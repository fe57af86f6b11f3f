(* Surfaces: swapping, iso-curves, reversal, refinement, reparametrisation. *)
From Coq Require Import ZArith List Bool Reals Lra Lia Permutation.
From Verif Require Import Base Num Vec Tac Spec Spec2 Spec4 M_MathUtils M_Polynomials M_Bspline M_NurbsCurve M_Knots M_Curve2 M_Surface
  P_MathUtils P_Span P_Cox P_Basis P_VSum P_Curve P_Bspline P_BsplineS P_Loop P_Insert P_Insert2 P_Refine P_Reverse P_Reparam P_Math2 P_KnotMap P_KnotMap2.
Import ListNotations.
Open Scope Z_scope.

Section Srf.
Context {T : Type} {V : Vec R T} {L : VecL T}.

Lemma surface_eval n m (S : Surface R T) u v : valid_surface n m S -> u_domain n S u -> v_domain m S v ->
  GetPointOnSurface S u v = Ok (surface_point (DegreeU S) n (KnotVectorU S) (DegreeV S) m (KnotVectorV S) (SControlPoints S) u v).
Proof.
  intros (HU & HW & HP & H7 & H7') Du Dv. destruct S as [p q U W P]. cbn in *. apply (GetPointOnSurface_ok p n U q m W P); assumption.
Qed.

Lemma surface_point_T p n U q m W (P Q : list (list T)) u v :
  (forall i j, 0 <= i <= n -> 0 <= j <= m -> pt2 Q j i = pt2 P i j) ->
  surface_point q m W p n U Q v u = surface_point p n U q m W P u v.
Proof.
  intros H. unfold surface_point. symmetry.
  transitivity (comb 0 (n + 1) (fun i => N (val U) (val U (n + 1)) (Z.to_nat p) i u)
    (fun i => comb 0 (m + 1) (fun j => N (val W) (val W (m + 1)) (Z.to_nat q) j v) (fun j => pt2 P i j))); [reflexivity|].
  rewrite (comb_swap _ _ _ _ _ _ (pt2 P)). apply comb_ext. intros j Hj. split; [reflexivity|].
  apply comb_ext. intros i Hi. split; [reflexivity|]. symmetry. apply H; lia.
Qed.

Lemma surface_point_rowwise p n U q m W m' W' (P Q : list (list T)) u v v' :
  (forall i, 0 <= i <= n -> curve_point q m' W' (at_ nil Q i) v' = curve_point q m W (at_ nil P i) v) ->
  surface_point p n U q m' W' Q u v' = surface_point p n U q m W P u v.
Proof. intros H. unfold surface_point. apply comb_ext. intros i Hi. split; [reflexivity|]. apply (H i). lia. Qed.

Lemma transposed n m (P : list (list T)) : 0 <= n -> 0 <= m -> net (n + 1) (m + 1) P ->
  exists Q, Transpose P = Ok Q /\ net (m + 1) (n + 1) Q /\ Transpose Q = Ok P /\
    forall i j, 0 <= i <= n -> 0 <= j <= m -> pt2 Q j i = pt2 P i j.
Proof.
  intros Hn Hm HP. pose proof (arr2_net _ _ _ HP) as AP.
  destruct (wp_elim _ _ (Transpose_ok P (n + 1) (m + 1) _ ltac:(lia) ltac:(lia) AP)) as (Q & E & HQ).
  exists Q. split; [exact E|]. split; [apply (net_arr2 _ _ _ _ HQ)|]. split.
  - destruct (Transpose_invol P (n + 1) (m + 1) _ ltac:(lia) ltac:(lia) AP) as (P' & E' & ->). rewrite E in E'. exact E'.
  - intros i j Hi Hj. rewrite (pt2_arr2 _ _ _ _ j i HQ) by lia. reflexivity.
Qed.

Lemma Swap_ok n m (S : Surface R T) : valid_surface n m S ->
  returns (Swap S) (fun S' => valid_surface m n S' /\ Swap S' = Ok S /\
    forall u v, u_domain n S u -> v_domain m S v -> GetPointOnSurface S' v u = GetPointOnSurface S u v).
Proof.
  intros HS. pose proof HS as (HU & HW & HP & H7 & H7'). pose proof (ck_n _ _ _ HU) as Hn. pose proof (ck_p _ _ _ HU) as Hp.
  pose proof (ck_n _ _ _ HW) as Hm. pose proof (ck_p _ _ _ HW) as Hq.
  destruct (transposed n m (SControlPoints S) ltac:(lia) ltac:(lia) HP) as (Q & E & HQ & E' & Hpt).
  unfold Swap at 1. rewrite E. cbn [bind]. eexists. split; [reflexivity|].
  assert (HS' : valid_surface m n (mkSurface (DegreeV S) (DegreeU S) (KnotVectorV S) (KnotVectorU S) Q)) by (split; [|split; [|split; [|split]]]; assumption).
  split; [exact HS'|]. split.
  - unfold Swap. cbn [SControlPoints DegreeU DegreeV KnotVectorU KnotVectorV]. rewrite E'. destruct S. reflexivity.
  - intros u v Du Dv. rewrite (surface_eval n m S) by assumption. rewrite (surface_eval m n _ v u HS') by assumption.
    cbn [SControlPoints DegreeU DegreeV KnotVectorU KnotVectorV]. f_equal. apply surface_point_T. exact Hpt.
Qed.

(** * Iso-curves *)
Lemma Swap_in_place_bad n m (S : Surface R T) : valid_surface n m S -> DegreeU S <> DegreeV S \/ KnotVectorU S <> KnotVectorV S ->
  returns (Swap_in_place S) (fun S' => DegreeV S' = DegreeV S /\ KnotVectorV S' = KnotVectorV S /\ Swap S <> Ok S').
Proof.
  intros HS H. pose proof HS as (HU & HW & HP & H7 & H7'). pose proof (ck_n _ _ _ HU) as Hn. pose proof (ck_p _ _ _ HU) as Hp.
  pose proof (ck_n _ _ _ HW) as Hm. pose proof (ck_p _ _ _ HW) as Hq.
  destruct (transposed n m (SControlPoints S) ltac:(lia) ltac:(lia) HP) as (Q & E & HQ & E' & Hpt).
  unfold Swap_in_place, Swap. rewrite E. cbn [bind]. eexists. split; [reflexivity|]. cbn [DegreeU DegreeV KnotVectorU KnotVectorV SControlPoints].
  split; [reflexivity|]. split; [reflexivity|]. intros C. injection C as C1 C2. destruct H as [H|H]; apply H; assumption.
Qed.

Lemma clamp_dom p n U t : curve_knots p n U -> in_domain p n U (clamped (val U p) (val U (n + 1)) t) /\
  std_clamp t (val U p) (val U (n + 1)) = Ok (clamped (val U p) (val U (n + 1)) t).
Proof.
  intros HU. pose proof HU as [Hp Hn Hl Hs _ _].
  assert (H : (val U p <= val U (n + 1))%R) by (apply Hs; lia).
  unfold in_domain, std_clamp, clamped. num. destruct (Rltb_spec (val U (n + 1)) (val U p)); [lra|].
  unfold Rmax, Rmin. destruct (Rltb_spec t (val U p)).
  - destruct (Rle_dec t (val U (n + 1))), (Rle_dec (val U p) t); try lra; try (split; [lra|reflexivity]).
    all: destruct (Rle_dec (val U p) (val U (n + 1))); split; [lra|reflexivity || (f_equal; lra)].
  - destruct (Rltb_spec (val U (n + 1)) t).
    + destruct (Rle_dec t (val U (n + 1))); [lra|]. destruct (Rle_dec (val U p) (val U (n + 1))); split; [lra|reflexivity|lra|f_equal; lra].
    + destruct (Rle_dec t (val U (n + 1))); [|lra]. destruct (Rle_dec (val U p) t); [|lra]. split; [lra|reflexivity].
Qed.

Lemma iso_line q m W v k Nv (rd : Z -> res T) (f : Z -> T) : curve_knots q m W -> span_of q m W v k ->
  (forall j, 0 <= j <= q -> getu Nv j = Ok (NS (val W) k q (k - q + j) v)) ->
  (forall j, 0 <= j <= m -> rd j = Ok (f j)) ->
  for_up 0 (q + 1) vzero (fun j x => let! b := getu Nv j in let! c := rd (k - q + j) in Ok (vadd x (vscale b c))) =
  Ok (comb 0 (m + 1) (fun j => N (val W) (val W (m + 1)) (Z.to_nat q) j v) f).
Proof.
  intros HW Hk HN Hr. pose proof HW as [Hq Hm Hl _ _ _]. pose proof Hk as (Hkm & _).
  rewrite (acc_loop0 0 (q + 1) (fun i => vscale (NS (val W) k q (k - q + i) v) (f (k - q + i)))); [|lia|].
  - f_equal. rewrite <- (comb_from k q (fun i => NS (val W) k q i v) f). rewrite (comb_ext 0 (m + 1) _ (fun j => NS (val W) k q j v) f f).
    + symmetry. apply comb_restrict; try lia. intros j Hj Ho. apply NS_out; lia.
    + intros j Hj. split; [|reflexivity]. apply (NB_span q m W v k q j); auto; lia.
  - intros i x Hi. rewrite HN by lia. cbn [bind]. rewrite Hr by lia. reflexivity.
Qed.

Lemma GetIsoCurve_u n m (S : Surface R T) t : valid_surface n m S ->
  returns (GetIsoCurve S t true) (fun c => Degree c = DegreeU S /\ KnotVector c = KnotVectorU S /\ len (ControlPoints c) = n + 1 /\
    forall u, u_domain n S u ->
      GetPointOnCurve c u = GetPointOnSurface S u (clamped (val (KnotVectorV S) (DegreeV S)) (val (KnotVectorV S) (m + 1)) t)).
Proof.
  intros HS. pose proof HS as (HU & HW & HP & H7 & H7'). destruct S as [p q U W P]. unfold u_domain. cbn [DegreeU DegreeV KnotVectorU KnotVectorV SControlPoints] in *.
  pose proof HU as [Hp Hn HlU _ _ _]. pose proof HW as [Hq Hm HlW _ _ _].
  pose proof (arr2_net _ _ _ HP) as AP. destruct (clamp_dom q m W t HW) as (Hd & Ec). set (v := clamped _ _ _) in *.
  destruct (find_span q m W v HW Hd) as (k & Ek & Hk).
  assert (AW : arr W (m + q + 2) (val W)) by (rewrite <- HlW; apply arr_at).
  apply wp_elim. unfold GetIsoCurve. cbn [DegreeU DegreeV KnotVectorU KnotVectorV SControlPoints]. rewrite (proj1 HP).
  destruct (Z.eqb_spec (n + 1) 0); [lia|]. rewrite (get_at nil) by (rewrite (proj1 HP); lia). cbn [bind]. rewrite HlW.
  replace (m + q + 2 - q - 1) with (m + 1) by lia. wget AW. wget AW. rewrite Ec. cbn [bind]. rewrite Ek. cbn [bind].
  destruct (wp_elim _ _ (BasisFunctions_ok W q k v (span_of_ok _ _ _ _ _ HW Hk) H7' (accepted_dom _ _ _ _ HW Hd))) as (Nv & -> & HNv).
  cbn [bind]. apply wp_bind.
  apply (wp_push 0 (n + 1) (fun i => curve_point q m W (at_ nil P i) v)); [lia| |].
  - intros i w Hi _. rewrite (iso_line q m W v k Nv (fun j => get2 P i j) (pt2 P i)); auto.
    + intros j Hj. apply (getu_arrD _ _ _ _ j HNv); lia.
    + intros j Hj. apply (arr2_get _ _ _ _ i j AP); lia.
  - intros pts Hpts. rewrite Z.sub_0_r in Hpts. cbn [wp Degree KnotVector ControlPoints]. split; [reflexivity|]. split; [reflexivity|]. split; [apply Hpts|].
    intros u Du. rewrite (GetPointOnCurve_ok p n U pts u) by (auto; apply Hpts).
    rewrite (GetPointOnSurface_ok p n U q m W P) by auto. f_equal. unfold curve_point, surface_point. apply comb_ext. intros i Hi. split; [reflexivity|].
    rewrite (arr_pt_eq _ _ _ i Hpts) by lia. cbv beta. rewrite Z.add_0_r. reflexivity.
Qed.

Lemma GetIsoCurve_v n m (S : Surface R T) t : valid_surface n m S ->
  returns (GetIsoCurve S t false) (fun c => Degree c = DegreeV S /\ KnotVector c = KnotVectorV S /\ len (ControlPoints c) = m + 1 /\
    forall v, v_domain m S v ->
      GetPointOnCurve c v = GetPointOnSurface S (clamped (val (KnotVectorU S) (DegreeU S)) (val (KnotVectorU S) (n + 1)) t) v).
Proof.
  intros HS. pose proof HS as (HU & HW & HP & H7 & H7'). destruct S as [p q U W P]. unfold v_domain. cbn [DegreeU DegreeV KnotVectorU KnotVectorV SControlPoints] in *.
  pose proof HU as [Hp Hn HlU _ _ _]. pose proof HW as [Hq Hm HlW _ _ _].
  pose proof (arr2_net _ _ _ HP) as AP. destruct (clamp_dom p n U t HU) as (Hd & Ec). set (u := clamped _ _ _) in *.
  destruct (find_span p n U u HU Hd) as (k & Ek & Hk).
  assert (AU : arr U (n + p + 2) (val U)) by (rewrite <- HlU; apply arr_at).
  apply wp_elim. unfold GetIsoCurve. cbn [DegreeU DegreeV KnotVectorU KnotVectorV SControlPoints]. rewrite (proj1 HP).
  destruct (Z.eqb_spec (n + 1) 0); [lia|]. rewrite (get_at nil) by (rewrite (proj1 HP); lia). cbn [bind]. rewrite HlU.
  rewrite (proj2 HP 0) by lia.
  replace (n + p + 2 - p - 1) with (n + 1) by lia. wget AU. wget AU. rewrite Ec. cbn [bind]. rewrite Ek. cbn [bind].
  destruct (wp_elim _ _ (BasisFunctions_ok U p k u (span_of_ok _ _ _ _ _ HU Hk) H7 (accepted_dom _ _ _ _ HU Hd))) as (Nu & -> & HNu).
  cbn [bind]. apply wp_bind.
  apply (wp_push 0 (m + 1) (fun j => comb 0 (n + 1) (fun i => N (val U) (val U (n + 1)) (Z.to_nat p) i u) (fun i => pt2 P i j))); [lia| |].
  - intros j w Hj _. rewrite (iso_line p n U u k Nu (fun i => get2 P i j) (fun i => pt2 P i j)); auto.
    + intros i Hi. apply (getu_arrD _ _ _ _ i HNu); lia.
    + intros i Hi. apply (arr2_get _ _ _ _ i j AP); lia.
  - intros pts Hpts. rewrite Z.sub_0_r in Hpts. cbn [wp Degree KnotVector ControlPoints]. split; [reflexivity|]. split; [reflexivity|]. split; [apply Hpts|].
    intros v Dv. rewrite (GetPointOnCurve_ok q m W pts v) by (auto; apply Hpts).
    rewrite (GetPointOnSurface_ok p n U q m W P) by auto. f_equal. unfold curve_point, surface_point. symmetry.
    transitivity (comb 0 (n + 1) (fun i => N (val U) (val U (n + 1)) (Z.to_nat p) i u)
      (fun i => comb 0 (m + 1) (fun j => N (val W) (val W (m + 1)) (Z.to_nat q) j v) (fun j => pt2 P i j))); [reflexivity|].
    rewrite (comb_swap _ _ _ _ _ _ (pt2 P)). apply comb_ext. intros j Hj. split; [reflexivity|].
    rewrite (arr_pt_eq _ _ _ j Hpts) by lia. cbv beta. rewrite Z.add_0_r. reflexivity.
Qed.

Lemma GetIsoCurve_empty p q U W t b : GetIsoCurve (mkSurface p q U W ([] : list (list T))) t b = Ok emptyCurve.
Proof. reflexivity. Qed.

(** * Reversal *)
Lemma reversed_knots_arr p n U : curve_knots p n U ->
  exists W, reversed_knots U = Ok W /\ arr W (n + p + 2) (fun i => (val U 0 + val U (n + p + 1) - val U (n + p + 1 - i))%R).
Proof.
  intros HU. destruct (Reverse_arr p n U ([] : list T) HU) as (W & E & HW). exists W. split; [|exact HW].
  unfold Reverse in E. cbn [Degree KnotVector ControlPoints] in E. unfold reversed_knots.
  destruct (mkvec (len U) n0) as [v|]; [|discriminate E]. cbn [bind] in *.
  destruct (get U 0) as [a|]; [|discriminate E]. cbn [bind] in *.
  destruct (get U (len U - 1)) as [b|]; [|discriminate E]. cbn [bind] in *.
  destruct (upd v 0 a) as [w|]; [|discriminate E]. cbn [bind] in *.
  match goal with |- ?X = _ => destruct X as [x|]; [|discriminate E] end. cbn [bind] in E. congruence.
Qed.

Lemma swap_column_ok (P : list (list T)) r c i f : arr2 P r c f -> 0 <= i < c ->
  wp (swap_column r i P) (fun Q => arr2 Q r c (fun a b => if b =? i then f (r - 1 - a) b else f a b)).
Proof.
  intros HP Hi. pose proof (arr2_len _ _ _ _ HP) as Hr. pose proof (len_nonneg P). unfold swap_column.
  assert (Hd : 2 * (r / 2) <= r <= 2 * (r / 2) + 1) by (pose proof (Z.div_mod r 2 ltac:(lia)); pose proof (Z.mod_pos_bound r 2 ltac:(lia)); lia).
  apply wp_for_up with (P := fun h Q => arr2 Q r c (fun a b => if (b =? i) && ((a <? h) || (r - 1 - h <? a)) then f (r - 1 - a) b else f a b)).
  - lia.
  - eapply arr2_ext; [exact HP|]. intros a b Ha Hb. cbv beta.
    destruct (Z.ltb_spec a 0); [lia|]. destruct (Z.ltb_spec (r - 1 - 0) a); [lia|]. rewrite andb_false_r. reflexivity.
  - intros h Q Hh HQ. cbv beta.
    rewrite (arr2_get _ _ _ _ h i HQ) by lia. cbn [bind]. rewrite (arr2_get _ _ _ _ (r - 1 - h) i HQ) by lia. cbn [bind].
    apply wp_bind. apply (arr2_upd _ _ _ _ h i _ _ HQ); [lia|lia|]. intros Q1 H1.
    apply (arr2_upd _ _ _ _ (r - 1 - h) i _ _ H1); [lia|lia|]. intros Q2 H2.
    eapply arr2_ext; [exact H2|]. intros a b Ha Hb. cbv beta. rewrite Z.eqb_refl.
    destruct (Z.eqb_spec b i) as [->|Hne].
    + rewrite !andb_true_r. cbn [andb].
      destruct (Z.ltb_spec h h); [lia|]. destruct (Z.ltb_spec (r - 1 - h) h); [lia|]. destruct (Z.ltb_spec (r - 1 - h) (r - 1 - h)); [lia|]. cbn [orb].
      destruct (Z.eqb_spec a (r - 1 - h)) as [->|N1].
      * destruct (Z.ltb_spec (r - 1 - h) (h + 1)), (Z.ltb_spec (r - 1 - (h + 1)) (r - 1 - h)); try lia; cbn [orb]; f_equal; lia.
      * destruct (Z.eqb_spec a h) as [->|N2].
        -- destruct (Z.ltb_spec h (h + 1)); [|lia]. reflexivity.
        -- destruct (Z.ltb_spec a (h + 1)), (Z.ltb_spec a h), (Z.ltb_spec (r - 1 - (h + 1)) a), (Z.ltb_spec (r - 1 - h) a); try lia; reflexivity.
    + rewrite !andb_false_r. cbn [andb]. reflexivity.
  - intros Q HQ. eapply arr2_ext; [exact HQ|]. intros a b Ha Hb. cbv beta. destruct (Z.eqb_spec b i) as [->|]; [|reflexivity]. cbn [andb].
    destruct (Z.ltb_spec a (r / 2)), (Z.ltb_spec (r - 1 - r / 2) a); cbn [orb]; try reflexivity. f_equal. lia.
Qed.

Lemma surface_point_colwise p n U n' U' q m W (P P' : list (list T)) u u' v : 0 <= n -> 0 <= n' ->
  (forall j col col', 0 <= j <= m -> arr col (n + 1) (fun i => pt2 P i j) -> arr col' (n' + 1) (fun i => pt2 P' i j) ->
     curve_point p n' U' col' u' = curve_point p n U col u) ->
  surface_point p n' U' q m W P' u' v = surface_point p n U q m W P u v.
Proof.
  intros Hn Hn' H. unfold surface_point.
  transitivity (comb 0 (n' + 1) (fun i => N (val U') (val U' (n' + 1)) (Z.to_nat p) i u')
    (fun i => comb 0 (m + 1) (fun j => N (val W) (val W (m + 1)) (Z.to_nat q) j v) (fun j => pt2 P' i j))); [reflexivity|].
  transitivity (comb 0 (n + 1) (fun i => N (val U) (val U (n + 1)) (Z.to_nat p) i u)
    (fun i => comb 0 (m + 1) (fun j => N (val W) (val W (m + 1)) (Z.to_nat q) j v) (fun j => pt2 P i j))); [|reflexivity].
  rewrite (comb_swap _ _ _ _ _ _ (pt2 P)), (comb_swap _ _ _ _ _ _ (pt2 P')). apply comb_ext. intros j Hj. split; [reflexivity|].
  pose proof (arr_mklist (n + 1) (fun i => pt2 P i j) ltac:(lia)) as A. pose proof (arr_mklist (n' + 1) (fun i => pt2 P' i j) ltac:(lia)) as A'.
  specialize (H j _ _ ltac:(lia) A A'). unfold curve_point in H.
  transitivity (comb 0 (n' + 1) (fun i => N (val U') (val U' (n' + 1)) (Z.to_nat p) i u') (pt (mklist (n' + 1) (fun i => pt2 P' i j)))).
  { apply comb_ext. intros i Hi. split; [reflexivity|]. symmetry. apply (arr_pt_eq _ _ _ _ A'). lia. }
  rewrite H. apply comb_ext. intros i Hi. split; [reflexivity|]. apply (arr_pt_eq _ _ _ _ A). lia.
Qed.

Lemma SurfaceReverse_u n m (S S0 : Surface R T) : valid_surface n m S -> wide_ends (DegreeU S) n (KnotVectorU S) ->
  KnotVectorV S0 = KnotVectorV S ->
  returns (SurfaceReverse S UDirection S0) (fun S' => valid_surface n m S' /\ SurfaceReverse S' UDirection S' = Ok S /\
    forall u v, u_domain n S u -> v_domain m S v ->
      occ (KnotVectorU S) u <= DegreeU S \/ u = val (KnotVectorU S) (DegreeU S) \/ u = val (KnotVectorU S) (n + 1) ->
      GetPointOnSurface S' (mirrored (KnotVectorU S) u) v = GetPointOnSurface S u v).
Proof.
  intros HS Hw H0. pose proof HS as (HU & HW & HP & H7 & H7'). destruct S as [p q U W P]. destruct S0 as [p0 q0 U0 W0 P0].
  unfold u_domain, v_domain, mirrored, occ. cbn [DegreeU DegreeV KnotVectorU KnotVectorV SControlPoints] in *. subst W0.
  pose proof HU as [Hp Hn HlU _ _ _]. pose proof HW as [Hq Hm HlW _ _ _].
  destruct (reversed_knots_arr p n U HU) as (U' & EU & AU').
  assert (KU' : curve_knots p n U') by (apply (rev_knots p n U U' HU AU' Hw)).
  assert (G : forall (U0 : list R) (P : list (list T)) f, arr2 P (n + 1) (m + 1) f ->
    wp (for_up 0 (m + 1) P (fun i c => swap_column (n + 1) i c)) (fun Q => arr2 Q (n + 1) (m + 1) (fun a b => f (n - a) b))).
  { clear. intros _ P f HP. apply wp_for_up' with (P := fun h Q => arr2 Q (n + 1) (m + 1) (fun a b => if b <? h then f (n - a) b else f a b)).
    - eapply arr2_ext; [exact HP|]. intros a b Ha Hb. cbv beta. destruct (Z.ltb_spec b 0); [lia|reflexivity].
    - intros i Q Hi HQ. eapply wp_mono; [apply (swap_column_ok Q (n + 1) (m + 1) i _ HQ); lia|]. intros Q' HQ'.
      eapply arr2_ext; [exact HQ'|]. intros a b Ha Hb. cbv beta.
      destruct (Z.eqb_spec b i) as [->|].
      + destruct (Z.ltb_spec i i); [lia|]. destruct (Z.ltb_spec i (i + 1)); [|lia]. f_equal. lia.
      + destruct (Z.ltb_spec b i), (Z.ltb_spec b (i + 1)); try lia; reflexivity.
    - intros Q HQ. eapply arr2_ext; [exact HQ|]. intros a b Ha Hb. cbv beta. destruct (Z.ltb_spec b (Z.max 0 (m + 1))); [reflexivity|lia]. }
  pose proof (arr2_net _ _ _ HP) as AP. destruct (wp_elim _ _ (G U P _ AP)) as (Q & EQ & AQ).
  pose proof (net_arr2 _ _ _ _ AQ) as NQ.
  assert (E : forall P Q U' (S0 : Surface R T), net (n + 1) (m + 1) P -> reversed_knots U = Ok U' -> KnotVectorV S0 = W ->
     for_up 0 (m + 1) P (fun i c => swap_column (n + 1) i c) = Ok Q -> SurfaceReverse (mkSurface p q U W P) UDirection S0 = Ok (mkSurface p q U' W Q)).
  { clear - Hn Hp. intros P Q U' S0 HP E1 E2 E3. unfold SurfaceReverse. cbn [DegreeU DegreeV KnotVectorU KnotVectorV SControlPoints].
    rewrite E1. cbn [bind]. rewrite (proj1 HP). rewrite (get_at nil) by (rewrite (proj1 HP); lia). cbn [bind].
    rewrite (proj2 HP 0) by lia. rewrite E3. cbn [bind]. rewrite E2. reflexivity. }
  exists (mkSurface p q U' W Q). split; [apply E; auto|].
  assert (HS' : valid_surface n m (mkSurface p q U' W Q)) by (split; [|split; [|split; [|split]]]; assumption).
  split; [exact HS'|]. split.
  - clear E. destruct (reversed_knots_arr p n U' KU') as (U2 & EU2 & AU2). destruct (wp_elim _ _ (G U Q _ AQ)) as (P2 & EP2 & AP2).
    unfold SurfaceReverse. cbn [DegreeU DegreeV KnotVectorU KnotVectorV SControlPoints].
    rewrite EU2. cbn [bind]. rewrite (proj1 NQ). rewrite (get_at nil) by (rewrite (proj1 NQ); lia). cbn [bind].
    rewrite (proj2 NQ 0) by lia. rewrite EP2. cbn [bind]. f_equal. f_equal.
    + apply (arr_inj _ _ (n + p + 2) (val U)); [|rewrite <- HlU; apply arr_at]. eapply arr_ext; [exact AU2|]. intros i Hi. cbv beta.
      rewrite !(arr_val _ _ _ _ AU') by lia. replace (n + p + 1 - (n + p + 1 - i)) with i by lia.
      replace (n + p + 1 - 0) with (n + p + 1) by lia. replace (n + p + 1 - (n + p + 1)) with 0 by lia. ring.
    + eapply arr2_inj; [exact AP2|]. eapply arr2_ext; [exact AP|]. intros a b Ha Hb. cbv beta. f_equal. lia.
  - intros u v Du Dv Hm'. rewrite HlU. replace (n + p + 2 - 1) with (n + p + 1) by lia.
    rewrite (GetPointOnSurface_ok p n U q m W P) by auto.
    rewrite (GetPointOnSurface_ok p n U' q m W Q); auto.
    + f_equal. apply surface_point_colwise; [lia|lia|]. intros j col col' Hj A A'.
      apply (rev_point p n U U' col col'); auto. eapply arr_ext; [exact A'|]. intros i Hi. cbv beta.
      rewrite (pt2_arr2 _ _ _ _ i j AQ) by lia. symmetry. apply (arr_pt_eq _ _ _ _ A). lia.
    + destruct Du. unfold in_domain. rewrite !(arr_val _ _ _ _ AU') by lia. replace (n + p + 1 - p) with (n + 1) by lia.
      replace (n + p + 1 - (n + 1)) with p by lia. lra.
Qed.

Lemma SurfaceReverse_v n m (S S0 : Surface R T) : valid_surface n m S ->
  returns (SurfaceReverse S VDirection S0) (fun S' => len (SControlPoints S') = 2 * (n + 1) /\
    (forall i, 0 <= i <= n -> get (SControlPoints S') i = Ok []) /\
    (forall i, 0 <= i <= n -> get (SControlPoints S') (n + 1 + i) = Ok (rev (at_ [] (SControlPoints S) i))) /\
    NurbsSurfaceCheck S' = Throw).
Proof.
  intros HS. pose proof HS as (HU & HW & HP & H7 & H7'). destruct S as [p q U W P].
  cbn [DegreeU DegreeV KnotVectorU KnotVectorV SControlPoints] in *.
  pose proof HU as [Hp Hn HlU _ _ _]. destruct (reversed_knots_arr q m W HW) as (W' & EW & AW').
  apply wp_elim. unfold SurfaceReverse. cbn [DegreeU DegreeV KnotVectorU KnotVectorV SControlPoints bind]. rewrite EW. cbn [bind].
  rewrite (proj1 HP). unfold mkvec. destruct (Z.ltb_spec (n + 1) 0); [lia|]. cbn [bind]. apply wp_bind.
  assert (L0 : len (repeat ([] : list T) (Z.to_nat (n + 1))) = n + 1) by (rewrite len_repeat; lia).
  apply wp_for_up with (P := fun h Q => exists Q', Q = repeat [] (Z.to_nat (n + 1)) ++ Q' /\ arr Q' h (fun i => rev (at_ [] P i))); [lia| | |].
  - exists []. split; [symmetry; apply app_nil_r|apply arr_nil].
  - intros i Q Hi (Q' & -> & HQ'). rewrite (get_at nil) by (rewrite (proj1 HP); lia). cbn [bind wp].
    exists (Q' ++ [rev (at_ [] P i)]). split; [symmetry; apply app_assoc|]. apply arr_snoc; [exact HQ'|reflexivity].
  - intros Q (Q' & -> & HQ'). cbn [wp SControlPoints].
    assert (G0 : forall i, 0 <= i <= n -> get (repeat ([] : list T) (Z.to_nat (n + 1)) ++ Q') i = Ok []).
    { intros i Hi. rewrite get_app_l by lia. apply (arr_get _ _ _ _ (arr_repeat ([] : list T) (n + 1) ltac:(lia))). lia. }
    split; [rewrite len_app, L0, (arr_len _ _ _ HQ'); lia|]. split; [exact G0|]. split.
    + intros i Hi. rewrite get_app_r by lia. rewrite L0. replace (n + 1 + i - (n + 1)) with i by lia. apply (arr_get _ _ _ _ HQ'). lia.
    + unfold NurbsSurfaceCheck. cbn [DegreeU DegreeV KnotVectorU KnotVectorV SControlPoints]. rewrite (G0 0) by lia. cbn [bind].
      assert (HF : validate (IsValidNurbs q (len W') (len ([] : list T))) = Throw).
      { unfold IsValidNurbs. change (len (@nil T)) with 0. rewrite (arr_len _ _ _ AW'). pose proof (ck_n _ _ _ HW). pose proof (ck_p _ _ _ HW).
        destruct (Z.eqb_spec (m + q + 2 - 1) (0 - 1 + q + 1)); [lia|reflexivity]. }
      rewrite HF. unfold validate. destruct (0 <? p); [|reflexivity]. destruct (0 <? q); [|reflexivity].
      destruct (0 <? len (KnotVectorU S0)); [|reflexivity]. destruct (IsValidKnotVector (KnotVectorU S0)); [|reflexivity].
      destruct (0 <? len W'); [|reflexivity]. destruct (IsValidKnotVector W'); [|reflexivity].
      cbn [bind]. destruct (0 <? _); [|reflexivity]. cbn [bind]. destruct (IsValidNurbs p _ _); reflexivity.
Qed.

(* the result object as the caller made it: its v knots are whatever they were *)
Lemma SurfaceReverse_u_fresh n m (S S0 : Surface R T) : valid_surface n m S -> KnotVectorV S0 = [] ->
  returns (SurfaceReverse S UDirection S0) (fun S' => KnotVectorV S' = [] /\
    forall u v, u_domain n S u -> GetPointOnSurface S' (mirrored (KnotVectorU S) u) v = UB).
Proof.
  intros HS H0. pose proof HS as (HU & HW & HP & H7 & H7'). destruct S as [p q U W P]. destruct S0 as [p0 q0 U0 W0 P0].
  unfold u_domain, mirrored. cbn [DegreeU DegreeV KnotVectorU KnotVectorV SControlPoints] in *. subst W0.
  pose proof HU as [Hp Hn HlU Hs _ _]. pose proof HW as [Hq Hm HlW _ _ _].
  destruct (reversed_knots_arr p n U HU) as (U' & EU & AU').
  apply wp_elim. unfold SurfaceReverse. cbn [DegreeU DegreeV KnotVectorU KnotVectorV SControlPoints]. rewrite EU. cbn [bind].
  rewrite (proj1 HP). rewrite (get_at nil) by (rewrite (proj1 HP); lia). cbn [bind]. apply wp_bind. rewrite (proj2 HP 0) by lia.
  apply wp_for_up' with (P := fun h (Q : list (list T)) => exists f, arr2 Q (n + 1) (m + 1) f).
  - exists (pt2 P). apply arr2_net. exact HP.
  - intros i Q Hi (f & HQ). eapply wp_mono; [apply (swap_column_ok Q (n + 1) (m + 1) i f HQ); lia|]. intros Q' HQ'. eexists. exact HQ'.
  - intros Q _. cbn [wp KnotVectorV]. split; [reflexivity|]. intros u v Du. unfold GetPointOnSurface. cbn [DegreeU DegreeV KnotVectorU KnotVectorV SControlPoints].
    rewrite HlU. replace (n + p + 2 - 1) with (n + p + 1) by lia.
    assert (EV : validate_domain U' (val U 0 + val U (n + p + 1) - u)%R = Ok tt); [|rewrite EV; reflexivity].
    unfold validate_domain. rewrite (arr_len _ _ _ AU'). replace (n + p + 2 - 1) with (n + p + 1) by lia.
    rewrite (arr_get _ _ _ 0 AU'), (arr_get _ _ _ (n + p + 1) AU') by lia. cbn [bind].
    replace (n + p + 1 - 0) with (n + p + 1) by lia. replace (n + p + 1 - (n + p + 1)) with 0 by lia.
    destruct Du as [D1 D2]. pose proof (Hs 0 p ltac:(lia) ltac:(lia) ltac:(lia)). pose proof (Hs (n + 1) (n + p + 1) ltac:(lia) ltac:(lia) ltac:(lia)).
    replace (val U 0 + val U (n + p + 1) - val U (n + p + 1))%R with (val U 0) by ring. replace (val U 0 + val U (n + p + 1) - val U 0)%R with (val U (n + p + 1)) by ring.
    destruct (wp_elim _ _ (range_ok (val U 0 + val U (n + p + 1) - u)%R (val U 0) (val U (n + p + 1)) (fun _ => True) ltac:(lra) I)) as ([] & E & _). exact E.
Qed.

Lemma SurfaceReverse_all n m (S S0 : Surface R T) : valid_surface n m S ->
  returns (SurfaceReverse S All S0) (fun S' => SControlPoints S' = rev (SControlPoints S)).
Proof.
  intros (HU & HW & HP & H7 & H7'). destruct S as [p q U W P].
  cbn [DegreeU DegreeV KnotVectorU KnotVectorV SControlPoints] in *.
  destruct (reversed_knots_arr p n U HU) as (U' & EU & AU'). destruct (reversed_knots_arr q m W HW) as (W' & EW & AW').
  unfold SurfaceReverse. cbn [DegreeU DegreeV KnotVectorU KnotVectorV SControlPoints]. rewrite EU. cbn [bind]. rewrite EW. cbn [bind].
  eexists. split; reflexivity.
Qed.

(** * Refinement *)
Lemma sorted_perm_eq : forall l l' : list R, sorted l -> sorted l' -> Permutation l l' -> l = l'.
Proof.
  induction l as [|x l IH]; intros l' H H' Hp.
  - apply Permutation_nil in Hp. congruence.
  - destruct l' as [|y l']; [apply Permutation_sym, Permutation_nil in Hp; discriminate|].
    apply sorted_cons_iff in H. apply sorted_cons_iff in H'. destruct H as [H1 H2], H' as [H1' H2'].
    assert (E : x = y).
    { assert (In y (x :: l)) as [E|E] by (apply (Permutation_in _ (Permutation_sym Hp)); left; reflexivity); [exact E|].
      assert (In x (y :: l')) as [E'|E'] by (apply (Permutation_in _ Hp); left; reflexivity); [auto|].
      specialize (H1 _ E). specialize (H1' _ E'). lra. }
    subst y. f_equal. apply IH; auto. apply Permutation_cons_inv in Hp. exact Hp.
Qed.

Lemma refine_rows_ok p n U X (P : list (list T)) r : curve_knots p n U -> refinable p n U X -> 0 < r -> net r (n + 1) P ->
  exists U' Q, refine_rows p U P X = Ok (U', Q) /\ curve_knots p (n + len X) U' /\ net r (n + len X + 1) Q /\ Permutation U' (X ++ U) /\
    (forall t, in_domain p n U t <-> in_domain p (n + len X) U' t) /\
    (forall i t, 0 <= i < r -> in_domain p n U t -> curve_point p (n + len X) U' (at_ nil Q i) t = curve_point p n U (at_ nil P i) t).
Proof.
  intros HU (HX & HsX & Hin & Hap) Hr HP.
  pose proof (fun i Hi => RefineKnotVector_preserves p n U (at_ nil P i) X HU (proj2 HP i Hi) HX HsX Hin Hap) as Href.
  destruct (Href 0 ltac:(lia)) as (c0 & _ & U' & Q0 & _ & KU' & _ & PU' & DU' & _).
  assert (G : wp (refine_rows p U P X) (fun '(V, Q) => V = U' /\ net r (n + len X + 1) Q /\
     forall i t, 0 <= i < r -> in_domain p n U t -> curve_point p (n + len X) U' (at_ nil Q i) t = curve_point p n U (at_ nil P i) t)).
  { unfold refine_rows. rewrite (proj1 HP).
    apply wp_for_up with (P := fun h '(V, Q) => (0 < h -> V = U') /\ net h (n + len X + 1) Q /\
     forall i t, 0 <= i < h -> in_domain p n U t -> curve_point p (n + len X) U' (at_ nil Q i) t = curve_point p n U (at_ nil P i) t); [lia| | |].
    - split; [lia|]. split; [split; [reflexivity|intros; lia]|intros; lia].
    - intros i [V0 Q] Hi (_ & HQ & HI). rewrite (get_at nil) by (rewrite (proj1 HP); lia). cbn [bind].
      destruct (Href i Hi) as (c & E & V1 & Q1 & -> & KV1 & LQ1 & PV1 & _ & HE). rewrite E. cbn [bind wp KnotVector ControlPoints].
      assert (V1 = U').
      { apply sorted_perm_eq; [apply KV1|apply KU'|]. rewrite PV1. symmetry. exact PU'. }
      subst V1. split; [auto|]. assert (A : arr (Q ++ [Q1]) (i + 1) (fun k => if k <? i then at_ nil Q k else Q1)).
      { apply arr_snoc.
        - eapply arr_ext; [rewrite <- (proj1 HQ) at 1; apply (arr_at nil)|]. intros k Hk. cbv beta. destruct (Z.ltb_spec k i); [reflexivity|lia].
        - destruct (Z.ltb_spec i i); [lia|reflexivity]. }
      split; [split; [apply A|]|].
      + intros k Hk. rewrite (arr_at_eq nil _ _ _ k A) by lia. destruct (Z.ltb_spec k i); [apply HQ; lia|exact LQ1].
      + intros k t Hk Ht. rewrite (arr_at_eq nil _ _ _ k A) by lia. destruct (Z.ltb_spec k i); [apply HI; [lia|exact Ht]|].
        replace k with i by lia. apply HE. exact Ht.
    - intros [V0 Q] (H1 & H2 & H3). split; [apply H1; lia|]. split; assumption. }
  destruct (wp_elim _ _ G) as ([V0 Q] & E & -> & HQ & HE). exists U', Q. split; [exact E|].
  split; [exact KU'|]. split; [exact HQ|]. split; [exact PU'|]. split; [exact DU'|exact HE].
Qed.

Lemma SurfaceRefine_v n m (S : Surface R T) X : valid_surface n m S -> refinable (DegreeV S) m (KnotVectorV S) X ->
  returns (SurfaceRefineKnotVector S X false) (fun S' => valid_surface n (m + len X) S' /\
    DegreeU S' = DegreeU S /\ DegreeV S' = DegreeV S /\ KnotVectorU S' = KnotVectorU S /\ Permutation (KnotVectorV S') (X ++ KnotVectorV S) /\
    forall u v, u_domain n S u -> v_domain m S v -> GetPointOnSurface S' u v = GetPointOnSurface S u v).
Proof.
  intros HS HX. pose proof HS as (HU & HW & HP & H7 & H7'). destruct S as [p q U W P]. unfold u_domain, v_domain.
  cbn [DegreeU DegreeV KnotVectorU KnotVectorV SControlPoints] in *. pose proof (ck_n _ _ _ HU). pose proof (ck_p _ _ _ HU).
  destruct (refine_rows_ok q m W X P (n + 1) HW HX ltac:(lia) HP) as (W' & Q & E & KW' & NQ & PW & DW & HE).
  unfold SurfaceRefineKnotVector. cbn [DegreeU DegreeV KnotVectorU KnotVectorV SControlPoints]. destruct HX as (HX & _).
  destruct (Z.ltb_spec 0 (len X)); [|lia]. cbn [validate bind]. rewrite E. cbn [bind fst snd].
  eexists. split; [reflexivity|]. cbn [DegreeU DegreeV KnotVectorU KnotVectorV SControlPoints].
  assert (HS' : valid_surface n (m + len X) (mkSurface p q U W' Q)) by (split; [|split; [|split; [|split]]]; assumption).
  split; [exact HS'|]. do 3 (split; [reflexivity|]). split; [exact PW|].
  intros u v Du Dv. rewrite (GetPointOnSurface_ok p n U q m W P) by auto. rewrite (GetPointOnSurface_ok p n U q (m + len X) W' Q); auto; [|apply DW; exact Dv].
  f_equal. apply surface_point_rowwise. intros i Hi. apply HE; [lia|exact Dv].
Qed.

Lemma SurfaceRefine_u n m (S : Surface R T) X : valid_surface n m S -> refinable (DegreeU S) n (KnotVectorU S) X ->
  returns (SurfaceRefineKnotVector S X true) (fun S' => valid_surface (n + len X) m S' /\
    DegreeU S' = DegreeU S /\ DegreeV S' = DegreeV S /\ Permutation (KnotVectorU S') (X ++ KnotVectorU S) /\ KnotVectorV S' = KnotVectorV S /\
    forall u v, u_domain n S u -> v_domain m S v -> GetPointOnSurface S' u v = GetPointOnSurface S u v).
Proof.
  intros HS HX. pose proof HS as (HU & HW & HP & H7 & H7'). destruct S as [p q U W P]. unfold u_domain, v_domain.
  cbn [DegreeU DegreeV KnotVectorU KnotVectorV SControlPoints] in *. pose proof (ck_n _ _ _ HU). pose proof (ck_p _ _ _ HU).
  pose proof (ck_n _ _ _ HW). pose proof (ck_p _ _ _ HW).
  destruct (transposed n m P ltac:(lia) ltac:(lia) HP) as (PT & ET & NT & _ & HT).
  destruct (refine_rows_ok p n U X PT (m + 1) HU HX ltac:(lia) NT) as (U' & QT & E & KU' & NQ & PU & DU & HE).
  destruct HX as (HX & _). destruct (transposed m (n + len X) QT ltac:(lia) ltac:(lia) NQ) as (Q & EQ & NQ' & _ & HQ).
  unfold SurfaceRefineKnotVector. cbn [DegreeU DegreeV KnotVectorU KnotVectorV SControlPoints].
  destruct (Z.ltb_spec 0 (len X)); [|lia]. cbn [validate bind]. rewrite ET. cbn [bind]. rewrite E. cbn [bind fst snd]. rewrite EQ. cbn [bind].
  eexists. split; [reflexivity|]. cbn [DegreeU DegreeV KnotVectorU KnotVectorV SControlPoints].
  assert (HS' : valid_surface (n + len X) m (mkSurface p q U' W Q)) by (split; [|split; [|split; [|split]]]; assumption).
  split; [exact HS'|]. do 2 (split; [reflexivity|]). split; [exact PU|]. split; [reflexivity|].
  intros u v Du Dv. rewrite (GetPointOnSurface_ok p n U q m W P) by auto. rewrite (GetPointOnSurface_ok p (n + len X) U' q m W Q); auto; [|apply DU; exact Du].
  f_equal. rewrite (surface_point_T q m W p (n + len X) U' QT Q v u) by (intros i j Hi Hj; apply HQ; lia).
  rewrite <- (surface_point_T p n U q m W P PT u v HT). apply surface_point_rowwise. intros i Hi. apply HE; [lia|exact Du].
Qed.

Lemma SurfaceRefine_nothing (S : Surface R T) b : SurfaceRefineKnotVector S [] b = Throw.
Proof. reflexivity. Qed.

(** * Reparametrisation *)
Lemma at_ends_iff U a b : IsAlmostEqualTo a (val U 0) && IsAlmostEqualTo b (val U (len U - 1)) = true <-> at_ends U a b.
Proof.
  unfold at_ends. rewrite andb_true_iff, !tol_thr. split; intros [H1 H2]; split; apply aeq_iff; assumption.
Qed.

Lemma Rescale_curve p n U a b : curve_knots p n U -> (a < b)%R ->
  exists W, Rescale U a b = Ok W /\ len W = n + p + 2 /\ (forall i, 0 <= i <= n + p + 1 -> val W i = stretch U a b (val U i)) /\
    val W 0 = a /\ val W (n + p + 1) = b /\ sorted W /\
    forall (P : list T) t, curve_point p n W P (stretch U a b t) = curve_point p n U P t.
Proof.
  intros HU Hab. pose proof HU as [Hp Hn HL HS H1 _].
  assert (Hd : (0 < val U (n + p + 1) - val U 0)%R).
  { pose proof (tol_pos (val U p) (val U (p + 1))).
    assert (val U 0 <= val U p)%R by (apply HS; lia). assert (val U (p + 1) <= val U (n + p + 1))%R by (apply HS; lia). lra. }
  pose proof (Rescale_ok U a b ltac:(lia)) as HR. unfold stretch. rewrite HL in *. replace (n + p + 2 - 1) with (n + p + 1) in * by lia.
  destruct (wp_elim _ _ (HR ltac:(lra))) as (W & EW & HW).
  set (k := ((b - a) / (val U (n + p + 1) - val U 0))%R) in *.
  assert (Hk : (0 < k)%R) by (apply Rmult_lt_0_compat; [lra|apply Rinv_0_lt_compat; lra]).
  assert (Ek : (k * (val U (n + p + 1) - val U 0) = b - a)%R) by (unfold k; field; lra).
  assert (Hv : forall i, 0 <= i <= n + p + 1 -> val W i = (k * (val U i - val U 0) + a)%R) by (intros; apply (arr_val _ _ _ _ HW); lia).
  exists W. split; [exact EW|]. split; [exact (arr_len _ _ _ HW)|]. split; [exact Hv|].
  split; [rewrite Hv by lia; ring|]. split; [rewrite Hv by lia; rewrite Ek; ring|]. split.
  - intros i j Hi Hij Hj. rewrite (arr_len _ _ _ HW) in Hj. rewrite !Hv by lia.
    assert (val U i <= val U j)%R by (apply HS; lia). apply Rplus_le_compat_r. apply Rmult_le_compat_l; lra.
  - intros P t. replace (k * (t - val U 0) + a)%R with (k * t + (a - k * val U 0))%R by ring.
    apply curve_point_affine; try assumption; [|lia]. intros i Hi. rewrite Hv by lia. ring.
Qed.

Lemma stretch_dom p n U W a b t : curve_knots p n U -> (a < b)%R -> (forall i, 0 <= i <= n + p + 1 -> val W i = stretch U a b (val U i)) ->
  in_domain p n U t -> in_domain p n W (stretch U a b t).
Proof.
  intros HU Hab HW [D1 D2]. pose proof HU as [Hp Hn HL HS H1 _]. unfold in_domain. rewrite !HW by lia. unfold stretch.
  assert (Hd : (0 < val U (len U - 1) - val U 0)%R).
  { rewrite HL. replace (n + p + 2 - 1) with (n + p + 1) by lia. pose proof (tol_pos (val U p) (val U (p + 1))).
    assert (val U 0 <= val U p)%R by (apply HS; lia). assert (val U (p + 1) <= val U (n + p + 1))%R by (apply HS; lia). lra. }
  assert (Hk : (0 < (b - a) / (val U (len U - 1) - val U 0))%R) by (apply Rmult_lt_0_compat; [lra|apply Rinv_0_lt_compat; lra]).
  split; apply Rplus_le_compat_r; apply Rmult_le_compat_l; lra.
Qed.

Lemma SurfaceReparametrize_ok n m (S : Surface R T) a b c d : valid_surface n m S -> (a < b)%R -> (c < d)%R ->
  ~ at_ends (KnotVectorU S) a b -> ~ at_ends (KnotVectorV S) c d ->
  returns (SurfaceReparametrize S a b c d) (fun S' => DegreeU S' = DegreeU S /\ DegreeV S' = DegreeV S /\ SControlPoints S' = SControlPoints S /\
    sorted (KnotVectorU S') /\ sorted (KnotVectorV S') /\ len (KnotVectorU S') = len (KnotVectorU S) /\ len (KnotVectorV S') = len (KnotVectorV S) /\
    val (KnotVectorU S') 0 = a /\ val (KnotVectorU S') (len (KnotVectorU S) - 1) = b /\
    val (KnotVectorV S') 0 = c /\ val (KnotVectorV S') (len (KnotVectorV S) - 1) = d /\
    (valid_surface n m S' -> forall u v, u_domain n S u -> v_domain m S v ->
       GetPointOnSurface S' (stretch (KnotVectorU S) a b u) (stretch (KnotVectorV S) c d v) = GetPointOnSurface S u v)).
Proof.
  intros HS Hab Hcd Ha Hc. pose proof HS as (HU & HW & HP & H7 & H7'). destruct S as [p q U W P]. unfold u_domain, v_domain.
  cbn [DegreeU DegreeV KnotVectorU KnotVectorV SControlPoints] in *. pose proof HU as [Hp Hn HlU _ _ _]. pose proof HW as [Hq Hm HlW _ _ _].
  unfold SurfaceReparametrize. cbn [DegreeU DegreeV KnotVectorU KnotVectorV SControlPoints].
  assert (AU : arr U (len U) (val U)) by apply arr_at. assert (AW : arr W (len W) (val W)) by apply arr_at.
  rewrite (arr_get _ _ _ 0 AU), (arr_get _ _ _ (len U - 1) AU), (arr_get _ _ _ 0 AW), (arr_get _ _ _ (len W - 1) AW) by lia. cbn [bind].
  rewrite <- at_ends_iff in Ha. rewrite <- at_ends_iff in Hc. apply not_true_is_false in Ha. apply not_true_is_false in Hc. rewrite Ha, Hc.
  destruct (Rescale_curve p n U a b HU Hab) as (U' & -> & LU' & VU' & U0 & U1 & SU' & CU). cbn [bind].
  destruct (Rescale_curve q m W c d HW Hcd) as (W' & -> & LW' & VW' & W0 & W1 & SW' & CW). cbn [bind].
  eexists. split; [reflexivity|]. cbn [DegreeU DegreeV KnotVectorU KnotVectorV SControlPoints]. rewrite HlU, HlW.
  replace (n + p + 2 - 1) with (n + p + 1) by lia. replace (m + q + 2 - 1) with (m + q + 1) by lia.
  do 3 (split; [reflexivity|]). do 8 (split; [assumption|]). intros HS' u v Du Dv.
  rewrite (GetPointOnSurface_ok p n U q m W P) by auto. rewrite (GetPointOnSurface_ok p n U' q m W' P); try apply HS'; auto.
  - f_equal. etransitivity; [apply (surface_point_rowwise p n U' q m W m W' P P _ v)|apply surface_point_colwise; try lia].
    + intros i Hi. apply CW.
    + intros j col col' Hj A A'. rewrite (arr_inj _ _ _ _ A' A). apply CU.
  - apply stretch_dom; auto.
  - apply stretch_dom; auto.
Qed.

Lemma SurfaceReparametrize_skip n m (S : Surface R T) a b c d : valid_surface n m S ->
  at_ends (KnotVectorU S) a b \/ at_ends (KnotVectorV S) c d -> SurfaceReparametrize S a b c d = Ok S.
Proof.
  intros HS H. pose proof HS as (HU & HW & HP & H7 & H7'). destruct S as [p q U W P].
  cbn [DegreeU DegreeV KnotVectorU KnotVectorV SControlPoints] in *. pose proof HU as [Hp Hn HlU _ _ _]. pose proof HW as [Hq Hm HlW _ _ _].
  unfold SurfaceReparametrize. cbn [DegreeU DegreeV KnotVectorU KnotVectorV SControlPoints].
  assert (AU : arr U (len U) (val U)) by apply arr_at. assert (AW : arr W (len W) (val W)) by apply arr_at.
  rewrite (arr_get _ _ _ 0 AU), (arr_get _ _ _ (len U - 1) AU), (arr_get _ _ _ 0 AW), (arr_get _ _ _ (len W - 1) AW) by lia. cbn [bind].
  destruct (IsAlmostEqualTo a (val U 0) && _) eqn:E1; [reflexivity|]. destruct (IsAlmostEqualTo c (val W 0) && _) eqn:E2; [reflexivity|].
  exfalso. destruct H as [H|H]; apply at_ends_iff in H; congruence.
Qed.

End Srf.
