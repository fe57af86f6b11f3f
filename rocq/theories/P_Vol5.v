(* Volumes: sections, closedness, rational points. *)
From Coq Require Import ZArith List Bool Reals Lra Lia Permutation.
From Verif Require Import Base Num Vec Tac Spec Spec2 Spec3 Spec4 Spec5 Spec10 Spec11 M_MathUtils M_Polynomials M_XYZ M_Bspline M_NurbsCurve M_Knots M_Curve2 M_Surface M_Shape M_Volume
  P_MathUtils P_Span P_Cox P_Basis P_VSum P_Curve P_Bspline P_BsplineS P_Loop P_Insert P_Insert2 P_Refine P_Reverse P_Surface P_Split P_Vol1 P_Vol2 P_Vol3 P_Vol4 P_XYZ P_Nurbs P_Shape3.
Import ListNotations.
Open Scope Z_scope.

Section V5.
Context {T : Type} {V : Vec R T} {L : VecL T}.

Lemma net_section_ok d (P : list (list (list T))) c o n g (idx : forall X, list X -> Z) : arrL d P c o n g ->
  (forall X (l : list X), len l = c -> 0 <= idx X l < c) -> exists r, net_section d P idx = Ok r.
Proof.
  intros A Hi. destruct d; cbn [net_section arrL] in *.
  - destruct A as [Hl H]. destruct (H (idx _ P) (Hi _ P Hl)) as (p & E & _). exists p. exact E.
  - destruct A as [Hl H]. pose proof (arr_at nil P) as AP. rewrite Hl in AP.
    destruct (map_res_ok (fun plane => get plane (idx _ plane)) (fun _ _ => True) P n (at_ nil P) AP) as (r & E & _); [|exists r; exact E].
    intros b Hb. destruct (H b Hb) as (p & Ep & [Lp Hp]). rewrite (get_at nil) in Ep by lia. injection Ep as ->. destruct (Hp _ (Hi _ p Lp)) as (row & Er & _). exists row. split; [exact Er|exact I].
  - destruct A as [Hl H]. pose proof (arr_at nil P) as AP. rewrite Hl in AP.
    destruct (map_res_ok (fun plane => map_res (fun row => get row (idx _ row)) plane) (fun _ _ => True) P n (at_ nil P) AP) as (r & E & _); [|exists r; exact E].
    intros b Hb. destruct (H b Hb) as (p & Ep & [Lp Hp]). rewrite (get_at nil) in Ep by lia. injection Ep as ->. pose proof (arr_at nil p) as Aq. rewrite Lp in Aq.
    destruct (map_res_ok (fun row => get row (idx _ row)) (fun _ _ => True) p o (at_ nil p) Aq) as (r & E & _); [|exists r; split; [exact E|exact I]].
    intros a Ha. destruct (Hp a Ha) as (row & Er & Ar). rewrite (get_at nil) in Er by lia. injection Er as ->. eexists. split; [apply (arr_get _ _ _ _ Ar); apply Hi; apply Ar|exact I].
Qed.

Lemma VolumeExtract_ends sz (S : Volume R T) d u X : valid_volume sz S -> u = val (knots_in d S) 0 \/ u = val (knots_in d S) (len (knots_in d S) - 1) ->
  VolumeExtract S u d X = UB.
Proof.
  intros HS Hu. pose proof (valid_size _ _ HS) as H0. pose proof HS as (HK & HP). pose proof (cell_arr d sz _ HP) as AC. destruct (HK d) as ([Hp Hn HlU _ _ _] & _). set (U := knots_in d S) in *. set (p := degree_in d S) in *.
  pose proof (H0 d). assert (AU : arr U (len U) (val U)) by apply arr_at. unfold VolumeExtract. fold U p. rewrite (arr_get _ _ _ _ AU) by lia. cbn [bind].
  destruct (IsAlmostEqualTo u (val U 0)) eqn:E0.
  - destruct (net_section_ok d _ _ _ _ _ (fun _ _ => 0) AC) as (r & ->); [intros; lia|reflexivity].
  - rewrite (arr_get _ _ _ _ AU) by lia. cbn [bind]. assert (G : IsAlmostEqualTo u (val U (len U - 1)) = true).
    { assert (Rf : forall x : R, IsAlmostEqualTo x x = true) by (intros x; apply compare_aeq_refl; unfold DoubleEpsilon; num; lra). destruct Hu as [->| ->]; [rewrite Rf in E0; discriminate|apply Rf]. }
    rewrite G. destruct (net_section_ok d _ _ _ _ _ (fun _ l => len l - 1) AC) as (r & ->); [intros Y l Hl; lia|reflexivity].
Qed.

Lemma VolumeExtract_inside sz (S : Volume R T) d u X : valid_volume sz S -> 1 <= degree_in d S ->
  (val (knots_in d S) (degree_in d S) < u < val (knots_in d S) (sz d + 1))%R -> (forall y, In y (knots_in d S) -> apart u y) ->
  occ (knots_in d S) u <= degree_in d S -> VolumeExtract S u d X = Ok (true, X).
Proof.
  intros HS Hp1 Hu Hap Ho. destruct (split_prepare sz S d u HS Hp1 Hu Hap Ho) as (sz1 & S1 & k & E & V1 & Z1 & B1 & D1 & Hk & OW & ApW & E1 & E2 & HPt).
  pose proof HS as (HK & _). destruct (HK d) as (KU & H7). pose proof V1 as (HK1 & HP1). destruct (HK1 d) as (KW & _). rewrite D1 in KW. pose proof (cell_arr d sz1 _ HP1) as AC.
  set (p := degree_in d S) in *. set (U := knots_in d S) in *. set (n := sz d) in *. set (W := knots_in d S1) in *. set (m := sz1 d) in *.
  pose proof KU as [_ Hn HlU HsU _ _]. pose proof KW as [_ Hm HlW HsW _ _].
  assert (AU : arr U (n + p + 2) (val U)) by (rewrite <- HlU; apply arr_at).
  assert (Hu1 : (val W p < u < val W (m + 1))%R) by lra.
  destruct (parts_span p m W u k KW Hp1 Hu1 OW Hk) as (S1' & S2 & _).
  unfold VolumeExtract. fold p U. rewrite HlU, (arr_get _ _ _ _ AU) by lia. cbn [bind].
  assert (F1 : IsAlmostEqualTo u (val U 0) = false).
  { apply aeq_false. rewrite <- tol_thr. pose proof (HsU 0 p ltac:(lia) ltac:(lia) ltac:(lia)). destruct (Hap (val U 0)) as [G|G]; [apply val_In; lia|lra|]. pose proof (tol_pos u (val U 0)). lra. }
  assert (F2 : IsAlmostEqualTo u (val U (n + p + 2 - 1)) = false).
  { apply aeq_false. rewrite <- tol_thr. pose proof (HsU (n + 1) (n + p + 2 - 1) ltac:(lia) ltac:(lia) ltac:(lia)). destruct (Hap (val U (n + p + 2 - 1))) as [G|G]; [apply val_In; lia|lra|].
    pose proof (tol_pos u (val U (n + p + 2 - 1))). lra. }
  rewrite F1, (arr_get _ _ _ _ AU) by lia. cbn [bind]. rewrite F2.
  revert E. destruct (GetKnotSpanIndex p U u) as [k0|e0]; [|discriminate]. cbn [bind]. destruct (GetKnotMultiplicity U u) as [s0|e0]; [|discriminate]. cbn [bind]. intros E. rewrite E. cbn [bind].
  destruct (net_section_ok d _ _ _ _ _ (fun _ _ => k - p) AC) as (r & ->); [intros; fold m; lia|reflexivity].
Qed.
End V5.

Lemma GetPointOnVolume_ok sz (S : Volume R (XYZW R)) t : valid_volume sz S -> in_volume sz S t -> (tol (ww (volume_point sz S t)) 0 < Rabs (ww (volume_point sz S t)))%R ->
  GetPointOnVolume S (t DirU) (t DirV) (t DirW) = Ok (proj (volume_point sz S t)).
Proof.
  intros HS Ht Hw. unfold GetPointOnVolume. rewrite (VolumePoint_ok sz) by assumption. cbn [bind]. apply ToXYZ_div.
  apply aeq_false. rewrite <- tol_thr, Rminus_0_r. lra.
Qed.

Lemma list_eq_pt (H H' : list (XYZW R)) n : len H = n + 1 -> len H' = n + 1 -> (forall i, 0 <= i <= n -> pt H i = pt H' i) -> H = H'.
Proof.
  intros L1 L2 E. eapply (arr_inj _ _ (n + 1) (pt H)); [apply arr_pt, L1|]. eapply arr_ext; [apply arr_pt, L2|]. intros i Hi. symmetry. apply E. lia.
Qed.

Lemma VolumeIsClosed_ok sz (S : Volume R (XYZW R)) d : valid_volume sz S -> clamped_knots (degree_in d S) (sz d) (knots_in d S) ->
  (forall H, is_line sz S d H -> heavy H) ->
  let a := val (knots_in d S) 0 in let b := val (knots_in d S) (sz d + 1) in
  let C H t := proj (curve_point (degree_in d S) (sz d) (knots_in d S) H t) in
  returns (VolumeIsClosed S d) (fun r =>
    ((forall H, is_line sz S d H -> close (dist3 (C H a) (C H b)) 0) -> r = true) /\
    (r = true -> forall H, is_line sz S d H -> close (dist3 (C H a) (C H b)) 0 \/
       exists m, 0 <= m < sz d /\ forall i, 0 <= i <= m -> Spec3.near (proj (pt H (sz d - m + i))) (proj (pt H i)))).
Proof.
  intros HS Hcl Hh a b C. pose proof (valid_size _ _ HS) as H0. destruct HS as (HK & HP). destruct (HK d) as (KU & H7).
  set (p := degree_in d S) in *. set (U := knots_in d S) in *. set (n := sz d) in *.
  pose proof (H0 DirU) as Hu. pose proof (H0 DirV) as Hv. pose proof (H0 DirW) as Hww. pose proof (arr3_net _ _ _ _ HP) as A3. pose proof HP as [LP HP'].
  set (P := VControlPoints S) in *.
  assert (IC : forall H, is_line sz S d H -> returns (IsClosed (mkCurve p U H)) (fun b0 => (close (dist3 (C H a) (C H b)) 0 -> b0 = true) /\
    (b0 = true -> close (dist3 (C H a) (C H b)) 0 \/ exists m, 0 <= m < n /\ forall i, 0 <= i <= m -> Spec3.near (proj (pt H (n - m + i))) (proj (pt H i))))).
  { intros H Hl. apply (IsClosed_ok p n U H KU H7); [|apply Hh, Hl|exact Hcl]. unfold is_line in Hl. destruct d; apply Hl. }
  apply wp_elim. unfold VolumeIsClosed. fold P p U. rewrite LP. destruct (Z.eqb_spec (sz DirU + 1) 0); [lia|]. rewrite (get_at nil) by lia. cbn [bind].
  destruct (HP' 0 ltac:(lia)) as [L0 R0]. rewrite L0. destruct (Z.eqb_spec (sz DirV + 1) 0); [lia|]. rewrite (get_at nil) by lia. cbn [bind]. 
  assert (L00 : len (at_ nil (at_ nil P 0) 0) = sz DirW + 1) by (apply R0; lia). rewrite L00.
  set (o := match d with DirU => DirV | _ => DirU end). set (e := match d with DirW => DirV | _ => DirW end).
  match goal with |- wp (let '(_, _) := ?x in _) _ => replace x with (n + 1, sz o + 1, sz e + 1) by (unfold n, o, e; destruct d; reflexivity) end.
  assert (Rd : forall i x y, 0 <= i <= n -> 0 <= x <= sz o -> 0 <= y <= sz e ->
     match d with DirU => get3 P i x y | DirV => get3 P x i y | DirW => get3 P x y i end = Ok (along d P i x y)).
  { intros i x y H1 H2 H3. unfold n, o, e in *. destruct d; apply (arr3_get _ _ _ _ _ _ _ _ A3); lia. }
  set (Row := fun x y H => len H = n + 1 /\ forall i, 0 <= i <= n -> pt H i = along d P i x y).
  assert (RL : forall x y H, 0 <= x <= sz o -> 0 <= y <= sz e -> Row x y H -> is_line sz S d H).
  { intros x y H H1 H2 [H3 H4]. unfold is_line, o, e in *. fold P. destruct d; (split; [exact H3|]); exists x, y; (do 2 (split; [lia|])); exact H4. }
  assert (LR : forall H, is_line sz S d H -> exists x y, 0 <= x <= sz o /\ 0 <= y <= sz e /\ Row x y H).
  { intros H HL. unfold is_line in HL. fold P in HL. unfold o, e, Row, n. destruct d; destruct HL as (H3 & x & y & H1 & H2 & H4); exists x, y; auto. }
  set (Good := fun x y => exists H, Row x y H /\ IsClosed (mkCurve p U H) = Ok true).
  apply wp_bind. apply wp_for_upc with (P := fun h _ => forall x y, 0 <= x < h -> 0 <= y <= sz e -> Good x y)
    (F := fun _ => exists H, is_line sz S d H /\ IsClosed (mkCurve p U H) = Ok false).
  - intros; lia.
  - intros x [] Hx D. apply wp_bind. apply wp_for_upc with (P := fun h _ => forall y, 0 <= y < h -> Good x y)
      (F := fun _ => exists H, is_line sz S d H /\ IsClosed (mkCurve p U H) = Ok false).
    + intros; lia.
    + intros y [] Hy D'. apply wp_bind. apply wp_for_up with (P := fun h l => arr l h (fun i => along d P i x y)).
      * pose proof (H0 d) as Hn0. fold n in Hn0. clear -Hn0. lia.
      * apply arr_nil.
      * intros i l Hi Al. rewrite Rd by lia. cbn [bind wp]. apply arr_snoc; [exact Al|reflexivity].
      * intros H AH. assert (RH : Row x y H). { split; [apply AH|]. intros i Hi. apply (arr_at_eq vzero _ _ _ i AH). lia. }
        destruct (IC H (RL x y H ltac:(lia) ltac:(lia) RH)) as (r & Er & _). rewrite Er. cbn [bind]. destruct r; apply wp_ok.
        -- intros y' Hy'. destruct (Z.eq_dec y' y) as [->|]; [exists H; auto|apply D'; lia].
        -- exists H. split; [apply (RL x y); [lia|lia|exact RH]|exact Er].
    + intros [] D'. apply wp_ok. intros x' y Hx' Hy. destruct (Z.eq_dec x' x) as [->|]; [apply D'; lia|apply D; lia].
    + intros [] F. apply wp_ok. exact F.
  - intros [] D. apply wp_ok. split; [auto|]. intros _ H HL. destruct (LR H HL) as (x & y & Hx & Hy & RH). destruct (D x y ltac:(lia) Hy) as (H1 & R1 & E1).
    assert (H = H1) as <-. { apply (list_eq_pt H H1 n); [apply RH|apply R1|]. intros i Hi. destruct RH as [_ RH], R1 as [_ R1]. rewrite RH, R1 by lia. reflexivity. }
    destruct (IC H HL) as (r & Er & _ & G). rewrite Er in E1. injection E1 as ->. apply G. reflexivity.
  - intros [] (H & HL & E1). apply wp_ok. split; [|discriminate]. intros Hall. destruct (IC H HL) as (r & Er & G & _). rewrite Er in E1. injection E1 as ->. apply G, Hall, HL.
Qed.

(* a function that is at least c at all control points and affine is at least c at the point *)
Lemma volume_hull {T} {V : Vec R T} {L : VecL T} sz (S : Volume R T) t (f : T -> R) c : valid_volume sz S -> in_volume sz S t -> affine f ->
  (forall i j k, 0 <= i <= sz DirU -> 0 <= j <= sz DirV -> 0 <= k <= sz DirW -> (c <= f (pt3 (VControlPoints S) i j k))%R) ->
  (c <= f (volume_point sz S t))%R.
Proof.
  intros (HK & _) Ht Hf Hc. unfold volume_point.
  assert (B : forall d, rsum 0 (sz d + 1) (fun i => N (val (knots_in d S)) (val (knots_in d S) (sz d + 1)) (Z.to_nat (degree_in d S)) i (t d)) = 1%R /\
    forall i, 0 <= i < sz d + 1 -> (0 <= N (val (knots_in d S)) (val (knots_in d S) (sz d + 1)) (Z.to_nat (degree_in d S)) i (t d))%R).
  { intros d. destruct (HK d) as [K _]. split; [apply N_sum; auto|]. intros i Hi. apply N_nonneg; auto; lia. }
  apply hull_comb; [exact Hf|apply B|apply B|]. intros i Hi. apply hull_comb; [exact Hf|apply B|apply B|]. intros j Hj.
  apply hull_comb; [exact Hf|apply B|apply B|]. intros k Hk. apply Hc; lia.
Qed.

Lemma volume_heavy sz S t : valid_volume sz S -> in_volume sz S t -> heavy_volume sz S -> let w := ww (volume_point sz S t) in (tol w 0 < w)%R.
Proof.
  intros HS Ht Hw w. apply heavy_iff. pose proof (valid_size _ _ HS) as H0.
  assert (M : exists m, (1 / 999999 < m)%R /\ forall i j k, 0 <= i <= sz DirU -> 0 <= j <= sz DirV -> 0 <= k <= sz DirW -> (m <= ww (pt3 (VControlPoints S) i j k))%R).
  { assert (Q : forall n (D : Z -> R -> Prop), 0 <= n -> (forall i a b, (a <= b)%R -> D i b -> D i a) -> (forall i, 0 <= i <= n -> exists m, (1 / 999999 < m)%R /\ D i m) ->
      exists m, (1 / 999999 < m)%R /\ forall i, 0 <= i <= n -> D i m).
    { intros n D Hn Mo. revert n Hn. apply (natlike_ind (fun n => (forall i, 0 <= i <= n -> exists m, (1 / 999999 < m)%R /\ D i m) -> exists m, (1 / 999999 < m)%R /\ forall i, 0 <= i <= n -> D i m)).
      - intros H. destruct (H 0 ltac:(lia)) as (m & H1 & H2). exists m. split; [exact H1|]. intros i Hi. replace i with 0 by lia. exact H2.
      - intros n Hn IH H. destruct IH as (m & H1 & H2); [intros; apply H; lia|]. destruct (H (Z.succ n) ltac:(lia)) as (m' & H1' & H2'). exists (Rmin m m').
        split; [apply Rmin_glb_lt; assumption|]. intros i Hi. destruct (Z.eq_dec i (Z.succ n)) as [->|]; [apply (Mo _ _ m'); [apply Rmin_r|exact H2']|apply (Mo _ _ m); [apply Rmin_l|apply H2; lia]]. }
    assert (G : forall i, 0 <= i <= sz DirU -> forall j, 0 <= j <= sz DirV -> exists m, (1 / 999999 < m)%R /\ forall k, 0 <= k <= sz DirW -> (m <= ww (pt3 (VControlPoints S) i j k))%R).
    { intros i Hi j Hj. apply (Q (sz DirW) (fun k m => (m <= ww (pt3 (VControlPoints S) i j k))%R) (H0 _)); [intros k a b H1 H2; lra|].
      intros k Hk. exists (ww (pt3 (VControlPoints S) i j k)). split; [apply heavy_iff, Hw; assumption|lra]. }
    destruct (Q (sz DirU) (fun i m => forall j, 0 <= j <= sz DirV -> forall k, 0 <= k <= sz DirW -> (m <= ww (pt3 (VControlPoints S) i j k))%R) (H0 _)) as (m & H1 & H2).
    - intros i a b Hab H j Hj k Hk. specialize (H j Hj k Hk). lra.
    - intros i Hi. apply (Q (sz DirV) (fun j m => forall k, 0 <= k <= sz DirW -> (m <= ww (pt3 (VControlPoints S) i j k))%R) (H0 _)); [|apply G, Hi].
      intros j a b Hab H k Hk. specialize (H k Hk). lra.
    - exists m. split; [exact H1|]. intros i j k Hi Hj Hk. apply H2; assumption. }
  destruct M as (m & H1 & H2). apply Rlt_le_trans with m; [exact H1|]. apply (volume_hull sz S t (fun h => ww h) m HS Ht); [|exact H2].
  intros a b x y _. destruct x, y. reflexivity.
Qed.

Lemma proj_hull (f : XYZ R -> R) c h : affine f -> (0 < ww h)%R ->
  (0 <= f (mkXYZ (wx h) (wy h) (wz h)) - f vzero + ww h * (f vzero - c))%R <-> (c <= f (proj h))%R.
Proof.
  intros Hf Hw. destruct h as [x y z w]. cbn [wx wy wz ww] in *. unfold proj. cbn [wx wy wz ww].
  replace (f (mkXYZ x y z)) with (w * f (mkXYZ (x / w) (y / w) (z / w)) + (1 - w) * f vzero)%R.
  - split; intros H; nra.
  - pose proof (Hf w (1 - w)%R (mkXYZ (x / w)%R (y / w)%R (z / w)%R) vzero ltac:(ring)) as E.
    etransitivity; [symmetry; etransitivity; [exact E|cbn; num; ring]|]. f_equal. cbn [vadd vscale vzero Vec_XYZ]. unfold xyz_add, xyz_scale, xyz0. cbn [gx gy gz]. num. f_equal; field; lra.
Qed.

Lemma GetPointOnVolume_hull sz (S : Volume R (XYZW R)) t f c : valid_volume sz S -> in_volume sz S t -> heavy_volume sz S -> affine f ->
  (forall i j k, 0 <= i <= sz DirU -> 0 <= j <= sz DirV -> 0 <= k <= sz DirW -> (c <= f (proj (pt3 (VControlPoints S) i j k)))%R) ->
  returns (GetPointOnVolume S (t DirU) (t DirV) (t DirW)) (fun x => (c <= f x)%R).
Proof.
  intros HS Ht Hw Hf Hc. pose proof (volume_heavy sz S t HS Ht Hw) as W0. cbv zeta in W0.
  assert (Pos : forall w, (tol w 0 < w)%R -> (0 < w)%R) by (intros w Hw'; pose proof (tol_pos w 0); lra).
  eexists. split; [apply (GetPointOnVolume_ok sz S t HS Ht); pose proof (Rle_abs (ww (volume_point sz S t))); lra|].
  apply proj_hull; [exact Hf|apply Pos, W0|].
  apply (volume_hull sz S t (fun h => f (mkXYZ (wx h) (wy h) (wz h)) - f vzero + ww h * (f vzero - c))%R 0 HS Ht).
  - intros a b [x1 x2 x3 x4] [y1 y2 y3 y4] Hab. cbn.
    pose proof (Hf a b (mkXYZ x1 x2 x3) (mkXYZ y1 y2 y3) Hab) as E. cbn in E. unfold xyz_add, xyz_scale in E. cbn [gx gy gz] in E. num. rewrite E. replace b with (1 - a)%R by lra. ring.
  - intros i j k Hi Hj Hk. apply proj_hull; [exact Hf|apply Pos, Hw; assumption|apply Hc; assumption].
Qed.
