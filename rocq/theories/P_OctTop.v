(* The searches on constructed trees. *)
From Coq Require Import ZArith List Bool Reals Lra Lia Permutation.
From Verif Require Import Base Num Vec Tac Spec Spec3 Spec7 M_MathUtils M_XYZ M_Octree P_Loop P_MathUtils P_XYZ P_Geom P_Octree P_OctSearch.
Import ListNotations.
Open Scope Z_scope.

(* ---------------- the bounding cube ---------------- *)
Lemma bounds_axis k (Hk : 0 <= k < 3) db : forall mn mx : XYZ R,
  let '(a, b) := fold_left (fun '(mn, mx) p =>
    (mkXYZ (lower (gx p) (gx mn)) (lower (gy p) (gy mn)) (lower (gz p) (gz mn)),
     mkXYZ (raise (gx p) (gx mx)) (raise (gy p) (gy mx)) (raise (gz p) (gz mx)))) db (mn, mx) in
  ax k a = fold_left (fun m x => lower x m) (map (ax k) db) (ax k mn) /\
  ax k b = fold_left (fun m x => raise x m) (map (ax k) db) (ax k mx).
Proof.
  induction db as [|p db IH]; intros mn mx; [split; reflexivity|]. cbn [fold_left map].
  specialize (IH (mkXYZ (lower (gx p) (gx mn)) (lower (gy p) (gy mn)) (lower (gz p) (gz mn))) (mkXYZ (raise (gx p) (gx mx)) (raise (gy p) (gy mx)) (raise (gz p) (gz mx)))).
  destruct (fold_left _ db _) as [a b]. destruct IH as [-> ->].
  apply axes in Hk. destruct Hk as [-> | [-> | ->]]; split; reflexivity.
Qed.

Lemma lower_fold (B : R) xs : (forall x, In x xs -> (Rabs x <= B)%R) -> forall m, (Rabs m <= B)%R ->
  let m' := fold_left (fun m x => lower x m) xs m in
  (m' <= m)%R /\ (Rabs m' <= B)%R /\ forall x, In x xs -> (m' - 1 / 1000000 * (1 + B) <= x)%R.
Proof.
  induction xs as [|x xs IH]; intros HB m Hm; cbn [fold_left]; [split; [lra|split; [exact Hm|intros x []]]|].
  assert (Hx : (Rabs x <= B)%R) by (apply HB; left; reflexivity).
  assert (Hl : (lower x m <= m /\ Rabs (lower x m) <= B /\ lower x m - 1 / 1000000 * (1 + B) <= x)%R).
  { pose proof (Rabs_pos x). unfold lower. destruct (IsLessThan x m) eqn:E.
    - apply lt_iff in E. assert (0 <= thr eps x m)%R by (unfold thr; rewrite eps_val; pose proof (Rmax_l (Rabs x) (Rabs m)); lra). split; [lra|split; [exact Hx|lra]].
    - apply lt_false in E. unfold thr in E. rewrite eps_val in E. pose proof (Rmax_lub _ _ _ Hx Hm). split; [lra|split; [exact Hm|lra]]. }
  destruct Hl as (H1 & H2 & H3). destruct (IH (fun y Hy => HB y (or_intror Hy)) (lower x m) H2) as (G1 & G2 & G3).
  split; [lra|]. split; [exact G2|]. intros y [<-|Hy]; [lra|apply G3, Hy].
Qed.

Lemma raise_fold (B : R) xs : (forall x, In x xs -> (Rabs x <= B)%R) -> forall m, (Rabs m <= B)%R ->
  let m' := fold_left (fun m x => raise x m) xs m in
  (m <= m')%R /\ (Rabs m' <= B)%R /\ forall x, In x xs -> (x <= m' + 1 / 1000000 * (1 + B))%R.
Proof.
  induction xs as [|x xs IH]; intros HB m Hm; cbn [fold_left]; [split; [lra|split; [exact Hm|intros x []]]|].
  assert (Hx : (Rabs x <= B)%R) by (apply HB; left; reflexivity).
  assert (Hl : (m <= raise x m /\ Rabs (raise x m) <= B /\ x <= raise x m + 1 / 1000000 * (1 + B))%R).
  { pose proof (Rabs_pos x). unfold raise. destruct (IsGreaterThan x m) eqn:E.
    - apply gt_iff in E. assert (0 <= thr eps x m)%R by (unfold thr; rewrite eps_val; pose proof (Rmax_l (Rabs x) (Rabs m)); lra). split; [lra|split; [exact Hx|lra]].
    - assert (E2 : ~ (thr eps x m < x - m)%R) by (rewrite <- gt_iff, E; discriminate). unfold thr in E2. rewrite eps_val in E2. pose proof (Rmax_lub _ _ _ Hx Hm). split; [lra|split; [exact Hm|lra]]. }
  destruct Hl as (H1 & H2 & H3). destruct (IH (fun y Hy => HB y (or_intror Hy)) (raise x m) H2) as (G1 & G2 & G3).
  split; [lra|]. split; [exact G2|]. intros y [<-|Hy]; [lra|apply G3, Hy].
Qed.

Lemma dbl_max_big : (4 * 2 ^ 1000 <= dbl_max (A := R))%R.
Proof.
  unfold dbl_max. rewrite npow_R. num. replace 1023%nat with (1000 + 23)%nat by reflexivity. rewrite pow_add.
  assert (H : (0 < 2 ^ 1000)%R) by (apply pow_lt; lra). set (P := (2 ^ 1000)%R) in *. clearbody P.
  assert (H2 : (2 ^ 23 = 8388608)%R) by (cbn [pow]; lra). rewrite H2. lra.
Qed.

Lemma within_ax B db p k : within B db -> In p db -> 0 <= k < 3 -> (Rabs (ax k p) <= B)%R.
Proof. intros H Hp Hk. destruct (H p Hp) as (H1 & H2 & H3). apply axes in Hk. destruct Hk as [-> | [-> | ->]]; assumption. Qed.

Lemma root_geom (B : R) db : (B <= 2 ^ 1000)%R -> within B db -> db <> [] ->
  geom db (3 * B) (1 / 1000000 * (1 + 3 * B)) (root_center db) (root_extent db) (upto (len db)).
Proof.
  intros HB Hw Hne.
  assert (HB0 : (0 <= B)%R).
  { destruct db as [|p db]; [tauto|]. destruct (Hw p (or_introl eq_refl)) as [H _]. pose proof (Rabs_pos (gx p)). lra. }
  set (tau := (1 / 1000000 * (1 + B))%R).
  destruct (bounds db) as [mn mx] eqn:Eb.
  assert (Hax : forall k, 0 <= k < 3 -> (ax k mn <= ax k mx /\ Rabs (ax k mn) <= B /\ Rabs (ax k mx) <= B /\
     (forall p, In p db -> ax k mn - tau <= ax k p /\ ax k p <= ax k mx + tau))%R).
  { intros k Hk. unfold bounds in Eb.
    pose proof (bounds_axis k Hk db (mkXYZ dbl_max dbl_max dbl_max) (mkXYZ (nopp dbl_max) (nopp dbl_max) (nopp dbl_max))) as Hb. rewrite Eb in Hb.
    destruct db as [|p0 db]; [tauto|]. cbn [map fold_left] in Hb.
    assert (Hp0 : (Rabs (ax k p0) <= B)%R) by (apply (within_ax B (p0 :: db)); [exact Hw|left; reflexivity|exact Hk]).
    pose proof dbl_max_big as HM. assert (H1000 : (1 <= 2 ^ 1000)%R) by (apply pow_R1_Rle; lra).
    pose proof (Rabs_def2 (ax k p0) (B + 1) ltac:(lra)) as [Hp1 Hp2].
    assert (L0 : lower (ax k p0) (ax k (mkXYZ dbl_max dbl_max dbl_max)) = ax k p0).
    { replace (ax k (mkXYZ dbl_max dbl_max dbl_max)) with (dbl_max (A := R)) by (apply axes in Hk; destruct Hk as [-> | [-> | ->]]; reflexivity).
      unfold lower. rewrite (proj2 (lt_iff _ _)); [reflexivity|]. unfold thr. rewrite eps_val. rewrite (Rabs_pos_eq dbl_max) by lra.
      set (M := dbl_max (A := R)) in *. set (P := (2 ^ 1000)%R) in *. rewrite Rmax_right by lra. lra. }
    assert (R0 : raise (ax k p0) (ax k (mkXYZ (nopp dbl_max) (nopp dbl_max) (nopp dbl_max))) = ax k p0).
    { replace (ax k (mkXYZ (nopp dbl_max) (nopp dbl_max) (nopp dbl_max))) with (nopp (dbl_max (A := R))) by (apply axes in Hk; destruct Hk as [-> | [-> | ->]]; reflexivity).
      unfold raise. rewrite (proj2 (gt_iff _ _)); [reflexivity|]. unfold thr. rewrite eps_val. change (nopp (A := R) dbl_max) with (- dbl_max)%R. rewrite Rabs_Ropp, (Rabs_pos_eq dbl_max) by lra.
      set (M := dbl_max (A := R)) in *. set (P := (2 ^ 1000)%R) in *. rewrite Rmax_right by lra. lra. }
    rewrite L0, R0 in Hb. destruct Hb as [-> ->].
    assert (Hxs : forall x, In x (map (ax k) db) -> (Rabs x <= B)%R).
    { intros x Hx. apply in_map_iff in Hx as (p & <- & Hp). apply (within_ax B (p0 :: db)); [exact Hw|right; exact Hp|exact Hk]. }
    destruct (lower_fold B (map (ax k) db) Hxs (ax k p0) Hp0) as (G1 & G2 & G3).
    destruct (raise_fold B (map (ax k) db) Hxs (ax k p0) Hp0) as (F1 & F2 & F3).
    split; [lra|]. split; [exact G2|]. split; [exact F2|]. intros p [<-|Hp].
    - unfold tau. split; lra.
    - split; [apply G3|apply F3]; apply in_map; exact Hp. }
  unfold root_center, root_extent. rewrite Eb. set (e := half_extent mn mx).
  assert (He : (0 <= e <= B /\ forall k, (0 <= k < 3)%Z -> ax k mx - ax k mn <= 2 * e)%R).
  { destruct (Hax 0 ltac:(lia)) as (A1 & A2 & A3 & _). destruct (Hax 1 ltac:(lia)) as (A4 & A5 & A6 & _). destruct (Hax 2 ltac:(lia)) as (A7 & A8 & A9 & _).
    assert (Hnm : forall x y, nmax (A := R) x y = Rmax x y).
    { intros x y. unfold nmax. num. destruct (Rltb_spec x y); [rewrite Rmax_right; lra|rewrite Rmax_left; lra]. }
    assert (Ee : e = (Rmax (Rmax (ax 0 mx - ax 0 mn) (ax 1 mx - ax 1 mn)) (ax 2 mx - ax 2 mn) * (1 / 2))%R) by (unfold e, half_extent; rewrite !Hnm; reflexivity).
    set (dx := (ax 0 mx - ax 0 mn)%R) in *. set (dy := (ax 1 mx - ax 1 mn)%R) in *. set (dz := (ax 2 mx - ax 2 mn)%R) in *.
    pose proof (Rmax_l (Rmax dx dy) dz). pose proof (Rmax_r (Rmax dx dy) dz). pose proof (Rmax_l dx dy). pose proof (Rmax_r dx dy).
    assert (Hd : forall a b, (Rabs a <= B -> Rabs b <= B -> b - a <= 2 * B)%R) by (intros a b Ha Hb; pose proof (Rle_abs b); pose proof (Rle_abs (- a)) as X; rewrite Rabs_Ropp in X; lra).
    pose proof (Hd _ _ A2 A3). pose proof (Hd _ _ A5 A6). pose proof (Hd _ _ A8 A9). fold dx in H3. fold dy in H4. fold dz in H5.
    assert (Rmax (Rmax dx dy) dz <= 2 * B)%R by (repeat apply Rmax_lub; lra).
    split; [subst dx; lra|]. intros k Hk. apply axes in Hk. destruct Hk as [-> | [-> | ->]]; [fold dx|fold dy|fold dz]; lra. }
  destruct He as [[He0 He1] He2].
  assert (Hc : forall k, 0 <= k < 3 -> ax k (mkXYZ (nadd (gx mn) e) (nadd (gy mn) e) (nadd (gz mn) e)) = (ax k mn + e)%R).
  { intros k Hk. apply axes in Hk. destruct Hk as [-> | [-> | ->]]; reflexivity. }
  split; [exact He0|]. split.
  - intros k Hk. rewrite Hc by exact Hk. destruct (Hax k Hk) as (_ & A2 & _). pose proof (Rabs_triang (ax k mn) e). rewrite (Rabs_pos_eq e) in H by exact He0. lra.
  - intros j k Hj Hk. apply upto_In in Hj. assert (Hp : In (dpt db j) db) by (apply nth_In; unfold len in Hj; lia).
    pose proof (within_ax B db _ k Hw Hp Hk) as Hb. split; [lra|]. rewrite Hc by exact Hk. destruct (Hax k Hk) as (A1 & A2 & A3 & A4).
    destruct (A4 _ Hp) as [A5 A6]. specialize (He2 k Hk). unfold tau in *. apply Rabs_le. lra.
Qed.

Lemma upto_empty n : n = 0 -> upto n = [].
Proof. intros ->. reflexivity. Qed.

(* ---------------- radius search ---------------- *)
Section Radius.
Variable db : list (XYZ R).
Variable q : XYZ R.
Variable r : R.
Definition rInv (s : RadiusSet R) : Prop := rRadius s = r.
Definition accepted (j : Z) : bool := negb (IsGreaterThan (delta db q j) r).

Lemma radius_add s j : rInv s -> 0 <= j < len db ->
  exists s', RadiusAddPoint s (delta db q j) j = Ok s' /\ rInv s' /\ (RadiusWorstDist s' <= RadiusWorstDist s)%R.
Proof.
  intros Hs Hj. unfold RadiusAddPoint. destruct (IsGreaterThan _ _).
  - exists s. split; [reflexivity|]. split; [exact Hs|lra].
  - eexists. split; [reflexivity|]. split; [exact Hs|]. unfold RadiusWorstDist. cbn. lra.
Qed.

Lemma radius_runs L : forall s s', rInv s -> runs RadiusAddPoint db q s L s' ->
  rList s' = rList s ++ map (fun j => (delta db q j, j)) (filter accepted L) /\ rCount s' = rCount s + len (filter accepted L).
Proof.
  induction L as [|j L IH]; intros s s' Hs H; cbn [runs] in H.
  - subst. cbn. rewrite app_nil_r. split; [reflexivity|unfold len; cbn; lia].
  - destruct H as (s1 & E & H). unfold RadiusAddPoint in E. rewrite Hs in E. cbn [filter].
    assert (Ha : accepted j = negb (IsGreaterThan (delta db q j) r)) by reflexivity. rewrite !Ha.
    destruct (IsGreaterThan (delta db q j) r); injection E as <-.
    + cbn [negb]. apply IH; assumption.
    + destruct (IH _ _ (eq_refl r : rInv (mkRadius r (rCount s + 1) (rList s ++ [(delta db q j, j)]))) H) as [E1 E2]. cbn [negb map].
      cbn [rList rCount] in E1, E2. rewrite E1, E2, <- app_assoc. split; [reflexivity|]. unfold len. cbn [length]. lia.
Qed.

Lemma radius_found c e t_ (res : bool * RadiusSet R) : found RadiusWorstDist RadiusAddPoint db q rInv t_ (1 / 1000000 * (1 + t_)) c e (upto (len db)) (RadiusNnResultSet r) res ->
  let s := snd res in
  RadiusSize s = len (rList s) /\ NoDup (map snd (rList s)) /\
  (forall d j, In (d, j) (rList s) -> 0 <= j < len db /\ d = dist3 q (dpt db j) /\ (d <= r + tol d r)%R) /\
  (geom db t_ (1 / 1000000 * (1 + t_)) c e (upto (len db)) -> (0 <= t_)%R ->
   forall j, 0 <= j < len db -> near (1 / 1000000 * (1 + t_)) (dist3 q (dpt db j)) r -> In (dist3 q (dpt db j), j) (rList s)).
Proof.
  destruct res as [b s]. intros (L & R1 & N1 & I1 & V1 & W1 & G1). cbn [fst snd] in *.
  destruct (radius_runs L (RadiusNnResultSet r) s eq_refl R1) as [E1 E2]. cbn [RadiusNnResultSet rList rCount app] in E1, E2.
  assert (Em : map snd (rList s) = filter accepted L) by (rewrite E1, map_map; cbn [snd]; apply map_id).
  split.
  { unfold RadiusSize. rewrite E2, E1. unfold len. rewrite map_length. lia. }
  split; [rewrite Em; apply NoDup_filter, N1|]. split.
  - intros d j H. rewrite E1 in H. apply in_map_iff in H as (j' & E & H). injection E as <- ->. apply filter_In in H as [H Ha].
    split; [apply upto_In, I1, H|]. split; [reflexivity|]. unfold accepted in Ha. apply negb_true_iff in Ha.
    assert (E : ~ (thr eps (delta db q j) r < delta db q j - r)%R) by (rewrite <- gt_iff, Ha; discriminate). unfold tol. unfold thr in E. rewrite eps_val in E. lra.
  - intros G Ht j Hj Hn. destruct (G1 G) as [G2 _]. assert (HjL : In j L).
    { destruct (in_dec Z.eq_dec j L) as [H|H]; [exact H|]. exfalso. apply (G2 j); [apply upto_In, Hj|exact H|]. unfold RadiusWorstDist. rewrite V1. exact Hn. }
    rewrite E1. apply in_map_iff. exists j. split; [reflexivity|]. apply filter_In. split; [exact HjL|]. unfold accepted.
    destruct (IsGreaterThan (delta db q j) r) eqn:E; [|reflexivity]. apply gt_iff in E.
    pose proof (near_lt (1 / 1000000 * (1 + t_)) _ _ ltac:(lra) (dist3_pos _ _) Hn) as Hlt. unfold delta in E.
    assert (0 <= thr eps (dist3 q (dpt db j)) r)%R by (unfold thr; rewrite eps_val; pose proof (Rmax_l (Rabs (dist3 q (dpt db j))) (Rabs r)); pose proof (Rabs_pos (dist3 q (dpt db j))); lra). lra.
Qed.
End Radius.

Lemma radius_top (m : RadiusSet R -> res (bool * RadiusSet R)) db q r :
  (forall D, (0 <= D)%R -> wp (m (RadiusNnResultSet r)) (found RadiusWorstDist RadiusAddPoint db q (rInv r) D (1 / 1000000 * (1 + D)) (root_center db) (root_extent db) (upto (len db)) (RadiusNnResultSet r))) ->
  wp (m (RadiusNnResultSet r)) (fun res => radius_result db q r (snd res)).
Proof.
  intros H. destruct (wp_elim _ _ (H 0%R ltac:(lra))) as (res & E & F0). rewrite E. apply wp_ok.
  pose proof (radius_found db q r _ _ _ _ F0) as (R1 & R2 & R3 & _). split; [exact R1|]. split; [exact R2|]. split; [exact R3|].
  intros B HB Hw j Hj Hn. assert (Hne : db <> []) by (intros ->; unfold len in Hj; cbn in Hj; lia).
  assert (HB0 : (0 <= B)%R).
  { destruct db as [|p db']; [tauto|]. destruct (Hw p (or_introl eq_refl)) as [H0 _]. pose proof (Rabs_pos (gx p)). lra. }
  destruct (wp_elim _ _ (H (3 * B)%R ltac:(lra))) as (res' & E' & F1). rewrite E in E'. injection E' as <-.
  destruct (radius_found db q r _ _ _ _ F1) as (_ & _ & _ & R4). apply R4; [apply root_geom; assumption|lra|exact Hj|exact Hn].
Qed.

Lemma RadiusSearch_ok fuel db ls (me : R) t q r : OctreeConstruction fuel db ls me = Ok t ->
  wp (OctreeRadiusSearch t db (RadiusNnResultSet r) q) (fun res => radius_result db q r (snd res)).
Proof.
  intros H. apply construction_Built in H. apply (radius_top (fun s => OctreeRadiusSearch t db s q)). intros D HD.
  apply (search_ok RadiusWorstDist RadiusAddPoint db q (rInv r) (radius_add db q r) D _ HD eq_refl _ _ _ _ H); [apply upto_valid|apply upto_NoDup|reflexivity].
Qed.

Lemma RadiusSearchFast_ok fuel db ls (me : R) t q r : OctreeConstruction fuel db ls me = Ok t ->
  wp (OctreeRadiusSearchFast t db (RadiusNnResultSet r) q) (fun res => radius_result db q r (snd res)).
Proof.
  intros H. apply construction_Built in H. apply (radius_top (fun s => OctreeRadiusSearchFast t db s q)). intros D HD.
  apply (search_fast_ok RadiusWorstDist RadiusAddPoint db q (rInv r) (radius_add db q r) D _ HD eq_refl _ _ _ _ H); [apply upto_valid|apply upto_NoDup|reflexivity].
Qed.
