(* Property theorems, part 15: the octree and its result sets. *)
From Coq Require Import ZArith List Bool Reals Lra Lia Permutation Floats.
From Verif Require Import Base Num Spec Spec3 Spec7 M_MathUtils M_XYZ M_Octree P_MathUtils P_Geom P_Octree P_OctSearch P_OctTop P_Knn.
Import ListNotations.
Open Scope Z_scope.

(** * C47 *)
(* for every number type: no point is lost or stored twice *)
Theorem C47_no_point_lost : forall (A : Type) (NA : Num A) fuel (db : list (XYZ A)) leafSize (minExtent : A) t,
  OctreeConstruction fuel db leafSize minExtent = Ok t -> Permutation (stored t) (upto (len db)) /\ consistent t.
Proof. intros A NA fuel db ls me t. exact (construction_stored db fuel ls me t). Qed.
Print Assumptions C47_no_point_lost.

(* construction ends for every positive least extent *)
Theorem C47_terminates : forall (db : list (XYZ R)) leafSize (minExtent : R), (0 < minExtent)%R ->
  exists fuel0, forall fuel, (fuel0 <= fuel)%nat -> exists t, OctreeConstruction fuel db leafSize minExtent = Ok t.
Proof. exact construction_terminates. Qed.
Print Assumptions C47_terminates.

(* the hypotheses are met *)
Example construction_hypotheses : exists fuel t,
  OctreeConstruction fuel [mkXYZ 0 0 0; mkXYZ 1 0 0; mkXYZ 1 2 3]%R 1 (1 / 10)%R = Ok t.
Proof. destruct (C47_terminates [mkXYZ 0 0 0; mkXYZ 1 0 0; mkXYZ 1 2 3]%R 1 (1 / 10)%R ltac:(lra)) as (f & H). exists f. apply H. lia. Qed.

(* a tree with inner octants *)
Example construction_inner : exists t : octree float,
  OctreeConstruction 10 [mkXYZ 0 0 0; mkXYZ 1 0 0; mkXYZ 0 1 0; mkXYZ 0.125 0 0; mkXYZ 1 1 1]%float 1 0.001953125%float = Ok t /\
  stored t = [0; 3; 1; 2; 4] /\ exists c e i ch, t = ONode c e i false ch.
Proof. eexists. split; [vm_compute; reflexivity|]. split; [reflexivity|]. repeat eexists. Qed.

(* with a negative least extent two equal points are split forever *)
Lemma float_split_forever db fuel : db = [mkXYZ 0 0 0; mkXYZ 0 0 0]%float ->
  OctreeRecursiveBuild fuel db (mkXYZ 0 0 0)%float 0%float [0; 1] 1 (-1)%float = OutOfFuel.
Proof.
  intros ->. induction fuel as [|fuel IH]; [reflexivity|]. cbn [OctreeRecursiveBuild].
  change (len [0; 1] =? 0) with false. cbn [len length]. 
  match goal with |- (if ?c then _ else _) = _ => replace c with false by (vm_compute; reflexivity) end.
  match goal with |- bind ?m _ = _ => replace m with (Ok [[0; 1]; []; []; []; []; []; []; []] : res (list (list Z))) by (vm_compute; reflexivity) end.
  cbn [bind]. unfold for_up. change (Z.to_nat (8 - 0)) with 8%nat. cbn [iter_up].
  change (get [[0; 1]; []; []; []; []; []; []; []] 0) with (Ok [0; 1]). cbn [bind].
  replace (child_center (mkXYZ 0 0 0)%float 0%float 0) with (mkXYZ 0 0 0)%float by (vm_compute; reflexivity).
  replace (nmul (nlit 1 2) 0%float) with 0%float by (vm_compute; reflexivity).
  rewrite IH. reflexivity.
Qed.

Theorem C47_negative_extent_refuted : exists (db : list (XYZ float)) (minExtent : float), len db = 2 /\
  forall fuel, OctreeConstruction fuel db 1 minExtent = OutOfFuel.
Proof.
  exists [mkXYZ 0 0 0; mkXYZ 0 0 0]%float, (-1)%float. split; [reflexivity|]. intros fuel. rewrite construction_eq.
  replace (root_center [mkXYZ 0 0 0; mkXYZ 0 0 0]%float) with (mkXYZ 0 0 0)%float by (vm_compute; reflexivity).
  replace (root_extent [mkXYZ 0 0 0; mkXYZ 0 0 0]%float) with 0%float by (vm_compute; reflexivity).
  apply (float_split_forever _ fuel eq_refl).
Qed.
Print Assumptions C47_negative_extent_refuted.

(** * C48 *)
Theorem C48_radius_search : forall fuel db leafSize (minExtent : R) t q r, OctreeConstruction fuel db leafSize minExtent = Ok t ->
  returns (OctreeRadiusSearch t db (RadiusNnResultSet r) q) (fun res => radius_result db q r (snd res)).
Proof. intros fuel db ls me t q r H. exact (wp_elim _ _ (RadiusSearch_ok fuel db ls me t q r H)). Qed.
Print Assumptions C48_radius_search.

Theorem C48_radius_search_fast : forall fuel db leafSize (minExtent : R) t q r, OctreeConstruction fuel db leafSize minExtent = Ok t ->
  returns (OctreeRadiusSearchFast t db (RadiusNnResultSet r) q) (fun res => radius_result db q r (snd res)).
Proof. intros fuel db ls me t q r H. exact (wp_elim _ _ (RadiusSearchFast_ok fuel db ls me t q r H)). Qed.
Print Assumptions C48_radius_search_fast.

(* for coordinates up to 1 and radius 1, points at distance up to 0.9999 are found *)
Example margin : near (1 / 1000000 * (1 + 3 * 1)) (9999 / 10000) 1.
Proof. unfold near. lra. Qed.

(* radius 2^-10: the point at distance below 2^-10.6 is not found by either search *)
Theorem C48_small_radius_refuted : exists (db : list (XYZ float)) t q r,
  OctreeConstruction 50 db 1 0x1p-13%float = Ok t /\
  (let! d := Distance q (at_ xyz0 db 2) in Ok (PrimFloat.ltb d 0x1.5p-11%float)) = Ok true /\ r = 0x1p-10%float /\
  (let! a := OctreeRadiusSearch t db (RadiusNnResultSet r) q in Ok (rList (snd a))) = Ok [] /\
  (let! a := OctreeRadiusSearchFast t db (RadiusNnResultSet r) q in Ok (rList (snd a))) = Ok [].
Proof.
  exists [mkXYZ (-1) (-1) (-1); mkXYZ 1 1 1; mkXYZ 0x1p-12 0x1p-12 0x1p-12]%float. eexists.
  exists (mkXYZ (-0x1p-13) (-0x1p-13) (-0x1p-13))%float, 0x1p-10%float.
  split; [vm_compute; reflexivity|]. vm_compute. auto.
Qed.
Print Assumptions C48_small_radius_refuted.

(* coordinates about 10^6: a point is filed in the wrong octant and a search clearly including it does not find it *)
Theorem C48_large_coordinates_refuted : exists (db : list (XYZ float)) t q r,
  OctreeConstruction 50 db 1 0x1p-13%float = Ok t /\ len db = 3 /\
  Distance q (at_ xyz0 db 2) = Ok 2.625%float /\ r = 2.6875%float /\
  (let! a := OctreeRadiusSearch t db (RadiusNnResultSet r) q in Ok (rList (snd a))) = Ok [(0.5%float, 1)] /\
  (let! a := OctreeRadiusSearchFast t db (RadiusNnResultSet r) q in Ok (rList (snd a))) = Ok [(0.5%float, 1)].
Proof.
  exists [mkXYZ 999996 0 0; mkXYZ 1000004 0 0; mkXYZ 1000000.875 0 0]%float. eexists.
  exists (mkXYZ 1000003.5 0 0)%float, 2.6875%float.
  split; [vm_compute; reflexivity|]. vm_compute. auto 10.
Qed.
Print Assumptions C48_large_coordinates_refuted.

(** * C49 *)
Theorem C49_keeps_the_best : forall k h, 1 <= k -> clear h ->
  returns (let! s := KnnResultSet k in knn_adds s h) (fun s =>
    KnnSize s = Z.min k (len h) /\ (KnnFull s = true <-> k <= len h) /\
    exists l, nearest (Z.min k (len h)) h l /\ kList s = l ++ repeat (far, 0) (Z.to_nat (k - len l)) /\
      KnnWorstDist s = if k <=? len h then fst (at_ (0%R, 0) l (k - 1)) else far).
Proof. intros k h Hk Hc. exact (wp_elim _ _ (knn_history k h Hk Hc)). Qed.
Print Assumptions C49_keeps_the_best.

Example clear_example : clear [(3%R, 0); (1%R, 1); (2%R, 2); (1%R, 3)].
Proof.
  split.
  - intros x Hx. unfold tol, far. cbn [In] in Hx.
    rewrite Rmax_right; [rewrite (Rabs_pos_eq 10000000000) by lra; decompose [or] Hx; subst; cbn [fst] in *; try lra; tauto|].
    decompose [or] Hx; subst; cbn [fst] in *; try tauto; rewrite !Rabs_pos_eq by lra; lra.
  - intros x y Hx Hy. unfold distinguishable, tol.
    assert (H : forall a b, In a [3; 1; 2]%R -> In b [3; 1; 2]%R -> (Rmax (Rabs a) (Rabs b) <= 3)%R).
    { intros a b Ha Hb. apply Rmax_lub; [cbn [In] in Ha; decompose [or] Ha|cbn [In] in Hb; decompose [or] Hb]; subst; try tauto; rewrite Rabs_pos_eq by lra; lra. }
    assert (Hm : (Rmax (Rabs (fst x)) (Rabs (fst y)) <= 3)%R).
    { apply H; cbn [In] in Hx, Hy |- *; [decompose [or] Hx|decompose [or] Hy]; subst; cbn [fst]; tauto. }
    clear H. cbn [In] in Hx, Hy. decompose [or] Hx; decompose [or] Hy; subst; cbn [fst] in *; try tauto; lra.
Qed.

(* distances closer than the tolerance: the nearer point is thrown out *)
Theorem C49_close_distances_refuted : exists d1 d2 : float, PrimFloat.ltb d1 d2 = true /\
  (let! s := KnnResultSet 1 in let! s := KnnAddPoint s d1 0 in let! s := KnnAddPoint s d2 1 in Ok (kList s, KnnWorstDist s)) = Ok ([(d2, 1)], d2).
Proof. exists 1%float, 0x1.00001p0%float. split; vm_compute; reflexivity. Qed.
Print Assumptions C49_close_distances_refuted.

(* ... and the entries are no longer in order *)
Theorem C49_close_distances_order_refuted : exists d1 d2 : float, PrimFloat.ltb d1 d2 = true /\
  (let! s := KnnResultSet 2 in let! s := KnnAddPoint s d2 0 in let! s := KnnAddPoint s d1 1 in Ok (kList s, KnnWorstDist s)) = Ok ([(d2, 0); (d1, 1)], d1).
Proof. exists 1%float, 0x1.00001p0%float. split; vm_compute; reflexivity. Qed.
Print Assumptions C49_close_distances_order_refuted.

(* a set of capacity zero *)
Theorem C49_capacity_zero_refuted : forall (d : R) j, (d <= 10000000000)%R -> (let! s := KnnResultSet 0 in KnnAddPoint s d j) = UB.
Proof.
  intros d j Hd. cbn [KnnResultSet mkvec Z.ltb Z.compare bind]. unfold KnnAddPoint. cbn [kWorst kCount kCapacity kList].
  destruct (IsGreaterThan d knn_far) eqn:E; [|reflexivity]. apply gt_iff in E. rewrite far_eq in E. unfold far in E.
  assert (0 <= thr eps d 10000000000)%R; [|lra]. unfold thr. rewrite eps_val. pose proof (Rmax_l (Rabs d) (Rabs 10000000000)). pose proof (Rabs_pos d). lra.
Qed.
Print Assumptions C49_capacity_zero_refuted.

(** * C68 *)
Theorem C68_nearest_neighbours : forall db q k, 1 <= k ->
  (forall j, 0 <= j < len db -> (dist3 q (dpt db j) <= 8000000000)%R) ->
  (forall i j, 0 <= i < len db -> 0 <= j < len db -> distinguishable (dist3 q (dpt db i)) (dist3 q (dpt db j))) ->
  forall fuel leafSize (minExtent : R) t B, OctreeConstruction fuel db leafSize minExtent = Ok t -> (B <= 1000000000)%R -> within B db ->
  returns (let! s := KnnResultSet k in OctreeKnnSearch t db s q) (fun r => knn_result db q k B (snd r)).
Proof. intros db q k Hk Hf Hd fuel ls me t B HC HB Hw. exact (wp_elim _ _ (KnnSearch_ok db q k Hk Hf Hd fuel ls me t B HC HB Hw)). Qed.
Print Assumptions C68_nearest_neighbours.

Lemma axis_distance a : (0 <= a)%R -> dist3 (mkXYZ 0 0 0)%R (mkXYZ a 0 0)%R = a.
Proof.
  intros Ha. unfold dist3, norm3, dot3, minus3. cbn [gx gy gz]. replace ((0 - a) * (0 - a) + (0 - 0) * (0 - 0) + (0 - 0) * (0 - 0))%R with (a * a)%R by ring.
  apply sqrt_square, Ha.
Qed.
Example knn_hypotheses : let db := [mkXYZ 1 0 0; mkXYZ 3 0 0]%R in let q := (mkXYZ 0 0 0)%R in
  (forall j, 0 <= j < len db -> (dist3 q (dpt db j) <= 8000000000)%R) /\ within 3 db /\
  (forall i j, 0 <= i < len db -> 0 <= j < len db -> distinguishable (dist3 q (dpt db i)) (dist3 q (dpt db j))).
Proof.
  intros db q.
  assert (E0 : dist3 q (dpt db 0) = 1%R) by (apply axis_distance; lra). assert (E1 : dist3 q (dpt db 1) = 3%R) by (apply axis_distance; lra).
  assert (Hc : forall j, 0 <= j < len db -> j = 0 \/ j = 1) by (intros j; change (len db) with 2; lia).
  assert (Hm : Rmax (Rabs 1) (Rabs 3) = 3%R) by (rewrite !Rabs_pos_eq by lra; apply Rmax_right; lra).
  split; [|split].
  - intros j Hj. destruct (Hc j Hj) as [-> | ->]; [rewrite E0|rewrite E1]; lra.
  - intros p [<-|[<-|[]]]; cbn [gx gy gz]; rewrite !Rabs_pos_eq by lra; lra.
  - intros i j Hi Hj. unfold distinguishable, tol. destruct (Hc i Hi) as [-> | ->], (Hc j Hj) as [-> | ->]; rewrite ?E0, ?E1; try (left; reflexivity).
    + right. left. rewrite Hm. lra.
    + right. right. rewrite Rmax_comm, Hm. lra.
Qed.
