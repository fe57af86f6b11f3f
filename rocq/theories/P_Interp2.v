(* Mesh parameters and tangents. *)
From Coq Require Import ZArith List Bool Reals Lra Lia.
From Verif Require Import Base Num Vec Tac Spec Spec3 M_MathUtils M_XYZ M_Geom M_Interp P_MathUtils P_Loop P_VSum P_XYZ P_Matrix P_Geom P_Insert2 P_Interp.
Import ListNotations.
Open Scope Z_scope.


(* chord length of line f up to point k *)
Definition chord (f : Z -> XYZ R) (k : Z) : R := rsum 1 (k + 1) (fun j => dist3 (f j) (f (j - 1))).

Section Mesh.
Variables (f : Z -> Z -> XYZ R) (lines count : Z).
Hypothesis Hl : 0 <= lines.
Hypothesis Hc : 1 <= count.
Let T l := chord (f l) (count - 1).
Let w l : R := if small_dec (T l) then 0%R else 1%R.
Let share l k : R := if small_dec (T l) then 0%R else (chord (f l) k / T l)%R.

Lemma chord_step g k : 0 <= k -> chord g (k + 1) = (chord g k + dist3 (g (k + 1)%Z) (g k))%R.
Proof. intros H. unfold chord. rewrite (rsum_last 1 (k + 1)) by lia. replace (k + 1 - 1) with k by lia. reflexivity. Qed.
Lemma chord_0 g : chord g 0 = 0%R.
Proof. unfold chord. apply rsum_nil. lia. Qed.
Lemma chord_nonneg g k : (0 <= chord g k)%R.
Proof. apply rsum_nonneg. intros. apply dist_nonneg. Qed.

Lemma mesh_direction_ok (point : Z -> Z -> res (XYZ R)) : (forall l k, 0 <= l < lines -> 0 <= k < count -> point l k = Ok (f l k)) ->
  wp (mesh_direction point lines count) (fun o => match o with
    | None => rsum 0 lines w = 0%R
    | Some u => (1 <= rsum 0 lines w)%R /\ arr u count (fun k => rsum 0 lines (fun l => share l k) / rsum 0 lines w)%R
    end).
Proof.
  intros Hp. unfold mesh_direction. num. apply wp_bind. apply wp_mkvec; [lia|]. intros v Hv.
  apply wp_bind.
  apply wp_for_up with (P := fun l s => arr (fst s) count (fun k => rsum 0 l (fun l => share l k)) /\ IZR (snd s) = (IZR lines - IZR l + rsum 0 l w)%R /\ lines - l <= snd s); [lia| | |].
  { cbn [fst snd]. split; [|split].
    - eapply arr_ext; [exact Hv|]. intros k Hk. cbv beta. rewrite rsum_nil by lia. reflexivity.
    - rewrite rsum_nil by lia. ring.
    - lia. }
  { intros l [params num] Hl' (H1 & H2 & H3). cbn [fst snd] in *. apply wp_bind. apply wp_mkvec; [lia|]. intros cds Hcds.
    apply wp_bind.
    apply wp_for_up with (P := fun k s => arrD (fst s) count (fun j => 1 <= j < k) (fun j => dist3 (f l j) (f l (j - 1))) /\ snd s = chord (f l) (k - 1)); [lia| | |].
    { cbn [fst snd]. split; [split; [exact (arr_len _ _ _ Hcds)|lia]|]. symmetry. apply chord_0. }
    { intros k [c t] Hk [A1 A2]. cbn [fst snd] in *. rewrite (Hp l k) by lia. cbn [bind]. rewrite (Hp l (k - 1)) by lia. cbn [bind]. rewrite Distance_eq. cbn [bind].
      apply wp_bind. apply (arrD_set _ _ _ (fun j => 1 <= j < k + 1) _ _ _ _ A1); [lia|reflexivity|lia|]. intros c' Hc'. apply wp_ok. cbn [fst snd]. split; [exact Hc'|].
      rewrite A2. replace (k + 1 - 1) with (k - 1 + 1) by lia. rewrite chord_step by lia. replace (k - 1 + 1) with k by lia. reflexivity. }
    intros [c t] [A1 A2]. cbn [fst snd] in *. fold (T l) in A2. subst t.
    destruct (IsAlmostEqualTo (T l) 0%R) eqn:E.
    - apply small_iff in E. apply wp_ok. cbn [fst snd]. split; [|split].
      + eapply arr_ext; [exact H1|]. intros k Hk. cbv beta. rewrite rsum_last by lia. unfold share at 3. destruct (small_dec (T l)); [ring|contradiction].
      + rewrite minus_IZR, plus_IZR, rsum_last, H2 by lia. unfold w at 3. destruct (small_dec (T l)); [ring|contradiction].
      + lia.
    - apply small_false in E. assert (HT : T l <> 0%R) by (intros Z0; apply E; rewrite Z0; apply small_0).
      apply wp_bind.
      apply wp_for_up with (P := fun k s => arr (fst s) count (fun j => if j <? k then rsum 0 (l + 1) (fun l => share l j) else rsum 0 l (fun l => share l j)) /\ snd s = chord (f l) (k - 1)); [lia| | |].
      + cbn [fst snd]. split; [|symmetry; apply chord_0]. eapply arr_ext; [exact H1|]. intros j Hj. cbv beta. zcase; [|reflexivity].
        assert (j = 0) as -> by lia. rewrite rsum_last by lia. unfold share at 3. destruct (small_dec (T l)); [contradiction|]. rewrite chord_0. unfold Rdiv. ring.
      + intros k [ps d] Hk [B1 B2]. cbn [fst snd] in *. wget A1. rewrite Rdiv_ok by exact HT. cbn [bind]. wget B1.
        assert (Ed : (d + dist3 (f l k) (f l (k - 1)%Z) = chord (f l) k)%R).
        { rewrite B2. replace (chord (f l) k) with (chord (f l) (k - 1 + 1)) by (f_equal; lia). rewrite chord_step by lia. replace (k - 1 + 1) with k by lia. reflexivity. }
        apply wp_bind. apply (arr_upd _ _ _ _ _ _ B1); [lia|]. intros ps' Hps'. apply wp_ok. cbn [fst snd]. split.
        * eapply arr_ext; [exact Hps'|]. intros j Hj. cbv beta. destruct (Z.eqb_spec j k) as [->|].
          -- destruct (Z.ltb_spec k k); [lia|]. destruct (Z.ltb_spec k (k + 1)); [|lia]. rewrite rsum_last by lia. f_equal. rewrite Ed. unfold share. destruct (small_dec (T l)); [contradiction|reflexivity].
          -- zcase; try lia; reflexivity.
        * rewrite Ed. f_equal. lia.
      + intros [ps d] [B1 _]. cbn [fst] in *. apply wp_ok. cbn [fst snd]. split; [|split].
        * eapply arr_ext; [exact B1|]. intros j Hj. cbv beta. zcase; [reflexivity|lia].
        * rewrite plus_IZR, rsum_last, H2 by lia. unfold w at 3. destruct (small_dec (T l)); [contradiction|ring].
        * assert (HW : (0 <= rsum 0 (l + 1) w)%R) by (apply rsum_nonneg; intros i Hi; unfold w; destruct (small_dec (T i)); lra).
          assert (lines - (l + 1) <= num); [|lia]. lia. }
  intros [ps num] (H1 & H2 & H3). cbn [fst snd] in *. replace (IZR lines - IZR lines + rsum 0 lines w)%R with (rsum 0 lines w) in H2 by ring.
  destruct (Z.eqb_spec num 0) as [->|N0]; [apply wp_ok; symmetry; exact H2|].
  assert (Hnum : IZR num <> 0%R) by (apply not_0_IZR; exact N0). assert (HN1 : (1 <= IZR num)%R) by (apply IZR_le; lia).
  (* a line that is not degenerate has at least two points *)
  apply wp_bind.
  apply wp_for_up' with (P := fun k s => arr s count (fun j => if (1 <=? j) && (j <? k) then rsum 0 lines (fun l => share l j) / IZR num else rsum 0 lines (fun l => share l j))%R).
  { eapply arr_ext; [exact H1|]. intros k Hk. cbv beta. zcase; try lia; reflexivity. }
  { intros k ps' Hk Hps. wget Hps. rewrite Rdiv_ok by exact Hnum. cbn [bind]. apply (arr_upd _ _ _ _ _ _ Hps); [lia|]. intros ps2 Hps2. eapply arr_ext; [exact Hps2|].
    intros j Hj. cbv beta. destruct (Z.eqb_spec j k) as [->|].
    - replace (k <? k) with false by (symmetry; apply Z.ltb_irrefl). rewrite andb_false_r. zcase; try lia; reflexivity.
    - zcase; try lia; reflexivity. }
  intros ps' Hps. apply wp_bind. apply (arr_upd _ _ _ _ _ _ Hps); [lia|]. intros u Hu. apply wp_ok. rewrite <- H2. split; [exact HN1|].
  eapply arr_ext; [exact Hu|]. intros k Hk. cbv beta. destruct (Z.eqb_spec k (count - 1)) as [->|].
  - replace (rsum 0 lines (fun l => share l (count - 1))) with (rsum 0 lines w); [rewrite H2; field; rewrite <- H2; exact Hnum|].
    apply rsum_ext. intros l Hl'. unfold w, share. destruct (small_dec (T l)) as [|S]; [reflexivity|]. fold (T l). symmetry. apply Rinv_r. intros Z0. apply S. rewrite Z0. apply small_0.
  - destruct (Z.eq_dec k 0) as [->|].
    + zcase; try lia; cbn [andb]; rewrite (rsum_ext 0 lines _ (fun _ => 0%R)); rewrite ?rsum_const by lia; unfold Rdiv; try ring; intros l Hl'; unfold share; (destruct (small_dec (T l)); [reflexivity|]); rewrite chord_0; unfold Rdiv; ring.
    + zcase; try lia; reflexivity.
Qed.

(* the shares are non-decreasing along the line, from 0 to the number of lines *)
Lemma share_mono l k : 0 <= k -> (share l k <= share l (k + 1)%Z)%R.
Proof.
  intros Hk. unfold share. destruct (small_dec (T l)) as [|S]; [lra|]. assert (0 < T l)%R by (apply pos_of_not_small; [apply chord_nonneg|exact S]).
  unfold Rdiv. apply Rmult_le_compat_r; [left; apply Rinv_0_lt_compat; assumption|]. rewrite chord_step by exact Hk. pose proof (dist_nonneg (f l (k + 1)) (f l k)). lra.
Qed.
Lemma share_strict l k : 0 <= k -> ~ small (T l) -> f l k <> f l (k + 1) -> (share l k < share l (k + 1)%Z)%R.
Proof.
  intros Hk S Hd. unfold share. destruct (small_dec (T l)) as [|_]; [contradiction|]. assert (0 < T l)%R by (apply pos_of_not_small; [apply chord_nonneg|exact S]).
  unfold Rdiv. apply Rmult_lt_compat_r; [apply Rinv_0_lt_compat; assumption|]. rewrite chord_step by exact Hk. pose proof (dist_pos (f l (k + 1)) (f l k) ltac:(congruence)). lra.
Qed.

Definition mesh_parameters (u : list R) : Prop :=
  len u = count /\ val u 0 = 0%R /\ val u (count - 1) = 1%R /\ sorted u /\
  (forall k l, 0 <= k < count - 1 -> 0 <= l < lines -> ~ small (T l) -> f l k <> f l (k + 1) -> (val u k < val u (k + 1))%R) /\
  (forall k, 0 <= k < count -> (val u k * rsum 0 lines w = rsum 0 lines (fun l => share l k))%R).

Lemma mesh_of_arr u : (1 <= rsum 0 lines w)%R -> arr u count (fun k => rsum 0 lines (fun l => share l k) / rsum 0 lines w)%R -> mesh_parameters u.
Proof.
  intros HW Hu. assert (HI : (0 < / rsum 0 lines w)%R) by (apply Rinv_0_lt_compat; lra).
  split; [exact (arr_len _ _ _ Hu)|]. split; [|split; [|split; [|split]]].
  - rewrite (arr_val _ _ _ _ Hu) by lia. rewrite (rsum_ext 0 lines _ (fun _ => 0%R)).
    + rewrite rsum_const by lia. unfold Rdiv. ring.
    + intros l Hl'. unfold share. destruct (small_dec (T l)); [reflexivity|]. rewrite chord_0. unfold Rdiv. ring.
  - rewrite (arr_val _ _ _ _ Hu) by lia. replace (rsum 0 lines (fun l => share l (count - 1))) with (rsum 0 lines w); [field; lra|].
    apply rsum_ext. intros l Hl'. unfold w, share. destruct (small_dec (T l)) as [|S]; [reflexivity|]. fold (T l). symmetry. apply Rinv_r. intros Z0. apply S. rewrite Z0. apply small_0.
  - apply (sorted_arr _ _ _ Hu). intros k H0 H1. cbv beta. apply Rmult_le_compat_r; [lra|]. apply rsum_le. intros l Hl'. apply share_mono. exact H0.
  - intros k l Hk Hl' S Hd. rewrite (arr_val _ _ _ _ Hu), (arr_val _ _ _ _ Hu) by lia. apply Rmult_lt_compat_r; [exact HI|].
    rewrite (rsum_split 0 l lines), (rsum_split 0 l lines (fun l => share l (k + 1)%Z)) by lia. rewrite (rsum_first l lines), (rsum_first l lines (fun l => share l (k + 1)%Z)) by lia.
    assert (rsum 0 l (fun l => share l k) <= rsum 0 l (fun l => share l (k + 1)%Z))%R by (apply rsum_le; intros; apply share_mono; lia).
    assert (rsum (l + 1) lines (fun l => share l k) <= rsum (l + 1) lines (fun l => share l (k + 1)%Z))%R by (apply rsum_le; intros; apply share_mono; lia).
    pose proof (share_strict l k ltac:(lia) S Hd). lra.
  - intros k Hk. rewrite (arr_val _ _ _ _ Hu) by lia. field. lra.
Qed.

Lemma weights_zero : rsum 0 lines w = 0%R -> forall l, 0 <= l < lines -> small (T l).
Proof.
  intros H l Hl'. rewrite (rsum_split 0 l lines) in H by lia. rewrite (rsum_first l lines) in H by lia.
  assert (HW : forall a b, (0 <= rsum a b w)%R) by (intros; apply rsum_nonneg; intros i Hi; unfold w; destruct (small_dec (T i)); lra).
  pose proof (HW 0 l). pose proof (HW (l + 1) lines). unfold w at 2 in H. destruct (small_dec (T l)); [assumption|lra].
Qed.
End Mesh.

Definition mesh_row (Q : list (list (XYZ R))) (k : Z) : Z -> XYZ R := fun l => pt2 Q k l.
Definition mesh_col (Q : list (list (XYZ R))) (l : Z) : Z -> XYZ R := fun k => pt2 Q k l.

Lemma net_get2 r c (Q : list (list (XYZ R))) i j : net r c Q -> 0 <= i < r -> 0 <= j < c -> get2 Q i j = Ok (pt2 Q i j).
Proof.
  intros [Hr Hc] Hi Hj. unfold get2, pt2. rewrite (get_at [] Q i) by lia. cbn [bind]. apply get_at. rewrite (Hc i) by lia. lia.
Qed.

Lemma Mesh_ok r c Q : net r c Q -> 1 <= r -> 1 <= c ->
  wp (GetSurfaceMeshParameterization Q) (fun o => match o with
    | None => (forall l, 0 <= l < c -> small (chord (mesh_col Q l) (r - 1))) \/ (forall k, 0 <= k < r -> small (chord (mesh_row Q k) (c - 1)))
    | Some (u, v) => mesh_parameters (mesh_col Q) c r u /\ mesh_parameters (mesh_row Q) r c v
    end).
Proof.
  intros HN Hr Hc. unfold GetSurfaceMeshParameterization. destruct HN as [H1 H2]. rewrite (get_at [] Q 0) by lia. cbn [bind]. rewrite (H2 0) by lia. rewrite H1.
  apply wp_bind. eapply wp_mono; [apply (mesh_direction_ok (mesh_col Q) c r); [lia|lia|]|].
  { intros l k Hl Hk. apply (net_get2 r c); [split; assumption|lia|lia]. }
  intros [u|] Hu.
  - apply wp_bind. eapply wp_mono; [apply (mesh_direction_ok (mesh_row Q) r c); [lia|lia|]|].
    { intros l k Hl Hk. apply (net_get2 r c); [split; assumption|lia|lia]. }
    intros [v|] Hv; apply wp_ok.
    + destruct Hu as [U1 U2], Hv as [V1 V2]. split; apply mesh_of_arr; (assumption || lia).
    + right. apply weights_zero. exact Hv.
  - apply wp_ok. left. apply weights_zero. exact Hu.
Qed.

(** * Tangents *)
Lemma xyz_div_ok (a : XYZ R) k : k <> 0%R -> xyz_div a k = Ok (times3 (/ k) a).
Proof.
  intros H. unfold xyz_div. num. rewrite !Rdiv_ok by exact H. cbn [bind]. f_equal. v3h. apply xyz_eq; unfold Rdiv; ring.
Qed.

Definition spaced (u : list R) : Prop := forall i, 0 <= i < len u - 1 -> (1 / 999999 < val u (i + 1) - val u i)%R.

Lemma gt0_iff x : IsGreaterThan x 0%R = true <-> (1 / 999999 < x)%R.
Proof.
  rewrite gt_iff. unfold thr, eps. rewrite Rabs_R0, Rmax_left by apply Rabs_pos. unfold Rabs. destruct (Rcase_abs x); lra.
Qed.

Definition secant (Q : list (XYZ R)) (u : list R) (i : Z) : XYZ R :=
  times3 (/ (val u (i + 1) - val u (i - 1))) (minus3 (pt Q (i + 1)) (pt Q (i - 1))).
Definition slope (Q : list (XYZ R)) (u : list R) (i : Z) : XYZ R :=
  times3 (/ (val u (i + 1) - val u i)) (minus3 (pt Q (i + 1)) (pt Q i)).
Definition tangent (Q : list (XYZ R)) (u : list R) (i : Z) : XYZ R :=
  if i =? 0 then minus3 (times3 2 (slope Q u 0)) (secant Q u 1)
  else if i =? len Q - 1 then minus3 (times3 2 (slope Q u (len Q - 2))) (secant Q u (len Q - 2))
  else secant Q u i.

Lemma blend (a b : R) e f : a <> 0%R -> b <> 0%R -> (a + b <> 0)%R ->
  xyz_add (xyz_scale (b / (a + b))%R (times3 (/ b) e)) (xyz_scale (1 - b / (a + b))%R (times3 (/ a) f)) = times3 (/ (a + b)) (plus3 f e).
Proof. intros Ha Hb Hab. v3h. apply xyz_eq; field; auto. Qed.

Lemma ComputeTangent_ok Q u : 3 <= len Q -> GetChordParameterization Q = Ok u -> spaced u ->
  wp (ComputeTangent Q) (fun T => arr T (len Q) (tangent Q u)).
Proof.
  intros HQ Eu Hs. pose proof (arr_pt Q _ eq_refl) as HA. pose proof (P_Bern.arr_val u) as HU.
  assert (Lu : len u = len Q). { pose proof (Chord_ok Q ltac:(lia)) as W. rewrite Eu in W. apply W. }
  rewrite Lu in HU. unfold spaced in Hs. rewrite Lu in Hs. unfold ComputeTangent. num.
  destruct (Z.eqb_spec (len Q) 0); [lia|]. destruct (Z.eqb_spec (len Q) 1); [lia|]. destruct (Z.eqb_spec (len Q) 2); [lia|]. rewrite Eu. cbn [bind].
  apply wp_bind. apply wp_mkvec; [lia|]. intros du0 Hdu0. apply wp_bind. apply wp_mkvec; [lia|]. intros dP0 HdP0.
  apply wp_bind.
  apply wp_for_up with (P := fun i s => arrD (fst s) (len Q - 1) (fun j => j < i) (fun j => val u (j + 1) - val u j)%R /\ arrD (snd s) (len Q - 1) (fun j => j < i) (fun j => minus3 (pt Q (j + 1)) (pt Q j))); [lia| | |].
  { cbn [fst snd]. split; split; [exact (arr_len _ _ _ Hdu0)|lia|exact (arr_len _ _ _ HdP0)|lia]. }
  { intros i [du dP] Hi [A1 A2]. cbn [fst snd] in *. wget HU. wget HU. apply wp_bind. apply (arrD_set _ _ _ (fun j => j < i + 1) _ _ _ _ A1); [lia|reflexivity|lia|]. intros du' Hdu'.
    wget HA. wget HA. apply wp_bind. apply (arrD_set _ _ _ (fun j => j < i + 1) _ _ _ _ A2); [lia|reflexivity|lia|]. intros dP' HdP'. apply wp_ok. split; [exact Hdu'|exact HdP']. }
  intros [du dP] [A1 A2]. cbn [fst snd] in *.
  assert (Hdu : arr du (len Q - 1) (fun j => val u (j + 1) - val u j)%R) by (eapply arr_of_arrD; [exact A1|]; cbv beta; intros; lia).
  assert (HdP : arr dP (len Q - 1) (fun j => minus3 (pt Q (j + 1)) (pt Q j))) by (eapply arr_of_arrD; [exact A2|]; cbv beta; intros; lia).
  clear A1 A2. apply wp_bind. apply wp_mkvec; [lia|]. intros t0 Ht0.
  apply wp_bind. apply (wp_fill 1 (len Q - 1) 0 (len Q) (fun _ => False) (tangent Q u)).
  { split; [exact (arr_len _ _ _ Ht0)|tauto]. } { lia. }
  { intros i v Hi _. wget Hdu. wget Hdu. wget HdP. wget HdP. replace (i - 1 + 1) with i by lia.
    assert (D1 := Hs i ltac:(lia)). assert (D2 := Hs (i - 1) ltac:(lia)). replace (i - 1 + 1) with i in D2 by lia.
    assert (S1 : IsAlmostEqualTo (val u (i + 1) - val u i)%R 0%R = false) by (apply small_false; unfold small; unfold Rabs; destruct (Rcase_abs _); lra).
    assert (S2 : IsAlmostEqualTo (val u i - val u (i - 1))%R 0%R = false) by (apply small_false; unfold small; unfold Rabs; destruct (Rcase_abs _); lra).
    rewrite S1, S2. cbn [andb]. rewrite Rdiv_ok by lra. cbn [bind]. rewrite !xyz_div_ok by lra. cbn [bind]. rewrite Z.add_0_r. f_equal.
    rewrite blend by lra. unfold tangent. zcase; try lia. unfold secant. f_equal; [f_equal; ring|]. clear. destruct (pt Q (i + 1)), (pt Q i), (pt Q (i - 1)). v3h. apply xyz_eq; ring. }
  intros t1 Ht1. wget Hdu. wget Ht1. cbv beta. change (0 + 1) with 1.
  assert (D0 := Hs 0 ltac:(lia)). change (0 + 1) with 1 in D0.
  rewrite (proj2 (gt0_iff _) D0). apply wp_bind. wget HdP. rewrite xyz_div_ok by lra. cbn [bind].
  apply (arrD_set _ _ _ (fun j => j < len Q - 1) _ _ _ _ Ht1).
  { lia. } { unfold tangent. zcase; try lia. rewrite scale_eq. reflexivity. } { lia. }
  intros t2 Ht2. wget Hdu. wget Ht2. cbv beta. replace (len Q - 1 - 1 + 1) with (len Q - 1) by lia.
  assert (D1 := Hs (len Q - 1 - 1) ltac:(lia)). replace (len Q - 1 - 1 + 1) with (len Q - 1) in D1 by lia.
  rewrite (proj2 (gt0_iff _) D1). wget HdP. replace (len Q - 1 - 1 + 1) with (len Q - 1) by lia. rewrite xyz_div_ok by lra. cbn [bind].
  apply (arrD_set _ _ _ (fun _ => True) _ _ _ _ Ht2).
  { lia. } { unfold tangent. zcase; try lia. rewrite scale_eq. unfold slope. replace (len Q - 2 + 1) with (len Q - 1) by lia. replace (len Q - 1 - 1) with (len Q - 2) by lia. reflexivity. } { lia. }
  intros t3 Ht3. eapply arr_of_arrD; [exact Ht3|]. cbv beta; auto.
Qed.

(* a repeated point *)
Lemma ComputeTangent_repeated a b : ~ small (dist3 b a) -> ComputeTangent [a; b; b] = NonFin.
Proof.
  intros Hs. assert (Hd : dist3 b a <> 0%R) by (intros E; apply Hs; rewrite E; apply small_0).
  assert (E : GetChordParameterization [a; b; b] = Ok [0; 1; 1]%R).
  { unfold GetChordParameterization, parameters. change (len [a; b; b]) with 3. cbn [Z.eqb Pos.eqb].
    rewrite (for_up_first 1 3) by lia. cbv beta iota. change (get [a; b; b] 1) with (Ok b). change (get [a; b; b] (1 - 1)) with (Ok a). cbn [bind].
    rewrite Distance_eq. cbn [bind]. rewrite (for_up_first (1 + 1) 3) by lia. cbv beta iota. change (get [a; b; b] (1 + 1)) with (Ok b). change (get [a; b; b] (1 + 1 - 1)) with (Ok b). cbn [bind]. rewrite Distance_eq, dist_self. cbn [bind]. rewrite (for_up_nil (1 + 1 + 1) 3) by lia. cbn [bind]. num.
    replace (0 + dist3 b a + 0)%R with (dist3 b a) by ring. rewrite (proj2 (small_false _) Hs). cbn [fst snd bind].
    lazy -[Rdiv_ dist3 Rplus IZR Rdiv]. rewrite Rdiv_ok by exact Hd. lazy -[Rdiv_ dist3 Rplus IZR Rdiv]. do 3 f_equal. field. exact Hd. }
  unfold ComputeTangent. change (len [a; b; b]) with 3. cbn [Z.eqb Pos.eqb]. rewrite E. cbn [bind]. num.
  lazy -[Num_R Rdiv_ IsAlmostEqualTo IsGreaterThan minus3 xyz_sub xyz_add xyz_scale xyz_div Rplus Rminus Rdiv IZR].
  assert (S0 : IsAlmostEqualTo (1 - 1)%R 0%R = true) by (apply small_iff; replace (1 - 1)%R with 0%R by ring; apply small_0).
  assert (S1 : IsAlmostEqualTo (1 - 0)%R 0%R = false) by (apply small_false; unfold small; rewrite Rminus_0_r, Rabs_R1; lra).
  num.
rewrite S0, S1. cbn [andb]. unfold xyz_div. num. rewrite Rdiv_zero by ring. reflexivity.
Qed.

(** * Forms for the property file *)
Lemma returns_wp {X} (m : res X) Q : wp m Q -> returns m Q.
Proof. intros H. destruct (wp_elim _ _ H) as (x & E & HQ). exists x. auto. Qed.

Lemma Chord_returns Q : 2 <= len Q -> returns (GetChordParameterization Q) (fun u =>
  len u = len Q /\ val u 0 = 0%R /\ val u (len Q - 1) = 1%R /\ sorted u /\
  (forall i, 0 <= i < len Q - 1 -> pt Q i <> pt Q (i + 1) -> (val u i < val u (i + 1))%R) /\
  (~ small (chord_length (pt Q) (len Q - 1)) -> forall i, 0 <= i < len Q -> val u i = (chord_length (pt Q) i / chord_length (pt Q) (len Q - 1))%R)).
Proof.
  intros H. apply returns_wp. eapply wp_mono; [apply Chord_ok; exact H|]. intros u (A1 & A2 & A3 & A4 & A5 & A6).
  split; [exact A1|]. split; [exact A2|]. split; [exact A3|]. split; [exact A4|]. split; [|exact A6]. intros i Hi Hd. apply A5; [exact Hi|]. apply dist_pos. congruence.
Qed.

Lemma Centripetal_returns Q : 2 <= len Q -> returns (GetCentripetalParameterization Q) (fun u =>
  len u = len Q /\ val u 0 = 0%R /\ val u (len Q - 1) = 1%R /\ sorted u /\
  (forall i, 0 <= i < len Q - 1 -> pt Q i <> pt Q (i + 1) -> (val u i < val u (i + 1))%R) /\
  (~ small (centripetal_length (pt Q) (len Q - 1)) -> forall i, 0 <= i < len Q -> val u i = (centripetal_length (pt Q) i / centripetal_length (pt Q) (len Q - 1))%R)).
Proof.
  intros H. apply returns_wp. eapply wp_mono; [apply Centripetal_ok; exact H|]. intros u (A1 & A2 & A3 & A4 & A5 & A6).
  split; [exact A1|]. split; [exact A2|]. split; [exact A3|]. split; [exact A4|]. split; [|exact A6]. intros i Hi Hd. apply A5; [exact Hi|]. apply sqrt_lt_R0, dist_pos. congruence.
Qed.

Lemma Lengths_ok Q : GetTotalChordLength Q = Ok (chord_length (pt Q) (len Q - 1)) /\ GetCentripetalLength Q = Ok (centripetal_length (pt Q) (len Q - 1)).
Proof.
  pose proof (arr_pt Q _ eq_refl) as HA. unfold GetTotalChordLength, GetCentripetalLength, chord_length, centripetal_length. num. replace (len Q - 1 + 1) with (len Q) by lia.
  destruct (Z.le_gt_cases 1 (len Q)) as [H|H].
  - split.
    + rewrite (for_up_acc_R 1 (len Q) (fun j => dist3 (pt Q j) (pt Q (j - 1)))); [f_equal; ring|lia|]. intros i x Hi. wget HA. wget HA. rewrite Distance_eq. reflexivity.
    + rewrite (for_up_acc_R 1 (len Q) (fun j => sqrt (dist3 (pt Q j) (pt Q (j - 1))))); [f_equal; ring|lia|]. intros i x Hi. wget HA. wget HA. rewrite Distance_eq. cbn [bind]. rewrite Rsqrt_ok by apply dist_nonneg. reflexivity.
  - rewrite !for_up_nil, !rsum_nil by lia. auto.
Qed.

Lemma Average_returns p us : 1 <= p -> p <= len us - 1 -> sorted us -> (0 <= val us 0)%R -> (val us (len us - 1) <= 1)%R ->
  returns (AverageKnotVector p us) (fun U => clamped_unit p (len us - 1) U /\
    (forall j, 1 <= j <= len us - 1 - p -> val U (p + j) = (rsum j (j + p) (val us) / IZR p)%R) /\
    ((forall i j, 0 <= i < j -> j < len us -> (val us i < val us j)%R) -> val us 0 = 0%R -> val us (len us - 1) = 1%R ->
       forall i, 0 < i < len us - 1 -> (val U i < val us i < val U (i + p + 1))%R)).
Proof.
  intros Hp Hn Hs H0 H1. apply returns_wp. eapply wp_mono; [apply Average_ok; assumption|]. intros U HU.
  split; [apply (Average_clamped p us U); assumption|]. split.
  - intros j Hj. rewrite (arr_val _ _ _ _ HU) by lia. cbv beta. zcase; try lia. f_equal. f_equal; lia.
  - intros Hi E0 E1. apply Average_interlaces; assumption.
Qed.

Lemma Average_degree_zero (us : list R) : 2 <= len us -> AverageKnotVector 0 us = NonFin.
Proof.
  intros H. unfold AverageKnotVector. num. unfold mkvec at 1. destruct (Z.ltb_spec (len us - 1 + 0 + 1 + 1) 0); [lia|]. cbn [bind].
  destruct (wp_elim (for_up (len us - 1 + 0 + 1 - 0) (len us - 1 + 0 + 1 + 1) (repeat 0%R (Z.to_nat (len us - 1 + 0 + 1 + 1))) (fun i v => upd v i 1%R)) (fun _ => True)) as (v & -> & _).
  { apply (wp_fill _ _ 0 (len us + 1) (fun _ => False) (fun _ => 1%R)); [|lia| |auto].
    - split; [rewrite len_repeat; lia|tauto].
    - intros i v' Hi _. rewrite Z.add_0_r. reflexivity. }
  cbn [bind]. destruct (Z.leb_spec (len us - 1) 0); [lia|]. rewrite for_up_nil by lia. cbn [bind]. rewrite Rdiv_zero by reflexivity. reflexivity.
Qed.

Lemma Fit_returns p n us : 0 <= p -> p <= n -> n - p + 1 <= len us -> sorted us -> (0 <= val us 0)%R -> (val us (len us - 1) <= 1)%R ->
  returns (ComputeKnotVector p (n + 1) us) (fun U => clamped_unit p n U /\
    forall j, 1 <= j <= n - p -> exists i a, (0 <= a < 1)%R /\ (IZR i + a = IZR j * (IZR (len us) / IZR (n - p + 1)))%R /\ 1 <= i < len us /\
      val U (p + j) = ((1 - a) * val us (i - 1) + a * val us i)%R).
Proof.
  intros Hp Hn Hk Hs H0 H1. apply returns_wp. eapply wp_mono; [apply ComputeKnotVector_ok; assumption|]. intros U HU.
  split; [apply (fit_clamped p n us U); assumption|]. intros j Hj. set (x := (IZR j * (IZR (len us) / IZR (n - p + 1)))%R).
  exists (Int_part x), (x - IZR (Int_part x))%R. pose proof (floor_spec x). split; [lra|]. split; [ring|]. split; [apply (fit_range p n us j); assumption|].
  rewrite (arr_val _ _ _ _ HU) by lia. unfold fit_knot. zcase; try lia. replace (p + j - p) with j by lia. reflexivity.
Qed.

Lemma Fit_covers p n us : 0 <= p -> p <= n -> n - p + 1 < len us ->
  (forall i j, 0 <= i < j -> j < len us -> (val us i < val us j)%R) -> val us 0 = 0%R -> val us (len us - 1) = 1%R ->
  returns (ComputeKnotVector p (n + 1) us) (fun U =>
    forall i, p <= i <= n -> exists k, 0 <= k < len us /\ (val U i <= val us k < val U (i + 1))%R).
Proof.
  intros Hp Hn Hk Hs H0 H1. apply returns_wp. eapply wp_mono; [apply ComputeKnotVector_ok; (assumption || lia)|]. intros U HU.
  apply (fit_covers p n us U); assumption.
Qed.

Lemma Mesh_returns r c Q : net r c Q -> 1 <= r -> 1 <= c ->
  returns (GetSurfaceMeshParameterization Q) (fun o => match o with
    | None => (forall l, 0 <= l < c -> small (chord_length (fun k => pt2 Q k l) (r - 1))) \/
              (forall k, 0 <= k < r -> small (chord_length (fun l => pt2 Q k l) (c - 1)))
    | Some (u, v) => averaged_parameters (fun l k => pt2 Q k l) c r u /\ averaged_parameters (fun k l => pt2 Q k l) r c v
    end).
Proof. intros HN Hr Hc. apply returns_wp. exact (Mesh_ok r c Q HN Hr Hc). Qed.

Lemma times3_inv k a : k <> 0%R -> times3 k (times3 (/ k) a) = a.
Proof. intros H. destruct a. v3h. apply xyz_eq; field; exact H. Qed.

Lemma Tangent_returns Q u : 3 <= len Q -> GetChordParameterization Q = Ok u ->
  (forall i, 0 <= i < len Q - 1 -> (1 / 999999 < val u (i + 1) - val u i)%R) ->
  returns (ComputeTangent Q) (fun T => len T = len Q /\
    (forall i, 0 < i < len Q - 1 -> times3 (val u (i + 1) - val u (i - 1)) (pt T i) = minus3 (pt Q (i + 1)) (pt Q (i - 1))) /\
    times3 (val u 1 - val u 0) (plus3 (pt T 0) (pt T 1)) = times3 2 (minus3 (pt Q 1) (pt Q 0)) /\
    times3 (val u (len Q - 1) - val u (len Q - 2)) (plus3 (pt T (len Q - 1)) (pt T (len Q - 2))) = times3 2 (minus3 (pt Q (len Q - 1)) (pt Q (len Q - 2)))).
Proof.
  intros HQ Eu Hs. assert (Lu : len u = len Q). { pose proof (Chord_ok Q ltac:(lia)) as W. rewrite Eu in W. apply W. }
  apply returns_wp. eapply wp_mono; [apply (ComputeTangent_ok Q u HQ Eu); unfold spaced; rewrite Lu; exact Hs|]. intros T HT.
  assert (K : forall k a b, k <> 0%R -> times3 k (plus3 (minus3 (times3 2 (times3 (/ k) a)) b) b) = times3 2 a).
  { intros k a b H. destruct a, b. v3h. apply xyz_eq; field; exact H. }
  split; [exact (arr_len _ _ _ HT)|]. split; [|split].
  - intros i Hi. rewrite (arr_pt_eq _ _ _ _ HT) by lia. unfold tangent. zcase; try lia. unfold secant. apply times3_inv.
    assert (H1 := Hs i ltac:(lia)). assert (H2 := Hs (i - 1) ltac:(lia)). replace (i - 1 + 1) with i in H2 by lia. lra.
  - rewrite (arr_pt_eq _ _ _ 0 HT), (arr_pt_eq _ _ _ 1 HT) by lia. assert (H0 := Hs 0 ltac:(lia)). change (0 + 1) with 1 in H0. unfold tangent. zcase; try lia. unfold slope. change (0 + 1) with 1. apply K. lra.
  - rewrite (arr_pt_eq _ _ _ (len Q - 1) HT), (arr_pt_eq _ _ _ (len Q - 2) HT) by lia. assert (H0 := Hs (len Q - 2) ltac:(lia)). replace (len Q - 2 + 1) with (len Q - 1) in H0 by lia.
    unfold tangent. zcase; try lia. unfold slope. replace (len Q - 2 + 1) with (len Q - 1) by lia. apply K. lra.
Qed.

Lemma Ray_returns a v x : v <> zero3 -> returns (PointToRay a v x) (fun q => exists t, q = line_at a v t /\
  dot3 (minus3 x q) v = 0%R /\ forall s, (dist3 x q <= dist3 x (line_at a v s))%R).
Proof. intros H. destruct (PointToRay_ok a v x H) as (t & E & H1 & H2). exists (line_at a v t). split; [exact E|]. exists t. auto. Qed.

Lemma Segment_returns a b x : ~ small (dot3 (minus3 b a) (minus3 b a)) ->
  returns (PointToLine a b x) (fun o => exists t, let q := line_at a (minus3 b a) t in
    dot3 (minus3 x q) (minus3 b a) = 0%R /\ (forall s, (dist3 x q <= dist3 x (line_at a (minus3 b a) s))%R) /\
    (o = Some q /\ (- tol t 0 <= t <= 1 + tol t 1)%R \/ o = None /\ (t < - tol t 0 \/ 1 + tol t 1 < t)%R)).
Proof.
  intros H. destruct (PointToLine_ok a b x H) as (t & H1 & H2 & E). eexists. split; [exact E|]. exists t. cbv zeta. split; [exact H1|]. split; [exact H2|].
  destruct (Rlt_dec t (- tol t 0)); [right; auto|]. destruct (Rlt_dec (1 + tol t 1) t); [right; auto|]. left. split; [reflexivity|lra].
Qed.

Lemma Stereo_returns p r : (gz p <> 2 * r)%R -> returns (Stereographic p r) (fun q =>
  gz q = 0%R /\ exists k, q = line_at (mkXYZ 0 0 (2 * r))%R (minus3 p (mkXYZ 0 0 (2 * r))%R) k).
Proof. intros H. destruct (Stereographic_ok p r H) as (k & E & H0). eexists. split; [exact E|]. split; [exact H0|]. exists k. reflexivity. Qed.
