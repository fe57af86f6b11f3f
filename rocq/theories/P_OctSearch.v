(* Searching the octree: what is offered to the result set, and what may be left out. *)
From Coq Require Import ZArith List Bool Reals Lra Lia Permutation.
From Verif Require Import Base Num Vec Tac Spec Spec3 Spec7 M_MathUtils M_XYZ M_Octree P_Loop P_MathUtils P_Geom P_Octree.
Import ListNotations.
Open Scope Z_scope.

(* coordinate k *)
Definition ax (k : Z) (p : XYZ R) : R := if k =? 0 then gx p else if k =? 1 then gy p else gz p.

Lemma axes k : 0 <= k < 3 -> k = 0 \/ k = 1 \/ k = 2.
Proof. lia. Qed.

Lemma oct8 i : 0 <= i < 8 -> i = 0 \/ i = 1 \/ i = 2 \/ i = 3 \/ i = 4 \/ i = 5 \/ i = 6 \/ i = 7.
Proof. lia. Qed.

Lemma ax_child c (e : R) i k : 0 <= i < 8 -> 0 <= k < 3 ->
  ax k (child_center c e i) = (ax k c + (if Z.testbit i k then 1 / 2 else - (1 / 2)) * e)%R.
Proof.
  intros Hi Hk. apply oct8 in Hi. apply axes in Hk.
  destruct Hk as [-> | [-> | ->]]; destruct Hi as [-> | [-> | [-> | [-> | [-> | [-> | [-> | ->]]]]]]];
    cbv [ax child_center Z.land Z.ltb Z.compare Z.eqb Z.testbit Pos.testbit Pos.land Pos.compare Pos.compare_cont Pos.eqb Pos.pred_N Pos.pred_double Pos.of_succ_nat Z.of_N gx gy gz]; num; try reflexivity.
Qed.

Lemma ax_morton (p c : XYZ R) k : 0 <= k < 3 -> Z.testbit (morton p c) k = IsGreaterThan (ax k p) (ax k c).
Proof.
  intros Hk. apply axes in Hk. unfold morton.
  destruct Hk as [-> | [-> | ->]]; cbn [ax Z.eqb Pos.eqb];
    destruct (IsGreaterThan (gx p) (gx c)), (IsGreaterThan (gy p) (gy c)), (IsGreaterThan (gz p) (gz c)); reflexivity.
Qed.

Lemma octants_differ i j : 0 <= i < 8 -> 0 <= j < 8 -> i <> j -> exists k, 0 <= k < 3 /\ Z.testbit i k <> Z.testbit j k.
Proof.
  intros Hi Hj Hne.
  destruct (bool_dec (Z.testbit i 0) (Z.testbit j 0)) as [E0|E0]; [|exists 0; split; [lia|exact E0]].
  destruct (bool_dec (Z.testbit i 1) (Z.testbit j 1)) as [E1|E1]; [|exists 1; split; [lia|exact E1]].
  destruct (bool_dec (Z.testbit i 2) (Z.testbit j 2)) as [E2|E2]; [|exists 2; split; [lia|exact E2]].
  exfalso. apply oct8 in Hi. apply oct8 in Hj.
  destruct Hi as [-> | [-> | [-> | [-> | [-> | [-> | [-> | ->]]]]]]]; destruct Hj as [-> | [-> | [-> | [-> | [-> | [-> | [-> | ->]]]]]]];
    cbn in *; congruence || lia.
Qed.

Lemma dist3_sq a b : (dist3 a b * dist3 a b = (gx a - gx b) * (gx a - gx b) + (gy a - gy b) * (gy a - gy b) + (gz a - gz b) * (gz a - gz b))%R.
Proof.
  unfold dist3, norm3. rewrite sqrt_sqrt; [unfold dot3, minus3; cbn [gx gy gz]; ring|apply dot_pos].
Qed.
Lemma dist3_pos a b : (0 <= dist3 a b)%R.
Proof. apply sqrt_pos. Qed.

Lemma ax_dist a b k : 0 <= k < 3 -> (Rabs (ax k a - ax k b) <= dist3 a b)%R.
Proof.
  intros Hk. pose proof (dist3_sq a b) as E. pose proof (dist3_pos a b) as P.
  rewrite <- (Rabs_pos_eq (dist3 a b)) by exact P. apply Rsqr_le_abs_0. unfold Rsqr. rewrite E.
  pose proof (Rle_0_sqr (gx a - gx b)) as X. pose proof (Rle_0_sqr (gy a - gy b)) as Y. pose proof (Rle_0_sqr (gz a - gz b)) as W. unfold Rsqr in *.
  apply axes in Hk. destruct Hk as [-> | [-> | ->]]; cbn [ax Z.eqb Pos.eqb]; lra.
Qed.

Lemma ax_dist_sum a b : (Rabs (gx a - gx b) + Rabs (gy a - gy b) + Rabs (gz a - gz b) <= 2 * dist3 a b)%R.
Proof.
  pose proof (dist3_sq a b) as E. pose proof (dist3_pos a b) as P.
  assert (Q : forall x, (Rabs x * Rabs x = x * x)%R) by (intros x; rewrite <- Rabs_mult; apply Rabs_pos_eq; nra).
  pose proof (Q (gx a - gx b)%R) as Qx. pose proof (Q (gy a - gy b)%R) as Qy. pose proof (Q (gz a - gz b)%R) as Qz.
  pose proof (Rabs_pos (gx a - gx b)) as Px. pose proof (Rabs_pos (gy a - gy b)) as Py. pose proof (Rabs_pos (gz a - gz b)) as Pz.
  set (x := Rabs (gx a - gx b)) in *. set (y := Rabs (gy a - gy b)) in *. set (z := Rabs (gz a - gz b)) in *. set (d := dist3 a b) in *.
  assert (E2 : (d * d = x * x + y * y + z * z)%R) by lra. clearbody x y z d. clear - E2 P Px Py Pz.
  apply Rsqr_incr_0; unfold Rsqr; try lra. pose proof (Rle_0_sqr (x - y)) as A1. pose proof (Rle_0_sqr (x - z)) as A2. pose proof (Rle_0_sqr (y - z)) as A3. unfold Rsqr in *. nra.
Qed.

Lemma near_mono tau delta w w' : near tau delta w' -> (w' <= w)%R -> near tau delta w.
Proof. intros [H0 H] Hw. split; [lra|]. nra. Qed.

Lemma near_lt tau delta w : (0 <= tau)%R -> (0 <= delta)%R -> near tau delta w -> (delta + 2 * tau < w)%R.
Proof. intros Ht Hd [H0 H]. apply Rsqr_incrst_0; unfold Rsqr; nra. Qed.

Lemma eps_val : eps = (1 / 1000000)%R.
Proof. reflexivity. Qed.

Lemma Overlaps_near q p c (e w tau : R) : (0 <= tau)%R -> (0 <= e)%R ->
  (forall k, 0 <= k < 3 -> (Rabs (ax k p - ax k c) <= e + tau)%R) -> near tau (dist3 q p) w -> Overlaps q w c e = true.
Proof.
  intros Ht He Hc Hn. pose proof (near_lt _ _ _ Ht (dist3_pos q p) Hn) as Hlt. pose proof (dist3_pos q p) as Hd.
  assert (Hmax : forall k, 0 <= k < 3 -> (Rabs (ax k q - ax k c) <= Rabs (ax k q - ax k p) + e + tau)%R).
  { intros k Hk. replace (ax k q - ax k c)%R with ((ax k q - ax k p) + (ax k p - ax k c))%R by ring. eapply Rle_trans; [apply Rabs_triang|].
    pose proof (Hc k Hk). lra. }
  unfold Overlaps. cbv zeta. unfold xyz_sub. cbn [gx gy gz]. num.
  assert (Hg : forall k, 0 <= k < 3 -> IsGreaterThan (Rabs (ax k q - ax k c)) (w + e)%R = false).
  { intros k Hk. destruct (IsGreaterThan _ _) eqn:E; [|reflexivity]. apply gt_iff in E. pose proof (Hmax k Hk). pose proof (ax_dist q p k Hk).
    assert (0 <= thr eps (Rabs (ax k q - ax k c)) (w + e))%R; [|lra]. unfold thr. rewrite eps_val. 
    pose proof (Rmax_l (Rabs (Rabs (ax k q - ax k c))) (Rabs (w + e))). pose proof (Rabs_pos (Rabs (ax k q - ax k c))). nra. }
  pose proof (Hg 0 ltac:(lia)) as G0. pose proof (Hg 1 ltac:(lia)) as G1. pose proof (Hg 2 ltac:(lia)) as G2.
  pose proof (Hmax 0 ltac:(lia)) as M0. pose proof (Hmax 1 ltac:(lia)) as M1. pose proof (Hmax 2 ltac:(lia)) as M2.
  cbn [ax Z.eqb Pos.eqb] in *. rewrite G0, G1, G2. cbn [orb]. destruct (2 <=? _); [reflexivity|]. unfold SqrLength. cbn [gx gy gz]. num.
  assert (Hnm : forall x, nmax (A := R) x 0%R = Rmax x 0).
  { intros x. unfold nmax. num. destruct (Rltb_spec x 0); [rewrite Rmax_right; lra|rewrite Rmax_left; lra]. }
  rewrite !Hnm. set (dx := Rabs (gx q - gx p)) in *. set (dy := Rabs (gy q - gy p)) in *. set (dz := Rabs (gz q - gz p)) in *.
  set (ux := Rmax (Rabs (gx q - gx c) - e) 0). set (uy := Rmax (Rabs (gy q - gy c) - e) 0). set (uz := Rmax (Rabs (gz q - gz c) - e) 0).
  assert (Hux : (0 <= ux <= dx + tau)%R) by (pose proof (Rabs_pos (gx q - gx p)); split; [apply Rmax_r|apply Rmax_lub; subst dx; lra]).
  assert (Huy : (0 <= uy <= dy + tau)%R) by (pose proof (Rabs_pos (gy q - gy p)); split; [apply Rmax_r|apply Rmax_lub; subst dy; lra]).
  assert (Huz : (0 <= uz <= dz + tau)%R) by (pose proof (Rabs_pos (gz q - gz p)); split; [apply Rmax_r|apply Rmax_lub; subst dz; lra]).
  pose proof (ax_dist_sum q p) as Hs. pose proof (dist3_sq q p) as E2. fold dx dy dz in Hs.
  assert (Q : forall x, (Rabs x * Rabs x = x * x)%R) by (intros x; rewrite <- Rabs_mult; apply Rabs_pos_eq; nra).
  pose proof (Q (gx q - gx p)%R) as Qx. pose proof (Q (gy q - gy p)%R) as Qy. pose proof (Q (gz q - gz p)%R) as Qz. fold dx in Qx. fold dy in Qy. fold dz in Qz.
  assert (Hsq : (ux * ux + uy * uy + uz * uz <= (dist3 q p + 2 * tau) * (dist3 q p + 2 * tau))%R).
  { set (d := dist3 q p) in *.
    assert (ux * ux <= (dx + tau) * (dx + tau))%R by nra. assert (uy * uy <= (dy + tau) * (dy + tau))%R by nra. assert (uz * uz <= (dz + tau) * (dz + tau))%R by nra.
    assert (Hdd : (d * d = dx * dx + dy * dy + dz * dz)%R) by lra.
    assert (tau * (dx + dy + dz) <= tau * (2 * d))%R by (apply Rmult_le_compat_l; lra). nra. }
  destruct Hn as [Hw Hn]. apply lt_iff. unfold thr. rewrite eps_val. rewrite Rmax_right.
  - rewrite (Rabs_pos_eq (w * w)) by nra. lra.
  - rewrite !Rabs_pos_eq by nra. nra.
Qed.

Lemma Inside_box q (w : R) c (e : R) k : Inside q w c e = true -> 0 <= k < 3 -> (Rabs (ax k q - ax k c) + w < e)%R.
Proof.
  unfold Inside. cbv zeta. unfold xyz_sub. cbn [gx gy gz]. num. rewrite !andb_true_iff, !lt_iff. intros [[H0 H1] H2] Hk.
  assert (P : forall a b, (0 <= thr eps a b)%R) by (intros a b; unfold thr; rewrite eps_val; pose proof (Rmax_l (Rabs a) (Rabs b)); pose proof (Rabs_pos a); nra).
  pose proof (P (Rabs (gx q - gx c) + w)%R e). pose proof (P (Rabs (gy q - gy c) + w)%R e). pose proof (P (Rabs (gz q - gz c) + w)%R e).
  apply axes in Hk. destruct Hk as [-> | [-> | ->]]; cbn [ax Z.eqb Pos.eqb]; lra.
Qed.

Section Search.
Context {St : Type}.
Variable worst : St -> R.
Variable add : St -> R -> Z -> res St.
Variable db : list (XYZ R).
Variable q : XYZ R.
Variable Inv : St -> Prop.
Definition delta (j : Z) : R := dist3 q (dpt db j).
Hypothesis add_ok : forall s j, Inv s -> 0 <= j < len db ->
  exists s', add s (delta j) j = Ok s' /\ Inv s' /\ (worst s' <= worst s)%R.

(* offering the points L in order takes s to s' *)
Fixpoint runs (s : St) (L : list Z) (s' : St) : Prop :=
  match L with
  | [] => s' = s
  | j :: L => exists s1, add s (delta j) j = Ok s1 /\ runs s1 L s'
  end.

Lemma runs_app L1 : forall s s1 L2 s2, runs s L1 s1 -> runs s1 L2 s2 -> runs s (L1 ++ L2) s2.
Proof.
  induction L1 as [|j L1 IH]; intros s s1 L2 s2 H1 H2; cbn [runs app] in *; [congruence|].
  destruct H1 as (s0 & E & H1). exists s0. split; [exact E|]. eapply IH; eassumption.
Qed.

Lemma runs_Inv L : forall s s', Inv s -> (forall j, In j L -> 0 <= j < len db) -> runs s L s' -> Inv s' /\ (worst s' <= worst s)%R.
Proof.
  induction L as [|j L IH]; intros s s' Hs HL H; cbn [runs] in H; [subst; split; [exact Hs|lra]|].
  destruct H as (s1 & E & H). destruct (add_ok s j Hs) as (s2 & E2 & Hs2 & Hw); [apply HL; left; reflexivity|].
  rewrite E in E2. injection E2 as <-. destruct (IH s1 s' Hs2) as [H1 H2]; [intros; apply HL; right; assumption|exact H|]. split; [exact H1|lra].
Qed.

Lemma offer_ok idx s : valid_idx db idx -> Inv s -> wp (offer add db q idx s) (fun s' => runs s idx s').
Proof.
  intros Hv Hs. unfold offer. assert (Hl : 0 <= len idx) by (unfold len; lia).
  apply wp_for_up with (P := fun k s' => runs s (firstn (Z.to_nat k) idx) s').
  - lia.
  - reflexivity.
  - intros k s' Hk Hr. rewrite (get_at 0) by lia. cbn [bind]. set (j := at_ 0 idx k).
    assert (Hj : 0 <= j < len db). { apply Hv. unfold j, at_. apply nth_In. unfold len in Hk. lia. }
    rewrite (get_at xyz0) by lia. cbn [bind]. fold (dpt db j). rewrite Distance_eq. cbn [bind]. fold (delta j).
    assert (HI : Inv s').
    { refine (proj1 (runs_Inv _ _ _ Hs _ Hr)). intros a Ha. apply Hv. rewrite <- (firstn_skipn (Z.to_nat k) idx). apply in_or_app. left. exact Ha. }
    destruct (add_ok s' j HI Hj) as (s2 & E & _ & _). rewrite E. apply wp_ok. rewrite (firstn_snoc 0) by lia. fold j.
    eapply runs_app; [exact Hr|]. exists s2. split; [exact E|reflexivity].
  - intros s' Hr. rewrite firstn_all2 in Hr by (unfold len; lia). exact Hr.
Qed.

Variables D tau : R.
Hypothesis HD : (0 <= D)%R.
Hypothesis Htau : tau = (1 / 1000000 * (1 + D))%R.

(* the octant and its points are where they should be, up to tau *)
Definition geom (c : XYZ R) (e : R) (idx : list Z) : Prop :=
  (0 <= e)%R /\ (forall k, 0 <= k < 3 -> (Rabs (ax k c) + e <= D)%R) /\
  forall j k, In j idx -> 0 <= k < 3 -> (Rabs (ax k (dpt db j)) <= D /\ Rabs (ax k (dpt db j) - ax k c) <= e + tau)%R.

Definition boxed (w : R) (c : XYZ R) (e : R) : Prop :=
  forall k, 0 <= k < 3 -> (ax k c - e < ax k q - w /\ ax k q + w < ax k c + e)%R.

Lemma tau_pos : (0 <= tau)%R.
Proof. rewrite Htau. lra. Qed.

Lemma thr_tau a b : (Rabs a <= D)%R -> (Rabs b <= D)%R -> (thr eps a b <= tau)%R.
Proof. intros Ha Hb. rewrite Htau. unfold thr. rewrite eps_val. pose proof (Rmax_lub _ _ _ Ha Hb). lra. Qed.
Lemma thr_pos a b : (0 <= thr eps a b)%R.
Proof. unfold thr. rewrite eps_val. pose proof (Rmax_l (Rabs a) (Rabs b)). pose proof (Rabs_pos a). lra. Qed.

(* where the octant of a point lies *)
Lemma morton_side c e idx j k : geom c e idx -> In j idx -> 0 <= k < 3 ->
  if Z.testbit (morton (dpt db j) c) k then (ax k c <= ax k (dpt db j))%R else (ax k (dpt db j) <= ax k c + tau)%R.
Proof.
  intros (He & Hc & Hp) Hj Hk. rewrite ax_morton by exact Hk. destruct (Hp j k Hj Hk) as [Hb _]. specialize (Hc k Hk).
  destruct (IsGreaterThan _ _) eqn:E.
  - apply gt_iff in E. pose proof (thr_pos (ax k (dpt db j)) (ax k c)). lra.
  - assert (E2 : ~ (thr eps (ax k (dpt db j)) (ax k c) < ax k (dpt db j) - ax k c)%R) by (rewrite <- gt_iff, E; discriminate).
    pose proof (thr_tau _ (ax k c) Hb ltac:(lra)). lra.
Qed.

Lemma geom_child c e idx i : 0 <= i < 8 -> geom c e idx -> geom (child_center c e i) (nmul (nlit 1 2) e) (inb db c i idx).
Proof.
  intros Hi G. pose proof G as (He & Hc & Hp). split; [num; lra|]. split.
  - intros k Hk. rewrite ax_child by assumption. specialize (Hc k Hk). num.
    assert (Rabs ((if Z.testbit i k then 1 / 2 else - (1 / 2)) * e) <= 1 / 2 * e)%R by (apply Rabs_le; destruct (Z.testbit i k); lra).
    pose proof (Rabs_triang (ax k c) ((if Z.testbit i k then 1 / 2 else - (1 / 2)) * e)). lra.
  - intros j k Hj Hk. apply filter_In in Hj as [Hj Em]. apply Z.eqb_eq in Em. destruct (Hp j k Hj Hk) as [Hb Ho]. split; [exact Hb|].
    pose proof (morton_side c e idx j k G Hj Hk) as Hs. rewrite Em in Hs. rewrite ax_child by assumption. num. pose proof tau_pos.
    assert (Ho2 : (- (e + tau) <= ax k (dpt db j) - ax k c <= e + tau)%R) by (split; [pose proof (Rle_abs (- (ax k (dpt db j) - ax k c))) as X; rewrite Rabs_Ropp in X; lra|pose proof (Rle_abs (ax k (dpt db j) - ax k c)); lra]).
    apply Rabs_le. destruct (Z.testbit i k); lra.
Qed.

Lemma boxed_child c e i w : 0 <= i < 8 -> (0 <= e)%R -> boxed w (child_center c e i) (nmul (nlit 1 2) e) -> boxed w c e.
Proof. intros Hi He H k Hk. specialize (H k Hk). rewrite ax_child in H by assumption. num. destruct (Z.testbit i k); lra. Qed.

(* when the ball fits in one octant, the others hold no near points *)
Lemma boxed_excludes c e idx i j w : 0 <= i < 8 -> geom c e idx -> boxed w (child_center c e i) (nmul (nlit 1 2) e) ->
  In j idx -> morton (dpt db j) c <> i -> ~ near tau (delta j) w.
Proof.
  intros Hi G B Hj Hne Hn. destruct (octants_differ (morton (dpt db j) c) i (morton_range _ _) Hi Hne) as (k & Hk & Ht).
  pose proof (morton_side c e idx j k G Hj Hk) as Hs. specialize (B k Hk). rewrite ax_child in B by assumption.
  pose proof (near_lt _ _ _ tau_pos (dist3_pos _ _) Hn) as Hlt. pose proof (ax_dist q (dpt db j) k Hk) as Hd. fold (delta j) in *. pose proof tau_pos.
  pose proof (Rle_abs (ax k q - ax k (dpt db j))). pose proof (Rle_abs (- (ax k q - ax k (dpt db j)))) as X. rewrite Rabs_Ropp in X. num.
  unfold delta in *. destruct (Z.testbit i k), (Z.testbit (morton (dpt db j) c) k); try congruence; lra.
Qed.

(* what a search of a tree does to the result set *)
Definition found (c : XYZ R) (e : R) (idx : list Z) (s : St) (r : bool * St) : Prop :=
  exists L, runs s L (snd r) /\ NoDup L /\ incl L idx /\ Inv (snd r) /\ (worst (snd r) <= worst s)%R /\
    (geom c e idx -> (forall j, In j idx -> ~ In j L -> ~ near tau (delta j) (worst (snd r))) /\
                     (fst r = true -> boxed (worst (snd r)) c e)).

Lemma Inside_boxed w c e : Inside q w c e = true -> boxed w c e.
Proof.
  intros H k Hk. pose proof (Inside_box q w c e k H Hk). pose proof (Rle_abs (ax k q - ax k c)). pose proof (Rle_abs (- (ax k q - ax k c))) as X.
  rewrite Rabs_Ropp in X. lra.
Qed.

Lemma found_all c e idx s b s' : valid_idx db idx -> NoDup idx -> Inv s -> runs s idx s' -> (b = true -> boxed (worst s') c e) -> found c e idx s (b, s').
Proof.
  intros Hv Hn Hs Hr Hb. destruct (runs_Inv _ _ _ Hs Hv Hr) as [H1 H2]. exists idx. cbn [fst snd].
  split; [exact Hr|]. split; [exact Hn|]. split; [apply incl_refl|]. split; [exact H1|]. split; [exact H2|]. intros _. split; [tauto|exact Hb].
Qed.

(* octants searched so far *)
Definition partly (c : XYZ R) (e : R) (idx : list Z) (seen : Z -> Prop) (s s' : St) : Prop :=
  exists L, runs s L s' /\ NoDup L /\ incl L idx /\ (forall j, In j L -> seen (morton (dpt db j) c)) /\ Inv s' /\ (worst s' <= worst s)%R /\
    (geom c e idx -> forall j, In j idx -> seen (morton (dpt db j) c) -> ~ In j L -> ~ near tau (delta j) (worst s')).

Lemma partly_step c e idx seen i s s1 r : 0 <= i < 8 -> ~ seen i -> partly c e idx seen s s1 ->
  found (child_center c e i) (nmul (nlit 1 2) e) (inb db c i idx) s1 r ->
  partly c e idx (fun x => seen x \/ x = i) s (snd r) /\
  (fst r = true -> found c e idx s (true, snd r)).
Proof.
  intros Hi Hs (L1 & R1 & N1 & I1 & S1 & V1 & W1 & G1) (L2 & R2 & N2 & I2 & V2 & W2 & G2).
  assert (HI2 : forall j, In j L2 -> In j idx /\ morton (dpt db j) c = i).
  { intros j Hj. apply I2, filter_In in Hj as [Hj E]. apply Z.eqb_eq in E. split; assumption. }
  assert (Hruns : runs s (L1 ++ L2) (snd r)) by (eapply runs_app; eassumption).
  assert (Hnd : NoDup (L1 ++ L2)).
  { clear - N1 N2 S1 HI2 Hs. induction N1 as [|a L1 Ha N1 IH]; [exact N2|]. cbn [app]. constructor.
    - intros H. apply in_app_or in H as [H|H]; [tauto|]. apply HI2 in H as [_ H]. apply Hs. rewrite <- H. apply S1. left. reflexivity.
    - apply IH. intros j Hj. apply S1. right. exact Hj. }
  assert (Hincl : incl (L1 ++ L2) idx).
  { intros j Hj. apply in_app_or in Hj as [Hj|Hj]; [apply I1, Hj|apply HI2, Hj]. }
  assert (Hmiss : geom c e idx -> forall j, In j idx -> (seen (morton (dpt db j) c) \/ morton (dpt db j) c = i) -> ~ In j (L1 ++ L2) -> ~ near tau (delta j) (worst (snd r))).
  { intros G j Hj [Hseen|E] Hnin Hn.
    - apply (G1 G j Hj Hseen); [intros H; apply Hnin, in_or_app; left; exact H|]. eapply near_mono; eassumption.
    - destruct (G2 (geom_child c e idx i Hi G)) as [G3 _]. apply (G3 j); [apply filter_In; split; [exact Hj|apply Z.eqb_eq, E]| |exact Hn].
      intros H. apply Hnin, in_or_app. right. exact H. }
  split.
  - exists (L1 ++ L2). split; [exact Hruns|]. split; [exact Hnd|]. split; [exact Hincl|]. split.
    + intros j Hj. apply in_app_or in Hj as [Hj|Hj]; [left; apply S1, Hj|right; apply HI2, Hj].
    + split; [exact V2|]. split; [lra|exact Hmiss].
  - intros Hb. exists (L1 ++ L2). cbn [fst snd]. split; [exact Hruns|]. split; [exact Hnd|]. split; [exact Hincl|]. split; [exact V2|]. split; [lra|].
    intros G. destruct (G2 (geom_child c e idx i Hi G)) as [_ G3]. specialize (G3 Hb). split.
    + intros j Hj Hnin Hn. destruct (Z.eq_dec (morton (dpt db j) c) i) as [E|E].
      * exact (Hmiss G j Hj (or_intror E) Hnin Hn).
      * exact (boxed_excludes c e idx i j _ Hi G G3 Hj E Hn).
    + intros _. eapply boxed_child; [exact Hi|apply G|exact G3].
Qed.

Lemma partly_skip c e idx seen i s s1 : 0 <= i < 8 -> partly c e idx seen s s1 ->
  (inb db c i idx = [] \/ Overlaps q (worst s1) (child_center c e i) (nmul (nlit 1 2) e) = false) ->
  partly c e idx (fun x => seen x \/ x = i) s s1.
Proof.
  intros Hi (L & R1 & N1 & I1 & S1 & V1 & W1 & G1) Ho. exists L. split; [exact R1|]. split; [exact N1|]. split; [exact I1|]. split.
  { intros j Hj. left. apply S1, Hj. }
  split; [exact V1|]. split; [exact W1|]. intros G j Hj [Hs|E] Hnin Hn; [exact (G1 G j Hj Hs Hnin Hn)|].
  assert (Hj2 : In j (inb db c i idx)) by (apply filter_In; split; [exact Hj|apply Z.eqb_eq, E]).
  destruct Ho as [Ho|Ho]; [rewrite Ho in Hj2; exact Hj2|].
  destruct (geom_child c e idx i Hi G) as (He2 & Hc2 & Hp2).
  rewrite (Overlaps_near q (dpt db j) _ _ _ tau tau_pos He2) in Ho; [discriminate| |exact Hn].
  intros k Hk. apply (Hp2 j k Hj2 Hk).
Qed.

Lemma partly_ext c e idx (seen seen' : Z -> Prop) s s1 : (forall x, 0 <= x < 8 -> (seen x <-> seen' x)) -> partly c e idx seen s s1 -> partly c e idx seen' s s1.
Proof.
  intros E (L & R1 & N1 & I1 & S1 & V1 & W1 & G1). exists L. repeat (split; [assumption|]). split.
  { intros j Hj. apply E; [apply morton_range|]. apply S1, Hj. }
  split; [exact V1|]. split; [exact W1|]. intros G j Hj Hs. apply (G1 G j Hj). apply E; [apply morton_range|exact Hs].
Qed.

Lemma partly_none c e idx s : Inv s -> partly c e idx (fun _ => False) s s.
Proof.
  intros Hs. exists []. split; [reflexivity|]. split; [constructor|]. split; [intros x []|]. split; [intros x []|]. split; [exact Hs|]. split; [lra|]. tauto.
Qed.

Lemma partly_all c e idx b s s1 : partly c e idx (fun _ => True) s s1 -> (b = true -> boxed (worst s1) c e) -> found c e idx s (b, s1).
Proof.
  intros (L & R1 & N1 & I1 & S1 & V1 & W1 & G1) Hb. exists L. cbn [fst snd]. repeat (split; [assumption|]). intros G. split; [|exact Hb].
  intros j Hj. apply (G1 G j Hj I).
Qed.

Lemma Built_null c e idx : Built db c e idx ONull -> idx = [].
Proof. intros H. inversion H. reflexivity. Qed.
Lemma Built_node c e idx cc ce pi lf ch : Built db c e idx (ONode cc ce pi lf ch) -> cc = c /\ ce = e /\ pi = idx.
Proof. intros H. inversion H; auto. Qed.

Lemma get_map {X Y} (f : X -> Y) l i x : get l i = Ok x -> get (map f l) i = Ok (f x).
Proof. unfold get. destruct (i <? 0); [discriminate|]. rewrite nth_error_map. destruct (nth_error l (Z.to_nat i)); [|discriminate]. intros H. injection H as ->. reflexivity. Qed.

Lemma inb_NoDup c i idx : NoDup idx -> NoDup (inb db c i idx).
Proof. apply NoDup_filter. Qed.

Lemma search_ok c e idx t : Built db c e idx t -> valid_idx db idx -> NoDup idx -> forall s, Inv s ->
  wp (search worst add db q t s) (found c e idx s).
Proof.
  induction 1 as [c e|c e idx Hne|c e idx ch Hne Hl Hc IH]; intros Hv Hn s Hs.
  - cbn [search]. apply wp_ok. apply (found_all c e [] s false s Hv Hn Hs); [reflexivity|discriminate].
  - cbn [search andb]. destruct (Z.eqb_spec (len idx) 0) as [E|E]; [apply len_nil_iff in E; tauto|]. cbn [negb].
    apply wp_bind. eapply wp_mono; [apply (offer_ok idx s Hv Hs)|]. intros s' Hr. apply wp_ok.
    apply found_all; [assumption..|apply Inside_boxed].
  - cbn [search andb]. set (m := morton q c). pose proof (morton_range q c) as Hm. fold m in Hm.
    assert (Hget : forall i, 0 <= i < 8 -> get ch i = Ok (at_ ONull ch i)) by (intros; apply get_at; lia).
    rewrite (get_map _ _ _ _ (Hget m Hm)). cbn [bind]. apply wp_bind.
    assert (IH' : forall i s, 0 <= i < 8 -> Inv s -> wp (search worst add db q (at_ ONull ch i) s) (found (child_center c e i) (nmul (nlit 1 2) e) (inb db c i idx) s)).
    { intros i s0 Hi Hs0. apply IH; [exact Hi|apply inb_valid, Hv|apply inb_NoDup, Hn|exact Hs0]. }
    eapply wp_mono; [apply (IH' m s Hm Hs)|]. intros [b1 s1] H1.
    destruct (partly_step c e idx _ m s s (b1, s1) Hm (fun x => x) (partly_none c e idx s Hs) H1) as [P1 P2]. cbn [fst snd] in P1, P2.
    destruct b1; [apply wp_ok, P2; reflexivity|]. apply wp_bind.
    apply wp_for_upc with (P := fun k s' => partly c e idx (fun x => x = m \/ x < k) s s') (F := fun s' => found c e idx s (true, s')).
    + eapply partly_ext; [|exact P1]. intros x Hx. cbv beta. lia.
    + intros k s2 Hk P. destruct (Z.eqb_spec k m) as [->|Hkm].
      * apply wp_ok. eapply partly_ext; [|exact P]. intros x Hx. cbv beta. lia.
      * rewrite (Hget k Hk). cbn [bind].
        assert (Hext : forall s3, partly c e idx (fun x => (x = m \/ x < k) \/ x = k) s s3 -> partly c e idx (fun x => x = m \/ x < k + 1) s s3).
        { intros s3. apply partly_ext. intros x Hx. lia. }
        pose proof (Hc k Hk) as HB. destruct (at_ ONull ch k) as [|cc ce pi lf chk] eqn:Ek.
        { apply wp_ok, Hext. apply partly_skip; [exact Hk|exact P|]. left. apply (Built_null _ _ _ HB). }
        destruct (Built_node _ _ _ _ _ _ _ _ HB) as (-> & -> & ->).
        destruct (Overlaps _ _ _ _) eqn:Eo.
        -- rewrite (get_map _ _ _ _ (Hget k Hk)). cbn [bind]. apply wp_bind. assert (Hs2 : Inv s2) by (destruct P as (? & ? & ? & ? & ? & ? & ?); assumption).
           eapply wp_mono; [apply (IH' k s2 Hk Hs2)|]. intros [b3 s3] H3.
           destruct (partly_step c e idx (fun x => x = m \/ x < k) k s s2 (b3, s3) Hk ltac:(cbv beta; lia) P H3) as [Q1 Q2]. cbn [fst snd] in Q1, Q2.
           destruct b3; apply wp_ok; [apply Q2; reflexivity|apply Hext, Q1].
        -- apply wp_ok, Hext. apply partly_skip; [exact Hk|exact P|right; exact Eo].
    + intros s2 P. apply wp_ok. apply partly_all; [|apply Inside_boxed]. eapply partly_ext; [|exact P]. intros x Hx. cbv beta. split; [intros; exact I|intros _; lia].
    + intros s2 F. apply wp_ok, F.
Qed.

Lemma search_fast_ok c e idx t : Built db c e idx t -> valid_idx db idx -> NoDup idx -> forall s, Inv s ->
  wp (search_fast worst add db q t s) (found c e idx s).
Proof.
  induction 1 as [c e|c e idx Hne|c e idx ch Hne Hl Hc IH]; intros Hv Hn s Hs.
  - cbn [search_fast]. apply wp_ok. apply (found_all c e [] s false s Hv Hn Hs); [reflexivity|discriminate].
  - cbn [search_fast andb]. unfold Contains. rewrite Length_eq. cbn [bind].
    destruct (nltb _ _).
    + apply wp_bind. eapply wp_mono; [apply (offer_ok idx s Hv Hs)|]. intros s' Hr. apply wp_ok. apply found_all; [assumption..|discriminate].
    + destruct (Z.eqb_spec (len idx) 0) as [E|E]; [apply len_nil_iff in E; tauto|]. cbn [negb].
      apply wp_bind. eapply wp_mono; [apply (offer_ok idx s Hv Hs)|]. intros s' Hr. apply wp_ok.
      apply found_all; [assumption..|apply Inside_boxed].
  - cbn [search_fast andb]. unfold Contains. rewrite Length_eq. cbn [bind]. destruct (nltb _ _).
    { apply wp_bind. eapply wp_mono; [apply (offer_ok idx s Hv Hs)|]. intros s' Hr. apply wp_ok. apply found_all; [assumption..|discriminate]. }
    rewrite Hl.
    assert (Hget : forall i, 0 <= i < 8 -> get ch i = Ok (at_ ONull ch i)) by (intros; apply get_at; lia).
    assert (IH' : forall i s, 0 <= i < 8 -> Inv s -> wp (search_fast worst add db q (at_ ONull ch i) s) (found (child_center c e i) (nmul (nlit 1 2) e) (inb db c i idx) s)).
    { intros i s0 Hi Hs0. apply IH; [exact Hi|apply inb_valid, Hv|apply inb_NoDup, Hn|exact Hs0]. }
    apply wp_bind.
    apply wp_for_upc with (P := fun k s' => partly c e idx (fun x => x < k) s s') (F := fun s' => found c e idx s (true, s')).
    + eapply partly_ext; [|exact (partly_none c e idx s Hs)]. intros x Hx. cbv beta. split; [intros []|lia].
    + intros k s2 Hk P. rewrite (Hget k Hk). cbn [bind].
      assert (Hext : forall s3, partly c e idx (fun x => x < k \/ x = k) s s3 -> partly c e idx (fun x => x < k + 1) s s3).
      { intros s3. apply partly_ext. intros x Hx. lia. }
      pose proof (Hc k Hk) as HB. destruct (at_ ONull ch k) as [|cc ce pi lf chk] eqn:Ek.
      { apply wp_ok, Hext. apply partly_skip; [exact Hk|exact P|]. left. apply (Built_null _ _ _ HB). }
      destruct (Built_node _ _ _ _ _ _ _ _ HB) as (-> & -> & ->).
      destruct (Overlaps _ _ _ _) eqn:Eo.
      * rewrite (get_map _ _ _ _ (Hget k Hk)). cbn [bind]. apply wp_bind. assert (Hs2 : Inv s2) by (destruct P as (? & ? & ? & ? & ? & ? & ?); assumption).
        eapply wp_mono; [apply (IH' k s2 Hk Hs2)|]. intros [b3 s3] H3.
        destruct (partly_step c e idx (fun x => x < k) k s s2 (b3, s3) Hk ltac:(cbv beta; lia) P H3) as [Q1 Q2]. cbn [fst snd] in Q1, Q2.
        destruct b3; apply wp_ok; [apply Q2; reflexivity|apply Hext, Q1].
      * apply wp_ok, Hext. apply partly_skip; [exact Hk|exact P|right; exact Eo].
    + intros s2 P. apply wp_ok. apply partly_all; [|apply Inside_boxed]. eapply partly_ext; [|exact P]. intros x Hx. cbv beta. split; [intros; exact I|intros _; lia].
    + intros s2 F. apply wp_ok, F.
Qed.
End Search.
