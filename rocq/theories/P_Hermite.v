(* The cubic Hermite curve. *)
From Coq Require Import ZArith List Bool Reals Lra Lia Permutation.
From Verif Require Import Base Num Vec Tac Spec Spec2 Spec3 Spec4 Spec5 Spec10 M_MathUtils M_Polynomials M_XYZ M_Bspline M_NurbsCurve M_Geom M_Interp M_Knots M_Shape
  P_MathUtils P_Span P_Cox P_Basis P_Deriv P_Vec P_XYZ P_VSum P_Curve P_Bspline P_Matrix P_Loop P_Geom P_Nurbs P_Blossom P_Insert P_Interp P_Interp2 P_Shape2.
Import ListNotations.
Open Scope Z_scope.

Section Double.
Context {T : Type} {V : Vec R T} {L : VecL T}.
(* a cubic at a double knot, between two control points *)
Lemma double_value (K : Z -> R) k m u (d : Z -> T) : good K k 3 -> k - 3 <= m -> m + 1 <= k -> K (m + 2) = u -> K (m + 3) = u -> (K (m + 1)%Z < K (m + 4)%Z)%R ->
  let al := ((u - K (m + 1)%Z) / (K (m + 4)%Z - K (m + 1)%Z))%R in
  comb (k - 3) (k + 1) (fun i => NS K k 3 i u) d = vadd (vscale (1 - al)%R (d m)) (vscale al (d (m + 1))).
Proof.
  intros Hg Hm1 Hm2 E2 E3 Hlt al. rewrite (bl_diag K k 3 d u) by (lia || exact Hg). destruct (bl_polar K k 3 d ltac:(lia) Hg) as [PS PA].
  change (repeat u (Z.to_nat 3)) with [u; u; u].
  assert (Eu : u = ((1 - al) * K (m + 1)%Z + al * K (m + 4)%Z)%R) by (unfold al; field; lra).
  transitivity (bl K 3 d (((1 - al) * K (m + 1)%Z + al * K (m + 4)%Z)%R :: [u; u]) k); [rewrite <- Eu; reflexivity|].
  rewrite (PA (1 - al)%R al) by (try ring; reflexivity).
  assert (W1 : win K m 3 = [K (m + 1)%Z; u; u]).
  { rewrite (win_cons K m) by lia. rewrite (win_cons K (m + 1)) by lia. rewrite (win_cons K (m + 1 + 1)) by lia. rewrite win_nil by lia.
    replace (m + 1 + 1) with (m + 2) by lia. replace (m + 2 + 1) with (m + 3) by lia. rewrite E2, E3. reflexivity. }
  assert (W2 : win K (m + 1) 3 = [u; u; K (m + 4)%Z]).
  { rewrite (win_cons K (m + 1)) by lia. rewrite (win_cons K (m + 1 + 1)) by lia. rewrite (win_cons K (m + 1 + 1 + 1)) by lia. rewrite win_nil by lia.
    replace (m + 1 + 1) with (m + 2) by lia. replace (m + 2 + 1) with (m + 3) by lia. replace (m + 3 + 1) with (m + 4) by lia. rewrite E2, E3. reflexivity. }
  f_equal; f_equal.
  - rewrite <- W1. apply bl_knots; [lia|exact Hg|lia].
  - rewrite (PS _ [u; u; K (m + 4)%Z]); [|apply (Permutation_app_comm [K (m + 4)%Z] [u; u])|reflexivity]. rewrite <- W2. apply bl_knots; [lia|exact Hg|lia].
Qed.

Lemma double_slope (K : Z -> R) k m u (d : Z -> T) : good K k 3 -> k - 3 <= m -> m + 1 <= k -> K (m + 2) = u -> K (m + 3) = u ->
  dcurve2 k 3 K d 1 u = vscale (3 / (K (m + 4)%Z - K (m + 1)%Z))%R (vsub (d (m + 1)) (d m)).
Proof.
  intros Hg Hm1 Hm2 E2 E3. unfold dcurve2.
  transitivity (comb (k - 2) (k + 1) (fun i => NS K k 2 i u) (fun i => dpt K 3 d 1 (i - 1))).
  - apply co_ext. intros c. rewrite !co_comb. rewrite (rsum_shift 1 (k - 3)). replace (k - 3 + 1) with (k - 2) by lia. replace (k - 1 + 1 + 1) with (k + 1) by lia.
    apply rsum_ext. intros i Hi. replace (i - 1 + 1) with i by lia. reflexivity.
  - assert (G2 : good K k 2) by (apply (good_le K k 3); [exact Hg|lia]). rewrite (bl_diag K k 2) by (lia || exact G2). change (repeat u (Z.to_nat 2)) with [u; u].
    assert (W : win K (m + 1) 2 = [u; u]).
    { rewrite (win_cons K (m + 1)) by lia. rewrite (win_cons K (m + 1 + 1)) by lia. rewrite win_nil by lia.
      replace (m + 1 + 1) with (m + 2) by lia. replace (m + 2 + 1) with (m + 3) by lia. rewrite E2, E3. reflexivity. }
    rewrite <- W, bl_knots by (lia || exact G2). replace (m + 1 - 1) with m by lia.
    change 1%nat with (Z.to_nat 1). rewrite dpt_succ by lia. cbn [Z.sub Z.to_nat dpt]. change (3 - 1 + 1) with 3. replace (m + 3 + 1) with (m + 4) by lia. reflexivity.
Qed.
End Double.


Section Hermite.
Variables (n : Z) (Q T : list (XYZ R)) (u : list R).
Hypothesis Hn : 3 < n.
Hypothesis HQ : len Q = n.
Hypothesis HT : len T = n.
Hypothesis Hu : len u = n.
Hypothesis Hst : stepped u.

Lemma ustep i : 0 <= i < n - 1 -> (val u i + tol (val u i) (val u (i + 1)) < val u (i + 1))%R.
Proof. intros Hi. apply Hst. lia. Qed.
Lemma ulast : (val u (n - 2) < val u (n - 1))%R.
Proof. pose proof (ustep (n - 2) ltac:(lia)) as S. replace (n - 2 + 1) with (n - 1) in S by lia. pose proof (tol_pos (val u (n - 2)) (val u (n - 1))). lra. Qed.
Lemma ufirst : (val u 0 < val u 1)%R.
Proof. pose proof (ustep 0 ltac:(lia)) as S. pose proof (tol_pos (val u 0) (val u 1)). cbn in S. lra. Qed.
Lemma usort i j : 0 <= i -> i <= j -> j < n -> (val u i <= val u j)%R.
Proof.
  intros Hi Hij. revert j Hij. apply (Zrange_ind i (fun j => j < n -> (val u i <= val u j)%R)); [lra|].
  intros j Hj IH Hj'. pose proof (ustep j ltac:(lia)). pose proof (tol_pos (val u j) (val u (j + 1))). pose proof (IH ltac:(lia)). lra.
Qed.

(* the knots: every parameter twice, and two more at each end *)
Definition hermite_knots (K : Z -> R) : Prop :=
  (forall j, 0 <= j < n -> K (2 * j + 2) = val u j /\ K (2 * j + 3) = val u j) /\
  (K 0%Z <= K 1%Z <= val u 0)%R /\ (val u (n - 1) <= K (2 * n + 2)%Z <= K (2 * n + 3)%Z)%R.

Lemma hk_half K i : hermite_knots K -> 2 <= i <= 2 * n + 1 -> K i = val u (i / 2 - 1).
Proof.
  intros (H1 & _) Hi. pose proof (Z.div_mod i 2 ltac:(lia)) as D. pose proof (Z.mod_pos_bound i 2 ltac:(lia)) as M. destruct (H1 (i / 2 - 1) ltac:(lia)) as [A B].
  destruct (Z.eq_dec (i mod 2) 0) as [E|E]; [replace i with (2 * (i / 2 - 1) + 2) at 1 by lia; exact A|replace i with (2 * (i / 2 - 1) + 3) at 1 by lia; exact B].
Qed.

Lemma hk_sorted K : hermite_knots K -> forall i j, 0 <= i -> i <= j -> j < 2 * n + 4 -> (K i <= K j)%R.
Proof.
  intros HK i j Hi Hij. pose proof HK as HK0. revert j Hij. apply (Zrange_ind i (fun j => j < 2 * n + 4 -> (K i <= K j)%R)); [lra|]. intros j Hj IH Hj'. apply Rle_trans with (K j); [apply IH; lia|]. clear IH.
  destruct HK as (H1 & [H2 H3] & [H4 H5]). destruct (Z.eq_dec j 0) as [->|]; [exact H2|]. destruct (Z.eq_dec j 1) as [->|]; [destruct (H1 0 ltac:(lia)) as [E _]; change (2 * 0 + 2) with 2 in E; change (1 + 1) with 2; rewrite E; exact H3|].
  destruct (Z.eq_dec j (2 * n + 1)) as [->|]; [destruct (H1 (n - 1) ltac:(lia)) as [_ E]; replace (2 * (n - 1) + 3) with (2 * n + 1) in E by lia; replace (2 * n + 1 + 1) with (2 * n + 2) by lia; rewrite E; exact H4|].
  destruct (Z.eq_dec j (2 * n + 2)) as [->|]; [replace (2 * n + 2 + 1) with (2 * n + 3) by lia; exact H5|].
  rewrite !(hk_half K) by (try lia; exact HK0). assert (0 <= j / 2 - 1 /\ j / 2 <= (j + 1) / 2 /\ (j + 1) / 2 - 1 < n) as (? & ? & ?).
  { split; [|split]; [assert (2 / 2 <= j / 2) by (apply Z.div_le_mono; lia); change (2 / 2) with 1 in *; lia|apply Z.div_le_mono; lia|].
    assert ((j + 1) / 2 < n + 1) by (apply Z.div_lt_upper_bound; lia). lia. }
  apply usort; lia.
Qed.

Lemma hk_curve kv K : arr kv (2 * n + 4) K -> hermite_knots K -> curve_knots 3 (2 * n - 1) kv.
Proof.
  intros AK HK. assert (E : forall i, 0 <= i < 2 * n + 4 -> val kv i = K i) by (intros i Hi; apply (arr_at_eq 0%R _ _ _ i AK Hi)).
  constructor; try lia.
  - rewrite (arr_len _ _ _ AK). lia.
  - intros i j Hi Hij Hj. rewrite (arr_len _ _ _ AK) in Hj. rewrite !E by lia. apply (hk_sorted K HK); lia.
  - rewrite !E by lia. destruct HK as (H1 & _). destruct (H1 0 ltac:(lia)) as [_ A]. destruct (H1 1 ltac:(lia)) as [B _]. change (2 * 0 + 3) with 3 in A. change (2 * 1 + 2) with 4 in B. change (3 + 1) with 4. rewrite A, B. apply (ustep 0). lia.
  - rewrite !E by lia. destruct HK as (H1 & _). destruct (H1 (n - 2) ltac:(lia)) as [_ A]. destruct (H1 (n - 1) ltac:(lia)) as [B _]. replace (2 * (n - 2) + 3) with (2 * n - 1) in A by lia. replace (2 * (n - 1) + 2) with (2 * n - 1 + 1) in B by lia. rewrite A, B.
    pose proof (ustep (n - 2) ltac:(lia)) as S. replace (n - 2 + 1) with (n - 1) in S by lia. exact S.
Qed.

(* the control points *)
Definition hermite_point (K : Z -> R) (a : Z) : XYZW R :=
  let c := a / 2 in let j := 2 * c in
  if a mod 2 =? 0 then mkW (minus3 (pt Q c) (times3 ((K (j + 3)%Z - K (j + 1)%Z) / 3) (pt T c))) 1%R
  else mkW (plus3 (pt Q c) (times3 ((K (j + 4)%Z - K (j + 2)%Z) / 3) (pt T c))) 1%R.

Lemma hermite_even K c : hermite_point K (2 * c) = mkW (minus3 (pt Q c) (times3 ((K (2 * c + 3)%Z - K (2 * c + 1)%Z) / 3) (pt T c))) 1%R.
Proof. unfold hermite_point. replace (2 * c / 2) with c by (apply (Z.div_unique_pos _ 2 c 0); lia). replace (2 * c mod 2) with 0 by (apply (Z.mod_unique_pos _ 2 c 0); lia). reflexivity. Qed.
Lemma hermite_odd K c : hermite_point K (2 * c + 1) = mkW (plus3 (pt Q c) (times3 ((K (2 * c + 4)%Z - K (2 * c + 2)%Z) / 3) (pt T c))) 1%R.
Proof. unfold hermite_point. replace ((2 * c + 1) / 2) with c by (apply (Z.div_unique_pos _ 2 c 1); lia). replace ((2 * c + 1) mod 2) with 1 by (apply (Z.mod_unique_pos _ 2 c 1); lia). reflexivity. Qed.
Lemma hermite_weight K a : ww (hermite_point K a) = 1%R.
Proof. unfold hermite_point. cbv zeta. destruct (a mod 2 =? 0); reflexivity. Qed.

Lemma hermite_passes kv K H : arr kv (2 * n + 4) K -> hermite_knots K -> arr H (2 * n) (hermite_point K) -> forall c, 0 <= c < n ->
  in_domain 3 (2 * n - 1) kv (val u c) /\ curve_point 3 (2 * n - 1) kv H (val u c) = hom (pt Q c) 1%R /\
  exists g, curve_derivs 3 (2 * n - 1) kv H 1 (val u c) g /\ g 0 = pt Q c /\ g 1 = pt T c.
Proof.
  intros AK HK AH c Hc. pose proof (hk_curve kv K AK HK) as HU. assert (E : forall i, 0 <= i < 2 * n + 4 -> val kv i = K i) by (intros i Hi; apply (arr_at_eq 0%R _ _ _ i AK Hi)).
  assert (EH : forall i, 0 <= i < 2 * n -> pt H i = hermite_point K i) by (intros i Hi; apply (arr_at_eq vzero _ _ _ i AH Hi)).
  destruct HK as (H1 & H2 & H3). destruct (H1 c Hc) as [K2 K3].
  assert (HS : exists k, span_of 3 (2 * n - 1) kv (val u c) k /\ k - 3 <= 2 * c /\ 2 * c + 1 <= k).
  { destruct (Z.eq_dec c (n - 1)) as [->|Nc].
    - exists (2 * n - 1). split; [|lia]. pose proof (ck_last _ _ _ HU) as CL. pose proof (tol_pos (val kv (2 * n - 1)) (val kv (2 * n - 1 + 1))).
      assert (EL : val kv (2 * n - 1 + 1) = val u (n - 1)) by (rewrite E by lia; replace (2 * n - 1 + 1) with (2 * (n - 1) + 2) by lia; exact K2).
      split; [lia|]. split; [lra|]. split; [rewrite <- EL; lra|]. right. split; [reflexivity|symmetry; exact EL].
    - exists (2 * c + 3). split; [|lia]. destruct (H1 (c + 1) ltac:(lia)) as [K4 _]. pose proof (ustep c ltac:(lia)). pose proof (tol_pos (val u c) (val u (c + 1))).
      assert (E1 : val kv (2 * c + 3) = val u c) by (rewrite E by lia; exact K3).
      assert (E2 : val kv (2 * c + 3 + 1) = val u (c + 1)) by (rewrite E by lia; replace (2 * c + 3 + 1) with (2 * (c + 1) + 2) by lia; exact K4).
      split; [lia|]. rewrite E1, E2. split; [lra|]. split; [lra|]. left. lra. }
  destruct HS as (k & Hk & Hk1 & Hk2). pose proof (span_of_good _ _ _ _ _ HU Hk) as Hg. pose proof Hk as (Hkr & _).
  assert (HK14 : (val kv (2 * c + 1) < val kv (2 * c + 4))%R).
  { destruct (Z.eq_dec c (n - 1)) as [->|Nc].
    - assert (val kv (2 * (n - 1) + 1) = val u (n - 2)) as -> by (rewrite E by lia; destruct (H1 (n - 2) ltac:(lia)) as [_ X]; replace (2 * (n - 1) + 1) with (2 * (n - 2) + 3) by lia; exact X).
      rewrite E by lia. replace (2 * (n - 1) + 4) with (2 * n + 2) by lia. pose proof ulast. lra.
    - assert (E4 : val kv (2 * c + 4) = val u (c + 1)) by (rewrite E by lia; destruct (H1 (c + 1) ltac:(lia)) as [X _]; replace (2 * c + 4) with (2 * (c + 1) + 2) by lia; exact X). rewrite E4.
      assert (E1 : (val kv (2 * c + 1) <= val u c)%R). { rewrite <- K2, <- E by lia. apply (ck_sorted _ _ _ HU); rewrite ?(ck_len _ _ _ HU); lia. }
      pose proof (ustep c ltac:(lia)). pose proof (tol_pos (val u c) (val u (c + 1))). lra. }
  rewrite <- !E in K2, K3 by lia.
  assert (P0 : pt H (2 * c) = mkW (minus3 (pt Q c) (times3 ((val u c - val kv (2 * c + 1)%Z) / 3) (pt T c))) 1%R) by (rewrite EH, hermite_even by lia; rewrite <- !E by lia; rewrite K3; reflexivity).
  assert (P1 : pt H (2 * c + 1) = mkW (plus3 (pt Q c) (times3 ((val kv (2 * c + 4)%Z - val u c) / 3) (pt T c))) 1%R) by (rewrite EH, hermite_odd by lia; rewrite <- !E by lia; rewrite K2; reflexivity).
  assert (W1 : forall x, ww (span_curve k 3 kv H x) = 1%R).
  { intros x. change (co 3 (comb (k - 3) (k + 1) (fun i => NS (val kv) k 3 i x) (pt H)) = 1%R). rewrite co_comb, <- (NS_sum (val kv) k 3 x ltac:(lia) Hg). apply rsum_ext. intros i Hi. rewrite EH by lia. change (co 3 (hermite_point K i)) with (ww (hermite_point K i)). rewrite hermite_weight. ring. }
  assert (SV : span_curve k 3 kv H (val u c) = hom (pt Q c) 1%R).
  { change (span_curve k 3 kv H (val u c)) with (comb (k - 3) (k + 1) (fun i => NS (val kv) k 3 i (val u c)) (pt H)).
    rewrite (double_value (val kv) k (2 * c) (val u c) (pt H) Hg Hk1 Hk2 K2 K3 HK14). rewrite P0, P1. destruct (pt Q c) as [q1 q2 q3], (pt T c) as [t1 t2 t3]. generalize dependent (val kv (2 * c + 1)). generalize (val kv (2 * c + 4)) (val u c). intros x4 x0 x1. intros. unfold vadd, vscale, vsub, Vec_XYZW, xyzw_add, xyzw_scale, xyzw_sub, hom, mkW, minus3, plus3, times3. num. cbn [wx wy wz ww gx gy gz]. f_equal; field; lra. }
  split; [apply (span_of_dom _ _ _ _ _ HU Hk)|]. split; [rewrite (curve_point_span 3 (2 * n - 1) kv H _ k HU Hk); exact SV|].
  set (D := dcurve2 k 3 (val kv) (pt H) 1).
  assert (DV : vderiv 1 (span_curve k 3 kv H) D) by (apply dcurve2_deriv; [lia|exact Hg]).
  assert (DU : D (val u c) = mkXYZW (gx (pt T c)) (gy (pt T c)) (gz (pt T c)) 0%R).
  { unfold D. rewrite (double_slope (val kv) k (2 * c) (val u c) (pt H) Hg Hk1 Hk2 K2 K3). rewrite P0, P1. destruct (pt Q c) as [q1 q2 q3], (pt T c) as [t1 t2 t3]. generalize dependent (val kv (2 * c + 1)). generalize (val kv (2 * c + 4)) (val u c). intros x4 x0 x1. intros. unfold vadd, vscale, vsub, Vec_XYZW, xyzw_add, xyzw_scale, xyzw_sub, hom, mkW, minus3, plus3, times3. num. cbn [wx wy wz ww gx gy gz]. f_equal; field; lra. }
  exists (fun m => if m =? 0 then pt Q c else pt T c). split; [|split; reflexivity]. exists k. split; [exact Hk|]. intros m Hm. assert (m = 0 \/ m = 1) as [-> | ->] by lia.
  - exists (fun x => proj (span_curve k 3 kv H x)). split; [repeat split|]. rewrite SV. cbn [Z.eqb]. unfold proj, hom. cbn [wx wy wz ww gx gy gz]. destruct (pt Q c) as [q1 q2 q3]. cbn [gx gy gz]. apply xyz_eq; field.
  - exists (fun x => mkXYZ (wx (D x)) (wy (D x)) (wz (D x))). split.
    + assert (K0 : forall (g : XYZW R -> R) i, (forall x, g x = co i x) -> nth_deriv_on (fun x => ww (span_curve k 3 kv H x) <> 0%R) (Z.to_nat 1) (fun x => (g (span_curve k 3 kv H x) / ww (span_curve k 3 kv H x))%R) (fun x => g (D x))).
      { intros g i Hgi. destruct (DV i) as (h & Hh1 & Hh2). exists h. split.
        - intros x _. apply (der_ext (fun x => co i (span_curve k 3 kv H x))); [|apply Hh1]. intros y. rewrite W1, Hgi. field.
        - intros x _. rewrite Hgi. apply Hh2. }
      split; [|split]; [exact (K0 (@wx R) 0%nat (fun _ => eq_refl))|exact (K0 (@wy R) 1%nat (fun _ => eq_refl))|exact (K0 (@wz R) 2%nat (fun _ => eq_refl))].
    + cbn [Z.eqb]. rewrite DU. cbn [wx wy wz]. destruct (pt T c); reflexivity.
Qed.

Hypothesis Hchord : GetChordParameterization Q = Ok u.

Lemma arr_upd_ext {X} (l : list X) m f i v g (P : list X -> Prop) : arr l m f -> 0 <= i < m -> (forall j, 0 <= j < m -> g j = if j =? i then v else f j) -> (forall l', arr l' m g -> P l') -> wp (upd l i v) P.
Proof. intros A Hi Hg HP. apply (arr_upd _ _ _ _ _ _ A Hi). intros l' A'. apply HP. eapply arr_ext; [exact A'|]. intros j Hj. rewrite Hg by exact Hj. reflexivity. Qed.

Lemma Hermite_ok : returns (CreateCubicHermite Q T) (fun c => exists kv H, c = mkCurve 3 kv H /\ curve_knots 3 (2 * n - 1) kv /\ len H = 2 * n /\
  (forall i, 0 <= i < 2 * n -> ww (pt H i) = 1%R) /\
  forall i, 0 <= i < n -> in_domain 3 (2 * n - 1) kv (val u i) /\ curve_point 3 (2 * n - 1) kv H (val u i) = hom (pt Q i) 1%R /\
    exists g, curve_derivs 3 (2 * n - 1) kv H 1 (val u i) g /\ g 0 = pt Q i /\ g 1 = pt T i).
Proof.
  apply wp_elim. unfold CreateCubicHermite. rewrite HQ, HT. destruct (Z.ltb_spec 3 n) as [_|]; [|lia]. cbn [validate bind]. rewrite Z.eqb_refl. cbn [validate bind].
  pose proof (arr_pt Q n HQ) as AQ. pose proof (arr_pt T n HT) as AT. assert (AU : arr u n (val u)) by (rewrite <- Hu; apply arr_at).
  wget AQ. wget AQ. rewrite Hchord. cbn [bind]. wget AT. wget AT.
  apply wp_bind. apply wp_mkvec; [lia|]. intros k0 Ak0. apply wp_bind.
  apply wp_for_up with (P := fun h kv => arrD kv (2 * n + 4) (fun i => 2 <= i < 2 * h + 2) (fun i => val u (i / 2 - 1))); [lia| | |].
  { split; [rewrite (arr_len _ _ _ Ak0); lia|]. intros i Hi Hd. lia. }
  { intros j kv Hj Ad. wget AU. apply wp_bind. apply (arrD_set _ _ _ (fun i => 2 <= i < 2 * j + 2 \/ i = 2 * j + 3) _ _ _ _ Ad); [lia| |lia|].
    - cbv beta. assert ((2 * j + 3) / 2 = j + 1) as -> by (symmetry; apply (Z.div_unique_pos _ 2 (j + 1) 1); lia). replace (j + 1 - 1) with j by lia. reflexivity.
    - intros kv' Ad'. apply (arrD_set _ _ _ (fun i => 2 <= i < 2 * (j + 1) + 2) _ _ _ _ Ad'); [lia| |lia|].
      + cbv beta. assert ((2 * j + 2) / 2 = j + 1) as -> by (symmetry; apply (Z.div_unique_pos _ 2 (j + 1) 0); lia). replace (j + 1 - 1) with j by lia. reflexivity.
      + intros kv'' A''. exact A''. }
  intros k1 A1. assert (exists f1, arr k1 (2 * n + 4) f1 /\ forall i, 2 <= i <= 2 * n + 1 -> f1 i = val u (i / 2 - 1)) as (f1 & B1 & F1).
  { exists (at_ 0%R k1). split; [rewrite <- (proj1 A1); apply arr_at|]. intros i Hi. assert (G : get k1 i = Ok (val u (i / 2 - 1))) by (apply (proj2 A1); cbv beta; lia). rewrite (get_at 0%R) in G by (rewrite (proj1 A1); lia). congruence. }
  apply wp_bind. pose proof ufirst as UF. pose proof ulast as UL.
  assert (FK : forall f, (forall i, 2 <= i <= 2 * n + 1 -> f i = val u (i / 2 - 1)) -> (f 0%Z <= f 1%Z <= val u 0)%R -> (val u (n - 1) <= f (2 * n + 2)%Z <= f (2 * n + 3)%Z)%R -> hermite_knots f).
  { intros f Hf H1 H2. split; [|split; assumption]. intros j Hj. rewrite !Hf by lia. split; [assert ((2 * j + 2) / 2 = j + 1) as -> by (symmetry; apply (Z.div_unique_pos _ 2 (j + 1) 0); lia)|assert ((2 * j + 3) / 2 = j + 1) as -> by (symmetry; apply (Z.div_unique_pos _ 2 (j + 1) 1); lia)]; replace (j + 1 - 1) with j by lia; reflexivity. }
  assert (F2 : f1 2 = val u 0) by (rewrite F1 by lia; reflexivity).
  assert (FN : f1 (2 * n) = val u (n - 1)) by (rewrite F1 by lia; f_equal; rewrite Z.mul_comm, Z.div_mul by lia; reflexivity).
  apply wp_mono with (P := fun kv => exists K, arr kv (2 * n + 4) K /\ hermite_knots K).
  { destruct (xyz_IsAlmostEqualTo (pt Q 0) (pt Q (n - 1))).
    - wget AU. wget AU. wget AU. wget AU. destruct (xyz_IsAlmostEqualTo (pt T 0) (pt T (n - 1))).
      + num. apply wp_bind. apply (arr_upd _ _ _ _ _ _ B1); [lia|]. intros k2 B2. apply wp_bind. apply (arr_upd _ _ _ _ _ _ B2); [lia|]. intros k3 B3. apply wp_bind. apply (arr_upd _ _ _ _ _ _ B3); [lia|]. intros k4 B4. apply (arr_upd _ _ _ _ _ _ B4); [lia|]. intros k5 B5.
        eexists. split; [exact B5|]. apply FK; [intros i Hi; zcase; try lia; apply F1; lia| |]; zcase; try lia; lra.
      + num. apply wp_bind. apply (arr_upd _ _ _ _ _ _ B1); [lia|]. intros k2 B2. wget B2. zcase; try lia. rewrite F2. apply wp_bind. apply (arr_upd _ _ _ _ _ _ B2); [lia|]. intros k3 B3. wget B3. zcase; try lia. rewrite FN. apply wp_bind. apply (arr_upd _ _ _ _ _ _ B3); [lia|]. intros k4 B4. apply (arr_upd _ _ _ _ _ _ B4); [lia|]. intros k5 B5.
        eexists. split; [exact B5|]. apply FK; [intros i Hi; zcase; try lia; apply F1; lia| |]; zcase; try lia; lra.
    - wget B1. rewrite F2. apply wp_bind. apply (arr_upd _ _ _ _ _ _ B1); [lia|]. intros k2 B2. apply wp_bind. apply (arr_upd _ _ _ _ _ _ B2); [lia|]. intros k3 B3. wget B3. zcase; try lia. rewrite FN. apply wp_bind. apply (arr_upd _ _ _ _ _ _ B3); [lia|]. intros k4 B4. apply (arr_upd _ _ _ _ _ _ B4); [lia|]. intros k5 B5.
      eexists. split; [exact B5|]. apply FK; [intros i Hi; zcase; try lia; apply F1; lia| |]; zcase; try lia; lra. }
  intros kv (K & AK & HK). apply wp_bind. apply wp_mkvec; [lia|]. intros c0 Ac0. apply wp_bind.
  apply wp_for_up with (P := fun h H => arrD H (2 * n) (fun i => i < 2 * h) (hermite_point K)); [lia| | |].
  { split; [rewrite (arr_len _ _ _ Ac0); lia|]. intros i Hi Hd. lia. }
  { intros j H Hj Ad. wget AK. wget AK. wget AK. wget AK. wget AQ. wget AT. num.
    assert (DV : forall x (v : XYZ R), xyz_div (xyz_scale x v) 3%R = Ok (times3 (x / 3) v)).
    { intros x v. unfold xyz_div. num. rewrite !Rdiv_ok by lra. cbn [bind]. rewrite scale_eq. f_equal. destruct v as [v1 v2 v3]. unfold times3. cbn [gx gy gz]. apply xyz_eq; field. }
    rewrite DV. cbn [bind]. apply wp_bind. apply (arrD_set _ _ _ (fun i => i < 2 * j + 1) _ _ _ _ Ad); [lia| |lia|].
    - rewrite hermite_even. reflexivity.
    - intros H' Ad'. rewrite DV. cbn [bind]. apply (arrD_set _ _ _ (fun i => i < 2 * (j + 1)) _ _ _ _ Ad'); [lia| |lia|].
      + rewrite hermite_odd. reflexivity.
      + intros H'' A''. exact A''. }
  intros H Ad. assert (AH : arr H (2 * n) (hermite_point K)) by (eapply arr_of_arrD; [exact Ad|]; cbv beta; intros; lia).
  apply wp_ok. exists kv, H. split; [reflexivity|]. split; [apply (hk_curve kv K AK HK)|]. split; [apply (arr_len _ _ _ AH)|]. split.
  - intros i Hi. rewrite (arr_pt_eq H _ _ i AH) by lia. apply hermite_weight.
  - intros i Hi. apply (hermite_passes kv K H AK HK AH i Hi).
Qed.
End Hermite.
