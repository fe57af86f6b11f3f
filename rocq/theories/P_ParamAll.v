(* All parameters of a point on an open curve. *)
From Coq Require Import ZArith List Bool Reals Lra Lia.
From Verif Require Import Base Num Vec Tac Spec Spec2 Spec3 Spec4 Spec5 Spec9 Spec10 Spec17 M_MathUtils M_XYZ M_Bspline M_NurbsCurve M_Geom M_Surface M_Shape M_Octree M_Volume M_Curve4
  P_MathUtils P_XYZ P_Vec P_VSum P_Curve P_Bspline P_Decomp P_Loop P_Insert P_Geom P_Matrix P_Nurbs P_Shape P_Span P_Insert2 P_Shape2 P_Shape3 P_RSurf2 P_Surf5 P_Surf6 P_Surf7 P_Interp2 P_Swung P_ProjNorm2 P_ParamOn P_Tess P_Refine.
Import ListNotations.
Open Scope Z_scope.

Lemma argmin (d : Z -> R) : forall n, exists m, 0 <= m < Z.of_nat (S n) /\ forall j, 0 <= j < Z.of_nat (S n) -> (d m <= d j)%R.
Proof.
  induction n as [|n (m & Hm & Hd)].
  - exists 0. split; [lia|]. intros j Hj. replace j with 0 by lia. lra.
  - destruct (Rle_lt_dec (d m) (d (Z.of_nat (S n)))) as [L|L].
    + exists m. split; [lia|]. intros j Hj. destruct (Z.eq_dec j (Z.of_nat (S n))) as [->|]; [exact L|apply Hd; lia].
    + exists (Z.of_nat (S n)). split; [lia|]. intros j Hj. destruct (Z.eq_dec j (Z.of_nat (S n))) as [->|]; [lra|]. specialize (Hd j ltac:(lia)). lra.
Qed.

Lemma snoc_l (l : list R) x i : 0 <= i < len l -> val (l ++ [x]) i = val l i.
Proof. intros Hi. rewrite val_snoc by lia. destruct (Z.eqb_spec i (len l)); [lia|reflexivity]. Qed.

Lemma snoc_r (l : list R) x : val (l ++ [x]) (len l) = x.
Proof. pose proof (len_nonneg l). rewrite val_snoc by lia. rewrite Z.eqb_refl. reflexivity. Qed.

Section All.
Variables (p n : Z) (U : list R) (H : list (XYZW R)).
Hypothesis HU : curve_knots p n U.
Hypothesis Hp : p <= 7.
Hypothesis HH : len H = n + 1.
Hypothesis Hw : heavy H.
Hypothesis Hcl : clamped_knots p n U.
Let c := mkCurve p U H.
Let lo := val U p.
Let hi := val U (n + 1).

Lemma minima_ok points params P : len points = len params -> 1 <= len params -> (forall k, 0 <= k < len params -> in_domain p n U (val params k)) ->
  returns (local_minima points params P) (fun l => 1 <= len l /\ forall i, 0 <= i < len l -> in_domain p n U (val l i)).
Proof.
  intros LL L1 HD. apply wp_elim. unfold local_minima. apply wp_bind. set (d := fun i => SqrLength (xyz_sub P (at_ (mkXYZ 0 0 0)%R points i))).
  apply wp_for_up with (P := fun i l => arr l i d); [lia|apply arr_nil| |].
  { intros i l Hi Al. rewrite (get_at (mkXYZ 0 0 0)%R) by lia. cbn [bind]. apply wp_ok. apply arr_snoc; [exact Al|reflexivity]. }
  intros ds Ad. destruct (argmin d (Z.to_nat (len points - 1))) as (m & Hm & Md). replace (Z.of_nat (S (Z.to_nat (len points - 1)))) with (len points) in * by lia.
  apply wp_for_up with (P := fun i l => (m < i -> 1 <= len l) /\ forall j, 0 <= j < len l -> in_domain p n U (val l j)); [lia|split; [lia|intros j Hj; unfold len in Hj; cbn in Hj; lia]| |].
  - intros i l Hi (I1 & I2).
    assert (B : exists b, (if (0 <? i) then let! x := get ds i in let! y := get ds (i - 1) in Ok (nltb y x) else Ok false) = Ok b /\ (i = m -> b = false)).
    { destruct (Z.ltb_spec 0 i); [|exists false; split; reflexivity]. wget Ad. wget Ad. eexists. split; [reflexivity|]. intros ->. num. apply Rltb_false, Md. lia. }
    assert (A : exists b, (if (i <? len points - 1) then let! x := get ds i in let! y := get ds (i + 1) in Ok (nltb y x) else Ok false) = Ok b /\ (i = m -> b = false)).
    { destruct (Z.ltb_spec i (len points - 1)); [|exists false; split; reflexivity]. wget Ad. wget Ad. eexists. split; [reflexivity|]. intros ->. num. apply Rltb_false, Md. lia. }
    destruct B as (b1 & -> & B1). destruct A as (b2 & -> & B2). cbn [bind]. destruct (b1 || b2) eqn:E.
    + apply wp_ok. split; [|exact I2]. intros Hi'. apply I1. destruct (Z.eq_dec i m) as [->|]; [|lia]. rewrite B1, B2 in E by reflexivity. discriminate.
    + rewrite get_val by lia. cbn [bind]. apply wp_ok. split; [intros _; rewrite len_app; unfold len at 2; cbn [length]; pose proof (len_nonneg l); lia|].
      intros j Hj. rewrite len_app in Hj. change (len [val params i]) with 1 in Hj. destruct (Z.eq_dec j (len l)) as [->|].
      * rewrite snoc_r. apply HD. lia.
      * rewrite snoc_l by lia. apply I2. lia.
  - intros l (I1 & I2). apply wp_ok. split; [apply I1; lia|exact I2].
Qed.

Lemma all_newton_ok f P t : in_domain p n U t -> returns (all_newton f c P lo hi false t) (found_at p n U H P).
Proof.
  intros Dt. apply wp_elim. unfold all_newton. apply wp_bind.
  apply wp_for_upc with (P := fun _ => in_domain p n U) (F := found_at p n U H P); [exact Dt| |intros x Hx; apply wp_ok; left; exact Hx|intros x Hx; apply wp_ok; exact Hx].
  intros k x Hk Dx. pose proof (curve_weight p n U H x HU HH Hw Dx) as Wx. destruct (derivs_at p n U H x HU Hp HH Dx ltac:(lra) 2 ltac:(lia)) as (g & D & G & ED & GD). fold c in ED.
  rewrite ED. cbn [bind]. rewrite !GD by lia. cbn [bind]. rewrite Length_eq. cbn [bind]. destruct (IsAlmostEqualTo (norm3 _) _); [apply wp_ok; left; exact Dx|].
  destruct (IsAlmostEqualTo (nabs _) _) eqn:Ed; [apply wp_ok; left; exact Dx|].
  change (@DotProduct R _) with dot3 in *. change (@xyz_sub R _) with minus3 in *. num. set (df := (dot3 (g 1%Z) (g 1%Z) + dot3 (minus3 (g 0%Z) P) (g 2%Z))%R) in *.
  assert (Hdf : df <> 0%R). { intros E0. rewrite E0, Rabs_R0 in Ed. apply close_false in Ed. apply Ed. unfold close. rewrite Rminus_diag_eq, Rabs_R0 by reflexivity. apply Rlt_le, tol_pos. }
  rewrite Rdiv_ok by exact Hdf. cbn [bind]. rewrite Length_eq. cbn [bind]. set (dt := (dot3 (g 1%Z) (minus3 (g 0%Z) P) / df)%R) in *.
  clear Ed. destruct (IsAlmostEqualTo (Rabs _) _) eqn:El.
  - apply wp_ok. right. exists x, g. split; [exact Dx|]. split; [exact G|]. fold df. apply close_iff in El. unfold close, tol in El. num.
    rewrite Rabs_mult, (Rabs_right (norm3 (g 1%Z))) in El by (apply Rle_ge, norm_pos). replace (x - dt - x)%R with (- dt)%R by ring. rewrite Rabs_Ropp. split; [unfold dt; field; exact Hdf|].
    set (y := (Rabs dt * norm3 (g 1%Z))%R) in *. assert (0 <= y)%R by (apply Rmult_le_pos; [apply Rabs_pos|apply norm_pos]). rewrite Rminus_0_r, Rabs_R0, !(Rabs_right y) in El by lra. rewrite Rmax_left in El by lra. lra.
  - unfold wrap_tol. cbn [bind]. apply wp_ok. destruct (smin_le hi (x - dt)%R) as (A1 & A2 & A3). destruct (smax_ge lo (std_min hi (x - dt)%R)) as (B1 & B2 & B3). split; [exact B1|]. apply B3; [apply Rlt_le, (dom_lt p n U HU)|exact A1].
Qed.

Lemma known_iff l t : known_param l t lo hi false = true <-> exists i, 0 <= i < len l /\ close (Rabs (val l i - t)) 0.
Proof.
  unfold known_param. rewrite existsb_exists. split.
  - intros (x & Hx & E). destruct (In_val x l Hx) as (i & Hi & <-). exists i. split; [exact Hi|]. apply close_iff. exact E.
  - intros (i & Hi & E). exists (val l i). split; [apply val_In; exact Hi|]. apply close_iff. exact E.
Qed.

Lemma all_run f P : match IsArc c with Ok (Some (_, o, true)) => ~ Spec3.near o P | Ok _ => True | Err _ => False end -> IsClosed c = Ok false ->
  exists ps us G, EquallyTessellate c = Ok (ps, us) /\ local_minima ps us P = Ok G /\ 1 <= len G /\ (forall i, 0 <= i < len G -> in_domain p n U (val G i)) /\
  GetAllParamsOnCurve f c P = for_up 0 (len G) [] (fun i result => let! initialT := get G i in let! paramT := all_newton f c P lo hi false initialT in
    if known_param result paramT lo hi false then Ok result else Ok (result ++ [paramT])).
Proof.
  intros HA HC. destruct (domain_ends p n U HU Hcl) as (E0 & E1).
  destruct (Tessellate_ok p n U H HU Hp HH Hw Hcl) as ([ps us] & ET & V & IV & NV & L1 & L2 & S). cbn [fst snd] in *. fold c in ET.
  assert (LV : 2 <= len V).
  { pose proof HU as [P0 N0 L SU _ _]. pose proof (len_nonneg V) as L0.
    assert (X0 : len V <> 0). { intros X0. assert (G : In (val U 0) V) by (apply NV, val_In; lia). destruct V; [contradiction|]. rewrite len_cons in X0. pose proof (len_nonneg V). lia. }
    destruct (knots_ends _ _ _ _ HU Hcl IV NV ltac:(lia)) as (K0 & K1). destruct (Z.eq_dec (len V) 1) as [X1|]; [|lia]. rewrite X1 in K1. change (1 - 1) with 0 in K1. pose proof (dom_lt p n U HU). lra. }
  destruct (minima_ok ps us P) as (G & EG & G1 & G2); [lia|lia| |].
  { intros k Hk. rewrite L2 in Hk. destruct (S k Hk) as (-> & _). apply (sample_dom p n U HU Hcl); [|intros x; apply NV|exact Hk]. intros i j Hi Hj Hl. destruct (Z.eq_dec i j) as [->|]; [lra|]. apply Rlt_le, IV; lia. }
  exists ps, us, G. split; [exact ET|]. split; [exact EG|]. split; [exact G1|]. split; [exact G2|]. unfold GetAllParamsOnCurve.
  assert (HA2 : exists a, IsArc c = Ok a /\ match a with Some (_, o, true) => validate (negb (xyz_IsAlmostEqualTo o P)) | _ => Ok tt end = Ok tt).
  { destruct (IsArc c) as [a|]; [|contradiction]. exists a. split; [reflexivity|]. destruct a as [[[r o] [|]]|]; [|reflexivity|reflexivity]. destruct (xyz_IsAlmostEqualTo o P) eqn:E; [|reflexivity]. apply near_iff in E. contradiction. }
  destruct HA2 as (a & -> & HA2). cbn [bind]. rewrite HA2. cbn [bind]. change (KnotVector c) with U. rewrite E0, E1. cbn [bind]. rewrite HC. cbn [bind]. rewrite ET. cbn [bind fst snd]. rewrite EG. cbn [bind]. reflexivity.
Qed.

Lemma GetAll_ok f P : match IsArc c with Ok (Some (_, o, true)) => ~ Spec3.near o P | Ok _ => True | Err _ => False end -> IsClosed c = Ok false ->
  returns (GetAllParamsOnCurve f c P) (fun l => 1 <= len l /\ (forall i, 0 <= i < len l -> found_at p n U H P (val l i)) /\
    forall i j, 0 <= i < len l -> 0 <= j < len l -> i <> j -> ~ close (Rabs (val l i - val l j)) 0).
Proof.
  intros HA HC. destruct (all_run f P HA HC) as (ps & us & G & ET & EG & G1 & G2 & ->). apply wp_elim.
  apply wp_for_up with (P := fun i l => (0 < i -> 1 <= len l) /\ (forall i, 0 <= i < len l -> found_at p n U H P (val l i)) /\
    forall i j, 0 <= i < len l -> 0 <= j < len l -> i < j -> ~ close (Rabs (val l i - val l j)) 0); [lia| | |].
  - repeat split; try lia; intros; unfold len in *; cbn in *; lia.
  - intros i l Hi (I1 & I2 & I3). rewrite get_val by lia. cbn [bind]. destruct (all_newton_ok f P (val G i) (G2 i Hi)) as (x & -> & Hx). cbn [bind].
    destruct (known_param l x lo hi false) eqn:EK; apply wp_ok.
    + apply known_iff in EK. destruct EK as (k & Hk & _). repeat split; [lia|exact I2|exact I3].
    + assert (NK : forall k, 0 <= k < len l -> ~ close (Rabs (val l k - x)) 0) by (intros k Hk Hc; assert (known_param l x lo hi false = true) by (apply known_iff; exists k; split; assumption); congruence).
      pose proof (len_nonneg l). rewrite len_app. change (len [x]) with 1. split; [lia|]. split.
      * intros k Hk. destruct (Z.eq_dec k (len l)) as [->|]; [rewrite snoc_r; exact Hx|rewrite snoc_l by lia; apply I2; lia].
      * intros a b Ha Hb Hab. rewrite (snoc_l l x a) by lia. destruct (Z.eq_dec b (len l)) as [->|]; [rewrite snoc_r; apply NK; lia|rewrite snoc_l by lia; apply I3; lia].
  - intros l (I1 & I2 & I3). split; [apply I1; lia|]. split; [exact I2|]. intros a b Ha Hb Hab. destruct (Z.lt_ge_cases a b); [apply I3; lia|]. rewrite Rabs_minus_sym. apply I3; lia.
Qed.
End All.

(* straight segments *)
Section SegAll.
Variables (a b P : XYZ R).
Hypothesis Hab : (1 / 100 <= dist3 a b)%R.
Hypothesis Hne : ~ Spec3.near b a.
Let d := minus3 b a.
Let foot := (dot3 (minus3 P a) d / dot3 d d)%R.
Let clamp := (std_max 0 (std_min 1 foot))%R.

Lemma dd_large : (1 / 10000 <= dot3 d d)%R.
Proof.
  assert (E : (dist3 a b * dist3 a b = dot3 d d)%R). { unfold dist3, norm3. rewrite sqrt_sqrt by apply dot_pos. unfold dot3, d, minus3. cbn [gx gy gz]. ring. }
  rewrite <- E. nra.
Qed.

Lemma close0_small x : (0 <= x)%R -> close x 0 -> (x < 1 / 10000)%R.
Proof. intros Hx Hc. unfold close, tol in Hc. rewrite Rminus_0_r, Rabs_R0, !(Rabs_right x), Rmax_left in Hc by lra. lra. Qed.

Definition all_result (r : R) : Prop :=
  ((0 <= r <= 1)%R /\ (dist3 P (lerp3 a b r) < 1 / 10000)%R) \/ r = clamp \/
  (r = foot /\ exists t, (0 <= t <= 1)%R /\ (Rabs (t - foot) * norm3 d < 1 / 10000)%R).

Lemma all_seg_newton f t : (0 <= t <= 1)%R -> returns (all_newton f (mkCurve 1 (bezier_knots 1) (bar a b)) P (val (bezier_knots 1) 1) (val (bezier_knots 1) (1 + 1)) false t) all_result.
Proof.
  intros Ht. pose proof dd_large as HD. assert (C01 : (0 <= clamp <= 1)%R) by (unfold clamp; apply (clamp01 foot)). change (val (bezier_knots 1) 1) with 0%R. change (val (bezier_knots 1) (1 + 1)) with 1%R. apply wp_elim. unfold all_newton. apply wp_bind.
  apply wp_for_upc with (P := fun k x => (0 <= x <= 1)%R /\ (0 < k -> x = clamp)) (F := all_result).
  - split; [exact Ht|]. lia.
  - intros k x Hk (Dx & Ex). destruct bar_knots as (K & CK). destruct (derivs_at 1 1 (bezier_knots 1) (bar a b) x K ltac:(lia) eq_refl (bar_dom x Dx)) with (d := 2) as (g & L & G & E & HG); [rewrite bar_at by exact Dx; unfold hom; cbn; lra|lia|].
    rewrite E. cbn [bind]. rewrite !HG by lia. cbn [bind]. destruct (bar_derivs a b x g Dx G) as (-> & -> & ->). fold d. rewrite Length_eq. cbn [bind].
    change (@DotProduct R _) with dot3. change (@xyz_sub R _) with minus3. num. fold d.
    assert (E0 : norm3 (minus3 (lerp3 a b x) P) = dist3 P (lerp3 a b x)) by (unfold dist3, norm3; f_equal; unfold dot3, minus3; cbn [gx gy gz]; ring). rewrite E0.
    destruct (IsAlmostEqualTo (dist3 P (lerp3 a b x)) 0%R) eqn:L0; [apply wp_ok; left; split; [exact Dx|]; apply close_iff in L0; apply close0_small; [apply sqrt_pos|exact L0]|].
    replace (dot3 (minus3 (lerp3 a b x) P) zero3) with 0%R by (unfold dot3, zero3; cbn [gx gy gz]; ring). rewrite Rplus_0_r, (Rabs_right (dot3 d d)) by lra.
    destruct (IsAlmostEqualTo (dot3 d d) 0%R) eqn:L1; [apply close_iff in L1; apply close0_small in L1; lra|]. rewrite Rdiv_ok by lra. cbn [bind]. rewrite Length_eq. cbn [bind].
    assert (EF : (dot3 d (minus3 (lerp3 a b x) P) / dot3 d d = x - foot)%R).
    { unfold foot. apply (Rmult_eq_reg_r (dot3 d d)); [|lra]. unfold Rdiv. rewrite Rmult_minus_distr_r, !Rmult_assoc, Rinv_l, !Rmult_1_r by lra. unfold dot3, minus3, lerp3, plus3, times3, d. cbn [gx gy gz]. unfold minus3. cbn [gx gy gz]. ring. }
    rewrite EF. replace (x - (x - foot))%R with foot by ring. fold d. clear L0 L1.
    destruct (IsAlmostEqualTo (Rabs ((x - foot) * norm3 d)) 0%R) eqn:L2.
    + apply wp_ok. right. right. split; [reflexivity|]. exists x. split; [exact Dx|]. apply close_iff in L2. apply close0_small in L2; [|apply Rabs_pos]. rewrite Rabs_mult, (Rabs_right (norm3 d)) in L2 by (apply Rle_ge, norm_pos). exact L2.
    + unfold wrap_tol. cbn [bind]. apply wp_ok. split; [exact C01|]. intros _. reflexivity.
  - intros x (Dx & Ex). apply wp_ok. right. left. apply Ex. lia.
  - intros r Hr. apply wp_ok. exact Hr.
Qed.

Lemma all_result_near r : all_result r ->
  (exists t, (0 <= t <= 1)%R /\ (dist3 (lerp3 a b t) (lerp3 a b r) < 1 / 10000)%R) /\
  ((dist3 P (lerp3 a b r) < 1 / 10000)%R \/ forall s, (0 <= s <= 1)%R -> (dist3 P (lerp3 a b r) <= dist3 P (lerp3 a b s))%R).
Proof.
  intros Hr. assert (Hab' : (1 / 1000 <= dist3 a b)%R) by lra.
  assert (Z0 : forall t, (dist3 (lerp3 a b t) (lerp3 a b t) < 1 / 10000)%R). { intros t. unfold dist3, norm3. replace (dot3 _ _) with 0%R by (unfold dot3, minus3; cbn [gx gy gz]; ring). rewrite sqrt_0. lra. }
  destruct Hr as [(Hr & L)|[->|(-> & t & Ht & L)]].
  - split; [exists r; split; [exact Hr|apply Z0]|]. left. exact L.
  - assert (C01 : (0 <= clamp <= 1)%R) by (unfold clamp; apply (clamp01 foot)). split; [exists clamp; split; [exact C01|apply Z0]|]. right. intros s Hs. apply (seg_closer a b P Hab'). fold d. fold foot. unfold clamp, std_max, std_min. cbn [nltb Num_R].
    destruct (Rltb_spec foot 1) as [A1|A1]; [destruct (Rltb_spec 0 foot) as [A2|A2]|destruct (Rltb_spec 0 1) as [A2|A2]; [|lra]].
    + replace (foot - foot)%R with 0%R by ring. rewrite Rmult_0_l. apply Rle_0_sqr.
    + pose proof (Rle_0_sqr s) as X. unfold Rsqr in X. assert (s * foot <= 0)%R by nra. replace ((s - foot) * (s - foot))%R with (s * s - 2 * (s * foot) + foot * foot)%R by ring. replace ((0 - foot) * (0 - foot))%R with (foot * foot)%R by ring. lra.
    + assert (0 <= (1 - s) * (2 * foot - 1 - s))%R by (apply Rmult_le_pos; lra). replace ((s - foot) * (s - foot))%R with ((1 - foot) * (1 - foot) + (1 - s) * (2 * foot - 1 - s))%R by ring. lra.
  - split.
    + exists t. split; [exact Ht|]. replace (dist3 (lerp3 a b t) (lerp3 a b foot)) with (Rabs (t - foot) * norm3 d)%R; [exact L|]. unfold dist3. rewrite <- sqrt_Rsqr_abs. unfold norm3. rewrite <- sqrt_mult by (apply Rle_0_sqr || apply dot_pos).
      f_equal. unfold dot3, minus3, lerp3, plus3, times3, d, Rsqr. cbn [gx gy gz]. unfold minus3. cbn [gx gy gz]. ring.
    + right. intros s Hs. apply (seg_closer a b P Hab'). fold d. fold foot. replace (foot - foot)%R with 0%R by ring. rewrite Rmult_0_l. apply Rle_0_sqr.
Qed.

Lemma seg_all f : returns (GetAllParamsOnCurve f (mkCurve 1 (bezier_knots 1) (bar a b)) P) (fun l => 1 <= len l /\ forall i, 0 <= i < len l ->
  (exists t, (0 <= t <= 1)%R /\ (dist3 (lerp3 a b t) (lerp3 a b (val l i)) < 1 / 10000)%R) /\
  ((dist3 P (lerp3 a b (val l i)) < 1 / 10000)%R \/ forall s, (0 <= s <= 1)%R -> (dist3 P (lerp3 a b (val l i)) <= dist3 P (lerp3 a b s))%R)).
Proof.
  destruct bar_knots as (K & CK). destruct (all_run 1 1 (bezier_knots 1) (bar a b) K ltac:(lia) eq_refl (bar_heavy a b) CK f P I) as (ps & us & G & ET & EG & G1 & G2 & ->); [apply bar_open; [lra|exact Hne]|].
  apply wp_elim. apply wp_for_up with (P := fun i l => (0 < i -> 1 <= len l) /\ forall i, 0 <= i < len l -> all_result (val l i)); [lia| | |].
  - split; [lia|]. intros; unfold len in *; cbn in *; lia.
  - intros i l Hi (I1 & I2). rewrite get_val by lia. cbn [bind]. destruct (all_seg_newton f (val G i) (G2 i Hi)) as (x & -> & Hx). cbn [bind].
    destruct (known_param l x _ _ false) eqn:EK; apply wp_ok.
    + apply (known_iff 1 1 (bezier_knots 1)) in EK. destruct EK as (k & Hk & _). split; [lia|exact I2].
    + pose proof (len_nonneg l). rewrite len_app. change (len [x]) with 1. split; [lia|].
      intros k Hk. destruct (Z.eq_dec k (len l)) as [->|]; [rewrite snoc_r; exact Hx|rewrite snoc_l by lia; apply I2; lia].
  - intros l (I1 & I2). split; [apply I1; lia|]. intros k Hk. apply all_result_near, I2, Hk.
Qed.
End SegAll.
