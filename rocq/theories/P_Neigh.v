(* Moving a point of a curve by the weights of two neighbouring control points. *)
From Coq Require Import ZArith List Bool Reals Lra Lia.
From Verif Require Import Base Num Vec Tac Spec Spec2 Spec3 Spec4 Spec5 Spec10 Spec16 M_MathUtils M_XYZ M_Bspline M_NurbsCurve M_Geom M_Curve3
  P_MathUtils P_Span P_Cox P_Vec P_XYZ P_VSum P_Curve P_Basis P_Bspline P_Loop P_Nurbs P_Make P_Matrix P_Geom P_Interp P_Interp2 P_Shape P_Surf6 P_Surf7.
Import ListNotations.
Open Scope Z_scope.

Lemma rsum_two m k f : 0 <= k -> k + 1 < m -> rsum 0 m f = (rsum 0 m (fun i => if (i =? k) || (i =? k + 1) then 0 else f i) + f k + f (k + 1)%Z)%R.
Proof.
  intros H0 H1. 
  rewrite (rsum_ext 0 m f (fun i => (if (i =? k) || (i =? k + 1) then 0 else f i) + ((if i =? k then f i else 0) + (if i =? k + 1 then f i else 0)))%R) by (intros i Hi; zcase; try lia; ring).
  rewrite !rsum_plus. rewrite (rsum_single 0 m k (fun i => if i =? k then f i else 0%R)) by (try lia; intros i Hi Hk; zcase; try lia; reflexivity).
  rewrite (rsum_single 0 m (k + 1) (fun i => if i =? k + 1 then f i else 0%R)) by (try lia; intros i Hi Hk; zcase; try lia; reflexivity).
  rewrite !Z.eqb_refl. ring.
Qed.
Lemma not_less x : IsLessThan (Rabs x) 0%R = false.
Proof.
  unfold IsLessThan, IsLessThan_tol. num. cbn [orb]. unfold Rltb. destruct Rlt_dec as [L|L]; [|reflexivity]. exfalso. pose proof (Rabs_pos x). unfold nmax in L.
  revert L. num. unfold Rltb. rewrite Rabs_Rabsolu, Rabs_R0. intros L. assert (0 < DoubleEpsilon)%R by (unfold DoubleEpsilon; num; lra). destruct (Rlt_dec _ _); nra.
Qed.
Lemma norm_abs k a : norm3 (times3 k a) = (Rabs k * norm3 a)%R.
Proof.
  unfold Rabs. destruct (Rcase_abs k).
  - replace (times3 k a) with (times3 (- k) (times3 (-1) a)) by (unfold times3; cbn [gx gy gz]; f_equal; ring). rewrite norm_times by lra. rewrite norm_opp. reflexivity.
  - apply norm_times. lra.
Qed.

Section Neigh.
Variables (p n : Z) (U : list R) (H : list (XYZW R)) (t : R) (k : Z).
Hypothesis HK : curve_knots p n U.
Hypothesis H7 : p <= 7.
Hypothesis HH : len H = n + 1.
Hypothesis HD : in_domain p n U t.
Hypothesis HW : heavy H.
Hypothesis Hk : 0 <= k < n.
Let B i := N (val U) (val U (n + 1)) (Z.to_nat p) i t.
Let s := ww (rest p n U H k t).
Let a := (B k * ww (pt H k))%R.
Let b := (B (k + 1) * ww (pt H (k + 1)))%R.
Let RR := proj (rest p n U H k t).
Let PP := proj (curve_point p n U H t).
Let M1 := proj (pt H k).
Let M2 := proj (pt H (k + 1)).
Hypothesis Hs : (tol s 0 < s)%R.

Lemma rest_agree H' : (forall i, 0 <= i <= n -> i <> k -> i <> k + 1 -> pt H' i = pt H i) ->
  forall c, co c (curve_point p n U H' t) = (co c (rest p n U H k t) + B k * co c (pt H' k) + B (k + 1)%Z * co c (pt H' (k + 1)))%R.
Proof.
  intros HA c. unfold curve_point, rest. rewrite !co_comb. rewrite (rsum_two (n + 1) k) by lia. f_equal. f_equal. apply rsum_ext. intros i Hi. zcase; try ring. rewrite HA by lia. reflexivity.
Qed.

Lemma s_pos : (0 < s)%R.
Proof. pose proof (tol_pos s 0). lra. Qed.
Lemma pos_of (x : XYZW R) : (tol (ww x) 0 < ww x)%R -> (0 < ww x)%R.
Proof. pose proof (tol_pos (ww x) 0). lra. Qed.
Lemma w_pos i : 0 <= i <= n -> (0 < ww (pt H i))%R.
Proof. intros Hi. apply pos_of, HW. lia. Qed.
Lemma B_nonneg i : 0 <= i <= n -> (0 <= B i)%R.
Proof. intros Hi. apply N_nonneg; assumption. Qed.

Definition tot := (s + a + b)%R.
Lemma total : ww (curve_point p n U H t) = tot.
Proof. exact (rest_agree H ltac:(auto) 3). Qed.
Lemma tol_heavy x y : (tol x 0 < x)%R -> (x <= y)%R -> (tol y 0 < y)%R.
Proof. unfold tol. rewrite !Rabs_R0. pose proof (Rabs_pos x). pose proof (Rabs_pos y). rewrite !Rmax_left by assumption. intros. rewrite Rabs_right in * |- by lra. rewrite Rabs_right by lra. lra. Qed.
Lemma ab_nonneg : (0 <= a)%R /\ (0 <= b)%R.
Proof. pose proof (w_pos k ltac:(lia)). pose proof (w_pos (k + 1) ltac:(lia)). pose proof (B_nonneg k ltac:(lia)). pose proof (B_nonneg (k + 1) ltac:(lia)). unfold a, b. split; apply Rmult_le_pos; lra. Qed.
Lemma tot_heavy : (tol tot 0 < tot)%R.
Proof. apply (tol_heavy s); [exact Hs|]. unfold tot. pose proof ab_nonneg. lra. Qed.

Lemma proj_c (x : XYZW R) : (0 < ww x)%R -> wx x = (ww x * gx (proj x))%R /\ wy x = (ww x * gy (proj x))%R /\ wz x = (ww x * gz (proj x))%R.
Proof. intros Hx. unfold proj. cbn [gx gy gz]. repeat split; field; lra. Qed.
Lemma point_mix : times3 tot PP = plus3 (times3 s RR) (plus3 (times3 a M1) (times3 b M2)).
Proof.
  pose proof (rest_agree H ltac:(auto) 0) as E0. pose proof (rest_agree H ltac:(auto) 1) as E1. pose proof (rest_agree H ltac:(auto) 2) as E2.
  change (co 0 (curve_point p n U H t)) with (wx (curve_point p n U H t)) in E0. change (co 1 (curve_point p n U H t)) with (wy (curve_point p n U H t)) in E1. change (co 2 (curve_point p n U H t)) with (wz (curve_point p n U H t)) in E2.
  change (co 0 (rest p n U H k t)) with (wx (rest p n U H k t)) in E0. change (co 1 (rest p n U H k t)) with (wy (rest p n U H k t)) in E1. change (co 2 (rest p n U H k t)) with (wz (rest p n U H k t)) in E2.
  change (co 0 (pt H k)) with (wx (pt H k)) in E0. change (co 1 (pt H k)) with (wy (pt H k)) in E1. change (co 2 (pt H k)) with (wz (pt H k)) in E2.
  change (co 0 (pt H (k + 1))) with (wx (pt H (k + 1))) in E0. change (co 1 (pt H (k + 1))) with (wy (pt H (k + 1))) in E1. change (co 2 (pt H (k + 1))) with (wz (pt H (k + 1))) in E2.
  destruct (proj_c (pt H k) (w_pos k ltac:(lia))) as (A0 & A1 & A2). destruct (proj_c (pt H (k + 1)) (w_pos (k + 1) ltac:(lia))) as (B0 & B1 & B2).
  destruct (proj_c (rest p n U H k t) s_pos) as (C0 & C1 & C2). fold s in C0, C1, C2.
  assert (TP : (0 < ww (curve_point p n U H t))%R) by (rewrite total; pose proof (tol_pos tot 0); pose proof tot_heavy; lra).
  destruct (proj_c _ TP) as (D0 & D1 & D2). rewrite total in D0, D1, D2.
  fold RR in C0, C1, C2. fold PP in D0, D1, D2. fold M1 in A0, A1, A2. fold M2 in B0, B1, B2.
  unfold plus3, times3. cbn [gx gy gz]. f_equal; unfold a, b; [rewrite <- D0, E0, C0, A0, B0|rewrite <- D1, E1, C1, A1, B1|rewrite <- D2, E2, C2, A2, B2]; ring.
Qed.

Definition muted : list (XYZW R) := mklist (n + 1) (fun i => if i =? k then mkW M1 0%R else if i =? k + 1 then mkW M2 0%R else pt H i).
Lemma NurbsPoint_P : NurbsPoint (mkCurve p U H) t = Ok PP.
Proof. rewrite (NurbsPoint_ok p n) by assumption. destruct (heavy_ToXYZ (curve_point p n U H t)) as (E & _); [rewrite total; exact tot_heavy|exact E]. Qed.
Lemma get_heavy i : 0 <= i <= n -> ToXYZ (pt H i) true = Ok (proj (pt H i)).
Proof. intros Hi. apply heavy_ToXYZ, HW. lia. Qed.
Lemma NurbsPoint_R L : arr L (n + 1) (fun i => if i =? k then mkW M1 0%R else if i =? k + 1 then mkW M2 0%R else pt H i) -> NurbsPoint (mkCurve p U L) t = Ok RR.
Proof.
  intros HL. assert (LL : len L = n + 1) by exact (proj1 HL). rewrite (NurbsPoint_ok p n) by assumption.
  assert (E : curve_point p n U L t = rest p n U H k t).
  { assert (PL : forall i, 0 <= i <= n -> pt L i = if i =? k then mkW M1 0%R else if i =? k + 1 then mkW M2 0%R else pt H i) by (intros i Hi; unfold pt at 1; apply (arr_at_eq _ _ _ _ _ HL); lia).
    apply co_ext. intros c. rewrite (rest_agree L) by (intros i Hi N1 N2; rewrite PL by lia; zcase; try lia; reflexivity). rewrite !PL by lia. zcase; try lia.
    assert (Z : forall x, co c (mkW x 0%R) = 0%R) by (intros x; unfold mkW; num; destruct c as [|[|[|c]]]; cbn; ring). rewrite !Z. ring. }
  rewrite E. destruct (heavy_ToXYZ (rest p n U H k t)) as (E' & _); [exact Hs|exact E'].
Qed.

Hypothesis Hob : oblique M1 (minus3 M1 M2) RR (minus3 RR PP).
Variables (d scale : R).
Hypothesis Hd : ~ small d.
Hypothesis Hsc : ~ small scale.
Let RP := dist3 PP RR.
Let L := dist3 M2 M1.
Let q := ((a + b) / tot)%R.
Let q' := (q * (RP + d) / RP)%R.

Lemma dist_sym (x y : XYZ R) : dist3 x y = dist3 y x.
Proof. unfold dist3, norm3. f_equal. unfold dot3, minus3. cbn [gx gy gz]. ring. Qed.
Lemma pos_norm x : (1 / 10 ^ 12 < dot3 x x)%R -> (0 < norm3 x)%R.
Proof. intros Hx. unfold norm3. apply sqrt_lt_R0. assert (0 < 1 / 10 ^ 12)%R by (apply Rdiv_lt_0_compat; [lra|apply pow_lt; lra]). lra. Qed.
Lemma RP_pos : (0 < RP)%R.
Proof. unfold RP. rewrite dist_sym. apply pos_norm. apply Hob. Qed.
Lemma L_pos : (0 < L)%R.
Proof. unfold L. rewrite dist_sym. apply pos_norm. apply Hob. Qed.
Lemma tot_pos : (0 < tot)%R. Proof. pose proof (tol_pos tot 0). pose proof tot_heavy. lra. Qed.
Lemma ab_pos : (0 < a + b)%R.
Proof.
  pose proof ab_nonneg. destruct (Req_dec (a + b) 0) as [E|E]; [|lra]. exfalso. assert (a = 0 /\ b = 0)%R as (Ea & Eb) by lra.
  pose proof point_mix as M. unfold tot in M. rewrite Ea, Eb in M. pose proof s_pos.
  assert (EPR : PP = RR). { pose proof (f_equal gx M) as G1. pose proof (f_equal gy M) as G2. pose proof (f_equal gz M) as G3. unfold times3, plus3 in G1, G2, G3. cbn [gx gy gz] in G1, G2, G3. destruct PP as [x y z], RR as [x' y' z']. cbn [gx gy gz] in *. f_equal; apply Rmult_eq_reg_l with s; lra. }
  pose proof RP_pos as HR. unfold RP in HR. rewrite EPR, dist_self in HR. lra.
Qed.

Definition QQ : XYZ R := line_at M1 (minus3 M1 M2) (- (b / (a + b))).
Lemma QQ_ray : QQ = line_at RR (minus3 RR PP) (- (tot / (a + b))).
Proof.
  pose proof point_mix as M. pose proof ab_pos as P. unfold QQ. unfold tot in *. pose proof (f_equal gx M) as N1. pose proof (f_equal gy M) as N2. pose proof (f_equal gz M) as N3. clear M.
  destruct PP as [x y z], RR as [x' y' z'], M1 as [u v w], M2 as [u' v' w']. unfold line_at, times3, plus3, minus3 in *. cbn [gx gy gz] in *.
  f_equal; apply Rmult_eq_reg_r with (a + b)%R; try lra.
  - transitivity (a * u + b * u')%R; [field; lra|]. transitivity ((s + a + b) * x - s * x')%R; [lra|]. field. lra.
  - transitivity (a * v + b * v')%R; [field; lra|]. transitivity ((s + a + b) * y - s * y')%R; [lra|]. field. lra.
  - transitivity (a * w + b * w')%R; [field; lra|]. transitivity ((s + a + b) * z - s * z')%R; [lra|]. field. lra.
Qed.
Lemma Rays x y o : ComputeRays M1 (minus3 M1 M2) RR (minus3 RR PP) x y o = Ok (Intersecting, (- (b / (a + b)))%R, (- (tot / (a + b)))%R, QQ).
Proof. destruct Hob as (O1 & O2 & O3 & O4). apply ComputeRays_meet; try assumption. exact QQ_ray. Qed.

Lemma RQ_eq : dist3 QQ RR = (RP / q)%R.
Proof.
  rewrite QQ_ray. unfold dist3 at 1. replace (minus3 _ _) with (times3 (tot / (a + b)) (minus3 PP RR)) by (unfold line_at, minus3, plus3, times3; cbn [gx gy gz]; f_equal; ring).
  pose proof ab_pos. pose proof tot_pos. rewrite norm_times by (left; apply Rdiv_lt_0_compat; lra). fold (dist3 PP RR). fold RP. unfold q. field. lra.
Qed.
Lemma q_pos : (0 < q)%R. Proof. apply Rdiv_lt_0_compat; [apply ab_pos|apply tot_pos]. Qed.
Lemma q_1 : (1 - q = s / tot)%R. Proof. unfold q. pose proof tot_pos. unfold tot in *. field. lra. Qed.
Lemma dist_1 c : dist3 (plus3 M1 (times3 c (minus3 QQ M1))) M1 = (Rabs c * (b / (a + b)) * L)%R.
Proof.
  unfold dist3 at 1. replace (minus3 _ _) with (times3 (c * (b / (a + b))) (minus3 M2 M1)) by (unfold QQ, line_at, minus3, plus3, times3; cbn [gx gy gz]; f_equal; ring).
  rewrite norm_abs, Rabs_mult. fold (dist3 M2 M1). fold L. rewrite (Rabs_right (b / (a + b))); [reflexivity|]. apply Rle_ge. pose proof ab_pos. pose proof ab_nonneg. apply Rle_mult_inv_pos; lra.
Qed.
Lemma dist_2 c : dist3 (plus3 M2 (times3 c (minus3 QQ M2))) M2 = (Rabs c * (a / (a + b)) * L)%R.
Proof.
  pose proof ab_pos as AP. unfold dist3 at 1. replace (minus3 _ _) with (times3 (c * (a / (a + b))) (minus3 M1 M2)) by (unfold QQ, line_at, minus3, plus3, times3; cbn [gx gy gz]; f_equal; field; lra).
  rewrite norm_abs, Rabs_mult. fold (dist3 M1 M2). rewrite dist_sym. fold L. rewrite (Rabs_right (a / (a + b))); [reflexivity|]. apply Rle_ge. pose proof ab_nonneg. apply Rle_mult_inv_pos; lra.
Qed.

(* the call up to the division by the two shares *)
Lemma Neigh_start : NeighborWeightsModification (mkCurve p U H) t k d scale =
  (let ak := (q * (a / (a + b)))%R in let ak1 := (q * (b / (a + b)))%R in
   let abk := (Rabs q' * (a / (a + b)))%R in let abk1 := (Rabs q' * (b / (a + b)))%R in
   let! aa := Rdiv_ (1 - ak - ak1)%R ak in
   let! bb := Rdiv_ (1 - abk - abk1)%R abk in
   let! betak := Rdiv_ aa bb in
   let! aa1 := Rdiv_ (1 - ak - ak1)%R ak1 in
   let! bb1 := Rdiv_ (1 - abk - abk1)%R abk1 in
   let! betak1 := Rdiv_ aa1 bb1 in
   let! H1 := upd H k (mkW M1 (ww (pt H k) * betak)%R) in
   let! c1 := get H1 (k + 1) in
   let! H2 := upd H1 (k + 1) (mkW M2 (ww c1 * betak1)%R) in
   Ok (Some (mkCurve p U H2))).
Proof.
  unfold NeighborWeightsModification. cbn [ControlPoints KnotVector Degree]. rewrite (P_Bspline.domain_ok p n) by assumption. cbn [bind].
  unfold validate_int_range. rewrite (proj2 (Z.ltb_ge k 0)), (proj2 (Z.ltb_ge (len H - 1) k)) by lia. cbn [orb negb validate bind].
  num. rewrite (proj2 (small_false d) Hd), (proj2 (small_false scale) Hsc). cbn [negb validate bind].
  rewrite (get_at vzero H k) by lia. cbn [bind]. fold (pt H k). rewrite get_heavy by lia. cbn [bind]. fold M1.
  assert (A0 : arr H (n + 1) (pt H)) by (rewrite <- HH; apply arr_at).
  destruct (wp_elim _ _ (arr_upd H (n + 1) (pt H) k (mkW M1 0%R) (fun l => arr l (n + 1) (fun i => if i =? k then mkW M1 0%R else pt H i)) A0 ltac:(lia) (fun l h => h))) as (T1 & E1 & HT1).
  rewrite E1. cbn [bind]. rewrite (arr_get _ _ _ (k + 1) HT1) by lia. cbn [bind]. destruct (Z.eqb_spec (k + 1) k); [lia|]. rewrite get_heavy by lia. cbn [bind]. fold M2.
  destruct (wp_elim _ _ (arr_upd T1 (n + 1) _ (k + 1) (mkW M2 0%R) (fun l => arr l (n + 1) (fun i => if i =? k + 1 then mkW M2 0%R else if i =? k then mkW M1 0%R else pt H i)) HT1 ltac:(lia) (fun l h => h))) as (T2 & E2 & HT2).
  rewrite E2. cbn [bind]. rewrite (NurbsPoint_R T2) by (eapply arr_ext; [exact HT2|]; intros i Hi; zcase; try lia; reflexivity). cbn [bind].
  rewrite Distance_eq. cbn [bind]. rewrite NurbsPoint_P. cbn [bind]. g3. rewrite Rays. cbn [bind].
  rewrite !Distance_eq. cbn [bind]. fold RP L. rewrite RQ_eq. pose proof RP_pos. pose proof L_pos. pose proof q_pos.
  rewrite xyz_div_ok by lra. cbn [bind]. rewrite !Rdiv_ok by (assert (0 < RP / q)%R by (apply Rdiv_lt_0_compat; lra); lra). cbn [bind].
  assert (Q1 : (RP / (RP / q) = q)%R) by (field; lra). assert (Q2 : ((RP + d) / (RP / q) = q')%R) by (unfold q'; field; lra).
  rewrite Q1, Q2. rewrite !scale_eq. rewrite Distance_eq, dist_2. cbn [bind].
  assert (LL : forall x, Rdiv_ (x * L)%R L = Ok x) by (intros x; rewrite Rdiv_ok by lra; f_equal; field; lra).
  rewrite LL. cbn [bind]. rewrite Distance_eq, dist_1. cbn [bind]. rewrite LL. cbn [bind]. rewrite Distance_eq, dist_2. cbn [bind]. rewrite LL. cbn [bind]. rewrite Distance_eq, dist_1. cbn [bind]. rewrite LL. cbn [bind].
  rewrite (Rabs_right q) by lra. rewrite !not_less. cbn [orb]. reflexivity.
Qed.

Definition beta := ((1 - q) * q' / (q * (1 - q')))%R.
Lemma Neigh_ok : (0 < B k)%R -> (0 < B (k + 1))%R -> (0 < RP + d)%R -> q' <> 1%R ->
  exists H', NeighborWeightsModification (mkCurve p U H) t k d scale = Ok (Some (mkCurve p U H')) /\
    reweighted H H' (fun i => if (i =? k) || (i =? k + 1) then beta else 1%R).
Proof.
  intros B1 B2 Hr Hq. assert (a1 : (0 < a)%R) by (apply Rmult_lt_0_compat; [exact B1|apply w_pos; lia]). assert (b1 : (0 < b)%R) by (apply Rmult_lt_0_compat; [exact B2|apply w_pos; lia]).
  pose proof RP_pos. pose proof q_pos. assert (qq : (0 < q')%R) by (unfold q'; apply Rdiv_lt_0_compat; [apply Rmult_lt_0_compat; lra|lra]).
  rewrite Neigh_start. cbv zeta. rewrite (Rabs_right q') by lra.
  assert (X : forall c, (1 - c * (a / (a + b)) - c * (b / (a + b)) = 1 - c)%R) by (intros c; field; lra). rewrite !X.
  assert (ra : (0 < a / (a + b))%R) by (apply Rdiv_lt_0_compat; lra). assert (rb : (0 < b / (a + b))%R) by (apply Rdiv_lt_0_compat; lra).
  set (ra_ := (a / (a + b))%R) in *. set (rb_ := (b / (a + b))%R) in *.
  assert (D1 : (q * ra_ <> 0)%R) by nra. assert (D2 : (q' * ra_ <> 0)%R) by nra. assert (D3 : (q * rb_ <> 0)%R) by nra. assert (D4 : (q' * rb_ <> 0)%R) by nra.
  rewrite (Rdiv_ok (1 - q) (q * ra_)) by exact D1. cbn [bind]. rewrite (Rdiv_ok (1 - q') (q' * ra_)) by exact D2. cbn [bind].
  assert (E1 : ((1 - q') / (q' * ra_) <> 0)%R). { unfold Rdiv. apply Rmult_integral_contrapositive_currified; [lra|]. apply Rinv_neq_0_compat. exact D2. }
  assert (E2 : ((1 - q') / (q' * rb_) <> 0)%R). { unfold Rdiv. apply Rmult_integral_contrapositive_currified; [lra|]. apply Rinv_neq_0_compat. exact D4. }
  rewrite (Rdiv_ok _ ((1 - q') / (q' * ra_))) by exact E1. cbn [bind]. rewrite (Rdiv_ok (1 - q) (q * rb_)) by exact D3. cbn [bind]. rewrite (Rdiv_ok (1 - q') (q' * rb_)) by exact D4. cbn [bind].
  rewrite (Rdiv_ok _ ((1 - q') / (q' * rb_))) by exact E2. cbn [bind].
  replace ((1 - q) / (q * ra_) / ((1 - q') / (q' * ra_)))%R with beta by (unfold beta; field; repeat split; lra).
  replace ((1 - q) / (q * rb_) / ((1 - q') / (q' * rb_)))%R with beta by (unfold beta; field; repeat split; lra).
  assert (A0 : arr H (n + 1) (pt H)) by (rewrite <- HH; apply arr_at).
  destruct (wp_elim _ _ (arr_upd H (n + 1) (pt H) k (mkW M1 (ww (pt H k) * beta)%R) (fun l => arr l (n + 1) (fun i => if i =? k then mkW M1 (ww (pt H k) * beta)%R else pt H i)) A0 ltac:(lia) (fun l h => h))) as (T1 & F1 & HT1).
  rewrite F1. cbn [bind]. rewrite (arr_get _ _ _ (k + 1) HT1) by lia. cbn [bind]. destruct (Z.eqb_spec (k + 1) k); [lia|].
  destruct (wp_elim _ _ (arr_upd T1 (n + 1) _ (k + 1) (mkW M2 (ww (pt H (k + 1)) * beta)%R) (fun l => arr l (n + 1) (fun i => if i =? k + 1 then mkW M2 (ww (pt H (k + 1)) * beta)%R else if i =? k then mkW M1 (ww (pt H k) * beta)%R else pt H i)) HT1 ltac:(lia) (fun l h => h))) as (T2 & F2 & HT2).
  rewrite F2. cbn [bind]. exists T2. split; [reflexivity|]. split; [rewrite (proj1 HT2); lia|].
  intros i Hi. unfold pt at 1. rewrite (arr_at_eq _ _ _ _ _ HT2) by lia. destruct (Z.eqb_spec i (k + 1)) as [->|N2].
  - rewrite orb_true_r. unfold mkW, hom. num. reflexivity.
  - destruct (Z.eqb_spec i k) as [->|N1]; cbn [orb].
    + unfold mkW, hom. num. reflexivity.
    + pose proof (w_pos i ltac:(lia)). unfold hom, proj. cbn [gx gy gz]. destruct (pt H i) as [x y z w]. cbn [wx wy wz ww] in *. f_equal; field; lra.
Qed.

Lemma Neigh_point H' : (0 < RP + d)%R -> (q' < 1)%R -> reweighted H H' (fun i => if (i =? k) || (i =? k + 1) then beta else 1%R) ->
  exists u, direction_of (minus3 PP RR) u /\ NurbsPoint (mkCurve p U H') t = Ok (line_at PP u d) /\ (0 < beta)%R.
Proof.
  intros Hr Hq (HL & HP'). pose proof RP_pos as HRP. pose proof q_pos as Hq0. assert (qq : (0 < q')%R) by (unfold q'; apply Rdiv_lt_0_compat; [apply Rmult_lt_0_compat; lra|lra]).
  pose proof q_1 as Q1. pose proof tot_pos as TP. pose proof s_pos as SP. pose proof ab_pos as AP.
  assert (q1 : (0 < 1 - q)%R) by (rewrite Q1; apply Rdiv_lt_0_compat; lra).
  exists (times3 (/ RP) (minus3 PP RR)). split; [|split].
  - split.
    + transitivity (/ RP * / RP * dot3 (minus3 PP RR) (minus3 PP RR))%R; [unfold dot3, times3; cbn [gx gy gz]; ring|]. rewrite <- norm_sq. fold (dist3 PP RR). fold RP. field. lra.
    + exists RP. split; [exact HRP|]. unfold times3, minus3. cbn [gx gy gz]. f_equal; field; lra.
  - rewrite (NurbsPoint_ok p n) by (assumption || lia).
    assert (PW : forall i, 0 <= i <= n -> i <> k -> i <> k + 1 -> pt H' i = pt H i).
    { intros i Hi N1 N2. rewrite HP' by lia. zcase; try lia. pose proof (w_pos i ltac:(lia)). unfold hom, proj. cbn [gx gy gz]. destruct (pt H i) as [x y z w]. cbn [wx wy wz ww] in *. f_equal; field; lra. }
    pose proof (rest_agree H' PW) as RA. rewrite !HP' in RA by lia. rewrite Z.eqb_refl in RA. cbn [orb] in RA. rewrite Z.eqb_refl, orb_true_r in RA. fold M1 M2 in RA.
    set (X := curve_point p n U H' t) in *.
    pose proof (RA 0%nat) as X0. pose proof (RA 1%nat) as X1. pose proof (RA 2%nat) as X2. pose proof (RA 3%nat) as X3. clear RA.
    change (co 0 X) with (wx X) in X0. change (co 1 X) with (wy X) in X1. change (co 2 X) with (wz X) in X2. change (co 3 X) with (ww X) in X3.
    change (co 0 (rest p n U H k t)) with (wx (rest p n U H k t)) in X0. change (co 1 (rest p n U H k t)) with (wy (rest p n U H k t)) in X1. change (co 2 (rest p n U H k t)) with (wz (rest p n U H k t)) in X2. change (co 3 (rest p n U H k t)) with s in X3.
    change (co 0 (hom M1 (ww (pt H k) * beta))) with (gx M1 * (ww (pt H k) * beta))%R in X0. change (co 1 (hom M1 (ww (pt H k) * beta))) with (gy M1 * (ww (pt H k) * beta))%R in X1. change (co 2 (hom M1 (ww (pt H k) * beta))) with (gz M1 * (ww (pt H k) * beta))%R in X2. change (co 3 (hom M1 (ww (pt H k) * beta))) with (ww (pt H k) * beta)%R in X3.
    change (co 0 (hom M2 (ww (pt H (k + 1)) * beta))) with (gx M2 * (ww (pt H (k + 1)) * beta))%R in X0. change (co 1 (hom M2 (ww (pt H (k + 1)) * beta))) with (gy M2 * (ww (pt H (k + 1)) * beta))%R in X1. change (co 2 (hom M2 (ww (pt H (k + 1)) * beta))) with (gz M2 * (ww (pt H (k + 1)) * beta))%R in X2. change (co 3 (hom M2 (ww (pt H (k + 1)) * beta))) with (ww (pt H (k + 1)) * beta)%R in X3.
    destruct (proj_c (rest p n U H k t) s_pos) as (C0 & C1 & C2). fold s RR in C0, C1, C2. rewrite C0 in X0. rewrite C1 in X1. rewrite C2 in X2.
    assert (BE : (beta * (a + b) = s * q' / (1 - q'))%R). { unfold beta. rewrite Q1. unfold q. field. repeat split; lra. }
    assert (W : ww X = (s / (1 - q'))%R). { transitivity (s + beta * (a + b))%R; [rewrite X3; unfold a, b; ring|]. rewrite BE. field. lra. }
    assert (WH : (tol (ww X) 0 < ww X)%R). { rewrite W. apply (tol_heavy s); [exact Hs|]. apply Rmult_le_reg_r with (1 - q')%R; [lra|]. unfold Rdiv. rewrite Rmult_assoc, Rinv_l by lra. nra. }
    destruct (heavy_ToXYZ X WH) as (E & WN). rewrite E. f_equal. unfold proj.
    assert (G : forall x r m1 m2 pp, x = (s * r + B k * (m1 * (ww (pt H k) * beta)) + B (k + 1) * (m2 * (ww (pt H (k + 1)) * beta)))%R -> (tot * pp = s * r + (a * m1 + b * m2))%R -> (x / ww X = pp + d * (/ RP * (pp - r)))%R).
    { intros x r m1 m2 pp Ex Ep. assert (Ex' : x = (s * r + beta * (a * m1 + b * m2))%R) by (rewrite Ex; unfold a, b; ring). clear Ex.
      assert (Ez : (a * m1 + b * m2 = tot * pp - s * r)%R) by lra. rewrite Ez in Ex'. rewrite Ex', W.
      assert (Eb : beta = (s * q' / ((1 - q') * (a + b)))%R) by (apply Rmult_eq_reg_r with (a + b)%R; [rewrite BE; field; lra|lra]). rewrite Eb.
      transitivity ((1 - q') * r + q' * (tot * pp - s * r) / (a + b))%R; [field; repeat split; lra|].
      transitivity (r + q' / q * (pp - r))%R; [|unfold q'; field; split; lra].
      assert (st : s = (tot - (a + b))%R) by (unfold tot; ring). rewrite st. unfold q. field. split; lra. }
    pose proof point_mix as M. pose proof (f_equal gx M) as N1. pose proof (f_equal gy M) as N2. pose proof (f_equal gz M) as N3. unfold times3, plus3 in N1, N2, N3. cbn [gx gy gz] in N1, N2, N3.
    unfold line_at, plus3, times3, minus3. cbn [gx gy gz]. f_equal; eapply G; eassumption.
  - unfold beta. apply Rdiv_lt_0_compat; apply Rmult_lt_0_compat; lra.
Qed.
Lemma Neigh_negative : (1 < q')%R -> (beta < 0)%R.
Proof.
  intros Hq. pose proof q_pos. pose proof q_1 as Q1. pose proof tot_pos. pose proof s_pos. assert (q1 : (0 < 1 - q)%R) by (rewrite Q1; apply Rdiv_lt_0_compat; lra).
  unfold beta. replace ((1 - q) * q' / (q * (1 - q')))%R with (- ((1 - q) * q' / (q * (q' - 1))))%R by (field; split; lra).
  assert (0 < (1 - q) * q' / (q * (q' - 1)))%R; [|lra]. apply Rdiv_lt_0_compat; apply Rmult_lt_0_compat; lra.
Qed.
Lemma Neigh_zero : B k = 0%R \/ B (k + 1) = 0%R -> NeighborWeightsModification (mkCurve p U H) t k d scale = NonFin.
Proof.
  intros HB. rewrite Neigh_start. cbv zeta. destruct (Req_dec a 0) as [Ea|Ea].
  - rewrite Ea. replace (q * (0 / (0 + b)))%R with 0%R by (unfold Rdiv; ring). rewrite Rdiv_zero by reflexivity. reflexivity.
  - assert (Eb : b = 0%R). { destruct HB as [HB|HB]; [exfalso; apply Ea; unfold a; rewrite HB; ring|unfold b; rewrite HB; ring]. }
    rewrite Eb. replace (q * (0 / (a + 0)))%R with 0%R by (unfold Rdiv; ring). replace (Rabs q' * (0 / (a + 0)))%R with 0%R by (unfold Rdiv; ring).
    assert (D : forall x y, Rdiv_ x y = NonFin \/ exists z, Rdiv_ x y = Ok z) by (intros x y; unfold Rdiv_; destruct Req_EM_T; eauto).
    match goal with |- (let! _ := ?m in _) = _ => destruct (D (1 - q * (a / (a + 0)) - 0)%R (q * (a / (a + 0)))%R) as [E|(z & E)]; rewrite E; cbn [bind]; [reflexivity|] end.
    match goal with |- (let! _ := Rdiv_ ?x ?y in _) = _ => destruct (D x y) as [E2|(z2 & E2)]; rewrite E2; cbn [bind]; [reflexivity|] end.
    match goal with |- (let! _ := Rdiv_ ?x ?y in _) = _ => destruct (D x y) as [E3|(z3 & E3)]; rewrite E3; cbn [bind]; [reflexivity|] end.
    rewrite Rdiv_zero by reflexivity. reflexivity.
Qed.
End Neigh.

Lemma get_end {X} (l : list X) : get l (len l) = UB.
Proof. unfold get. pose proof (len_nonneg l). destruct (Z.ltb_spec (len l) 0); [lia|]. rewrite (proj2 (nth_error_None _ _)); [reflexivity|]. unfold len. lia. Qed.
Lemma Neigh_last p n U H t d scale : curve_knots p n U -> len H = n + 1 -> in_domain p n U t -> heavy H -> ~ small d -> ~ small scale ->
  NeighborWeightsModification (mkCurve p U H) t n d scale = UB.
Proof.
  intros HK HH HD HW Hd Hsc. pose proof (ck_p _ _ _ HK). pose proof (ck_n _ _ _ HK). unfold NeighborWeightsModification. cbn [ControlPoints KnotVector Degree]. rewrite (P_Bspline.domain_ok p n) by assumption. cbn [bind].
  unfold validate_int_range. rewrite (proj2 (Z.ltb_ge n 0)), (proj2 (Z.ltb_ge (len H - 1) n)) by lia. cbn [orb negb validate bind].
  num. rewrite (proj2 (small_false d) Hd), (proj2 (small_false scale) Hsc). cbn [negb validate bind].
  rewrite (get_at vzero H n) by lia. cbn [bind]. fold (pt H n). destruct (heavy_ToXYZ (pt H n)) as (E & _); [apply HW; lia|]. rewrite E. cbn [bind].
  assert (A0 : arr H (n + 1) (pt H)) by (rewrite <- HH; apply arr_at).
  destruct (wp_elim _ _ (arr_upd H (n + 1) (pt H) n (mkW (proj (pt H n)) 0%R) _ A0 ltac:(lia) (fun l h => h))) as (T1 & E1 & HT1).
  rewrite E1. cbn [bind]. replace (n + 1) with (len T1) by exact (proj1 HT1). rewrite get_end. reflexivity.
Qed.
Lemma Neigh_scale c t k d s s' : ~ small s -> ~ small s' -> NeighborWeightsModification c t k d s = NeighborWeightsModification c t k d s'.
Proof.
  intros S S'. unfold NeighborWeightsModification. num. rewrite (proj2 (small_false s) S), (proj2 (small_false s') S'). reflexivity.
Qed.
