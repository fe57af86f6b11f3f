(* Sampling surfaces and testing them for closedness. *)
From Coq Require Import ZArith List Bool Reals Lra Lia.
From Verif Require Import Base Num Vec Tac Spec Spec2 Spec3 Spec4 Spec5 Spec10 Spec12 M_MathUtils M_XYZ M_Bspline M_NurbsCurve M_Knots M_Shape M_Surface M_Surface2
  P_Span P_Cox P_Basis P_Vec P_XYZ P_VSum P_Curve P_Bspline P_BsplineS P_Loop P_Nurbs P_Insert P_Insert2 P_Refine P_Merge P_KnotMap2 P_Ruled P_Surface P_Shape P_Shape2 P_Shape3 P_Surf3 P_Surf4.
Import ListNotations.
Open Scope Z_scope.

(* a lower bound for the values of an affine function at the control points is one at the points *)
Lemma surface_hull {T} {V : Vec R T} {L : VecL T} p n U q m W (P : list (list T)) u v (f : T -> R) c : curve_knots p n U -> curve_knots q m W -> in_domain p n U u -> in_domain q m W v -> affine f ->
  (forall i j, 0 <= i <= n -> 0 <= j <= m -> (c <= f (pt2 P i j))%R) -> (c <= f (surface_point p n U q m W P u v))%R.
Proof.
  intros HU HW Du Dv Hf Hc. unfold surface_point. apply hull_comb; [exact Hf|apply N_sum; auto|intros i Hi; apply N_nonneg; auto; lia|].
  intros i Hi. apply hull_comb; [exact Hf|apply N_sum; auto|intros j Hj; apply N_nonneg; auto; lia|]. intros j Hj. apply Hc; lia.
Qed.

Lemma least_weight2 n m (P : list (list W4)) : 0 <= n -> 0 <= m -> heavy_net n m P ->
  exists c, (1 / 999999 < c)%R /\ forall i j, 0 <= i <= n -> 0 <= j <= m -> (c <= ww (pt2 P i j))%R.
Proof.
  intros Hn Hm HH.
  assert (Q : forall n (D : Z -> R -> Prop), 0 <= n -> (forall i a b, (a <= b)%R -> D i b -> D i a) -> (forall i, 0 <= i <= n -> exists m, (1 / 999999 < m)%R /\ D i m) ->
      exists m, (1 / 999999 < m)%R /\ forall i, 0 <= i <= n -> D i m).
  { clear. intros n D Hn Mo. revert n Hn. apply (natlike_ind (fun n => (forall i, 0 <= i <= n -> exists m, (1 / 999999 < m)%R /\ D i m) -> exists m, (1 / 999999 < m)%R /\ forall i, 0 <= i <= n -> D i m)).
    - intros H. destruct (H 0 ltac:(lia)) as (m & H1 & H2). exists m. split; [exact H1|]. intros i Hi. replace i with 0 by lia. exact H2.
    - intros n Hn IH H. destruct IH as (m & H1 & H2); [intros; apply H; lia|]. destruct (H (Z.succ n) ltac:(lia)) as (m' & H1' & H2'). exists (Rmin m m').
      split; [apply Rmin_glb_lt; assumption|]. intros i Hi. destruct (Z.eq_dec i (Z.succ n)) as [->|]; [apply (Mo _ _ m'); [apply Rmin_r|exact H2']|apply (Mo _ _ m); [apply Rmin_l|apply H2; lia]]. }
  destruct (Q n (fun i c => forall j, 0 <= j <= m -> (c <= ww (pt2 P i j))%R) Hn) as (c & H1 & H2).
  - intros i a b Hab H j Hj. specialize (H j Hj). lra.
  - intros i Hi. apply (Q m (fun j c => (c <= ww (pt2 P i j))%R) Hm); [intros; lra|]. intros j Hj. exists (ww (pt2 P i j)). split; [apply heavy_iff, HH; assumption|lra].
  - exists c. split; [exact H1|]. intros i j Hi Hj. apply H2; assumption.
Qed.

Lemma surface_heavy n m (S : Surface R W4) u v : valid_surface n m S -> heavy_net n m (SControlPoints S) -> u_domain n S u -> v_domain m S v ->
  (1 / 999999 < ww (surface_point (DegreeU S) n (KnotVectorU S) (DegreeV S) m (KnotVectorV S) (SControlPoints S) u v))%R.
Proof.
  intros (HU & HW & HP & _ & _) HH Du Dv. pose proof (ck_p _ _ _ HU). pose proof (ck_n _ _ _ HU). pose proof (ck_p _ _ _ HW). pose proof (ck_n _ _ _ HW).
  destruct (least_weight2 n m _ ltac:(lia) ltac:(lia) HH) as (c & G1 & G2). apply Rlt_le_trans with c; [exact G1|].
  apply (surface_hull _ _ _ _ _ _ _ _ _ (fun h : W4 => ww h) c HU HW Du Dv); [|exact G2]. intros a b x y _. destruct x, y. reflexivity.
Qed.

Lemma surface_eval3 n m (S : Surface R W4) u v : valid_surface n m S -> heavy_net n m (SControlPoints S) -> u_domain n S u -> v_domain m S v ->
  NurbsSurfacePoint S u v = Ok (surface_at n m S u v).
Proof.
  intros HS HH Du Dv. unfold NurbsSurfacePoint. rewrite (surface_eval n m) by assumption. cbn [bind]. unfold surface_at. apply ToXYZ_div, heavy_aeq, heavy_iff. apply surface_heavy; assumption.
Qed.

Lemma curve_point_last {T} {V : Vec R T} {L : VecL T} p n U (P : list T) : curve_knots p n U -> p <= 7 -> len P = n + 1 -> clamped_knots p n U ->
  curve_point p n U P (val U (n + 1)) = pt P n.
Proof.
  intros HU H7 HP (C1 & C2). pose proof HU as [Hp Hn Hl Hs _ _]. destruct (clamped_ends p n U P HU H7 HP) as (_ & E). rewrite <- C2 in E.
  assert (Hc : forall i, n + 1 <= i <= n + p + 1 -> val U i = val U (n + 1)). { intros i Hi. pose proof (Hs (n + 1) i ltac:(lia) ltac:(lia) ltac:(lia)). pose proof (Hs i (n + p + 1) ltac:(lia) ltac:(lia) ltac:(lia)). lra. }
  specialize (E Hc). rewrite (GetPointOnCurve_ok p n U P) in E; auto; [congruence|]. split; [apply Hs; lia|lra].
Qed.
Lemma curve_point_first {T} {V : Vec R T} {L : VecL T} p n U (P : list T) : curve_knots p n U -> p <= 7 -> len P = n + 1 -> clamped_knots p n U ->
  curve_point p n U P (val U p) = pt P 0.
Proof.
  intros HU H7 HP (C1 & C2). pose proof HU as [Hp Hn Hl Hs _ _]. destruct (clamped_ends p n U P HU H7 HP) as (E & _). rewrite C1 in E.
  assert (Hc : forall i, 0 <= i <= p -> val U i = val U p). { intros i Hi. pose proof (Hs 0 i ltac:(lia) ltac:(lia) ltac:(lia)). pose proof (Hs i p ltac:(lia) ltac:(lia) ltac:(lia)). lra. }
  specialize (E Hc). rewrite (GetPointOnCurve_ok p n U P) in E; auto; [congruence|]. split; [lra|apply Hs; lia].
Qed.

Lemma surface_corner {T} {V : Vec R T} {L : VecL T} p n U q m W (P : list (list T)) : curve_knots p n U -> curve_knots q m W -> p <= 7 -> q <= 7 -> net (n + 1) (m + 1) P ->
  clamped_knots p n U -> clamped_knots q m W -> surface_point p n U q m W P (val U (n + 1)) (val W (m + 1)) = pt2 P n m.
Proof.
  intros HU HW H7 H7' [LP RP] CU CW. pose proof HU as [Hp Hn _ _ _ _]. set (col := mklist (n + 1) (fun i => pt2 P i m)).
  assert (A : arr col (n + 1) (fun i => pt2 P i m)) by (apply arr_mklist; lia).
  transitivity (curve_point p n U col (val U (n + 1))).
  - unfold surface_point, curve_point at 1. apply comb_ext. intros i Hi. split; [reflexivity|]. rewrite (arr_pt_eq _ _ _ i A) by lia.
    exact (curve_point_last q m W (at_ nil P i) HW H7' (RP i ltac:(lia)) CW).
  - rewrite (curve_point_last p n U col HU H7 (arr_len _ _ _ A) CU). apply (arr_pt_eq _ _ _ n A). lia.
Qed.

(** * Samples *)
Lemma grid_eq (V : list R) i j : 0 <= i -> 0 <= j < 100 -> (val V i + (val V (i + 1) - val V i) / 100 * IZR j)%R = grid_at V (100 * i + j).
Proof.
  intros Hi Hj. unfold grid_at. replace ((100 * i + j) / 100) with i by (apply (Z.div_unique_pos _ 100 i j); lia). replace ((100 * i + j) mod 100) with j by (apply (Z.mod_unique_pos _ 100 i j); lia). field.
Qed.

Lemma params_ok (U : list R) : sorted U -> 0 < len U -> exists V, increasing V /\ (forall x, In x V <-> In x U) /\ 1 <= len V /\
  returns (tessellated_params U) (fun l => arr l (100 * (len V - 1)) (grid_at V)).
Proof.
  intros Hs H0. destruct (std_unique_inc U Hs) as [S1 S2]. pose proof (std_unique_in U) as SI. exists (std_unique U).
  assert (LV : 1 <= len (std_unique U)). { assert (In (val U 0) (std_unique U)) as Hin by (apply SI, val_In; lia). destruct (std_unique U); [contradiction|]. rewrite len_cons. pose proof (len_nonneg l). lia. }
  split; [apply sorted_nodup_increasing; assumption|]. split; [exact SI|]. split; [exact LV|]. apply wp_elim. unfold tessellated_params. set (V := std_unique U) in *.
  apply wp_for_up with (P := fun i s => arr s (100 * i) (grid_at V)); [lia| | |].
  - apply arr_nil.
  - intros i s Hi As. rewrite !get_val by lia. cbn [bind]. num. rewrite Rdiv_ok by lra. cbn [bind].
    apply wp_for_up with (P := fun j s => arr s (100 * i + j) (grid_at V)); [lia| | |].
    + rewrite Z.add_0_r. exact As.
    + intros j l Hj Al. apply wp_ok. replace (100 * i + (j + 1)) with (100 * i + j + 1) by lia. apply arr_snoc; [exact Al|]. symmetry. apply grid_eq; lia.
    + intros l. replace (100 * (i + 1)) with (100 * i + 100) by lia. tauto.
  - intros l Al. exact Al.
Qed.

Lemma grid_between V k : increasing V -> 0 <= k < 100 * (len V - 1) -> (val V 0 <= grid_at V k < val V (len V - 1))%R.
Proof.
  intros HV Hk. set (i := k / 100). assert (Hi : 0 <= i < len V - 1) by (unfold i; split; [apply Z.div_pos; lia|apply Z.div_lt_upper_bound; lia]).
  pose proof (Z.mod_pos_bound k 100 ltac:(lia)) as Hm. unfold grid_at. fold i. set (r := (IZR (k mod 100) / 100)%R).
  assert (Hr : (0 <= r < 1)%R). { unfold r. assert (IZR 0 <= IZR (k mod 100))%R by (apply IZR_le; lia). assert (IZR (k mod 100) <= IZR 99)%R by (apply IZR_le; lia). lra. }
  clearbody r. pose proof (HV i (i + 1) ltac:(lia) ltac:(lia) ltac:(lia)) as H1.
  assert (H2 : (val V 0 <= val V i)%R). { destruct (Z.eq_dec i 0) as [->|]; [lra|]. left. apply HV; lia. }
  assert (H3 : (val V (i + 1) <= val V (len V - 1))%R). { destruct (Z.eq_dec (i + 1) (len V - 1)) as [->|]; [lra|]. left. apply HV; lia. }
  split; nra.
Qed.

Lemma knots_ends p n U V : curve_knots p n U -> clamped_knots p n U -> increasing V -> (forall x, In x V <-> In x U) -> 1 <= len V ->
  val V 0 = val U p /\ val V (len V - 1) = val U (n + 1).
Proof.
  intros [Hp Hn Hl Hs _ _] (C1 & C2) HV HI L1.
  assert (HS : forall i j, 0 <= i -> i <= j -> j < len V -> (val V i <= val V j)%R) by (intros i j H1 H2 H3; destruct (Z.eq_dec i j) as [->|]; [lra|left; apply HV; lia]).
  rewrite <- C1, C2. split; apply Rle_antisym.
  - assert (G : In (val U 0) V) by (apply HI, val_In; lia). destruct (In_val _ _ G) as (i & Hi & <-). apply HS; lia.
  - assert (G : In (val V 0) U) by (apply HI, val_In; lia). destruct (In_val _ _ G) as (i & Hi & <-). apply Hs; lia.
  - assert (G : In (val V (len V - 1)) U) by (apply HI, val_In; lia). destruct (In_val _ _ G) as (i & Hi & <-). apply Hs; lia.
  - assert (G : In (val U (n + p + 1)) V) by (apply HI, val_In; lia). destruct (In_val _ _ G) as (i & Hi & <-). apply HS; lia.
Qed.

Lemma SurfaceTessellate_ok n m (S : Surface R W4) : valid_surface n m S -> heavy_net n m (SControlPoints S) ->
  clamped_knots (DegreeU S) n (KnotVectorU S) -> clamped_knots (DegreeV S) m (KnotVectorV S) ->
  returns (SurfaceEquallyTessellate S) (fun '(points, params) => exists VU VV, increasing VU /\ increasing VV /\
    (forall x, In x VU <-> In x (KnotVectorU S)) /\ (forall x, In x VV <-> In x (KnotVectorV S)) /\
    let a := 100 * (len VU - 1) in let c := 100 * (len VV - 1) in
    len points = a * c + 1 /\ len params = a * c + 1 /\
    (forall i j, 0 <= i < a -> 0 <= j < c -> get params (i * c + j) = Ok (grid_at VU i, grid_at VV j)) /\
    get params (a * c) = Ok (val VU (len VU - 1), val VV (len VV - 1)) /\
    forall k u v, get params k = Ok (u, v) -> u_domain n S u /\ v_domain m S v /\ get points k = Ok (surface_at n m S u v)).
Proof.
  intros HS HH CU CV. pose proof HS as (HU & HW & HP & H7 & H77). pose proof HU as [Hp Hn Hl Hs _ _]. pose proof HW as [Hq Hm Hl' Hs' _ _].
  destruct (params_ok _ Hs ltac:(lia)) as (VU & IU & NU & LU & ru & Eu & Au). destruct (params_ok _ Hs' ltac:(lia)) as (VV & IV & NV & LV & rv & Ev & Av).
  destruct (knots_ends _ _ _ VU HU CU IU NU LU) as (U0 & U1). destruct (knots_ends _ _ _ VV HW CV IV NV LV) as (V0 & V1).
  apply wp_elim. unfold SurfaceEquallyTessellate. rewrite Eu. cbn [bind]. rewrite Ev. cbn [bind].
  set (a := 100 * (len VU - 1)) in *. set (c := 100 * (len VV - 1)) in *. rewrite (arr_len _ _ _ Au), (arr_len _ _ _ Av).
  assert (DU : forall i, 0 <= i < a -> u_domain n S (grid_at VU i)) by (intros i Hi; pose proof (grid_between VU i IU Hi); unfold u_domain, in_domain; lra).
  assert (DV : forall i, 0 <= i < c -> v_domain m S (grid_at VV i)) by (intros i Hi; pose proof (grid_between VV i IV Hi); unfold v_domain, in_domain; lra).
  set (fp := fun k => (grid_at VU (k / c), grid_at VV (k mod c))). set (fq := fun k => surface_at n m S (grid_at VU (k / c)) (grid_at VV (k mod c))).
  assert (Ha : 0 <= a) by (unfold a; lia). assert (Hc : 0 <= c) by (unfold c; lia).
  apply wp_bind. apply wp_for_up with (P := fun i s => arr (fst s) (i * c) fq /\ arr (snd s) (i * c) fp); [lia|cbn [fst snd]; split; apply arr_nil| |].
  - intros i s Hi As. apply wp_for_up with (P := fun j s => arr (fst s) (i * c + j) fq /\ arr (snd s) (i * c + j) fp); [lia|rewrite Z.add_0_r; exact As| |].
    + intros j [ps us] Hj [A1 A2]. cbn [fst snd] in *. rewrite (arr_get _ _ _ i Au) by lia. cbn [bind]. rewrite (arr_get _ _ _ j Av) by lia. cbn [bind].
      rewrite (surface_eval3 n m S) by auto. cbn [bind]. apply wp_ok. cbn [fst snd]. rewrite Z.add_assoc.
      assert (E1 : (i * c + j) / c = i) by (symmetry; apply (Z.div_unique_pos _ c i j); lia). assert (E2 : (i * c + j) mod c = j) by (symmetry; apply (Z.mod_unique_pos _ c i j); lia).
      split; (apply arr_snoc; [assumption|]); [unfold fq|unfold fp]; rewrite E1, E2; reflexivity.
    + intros s'. replace ((i + 1) * c) with (i * c + c) by ring. tauto.
  - intros [ps us] [A1 A2]. cbn [fst snd] in A1, A2. rewrite (get_val (KnotVectorU S)), (get_val (KnotVectorV S)) by lia. cbn [bind].
    pose proof HP as [LP RP]. rewrite LP. rewrite (get_at nil) by lia. cbn [bind]. rewrite (get_at nil) by lia. cbn [bind]. rewrite (RP 0) by lia.
    replace (n + 1 - 1) with n by lia. replace (m + 1 - 1) with m by lia. rewrite (arr_get _ _ _ m (arr_pt _ _ (RP n ltac:(lia)))) by lia. cbn [bind].
    assert (EC : ToXYZ (pt (at_ nil (SControlPoints S) n) m) true = Ok (surface_at n m S (val (KnotVectorU S) (n + 1)) (val (KnotVectorV S) (m + 1)))).
    { unfold surface_at. rewrite (surface_corner _ _ _ _ _ _ _ HU HW H7 H77 HP CU CV). apply ToXYZ_div, heavy_aeq. exact (HH n m ltac:(lia) ltac:(lia)). }
    rewrite EC. cbn [bind wp]. exists VU, VV. fold a c. do 4 (split; [assumption|]).
    assert (EU : val (KnotVectorU S) (len (KnotVectorU S) - 1) = val (KnotVectorU S) (n + 1)) by (destruct CU as [_ ->]; f_equal; lia).
    assert (EV : val (KnotVectorV S) (len (KnotVectorV S) - 1) = val (KnotVectorV S) (m + 1)) by (destruct CV as [_ ->]; f_equal; lia). rewrite EU, EV, U1, V1.
    set (fp' := fun k => if k =? a * c then (val (KnotVectorU S) (n + 1), val (KnotVectorV S) (m + 1)) else fp k).
    set (fq' := fun k => if k =? a * c then surface_at n m S (val (KnotVectorU S) (n + 1)) (val (KnotVectorV S) (m + 1)) else fq k).
    assert (P1 : arr (us ++ [(val (KnotVectorU S) (n + 1), val (KnotVectorV S) (m + 1))]) (a * c + 1) fp').
    { apply arr_snoc; [eapply arr_ext; [exact A2|]; intros k Hk; unfold fp'; rewrite (proj2 (Z.eqb_neq _ _)) by lia; reflexivity|]. unfold fp'. rewrite Z.eqb_refl. reflexivity. }
    assert (Q1 : arr (ps ++ [surface_at n m S (val (KnotVectorU S) (n + 1)) (val (KnotVectorV S) (m + 1))]) (a * c + 1) fq').
    { apply arr_snoc; [eapply arr_ext; [exact A1|]; intros k Hk; unfold fq'; rewrite (proj2 (Z.eqb_neq _ _)) by lia; reflexivity|]. unfold fq'. rewrite Z.eqb_refl. reflexivity. }
    split; [apply (arr_len _ _ _ Q1)|]. split; [apply (arr_len _ _ _ P1)|]. split; [|split].
    + intros i j Hi Hj. assert (i * c + j < a * c) by nia. rewrite (arr_get _ _ _ _ P1) by nia. unfold fp'. rewrite (proj2 (Z.eqb_neq _ _)) by lia. unfold fp.
      rewrite <- (Z.div_unique_pos (i * c + j) c i j), <- (Z.mod_unique_pos (i * c + j) c i j) by lia. reflexivity.
    + rewrite (arr_get _ _ _ _ P1) by nia. unfold fp'. rewrite Z.eqb_refl. reflexivity.
    + intros k u v E. assert (Hk : 0 <= k < a * c + 1). { rewrite <- (arr_len _ _ _ P1). unfold get in E. destruct (Z.ltb_spec k 0); [discriminate E|]. split; [lia|]. 
        destruct (nth_error _ (Z.to_nat k)) eqn:EN; [|discriminate E]. assert (nth_error (us ++ [(val (KnotVectorU S) (n + 1), val (KnotVectorV S) (m + 1))]) (Z.to_nat k) <> None) as NN by congruence. apply nth_error_Some in NN. unfold len. lia. }
      rewrite (arr_get _ _ _ _ P1 Hk) in E. rewrite (arr_get _ _ _ _ Q1 Hk). unfold fp', fq' in *. destruct (Z.eqb_spec k (a * c)) as [->|Nk]; injection E as <- <-.
      * split; [unfold u_domain, in_domain; split; [apply Hs; lia|lra]|]. split; [unfold v_domain, in_domain; split; [apply Hs'; lia|lra]|reflexivity].
      * assert (0 < c) by (destruct (Z.eq_dec c 0) as [Ez|]; [rewrite Ez, Z.mul_0_r in Hk, Nk; lia|lia]). assert (k / c < a) by (apply Z.div_lt_upper_bound; nia). pose proof (Z.mod_pos_bound k c ltac:(lia)). pose proof (Z.div_pos k c ltac:(lia) ltac:(lia)).
        split; [apply DU; lia|]. split; [apply DV; lia|reflexivity].
Qed.

(* no sample but the last one lies on an edge where a parameter is at its end *)
Lemma SurfaceTessellate_edges n m (S : Surface R W4) : valid_surface n m S -> heavy_net n m (SControlPoints S) ->
  clamped_knots (DegreeU S) n (KnotVectorU S) -> clamped_knots (DegreeV S) m (KnotVectorV S) ->
  returns (SurfaceEquallyTessellate S) (fun '(points, params) => forall k u v, 0 <= k < len params - 1 -> get params k = Ok (u, v) ->
    (u < val (KnotVectorU S) (n + 1))%R /\ (v < val (KnotVectorV S) (m + 1))%R).
Proof.
  intros HS HH CU CV. destruct (SurfaceTessellate_ok n m S HS HH CU CV) as ([ps us] & E & VU & VV & IU & IV & NU & NV & G). cbv zeta in G.
  exists (ps, us). split; [exact E|]. destruct G as (_ & L & G & _ & _). intros k u v Hk Ek. rewrite L in Hk. set (a := 100 * (len VU - 1)) in *. set (c := 100 * (len VV - 1)) in *.
  pose proof HS as (HU & HW & _). pose proof HU as [Hp Hn Hl Hs _ _]. pose proof HW as [Hq Hm Hl' Hs' _ _].
  assert (LV : forall (W V : list R), 0 < len W -> (forall x, In x V <-> In x W) -> 1 <= len V). { intros W V LW HI. assert (In (val W 0) V) as Hin by (apply HI, val_In; lia). destruct V; [contradiction|]. rewrite len_cons. pose proof (len_nonneg V). lia. }
  pose proof (LV (KnotVectorU S) VU ltac:(lia) NU) as L1. pose proof (LV (KnotVectorV S) VV ltac:(lia) NV) as L2. clear LV.
  assert (Ha : 0 <= a) by (unfold a; lia). assert (Hc : 0 <= c) by (unfold c; lia).
  assert (0 < c) by (destruct (Z.eq_dec c 0) as [Ez|]; [rewrite Ez, Z.mul_0_r in Hk; lia|lia]). assert (Hd : k / c < a) by (apply Z.div_lt_upper_bound; nia). pose proof (Z.mod_pos_bound k c ltac:(lia)) as Hmo. pose proof (Z.div_pos k c ltac:(lia) ltac:(lia)) as Hd0.
  specialize (G (k / c) (k mod c) ltac:(lia) Hmo). replace (k / c * c + k mod c) with k in G by (pose proof (Z.div_mod k c ltac:(lia)); lia). rewrite Ek in G. injection G as -> ->.
  destruct (knots_ends _ _ _ VU HU CU IU NU L1) as (U0 & U1). destruct (knots_ends _ _ _ VV HW CV IV NV L2) as (V0 & V1). rewrite <- U1, <- V1.
  split; apply grid_between; (assumption || lia).
Qed.

(** * Closedness *)
Lemma SurfaceIsClosed_ok n m (S : Surface R W4) b : valid_surface n m S -> heavy_net n m (SControlPoints S) ->
  let p := degree_along b S in let U := knots_along b S in let l := if b then n else m in let lines := if b then m else n in
  clamped_knots p l U ->
  let C H t := proj (curve_point p l U H t) in
  returns (SurfaceIsClosed S b) (fun r =>
    ((forall a H, 0 <= a <= lines -> is_line2 b (l + 1) (SControlPoints S) a H -> close (dist3 (C H (val U p)) (C H (val U (l + 1)))) 0) -> r = true) /\
    (r = true -> forall a H, 0 <= a <= lines -> is_line2 b (l + 1) (SControlPoints S) a H -> close (dist3 (C H (val U p)) (C H (val U (l + 1)))) 0 \/
       exists k, 0 <= k < l /\ forall i, 0 <= i <= k -> Spec3.near (proj (pt H (l - k + i))) (proj (pt H i)))).
Proof.
  intros HS HH p U l lines Hcl C. pose proof HS as (HU & HW & HP & H7 & H77). pose proof HU as [Hp Hn _ _ _ _]. pose proof HW as [Hq Hm _ _ _ _].
  destruct (along_knots n m S b HS) as (KU & K7). fold p U l in KU, K7.
  assert (IC : forall a H, 0 <= a <= lines -> is_line2 b (l + 1) (SControlPoints S) a H -> returns (IsClosed (mkCurve p U H)) (fun b0 => (close (dist3 (C H (val U p)) (C H (val U (l + 1)))) 0 -> b0 = true) /\
    (b0 = true -> close (dist3 (C H (val U p)) (C H (val U (l + 1)))) 0 \/ exists k, 0 <= k < l /\ forall i, 0 <= i <= k -> Spec3.near (proj (pt H (l - k + i))) (proj (pt H i))))).
  { intros a H Ha HHl. pose proof (IsClosed_ok p l U H KU K7 (proj1 HHl) (heavy_line b n m _ a H HH Ha HHl) Hcl) as G. destruct Hcl as [C1 C2]. rewrite C1 in G. exact G. }
  apply wp_elim. unfold SurfaceIsClosed. fold p U. pose proof HP as [LP RP]. rewrite LP. destruct (Z.eqb_spec (n + 1) 0); [lia|]. rewrite (get_at nil) by lia. cbn [bind]. rewrite (RP 0) by lia.
  replace (if b then m + 1 else n + 1) with (lines + 1) by (unfold lines; destruct b; reflexivity). replace (if b then n + 1 else m + 1) with (l + 1) by (unfold l; destruct b; reflexivity).
  assert (Hl0 : 0 <= l) by (unfold l; destruct b; lia). assert (Hli : 0 <= lines) by (unfold lines; destruct b; lia).
  assert (Rd : forall i a, 0 <= i <= l -> 0 <= a <= lines -> (if b then get2 (SControlPoints S) i a else get2 (SControlPoints S) a i) = Ok (on_line2 b (SControlPoints S) a i)).
  { intros i a Hi Ha. unfold l, lines, on_line2 in *. destruct b; apply (arr2_get _ _ _ _ _ _ (arr2_net _ _ _ HP)); lia. }
  apply wp_bind. apply wp_for_upc with (P := fun h _ => forall a, 0 <= a < h -> exists H, is_line2 b (l + 1) (SControlPoints S) a H /\ IsClosed (mkCurve p U H) = Ok true)
    (F := fun _ => exists a H, 0 <= a <= lines /\ is_line2 b (l + 1) (SControlPoints S) a H /\ IsClosed (mkCurve p U H) = Ok false).
  - intros; lia.
  - intros a [] Ha D. apply wp_bind. apply wp_for_up with (P := fun h v => arr v h (fun i => on_line2 b (SControlPoints S) a i)).
    + lia.
    + apply arr_nil.
    + intros i v Hi Av. rewrite Rd by lia. cbn [bind wp]. apply arr_snoc; [exact Av|reflexivity].
    + intros H AH. assert (RH : is_line2 b (l + 1) (SControlPoints S) a H). { split; [apply AH|]. intros i Hi. apply (arr_pt_eq _ _ _ i AH). lia. }
      destruct (IC a H ltac:(lia) RH) as (r & Er & _). rewrite Er. cbn [bind]. destruct r; apply wp_ok.
      * intros a' Ha'. destruct (Z.eq_dec a' a) as [->|]; [exists H; auto|apply D; lia].
      * exists a, H. split; [lia|]. auto.
  - intros [] D. apply wp_ok. split; [auto|]. intros _ a H Ha HHl. destruct (D a ltac:(lia)) as (H1 & R1 & E1). rewrite (line_unique _ _ _ _ _ _ R1 HHl) in E1.
    destruct (IC a H Ha HHl) as (r & Er & _ & G). rewrite Er in E1. injection E1 as ->. apply G. reflexivity.
  - intros [] (a & H & Ha & HHl & E1). apply wp_ok. split; [|discriminate]. intros Hall. destruct (IC a H Ha HHl) as (r & Er & G & _). rewrite Er in E1. injection E1 as ->. apply G, (Hall a H Ha HHl).
Qed.
