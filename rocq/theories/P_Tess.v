(* Adaptive tessellation. *)
From Coq Require Import ZArith List Bool Reals Lra Lia.
From Verif Require Import Base Num Vec Tac Spec Spec2 Spec3 Spec4 Spec5 Spec9 Spec10 Spec17 M_MathUtils M_XYZ M_Bspline M_NurbsCurve M_Geom M_Knots M_Shape M_Curve4
  P_MathUtils P_XYZ P_Vec P_VSum P_Curve P_Bspline P_Decomp P_Loop P_Insert P_Geom P_Matrix P_Nurbs P_Span P_Insert2 P_KnotMap2 P_Shape P_Shape2 P_Shape3 P_Surf5 P_Surf7 P_Make P_Swung P_ParamOn.
Import ListNotations.
Open Scope Z_scope.

Lemma inc_snoc l x : increasing l -> (forall i, 0 <= i < len l -> (val l i < x)%R) -> increasing (l ++ [x]).
Proof.
  intros Hl Hx i j Hi Hij Hj. rewrite len_app in Hj. change (len [x]) with 1 in Hj. pose proof (arr_snoc l (len l) (fun i => if i =? len l then x else val l i) x) as A.
  assert (A0 : arr l (len l) (fun i => if i =? len l then x else val l i)). { eapply arr_ext; [apply arr_at|]. intros k Hk. cbv beta. destruct (Z.eqb_spec k (len l)); [lia|reflexivity]. }
  specialize (A A0). cbv beta in A. rewrite Z.eqb_refl in A. specialize (A eq_refl). rewrite !(arr_val _ _ _ _ A) by lia. destruct (Z.eqb_spec i (len l)); [lia|]. destruct (Z.eqb_spec j (len l)); [apply Hx; lia|apply Hl; lia].
Qed.
Lemma val_snoc l x i : 0 <= i <= len l -> val (l ++ [x]) i = if i =? len l then x else val l i.
Proof.
  intros Hi. pose proof (arr_snoc l (len l) (fun i => if i =? len l then x else val l i) x) as A.
  assert (A0 : arr l (len l) (fun i => if i =? len l then x else val l i)). { eapply arr_ext; [apply arr_at|]. intros k Hk. cbv beta. destruct (Z.eqb_spec k (len l)); [lia|reflexivity]. }
  specialize (A A0). cbv beta in A. rewrite Z.eqb_refl in A. specialize (A eq_refl). apply (arr_val _ _ _ _ A). lia.
Qed.

Section Tess.
Variables (p n : Z) (U : list R) (H : list (XYZW R)).
Hypothesis HU : curve_knots p n U.
Hypothesis Hp : p <= 7.
Hypothesis HH : len H = n + 1.
Hypothesis Hw : heavy H.
Hypothesis Hcl : clamped_knots p n U.
Let c := mkCurve p U H.
Let C t := proj (curve_point p n U H t).

Lemma Core_ok d : forall s e l, in_domain p n U s -> in_domain p n U e -> (s < e)%R -> (forall x, In x l -> in_domain p n U x) ->
  returns (TessellateCore d c s e l) (fun r => forall x, In x r -> in_domain p n U x).
Proof.
  induction d as [|d IH]; intros s e l Ds De Hse Hl; cbn [TessellateCore]; num.
  - eexists. split; [reflexivity|]. intros x Hx. apply in_app_iff in Hx. destruct Hx as [Hx|[<-|[]]]; [auto|]. destruct Ds, De. split; lra.
  - assert (Dm : in_domain p n U ((s + e) * (1 / 2))%R) by (destruct Ds, De; split; lra). unfold c. rewrite !(point_at p n U H HU Hp HH Hw) by assumption. cbn [bind]. rewrite Distance_eq. cbn [bind].
    destruct (IsAlmostEqualTo _ _).
    + eexists. split; [reflexivity|]. intros x Hx. apply in_app_iff in Hx. destruct Hx as [Hx|[<-|[]]]; auto.
    + destruct (IH s ((s + e) * (1 / 2))%R l Ds Dm ltac:(lra) Hl) as (l1 & E1 & H1). fold c. rewrite E1. cbn [bind]. apply IH; auto. lra.
Qed.

Lemma line_ok : p = 1 -> returns (Tessellate c) (fun Q => len Q = n + 1 /\ forall i, 0 <= i <= n -> get Q i = Ok (proj (pt H i))).
Proof.
  intros E1. apply wp_elim. unfold Tessellate. cbn [Degree c ControlPoints]. rewrite E1. cbn [Z.eqb Pos.eqb]. rewrite HH.
  apply wp_for_up with (P := fun k l => arr l k (fun i => proj (pt H i))); [pose proof (ck_n _ _ _ HU); pose proof (ck_p _ _ _ HU); lia| | |].
  - apply arr_nil.
  - intros k l Hk A. destruct (to_xyz n H HH Hw k ltac:(lia)) as (-> & E). cbn [bind]. rewrite E. cbn [bind]. apply wp_ok. apply arr_snoc; [exact A|reflexivity].
  - intros l A. split; [apply (arr_len _ _ _ A)|]. intros i Hi. apply (arr_get _ _ _ _ A). lia.
Qed.

(* what holds of the parameters collected up to the knot x *)
Definition collected (x : R) (T : list R) : Prop :=
  1 <= len T /\ val T 0 = val U p /\ increasing T /\ (forall k, 0 <= k < len T -> in_domain p n U (val T k)) /\ (val T (len T - 1) <= x)%R.
Lemma collect x t T : collected x T -> in_domain p n U t -> (val T (len T - 1) < t <= x)%R -> collected x (T ++ [t]) /\ val (T ++ [t]) (len T) = t.
Proof.
  intros (L & E0 & I & D & LT) Dt Ht. assert (LA : len (T ++ [t]) = len T + 1) by (rewrite len_app; reflexivity). assert (EL : val (T ++ [t]) (len T) = t) by (rewrite val_snoc, Z.eqb_refl by lia; reflexivity). split; [|exact EL].
  assert (HL : forall i, 0 <= i < len T -> (val T i < t)%R). { intros i Hi. destruct (Z.eq_dec i (len T - 1)) as [->|]; [lra|]. pose proof (I i (len T - 1) ltac:(lia) ltac:(lia) ltac:(lia)). lra. }
  split; [lia|]. split; [rewrite val_snoc by lia; destruct (Z.eqb_spec 0 (len T)); [lia|exact E0]|]. split; [apply inc_snoc; assumption|]. split.
  - intros k Hk. rewrite val_snoc by lia. destruct (Z.eqb_spec k (len T)); [exact Dt|apply D; lia].
  - rewrite LA. replace (len T + 1 - 1) with (len T) by lia. rewrite EL. lra.
Qed.
Lemma collected_up x y T : collected x T -> (x <= y)%R -> collected y T.
Proof. intros (A & B & E & D & G) Hy. repeat (split; [assumption|]). lra. Qed.

Lemma Tess_ok : 2 <= p -> returns (Tessellate c) (fun Q => exists T, len T = len Q /\ 2 <= len T /\ increasing T /\
  val T 0 = val U p /\ close (val T (len T - 1)) (val U (n + 1)) /\
  (forall k, 0 <= k < len T -> in_domain p n U (val T k) /\ get Q k = Ok (C (val T k))) /\
  ((forall x y, In x U -> In y U -> apart x y) -> forall x, In x U -> exists k, 0 <= k < len T /\ close x (val T k))).
Proof.
  intros H2. pose proof HU as [P0 N0 LU SU _ _]. apply wp_elim. unfold Tessellate. cbn [Degree c KnotVector]. destruct (Z.eqb_spec p 1); [lia|].
  rewrite std_sort_sorted by exact SU. destruct (std_unique_inc U SU) as (S1 & S2). pose proof (std_unique_in U) as NV. pose proof (sorted_nodup_increasing _ S1 S2) as IV. set (V := std_unique U) in *. clearbody V.
  assert (L0 : len V <> 0). { intros X0. assert (G : In (val U 0) V) by (apply NV, val_In; lia). destruct V; [contradiction|]. rewrite len_cons in X0. pose proof (len_nonneg V). lia. }
  pose proof (len_nonneg V) as L1. destruct (knots_ends _ _ _ _ HU Hcl IV NV ltac:(lia)) as (K0 & K1). pose proof (dom_lt p n U HU) as LT.
  assert (LV : 2 <= len V). { destruct (Z.eq_dec (len V) 1) as [X1|]; [|lia]. rewrite X1 in K1. change (1 - 1) with 0 in K1. lra. }
  assert (DV : forall i, 0 <= i < len V -> in_domain p n U (val V i)) by (intros i Hi; apply (knot_dom p n U HU Hcl), NV, val_In, Hi).
  rewrite !get_val by lia. cbn [bind]. destruct (Z.ltb_spec (len V) 2); [lia|]. rewrite ?get_val by lia. cbn [bind].
  apply wp_bind. eapply wp_mono.
  - apply wp_for_up with (P := fun i T => collected (val V i) T /\ ((forall x y, In x U -> In y U -> apart x y) -> forall j, 0 <= j <= i -> exists k, 0 <= k < len T /\ close (val V j) (val T k))) (Q := fun T => collected (val V (len V - 1)) T /\ ((forall x y, In x U -> In y U -> apart x y) -> forall j, 0 <= j <= len V - 1 -> exists k, 0 <= k < len T /\ close (val V j) (val T k))); [lia| | |].
    + assert (E : val [val V 0] 0 = val V 0) by reflexivity. split.
      * split; [cbn; lia|]. split; [rewrite E; exact K0|]. split; [intros i j Hi Hij Hj; cbn in Hj; lia|]. split; [intros k Hk; assert (k = 0) as -> by (cbn in Hk; lia); rewrite E; apply DV; lia|]. change (len [val V 0] - 1) with 0. rewrite E. lra.
      * intros _ j Hj. exists 0. split; [cbn; lia|]. assert (j = 0) as -> by lia. rewrite E. unfold close. rewrite Rminus_eq_0, Rabs_R0. apply Rlt_le, tol_pos.
    + intros i T Hi (CT & NT). rewrite !get_val by lia. cbn [bind]. pose proof (IV i (i + 1) ltac:(lia) ltac:(lia) ltac:(lia)) as Hlt.
      destruct (IsAlmostEqualTo (val V (i + 1)) (val V i)) eqn:Ea.
      { apply close_iff in Ea. apply wp_ok. split; [eapply collected_up; [exact CT|lra]|]. intros Ap. exfalso. destruct (Ap (val V (i + 1)) (val V i)) as [X|X]; [apply NV, val_In; lia|apply NV, val_In; lia|lra|]. unfold close in Ea. pose proof (tol_pos (val V (i + 1)) (val V i)). lra. }
      apply wp_bind. destruct (Core_ok 20 (val V i) (val V (i + 1)) [] (DV i ltac:(lia)) (DV (i + 1) ltac:(lia)) Hlt) as (l & El & Dl); [intros x []|]. fold c. rewrite El. apply wp_ok.
      apply wp_bind. eapply wp_mono.
      * apply wp_for_up with (P := fun _ T' => collected (val V (i + 1)) T' /\ len T <= len T' /\ forall k, 0 <= k < len T -> val T' k = val T k) (Q := fun T' => collected (val V (i + 1)) T' /\ len T <= len T' /\ forall k, 0 <= k < len T -> val T' k = val T k); [pose proof (len_nonneg l); lia| | |tauto].
        -- split; [eapply collected_up; [exact CT|lra]|]. split; [lia|reflexivity].
        -- intros k T' Hk (CT' & LT' & KT'). pose proof CT' as (Z1 & _). rewrite !get_val by lia. cbn [bind]. num. destruct (Rltb_spec (val V i) (val l k)) as [B1|B1]; cbn [andb]; [|apply wp_ok; auto].
           destruct (Rltb_spec (val l k) (val V (i + 1))) as [B2|B2]; cbn [andb]; [|apply wp_ok; auto]. destruct (IsGreaterThan _ _) eqn:Eg; apply wp_ok; [|auto].
           apply gt_iff in Eg. rewrite <- tol_thr in Eg. pose proof (tol_pos (val l k) (val T' (len T' - 1))). assert (QQ : (val T' (len T' - 1) < val l k <= val V (i + 1))%R) by (idtac; lra).
            destruct (collect _ (val l k) T' CT' (Dl _ (val_In l k ltac:(lia))) QQ) as (X1 & X2).
           split; [exact X1|]. split; [rewrite len_app; cbn; lia|]. intros j Hj. rewrite val_snoc by lia. destruct (Z.eqb_spec j (len T')); [lia|apply KT'; lia].
      * intros T' (CT' & LT' & KT'). pose proof CT' as (Z1 & _ & _ & _ & Z5). rewrite get_val by lia. cbn [bind].
        destruct (IsGreaterThan (val V (i + 1)) (val T' (len T' - 1))) eqn:Eg; apply wp_ok.
        -- apply gt_iff in Eg. rewrite <- tol_thr in Eg. pose proof (tol_pos (val V (i + 1)) (val T' (len T' - 1))). destruct (collect _ (val V (i + 1)) T' CT' (DV (i + 1) ltac:(lia)) ltac:(lra)) as (X1 & X2).
           split; [exact X1|]. intros Ap j Hj. rewrite len_app. change (len [val V (i + 1)]) with 1. destruct (Z.eq_dec j (i + 1)) as [->|].
           ++ exists (len T'). split; [lia|]. rewrite X2. unfold close. rewrite Rminus_eq_0, Rabs_R0. apply Rlt_le, tol_pos.
           ++ destruct (NT Ap j ltac:(lia)) as (k & Hk & Ck). exists k. split; [lia|]. rewrite val_snoc by lia. destruct (Z.eqb_spec k (len T')); [lia|]. rewrite KT' by lia. exact Ck.
        -- split; [exact CT'|]. intros Ap j Hj. destruct (Z.eq_dec j (i + 1)) as [->|].
           ++ exists (len T' - 1). split; [lia|]. unfold close. rewrite Rabs_right by lra. destruct (Rle_lt_dec (val V (i + 1) - val T' (len T' - 1)) (tol (val V (i + 1)) (val T' (len T' - 1)))) as [X|X]; [exact X|]. exfalso. rewrite tol_thr in X. apply gt_iff in X. congruence.
           ++ destruct (NT Ap j ltac:(lia)) as (k & Hk & Ck). exists k. split; [lia|]. rewrite KT' by lia. exact Ck.
    + intros T HT. exact HT.
  - intros T (CT & NT). pose proof CT as (Z1 & Z2 & Z3 & Z4 & Z5). rewrite get_val by lia. cbn [bind]. rewrite K1 in *.
    set (T' := if IsAlmostEqualTo (val T (len T - 1)) (val U (n + 1)) then T else T ++ [val U (n + 1)]).
    assert (X : collected (val U (n + 1)) T' /\ close (val T' (len T' - 1)) (val U (n + 1)) /\ len T <= len T' /\ forall k, 0 <= k < len T -> val T' k = val T k).
    { unfold T'. destruct (IsAlmostEqualTo _ _) eqn:Ea.
      - apply close_iff in Ea. split; [exact CT|]. split; [exact Ea|]. split; [lia|reflexivity].
      - apply close_false in Ea. assert (Hl : (val T (len T - 1) < val U (n + 1))%R). { destruct (Req_dec (val T (len T - 1)) (val U (n + 1))) as [E|]; [|lra]. exfalso. apply Ea. rewrite E. unfold close. rewrite Rminus_eq_0, Rabs_R0. apply Rlt_le, tol_pos. }
        destruct (collect _ (val U (n + 1)) T CT (last_dom p n U HU) ltac:(lra)) as (X1 & X2). split; [exact X1|]. rewrite len_app. change (len [val U (n + 1)]) with 1. replace (len T + 1 - 1) with (len T) by lia. rewrite X2.
        split; [unfold close; rewrite Rminus_eq_0, Rabs_R0; apply Rlt_le, tol_pos|]. split; [lia|]. intros k Hk. rewrite val_snoc by lia. destruct (Z.eqb_spec k (len T)); [lia|reflexivity]. }
    clearbody T'. destruct X as ((Y1 & Y2 & Y3 & Y4 & Y5) & Y6 & Y7 & Y8).
    apply wp_for_up with (P := fun k Q => arr Q k (fun k => C (val T' k))); [lia|apply arr_nil| |].
    + intros k Q Hk A. rewrite get_val by lia. cbn [bind]. unfold c. rewrite (point_at p n U H HU Hp HH Hw) by (apply Y4; lia). cbn [bind]. apply wp_ok. apply arr_snoc; [exact A|reflexivity].
    + intros Q A. exists T'. split; [symmetry; apply (arr_len _ _ _ A)|]. split.
      { destruct (Z.eq_dec (len T') 1) as [E|]; [|lia]. exfalso. rewrite E in Y6. change (1 - 1) with 0 in Y6. rewrite Y2 in Y6.
        pose proof HU as [_ _ _ _ F1 F2]. pose proof (SU (p + 1) (n + 1) ltac:(lia) ltac:(lia) ltac:(lia)) as SS. clear - F1 SS Y6 LT. unfold close, tol in *. revert F1 Y6. unfold Rmax, Rabs. repeat destruct Rle_dec; repeat destruct Rcase_abs; intros; lra. }
      split; [exact Y3|]. split; [exact Y2|]. split; [exact Y6|]. split; [intros k Hk; split; [apply Y4, Hk|apply (arr_get _ _ _ _ A), Hk]|].
      intros Ap x Hx. apply NV in Hx. destruct (In_nth _ _ 0%R Hx) as (m & Hm & Em). destruct (NT Ap (Z.of_nat m)) as (k & Hk & Ck); [unfold len in *; lia|]. exists k. split; [lia|]. rewrite Y8 by lia.
      replace x with (val V (Z.of_nat m)); [exact Ck|]. rewrite <- Em. unfold val, at_. rewrite Nat2Z.id. reflexivity.
Qed.
End Tess.

(* a curve with a turning point in the middle of its parameters *)
Definition ess (h : R) : list (XYZW R) := [mkXYZW 0 0 0 1; mkXYZW 1 h 0 1; mkXYZW 2 (- h) 0 1; mkXYZW 3 0 0 1]%R.
Lemma ess_heavy h : heavy (ess h).
Proof. intros i Hi. change (len (ess h)) with 4 in Hi. assert (T : (tol 1 0 < 1)%R) by (unfold tol; rewrite Rabs_R0, Rabs_R1, Rmax_left by lra; lra). assert (i = 0 \/ i = 1 \/ i = 2 \/ i = 3) as [-> | [-> | [-> | ->]]] by lia; exact T. Qed.
Lemma ess_at h t : (0 <= t <= 1)%R -> NurbsPoint (mkCurve 3 (bezier_knots 3) (ess h)) t = Ok (mkXYZ (3 * t) (3 * h * t * (1 - t) * (1 - 2 * t)) 0)%R.
Proof.
  intros Ht. rewrite (point_at 3 3 (bezier_knots 3) (ess h) (bez_knots_ok 3 ltac:(lia)) ltac:(lia) eq_refl (ess_heavy h) t (bez_dom 3 t ltac:(lia) Ht)). f_equal.
  assert (E : curve_point 3 3 (bezier_knots 3) (ess h) t = (mkXYZW (3 * t) (3 * h * t * (1 - t) * (1 - 2 * t)) 0 1)%R).
  { apply co_ext. intros c. rewrite (bez_curve 3) by (lia || assumption). rewrite rsum_4. destruct (bern3 t) as (-> & -> & -> & ->).
    change (pt (ess h) 0) with (mkXYZW 0 0 0 1)%R. change (pt (ess h) 1) with (mkXYZW 1 h 0 1)%R. change (pt (ess h) 2) with (mkXYZW 2 (- h) 0 1)%R. change (pt (ess h) 3) with (mkXYZW 3 0 0 1)%R. destruct c as [|[|[|c]]]; cbn; ring. }
  rewrite E. unfold proj. cbn. f_equal; field.
Qed.
Lemma ess_flat h : Tessellate (mkCurve 3 (bezier_knots 3) (ess h)) = Ok [mkXYZ 0 0 0; mkXYZ (3 / 2) 0 0; mkXYZ 3 0 0]%R.
Proof.
  assert (X0 : NurbsPoint (mkCurve 3 (bezier_knots 3) (ess h)) 0%R = Ok (mkXYZ 0 0 0)%R) by (rewrite ess_at by lra; do 2 f_equal; field).
  assert (X1 : NurbsPoint (mkCurve 3 (bezier_knots 3) (ess h)) (1 / 2)%R = Ok (mkXYZ (3 / 2) 0 0)%R) by (rewrite ess_at by lra; do 2 f_equal; field).
  assert (X2 : NurbsPoint (mkCurve 3 (bezier_knots 3) (ess h)) 1%R = Ok (mkXYZ 3 0 0)%R) by (rewrite ess_at by lra; do 2 f_equal; field).
  assert (EV : std_unique (std_sort (bezier_knots 3)) = [0; 1]%R).
  { rewrite std_sort_sorted by apply (bez_knots_ok 3 ltac:(lia)). change (bezier_knots 3) with [0; 0; 0; 0; 1; 1; 1; 1]%R. cbn [std_unique]. num.
    repeat match goal with |- context [Reqb ?x ?x] => destruct (Reqb_spec x x); [|tauto] end. destruct (Reqb_spec 0 1); [lra|].
    repeat match goal with |- context [Reqb ?x ?x] => destruct (Reqb_spec x x); [|tauto] end. reflexivity. }
  assert (G1 : IsGreaterThan (1 / 2)%R 0%R = true). { apply gt_iff. rewrite <- tol_thr. unfold tol. rewrite Rabs_R0, Rabs_right, Rmax_left by lra. lra. }
  assert (G2 : IsGreaterThan 1%R (1 / 2)%R = true). { apply gt_iff. rewrite <- tol_thr. unfold tol. rewrite Rabs_R1, Rabs_right, Rmax_left by lra. lra. }
  assert (N1 : IsAlmostEqualTo 1%R 0%R = false). { apply close_false. unfold close, tol. rewrite Rminus_0_r, Rabs_R0, Rabs_R1, Rmax_left by lra. lra. }
  assert (N2 : IsAlmostEqualTo 1%R 1%R = true). { apply close_iff. unfold close. rewrite Rminus_eq_0, Rabs_R0. apply Rlt_le, tol_pos. }
  assert (EC : forall d, TessellateCore (Datatypes.S d) (mkCurve 3 (bezier_knots 3) (ess h)) 0%R 1%R [] = Ok [1 / 2]%R).
  { intros d. cbn [TessellateCore]. num. replace ((0 + 1) * (1 / 2))%R with (1 / 2)%R by lra. rewrite X0. cbn [bind]. rewrite X2. cbn [bind]. rewrite X1. cbn [bind]. rewrite Distance_eq. cbn [bind].
    replace (dist3 _ _) with 0%R. 2:{ unfold dist3, norm3. replace (dot3 _ _) with 0%R; [symmetry; apply sqrt_0|]. rewrite scale_eq, add_eq. unfold dot3, minus3, times3, plus3. cbn [gx gy gz]. field. }
    assert (Z0 : IsAlmostEqualTo 0%R 0%R = true) by (apply close_iff; unfold close; rewrite Rminus_eq_0, Rabs_R0; apply Rlt_le, tol_pos). rewrite Z0. reflexivity. }
  unfold Tessellate. cbn [Degree KnotVector]. change (3 =? 1) with false. cbv iota. rewrite EV. change (get [0; 1]%R 0) with (Ok 0%R). change (len [0; 1]%R) with 2. cbn [bind]. change (2 <? 2) with false. cbv iota. change (get [0; 1]%R (2 - 1)) with (Ok 1%R). cbn [bind].
  rewrite for_up_first by lia. change (get [0; 1]%R 0) with (Ok 0%R). change (get [0; 1]%R (0 + 1)) with (Ok 1%R). cbn [bind]. rewrite N1. rewrite (EC 19%nat). cbn [bind]. change (len [1 / 2]%R) with 1.
  rewrite (for_up_first 0 1) by lia. change (get [1 / 2]%R 0) with (Ok (1 / 2)%R). change (get [0%R] (len [0%R] - 1)) with (Ok 0%R). cbn [bind]. num.
  destruct (Rltb_spec 0 (1 / 2)); [|lra]. destruct (Rltb_spec (1 / 2) 1); [|lra]. cbn [andb]. rewrite G1. cbn [bind app].
  change (for_up (0 + 1) 1 [0; 1 / 2]%R (fun k parameters => let! t := get [1 / 2]%R k in let! last := get parameters (len parameters - 1) in if Rltb 0 t && Rltb t 1 && IsGreaterThan t last then Ok (parameters ++ [t]) else Ok parameters)) with (Ok [0; 1 / 2]%R).
  cbn [bind]. change (get [0; 1 / 2]%R (len [0; 1 / 2]%R - 1)) with (Ok (1 / 2)%R). cbn [bind]. rewrite G2. cbn [bind app].
  match goal with |- context [for_up (0 + 1) (2 - 1) ?s ?b] => change (for_up (0 + 1) (2 - 1) s b) with (Ok (A := list R) s) end. cbn [bind].
  change (get [0; 1 / 2; 1]%R (len [0; 1 / 2; 1]%R - 1)) with (Ok 1%R). cbn [bind]. rewrite N2. change (len [0; 1 / 2; 1]%R) with 3.
  rewrite for_up_first by lia. change (get [0; 1 / 2; 1]%R 0) with (Ok 0%R). cbn [bind]. rewrite X0. cbn [bind app]. rewrite for_up_first by lia. change (get [0; 1 / 2; 1]%R (0 + 1)) with (Ok (1 / 2)%R). cbn [bind]. rewrite X1. cbn [bind app].
  rewrite for_up_first by lia. change (get [0; 1 / 2; 1]%R (0 + 1 + 1)) with (Ok 1%R). cbn [bind]. rewrite X2. cbn [bind app]. reflexivity.
Qed.
