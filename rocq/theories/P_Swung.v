(* Surfaces swung along a trajectory. *)
From Coq Require Import ZArith List Bool Reals Lra Lia.
From Verif Require Import Base Num Vec Tac Spec Spec2 Spec3 Spec4 Spec6 Spec9 Spec10 Spec12 Spec15 M_MathUtils M_XYZ M_Matrix M_Bspline M_NurbsCurve M_Surface M_Surface2 M_Fit
  P_MathUtils P_Span P_Cox P_Vec P_XYZ P_VSum P_Curve P_Bspline P_BsplineS P_Loop P_Nurbs P_Decomp P_Make P_Matrix P_Interp P_Fit P_Deriv P_Reparam P_Shape P_Surface.
Import ListNotations.
Open Scope Z_scope.

(** two runs that fail alike or end in related states *)
Definition rel {X} (R : X -> X -> Prop) (a b : res X) : Prop := match a, b with Ok x, Ok y => R x y | Err e, Err e' => e = e' | _, _ => False end.
Lemma rel_eq {X} (a b : res X) : rel eq a b -> a = b.
Proof. destruct a, b; cbn; intros; subst; tauto. Qed.
Lemma rel_refl {X} (R : X -> X -> Prop) (a : res X) : (forall x, a = Ok x -> R x x) -> rel R a a.
Proof. destruct a; cbn; auto. Qed.
Lemma rel_mono' {X} (R Q : X -> X -> Prop) a b : (forall x y, R x y -> Q x y) -> rel R a b -> rel Q a b.
Proof. intros H. destruct a, b; cbn; auto. Qed.
Lemma rel_bind {X Y} (R : X -> X -> Prop) (Q : Y -> Y -> Prop) a b f g : rel R a b -> (forall x y, a = Ok x -> b = Ok y -> R x y -> rel Q (f x) (g y)) -> rel Q (bind a f) (bind b g).
Proof. destruct a, b; cbn; intros H H'; subst; try contradiction; auto. Qed.
Lemma rel_same {X Y} (Q : Y -> Y -> Prop) (a : res X) f g : (forall x, a = Ok x -> rel Q (f x) (g x)) -> rel Q (bind a f) (bind a g).
Proof. destruct a; cbn; intros H; auto. Qed.
Lemma rel_for {X} (R : Z -> X -> X -> Prop) lo hi s t f g : lo <= hi -> R lo s t -> (forall i x y, lo <= i < hi -> R i x y -> rel (R (i + 1)) (f i x) (g i y)) -> rel (R hi) (for_up lo hi s f) (for_up lo hi t g).
Proof.
  intros Hl H0 Hs. unfold for_up. 
  enough (G : forall n i x y, lo <= i -> i + Z.of_nat n = hi -> R i x y -> rel (R hi) (iter_up n i f x) (iter_up n i g y)) by (apply G; lia || assumption).
  induction n as [|n IH]; intros i x y Hi Hn Hr; cbn [iter_up].
  - cbn. replace hi with i by lia. exact Hr.
  - apply (rel_bind (R (i + 1))); [apply Hs; [lia|exact Hr]|]. intros x' y' _ _ Hr'. apply IH; lia || assumption.
Qed.

Lemma len_map' {X Y} (f : X -> Y) l : len (map f l) = len l. Proof. unfold len. rewrite map_length. reflexivity. Qed.

Section Scale.
Variables (solve : list (list R) -> list (list R) -> res (list (list R))).
Variables (np K : Z) (s1 s2 : R) (P : list (XYZW R)).
Hypothesis HP : len P = np.
Hypothesis W1 : forall i, 0 <= i < np -> IsAlmostEqualTo (s1 * ww (pt P i))%R 0%R = false.
Hypothesis W2 : forall i, 0 <= i < np -> IsAlmostEqualTo (s2 * ww (pt P i))%R 0%R = false.

Definition same (a b : XYZW R) : Prop := ToXYZ a true = ToXYZ b true.
Definition alike (D : Z -> Z -> Prop) (a b : list (list (XYZW R))) : Prop := exists f g, arr2 a np K f /\ arr2 b np K g /\
  forall i k, 0 <= i < np -> 0 <= k < K -> same (f i k) (g i k) /\ (D i k -> f i k = g i k).

Lemma alike_mono (D D' : Z -> Z -> Prop) a b : (forall i k, 0 <= i < np -> 0 <= k < K -> D' i k -> D i k) -> alike D a b -> alike D' a b.
Proof. intros H (f & g & Hf & Hg & Hs). exists f, g. split; [exact Hf|]. split; [exact Hg|]. intros i k Hi Hk. destruct (Hs i k Hi Hk) as (S1 & S2). auto. Qed.
Lemma alike_upd (D D' : Z -> Z -> Prop) a b i k x y : alike D a b -> 0 <= i < np -> 0 <= k < K -> same x y -> (D' i k -> x = y) -> (forall i' k', D' i' k' -> i' = i /\ k' = k \/ D i' k') ->
  rel (alike D') (upd2 a i k x) (upd2 b i k y).
Proof.
  intros (f & g & Hf & Hg & Hs) Hi Hk Hxy He HD.
  pose proof (arr2_upd _ _ _ _ i k x (fun r => arr2 r np K (fun r' c' => if (r' =? i) && (c' =? k) then x else f r' c')) Hf Hi Hk) as A.
  pose proof (arr2_upd _ _ _ _ i k y (fun r => arr2 r np K (fun r' c' => if (r' =? i) && (c' =? k) then y else g r' c')) Hg Hi Hk) as B.
  destruct (upd2 a i k x) as [a'|]; [|exfalso; exact (A (fun m H => H))]. destruct (upd2 b i k y) as [b'|]; [|exfalso; exact (B (fun m H => H))].
  specialize (A (fun m H => H)). specialize (B (fun m H => H)). cbn in A, B |- *. eexists _, _. split; [exact A|]. split; [exact B|]. cbv beta. intros i' k' Hi' Hk'.
  destruct (Z.eqb_spec i' i) as [->|], (Z.eqb_spec k' k) as [->|]; cbn [andb]; try (split; [apply Hs; lia|]; intros Hd; apply HD in Hd; destruct Hd as [Hd|Hd]; [lia|apply Hs; lia || assumption]).
  split; [exact Hxy|exact He].
Qed.

Lemma weighted_same M i : 0 <= i < np -> rel same (OfWeightedPoint M (xyzw_scale s1 (pt P i))) (OfWeightedPoint M (xyzw_scale s2 (pt P i))).
Proof.
  intros Hi. pose proof (W1 i Hi) as A. pose proof (W2 i Hi) as B. destruct (pt P i) as [x y z w]. unfold OfWeightedPoint, xyzw_scale. cbn [wx wy wz ww] in *. num. rewrite (Rmult_comm s1) in A. rewrite (Rmult_comm s2) in B.
  assert (N1 : (w * s1 <> 0)%R) by (intros E; rewrite E, aeq_refl in A; discriminate).
  assert (N2 : (w * s2 <> 0)%R) by (intros E; rewrite E, aeq_refl in B; discriminate).
  assert (w <> 0)%R by (intros ->; rewrite Rmult_0_l in N1; auto). assert (s1 <> 0)%R by (intros ->; rewrite Rmult_0_r in N1; auto). assert (s2 <> 0)%R by (intros ->; rewrite Rmult_0_r in N2; auto).
  rewrite !(Rdiv_ok _ (w * s1)%R), !(Rdiv_ok _ (w * s2)%R) by assumption. cbn [bind].
  assert (Q : forall s a, (s <> 0)%R -> (a * s / (w * s) = a / w)%R) by (intros; field; auto). rewrite !Q by assumption.
  destruct (OfPoint M _) as [p|e]; cbn; [|reflexivity]. unfold same. rewrite !ToXYZ_mkW by assumption. reflexivity.
Qed.

Lemma scaled_get s i : 0 <= i < np -> get (map (xyzw_scale s) P) i = Ok (xyzw_scale s (pt P i)).
Proof. intros Hi. pose proof (get_at (vzero : XYZW R) P i ltac:(lia)) as E. unfold get in *. destruct (Z.ltb_spec i 0); [lia|]. rewrite nth_error_map. destruct (nth_error P (Z.to_nat i)); [|discriminate]. injection E as ->. reflexivity. Qed.

Lemma alike_start (D : Z -> Z -> Prop) a : 0 <= np -> arr2 a np K (fun _ _ => xyzw0) -> alike D a a.
Proof. intros Hn H. exists (fun _ _ => xyzw0), (fun _ _ => xyzw0). split; [exact H|]. split; [exact H|]. intros. split; reflexivity. Qed.

Lemma placed_alike M k a b : 0 <= np -> 0 <= k < K -> alike (fun _ _ => False) a b -> 
  rel (alike (fun _ _ => False)) (for_up 0 (len (map (xyzw_scale s1) P)) a (fun i c => let! cp := get (map (xyzw_scale s1) P) i in let! q := OfWeightedPoint M cp in upd2 c i k q))
    (for_up 0 (len (map (xyzw_scale s2) P)) b (fun i c => let! cp := get (map (xyzw_scale s2) P) i in let! q := OfWeightedPoint M cp in upd2 c i k q)).
Proof.
  intros Hn Hk H. assert (L : forall s, len (map (xyzw_scale s) P) = np) by (intros; unfold len in *; rewrite map_length; exact HP). rewrite !L.
  apply (rel_for (fun _ => alike (fun _ _ => False))); [lia|exact H|]. intros i x y Hi Hxy. rewrite !scaled_get by exact Hi. cbn [bind].
  eapply rel_bind; [apply weighted_same, Hi|]. intros q q' _ _ Hq. eapply alike_upd; try eassumption; [tauto|tauto].
Qed.

Lemma rows_alike q vl a b : 0 <= np -> 0 <= K -> alike (fun _ _ => False) a b ->
  rel eq (for_up 0 (len a) a (fun i c =>
    let! row0 := get c 0 in
    let! throughPoints := for_up 0 (len row0) [] (fun k throughPoints =>
      let! x := get2 c i k in
      let! x := ToXYZ x true in
      Ok (throughPoints ++ [x])) in
    let! R := GlobalInterpolation solve q throughPoints vl in
    for_up 0 (len row0) c (fun k c =>
      let! x := get (ControlPoints R) k in
      upd2 c i k x)))
   (for_up 0 (len b) b (fun i c =>
    let! row0 := get c 0 in
    let! throughPoints := for_up 0 (len row0) [] (fun k throughPoints =>
      let! x := get2 c i k in
      let! x := ToXYZ x true in
      Ok (throughPoints ++ [x])) in
    let! R := GlobalInterpolation solve q throughPoints vl in
    for_up 0 (len row0) c (fun k c =>
      let! x := get (ControlPoints R) k in
      upd2 c i k x))).
Proof.
  intros Hn HK H. assert (La : len a = np) by (destruct H as (f & g & Hf & _); apply Hf). assert (Lb : len b = np) by (destruct H as (f & g & _ & Hg & _); apply Hg). rewrite La, Lb.
  assert (G : forall m1 m2, rel (alike (fun i _ => i < np)) m1 m2 -> rel eq m1 m2).
  { intros [x|] [y|]; cbn; auto. intros (f & g & Hf & Hg & Hs). apply (arr2_inj _ _ np K g); [|exact Hg]. eapply arr2_ext; [exact Hf|]. intros i k Hi Hk. apply Hs; lia. }
  apply G. apply (rel_for (fun h => alike (fun i _ => i < h))); [lia|eapply alike_mono; [|exact H]; cbv beta; lia|].
  intros i x y Hi Hxy. pose proof Hxy as (f & g & Hf & Hg & Hs).
  destruct (proj2 Hf 0 ltac:(lia)) as (r1 & E1 & A1), (proj2 Hg 0 ltac:(lia)) as (r2 & E2 & A2). rewrite E1, E2. cbn [bind]. rewrite (arr_len _ _ _ A1), (arr_len _ _ _ A2).
  eapply (rel_bind eq).
  { apply (rel_for (fun _ => eq)); [lia|reflexivity|]. intros k u w Hk ->. rewrite (arr2_get _ _ _ _ _ _ Hf), (arr2_get _ _ _ _ _ _ Hg) by lia. cbn [bind].
    destruct (Hs i k Hi Hk) as (S1 & _). unfold same in S1. rewrite S1. apply rel_refl. reflexivity. }
  intros t t' _ _ <-. apply rel_same. intros R _.
  apply (rel_mono' (alike (fun i' k' => i' < i \/ i' = i /\ k' < K))).
  { intros u w. apply alike_mono. lia. }
  apply (rel_for (fun h => alike (fun i' k' => i' < i \/ i' = i /\ k' < h))); [lia|eapply alike_mono; [|exact Hxy]; cbv beta; lia|].
  intros k u w Hk Huw. apply rel_same. intros z _. eapply alike_upd; [exact Huw|lia|lia|reflexivity|reflexivity|cbv beta; intros; lia].
Qed.
End Scale.

Lemma Swung_scale solve (profile trajectory : Curve R (XYZW R)) s1 s2 :
  (forall i, 0 <= i < len (ControlPoints profile) -> IsAlmostEqualTo (s1 * ww (pt (ControlPoints profile) i))%R 0%R = false) ->
  (forall i, 0 <= i < len (ControlPoints profile) -> IsAlmostEqualTo (s2 * ww (pt (ControlPoints profile) i))%R 0%R = false) ->
  CreateSwungSurface solve profile trajectory s1 = CreateSwungSurface solve profile trajectory s2.
Proof.
  intros W1 W2. apply rel_eq. unfold CreateSwungSurface. set (P := ControlPoints profile) in *. set (K := len (ControlPoints trajectory)).
  assert (HK : 0 <= K) by apply len_nonneg. assert (HN : 0 <= len P) by apply len_nonneg.
  assert (HL : wp (mkvec K (xyzw0 (A := R))) (fun l => arr l K (fun _ => xyzw0))) by (apply wp_mkvec; [exact HK|auto]).
  apply rel_same. intros line EL. rewrite EL in HL. cbn [wp] in HL.
  assert (HC : wp (mkvec (len P) line) (fun c => arr2 c (len P) K (fun _ _ => xyzw0))) by (eapply wp_mkvec2; eauto).
  apply rel_same. intros c EC. rewrite EC in HC. cbn [wp] in HC.
  apply rel_same. intros vl _. apply rel_same. intros B _. apply rel_same. intros Bv _.
  eapply (rel_bind (alike (len P) K (fun _ _ => False))).
  - apply (rel_for (fun _ => alike (len P) K (fun _ _ => False))); [exact HK|apply alike_start; assumption|]. intros k x y Hk Hxy. cbv zeta.
    repeat (apply rel_same; intros ? _). apply placed_alike; auto.
  - intros a b _ _ Hab. eapply (rel_bind eq); [apply (rows_alike solve (len P) K); auto|]. intros x y _ _ <-. reflexivity.
Qed.

(** straight trajectories *)
Section Straight.
Variables (solve : list (list R) -> list (list R) -> res (list (list R))).
Hypothesis Hsolve : exact_solver solve.

Lemma unit2_bez U : clamped_unit 1 1 U -> U = bezier_knots 1.
Proof.
  intros (L & _ & A & B). apply (arr_inj _ _ 4 (fun i => if i <=? 1 then 0%R else 1%R)).
  - pose proof (P_Bern.arr_val U) as AV. rewrite L in AV. eapply arr_ext; [exact AV|]. intros i Hi. cbv beta. destruct (Z.leb_spec i 1); [apply A|apply B]; lia.
  - pose proof (P_Bern.arr_val (bezier_knots 1)) as AV. eapply arr_ext; [exact AV|]. intros i Hi. apply (bez_val 1); lia.
Qed.

Definition bar (a b : XYZ R) : list (XYZW R) := [hom a 1; hom b 1].
Lemma bar_pts a b : pt (bar a b) 0 = hom a 1 /\ pt (bar a b) 1 = hom b 1. Proof. split; reflexivity. Qed.
Lemma bar_at a b t : (0 <= t <= 1)%R -> curve_point 1 1 (bezier_knots 1) (bar a b) t = hom (lerp3 a b t) 1.
Proof.
  intros Ht. apply co_ext. intros c. rewrite (bez_curve 1) by (lia || assumption). rewrite rsum_2. destruct (bern1 t) as (-> & ->). destruct (bar_pts a b) as (-> & ->).
  destruct a, b. destruct c as [|[|[|c]]]; cbn; ring.
Qed.
Lemma two_points x y : GlobalInterpolation solve 1 [x; y] [0; 1]%R = Ok (mkCurve 1 (bezier_knots 1) (bar x y)).
Proof.
  assert (V : val [0; 1]%R 0 = 0%R /\ val [0; 1]%R 1 = 1%R) by (split; reflexivity). destruct V as (V0 & V1).
  pose proof (Interpolation_ok solve Hsolve 1 [x; y] [0; 1]%R) as IO. cbv zeta in IO. change (len [x; y] - 1) with 1 in IO. change (1 - 1) with 0 in IO. rewrite V0, V1 in IO.
  destruct IO as (c & E & D & CU & L & _ & _ & _ & Un); try lra; try lia; try reflexivity.
  { intros i j Hi Hj. assert (i = 0 /\ j = 1) as [-> ->] by lia. rewrite V0, V1. lra. }
  rewrite E. f_equal. pose proof (unit2_bez _ CU) as EU. rewrite EU in Un. destruct c as [dc kc pc]. cbn [Degree KnotVector ControlPoints] in *. subst. f_equal. symmetry. apply Un; [reflexivity|].
  intros i Hi. assert (i = 0 \/ i = 1) as [-> | ->] by lia; rewrite ?V0, ?V1, bar_at by lra; f_equal; change (pt [x; y] 0) with x; change (pt [x; y] 1) with y; unfold lerp3, plus3, times3; destruct x, y; cbn; f_equal; ring.
Qed.

Lemma bar_span a b x : span_curve 1 1 (bezier_knots 1) (bar a b) x = hom (lerp3 a b x) 1.
Proof.
  apply co_ext. intros c. unfold span_curve. rewrite co_comb. change (1 - 1) with 0. change (1 + 1) with 2. rewrite rsum_2. destruct (bar_pts a b) as (-> & ->).
  assert (V : val (bezier_knots 1) 0 = 0%R /\ val (bezier_knots 1) 1 = 0%R /\ val (bezier_knots 1) 2 = 1%R /\ val (bezier_knots 1) 3 = 1%R) by (repeat split; reflexivity). destruct V as (V0 & V1 & V2 & V3).
  assert (N0 : Nspan (val (bezier_knots 1)) 1 (Z.to_nat 1) 0 x = (1 - x)%R).
  { change (Z.to_nat 1) with 1%nat. unfold Nspan. cbn [Nrec]. change (Z.of_nat 1) with 1. cbn [Z.eqb Z.add Pos.eqb Pos.add Pos.succ]. rewrite ?V0, ?V1, ?V2. rewrite !(sdiv_ok _ (1 - 0)%R) by lra. field. }
  assert (N1 : Nspan (val (bezier_knots 1)) 1 (Z.to_nat 1) 1 x = x%R).
  { change (Z.to_nat 1) with 1%nat. unfold Nspan. cbn [Nrec]. change (Z.of_nat 1) with 1. cbn [Z.eqb Z.add Pos.eqb Pos.add Pos.succ]. rewrite ?V0, ?V1, ?V2, ?V3. rewrite !(sdiv_ok _ (1 - 0)%R) by lra. field. }
  rewrite N0, N1. destruct a, b. destruct c as [|[|[|c]]]; cbn; ring.
Qed.

Definition bar_curve a b := mkCurve 1 (bezier_knots 1) (bar a b).
Lemma bar_dom t : (0 <= t <= 1)%R -> in_domain 1 1 (bezier_knots 1) t.
Proof. intros Ht. split; [change (val (bezier_knots 1) 1) with 0%R|change (val (bezier_knots 1) (1 + 1)) with 1%R]; apply Ht. Qed.
Lemma hom_proj x : proj (hom x 1) = x.
Proof. destruct x. unfold proj, hom. cbn. f_equal; field. Qed.
Lemma bar_point a b t : (0 <= t <= 1)%R -> NurbsPoint (bar_curve a b) t = Ok (lerp3 a b t).
Proof.
  intros Ht. unfold bar_curve. rewrite (NurbsPoint_ok 1 1); [|apply bez_knots_ok; lia|lia|reflexivity|apply bar_dom, Ht]. rewrite bar_at by exact Ht.
  apply ToXYZ_hom. unfold tol. rewrite Rabs_R0, Rabs_R1, Rmax_left by lra. lra.
Qed.
Lemma bar_deriv a b t : (0 <= t <= 1)%R -> exists D, ComputeRationalCurveDerivatives (bar_curve a b) 1 t = Ok D /\ get D 1 = Ok (minus3 b a).
Proof.
  intros Ht. destruct (derivs_at 1 1 (bezier_knots 1) (bar a b) t) with (d := 1) as (g & D & (k & Hk & G) & E & HD); [apply bez_knots_ok; lia|lia|reflexivity|apply bar_dom, Ht|rewrite bar_at by exact Ht; unfold hom; cbn; lra|lia|].
  exists D. split; [exact E|]. rewrite (HD 1) by lia. f_equal. assert (k = 1) as -> by (destruct Hk; lia).
  destruct (G 1 ltac:(lia)) as (F & (Fx & Fy & Fz) & <-).
  assert (W : forall x, ww (span_curve 1 1 (bezier_knots 1) (bar a b) x) <> 0%R) by (intros; rewrite bar_span; unfold hom; cbn; lra).
  change (Z.to_nat 1) with 1%nat in *. cbn [nth_deriv_on] in *.
  destruct Fx as (hx & Dx & Ex), Fy as (hy & Dy & Ey), Fz as (hz & Dz & Ez). specialize (Dx t (W t)). specialize (Dy t (W t)). specialize (Dz t (W t)). rewrite Ex in Dx by apply W. rewrite Ey in Dy by apply W. rewrite Ez in Dz by apply W.
  assert (U : forall f l p q, derivable_pt_lim f t l -> (forall x, f x = p * (1 - x) + q * x)%R -> l = (q - p)%R).
  { intros f l p q Hf Hx. apply (uniqueness_limite f t); [exact Hf|]. apply (der_ext (fun x => (p + (q - p) * x)%R)); [intros x; rewrite Hx; ring|].
    pose proof (derivable_pt_lim_plus (fct_cte p) (mult_real_fct (q - p) id) t _ _ (derivable_pt_lim_const p t) (derivable_pt_lim_scal id (q - p) t 1 (derivable_pt_lim_id t))) as Q. replace (0 + (q - p) * 1)%R with (q - p)%R in Q by ring. exact Q. }
  destruct (F t) as [f1 f2 f3]. cbn [gx gy gz] in *. destruct a as [a1 a2 a3], b as [b1 b2 b3].
  unfold minus3. cbn [gx gy gz]. f_equal; (eapply U; [eassumption|]); intros x; cbv beta; rewrite bar_span, hom_proj; unfold lerp3, plus3, times3; cbn [gx gy gz]; ring.
Qed.

Lemma unit_norm (u : XYZ R) : dot3 u u = 1%R -> Normalize u = Ok u.
Proof.
  intros Hu. destruct (Normalize_spec u) as (w & E & Hw & s & Hs & Ew). { intros ->. unfold dot3 in Hu. cbn in Hu. lra. }
  rewrite E. f_equal. assert (s * s = 1)%R. { rewrite Ew in Hu. unfold SqrLength in Hw. unfold dot3, xyz_scale in *. num. cbn [gx gy gz] in *. nra. }
  assert (s = 1)%R by nra. subst s. rewrite Ew. unfold xyz_scale. num. destruct w as [w1 w2 w3]. cbn [gx gy gz]. f_equal; ring.
Qed.
Lemma norm_dir (a : XYZ R) : dot3 a a <> 0%R -> exists u s, Normalize a = Ok u /\ dot3 u u = 1%R /\ (0 < s)%R /\ a = times3 s u.
Proof.
  intros Ha. destruct (Normalize_spec a) as (w & E & Hw & s & Hs & Ew). { intros ->. apply Ha. unfold dot3. cbn. ring. }
  exists w, s. split; [exact E|]. split; [|split; [exact Hs|]].
  - rewrite <- Hw. unfold SqrLength, dot3. num. ring.
  - rewrite Ew. unfold xyz_scale, times3. num. f_equal; ring.
Qed.

Lemma bar_params : swung_params 1 2 (bezier_knots 1) = Ok [0; 1]%R.
Proof. reflexivity. Qed.

Variables (a b : XYZ R).
Hypothesis Hab : (1 / 1000 <= dist3 a b)%R.

Lemma bar_long : (1 / 1000000 <= dot3 (minus3 b a) (minus3 b a))%R.
Proof.
  assert (E : (dist3 a b * dist3 a b = dot3 (minus3 b a) (minus3 b a))%R).
  { unfold dist3, norm3. rewrite R_sqrt.sqrt_sqrt by (unfold dot3; nra). unfold dot3, minus3. cbn [gx gy gz]. ring. }
  rewrite <- E. replace (1 / 1000000)%R with (1 / 1000 * (1 / 1000))%R by field. apply Rmult_le_compat; lra.
Qed.

Lemma bar_frame : exists x z, Normalize (minus3 b a) = Ok x /\ dot3 x x = 1%R /\ dot3 z z = 1%R /\ dot3 z x = 0%R /\ direction_of (minus3 b a) x /\ swung_frame (bar_curve a b) [0; 1]%R = Ok [z; z].
Proof.
  pose proof bar_long as HL. set (d := minus3 b a) in *.
  destruct (norm_dir d ltac:(lra)) as (x & s & Ex & Hx & Hs & Ed).
  set (c := if IsAlmostEqualTo (gy d) 0%R then CrossProduct (mkXYZ 0 1 0)%R d else CrossProduct (mkXYZ 1 0 0)%R d).
  assert (Hc : dot3 c c <> 0%R /\ dot3 c x = 0%R).
  { split.
    - intros E. unfold c in E. destruct (IsAlmostEqualTo (gy d) 0%R) eqn:Q.
      + assert (gx d = 0 /\ gz d = 0)%R as (Q1 & Q2) by (unfold dot3, CrossProduct in E; num; cbn [gx gy gz] in E; split; nra).
        apply (proj1 (close_iff _ _)) in Q. unfold close in Q. unfold dot3 in HL. rewrite Q1, Q2 in HL. assert (Q' : (Rabs (gy d) <= 1 / 1000000 * (1 + Rabs (gy d)))%R) by (revert Q; unfold tol; rewrite ?Rminus_0_r, ?Rabs_R0, ?Rmax_left by apply Rabs_pos; intros Q; lra). clear Q. assert (Rabs (gy d) * Rabs (gy d) = gy d * gy d)%R by (unfold Rabs; destruct (Rcase_abs _); ring). pose proof (Rabs_pos (gy d)). nra.
      + assert (gy d = 0)%R by (unfold dot3, CrossProduct in E; num; cbn [gx gy gz] in E; nra). rewrite H, aeq_refl in Q. discriminate.
    - assert (dot3 c d = 0)%R by (unfold c; destruct (IsAlmostEqualTo (gy d) 0%R); unfold dot3, CrossProduct; num; cbn [gx gy gz]; ring).
      rewrite Ed in H. unfold dot3, times3 in *. cbn [gx gy gz] in H. nra. }
  destruct Hc as (Hc & Hcx). destruct (norm_dir c Hc) as (z & r & Ez & Hz & Hr & Ecz).
  assert (Hzx : dot3 z x = 0%R) by (rewrite Ecz in Hcx; unfold dot3, times3 in *; cbn [gx gy gz] in Hcx; nra).
  exists x, z. split; [exact Ex|]. split; [exact Hx|]. split; [exact Hz|]. split; [exact Hzx|]. split. { split; [exact Hx|]. exists s. split; [exact Hs|exact Ed]. }
  unfold swung_frame. change (len [0; 1]%R) with 2. change (mkvec 2 (xyz0 (A := R))) with (Ok [xyz0; xyz0 (A := R)]). cbn [bind].
  change (get [0; 1]%R 0) with (Ok 0%R). cbn [bind]. destruct (bar_deriv a b 0 ltac:(lra)) as (D0 & E0 & G0). rewrite E0. cbn [bind]. rewrite G0. cbn [bind]. fold d. num. fold c. rewrite Ez. cbn [bind].
  change (upd [xyz0; xyz0 (A := R)] 0 z) with (Ok [z; xyz0 (A := R)]). cbn [bind]. unfold for_up. change (Z.to_nat (2 - 1)) with 1%nat. cbn [iter_up].
  change (get [0; 1]%R 1) with (Ok 1%R). cbn [bind]. destruct (bar_deriv a b 1 ltac:(lra)) as (D1 & E1 & G1). rewrite E1. cbn [bind]. rewrite G1. cbn [bind]. fold d. rewrite Ex. cbn [bind].
  change (get [z; xyz0 (A := R)] (1 - 1)) with (Ok z). cbn [bind].
  assert (EZ : xyz_sub z (xyz_scale (DotProduct z x) x) = z).
  { assert (DotProduct z x = 0%R) by (rewrite <- Hzx; reflexivity). rewrite H. unfold xyz_sub, xyz_scale. num. destruct z as [z1 z2 z3]; cbn [gx gy gz]. f_equal; ring. }
  rewrite EZ, (unit_norm z Hz). reflexivity.
Qed.

Definition end_of (k : Z) : R := if k =? 0 then 0%R else 1%R.
Definition up1 : XYZ R := mkXYZ 0%R 0%R 1%R.
Lemma end_bounds k : (0 <= end_of k <= 1)%R. Proof. unfold end_of. destruct (k =? 0); lra. Qed.
Lemma lerp_same (z : XYZ R) t : lerp3 z z t = z.
Proof. destruct z. unfold lerp3, plus3, times3. cbn. f_equal; ring. Qed.

Lemma place_ok x y z o c s : IsAlmostEqualTo (ww c * s)%R 0%R = false ->
  OfWeightedPoint (m4_mul (CreateTranslation o) (m4_basis y x z (mkXYZ 0 0 1)%R)) (xyzw_scale s c) = Ok (mkW (plus3 (placed x y z o (proj c)) up1) (ww c * s)%R).
Proof.
  intros Hw. assert (N : (ww c * s <> 0)%R) by (intros E; rewrite E, aeq_refl in Hw; discriminate).
  assert (ww c <> 0)%R by (intros E; rewrite E, Rmult_0_l in N; auto). assert (s <> 0)%R by (intros E; rewrite E, Rmult_0_r in N; auto).
  unfold OfWeightedPoint, xyzw_scale. cbn [wx wy wz ww]. num. rewrite !Rdiv_ok by exact N. cbn [bind].
  set (q := (mkXYZ (wx c * s / (ww c * s)) (wy c * s / (ww c * s)) (wz c * s / (ww c * s)))%R). assert (Eq : q = proj c) by (unfold q, proj; f_equal; field; split; assumption). rewrite Eq. clear q Eq. set (q := proj c).
  assert (W : wdiv (m4_mul (CreateTranslation o) (m4_basis y x z (mkXYZ 0 0 1)%R)) q = 1%R) by (unfold wdiv, m4_mul, CreateTranslation, m4_basis; cbn; num; ring).
  rewrite OfPoint_w by (rewrite W; lra). cbn [bind]. rewrite W. f_equal. f_equal. unfold placed, plus3, times3, up1, m4_mul, CreateTranslation, m4_basis. cbn. num. f_equal; field; assumption.
Qed.

Variables (p n : Z) (U : list R) (P : list (XYZW R)) (s : R).
Hypothesis HU : curve_knots p n U.
Hypothesis HP : len P = n + 1.
Hypothesis HW : forall i, 0 <= i <= n -> IsAlmostEqualTo (ww (pt P i) * s)%R 0%R = false.

Lemma swung_straight : exists x y z, orthonormal x y z /\ direction_of (minus3 b a) x /\
  returns (CreateSwungSurface solve (mkCurve p U P) (bar_curve a b) s) (fun S => exists net, S = mkSurface p 1 U (bezier_knots 1) net /\
    arr2 net (n + 1) 2 (fun i k => hom (plus3 (placed x y z (lerp3 a b (end_of k)) (proj (pt P i))) up1) 1)).
Proof.
  pose proof (ck_p _ _ _ HU). pose proof (ck_n _ _ _ HU).
  destruct bar_frame as (x & z & Ex & Hx & Hz & Hzx & Hd & EF). exists x, (cross3 z x), z. split; [repeat split; assumption|]. split; [exact Hd|].
  set (y := cross3 z x). set (g := fun i k => plus3 (placed x y z (lerp3 a b (end_of k)) (proj (pt P i))) up1).
  apply wp_elim. unfold CreateSwungSurface. cbn [Degree KnotVector ControlPoints bar_curve]. change (len (bar a b)) with 2. rewrite HP.
  change (mkvec 2 (xyzw0 (A := R))) with (Ok [xyzw0; xyzw0 (A := R)]). cbn [bind].
  apply wp_bind. apply (wp_mkvec2 (xyzw0 (A := R)) (n + 1) 2); [lia| |]. { split; [reflexivity|]. intros i Hi. assert (i = 0 \/ i = 1) as [-> | ->] by lia; reflexivity. }
  intros c0 Hc0. rewrite bar_params. cbn [bind]. fold (bar_curve a b). rewrite EF. cbn [bind]. change (Z.min 3 (len [z; z] - 1)) with 1. rewrite two_points. cbn [bind]. fold (bar_curve z z).
  apply wp_bind. apply wp_for_up with (P := fun h c => arr2D c (n + 1) 2 (fun _ k => k < h) (fun i k => mkW (g i k) (ww (pt P i) * s)%R)); [lia| | |].
  - split; [apply Hc0|]. intros i Hi. destruct (proj2 Hc0 i Hi) as (row & E & A). exists row. split; [exact E|]. split; [apply A|]. intros; lia.
  - intros k c Hk Hc. cbv zeta. assert (GV : get [0; 1]%R k = Ok (end_of k)) by (assert (k = 0 \/ k = 1) as [-> | ->] by lia; reflexivity). rewrite GV. cbn [bind].
    destruct (bar_deriv a b (end_of k) (end_bounds k)) as (D & ED & GD). rewrite ED. cbn [bind]. rewrite GD. cbn [bind]. rewrite Ex. cbn [bind].
    rewrite bar_point by apply end_bounds. cbn [bind]. rewrite lerp_same, (unit_norm z Hz). cbn [bind]. rewrite bar_point by apply end_bounds. cbn [bind].
    replace (CrossProduct z x) with y by (unfold y, cross3, CrossProduct; num; f_equal; ring). rewrite (len_map' (xyzw_scale s) P), HP.
    apply wp_for_up with (P := fun h c => arr2D c (n + 1) 2 (fun i k' => k' < k \/ k' = k /\ i < h) (fun i k => mkW (g i k) (ww (pt P i) * s)%R)); [lia| | |].
    + eapply arr2D_ext; [exact Hc|]. cbv beta. intros i1 k1 ? ? Hd1. split; [lia|reflexivity].
    + intros i c' Hi Hc'. rewrite (scaled_get (n + 1)) by (assumption || lia). cbn [bind]. num. rewrite place_ok by (apply HW; lia). cbn [bind].
      eapply (arr2D_set _ (n + 1) 2 _ (fun i1 k1 => k1 < k \/ k1 = k /\ i1 < i + 1)); [exact Hc'|lia|lia|reflexivity|cbv beta; intros; lia|intros c'' H''; exact H''].
    + intros c' Hc'. eapply arr2D_ext; [exact Hc'|]. cbv beta. intros i1 k1 ? ? Hd1. split; [lia|reflexivity].
  - intros c1 Hc1. rewrite (proj1 Hc1). apply wp_bind.
    set (f := fun h i k => if i <? h then hom (g i k) 1%R else mkW (g i k) (ww (pt P i) * s)%R).
    apply wp_for_up with (P := fun h c => arr2 c (n + 1) 2 (f h)); [lia| | |].
    + eapply arr2_ext; [eapply arr2_of_D; [exact Hc1|cbv beta; intros; lia]|]. intros i k Hi Hk. unfold f. destruct (Z.ltb_spec i 0); [lia|reflexivity].
    + intros i c Hi Hc. destruct (proj2 Hc 0 ltac:(lia)) as (r0 & E0 & A0). rewrite E0. cbn [bind]. rewrite (arr_len _ _ _ A0).
      unfold for_up. change (Z.to_nat (2 - 0)) with 2%nat. cbn [iter_up]. change (0 + 1) with 1.
      assert (T : forall k, 0 <= k < 2 -> get2 c i k = Ok (mkW (g i k) (ww (pt P i) * s)%R)) by (intros k Hk; rewrite (arr2_get _ _ _ _ _ _ Hc) by lia; unfold f; destruct (Z.ltb_spec i i); [lia|reflexivity]).
      rewrite !T by lia. cbn [bind]. rewrite !ToXYZ_mkW by (apply HW; lia). cbn [bind app]. rewrite two_points. cbn [bind ControlPoints].
      change (get (bar (g i 0) (g i 1)) 0) with (Ok (hom (g i 0) 1)). change (get (bar (g i 0) (g i 1)) 1) with (Ok (hom (g i 1) 1)). cbn [bind].
      apply wp_bind. eapply arr2_upd; [exact Hc|lia|lia|]. intros c2 Hc2. apply wp_bind. eapply arr2_upd; [exact Hc2|lia|lia|]. intros c3 Hc3. apply wp_ok.
      eapply arr2_ext; [exact Hc3|]. intros i' k' Hi' Hk'. cbv beta. unfold f.
      destruct (Z.eqb_spec i' i) as [->|]; cbn [andb].
      * destruct (Z.ltb_spec i (i + 1)); [|lia]. assert (k' = 0 \/ k' = 1) as [-> | ->] by lia; reflexivity.
      * destruct (Z.ltb_spec i' (i + 1)), (Z.ltb_spec i' i); try lia; reflexivity.
    + intros c Hc. apply wp_ok. exists c. split; [reflexivity|]. eapply arr2_ext; [exact Hc|]. intros i k Hi Hk. unfold f. destruct (Z.ltb_spec i (n + 1)); [reflexivity|lia].
Qed.

Lemma placed_affine x y z o : affine (fun q => hom (plus3 (placed x y z o q) up1) 1).
Proof. intros k l q r E. apply co_ext. intros c. rewrite co_add, !co_scale. assert (l = 1 - k)%R as -> by lra. destruct q, r. destruct c as [|[|[|c]]]; cbn; num; ring. Qed.

Lemma Swung_straight : p <= 7 -> returns (CreateSwungSurface solve (mkCurve p U P) (bar_curve a b) s) (fun S =>
  valid_surface n 1 S /\ DegreeU S = p /\ DegreeV S = 1 /\ KnotVectorU S = U /\ KnotVectorV S = bezier_knots 1 /\
  exists x y z, orthonormal x y z /\ direction_of (minus3 b a) x /\ forall u v, in_domain p n U u -> (0 <= v <= 1)%R ->
    GetPointOnSurface S u v = Ok (hom (plus3 (placed x y z (lerp3 a b v) (curve_point p n U (map proj P) u)) (mkXYZ 0 0 1)%R) 1)).
Proof.
  intros H7. destruct swung_straight as (x & y & z & Ho & Hd & S & E & net & -> & HN). exists (mkSurface p 1 U (bezier_knots 1) net). split; [exact E|].
  cbn [DegreeU DegreeV KnotVectorU KnotVectorV SControlPoints].
  assert (V : valid_surface n 1 (mkSurface p 1 U (bezier_knots 1) net)).
  { split; [exact HU|]. split; [apply bez_knots_ok; lia|]. split; [eapply net_arr2; exact HN|]. split; cbn; lia. }
  split; [exact V|]. do 4 (split; [reflexivity|]). exists x, y, z. split; [exact Ho|]. split; [exact Hd|]. intros u v Hu Hv.
  rewrite (surface_eval n 1) by (assumption || (apply bar_dom; exact Hv)). f_equal. cbn [DegreeU DegreeV KnotVectorU KnotVectorV SControlPoints].
  unfold curve_point. rewrite (affine_comb (fun q => hom (plus3 (placed x y z (lerp3 a b v) q) up1) 1)) by (apply placed_affine || (apply N_sum; assumption)).
  unfold surface_point. apply comb_ext. intros i Hi. split; [reflexivity|].
  assert (EP : pt (map proj P) i = proj (pt P i)). { unfold pt, at_. rewrite (nth_indep _ vzero (proj vzero)) by (rewrite map_length; unfold len in HP; lia). apply map_nth. }
  rewrite EP. set (q := proj (pt P i)).
  assert (T : forall k, 0 <= k < 2 -> pt2 net i k = hom (plus3 (placed x y z (lerp3 a b (end_of k)) q) up1) 1) by (intros k Hk; apply (pt2_arr2 _ _ _ _ i k HN); lia).
  transitivity (curve_point 1 1 (bezier_knots 1) (bar (plus3 (placed x y z (lerp3 a b (end_of 0)) q) up1) (plus3 (placed x y z (lerp3 a b (end_of 1)) q) up1)) v).
  - unfold curve_point. apply comb_ext. intros j Hj. split; [reflexivity|]. rewrite T by lia. assert (j = 0 \/ j = 1) as [-> | ->] by lia; reflexivity.
  - rewrite bar_at by exact Hv. f_equal. change (end_of 0) with 0%R. change (end_of 1) with 1%R. unfold lerp3, plus3, placed, plus3, times3, up1. cbn [gx gy gz]. f_equal; ring.
Qed.
End Straight.
