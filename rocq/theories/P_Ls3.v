(* Least squares between fixed ends: the statements about curves. *)
From Coq Require Import ZArith List Bool Reals Lra Lia.
From Verif Require Import Base Num Vec Tac Spec Spec2 Spec3 Spec6 Spec21 M_MathUtils M_Polynomials M_XYZ M_Bspline M_NurbsCurve M_Interp M_Fit M_Fit3
  P_MathUtils P_Math2 P_Span P_Cox P_XYZ P_Vec P_VSum P_Curve P_Bspline P_Basis P_Loop P_OneBasis P_Fit P_Interp2 P_Interp P_Lsq P_Lsq2 P_Lsq3 P_Lsq5 P_Ls P_Ls2.
Import ListNotations.
Open Scope Z_scope.

(* a family as a list *)
Definition pts3 (n : Z) (X : Z -> Z -> R) : list (XYZ R) := map (fun l => mkXYZ (X l 0) (X l 1) (X l 2)) (zseq (n + 1)).
Lemma pts3_ok n X : 0 <= n -> len (pts3 n X) = n + 1 /\ forall l, 0 <= l <= n -> pt (pts3 n X) l = mkXYZ (X l 0) (X l 1) (X l 2).
Proof.
  intros Hn. unfold pts3. assert (L : len (map (fun l => mkXYZ (X l 0) (X l 1) (X l 2)) (zseq (n + 1))) = n + 1) by (unfold len; rewrite map_length; fold (len (zseq (n + 1))); apply len_zseq; lia). split; [exact L|].
  intros l Hl. unfold pt, at_. rewrite (nth_indep _ vzero (mkXYZ (X 0 0) (X 0 1) (X 0 2))) by (unfold len in L; lia). rewrite (map_nth (fun l => mkXYZ (X l 0) (X l 1) (X l 2))). fold (at_ 0 (zseq (n + 1)) l). rewrite at_zseq by lia. reflexivity.
Qed.

Lemma curve_cof p n U (P : list (XYZ R)) us r c : 2 <= n -> 0 <= c < 3 -> cof (curve_point p n U P (val us (r + 1))) c =
  (N (val U) (val U (n + 1)) (Z.to_nat p) 0 (val us (r + 1)) * cof (pt P 0) c + dotl (n - 2) (la p n U us r) (fun l => cof (pt P (l + 1)%Z) c) + N (val U) (val U (n + 1)) (Z.to_nat p) n (val us (r + 1)) * cof (pt P n) c)%R.
Proof.
  intros Hn Hc. unfold curve_point. rewrite cof_comb by exact Hc. rewrite rsum_last by lia. rewrite (rsum_split 0 1 n) by lia. rewrite (rsum_last 0 0), (rsum_nil 0 0) by lia. rewrite Rplus_0_l. f_equal. f_equal.
  unfold dotl. rewrite (rsum_shift (-1) 1 n). replace (n + -1) with (n - 2 + 1) by lia. apply rsum_ext. intros l Hl. unfold la. replace (l - -1) with (l + 1) by lia. reflexivity.
Qed.

Lemma dot_cof (v : XYZ R) : dot3 v v = (cof v 0 * cof v 0 + cof v 1 * cof v 1 + cof v 2 * cof v 2)%R.
Proof. reflexivity. Qed.
Lemma cof_minus (v w : XYZ R) c : 0 <= c < 3 -> cof (minus3 v w) c = (cof v c - cof w c)%R.
Proof. intros Hc. assert (c = 0 \/ c = 1 \/ c = 2) as [->|[->| ->]] by lia; reflexivity. Qed.

Section S.
Variables (p n : Z) (U us : list R) (Q : list (XYZ R)).
Let m := len Q - 1.
Hypothesis Hn2 : 2 <= n.
Let a := la p n U us.
Let rest k := xyz_sub (xyz_sub (pt Q (k + 1)) (xyz_scale (N (val U) (val U (n + 1)) (Z.to_nat p) 0 (val us (k + 1))) (pt Q 0))) (xyz_scale (N (val U) (val U (n + 1)) (Z.to_nat p) n (val us (k + 1))) (pt Q m)).

Lemma cof_rest k c : 0 <= c < 3 -> cof (rest k) c = (cof (pt Q (k + 1)%Z) c - N (val U) (val U (n + 1)%Z) (Z.to_nat p) 0 (val us (k + 1)%Z) * cof (pt Q 0) c - N (val U) (val U (n + 1)%Z) (Z.to_nat p) n (val us (k + 1)%Z) * cof (pt Q m) c)%R.
Proof. intros Hc. unfold rest. assert (c = 0 \/ c = 1 \/ c = 2) as [->|[->| ->]] by lia; unfold cof; cbn; ring. Qed.

Lemma inner_split P : pt P 0 = pt Q 0 -> pt P n = pt Q m -> inner_error p n U P us Q =
  (rsum 0 (m - 1) (fun r => (dotl (n - 2) (a r) (fun l => cof (pt P (l + 1)%Z) 0) - cof (rest r) 0) * (dotl (n - 2) (a r) (fun l => cof (pt P (l + 1)%Z) 0) - cof (rest r) 0)) +
   rsum 0 (m - 1) (fun r => (dotl (n - 2) (a r) (fun l => cof (pt P (l + 1)%Z) 1) - cof (rest r) 1) * (dotl (n - 2) (a r) (fun l => cof (pt P (l + 1)%Z) 1) - cof (rest r) 1)) +
   rsum 0 (m - 1) (fun r => (dotl (n - 2) (a r) (fun l => cof (pt P (l + 1)%Z) 2) - cof (rest r) 2) * (dotl (n - 2) (a r) (fun l => cof (pt P (l + 1)%Z) 2) - cof (rest r) 2)))%R.
Proof.
  intros P0 Pn. unfold inner_error. fold m. rewrite (rsum_shift (-1) 1 m). replace (m + -1) with (m - 1) by lia. rewrite <- !rsum_plus. apply rsum_ext. intros r Hr. replace (r - -1) with (r + 1) by lia.
  rewrite dot_cof. assert (E : forall c, 0 <= c < 3 -> cof (minus3 (curve_point p n U P (val us (r + 1))) (pt Q (r + 1))) c = (dotl (n - 2) (a r) (fun l => cof (pt P (l + 1)%Z) c) - cof (rest r) c)%R).
  { intros c Hc. rewrite cof_minus, curve_cof, cof_rest by assumption. rewrite P0, Pn. fold a. ring. }
  rewrite !E by lia. reflexivity.
Qed.

Lemma inner_det : 0 <= n -> inner_determined p n U us m -> forall P : Z -> R, (forall r, 0 <= r < m - 1 -> dotl (n - 2) (a r) P = 0%R) -> forall l, 0 <= l <= n - 2 -> P l = 0%R.
Proof using Hn2.
  intros _ D P Hz l Hl. set (X := fun i (_ : Z) => if (i =? 0) || (i =? n) then 0%R else P (i - 1)). destruct (pts3_ok n X ltac:(lia)) as (L & HP).
  assert (E : forall i c, 0 <= i <= n -> 0 <= c < 3 -> cof (pt (pts3 n X) i) c = X i c). { intros i c Hi Hc. rewrite HP by exact Hi. assert (c = 0 \/ c = 1 \/ c = 2) as [->|[->| ->]] by lia; reflexivity. }
  assert (G : pt (pts3 n X) (l + 1) = zero3).
  { apply D; [exact L| | | |lia].
    - rewrite HP by lia. reflexivity.
    - rewrite HP by lia. unfold X. rewrite Z.eqb_refl, orb_true_r. reflexivity.
    - intros k Hk. apply cof_ext. intros c Hc. replace k with (k - 1 + 1) by lia. rewrite curve_cof by assumption. rewrite !E by lia. unfold X at 1 3. rewrite !Z.eqb_refl, orb_true_r. cbn [orb].
      replace (dotl (n - 2) (la p n U us (k - 1)) (fun l => cof (pt (pts3 n X) (l + 1)) c)) with (dotl (n - 2) (a (k - 1)) P).
      + rewrite Hz by lia. replace (cof zero3 c) with 0%R by (assert (c = 0 \/ c = 1 \/ c = 2) as [->|[->| ->]] by lia; reflexivity). ring.
      + apply rsum_ext. intros i Hi. rewrite E by lia. unfold X. destruct (Z.eqb_spec (i + 1) 0), (Z.eqb_spec (i + 1) n); try lia. cbn [orb]. replace (i + 1 - 1) with i by lia. reflexivity. }
  assert (F : cof (pt (pts3 n X) (l + 1)) 0 = 0%R) by (rewrite G; reflexivity). rewrite E in F by lia. unfold X in F. destruct (Z.eqb_spec (l + 1) 0), (Z.eqb_spec (l + 1) n); try lia. cbn [orb] in F. replace (l + 1 - 1) with l in F by lia. exact F.
Qed.
End S.

(* what the chord parameters and the knots are *)
Lemma ls_setting p n Q us U : 0 <= p -> p <= n -> n - p + 1 <= len Q -> 2 <= len Q -> GetChordParameterization Q = Ok us -> ComputeKnotVector p (n + 1) us = Ok U ->
  len us = len Q /\ sorted us /\ clamped_unit p n U /\ (forall i, 0 <= i <= len Q - 1 -> in_domain p n U (val us i)) /\ ls_knots p n (len Q - 1) us = Ok U.
Proof.
  intros Hp Hn Hk HQ Eu EU. destruct (Chord_returns Q HQ) as (u & Eu' & Lu & U0 & U1 & Su & _). rewrite Eu in Eu'. injection Eu' as <-.
  destruct (Fit_returns p n us Hp Hn ltac:(lia) Su ltac:(lra) ltac:(rewrite Lu; lra)) as (U' & EU' & CU & _). rewrite EU in EU'. injection EU' as <-.
  split; [exact Lu|]. split; [exact Su|]. split; [exact CU|]. split.
  - intros i Hi. destruct CU as (_ & _ & C0 & C1). unfold in_domain. rewrite (C0 p), (C1 (n + 1)) by lia. pose proof (Su 0 i ltac:(lia) ltac:(lia) ltac:(lia)). pose proof (Su i (len Q - 1) ltac:(lia) ltac:(lia) ltac:(lia)). lra.
  - rewrite <- Lu, ls_knots_eq by lia. exact EU.
Qed.

Theorem Ls_optimum : forall lu p n Q us U, exact_lu lu -> 1 <= p <= 7 -> 2 <= n -> n - p + 1 <= len Q -> 2 <= len Q ->
  GetChordParameterization Q = Ok us -> ComputeKnotVector p (n + 1) us = Ok U -> curve_knots p n U ->
  (forall k, 0 < k < len Q - 1 -> (val us k < 1)%R /\ knots_apart U (val us k) /\ values_apart U 1 p 0 (val us k) /\ values_apart U 1 p n (val us k)) ->
  inner_determined p n U us (len Q - 1) ->
  exists cps P, LeastSquaresApproximation lu p Q (n + 1) = Ok (Some (mkCurve p U cps)) /\ len cps = n + 1 /\ len P = n + 1 /\ (forall l, 0 <= l <= n -> pt cps l = hom (pt P l) 1) /\
    pt P 0 = pt Q 0 /\ pt P n = pt Q (len Q - 1) /\
    forall P', len P' = n + 1 -> pt P' 0 = pt Q 0 -> pt P' n = pt Q (len Q - 1) -> (inner_error p n U P us Q <= inner_error p n U P' us Q)%R.
Proof.
  intros lu p n Q us U Hlu Hp Hn2 Hk HQ Eu EU HU Hap Hdet. pose proof HU as [_ Hn Hl Hs Hf _].
  destruct (ls_setting p n Q us U ltac:(lia) Hn Hk HQ Eu EU) as (Lu & Su & CU & Hdom & EK). pose proof CU as (_ & _ & C0 & C1).
  assert (B1 : val U (n + 1) = 1%R) by (apply C1; lia).
  destruct (Ls_run lu Hlu p n U us Q HU ltac:(lia) ltac:(lia) Hn2 ltac:(lia) Lu Su Hdom Eu EK) as (r & E & (cps & X & -> & Ac & Opt)).
  - intros k Hk'. destruct (Hap k Hk') as (G1 & G2 & G3 & G4). destruct (Hdom k ltac:(lia)) as (D0 & D1). rewrite (C0 p) in D0 by lia. rewrite B1.
    assert (V0 : val U 0 = 0%R) by (apply C0; lia). assert (V1 : val U (len U - 1) = 1%R) by (apply C1; lia).
    split; apply OneBasisFunction_ok; try lia; try assumption; try (rewrite V0, V1; lra).
    intros _ _. rewrite V0. rewrite (C0 p) in * by lia. split; [reflexivity|]. pose proof (tol_pos 0 (val U (p + 1))). lra.
  - apply inner_det; [lia|lia|exact Hdet].
  - set (XX := fun l c => if l =? 0 then cof (pt Q 0) c else if l =? n then cof (pt Q (len Q - 1)) c else X (l - 1) c). destruct (pts3_ok n XX ltac:(lia)) as (LP & HP). exists cps, (pts3 n XX).
    assert (eta : forall v : XYZ R, mkXYZ (cof v 0) (cof v 1) (cof v 2) = v) by (intros []; reflexivity).
    assert (P0 : pt (pts3 n XX) 0 = pt Q 0) by (rewrite HP by lia; unfold XX; cbn [Z.eqb]; apply eta).
    assert (Pn : pt (pts3 n XX) n = pt Q (len Q - 1)). { rewrite HP by lia. unfold XX. destruct (Z.eqb_spec n 0); [lia|]. rewrite Z.eqb_refl. apply eta. }
    split; [exact E|]. split; [exact (arr_len _ _ _ Ac)|]. split; [exact LP|]. split.
    { intros l Hl'. unfold pt at 1. rewrite (arr_at_eq _ _ _ _ _ Ac) by lia. rewrite HP by lia. unfold XX. destruct (l =? 0); [rewrite eta; reflexivity|]. destruct (l =? n); [rewrite eta; reflexivity|reflexivity]. }
    split; [exact P0|]. split; [exact Pn|]. intros P' LP' P0' Pn'.
    rewrite (inner_split p n U us Q Hn2 _ P0 Pn), (inner_split p n U us Q Hn2 _ P0' Pn').
    assert (EX : forall r c, 0 <= c < 3 -> dotl (n - 2) (la p n U us r) (fun l => cof (pt (pts3 n XX) (l + 1)) c) = dotl (n - 2) (la p n U us r) (fun l => X l c)).
    { intros r c Hc. unfold dotl. apply rsum_ext. intros l Hl'. f_equal. rewrite HP by lia. assert (G : XX (l + 1) c = X l c) by (unfold XX; destruct (Z.eqb_spec (l + 1) 0), (Z.eqb_spec (l + 1) n); try lia; f_equal; lia). rewrite <- G. assert (c = 0 \/ c = 1 \/ c = 2) as [->|[->| ->]] by lia; reflexivity. }
    apply Rplus_le_compat; [apply Rplus_le_compat|].
    + eapply Rle_trans; [|apply (Opt 0 (fun l => cof (pt P' (l + 1)) 0) ltac:(lia))]. apply Req_le. apply rsum_ext. intros r Hr. rewrite EX by lia. reflexivity.
    + eapply Rle_trans; [|apply (Opt 1 (fun l => cof (pt P' (l + 1)) 1) ltac:(lia))]. apply Req_le. apply rsum_ext. intros r Hr. rewrite EX by lia. reflexivity.
    + eapply Rle_trans; [|apply (Opt 2 (fun l => cof (pt P' (l + 1)) 2) ltac:(lia))]. apply Req_le. apply rsum_ext. intros r Hr. rewrite EX by lia. reflexivity.
Qed.

(* the first inner function has no parameter in its support *)
Theorem Ls_failure : forall lu p n Q us U, 1 <= p <= 7 -> 2 <= n -> n - p + 1 <= len Q -> 3 <= len Q ->
  GetChordParameterization Q = Ok us -> ComputeKnotVector p (n + 1) us = Ok U -> curve_knots p n U ->
  p + 2 <= n -> (forall k, 0 < k < len Q - 1 -> (val U (p + 2)%Z <= val us k)%R) ->
  LeastSquaresApproximation lu p Q (n + 1) = Ok None.
Proof.
  intros lu p n Q us U Hp Hn2 Hk HQ Eu EU HU Hpn Hge. pose proof HU as [_ Hn Hl Hs Hf _]. set (m := len Q - 1).
  destruct (ls_setting p n Q us U ltac:(lia) Hn Hk ltac:(lia) Eu EU) as (Lu & Su & CU & Hdom & EK). fold m in Hdom, EK, Hge. assert (Lu' : len us = m + 1) by (unfold m; lia). assert (Hm : 2 <= m) by (unfold m; lia).
  assert (Hp1 : 1 <= p) by lia. assert (Hp7 : p <= 7) by lia.
  enough (W : wp (LeastSquaresApproximation lu p Q (n + 1)) (fun r => r = None)) by (destruct (wp_elim _ _ W) as (r & -> & ->); reflexivity).
  unfold LeastSquaresApproximation. destruct (Z.leb_spec 0 p); [|lia]. destruct (Z.leb_spec p NURBSMaxDegree) as [_|B0]; [|unfold NURBSMaxDegree in B0; lia]. cbn [andb validate bind]. destruct (Z.ltb_spec 0 (n + 1)); [|lia]. cbn [validate bind].
  replace (n + 1 - 1) with n by lia. fold m. rewrite Eu. cbn [bind]. rewrite EK. cbn [bind].
  apply wp_bind, wp_mkvec; [lia|]. intros st0 As0. apply wp_bind, wp_mkvec; [lia|]. intros en0 Ae0. apply wp_bind, wp_mkvec; [lia|]. intros ix0 Ax0.
  apply wp_bind, wp_mkvec; [lia|]. intros bl Abl. num. apply wp_bind. apply (wp_mkvec2 0%R (m - 1) (p + 1) bl); [lia|exact Abl|]. intros B1 AB1.
  apply wp_bind, wp_mkvec; [lia|]. intros nl Anl. apply wp_bind. apply (wp_mkvec2 0%R (n - 1) (2 * p + 1) nl); [lia|exact Anl|]. intros N1 AN1.
  apply wp_bind. apply wp_for_up with (P := fun i v => arr v (n - 1) (fun _ => 0)); [lia|exact As0| |].
  { intros i v Hi Av. apply (arr_upd _ _ _ _ _ _ Av); [lia|]. intros v' Av'. apply (arr_ext _ _ _ _ Av'). intros j Hj. cbv beta. destruct (j =? i); reflexivity. }
  clear st0 As0. intros st0 As0. apply wp_bind. apply (arr_upd _ _ _ _ _ _ Ae0); [lia|]. intros en1 Ae1.
  apply wp_bind. apply wp_for_up with (P := linv p n m U us); [lia| | |].
  { unfold linv. cbn [ls_start ls_end ls_index ls_B ls_rj ls_sj ls_ej]. split; [|split; [|split; [lia|split; [lia|split; [lia|split; [intros; lia|split; [|left; reflexivity]]]]]]].
    - apply (arr_ext _ _ _ _ Ax0). intros r Hr. destruct (Z.ltb_spec r (1 - 1)); [lia|reflexivity].
    - apply (arr2_ext _ _ _ _ _ AB1). intros r c Hr Hc. destruct (Z.ltb_spec r (1 - 1)); [lia|reflexivity].
    - exists (fun _ => 0). eexists. split; [exact As0|]. split; [exact Ae1|]. split; [|split].
      + intros l Hl' Hlp. split; [lia|]. intros r Hr. pose proof (lsp_in p n m U us HU Hdom r Hr). lia.
      + intros l Hl' Hlp. lia.
      + reflexivity. }
  { intros i st Hi. apply point_ok; assumption. }
  intros st (Ax & AB & Hrj & Esj & Eej & Hlow & (fs & fe & As & Ae & Fs & Fe & F0) & Hat).
  destruct (Z.ltb_spec (ls_sj st) (n - 2)) as [Bad|Good]; [cbn [bind orb]; apply wp_ok; reflexivity|].
  wget Ae. cbn [orb].
  destruct (lsp_ok p n m U us HU Hdom 0 ltac:(lia)) as (_ & K1 & K2 & K3 & K4). specialize (Hge (0 + 1) ltac:(lia)).
  assert (L0 : p + 2 <= lsp p U us 0). { destruct (Z.le_gt_cases (p + 2) (lsp p U us 0)) as [|G]; [assumption|]. exfalso. pose proof (Hs (lsp p U us 0 + 1) (p + 2) ltac:(lia) ltac:(lia) ltac:(lia)). destruct K4 as [K4|(K4 & _)]; [lra|lia]. }
  pose proof (Hlow 0 ltac:(lia)). destruct (Fe 0 ltac:(lia) ltac:(lia)) as (Fb & Fi). specialize (Fi 0 ltac:(lia)). replace (fe 0) with (-1) by lia. cbn [Z.eqb Pos.eqb]. apply wp_ok. reflexivity.
Qed.

(* two control points *)
Theorem Ls_two lu Q : 2 <= len Q -> LeastSquaresApproximation lu 1 Q 2 = UB.
Proof.
  intros HQ. destruct (Chord_returns Q HQ) as (us & Eu & Lu & U0 & U1 & Su & _). unfold LeastSquaresApproximation. cbn [Z.leb Z.ltb Z.compare andb validate bind]. change (1 <=? NURBSMaxDegree) with true. cbn [validate bind]. change (2 - 1) with 1. rewrite Eu. cbn [bind].
  replace (len Q - 1) with (len us - 1) by lia. rewrite ls_knots_eq by lia. destruct (Fit_returns 1 1 us ltac:(lia) ltac:(lia) ltac:(lia) Su ltac:(lra) ltac:(rewrite Lu; lra)) as (U & -> & _). cbn [bind].
  change (mkvec (1 - 1) 0) with (Ok (@nil Z)). cbn [bind].
  assert (W : forall {X} (x : X) k, 0 <= k -> exists l, mkvec k x = Ok l). { intros X x k Hk. destruct (wp_elim (mkvec k x) (fun _ => True)) as (l & -> & _); [apply wp_mkvec; [exact Hk|trivial]|exists l; reflexivity]. }
  destruct (W Z 0 (len us - 1 - 1) ltac:(lia)) as (ix & ->). cbn [bind]. change (mkvec (1 + 1) n0) with (Ok [n0; n0] : res (list R)). cbn [bind]. destruct (W _ [n0; n0] (len us - 1 - 1) ltac:(lia)) as (B & ->). cbn [bind].
  change (mkvec (2 * 1 + 1) n0) with (Ok [n0; n0; n0] : res (list R)). cbn [bind]. change (mkvec (1 - 1) [n0; n0; n0]) with (Ok [] : res (list (list R))). cbn [bind]. reflexivity.
Qed.

(* more control points than there are points and degrees *)
Theorem Ls_many lu p n (Q : list (XYZ R)) : 0 <= p <= 7 -> 2 <= len Q -> len Q < n - p + 1 -> LeastSquaresApproximation lu p Q (n + 1) = UB.
Proof.
  intros Hp HQ Hn. destruct (Chord_returns Q HQ) as (us & Eu & Lu & _). unfold LeastSquaresApproximation. destruct (Z.leb_spec 0 p); [|lia]. destruct (Z.leb_spec p NURBSMaxDegree) as [_|B0]; [|unfold NURBSMaxDegree in B0; lia]. cbn [andb validate bind]. destruct (Z.ltb_spec 0 (n + 1)); [|lia]. cbn [validate bind].
  replace (n + 1 - 1) with n by lia. rewrite Eu. cbn [bind]. enough (E : ls_knots p n (len Q - 1) us = UB) by (rewrite E; reflexivity).
  unfold ls_knots. num. cbn [nfloor Floor_R]. replace (len Q - 1 + 1) with (len Q) by lia.
  destruct (wp_elim (mkvec (n + p + 2) 1%R) (fun v => arr v (n + p + 2) (fun _ => 1%R))) as (v & -> & Hv); [apply wp_mkvec; [lia|auto]|]. cbn [bind].
  assert (HZ : IZR (n - p + 1) <> 0%R) by (apply not_0_IZR; lia). rewrite Rdiv_ok by exact HZ. cbn [bind].
  destruct (wp_elim (for_up 0 (p + 1) v (fun j v => upd v j 0%R)) (fun _ => True)) as (w & -> & _).
  { apply wp_for_up with (P := fun i v => arr v (n + p + 2) (fun j => if j <? i then 0%R else 1%R)); [lia| | |trivial].
    - apply (arr_ext _ _ _ _ Hv). intros j Hj. destruct (Z.ltb_spec j 0); [lia|reflexivity].
    - intros i w Hi Hw. apply (arr_upd _ _ _ _ _ _ Hw); [lia|]. intros w' Hw'. apply (arr_ext _ _ _ _ Hw'). intros j Hj. cbv beta. destruct (Z.eqb_spec j i), (Z.ltb_spec j i), (Z.ltb_spec j (i + 1)); try lia; reflexivity. }
  cbn [bind]. rewrite for_up_first by lia.
  assert (F : Int_part (1 * (IZR (len Q) / IZR (n - p + 1)))%R = 0). { set (x := (1 * (IZR (len Q) / IZR (n - p + 1)))%R). assert (X : (0 <= x < 1)%R). { unfold x. assert (P1 : (0 < IZR (n - p + 1))%R) by (apply IZR_lt; lia). assert (L1 : (0 <= IZR (len Q))%R) by (apply IZR_le; lia). assert (L2 : (IZR (len Q) < IZR (n - p + 1))%R) by (apply IZR_lt; lia).
      split; [apply Rmult_le_pos; [lra|]; apply Rmult_le_pos; [exact L1|left; apply Rinv_0_lt_compat, P1]|]. rewrite Rmult_1_l. apply (Rmult_lt_reg_r (IZR (n - p + 1))); [exact P1|]. unfold Rdiv. rewrite Rmult_assoc, Rinv_l by lra. lra. }
    pose proof (floor_spec x) as Fx. assert (A1 : (IZR (Int_part x) < IZR 1)%R) by lra. assert (A2 : (IZR (-1) < IZR (Int_part x))%R) by lra. apply lt_IZR in A1, A2. lia. }
  rewrite F. reflexivity.
Qed.
