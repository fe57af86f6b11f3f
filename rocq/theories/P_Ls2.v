(* Least squares between fixed ends: the optimum. *)
From Coq Require Import ZArith List Bool Reals Lra Lia.
From Verif Require Import Base Num Vec Tac Spec Spec2 Spec3 Spec6 Spec21 M_MathUtils M_Polynomials M_XYZ M_Bspline M_NurbsCurve M_Interp M_Fit M_Fit3
  P_MathUtils P_Math2 P_Span P_Cox P_XYZ P_Vec P_VSum P_Curve P_Bspline P_Basis P_Loop P_OneBasis P_Fit P_Interp2 P_Interp P_Lsq P_Lsq3 P_Lsq5 P_Ls.
Import ListNotations.
Open Scope Z_scope.

(* the dense matrix with the given band *)
Lemma band_matrix_ok dim M p (f g : Z -> Z -> R) : 0 < dim -> 0 <= p -> arr2 M dim (2 * p + 1) f ->
  (forall i j, 0 <= i < dim -> 0 <= j < dim -> 0 <= j - i + p < 2 * p + 1 -> f i (j - i + p) = g i j) ->
  (forall i j, 0 <= i < dim -> 0 <= j < dim -> ~ 0 <= j - i + p < 2 * p + 1 -> g i j = 0%R) ->
  wp (band_matrix dim M (2 * p + 1)) (fun X => arr2 X dim dim g).
Proof.
  intros Hd Hp AM In Out. unfold band_matrix. replace ((2 * p + 1) / 2) with p by (apply Z.div_unique with 1; lia).
  apply wp_bind, wp_mkvec; [lia|]. intros line Al. apply wp_bind. apply (wp_mkvec2 0%R dim dim line); [lia|exact Al|]. intros A0 AA0.
  apply wp_for_up with (P := fun i X => arr2 X dim dim (fun r c => if r <? i then g r c else 0%R)); [lia| | |].
  - apply (arr2_ext _ _ _ _ _ AA0). intros r c Hr Hc. destruct (Z.ltb_spec r 0); [lia|reflexivity].
  - intros i X Hi AX. apply wp_for_up with (P := fun k X => arr2 X dim dim (fun r c => if r <? i then g r c else if (r =? i) && (c <? i - p + k) then g r c else 0%R)); [lia| | |].
    + apply (arr2_ext _ _ _ _ _ AX). intros r c Hr Hc. destruct (Z.ltb_spec r i); [reflexivity|]. destruct (Z.eqb_spec r i) as [->|]; cbn [andb]; [|reflexivity]. destruct (Z.ltb_spec c (i - p + 0)); [|reflexivity]. symmetry. apply Out; lia.
    + intros k X' Hk AX'. destruct (Z.leb_spec 0 (i - p + k)), (Z.ltb_spec (i - p + k) dim); cbn [andb].
      * rewrite (arr2_get _ _ _ _ _ _ AM) by lia. cbn [bind]. apply (arr2_upd _ _ _ _ _ _ _ _ AX'); [lia|lia|]. intros X2 AX2. apply (arr2_ext _ _ _ _ _ AX2). intros r c Hr Hc. cbv beta.
        destruct (Z.eqb_spec r i) as [->|Nr]; cbn [andb]; [|reflexivity]. rewrite Z.ltb_irrefl. destruct (Z.eqb_spec c (i - p + k)) as [->|Nc].
        -- destruct (Z.ltb_spec (i - p + k) (i - p + (k + 1))); [|lia]. rewrite <- In by lia. f_equal. lia.
        -- destruct (Z.ltb_spec c (i - p + k)), (Z.ltb_spec c (i - p + (k + 1))); try lia; reflexivity.
      * apply wp_ok. apply (arr2_ext _ _ _ _ _ AX'). intros r c Hr Hc. destruct (r <? i); [reflexivity|]. destruct (Z.ltb_spec c (i - p + k)), (Z.ltb_spec c (i - p + (k + 1))); try lia; reflexivity.
      * apply wp_ok. apply (arr2_ext _ _ _ _ _ AX'). intros r c Hr Hc. destruct (r <? i); [reflexivity|]. destruct (Z.ltb_spec c (i - p + k)), (Z.ltb_spec c (i - p + (k + 1))); try lia; reflexivity.
      * lia.
    + intros X' AX'. apply (arr2_ext _ _ _ _ _ AX'). intros r c Hr Hc. destruct (Z.ltb_spec r i), (Z.ltb_spec r (i + 1)), (Z.eqb_spec r i); cbn [andb]; try lia; try reflexivity. subst r. destruct (Z.ltb_spec c (i - p + (2 * p + 1))); [reflexivity|]. symmetry. apply Out; lia.
  - intros X AX. apply (arr2_ext _ _ _ _ _ AX). intros r c Hr Hc. destruct (Z.ltb_spec r dim); [reflexivity|lia].
Qed.

Section Main.
Variable lu : list (list R) -> list (list R) -> res (option (list (list R))).
Hypothesis Hlu : exact_lu lu.
Variables (p n : Z) (U us : list R) (Q : list (XYZ R)).
Let m := len Q - 1.
Hypothesis HU : curve_knots p n U.
Hypothesis Hp1 : 1 <= p.
Hypothesis Hp7 : p <= 7.
Hypothesis Hn2 : 2 <= n.
Hypothesis Hm : 1 <= m.
Hypothesis Hus : len us = len Q.
Hypothesis Hsort : sorted us.
Hypothesis Hdom : forall i, 0 <= i <= m -> in_domain p n U (val us i).
Hypothesis Eus : GetChordParameterization Q = Ok us.
Hypothesis EU : ls_knots p n m us = Ok U.
Let b0 u := N (val U) (val U (n + 1)) (Z.to_nat p) 0 u.
Let bn u := N (val U) (val U (n + 1)) (Z.to_nat p) n u.
Hypothesis H0 : forall k, 0 < k < m -> OneBasisFunction 0 p U (val us k) = Ok (b0 (val us k)) /\ OneBasisFunction n p U (val us k) = Ok (bn (val us k)).
Let a := la p n U us.
Hypothesis Hdet : forall P : Z -> R, (forall r, 0 <= r < m - 1 -> dotl (n - 2) (a r) P = 0%R) -> forall l, 0 <= l <= n - 2 -> P l = 0%R.
Let rest k := xyz_sub (xyz_sub (pt Q (k + 1)) (xyz_scale (b0 (val us (k + 1))) (pt Q 0))) (xyz_scale (bn (val us (k + 1))) (pt Q m)).

Lemma rest_ok : wp (ls_rest p n m U us Q) (fun Rk => arr Rk (m - 1) rest).
Proof using Hm Hus H0.
  pose proof (P_Bern.arr_val us) as Au. rewrite Hus in Au. assert (LQ : len Q = m + 1) by (unfold m; lia). rewrite LQ in Au. pose proof (arr_pt Q _ LQ) as AQ.
  unfold ls_rest. apply wp_bind, wp_mkvec; [lia|]. intros R0 A0.
  apply wp_for_up with (P := fun k v => arr v (m - 1) (fun r => if r <? k - 1 then rest r else xyz0)); [lia| | |].
  - apply (arr_ext _ _ _ _ A0). intros r Hr. destruct (Z.ltb_spec r (1 - 1)); [lia|reflexivity].
  - intros k v Hk Av. wget Au. destruct (H0 k ltac:(lia)) as (-> & ->). cbn [bind]. wget AQ. wget AQ. wget AQ. apply (arr_upd _ _ _ _ _ _ Av); [lia|]. intros v' Av'. apply (arr_ext _ _ _ _ Av'). intros r Hr. cbv beta.
    destruct (Z.eqb_spec r (k - 1)) as [->|Nr].
    + destruct (Z.ltb_spec (k - 1) (k + 1 - 1)); [|lia]. unfold rest. replace (k - 1 + 1) with k by lia. reflexivity.
    + destruct (Z.ltb_spec r (k - 1)), (Z.ltb_spec r (k + 1 - 1)); try lia; reflexivity.
  - intros v Av. apply (arr_ext _ _ _ _ Av). intros r Hr. destruct (Z.ltb_spec r (m - 1)); [reflexivity|lia].
Qed.

Lemma not_vanishing l : 0 <= l <= n - 2 -> ~ (forall r, 0 <= r < m - 1 -> a r l = 0%R).
Proof using Hdet.
  intros Hl Hz. assert (E : (fun i : Z => if i =? l then 1%R else 0%R) l = 0%R).
  { apply (Hdet (fun i => if i =? l then 1%R else 0%R)); [|exact Hl]. intros r Hr. unfold dotl. apply rsum_zero. intros i Hi. destruct (Z.eqb_spec i l) as [->|]; [rewrite (Hz r Hr)|]; ring. }
  cbv beta in E. rewrite Z.eqb_refl in E. lra.
Qed.

Lemma gram_regular : regular (n - 1) (gram (m - 1) a (fun _ => 1%R)).
Proof using Hdet Hn2.
  pose proof (kkt_regular (n - 2) (m - 1) 0 a (fun _ _ => 0%R) (fun _ => 1%R) (fun _ => 0%R) (fun _ => 0%R)) as K. replace (n - 2 + 1 + 0) with (n - 1) in K by lia.
  apply (regular_ext _ (kkt (n - 2) (m - 1) a (fun _ _ => 0%R) (fun _ => 1%R))).
  - intros i j Hi Hj. unfold kkt. destruct (Z.leb_spec i (n - 2)), (Z.leb_spec j (n - 2)); try lia. reflexivity.
  - apply K; try lia; try (intros; lra). intros P Ka _. apply Hdet. exact Ka.
Qed.

Lemma Ls_run : returns (LeastSquaresApproximation lu p Q (n + 1)) (fun r => exists cps (X : Z -> Z -> R), r = Some (mkCurve p U cps) /\
  arr cps (n + 1) (fun l => if l =? 0 then hom (pt Q 0) 1 else if l =? n then hom (pt Q m) 1 else hom (mkXYZ (X (l - 1) 0) (X (l - 1) 1) (X (l - 1) 2)) 1) /\
  forall c X', 0 <= c < 3 ->
    (rsum 0 (m - 1) (fun r => (dotl (n - 2) (a r) (fun l => X l c) - cof (rest r) c) * (dotl (n - 2) (a r) (fun l => X l c) - cof (rest r) c)) <=
     rsum 0 (m - 1) (fun r => (dotl (n - 2) (a r) X' - cof (rest r) c) * (dotl (n - 2) (a r) X' - cof (rest r) c)))%R).
Proof.
  pose proof HU as [Hp0 Hn Hl _ _ _]. assert (LQ : len Q = m + 1) by (unfold m; lia). pose proof (arr_pt Q _ LQ) as AQ. assert (Hus' : len us = m + 1) by lia.
  unfold LeastSquaresApproximation. destruct (Z.leb_spec 0 p); [|lia]. destruct (Z.leb_spec p NURBSMaxDegree) as [_|B0]; [|unfold NURBSMaxDegree in B0; lia]. cbn [andb validate bind]. destruct (Z.ltb_spec 0 (n + 1)); [|lia]. cbn [validate bind].
  replace (n + 1 - 1) with n by lia. fold m. rewrite Eus. cbn [bind]. rewrite EU. cbn [bind]. apply wp_elim.
  apply wp_bind, wp_mkvec; [lia|]. intros st0 As0. apply wp_bind, wp_mkvec; [lia|]. intros en0 Ae0. apply wp_bind, wp_mkvec; [lia|]. intros ix0 Ax0.
  apply wp_bind, wp_mkvec; [lia|]. intros bl Abl. num. apply wp_bind. apply (wp_mkvec2 0%R (m - 1) (p + 1) bl); [lia|exact Abl|]. intros B1 AB1.
  apply wp_bind, wp_mkvec; [lia|]. intros nl Anl. apply wp_bind. apply (wp_mkvec2 0%R (n - 1) (2 * p + 1) nl); [lia|exact Anl|]. intros N1 AN1.
  apply wp_bind. apply wp_for_up with (P := fun i v => arr v (n - 1) (fun _ => 0)); [lia|exact As0| |].
  { intros i v Hi Av. apply (arr_upd _ _ _ _ _ _ Av); [lia|]. intros v' Av'. apply (arr_ext _ _ _ _ Av'). intros j Hj. cbv beta. destruct (j =? i); reflexivity. }
  clear st0 As0. intros st0 As0. apply wp_bind. apply (arr_upd _ _ _ _ _ _ Ae0); [lia|]. intros en1 Ae1.
  apply wp_bind. apply wp_for_up with (P := linv p n m U us); [lia| | |].
  { unfold linv. cbn [ls_start ls_end ls_index ls_B ls_rj ls_sj ls_ej]. split; [|split; [|split; [lia|split; [lia|split; [lia|split; [intros; lia|split; [|left; reflexivity]]]]]]].
    - apply (arr_ext _ _ _ _ Ax0). intros r Hr. destruct (Z.ltb_spec r (1 - 1)); [lia|reflexivity].
    - apply (arr2_ext _ _ _ _ _ AB1). intros r c Hr Hc. destruct (Z.ltb_spec r (1 - 1)); [lia|reflexivity].
    - exists (fun _ => 0). eexists. split; [exact As0|]. split; [exact Ae1|]. split; [|split].
      + intros l Hl' Hlp. split; [lia|]. intros r Hr. pose proof (lsp_in p n m U us HU Hdom r Hr). lia.
      + intros l Hl' Hlp. lia.
      + reflexivity. }
  { intros i st Hi. apply point_ok; assumption. }
  intros st HI. pose proof HI as (Ax & AB & Hrj & Esj & Eej & Hlow & (fs & fe & As & Ae & Fs & Fe & F0) & _).
  assert (Ix : arr (ls_index st) (m - 1) (lidx p U us)). { apply (arr_ext _ _ _ _ Ax). intros r Hr. destruct (Z.ltb_spec r (m - 1)); [reflexivity|lia]. }
  assert (IB : arr2 (ls_B st) (m - 1) (p + 1) (lent p n U us)). { apply (arr2_ext _ _ _ _ _ AB). intros r c Hr Hc. destruct (Z.ltb_spec r (m - 1)); [reflexivity|lia]. }
  destruct (Z.ltb_spec (ls_sj st) (n - 2)) as [Bad|Good].
  { exfalso. apply (not_vanishing (n - 2) ltac:(lia)). intros r Hr. apply (la_zero p n m U us HU Hp1 Hdom); [exact Hr|lia|]. right. specialize (Hlow r Hr). lia. }
  wget Ae. cbn [orb]. destruct (Z.eqb_spec (fe 0) (-1)) as [Bad|Good2].
  { exfalso. destruct (Z.lt_ge_cases (ls_rj st - p - 2) 0); [specialize (F0 ltac:(lia)); lia|]. destruct (Fe 0 ltac:(lia) ltac:(lia)) as (_ & Fe0). apply (not_vanishing 0 ltac:(lia)). intros r Hr. apply (la_zero p n m U us HU Hp1 Hdom); [exact Hr|lia|]. left. specialize (Fe0 r Hr). lia. }
  apply wp_bind. eapply wp_mono; [exact (filled_ok p n m U us HU Hp1 Hn2 st HI Good)|]. cbv beta. intros en HW.
  apply wp_bind. eapply wp_mono; [exact (band_ok p n m U us HU Hp1 Hn2 Hdom (ls_start st) en (ls_index st) (ls_B st) HW Ix IB N1 AN1)|]. cbv beta. intros NTN AN.
  apply wp_bind. eapply wp_mono; [exact rest_ok|]. cbv beta. intros Rk ARk.
  apply wp_bind. eapply wp_mono; [exact (right_ok p n m U us HU Hp1 Hn2 Hdom (ls_start st) en (ls_index st) (ls_B st) HW Ix IB Rk rest ARk)|]. cbv beta. intros Rv ARv.
  unfold SolveLinearSystemBanded. apply wp_bind. apply wp_bind. eapply wp_mono.
  { apply (band_matrix_ok (n - 1) NTN p _ (gram (m - 1) a (fun _ => 1%R)) ltac:(lia) ltac:(lia) AN).
    - intros i j Hi Hj Hb. unfold lband, gram. replace (i + (j - i + p) - p) with j by lia. destruct (Z.leb_spec 0 j), (Z.ltb_spec j (n - 1)); cbn [andb]; try lia. apply rsum_ext. intros k Hk. fold a. ring.
    - intros i j Hi Hj Hb. unfold gram. apply rsum_zero. intros k Hk. pose proof (lsp_in p n m U us HU Hdom k Hk). assert (O : lsp p U us k < i + 1 \/ i + 1 + p < lsp p U us k \/ lsp p U us k < j + 1 \/ j + 1 + p < lsp p U us k) by lia.
      assert (Z0 : a k i = 0%R \/ a k j = 0%R). { destruct O as [O|[O|[O|O]]]; [left|left|right|right]; apply (la_zero p n m U us HU Hp1 Hdom); lia. } destruct Z0 as [-> | ->]; ring. }
  cbv beta. intros G AG. destruct (Hlu (n - 1) 3 G (map point_row Rv) _ _ ltac:(lia) ltac:(lia) AG (rows3 _ _ _ ARv) gram_regular) as (X & x & -> & HX & HS). apply wp_ok.
  apply wp_bind, wp_mkvec; [lia|]. intros c0 Ac0. pose proof HX as (LX & HX').
  apply wp_bind. apply wp_for_up with (P := fun i v => arr v (n + 1) (fun l => if (0 <? l) && (l <? i) then hom (mkXYZ (x (l - 1) 0) (x (l - 1) 1) (x (l - 1) 2)) 1 else xyzw0)); [lia| | |].
  { apply (arr_ext _ _ _ _ Ac0). intros l Hl'. destruct (Z.ltb_spec 0 l), (Z.ltb_spec l 1); try lia; reflexivity. }
  { intros i v Hi Av. destruct (HX' (i - 1) ltac:(lia)) as (row & -> & Ar). cbn [bind]. unfold row_point. rewrite (arr_get _ _ _ _ Ar) by lia. cbn [bind]. rewrite (arr_get _ _ _ _ Ar) by lia. cbn [bind]. rewrite (arr_get _ _ _ _ Ar) by lia. cbn [bind].
    apply (arr_upd _ _ _ _ _ _ Av); [lia|]. intros v' Av'. apply (arr_ext _ _ _ _ Av'). intros l Hl'. cbv beta. destruct (Z.eqb_spec l i) as [->|Ne].
    - destruct (Z.ltb_spec 0 i), (Z.ltb_spec i (i + 1)); cbn [andb]; try lia. unfold hom, mkW, M_XYZ.mkW. num. f_equal; ring.
    - destruct (Z.ltb_spec 0 l), (Z.ltb_spec l i), (Z.ltb_spec l (i + 1)); cbn [andb]; try lia; reflexivity. }
  intros c1 Ac1. wget AQ. apply wp_bind. apply (arr_upd _ _ _ _ _ _ Ac1); [lia|]. intros c2 Ac2. wget AQ. apply wp_bind. apply (arr_upd _ _ _ _ _ _ Ac2); [lia|]. intros c3 Ac3. apply wp_ok. exists c3, x. split; [reflexivity|]. split.
  - apply (arr_ext _ _ _ _ Ac3). intros l Hl'. cbv beta. destruct (Z.eqb_spec l n) as [->|N1'].
    + destruct (Z.eqb_spec n 0); [lia|]. unfold hom, M_XYZ.mkW. num. f_equal; ring.
    + destruct (Z.eqb_spec l 0) as [->|N0']; [unfold hom, M_XYZ.mkW; num; f_equal; ring|]. destruct (Z.ltb_spec 0 l), (Z.ltb_spec l n); cbn [andb]; try lia. reflexivity.
  - intros c X1 Hc.
    pose proof (optimal (n - 2) (m - 1) 0 a (fun _ _ => 0%R) (fun _ => 1%R) (fun r => cof (rest r) c) ltac:(intros; lra) (fun l => x l c) X1 (fun _ => 0%R)) as O. cbv beta in O.
    rewrite (rsum_ext 0 (m - 1) (fun r => (1 * ((dotl (n - 2) (a r) (fun l => x l c) - cof (rest r) c) * (dotl (n - 2) (a r) (fun l => x l c) - cof (rest r) c)))%R) (fun r => ((dotl (n - 2) (a r) (fun l => x l c) - cof (rest r) c) * (dotl (n - 2) (a r) (fun l => x l c) - cof (rest r) c))%R)) in O by (intros; ring).
    rewrite (rsum_ext 0 (m - 1) (fun r => (1 * ((dotl (n - 2) (a r) X1 - cof (rest r) c) * (dotl (n - 2) (a r) X1 - cof (rest r) c)))%R) (fun r => ((dotl (n - 2) (a r) X1 - cof (rest r) c) * (dotl (n - 2) (a r) X1 - cof (rest r) c))%R)) in O by (intros; ring).
    apply O; [|intros; lia]. intros l Hl'. rewrite (rsum_nil 0 0) by lia. rewrite Rplus_0_r. specialize (HS l c ltac:(lia) Hc). replace (n - 1) with (n - 2 + 1) in HS by lia. rewrite gram_dot in HS. rewrite cof_comb in HS by exact Hc.
    rewrite (rsum_ext 0 (m - 1) _ (fun r => a r l * 1 * dotl (n - 2) (a r) (fun l => x l c) - a r l * cof (rest r) c)%R) by (intros; ring). rewrite rsum_minus. fold a in HS. lra.
Qed.
End Main.
