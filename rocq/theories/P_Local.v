(* Tangents from five points and the local cubic interpolation. *)
From Coq Require Import ZArith List Bool Reals Lra Lia.
From Verif Require Import Base Num Vec Tac Spec Spec2 Spec3 Spec4 Spec16 M_MathUtils M_XYZ M_Bspline M_NurbsCurve M_Interp M_Fit M_Curve3
  P_MathUtils P_Span P_Cox P_Vec P_XYZ P_VSum P_Curve P_Basis P_Bspline P_Loop P_Nurbs P_Make P_Matrix P_Geom P_Interp P_Interp2 P_Shape P_Surf5.
Import ListNotations.
Open Scope Z_scope.

Definition dir (a : XYZ R) : XYZ R := times3 (/ norm3 a) a.
Lemma norm_pos (a : XYZ R) : a <> zero3 -> (0 < norm3 a)%R.
Proof.
  intros Ha. unfold norm3. apply sqrt_lt_R0. destruct a as [x y z]. unfold dot3. cbn [gx gy gz].
  destruct (Req_dec (x * x + y * y + z * z) 0) as [E|E]; [|nra]. exfalso. apply Ha. unfold zero3. f_equal; nra.
Qed.
Lemma norm_sq (a : XYZ R) : (norm3 a * norm3 a = dot3 a a)%R.
Proof. unfold norm3. apply sqrt_sqrt. unfold dot3. nra. Qed.
Lemma norm_nonneg (a : XYZ R) : (0 <= norm3 a)%R. Proof. apply sqrt_pos. Qed.
Lemma Normalize_dir (a : XYZ R) : a <> zero3 -> Normalize a = Ok (dir a).
Proof.
  intros Ha. pose proof (norm_pos a Ha) as H. unfold Normalize. rewrite Length_eq. cbn [bind]. num. destruct (Rltb_spec 0 (norm3 a)); [|lra].
  rewrite Rdiv_ok by lra. cbn [bind]. f_equal. unfold dir. rewrite <- scale_eq. unfold xyz_scale. num. f_equal; field; lra.
Qed.
Lemma dir_direction a : a <> zero3 -> direction_of a (dir a).
Proof.
  intros Ha. pose proof (norm_pos a Ha) as H. pose proof (norm_sq a) as E. split.
  - replace (dot3 (dir a) (dir a)) with (/ norm3 a * / norm3 a * dot3 a a)%R by (unfold dir, dot3, times3; cbn [gx gy gz]; ring). rewrite <- E. field. lra.
  - exists (norm3 a). split; [exact H|]. destruct a as [x y z]. unfold dir, times3. cbn [gx gy gz]. f_equal; field; lra.
Qed.

Section Local.
Variable Q : list (XYZ R).
Let n := len Q - 1.
Hypothesis HQ : 5 <= len Q.

Lemma get_pt i : 0 <= i < len Q -> get Q i = Ok (pt Q i). Proof. intros Hi. apply get_at. exact Hi. Qed.
Lemma Getqk_ok k : 1 <= k <= n -> Getqk Q k = Ok (leg Q k).
Proof.
  intros Hk. unfold Getqk. rewrite !get_pt by lia. cbn [bind]. f_equal. rewrite sub_eq. unfold leg. fold n. zb. zcase; try lia. reflexivity.
Qed.
Lemma leg_0 : xyz_sub (xyz_scale (nofZ 2) (leg Q 1)) (leg Q 2) = leg Q 0.
Proof. unfold leg. fold n. zcase; try lia. change (2 - 0) with 2. change (1 - 0) with 1. v3h. f_equal; ring. Qed.
Lemma leg_1 : xyz_sub (xyz_scale (nofZ 2) (leg Q 0)) (leg Q 1) = leg Q (-1).
Proof. unfold leg. fold n. zcase; try lia. change (2 - 0) with 2. change (1 - 0) with 1. change (2 - -1) with 3. change (1 - -1) with 2. v3h. f_equal; ring. Qed.
Lemma leg_n1 : xyz_sub (xyz_scale (nofZ 2) (leg Q n)) (leg Q (n - 1)) = leg Q (n + 1).
Proof. unfold leg. fold n. zcase; try lia. replace (n + 1 - n + 1) with 2 by lia. replace (n + 1 - n) with 1 by lia. v3h. f_equal; ring. Qed.
Lemma leg_n2 : xyz_sub (xyz_scale (nofZ 2) (leg Q (n + 1))) (leg Q n) = leg Q (n + 2).
Proof. unfold leg. fold n. zcase; try lia. replace (n + 1 - n + 1) with 2 by lia. replace (n + 1 - n) with 1 by lia. replace (n + 2 - n + 1) with 3 by lia. replace (n + 2 - n) with 2 by lia. v3h. f_equal; ring. Qed.

Lemma GetTk_ok k : (0 < turn Q (k - 1) + turn Q (k + 1))%R -> heading Q k <> zero3 ->
  GetTk (leg Q (k - 1)) (leg Q k) (leg Q (k + 1)) (leg Q (k + 2)) = Ok (dir (heading Q k)).
Proof.
  intros H1 H2. unfold GetTk, Getak. rewrite !cross_eq, !Length_eq. cbn [bind]. num.
  assert (T1 : norm3 (cross3 (leg Q (k - 1)) (leg Q k)) = turn Q (k - 1)) by (unfold turn; replace (k - 1 + 1) with k by lia; reflexivity).
  assert (T2 : norm3 (cross3 (leg Q (k + 1)) (leg Q (k + 2))) = turn Q (k + 1)) by (unfold turn; replace (k + 1 + 1) with (k + 2) by lia; reflexivity).
  rewrite T1, T2, Rdiv_ok by lra. cbn [bind]. fold (lean Q k). rewrite <- Normalize_dir by exact H2. f_equal. rewrite !scale_eq. reflexivity.
Qed.

Lemma ComputeTangent5_ok : bends Q -> wp (ComputeTangent5 Q) (fun r => exists T, r = Some T /\ arr T (len Q) (fun k => dir (heading Q k))).
Proof.
  intros HB. unfold ComputeTangent5. fold n. destruct (Z.ltb_spec (len Q) 5); [lia|].
  apply wp_bind. apply wp_mkvec; [lia|]. intros T0 HT0. apply wp_bind.
  apply (wp_fill 2 (len Q - 2) 0 (len Q) (fun _ => False) (fun k => dir (heading Q k))).
  - split; [exact (proj1 HT0)|tauto].
  - lia.
  - intros k T Hk HT. rewrite !Getqk_ok by lia. cbn [bind]. destruct (HB k ltac:(lia)) as (B1 & B2). rewrite GetTk_ok by assumption. cbn [bind]. rewrite Z.add_0_r. reflexivity.
  - intros T HT. rewrite !Getqk_ok by lia. cbn [bind]. num.
    change (xyz_sub (xyz_scale 2%R (leg Q 1)) (leg Q 2)) with (xyz_sub (xyz_scale (nofZ 2) (leg Q 1)) (leg Q 2)). rewrite leg_0.
    change (xyz_sub (xyz_scale 2%R (leg Q 0)) (leg Q 1)) with (xyz_sub (xyz_scale (nofZ 2) (leg Q 0)) (leg Q 1)). rewrite leg_1.
    change (xyz_sub (xyz_scale 2%R (leg Q n)) (leg Q (n - 1))) with (xyz_sub (xyz_scale (nofZ 2) (leg Q n)) (leg Q (n - 1))). rewrite leg_n1.
    change (xyz_sub (xyz_scale 2%R (leg Q (n + 1))) (leg Q n)) with (xyz_sub (xyz_scale (nofZ 2) (leg Q (n + 1))) (leg Q n)). rewrite leg_n2.
    destruct (HB 0 ltac:(lia)) as (B1 & B2). rewrite (GetTk_ok 0 B1 B2 : GetTk (leg Q (-1)) (leg Q 0) (leg Q 1) (leg Q 2) = _). cbn [bind]. clear B1 B2.
    wupd HT. clear T HT. intros T HT.
    destruct (HB 1 ltac:(lia)) as (B1 & B2). rewrite (GetTk_ok 1 B1 B2 : GetTk (leg Q 0) (leg Q 1) (leg Q 2) (leg Q 3) = _). cbn [bind]. clear B1 B2.
    wupd HT. clear T HT. intros T HT.
    destruct (HB (n - 1) ltac:(lia)) as (B1 & B2). pose proof (GetTk_ok (n - 1) B1 B2) as G. replace (n - 1 - 1) with (n - 2) in G by lia. replace (n - 1 + 1) with n in G by lia. replace (n - 1 + 2) with (n + 1) in G by lia. rewrite G. cbn [bind]. clear B1 B2 G.
    wupd HT. clear T HT. intros T HT.
    destruct (HB n ltac:(lia)) as (B1 & B2). pose proof (GetTk_ok n B1 B2) as G. rewrite G. cbn [bind]. clear B1 B2 G.
    wupd HT. clear T HT. intros T HT. apply wp_ok. exists T. split; [reflexivity|]. split; [apply HT|].
    intros k Hk. destruct HT as (_ & HT). rewrite (HT k Hk) by (cbv beta; lia). f_equal. zcase; congruence.
Qed.
End Local.

(** the curve *)
Section Cubic.
Variable Q : list (XYZ R).
Let n := len Q - 1.
Hypothesis HQ : 5 <= len Q.
Hypothesis HB : bends Q.
Let T k := dir (heading Q k).

Definition local_point (j : Z) : XYZW R :=
  let i := j / 3 in
  if j mod 3 =? 0 then hom (pt Q i) 1%R
  else if j mod 3 =? 1 then hom (plus3 (pt Q i) (times3 (leg_length Q i / 3)%R (T i))) 1%R
  else hom (minus3 (pt Q (i + 1)) (times3 (leg_length Q i / 3)%R (T (i + 1)))) 1%R.
Lemma local_0 i : local_point (3 * i) = hom (pt Q i) 1%R.
Proof. unfold local_point. replace (3 * i / 3) with i by (apply (Z.div_unique _ _ _ 0); lia). replace ((3 * i) mod 3) with 0 by (apply (Z.mod_unique _ _ i); lia). reflexivity. Qed.
Lemma local_1 i : local_point (3 * i + 1) = hom (plus3 (pt Q i) (times3 (leg_length Q i / 3)%R (T i))) 1%R.
Proof. unfold local_point. replace ((3 * i + 1) / 3) with i by (apply (Z.div_unique _ _ _ 1); lia). replace ((3 * i + 1) mod 3) with 1 by (apply (Z.mod_unique _ _ i); lia). reflexivity. Qed.
Lemma local_2 i : local_point (3 * i + 2) = hom (minus3 (pt Q (i + 1)) (times3 (leg_length Q i / 3)%R (T (i + 1)))) 1%R.
Proof. unfold local_point. replace ((3 * i + 2) / 3) with i by (apply (Z.div_unique _ _ _ 2); lia). replace ((3 * i + 2) mod 3) with 2 by (apply (Z.mod_unique _ _ i); lia). reflexivity. Qed.

Definition even_knot (j : Z) : R := if j <=? 3 then 0%R else if 3 * n + 1 <=? j then 1%R else (IZR (j - 3) * (1 / IZR (3 * n - 2)))%R.

Lemma Cubic_ok : wp (CubicLocalInterpolation Q) (fun r => exists U P, r = Some (mkCurve 3 U P) /\ arr P (3 * n + 1) local_point /\ arr U (3 * n + 5) even_knot).
Proof.
  unfold CubicLocalInterpolation. wval. destruct (Z.eqb_spec (len Q) 1); [lia|].
  apply wp_bind. eapply wp_mono; [apply ComputeTangent5_ok; assumption|]. intros r (TT & -> & HT). cbv beta iota. fold T in HT. fold n.
  apply wp_bind. apply wp_mkvec; [lia|]. intros H0 HH0. apply wp_bind.
  apply (wp_fill_all n (leg_length Q)); [lia|exact (proj1 HH0)| |].
  { intros i v Hi Hv. rewrite !get_pt by lia. cbn [bind]. rewrite Length_eq. cbn [bind]. f_equal. g3. fold (dist3 (pt Q (i + 1)) (pt Q i)). unfold leg_length.
    destruct (small_dec (dist3 (pt Q (i + 1)) (pt Q i))) as [S|S].
    - apply small_iff in S. num. rewrite S. reflexivity.
    - apply small_false in S. num. rewrite S. reflexivity. }
  intros H HH. rewrite (get_pt Q 0) by lia. cbn [bind]. apply wp_bind.
  apply wp_for_up with (P := fun i P => arr P (3 * i + 1) local_point).
  - lia.
  - split; [reflexivity|]. intros i Hi. replace i with (3 * 0) by lia. rewrite local_0. unfold mkW. num. reflexivity.
  - intros i P Hi HP. wget HH. rewrite !get_pt by lia. cbn [bind]. rewrite !(arr_get _ _ _ _ HT) by lia. cbn [bind]. num. rewrite !scale_eq, !xyz_div_ok by lra. cbn [bind].
    replace (3 * (i + 1) + 1) with (3 * i + 1 + 1 + 1 + 1) by lia.
    match goal with |- wp (Ok (P ++ [?a; ?b; ?c])) _ => replace (P ++ [a; b; c]) with (((P ++ [a]) ++ [b]) ++ [c]) by (rewrite <- !app_assoc; reflexivity) end.
    apply wp_ok. apply arr_snoc; [apply arr_snoc; [apply arr_snoc; [exact HP|]|]|].
    + rewrite local_1. unfold mkW, hom. num. f_equal; unfold Rdiv, plus3, minus3, times3, xyz_add, xyz_sub; num; cbn [gx gy gz]; ring.
    + replace (3 * i + 1 + 1) with (3 * i + 2) by lia. rewrite local_2. unfold mkW, hom. num. f_equal; unfold Rdiv, plus3, minus3, times3, xyz_add, xyz_sub; num; cbn [gx gy gz]; ring.
    + replace (3 * i + 1 + 1 + 1) with (3 * (i + 1)) by lia. rewrite local_0. unfold mkW, hom. num. reflexivity.
  - intros P HP. rewrite (proj1 HP). apply wp_bind. apply wp_mkvec; [lia|]. intros U0 HU0. apply wp_bind.
    replace (3 * n + 1 + 3 + 1) with (3 * n + 5) in * by lia.
    apply wp_for_up with (P := fun i U => arrD U (3 * n + 5) (fun j => j < i \/ 3 * n + 5 - i <= j) even_knot).
    + lia.
    + split; [exact (proj1 HU0)|]. lia.
    + intros i U Hi HU. apply wp_bind. eapply (arrD_set _ _ _ (fun j => j <= i \/ 3 * n + 5 - i <= j) _ _ _ _ HU); [lia| |dl|].
      { unfold even_knot. zcase; try lia. reflexivity. }
      intros U' HU'. rewrite (proj1 HU'). eapply (arrD_set _ _ _ _ _ _ _ _ HU'); [lia| | |intros U'' HU''; exact HU''].
      * unfold even_knot. zcase; try lia. reflexivity.
      * cbv beta. lia.
    + intros U HU. num. replace (3 * n + 1 - 3) with (3 * n - 2) by lia. rewrite Rdiv_ok by (apply not_0_IZR; lia). cbn [bind]. apply wp_bind.
      apply wp_for_up with (P := fun i U => arrD U (3 * n + 5) (fun j => j < i + 3 \/ 3 * n + 1 <= j) even_knot).
      * lia.
      * eapply arrD_ext; [exact HU|]. cbv beta. intros j Hj D. split; [lia|reflexivity].
      * intros i U' Hi HU'. eapply (arrD_set _ _ _ _ _ _ _ _ HU'); [lia| | |intros U'' HU''; exact HU''].
        -- unfold even_knot. zcase; try lia. replace (3 + i - 3) with i by lia. reflexivity.
        -- cbv beta. lia.
      * intros U' HU'. apply wp_ok. exists U', P. split; [reflexivity|]. split; [exact HP|]. eapply arr_of_arrD; [exact HU'|]. cbv beta. lia.
Qed.

Lemma even_knot_spec U : arr U (3 * n + 5) even_knot -> even_knots 3 (3 * n) U.
Proof.
  intros HU. split; [rewrite (proj1 HU); lia|]. split; [|split].
  - intros i Hi. unfold val; rewrite (arr_at_eq _ _ _ _ _ HU) by lia. unfold even_knot. zcase; try lia. reflexivity.
  - intros i Hi. unfold val; rewrite (arr_at_eq _ _ _ _ _ HU) by lia. unfold even_knot. zcase; try lia. reflexivity.
  - intros i Hi. unfold val; rewrite (arr_at_eq _ _ _ _ _ HU) by lia. unfold even_knot. replace (3 * n + 1 - 3) with (3 * n - 2) by lia. pose proof (IZR_lt 0 (3 * n - 2) ltac:(lia)). zcase.
    + replace i with 3 by lia. change (3 - 3) with 0. unfold Rdiv. ring.
    + replace i with (3 * n + 1) by lia. replace (3 * n + 1 - 3) with (3 * n - 2) by lia. field. lra.
    + field. lra.
Qed.
End Cubic.

Lemma even_clamped p n U : 0 <= p <= n -> even_knots p n U -> clamped_unit p n U.
Proof.
  intros Hp (E1 & E2 & E3 & E4). split; [exact E1|]. split; [|split; [exact E2|exact E3]].
  assert (M : forall i, p <= i <= n + 1 -> (0 <= val U i <= 1)%R).
  { intros i Hi. rewrite E4 by lia. pose proof (IZR_lt 0 (n + 1 - p) ltac:(lia)). pose proof (IZR_le 0 (i - p) ltac:(lia)). pose proof (IZR_le (i - p) (n + 1 - p) ltac:(lia)).
    split; [apply Rle_mult_inv_pos; lra|]. apply Rmult_le_reg_r with (IZR (n + 1 - p)); [lra|]. unfold Rdiv. rewrite Rmult_assoc, Rinv_l by lra. lra. }
  intros i j Hi Hij Hj.
  destruct (Z_le_dec i p) as [A|A]; destruct (Z_le_dec (n + 1) j) as [B|B].
  - rewrite E2, E3 by lia. lra.
  - rewrite (E2 i) by lia. destruct (Z_le_dec j p); [rewrite E2 by lia; lra|]. apply M. lia.
  - rewrite (E3 j) by lia. destruct (Z_le_dec (n + 1) i); [rewrite E3 by lia; lra|]. apply M. lia.
  - rewrite !E4 by lia. apply Rmult_le_compat_r; [left; apply Rinv_0_lt_compat, IZR_lt; lia|apply IZR_le; lia].
Qed.
Lemma even_curve p n U : 0 <= p <= n -> n - p < 499990 -> even_knots p n U -> curve_knots p n U.
Proof.
  intros Hp Hb HE. destruct (even_clamped p n U Hp HE) as (_ & Hs & C1 & C2). destruct HE as (E1 & E2 & E3 & E4).
  pose proof (IZR_lt 0 (n + 1 - p) ltac:(lia)) as M0. pose proof (IZR_lt (n + 1 - p) 499991 ltac:(lia)) as M1.
  assert (S : (1 / 499991 < / IZR (n + 1 - p))%R). { unfold Rdiv. rewrite Rmult_1_l. apply Rinv_lt_contravar; [nra|lra]. }
  assert (L : (/ IZR (n + 1 - p) <= 1)%R). { rewrite <- Rinv_1. apply Rinv_le_contravar; [lra|apply IZR_le; lia]. }
  split; try assumption; try lia.
  - rewrite (C1 p), (E4 (p + 1)) by lia. replace (p + 1 - p) with 1 by lia. unfold Rdiv. rewrite Rmult_1_l. unfold tol. rewrite Rabs_R0, Rmax_right by apply Rabs_pos. rewrite Rabs_right by lra. lra.
  - rewrite (C2 (n + 1)), (E4 n) by lia. replace (IZR (n - p)) with (IZR (n + 1 - p) - 1)%R by (rewrite <- minus_IZR; f_equal; lia).
    unfold Rdiv. rewrite Rmult_minus_distr_r, Rmult_1_l, Rinv_r by lra. unfold tol. rewrite Rmax_right; rewrite !Rabs_right; lra.
Qed.

Lemma joined_of Q P : 5 <= len Q -> arr P (3 * (len Q - 1) + 1) (local_point Q) -> joined Q (mklist (len Q) (fun k => dir (heading Q k))) P.
Proof.
  intros HQ HP. pose proof (arr_mklist (len Q) (fun k => dir (heading Q k)) ltac:(lia)) as HT. split; [exact (proj1 HP)|]. split.
  - intros i Hi. unfold pt at 1. rewrite (arr_at_eq _ _ _ _ _ HP) by lia. apply local_0.
  - intros i Hi. unfold pt at 1 3 4 6. rewrite !(arr_at_eq _ _ _ _ _ HP), !(arr_at_eq _ _ _ _ _ HT) by lia. rewrite local_1, local_2. split; reflexivity.
Qed.

Lemma Cubic_full Q : 5 <= len Q -> bends Q ->
  returns (CubicLocalInterpolation Q) (fun r => exists T U P, r = Some (mkCurve 3 U P) /\
    len T = len Q /\ (forall k, 0 <= k < len Q -> direction_of (heading Q k) (pt T k)) /\
    joined Q T P /\ even_knots 3 (3 * (len Q - 1)) U).
Proof.
  intros HQ HB. destruct (wp_elim _ _ (Cubic_ok Q HQ HB)) as (r & E & U & P & -> & HP & HU). exists (Some (mkCurve 3 U P)). split; [exact E|].
  pose proof (arr_mklist (len Q) (fun k => dir (heading Q k)) ltac:(lia)) as HT.
  exists (mklist (len Q) (fun k => dir (heading Q k))), U, P. split; [reflexivity|]. split; [exact (proj1 HT)|]. split; [|split].
  - intros k Hk. unfold pt. rewrite (arr_at_eq _ _ _ _ _ HT) by lia. apply dir_direction. apply HB. exact Hk.
  - apply joined_of; assumption.
  - apply even_knot_spec; assumption.
Qed.

Lemma even_ends U P (m : Z) : 3 <= m < 499990 -> even_knots 3 m U -> len P = m + 1 ->
  NurbsPoint (mkCurve 3 U P) 0%R = ToXYZ (pt P 0) true /\ NurbsPoint (mkCurve 3 U P) 1%R = ToXYZ (pt P m) true.
Proof.
  intros Hm HE HP. pose proof (even_curve 3 m U ltac:(lia) ltac:(lia) HE) as HK. destruct (even_clamped 3 m U ltac:(lia) HE) as (L & S & C1 & C2).
  assert (Hcl : clamped_knots 3 m U). { split; [rewrite !C1 by lia; reflexivity|]. rewrite (C2 (m + 1)), (C2 (m + 3 + 1)) by lia. reflexivity. }
  pose proof (curve_point_first 3 m U P HK ltac:(lia) HP Hcl) as F0. pose proof (curve_point_last 3 m U P HK ltac:(lia) HP Hcl) as F1.
  rewrite (C1 3) in F0 by lia. rewrite (C2 (m + 1)) in F1 by lia.
  split; rewrite (NurbsPoint_ok 3 m) by (try assumption; try lia; unfold in_domain; rewrite (C1 3), (C2 (m + 1)) by lia; lra); congruence.
Qed.

Lemma hom_back (x : XYZ R) : ToXYZ (hom x 1%R) true = Ok x.
Proof. replace (hom x 1%R) with (mkXYZW (gx x) (gy x) (gz x) 1%R) by (unfold hom; f_equal; ring). apply ToXYZ_1. Qed.

Lemma Cubic_ends Q U P T : 5 <= len Q <= 100000 -> joined Q T P -> even_knots 3 (3 * (len Q - 1)) U ->
  NurbsPoint (mkCurve 3 U P) 0%R = Ok (pt Q 0) /\ NurbsPoint (mkCurve 3 U P) 1%R = Ok (pt Q (len Q - 1)).
Proof.
  intros HQ (J1 & J2 & J3) HE. destruct (even_ends U P (3 * (len Q - 1)) ltac:(lia) HE J1) as (E0 & E1).
  rewrite E0, E1. rewrite (J2 0 ltac:(lia) : pt P 0 = _), (J2 (len Q - 1) ltac:(lia)), !hom_back. split; reflexivity.
Qed.

(** few points *)
Lemma Cubic_few Q : 2 <= len Q <= 4 -> CubicLocalInterpolation Q = Ok None.
Proof.
  intros HQ. unfold CubicLocalInterpolation, ComputeTangent5, validate. destruct (Z.ltb_spec 0 (len Q)); [|lia]. cbn [bind]. destruct (Z.eqb_spec (len Q) 1); [lia|].
  destruct (Z.ltb_spec (len Q) 5); [|lia]. reflexivity.
Qed.

(** points on a line *)
Lemma cross_parallel (v : XYZ R) a b : norm3 (cross3 (times3 a v) (times3 b v)) = 0%R.
Proof.
  unfold norm3. replace (dot3 _ _) with 0%R; [apply sqrt_0|]. destruct v as [x y z]. unfold dot3, cross3, times3. cbn [gx gy gz]. ring.
Qed.
Lemma Cubic_line Q a v s : 5 <= len Q -> (forall k, 0 <= k < 5 -> pt Q k = line_at a v (s k)) -> CubicLocalInterpolation Q = NonFin.
Proof.
  intros HQ HL. unfold CubicLocalInterpolation, validate. destruct (Z.ltb_spec 0 (len Q)); [|lia]. cbn [bind]. destruct (Z.eqb_spec (len Q) 1); [lia|].
  unfold ComputeTangent5. destruct (Z.ltb_spec (len Q) 5); [lia|]. unfold mkvec. destruct (Z.ltb_spec (len Q) 0); [lia|]. cbn [bind].
  rewrite for_up_first by lia. rewrite !Getqk_ok by lia. cbn [bind].
  assert (G : forall k, 1 <= k <= 4 -> leg Q k = times3 (s k - s (k - 1)%Z)%R v).
  { intros k Hk. unfold leg. zcase; try lia. rewrite !HL by lia. v3h. f_equal; ring. }
  rewrite !G by lia. unfold GetTk, Getak. rewrite !cross_eq, !Length_eq. cbn [bind]. rewrite !cross_parallel. num. rewrite Rdiv_zero by lra. reflexivity.
Qed.

(** basis functions are positive inside their support *)
Lemma NS_pos U k t : (U k <= t < U (k + 1)%Z)%R -> forall p, 0 <= p -> forall i, good U k p -> k - p <= i <= k -> (U i < t)%R \/ i = k - p -> (0 < NS U k p i t)%R.
Proof.
  intros Ht. apply (Zrange_ind 0 (fun p => forall i, good U k p -> k - p <= i <= k -> (U i < t)%R \/ i = k - p -> (0 < NS U k p i t)%R)).
  - intros i _ Hi _. rewrite NS_0. destruct (Z.eqb_spec i k); [lra|lia].
  - intros p Hp IH i Hg Hi Hc. rewrite NS_succ by lia. replace (p + 1 - 1) with p by lia.
    assert (Hg' : good U k p) by (eapply good_le; [exact Hg|lia]). pose proof Hg as [G1 G2].
    assert (P1 : forall j, (0 <= NS U k p j t)%R) by (intros j; apply NS_nonneg; [lia|exact Hg'|lra]).
    destruct (Z.eq_dec i (k - (p + 1))) as [E|E].
    + rewrite (NS_out U k p i) by lia. rewrite Rmult_0_r, Rplus_0_l. apply Rmult_lt_0_compat; [|apply IH; [exact Hg'|lia|right; lia]].
      assert (U (i + 1)%Z <= U k)%R by (apply G2; lia). replace (i + (p + 1) + 1) with (k + 1) by lia. rewrite sdiv_ok by lra. apply Rdiv_lt_0_compat; lra.
    + destruct Hc as [Hc|Hc]; [|lia]. assert (U (k + 1)%Z <= U (i + (p + 1))%Z)%R by (apply G2; lia).
      assert (0 < sdiv (t - U i) (U (i + (p + 1))%Z - U i) * NS U k p i t)%R.
      { apply Rmult_lt_0_compat; [rewrite sdiv_ok by lra; apply Rdiv_lt_0_compat; lra|]. apply IH; [exact Hg'|lia|left; exact Hc]. }
      assert (0 <= sdiv (U (i + (p + 1) + 1)%Z - t) (U (i + (p + 1) + 1)%Z - U (i + 1)%Z) * NS U k p (i + 1) t)%R; [|lra].
      destruct (Z.eq_dec i k) as [->|]; [rewrite (NS_out U k p (k + 1)) by lia; lra|].
      apply Rmult_le_pos; [|apply P1]. assert (U (i + 1)%Z <= U k)%R by (apply G2; lia). assert (U (k + 1)%Z <= U (i + (p + 1) + 1)%Z)%R by (apply G2; lia). apply sdiv_nonneg; lra.
Qed.
Lemma N_pos p n U t k i : curve_knots p n U -> span_of p n U t k -> (t < val U (k + 1))%R -> k - p <= i <= k -> (val U i < t)%R \/ i = k - p ->
  (0 < N (val U) (val U (n + 1)) (Z.to_nat p) i t)%R.
Proof.
  intros Hc Hk Ht Hi Hu. pose proof Hc as [Hp Hn Hl Hs _ _]. change (0 < NB (val U) (val U (n + 1)) p i t)%R. pose proof Hk as (K1 & K2 & K3 & _).
  rewrite (NB_span p n U t k p i) by (auto; lia). apply NS_pos; [lra|lia|apply span_good; eapply span_of_ok; eauto|lia|exact Hu].
Qed.

(** a curve that misses one of its points *)
Lemma even_only U t : even_knots 3 12 U -> (0 <= t < 1)%R ->
  (forall i, 0 <= i <= 12 -> i < 5 \/ 7 < i -> N (val U) (val U 13) 3 i t = 0%R) -> t = (1 / 2)%R.
Proof.
  intros HE Ht HN. pose proof (even_curve 3 12 U ltac:(lia) ltac:(lia) HE) as HK. destruct HE as (E1 & E2 & E3 & E4).
  assert (D : in_domain 3 12 U t). { unfold in_domain. rewrite (E2 3), (E3 (12 + 1)) by lia. lra. }
  destruct (find_span 3 12 U t HK D) as (k & _ & Hk). pose proof Hk as (K1 & K2 & K3 & K4).
  assert (K5 : (t < val U (k + 1))%R). { destruct K4 as [K4|[_ K4]]; [exact K4|]. rewrite (E3 (12 + 1)) in K4 by lia. lra. }
  assert (X : forall i, k - 3 <= i <= k -> (val U i < t)%R \/ i = k - 3 -> 5 <= i <= 7).
  { intros i Hi Hu. pose proof (N_pos 3 12 U t k i HK Hk K5 Hi Hu) as P. destruct (Z_lt_dec i 5); [|destruct (Z_lt_dec 7 i); [|lia]]; (rewrite HN in P; [lra|lia|lia]). }
  assert (A : 8 <= k <= 10) by (specialize (X (k - 3) ltac:(lia) ltac:(right; reflexivity)); lia).
  assert (B : k = 8).
  { destruct (Z.eq_dec k 8); [assumption|]. assert (5 <= k - 1 <= 7); [|lia]. apply X; [lia|]. left. apply Rlt_le_trans with (val U k); [|exact K3]. rewrite !E4 by lia.
    apply Rmult_lt_compat_r; [apply Rinv_0_lt_compat; change (12 + 1 - 3) with 10; lra|apply IZR_lt; lia]. }
  subst k. destruct (Rle_lt_or_eq_dec _ _ K3) as [L|L].
  - specialize (X 8 ltac:(lia) ltac:(left; exact L)). lia.
  - rewrite <- L, E4 by lia. change (8 - 3) with 5. change (12 + 1 - 3) with 10. lra.
Qed.
Lemma even_half U : even_knots 3 12 U -> N (val U) (val U 13) 3 5 (1 / 2) = (1 / 6)%R /\ N (val U) (val U 13) 3 7 (1 / 2) = (1 / 6)%R.
Proof.
  intros HE. pose proof (even_curve 3 12 U ltac:(lia) ltac:(lia) HE) as HK. destruct HE as (E1 & E2 & E3 & E4).
  assert (V : forall i, 3 <= i <= 13 -> val U i = (IZR (i - 3) / 10)%R) by (intros i Hi; rewrite E4 by lia; reflexivity).
  assert (S : span_of 3 12 U (1 / 2) 8).
  { split; [lia|]. rewrite !V by lia. change (8 + 1 - 3) with 6. change (8 - 3) with 5. split; [lra|]. split; [lra|]. left. lra. }
  split; [change (NB (val U) (val U (12 + 1)) 3 5 (1 / 2) = (1 / 6)%R)|change (NB (val U) (val U (12 + 1)) 3 7 (1 / 2) = (1 / 6)%R)];
    rewrite (NB_span 3 12 U _ 8 3) by (auto; lia); unfold NS, Nspan; change (Z.to_nat 3) with 3%nat; cbn [Nrec];
    repeat match goal with |- context [val U ?e] => rewrite (V e) by lia end;
    repeat match goal with |- context [?a =? ?b] => let v := eval compute in (a =? b) in change (a =? b) with v end;
    repeat match goal with |- context [IZR (?a - ?b)] => let v := eval compute in (a - b) in change (a - b) with v end;
    rewrite !sdiv_ok by lra; lra.
Qed.

Lemma unit_weights_point p n U P t : curve_knots p n U -> p <= 7 -> len P = n + 1 -> in_domain p n U t -> (forall i, 0 <= i <= n -> ww (pt P i) = 1%R) ->
  NurbsPoint (mkCurve p U P) t = Ok (mkXYZ (rsum 0 (n + 1) (fun i => N (val U) (val U (n + 1)) (Z.to_nat p) i t * wx (pt P i))%R)
    (rsum 0 (n + 1) (fun i => N (val U) (val U (n + 1)) (Z.to_nat p) i t * wy (pt P i))%R)
    (rsum 0 (n + 1) (fun i => N (val U) (val U (n + 1)) (Z.to_nat p) i t * wz (pt P i))%R)).
Proof.
  intros HK H7 HP HD HW. rewrite (NurbsPoint_ok p n) by assumption. unfold curve_point.
  set (F := comb 0 (n + 1) _ _). 
  assert (W : ww F = 1%R).
  { change (co 3 F = 1%R). unfold F. rewrite co_comb. rewrite <- (N_sum p n U t HK HD). apply rsum_ext. intros i Hi. change (co 3 (pt P i)) with (ww (pt P i)). rewrite HW by lia. ring. }
  replace F with (mkXYZW (co 0 F) (co 1 F) (co 2 F) 1%R) by (rewrite <- W; destruct F; reflexivity).
  unfold F. rewrite !co_comb. apply (ToXYZ_1 (mkXYZ _ _ _)).
Qed.
Lemma rsum_all_zero lo hi f : (forall i, lo <= i < hi -> (0 <= f i)%R) -> rsum lo hi f = 0%R -> forall i, lo <= i < hi -> f i = 0%R.
Proof.
  intros H S i Hi. rewrite (rsum_split lo i hi) in S by lia. rewrite (rsum_first i hi) in S by lia.
  pose proof (Vec.rsum_nonneg lo i f ltac:(intros; apply H; lia)). pose proof (Vec.rsum_nonneg (i + 1) hi f ltac:(intros; apply H; lia)). pose proof (H i Hi). lra.
Qed.

Definition zigzag : list (XYZ R) := [mkXYZ 0 0 0; mkXYZ 1 0 0; mkXYZ 1 4 0; mkXYZ 4 0 0; mkXYZ 3 0 0]%R.
Lemma norm_z c : norm3 (mkXYZ 0 0 c)%R = Rabs c.
Proof. unfold norm3, dot3. cbn [gx gy gz]. replace (0 * 0 + 0 * 0 + c * c)%R with (Rsqr c) by (unfold Rsqr; ring). apply sqrt_Rsqr_abs. Qed.
Lemma zz_legs : leg zigzag (-1) = mkXYZ (3)%R (-8)%R 0%R /\ leg zigzag 0 = mkXYZ (2)%R (-4)%R 0%R /\ leg zigzag 1 = mkXYZ (1)%R (0)%R 0%R /\ leg zigzag 2 = mkXYZ (0)%R (4)%R 0%R /\ leg zigzag 3 = mkXYZ (3)%R (-4)%R 0%R /\ leg zigzag 4 = mkXYZ (-1)%R (0)%R 0%R /\ leg zigzag 5 = mkXYZ (-5)%R (4)%R 0%R /\ leg zigzag 6 = mkXYZ (-9)%R (8)%R 0%R.
Proof. repeat split; unfold leg; cbn; unfold Pos.to_nat; cbn; unfold minus3, times3; cbn [gx gy gz]; f_equal; lra. Qed.
Lemma zz_turns : turn zigzag (-1) = 4%R /\ turn zigzag 0 = 4%R /\ turn zigzag 1 = 4%R /\ turn zigzag 2 = 12%R /\ turn zigzag 3 = 4%R /\ turn zigzag 4 = 4%R /\ turn zigzag 5 = 4%R.
Proof.
  destruct zz_legs as (L1 & L2 & L3 & L4 & L5 & L6 & L7 & L8).
  repeat split; unfold turn; cbn [Z.add Pos.add Pos.succ Z.pos_sub]; rewrite ?L1, ?L2, ?L3, ?L4, ?L5, ?L6, ?L7, ?L8; unfold cross3; cbn [gx gy gz];
    match goal with |- norm3 (mkXYZ ?a ?b ?c) = _ => replace a with 0%R by ring; replace b with 0%R by ring end; rewrite norm_z; unfold Rabs; destruct Rcase_abs; lra.
Qed.
Lemma zz_headings : heading zigzag 0 = (mkXYZ (3/2) (-2) 0)%R /\ heading zigzag 1 = (mkXYZ (3/4) 1 0)%R /\ heading zigzag 2 = (mkXYZ (3/2) 0 0)%R /\ heading zigzag 3 = (mkXYZ 0 (-1) 0)%R /\ heading zigzag 4 = (mkXYZ (-3) 2 0)%R.
Proof.
  destruct zz_legs as (L1 & L2 & L3 & L4 & L5 & L6 & L7 & L8). destruct zz_turns as (T1 & T2 & T3 & T4 & T5 & T6 & T7).
  repeat split; unfold heading, lean; cbn [Z.add Z.sub Z.opp Pos.add Pos.succ Z.pos_sub Pos.pred_double];
    rewrite ?T1, ?T2, ?T3, ?T4, ?T5, ?T6, ?T7, ?L1, ?L2, ?L3, ?L4, ?L5, ?L6, ?L7, ?L8; unfold plus3, times3; cbn [gx gy gz]; f_equal; lra.
Qed.
Lemma zz_bends : bends zigzag.
Proof.
  intros k Hk. change (len zigzag) with 5 in Hk. assert (C : k = 0 \/ k = 1 \/ k = 2 \/ k = 3 \/ k = 4) by lia.
  destruct zz_headings as (H1 & H2 & H3 & H4 & H5). destruct zz_turns as (T1 & T2 & T3 & T4 & T5 & T6 & T7).
  decompose [or] C; subst; (split; [cbn [Z.add Z.sub Z.opp Pos.add Pos.succ Z.pos_sub Pos.pred_double]; rewrite ?T1, ?T2, ?T3, ?T4, ?T5, ?T6, ?T7; lra|
    rewrite ?H1, ?H2, ?H3, ?H4, ?H5; unfold zero3; intros E; inversion E; lra]).
Qed.

Lemma direction_unique a u w : direction_of a u -> direction_of a w -> u = w.
Proof.
  intros (U1 & k & K & E) (W1 & l & L & F). rewrite E in F. destruct u as [x y z], w as [x' y' z']. unfold dot3, times3 in *. cbn [gx gy gz] in *. inversion F as [[F1 F2 F3]]. clear F E.
  assert (k * k = l * l)%R. { replace (k * k)%R with (k * k * (x * x + y * y + z * z))%R by (rewrite U1; ring). replace (l * l)%R with (l * l * (x' * x' + y' * y' + z' * z'))%R by (rewrite W1; ring).
    replace (k * k * (x * x + y * y + z * z))%R with ((k * x) * (k * x) + (k * y) * (k * y) + (k * z) * (k * z))%R by ring. rewrite F1, F2, F3. ring. }
  assert (k = l) by nra. subst l. f_equal; apply Rmult_eq_reg_l with k; lra.
Qed.
Lemma unit_y (u : XYZ R) : dot3 u u = 1%R -> (-1 <= gy u <= 1)%R.
Proof. destruct u as [x y z]. unfold dot3. cbn [gx gy gz]. intros. split; nra. Qed.
Lemma leg_length_eq Q i d : (0 < d)%R -> (1 <= d)%R -> dot3 (minus3 (pt Q (i + 1)) (pt Q i)) (minus3 (pt Q (i + 1)) (pt Q i)) = (d * d)%R -> leg_length Q i = d.
Proof.
  intros H H1 E. unfold leg_length. unfold dist3, norm3. rewrite E. rewrite sqrt_square by lra. destruct (small_dec d) as [S|S]; [|reflexivity]. unfold small in S. rewrite Rabs_right in S by lra. lra.
Qed.
Lemma zz_lengths : leg_length zigzag 0 = 1%R /\ leg_length zigzag 1 = 4%R /\ leg_length zigzag 2 = 5%R /\ leg_length zigzag 3 = 1%R.
Proof. repeat split; apply leg_length_eq; try lra; cbn; unfold Pos.to_nat; cbn; unfold dot3, minus3; cbn [gx gy gz]; ring. Qed.

Lemma zz_misses r : CubicLocalInterpolation zigzag = Ok (Some r) -> forall t, (0 <= t <= 1)%R -> NurbsPoint r t <> Ok (pt zigzag 2).
Proof.
  intros Er t Ht Et. destruct (Cubic_full zigzag ltac:(cbn; lia) zz_bends) as (r' & E & T & U & P & -> & HT & HD & J & HE). rewrite E in Er. injection Er as <-.
  change (3 * (len zigzag - 1)) with 12 in HE. pose proof (even_curve 3 12 U ltac:(lia) ltac:(lia) HE) as HK. pose proof J as (J1 & J2 & J3). change (3 * (len zigzag - 1) + 1) with 13 in J1. change (len zigzag) with 5 in *.
  destruct (Cubic_ends zigzag U P T ltac:(cbn; lia) J HE) as (_ & End).
  destruct (Req_dec t 1) as [->|Ht1]. { rewrite End in Et. injection Et as Et. cbn in Et. unfold Pos.to_nat in Et. cbn in Et. inversion Et. lra. }
  assert (D : in_domain 3 12 U t). { destruct HE as (_ & E2 & E3 & _). unfold in_domain. rewrite (E2 3), (E3 (12 + 1)) by lia. lra. }
  destruct zz_headings as (_ & _ & H2 & _). destruct zz_lengths as (L0 & L1 & L2 & L3).
  assert (T2 : pt T 2 = (mkXYZ 1 0 0)%R). { apply (direction_unique (heading zigzag 2)); [apply HD; lia|]. rewrite H2. split; [unfold dot3; cbn [gx gy gz]; ring|]. exists (3 / 2)%R. split; [lra|]. unfold times3. cbn [gx gy gz]. f_equal; ring. }
  assert (TY : forall k, 0 <= k < 5 -> (-1 <= gy (pt T k) <= 1)%R) by (intros k Hk; apply unit_y, (HD k Hk)).
  assert (q0 : pt zigzag 0 = (mkXYZ 0 0 0)%R) by reflexivity. assert (q1 : pt zigzag 1 = (mkXYZ 1 0 0)%R) by reflexivity. assert (q2 : pt zigzag 2 = (mkXYZ 1 4 0)%R) by reflexivity.
  assert (q3 : pt zigzag 3 = (mkXYZ 4 0 0)%R) by reflexivity. assert (q4 : pt zigzag 4 = (mkXYZ 3 0 0)%R) by reflexivity.
  pose proof (J2 0 ltac:(lia)) as A0. pose proof (J2 1 ltac:(lia)) as A3. pose proof (J2 2 ltac:(lia)) as A6. pose proof (J2 3 ltac:(lia)) as A9. pose proof (J2 4 ltac:(lia)) as A12.
  destruct (J3 0 ltac:(lia)) as (A1 & A2). destruct (J3 1 ltac:(lia)) as (A4 & A5). destruct (J3 2 ltac:(lia)) as (A7 & A8). destruct (J3 3 ltac:(lia)) as (A10 & A11).
  change (0 + 1) with 1 in *. change (1 + 1) with 2 in *. change (2 + 1) with 3 in *. change (3 + 1) with 4 in *.
  rewrite L0 in A1, A2. rewrite L1 in A4, A5. rewrite L2 in A7, A8. rewrite L3 in A10, A11. rewrite T2 in A5, A7.
  rewrite q0 in A0, A1. rewrite q1 in A3, A2, A4. rewrite q2 in A6, A5, A7. rewrite q3 in A9, A8, A10. rewrite q4 in A12, A11.
  change (3 * 0) with 0 in *. change (3 * 1) with 3 in *. change (3 * 2) with 6 in *. change (3 * 3) with 9 in *. change (3 * 4) with 12 in *.
  change (0 + 1) with 1 in *. change (0 + 2) with 2 in *. change (3 + 1) with 4 in *. change (3 + 2) with 5 in *. change (6 + 1) with 7 in *. change (6 + 2) with 8 in *. change (9 + 1) with 10 in *. change (9 + 2) with 11 in *.
  pose proof (TY 0 ltac:(lia)). pose proof (TY 1 ltac:(lia)). pose proof (TY 3 ltac:(lia)). pose proof (TY 4 ltac:(lia)).
  clear HT HD J J2 J3 T2 End E.
  assert (CI : forall i, 0 <= i <= 12 -> i = 0 \/ i = 1 \/ i = 2 \/ i = 3 \/ i = 4 \/ i = 5 \/ i = 6 \/ i = 7 \/ i = 8 \/ i = 9 \/ i = 10 \/ i = 11 \/ i = 12) by (intros; lia).
  assert (W : forall i, 0 <= i <= 12 -> ww (pt P i) = 1%R).
  { intros i Hi. specialize (CI i Hi). decompose [or] CI; subst i; rewrite ?A0, ?A1, ?A2, ?A3, ?A4, ?A5, ?A6, ?A7, ?A8, ?A9, ?A10, ?A11, ?A12; reflexivity. }
  assert (Y : forall i, 0 <= i <= 12 -> (wy (pt P i) <= 4)%R /\ (i < 5 \/ 7 < i -> (wy (pt P i) < 4)%R)).
  { intros i Hi. specialize (CI i Hi). decompose [or] CI; subst i; rewrite ?A0, ?A1, ?A2, ?A3, ?A4, ?A5, ?A6, ?A7, ?A8, ?A9, ?A10, ?A11, ?A12; unfold hom, plus3, minus3, times3; cbn [gx gy gz wy]; split; try lra; lia. }
  rewrite (unit_weights_point 3 12 U P t HK ltac:(lia) J1 D W) in Et. rewrite q2 in Et. injection Et as Ex Ey _. change (12 + 1) with 13 in *. change (Pos.to_nat 3) with 3%nat in *. change (Z.to_nat 3) with 3%nat in *.
  set (M := fun i => N (val U) (val U 13) 3 i t) in *.
  assert (MN : forall i, 0 <= i <= 12 -> (0 <= M i)%R) by (intros i Hi; apply (N_nonneg 3 12 U t i HK D Hi)).
  assert (M1 : rsum 0 13 M = 1%R) by (exact (N_sum 3 12 U t HK D)).
  assert (Z0 : forall i, 0 <= i < 13 -> (M i * (4 - wy (pt P i)) = 0)%R).
  { apply rsum_all_zero. - intros i Hi. apply Rmult_le_pos; [apply MN; lia|]. destruct (Y i ltac:(lia)). lra.
    - rewrite (rsum_ext 0 13 _ (fun i => 4 * M i - M i * wy (pt P i))%R) by (intros; ring). rewrite rsum_minus, rsum_scal. change (fun i => M i * wy (pt P i))%R with (fun i => N (val U) (val U 13) 3 i t * wy (pt P i))%R. rewrite Ey, M1. ring. }
  assert (M0 : forall i, 0 <= i <= 12 -> i < 5 \/ 7 < i -> M i = 0%R).
  { intros i Hi Ho. specialize (Z0 i ltac:(lia)). destruct (Y i Hi) as (_ & Y'). specialize (Y' Ho). nra. }
  assert (TH : t = (1 / 2)%R) by (apply (even_only U t HE); [lra|exact M0]).
  destruct (even_half U HE) as (N5 & N7). rewrite <- TH in N5, N7. change (M 5 = (1 / 6)%R) in N5. change (M 7 = (1 / 6)%R) in N7.
  assert (S3 : forall f : Z -> R, rsum 0 13 (fun i => M i * f i)%R = (M 5%Z * f 5%Z + M 6%Z * f 6%Z + M 7%Z * f 7%Z)%R).
  { intros f. rewrite (rsum_split 0 5 13) by lia. rewrite (rsum_split 5 8 13) by lia. rewrite (rsum_zero 0 5), (rsum_zero 8 13) by (intros; rewrite M0 by lia; ring).
    rewrite (rsum_first 5) by lia. change (5 + 1) with 6. rewrite (rsum_first 6) by lia. change (6 + 1) with 7. rewrite (rsum_first 7) by lia. change (7 + 1) with 8. rewrite rsum_nil by lia. ring. }
  assert (M6 : (M 5%Z + M 6%Z + M 7%Z = 1)%R). { rewrite <- M1, (rsum_ext 0 13 M (fun i => M i * 1)%R) by (intros; ring). rewrite (S3 (fun _ => 1%R)). ring. }
  change (fun i => N (val U) (val U 13) 3 i t * wx (pt P i))%R with (fun i => M i * wx (pt P i))%R in Ex. rewrite (S3 (fun i => wx (pt P i))), A5, A6, A7 in Ex. unfold hom, plus3, minus3, times3 in Ex. cbn [gx gy gz wx] in Ex. rewrite N5, N7 in *. lra.
Qed.
