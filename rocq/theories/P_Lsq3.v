(* Least squares with weights and constraints: what the function returns. *)
From Coq Require Import ZArith List Bool Reals Lra Lia Permutation.
From Verif Require Import Base Num Vec Tac Spec Spec2 Spec3 Spec6 Spec20 M_MathUtils M_Polynomials M_XYZ M_Bspline M_NurbsCurve M_Interp M_Fit M_Fit2
  P_MathUtils P_Math2 P_Span P_Cox P_Deriv P_Ders P_XYZ P_Vec P_VSum P_Curve P_Bspline P_BsplineS P_Loop P_Basis P_Fit P_Interp2 P_Interp P_Local P_Lsq P_Lsq2.
Import ListNotations.
Open Scope Z_scope.

Lemma zseq_app a b : 0 <= a -> 0 <= b -> zseq (a + b) = zseq a ++ map (Z.add a) (zseq b).
Proof.
  intros Ha Hb. unfold zseq. rewrite Z2Nat.inj_add, seq_app, map_app by lia. f_equal. rewrite map_map. cbn [Nat.add]. rewrite <- (Nat.add_0_r (Z.to_nat a)) at 1. generalize 0%nat as k. induction (Z.to_nat b) as [|j IH]; intros k; [reflexivity|]. cbn [seq map]. f_equal; [lia|]. rewrite <- IH. do 2 f_equal. lia.
Qed.
Lemma zseq_map {X} (d : X) l : map (at_ d l) (zseq (len l)) = l.
Proof.
  unfold zseq. rewrite map_map. unfold len. rewrite Nat2Z.id. apply (nth_ext _ _ d d); [rewrite map_length, seq_length; reflexivity|]. intros k Hk. rewrite map_length, seq_length in Hk.
  rewrite (nth_indep _ d (at_ d l (Z.of_nat 0))) by (rewrite map_length, seq_length; exact Hk). rewrite (map_nth (fun x => at_ d l (Z.of_nat x))). rewrite seq_nth by exact Hk. unfold at_. rewrite Nat2Z.id. reflexivity.
Qed.
Lemma filter_map_len {X Y} (f : Y -> bool) (g : X -> Y) l : len (filter f (map g l)) = len (filter (fun x => f (g x)) l).
Proof. unfold len. f_equal. induction l as [|x l IH]; [reflexivity|]. cbn [map filter]. destruct (f (g x)); cbn [length]; rewrite IH; reflexivity. Qed.
Lemma filter_perm (f : Z -> bool) l l' : Permutation l l' -> Permutation (filter f l) (filter f l').
Proof.
  induction 1 as [|x l l' P IH|x y l|l l' l'' P1 IH1 P2 IH2]; cbn [filter]; [constructor| | |eapply Permutation_trans; eassumption].
  - destruct (f x); [constructor|]; exact IH.
  - destruct (f x), (f y); try apply Permutation_refl. apply perm_swap.
Qed.
Lemma len_app' {X} (a b : list X) : len (a ++ b) = len a + len b.
Proof. unfold len. rewrite app_length. lia. Qed.
Lemma cw_ok (ws : list R) : count_weights ws = (len (filter (fun w => IsGreaterThan w 0%R) ws), len (filter (fun w => IsLessThan w 0%R) ws)).
Proof.
  induction ws as [|w ws IH]; [reflexivity|]. cbn [count_weights filter]. rewrite IH. num. destruct (IsGreaterThan w 0%R) eqn:G; destruct (IsLessThan w 0%R) eqn:L; unfold len; cbn [length]; try (f_equal; lia).
  exfalso. apply gt_iff in G. apply lt_iff in L. pose proof (thr_eps_pos w 0). lra.
Qed.

Definition lsum (f : Z -> R) (l : list Z) : R := fold_right (fun x y => f x + y)%R 0%R l.
Lemma lsum_at f l : rsum 0 (len l) (fun r => f (at_ 0 l r)) = lsum f l.
Proof.
  induction l as [|x l IH]; [apply rsum_nil; cbn; lia|]. cbn [lsum fold_right]. fold (lsum f l). rewrite <- IH. replace (len (x :: l)) with (len l + 1) by (unfold len; cbn [length]; lia). rewrite rsum_first by (pose proof (len_nonneg l); lia). f_equal.
  rewrite (rsum_shift (-1)). replace (0 + 1 + -1) with 0 by lia. replace (len l + 1 + -1) with (len l) by lia. apply rsum_ext. intros r Hr. f_equal. unfold at_. replace (Z.to_nat (r - -1)) with (S (Z.to_nat r)) by lia. reflexivity.
Qed.
Lemma lsum_perm f l l' : Permutation l l' -> lsum f l = lsum f l'.
Proof. unfold lsum. induction 1; cbn [fold_right]; lra. Qed.
Lemma lsum_filter f (g : Z -> bool) l : lsum f (filter g l) = lsum (fun x => if g x then f x else 0%R) l.
Proof. unfold lsum. induction l as [|x l IH]; [reflexivity|]. cbn [filter fold_right]. destruct (g x); cbn [fold_right]; rewrite IH; ring. Qed.
Lemma at_zseq m r : 0 <= r < m -> at_ 0 (zseq m) r = r.
Proof. intros Hr. unfold at_, zseq. rewrite (nth_indep _ 0 (Z.of_nat 0)) by (rewrite map_length, seq_length; lia). rewrite map_nth, seq_nth by lia. lia. Qed.
Lemma len_zseq m : 0 <= m -> len (zseq m) = m.
Proof. intros H. unfold len, zseq. rewrite map_length, seq_length. lia. Qed.
Lemma lsum_zseq f m : 0 <= m -> lsum f (zseq m) = rsum 0 m f.
Proof. intros H. rewrite <- lsum_at, len_zseq by exact H. apply rsum_ext. intros r Hr. rewrite at_zseq by lia. reflexivity. Qed.

Definition cof (v : XYZ R) (a : Z) : R := if a =? 0 then gx v else if a =? 1 then gy v else gz v.

Lemma rows3 Q k (f : Z -> XYZ R) : arr Q k f -> is_mat (map point_row Q) k 3 (fun i j => cof (f i) j).
Proof.
  intros [L A]. split; [unfold len in *; rewrite map_length; exact L|]. intros i Hi. exists (point_row (f i)). split.
  - specialize (A i Hi). unfold get in *. destruct (Z.ltb_spec i 0); [lia|]. rewrite nth_error_map. destruct (nth_error Q (Z.to_nat i)); [|discriminate]. injection A as ->. reflexivity.
  - split; [reflexivity|]. intros j Hj. assert (j = 0 \/ j = 1 \/ j = 2) as [-> | [-> | ->]] by lia; reflexivity.
Qed.

Lemma solution_ok X rows n fX : 0 <= n -> n + 1 <= rows -> is_mat X rows 3 fX -> good_solution X rows = Ok true /\
  returns (solution_points X (n + 1)) (fun cps => arr cps (n + 1) (fun l => hom (mkXYZ (fX l 0) (fX l 1) (fX l 2)) 1)).
Proof.
  intros Hn Hr [LX HX]. split.
  - unfold good_solution. rewrite LX, Z.eqb_refl. destruct (Z.ltb_spec 0 rows); [|lia]. destruct (HX 0 ltac:(lia)) as (row & -> & (L & _)). cbn [bind]. rewrite L. reflexivity.
  - apply wp_elim. unfold solution_points. apply wp_bind, wp_mkvec; [lia|]. intros c0 A0. apply (wp_fill_all (n + 1) (fun l => hom (mkXYZ (fX l 0) (fX l 1) (fX l 2)) 1)); [lia|exact (proj1 A0)| |auto].
    intros i v Hi _. destruct (HX i ltac:(lia)) as (row & -> & (_ & Hrow)). cbn [bind]. unfold row_point. rewrite !Hrow by lia. cbn [bind]. reflexivity.
Qed.

Section Sys.
Variables (n mu mc : Z) (b e : Z -> Z -> R) (w : Z -> R) (t : Z -> XYZ R).
Hypothesis Hn : 0 <= n.
Hypothesis Hmu : 0 < mu.
Hypothesis Hmc : 0 <= mc.

Lemma system_ok G S M T fS : is_mat G (n + 1) (n + 1) (gram mu b w) -> is_mat S (n + 1) 3 fS -> arr2 M mc (n + 1) e -> arr T mc t ->
  returns (constrained_system (n + 1) mc G S M T) (fun AB => is_mat (fst AB) (n + 1 + mc) (n + 1 + mc) (kkt n mu b e w) /\
    is_mat (snd AB) (n + 1 + mc) 3 (fun i j => if i <=? n then fS i j else cof (t (i - (n + 1))) j)).
Proof.
  intros HG HS HM HT. apply wp_elim. unfold constrained_system. set (tot := n + 1 + mc).
  apply wp_bind, wp_mkvec; [unfold tot; lia|]. intros line Al. apply wp_bind. apply (wp_mkvec2 0%R tot tot line); [unfold tot; lia|exact Al|]. intros A0 AA0.
  apply wp_bind, wp_mkvec; [lia|]. intros line3 Al3. apply wp_bind. apply (wp_mkvec2 0%R tot 3 line3); [unfold tot; lia|exact Al3|]. intros B0 AB0. num.
  apply wp_bind. apply wp_for_up with (P := fun i m => arr2 m tot tot (fun r c => if (r <? i) && (c <=? n) then gram mu b w r c else 0%R)); [lia| | |].
  { apply (arr2_ext _ _ _ _ _ AA0). intros r c Hr Hc. destruct (Z.ltb_spec r 0); [lia|reflexivity]. }
  { intros i A1 Hi AA1. apply wp_for_up with (P := fun j m => arr2 m tot tot (fun r c => if ((r <? i) && (c <=? n)) || ((r =? i) && (c <? j)) then gram mu b w r c else 0%R)); [lia| | |].
    - apply (arr2_ext _ _ _ _ _ AA1). intros r c Hr Hc. destruct (Z.ltb_spec c 0); [lia|]. rewrite andb_false_r, orb_false_r. reflexivity.
    - intros j A2 Hj AA2. rewrite (arr2_get _ _ _ _ i j HG) by lia. cbn [bind]. apply (arr2_upd _ _ _ _ _ _ _ _ AA2); [unfold tot; lia|unfold tot; lia|]. intros A3 AA3. apply (arr2_ext _ _ _ _ _ AA3). intros r c Hr Hc. cbv beta.
      destruct (Z.eqb_spec r i), (Z.eqb_spec c j), (Z.ltb_spec r i), (Z.leb_spec c n), (Z.ltb_spec c j), (Z.ltb_spec c (j + 1)); cbn [andb orb]; subst; try lia; reflexivity.
    - intros A2 AA2. apply (arr2_ext _ _ _ _ _ AA2). intros r c Hr Hc. destruct (Z.eqb_spec r i), (Z.ltb_spec r i), (Z.leb_spec c n), (Z.ltb_spec c (n + 1)), (Z.ltb_spec r (i + 1)); cbn [andb orb]; try lia; reflexivity. }
  intros A1 AA1. apply wp_bind. apply wp_for_up with (P := fun i m => arr2 m tot tot (fun r c => if (r <=? n) && (c <=? n) then gram mu b w r c else if (r <? i) && (n <? c) then e (c - (n + 1)) r else 0%R)); [lia| | |].
  { apply (arr2_ext _ _ _ _ _ AA1). intros r c Hr Hc. destruct (Z.ltb_spec r 0), (Z.ltb_spec r (n + 1)), (Z.leb_spec r n); try lia; reflexivity. }
  { intros i A2 Hi AA2. apply wp_for_up with (P := fun j m => arr2 m tot tot (fun r c => if (r <=? n) && (c <=? n) then gram mu b w r c else if ((r <? i) && (n <? c)) || ((r =? i) && (n <? c) && (c <? n + 1 + j)) then e (c - (n + 1)) r else 0%R)); [lia| | |].
    - apply (arr2_ext _ _ _ _ _ AA2). intros r c Hr Hc. destruct (Z.ltb_spec n c), (Z.ltb_spec c (n + 1 + 0)); try lia; rewrite ?andb_false_r, ?orb_false_r; reflexivity.
    - intros j A3 Hj AA3. rewrite (arr2_get _ _ _ _ j i HM) by lia. cbn [bind]. apply (arr2_upd _ _ _ _ _ _ _ _ AA3); [unfold tot; lia|unfold tot; lia|]. intros A4 AA4. apply (arr2_ext _ _ _ _ _ AA4). intros r c Hr Hc. cbv beta.
      destruct (Z.eqb_spec r i), (Z.eqb_spec c (n + 1 + j)), (Z.ltb_spec r i), (Z.leb_spec c n), (Z.leb_spec r n), (Z.ltb_spec n c), (Z.ltb_spec c (n + 1 + j)), (Z.ltb_spec c (n + 1 + (j + 1))); cbn [andb orb]; subst; try lia; try reflexivity. f_equal. lia.
    - intros A3 AA3. apply (arr2_ext _ _ _ _ _ AA3). intros r c Hr Hc. fold tot in Hc. destruct (Z.eqb_spec r i), (Z.ltb_spec r i), (Z.leb_spec c n), (Z.leb_spec r n), (Z.ltb_spec n c), (Z.ltb_spec c (n + 1 + mc)), (Z.ltb_spec r (i + 1)); cbn [andb orb]; try (unfold tot in *; lia); reflexivity. }
  intros A2 AA2. apply wp_bind. apply wp_for_up with (P := fun i m => arr2 m tot tot (fun r c => if r <? n + 1 + i then kkt n mu b e w r c else 0%R)); [lia| | |].
  { apply (arr2_ext _ _ _ _ _ AA2). intros r c Hr Hc. unfold kkt. destruct (Z.ltb_spec r (n + 1)), (Z.ltb_spec r (n + 1 + 0)), (Z.leb_spec r n), (Z.leb_spec c n), (Z.ltb_spec n c); cbn [andb]; try lia; reflexivity. }
  { intros i A3 Hi AA3. apply wp_for_up with (P := fun j m => arr2 m tot tot (fun r c => if r <? n + 1 + i then kkt n mu b e w r c else if (r =? n + 1 + i) && (c <? j) then e i c else 0%R)); [lia| | |].
    - apply (arr2_ext _ _ _ _ _ AA3). intros r c Hr Hc. destruct (Z.ltb_spec c 0); [lia|]. rewrite andb_false_r. reflexivity.
    - intros j A4 Hj AA4. rewrite (arr2_get _ _ _ _ i j HM) by lia. cbn [bind]. apply (arr2_upd _ _ _ _ _ _ _ _ AA4); [unfold tot; lia|unfold tot; lia|]. intros A5 AA5. apply (arr2_ext _ _ _ _ _ AA5). intros r c Hr Hc. cbv beta.
      destruct (Z.eqb_spec r (n + 1 + i)), (Z.eqb_spec c j), (Z.ltb_spec r (n + 1 + i)), (Z.ltb_spec c j), (Z.ltb_spec c (j + 1)); cbn [andb orb]; subst; try lia; reflexivity.
    - intros A4 AA4. apply (arr2_ext _ _ _ _ _ AA4). intros r c Hr Hc. destruct (Z.ltb_spec r (n + 1 + i)), (Z.ltb_spec r (n + 1 + (i + 1))), (Z.eqb_spec r (n + 1 + i)), (Z.ltb_spec c (n + 1)); cbn [andb]; try lia; try reflexivity; unfold kkt; subst; destruct (Z.leb_spec (n + 1 + i) n), (Z.leb_spec c n); try lia; try reflexivity. f_equal; lia. }
  intros A3 AA3. apply wp_bind. apply wp_for_up with (P := fun i m => arr2 m tot 3 (fun r c => if r <? i then fS r c else 0%R)); [lia| | |].
  { apply (arr2_ext _ _ _ _ _ AB0). intros r c Hr Hc. destruct (Z.ltb_spec r 0); [lia|reflexivity]. }
  { intros i B1 Hi AB1. apply wp_for_up with (P := fun j m => arr2 m tot 3 (fun r c => if (r <? i) || ((r =? i) && (c <? j)) then fS r c else 0%R)); [lia| | |].
    - apply (arr2_ext _ _ _ _ _ AB1). intros r c Hr Hc. destruct (Z.ltb_spec c 0); [lia|]. rewrite andb_false_r, orb_false_r. reflexivity.
    - intros j B2 Hj AB2. rewrite (arr2_get _ _ _ _ i j HS) by lia. cbn [bind]. apply (arr2_upd _ _ _ _ _ _ _ _ AB2); [unfold tot; lia|lia|]. intros B3 AB3. apply (arr2_ext _ _ _ _ _ AB3). intros r c Hr Hc. cbv beta.
      destruct (Z.eqb_spec r i), (Z.eqb_spec c j), (Z.ltb_spec r i), (Z.ltb_spec c j), (Z.ltb_spec c (j + 1)); cbn [andb orb]; subst; try lia; reflexivity.
    - intros B2 AB2. apply (arr2_ext _ _ _ _ _ AB2). intros r c Hr Hc. destruct (Z.eqb_spec r i), (Z.ltb_spec r i), (Z.ltb_spec c 3), (Z.ltb_spec r (i + 1)); cbn [andb orb]; try lia; reflexivity. }
  intros B1 AB1. apply wp_bind. apply wp_for_up with (P := fun i m => is_mat m tot 3 (fun r c => if r <=? n then fS r c else if r <? n + 1 + i then cof (t (r - (n + 1))) c else 0%R)); [lia| | |].
  { apply (arr2_ext _ _ _ _ _ AB1). intros r c Hr Hc. destruct (Z.ltb_spec r (n + 1)), (Z.leb_spec r n), (Z.ltb_spec r (n + 1 + 0)); try lia; reflexivity. }
  { intros i B2 Hi AB2. wget HT. destruct AB2 as [L2 R2].
    assert (AB2' : arr B2 tot (at_ nil B2)) by (rewrite <- L2; apply arr_at).
    apply (arr_upd _ _ _ _ _ _ AB2'); [unfold tot; lia|]. intros B3 [L3 R3]. split; [exact L3|]. intros r Hr. rewrite R3 by exact Hr. destruct (Z.eqb_spec r (n + 1 + i)) as [->|Ne].
    - eexists. split; [reflexivity|]. split; [reflexivity|]. intros c Hc. destruct (Z.leb_spec (n + 1 + i) n); [lia|]. destruct (Z.ltb_spec (n + 1 + i) (n + 1 + (i + 1))); [|lia]. replace (n + 1 + i - (n + 1)) with i by lia. assert (c = 0 \/ c = 1 \/ c = 2) as [-> | [-> | ->]] by lia; reflexivity.
    - destruct (R2 r Hr) as (row & E & (Lr & Hrow)). rewrite (get_at nil) in E by (rewrite L2; exact Hr). injection E as ->. eexists. split; [reflexivity|]. split; [exact Lr|]. intros c Hc. rewrite Hrow by exact Hc. destruct (Z.leb_spec r n); [reflexivity|]. destruct (Z.ltb_spec r (n + 1 + i)), (Z.ltb_spec r (n + 1 + (i + 1))); try lia; reflexivity. }
  intros B2 AB2. apply wp_ok. cbn [fst snd]. split.
  - apply (arr2_ext _ _ _ _ _ AA3). intros r c Hr Hc. destruct (Z.ltb_spec r (n + 1 + mc)); [reflexivity|unfold tot in Hr; lia].
  - apply (arr2_ext _ _ _ _ _ AB2). intros r c Hr Hc. destruct (Z.leb_spec r n); [reflexivity|]. destruct (Z.ltb_spec r (n + 1 + mc)); [reflexivity|unfold tot in Hr; lia].
Qed.
End Sys.
