(* Forms for the property file: curvature, editing, flattening and bending. *)
From Coq Require Import ZArith List Bool Reals Lra Lia.
From Verif Require Import Base Num Vec Tac Spec Spec2 Spec3 Spec4 Spec5 Spec10 M_MathUtils M_Polynomials M_XYZ M_Bspline M_NurbsCurve M_Geom M_Shape
  P_MathUtils P_Span P_Cox P_Basis P_Deriv P_Vec P_XYZ P_VSum P_Curve P_Bspline P_Matrix P_Loop P_Geom P_Nurbs P_Conic P_Insert P_Shape P_Shape2 P_Shape3.
Import ListNotations.
Open Scope Z_scope.

(* the first active basis function vanishes only at the end of its span *)
Lemma NS_first_pos U k t : forall p, 0 <= p -> good U k p -> (t < U (k + 1)%Z)%R -> (0 < NS U k p (k - p) t)%R.
Proof.
  apply (Zrange_ind 0 (fun p => good U k p -> (t < U (k + 1)%Z)%R -> (0 < NS U k p (k - p) t)%R)).
  - intros _ _. rewrite NS_0. destruct (Z.eqb_spec (k - 0) k); [lra|lia].
  - intros p Hp IH Hg Ht. rewrite NS_succ by lia. rewrite (NS_out U k (p + 1 - 1) (k - (p + 1))) by lia. replace (k - (p + 1) + (p + 1) + 1) with (k + 1) by lia. replace (p + 1 - 1) with p by lia. replace (k - (p + 1) + 1) with (k - p) by lia.
    pose proof (good_den U k (p + 1) (k - p) (k + 1) Hg ltac:(lia) ltac:(lia) ltac:(lia) ltac:(lia)) as D. rewrite (sdiv_ok (U (k + 1)%Z - t)) by lra. rewrite Rmult_0_r, Rplus_0_l. apply Rmult_lt_0_compat; [apply Rdiv_lt_0_compat; lra|].
    apply IH; [apply (good_le U k (p + 1)); [exact Hg|lia]|exact Ht].
Qed.
Lemma NS_first_zero U k p t : 0 < p -> good U k p -> t = U (k + 1)%Z -> NS U k p (k - p) t = 0%R.
Proof.
  intros Hp Hg Ht. rewrite NS_succ by lia. rewrite (NS_out U k (p - 1) (k - p)) by lia. replace (k - p + p + 1) with (k + 1) by lia.
  pose proof (good_den U k p (k - p + 1) (k + 1) Hg ltac:(lia) ltac:(lia) ltac:(lia) ltac:(lia)) as D. rewrite (sdiv_ok (U (k + 1)%Z - t)) by lra. rewrite Ht. field. lra.
Qed.

Section Edit2.
Variables (p n : Z) (U : list R) (H : list (XYZW R)).
Hypothesis HU : curve_knots p n U.
Hypothesis Hp : p <= 7.
Hypothesis HH : len H = n + 1.
Hypothesis Hw : heavy H.
Let c := mkCurve p U H.
Notation B i t := (N (val U) (val U (n + 1)) (Z.to_nat p) i t).

Lemma B_span t k : span_of p n U t k -> B (k - p) t = NS (val U) k p (k - p) t.
Proof. intros Hk. pose proof Hk as (Hk1 & _). pose proof (ck_p _ _ _ HU). apply (NB_span p n U t k p (k - p) HU Hk); lia. Qed.
Lemma B_pos t k : span_of p n U t k -> (t < val U (k + 1))%R -> (0 < B (k - p) t)%R.
Proof. intros Hk Ht. rewrite (B_span t k Hk). apply NS_first_pos; [apply (ck_p _ _ _ HU)|apply (span_of_good _ _ _ _ _ HU Hk)|exact Ht]. Qed.
Lemma B_end : 1 <= p -> span_of p n U (val U (n + 1)) n /\ B (n - p) (val U (n + 1)) = 0%R.
Proof.
  intros Hp1. pose proof HU as [Hp0 Hn Hl Hs _ HL]. pose proof (tol_pos (val U n) (val U (n + 1))).
  assert (Hk : span_of p n U (val U (n + 1)) n) by (split; [lia|]; split; [lra|]; split; [lra|]; right; auto). split; [exact Hk|].
  rewrite (B_span _ n Hk). apply NS_first_zero; [lia|apply (span_of_good _ _ _ _ _ HU Hk)|reflexivity].
Qed.

Lemma share_equal w m t : (forall i, 0 <= i <= n -> ww (pt H i) = w) -> 0 <= m <= n -> in_domain p n U t -> share p n U H m t = B m t.
Proof.
  intros Ew Hm Ht. unfold share. assert (W : ww (curve_point p n U H t) = w).
  { change (co 3 (comb 0 (n + 1) (fun i => B i t) (pt H)) = w). rewrite co_comb. rewrite (rsum_ext _ _ _ (fun i => w * B i t)%R).
    - rewrite rsum_scal, (N_sum p n U t HU Ht). ring.
    - intros i Hi. change (co 3 (pt H i)) with (ww (pt H i)). rewrite Ew by lia. ring. }
  pose proof (wpos p n U H HU HH Hw t Ht) as WP. rewrite W in *. rewrite Ew by exact Hm. field. lra.
Qed.

Lemma Reposition_general t k m v d : span_of p n U t k -> (t < val U (k + 1))%R -> 0 <= m <= n -> (1 / 10 ^ 12 < dot3 v v)%R -> ~ small d ->
  exists H' u, ControlPointReposition c t m v d = Ok (Some (mkCurve p U H')) /\ direction_of v u /\
    proj (curve_point p n U H' t) = plus3 (proj (curve_point p n U H t)) (times3 (d * (share p n U H m t / B (k - p) t)) u).
Proof. intros Hk Ht Hm Hv Hd. apply Reposition_moves; auto. apply B_pos; assumption. Qed.

Lemma Reposition_equal w t k v d : (forall i, 0 <= i <= n -> ww (pt H i) = w) -> span_of p n U t k -> (t < val U (k + 1))%R -> (1 / 10 ^ 12 < dot3 v v)%R -> ~ small d ->
  exists H' u, ControlPointReposition c t (k - p) v d = Ok (Some (mkCurve p U H')) /\ direction_of v u /\
    proj (curve_point p n U H' t) = plus3 (proj (curve_point p n U H t)) (times3 d u).
Proof.
  intros Ew Hk Ht Hv Hd. pose proof Hk as (Hk1 & _). pose proof (ck_p _ _ _ HU) as Hp0. assert (Hm : 0 <= k - p <= n) by lia. destruct (Reposition_general t k (k - p) v d Hk Ht Hm Hv Hd) as (H' & u & E & Du & M). exists H', u. split; [exact E|]. split; [exact Du|].
  rewrite M. f_equal. f_equal. rewrite (share_equal w (k - p) t Ew Hm (span_of_dom _ _ _ _ _ HU Hk)). pose proof (B_pos t k Hk Ht). field. lra.
Qed.

Lemma Reposition_end m v d : 1 <= p -> 0 <= m <= n -> (1 / 10 ^ 12 < dot3 v v)%R -> ~ small d -> ControlPointReposition c (val U (n + 1)) m v d = NonFin.
Proof. intros Hp1 Hm Hv Hd. destruct (B_end Hp1) as [Hk Hb]. apply (Reposition_zero p n U H HU Hp HH Hw _ n); auto. Qed.

Lemma Weight_equal w t k d : (forall i, 0 <= i <= n -> ww (pt H i) = w) -> span_of p n U t k -> (t < val U (k + 1))%R -> ~ small d ->
  let P := proj (curve_point p n U H t) in let Q := proj (pt H (k - p)) in P <> Q -> dist3 P Q <> d ->
  exists H' : list (XYZW R), WeightModification c t (k - p) d = Ok (mkCurve p U H') /\ ww (curve_point p n U H' t) <> 0%R /\ proj (curve_point p n U H' t) = plus3 P (times3 (d / dist3 P Q) (minus3 Q P)).
Proof.
  intros Ew Hk Ht Hd. pose proof Hk as (Hk1 & _). apply (Weight_moves p n U H HU Hp HH Hw t k (k - p) d); auto; [pose proof (ck_p _ _ _ HU); lia|apply B_pos; assumption|].
  apply (share_equal w); [exact Ew|pose proof (ck_p _ _ _ HU); lia|apply (span_of_dom _ _ _ _ _ HU Hk)].
Qed.

Lemma Weight_end m d : 1 <= p -> 0 <= m <= n -> ~ small d -> WeightModification c (val U (n + 1)) m d = NonFin.
Proof. intros Hp1 Hm Hd. destruct (B_end Hp1) as [Hk Hb]. apply (Weight_zero p n U H HU Hp HH Hw _ n); auto. Qed.

Lemma Curvature_arclength t : in_domain p n U t -> exists g, curve_derivs p n U H 2 t g /\
  (norm3 (g 1) = 1%R -> dot3 (g 1) (g 2) = 0%R -> Curvature c t = Ok (norm3 (cross3 (g 1%Z) (g 2%Z)) / norm3 (g 1%Z) ^ 3)%R).
Proof.
  intros Ht. assert (Hnz : ww (curve_point p n U H t) <> 0%R) by (pose proof (wpos p n U H HU HH Hw t Ht); lra).
  destruct (Curvature_ok p n U H t HU Hp HH Ht Hnz) as (g & Hg & _ & _ & K). exists g. split; [exact Hg|]. intros N1 D. unfold c. rewrite K.
  - f_equal. rewrite N1. unfold norm3 at 2. rewrite lagrange, D. assert (N2 : dot3 (g 1) (g 1) = 1%R) by (rewrite <- norm_sq, N1; ring). rewrite N2. unfold norm3. replace (1 * dot3 (g 2%Z) (g 2%Z) - 0 * 0)%R with (dot3 (g 2%Z) (g 2%Z)) by ring. field.
  - rewrite N1. unfold close. rewrite Rminus_diag_eq, Rabs_R0 by reflexivity. apply Rlt_le, tol_pos.
Qed.

(* when every selected control point projects into the segment, the middle spans become straight *)
Lemma Flattening_flat a b t0 t1 k0 k1 : ~ Spec3.near a b -> ~ small (dot3 (minus3 b a) (minus3 b a)) -> span_of p n U t0 k0 -> span_of p n U t1 k1 -> (t0 + tol t0 t1 < t1)%R ->
  p + 1 <= k1 - p - k0 ->
  (forall i s, k0 <= i < k1 - p -> dot3 (minus3 (proj (pt H i)) (line_at a (minus3 b a) s)) (minus3 b a) = 0%R -> (0 <= s <= 1)%R) ->
  exists H', Flattening c a b t0 t1 = Ok (mkCurve p U H', true) /\ len H' = n + 1 /\
    forall t k, span_of p n U t k -> k0 + p <= k < k1 - p -> exists s, proj (curve_point p n U H' t) = line_at a (minus3 b a) s.
Proof.
  intros Hab Hs H0 H1 Ht Hlen Hin. destruct (Flattening_ok p n U H HU HH Hw a b t0 t1 k0 k1 Hab Hs H0 H1 Ht) as (H' & r & E & L & Hsel & Hrest & _ & Hr).
  assert (In2 : forall i s, k0 <= i < k1 - p -> dot3 (minus3 (proj (pt H i)) (line_at a (minus3 b a) s)) (minus3 b a) = 0%R -> (- tol s 0 <= s <= 1 + tol s 1)%R).
  { intros i s Hi Hd. pose proof (Hin i s Hi Hd). pose proof (tol_pos s 0). pose proof (tol_pos s 1). lra. }
  rewrite (Hr In2 Hlen) in E. exists H'. split; [exact E|]. split; [exact L|]. intros t k Hk Hkr. pose proof Hk as (Hkn & _).
  set (v := minus3 b a) in *. assert (Dv : dot3 v v <> 0%R) by (intros X; apply Hs; rewrite X; apply small_0).
  apply (straight p n U H HU HH Hw H' a v (fun i => dot3 (minus3 (proj (pt H i)) a) v / dot3 v v)%R t k Hk); [|exact L].
  intros i Hi. destruct (Hsel i ltac:(lia) ltac:(lia)) as (s & Hd & Hc). cbv zeta in Hd, Hc.
  assert (Es : s = (dot3 (minus3 (proj (pt H i)) a) v / dot3 v v)%R).
  { apply (Rmult_eq_reg_r (dot3 v v)); [|exact Dv]. transitivity (dot3 (minus3 (proj (pt H i)) a) v); [|field; exact Dv].
    clearbody v. revert Hd. generalize (proj (pt H i)). clear. intros x Hd. destruct x as [x1 x2 x3], a as [a1 a2 a3], v as [v1 v2 v3]. unfold line_at, dot3, minus3, plus3, times3 in *. cbn [gx gy gz] in *. lra. }
  rewrite <- Es. destruct Hc as [[_ Hc]|[Hc _]]; [exact Hc|]. exfalso. pose proof (Hin i s ltac:(lia) Hd) as Q. pose proof (tol_pos s 0). pose proof (tol_pos s 1). lra.
Qed.

(* with cross ratio 1 the selected control points come to lie on the sphere about the bend centre *)
Lemma Bending_circle o r t0 t1 k0 k1 : span_of p n U t0 k0 -> span_of p n U t1 k1 -> (t0 + tol t0 t1 < t1)%R -> (0 <= r)%R ->
  (forall i, k0 <= i < k1 - p -> proj (pt H i) <> o) ->
  exists H', Bending c t0 t1 o r 1%R = Ok (mkCurve p U H') /\ len H' = n + 1 /\
    (forall i, 0 <= i <= n -> k0 <= i < k1 - p -> dist3 o (proj (pt H' i)) = r /\ exists s, (0 <= s)%R /\ pt H' i = hom (line_at o (minus3 (proj (pt H i)) o) s) (ww (pt H i))) /\
    (forall i, 0 <= i <= n -> ~ k0 <= i < k1 - p -> pt H' i = pt H i).
Proof.
  intros H0 H1 Ht Hr Hne.
  assert (DP : forall i, k0 <= i < k1 - p -> (0 < dist3 o (proj (pt H i)))%R).
  { intros i Hi. rewrite dist_sym. unfold dist3. apply norm_pos. intros X. apply (Hne i Hi). pose proof (f_equal (@gx R) X) as X1. pose proof (f_equal (@gy R) X) as X2. pose proof (f_equal (@gz R) X) as X3.
    unfold minus3, zero3 in X1, X2, X3. cbn [gx gy gz] in X1, X2, X3. apply P_XYZ.xyz_eq; lra. }
  destruct (Bending_ok p n U H HU HH Hw o r 1%R t0 t1 k0 k1 H0 H1 Ht Hr) as (H' & E & L & Hsel & Hrest).
  { intros i Hi. cbv zeta. pose proof (DP i Hi). split; [assumption|]. replace (1 - 1)%R with 0%R by ring. lra. }
  exists H'. split; [exact E|]. split; [exact L|]. split; [|exact Hrest]. intros i Hi Hi2. pose proof (DP i Hi2) as D. specialize (Hsel i Hi Hi2). cbv zeta in Hsel.
  replace (1 * r / (dist3 o (proj (pt H i)) + (1 - 1) * r))%R with (r / dist3 o (proj (pt H i)))%R in Hsel by (field; lra).
  split; [|exists (r / dist3 o (proj (pt H i)))%R; split; [apply Rmult_le_pos; [exact Hr|apply Rlt_le, Rinv_0_lt_compat, D]|exact Hsel]].
  rewrite Hsel. assert (Wn : ww (pt H i) <> 0%R) by (apply (wnz n H HH Hw); exact Hi).
  set (x := proj (pt H i)) in *. set (d := dist3 o x) in *.
  assert (EP : proj (hom (line_at o (minus3 x o) (r / d)) (ww (pt H i))) = line_at o (minus3 x o) (r / d)%R).
  { generalize (line_at o (minus3 x o) (r / d)%R). intros [y1 y2 y3]. unfold proj, hom. cbn [wx wy wz ww gx gy gz]. apply xyz_eq; field; exact Wn. }
  rewrite EP. unfold dist3, norm3. apply Rsqr_inj; [apply sqrt_pos|exact Hr|]. unfold Rsqr. rewrite sqrt_sqrt by apply dot_pos.
  transitivity ((r / d) * (r / d) * dot3 (minus3 x o) (minus3 x o))%R.
  - clearbody x d. clear. destruct x as [x1 x2 x3], o as [o1 o2 o3]. unfold line_at, dot3, minus3, plus3, times3. cbn [gx gy gz]. ring.
  - rewrite <- norm_sq. change (norm3 (minus3 x o)) with (dist3 x o). rewrite dist_sym. fold d. field. lra.
Qed.
End Edit2.
