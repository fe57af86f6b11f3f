(* Rational surfaces: points, convex hull, partial derivatives. *)
From Coq Require Import ZArith List Bool Reals Lra Lia.
From Verif Require Import Base Num Vec Tac Spec Spec2 Spec8 M_MathUtils M_Polynomials M_XYZ M_Bspline M_NurbsCurve M_Surface
  P_MathUtils P_Bern P_Span P_Cox P_Basis P_Deriv P_Vec P_XYZ P_VSum P_Curve P_Bspline P_BsplineS P_Blossom P_Insert P_Loop P_Nurbs.
Import ListNotations.
Open Scope Z_scope.

(* ---------------- points ---------------- *)

Section Pts.
Variables (p n : Z) (U : list R) (q m : Z) (Vk : list R).
Hypotheses (HU : curve_knots p n U) (HV : curve_knots q m Vk) (Hp7 : p <= 7) (Hq7 : q <= 7).
Variables (P : list (list (XYZ R))) (W : list (list R)) (H : list (list (XYZW R))).
Hypothesis HW : weighted_net (n + 1) (m + 1) P W H.

Let NU (i : Z) (u : R) := N (val U) (val U (n + 1)) (Z.to_nat p) i u.
Let NV (j : Z) (v : R) := N (val Vk) (val Vk (m + 1)) (Z.to_nat q) j v.

Lemma co_surface c u v : co c (surface_point p n U q m Vk H u v) =
  rsum 0 (n + 1) (fun i => rsum 0 (m + 1) (fun j => NU i u * NV j v * co c (pt2 H i j)))%R.
Proof.
  unfold surface_point. rewrite co_comb. apply rsum_ext. intros i Hi. rewrite co_comb, <- rsum_scal.
  apply rsum_ext. intros j Hj. unfold NU, NV. ring.
Qed.

Lemma ww_surface u v : ww (surface_point p n U q m Vk H u v) = surface_weight p n U q m Vk W u v.
Proof.
  change (ww (surface_point p n U q m Vk H u v)) with (co 3 (surface_point p n U q m Vk H u v)). rewrite co_surface.
  unfold surface_weight. apply rsum_ext. intros i Hi. apply rsum_ext. intros j Hj. destruct HW as (_ & _ & E). rewrite E by lia. reflexivity.
Qed.

Lemma NN_sum u v : in_domain p n U u -> in_domain q m Vk v -> rsum 0 (n + 1) (fun i => rsum 0 (m + 1) (fun j => NU i u * NV j v))%R = 1%R.
Proof.
  intros Du Dv. rewrite (rsum_ext 0 (n + 1) _ (fun i => NU i u * 1)%R).
  - rewrite rsum_scal_r. unfold NU. rewrite (N_sum p n) by auto. ring.
  - intros i Hi. rewrite rsum_scal. unfold NV. rewrite (N_sum q m) by auto. reflexivity.
Qed.

Lemma NN_nonneg u v i j : in_domain p n U u -> in_domain q m Vk v -> 0 <= i <= n -> 0 <= j <= m -> (0 <= NU i u * NV j v)%R.
Proof. intros Du Dv Hi Hj. apply Rmult_le_pos; [apply N_nonneg|apply N_nonneg]; auto. Qed.

Lemma surface_weight_gt u v c : in_domain p n U u -> in_domain q m Vk v ->
  (forall i j, 0 <= i <= n -> 0 <= j <= m -> (c < val2 W i j)%R) -> (c < surface_weight p n U q m Vk W u v)%R.
Proof.
  intros Du Dv Hc. unfold surface_weight.
  rewrite (rsum_ext 0 (n + 1) _ (fun i => N (val U) (val U (n + 1)) (Z.to_nat p) i u * rsum 0 (m + 1) (fun j => N (val Vk) (val Vk (m + 1)) (Z.to_nat q) j v * val2 W i j))%R).
  - apply rsum_gt; [apply N_sum; auto|intros i Hi; apply N_nonneg; auto; lia|]. intros i Hi _.
    apply rsum_gt; [apply N_sum; auto|intros j Hj; apply N_nonneg; auto; lia|]. intros j Hj _. apply Hc; lia.
  - intros i Hi. rewrite <- rsum_scal. apply rsum_ext. intros; ring.
Qed.

Definition heavy_net : Prop := forall i j, 0 <= i <= n -> 0 <= j <= m -> (tol (val2 W i j) 0 < val2 W i j)%R.

Lemma surface_heavy u v : in_domain p n U u -> in_domain q m Vk v -> heavy_net ->
  (tol (surface_weight p n U q m Vk W u v) 0 < surface_weight p n U q m Vk W u v)%R.
Proof. intros Du Dv Hh. apply heavy_iff. apply surface_weight_gt; auto. intros i j Hi Hj. apply heavy_iff, Hh; auto. Qed.

Lemma Surface_point u v : in_domain p n U u -> in_domain q m Vk v -> heavy_net ->
  NurbsSurfacePoint (mkSurface p q U Vk H) u v = Ok (rational_surface_point p n U q m Vk P W u v).
Proof.
  intros Du Dv Hh. pose proof HW as (HP & HH & E). unfold NurbsSurfacePoint. rewrite (GetPointOnSurface_ok p n U q m) by auto. cbn [bind].
  pose proof (surface_heavy u v Du Dv Hh) as Hw. rewrite ToXYZ_div by (rewrite ww_surface; apply heavy_aeq; exact Hw).
  f_equal. rewrite ww_surface. set (ws := surface_weight p n U q m Vk W u v) in *.
  assert (ws <> 0)%R by (pose proof (tol_pos ws 0); lra).
  assert (G : forall c, (c < 3)%nat -> (co c (surface_point p n U q m Vk H u v) / ws)%R = co c (rational_surface_point p n U q m Vk P W u v)).
  { intros c Hc. rewrite co_surface. unfold rational_surface_point. rewrite co_vsum. unfold Rdiv. rewrite <- rsum_scal_r. apply rsum_ext. intros i Hi.
    rewrite co_comb, <- rsum_scal_r. apply rsum_ext. intros j Hj. rewrite E by lia. unfold NU, NV, ws, Rdiv.
    destruct c as [|[|[|c]]]; try lia; cbn [co VecL_XYZ VecL_XYZW co_xyz co_xyzw hom wx wy wz ww]; ring. }
  apply (co_ext (VecL := VecL_XYZ)). intros c. destruct c as [|[|c]].
  - exact (G 0%nat ltac:(lia)).
  - exact (G 1%nat ltac:(lia)).
  - exact (G 2%nat ltac:(lia)).
Qed.

(* every half-space containing the control points contains the surface point *)
Lemma aff_vsum (f : XYZ R -> R) : affine f -> forall lo hi F, f (vsum lo hi F) = (f vzero + rsum lo hi (fun i => f (F i) - f vzero))%R.
Proof.
  intros Hf. intros lo hi F.
  assert (G : forall (a : R) x, f (vscale a x) = (a * f x + (1 - a) * f vzero)%R).
  { intros a x. transitivity (f (vadd (vscale a x) (vscale (1 - a)%R vzero))); [f_equal; vring|]. etransitivity; [exact (Hf a (1 - a)%R x vzero ltac:(ring))|]. cbn [vadd vscale Vec_scalar]. num. ring. }
  assert (S : forall x y, f (vadd x y) = (f x + f y - f vzero)%R).
  { intros x y. replace (vadd x y) with (vadd (vscale (1/2)%R (vscale 2%R x)) (vscale (1/2)%R (vscale 2%R y))) by (vec; field).
    etransitivity; [exact (Hf (1/2)%R (1/2)%R (vscale 2%R x) (vscale 2%R y) ltac:(field))|]. rewrite !G. cbn [vadd vscale Vec_scalar]. num. field. }
  destruct (Z.le_gt_cases lo hi) as [Hl|Hl].
  - revert hi Hl. apply Zrange_ind.
    + rewrite vsum_nil, rsum_nil by lia. ring.
    + intros h Hh IH. rewrite vsum_last, rsum_last by lia. rewrite S, IH. ring.
  - rewrite vsum_nil, rsum_nil by lia. ring.
Qed.

Lemma aff_scale (f : XYZ R -> R) : affine f -> forall (a : R) x, f (vscale a x) = (a * f x + (1 - a) * f vzero)%R.
Proof. intros Hf a x. transitivity (f (vadd (vscale a x) (vscale (1 - a)%R vzero))); [f_equal; vring|]. etransitivity; [exact (Hf a (1 - a)%R x vzero ltac:(ring))|]. cbn [vadd vscale Vec_scalar]. num. ring. Qed.

Lemma Surface_hull u v f c : in_domain p n U u -> in_domain q m Vk v -> heavy_net -> affine f ->
  (forall i j, 0 <= i <= n -> 0 <= j <= m -> (c <= f (pt2 P i j))%R) ->
  (c <= f (rational_surface_point p n U q m Vk P W u v))%R.
Proof.
  intros Du Dv Hh Hf Hc. pose proof (surface_heavy u v Du Dv Hh) as Hw. set (ws := surface_weight p n U q m Vk W u v) in *.
  assert (Hw0 : (0 < ws)%R) by (pose proof (tol_pos ws 0); lra).
  unfold rational_surface_point. fold ws. rewrite (aff_vsum f Hf).
  set (w := fun i j => (NU i u * NV j v * val2 W i j / ws)%R).
  assert (Es : rsum 0 (n + 1) (fun i => rsum 0 (m + 1) (fun j => w i j)) = 1%R).
  { unfold w. rewrite (rsum_ext 0 (n + 1) _ (fun i => rsum 0 (m + 1) (fun j => NU i u * NV j v * val2 W i j) * / ws)%R).
    - rewrite rsum_scal_r. change (ws * / ws = 1)%R. field. lra.
    - intros i Hi. rewrite <- rsum_scal_r. apply rsum_ext. reflexivity. }
  replace c with (f vzero + rsum 0 (n + 1) (fun i => rsum 0 (m + 1) (fun j => w i j * (c - f vzero))))%R.
  2:{ rewrite (rsum_ext 0 (n + 1) _ (fun i => rsum 0 (m + 1) (fun j => w i j) * (c - f vzero))%R) by (intros; apply rsum_scal_r).
      rewrite rsum_scal_r, Es. ring. }
  apply Rplus_le_compat_l. apply rsum_le. intros i Hi. unfold comb. rewrite (aff_vsum f Hf).
  ring_simplify (f vzero + rsum 0 (m + 1) (fun i0 => f (vscale (N (val U) (val U (n + 1)) (Z.to_nat p) i u * N (val Vk) (val Vk (m + 1)) (Z.to_nat q) i0 v * val2 W i i0 / ws) (pt2 P i i0)) - f vzero) - f vzero)%R.
  apply rsum_le. intros j Hj. rewrite (aff_scale f Hf).
  change (N (val U) (val U (n + 1)) (Z.to_nat p) i u * N (val Vk) (val Vk (m + 1)) (Z.to_nat q) j v * val2 W i j / ws)%R with (w i j).
  replace (w i j * f (pt2 P i j) + (1 - w i j) * f vzero - f vzero)%R with (w i j * (f (pt2 P i j) - f vzero))%R by ring.
  apply Rmult_le_compat_l.
  - unfold w. pose proof (NN_nonneg u v i j Du Dv ltac:(lia) ltac:(lia)). pose proof (Hh i j ltac:(lia) ltac:(lia)). pose proof (tol_pos (val2 W i j) 0).
    apply Rmult_le_pos; [apply Rmult_le_pos; lra|]. left. apply Rinv_0_lt_compat. exact Hw0.
  - pose proof (Hc i j ltac:(lia) ltac:(lia)). lra.
Qed.

Lemma Surface_in_box u v lo hi : in_domain p n U u -> in_domain q m Vk v -> heavy_net ->
  (forall i j, 0 <= i <= n -> 0 <= j <= m -> in_box lo hi (pt2 P i j)) ->
  in_box lo hi (rational_surface_point p n U q m Vk P W u v).
Proof.
  intros Du Dv Hh Hb.
  assert (A1 : forall g : XYZ R -> R, affine g -> affine (fun x => (- g x)%R)).
  { intros g Hg a b x y Hab. cbv beta. rewrite (Hg a b x y Hab). cbn [vadd vscale Vec_scalar]. num. ring. }
  assert (AX : affine (gx (A := R))) by (intros a b x y _; cbn; ring).
  assert (AY : affine (gy (A := R))) by (intros a b x y _; cbn; ring).
  assert (AZ : affine (gz (A := R))) by (intros a b x y _; cbn; ring).
  set (X := rational_surface_point p n U q m Vk P W u v).
  assert (G : forall g, affine g -> forall c, (forall i j, 0 <= i <= n -> 0 <= j <= m -> (c <= g (pt2 P i j))%R) -> (c <= g X)%R).
  { intros g Hg c Hc. apply Surface_hull; auto. }
  assert (G' : forall g, affine g -> forall c, (forall i j, 0 <= i <= n -> 0 <= j <= m -> (g (pt2 P i j) <= c)%R) -> (g X <= c)%R).
  { intros g Hg c Hc. assert (- c <= - g X)%R; [|lra]. apply (G (fun x => (- g x)%R)); [auto|]. intros i j Hi Hj. specialize (Hc i j Hi Hj). lra. }
  repeat split; first [apply G|apply G']; auto; intros i j Hi Hj; destruct (Hb i j Hi Hj) as (? & ? & ?); lra.
Qed.

End Pts.

(* ---------------- partial derivatives of a quotient ---------------- *)

Lemma pascal_full k (W G : Z -> R) : 0 <= k ->
  (rsum 0 (k + 2) (fun i => Cb (k + 1) i * W i * G (k + 1 - i)%Z) =
   rsum 0 (k + 1) (fun i => Cb k i * (W (i + 1)%Z * G (k - i)%Z + W i * G (k + 1 - i)%Z)))%R.
Proof.
  intros Hk. rewrite (rsum_split 0 1 (k + 2)) by lia. rewrite (pascal_sum k W G Hk).
  rewrite (rsum_split 0 1 (k + 1)) by lia. rewrite !(rsum_last' 0 1), !(rsum_nil 0) by lia. change (1 - 1) with 0.
  rewrite !Cb_0 by lia. change (0 + 1) with 1. rewrite !Z.sub_0_r. ring.
Qed.

Section Quotient2.
Variables (a w : Z -> Z -> R -> R -> R).

(* what is left of a_{k,l} after removing the terms with j >= 1, from a table of the columns below l *)
Definition brest (tb : Z -> Z -> R -> R) (y : R) (l k : Z) (x : R) : R :=
  (a k l x y - rsum 1 (l + 1) (fun j => Cb l j * rsum 0 (k + 1) (fun i => Cb k i * w i j x y * tb (l - j)%Z (k - i)%Z x)))%R.

Fixpoint ptab (n : nat) (y : R) : Z -> Z -> R -> R := fun l k x =>
  match n with
  | O => 0%R
  | S n' => if l =? Z.of_nat n' then quo (brest (ptab n' y) y l) (fun i x => w i 0 x y) k x else ptab n' y l k x
  end.
Definition pquo (k l : Z) (x y : R) : R := ptab (Z.to_nat l + 1) y l k x.

Lemma ptab_pquo n k l x y : 0 <= l < Z.of_nat n -> ptab n y l k x = pquo k l x y.
Proof.
  intros Hl. induction n as [|n IH]; [lia|]. destruct (Z.eq_dec l (Z.of_nat n)) as [->|E].
  - unfold pquo. replace (Z.to_nat (Z.of_nat n) + 1)%nat with (S n) by lia. reflexivity.
  - cbn [ptab]. replace (l =? Z.of_nat n) with false by (symmetry; apply Z.eqb_neq; lia). apply IH. lia.
Qed.

Definition bre (l k : Z) (x y : R) : R :=
  (a k l x y - rsum 1 (l + 1) (fun j => Cb l j * rsum 0 (k + 1) (fun i => Cb k i * w i j x y * pquo (k - i)%Z (l - j)%Z x y)))%R.

Lemma quo_ext' a' w' a'' w'' n : (forall k t, 0 <= k -> a' k t = a'' k t) -> (forall k t, 0 <= k -> w' k t = w'' k t) ->
  forall k t, 0 <= k < Z.of_nat n -> quo a' w' k t = quo a'' w'' k t.
Proof.
  intros Ea Ew. induction n as [|n IH]; intros k t Hk; [lia|]. rewrite !quo_eq by lia. rewrite Ea, (Ew 0) by lia. f_equal. f_equal.
  apply rsum_ext. intros i Hi. rewrite Ew by lia. rewrite IH by lia. reflexivity.
Qed.

Lemma quo_ext a' w' a'' w'' k t : (forall k t, 0 <= k -> a' k t = a'' k t) -> (forall k t, 0 <= k -> w' k t = w'' k t) -> 0 <= k ->
  quo a' w' k t = quo a'' w'' k t.
Proof. intros Ea Ew Hk. apply (quo_ext' a' w' a'' w'' (S (Z.to_nat k))); auto. lia. Qed.

Lemma pquo_col k l x y : 0 <= k -> 0 <= l -> pquo k l x y = quo (fun k x => bre l k x y) (fun i x => w i 0 x y) k x.
Proof.
  intros Hk Hl. unfold pquo at 1. replace (Z.to_nat l + 1)%nat with (S (Z.to_nat l)) by lia. cbn [ptab].
  replace (l =? Z.of_nat (Z.to_nat l)) with true by (symmetry; apply Z.eqb_eq; lia).
  apply quo_ext; auto. intros k' t Hk'. unfold brest, bre. f_equal. apply rsum_ext. intros j Hj. f_equal. apply rsum_ext. intros i Hi.
  rewrite ptab_pquo by lia. reflexivity.
Qed.

(* the recurrence of the code *)
Lemma pquo_eq k l x y : 0 <= k -> 0 <= l -> pquo k l x y =
  ((a k l x y - rsum 1 (l + 1) (fun j => Cb l j * w 0 j x y * pquo k (l - j)%Z x y)
    - rsum 1 (k + 1) (fun i => Cb k i * w i 0 x y * pquo (k - i)%Z l x y
        + Cb k i * rsum 1 (l + 1) (fun j => Cb l j * w i j x y * pquo (k - i)%Z (l - j)%Z x y))) / w 0 0 x y)%R.
Proof.
  intros Hk Hl. rewrite pquo_col by auto. rewrite quo_eq by auto. f_equal. unfold bre.
  rewrite (rsum_ext 1 (l + 1) (fun j => Cb l j * rsum 0 (k + 1) (fun i => Cb k i * w i j x y * pquo (k - i)%Z (l - j)%Z x y))%R
    (fun j => Cb l j * w 0 j x y * pquo k (l - j)%Z x y + rsum 1 (k + 1) (fun i => Cb k i * (Cb l j * w i j x y * pquo (k - i)%Z (l - j)%Z x y)))%R).
  - rewrite rsum_plus. rewrite rsum_plus.
    rewrite (rsum_swap 1 (l + 1)). rewrite (rsum_ext 1 (k + 1) (fun i => Cb k i * rsum 1 (l + 1) _)%R (fun i => rsum 1 (l + 1) (fun j => Cb k i * (Cb l j * w i j x y * pquo (k - i)%Z (l - j)%Z x y)))%R).
    2:{ intros i Hi. symmetry. apply rsum_scal. }
    rewrite (rsum_ext 1 (k + 1) (fun i => Cb k i * w i 0 x y * quo _ _ (k - i)%Z x)%R (fun i => Cb k i * w i 0 x y * pquo (k - i)%Z l x y)%R).
    2:{ intros i Hi. rewrite pquo_col by lia. reflexivity. }
    ring.
  - intros j Hj. rewrite (rsum_split 0 1 (k + 1)) by lia. rewrite (rsum_last' 0 1), (rsum_nil 0) by lia. change (1 - 1) with 0.
    rewrite Cb_0, Z.sub_0_r by lia. rewrite Rmult_plus_distr_l. f_equal; [ring|]. rewrite <- rsum_scal. apply rsum_ext. intros; ring.
Qed.

Hypothesis Hax : forall k l x y, 0 <= k -> 0 <= l -> der (fun x => a k l x y) x (a (k + 1) l x y).
Hypothesis Hwx : forall k l x y, 0 <= k -> 0 <= l -> der (fun x => w k l x y) x (w (k + 1) l x y).
Hypothesis Hay : forall l x y, 0 <= l -> der (fun y => a 0 l x y) y (a 0 (l + 1) x y).
Hypothesis Hwy : forall l x y, 0 <= l -> der (fun y => w 0 l x y) y (w 0 (l + 1) x y).

Lemma pquo_der_x_aux n : forall l k x y, 0 <= l < Z.of_nat n -> 0 <= k -> w 0 0 x y <> 0%R ->
  der (fun x => pquo k l x y) x (pquo (k + 1) l x y).
Proof.
  induction n as [|n IH]; intros l k x y Hl Hk Hw; [lia|].
  apply der_ext with (quo (fun k x => bre l k x y) (fun i x => w i 0 x y) k).
  { intros t. symmetry. apply pquo_col; lia. }
  rewrite pquo_col by lia.
  apply (quo_der (fun k x => bre l k x y) (fun i x => w i 0 x y)); auto.
  2:{ intros i t Hi _. apply Hwx; lia. }
  clear k x Hk Hw. intros k x Hk Hw. unfold bre. apply der_minus; [apply Hax; lia|].
  apply (der_rsum 1 (l + 1) (fun j x => Cb l j * rsum 0 (k + 1) (fun i => Cb k i * w i j x y * pquo (k - i)%Z (l - j)%Z x y))%R). intros j Hj.
  apply (der_scal (Cb l j) (fun x => rsum 0 (k + 1) (fun i => Cb k i * w i j x y * pquo (k - i)%Z (l - j)%Z x y))%R).
  replace (k + 1 + 1) with (k + 2) by lia.
  rewrite (pascal_full k (fun i => w i j x y) (fun i => pquo i (l - j)%Z x y)) by lia.
  apply (der_rsum 0 (k + 1) (fun i x => Cb k i * w i j x y * pquo (k - i)%Z (l - j)%Z x y)%R). intros i Hi.
  apply der_ext with (fun x => (Cb k i * (w i j x y * pquo (k - i)%Z (l - j)%Z x y))%R); [intros; ring|].
  apply der_scal. apply (der_mult (fun x => w i j x y) (fun x => pquo (k - i)%Z (l - j)%Z x y)); [apply Hwx; lia|].
  replace (k + 1 - i) with (k - i + 1) by lia. apply IH; try lia. exact Hw.
Qed.

Lemma pquo_der_x k l x y : 0 <= l -> 0 <= k -> w 0 0 x y <> 0%R -> der (fun x => pquo k l x y) x (pquo (k + 1) l x y).
Proof. intros Hl Hk Hw. apply (pquo_der_x_aux (S (Z.to_nat l))); auto. lia. Qed.

Lemma pquo_row n : forall l x y, 0 <= l < Z.of_nat n -> pquo 0 l x y = quo (fun l y => a 0 l x y) (fun l y => w 0 l x y) l y.
Proof.
  induction n as [|n IH]; intros l x y Hl; [lia|]. rewrite pquo_eq, quo_eq by lia. f_equal.
  rewrite (rsum_nil 1 (0 + 1)) by lia. rewrite Rminus_0_r. f_equal. apply rsum_ext. intros j Hj. rewrite IH by lia. reflexivity.
Qed.

Lemma pquo_deriv_y l x : 0 <= l -> nth_deriv_on (fun y => w 0 0 x y <> 0%R) (Z.to_nat l) (fun y => (a 0 0 x y / w 0 0 x y)%R) (fun y => pquo 0 l x y).
Proof.
  intros Hl. pose proof (quo_nth_deriv (fun l y => a 0 l x y) (fun l y => w 0 l x y) (fun l y H _ => Hay l x y H) (fun l y H _ => Hwy l x y H) (Z.to_nat l)) as E.
  rewrite Z2Nat.id in E by lia.
  replace (fun y => pquo 0 l x y) with (quo (fun l y => a 0 l x y) (fun l y => w 0 l x y) l); [exact E|].
  apply FunctionalExtensionality.functional_extensionality. intros y. symmetry. apply (pquo_row (S (Z.to_nat l))). lia.
Qed.

Lemma pquo_deriv_x k l y : 0 <= l -> nth_deriv_on (fun x => w 0 0 x y <> 0%R) k (fun x => pquo 0 l x y) (fun x => pquo (Z.of_nat k) l x y).
Proof.
  intros Hl. enough (G : forall j, 0 <= j -> nth_deriv_on (fun x => w 0 0 x y <> 0%R) k (fun x => pquo j l x y) (fun x => pquo (j + Z.of_nat k) l x y)).
  { specialize (G 0 ltac:(lia)). exact G. }
  induction k as [|k IH]; intros j Hj; cbn [nth_deriv_on].
  - intros t _. f_equal. lia.
  - exists (fun x => pquo (j + 1) l x y). split; [intros t Ht; apply pquo_der_x; auto|].
    replace (j + Z.of_nat (S k)) with (j + 1 + Z.of_nat k) by lia. apply IH. lia.
Qed.

End Quotient2.

(* ---------------- the code's derivatives ---------------- *)

Lemma dpatch_der_x ku p U kv q W (H : list (list (XYZW R))) k l x y c : 0 <= p -> 0 <= k -> good (val U) ku p ->
  der (fun x => co c (dpatch ku p U kv q W H k l x y)) x (co c (dpatch ku p U kv q W H (k + 1) l x y)).
Proof.
  intros Hp Hk Hg. unfold dpatch. rewrite co_comb.
  apply der_ext with (fun x => rsum (ku - p) (ku + 1) (fun i => GN (val U) ku p i k x * co c (comb (kv - q) (kv + 1) (fun j => GN (val W) kv q j l y) (pt2 H i)))%R).
  { intros t. symmetry. apply co_comb. }
  apply (der_rsum (ku - p) (ku + 1) (fun i x => GN (val U) ku p i k x * co c (comb (kv - q) (kv + 1) (fun j => GN (val W) kv q j l y) (pt2 H i)))%R).
  intros i Hi. set (z := co c (comb (kv - q) (kv + 1) (fun j => GN (val W) kv q j l y) (pt2 H i))).
  apply der_ext with (fun x => (z * GN (val U) ku p i k x)%R); [intros; ring|].
  eapply der_eq; [|apply der_scal; apply der_GN_all; auto]. ring.
Qed.

Lemma dpatch_der_y ku p U kv q W (H : list (list (XYZW R))) k l x y c : 0 <= q -> 0 <= l -> good (val W) kv q ->
  der (fun y => co c (dpatch ku p U kv q W H k l x y)) y (co c (dpatch ku p U kv q W H k (l + 1) x y)).
Proof.
  intros Hq Hl Hg. unfold dpatch. rewrite co_comb.
  apply der_ext with (fun y => rsum (ku - p) (ku + 1) (fun i => GN (val U) ku p i k x * co c (comb (kv - q) (kv + 1) (fun j => GN (val W) kv q j l y) (pt2 H i)))%R).
  { intros t. symmetry. apply co_comb. }
  apply (der_rsum (ku - p) (ku + 1) (fun i y => GN (val U) ku p i k x * co c (comb (kv - q) (kv + 1) (fun j => GN (val W) kv q j l y) (pt2 H i)))%R).
  intros i Hi. apply (der_scal (GN (val U) ku p i k x) (fun y => co c (comb (kv - q) (kv + 1) (fun j => GN (val W) kv q j l y) (pt2 H i)))).
  rewrite co_comb. apply der_ext with (fun y => rsum (kv - q) (kv + 1) (fun j => GN (val W) kv q j l y * co c (pt2 H i j))%R).
  { intros t. symmetry. apply co_comb. }
  apply (der_rsum (kv - q) (kv + 1) (fun j y => GN (val W) kv q j l y * co c (pt2 H i j))%R). intros j Hj.
  apply der_ext with (fun y => (co c (pt2 H i j) * GN (val W) kv q j l y)%R); [intros; ring|].
  eapply der_eq; [|apply der_scal; apply der_GN_all; auto]. ring.
Qed.

Lemma dpatch_0 ku p U kv q W (H : list (list (XYZW R))) x y : dpatch ku p U kv q W H 0 0 x y = span_patch ku p U kv q W H x y.
Proof.
  unfold dpatch, span_patch. apply comb_ext. intros i Hi. rewrite GN_0. split; [reflexivity|]. apply comb_ext. intros j Hj. rewrite GN_0. auto.
Qed.

Section RDer.
Variables (ku p : Z) (U : list R) (kv q : Z) (W : list R) (H : list (list (XYZW R))).
Definition sa (c : nat) (k l : Z) (x y : R) : R := co c (dpatch ku p U kv q W H k l x y).
Definition spq (c : nat) : Z -> Z -> R -> R -> R := pquo (sa c) (sa 3).
Definition spder (k l : Z) (x y : R) : XYZ R := mkXYZ (spq 0 k l x y) (spq 1 k l x y) (spq 2 k l x y).

Lemma spder_deriv k l : 0 <= p -> 0 <= q -> 0 <= k -> 0 <= l -> good (val U) ku p -> good (val W) kv q ->
  xyz_pderiv_on (fun x y => ww (span_patch ku p U kv q W H x y) <> 0%R) k l (fun x y => proj (span_patch ku p U kv q W H x y)) (spder k l).
Proof.
  intros Hp Hq Hk Hl GU GW.
  assert (X : forall c k l x y, 0 <= k -> 0 <= l -> der (fun x => sa c k l x y) x (sa c (k + 1) l x y)) by (intros; apply dpatch_der_x; auto).
  assert (Y : forall c l x y, 0 <= l -> der (fun y => sa c 0 l x y) y (sa c 0 (l + 1) x y)) by (intros; apply dpatch_der_y; auto).
  assert (E3 : forall x y, sa 3 0 0 x y = ww (span_patch ku p U kv q W H x y)) by (intros; unfold sa; rewrite dpatch_0; reflexivity).
  assert (EY : forall c x, nth_deriv_on (fun y => ww (span_patch ku p U kv q W H x y) <> 0%R) (Z.to_nat l)
     (fun y => (co c (span_patch ku p U kv q W H x y) / ww (span_patch ku p U kv q W H x y))%R) (fun y => spq c 0 l x y)).
  { intros c x. pose proof (pquo_deriv_y (sa c) (sa 3) (Y c) (Y 3%nat) l x Hl) as E.
    assert (E0 : (fun y => sa 3 0 0 x y <> 0%R) = (fun y => ww (span_patch ku p U kv q W H x y) <> 0%R)).
    { apply FunctionalExtensionality.functional_extensionality. intros y. rewrite E3. reflexivity. }
    assert (E1 : (fun y => (sa c 0 0 x y / sa 3 0 0 x y)%R) = (fun y => (co c (span_patch ku p U kv q W H x y) / ww (span_patch ku p U kv q W H x y))%R)).
    { apply FunctionalExtensionality.functional_extensionality. intros y. rewrite E3. unfold sa. rewrite dpatch_0. reflexivity. }
    rewrite E0, E1 in E. exact E. }
  assert (EX : forall c y, nth_deriv_on (fun x => ww (span_patch ku p U kv q W H x y) <> 0%R) (Z.to_nat k) (fun x => spq c 0 l x y) (fun x => spq c k l x y)).
  { intros c y. pose proof (pquo_deriv_x (sa c) (sa 3) (X c) (X 3%nat) (Z.to_nat k) l y Hl) as E. rewrite Z2Nat.id in E by lia.
    assert (E0 : (fun x => sa 3 0 0 x y <> 0%R) = (fun x => ww (span_patch ku p U kv q W H x y) <> 0%R)).
    { apply FunctionalExtensionality.functional_extensionality. intros x. rewrite E3. reflexivity. }
    rewrite E0 in E. exact E. }
  exists (spder 0 l). split; intros z; repeat split.
  - apply (EY 0%nat).
  - apply (EY 1%nat).
  - apply (EY 2%nat).
  - apply (EX 0%nat).
  - apply (EX 1%nat).
  - apply (EX 2%nat).
Qed.

Lemma spq_eq c k l x y : 0 <= k -> 0 <= l -> spq c k l x y =
  ((sa c k l x y - rsum 1 (l + 1) (fun j => Cb l j * sa 3 0 j x y * spq c k (l - j)%Z x y)
    - rsum 1 (k + 1) (fun i => Cb k i * sa 3 i 0 x y * spq c (k - i)%Z l x y
        + Cb k i * rsum 1 (l + 1) (fun j => Cb l j * sa 3 i j x y * spq c (k - i)%Z (l - j)%Z x y))) / sa 3 0 0 x y)%R.
Proof. intros Hk Hl. unfold spq. rewrite pquo_eq by auto. reflexivity. Qed.
End RDer.

Lemma RSurfDers_span p n U q m W (H : list (list (XYZW R))) u v ku kv d :
  curve_knots p n U -> curve_knots q m W -> p <= 7 -> q <= 7 -> net (n + 1) (m + 1) H ->
  span_of p n U u ku -> span_of q m W v kv -> 0 < d -> d <= p -> d <= q ->
  ww (span_patch ku p U kv q W H u v) <> 0%R ->
  wp (ComputeRationalSurfaceDerivatives (mkSurface p q U W H) d u v)
    (fun D => arr2D D (d + 1) (d + 1) (fun k l => k + l <= d) (fun k l => spder ku p U kv q W H k l u v)).
Proof.
  intros HU HW Hp7 Hq7 HP Hku Hkv Hd Hdp Hdq Hw. pose proof (span_of_dom _ _ _ _ _ HU Hku) as Du. pose proof (span_of_dom _ _ _ _ _ HW Hkv) as Dv.
  pose proof HU as [Hp Hn Hl _ _ _]. pose proof HW as [Hq Hm Hl' _ _ _].
  unfold ComputeRationalSurfaceDerivatives. cbn [DegreeU DegreeV KnotVectorU KnotVectorV SControlPoints]. wval.
  rewrite (domain_ok p n U u HU Du), (domain_ok q m W v HW Dv). cbn [bind].
  apply wp_bind. apply wp_mkvec; [lia|]. intros row Hrow. apply wp_bind. eapply wp_mkvec2; [lia|exact Hrow|]. intros D0 HD0.
  apply wp_bind. eapply wp_mono; [apply (SurfaceDerivatives_span p n U q m W H u v ku kv d); auto|]. intros ders Hders. cbv beta in Hders.
  apply wp_bind. eapply wp_mkvec2; [lia|exact Hrow|]. intros A0 HA0. apply wp_bind. apply wp_mkvec; [lia|]. intros wrow Hwrow.
  apply wp_bind. eapply wp_mkvec2; [lia|exact Hwrow|]. intros W0 HW0.
  destruct (arr2_row _ _ _ _ 0 Hders ltac:(lia)) as (d0 & -> & Hd0). cbn [bind]. rewrite (arr2_len _ _ _ _ Hders), (arr_len _ _ _ Hd0).
  set (F := fun k l => spder ku p U kv q W H k l u v).
  set (a := fun k l => mkXYZ (sa ku p U kv q W H 0 k l u v) (sa ku p U kv q W H 1 k l u v) (sa ku p U kv q W H 2 k l u v)).
  set (w := fun k l => sa ku p U kv q W H 3 k l u v).
  apply wp_bind. apply wp_for_up with (P := fun h '(Aders, wders) => arr2D Aders (d + 1) (d + 1) (fun i j => i < h) a /\ arr2D wders (d + 1) (d + 1) (fun i j => i < h) w); [lia| | |].
  { split; [apply (arr2D_ext _ _ _ (fun _ _ => False) _ (fun _ _ => xyz0) _ (arr2_D _ _ _ _ _ HA0))|apply (arr2D_ext _ _ _ (fun _ _ => False) _ (fun _ _ => n0) _ (arr2_D _ _ _ _ _ HW0))]; intros; lia. }
  { intros h [A1 W1] Hh [HA1 HW1].
    apply wp_for_up with (P := fun l '(Aders, wders) => arr2D Aders (d + 1) (d + 1) (fun i j => i < h \/ i = h /\ j < l) a /\ arr2D wders (d + 1) (d + 1) (fun i j => i < h \/ i = h /\ j < l) w); [lia| | |].
    - split; (eapply arr2D_ext; [eassumption|]); intros i j Hi Hj G; (split; [lia|reflexivity]).
    - intros l [A2 W2] Hl2 [HA2 HW2]. wget Hders. unfold ToXYZ. cbn [bind].
      apply wp_bind. apply (arr2D_set _ _ _ _ (fun i j => i < h \/ i = h /\ j < l + 1) a h l _ _ HA2); [lia|lia|reflexivity|intros; lia|]. intros A3 HA3.
      apply wp_bind. apply (arr2D_set _ _ _ _ (fun i j => i < h \/ i = h /\ j < l + 1) w h l _ _ HW2); [lia|lia|reflexivity|intros; lia|]. intros W3 HW3.
      cbn [wp]. auto.
    - intros [A2 W2] [HA2 HW2]. split; (eapply arr2D_ext; [eassumption|]); intros i j Hi Hj G; (split; [lia|reflexivity]). }
  intros [A1 W1] [HA1' HW1']. assert (HA1 : arr2 A1 (d + 1) (d + 1) a) by (eapply arr2_of_D; [exact HA1'|intros; cbv beta; lia]).
  assert (HW1 : arr2 W1 (d + 1) (d + 1) w) by (eapply arr2_of_D; [exact HW1'|intros; cbv beta; lia]). clear HA1' HW1'.
  apply wp_for_up with (P := fun h D => arr2D D (d + 1) (d + 1) (fun i j => i < h /\ i + j <= d) F); [lia| | |].
  { apply (arr2D_ext _ _ _ (fun _ _ => False) _ (fun _ _ => xyz0) _ (arr2_D _ _ _ _ _ HD0)); intros; lia. }
  2:{ intros D HD. eapply arr2D_ext; [exact HD|]. intros i j Hi Hj G. split; [lia|reflexivity]. }
  intros k D1 Hk HD1.
  apply wp_for_up with (P := fun h D => arr2D D (d + 1) (d + 1) (fun i j => (i < k \/ i = k /\ j < h) /\ i + j <= d) F); [lia| | |].
  { eapply arr2D_ext; [exact HD1|]. intros i j Hi Hj G. split; [lia|reflexivity]. }
  2:{ intros D HD. eapply arr2D_ext; [exact HD|]. intros i j Hi Hj G. split; [lia|reflexivity]. }
  clear D1 HD1. intros l D Hl0 HD. wget HA1.
  set (S1 := fun c h => rsum 1 h (fun j => Cb l j * w 0%Z j * spq ku p U kv q W H c k (l - j)%Z u v)%R).
  match goal with |- wp (bind ?X _) _ => assert (E : X = Ok (mkXYZ (gx (a k l) - S1 0%nat (l + 1)%Z) (gy (a k l) - S1 1%nat (l + 1)%Z) (gz (a k l) - S1 2%nat (l + 1)%Z))%R) end.
  { eapply wp_eq. apply wp_for_up with (P := fun h x => x = mkXYZ (gx (a k l) - S1 0%nat h)%R (gy (a k l) - S1 1%nat h)%R (gz (a k l) - S1 2%nat h)%R); [lia| | |].
    - unfold S1. rewrite !rsum_nil by lia. rewrite !Rminus_0_r. reflexivity.
    - intros j x Hj ->. rewrite Binomial_ok by lia. cbn [bind]. wget HW1. rewrite (arr2D_get _ _ _ _ _ k (l - j) HD) by lia. cbn [bind wp].
      unfold S1. rewrite !rsum_last by lia. unfold xyz_sub, xyz_scale, F, spder. cbn [gx gy gz]. num. f_equal; ring.
    - intros x ->. reflexivity. }
  rewrite E. cbn [bind]. clear E.
  set (T := fun c i => rsum 1 (l + 1) (fun j => Cb l j * w i j * spq ku p U kv q W H c (k - i)%Z (l - j)%Z u v)%R).
  set (S2 := fun c h => rsum 1 h (fun i => Cb k i * w i 0%Z * spq ku p U kv q W H c (k - i)%Z l u v + Cb k i * T c i)%R).
  match goal with |- wp (bind ?X _) _ => assert (E : X = Ok (mkXYZ (gx (a k l) - S1 0%nat (l + 1)%Z - S2 0%nat (k + 1)%Z) (gy (a k l) - S1 1%nat (l + 1)%Z - S2 1%nat (k + 1)%Z) (gz (a k l) - S1 2%nat (l + 1)%Z - S2 2%nat (k + 1)%Z))%R) end.
  { eapply wp_eq. apply wp_for_up with (P := fun h x => x = mkXYZ (gx (a k l) - S1 0%nat (l + 1)%Z - S2 0%nat h)%R (gy (a k l) - S1 1%nat (l + 1)%Z - S2 1%nat h)%R (gz (a k l) - S1 2%nat (l + 1)%Z - S2 2%nat h)%R); [lia| | |].
    - unfold S2. rewrite !rsum_nil by lia. rewrite !Rminus_0_r. reflexivity.
    - intros i x Hi ->. rewrite Binomial_ok by lia. cbn [bind]. wget HW1. rewrite (arr2D_get _ _ _ _ _ (k - i) l HD) by lia. cbn [bind].
      match goal with |- wp (bind ?X _) _ => assert (E : X = Ok (mkXYZ (T 0%nat i) (T 1%nat i) (T 2%nat i))) end.
      { eapply wp_eq. apply wp_for_up with (P := fun h x => x = mkXYZ (rsum 1 h (fun j => Cb l j * w i j * spq ku p U kv q W H 0 (k - i)%Z (l - j)%Z u v)%R)
            (rsum 1 h (fun j => Cb l j * w i j * spq ku p U kv q W H 1 (k - i)%Z (l - j)%Z u v)%R) (rsum 1 h (fun j => Cb l j * w i j * spq ku p U kv q W H 2 (k - i)%Z (l - j)%Z u v)%R)); [lia| | |].
        - rewrite !rsum_nil by lia. reflexivity.
        - intros j x Hj ->. rewrite Binomial_ok by lia. cbn [bind]. wget HW1. rewrite (arr2D_get _ _ _ _ _ (k - i) (l - j) HD) by lia. cbn [bind wp].
          rewrite !rsum_last by lia. unfold xyz_add, xyz_scale, F, spder. cbn [gx gy gz]. num. f_equal; ring.
        - intros x ->. reflexivity. }
      rewrite E. cbn [bind wp]. unfold S2. rewrite !rsum_last by lia. unfold xyz_sub, xyz_scale, F, spder. cbn [gx gy gz]. num. f_equal; ring.
    - intros x ->. reflexivity. }
  rewrite E. cbn [bind]. clear E. wget HW1.
  assert (W00 : w 0 0 <> 0%R) by (unfold w, sa; rewrite dpatch_0; exact Hw).
  unfold xyz_div. num. cbn [gx gy gz]. rewrite !Rdiv_ok by exact W00. cbn [bind].
  apply (arr2D_set _ _ _ _ (fun i j => (i < k \/ i = k /\ j < l + 1) /\ i + j <= d) F k l _ _ HD); [lia|lia| |intros; lia|auto].
  unfold F, spder. rewrite !spq_eq by lia. reflexivity.
Qed.

Lemma RSurfDers_ok p n U q m W (H : list (list (XYZW R))) u v d :
  curve_knots p n U -> curve_knots q m W -> p <= 7 -> q <= 7 -> net (n + 1) (m + 1) H ->
  in_domain p n U u -> in_domain q m W v -> 0 < d -> d <= p -> d <= q ->
  exists ku kv, span_of p n U u ku /\ span_of q m W v kv /\ (ww (span_patch ku p U kv q W H u v) <> 0%R ->
    returns (ComputeRationalSurfaceDerivatives (mkSurface p q U W H) d u v) (fun D =>
      forall k l, 0 <= k -> 0 <= l -> k + l <= d -> exists G,
        xyz_pderiv_on (fun x y => ww (span_patch ku p U kv q W H x y) <> 0%R) k l (fun x y => proj (span_patch ku p U kv q W H x y)) G /\
        get2 D k l = Ok (G u v))).
Proof.
  intros HU HW Hp7 Hq7 HP Du Dv Hd Hdp Hdq. pose proof HU as [Hp _ _ _ _ _]. pose proof HW as [Hq _ _ _ _ _].
  destruct (find_span p n U u HU Du) as (ku & _ & Hku). destruct (find_span q m W v HW Dv) as (kv & _ & Hkv).
  exists ku, kv. split; [exact Hku|]. split; [exact Hkv|]. intros Hw.
  destruct (wp_elim _ _ (RSurfDers_span p n U q m W H u v ku kv d HU HW Hp7 Hq7 HP Hku Hkv Hd Hdp Hdq Hw)) as (D & E & HD).
  exists D. split; [exact E|]. intros k l Hk Hl Hkl. exists (spder ku p U kv q W H k l). split.
  - apply spder_deriv; auto; eapply span_of_good; eauto.
  - apply (arr2D_get _ _ _ _ _ k l HD); lia.
Qed.

Lemma span_patch_pos p n U q m Vk P W H u v ku kv : curve_knots p n U -> curve_knots q m Vk -> weighted_net (n + 1) (m + 1) P W H ->
  span_of p n U u ku -> span_of q m Vk v kv -> (forall i j, 0 <= i <= n -> 0 <= j <= m -> (0 < val2 W i j)%R) ->
  (0 < ww (span_patch ku p U kv q Vk H u v))%R.
Proof.
  intros HU HV HW Hku Hkv Hw. pose proof (span_of_dom _ _ _ _ _ HU Hku) as Du. pose proof (span_of_dom _ _ _ _ _ HV Hkv) as Dv.
  rewrite <- (surface_point_span p n U q m) by auto. rewrite (ww_surface p n U q m Vk P W H HW). apply surface_weight_gt; auto.
Qed.

Lemma RSurfDers_positive p n U q m Vk P W H u v d :
  curve_knots p n U -> curve_knots q m Vk -> p <= 7 -> q <= 7 -> weighted_net (n + 1) (m + 1) P W H ->
  (forall i j, 0 <= i <= n -> 0 <= j <= m -> (0 < val2 W i j)%R) ->
  in_domain p n U u -> in_domain q m Vk v -> 0 < d -> d <= p -> d <= q ->
  exists ku kv, span_of p n U u ku /\ span_of q m Vk v kv /\
    returns (ComputeRationalSurfaceDerivatives (mkSurface p q U Vk H) d u v) (fun D =>
      forall k l, 0 <= k -> 0 <= l -> k + l <= d -> exists G,
        xyz_pderiv_on (fun x y => ww (span_patch ku p U kv q Vk H x y) <> 0%R) k l (fun x y => proj (span_patch ku p U kv q Vk H x y)) G /\
        get2 D k l = Ok (G u v)).
Proof.
  intros HU HV Hp7 Hq7 HW Hw Du Dv Hd Hdp Hdq. pose proof HW as (_ & HH & _).
  destruct (RSurfDers_ok p n U q m Vk H u v d HU HV Hp7 Hq7 HH Du Dv Hd Hdp Hdq) as (ku & kv & Hku & Hkv & G).
  exists ku, kv. split; [exact Hku|]. split; [exact Hkv|]. apply G.
  pose proof (span_patch_pos p n U q m Vk P W H u v ku kv HU HV HW Hku Hkv Hw). lra.
Qed.

Lemma RSurfDers_reject p n U q m W (H : list (list (XYZW R))) u v d :
  curve_knots p n U -> curve_knots q m W -> p <= 7 -> q <= 7 ->
  in_domain p n U u -> in_domain q m W v -> 0 < d -> p < d \/ q < d ->
  ComputeRationalSurfaceDerivatives (mkSurface p q U W H) d u v = Throw.
Proof.
  intros HU HW Hp7 Hq7 Du Dv Hd Ho. unfold ComputeRationalSurfaceDerivatives. cbn [DegreeU DegreeV KnotVectorU KnotVectorV SControlPoints].
  destruct (Z.ltb_spec 0 d); [|lia]. cbn [validate bind]. rewrite (domain_ok p n U u HU Du), (domain_ok q m W v HW Dv). cbn [bind].
  unfold mkvec at 1 2. destruct (Z.ltb_spec (d + 1) 0); [lia|]. cbn [bind].
  rewrite (SurfaceDerivatives_reject p n U q m) by auto. reflexivity.
Qed.

(* the dedicated first-order function *)
Lemma RSurfFirst_span p n U q m W (H : list (list (XYZW R))) u v ku kv :
  curve_knots p n U -> curve_knots q m W -> 1 <= p <= 7 -> 1 <= q <= 7 -> net (n + 1) (m + 1) H ->
  span_of p n U u ku -> span_of q m W v kv -> ww (span_patch ku p U kv q W H u v) <> 0%R ->
  ComputeRationalSurfaceFirstOrderDerivative (mkSurface p q U W H) u v =
    Ok (spder ku p U kv q W H 0 0 u v, spder ku p U kv q W H 1 0 u v, spder ku p U kv q W H 0 1 u v).
Proof.
  intros HU HW Hp7 Hq7 HP Hku Hkv Hw. pose proof (span_of_dom _ _ _ _ _ HU Hku) as Du. pose proof (span_of_dom _ _ _ _ _ HW Hkv) as Dv.
  unfold ComputeRationalSurfaceFirstOrderDerivative. cbn [DegreeU DegreeV KnotVectorU KnotVectorV SControlPoints].
  rewrite (domain_ok p n U u HU Du), (domain_ok q m W v HW Dv). cbn [bind].
  assert (Z0 : arr2 [[xyzw0 (A := R); xyzw0]; [xyzw0; xyzw0]] 2 2 (fun _ _ => vzero)).
  { split; [reflexivity|]. intros i Hi. assert (i = 0 \/ i = 1) as [-> | ->] by lia; (eexists; split; [reflexivity|]; split; [reflexivity|]; intros j Hj; assert (j = 0 \/ j = 1) as [-> | ->] by lia; reflexivity). }
  destruct (wp_elim _ _ (FirstOrder_surface p n U q m W H u v ku kv _ HU HW Hp7 Hq7 HP Hku Hkv Z0)) as (D & -> & HD). cbn [bind].
  wget HD. wget HD. wget HD. unfold ToXYZ. cbn [bind].
  assert (W00 : (ww (dpatch ku p U kv q W H 0 0 u v) <> 0)%R) by (rewrite dpatch_0; exact Hw).
  num. rewrite Rdiv_ok by exact W00. cbn [bind]. f_equal.
  assert (E0 : forall c, spq ku p U kv q W H c 0 0 u v = (sa ku p U kv q W H c 0 0 u v / sa ku p U kv q W H 3 0 0 u v)%R).
  { intros c. rewrite spq_eq by lia. rewrite !rsum_nil by lia. rewrite !Rminus_0_r. reflexivity. }
  assert (E1 : forall c, spq ku p U kv q W H c 1 0 u v = ((sa ku p U kv q W H c 1 0 u v - sa ku p U kv q W H 3 1 0 u v * spq ku p U kv q W H c 0 0 u v) / sa ku p U kv q W H 3 0 0 u v)%R).
  { intros c. rewrite spq_eq by lia. rewrite (rsum_nil 1 (0 + 1)) by lia. rewrite (rsum_last' 1 (1 + 1)), (rsum_nil 1 (1 + 1 - 1)) by lia. change (1 + 1 - 1) with 1. rewrite Cb_n, (rsum_nil 1 (0 + 1)) by lia.
    change (1 - 1) with 0. f_equal. ring. }
  assert (E2 : forall c, spq ku p U kv q W H c 0 1 u v = ((sa ku p U kv q W H c 0 1 u v - sa ku p U kv q W H 3 0 1 u v * spq ku p U kv q W H c 0 0 u v) / sa ku p U kv q W H 3 0 0 u v)%R).
  { intros c. rewrite spq_eq by lia. rewrite (rsum_nil 1 (0 + 1)) by lia. rewrite (rsum_last' 1 (1 + 1)), (rsum_nil 1 (1 + 1 - 1)) by lia. change (1 + 1 - 1) with 1. rewrite Cb_n by lia.
    change (1 - 1) with 0. f_equal. ring. }
  unfold spder. rewrite !E1, !E2, !E0. unfold xyz_scale, xyz_sub. cbn [gx gy gz]. num. unfold sa. cbn [co VecL_XYZW co_xyzw] in *.
  f_equal; [f_equal|]; f_equal; field; exact W00.
Qed.

Lemma RSurfFirst_ok p n U q m W (H : list (list (XYZW R))) u v :
  curve_knots p n U -> curve_knots q m W -> 1 <= p <= 7 -> 1 <= q <= 7 -> net (n + 1) (m + 1) H ->
  in_domain p n U u -> in_domain q m W v ->
  exists ku kv, span_of p n U u ku /\ span_of q m W v kv /\ (ww (span_patch ku p U kv q W H u v) <> 0%R ->
    exists Gu Gv, let D := (fun x y => ww (span_patch ku p U kv q W H x y) <> 0%R) in let S := (fun x y => proj (span_patch ku p U kv q W H x y)) in
    xyz_pderiv_on D 1 0 S Gu /\ xyz_pderiv_on D 0 1 S Gv /\
    ComputeRationalSurfaceFirstOrderDerivative (mkSurface p q U W H) u v = Ok (S u v, Gu u v, Gv u v)).
Proof.
  intros HU HW Hp7 Hq7 HP Du Dv. pose proof HU as [Hp _ _ _ _ _]. pose proof HW as [Hq _ _ _ _ _].
  destruct (find_span p n U u HU Du) as (ku & _ & Hku). destruct (find_span q m W v HW Dv) as (kv & _ & Hkv).
  exists ku, kv. split; [exact Hku|]. split; [exact Hkv|]. intros Hw.
  pose proof (span_of_good _ _ _ _ _ HU Hku) as GU. pose proof (span_of_good _ _ _ _ _ HW Hkv) as GW.
  exists (spder ku p U kv q W H 1 0), (spder ku p U kv q W H 0 1). cbv zeta. split; [apply spder_deriv; auto; lia|]. split; [apply spder_deriv; auto; lia|].
  rewrite (RSurfFirst_span p n U q m W H u v ku kv) by auto. do 3 f_equal.
  unfold spder. assert (E0 : forall c, spq ku p U kv q W H c 0 0 u v = (co c (span_patch ku p U kv q W H u v) / ww (span_patch ku p U kv q W H u v))%R).
  { intros c. rewrite spq_eq by lia. rewrite !rsum_nil by lia. rewrite !Rminus_0_r. unfold sa. rewrite dpatch_0. reflexivity. }
  rewrite !E0. reflexivity.
Qed.
