(* The area of a surface and the length of a curve by the rule of Gauss and Legendre on Bezier pieces: derivatives of the pieces. *)
From Coq Require Import ZArith List Bool Reals Lra Lia.
From Verif Require Import Base Num Vec Tac Spec Spec2 Spec3 Spec4 Spec5 Spec8 Spec10 Spec12 M_MathUtils M_XYZ M_Bspline M_NurbsCurve M_Curve2 M_Geom M_Surface M_Curve4 M_Area
  P_MathUtils P_XYZ P_Vec P_VSum P_Curve P_Bspline P_Refine P_Insert2 P_BsplineS P_Decomp P_RSurf2.
Import ListNotations.
Open Scope Z_scope.

(* the derivative of a path of points at t *)
Definition pderiv (f : R -> XYZ R) (t : R) (d : XYZ R) : Prop :=
  derivable_pt_lim (fun x => gx (f x)) t (gx d) /\ derivable_pt_lim (fun x => gy (f x)) t (gy d) /\ derivable_pt_lim (fun x => gz (f x)) t (gz d).

Lemma pderiv_local f h t a b d : (a < t < b)%R -> (forall x, (a < x < b)%R -> f x = h x) -> pderiv f t d -> pderiv h t d.
Proof.
  intros Ht He (X & Y & Z'). split; [|split].
  - apply (derivable_pt_lim_locally_ext (fun x => gx (f x)) _ t a b); auto. intros z Hz. cbv beta. rewrite He by exact Hz. reflexivity.
  - apply (derivable_pt_lim_locally_ext (fun x => gy (f x)) _ t a b); auto. intros z Hz. cbv beta. rewrite He by exact Hz. reflexivity.
  - apply (derivable_pt_lim_locally_ext (fun x => gz (f x)) _ t a b); auto. intros z Hz. cbv beta. rewrite He by exact Hz. reflexivity.
Qed.

Lemma pderiv_unique f t d e : pderiv f t d -> pderiv f t e -> d = e.
Proof. intros (X & Y & Z') (X1 & Y1 & Z1). apply xyz_eq; eapply uniqueness_limite; eassumption. Qed.

Lemma lim_affine (f : R -> R) c l s d : derivable_pt_lim f ((1 - s) * c + s * l) d -> derivable_pt_lim (fun x => f ((1 - x) * c + x * l)%R) s ((l - c) * d)%R.
Proof.
  intros Hd. assert (A : derivable_pt_lim (fun x => (1 - x) * c + x * l)%R s (l - c)%R).
  { assert (E : derivable_pt_lim ((fct_cte c) + (mult_real_fct (l - c) id))%F s (0 + (l - c) * 1)%R) by (apply derivable_pt_lim_plus; [apply derivable_pt_lim_const|apply derivable_pt_lim_scal, derivable_pt_lim_id]).
    replace (l - c)%R with (0 + (l - c) * 1)%R by ring. eapply derivable_pt_lim_ext; [|exact E]. intros z. unfold plus_fct, fct_cte, mult_real_fct, id. ring. }
  replace ((l - c) * d)%R with (d * (l - c))%R by ring. exact (derivable_pt_lim_comp (fun x => (1 - x) * c + x * l)%R f s (l - c) d A Hd).
Qed.

Lemma pderiv_affine f c l s d : pderiv f ((1 - s) * c + s * l)%R d -> pderiv (fun x => f ((1 - x) * c + x * l)%R) s (times3 (l - c) d).
Proof. intros (X & Y & Z'). split; [|split]; [exact (lim_affine _ _ _ _ _ X)|exact (lim_affine _ _ _ _ _ Y)|exact (lim_affine _ _ _ _ _ Z')]. Qed.

(* inside its span, a derivative of the piece is a derivative of the surface *)
Section A.
Variables (p n : Z) (U : list R) (q m : Z) (V : list R) (H : list (list (XYZW R))).
Hypotheses (HU : curve_knots p n U) (HV : curve_knots q m V).
Hypothesis Hw : forall u v, in_domain p n U u -> in_domain q m V v -> ww (surface_point p n U q m V H u v) <> 0%R.

Lemma in_span_domain r k K a t : curve_knots r k K -> r <= a <= k -> (val K a < t < val K (a + 1))%R -> in_domain r k K t.
Proof.
  intros HK Ha Ht. pose proof (ck_len _ _ _ HK) as HL. pose proof (ck_sorted _ _ _ HK) as HS. pose proof (ck_p _ _ _ HK).
  pose proof (HS r a ltac:(lia) ltac:(lia) ltac:(rewrite HL; lia)). pose proof (HS (a + 1) (k + 1) ltac:(lia) ltac:(lia) ltac:(rewrite HL; lia)). split; lra.
Qed.
Lemma in_span r k K a t : r <= a <= k -> (val K a < t < val K (a + 1))%R -> span_of r k K t a.
Proof. intros Ha Ht. split; [exact Ha|]. split; [lra|]. split; [lra|left; lra]. Qed.

Lemma off_knot r k K t a : curve_knots r k K -> span_of r k K t a -> ~ In t K -> (val K a < t < val K (a + 1))%R.
Proof.
  intros HK (Ha & Hl & H1 & H2) Hn. pose proof (ck_len _ _ _ HK) as HL. pose proof (ck_p _ _ _ HK). split.
  - destruct (Rle_lt_or_eq_dec _ _ H1) as [|E]; [assumption|]. exfalso. apply Hn. rewrite <- E. apply val_In. lia.
  - destruct H2 as [|(-> & E)]; [assumption|]. exfalso. apply Hn. rewrite E. apply val_In. lia.
Qed.

Lemma partials_true u v g : ~ In u U -> ~ In v V -> surface_partials p n U q m V H 1 u v g ->
  pderiv (fun x => proj (surface_point p n U q m V H x v)) u (g 1 0) /\ pderiv (fun y => proj (surface_point p n U q m V H u y)) v (g 0 1).
Proof.
  intros Nu Nv (ku & kv & Hu & Hv & G). pose proof (off_knot _ _ _ _ _ HU Hu Nu) as Bu. pose proof (off_knot _ _ _ _ _ HV Hv Nv) as Bv. destruct Hu as (Ku & _), Hv as (Kv & _).
  assert (FP : forall s t, (val U ku < s < val U (ku + 1))%R -> (val V kv < t < val V (kv + 1))%R -> span_patch ku p U kv q V H s t = surface_point p n U q m V H s t).
  { intros s t Hs Ht. symmetry. apply surface_point_span; auto; apply in_span; assumption. }
  assert (FW : forall s t, (val U ku < s < val U (ku + 1))%R -> (val V kv < t < val V (kv + 1))%R -> ww (span_patch ku p U kv q V H s t) <> 0%R).
  { intros s t Hs Ht. rewrite FP by assumption. apply Hw; eapply in_span_domain; eauto. }
  destruct (G 1 0 ltac:(lia) ltac:(lia) ltac:(lia)) as (G1 & (h & Hh & Hd) & <-). destruct (G 0 1 ltac:(lia) ltac:(lia) ltac:(lia)) as (G2 & (h' & Hh' & Hd') & <-).
  unfold xyz_deriv_on in *. change (Z.to_nat 0) with 0%nat in *. change (Z.to_nat 1) with 1%nat in *. cbn [nth_deriv_on] in *. cbv beta in *.
  split.
  - apply (pderiv_local (fun x => h x v) _ u (val U ku) (val U (ku + 1))); [exact Bu| |].
    + intros s Hs. rewrite <- FP by assumption. pose proof (FW s v Hs Bv) as W. destruct (Hh s) as (X & Y & Z'). symmetry. apply xyz_eq; auto.
    + pose proof (FW u v Bu Bv) as W. destruct (Hd v) as ((dx & Dx & Ex) & (dy & Dy & Ey) & (dz & Dz & Ez)). split; [|split]; [rewrite <- (Ex u W); exact (Dx u W)|rewrite <- (Ey u W); exact (Dy u W)|rewrite <- (Ez u W); exact (Dz u W)].
  - apply (pderiv_local (fun y => proj (span_patch ku p U kv q V H u y)) _ v (val V kv) (val V (kv + 1))); [exact Bv| |].
    + intros t Ht. rewrite <- FP by assumption. reflexivity.
    + pose proof (FW u v Bu Bv) as W. destruct (Hh' u) as ((dx & Dx & Ex) & (dy & Dy & Ey) & (dz & Dz & Ez)). destruct (Hd' v) as (X & Y & Z').
      split; [|split]; [rewrite <- (X u W), <- (Ex v W); exact (Dx v W)|rewrite <- (Y u W), <- (Ey v W); exact (Dy v W)|rewrite <- (Z' u W), <- (Ez v W); exact (Dz v W)].
Qed.
End A.

(* the same for curves *)
Lemma derivs_true p n U (H : list (XYZW R)) t g : curve_knots p n U -> (forall u, in_domain p n U u -> ww (curve_point p n U H u) <> 0%R) -> ~ In t U ->
  curve_derivs p n U H 1 t g -> pderiv (fun x => proj (curve_point p n U H x)) t (g 1).
Proof.
  intros HU Hw Nt (k & Hk & G). pose proof (off_knot _ _ _ _ _ HU Hk Nt) as B. destruct Hk as (Kk & _).
  assert (FP : forall s, (val U k < s < val U (k + 1))%R -> span_curve k p U H s = curve_point p n U H s) by (intros s Hs; symmetry; apply curve_point_span; auto; apply in_span; assumption).
  assert (FW : forall s, (val U k < s < val U (k + 1))%R -> ww (span_curve k p U H s) <> 0%R) by (intros s Hs; rewrite FP by assumption; apply Hw; eapply in_span_domain; eauto).
  destruct (G 1 ltac:(lia)) as (G1 & Hd & <-). unfold xyz_deriv_on in *. change (Z.to_nat 1) with 1%nat in *. cbn [nth_deriv_on] in *. cbv beta in *.
  apply (pderiv_local (fun x => proj (span_curve k p U H x)) _ t (val U k) (val U (k + 1))); [exact B| |].
  - intros s Hs. rewrite FP by assumption. reflexivity.
  - pose proof (FW t B) as W. destruct Hd as ((dx & Dx & Ex) & (dy & Dy & Ey) & (dz & Dz & Ez)). split; [|split]; [rewrite <- (Ex t W); exact (Dx t W)|rewrite <- (Ey t W); exact (Dy t W)|rewrite <- (Ez t W); exact (Dz t W)].
Qed.

(* no knot lies strictly between two consecutive distinct knots *)
Lemma between_off B (U : list R) i s : increasing B -> (forall x, In x B <-> In x U) -> 0 <= i < len B - 1 -> (0 < s < 1)%R -> ~ In ((1 - s) * val B i + s * val B (i + 1))%R U.
Proof.
  intros HB HI Hi Hs Hin. apply HI in Hin. destruct (In_val _ _ Hin) as (j & Hj & E). pose proof (HB i (i + 1) ltac:(lia) ltac:(lia) ltac:(lia)).
  assert ((val B i < val B j < val B (i + 1))%R) by (rewrite E; nra).
  destruct (Z_le_gt_dec j i) as [Hl|Hl].
  - destruct (Z.eq_dec j i) as [->|]; [lra|]. pose proof (HB j i ltac:(lia) ltac:(lia) ltac:(lia)). lra.
  - destruct (Z.eq_dec j (i + 1)) as [->|]; [lra|]. pose proof (HB (i + 1) j ltac:(lia) ltac:(lia) ltac:(lia)). lra.
Qed.

Lemma bez_off p s : 0 <= p -> (0 < s < 1)%R -> ~ In s (bezier_knots p).
Proof. intros Hp Hs Hin. unfold bezier_knots in Hin. apply in_app_or in Hin. destruct Hin as [Hin|Hin]; apply repeat_spec in Hin; lra. Qed.
Lemma bez_domain p s : 0 <= p -> in_domain p p (bezier_knots p) s <-> (0 <= s <= 1)%R.
Proof.
  intros Hp. unfold in_domain. rewrite !bez_val by lia. destruct (Z.leb_spec p p); [|lia]. destruct (Z.leb_spec (p + 1) p); [lia|]. tauto.
Qed.
Lemma cell_domain r k K B i s : curve_knots r k K -> clamped_knots r k K -> increasing B -> (forall x, In x B <-> In x K) -> 0 <= i < len B - 1 -> (0 <= s <= 1)%R -> in_domain r k K ((1 - s) * val B i + s * val B (i + 1))%R.
Proof.
  intros HK CK HB HI Hi Hs. pose proof (ck_len _ _ _ HK) as HL. pose proof (ck_sorted _ _ _ HK) as HS. pose proof (ck_p _ _ _ HK). pose proof (ck_n _ _ _ HK). destruct CK as (C0 & C1).
  assert (D : forall j, 0 <= j < len B -> in_domain r k K (val B j)).
  { intros j Hj. assert (In (val B j) K) as Hx by (apply HI, val_In; lia). destruct (In_val _ _ Hx) as (e & He & <-). rewrite HL in He. unfold in_domain. rewrite <- C0, C1. split; apply HS; lia. }
  destruct (D i ltac:(lia)), (D (i + 1) ltac:(lia)). split; nra.
Qed.

(* consecutive distinct knots telescope to the width of the domain *)
Lemma rsum_tele (f : Z -> R) k : 0 <= k -> rsum 0 k (fun i => f (i + 1)%Z - f i)%R = (f k - f 0%Z)%R.
Proof. intros Hk. revert k Hk. apply (Zrange_ind 0); [rewrite rsum_nil by lia; ring|]. intros k Hk IH. rewrite rsum_last by lia. rewrite IH. ring. Qed.
Lemma rsum_grid a c (F : Z -> Z -> R) : 0 <= a -> 0 < c -> rsum 0 (a * c) (fun x => F (x / c) (x mod c)) = rsum 0 a (fun i => rsum 0 c (F i)).
Proof.
  intros Ha Hc. revert a Ha. apply (Zrange_ind 0); [rewrite !rsum_nil by lia; reflexivity|]. intros a Ha IH. rewrite rsum_last by lia. rewrite <- IH.
  rewrite (rsum_split 0 (a * c) ((a + 1) * c)) by nia. f_equal. clear IH.
  assert (K : forall d, 0 <= d <= c -> rsum (a * c) (a * c + d) (fun x => F (x / c) (x mod c)) = rsum 0 d (F a)).
  { intros d (Hd & Hdc). revert d Hd Hdc. apply (Zrange_ind 0 (fun d => d <= c -> rsum (a * c) (a * c + d) (fun x => F (x / c) (x mod c)) = rsum 0 d (F a))); [intros; rewrite !rsum_nil by lia; reflexivity|]. intros d Hd IH Hdc. rewrite Z.add_assoc. rewrite !rsum_last by lia. rewrite IH by lia. f_equal.
    f_equal; [symmetry; apply (Z.div_unique _ c a d); lia|symmetry; apply (Z.mod_unique _ c a d); lia]. }
  replace ((a + 1) * c) with (a * c + c) by ring. apply K. lia.
Qed.
Lemma ends_of r k K B : curve_knots r k K -> clamped_knots r k K -> increasing B -> (forall x, In x B <-> In x K) -> val B 0 = val K r /\ val B (len B - 1) = val K (k + 1) /\ 0 < len B - 1.
Proof.
  intros HK CK HB HI. pose proof (ck_len _ _ _ HK) as HL. pose proof (ck_sorted _ _ _ HK) as HS. pose proof (ck_p _ _ _ HK). pose proof (ck_n _ _ _ HK). destruct CK as (C0 & C1).
  assert (I0 : In (val K r) B) by (apply HI, val_In; lia). assert (I1 : In (val K (k + 1)) B) by (apply HI, val_In; lia). destruct (In_val _ _ I0) as (a & Ha & Ea). destruct (In_val _ _ I1) as (b & Hb & Eb).
  assert (D : forall j, 0 <= j < len B -> (val K r <= val B j <= val K (k + 1))%R).
  { intros j Hj. assert (In (val B j) K) as Hx by (apply HI, val_In; lia). destruct (In_val _ _ Hx) as (e & He & <-). rewrite HL in He. rewrite <- C0, C1. split; apply HS; lia. }
  assert (a = 0) as ->. { destruct (Z.eq_dec a 0); [assumption|]. pose proof (HB 0 a ltac:(lia) ltac:(lia) ltac:(lia)). pose proof (D 0 ltac:(lia)). lra. }
  assert (b = len B - 1) as ->. { destruct (Z.eq_dec b (len B - 1)); [assumption|]. pose proof (HB b (len B - 1) ltac:(lia) ltac:(lia) ltac:(lia)). pose proof (D (len B - 1) ltac:(lia)). lra. }
  split; [exact Ea|]. split; [exact Eb|]. destruct (Z.eq_dec (len B - 1) 0) as [E|]; [|lia]. rewrite E in Eb. pose proof (ck_last _ _ _ HK). pose proof (tol_pos (val K k) (val K (k + 1))). pose proof (HS r k ltac:(lia) ltac:(lia) ltac:(rewrite HL; lia)). lra.
Qed.
