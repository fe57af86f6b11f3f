(* The parameter of a point on a curve. *)
From Coq Require Import ZArith List Bool Reals Lra Lia.
From Verif Require Import Base Num Vec Tac Spec Spec2 Spec3 Spec4 Spec5 Spec9 Spec10 Spec17 M_MathUtils M_XYZ M_Bspline M_NurbsCurve M_Geom M_Surface M_Shape M_Octree M_Volume M_Curve4
  P_MathUtils P_XYZ P_Vec P_VSum P_Curve P_Bspline P_Decomp P_Loop P_Insert P_Geom P_Matrix P_Nurbs P_Shape P_Span P_Insert2 P_Shape2 P_Shape3 P_RSurf2 P_Surf5 P_Surf6 P_Surf7 P_Interp2 P_Swung P_ProjNorm2.
Import ListNotations.
Open Scope Z_scope.

(* loops on fuel that only ever need finitely much of it *)
Definition ample {A} (m : nat -> res A) (Q : A -> Prop) : Prop := exists N x, (forall f, (N <= f)%nat -> m f = Ok x) /\ Q x.
Lemma ample_upc {S R'} (P : S -> Prop) (F : R' -> Prop) (body : nat -> Z -> S -> res (ctl S R')) :
  (forall k s, P s -> ample (fun f => body f k s) (fun c => match c with Next s' => P s' | Stop r => F r end)) ->
  forall lo hi s, P s -> ample (fun f => for_upc lo hi s (body f)) (fun c => match c with Next s' => P s' | Stop r => F r end).
Proof.
  intros Hb lo hi. unfold for_upc. generalize (Z.to_nat (hi - lo)). intros n. revert lo. induction n as [|n IH]; intros lo s Hs.
  - exists 0%nat, (Next s). split; [reflexivity|exact Hs].
  - destruct (Hb lo s Hs) as (N & [s'|r] & E & H).
    + destruct (IH (lo + 1) s' H) as (N' & c & E' & H'). exists (Nat.max N N'), c. split; [|exact H']. intros f Hf. cbn [iter_upc]. rewrite E by lia. cbn [bind]. apply E'. lia.
    + exists N, (Stop r). split; [|exact H]. intros f Hf. cbn [iter_upc]. rewrite E by lia. reflexivity.
Qed.

Lemma INR_above x : exists k, (x < INR k)%R.
Proof.
  destruct (archimed x) as (A & _). exists (Z.to_nat (up x)). rewrite INR_IZR_INZ. assert (IZR (up x) <= IZR (Z.of_nat (Z.to_nat (up x))))%R by (apply IZR_le; lia). lra.
Qed.
Lemma raise_loop lo r : (0 < r)%R -> forall k x, (lo - INR k * r <= x)%R ->
  ample (fun f => while_ f (fun x => Ok (nltb x lo)) x (fun x => Ok (nadd x r))) (fun y => (lo <= y)%R /\ (y = x \/ y < lo + r)%R).
Proof.
  intros Hr. induction k as [|k IH]; intros x Hx.
  - cbn [INR] in Hx. exists 0%nat, x. split; [|split; [lra|left; reflexivity]]. intros f _. destruct f; cbn [while_ bind nltb Num_R]; rewrite (proj2 (Rltb_false x lo)) by lra; reflexivity.
  - destruct (Rle_lt_dec lo x) as [L|L].
    + exists 0%nat, x. split; [|split; [lra|left; reflexivity]]. intros f _. destruct f; cbn [while_ bind nltb Num_R]; rewrite (proj2 (Rltb_false x lo)) by lra; reflexivity.
    + destruct (IH (x + r)%R) as (N & y & E & H1 & H2). { rewrite S_INR in Hx. lra. }
      exists (Datatypes.S N), y. split; [|split; [exact H1|right; destruct H2; lra]]. intros [|f] Hf; [lia|]. cbn [while_ bind nltb Num_R]. rewrite (proj2 (Rltb_true x lo)) by lra. apply E. lia.
Qed.
Lemma lower_loop hi r : (0 < r)%R -> forall k x, (x <= hi + INR k * r)%R ->
  ample (fun f => while_ f (fun x => Ok (nltb hi x)) x (fun x => Ok (nsub x r))) (fun y => (y <= hi)%R /\ (y = x \/ hi - r < y)%R).
Proof.
  intros Hr. induction k as [|k IH]; intros x Hx.
  - cbn [INR] in Hx. exists 0%nat, x. split; [|split; [lra|left; reflexivity]]. intros f _. destruct f; cbn [while_ bind nltb Num_R]; rewrite (proj2 (Rltb_false hi x)) by lra; reflexivity.
  - destruct (Rle_lt_dec x hi) as [L|L].
    + exists 0%nat, x. split; [|split; [lra|left; reflexivity]]. intros f _. destruct f; cbn [while_ bind nltb Num_R]; rewrite (proj2 (Rltb_false hi x)) by lra; reflexivity.
    + destruct (IH (x - r)%R) as (N & y & E & H1 & H2). { rewrite S_INR in Hx. lra. }
      exists (Datatypes.S N), y. split; [|split; [exact H1|right; destruct H2; lra]]. intros [|f] Hf; [lia|]. cbn [while_ bind nltb Num_R]. rewrite (proj2 (Rltb_true hi x)) by lra. apply E. lia.
Qed.
Lemma wrap_ample cl lo hi x : (lo < hi)%R -> ample (fun f => wrap_param f cl x lo hi) (fun y => (lo <= y <= hi)%R).
Proof.
  intros Hlh. destruct cl; unfold wrap_param.
  - assert (K : forall z, exists k, (z <= INR k * (hi - lo))%R).
    { intros z. destruct (INR_above (z / (hi - lo))) as (k & Hk). exists k. apply (Rmult_lt_compat_r (hi - lo)) in Hk; [|lra]. unfold Rdiv in Hk. rewrite Rmult_assoc, Rinv_l, Rmult_1_r in Hk by lra. lra. }
    destruct (K (lo - x)%R) as (k1 & K1). destruct (raise_loop lo (hi - lo) ltac:(lra) k1 x ltac:(lra)) as (N1 & y & E1 & A1 & A2).
    destruct (K (y - hi)%R) as (k2 & K2). destruct (lower_loop hi (hi - lo) ltac:(lra) k2 y ltac:(lra)) as (N2 & z & E2 & B1 & B2).
    exists (Nat.max N1 N2), z. split; [|destruct B2; lra]. intros f Hf. num. etransitivity; [apply (f_equal (fun m => bind m _)), E1; lia|]. cbn [bind]. apply E2. lia.
  - exists 0%nat, (std_max lo (std_min hi x)). split; [reflexivity|]. destruct (smin_le hi x) as (A1 & A2 & A3). destruct (smax_ge lo (std_min hi x)) as (B1 & B2 & B3). split; [exact B1|]. apply B3; [lra|exact A1].
Qed.

Section Search.
Variables (p n : Z) (U : list R) (H : list (XYZW R)).
Hypothesis HU : curve_knots p n U.
Hypothesis Hp : p <= 7.
Hypothesis HH : len H = n + 1.
Hypothesis Hw : heavy H.
Hypothesis Hcl : clamped_knots p n U.
Let c := mkCurve p U H.
Let lo := val U p.
Let hi := val U (n + 1).

Lemma dom_lt : (lo < hi)%R.
Proof. pose proof HU as [P0 N0 L S F _]. unfold lo, hi. pose proof (S (p + 1) (n + 1) ltac:(lia) ltac:(lia) ltac:(lia)). pose proof (tol_pos (val U p) (val U (p + 1))). lra. Qed.

Lemma guess_ok points params P : len points = len params -> 2 <= len params -> (forall k, 0 <= k < len params -> in_domain p n U (val params k)) ->
  returns (curve_guess points params P lo) (in_domain p n U).
Proof.
  intros LL L2 HD. apply wp_elim. unfold curve_guess. apply wp_bind.
  apply wp_for_up with (P := fun _ (s : R * R) => in_domain p n U (snd s)); [lia| | |].
  - cbn [snd]. pose proof dom_lt. split; unfold lo, hi in *; lra.
  - intros k [d bt] Hk IH. cbn [snd] in IH. rewrite !(get_at (mkXYZ 0 0 0)%R) by lia. cbn [bind]. rewrite !get_val by lia. cbn [bind]. set (P0 := at_ _ points k). set (P1 := at_ _ points (k + 1)).
    assert (Ht : wp (if nltb DoubleEpsilon (DotProduct (xyz_sub P1 P0) (xyz_sub P1 P0)) then let! t := ndiv (DotProduct (xyz_sub P P0) (xyz_sub P1 P0)) (DotProduct (xyz_sub P1 P0) (xyz_sub P1 P0)) in Ok (std_max n0 (std_min n1 t)) else Ok (nlit 1 2))
      (fun t => (0 <= t <= 1)%R)).
    { destruct (nltb _ _) eqn:Eg.
      - cbn [nltb Num_R] in Eg. apply Rltb_true in Eg. assert (0 < DoubleEpsilon (A := R))%R by (unfold DoubleEpsilon; num; lra). apply wp_bind. num. rewrite Rdiv_ok by lra. apply wp_ok. apply wp_ok. apply clamp01.
      - apply wp_ok. num. lra. }
    apply wp_bind. eapply wp_mono; [exact Ht|]. intros t Ht'. destruct (nltb _ d) eqn:El; apply wp_ok; cbn [snd]; [|exact IH]. apply between_in; [apply HD; lia|apply HD; lia|exact Ht'].
  - intros [d bt] IH. cbn [snd bind] in *. apply wp_ok. exact IH.
Qed.

(* the same, with the distance before the last step *)
Definition found_far (P : XYZ R) (t : R) : Prop :=
  in_domain p n U t \/
  exists t0 g, in_domain p n U t0 /\ curve_derivs p n U H 2 t0 g /\
    ((t - t0) * (dot3 (g 1%Z) (g 1%Z) + dot3 (minus3 (g 0%Z) P) (g 2%Z)) = - dot3 (g 1%Z) (minus3 (g 0%Z) P))%R /\
    (Rabs (t - t0) * norm3 (g 1%Z) < 1 / 10000)%R /\ (1 / 10000 <= norm3 (minus3 (g 0%Z) P))%R.
Lemma newton_far cl P t : in_domain p n U t -> ample (fun f => curve_newton f c P lo hi cl t) (found_far P).
Proof.
  intros Dt. unfold curve_newton.
  match goal with |- ample (fun f => bind (for_upc 0 20 t (@?b f)) _) _ => pose proof (ample_upc (in_domain p n U) (found_far P) b) as X end.
  cbv beta in X. destruct (X) with (lo := 0) (hi := 20) (s := t) as (N & r & E & Hr); [|exact Dt|].
  - clear X. intros _ x Dx. pose proof (curve_weight p n U H x HU HH Hw Dx) as Wx. destruct (derivs_at p n U H x HU Hp HH Dx ltac:(lra) 2 ltac:(lia)) as (g & D & G & ED & GD). fold c in ED.
    destruct (wrap_ample cl lo hi (x - dot3 (g 1%Z) (minus3 (g 0%Z) P) / (dot3 (g 1%Z) (g 1%Z) + dot3 (minus3 (g 0%Z) P) (g 2%Z)))%R dom_lt) as (N & y & Ey & Hy).
    exists N. 
    assert (Z : exists c0, (forall f, (N <= f)%nat -> (let! derivatives := ComputeRationalCurveDerivatives c 2 x in let! C := get derivatives 0 in let! Ct := get derivatives 1 in let! Ctt := get derivatives 2 in
       let! currentDist := Length (xyz_sub C P) in if nltb currentDist DistanceEpsilon then Ok (Stop x) else if nltb (nabs (DotProduct Ct Ct + DotProduct (xyz_sub C P) Ctt)%num) DoubleEpsilon then Ok (Stop x) else
       let! deltaT := ndiv (DotProduct Ct (xyz_sub C P)) (DotProduct Ct Ct + DotProduct (xyz_sub C P) Ctt)%num in let! l := Length Ct in
       if nltb (nabs (deltaT * l)%num) DistanceEpsilon then Ok (Stop (x - deltaT)%num) else let! newT := wrap_param f cl (x - deltaT)%num lo hi in Ok (Next newT)) = Ok c0) /\ match c0 with Next s' => in_domain p n U s' | Stop r => found_far P r end).
    2:{ exact Z. }
    rewrite ED. cbn [bind]. rewrite !GD by lia. cbn [bind]. rewrite Length_eq. cbn [bind]. destruct (nltb (norm3 _) _) eqn:Ef; [exists (Stop x); split; [reflexivity|left; exact Dx]|].
    destruct (nltb (nabs _) _) eqn:Ed; [exists (Stop x); split; [reflexivity|left; exact Dx]|].
    change (@DotProduct R _) with dot3 in *. change (@xyz_sub R _) with minus3 in *. cbn [nltb Num_R] in Ed, Ef. apply Rltb_false in Ed. unfold DoubleEpsilon in Ed. num. set (df := (dot3 (g 1%Z) (g 1%Z) + dot3 (minus3 (g 0%Z) P) (g 2%Z))%R) in *.
    assert (Hdf : df <> 0%R) by (intros E0; rewrite E0, Rabs_R0 in Ed; lra). rewrite Rdiv_ok by exact Hdf. cbn [bind]. rewrite Length_eq. cbn [bind]. set (dt := (dot3 (g 1%Z) (minus3 (g 0%Z) P) / df)%R) in *.
    destruct (Rltb (Rabs (dt * norm3 (g 1%Z))) DistanceEpsilon) eqn:El.
    + exists (Stop (x - dt)%R). split; [intros f _; reflexivity|]. right. exists x, g. split; [exact Dx|]. split; [exact G|]. fold df. apply Rltb_true in El. unfold DistanceEpsilon in El. num.
      rewrite Rabs_mult, (Rabs_right (norm3 (g 1%Z))) in El by (apply Rle_ge, norm_pos). replace (x - dt - x)%R with (- dt)%R by ring. rewrite Rabs_Ropp. split; [unfold dt; field; exact Hdf|]. split; [exact El|]. apply Rltb_false in Ef. unfold DistanceEpsilon in Ef. num. lra.
    + exists (Next y). split; [|exact Hy]. intros f Hf. rewrite Ey by exact Hf. reflexivity.
  - exists N, (match r with Stop q => q | Next q => q end). split; [|destruct r; [left; exact Hr|exact Hr]]. intros f Hf. etransitivity; [apply (f_equal (fun m => bind m _)), E, Hf|]. reflexivity.
Qed.

Lemma found_weak P t : found_far P t -> found_at p n U H P t.
Proof. intros [D|(t0 & g & D & G & E & L & _)]; [left; exact D|]. right. exists t0, g. auto. Qed.
Lemma newton_ok cl P t : in_domain p n U t -> ample (fun f => curve_newton f c P lo hi cl t) (found_at p n U H P).
Proof. intros D. destruct (newton_far cl P t D) as (N & r & E & F). exists N, r. split; [exact E|]. apply found_weak, F. Qed.

Lemma GetParam_run P : exists cl N0 t, IsClosed c = Ok cl /\ in_domain p n U t /\ N0 = 0%nat /\ forall f, GetParamOnCurve f c P = curve_newton f c P lo hi cl t.
Proof.
  destruct (domain_ends p n U HU Hcl) as (E0 & E1). destruct (IsClosed_ok p n U H HU Hp HH Hw Hcl) as (cl & EC & _).
  destruct (Tessellate_ok p n U H HU Hp HH Hw Hcl) as ([ps us] & ET & V & IV & NV & L1 & L2 & S). cbn [fst snd] in *.
  assert (LV : 2 <= len V).
  { pose proof HU as [P0 N0 L SU _ _]. pose proof (len_nonneg V) as L0.
    assert (X0 : len V <> 0). { intros X0. assert (G : In (val U 0) V) by (apply NV, val_In; lia). destruct V; [contradiction|]. rewrite len_cons in X0. pose proof (len_nonneg V). lia. }
    destruct (knots_ends _ _ _ _ HU Hcl IV NV ltac:(lia)) as (K0 & K1). destruct (Z.eq_dec (len V) 1) as [X1|]; [|lia]. rewrite X1 in K1. change (1 - 1) with 0 in K1. pose proof dom_lt. unfold lo, hi in *. lra. }
  destruct (guess_ok ps us P) as (t & EG & Dt); [lia|lia| |].
  { intros k Hk. rewrite L2 in Hk. destruct (S k Hk) as (-> & _). apply (sample_dom p n U HU Hcl); [|intros x; apply NV|exact Hk]. intros i j Hi Hj Hl. destruct (Z.eq_dec i j) as [->|]; [lra|]. apply Rlt_le, IV; lia. }
  exists cl, 0%nat, t. split; [exact EC|]. split; [exact Dt|]. split; [reflexivity|]. intros f. unfold GetParamOnCurve. cbn [KnotVector c]. rewrite E0, E1. cbn [bind]. fold c. unfold c in EC |- *. rewrite EC. cbn [bind]. rewrite ET. cbn [bind fst snd]. fold lo hi. rewrite EG. reflexivity.
Qed.

Lemma GetParam_far P : exists N t, (forall f, (N <= f)%nat -> GetParamOnCurve f c P = Ok t) /\ found_far P t.
Proof.
  destruct (GetParam_run P) as (cl & _ & t & _ & Dt & _ & E). destruct (newton_far cl P t Dt) as (N & r & EN & Hr). exists N, r. split; [|exact Hr]. intros f Hf. rewrite E. apply EN, Hf.
Qed.
Lemma GetParam_ok P : exists N t, (forall f, (N <= f)%nat -> GetParamOnCurve f c P = Ok t) /\ found_at p n U H P t.
Proof.
  destruct (GetParam_run P) as (cl & _ & t & _ & Dt & _ & E). destruct (newton_ok cl P t Dt) as (N & r & EN & Hr). exists N, r. split; [|exact Hr]. intros f Hf. rewrite E. apply EN, Hf.
Qed.
End Search.

(* straight segments *)
Lemma line_deriv f t l q r : derivable_pt_lim f t l -> (forall x, f x = q * (1 - x) + r * x)%R -> l = (r - q)%R.
Proof.
  intros Hf Hx. apply (uniqueness_limite f t); [exact Hf|]. apply (P_Deriv.der_ext (fun x => (q + (r - q) * x)%R)); [intros x; rewrite Hx; ring|].
  pose proof (derivable_pt_lim_plus (fct_cte q) (mult_real_fct (r - q) id) t _ _ (derivable_pt_lim_const q t) (derivable_pt_lim_scal id (r - q) t 1 (derivable_pt_lim_id t))) as Q. replace (0 + (r - q) * 1)%R with (r - q)%R in Q by ring. exact Q.
Qed.
Lemma line_derivs (D : R -> Prop) f q r (g0 g1 g2 : R -> R) t : (forall x, D x) -> (forall x, f x = q * (1 - x) + r * x)%R ->
  nth_deriv_on D 0 f g0 -> nth_deriv_on D 1 f g1 -> nth_deriv_on D 2 f g2 -> g0 t = (q * (1 - t) + r * t)%R /\ g1 t = (r - q)%R /\ g2 t = 0%R.
Proof.
  intros HD Hf H0 (h1 & D1 & E1) (h2 & D2 & h3 & D3 & E3). split; [rewrite <- H0 by apply HD; apply Hf|]. split.
  - rewrite <- E1 by apply HD. apply (line_deriv f t); [apply D1, HD|exact Hf].
  - rewrite <- E3 by apply HD. replace 0%R with ((r - q) - (r - q))%R by ring. apply (line_deriv h2 t); [apply D3, HD|]. intros x. transitivity (r - q)%R; [apply (line_deriv f x); [apply D2, HD|exact Hf]|ring].
Qed.
Lemma bar_derivs a b t g : (0 <= t <= 1)%R -> curve_derivs 1 1 (bezier_knots 1) (bar a b) 2 t g -> g 0 = lerp3 a b t /\ g 1 = minus3 b a /\ g 2 = zero3.
Proof.
  intros Ht (k & Hk & G). assert (k = 1) as -> by (destruct Hk; lia). destruct (G 0 ltac:(lia)) as (F0 & (X0 & Y0 & Z0) & <-). destruct (G 1 ltac:(lia)) as (F1 & (X1 & Y1 & Z1) & <-). destruct (G 2 ltac:(lia)) as (F2 & (X2 & Y2 & Z2) & <-).
  assert (W : forall x, ww (span_curve 1 1 (bezier_knots 1) (bar a b) x) <> 0%R) by (intros; rewrite bar_span; unfold hom; cbn; lra).
  change (Z.to_nat 0) with 0%nat in *. change (Z.to_nat 1) with 1%nat in *. change (Z.to_nat 2) with 2%nat in *.
  assert (Lx : forall x, gx (proj (span_curve 1 1 (bezier_knots 1) (bar a b) x)) = (gx a * (1 - x) + gx b * x)%R) by (intros x; rewrite bar_span, hom_proj; unfold lerp3, plus3, times3; cbn [gx gy gz]; ring).
  destruct (line_derivs _ _ (gx a) (gx b) _ _ _ t W Lx X0 X1 X2) as (A0 & A1 & A2).
  assert (Ly : forall x, gy (proj (span_curve 1 1 (bezier_knots 1) (bar a b) x)) = (gy a * (1 - x) + gy b * x)%R) by (intros x; rewrite bar_span, hom_proj; unfold lerp3, plus3, times3; cbn [gx gy gz]; ring).
  destruct (line_derivs _ _ (gy a) (gy b) _ _ _ t W Ly Y0 Y1 Y2) as (B0 & B1 & B2).
  assert (Lz : forall x, gz (proj (span_curve 1 1 (bezier_knots 1) (bar a b) x)) = (gz a * (1 - x) + gz b * x)%R) by (intros x; rewrite bar_span, hom_proj; unfold lerp3, plus3, times3; cbn [gx gy gz]; ring).
  destruct (line_derivs _ _ (gz a) (gz b) _ _ _ t W Lz Z0 Z1 Z2) as (C0 & C1 & C2).
  cbv beta in *. destruct (F0 t) as [x0 y0 z0], (F1 t) as [x1 y1 z1], (F2 t) as [x2 y2 z2]. cbn [gx gy gz] in *. subst. unfold lerp3, plus3, times3, minus3, zero3. cbn [gx gy gz]. repeat split; f_equal; ring.
Qed.

Section Segment.
Variables (a b P : XYZ R).
Hypothesis Hab : (1 / 1000 <= dist3 a b)%R.
Hypothesis Hne : ~ Spec3.near b a.
Let d := minus3 b a.
Let foot := (dot3 (minus3 P a) d / dot3 d d)%R.
Let clamp := (std_max 0 (std_min 1 foot))%R.
Lemma dd_big : (1 / 1000000 <= dot3 d d)%R.
Proof. exact (bar_long a b Hab). Qed.

Definition seg_result (r : R) : Prop :=
  ((0 <= r <= 1)%R /\ (dist3 P (lerp3 a b r) < 1 / 10000)%R) \/ (r = clamp /\ (1 / 10000 <= Rabs (clamp - foot) * norm3 d)%R) \/
  (r = foot /\ exists t, (0 <= t <= 1)%R /\ (Rabs (t - foot) * norm3 d < 1 / 10000)%R).

Lemma seg_newton f t : (0 <= t <= 1)%R -> returns (curve_newton f (mkCurve 1 (bezier_knots 1) (bar a b)) P (val (bezier_knots 1) 1) (val (bezier_knots 1) (1 + 1)) false t) seg_result.
Proof.
  intros Ht. pose proof dd_big as HD. assert (C01 : (0 <= clamp <= 1)%R) by (unfold clamp; apply (clamp01 foot)). change (val (bezier_knots 1) 1) with 0%R. change (val (bezier_knots 1) (1 + 1)) with 1%R. apply wp_elim. unfold curve_newton. apply wp_bind.
  apply wp_for_upc with (P := fun k x => (0 <= x <= 1)%R /\ (0 < k -> x = clamp) /\ (1 < k -> (1 / 10000 <= Rabs (clamp - foot) * norm3 d)%R)) (F := seg_result).
  - split; [exact Ht|]. split; lia.
  - intros k x Hk (Dx & Ex & _). destruct bar_knots as (K & CK). destruct (derivs_at 1 1 (bezier_knots 1) (bar a b) x K ltac:(lia) eq_refl (bar_dom x Dx)) with (d := 2) as (g & L & G & E & HG); [rewrite bar_at by exact Dx; unfold hom; cbn; lra|lia|].
    rewrite E. cbn [bind]. rewrite !HG by lia. cbn [bind]. destruct (bar_derivs a b x g Dx G) as (-> & -> & ->). fold d. rewrite Length_eq. cbn [bind].
    change (@DotProduct R _) with dot3. change (@xyz_sub R _) with minus3. num. fold d.
    assert (E0 : norm3 (minus3 (lerp3 a b x) P) = dist3 P (lerp3 a b x)) by (unfold dist3, norm3; f_equal; unfold dot3, minus3; cbn [gx gy gz]; ring). rewrite E0.
    destruct (Rltb_spec (dist3 P (lerp3 a b x)) DistanceEpsilon) as [L0|L0]; [apply wp_ok; left; split; [exact Dx|exact L0]|].
    replace (dot3 (minus3 (lerp3 a b x) P) zero3) with 0%R by (unfold dot3, zero3; cbn [gx gy gz]; ring). rewrite Rplus_0_r, (Rabs_right (dot3 d d)) by lra.
    destruct (Rltb_spec (dot3 d d) DoubleEpsilon) as [L1|L1]; [unfold DoubleEpsilon in L1; num; lra|]. rewrite Rdiv_ok by lra. cbn [bind]. rewrite Length_eq. cbn [bind].
    assert (EF : (dot3 d (minus3 (lerp3 a b x) P) / dot3 d d = x - foot)%R).
    { unfold foot. apply (Rmult_eq_reg_r (dot3 d d)); [|lra]. unfold Rdiv. rewrite Rmult_minus_distr_r, !Rmult_assoc, Rinv_l, !Rmult_1_r by lra. unfold dot3, minus3, lerp3, plus3, times3, d. cbn [gx gy gz]. unfold minus3. cbn [gx gy gz]. ring. }
    rewrite EF. replace (x - (x - foot))%R with foot by ring. fold d.
    destruct (Rltb_spec (Rabs ((x - foot) * norm3 d)) DistanceEpsilon) as [L2|L2].
    + apply wp_ok. right. right. split; [reflexivity|]. exists x. split; [exact Dx|]. rewrite Rabs_mult, (Rabs_right (norm3 d)) in L2 by (apply Rle_ge, norm_pos). exact L2.
    + unfold wrap_param. cbn [bind]. apply wp_ok. split; [exact C01|]. split; [intros _; reflexivity|]. intros Hk1. rewrite Ex in L2 by lia. rewrite Rabs_mult, (Rabs_right (norm3 d)) in L2 by (apply Rle_ge, norm_pos). exact L2.
  - intros x (Dx & Ex & Ey). apply wp_ok. right. left. split; [apply Ex; lia|apply Ey; lia].
  - intros r Hr. apply wp_ok. exact Hr.
Qed.
Lemma seg_run f : returns (GetParamOnCurve f (mkCurve 1 (bezier_knots 1) (bar a b)) P) seg_result.
Proof.
  destruct bar_knots as (K & CK). destruct (GetParam_run 1 1 (bezier_knots 1) (bar a b) K ltac:(lia) eq_refl (bar_heavy a b) CK P) as (cl & _ & t & EC & Dt & _ & E). rewrite bar_open in EC by assumption. injection EC as <-. rewrite E. apply seg_newton. exact Dt.
Qed.
Lemma seg_dist s : (dist3 P (lerp3 a b s) * dist3 P (lerp3 a b s) = dot3 (minus3 P a) (minus3 P a) - foot * foot * dot3 d d + (s - foot) * (s - foot) * dot3 d d)%R.
Proof.
  pose proof dd_big as HD. unfold dist3, norm3. rewrite sqrt_sqrt by (unfold dot3; nra). assert (EF : (foot * dot3 d d = dot3 (minus3 P a) d)%R) by (unfold foot; field; lra).
  replace (dot3 (minus3 P a) (minus3 P a) - foot * foot * dot3 d d + (s - foot) * (s - foot) * dot3 d d)%R with (dot3 (minus3 P a) (minus3 P a) + s * s * dot3 d d - 2 * s * (foot * dot3 d d))%R by ring. rewrite EF.
  unfold dot3, minus3, lerp3, plus3, times3, d. cbn [gx gy gz]. unfold minus3. cbn [gx gy gz]. ring.
Qed.
Lemma seg_closer r s : ((r - foot) * (r - foot) <= (s - foot) * (s - foot))%R -> (dist3 P (lerp3 a b r) <= dist3 P (lerp3 a b s))%R.
Proof.
  intros Hrs. pose proof dd_big as HD. pose proof (seg_dist r) as E1. pose proof (seg_dist s) as E2. assert (0 <= dist3 P (lerp3 a b r))%R by apply sqrt_pos. assert (0 <= dist3 P (lerp3 a b s))%R by apply sqrt_pos. nra.
Qed.
Lemma seg_nearest f : returns (GetParamOnCurve f (mkCurve 1 (bezier_knots 1) (bar a b)) P) (fun r =>
  (exists t, (0 <= t <= 1)%R /\ (dist3 (lerp3 a b t) (lerp3 a b r) < 1 / 10000)%R) /\
  ((dist3 P (lerp3 a b r) < 1 / 10000)%R \/ forall s, (0 <= s <= 1)%R -> (dist3 P (lerp3 a b r) <= dist3 P (lerp3 a b s))%R)).
Proof.
  destruct (seg_run f) as (r & E & Hr). exists r. split; [exact E|].
  assert (Z0 : forall t, (dist3 (lerp3 a b t) (lerp3 a b t) < 1 / 10000)%R). { intros t. unfold dist3, norm3. replace (dot3 _ _) with 0%R by (unfold dot3, minus3; cbn [gx gy gz]; ring). rewrite sqrt_0. lra. }
  destruct Hr as [(Hr & L)|[(-> & _)|(-> & t & Ht & L)]].
  - split; [exists r; split; [exact Hr|apply Z0]|]. left. exact L.
  - assert (C01 : (0 <= clamp <= 1)%R) by (unfold clamp; apply (clamp01 foot)). split; [exists clamp; split; [exact C01|apply Z0]|]. right. intros s Hs. apply seg_closer. unfold clamp, std_max, std_min. cbn [nltb Num_R].
    destruct (Rltb_spec foot 1) as [A1|A1]; [destruct (Rltb_spec 0 foot) as [A2|A2]|destruct (Rltb_spec 0 1) as [A2|A2]; [|lra]].
    + replace (foot - foot)%R with 0%R by ring. rewrite Rmult_0_l. apply Rle_0_sqr.
    + pose proof (Rle_0_sqr s) as X. unfold Rsqr in X. assert (s * foot <= 0)%R by nra. replace ((s - foot) * (s - foot))%R with (s * s - 2 * (s * foot) + foot * foot)%R by ring. replace ((0 - foot) * (0 - foot))%R with (foot * foot)%R by ring. lra.
    + assert (0 <= (1 - s) * (2 * foot - 1 - s))%R by (apply Rmult_le_pos; lra). replace ((s - foot) * (s - foot))%R with ((1 - foot) * (1 - foot) + (1 - s) * (2 * foot - 1 - s))%R by ring. lra.
  - split.
    + exists t. split; [exact Ht|]. replace (dist3 (lerp3 a b t) (lerp3 a b foot)) with (Rabs (t - foot) * norm3 d)%R; [exact L|]. unfold dist3. rewrite <- sqrt_Rsqr_abs. unfold norm3. rewrite <- sqrt_mult by (apply Rle_0_sqr || apply dot_pos).
      f_equal. unfold dot3, minus3, lerp3, plus3, times3, d, Rsqr. cbn [gx gy gz]. unfold minus3. cbn [gx gy gz]. ring.
    + right. intros s Hs. apply seg_closer. replace (foot - foot)%R with 0%R by ring. rewrite Rmult_0_l. apply Rle_0_sqr.
Qed.
End Segment.

(* a foot just outside the segment *)
Lemma outside f : GetParamOnCurve f (mkCurve 1 (bezier_knots 1) (bar (mkXYZ 0 0 0) (mkXYZ 1 0 0)))%R (mkXYZ (- (1 / 20000)) 1 0)%R = Ok (- (1 / 20000))%R.
Proof.
  set (a := (mkXYZ 0 0 0)%R). set (b := (mkXYZ 1 0 0)%R). set (P := (mkXYZ (- (1 / 20000)) 1 0)%R).
  assert (E1 : dot3 (minus3 b a) (minus3 b a) = 1%R) by (unfold dot3, minus3, a, b; cbn [gx gy gz]; ring).
  assert (E2 : (dot3 (minus3 P a) (minus3 b a) / dot3 (minus3 b a) (minus3 b a) = - (1 / 20000))%R) by (rewrite E1; unfold dot3, minus3, a, b, P; cbn [gx gy gz]; field).
  assert (E3 : norm3 (minus3 b a) = 1%R) by (unfold norm3; rewrite E1; apply sqrt_1).
  destruct (seg_run a b P) with (f := f) as (r & E & Hr).
  - replace (dist3 a b) with 1%R; [lra|]. unfold dist3, norm3. replace (dot3 _ _) with 1%R by (unfold dot3, minus3, a, b; cbn [gx gy gz]; ring). symmetry. apply sqrt_1.
  - intros (A & _). unfold a, b, tol in A. cbn [gx] in A. rewrite Rminus_0_r, Rabs_R0, Rabs_R1, Rmax_left in A by lra. lra.
  - rewrite E. f_equal. destruct Hr as [(_ & L)|[(_ & L)|(-> & _)]]; [exfalso|exfalso|exact E2].
    + assert (dist3 P (lerp3 a b r) * dist3 P (lerp3 a b r) >= 1)%R; [|assert (0 <= dist3 P (lerp3 a b r))%R by apply sqrt_pos; nra]. unfold dist3, norm3. rewrite sqrt_sqrt by apply dot_pos. replace (dot3 _ _) with (Rsqr (1 / 20000 + r) + 1)%R; [pose proof (Rle_0_sqr (1 / 20000 + r)); lra|]. unfold Rsqr, dot3, minus3, lerp3, plus3, times3, a, b, P. cbn [gx gy gz]. field.
    + rewrite E2, E3 in L. revert L. unfold std_min, std_max. cbn [nltb Num_R]. destruct (Rltb_spec (- (1 / 20000)) 1); [|lra]. destruct (Rltb_spec 0 (- (1 / 20000))); [lra|]. rewrite Rabs_right by lra. lra.
Qed.
Lemma outside_rejected H : NurbsPoint (mkCurve 1 (bezier_knots 1) H) (- (1 / 20000))%R = Throw.
Proof.
  unfold NurbsPoint, GetPointOnCurve. cbn [Degree KnotVector ControlPoints]. unfold validate_domain. change (get (bezier_knots 1) 0) with (Ok 0%R). change (get (bezier_knots 1) (len (bezier_knots 1) - 1)) with (Ok 1%R). cbn [bind].
  unfold validate_range, DoubleEpsilon. num. destruct (Rltb_spec (- (1 / 20000)) 0); [|lra]. rewrite Rminus_0_r, Rabs_left by lra. destruct (Rltb_spec (1 / 1000000) (- - (1 / 20000))); [|lra]. reflexivity.
Qed.
