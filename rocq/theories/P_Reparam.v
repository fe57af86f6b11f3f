(* Affine and rational reparametrisation, transformation by a matrix, lines. *)
From Coq Require Import ZArith List Bool Reals Lra Lia.
From Verif Require Import Base Num Vec Tac Spec Spec2 Spec3 M_MathUtils M_Polynomials M_XYZ M_Bspline M_NurbsCurve M_Knots M_Matrix M_Curve2
  P_MathUtils P_Span P_Cox P_Vec P_VSum P_Curve P_Bspline P_Insert P_Insert2 P_Loop P_XYZ P_Nurbs.
Import ListNotations.
Open Scope Z_scope.

(** * Basis functions of moved knots *)

(* f increasing on the knots and t: same degree 0 functions *)
Lemma N0_mono (U V : Z -> R) (f : R -> R) b i t :
  (forall x y, In x [U i; U (i + 1)%Z; t; b] -> In y [U i; U (i + 1); t; b] -> (x < y)%R -> (f x < f y)%R) ->
  V i = f (U i) -> V (i + 1) = f (U (i + 1)) -> N0 V (f b) i (f t) = N0 U b i t.
Proof.
  intros Hf E1 E2. unfold N0. rewrite E1, E2.
  assert (Hlt : forall x y, In x [U i; U (i + 1)%Z; t; b] -> In y [U i; U (i + 1); t; b] -> ((f x < f y)%R <-> (x < y)%R)).
  { intros x y Hx Hy. split; [|apply Hf; assumption]. intros H. destruct (Rtotal_order x y) as [H1|[->|H1]]; [assumption|lra|].
    specialize (Hf y x Hy Hx H1). lra. }
  assert (Hle : forall x y, In x [U i; U (i + 1)%Z; t; b] -> In y [U i; U (i + 1); t; b] -> ((f x <= f y)%R <-> (x <= y)%R)).
  { intros x y Hx Hy. specialize (Hlt y x Hy Hx). split; intros H.
    - destruct (Rle_lt_dec x y); [assumption|]. apply Hlt in r. lra.
    - destruct (Rle_lt_dec (f x) (f y)); [assumption|]. apply Hlt in r. lra. }
  assert (It : In t [U i; U (i + 1); t; b]) by (cbn; auto). assert (Ib : In b [U i; U (i + 1); t; b]) by (cbn; auto).
  assert (I1 : In (U i) [U i; U (i + 1); t; b]) by (cbn; auto). assert (I2 : In (U (i + 1)) [U i; U (i + 1); t; b]) by (cbn; auto).
  pose proof (Hlt t b It Ib). pose proof (Hle (U i) t I1 It). pose proof (Hlt t (U (i + 1)) It I2).
  pose proof (Hlt (U i) t I1 It). pose proof (Hle t (U (i + 1)) It I2). clear Hf Hlt Hle.
  destruct (Rlt_dec (f t) (f b)), (Rlt_dec t b); try tauto;
  destruct (Rle_dec (f (U i)) (f t)), (Rle_dec (U i) t), (Rlt_dec (f t) (f (U (i + 1)%Z))), (Rlt_dec t (U (i + 1)%Z)); try tauto;
  destruct (Rlt_dec (f (U i)) (f t)), (Rlt_dec (U i) t), (Rle_dec (f t) (f (U (i + 1)%Z))), (Rle_dec t (U (i + 1)%Z)); try tauto.
Qed.

(* product of g (lo) .. g (hi - 1) *)
Definition rprod (lo : Z) (q : nat) (g : Z -> R) : R := fold_right (fun j x => (g (lo + Z.of_nat j)%Z * x)%R) 1%R (seq 0 q).

Lemma rprod_first lo q g : rprod lo (S q) g = (g lo * rprod (lo + 1) q g)%R.
Proof.
  unfold rprod. rewrite <- cons_seq. cbn [fold_right]. replace (lo + Z.of_nat 0) with lo by lia. f_equal.
  rewrite <- seq_shift. induction (seq 0 q) as [|a l IH]; [reflexivity|]. cbn [map fold_right]. rewrite IH. f_equal. f_equal. lia.
Qed.

Lemma rprod_last q : forall lo g, rprod lo (S q) g = (rprod lo q g * g (lo + Z.of_nat q)%Z)%R.
Proof.
  induction q as [|q IH]; intros lo g.
  - unfold rprod. cbn. ring.
  - rewrite rprod_first, IH, (rprod_first lo q). replace (lo + 1 + Z.of_nat q) with (lo + Z.of_nat (S q)) by lia. ring.
Qed.

Lemma rprod_pos q : forall lo g, (forall j, lo <= j < lo + Z.of_nat q -> (0 < g j)%R) -> (0 < rprod lo q g)%R.
Proof.
  induction q as [|q IH]; intros lo g H; [unfold rprod; cbn; lra|]. rewrite rprod_first.
  apply Rmult_lt_0_compat; [apply H; lia|apply IH; intros; apply H; lia].
Qed.

Lemma rprod_ext q : forall lo g h, (forall j, lo <= j < lo + Z.of_nat q -> g j = h j) -> rprod lo q g = rprod lo q h.
Proof.
  induction q as [|q IH]; intros lo g h H; [reflexivity|]. rewrite !rprod_first. rewrite (H lo) by lia. f_equal. apply IH. intros; apply H; lia.
Qed.

Section Moebius.
Variables al be ga de : R.
Let D := (al * de - ga * be)%R.
Definition moeb (x : R) : R := ((al * x + be) / (ga * x + de))%R.
Definition mden (x : R) : R := (ga * x + de)%R.

Lemma moeb_diff x y : mden x <> 0%R -> mden y <> 0%R -> (moeb x - moeb y)%R = (D * (x - y) / (mden x * mden y))%R.
Proof. unfold moeb, mden, D. intros Hx Hy. field. auto. Qed.

Lemma moeb_lt x y : (0 < D)%R -> (0 < mden x)%R -> (0 < mden y)%R -> (x < y)%R -> (moeb x < moeb y)%R.
Proof.
  intros HD Hx Hy H. enough (0 < moeb y - moeb x)%R by lra. rewrite moeb_diff by lra.
  apply Rmult_lt_0_compat; [apply Rmult_lt_0_compat; lra|]. apply Rinv_0_lt_compat. apply Rmult_lt_0_compat; lra.
Qed.

Lemma moeb_sdiv x y a b z w : (0 < D)%R -> (0 < mden x)%R -> (0 < mden y)%R -> (0 < mden a)%R -> (0 < mden b)%R ->
  (mden a * mden b / (mden x * mden y) = w / z)%R ->
  sdiv (moeb x - moeb y) (moeb a - moeb b) = (sdiv (x - y) (a - b) * (w / z))%R.
Proof.
  intros HD Hx Hy Ha Hb E. rewrite !moeb_diff by lra. unfold sdiv.
  assert (Hab : (0 < mden a * mden b)%R) by (apply Rmult_lt_0_compat; lra).
  destruct (Req_EM_T (a - b) 0) as [E0|E0].
  - rewrite E0. replace (D * 0 / (mden a * mden b))%R with 0%R by (field; lra). destruct (Req_EM_T 0 0); [ring|lra].
  - destruct (Req_EM_T (D * (a - b) / (mden a * mden b)) 0) as [E1|E1].
    + exfalso. apply E0. apply (Rmult_eq_reg_l (D / (mden a * mden b))).
      * rewrite Rmult_0_r, <- E1. field. lra.
      * assert (0 < D / (mden a * mden b))%R by (apply Rmult_lt_0_compat; [lra|apply Rinv_0_lt_compat; lra]). lra.
    + rewrite <- E. field. repeat split; lra.
Qed.

Lemma N_moeb (U V : Z -> R) b t : (0 < D)%R -> (0 < mden t)%R -> (0 < mden b)%R -> forall p i,
  (forall j, i <= j <= i + Z.of_nat p + 1 -> V j = moeb (U j) /\ (0 < mden (U j))%R) ->
  N V (moeb b) p i (moeb t) = (N U b p i t * (rprod (i + 1) p (fun j => mden (U j)) / mden t ^ p))%R.
Proof.
  intros HD Ht Hb. induction p as [|p IH]; intros i HV.
  - cbn. unfold rprod. cbn. unfold N. cbn [Nrec]. rewrite (N0_mono U V moeb); [field| |apply HV; lia|apply HV; lia].
    intros x y Hx Hy. apply moeb_lt; [assumption| |].
    + cbn [In] in Hx. destruct Hx as [<-|[<-|[<-|[<-|[]]]]]; (assumption || apply HV; lia).
    + cbn [In] in Hy. destruct Hy as [<-|[<-|[<-|[<-|[]]]]]; (assumption || apply HV; lia).
  - unfold N in *. cbn [Nrec]. rewrite (IH i), (IH (i + 1)) by (intros; apply HV; lia).
    destruct (HV i ltac:(lia)) as [-> H0]. destruct (HV (i + 1) ltac:(lia)) as [-> H1].
    destruct (HV (i + Z.of_nat (S p)) ltac:(lia)) as [-> H2]. destruct (HV (i + Z.of_nat (S p) + 1) ltac:(lia)) as [-> H3].
    rewrite (moeb_sdiv t (U i) (U (i + Z.of_nat (S p))) (U i) (mden t) (mden (U (i + Z.of_nat (S p))))) by (try assumption; field; lra).
    rewrite (moeb_sdiv (U (i + Z.of_nat (S p) + 1)) t (U (i + Z.of_nat (S p) + 1)) (U (i + 1)) (mden t) (mden (U (i + 1)))) by (try assumption; field; lra).
    rewrite Rmult_plus_distr_r. cbn [pow]. assert (0 < mden t ^ p)%R by (apply pow_lt; exact Ht). f_equal.
    + rewrite rprod_last. replace (i + 1 + Z.of_nat p) with (i + Z.of_nat (S p)) by lia. field. lra.
    + rewrite rprod_first. field. lra.
Qed.
End Moebius.

(** * Affine maps of the parameter *)
Lemma N_affine (U V : Z -> R) a c b t p i : (0 < a)%R -> (forall j, i <= j <= i + Z.of_nat p + 1 -> V j = (a * U j + c)%R) ->
  N V (a * b + c) p i (a * t + c) = N U b p i t.
Proof.
  intros Ha HV. pose proof (N_moeb a c 0 1 U V b t) as E. unfold mden, moeb in E.
  replace (a * 1 - 0 * c)%R with a in E by ring.
  replace (0 * t + 1)%R with 1%R in E by ring. replace (0 * b + 1)%R with 1%R in E by ring.
  replace (a * b + c)%R with ((a * b + c) / 1)%R by field. replace (a * t + c)%R with ((a * t + c) / 1)%R by field.
  rewrite E; [|lra..|].
  - rewrite pow1. replace (rprod (i + 1) p _) with 1%R; [field|]. generalize (i + 1). clear. induction p as [|p IH]; intros lo; [reflexivity|].
    rewrite rprod_first, <- IH. ring.
  - intros j Hj. replace (0 * U j + 1)%R with 1%R by ring. rewrite HV by lia. split; [field|lra].
Qed.

Section Affine.
Context {T : Type} {V : Vec R T} {L : VecL T}.

Lemma Rescale_ok U a b : 0 < len U -> val U (len U - 1) <> val U 0 ->
  wp (Rescale U a b) (fun W => arr W (len U) (fun i => ((b - a) / (val U (len U - 1) - val U 0) * (val U i - val U 0) + a)%R)).
Proof.
  intros HL Hne. assert (AU : arr U (len U) (val U)) by apply arr_at.
  unfold Rescale. wget AU. wget AU. num. rewrite Rdiv_ok by lra. cbn [bind].
  apply wp_bind. apply wp_mkvec; [lia|]. intros v Hv.
  apply (wp_fill_all (len U) (fun i => ((b - a) / (val U (len U - 1) - val U 0) * (val U i - val U 0) + a)%R)); [lia|exact (arr_len _ _ _ Hv)| |intros v' H'; exact H'].
  intros i v' Hi Hv'. wget AU. reflexivity.
Qed.

Lemma Rescale_returns U a b : 0 < len U -> val U (len U - 1) <> val U 0 ->
  returns (Rescale U a b) (fun W => len W = len U /\
    (forall i, 0 <= i < len U -> val W i = (a + (b - a) * ((val U i - val U 0) / (val U (len U - 1) - val U 0)))%R) /\
    val W 0 = a /\ val W (len U - 1) = b /\ ((a <= b)%R -> sorted U -> sorted W)).
Proof.
  intros HL Hne. destruct (wp_elim _ _ (Rescale_ok U a b HL Hne)) as (W & E & HW). exists W. split; [exact E|].
  pose proof (arr_len _ _ _ HW) as LW. split; [exact LW|].
  assert (HV : forall i, 0 <= i < len U -> val W i = (a + (b - a) * ((val U i - val U 0) / (val U (len U - 1) - val U 0)))%R).
  { intros i Hi. rewrite (arr_val _ _ _ _ HW) by lia. cbv beta. field. lra. }
  split; [exact HV|]. split; [rewrite HV by lia; field; lra|]. split; [rewrite HV by lia; field; lra|].
  intros Hab HS i j Hi Hij Hj. rewrite LW in Hj. rewrite !HV by lia. pose proof (HS i j ltac:(lia) ltac:(lia) ltac:(lia)). pose proof (HS 0 (len U - 1) ltac:(lia) ltac:(lia) ltac:(lia)).
  apply Rplus_le_compat_l. apply Rmult_le_compat_l; [lra|]. apply Rmult_le_compat_r; [|lra]. apply Rlt_le, Rinv_0_lt_compat. lra.
Qed.

Lemma Rescale_degenerate U a b : 0 < len U -> val U (len U - 1) = val U 0 -> Rescale U a b = NonFin.
Proof.
  intros HL E. assert (AU : arr U (len U) (val U)) by apply arr_at.
  unfold Rescale. rewrite (arr_get _ _ _ 0 AU) by lia. cbn [bind]. rewrite (arr_get _ _ _ (len U - 1) AU) by lia. cbn [bind].
  num. rewrite Rdiv_zero by lra. reflexivity.
Qed.

Lemma curve_point_affine p n U W (P : list T) a c t : 0 <= p -> (0 < a)%R ->
  (forall i, 0 <= i <= n + p + 1 -> val W i = (a * val U i + c)%R) -> 0 <= n ->
  curve_point p n W P (a * t + c) = curve_point p n U P t.
Proof.
  intros Hp Ha HW Hn. unfold curve_point. apply comb_ext. intros i Hi. split; [|reflexivity].
  rewrite (HW (n + 1)) by lia. apply N_affine; [exact Ha|]. intros j Hj. apply HW. lia.
Qed.
End Affine.


Lemma Reparametrize_ok {T} {V : Vec R T} {L : VecL T} p n U (P : list T) a b : curve_knots p n U -> (a < b)%R -> len P = n + 1 -> p <= 7 ->
  returns (Reparametrize (mkCurve p U P) a b) (fun c =>
    ((Rabs (a - val U 0) <= tol a (val U 0) /\ Rabs (b - val U (n + p + 1)) <= tol b (val U (n + p + 1)))%R /\ c = mkCurve p U P) \/
    (~ (Rabs (a - val U 0) <= tol a (val U 0) /\ Rabs (b - val U (n + p + 1)) <= tol b (val U (n + p + 1)))%R /\
     exists W, c = mkCurve p W P /\ len W = n + p + 2 /\ sorted W /\ val W 0 = a /\ val W (n + p + 1) = b /\
       let phi := fun t => ((b - a) / (val U (n + p + 1) - val U 0) * (t - val U 0) + a)%R in
       (forall i, 0 <= i <= n + p + 1 -> val W i = phi (val U i)) /\
       (forall t, curve_point p n W P (phi t) = curve_point p n U P t) /\
       (forall t, curve_knots p n W -> in_domain p n U t -> GetPointOnCurve c (phi t) = GetPointOnCurve (mkCurve p U P) t))).
Proof.
  intros HU Hab HP H7. pose proof (ck_p _ _ _ HU). pose proof (ck_n _ _ _ HU). pose proof (ck_len _ _ _ HU) as HL.
  pose proof (ck_sorted _ _ _ HU) as HS. assert (AU : arr U (n + p + 2) (val U)) by (rewrite <- HL; apply arr_at).
  assert (Hd : (0 < val U (n + p + 1) - val U 0)%R).
  { pose proof (ck_first _ _ _ HU). pose proof (tol_pos (val U p) (val U (p + 1))).
    assert (val U 0 <= val U p)%R by (apply HS; lia). assert (val U (p + 1) <= val U (n + p + 1))%R by (apply HS; lia). lra. }
  unfold Reparametrize. cbn [Degree KnotVector ControlPoints]. rewrite HL. replace (n + p + 2 - 1) with (n + p + 1) by lia.
  rewrite (arr_get _ _ _ 0 AU) by lia. cbn [bind]. rewrite (arr_get _ _ _ (n + p + 1) AU) by lia. cbn [bind].
  destruct (IsAlmostEqualTo a (val U 0) && IsAlmostEqualTo b (val U (n + p + 1))) eqn:E.
  - exists (mkCurve p U P). split; [reflexivity|]. left. split; [|reflexivity]. apply andb_true_iff in E. destruct E as [E1 E2].
    apply aeq_iff in E1. apply aeq_iff in E2. rewrite <- !tol_thr in *. auto.
  - pose proof (Rescale_ok U a b ltac:(lia)) as HR. rewrite HL in HR. replace (n + p + 2 - 1) with (n + p + 1) in HR by lia.
    destruct (wp_elim _ _ (HR ltac:(lra))) as (W & EW & HW). rewrite EW. cbn [bind].
    exists (mkCurve p W P). split; [reflexivity|]. right. split.
    { intros [E1 E2]. rewrite tol_thr in E1, E2. apply aeq_iff in E1. apply aeq_iff in E2. rewrite E1, E2 in E. discriminate. }
    exists W. split; [reflexivity|]. split; [exact (arr_len _ _ _ HW)|].
    set (k := ((b - a) / (val U (n + p + 1) - val U 0))%R) in *.
    assert (Hk : (0 < k)%R) by (apply Rmult_lt_0_compat; [lra|apply Rinv_0_lt_compat; lra]).
    assert (Ek : (k * (val U (n + p + 1) - val U 0) = b - a)%R) by (unfold k; field; lra).
    assert (Hv : forall i, 0 <= i <= n + p + 1 -> val W i = (k * (val U i - val U 0) + a)%R) by (intros; apply (arr_val _ _ _ _ HW); lia).
    split; [|split; [|split]].
    + intros i j Hi Hij Hj. rewrite (arr_len _ _ _ HW) in Hj. rewrite !Hv by lia.
      assert (val U i <= val U j)%R by (apply HS; lia). apply Rplus_le_compat_r. apply Rmult_le_compat_l; lra.
    + rewrite Hv by lia. ring.
    + rewrite Hv by lia. rewrite Ek. ring.
    + cbv zeta. assert (EC : forall t, curve_point p n W P (k * (t - val U 0) + a) = curve_point p n U P t).
      { intros t. replace (k * (t - val U 0) + a)%R with (k * t + (a - k * val U 0))%R by ring.
        apply curve_point_affine; try assumption; [|lia]. intros i Hi. rewrite Hv by lia. ring. }
      split; [exact Hv|]. split; [exact EC|]. intros t KW Ht. rewrite (GetPointOnCurve_ok p n U P t) by assumption.
      rewrite (GetPointOnCurve_ok p n W P); try assumption; [rewrite EC; reflexivity|]. destruct Ht. unfold in_domain. rewrite !Hv by lia.
      split; apply Rplus_le_compat_r; apply Rmult_le_compat_l; lra.
Qed.

(** * Rational reparametrisation *)
Lemma ToXYZ_hom P w : (tol w 0 < w)%R -> ToXYZ (hom P w) true = Ok P.
Proof.
  intros Hw. apply (ToXYZ_mkW P w). apply heavy_aeq. exact Hw.
Qed.

Lemma lambda_prod al be ga de (f : Z -> R) q : forall lo, (forall j, lo <= j < lo + Z.of_nat q -> mden ga de (f j) <> 0%R) ->
  (rprod lo q (fun j => moeb al be ga de (f j) * ga - al) * rprod lo q (fun j => mden ga de (f j)) =
   (-1) ^ q * (al * de - ga * be) ^ q)%R.
Proof.
  induction q as [|q IH]; intros lo H; [unfold rprod; cbn; ring|]. rewrite !rprod_first. cbn [pow].
  specialize (IH (lo + 1) ltac:(intros; apply H; lia)). specialize (H lo ltac:(lia)).
  replace (moeb al be ga de (f lo) * ga - al)%R with (- (al * de - ga * be) / mden ga de (f lo))%R.
  2:{ unfold moeb, mden in *. field. exact H. }
  transitivity (- (al * de - ga * be) * (rprod (lo + 1) q (fun j => moeb al be ga de (f j) * ga - al) * rprod (lo + 1) q (fun j => mden ga de (f j))))%R.
  { field. exact H. } rewrite IH. ring.
Qed.

Lemma ReparametrizeRational_ok p n U P W H al be ga de : curve_knots p n U -> p <= 7 -> weighted P W H -> len H = n + 1 ->
  (forall i, 0 <= i <= n -> (tol (val W i) 0 < val W i)%R) ->
  (tol (al * de) (ga * be) < al * de - ga * be)%R ->
  (forall i, 0 <= i <= n + p + 1 -> (0 < ga * val U i + de)%R) ->
  returns (ReparametrizeRational (mkCurve p U H) al be ga de) (fun c => exists U' W' H', c = mkCurve p U' H' /\
    len U' = n + p + 2 /\ sorted U' /\ len H' = n + 1 /\ weighted P W' H' /\
    let phi := fun t => ((al * t + be) / (ga * t + de))%R in
    (forall i, 0 <= i <= n + p + 1 -> val U' i = phi (val U i)) /\
    (forall i, 0 <= i <= n -> (0 < val W' i)%R) /\
    (forall t, in_domain p n U t -> rational_point p n U' P W' (phi t) = rational_point p n U P W t) /\
    (forall t, in_domain p n U t -> curve_knots p n U' -> (forall i, 0 <= i <= n -> (tol (val W' i) 0 < val W' i)%R) ->
       NurbsPoint c (phi t) = NurbsPoint (mkCurve p U H) t)).
Proof.
  intros HU H7 HW HH Hheavy Hdet Hden. pose proof (ck_p _ _ _ HU). pose proof (ck_n _ _ _ HU). pose proof (ck_len _ _ _ HU) as HL.
  pose proof (ck_sorted _ _ _ HU) as HS.
  assert (HD : (0 < al * de - ga * be)%R) by (pose proof (tol_pos (al * de) (ga * be)); lra).
  assert (AU : arr U (n + p + 2) (val U)) by (rewrite <- HL; apply arr_at). pose proof (arr_pt H _ HH) as AH.
  set (q := Z.to_nat p).
  set (w' := fun i => (val W i * ((al * de - ga * be) ^ q / rprod (i + 1) q (fun j => mden ga de (val U j))))%R).
  assert (Hprod : forall i, 0 <= i <= n -> (0 < rprod (i + 1) q (fun j => mden ga de (val U j)))%R).
  { intros i Hi. apply rprod_pos. intros j Hj. unfold mden. apply Hden. unfold q in Hj. lia. }
  assert (Hw' : forall i, 0 <= i <= n -> (0 < w' i)%R).
  { intros i Hi. pose proof (Hheavy i Hi). pose proof (tol_pos (val W i) 0). apply Rmult_lt_0_compat; [lra|].
    apply Rmult_lt_0_compat; [apply pow_lt; exact HD|apply Rinv_0_lt_compat; apply Hprod; exact Hi]. }
  enough (EE : wp (ReparametrizeRational (mkCurve p U H) al be ga de) (fun c => exists U' H', c = mkCurve p U' H' /\
     arr U' (n + p + 2) (fun i => moeb al be ga de (val U i)) /\ arr H' (n + 1) (fun i => hom (pt P i) (w' i)))).
  { destruct (wp_elim _ _ EE) as (c & Ec & U' & H' & -> & AU' & AH'). exists (mkCurve p U' H'). split; [exact Ec|].
    assert (HU' : forall i, 0 <= i <= n + p + 1 -> val U' i = moeb al be ga de (val U i)) by (intros; apply (arr_val _ _ _ _ AU'); lia).
    set (W' := mklist (n + 1) w'). assert (AW : arr W' (n + 1) w') by (apply arr_mklist; lia).
    assert (HW' : forall i, 0 <= i <= n -> val W' i = w' i) by (intros; apply (arr_val _ _ _ _ AW); lia).
    assert (Hwt : weighted P W' H').
    { destruct HW as (L1 & L2 & _). split; [rewrite L1, HH; symmetry; exact (arr_len _ _ _ AH')|]. split; [rewrite (arr_len _ _ _ AH'); exact (arr_len _ _ _ AW)|].
      intros i Hi. rewrite (arr_len _ _ _ AH') in Hi. rewrite HW' by lia. apply (arr_get _ _ _ _ AH'). exact Hi. }
    assert (Hmd : forall t, in_domain p n U t -> (0 < mden ga de t)%R).
    { intros t [T1 T2]. unfold mden. pose proof (Hden p ltac:(lia)). pose proof (Hden (n + 1) ltac:(lia)).
      destruct (Rle_lt_dec 0 ga).
      - assert (ga * val U p <= ga * t)%R by (apply Rmult_le_compat_l; lra). lra.
      - assert (- ga * t <= - ga * val U (n + 1))%R by (apply Rmult_le_compat_l; lra). lra. }
    exists U', W', H'. split; [reflexivity|]. split; [exact (arr_len _ _ _ AU')|]. split; [|split; [exact (arr_len _ _ _ AH')|split; [exact Hwt|]]].
    { intros i j Hi Hij Hj. rewrite (arr_len _ _ _ AU') in Hj. rewrite !HU' by lia.
      assert (HS' : (val U i <= val U j)%R) by (apply HS; lia). destruct HS' as [HS'|HS']; [|rewrite HS'; lra].
      left. apply moeb_lt; [exact HD|apply Hden; lia..|exact HS']. }
    cbv zeta. assert (EP : forall t, in_domain p n U t -> rational_point p n U' P W' (moeb al be ga de t) = rational_point p n U P W t).
    { intros t Ht. pose proof (Hmd t Ht) as Hm. set (s := ((al * de - ga * be) ^ q / mden ga de t ^ q)%R).
      assert (Hs : (0 < s)%R) by (apply Rmult_lt_0_compat; [apply pow_lt; exact HD|apply Rinv_0_lt_compat; apply pow_lt; exact Hm]).
      assert (EN : forall i, 0 <= i <= n -> (N (val U') (val U' (n + 1)) (Z.to_nat p) i (moeb al be ga de t) * val W' i =
        s * (N (val U) (val U (n + 1)) (Z.to_nat p) i t * val W i))%R).
      { intros i Hi. rewrite (HU' (n + 1)) by lia. rewrite (N_moeb al be ga de (val U)); [|exact HD|exact Hm|apply Hden; lia|].
        - rewrite HW' by lia. unfold w', s. fold q. pose proof (Hprod i Hi). pose proof (pow_lt _ q Hm). field. lra.
        - intros j Hj. split; [apply HU'; lia|apply Hden; lia]. }
      assert (ER : rational_weight p n U' W' (moeb al be ga de t) = (s * rational_weight p n U W t)%R).
      { unfold rational_weight. rewrite <- rsum_scal. apply rsum_ext. intros i Hi. apply EN. lia. }
      pose proof (hull_weight p n U W t HU Ht Hheavy) as Hrw. pose proof (tol_pos (rational_weight p n U W t) 0).
      unfold rational_point. apply comb_ext. intros i Hi. split; [|reflexivity]. rewrite EN, ER by lia. field. lra. }
    split; [exact HU'|]. split; [intros i Hi; rewrite HW' by lia; apply Hw'; exact Hi|]. split; [exact EP|].
    intros t Ht KU' Hh'. change ((al * t + be) / (ga * t + de))%R with (moeb al be ga de t).
    rewrite (Nurbs_point p n U P W H t) by assumption. rewrite (Nurbs_point p n U' P W' H'); try assumption.
    - rewrite EP by assumption. reflexivity.
    - exact (arr_len _ _ _ AH').
    - pose proof (Hmd t Ht) as Hm. destruct Ht as [T1 T2]. unfold in_domain. rewrite !HU' by lia. split.
      + destruct T1 as [T1|T1]; [left; apply moeb_lt; try assumption; apply Hden; lia|rewrite T1; lra].
      + destruct T2 as [T2|T2]; [left; apply moeb_lt; try assumption; apply Hden; lia|rewrite T2; lra]. }
  unfold ReparametrizeRational. cbn [Degree KnotVector ControlPoints]. rewrite HL, HH.
  assert (EG : IsGreaterThan (al * de)%R (ga * be)%R = true) by (apply gt_iff; rewrite <- tol_thr; exact Hdet).
  num. rewrite EG. cbn [validate bind].
  apply wp_bind. apply wp_mkvec; [lia|]. intros v Hv. apply wp_bind.
  apply (wp_fill_all (n + p + 2) (fun i => moeb al be ga de (val U i))); [lia|exact (arr_len _ _ _ Hv)| |].
  { intros i v' Hi _. wget AU. rewrite Rdiv_ok by (pose proof (Hden i ltac:(lia)); lra). reflexivity. }
  intros U' AU'. apply wp_bind. apply wp_mkvec; [lia|]. intros v1 Hv1. apply wp_bind.
  apply (wp_fill_all (n + 1) (fun i => hom (pt P i) (w' i))); [lia|exact (arr_len _ _ _ Hv1)| |].
  - intros i v' Hi _.
    assert (EL : for_up 1 (p + 1) 1%R (fun j temp => let! u := get U' (i + j) in Ok (temp * (u * ga - al))%R) =
                 Ok (rprod (i + 1) q (fun j => moeb al be ga de (val U j) * ga - al))%R).
    { apply wp_eq. apply wp_for_up with (P := fun h x => x = rprod (i + 1) (Z.to_nat (h - 1)) (fun j => moeb al be ga de (val U j) * ga - al)%R).
      - lia.
      - reflexivity.
      - intros j x Hj ->. wget AU'. cbn [wp]. replace (Z.to_nat (j + 1 - 1)) with (S (Z.to_nat (j - 1))) by lia. rewrite rprod_last.
        replace (i + 1 + Z.of_nat (Z.to_nat (j - 1))) with (i + j) by lia. reflexivity.
      - intros x ->. unfold q. f_equal. lia. }
    rewrite EL. cbn [bind]. wget AH. rewrite (weighted_pt P W H) by (try assumption; lia).
    rewrite ToXYZ_hom by (apply Hheavy; lia). cbn [bind]. f_equal. unfold mkW, hom. num. cbn [ww].
    enough (Ew : Rabs (val W i * rprod (i + 1) q (fun j => moeb al be ga de (val U j) * ga - al)%R) = w' i) by (rewrite Ew; reflexivity).
    pose proof (lambda_prod al be ga de (val U) q (i + 1)) as EL2. specialize (Hprod i ltac:(lia)).
    rewrite <- (Rabs_right (w' i)) by (specialize (Hw' i ltac:(lia)); lra). unfold w'. rewrite !Rabs_mult. f_equal.
    set (x := rprod (i + 1) q (fun j => moeb al be ga de (val U j) * ga - al)%R) in *. set (y := rprod (i + 1) q (fun j => mden ga de (val U j))) in *.
    assert (Ex : x = ((-1) ^ q * ((al * de - ga * be) ^ q / y))%R).
    { apply (Rmult_eq_reg_r y); [|lra]. rewrite EL2. field. lra. intros j Hj. assert (0 < mden ga de (val U j))%R; [|lra]. apply Hden. unfold q in Hj. lia. }
    rewrite Ex. rewrite Rabs_mult, pow_1_abs. ring.
  - intros H' AH'. cbn [wp]. exists U', H'. split; [reflexivity|]. split; assumption.
Qed.

(** * Transformation by a matrix *)
Lemma mat_apply_affine M : affine (mat_apply M).
Proof. intros a b [x1 x2 x3] [y1 y2 y3] E. unfold mat_apply. cbn [vadd vscale Vec_XYZ]. unfold xyz_add, xyz_scale. cbn [gx gy gz]. num. replace b with (1 - a)%R by lra. f_equal; ring. Qed.

Lemma OfPoint_affine M p : is_affine M -> OfPoint M p = Ok (mat_apply M p).
Proof.
  intros (E0 & E1 & E2 & E3). unfold OfPoint, xyz_div. rewrite E0, E1, E2, E3. num. cbn [gx gy gz].
  replace (0 * gx p + 0 * gy p + 0 * gz p + 1 * 1)%R with 1%R by ring. rewrite !Rdiv_ok by lra. cbn [bind]. unfold mat_apply.
  do 2 f_equal; field.
Qed.

Lemma rational_point_affine f p n U P P' W t : affine f -> curve_knots p n U -> in_domain p n U t ->
  (forall i, 0 <= i <= n -> (tol (val W i) 0 < val W i)%R) -> (forall i, 0 <= i <= n -> pt P' i = f (pt P i)) ->
  rational_point p n U P' W t = f (rational_point p n U P W t).
Proof.
  intros Hf HU Ht Hw HP. unfold rational_point. rewrite (affine_comb f) by (try assumption; apply rational_sum; assumption).
  apply comb_ext. intros i Hi. split; [reflexivity|apply HP; lia].
Qed.

Lemma CreateTransformed_arr p U H M P W : is_affine M -> weighted P W H -> (forall i, 0 <= i < len H -> val W i <> 0%R) ->
  wp (CreateTransformed (mkCurve p U H) M) (fun c => exists H', c = mkCurve p U H' /\ weighted (map (mat_apply M) P) W H' /\ len H' = len H).
Proof.
  intros HM (L1 & L2 & HW) Hw. unfold CreateTransformed. cbn [Degree KnotVector ControlPoints].
  apply wp_bind. apply wp_mkvec; [apply len_nonneg|]. intros v Hv. apply wp_bind.
  apply (wp_fill_all (len H) (fun i => hom (mat_apply M (pt P i)) (val W i))); [apply len_nonneg|exact (arr_len _ _ _ Hv)| |].
  - intros i v' Hi _. rewrite HW by lia. cbn [bind]. unfold OfWeightedPoint. cbn [ww wx wy wz hom]. num.
    specialize (Hw i Hi). rewrite !Rdiv_ok by assumption. cbn [bind].
    replace (mkXYZ (gx (pt P i) * val W i / val W i) (gy (pt P i) * val W i / val W i) (gz (pt P i) * val W i / val W i))%R with (pt P i).
    2:{ destruct (pt P i) as [x y z]. cbn [gx gy gz]. f_equal; field; assumption. }
    rewrite OfPoint_affine by assumption. reflexivity.
  - intros H' AH. cbn [wp]. exists H'. split; [reflexivity|]. pose proof (arr_len _ _ _ AH) as LH. split; [|exact LH].
    assert (LM : len (map (mat_apply M) P) = len H) by (rewrite <- L1; unfold len; rewrite map_length; reflexivity).
    split; [congruence|]. split; [congruence|]. intros i Hi. rewrite LH in Hi. rewrite (arr_get _ _ _ _ AH) by exact Hi. cbv beta. f_equal. f_equal.
    unfold pt. symmetry. unfold at_. rewrite (nth_indep _ vzero (mat_apply M vzero)) by (unfold len in *; lia). apply map_nth.
Qed.

Lemma CreateTransformed_ok p n U P W H M : curve_knots p n U -> p <= 7 -> weighted P W H -> len H = n + 1 ->
  (forall i, 0 <= i <= n -> (tol (val W i) 0 < val W i)%R) -> is_affine M ->
  returns (CreateTransformed (mkCurve p U H) M) (fun c =>
    (exists H', c = mkCurve p U H' /\ weighted (map (mat_apply M) P) W H' /\ len H' = n + 1) /\
    forall t, in_domain p n U t -> returns (NurbsPoint (mkCurve p U H) t) (fun x =>
      NurbsPoint c t = Ok (mat_apply M x) /\ OfPoint M x = Ok (mat_apply M x))).
Proof.
  intros HU H7 HW HH Hh HM. destruct (wp_elim _ _ (CreateTransformed_arr p U H M P W HM HW ltac:(intros i Hi;
    pose proof (Hh i ltac:(lia)); pose proof (tol_pos (val W i) 0); lra))) as (c & Ec & H' & -> & HW' & LH).
  exists (mkCurve p U H'). split; [exact Ec|]. split; [exists H'; repeat split; try assumption; try (apply HW'); lia|].
  intros t Ht. rewrite (Nurbs_point p n U P W H t) by assumption. eexists. split; [reflexivity|]. split; [|apply OfPoint_affine; exact HM].
  rewrite (Nurbs_point p n U (map (mat_apply M) P) W H' t); try assumption; [|lia]. f_equal.
  apply (rational_point_affine (mat_apply M) p n U P); try assumption; [apply mat_apply_affine|]. intros i Hi.
  unfold pt, at_. destruct HW as (L1 & _). rewrite (nth_indep _ vzero (mat_apply M vzero)) by (unfold len in *; rewrite map_length; lia). apply map_nth.
Qed.

(** * Lines *)
Definition Uline : list R := [0; 0; 1; 1]%R.
Lemma Uline_ok : curve_knots 1 1 Uline.
Proof.
  constructor; try lia; try reflexivity; [unfold Uline; sorted_tac| |];
  change (0 + tol 0 1 < 1)%R; unfold tol; rewrite Rabs_R0, Rabs_R1, Rmax_right by lra; lra.
Qed.

Lemma CreateLine_ok a b : xyz_IsAlmostEqualTo a b = false ->
  returns (CreateLine a b) (fun c => exists H, c = mkCurve 1 Uline H /\ len H = 2 /\ curve_knots 1 1 Uline /\
    forall t, (0 <= t <= 1)%R -> NurbsPoint c t = Ok (vadd (vscale (1 - t)%R a) (vscale t b))).
Proof.
  intros E. unfold CreateLine. rewrite E. cbn [negb validate bind]. eexists. split; [reflexivity|].
  exists [mkW a 1%R; mkW b 1%R]. split; [reflexivity|]. split; [reflexivity|]. split; [exact Uline_ok|].
  intros t Ht. rewrite (Nurbs_point 1 1 Uline [a; b] [1; 1]%R [mkW a 1%R; mkW b 1%R] t); [|exact Uline_ok|lia| |reflexivity| |].
  - f_equal. assert (HN : N (val Uline) (val Uline (1 + 1)) (Z.to_nat 1) 0 t = (1 - t)%R /\ N (val Uline) (val Uline (1 + 1)) (Z.to_nat 1) 1 t = t).
    { change (val Uline (1 + 1)) with 1%R. change (Z.to_nat 1) with 1%nat. unfold N. cbn [Nrec]. cbn [Z.of_nat Pos.of_succ_nat Z.add Pos.add].
      unfold N0. cbn [Z.add Pos.add Pos.succ]. change (val Uline 0) with 0%R. change (val Uline 1) with 0%R. change (val Uline 2) with 1%R. change (val Uline 3) with 1%R.
      rewrite (sdiv_0 (t - 0) (0 - 0)), (sdiv_0 (1 - t) (1 - 1)) by lra. rewrite !sdiv_ok by lra.
      destruct (Rlt_dec t 1), (Rle_dec 0 t), (Rlt_dec 0 t), (Rle_dec t 1), (Rle_dec t 0), (Rlt_dec t 0); try lra; split; try field;
      assert (t = 1 \/ t = 0)%R as [->| ->] by lra; field. }
    destruct HN as [N0' N1']. assert (EW : rational_weight 1 1 Uline [1; 1]%R t = 1%R).
    { unfold rational_weight. change (1 + 1)%Z with 2 at 1. rewrite (rsum_first 0 2), (rsum_first (0 + 1) 2), rsum_nil by lia.
      change (0 + 1) with 1. rewrite N0', N1'. change (val [1; 1]%R 0) with 1%R. change (val [1; 1]%R 1) with 1%R. ring. }
    unfold rational_point, comb. change (1 + 1)%Z with 2 at 1. rewrite (vsum_first 0 2), (vsum_first (0 + 1) 2), vsum_nil by lia.
    change (0 + 1) with 1. rewrite N0', N1', EW. change (val [1; 1]%R 0) with 1%R. change (val [1; 1]%R 1) with 1%R.
    change (pt [a; b] 0) with a. change (pt [a; b] 1) with b. destruct a as [a1 a2 a3], b as [b1 b2 b3]. cbn [vadd vscale vzero Vec_XYZ]. unfold xyz_add, xyz_scale, xyz0. cbn [gx gy gz]. num. f_equal; field.
  - split; [reflexivity|]. split; [reflexivity|]. intros i Hi. change (len _) with 2 in Hi. assert (i = 0 \/ i = 1) as [->| ->] by lia; reflexivity.
  - exact Ht.
  - intros i Hi. assert (i = 0 \/ i = 1) as [->| ->] by lia; change (tol 1 0 < 1)%R; apply heavy_iff; lra.
Qed.

Lemma CreateLine_throw (a b : XYZ R) : xyz_IsAlmostEqualTo a b = true -> CreateLine a b = Throw.
Proof. intros E. unfold CreateLine. rewrite E. reflexivity. Qed.
