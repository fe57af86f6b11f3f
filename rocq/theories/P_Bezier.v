(* Bezier curves and surfaces. *)
From Coq Require Import ZArith List Bool Reals Lra Lia.
From Verif Require Import Base Num Vec Tac Spec M_MathUtils M_XYZ M_Polynomials M_Bezier P_MathUtils P_Bern P_VSum P_Vec P_Math2.
Import ListNotations.
Open Scope Z_scope.

Section Bez.
Context {T : Type} {V : Vec R T} {L : VecL T}.

Definition bez (p : Z) (P : Z -> T) (t : R) : T := comb 0 (p + 1) (fun i => bern p i t) P.

Lemma bez_0 (P : Z -> T) t : bez 0 P t = P 0.
Proof.
  unfold bez, comb. change (0 + 1) with 1. rewrite (vsum_last 0 0), vsum_nil by lia. rewrite bern_0 by lia. cbn. vring.
Qed.

Lemma bez_rec p (P : Z -> T) t : 0 < p ->
  bez p P t = vadd (vscale (1 - t)%R (bez (p - 1) P t)) (vscale t (bez (p - 1) (fun i => P (i + 1)) t)).
Proof.
  intros Hp. unfold bez. replace (p - 1 + 1) with p by lia. apply co_ext. intros k.
  rewrite co_add, !co_scale, !co_comb.
  rewrite (rsum_ext 0 (p + 1) _ (fun i => (1 - t) * (bern (p - 1) i t * co k (P i)) + t * (bern (p - 1) (i - 1) t * co k (P i)))%R).
  2:{ intros i Hi. rewrite (bern_rec p) by lia. ring. }
  rewrite rsum_plus, !rsum_scal. f_equal; f_equal.
  - rewrite rsum_last by lia. rewrite (bern_out (p - 1) p) by lia. ring.
  - rewrite rsum_first by lia. rewrite (bern_out (p - 1) (0 - 1)) by lia.
    rewrite (rsum_shift 1 0 p). rewrite Rmult_0_l, Rplus_0_l. apply rsum_ext. intros i Hi. do 3 f_equal. lia.
Qed.

Lemma Bernstein_curve p P t : 0 <= p -> len P = p + 1 -> validate_range t 0%R 1%R = Ok tt ->
  GetPointOnCurveByBernstein (mkBezier p P) t = Ok (bez p (pt P) t).
Proof.
  intros Hp HP Ht. unfold GetPointOnCurveByBernstein. num. rewrite Ht. cbn [bind bz_Degree bz_ControlPoints].
  destruct (wp_elim _ _ (AllBernstein_ok p t Hp Ht)) as (b & -> & Hb). cbn [bind].
  pose proof (arr_pt P _ HP) as HPa.
  rewrite (acc_loop0 0 (p + 1) (fun i => vscale (bern p i t) (pt P i))); [reflexivity|lia|].
  intros i x Hi. wget Hb. wget HPa. reflexivity.
Qed.

Lemma DeCasteljau_curve p P t : 0 <= p -> len P = p + 1 -> validate_range t 0%R 1%R = Ok tt ->
  GetPointOnCurveByDeCasteljau (mkBezier p P) t = Ok (bez p (pt P) t).
Proof.
  intros Hp HP Ht. unfold GetPointOnCurveByDeCasteljau. num. rewrite Ht. cbn [bind bz_Degree bz_ControlPoints].
  pose proof (arr_pt P _ HP) as HPa.
  set (X := fun k i => bez k (fun j => pt P (i + j)) t).
  assert (W : wp (for_up 1 (p + 1) P (fun k temp => for_up 0 (p - k + 1) temp (fun i temp =>
      let! x := get temp i in let! y := get temp (i + 1) in upd temp i (vadd (vscale (1 - t)%R x) (vscale t y)))))
      (fun l => arrD l (p + 1) (fun i => i <= 0) (fun i => X p i))).
  { apply wp_for_up with (P := fun k l => arrD l (p + 1) (fun i => i <= p - k + 1) (fun i => X (k - 1) i)); [lia| | |].
    - eapply arrD_ext; [apply (arrD_of_arr _ _ (fun _ => True) _ HPa)|]. intros i Hi _. split; [exact I|].
      unfold X. change (1 - 1) with 0. rewrite bez_0. f_equal. lia.
    - intros k l Hk Hl.
      apply wp_for_up with (P := fun i l => arrD l (p + 1) (fun a => a <= p - k + 1) (fun a => if a <? i then X k a else X (k - 1) a)); [lia| | |].
      + eapply arrD_ext; [exact Hl|]. intros a Ha Hd. split; [exact Hd|]. zcase; [lia|reflexivity].
      + intros i m Hi Hm. wget Hm. wget Hm. wupd Hm. intros m' Hm'. eapply arrD_ext; [exact Hm'|].
        intros a Ha Hd. split; [tauto|]. cbv beta.
        destruct (Z.ltb_spec i i); [lia|]. destruct (Z.ltb_spec (i + 1) i); [lia|].
        destruct (Z.eqb_spec a i) as [->|].
        * destruct (Z.ltb_spec i (i + 1)); [|lia]. unfold X. rewrite (bez_rec k) by lia. do 2 f_equal.
          unfold bez. apply comb_ext. intros j Hj. split; [reflexivity|]. f_equal. lia.
        * zcase; try lia; reflexivity.
      + intros m Hm. eapply arrD_ext; [exact Hm|]. intros a Ha Hd. replace (k + 1 - 1) with k by lia.
        split; [lia|]. zcase; [reflexivity|lia].
    - intros l Hl. eapply arrD_ext; [exact Hl|]. intros a Ha Hd. split; [lia|]. f_equal. lia. }
  destruct (wp_elim _ _ W) as (l & E & Hl). rewrite E. cbn [bind]. rewrite (arrD_get _ _ _ _ 0 Hl) by lia.
  reflexivity.
Qed.

Lemma DeCasteljau_surface p q P u v : 0 <= p -> 0 <= q -> net (p + 1) (q + 1) P ->
  validate_range u 0%R 1%R = Ok tt -> validate_range v 0%R 1%R = Ok tt ->
  GetPointOnSurfaceByDeCasteljau (mkBezierS p q P) u v = Ok (bez p (fun i => bez q (pt2 P i) v) u).
Proof.
  intros Hp Hq [HP HR] Hu Hv. unfold GetPointOnSurfaceByDeCasteljau. num. rewrite Hu, Hv.
  cbn [bind bs_DegreeU bs_DegreeV bs_ControlPoints].
  assert (W : wp (let! temp := mkvec (p + 1) vzero in for_up 0 (p + 1) temp (fun i temp =>
     let! row := get P i in let! x := GetPointOnCurveByDeCasteljau (mkBezier q row) v in upd temp i x))
     (fun l => arr l (p + 1) (fun i => bez q (pt2 P i) v))).
  { apply wp_bind. apply wp_mkvec; [lia|]. intros l0 Hl0.
    apply wp_for_up with (P := fun i l => arrD l (p + 1) (fun a => a < i) (fun a => bez q (pt2 P a) v)); [lia| | |].
    - eapply arrD_ext; [apply (arrD_of_arr _ _ (fun _ => True) _ Hl0)|]. dl.
    - intros i l Hi Hl. rewrite (get_at nil) by lia. cbn [bind].
      rewrite DeCasteljau_curve by (try apply HR; auto; lia). cbn [bind].
      apply (arrD_set _ _ _ (fun a => a < i + 1) _ _ _ _ Hl); [lia|reflexivity|dl|auto].
    - intros l Hl. eapply arr_of_arrD; [exact Hl|]. dl. }
  apply wp_bind_inv in W. destruct (wp_elim _ _ W) as (l0 & E0 & W1). rewrite E0. cbn [bind].
  destruct (wp_elim _ _ W1) as (l & E & Hl). rewrite E. cbn [bind].
  rewrite DeCasteljau_curve by (auto; apply Hl). f_equal. unfold bez at 1 2. apply comb_ext. intros i Hi. split; [reflexivity|].
  apply (arr_at_eq vzero _ _ _ i Hl). lia.
Qed.

Lemma bez_ends p (P : Z -> T) : 0 <= p -> bez p P 0 = P 0 /\ bez p P 1 = P p.
Proof.
  intros Hp. unfold bez, comb. split.
  - rewrite (vsum_single 0 (p + 1) 0); [|lia|].
    + rewrite bern_0 by lia. rewrite Rminus_0_r, pow1. vring.
    + intros i Hi Hne. rewrite bern_in by lia. rewrite pow_ne_zero by lia. vring.
  - rewrite (vsum_single 0 (p + 1) p); [|lia|].
    + rewrite bern_n by lia. rewrite pow1. vring.
    + intros i Hi Hne. rewrite bern_in by lia. replace (1 - 1)%R with 0%R by ring. rewrite (pow_ne_zero (Z.to_nat (p - i))) by lia. vring.
Qed.

Lemma bez_hull (f : T -> R) p (P : Z -> T) t c : 0 <= p -> (0 <= t <= 1)%R -> affine f ->
  (forall i, 0 <= i <= p -> (c <= f (P i))%R) -> (c <= f (bez p P t))%R.
Proof.
  intros Hp Ht Hf Hc. apply hull_comb; auto.
  - apply bern_sum. exact Hp.
  - intros i Hi. apply bern_nonneg. exact Ht.
  - intros i Hi. apply Hc. lia.
Qed.
End Bez.

Lemma at_map {X Y} (f : X -> Y) d d' l i : 0 <= i < len l -> at_ d' (map f l) i = f (at_ d l i).
Proof. intros Hi. unfold at_, len in *. rewrite (nth_indep _ d' (f d)) by (rewrite map_length; lia). apply map_nth. Qed.

Lemma len_map {X Y} (f : X -> Y) l : len (map f l) = len l.
Proof. unfold len. rewrite map_length. reflexivity. Qed.

Lemma bez_affine {T T' : Type} {V : Vec R T} {L : VecL T} {V' : Vec R T'} {L' : VecL T'} (f : T -> T') p P t :
  0 <= p -> len P = p + 1 -> affine f -> bez p (pt (map f P)) t = f (bez p (pt P) t).
Proof.
  intros Hp HP Hf. unfold bez at 2. rewrite (affine_comb f) by (auto; apply bern_sum; exact Hp).
  apply comb_ext. intros i Hi. split; [reflexivity|]. unfold pt. apply at_map. lia.
Qed.

(* ---------------- the quadratic arc ---------------- *)
Lemma bez2_xyz (P0 P1 P2 : XYZ R) t :
  bez 2 (pt [P0; P1; P2]) t =
  vadd (vadd (vscale ((1 - t) * (1 - t))%R P0) (vscale (2 * t * (1 - t))%R P1)) (vscale (t * t)%R P2).
Proof.
  unfold bez, comb. change (2 + 1) with (1 + 1 + 1). rewrite !vsum_last by lia. rewrite (vsum_last 0 0) by lia.
  rewrite vsum_nil by lia. change (1 + 1 + 1) with 3. change (1 + 1) with 2.
  change (pt [P0; P1; P2] 0) with P0. change (pt [P0; P1; P2] 1) with P1. change (pt [P0; P1; P2] 2) with P2.
  rewrite bern_0, bern_n, bern_in by lia. change (Z.to_nat 2) with 2%nat. change (Z.to_nat 1) with 1%nat. change (Z.to_nat (2 - 1)) with 1%nat.
  assert (E : Cb 2 1 = 2%R) by (unfold Cb, C; change (Z.to_nat 2) with 2%nat; change (Z.to_nat 1) with 1%nat; cbn [fact INR Nat.sub Nat.mul Nat.add]; field). rewrite E. cbn [pow].
  apply co_ext; intros k. rewrite !co_add, !co_scale, co_zero. ring.
Qed.

(* with one common weight the arc is the Bezier arc *)
Lemma quadratic_arc_equal (P0 P1 P2 : XYZ R) w t : w <> 0%R -> (0 <= t <= 1)%R ->
  GetPointOnQuadraticArc (mkW P0 w) (mkW P1 w) (mkW P2 w) t = Ok (bez 2 (pt [P0; P1; P2]) t).
Proof.
  intros Hw Ht. unfold GetPointOnQuadraticArc. num. rewrite (unit_range t Ht). cbn [bind mkW wx wy wz ww].
  num. rewrite !Rdiv_ok by exact Hw. cbn [bind].
  change (xyz_div ?a ?b) with (vdiv (Vec := Vec_XYZ) a b).
  assert (D : ((1 - t) * (1 - t) * w + 2 * t * (1 - t) * w + t * t * w = w)%R) by ring.
  change (IZR 2) with 2%R. rewrite D. rewrite vdiv_ok by exact Hw. f_equal. rewrite bez2_xyz.
  destruct P0 as [x0 y0 z0], P1 as [x1 y1 z1], P2 as [x2 y2 z2].
  cbn [vadd vscale vdiv Vec_XYZ]. unfold xyz_add, xyz_scale. cbn [gx gy gz]. num.
  f_equal; field; exact Hw.
Qed.

(* the value at the end t = 1 *)
Lemma quadratic_arc_end (P0 P1 P2 : XYZ R) w0 w1 w2 : w0 <> 0%R -> w2 <> 0%R ->
  GetPointOnQuadraticArc (mkW P0 w0) (mkW P1 w1) (mkW P2 w2) 1%R = Ok (vscale (w2 / w0)%R P2).
Proof.
  intros Hw H2. unfold GetPointOnQuadraticArc. num. rewrite (unit_range 1) by lra. cbn [bind mkW wx wy wz ww].
  num. rewrite !Rdiv_ok by exact Hw. cbn [bind].
  change (xyz_div ?a ?b) with (vdiv (Vec := Vec_XYZ) a b).
  match goal with |- vdiv _ ?d = _ => replace d with w2 by ring end.
  rewrite vdiv_ok by exact H2. f_equal.
  destruct P0 as [x0 y0 z0], P1 as [x1 y1 z1], P2 as [x2 y2 z2].
  cbn [vadd vscale vdiv Vec_XYZ]. unfold xyz_add, xyz_scale. cbn [gx gy gz]. num.
  f_equal; field; auto.
Qed.

Lemma quadratic_arc_wrong : exists (P0 P1 P2 : XYZ R) w0 w1 w2, (0 < w0)%R /\ (0 < w1)%R /\ (0 < w2)%R /\
  exists x, GetPointOnQuadraticArc (mkW P0 w0) (mkW P1 w1) (mkW P2 w2) 1%R = Ok x /\ x <> P2.
Proof.
  exists (mkXYZ 1 0 0)%R, (mkXYZ 1 1 0)%R, (mkXYZ 0 1 0)%R, 1%R, 1%R, 2%R.
  split; [lra|]. split; [lra|]. split; [lra|]. eexists. split; [apply quadratic_arc_end; lra|].
  cbn. intros E. injection E as _ E _. num. lra.
Qed.

(* both evaluators agree, also on rejected parameters *)
Lemma bezier_same {T : Type} {V : Vec R T} {L : VecL T} p (P : list T) (t : R) : 0 <= p -> len P = p + 1 ->
  GetPointOnCurveByBernstein (mkBezier p P) t = GetPointOnCurveByDeCasteljau (mkBezier p P) t.
Proof.
  intros Hp HP. destruct (validate_range t 0%R 1%R) as [[]|e] eqn:E.
  - rewrite Bernstein_curve, DeCasteljau_curve by auto. reflexivity.
  - unfold GetPointOnCurveByBernstein, GetPointOnCurveByDeCasteljau. num. rewrite E. reflexivity.
Qed.

Lemma bezier_point {T : Type} {V : Vec R T} {L : VecL T} p (P : list T) (t : R) : 0 <= p -> len P = p + 1 -> (0 <= t <= 1)%R ->
  GetPointOnCurveByDeCasteljau (mkBezier p P) t = Ok (comb 0 (p + 1) (fun i => bern p i t) (pt P)).
Proof. intros Hp HP Ht. apply DeCasteljau_curve; auto. apply unit_range. exact Ht. Qed.

Lemma bezier_ends {T : Type} {V : Vec R T} {L : VecL T} p (P : list T) : 0 <= p -> len P = p + 1 ->
  GetPointOnCurveByDeCasteljau (mkBezier p P) 0%R = Ok (pt P 0) /\
  GetPointOnCurveByDeCasteljau (mkBezier p P) 1%R = Ok (pt P p).
Proof.
  intros Hp HP. rewrite !DeCasteljau_curve by (auto; apply unit_range; lra).
  destruct (bez_ends p (pt P) Hp) as [-> ->]. auto.
Qed.

Lemma bezier_hull {T : Type} {V : Vec R T} {L : VecL T} (f : T -> R) p (P : list T) t c : 0 <= p -> len P = p + 1 -> (0 <= t <= 1)%R -> affine f ->
  (forall i, 0 <= i <= p -> (c <= f (pt P i))%R) ->
  returns (GetPointOnCurveByDeCasteljau (mkBezier p P) t) (fun x => (c <= f x)%R).
Proof.
  intros Hp HP Ht Hf Hc. eexists. split; [apply DeCasteljau_curve; auto; apply unit_range; exact Ht|]. apply bez_hull; auto.
Qed.

Lemma bezier_affine {T T' : Type} {V : Vec R T} {L : VecL T} {V' : Vec R T'} {L' : VecL T'} (f : T -> T') p (P : list T) t :
  0 <= p -> len P = p + 1 -> (0 <= t <= 1)%R -> affine f ->
  returns (GetPointOnCurveByDeCasteljau (mkBezier p P) t)
    (fun x => GetPointOnCurveByDeCasteljau (mkBezier p (map f P)) t = Ok (f x)).
Proof.
  intros Hp HP Ht Hf. eexists. split; [apply DeCasteljau_curve; auto; apply unit_range; exact Ht|].
  rewrite DeCasteljau_curve by (auto; try (rewrite len_map; exact HP); apply unit_range; exact Ht). f_equal. apply bez_affine; auto.
Qed.

Lemma bezier_surface_point {T : Type} {V : Vec R T} {L : VecL T} p q (P : list (list T)) u v : 0 <= p -> 0 <= q -> net (p + 1) (q + 1) P ->
  (0 <= u <= 1)%R -> (0 <= v <= 1)%R ->
  GetPointOnSurfaceByDeCasteljau (mkBezierS p q P) u v =
  Ok (comb 0 (p + 1) (fun i => bern p i u) (fun i => comb 0 (q + 1) (fun j => bern q j v) (pt2 P i))).
Proof. intros. apply DeCasteljau_surface; auto; apply unit_range; auto. Qed.
