(* Offset curves. *)
From Coq Require Import ZArith List Bool Reals Lra Lia.
From Verif Require Import Base Num Vec Tac Spec Spec2 Spec3 Spec4 Spec5 Spec6 Spec10 Spec17 Spec23 M_MathUtils M_Polynomials M_Knots M_XYZ M_Bspline M_NurbsCurve M_Curve2 M_Geom M_Interp M_Fit M_Shape M_Curve4 M_Offset
  P_MathUtils P_Geom P_Matrix P_Conic P_XYZ P_Vec P_VSum P_Curve P_Loop P_Extract P_Shape P_Surf6 P_Surf7 P_Local P_Interp2 P_Nurbs P_Span P_KnotMap P_ParamOn P_Ls4.
Import ListNotations.
Open Scope Z_scope.

Lemma acos_right x : (0 <= x <= 1)%R -> (0 <= acos x <= PI / 2)%R.
Proof.
  intros H. pose proof (acos_bound x) as B. split; [lra|]. rewrite acos_asin by lra. pose proof (asin_bound x). destruct (Req_dec x 0) as [->|]; [rewrite asin_0; lra|].
  destruct (Rle_dec 0 (asin x)) as [|N]; [lra|]. exfalso. assert (S : (sin (asin x) < sin 0)%R) by (apply sin_increasing_1; pose proof PI_RGT_0; lra). rewrite sin_asin, sin_0 in S by lra. lra.
Qed.
Lemma acos_left x : (-1 <= x <= - (1 / 10))%R -> (PI / 2 + 1 / 10 <= acos x <= PI)%R.
Proof.
  intros H. pose proof (acos_bound x) as B. split; [|lra]. rewrite acos_asin by lra. pose proof (asin_bound x) as A. pose proof (sin_asin x ltac:(lra)) as S.
  assert (N : (asin x < 0)%R). { destruct (Rlt_dec (asin x) 0) as [L|L]; [exact L|]. exfalso. pose proof PI_RGT_0. pose proof (sin_ge_0 (asin x) ltac:(lra) ltac:(lra)). lra. }
  pose proof (sin_lt_x (- asin x) ltac:(lra)) as L. rewrite sin_neg in L. lra.
Qed.

Lemma dot_bound (a b : XYZ R) : dot3 a a = 1%R -> dot3 b b = 1%R -> (-1 <= dot3 a b <= 1)%R.
Proof.
  intros Ha Hb. assert (P : (0 <= dot3 (plus3 a b) (plus3 a b))%R) by (unfold dot3; nra). assert (M : (0 <= dot3 (minus3 a b) (minus3 a b))%R) by (unfold dot3; nra).
  replace (dot3 (plus3 a b) (plus3 a b)) with (dot3 a a + dot3 b b + 2 * dot3 a b)%R in P by (unfold dot3, plus3; cbn [gx gy gz]; ring).
  replace (dot3 (minus3 a b) (minus3 a b)) with (dot3 a a + dot3 b b - 2 * dot3 a b)%R in M by (unfold dot3, minus3; cbn [gx gy gz]; ring). lra.
Qed.
Lemma unit_IsZero (a : XYZ R) : dot3 a a = 1%R -> IsZero a = false.
Proof. intros E. unfold IsZero, IsZero_eps. num. change (SqrLength a) with (dot3 a a). rewrite E. unfold DoubleEpsilon. num. destruct (Rleb_spec 1 (1 / 1000000 * (1 / 1000000))); [lra|reflexivity]. Qed.

(* which side a normal is taken from *)
Lemma side (a b : XYZ R) : dot3 a a = 1%R -> dot3 b b = 1%R -> exists x, AngleTo a b = Ok x /\
  ((0 <= dot3 a b)%R -> IsGreaterThan_tol x (PI / 2)%R (AngleEpsilon (A := R)) = false) /\ ((dot3 a b <= - (1 / 10))%R -> IsGreaterThan_tol x (PI / 2)%R (AngleEpsilon (A := R)) = true).
Proof.
  intros Ha Hb. pose proof (dot_bound a b Ha Hb) as B. exists (acos (dot3 a b)). unfold AngleTo. rewrite !Normalize_unit by assumption. cbn [bind]. rewrite !unit_IsZero by assumption. cbn [orb].
  change (DotProduct a b) with (dot3 a b). num. unfold Rltb. destruct (Rlt_dec (dot3 a b) (- (1))); [lra|]. destruct (Rlt_dec 1 (dot3 a b)); [lra|]. split; [reflexivity|].
  pose proof PI_RGT_0. pose proof PI_4. assert (EA : AngleEpsilon (A := R) = (1 / 100)%R) by (unfold AngleEpsilon; num; reflexivity). rewrite EA. split; intros Hd.
  - apply not_true_iff_false. rewrite gt_spec. unfold thr. pose proof (acos_right (dot3 a b) ltac:(lra)). pose proof (Rmax_l (Rabs (acos (dot3 a b))) (Rabs (PI / 2))). pose proof (Rabs_pos (acos (dot3 a b))). lra.
  - apply gt_spec. unfold thr. pose proof (acos_left (dot3 a b) ltac:(lra)) as L. rewrite !Rabs_right by lra. rewrite Rmax_left by lra. lra.
Qed.


(* a normal has length 1 *)
Lemma normal_unit c t v : CurveNormalAt c CN_Normal t = Ok v -> dot3 v v = 1%R.
Proof.
  intros E. unfold CurveNormalAt in E. destruct (validate_domain _ _) as [[]|]; [cbn [bind] in E|discriminate]. destruct (ComputeRationalCurveDerivatives c 2 t) as [D|]; [cbn [bind] in E|discriminate].
  destruct (get D 1) as [a|]; [cbn [bind] in E|discriminate]. destruct (get D 2) as [b|]; [cbn [bind] in E|discriminate].
  rewrite Length_eq in E. cbn [bind] in E. destruct (IsAlmostEqualTo (norm3 a) _).
  - rewrite Length_eq in E. cbn [bind] in E. destruct (zero3_dec b) as [->|Hb]; [rewrite norm_0, div_zero in E; discriminate|]. destruct (div_dir b Hb) as (u & Eu & Hu). rewrite Eu in E. injection E as <-. apply Hu.
  - rewrite Length_eq in E. cbn [bind] in E. rewrite P_Geom.cross_eq in E. destruct (zero3_dec (cross3 a b)) as [Z|Hb]; [rewrite Z, norm_0, div_zero in E; discriminate|]. destruct (div_dir _ Hb) as (y & Ey & Dy). rewrite Ey in E. cbn [bind] in E.
    rewrite (P_Matrix.Normalize_unit y (proj1 Dy)) in E. cbn [bind] in E. assert (Ha : a <> zero3) by (intros X; apply Hb; rewrite X; apply cross_zero_l). destruct (P_Matrix.Normalize_dir a Ha) as (u & Eu & Du). rewrite Eu in E. cbn [bind] in E. injection E as <-. rewrite P_Geom.cross_eq.
    destruct Dy as (Y1 & s & Hs & Es), Du as (U1 & r & Hr & Er).
    assert (O : dot3 y u = 0%R).
    { apply (Rmult_eq_reg_l (s * r)); [|apply Rgt_not_eq, Rmult_lt_0_compat; assumption]. rewrite Rmult_0_r.
      transitivity (dot3 (times3 s y) (times3 r u)); [unfold dot3, times3; cbn [gx gy gz]; ring|]. rewrite <- Es, <- Er. unfold dot3, cross3. cbn [gx gy gz]. ring. }
    transitivity (dot3 y y * dot3 u u - dot3 y u * dot3 y u)%R; [unfold dot3, cross3; cbn [gx gy gz]; ring|]. rewrite Y1, U1, O. ring.
Qed.

Lemma pt_app_l (P Q : list (XYZW R)) i : 0 <= i < len P -> pt (P ++ Q) i = pt P i.
Proof. intros Hi. unfold pt, at_, len in *. apply app_nth1. lia. Qed.
Lemma pt_snoc (P : list (XYZW R)) w : pt (P ++ [w]) (len P) = w.
Proof. unfold pt, at_, len. rewrite app_nth2 by lia. replace (_ - _)%nat with 0%nat by lia. reflexivity. Qed.

Section Moved.
Variables (fuel : nat) (c : Curve R (XYZW R)) (d : R) (n0 : XYZ R).
Let H := ControlPoints c.
Let n := len H - 1.
Hypothesis Hw : heavy H.
Hypothesis H0 : dot3 n0 n0 = 1%R.

Lemma moved_run i t v : 0 <= i <= n -> GetParamOnCurve fuel c (proj (pt H i)) = Ok t -> CurveNormalAt c CN_Normal t = Ok v -> exists x, moved_point fuel c d n0 i = Ok x /\ moved fuel c d n0 i x.
Proof.
  intros Hi Et Ev. unfold moved_point. fold H. rewrite (arr_get H (len H) (pt H)); [|apply (arr_pt H _ eq_refl)|unfold n in Hi; lia]. cbn [bind]. destruct (heavy_ToXYZ (pt H i)) as (-> & _); [apply Hw; unfold n in Hi; lia|]. cbn [bind].
  rewrite Et. cbn [bind]. rewrite Ev. cbn [bind]. pose proof (normal_unit c t v Ev) as Hv. destruct (side n0 v H0 Hv) as (x & Ex & S1 & S2). rewrite Ex. cbn [bind]. num. rewrite Rdiv_ok by lra. cbn [bind].
  eexists. split; [reflexivity|]. exists t, v, (if IsGreaterThan_tol x (PI / 2)%R (AngleEpsilon (A := R)) then (-1)%R else 1%R). fold H. split; [exact Et|]. split; [exact Ev|]. split; [exact Hv|].
  split; [destruct (IsGreaterThan_tol _ _ _); [right|left]; reflexivity|]. split; [intros Hd; rewrite S1 by exact Hd; reflexivity|]. split; [intros Hd; rewrite S2 by exact Hd; reflexivity|].
  change (xyz_add (A := R)) with plus3. f_equal. destruct (IsGreaterThan_tol _ _ _); unfold xyz_scale, xyz_neg, times3; num; cbn [gx gy gz]; f_equal; ring.
Qed.
Lemma moved_ok i : okp (moved_point fuel c d n0 i) (fun x => 0 <= i <= n /\ moved fuel c d n0 i x).
Proof.
  intros x E. assert (Hi : 0 <= i <= n).
  { unfold moved_point in E. fold H in E. destruct (get H i) as [y|] eqn:G; [|discriminate]. unfold get in G. destruct (Z.ltb_spec i 0) as [|L]; [discriminate|]. split; [exact L|]. destruct (nth_error H (Z.to_nat i)) eqn:N; [|discriminate].
    assert (Z.to_nat i < length H)%nat by (apply nth_error_Some; congruence). unfold n, len. lia. }
  split; [exact Hi|]. pose proof E as E'. unfold moved_point in E'. fold H in E'. rewrite (arr_get H (len H) (pt H)) in E'; [|apply (arr_pt H _ eq_refl)|unfold n in Hi; lia]. cbn [bind] in E'. destruct (heavy_ToXYZ (pt H i)) as (EX & _); [apply Hw; unfold n in Hi; lia|]. rewrite EX in E'. cbn [bind] in E'.
  destruct (GetParamOnCurve fuel c (proj (pt H i))) as [t|] eqn:Et; [cbn [bind] in E'|discriminate]. destruct (CurveNormalAt c CN_Normal t) as [v|] eqn:Ev; [|discriminate].
  destruct (moved_run i t v Hi Et Ev) as (y & Ey & My). rewrite E in Ey. injection Ey as <-. exact My.
Qed.

Definition mv (i : Z) : XYZ R := match moved_point fuel c d n0 i with Ok x => x | _ => zero3 end.
Lemma mv_ok i : okp (moved_point fuel c d n0 i) (fun x => x = mv i /\ 0 <= i <= n /\ moved fuel c d n0 i (mv i)).
Proof. intros x E. pose proof (moved_ok i x E) as (Hi & M). unfold mv. rewrite E. auto. Qed.

Definition temps (m : Z) : XYZ R := mv ((m + 1) / 2).
Lemma temps_even k : temps (2 * k) = mv k.
Proof. unfold temps. f_equal. replace (2 * k + 1) with (1 + k * 2) by lia. rewrite Z.div_add by lia. reflexivity. Qed.
Lemma temps_odd k : temps (2 * k + 1) = mv (k + 1).
Proof. unfold temps. f_equal. replace (2 * k + 1 + 1) with ((k + 1) * 2) by lia. apply Z.div_mul. lia. Qed.

Definition pass1 (k : Z) (T : list (XYZ R)) : Prop := arr T (2 * k) temps /\ (0 < k -> forall j, 0 <= j <= k -> moved fuel c d n0 j (mv j)).
Lemma pass1_step k T : pass1 k T -> arr (T ++ [mv k; mv (k + 1)]) (2 * (k + 1)) temps.
Proof.
  intros (A & _). change [mv k; mv (k + 1)] with ([mv k] ++ [mv (k + 1)]). rewrite app_assoc. replace (2 * (k + 1)) with (2 * k + 1 + 1) by lia.
  apply arr_snoc; [apply arr_snoc; [exact A|apply temps_even]|apply temps_odd].
Qed.

(* the corner between two moved control points *)
Definition corner (i : Z) (w : XYZW R) : Prop :=
  w = hom (mv i) 1 \/ (Spec3.near (mv (i - 1)) (mv (i + 1)) /\ Spec3.near (minus3 (mv i) (mv (i - 1))) (minus3 (mv i) (mv (i + 1))) /\ w = hom (mv (i - 1)) 1).
Definition flat (i : Z) : Prop := small (gram (minus3 (mv i) (mv (i - 1))) (minus3 (mv i) (mv (i + 1)))).

Lemma ray i : okp (ComputeRays (A := R) (mv (i - 1)) (xyz_sub (mv i) (mv (i - 1))) (mv (i + 1)) (xyz_sub (mv i) (mv (i + 1))) 0%R 0%R xyz0)
  (fun '(type, _, _, x) => (type = Intersecting /\ corner i (mkW x 1%R)) \/ (type <> Intersecting /\ flat i)).
Proof.
  change (@xyz_sub R _) with minus3. set (p0 := mv (i - 1)). set (p1 := mv (i + 1)). set (v0 := minus3 (mv i) p0). set (v1 := minus3 (mv i) p1).
  intros [[[ty a] b] x] E.
  assert (W : forall y, mkW y 1%R = hom y 1) by (intros [y1 y2 y3]; unfold mkW, hom; num; f_equal; ring).
  destruct (xyz_IsAlmostEqualTo v0 v1 && xyz_IsAlmostEqualTo p0 p1) eqn:N.
  - apply andb_true_iff in N as [N1 N2]. apply near_iff in N1, N2. rewrite (ComputeRays_near _ _ _ _ _ _ _ N1 N2) in E. injection E as <- <- <- <-. left. split; [reflexivity|]. right. split; [exact N2|]. split; [exact N1|]. apply W.
  - assert (HN : ~ (Spec3.near v0 v1 /\ Spec3.near p0 p1)) by (intros (X1 & X2); apply near_iff in X1, X2; rewrite X1, X2 in N; discriminate).
    destruct (Rle_lt_dec (dot3 v0 v0) (1 / 10 ^ 12)) as [Z0|Z0]; [rewrite ComputeRays_zero in E by auto; discriminate|]. destruct (Rle_lt_dec (dot3 v1 v1) (1 / 10 ^ 12)) as [Z1|Z1]; [rewrite ComputeRays_zero in E by auto; discriminate|].
    destruct (Rle_dec (Rabs (gram v0 v1)) (1 / 999999)) as [G|G].
    + destruct (ComputeRays_cases p0 v0 p1 v1 HN Z0 Z1 0%R 0%R xyz0) as (C1 & C2 & _). destruct (Rle_dec (Rabs (norm3 (cross3 (minus3 p1 p0) v0))) (1 / 999999)) as [K|K].
      * rewrite C1 in E by assumption. injection E as <- <- <- <-. right. split; [discriminate|exact G].
      * rewrite C2 in E by assumption. injection E as <- <- <- <-. right. split; [discriminate|exact G].
    + assert (L0 : line_at p0 v0 1 = mv i) by (unfold line_at, v0, plus3, times3, minus3; cbn [gx gy gz]; destruct (mv i) as [x1 x2 x3]; cbn [gx gy gz]; f_equal; ring).
      assert (L1 : line_at p1 v1 1 = mv i) by (unfold line_at, v1, plus3, times3, minus3; cbn [gx gy gz]; destruct (mv i) as [x1 x2 x3]; cbn [gx gy gz]; f_equal; ring).
      rewrite (ComputeRays_meet p0 v0 p1 v1 HN Z0 Z1 0%R 0%R xyz0 1 1 G ltac:(rewrite L0, L1; reflexivity)) in E. injection E as <- <- <- <-. left. split; [reflexivity|]. left. rewrite L0. apply W.
Qed.

Definition tiller_post (o : option (Curve R (XYZW R))) : Prop :=
  1 <= n /\ (forall i, 0 <= i <= n -> moved fuel c d n0 i (mv i)) /\
  match o with
  | Some c' => Degree c' = Degree c /\ KnotVector c' = KnotVector c /\ len (ControlPoints c') = n + 1 /\
      pt (ControlPoints c') 0 = hom (mv 0) 1 /\ pt (ControlPoints c') n = hom (mv n) 1 /\ forall i, 0 < i < n -> corner i (pt (ControlPoints c') i)
  | None => exists i, 0 < i < n /\ flat i
  end.
Lemma mkW_hom (y : XYZ R) : mkW y 1%R = hom y 1.
Proof. destruct y as [y1 y2 y3]. unfold mkW, hom. num. f_equal; ring. Qed.

Lemma Tiller_post u0 : ~ close d 0 -> get (KnotVector c) 0 = Ok u0 -> CurveNormalAt c CN_Normal u0 = Ok n0 -> okp (OffsetByTillerAndHanson fuel c d) tiller_post.
Proof.
  intros Hd Eu En. unfold OffsetByTillerAndHanson. num. rewrite (proj2 (close_false d 0) Hd), Eu. cbn [bind]. rewrite En. cbn [bind]. fold H. fold n. apply okp_bind.
  apply (okp_for pass1).
  - split; [apply arr_nil|lia].
  - intros k T Hk HT. apply okp_bind. eapply okp_mono; [apply (mv_ok k)|]. cbv beta. intros ? (-> & _ & M0). apply okp_bind. eapply okp_mono; [apply (mv_ok (k + 1))|]. cbv beta. intros ? (-> & _ & M1). apply okp_ok. split; [apply pass1_step, HT|].
    intros _ j Hj. destruct (Z.eq_dec j (k + 1)) as [->|]; [exact M1|]. destruct (Z.eq_dec j k) as [->|]; [exact M0|]. apply HT; lia.
  - intros T (A & M). assert (HL : len H = n + 1) by (unfold n; lia). apply (okp_get T _ _ 0 _ _ A). intros Hn. assert (N1 : 1 <= n) by lia. rewrite Z.max_r in A, M by lia. rewrite (arr_len _ _ _ A). apply okp_bind.
    replace ((2 * n - 2) / 2) with (n - 1) by (replace (2 * n - 2) with ((n - 1) * 2) by lia; rewrite Z.div_mul; lia). unfold for_upc.
    eapply okp_mono; [apply (okp_iterc (fun k P => len P = k + 1 /\ pt P 0 = hom (mv 0) 1 /\ forall i, 0 < i <= k -> corner i (pt P i)) (fun _ => exists i, 0 < i < n /\ flat i))|].
    + split; [reflexivity|]. split; [|lia]. change (pt [mkW (temps 0) 1%R] 0) with (mkW (temps 0) 1%R). change (temps 0) with (temps (2 * 0)). rewrite temps_even. apply mkW_hom.
    + intros k P Hk (L & P0 & PC). rewrite !(arr_get _ _ _ _ A) by lia. cbn [bind]. replace (2 * k + 2) with (2 * (k + 1)) by lia. replace (2 * k + 3) with (2 * (k + 1) + 1) by lia. rewrite !temps_even, !temps_odd.
      pose proof (ray (k + 1)) as Y. replace (k + 1 - 1) with k in Y by lia. apply okp_bind. eapply okp_mono; [exact Y|]. intros [[[ty a] b] x]. intros [(-> & C)|(Nt & F)].
      * apply okp_ok. split; [rewrite len_app, L; reflexivity|]. split; [rewrite pt_app_l by lia; exact P0|]. intros i Hi. destruct (Z.eq_dec i (k + 1)) as [->|]; [|rewrite pt_app_l by lia; apply PC; lia]. rewrite <- L at 2. rewrite pt_snoc. exact C.
      * destruct ty; try contradiction; apply okp_ok; exists (k + 1); split; try exact F; lia.
    + intros [P|r]; [|intros F; apply okp_ok; split; [exact N1|]; split; [apply M; lia|exact F]]. rewrite Z2Nat.id by lia. intros (L & P0 & PC). rewrite (arr_get _ _ _ _ A) by lia. cbn [bind]. apply okp_ok. split; [exact N1|]. split; [apply M; lia|].
      cbn [Degree KnotVector ControlPoints]. split; [reflexivity|]. split; [reflexivity|]. split; [rewrite len_app, L; change (len [_]) with 1; lia|]. split; [rewrite pt_app_l by lia; exact P0|]. split; [|intros i Hi; rewrite pt_app_l by lia; apply PC; lia].
      assert (Q : forall w, pt (P ++ [w]) n = w) by (intros w; replace n with (len P) by lia; apply pt_snoc). rewrite Q. replace (2 * n - 1) with (2 * (n - 1) + 1) by lia. rewrite temps_odd. replace (n - 1 + 1) with n by lia. apply mkW_hom.
Qed.

Lemma mv_run i t v : 0 <= i <= n -> GetParamOnCurve fuel c (proj (pt H i)) = Ok t -> CurveNormalAt c CN_Normal t = Ok v -> moved_point fuel c d n0 i = Ok (mv i) /\ moved fuel c d n0 i (mv i).
Proof. intros Hi Et Ev. destruct (moved_run i t v Hi Et Ev) as (x & Ex & M). unfold mv. rewrite Ex. auto. Qed.

Lemma ray_run i : (1 / 10 ^ 12 < dot3 (minus3 (mv i) (mv (i - 1))) (minus3 (mv i) (mv (i - 1))))%R -> (1 / 10 ^ 12 < dot3 (minus3 (mv i) (mv (i + 1))) (minus3 (mv i) (mv (i + 1))))%R -> ~ flat i ->
  exists a b x, ComputeRays (A := R) (mv (i - 1)) (xyz_sub (mv i) (mv (i - 1))) (mv (i + 1)) (xyz_sub (mv i) (mv (i + 1))) 0%R 0%R xyz0 = Ok (Intersecting, a, b, x).
Proof.
  intros Z0 Z1 F. change (@xyz_sub R _) with minus3. unfold flat in F. set (p0 := mv (i - 1)) in *. set (p1 := mv (i + 1)) in *. set (v0 := minus3 (mv i) p0) in *. set (v1 := minus3 (mv i) p1) in *.
  destruct (xyz_IsAlmostEqualTo v0 v1 && xyz_IsAlmostEqualTo p0 p1) eqn:N.
  - apply andb_true_iff in N as [N1 N2]. apply near_iff in N1, N2. rewrite (ComputeRays_near _ _ _ _ _ _ _ N1 N2). eauto.
  - assert (HN : ~ (Spec3.near v0 v1 /\ Spec3.near p0 p1)) by (intros (X1 & X2); apply near_iff in X1, X2; rewrite X1, X2 in N; discriminate).
    assert (L0 : line_at p0 v0 1 = mv i) by (unfold line_at, v0, plus3, times3, minus3; cbn [gx gy gz]; destruct (mv i) as [x1 x2 x3]; cbn [gx gy gz]; f_equal; ring).
    assert (L1 : line_at p1 v1 1 = mv i) by (unfold line_at, v1, plus3, times3, minus3; cbn [gx gy gz]; destruct (mv i) as [x1 x2 x3]; cbn [gx gy gz]; f_equal; ring).
    rewrite (ComputeRays_meet p0 v0 p1 v1 HN Z0 Z1 0%R 0%R xyz0 1 1 F ltac:(rewrite L0, L1; reflexivity)). eauto.
Qed.

Lemma Tiller_run u0 : ~ close d 0 -> get (KnotVector c) 0 = Ok u0 -> CurveNormalAt c CN_Normal u0 = Ok n0 -> 1 <= n ->
  (forall i, 0 <= i <= n -> exists t v, GetParamOnCurve fuel c (proj (pt H i)) = Ok t /\ CurveNormalAt c CN_Normal t = Ok v) ->
  (forall i, 0 < i < n -> ~ flat i) -> (forall i, 0 <= i < n -> (1 / 10 ^ 12 < dot3 (minus3 (mv (i + 1)) (mv i)) (minus3 (mv (i + 1)) (mv i)))%R) ->
  exists c', OffsetByTillerAndHanson fuel c d = Ok (Some c').
Proof.
  intros Hd Eu En N1 HM HF HZ. assert (EM : forall i, 0 <= i <= n -> moved_point fuel c d n0 i = Ok (mv i)) by (intros i Hi; destruct (HM i Hi) as (t & v & Et & Ev); apply (mv_run i t v Hi Et Ev)).
  assert (W : wp (OffsetByTillerAndHanson fuel c d) (fun o => o <> None)).
  { unfold OffsetByTillerAndHanson. num. rewrite (proj2 (close_false d 0) Hd), Eu. cbn [bind]. rewrite En. cbn [bind]. fold H. fold n. apply wp_bind.
    apply wp_for_up with (P := fun k T => arr T (2 * k) temps); [lia|apply arr_nil| |].
    - intros k T Hk HT. rewrite !EM by lia. cbn [bind]. apply wp_ok. apply pass1_step. split; [exact HT|]. intros _ j Hj. destruct (HM j ltac:(lia)) as (t & v & Et & Ev). apply (mv_run j t v ltac:(lia) Et Ev).
    - intros T A. rewrite (arr_get _ _ _ 0 A) by lia. cbn [bind]. rewrite (arr_len _ _ _ A). replace ((2 * n - 2) / 2) with (n - 1) by (replace (2 * n - 2) with ((n - 1) * 2) by lia; rewrite Z.div_mul; lia). apply wp_bind.
      apply wp_for_upc with (P := fun _ _ => True) (F := fun _ => False); [exact I| | |].
      + intros k P Hk _. rewrite !(arr_get _ _ _ _ A) by lia. cbn [bind]. replace (2 * k + 2) with (2 * (k + 1)) by lia. replace (2 * k + 3) with (2 * (k + 1) + 1) by lia. rewrite !temps_even, !temps_odd.
        destruct (ray_run (k + 1)) as (a & b & x & E).
        * replace (k + 1 - 1) with k by lia. apply HZ. lia.
        * pose proof (HZ (k + 1) ltac:(lia)) as Z1. replace (dot3 _ _) with (dot3 (minus3 (mv (k + 1 + 1)) (mv (k + 1))) (minus3 (mv (k + 1 + 1)) (mv (k + 1)))); [exact Z1|]. unfold dot3, minus3. cbn [gx gy gz]. ring.
        * apply HF. lia.
        * replace (k + 1 - 1) with k in E by lia. rewrite E. cbn [bind]. apply wp_ok. exact I.
      + intros P _. rewrite (arr_get _ _ _ _ A) by lia. cbn [bind]. apply wp_ok. discriminate.
      + intros r []. }
  destruct (wp_elim _ _ W) as ([c'|] & E & X); [exists c'; exact E|congruence].
Qed.
End Moved.

(** * Straight beginnings *)
Lemma ToXYZ_some (a : XYZW R) : ww a <> 0%R -> exists x, ToXYZ a true = Ok x.
Proof. intros Ha. unfold ToXYZ. destruct (IsAlmostEqualTo _ _); [eauto|]. num. rewrite !Rdiv_ok by exact Ha. cbn [bind]. eauto. Qed.
Section Straight.
Variable solver : list (list R) -> list (list R) -> res (list (list R)).
Variables (p n : Z) (U : list R) (H : list (XYZW R)).
Hypothesis HU : curve_knots p n U.
Hypothesis Hp : p <= 7.
Hypothesis HH : len H = n + 1.
Hypothesis Hw : heavy H.
Hypothesis Hcl : clamped_knots p n U.
Let c := mkCurve p U H.

Lemma knot_dom i : 0 <= i < len U -> in_domain p n U (val U i).
Proof.
  intros Hi. pose proof HU as [P0 N0 L S F _]. destruct Hcl as (C0 & C1). split; [rewrite <- C0; apply S; lia|rewrite C1; apply S; lia].
Qed.
Lemma count_ok : exists k, sample_count c = Ok k.
Proof.
  assert (W : wp (sample_count c) (fun _ => True)).
  { unfold sample_count. apply wp_for_up with (P := fun _ _ => True); [apply len_nonneg|exact I| |auto]. intros i k Hi _. cbn [KnotVector c] in Hi |- *. rewrite get_val by lia. cbn [bind]. pose proof (knot_dom i Hi) as D. pose proof (curve_weight p n U H _ HU HH Hw D) as Wx.
    destruct (derivs_at p n U H _ HU Hp HH D ltac:(lra) 2 ltac:(lia)) as (g & L & _ & E & G). fold c in E. rewrite E. cbn [bind]. destruct (Z.ltb_spec 2 (len L)); [|apply wp_ok; exact I]. rewrite G by lia. cbn [bind]. unfold DistanceEpsilon. num. rewrite Rdiv_ok by lra. cbn [bind].
    rewrite Rsqrt_ok by lra. cbn [bind]. rewrite Length_eq. cbn [bind]. rewrite Rdiv_ok by lra. cbn [bind]. rewrite Rsqrt_ok by (pose proof (norm_nonneg (g 2)); lra). cbn [bind]. apply wp_ok. exact I. }
  destruct (wp_elim _ _ W) as (k & E & _). exists k. exact E.
Qed.

Lemma Offset_straight : exists g, curve_derivs p n U H 2 (val U 0) g /\
  ((cross3 (g 1) (g 2) = zero3 /\ ~ close (norm3 (g 1)) 1) \/ (g 2 = zero3 /\ close (norm3 (g 1)) 1) ->
   forall fuel d type, ~ close d 0 -> Offset solver fuel c d type = NonFin).
Proof.
  pose proof HU as [P0 N0 L S F _]. pose proof (knot_dom 0 ltac:(lia)) as D. pose proof (curve_weight p n U H _ HU HH Hw D) as Wx. destruct (Frenet_ok p n U H _ HU Hp HH D ltac:(lra)) as (g & G & F1 & F2 & F3 & F4). exists g. split; [exact G|]. intros X fuel d type Hd.
  assert (EN : CurveNormalAt c CN_Normal (val U 0) = NonFin) by (destruct X as [(X1 & X2)|(X1 & X2)]; [apply (F2 X1 X2)|apply (F4 X1 X2)]).
  apply close_false in Hd. destruct type; unfold Offset.
  - unfold OffsetByTillerAndHanson. num. rewrite Hd. cbn [KnotVector c]. rewrite get_val by lia. cbn [bind]. fold c. rewrite EN. reflexivity.
  - unfold OffsetByPieglAndTiller. num. rewrite Hd. cbn [KnotVector c Degree]. rewrite !get_val by lia. cbn [bind]. fold c. destruct count_ok as (k & ->). cbn [bind].
    set (m := if 2 * (p + 1) <? k then k else 2 * (p + 1)). assert (Hm : 2 <= m) by (unfold m; destruct (Z.ltb_spec (2 * (p + 1)) k); lia).
    rewrite Rdiv_ok by (apply not_0_IZR; lia). cbn [bind]. unfold for_up. replace (Z.to_nat (m - 0)) with (Datatypes.S (Z.to_nat (m - 1))) by lia. cbn [iter_up]. rewrite Rmult_0_r, Rplus_0_r.
    unfold c at 1. rewrite (NurbsPoint_ok p n) by assumption. destruct (ToXYZ_some _ (Rgt_not_eq _ _ Wx)) as (x & ->). cbn [bind]. fold c. rewrite EN. reflexivity.
Qed.
End Straight.

