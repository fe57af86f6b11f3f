(* Fitting points with one conic arc. *)
From Coq Require Import ZArith List Bool Reals Lra Lia.
From Verif Require Import Base Num Vec Tac Spec Spec2 Spec3 Spec24 Spec25 M_MathUtils M_XYZ M_Bspline M_NurbsCurve M_Matrix M_Curve2 M_Geom M_Interp M_Conic M_Curve4 M_FitConic
  P_MathUtils P_Bern P_Cox P_Vec P_XYZ P_VSum P_Curve P_Bspline P_Nurbs P_Matrix P_Loop P_Geom P_Interp2 P_Conic P_Conic2 P_Ls4 P_Bound2.
Import ListNotations.
Open Scope Z_scope.

Lemma IsZero_dot (a : XYZ R) : IsZero a = false <-> (1 / 10 ^ 12 < dot3 a a)%R.
Proof.
  unfold IsZero, IsZero_eps. num. unfold Rleb. change (SqrLength a) with (dot3 a a).
  replace (DoubleEpsilon * DoubleEpsilon)%R with (1 / 10 ^ 12)%R by (unfold DoubleEpsilon; num; field).
  destruct (Rle_dec (dot3 a a) (1 / 10 ^ 12)); split; intros; try lra; try discriminate; reflexivity.
Qed.

(* what the types of intersection mean *)
Lemma rays_inv p0 v0 p1 v1 a b out y s t x : ComputeRays p0 v0 p1 v1 a b out = Ok (y, s, t, x) ->
  (near v0 v1 /\ near p0 p1 /\ y = Intersecting /\ s = 0%R /\ t = 0%R /\ x = p0) \/
  ((1 / 10 ^ 12 < dot3 v0 v0)%R /\ (1 / 10 ^ 12 < dot3 v1 v1)%R /\ ~ (near v0 v1 /\ near p0 p1) /\
   match y with
   | Coincident => small (gram v0 v1) /\ small (norm3 (cross3 (minus3 p1 p0) v0))
   | Parallel => small (gram v0 v1) /\ ~ small (norm3 (cross3 (minus3 p1 p0) v0))
   | Intersecting => ~ small (gram v0 v1) /\ small (dist3 (line_at p0 v0 s) (line_at p1 v1 t)) /\ x = middle3 (line_at p0 v0 s) (line_at p1 v1 t)
   | Skew => ~ small (gram v0 v1) /\ ~ small (dist3 (line_at p0 v0 s) (line_at p1 v1 t))
   end).
Proof.
  intros E. destruct (xyz_IsAlmostEqualTo v0 v1 && xyz_IsAlmostEqualTo p0 p1) eqn:EN.
  { left. pose proof EN as EN'. apply andb_true_iff in EN as [E1 E2]. unfold ComputeRays in E. rewrite EN' in E. injection E as <- <- <- <-.
    pose proof (proj1 (near_iff _ _) E1). pose proof (proj1 (near_iff _ _) E2). num. split; [assumption|]. split; [assumption|]. auto. }
  right. assert (HN : ~ (near v0 v1 /\ near p0 p1)). { intros [N1 N2]. rewrite (proj2 (near_iff _ _) N1), (proj2 (near_iff _ _) N2) in EN. discriminate. }
  assert (HZ : IsZero v0 = false /\ IsZero v1 = false).
  { unfold ComputeRays in E. rewrite EN in E. destruct (IsZero v0); [discriminate|]. destruct (IsZero v1); [discriminate|]. auto. }
  destruct HZ as [Z0' Z1']. apply IsZero_dot in Z0'. apply IsZero_dot in Z1'. split; [exact Z0'|]. split; [exact Z1'|]. split; [exact HN|].
  rewrite (ComputeRays_start p0 v0 p1 v1 HN Z0' Z1') in E. cbv zeta in E.
  destruct (IsAlmostEqualTo (Rabs (gram v0 v1)) 0%R) eqn:EG.
  - apply small_iff in EG. rewrite small_abs in EG. destruct (IsAlmostEqualTo (norm3 _) 0%R) eqn:EC; injection E as <- <- <- <-; (split; [exact EG|]); [apply small_iff in EC|apply small_false in EC]; exact EC.
  - apply small_false in EG. rewrite small_abs in EG. destruct (IsAlmostEqualTo (dist3 _ _) 0%R) eqn:ED; injection E as <- <- <- <-; (split; [exact EG|]); [apply small_iff in ED; split; [exact ED|reflexivity]|apply small_false in ED; exact ED].
Qed.

Lemma mkW_hom (p : XYZ R) w : mkW p w = hom p w.
Proof. reflexivity. Qed.
Lemma two_ne : (IZR 2 <> 0)%R. Proof. lra. Qed.
Lemma mid_div (a b : XYZ R) : xyz_div (xyz_add a b) (IZR 2) = Ok (middle3 a b).
Proof. rewrite xyz_div_ok by lra. f_equal. unfold middle3. v3. apply xyz_eq; field. Qed.

(* a point of the arc *)
Lemma conic_point a q e w u y : (0 <= u <= 1)%R -> NurbsPoint (conic_curve a q e w) u = Ok y -> ~ small (conic_weight w u) -> y = conic_at a q e w u.
Proof.
  intros Hu E Hw. unfold conic_curve in E.
  replace [0; 0; 0; 1; 1; 1]%R with (Karc 1) in E by reflexivity.
  destruct (piece_point 1 [hom a 1; hom q w; hom e 1] 0 u ltac:(lia) eq_refl ltac:(lia) ltac:(lra)) as (S & ES & _ & HS).
  { destruct (Req_dec u 1); [right; split; [reflexivity|assumption]|left; cbn; lra]. }
  rewrite ES in E. pose proof (HS 0%nat) as Ex. pose proof (HS 1%nat) as Ey. pose proof (HS 2%nat) as Ez. pose proof (HS 3%nat) as Ew. clear HS.
  change (pt [hom a 1; hom q w; hom e 1] (2 * 0)) with (hom a 1) in Ex, Ey, Ez, Ew. change (pt [hom a 1; hom q w; hom e 1] (2 * 0 + 1)) with (hom q w) in Ex, Ey, Ez, Ew. change (pt [hom a 1; hom q w; hom e 1] (2 * 0 + 2)) with (hom e 1) in Ex, Ey, Ez, Ew.
  unfold hom in *. cbn [co VecL_XYZW co_xyzw wx wy wz ww] in Ex, Ey, Ez, Ew.
  assert (Ew' : ww S = conic_weight w u) by (rewrite Ew; unfold conic_weight; cbn; ring).
  rewrite ToXYZ_div in E by (rewrite Ew'; apply small_false; exact Hw). injection E as <-.
  assert (H0 : conic_weight w u <> 0%R) by (intros E0; apply Hw; rewrite E0; exact small_0).
  rewrite Ew', Ex, Ey, Ez. unfold conic_at, Rdiv. generalize (/ conic_weight w u)%R. intros k. v3. apply xyz_eq; cbn [gx gy gz]; ring.
Qed.

Lemma okp_forc {S T} (P : Z -> S -> Prop) (F : T -> Prop) lo hi s body (Q : ctl S T -> Prop) : P lo s ->
  (forall k s, lo <= k < hi -> P k s -> okp (body k s) (fun c => match c with Next s' => P (k + 1) s' | Stop r => F r end)) ->
  (forall s, P (Z.max lo hi) s -> Q (Next s)) -> (forall r, F r -> Q (Stop r)) -> okp (for_upc lo hi s body) Q.
Proof.
  intros H0 Hb HQ HF. unfold for_upc. eapply okp_mono; [apply (okp_iterc P F); [exact H0|]; intros k s0 Hk; apply Hb; lia|]. intros [s0|r] Hs; [|apply HF, Hs]. apply HQ. replace (Z.max lo hi) with (lo + Z.of_nat (Z.to_nat (hi - lo))) by lia. exact Hs.
Qed.

Lemma check_inv fuel Q s e a q b w err c : conic_check fuel Q s e (conic_curve a q b w) err = Ok (Next c) -> forall i, s < i < e -> on_conic a q b w err (pt Q i).
Proof.
  intros E. assert (W : okp (conic_check fuel Q s e (conic_curve a q b w) err) (fun c => match c with Next _ => forall i, s < i < e -> on_conic a q b w err (pt Q i) | Stop _ => True end)).
  2:{ exact (W _ E). }
  unfold conic_check. pose proof (arr_pt Q _ eq_refl) as AQ.
  apply okp_forc with (P := fun k (_ : unit) => forall i, s < i < k -> on_conic a q b w err (pt Q i)) (F := fun _ => True).
  - intros i Hi. lia.
  - intros k u Hk HP. apply (okp_get Q _ _ k _ _ AQ). intros Hk'. apply okp_bind.
    destruct (GetParamOnCurve fuel (conic_curve a q b w) (pt Q k)) as [v|] eqn:EV; [|apply okp_err]. apply okp_ok. apply okp_bind.
    destruct (NurbsPoint (conic_curve a q b w) v) as [y|] eqn:EY; [|apply okp_err]. apply okp_ok. rewrite Distance_eq. cbn [bind].
    destruct (IsGreaterThan (dist3 (pt Q k) y) err) eqn:EG; apply okp_ok; [exact I|]. intros i Hi. destruct (Z.eq_dec i k) as [->|]; [|apply HP; lia].
    exists v, y. split; [exact EY|]. split; [apply within_iff; exact EG|]. intros Hv Hw. eapply conic_point; eassumption.
  - intros u HP i Hi. apply HP. lia.
  - auto.
Qed.

Lemma conic_sound fuel Q s e ts te err l : FitWithConic fuel Q s e ts te err = Ok (Some l) -> 2 <= e - s ->
  0 <= s /\ e < len Q /\ exists q w, l = [hom q w] /\
  ((q = middle3 (pt Q s) (pt Q e) /\ w = 1%R /\ small (gram ts te) /\ small (norm3 (cross3 (minus3 (pt Q e) (pt Q s)) ts))) \/
   (corner (pt Q s) ts (pt Q e) te q /\ forall i, s < i < e -> on_conic (pt Q s) q (pt Q e) w err (pt Q i))).
Proof.
  intros E He. pose proof (arr_pt Q _ eq_refl) as AQ. unfold FitWithConic, validate_int_range in E.
  destruct (0 <? len Q); [cbn [validate bind] in E|discriminate].
  destruct (negb ((s <? 0) || (len Q - 1 <? s))) eqn:V1; [cbn [validate bind] in E|discriminate].
  destruct (negb ((e <? s + 1) || (len Q - 1 <? e))) eqn:V2; [cbn [validate bind] in E|discriminate].
  assert (Hs : 0 <= s /\ e < len Q) by blia.
  split; [apply Hs|]. split; [apply Hs|].
  destruct (negb (IsZero ts)); [cbn [validate bind] in E|discriminate]. destruct (negb (IsZero te)); [cbn [validate bind] in E|discriminate].
  rewrite (arr_get _ _ _ _ AQ) in E by lia. cbn [bind] in E. rewrite (arr_get _ _ _ _ AQ) in E by lia. cbn [bind] in E.
  destruct (Z.eqb_spec (e - s) 1); [lia|]. num.
  destruct (ComputeRays (pt Q s) ts (pt Q e) te 0%R 0%R xyz0) as [[[[y x1] x2] q]|] eqn:ER; [|discriminate]. cbn [bind] in E.
  apply rays_inv in ER. destruct y.
  - destruct (IsLessThanOrEqual x1 0%R) eqn:L1; [discriminate|]. destruct (IsGreaterThanOrEqual x2 0%R) eqn:L2; [discriminate|]. cbn [orb] in E.
    apply le_false in L1. apply ge_false in L2. pose proof (thr_eps_nonneg x1 0%R). pose proof (thr_eps_nonneg x2 0%R).
    destruct ER as [(_ & _ & _ & -> & _)|(_ & _ & _ & _ & SD & ->)]; [lra|].
    set (q := middle3 _ _) in *. destruct (conic_shoulders _ _ _ _ _ _) as [[sm|]|] eqn:ES; cbn [bind] in E; [|discriminate..].
    destruct (Rdiv_ sm _) as [m|] eqn:EM; [cbn [bind] in E|discriminate]. destruct (Rdiv_ m _) as [w|] eqn:EW; [cbn [bind] in E|discriminate].
    destruct (conic_check _ _ _ _ _ _) as [[c|]|] eqn:EC; cbn [bind] in E; [|discriminate..]. injection E as <-.
    exists q, w. split; [reflexivity|]. right. split; [exists x1, x2; split; [lra|]; split; [lra|]; split; [exact SD|reflexivity]|].
    eapply check_inv. exact EC.
  - discriminate.
  - rewrite mid_div in E. cbn [bind] in E. injection E as <-. exists (middle3 (pt Q s) (pt Q e)), 1%R. split; [reflexivity|]. left.
    destruct ER as [(_ & _ & D & _)|(_ & _ & _ & S1 & S2)]; [discriminate|]. auto.
  - discriminate.
Qed.

(** * What the fit gets wrong *)
Lemma get_last_app {X} (a : X) l b : get (a :: l ++ [b]) (len l + 1) = Ok b.
Proof.
  unfold get, len. destruct (Z.ltb_spec (Z.of_nat (length l) + 1) 0); [lia|]. replace (Z.to_nat (Z.of_nat (length l) + 1)) with (S (length l)) by lia.
  cbn [nth_error]. rewrite nth_error_app2 by lia. rewrite Nat.sub_diag. reflexivity.
Qed.
Lemma len_app2 {X} (a : X) l b : len (a :: l ++ [b]) = len l + 2.
Proof. unfold len. cbn [length]. rewrite app_length. cbn [length]. lia. Qed.

Lemma conic_enter fuel (a b ts te : XYZ R) inner err : (1 / 10 ^ 12 < dot3 ts ts)%R -> (1 / 10 ^ 12 < dot3 te te)%R -> 0 < len inner ->
  FitWithConic fuel (a :: inner ++ [b]) 0 (len inner + 1) ts te err =
  let! r := ComputeRays a ts b te 0%R 0%R xyz0 in
  let '(type, alf1, alf2, q) := r in
  match type with
  | Coincident => Ok (Some [hom (middle3 a b) 1])
  | Skew | Parallel => Ok None
  | Intersecting =>
      if IsLessThanOrEqual alf1 0%R || IsGreaterThanOrEqual alf2 0%R then Ok None else
      let! c := conic_shoulders (a :: inner ++ [b]) 0 (len inner + 1) a (minus3 b a) q in
      match c with
      | Stop _ => Ok None
      | Next s =>
          let! s := Rdiv_ s (IZR (len inner + 1 - 0 - 1)) in
          let! w := Rdiv_ s (1 - s)%R in
          let! c := conic_check fuel (a :: inner ++ [b]) 0 (len inner + 1) (conic_curve a q b w) err in
          match c with
          | Stop _ => Ok None
          | Next _ => Ok (Some [hom q w])
          end
      end
  end.
Proof.
  intros H1 H2 HI. unfold FitWithConic, validate_int_range. rewrite get_last_app, len_app2, !IsZero_false by assumption. cbn [negb].
  destruct (Z.ltb_spec 0 (len inner + 2)); [cbn [validate bind]|lia].
  replace (negb ((0 <? 0) || (len inner + 2 - 1 <? 0))) with true by (symmetry; blia). cbn [validate bind].
  replace (negb ((len inner + 1 <? 0 + 1) || (len inner + 2 - 1 <? len inner + 1))) with true by (symmetry; blia). cbn [validate bind].
  change (get (a :: inner ++ [b]) 0) with (Ok a). cbn [bind].
  destruct (Z.eqb_spec (len inner + 1 - 0) 1); [lia|]. num. rewrite mid_div. reflexivity.
Qed.

(* tangents along the chord: any inner points are accepted *)
Lemma conic_chord fuel (a d : XYZ R) k inner err : (1 / 10 ^ 12 < dot3 d d)%R -> 0 < len inner -> ~ near a (line_at a d k) ->
  FitWithConic fuel (a :: inner ++ [line_at a d k]) 0 (len inner + 1) d d err = Ok (Some [hom (middle3 a (line_at a d k)) 1]).
Proof.
  intros Hd HI HN. rewrite conic_enter by assumption.
  assert (HN' : ~ (near d d /\ near a (line_at a d k))) by tauto.
  destruct (ComputeRays_cases a d (line_at a d k) d HN' Hd Hd 0%R 0%R xyz0) as (C & _). rewrite C; [reflexivity| |].
  - replace (gram d d) with 0%R by (unfold gram; ring). exact small_0.
  - replace (cross3 (minus3 (line_at a d k) a) d) with zero3 by (clear; d3; unfold zero3; v3h; apply xyz_eq; cbn [gx gy gz]; ring). unfold norm3. replace (dot3 zero3 zero3) with 0%R by (unfold zero3; v3; ring). rewrite sqrt_0. exact small_0.
Qed.

(* the triangle (0,0,0), (0,1,0), (1,0,0): an inner point well inside it stops the fit with a division by zero *)
Definition tri_s : XYZ R := mkXYZ 0%R 0%R 0%R.
Definition tri_r : XYZ R := mkXYZ 0%R 1%R 0%R.
Definition tri_e : XYZ R := mkXYZ 1%R 0%R 0%R.
Lemma near_x a b : near a b -> (Rabs (gx a - gx b) <= tol (gx a) (gx b))%R. Proof. intros H. apply H. Qed.
Lemma far_x (a b : XYZ R) : (0 <= gx a <= 1)%R -> (0 <= gx b <= 1)%R -> (1 / 1000 <= Rabs (gx a - gx b))%R -> ~ near a b.
Proof.
  intros Ha Hb H N. apply near_x in N. unfold tol in N. rewrite (Rabs_pos_eq (gx a)), (Rabs_pos_eq (gx b)) in N by lra.
  assert (Rmax (gx a) (gx b) <= 1)%R by (apply Rmax_lub; lra). lra.
Qed.
Lemma conic_planar fuel x y rest err : (1 / 10 <= x)%R -> (1 / 10 <= y)%R -> (x + y <= 9 / 10)%R ->
  FitWithConic fuel (tri_s :: (mkXYZ x y 0%R :: rest) ++ [tri_e]) 0 (len rest + 2) (minus3 tri_r tri_s) (minus3 tri_e tri_r) err = NonFin.
Proof.
  intros Hx Hy Hxy. set (p := mkXYZ x y 0%R). replace (len rest + 2) with (len (p :: rest) + 1) by (unfold len; cbn [length]; lia).
  rewrite conic_enter; [|unfold tri_r, tri_s, tri_e; v3; lra..|unfold len; cbn [length]; lia].
  rewrite (rays_meet_lit tri_s (minus3 tri_r tri_s) tri_e (minus3 tri_e tri_r) 1%R (-1)%R).
  2:{ unfold tri_s, tri_r, tri_e. not_near. }
  2,3: unfold tri_r, tri_s, tri_e; v3; lra.
  2:{ unfold tri_r, tri_s, tri_e. not_small. }
  2:{ unfold tri_r, tri_s, tri_e. v3h. apply xyz_eq; cbn [gx gy gz]; ring. }
  cbn [bind].
  assert (L1 : IsLessThanOrEqual 1%R 0%R = false). { apply le_false. unfold thr, eps. rewrite Rabs_R0, (Rabs_pos_eq 1), Rmax_left by lra. lra. }
  assert (L2 : IsGreaterThanOrEqual (-1)%R 0%R = false). { apply ge_false. unfold thr, eps. replace (-1)%R with (- (1))%R by lra. rewrite Rabs_R0, Rabs_Ropp, (Rabs_pos_eq 1), Rmax_left by lra. lra. }
  rewrite L1, L2. cbn [orb]. replace (line_at tri_s (minus3 tri_r tri_s) 1) with tri_r by (unfold tri_r, tri_s; v3h; apply xyz_eq; cbn [gx gy gz]; ring).
  enough (ES : conic_shoulders (tri_s :: (p :: rest) ++ [tri_e]) 0 (len (p :: rest) + 1) tri_s (minus3 tri_e tri_s) tri_r = NonFin) by (rewrite ES; reflexivity).
  unfold conic_shoulders, for_upc. replace (Z.to_nat _) with (S (length rest)) by (unfold len; cbn [length]; lia). cbn [iter_upc].
  change (get (tri_s :: (p :: rest) ++ [tri_e]) (0 + 1)) with (Ok p). cbn [bind]. g3. num.
  assert (Y1 : (0 < 1 - y)%R) by lra.
  set (q := mkXYZ (x / (1 - y))%R 0%R 0%R).
  assert (Bx : (1 / 10 <= x / (1 - y) <= 9 / 10)%R).
  { split; (apply Rmult_le_reg_r with (1 - y)%R; [lra|]); unfold Rdiv at 2; [rewrite Rmult_assoc, Rinv_l by lra; nra|]. unfold Rdiv at 1. rewrite Rmult_assoc, Rinv_l by lra. nra. }
  assert (By : (1 <= 1 / (1 - y))%R). { apply Rmult_le_reg_r with (1 - y)%R; [lra|]. unfold Rdiv. rewrite Rmult_assoc, Rinv_l by lra. lra. }
  assert (M1 : ComputeRays tri_s (minus3 tri_e tri_s) tri_r (minus3 p tri_r) 0%R 0%R xyz0 = Ok (Intersecting, x / (1 - y), 1 / (1 - y), q)%R).
  { rewrite (rays_meet_lit tri_s (minus3 tri_e tri_s) tri_r (minus3 p tri_r) (x / (1 - y))%R (1 / (1 - y))%R).
    - unfold q, tri_s, tri_e. v3h. do 2 f_equal. apply xyz_eq; cbn [gx gy gz]; field; lra.
    - apply far_x; unfold p, tri_s, tri_r, tri_e; cbn [minus3 gx gy gz]; [lra..|]. rewrite Rabs_pos_eq; lra.
    - unfold tri_s, tri_e; v3; lra.
    - unfold p, tri_r; v3. nra.
    - unfold gram, small, p, tri_s, tri_r, tri_e. v3. match goal with |- ~ (Rabs ?z <= _)%R => replace z with ((1 - y) * (1 - y))%R by ring end. rewrite Rabs_pos_eq by nra. nra.
    - unfold p, tri_s, tri_r, tri_e. v3h. apply xyz_eq; cbn [gx gy gz]; field; lra. }
  rewrite M1. cbn [bind negb orb].
  assert (L3 : IsLessThanOrEqual (x / (1 - y))%R 0%R = false). { apply le_false. unfold thr, eps. rewrite Rabs_R0, Rabs_pos_eq, Rmax_left by lra. lra. }
  assert (L4 : IsGreaterThanOrEqual (x / (1 - y))%R 1%R = false). { apply ge_false. unfold thr, eps. rewrite Rabs_R1, Rabs_pos_eq, Rmax_right by lra. lra. }
  assert (L5 : IsLessThanOrEqual (1 / (1 - y))%R 0%R = false). { apply le_false. unfold thr, eps. rewrite Rabs_R0, Rabs_pos_eq, Rmax_left by lra. lra. }
  rewrite L3, L4, L5. cbn [orb]. unfold CreateOneConicArc. num.
  rewrite !IsZero_false by (unfold p, tri_s, tri_r, tri_e; v3; nra). cbn [negb validate bind]. rewrite M1. cbn [bind]. g3.
  assert (K : (1 / 100 <= x * y / (1 - y))%R). { apply Rmult_le_reg_r with (1 - y)%R; [lra|]. unfold Rdiv at 2. rewrite Rmult_assoc, Rinv_l by lra. nra. }
  rewrite (rays_meet_lit q (minus3 p q) tri_s (minus3 tri_r tri_s) (1 / y)%R 1%R).
  - cbn [bind]. assert (D : Rdiv_ 1 (1 - 1) = NonFin) by (unfold Rdiv_; destruct (Req_EM_T _ _); [reflexivity|lra]). rewrite D. reflexivity.
  - intros N. apply near_x in N. cbn [minus3 gx gy gz p q tri_r tri_s] in N. unfold tol in N.
    replace (x - x / (1 - y) - (0 - 0))%R with (- (x * y / (1 - y)))%R in N by (field; lra). replace (x - x / (1 - y))%R with (- (x * y / (1 - y)))%R in N by (field; lra).
    rewrite Rminus_0_r, Rabs_R0, !Rabs_Ropp in N. rewrite (Rabs_pos_eq (x * y / (1 - y))) in N by lra. rewrite Rmax_left in N by lra. lra.
  - unfold p, q; v3. pose proof (Rle_0_sqr (x - x / (1 - y))) as SQ. unfold Rsqr in SQ. rewrite !Rminus_0_r, Rmult_0_r, Rplus_0_r. assert (1 / 100 <= y * y)%R by nra. lra.
  - unfold tri_s, tri_r; v3; lra.
  - unfold gram, small, p, q, tri_s, tri_r. v3. match goal with |- ~ (Rabs ?z <= _)%R => replace z with ((x * y / (1 - y)) * (x * y / (1 - y)))%R by (field; lra) end. rewrite Rabs_pos_eq by nra. nra.
  - unfold p, q, tri_s, tri_r. v3h. apply xyz_eq; cbn [gx gy gz]; field; lra.
Qed.
