(* The area of a surface and the length of a curve by the rule of Gauss and Legendre on Bezier pieces. *)
From Coq Require Import ZArith List Bool Reals Lra Lia.
From Verif Require Import Base Num Vec Tac Spec Spec2 Spec3 Spec4 Spec5 Spec8 Spec10 Spec12 M_MathUtils M_XYZ M_Bspline M_NurbsCurve M_Curve2 M_Geom M_Surface M_Curve4 M_Area
  P_MathUtils P_XYZ P_Vec P_VSum P_Curve P_Bspline P_Refine P_Insert2 P_BsplineS P_Geom P_Decomp P_RSurf2 P_Area2 P_Length P_SDec2 P_Gauss.
Import ListNotations.
Open Scope Z_scope.

Lemma norm_scale2 b c (x y : XYZ R) : (0 <= b)%R -> (0 <= c)%R -> norm3 (cross3 (times3 b x) (times3 c y)) = (b * c * norm3 (cross3 x y))%R.
Proof.
  intros Hb Hc. unfold norm3. replace (dot3 (cross3 (times3 b x) (times3 c y)) (cross3 (times3 b x) (times3 c y))) with ((b * c) * (b * c) * dot3 (cross3 x y) (cross3 x y))%R by (d3; v3h; ring).
  rewrite sqrt_mult_alt by nra. rewrite sqrt_square by nra. reflexivity.
Qed.
Lemma norm_scale1 b (x : XYZ R) : (0 <= b)%R -> norm3 (times3 b x) = (b * norm3 x)%R.
Proof.
  intros Hb. unfold norm3. replace (dot3 (times3 b x) (times3 b x)) with (b * b * dot3 x x)%R by (d3; v3h; ring).
  rewrite sqrt_mult_alt by nra. rewrite sqrt_square by nra. reflexivity.
Qed.

Section S.
Variables (ab we : list R).
Hypothesis Hab : forall k, 0 <= k < len ab -> (-1 < val ab k < 1)%R.
Hypothesis Hwe : len we = len ab.
Definition node k := ((1 + val ab k) / 2)%R.
Lemma node_in k : 0 <= k < len ab -> (0 < node k < 1)%R.
Proof. intros Hk. pose proof (Hab k Hk). unfold node. lra. Qed.

Section Surf.
Variables (p n : Z) (U : list R) (q m : Z) (V : list R) (H : list (list (XYZW R))).
Hypotheses (HU : curve_knots p n U) (HV : curve_knots q m V) (Hp : 1 <= p <= 7) (Hq : 1 <= q <= 7) (HH : net (n + 1) (m + 1) H).
Hypotheses (CU : clamped_knots p n U) (CV : clamped_knots q m V).
Hypothesis Hw : forall u v, in_domain p n U u -> in_domain q m V v -> ww (surface_point p n U q m V H u v) <> 0%R.
Variables (B C : list R).
Hypotheses (B1 : increasing B) (B2 : forall x, In x B <-> In x U) (C1 : increasing C) (C2 : forall x, In x C <-> In x V).

Definition el u v : R := match area_element (mkSurface p q U V H) u v with Ok d => d | Err _ => 0%R end.
Lemma el_ok u v : in_domain p n U u -> in_domain q m V v -> exists g, surface_partials p n U q m V H 1 u v g /\ el u v = norm3 (cross3 (g 1 0) (g 0 1)).
Proof. intros Du Dv. destruct (element_ok p n U q m V H HU HV Hp Hq HH Hw u v Du Dv) as (g & G & E). exists g. split; [exact G|]. unfold el. rewrite E. reflexivity. Qed.

Section Cell.
Variables (i j : Z) (Q : list (list (XYZW R))).
Hypotheses (Hi : 0 <= i < len B - 1) (Hj : 0 <= j < len C - 1) (HQ : net (p + 1) (q + 1) Q).
Definition cu s := ((1 - s) * val B i + s * val B (i + 1))%R.
Definition cv t := ((1 - t) * val C j + t * val C (j + 1))%R.
Hypothesis Ev : forall s t, (0 <= s <= 1)%R -> (0 <= t <= 1)%R -> surface_point p p (bezier_knots p) q q (bezier_knots q) Q s t = surface_point p n U q m V H (cu s) (cv t).

Lemma cell_element s t : (0 < s < 1)%R -> (0 < t < 1)%R ->
  area_element (mkSurface p q (bezier_knots p) (bezier_knots q) Q) s t = Ok ((val B (i + 1) - val B i) * (val C (j + 1) - val C j) * el (cu s) (cv t))%R.
Proof.
  intros Hs Ht. assert (Du : forall x, (0 <= x <= 1)%R -> in_domain p n U (cu x)) by (intros; apply cell_domain; auto). assert (Dv : forall x, (0 <= x <= 1)%R -> in_domain q m V (cv x)) by (intros; apply cell_domain; auto).
  assert (KP : curve_knots p p (bezier_knots p)) by (apply bez_knots_ok; lia). assert (KQ : curve_knots q q (bezier_knots q)) by (apply bez_knots_ok; lia).
  assert (HwQ : forall x y, in_domain p p (bezier_knots p) x -> in_domain q q (bezier_knots q) y -> ww (surface_point p p (bezier_knots p) q q (bezier_knots q) Q x y) <> 0%R).
  { intros x y Hx Hy. apply bez_domain in Hx; [|lia]. apply bez_domain in Hy; [|lia]. rewrite Ev by assumption. apply Hw; auto. }
  destruct (element_ok p p _ q q _ Q KP KQ Hp Hq HQ HwQ s t ltac:(apply bez_domain; [lia|lra]) ltac:(apply bez_domain; [lia|lra])) as (g & G & E).
  destruct (el_ok (cu s) (cv t) (Du s ltac:(lra)) (Dv t ltac:(lra))) as (g' & G' & E').
  destruct (partials_true _ _ _ _ _ _ Q KP KQ HwQ s t g (bez_off p s ltac:(lia) Hs) (bez_off q t ltac:(lia) Ht) G) as (P1 & P2).
  destruct (partials_true _ _ _ _ _ _ H HU HV Hw (cu s) (cv t) g' (between_off B U i s B1 B2 Hi Hs) (between_off C V j t C1 C2 Hj Ht) G') as (P1' & P2').
  apply (pderiv_affine _ _ _ _ _) in P1'. apply (pderiv_affine _ _ _ _ _) in P2'.
  assert (X1 : g 1 0 = times3 (val B (i + 1) - val B i) (g' 1 0)).
  { eapply pderiv_unique; [exact P1|]. eapply (pderiv_local _ _ s 0%R 1%R); [exact Hs| |exact P1']. intros x Hx. cbv beta. rewrite Ev by lra. reflexivity. }
  assert (X2 : g 0 1 = times3 (val C (j + 1) - val C j) (g' 0 1)).
  { eapply pderiv_unique; [exact P2|]. eapply (pderiv_local _ _ t 0%R 1%R); [exact Ht| |exact P2']. intros x Hx. cbv beta. rewrite Ev by lra. reflexivity. }
  rewrite E, X1, X2, E'. pose proof (B1 i (i + 1) ltac:(lia) ltac:(lia) ltac:(lia)). pose proof (C1 j (j + 1) ltac:(lia) ltac:(lia) ltac:(lia)). rewrite norm_scale2 by lra. reflexivity.
Qed.

Definition cell_sum : R := rsum 0 (len ab) (fun k => rsum 0 (len ab) (fun l => val we k * val we l * el (cu (node k)) (cv (node l))))%R.
Lemma gauss_cell : gauss_area ab we (mkSurface p q (bezier_knots p) (bezier_knots q) Q) = Ok ((val B (i + 1) - val B i) * (val C (j + 1) - val C j) / 4 * cell_sum)%R.
Proof.
  assert (LP : len (bezier_knots p) = 2 * p + 2) by (rewrite (ck_len p p _ (bez_knots_ok p ltac:(lia))); lia). assert (LQ : len (bezier_knots q) = 2 * q + 2) by (rewrite (ck_len q q _ (bez_knots_ok q ltac:(lia))); lia).
  unfold gauss_area. cbn [KnotVectorU KnotVectorV]. rewrite LP, LQ. rewrite !(get_at 0%R) by lia. cbn [bind]. change (@at_ R 0%R) with val. rewrite !bez_val by lia.
  destruct (Z.leb_spec 0 p); [|lia]. destruct (Z.leb_spec 0 q); [|lia]. destruct (Z.leb_spec (2 * p + 2 - 1) p); [lia|]. destruct (Z.leb_spec (2 * q + 2 - 1) q); [lia|].
  set (D := ((val B (i + 1) - val B i) * (val C (j + 1) - val C j))%R) in *. num. set (f := fun k l => (val we k * val we l * el (cu (node k)) (cv (node l)))%R).
  assert (E : wp (for_up 0 (len ab) 0%R (fun k acc => let! x := get ab k in for_up 0 (len ab) acc (fun l acc => let! y := get ab l in
      let! ds := area_element (mkSurface p q (bezier_knots p) (bezier_knots q) Q) ((1 - 0) * (1 / 2) * x + (0 + 1) * (1 / 2))%R ((1 - 0) * (1 / 2) * y + (0 + 1) * (1 / 2))%R in
      let! wi := get we k in let! wj := get we l in Ok (acc + wi * wj * ds)%R))) (fun r => r = (D * rsum 0 (len ab) (fun k => rsum 0 (len ab) (f k)))%R)).
  { pose proof (len_nonneg ab). apply (wp_for_up (fun k r => r = (D * rsum 0 k (fun k => rsum 0 (len ab) (f k)))%R)); [lia|rewrite rsum_nil by lia; ring| |intros r ->; reflexivity].
    intros k r Hk ->. rewrite (get_at 0%R) by lia. cbn [bind]. apply (wp_for_up (fun l r => r = (D * rsum 0 k (fun k => rsum 0 (len ab) (f k)) + D * rsum 0 l (f k))%R)); [lia|rewrite (rsum_nil 0 0) by lia; ring| |].
    - intros l r Hl ->. rewrite !(get_at 0%R) by lia. cbn [bind]. change (@at_ R 0%R) with val.
      replace ((1 - 0) * (1 / 2) * val ab k + (0 + 1) * (1 / 2))%R with (node k) by (unfold node; field). replace ((1 - 0) * (1 / 2) * val ab l + (0 + 1) * (1 / 2))%R with (node l) by (unfold node; field).
      rewrite cell_element by (apply node_in; assumption). cbn [bind wp]. rewrite rsum_last by lia. change (f k l) with (val we k * val we l * el (cu (node k)) (cv (node l)))%R. fold D. ring.
    - intros r ->. rewrite rsum_last by lia. ring. }
  apply wp_elim in E. destruct E as (r & E & ->). 
  match goal with |- bind ?X0 _ = _ => change X0 with (for_up 0 (len ab) 0%R (fun k acc => let! x := get ab k in for_up 0 (len ab) acc (fun l acc => let! y := get ab l in
      let! ds := area_element (mkSurface p q (bezier_knots p) (bezier_knots q) Q) ((1 - 0) * (1 / 2) * x + (0 + 1) * (1 / 2))%R ((1 - 0) * (1 / 2) * y + (0 + 1) * (1 / 2))%R in
      let! wi := get we k in let! wj := get we l in Ok (acc + wi * wj * ds)%R))) end.
  rewrite E. cbn [bind]. f_equal. unfold cell_sum, f. field.
Qed.
End Cell.
End Surf.

(* the value: the product rule on every cell of distinct knots *)
Lemma gauss_total cl S0 p n U q m V H fuel : SurfaceReparametrize S0 0%R 1%R 0%R 1%R = Ok (mkSurface p q U V H) ->
  curve_knots p n U -> curve_knots q m V -> 1 <= p <= 7 -> 1 <= q <= 7 -> net (n + 1) (m + 1) H -> clamped_knots p n U -> clamped_knots q m V ->
  (forall u v, in_domain p n U u -> in_domain q m V v -> ww (surface_point p n U q m V H u v) <> 0%R) ->
  (forall x y, In x U -> In y U -> apart x y) -> (forall x y, In x V -> In y V -> apart x y) ->
  (forall x, (val U p < x < val U (n + 1))%R -> occ U x <= p) -> (forall x, (val V q < x < val V (m + 1))%R -> occ V x <= q) ->
  len U <= Z.of_nat fuel -> len V <= Z.of_nat fuel ->
  returns (ApproximateArea ab we cl fuel S0 It_GaussLegendre) (fun a => exists B C, increasing B /\ (forall x, In x B <-> In x U) /\ increasing C /\ (forall x, In x C <-> In x V) /\
    a = rsum 0 (len B - 1) (fun i => rsum 0 (len C - 1) (fun j => (val B (i + 1) - val B i) * (val C (j + 1) - val C j) / 4 * cell_sum p U q V H B C i j)))%R.
Proof.
  intros HS0 HU HV Hp Hq HH CU CV Hw AU AV MU MV F1 F2. pose proof (ck_len _ _ _ HU). pose proof (ck_len _ _ _ HV).
  destruct (decompose_surface p n U q m V H HU HV CU CV AU AV MU MV ltac:(lia) ltac:(lia) HH fuel ltac:(lia) ltac:(lia)) as (Ss & E & B & C & B1 & B2 & C1 & C2 & LS & HCell).
  destruct (ends_of _ _ _ _ HU CU B1 B2) as (_ & _ & LB). destruct (ends_of _ _ _ _ HV CV C1 C2) as (_ & _ & LC).
  set (F := fun i j => ((val B (i + 1) - val B i) * (val C (j + 1) - val C j) / 4 * cell_sum p U q V H B C i j)%R).
  assert (G : wp (ApproximateArea ab we cl fuel S0 It_GaussLegendre) (fun a => a = rsum 0 ((len B - 1) * (len C - 1)) (fun x => F (x / (len C - 1)) (x mod (len C - 1))))).
  { unfold ApproximateArea. num. rewrite HS0. cbn [bind]. rewrite E. cbn [bind]. rewrite LS.
    apply (wp_for_up (fun x a => a = rsum 0 x (fun x => F (x / (len C - 1)) (x mod (len C - 1))))); [nia|rewrite rsum_nil by lia; reflexivity| |intros a ->; reflexivity].
    intros x a Hx ->. pose proof (Z.mod_pos_bound x (len C - 1) ltac:(lia)). assert (0 <= x / (len C - 1) < len B - 1) by (split; [apply Z.div_pos; lia|apply Z.div_lt_upper_bound; nia]).
    destruct (HCell (x / (len C - 1)) (x mod (len C - 1)) ltac:(lia) ltac:(lia)) as (Q & EQ & NQ & Ev).
    replace (x / (len C - 1) * (len C - 1) + x mod (len C - 1)) with x in EQ by (pose proof (Z.div_mod x (len C - 1) ltac:(lia)); lia). rewrite EQ. cbn [bind].
    rewrite (gauss_cell p n U q m V H HU HV Hp Hq HH CU CV Hw B C B1 B2 C1 C2 (x / (len C - 1)) (x mod (len C - 1)) Q ltac:(lia) ltac:(lia) NQ Ev). cbn [bind wp]. num. rewrite rsum_last by lia. reflexivity. }
  apply wp_elim in G. destruct G as (a & Ea & ->). eexists. split; [exact Ea|]. exists B, C. do 4 (split; [assumption|]). apply (rsum_grid _ _ F); lia.
Qed.
End S.
