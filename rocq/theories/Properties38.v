(* Property theorems, part 38: areas and lengths by the rule of Gauss and Legendre. *)
From Coq Require Import ZArith List Bool Reals Lra Lia Floats.
From Verif Require Import Base Num Vec Tac Spec Spec2 Spec3 Spec4 Spec5 Spec8 Spec10 Spec12 Spec27 M_MathUtils M_XYZ M_Bspline M_NurbsCurve M_Curve2 M_Geom M_Surface M_Curve4 M_Area M_Gauss
  P_Vec P_XYZ P_Curve P_Geom P_Decomp P_Surface P_Surf6 P_Surf7 P_Area2 P_Length P_Gauss P_Gauss2 P_Gauss3 Properties25 Properties37.
From Verif Require P_Interp.
Import ListNotations.
Open Scope Z_scope.

(** * C141 *)
(* Any tables with nodes inside (-1,1): the result is the product rule on every cell of consecutive distinct knots of the reparametrised
   surface, applied to its area element |S_u x S_v|. *)
Theorem C141_rule : forall ab we cl S p n U q m V H fuel, (forall k, 0 <= k < len ab -> (-1 < val ab k < 1)%R) -> len we = len ab ->
  SurfaceReparametrize S 0%R 1%R 0%R 1%R = Ok (mkSurface p q U V H) ->
  curve_knots p n U -> curve_knots q m V -> 1 <= p <= 7 -> 1 <= q <= 7 -> net (n + 1) (m + 1) H -> clamped_knots p n U -> clamped_knots q m V ->
  (forall u v, in_domain p n U u -> in_domain q m V v -> ww (surface_point p n U q m V H u v) <> 0%R) ->
  (forall x y, In x U -> In y U -> apart x y) -> (forall x y, In x V -> In y V -> apart x y) ->
  (forall x, (val U p < x < val U (n + 1))%R -> occ U x <= p) -> (forall x, (val V q < x < val V (m + 1))%R -> occ V x <= q) ->
  len U <= Z.of_nat fuel -> len V <= Z.of_nat fuel ->
  returns (ApproximateArea ab we cl fuel S It_GaussLegendre) (fun a => exists B C element, increasing B /\ (forall x, In x B <-> In x U) /\ increasing C /\ (forall x, In x C <-> In x V) /\
    (forall u v, in_domain p n U u -> in_domain q m V v -> exists g, surface_partials p n U q m V H 1 u v g /\ element u v = norm3 (cross3 (g 1%Z 0%Z) (g 0%Z 1%Z))) /\
    a = rsum 0 (len B - 1) (fun i => rsum 0 (len C - 1) (fun j =>
      gauss_rule ab we (val B i) (val B (i + 1)) (fun u => gauss_rule ab we (val C j) (val C (j + 1)) (fun v => element u v))))).
Proof.
  intros ab we cl S p n U q m V H fuel Hab Hwe HS HU HV Hp Hq HH CU CV Hw AU AV MU MV F1 F2.
  destruct (gauss_total ab we Hab Hwe cl S p n U q m V H fuel HS HU HV Hp Hq HH CU CV Hw AU AV MU MV F1 F2) as (a & E & B & C & B1 & B2 & C1 & C2 & ->).
  eexists. split; [exact E|]. exists B, C, (el p U q V H). do 4 (split; [assumption|]). split; [intros u v Du Dv; exact (el_ok p n U q m V H HU HV Hp Hq HH Hw u v Du Dv)|].
  apply rsum_ext. intros i Hi. apply rsum_ext. intros j Hj. apply rule_cell.
Qed.
Print Assumptions C141_rule.

(* With the tables of the library, of 24 nodes: between all bounds of the area element, times the area of the domain. *)
Theorem C141_bounds : forall cl S p n U q m V H fuel, SurfaceReparametrize S 0%R 1%R 0%R 1%R = Ok (mkSurface p q U V H) ->
  curve_knots p n U -> curve_knots q m V -> 1 <= p <= 7 -> 1 <= q <= 7 -> net (n + 1) (m + 1) H -> clamped_knots p n U -> clamped_knots q m V ->
  (forall u v, in_domain p n U u -> in_domain q m V v -> ww (surface_point p n U q m V H u v) <> 0%R) ->
  (forall x y, In x U -> In y U -> apart x y) -> (forall x y, In x V -> In y V -> apart x y) ->
  (forall x, (val U p < x < val U (n + 1))%R -> occ U x <= p) -> (forall x, (val V q < x < val V (m + 1))%R -> occ V x <= q) ->
  len U <= Z.of_nat fuel -> len V <= Z.of_nat fuel ->
  forall lo hi, (0 <= lo)%R -> (forall u v g, in_domain p n U u -> in_domain q m V v -> surface_partials p n U q m V H 1 u v g -> (lo <= norm3 (cross3 (g 1%Z 0%Z) (g 0%Z 1%Z)) <= hi)%R) ->
  let area := ((val U (n + 1) - val U p) * (val V (m + 1) - val V q))%R in
  returns (ApproximateArea GaussLegendreAbscissae GaussLegendreWeights cl fuel S It_GaussLegendre) (fun a => (lo * area * (1 - 1 / 10 ^ 39) <= a <= hi * area)%R).
Proof.
  intros cl S p n U q m V H fuel HS HU HV Hp Hq HH CU CV Hw AU AV MU MV F1 F2 lo hi Hlo HB area.
  destruct (C141_rule GaussLegendreAbscissae GaussLegendreWeights cl S p n U q m V H fuel table_abscissae eq_refl HS HU HV Hp Hq HH CU CV Hw AU AV MU MV F1 F2) as (a & E & B & C & e & B1 & B2 & C1 & C2 & He & ->).
  eexists. split; [exact E|]. destruct (ends_of _ _ _ _ HU CU B1 B2) as (X0 & X1 & LB). destruct (ends_of _ _ _ _ HV CV C1 C2) as (Y0 & Y1 & LC).
  set (s := (total_weight GaussLegendreAbscissae GaussLegendreWeights / 2)%R).
  assert (Hs : s = (1 - 4 / 10 ^ 40)%R) by (unfold s; rewrite table_total; field).
  assert (HE : forall u v, in_domain p n U u -> in_domain q m V v -> (lo <= e u v <= hi)%R) by (intros u v Du Dv; destruct (He u v Du Dv) as (g & G & ->); exact (HB u v g Du Dv G)).
  assert (DB : forall i x, 0 <= i < len B - 1 -> (val B i <= x <= val B (i + 1))%R -> in_domain p n U x).
  { intros i x Hi Hx. destruct (cell_domain p n U B i 0%R HU CU B1 B2 Hi ltac:(lra)) as (A1 & _). destruct (cell_domain p n U B i 1%R HU CU B1 B2 Hi ltac:(lra)) as (_ & A2). split; lra. }
  assert (DC : forall i x, 0 <= i < len C - 1 -> (val C i <= x <= val C (i + 1))%R -> in_domain q m V x).
  { intros i x Hi Hx. destruct (cell_domain q m V C i 0%R HV CV C1 C2 Hi ltac:(lra)) as (A1 & _). destruct (cell_domain q m V C i 1%R HV CV C1 C2 Hi ltac:(lra)) as (_ & A2). split; lra. }
  assert (wB : forall i, 0 <= i < len B - 1 -> (val B i <= val B (i + 1))%R) by (intros i Hi; pose proof (B1 i (i + 1) ltac:(lia) ltac:(lia) ltac:(lia)); lra).
  assert (wC : forall i, 0 <= i < len C - 1 -> (val C i <= val C (i + 1))%R) by (intros i Hi; pose proof (C1 i (i + 1) ltac:(lia) ltac:(lia) ltac:(lia)); lra).
  set (G := fun i j => gauss_rule GaussLegendreAbscissae GaussLegendreWeights (val B i) (val B (i + 1)) (fun u => gauss_rule GaussLegendreAbscissae GaussLegendreWeights (val C j) (val C (j + 1)) (fun v => e u v))).
  change (lo * area * (1 - 1 / 10 ^ 39) <= rsum 0 (len B - 1) (fun i => rsum 0 (len C - 1) (G i)) <= hi * area)%R.
  assert (HG : forall i j, 0 <= i < len B - 1 -> 0 <= j < len C - 1 -> ((val B (i + 1) - val B i) * ((val C (j + 1) - val C j) * (lo * s) * s) <= G i j <= (val B (i + 1) - val B i) * ((val C (j + 1) - val C j) * (hi * s) * s))%R).
  { intros i j Hi Hj. apply rule_between; [exact table_abscissae|exact table_weights|auto|]. intros u Hu. apply rule_between; [exact table_abscissae|exact table_weights|auto|]. intros v Hv. apply HE; eauto. }
  assert (SUM : forall k, rsum 0 (len B - 1) (fun i => rsum 0 (len C - 1) (fun j => (val B (i + 1) - val B i) * ((val C (j + 1) - val C j) * (k * s) * s)))%R = (k * area * (s * s))%R).
  { intros k. transitivity (rsum 0 (len B - 1) (fun i => (val B (i + 1) - val B i) * ((val V (m + 1) - val V q) * (k * s * s)))%R).
    - apply rsum_ext. intros i Hi. rewrite rsum_scal. f_equal. rewrite <- Y0, <- Y1, <- (rsum_tele (val C)) by lia. rewrite <- rsum_scal_r. apply rsum_ext. intros. ring.
    - rewrite rsum_scal_r. rewrite (rsum_tele (val B)) by lia. rewrite X0, X1. unfold area. ring. }
  assert (L1 : (lo * area * (s * s) <= rsum 0 (len B - 1) (fun i => rsum 0 (len C - 1) (G i)))%R) by (rewrite <- SUM; apply P_Interp.rsum_le; intros i Hi; apply P_Interp.rsum_le; intros j Hj; apply HG; assumption).
  assert (L2 : (rsum 0 (len B - 1) (fun i => rsum 0 (len C - 1) (G i)) <= hi * area * (s * s))%R) by (rewrite <- SUM; apply P_Interp.rsum_le; intros i Hi; apply P_Interp.rsum_le; intros j Hj; apply HG; assumption).
  assert (PA : (0 <= area)%R).
  { destruct (DB 0 (val B 0) ltac:(lia) (conj (Rle_refl _) (wB 0 ltac:(lia)))) as (A1 & A2). destruct (DC 0 (val C 0) ltac:(lia) (conj (Rle_refl _) (wC 0 ltac:(lia)))) as (A3 & A4). unfold area. apply Rmult_le_pos; lra. }
  assert (PH : (lo <= hi)%R). { pose proof (HE (val B 0) (val C 0) (DB 0 _ ltac:(lia) (conj (Rle_refl _) (wB 0 ltac:(lia)))) (DC 0 _ ltac:(lia) (conj (Rle_refl _) (wC 0 ltac:(lia))))). lra. }
  assert (S2 : (1 - 1 / 10 ^ 39 <= s * s <= 1)%R) by (rewrite Hs; lra).
  pose proof (Rmult_le_pos lo area Hlo PA). pose proof (Rmult_le_pos hi area ltac:(lra) PA). split; [apply Rle_trans with (2 := L1); apply Rmult_le_compat_l; lra|apply Rle_trans with (1 := L2); rewrite <- (Rmult_1_r (hi * area)) at 2; apply Rmult_le_compat_l; lra].
Qed.
Print Assumptions C141_bounds.

(* the parallelogram of C137, its second parameter over [0,k]: this rule measures all of it *)
Theorem C141_flat : forall cl a x y k fuel, (1 / 1000 <= k <= 1000)%R -> (4 <= fuel)%nat ->
  returns (ApproximateArea GaussLegendreAbscissae GaussLegendreWeights cl fuel
    (mkSurface 1 1 [0; 0; 1; 1] [0; 0; k; k] [[hom a 1; hom (plus3 a y) 1]; [hom (plus3 a x) 1; hom (plus3 (plus3 a x) y) 1]])%R It_GaussLegendre)
    (fun r => (norm3 (cross3 x y) * (1 - 1 / 10 ^ 39) <= r <= norm3 (cross3 x y))%R).
Proof.
  intros cl a x y k fuel Hk Hf. change (mkSurface 1 1 _ _ _) with (flat_surface a x y k). pose proof (flat_valid a x y k Hk) as (HU & HV & HN & D1 & D2). cbn [flat_surface DegreeU DegreeV KnotVectorU KnotVectorV SControlPoints] in *.
  assert (AP : forall c, (1 / 1000 <= c <= 1000)%R -> forall z w, In z (knots_to c) -> In w (knots_to c) -> apart z w).
  { intros c Hc z w Hz Hw. unfold knots_to in Hz, Hw. cbn [In] in Hz, Hw.
    assert (T : (2 * tol c 0 < c)%R) by (unfold tol; rewrite Rabs_R0, (Rabs_right c), Rmax_left by lra; lra). assert (T' : (2 * tol 0 c < c)%R) by (unfold tol; rewrite Rabs_R0, (Rabs_right c), Rmax_right by lra; lra).
    unfold apart. destruct Hz as [<-|[<-|[<-|[<-|[]]]]], Hw as [<-|[<-|[<-|[<-|[]]]]]; try (left; reflexivity); right; try (rewrite Rminus_0_r, Rabs_right by lra; exact T); rewrite (Rabs_left (0 - c)) by lra; lra. }
  assert (MU : forall c, (1 / 1000 <= c <= 1000)%R -> forall z, (val (knots_to c) 1 < z < val (knots_to c) (1 + 1))%R -> occ (knots_to c) z <= 1).
  { intros c Hc z Hz. change (0 < z < c)%R in Hz. unfold occ, knots_to. cbn [count_occ]. repeat match goal with |- context [Req_EM_T ?a ?b] => destruct (Req_EM_T a b); [try lra|try lra] end; cbn; lia. }
  set (z := (norm3 (cross3 x y) / k)%R). assert (Z0 : (0 <= z)%R) by (apply Rmult_le_pos; [apply sqrt_pos|apply Rlt_le, Rinv_0_lt_compat; lra]).
  destruct (C141_bounds cl (flat_surface a x y k) 1 1 (knots_to 1) 1 1 (knots_to k) (parallelogram a x y) fuel (flat_skip a x y k Hk) HU HV ltac:(lia) ltac:(lia) HN ltac:(split; reflexivity) ltac:(split; reflexivity)
    (fun u v Du Dv => flat_weight a x y k u v Hk Du Dv) (AP 1%R ltac:(lra)) (AP k Hk) (MU 1%R ltac:(lra)) (MU k Hk) ltac:(change (len (knots_to 1)) with 4; lia) ltac:(change (len (knots_to k)) with 4; lia) z z Z0) as (r & E & L).
  { intros u v g Du Dv G. destruct (flat_partials a x y k u v g ltac:(lra) G) as (-> & ->). replace x with (times3 1 x) at 1 2 by (d3; v3h; apply xyz_eq; cbn [gx gy gz]; ring).
    rewrite norm_scale2; [|lra|apply Rlt_le, Rinv_0_lt_compat; lra]. unfold z, Rdiv. lra. }
  exists r. split; [exact E|]. change (val (knots_to 1) (1 + 1)) with 1%R in L. change (val (knots_to k) (1 + 1)) with k in L. change (val (knots_to 1) 1) with 0%R in L. change (val (knots_to k) 1) with 0%R in L.
  replace (z * ((1 - 0) * (k - 0)))%R with (norm3 (cross3 x y)) in L by (unfold z; field; lra). exact L.
Qed.
Print Assumptions C141_flat.

(* the surface of C140 with a torn inner knot *)
Theorem C141_torn_refuted : forall cl, ApproximateArea GaussLegendreAbscissae_f GaussLegendreWeights_f cl 20 torn It_GaussLegendre = UB.
Proof. intros cl. vm_compute. reflexivity. Qed.
Print Assumptions C141_torn_refuted.

(* a rectangle of sides 2 and 3 over [0,1] x [0,2], for which the rule of C137 says 3 *)
Example C141_ex : forall cl, returns (ApproximateArea GaussLegendreAbscissae GaussLegendreWeights cl 4
    (mkSurface 1 1 [0; 0; 1; 1] [0; 0; 2; 2] [[hom (mkXYZ 0 0 0) 1; hom (mkXYZ 0 3 0) 1]; [hom (mkXYZ 2 0 0) 1; hom (mkXYZ 2 3 0) 1]])%R It_GaussLegendre)
    (fun r => (6 - 1 / 10 ^ 38 <= r <= 6)%R).
Proof.
  intros cl. destruct (C141_flat cl (mkXYZ 0 0 0)%R (mkXYZ 2 0 0)%R (mkXYZ 0 3 0)%R 2%R 4%nat ltac:(lra) ltac:(lia)) as (r & E & L).
  assert (N6 : norm3 (cross3 (mkXYZ 2 0 0) (mkXYZ 0 3 0))%R = 6%R).
  { unfold norm3. replace (dot3 _ _) with (6 * 6)%R by (unfold dot3, cross3; cbn [gx gy gz]; ring). apply sqrt_square. lra. }
  rewrite N6 in L. exists r. split; [|lra]. rewrite <- E. unfold hom, plus3. cbn [gx gy gz]. repeat (f_equal; try ring).
Qed.

(** * C142 *)
Theorem C142_rule : forall ab we cl p n U H fuel, (forall k, 0 <= k < len ab -> (-1 < val ab k < 1)%R) -> len we = len ab ->
  curve_knots p n U -> 2 <= p <= 7 -> len H = n + 1 -> heavy H -> clamped_knots p n U -> val U p = 0%R -> val U (n + 1) = 1%R ->
  (forall a u, dot3 u u = 1%R -> exists i, 0 <= i <= n /\ (2 / 999999 < norm3 (cross3 (minus3 (proj (pt H i)) a) u))%R) ->
  (forall x y, In x U -> In y U -> apart x y) -> (forall x, (val U p < x < val U (n + 1))%R -> occ U x < p \/ (p = 2 /\ occ U x = 2)) -> n <= Z.of_nat fuel ->
  returns (ApproximateLength ab we cl fuel (mkCurve p U H) It_GaussLegendre) (fun a => exists B v, increasing B /\ (forall x, In x B <-> In x U) /\
    (forall t, in_domain p n U t -> exists g, curve_derivs p n U H 1 t g /\ v t = norm3 (g 1)) /\
    a = rsum 0 (len B - 1) (fun j => gauss_rule ab we (val B j) (val B (j + 1)) v)).
Proof.
  intros ab we cl p n U H fuel Hab Hwe HU Hp HH Hw CU E0 E1 Hs AU MU Hf.
  destruct (gauss_length_total ab we Hab Hwe p n U H HU Hp HH Hw CU cl fuel E0 E1 Hs AU MU Hf) as (a & E & B & B1 & B2 & ->).
  eexists. split; [exact E|]. exists B, (sp p U H). do 2 (split; [assumption|]). split; [exact (sp_ok p n U H HU Hp HH Hw)|]. apply rsum_ext. intros j Hj. apply rule_piece.
Qed.
Print Assumptions C142_rule.

Theorem C142_bounds : forall cl p n U H fuel, curve_knots p n U -> 2 <= p <= 7 -> len H = n + 1 -> heavy H -> clamped_knots p n U -> val U p = 0%R -> val U (n + 1) = 1%R ->
  (forall a u, dot3 u u = 1%R -> exists i, 0 <= i <= n /\ (2 / 999999 < norm3 (cross3 (minus3 (proj (pt H i)) a) u))%R) ->
  (forall x y, In x U -> In y U -> apart x y) -> (forall x, (val U p < x < val U (n + 1))%R -> occ U x < p \/ (p = 2 /\ occ U x = 2)) -> n <= Z.of_nat fuel ->
  forall lo hi, (0 <= lo)%R -> (forall t g, in_domain p n U t -> curve_derivs p n U H 1 t g -> (lo <= norm3 (g 1%Z) <= hi)%R) ->
  returns (ApproximateLength GaussLegendreAbscissae GaussLegendreWeights cl fuel (mkCurve p U H) It_GaussLegendre) (fun a => (lo * (1 - 1 / 10 ^ 39) <= a <= hi)%R).
Proof.
  intros cl p n U H fuel HU Hp HH Hw CU E0 E1 Hs AU MU Hf lo hi Hlo HB.
  destruct (C142_rule GaussLegendreAbscissae GaussLegendreWeights cl p n U H fuel table_abscissae eq_refl HU Hp HH Hw CU E0 E1 Hs AU MU Hf) as (a & E & B & v & B1 & B2 & Hv & ->).
  eexists. split; [exact E|]. destruct (ends_of _ _ _ _ HU CU B1 B2) as (X0 & X1 & LB). rewrite E0 in X0. rewrite E1 in X1.
  set (s := (total_weight GaussLegendreAbscissae GaussLegendreWeights / 2)%R). assert (Hs' : s = (1 - 4 / 10 ^ 40)%R) by (unfold s; rewrite table_total; field).
  assert (HE : forall t, in_domain p n U t -> (lo <= v t <= hi)%R) by (intros t Dt; destruct (Hv t Dt) as (g & G & ->); exact (HB t g Dt G)).
  assert (DB : forall i x, 0 <= i < len B - 1 -> (val B i <= x <= val B (i + 1))%R -> in_domain p n U x).
  { intros i x Hi Hx. destruct (cell_domain p n U B i 0%R HU CU B1 B2 Hi ltac:(lra)) as (A1 & _). destruct (cell_domain p n U B i 1%R HU CU B1 B2 Hi ltac:(lra)) as (_ & A2). split; lra. }
  assert (wB : forall i, 0 <= i < len B - 1 -> (val B i <= val B (i + 1))%R) by (intros i Hi; pose proof (B1 i (i + 1) ltac:(lia) ltac:(lia) ltac:(lia)); lra).
  set (G := fun j => gauss_rule GaussLegendreAbscissae GaussLegendreWeights (val B j) (val B (j + 1)) v).
  assert (HG : forall i, 0 <= i < len B - 1 -> ((val B (i + 1) - val B i) * (lo * s) <= G i <= (val B (i + 1) - val B i) * (hi * s))%R).
  { intros i Hi. apply rule_between; [exact table_abscissae|exact table_weights|auto|]. intros u Hu. apply HE; eauto. }
  assert (SUM : forall k, rsum 0 (len B - 1) (fun i => (val B (i + 1) - val B i) * (k * s))%R = (k * s)%R) by (intros k; rewrite rsum_scal_r, (rsum_tele (val B)) by lia; rewrite X0, X1; ring).
  assert (L1 : (lo * s <= rsum 0 (len B - 1) G)%R) by (rewrite <- SUM; apply P_Interp.rsum_le; intros i Hi; apply HG; assumption).
  assert (L2 : (rsum 0 (len B - 1) G <= hi * s)%R) by (rewrite <- SUM; apply P_Interp.rsum_le; intros i Hi; apply HG; assumption).
  assert (PH : (lo <= hi)%R). { pose proof (HE (val B 0) (DB 0 _ ltac:(lia) (conj (Rle_refl _) (wB 0 ltac:(lia))))). lra. }
  assert (S2 : (1 - 1 / 10 ^ 39 <= s <= 1)%R) by (rewrite Hs'; lra).
  change (lo * (1 - 1 / 10 ^ 39) <= rsum 0 (len B - 1) G <= hi)%R. split; [apply Rle_trans with (2 := L1); apply Rmult_le_compat_l; lra|apply Rle_trans with (1 := L2); rewrite <- (Rmult_1_r hi) at 2; apply Rmult_le_compat_l; lra].
Qed.
Print Assumptions C142_bounds.

(* a cubic with a triple inner knot: the second piece is wrong; the length is reported as 6, one of the points is more than 38 away from the start *)
Definition kink := (mkCurve 3 [0; 0; 0; 0; 0.5; 0.5; 0.5; 1; 1; 1; 1]
  [mkXYZW 0 0 0 1; mkXYZW 1 0 0 1; mkXYZW 2 0 0 1; mkXYZW 3 0 0 1; mkXYZW 3 100 0 1; mkXYZW 3 2 0 1; mkXYZW 3 3 0 1])%float.
Theorem C142_multiplicity_refuted : forall cl, ApproximateLength GaussLegendreAbscissae_f GaussLegendreWeights_f cl 20 kink It_GaussLegendre = Ok 6%float /\
  GetPointOnCurve kink 0%float = Ok (mkXYZW 0 0 0 1)%float /\ GetPointOnCurve kink 0.75%float = Ok (mkXYZW 3 38.625 0 1)%float.
Proof. intros cl. split; [|split]; vm_compute; reflexivity. Qed.
Print Assumptions C142_multiplicity_refuted.

(* the arch of C121 *)
Example C142_ex : forall cl, returns (ApproximateLength GaussLegendreAbscissae GaussLegendreWeights cl 3 (mkCurve 2 (bezier_knots 2) arch) It_GaussLegendre) (fun L => (1 - 1 / 10 ^ 39 <= L <= 9 / 4)%R).
Proof.
  intros cl. destruct (C142_bounds cl 2 2 (bezier_knots 2) arch 3%nat) with (lo := 1%R) (hi := (9 / 4)%R) as (L & E & HL); [apply bez_knots_ok; lia|lia|reflexivity|exact arch_heavy|split; reflexivity|reflexivity|reflexivity|exact arch_spread| | |lia|lra|exact arch_speed|].
  - intros x y Hx Hy. unfold bezier_knots in Hx, Hy. change (Z.to_nat (2 + 1)) with 3%nat in *. cbn [repeat app In] in Hx, Hy.
    assert (T : (2 * tol 1 0 < 1)%R) by (unfold tol; rewrite Rabs_R0, Rabs_R1, Rmax_left by lra; lra). assert (T' : (2 * tol 0 1 < 1)%R) by (unfold tol; rewrite Rabs_R0, Rabs_R1, Rmax_right by lra; lra).
    assert (X : x = 0%R \/ x = 1%R) by (repeat destruct Hx as [<-|Hx]; tauto). assert (Y : y = 0%R \/ y = 1%R) by (repeat destruct Hy as [<-|Hy]; tauto).
    unfold apart. destruct X as [-> | ->], Y as [-> | ->]; try (left; reflexivity); right; [rewrite (Rabs_left (0 - 1)) by lra; lra|rewrite Rminus_0_r, Rabs_R1; exact T].
  - intros x Hx. change (0 < x < 1)%R in Hx. left. unfold occ, bezier_knots. change (Z.to_nat (2 + 1)) with 3%nat. cbn [repeat app count_occ].
    repeat match goal with |- context [Req_EM_T ?a ?b] => destruct (Req_EM_T a b); [try lra|try lra] end; cbn; lia.
  - exists L. split; [exact E|lra].
Qed.
