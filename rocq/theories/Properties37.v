(* Property theorems, part 37: Bezier patches of a surface. *)
From Coq Require Import ZArith List Bool Reals Lra Lia Floats.
From Verif Require Import Base Num Vec Tac Spec Spec2 Spec3 Spec4 Spec5 Spec8 Spec12 M_MathUtils M_XYZ M_Bspline M_NurbsCurve M_Surface M_Area
  P_Curve P_XYZ P_Decomp P_SDec2 Properties5 Properties6 Properties20.
Import ListNotations.
Open Scope Z_scope.

(** * C140 *)
(* B and C list the distinct knots; the patch (i, j) is the surface over [B_i, B_i+1] x [C_j, C_j+1] *)
Theorem C140_patches : forall n m (S : Surface R (XYZW R)) fuel, valid_surface n m S ->
  let U := KnotVectorU S in let W := KnotVectorV S in let p := DegreeU S in let q := DegreeV S in
  clamped_knots p n U -> clamped_knots q m W -> 1 <= p -> 1 <= q ->
  (forall x y, In x U -> In y U -> apart x y) -> (forall x y, In x W -> In y W -> apart x y) ->
  (forall x, (val U p < x < val U (n + 1))%R -> occ U x <= p) -> (forall x, (val W q < x < val W (m + 1))%R -> occ W x <= q) ->
  len U <= Z.of_nat fuel -> len W <= Z.of_nat fuel ->
  returns (SurfaceDecomposeToBeziers fuel S) (fun Ss => exists B C, increasing B /\ (forall x, In x B <-> In x U) /\ increasing C /\ (forall x, In x C <-> In x W) /\
    len Ss = (len B - 1) * (len C - 1) /\
    forall i j, 0 <= i < len B - 1 -> 0 <= j < len C - 1 -> exists D, get Ss (i * (len C - 1) + j) = Ok D /\ valid_surface p q D /\
      DegreeU D = p /\ DegreeV D = q /\ KnotVectorU D = bezier_knots p /\ KnotVectorV D = bezier_knots q /\
      forall s t, (0 <= s <= 1)%R -> (0 <= t <= 1)%R -> surface_point p p (KnotVectorU D) q q (KnotVectorV D) (SControlPoints D) s t =
        surface_point p n U q m W (SControlPoints S) ((1 - s) * val B i + s * val B (i + 1)) ((1 - t) * val C j + t * val C (j + 1))).
Proof.
  intros n m [p q U W P] fuel HS. cbn [DegreeU DegreeV KnotVectorU KnotVectorV SControlPoints]. intros CU CW Hp Hq AU AW MU MW F1 F2. destruct HS as (HU & HW & HP & D1 & D2). cbn [DegreeU DegreeV KnotVectorU KnotVectorV SControlPoints] in *.
  pose proof (ck_len _ _ _ HU). pose proof (ck_len _ _ _ HW).
  destruct (decompose_surface p n U q m W P HU HW CU CW AU AW MU MW Hp Hq HP fuel ltac:(lia) ltac:(lia)) as (Ss & E & B & C & B1 & B2 & C1 & C2 & LS & H1).
  exists Ss. split; [exact E|]. exists B, C. do 5 (split; [assumption|]). intros i j Hi Hj. destruct (H1 i j Hi Hj) as (Q & EQ & NQ & Ev). eexists. split; [exact EQ|]. split.
  { split; [apply bez_knots_ok; cbn; lia|]. split; [apply bez_knots_ok; cbn; lia|]. split; [exact NQ|]. cbn. lia. }
  do 4 (split; [reflexivity|]). exact Ev.
Qed.
Print Assumptions C140_patches.

(* an inner knot of multiplicity degree + 1: points are written before the first row *)
Definition torn : Surface float (XYZW float) := (mkSurface 1 1 [0; 0; 1; 1; 2; 2] [0; 0; 1; 1]
  [[mkXYZW 0 0 0 1; mkXYZW 0 1 0 1]; [mkXYZW 1 0 0 1; mkXYZW 1 1 0 1]; [mkXYZW 1 0 1 1; mkXYZW 1 1 1 1]; [mkXYZW 2 0 1 1; mkXYZW 2 1 1 1]])%float.
Theorem C140_torn_refuted : SurfaceDecomposeToBeziers 20 torn = UB.
Proof. vm_compute. reflexivity. Qed.
Print Assumptions C140_torn_refuted.

(* knots that are not clamped: points are read after the last row *)
Definition floating : Surface float (XYZW float) := (mkSurface 1 1 [0; 1; 2; 3] [0; 0; 1; 1] [[mkXYZW 0 0 0 1; mkXYZW 0 1 0 1]; [mkXYZW 1 0 0 1; mkXYZW 1 1 0 1]])%float.
Theorem C140_unclamped_refuted : SurfaceDecomposeToBeziers 20 floating = UB.
Proof. vm_compute. reflexivity. Qed.
Print Assumptions C140_unclamped_refuted.

(* two patches from a simple inner knot; a double inner knot is allowed too *)
Example C140_ex : valid_surface 2 3 quilt /\ clamped_knots 2 2 (KnotVectorU quilt) /\ clamped_knots 2 3 (KnotVectorV quilt) /\
  (forall x y, In x (KnotVectorU quilt) -> In y (KnotVectorU quilt) -> apart x y) /\ (forall x y, In x (KnotVectorV quilt) -> In y (KnotVectorV quilt) -> apart x y) /\
  (forall x, (val (KnotVectorU quilt) 2 < x < val (KnotVectorU quilt) (2 + 1))%R -> occ (KnotVectorU quilt) x <= 2) /\
  (forall x, (val (KnotVectorV quilt) 2 < x < val (KnotVectorV quilt) (3 + 1))%R -> occ (KnotVectorV quilt) x <= 2).
Proof.
  split; [apply quilt_valid|]. split; [split; reflexivity|]. split; [split; reflexivity|].
  assert (I : forall x, In x (bezier_knots 2) -> In x half_knots) by (intros x Hx; destruct Hx as [<-|[<-|[<-|[<-|[<-|[<-|[]]]]]]]; unfold half_knots; cbn [In]; tauto).
  split; [intros x y Hx Hy; apply half_apart; apply I; assumption|]. split; [exact half_apart|].
  split; intros x Hx.
  - change (0 < x < 1)%R in Hx. unfold occ, quilt, bezier_knots. cbn [KnotVectorU]. change (Z.to_nat (2 + 1)) with 3%nat. cbn [repeat app count_occ].
    repeat match goal with |- context [Req_EM_T ?a ?b] => destruct (Req_EM_T a b); [try lra|try lra] end; cbn; lia.
  - change (0 < x < 1)%R in Hx. unfold occ, quilt, half_knots. cbn [KnotVectorV count_occ].
    repeat match goal with |- context [Req_EM_T ?a ?b] => destruct (Req_EM_T a b); [try lra|try lra] end; cbn; lia.
Qed.
