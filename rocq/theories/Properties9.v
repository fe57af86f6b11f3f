(* Property theorems, part 9: knot multiplicities and compatible knot vectors. *)
From Coq Require Import ZArith List Bool Reals Lra Lia.
From Verif Require Import Base Num Vec Spec Spec2 Spec4 M_MathUtils M_Polynomials M_NurbsCurve M_Knots
  P_Curve P_KnotMap P_KnotMap2.
Import ListNotations.
Open Scope Z_scope.

(** * C39 *)
Theorem C39_multiplicity_map : forall U : list R, increasing (map fst (GetKnotMultiplicityMap U)) /\
  forall x c, In (x, c) (GetKnotMultiplicityMap U) <-> In x U /\ c = occ U x.
Proof. exact GetKnotMultiplicityMap_ok. Qed.
Print Assumptions C39_multiplicity_map.

Theorem C39_internal_map : forall (U : list R) a b, In a U -> In b U -> (a < b)%R ->
  returns (GetInternalKnotMultiplicityMap U) (fun m => increasing (map fst m) /\
    forall x c, In (x, c) m <-> In x U /\ c = occ U x /\ (exists y, In y U /\ y < x)%R /\ (exists y, In y U /\ x < y)%R).
Proof. exact GetInternal_ok. Qed.
Print Assumptions C39_internal_map.

Example internal_map_hypotheses : In 0%R Uex /\ In 5%R Uex /\ (0 < 5)%R.
Proof. split; [left; reflexivity|]. split; [unfold Uex; repeat (try (left; reflexivity); right)|lra]. Qed.

(* a knot vector with one distinct value: the second erase is outside the map *)
Theorem C39_internal_map_refuted : forall (x : R) n, GetInternalKnotMultiplicityMap (repeat x (S n)) = UB.
Proof. exact GetInternal_single. Qed.
Print Assumptions C39_internal_map_refuted.

(* after inserting the returned elements every knot vector has, for every x, the largest
   multiplicity any of them had *)
Theorem C39_compatible : forall vs : list (list R),
  Forall2 (fun v e => sorted e /\ forall x, largest vs (fun w => occ w x) (occ (v ++ e) x)) vs (GetInsertedKnotElements vs).
Proof. exact GetInsertedKnotElements_ok. Qed.
Print Assumptions C39_compatible.

Theorem C39_compatible_pair : forall v0 v1 a0 a1 : list R,
  let '(e0, e1) := GetInsertedKnotElement v0 v1 a0 a1 in sorted e0 /\ sorted e1 /\
  forall x, occ (v0 ++ e0) x = occ a0 x + Z.max (occ v0 x) (occ v1 x) /\
            occ (v1 ++ e1) x = occ a1 x + Z.max (occ v0 x) (occ v1 x).
Proof. exact GetInsertedKnotElement_ok. Qed.
Print Assumptions C39_compatible_pair.

(** * C66 *)
Theorem C66_even_knots : forall (U : list R) n, 0 <= n -> 0 < len U -> sorted U -> (val U 0 < val U (len U - 1))%R ->
  (3 / 1000000 * IZR (len U + n) <= val U (len U - 1) - val U 0)%R ->
  returns (GetInsertedKnotElements_number n U) (fun e => len e = n /\ increasing e /\
     forall x, In x e -> (~ In x U /\ val U 0 < x < val U (len U - 1))%R).
Proof. exact GetInsertedKnotElements_number_ok. Qed.
Print Assumptions C66_even_knots.

Example even_knots_hypotheses : 0 < len Uex /\ sorted Uex /\ (val Uex 0 < val Uex (len Uex - 1))%R /\
  (3 / 1000000 * IZR (len Uex + 1000) <= val Uex (len Uex - 1) - val Uex 0)%R.
Proof.
  split; [reflexivity|]. split; [apply Uex_ok|]. change (val Uex 0) with 0%R. change (val Uex (len Uex - 1)) with 5%R.
  change (len Uex + 1000) with 1011. split; lra.
Qed.

Theorem C66_even_knots_refuted : forall (x : R) m n, 0 < n -> GetInsertedKnotElements_number n (repeat x (S m)) = UB.
Proof. exact GetInsertedKnotElements_number_flat. Qed.
Print Assumptions C66_even_knots_refuted.

Theorem C66_uniform : forall (U : list R) a b, In a U -> In b U -> a <> b ->
  exists K, increasing K /\ (forall x, In x K <-> In x U) /\
    returns (IsUniform U) (fun r => r = true <-> uniform U K).
Proof. exact IsUniform_ok. Qed.
Print Assumptions C66_uniform.

Theorem C66_uniform_single_refuted : forall (x : R) n, IsUniform (repeat x (S n)) = UB.
Proof. exact IsUniform_single. Qed.
Print Assumptions C66_uniform_single_refuted.

Theorem C66_clamp : forall d (U : list R), 0 <= d -> 0 < len U -> sorted U -> (val U 0 < val U (len U - 1))%R ->
  (forall x y, In x U -> In y U -> apart x y) ->
  returns (GetInsertedKnotElement_clamp d U (val U 0) (val U (len U - 1))) (fun e => sorted e /\ forall x,
    occ (U ++ e) x = if Req_EM_T x (val U 0) then Z.max (d + 1) (occ U x)
                     else if Req_EM_T x (val U (len U - 1)) then Z.max (d + 1) (occ U x) else occ U x).
Proof. exact clamp_ok. Qed.
Print Assumptions C66_clamp.

Example clamp_hypotheses : 0 < len [0; 1; 2; 3]%R /\ sorted [0; 1; 2; 3]%R /\ (val [0; 1; 2; 3] 0 < val [0; 1; 2; 3] (4 - 1))%R /\
  (forall x y, In x [0; 1; 2; 3]%R -> In y [0; 1; 2; 3]%R -> apart x y).
Proof.
  split; [reflexivity|]. split; [repeat (first [apply sorted_one | apply sorted_cons; [lra|]])|]. split; [change (0 < 3)%R; lra|].
  assert (T : forall x y, (0 <= x <= 3 -> 0 <= y <= 3 -> x = y \/ x + 1 <= y \/ y + 1 <= x -> apart x y)%R).
  { intros x y Hx Hy [->|H]; [left; reflexivity|]. right. pose proof (tol_le x y 3 ltac:(rewrite Rabs_right; lra) ltac:(rewrite Rabs_right; lra)).
    destruct H as [H|H]; [rewrite Rabs_left by lra; lra|rewrite Rabs_right by lra; lra]. }
  intros x y Hx Hy. cbn [In] in *. destruct Hx as [<-|[<-|[<-|[<-|[]]]]], Hy as [<-|[<-|[<-|[<-|[]]]]]; apply T; lra.
Qed.
