(* Property theorems, part 28: changing derivatives at given parameters. *)
From Coq Require Import ZArith List Bool Reals Lra Lia Floats.
From Verif Require Import Base Num Vec Tac Spec Spec2 Spec3 Spec4 Spec5 Spec6 Spec10 Spec19 M_MathUtils M_XYZ M_Bspline M_NurbsCurve M_Curve2 M_Fit M_Geom M_Curve3
  P_MathUtils P_Vec P_VSum P_Curve P_Bspline P_Nurbs P_Geom P_Shape P_Swung P_ProjNorm2 P_Make P_Reduce P_Constr.
Import ListNotations.
Open Scope Z_scope.

(** * C125 *)
(* all weights equal: the derivative asked for changes by exactly the vector given; fixed points and points out of reach stay *)
Theorem C125_derivatives : forall inverse p n U H ur D Dr Dk fixed w c', exact_inverse inverse -> curve_knots p n U -> p <= 7 -> len H = n + 1 -> (w <> 0)%R -> (forall j, 0 <= j <= n -> ww (pt H j) = w) ->
  0 < len D -> 0 < len ur -> len Dr = len D -> len Dk = len D ->
  (forall i, 0 <= i < len D -> 0 <= at_ 0 Dr i < len ur /\ in_domain p n U (val ur (at_ 0 Dr i)) /\ 0 <= at_ 0 Dk i <= p) -> (forall f, In f fixed -> 0 <= f <= n) ->
  ConstraintBasedModification inverse (mkCurve p U H) ur D Dr Dk fixed = Ok c' ->
  exists H', c' = mkCurve p U H' /\ len H' = n + 1 /\ (forall j, 0 <= j <= n -> ww (pt H' j) = w) /\
    (forall j, 0 <= j <= n -> In j fixed \/ (forall i k, 0 <= i < len D -> span_of p n U (val ur (at_ 0 Dr i)) k -> j < k - p \/ k < j) -> pt H' j = pt H j) /\
    (forall i, 0 <= i < len D -> exists g g', curve_derivs p n U H (at_ 0 Dk i) (val ur (at_ 0 Dr i)) g /\ curve_derivs p n U H' (at_ 0 Dk i) (val ur (at_ 0 Dr i)) g' /\
      g' (at_ 0 Dk i) = plus3 (g (at_ 0 Dk i)) (pt D i)).
Proof.
  intros inverse p n U H ur D Dr Dk fixed w c' Hinv HU Hp HH W0 HW Hrow Hur HDr HDk Hr Hfix E.
  destruct (Con_deriv inverse Hinv p n U H HU Hp HH ur D Dr Dk fixed Hrow Hur HDr HDk Hr Hfix w c' W0 HW E) as (H' & -> & LH & HW' & Keep & Der).
  exists H'. split; [reflexivity|]. split; [exact LH|]. split; [exact HW'|]. split.
  - intros j Hj Out. apply Keep; [exact Hj|]. intros Mj. destruct Out as [I|Out]; [destruct Mj as (_ & N & _); exact (N I)|]. destruct (moves_near p n U HU ur D Dr Dk fixed Hr j Mj) as (i & k & Hi & Hk & Hjk). specialize (Out i k Hi Hk). lia.
  - intros i Hi. destruct (Hr i Hi) as (_ & Du & Ho). set (t := val ur (at_ 0 Dr i)) in *. set (o := at_ 0 Dk i) in *.
    assert (X : forall K, len K = n + 1 -> (forall j, 0 <= j <= n -> ww (pt K j) = w) -> exists g, curve_derivs p n U K o t g).
    { intros K LK HK. assert (Wt : ww (curve_point p n U K t) <> 0%R) by (rewrite (equal_weight p n U K w t HU HK Du); exact W0).
      destruct (derivs_at p n U K t HU Hp LK Du Wt (o + 1) ltac:(lia)) as (g & _ & (k & Hk & G) & _). exists g, k. split; [exact Hk|]. intros m Hm. apply G. lia. }
    destruct (X H HH HW) as (g & G). destruct (X H' LH HW') as (g' & G'). exists g, g'. split; [exact G|]. split; [exact G'|]. exact (Der i g g' Hi G G').
Qed.
Print Assumptions C125_derivatives.

(* one constraint: the call returns when a control point that is not fixed has some influence *)
Theorem C125_single : forall inverse p n U H ur D Dr Dk fixed j k g, exact_inverse inverse -> curve_knots p n U -> p <= 7 -> len H = n + 1 ->
  len D = 1 -> 0 < len ur -> len Dr = 1 -> len Dk = 1 -> 0 <= at_ 0 Dr 0 < len ur -> in_domain p n U (val ur (at_ 0 Dr 0)) -> 0 <= at_ 0 Dk 0 <= p -> (forall f, In f fixed -> 0 <= f <= n) ->
  0 <= j <= n -> ~ In j fixed -> span_of p n U (val ur (at_ 0 Dr 0)) k -> k - p <= j <= k -> nth_deriv (Z.to_nat (at_ 0 Dk 0)) (Nspan (val U) k (Z.to_nat p) j) g ->
  (tol (g (val ur (at_ 0%Z Dr 0%Z)) * g (val ur (at_ 0%Z Dr 0%Z))) 0 < g (val ur (at_ 0%Z Dr 0%Z)) * g (val ur (at_ 0%Z Dr 0%Z)))%R ->
  exists c', ConstraintBasedModification inverse (mkCurve p U H) ur D Dr Dk fixed = Ok c'.
Proof.
  intros inverse p n U H ur D Dr Dk fixed j k g Hinv HU Hp HH R1 Hur HDr HDk Hr0 Du Ho Hfix Hj Nj Hk Hjk Dg T.
  assert (Hr : forall i, 0 <= i < len D -> 0 <= at_ 0 Dr i < len ur /\ in_domain p n U (val ur (at_ 0 Dr i)) /\ 0 <= at_ 0 Dk i <= p) by (intros i Hi; assert (i = 0) as -> by lia; auto).
  apply (Con_single inverse Hinv p n U H HU Hp HH ur D Dr Dk fixed) with (j := j); try lia; [exact Hr|exact Hfix|].
  exact (moves_span p n U HU ur D Dr Dk fixed Hr j k g 0 ltac:(lia) Hj Nj Hk Hjk Dg T).
Qed.
Print Assumptions C125_single.

(* nothing left to move: undefined behaviour *)
Theorem C125_all_fixed_refuted : forall inverse p n U H ur D Dr Dk fixed, exact_inverse inverse -> curve_knots p n U -> p <= 7 -> len H = n + 1 -> 0 < len D -> 0 < len ur -> len Dr = len D -> len Dk = len D ->
  (forall i, 0 <= i < len D -> 0 <= at_ 0 Dr i < len ur /\ in_domain p n U (val ur (at_ 0 Dr i)) /\ 0 <= at_ 0 Dk i <= p) -> (forall f, In f fixed <-> 0 <= f <= n) ->
  ConstraintBasedModification inverse (mkCurve p U H) ur D Dr Dk fixed = UB.
Proof.
  intros inverse p n U H ur D Dr Dk fixed Hinv HU Hp HH Hrow Hur HDr HDk Hr Hfix.
  apply (Con_fixed inverse Hinv p n U H HU Hp HH ur D Dr Dk fixed Hrow Hur HDr HDk Hr); intros f Hf; apply Hfix; exact Hf.
Qed.
Print Assumptions C125_all_fixed_refuted.

Example C125_ex : forall a b v, exists c', exact_inverse checked_inverse /\ ConstraintBasedModification checked_inverse (mkCurve 1 (bezier_knots 1) (bar a b)) [1%R] [v] [0] [0] [0] = Ok c'.
Proof.
  intros a b v. destruct bar_knots as (K & CK). destruct (C125_single checked_inverse 1 1 (bezier_knots 1) (bar a b) [1%R] [v] [0] [0] [0] 1 1 (fun x => Nspan (val (bezier_knots 1)) 1 (Z.to_nat 1) 1 x)) as (c' & E); try (change (len [v]) with 1 in *; lia || reflexivity); try (cbn; lia).
  - apply checked_inverse_exact.
  - exact K.
  - apply bar_dom. change (val [1%R] (at_ 0 [0] 0)) with 1%R. lra.
  - destruct (find_span 1 1 (bezier_knots 1) 1 K ltac:(apply bar_dom; lra)) as (k & _ & Hk). assert (k = 1) as -> by (destruct Hk; lia). exact Hk.
  - intros t. reflexivity.
  - change (val [1%R] (at_ 0 [0] 0)) with 1%R. assert (B : Nspan (val (bezier_knots 1)) 1 (Z.to_nat 1) 1 1 = bern 1 1 ((1 - 0) / (1 - 0))) by exact (NS_bern (val (bezier_knots 1)) 0 1 1 1 ltac:(lra) ltac:(intros i Hi; assert (i = 0 \/ i = 1 \/ i = 2 \/ i = 3) as [-> | [-> | [-> | ->]]] by lia; reflexivity) 1 ltac:(lia) ltac:(lia) 1). rewrite B.
    destruct (bern1 ((1 - 0) / (1 - 0))) as (_ & ->). unfold tol. replace ((1 - 0) / (1 - 0) * ((1 - 0) / (1 - 0)))%R with 1%R by field. rewrite Rabs_R0, Rabs_R1, Rmax_left by lra. lra.
  - exists c'. split; [apply checked_inverse_exact|exact E].
Qed.

(* unequal weights: the derivative asked for does not change by the vector given *)
Definition inverse1 (A : list (list float)) : res (list (list float)) := match A with [[a]] => Ok [[(1 / a)%float]] | _ => NonFin end.
Theorem C125_weights_refuted : exists (c c' : Curve float (XYZW float)) P P', ConstraintBasedModification inverse1 c [(1/2)%float] [mkXYZ 0 1 0]%float [0] [0] [0] = Ok c' /\
  NurbsPoint c (1/2)%float = Ok P /\ NurbsPoint c' (1/2)%float = Ok P' /\ gy P = 0%float /\ gy P' = (3/2)%float.
Proof.
  exists (mkCurve 1 [0; 0; 1; 1]%float [mkXYZW 0 0 0 1; mkXYZW 3 0 0 3]%float). do 3 eexists. split; [vm_compute; reflexivity|]. split; [vm_compute; reflexivity|]. split; [vm_compute; reflexivity|]. split; vm_compute; reflexivity.
Qed.
Print Assumptions C125_weights_refuted.
