(* XYZ and XYZW at the exact instance satisfy the vector laws. *)
From Coq Require Import ZArith List Bool Reals Lra.
From Verif Require Import Base Num Vec M_MathUtils M_XYZ.
Open Scope R_scope.

Definition co_xyz (k : nat) (p : XYZ R) : R :=
  match k with 0 => gx p | 1 => gy p | _ => gz p end%nat.

Global Instance VecL_XYZ : VecL (XYZ R).
Proof.
  refine {| co := co_xyz |}.
  - intros [x1 x2 x3] [y1 y2 y3] H.
    pose proof (H 0%nat) as H0. pose proof (H 1%nat) as H1. pose proof (H 2%nat) as H2.
    cbn in H0, H1, H2. subst. reflexivity.
  - intros [|[|k]]; reflexivity.
  - intros [|[|k]] x y; reflexivity.
  - intros [|[|k]] x y; reflexivity.
  - intros [|[|k]] a x; cbn; ring.
  - intros x a Ha. cbn. unfold xyz_div. num. rewrite !Rdiv_ok by auto. cbn [bind].
    unfold xyz_scale. num. unfold Rdiv. reflexivity.
  - intros x. cbn. unfold xyz_div. num. rewrite Rdiv_zero by reflexivity. reflexivity.
Defined.

Definition co_xyzw (k : nat) (p : XYZW R) : R :=
  match k with 0 => wx p | 1 => wy p | 2 => wz p | _ => ww p end%nat.

Global Instance VecL_XYZW : VecL (XYZW R).
Proof.
  refine {| co := co_xyzw |}.
  - intros [x1 x2 x3 x4] [y1 y2 y3 y4] H.
    pose proof (H 0%nat) as H0. pose proof (H 1%nat) as H1.
    pose proof (H 2%nat) as H2. pose proof (H 3%nat) as H3.
    cbn in H0, H1, H2, H3. subst. reflexivity.
  - intros [|[|[|k]]]; reflexivity.
  - intros [|[|[|k]]] x y; reflexivity.
  - intros [|[|[|k]]] x y; reflexivity.
  - intros [|[|[|k]]] a x; cbn; ring.
  - intros x a Ha. cbn. unfold xyzw_div. num. rewrite !Rdiv_ok by auto. cbn [bind].
    unfold xyzw_scale. num. unfold Rdiv. reflexivity.
  - intros x. cbn. unfold xyzw_div. num. rewrite Rdiv_zero by reflexivity. reflexivity.
Defined.
