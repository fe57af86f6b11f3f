(* The sizes of what Extract returns. *)
From Coq Require Import ZArith List Bool Lia.
From Verif Require Import Base Num Vec M_MathUtils M_Polynomials M_Bspline M_NurbsCurve M_Knots M_Curve2.
Import ListNotations.
Open Scope Z_scope.

Lemma bind_Ok {X Y} (m : res X) (f : X -> res Y) y : bind m f = Ok y -> exists x, m = Ok x /\ f x = Ok y.
Proof. destruct m; cbn [bind]; intros H; try discriminate. eauto. Qed.

Lemma slice_len {X} (l r : list X) lo hi : slice l lo hi = Ok r -> len r = hi - lo.
Proof.
  unfold slice. destruct (_ && _ && _) eqn:E; intros H; [|discriminate]. apply andb_true_iff in E as [E E3]. apply andb_true_iff in E as [E1 E2].
  apply Z.leb_le in E1, E2, E3. injection H as <-. unfold len in *. rewrite firstn_length, skipn_length. lia.
Qed.

Section E.
Context {A : Type} {NA : Num A} {T : Type} {VT : Vec A T}.
Lemma Extract_sizes (c r : Curve A T) s e : Extract c s e = Ok r ->
  Degree r = Degree c /\ len (ControlPoints r) + Degree r + 1 = len (KnotVector r) + 2 * Degree c.
Proof.
  unfold Extract. intros H. repeat (apply bind_Ok in H as (? & ? & H)).
  injection H as <-. cbn [Degree KnotVector ControlPoints].
  repeat match goal with E : slice _ _ _ = Ok _ |- _ => apply slice_len in E end. split; lia.
Qed.
End E.
