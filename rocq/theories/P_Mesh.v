(* Meshes of a surface. *)
From Coq Require Import ZArith List Bool Reals Lra Lia.
From Verif Require Import Base Num Vec Tac Spec Spec2 Spec3 Spec4 Spec5 Spec8 M_MathUtils M_XYZ M_Bspline M_NurbsCurve M_Surface M_Surface2 M_Mesh
  P_MathUtils P_Vec P_XYZ P_Geom P_Nurbs P_Surf5.
Import ListNotations.
Open Scope Z_scope.

(* row by row, j-th entry of row i of rows of c entries *)
Lemma cell_inj c i j i' j' : 0 <= j < c -> 0 <= j' < c -> i * c + j = i' * c + j' -> i = i' /\ j = j'.
Proof. intros Hj Hj' E. assert (i = i') by nia. subst. lia. Qed.
Lemma cell_lt c i j i' j' : 0 <= j < c -> 0 <= j' < c -> (i * c + j < i' * c + j' <-> i < i' \/ (i = i' /\ j < j')).
Proof. intros Hj Hj'. split; intros H; [destruct (Z.lt_trichotomy i i') as [?|[?|?]]; [lia|subst; lia|nia]|destruct H as [H|[-> H]]; nia]. Qed.

Section Grid.
Variables (f : Z -> Z -> XYZ R) (g : Z -> Z -> R * R) (a c : Z).
Hypotheses (Ha : 0 <= a) (Hc : 0 <= c).

Lemma vertices_ok ps us : arr2 ps a c f -> arr2 us a c g -> returns (mesh_vertices ps us a c) (fun '(vs, ws) => len vs = a * c /\ len ws = a * c /\
  forall i j, 0 <= i < a -> 0 <= j < c -> get vs (i * c + j) = Ok (f i j) /\ get ws (i * c + j) = Ok (g i j)).
Proof.
  intros HP HU. apply wp_elim. unfold mesh_vertices.
  set (P := fun (i j : Z) (s : list (XYZ R) * list (R * R)) => len (fst s) = i * c + j /\ len (snd s) = i * c + j /\
    forall i' j', 0 <= i' -> 0 <= j' < c -> i' * c + j' < i * c + j -> get (fst s) (i' * c + j') = Ok (f i' j') /\ get (snd s) (i' * c + j') = Ok (g i' j')).
  apply wp_for_up' with (P := fun i s => P i 0 s).
  - split; [reflexivity|]. split; [reflexivity|]. intros i' j' Hi' Hj' H. nia.
  - intros i s Hi Hs. apply wp_for_up with (P := P i); [lia|exact Hs| |].
    + intros j [vs ws] Hj (L1 & L2 & HG). cbn [fst snd] in *. rewrite (arr2_get _ _ _ _ i j HP), (arr2_get _ _ _ _ i j HU) by lia. cbn [bind]. apply wp_ok. unfold P. cbn [fst snd].
      rewrite !len_app, L1, L2. split; [cbn; lia|]. split; [cbn; lia|]. intros i' j' Hi' Hj' H.
      destruct (Z.eq_dec (i' * c + j') (i * c + j)) as [E|E].
      * destruct (cell_inj c i' j' i j ltac:(lia) ltac:(lia) E) as (-> & ->). rewrite !get_app_r by lia. rewrite L1, L2, Z.sub_diag. split; reflexivity.
      * assert (0 <= i' * c + j') by nia. rewrite !get_app_l by lia. apply HG; lia.
    + intros s' (L1 & L2 & HG). split; [lia|]. split; [lia|]. intros i' j' Hi' Hj' H. apply HG; lia.
  - intros [vs ws] (L1 & L2 & HG). cbn [fst snd] in *. rewrite Z.max_r in * by lia. split; [lia|]. split; [lia|]. intros i j Hi Hj. apply HG; [lia|lia|]. nia.
Qed.
End Grid.

(* the two triangles of the cell in row i, column j; c vertices per row *)
Definition lower (c i j : Z) : list Z := [i * c + j; i * c + j + 1; (i + 1) * c + j].
Definition upper (c i j : Z) : list Z := [i * c + j + 1; (i + 1) * c + j + 1; (i + 1) * c + j].

Lemma faces_ok a c : 1 <= a -> 1 <= c -> returns (mesh_faces a c) (fun '(fs, xs) => len fs = 2 * ((a - 1) * (c - 1)) /\ xs = concat fs /\
  forall i j, 0 <= i < a - 1 -> 0 <= j < c - 1 -> get fs (2 * (i * (c - 1) + j)) = Ok (lower c i j) /\ get fs (2 * (i * (c - 1) + j) + 1) = Ok (upper c i j)).
Proof.
  intros Ha Hc. apply wp_elim. unfold mesh_faces. set (d := c - 1). assert (Hd : 0 <= d) by (unfold d; lia).
  set (P := fun (i j : Z) (s : list (list Z) * list Z) => len (fst s) = 2 * (i * d + j) /\ snd s = concat (fst s) /\
    forall i' j', 0 <= i' -> 0 <= j' < d -> i' * d + j' < i * d + j -> get (fst s) (2 * (i' * d + j')) = Ok (lower c i' j') /\ get (fst s) (2 * (i' * d + j') + 1) = Ok (upper c i' j')).
  apply wp_for_up' with (P := fun i s => P i 0 s).
  - split; [reflexivity|]. split; [reflexivity|]. intros i' j' Hi' Hj' H. nia.
  - intros i s Hi Hs. apply wp_for_up with (P := P i); [lia|exact Hs| |].
    + intros j [fs xs] Hj (L1 & L2 & HG). cbn [fst snd] in *. apply wp_ok. unfold P. cbn [fst snd]. change (?x * c + ?y) with (x * c + y).
      rewrite !len_app, L1. split; [unfold len; cbn [length]; lia|]. split; [rewrite !concat_app, L2; cbn [concat app]; rewrite ?app_nil_r; reflexivity|]. intros i' j' Hi' Hj' H. rewrite <- app_assoc.
      destruct (Z.eq_dec (i' * d + j') (i * d + j)) as [E|E].
      * destruct (cell_inj d i' j' i j ltac:(lia) ltac:(lia) E) as (-> & ->). split; rewrite get_app_r by lia; rewrite L1; [rewrite Z.sub_diag|replace (2 * (i * d + j) + 1 - 2 * (i * d + j)) with 1 by lia]; reflexivity.
      * assert (0 <= i' * d + j') by nia. rewrite !get_app_l by lia. apply HG; lia.
    + intros s' (L1 & L2 & HG). split; [lia|]. split; [exact L2|]. intros i' j' Hi' Hj' H. apply HG; lia.
  - intros [fs xs] (L1 & L2 & HG). cbn [fst snd] in *. rewrite Z.max_r in * by lia. split; [lia|]. split; [exact L2|]. intros i j Hi Hj. apply HG; [lia|lia|]. fold d in Hj. nia.
Qed.

(* every face is one of these *)
Lemma faces_in a c fs F : 1 <= a -> 1 <= c -> len fs = 2 * ((a - 1) * (c - 1)) ->
  (forall i j, 0 <= i < a - 1 -> 0 <= j < c - 1 -> get fs (2 * (i * (c - 1) + j)) = Ok (lower c i j) /\ get fs (2 * (i * (c - 1) + j) + 1) = Ok (upper c i j)) ->
  In F fs <-> exists i j, 0 <= i < a - 1 /\ 0 <= j < c - 1 /\ (F = lower c i j \/ F = upper c i j).
Proof.
  intros Ha Hc L HG. set (d := c - 1) in *. split.
  - intros HF. destruct (In_nth fs F [] HF) as (k & Hk & E). assert (Hk' : 0 <= Z.of_nat k < len fs) by (unfold len; lia).
    assert (D : 0 < d) by nia. set (z := Z.of_nat k / 2) in *. set (b := Z.of_nat k mod 2).
    assert (Ez : Z.of_nat k = 2 * z + b) by (apply Z.div_mod; lia). assert (Hb : 0 <= b < 2) by (apply Z.mod_pos_bound; lia).
    set (i := z / d). set (j := z mod d). assert (Ei : z = d * i + j) by (apply Z.div_mod; lia). assert (Hj : 0 <= j < d) by (apply Z.mod_pos_bound; lia).
    assert (Hz : 0 <= z < (a - 1) * d) by lia. assert (Hi : 0 <= i < a - 1) by nia.
    assert (GF : get fs (Z.of_nat k) = Ok F). { rewrite (get_at [] fs _ Hk'). f_equal. unfold at_. rewrite Nat2Z.id. exact E. }
    destruct (HG i j Hi Hj) as (G1 & G2). exists i, j. split; [exact Hi|]. split; [exact Hj|].
    assert (B : b = 0 \/ b = 1) by lia. destruct B as [B | B]; [left|right].
    + replace (2 * (i * d + j)) with (Z.of_nat k) in G1 by lia. congruence.
    + replace (2 * (i * d + j) + 1) with (Z.of_nat k) in G2 by lia. congruence.
  - assert (GI : forall k, get fs k = Ok F -> In F fs). { intros k. unfold get. destruct (k <? 0); [discriminate|]. destruct (nth_error fs (Z.to_nat k)) eqn:E; [|discriminate]. intros X. injection X as <-. exact (nth_error_In _ _ E). }
    intros (i & j & Hi & Hj & H). destruct (HG i j Hi Hj) as (G1 & G2). destruct H as [-> | ->]; [exact (GI _ G1)|exact (GI _ G2)].
Qed.
