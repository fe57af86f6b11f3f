(* Meshes of a surface: the grid of points, edges, cover. *)
From Coq Require Import ZArith List Bool Reals Lra Lia.
From Verif Require Import Base Num Vec Tac Spec Spec2 Spec3 Spec4 Spec5 Spec8 Spec12 Spec26 M_MathUtils M_XYZ M_Bspline M_NurbsCurve M_Surface M_Surface2 M_Mesh
  P_MathUtils P_Vec P_XYZ P_Geom P_Nurbs P_Surf5 P_Mesh.
Import ListNotations.
Open Scope Z_scope.

(** * Edges *)
Definition cells (a c : Z) (fs : list (list Z)) : Prop := forall F, In F fs <-> exists i j, 0 <= i < a - 1 /\ 0 <= j < c - 1 /\ (F = lower c i j \/ F = upper c i j).

Lemma runs_lower c i j x y : runs (lower c i j) x y <-> (x = i * c + j /\ y = i * c + (j + 1)) \/ (x = i * c + (j + 1) /\ y = (i + 1) * c + j) \/ (x = (i + 1) * c + j /\ y = i * c + j).
Proof.
  unfold runs, lower. split.
  - intros (z & [H | [H | H]]); injection H as <- <- <-; [left|right; left|right; right]; lia.
  - intros [(-> & ->) | [(-> & ->) | (-> & ->)]]; eexists; [left|right; left|right; right]; f_equal; try lia; f_equal; try lia; reflexivity.
Qed.
Lemma runs_upper c i j x y : runs (upper c i j) x y <-> (x = i * c + (j + 1) /\ y = (i + 1) * c + (j + 1)) \/ (x = (i + 1) * c + (j + 1) /\ y = (i + 1) * c + j) \/ (x = (i + 1) * c + j /\ y = i * c + (j + 1)).
Proof.
  unfold runs, upper. split.
  - intros (z & [H | [H | H]]); injection H as <- <- <-; [left|right; left|right; right]; lia.
  - intros [(-> & ->) | [(-> & ->) | (-> & ->)]]; eexists; [left|right; left|right; right]; f_equal; try lia; f_equal; try lia; f_equal; lia || reflexivity.
Qed.

Ltac cinj E := apply cell_inj in E; [destruct E as (? & ?)|lia|lia].

Lemma edge_once a c fs F F' x y : cells a c fs -> In F fs -> In F' fs -> runs F x y -> runs F' x y -> F = F'.
Proof.
  intros HC HF HF' HR HR'. apply HC in HF. apply HC in HF'. destruct HF as (i & j & Hi & Hj & [-> | ->]), HF' as (i' & j' & Hi' & Hj' & [-> | ->]);
    rewrite ?runs_lower, ?runs_upper in *;
    destruct HR as [(-> & ->) | [(-> & ->) | (-> & ->)]], HR' as [(E1 & E2) | [(E1 & E2) | (E1 & E2)]]; cinj E1; cinj E2; first [exfalso; lia | f_equal; lia].
Qed.

Lemma edge_twin a c fs F x y : cells a c fs -> In F fs -> runs F x y -> (exists F', In F' fs /\ runs F' y x) \/ same_side a c x y.
Proof.
  intros HC HF HR. pose proof HF as HF0. apply HC in HF. destruct HF as (i & j & Hi & Hj & [-> | ->]).
  - apply runs_lower in HR. destruct HR as [(-> & ->) | [(-> & ->) | (-> & ->)]].
    + destruct (Z.eq_dec i 0) as [-> | Hi0]; [right; left; lia|]. left. exists (upper c (i - 1) j). split; [apply HC; exists (i - 1), j; split; [lia|split; [lia|right; reflexivity]]|].
      apply runs_upper. right. left. replace (i - 1 + 1) with i by lia. split; reflexivity.
    + left. exists (upper c i j). split; [apply HC; exists i, j; split; [lia|split; [lia|right; reflexivity]]|]. apply runs_upper. right. right. split; reflexivity.
    + destruct (Z.eq_dec j 0) as [-> | Hj0]; [right; right; right; left; exists (i + 1), i; lia|]. left. exists (upper c i (j - 1)). split; [apply HC; exists i, (j - 1); split; [lia|split; [lia|right; reflexivity]]|].
      apply runs_upper. left. replace (j - 1 + 1) with j by lia. split; reflexivity.
  - apply runs_upper in HR. destruct HR as [(-> & ->) | [(-> & ->) | (-> & ->)]].
    + destruct (Z.eq_dec (j + 1) (c - 1)) as [E | Hj0]; [right; right; right; right; exists i, (i + 1); rewrite E; lia|]. left. exists (lower c i (j + 1)). split; [apply HC; exists i, (j + 1); split; [lia|split; [lia|left; reflexivity]]|].
      apply runs_lower. right. right. split; reflexivity.
    + destruct (Z.eq_dec (i + 1) (a - 1)) as [E | Hi0]; [right; right; left; rewrite E; nia|]. left. exists (lower c (i + 1) j). split; [apply HC; exists (i + 1), j; split; [lia|split; [lia|left; reflexivity]]|].
      apply runs_lower. left. split; reflexivity.
    + left. exists (lower c i j). split; [apply HC; exists i, j; split; [lia|split; [lia|left; reflexivity]]|]. apply runs_lower. right. left. split; reflexivity.
Qed.

(** * Cover *)
Lemma part_of N x : 0 < N -> (0 <= x <= IZR N)%R -> exists i, 0 <= i < N /\ (IZR i <= x <= IZR i + 1)%R.
Proof.
  intros HN Hx. destruct (archimed x) as (A1 & A2). destruct (Z_lt_le_dec (up x - 1) N) as [H | H].
  - exists (up x - 1). rewrite minus_IZR. split; [|lra]. split; [|lia]. assert (B : (-1 < IZR (up x - 1))%R) by (rewrite minus_IZR; lra). apply (lt_IZR (-1)) in B. lia.
  - exists (N - 1). split; [lia|]. rewrite minus_IZR. apply IZR_le in H. rewrite minus_IZR in H. lra.
Qed.

Lemma cover a c u v : 2 <= a -> 2 <= c -> (0 <= u <= 1)%R -> (0 <= v <= 1)%R ->
  let at_uv (i j : Z) := (IZR i / IZR (a - 1), IZR j / IZR (c - 1))%R in
  exists i j, 0 <= i < a - 1 /\ 0 <= j < c - 1 /\
   (in_triangle (at_uv i j) (at_uv i (j + 1)) (at_uv (i + 1) j) u v \/ in_triangle (at_uv i (j + 1)) (at_uv (i + 1) (j + 1)) (at_uv (i + 1) j) u v).
Proof.
  intros Ha Hc Hu Hv at_uv. set (N := IZR (a - 1)) in *. set (M := IZR (c - 1)) in *.
  assert (HN : (1 <= N)%R) by (apply IZR_le; lia). assert (HM : (1 <= M)%R) by (apply IZR_le; lia).
  destruct (part_of (a - 1) (u * N) ltac:(lia)) as (i & Hi & Bi); [fold N; nra|]. destruct (part_of (c - 1) (v * M) ltac:(lia)) as (j & Hj & Bj); [fold M; nra|].
  exists i, j. split; [exact Hi|]. split; [exact Hj|]. set (s := (u * N - IZR i)%R). set (t := (v * M - IZR j)%R).
  assert (Eu : u = ((IZR i + s) / N)%R) by (unfold s; field; lra). assert (Ev : v = ((IZR j + t) / M)%R) by (unfold t; field; lra).
  destruct (Rle_dec (s + t) 1) as [H | H].
  - left. exists (1 - s - t)%R, t, s. unfold at_uv. cbn [fst snd]. rewrite !plus_IZR. split; [lra|]. split; [unfold t; lra|]. split; [unfold s; lra|]. split; [ring|]. split; [rewrite Eu at 1; field; lra|rewrite Ev at 1; field; lra].
  - right. exists (1 - s)%R, (s + t - 1)%R, (1 - t)%R. unfold at_uv. cbn [fst snd]. rewrite !plus_IZR. split; [unfold s; lra|]. split; [lra|]. split; [unfold t; lra|]. split; [ring|]. split; [rewrite Eu at 1; field; lra|rewrite Ev at 1; field; lra].
Qed.

(** * The grid of points *)
Section Grid.
Variables (n m : Z) (S : Surface R (XYZW R)) (a c : Z).
Hypotheses (HS : valid_surface n m S) (HH : heavy_net n m (SControlPoints S)) (DU : forall t, (0 <= t <= 1)%R -> u_domain n S t) (DV : forall t, (0 <= t <= 1)%R -> v_domain m S t)
  (Ha : 2 <= a) (Hc : 2 <= c).

Definition g_u (i : Z) : R := (IZR i / IZR (a - 1))%R.
Definition g_v (j : Z) : R := (IZR j / IZR (c - 1))%R.
Lemma frac_unit N i : 1 <= N -> 0 <= i <= N -> (0 <= IZR i / IZR N <= 1)%R.
Proof.
  intros HN Hi. apply IZR_le in HN. destruct Hi as (H1 & H2). apply IZR_le in H1, H2. split; [apply Rmult_le_pos; [exact H1|left; apply Rinv_0_lt_compat; lra]|].
  apply (Rmult_le_reg_r (IZR N)); [lra|]. unfold Rdiv. rewrite Rmult_assoc, Rinv_l, Rmult_1_r, Rmult_1_l by lra. exact H2.
Qed.

Lemma grid_ok : returns (mesh_grid S a c) (fun '(ps, us) => arr2 ps a c (fun i j => surface_at n m S (g_u i) (g_v j)) /\ arr2 us a c (fun i j => (g_u i, g_v j))).
Proof.
  apply wp_elim. unfold mesh_grid, mkvec. destruct (Z.ltb_spec c 0); [lia|]. cbn [bind]. destruct (Z.ltb_spec a 0); [lia|]. cbn [bind].
  set (P := fun (D : Z -> Z -> Prop) (s : list (list (XYZ R)) * list (list (R * R))) => arr2D (fst s) a c D (fun i j => surface_at n m S (g_u i) (g_v j)) /\ arr2D (snd s) a c D (fun i j => (g_u i, g_v j))).
  assert (R0 : forall {X} (x : X) f, arr2D (repeat (repeat x (Z.to_nat c)) (Z.to_nat a)) a c (fun i j => False) f).
  { intros X x f. split; [unfold len; rewrite repeat_length; lia|]. intros i Hi. exists (repeat x (Z.to_nat c)). split.
    - assert (A0 : arr (repeat (repeat x (Z.to_nat c)) (Z.to_nat a)) a (fun _ => repeat x (Z.to_nat c))) by (apply arr_repeat; lia). apply (proj2 A0). exact Hi.
    - split; [unfold len; rewrite repeat_length; lia|]. intros j Hj []. }
  apply wp_for_up with (P := fun i s => P (fun i' _ => i' < i) s); [lia| | |].
  - split; (eapply arr2D_ext; [first [apply (R0 _ _ (fun i j => surface_at n m S (g_u i) (g_v j))) | apply (R0 _ _ (fun i j => (g_u i, g_v j)))]|]; intros i j Hi Hj D; lia).
  - intros i s Hi Hs. num. assert (HN : IZR (a - 1) <> 0%R) by (apply not_0_IZR; lia). rewrite (Rdiv_ok _ _ HN). cbn [bind]. fold (g_u i).
    apply wp_for_up with (P := fun j s => P (fun i' j' => i' < i \/ (i' = i /\ j' < j)) s); [lia| | |].
    + destruct Hs as (H1 & H2). split; (eapply arr2D_ext; [first [exact H1 | exact H2]|]; intros i' j' Hi' Hj' D; split; [lia|reflexivity]).
    + intros j [ps us] Hj (H1 & H2). cbn [fst snd] in *. assert (HM : IZR (c - 1) <> 0%R) by (apply not_0_IZR; lia). rewrite (Rdiv_ok _ _ HM). cbn [bind]. fold (g_v j).
      rewrite (surface_eval3 n m S _ _ HS HH); [|apply DU, frac_unit; lia|apply DV, frac_unit; lia]. cbn [bind].
      apply wp_bind. eapply (arr2D_set _ _ _ _ (fun i' j' => i' < i \/ (i' = i /\ j' < j + 1))); [exact H1|lia|lia|reflexivity|intros x y Hx Hy D; cbv beta in *; lia|]. intros ps' H1'.
      apply wp_bind. eapply (arr2D_set _ _ _ _ (fun i' j' => i' < i \/ (i' = i /\ j' < j + 1))); [exact H2|lia|lia|reflexivity|intros x y Hx Hy D; cbv beta in *; lia|]. intros us' H2'.
      apply wp_ok. split; assumption.
    + intros s' (H1 & H2). split; (eapply arr2D_ext; [first [exact H1 | exact H2]|]; intros i' j' Hi' Hj' D; split; [lia|reflexivity]).
  - intros [ps us] (H1 & H2). cbn [fst snd] in *. split; [apply (arr2_of_D _ _ _ _ _ H1)|apply (arr2_of_D _ _ _ _ _ H2)]; intros x y Hx Hy; cbv beta in *; lia.
Qed.

Lemma mesh_ok : returns (TriangulateGrid S a c) (fun M => len (Vertices M) = a * c /\ len (UVs M) = a * c /\
  (forall i j, 0 <= i < a -> 0 <= j < c -> get (Vertices M) (i * c + j) = Ok (surface_at n m S (g_u i) (g_v j)) /\ get (UVs M) (i * c + j) = Ok (g_u i, g_v j)) /\
  len (Faces M) = 2 * ((a - 1) * (c - 1)) /\ UVIndices M = concat (Faces M) /\
  (forall i j, 0 <= i < a - 1 -> 0 <= j < c - 1 -> get (Faces M) (2 * (i * (c - 1) + j)) = Ok (lower c i j) /\ get (Faces M) (2 * (i * (c - 1) + j) + 1) = Ok (upper c i j))).
Proof.
  unfold TriangulateGrid. destruct grid_ok as ([ps us] & E & H1 & H2). rewrite E. cbn [bind fst snd].
  destruct (vertices_ok _ _ a c ltac:(lia) ltac:(lia) ps us H1 H2) as ([vs ws] & E2 & L1 & L2 & HG). rewrite E2. cbn [bind fst snd].
  destruct (faces_ok a c ltac:(lia) ltac:(lia)) as ([fs xs] & E3 & L3 & EX & HF). rewrite E3. cbn [bind fst snd].
  eexists. split; [reflexivity|]. cbn [Vertices UVs Faces UVIndices]. split; [exact L1|]. split; [exact L2|]. split; [exact HG|]. split; [exact L3|]. split; [exact EX|exact HF].
Qed.
End Grid.

(** * All of it *)
Lemma get_range {X} (l : list X) k x : get l k = Ok x -> 0 <= k < len l.
Proof.
  unfold get. destruct (Z.ltb_spec k 0); [discriminate|]. destruct (nth_error l (Z.to_nat k)) eqn:E; [|discriminate]. intros _. assert (H' : nth_error l (Z.to_nat k) <> None) by congruence.
  apply nth_error_Some in H'. unfold len. lia.
Qed.
Lemma cell_of c k : 0 < c -> k = k / c * c + k mod c /\ 0 <= k mod c < c.
Proof. intros Hc. split; [rewrite Z.mul_comm; apply Z.div_mod; lia|apply Z.mod_pos_bound; lia]. Qed.

Lemma faces_nodup a c fs : 2 <= a -> 2 <= c -> len fs = 2 * ((a - 1) * (c - 1)) ->
  (forall i j, 0 <= i < a - 1 -> 0 <= j < c - 1 -> get fs (2 * (i * (c - 1) + j)) = Ok (lower c i j) /\ get fs (2 * (i * (c - 1) + j) + 1) = Ok (upper c i j)) -> NoDup fs.
Proof.
  intros Ha Hc L HG. set (d := c - 1) in *. assert (Hd : 1 <= d) by (unfold d; lia).
  assert (HP : forall k, 0 <= k < len fs -> exists i j b, 0 <= i < a - 1 /\ 0 <= j < d /\ 0 <= b < 2 /\ k = 2 * (i * d + j) + b /\ get fs k = Ok (if b =? 0 then lower c i j else upper c i j)).
  { intros k Hk. destruct (cell_of 2 k ltac:(lia)) as (E & B). destruct (cell_of d (k / 2) ltac:(lia)) as (E' & B'). set (b := k mod 2) in *. set (z := k / 2) in *. set (i := z / d) in *. set (j := z mod d) in *. clearbody b i j. clearbody z.
    assert (Hi : 0 <= i < a - 1) by nia. exists i, j, b. split; [exact Hi|]. split; [exact B'|]. split; [exact B|]. split; [lia|].
    destruct (HG i j Hi B') as (G1 & G2). destruct (Z.eqb_spec b 0) as [-> | Hb]; [replace k with (2 * (i * d + j)) by lia; exact G1|replace k with (2 * (i * d + j) + 1) by lia; exact G2]. }
  apply NoDup_nth_error. intros k k' Hk Ek. assert (Hk' : (k' < length fs)%nat) by (apply nth_error_Some; rewrite <- Ek; apply nth_error_Some; exact Hk).
  assert (GE : get fs (Z.of_nat k) = get fs (Z.of_nat k')). { unfold get. destruct (Z.ltb_spec (Z.of_nat k) 0); [lia|]. destruct (Z.ltb_spec (Z.of_nat k') 0); [lia|]. rewrite !Nat2Z.id, Ek. reflexivity. }
  destruct (HP (Z.of_nat k)) as (i & j & b & Hi & Hj & Hb & E & G); [unfold len; lia|]. destruct (HP (Z.of_nat k')) as (i' & j' & b' & Hi' & Hj' & Hb' & E' & G'); [unfold len; lia|].
  rewrite G, G' in GE. injection GE as GE. apply Nat2Z.inj. rewrite E, E'.
  destruct (Z.eqb_spec b 0), (Z.eqb_spec b' 0); unfold lower, upper in GE; injection GE as X1 X2 X3.
  - cinj X1. subst. reflexivity.
  - exfalso. nia.
  - exfalso. nia.
  - replace (i * c + j + 1) with (i * c + (j + 1)) in X1 by lia. replace (i' * c + j' + 1) with (i' * c + (j' + 1)) in X1 by lia. cinj X1. assert (j = j') by lia. subst. lia.
Qed.

Lemma mesh_full n m (S : Surface R (XYZW R)) a c : valid_surface n m S -> heavy_net n m (SControlPoints S) ->
  (forall t, (0 <= t <= 1)%R -> u_domain n S t) -> (forall t, (0 <= t <= 1)%R -> v_domain m S t) -> 2 <= a -> 2 <= c ->
  returns (TriangulateGrid S a c) (fun M =>
    (len (Vertices M) = a * c /\ len (UVs M) = a * c /\ len (Faces M) = 2 * ((a - 1) * (c - 1)) /\ UVIndices M = concat (Faces M)) /\
    (forall i j, 0 <= i < a -> 0 <= j < c -> get (UVs M) (i * c + j) = Ok (IZR i / IZR (a - 1), IZR j / IZR (c - 1))%R) /\
    (forall k u v, get (UVs M) k = Ok (u, v) -> (0 <= u <= 1)%R /\ (0 <= v <= 1)%R /\ get (Vertices M) k = Ok (surface_at n m S u v)) /\
    (forall F, In F (Faces M) -> exists x y z, F = [x; y; z] /\ x <> y /\ y <> z /\ z <> x /\ 0 <= x < a * c /\ 0 <= y < a * c /\ 0 <= z < a * c) /\
    NoDup (Faces M) /\
    (forall F F' x y, In F (Faces M) -> In F' (Faces M) -> runs F x y -> runs F' x y -> F = F') /\
    (forall F x y, In F (Faces M) -> runs F x y -> (exists F', In F' (Faces M) /\ runs F' y x) \/ same_side a c x y) /\
    (forall u v, (0 <= u <= 1)%R -> (0 <= v <= 1)%R -> exists x y z X Y Z, In [x; y; z] (Faces M) /\
       get (UVs M) x = Ok X /\ get (UVs M) y = Ok Y /\ get (UVs M) z = Ok Z /\ in_triangle X Y Z u v)).
Proof.
  intros HS HH DU DV Ha Hc. destruct (mesh_ok n m S a c HS HH DU DV Ha Hc) as (M & E & L1 & L2 & HV & L3 & EX & HG). exists M. split; [exact E|].
  assert (HC : cells a c (Faces M)) by (intros F; apply (faces_in a c); [lia|lia|exact L3|exact HG]).
  split; [split; [exact L1|split; [exact L2|split; [exact L3|exact EX]]]|].
  split; [intros i j Hi Hj; exact (proj2 (HV i j Hi Hj))|].
  split.
  { intros k u v G. pose proof (get_range _ _ _ G) as Hk. rewrite L2 in Hk. destruct (cell_of c k ltac:(lia)) as (Ek & Hj). set (i := k / c) in *. set (j := k mod c) in *. clearbody i j. assert (Hi : 0 <= i < a) by nia. 
    destruct (HV i j Hi Hj) as (G1 & G2). rewrite <- Ek in G1, G2. rewrite G2 in G. injection G as <- <-. split; [apply frac_unit; lia|]. split; [apply frac_unit; lia|exact G1]. }
  split.
  { intros F HF. apply HC in HF. destruct HF as (i & j & Hi & Hj & [-> | ->]); eexists; eexists; eexists; (split; [reflexivity|]); repeat split; nia. }
  split; [exact (faces_nodup a c _ Ha Hc L3 HG)|].
  split; [intros F F' x y; apply (edge_once a c); exact HC|].
  split; [intros F x y; apply (edge_twin a c); exact HC|].
  intros u v Hu Hv. destruct (cover a c u v Ha Hc Hu Hv) as (i & j & Hi & Hj & HT). cbv zeta in HT.
  pose proof (proj2 (HV i j ltac:(lia) ltac:(lia))) as V00. pose proof (proj2 (HV i (j + 1) ltac:(lia) ltac:(lia))) as V01. pose proof (proj2 (HV (i + 1) j ltac:(lia) ltac:(lia))) as V10. pose proof (proj2 (HV (i + 1) (j + 1) ltac:(lia) ltac:(lia))) as V11.
  rewrite Z.add_assoc in V01, V11. destruct HT as [HT | HT].
  - do 6 eexists. split; [apply HC; exists i, j; split; [exact Hi|split; [exact Hj|left; reflexivity]]|]. split; [exact V00|]. split; [exact V01|]. split; [exact V10|exact HT].
  - do 6 eexists. split; [apply HC; exists i, j; split; [exact Hi|split; [exact Hj|right; reflexivity]]|]. split; [exact V01|]. split; [exact V11|]. split; [exact V10|exact HT].
Qed.
