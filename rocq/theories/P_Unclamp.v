(* Unclamping a curve. *)
From Coq Require Import ZArith List Bool Reals Lra Lia Permutation.
From Verif Require Import Base Num Vec Tac Spec Spec2 Spec3 Spec4 Spec10 M_MathUtils M_Polynomials M_XYZ M_Bspline M_NurbsCurve M_Shape
  P_MathUtils P_Span P_Cox P_Basis P_Vec P_XYZ P_VSum P_Curve P_Bspline P_Loop P_Blossom P_Insert.
Import ListNotations.
Open Scope Z_scope.

(* two spans agree on arguments that contain the knots between them *)
Lemma bl_transfer {T} {V : Vec R T} {L : VecL T} U l k p (d : Z -> T) ts rest : 0 <= p -> good U l p -> good U k p -> l <= k -> k - l <= p ->
  len rest = p - (k - l) -> Permutation ts (rest ++ win U l (k - l)) -> bl U p d ts k = bl U p d ts l.
Proof.
  intros Hp Hl Hk Hlk Hkl Hr HP.
  assert (Ln : len ts = p). { unfold len in *. rewrite (Permutation_length HP), app_length, win_len. lia. }
  rewrite (bl_perm U k _ _ HP p d k Hk) by lia. rewrite (bl_perm U l _ _ HP p d l Hl) by lia.
  replace (k - l) with (p - len rest) by lia. rewrite !bl_part by (try assumption; lia). reflexivity.
Qed.

Lemma xdiv (a : XYZW R) x : x <> 0%R -> xyzw_div a x = Ok (vscale (/ x)%R a).
Proof. intros Hx. unfold xyzw_div. num. rewrite !Rdiv_ok by exact Hx. reflexivity. Qed.
Lemma solve_lo (o q x : XYZW R) al : (1 - al <> 0)%R -> o = vadd (vscale (1 - al)%R x) (vscale al q) -> xyzw_div (xyzw_sub o (xyzw_scale al q)) (1 - al)%R = Ok x.
Proof.
  intros Ha ->. rewrite xdiv by exact Ha. f_equal. change (xyzw_sub ?a (xyzw_scale al q)) with (vsub a (vscale al q)). vec. field. exact Ha.
Qed.
Lemma solve_hi (o q x : XYZW R) al : (al <> 0)%R -> o = vadd (vscale al x) (vscale (1 - al)%R q) -> xyzw_div (xyzw_sub o (xyzw_scale (1 - al)%R q)) al = Ok x.
Proof.
  intros Ha ->. rewrite xdiv by exact Ha. f_equal. change (xyzw_sub ?a (xyzw_scale ?b q)) with (vsub a (vscale b q)). vec. field. exact Ha.
Qed.

Lemma len_app2 {X} (a b : list X) : len (a ++ b) = len a + len b.
Proof. unfold len. rewrite app_length. lia. Qed.
Lemma len_rep2 {X} (x : X) m : 0 <= m -> len (repeat x (Z.to_nat m)) = m.
Proof. intros. unfold len. rewrite repeat_length. lia. Qed.
Lemma len_win U i m : 0 <= m -> len (win U i m) = m.
Proof. intros. unfold len. rewrite win_len. lia. Qed.
Lemma rep_cons {X} (x : X) m : 0 < m -> repeat x (Z.to_nat m) = x :: repeat x (Z.to_nat (m - 1)).
Proof. intros. replace (Z.to_nat m) with (Datatypes.S (Z.to_nat (m - 1))) by lia. reflexivity. Qed.

Section Half.
Variables (p n : Z) (F : list R -> XYZW R).
Hypothesis Hp1 : 1 <= p.
Hypothesis HF : polar p F.

(* the control points after h rounds at the start; u the clamped knot *)
Definition lowP (u : R) (K : Z -> R) (h j : Z) : XYZW R := F (repeat u (Z.to_nat (p - 1 - h)) ++ win K (p - 1 - h + j) (h + 1)).
Definition highP (b : R) (K : Z -> R) (h j : Z) : XYZW R := F (repeat b (Z.to_nat (p - 1 - h)) ++ win K (n - j) (h + 1)).

Lemma F_perm l l' : Permutation l l' -> len l = p -> F l = F l'.
Proof. apply HF. Qed.

Lemma low_step u (K : Z -> R) i j : 0 <= j <= i -> i <= p - 2 -> (K (p - 1 - i + j)%Z < K (p + j + 1)%Z)%R ->
  let al := ((u - K (p - 1 - i + j)%Z) / (K (p + j + 1)%Z - K (p - 1 - i + j)%Z))%R in
  lowP u K i j = vadd (vscale (1 - al)%R (lowP u K (i + 1)%Z j)) (vscale al (lowP u K (i + 1)%Z (j + 1))).
Proof.
  intros Hj Hi HK al. set (c := repeat u (Z.to_nat (p - 2 - i)) ++ win K (p - 1 - i + j)%Z (i + 1)).
  assert (Lc : len c = p - 1) by (unfold c; rewrite len_app2, len_rep2, len_win by lia; lia).
  assert (E0 : lowP u K i j = F (u :: c)).
  { unfold lowP, c. rewrite (rep_cons u (p - 1 - i)) by lia. replace (p - 1 - i - 1) with (p - 2 - i) by lia. reflexivity. }
  assert (E1 : lowP u K (i + 1)%Z j = F (K (p - 1 - i + j)%Z :: c)).
  { unfold lowP, c. replace (p - 1 - (i + 1)) with (p - 2 - i) by lia. replace (i + 1 + 1) with (i + 2) by lia. rewrite (win_cons K (p - 2 - i + j)%Z (i + 2)) by lia.
    replace (p - 2 - i + j + 1) with (p - 1 - i + j) by lia. replace (i + 2 - 1) with (i + 1) by lia. apply F_perm; [symmetry; apply Permutation_middle|]. rewrite len_app2, len_rep2, len_cons, len_win by lia. lia. }
  assert (E2 : lowP u K (i + 1)%Z (j + 1) = F (K (p + j + 1)%Z :: c)).
  { unfold lowP, c. replace (p - 1 - (i + 1)) with (p - 2 - i) by lia. replace (i + 1 + 1) with (i + 2) by lia. replace (p - 2 - i + (j + 1)) with (p - 1 - i + j) by lia. rewrite (win_snoc K (p - 1 - i + j)%Z (i + 2)) by lia.
    replace (i + 2 - 1) with (i + 1) by lia. replace (p - 1 - i + j + (i + 2)) with (p + j + 1) by lia. apply F_perm; [|rewrite !len_app2, len_rep2, len_win by lia; change (len [K (p + j + 1)%Z]) with 1; lia]. rewrite app_assoc. symmetry. apply Permutation_cons_append. }
  rewrite E0, E1, E2. destruct HF as [_ HA]. rewrite <- HA by (try ring; exact Lc). f_equal. f_equal. unfold al. field. lra.
Qed.

Lemma high_step b (K : Z -> R) i j : 0 <= j <= i -> i <= p - 2 -> (K (n - j)%Z < K (n - j + i + 2)%Z)%R ->
  let al := ((b - K (n - j)%Z) / (K (n - j + i + 2)%Z - K (n - j)%Z))%R in
  highP b K i j = vadd (vscale al (highP b K (i + 1)%Z j)) (vscale (1 - al)%R (highP b K (i + 1)%Z (j + 1))).
Proof.
  intros Hj Hi HK al. set (c := repeat b (Z.to_nat (p - 2 - i)) ++ win K (n - j)%Z (i + 1)).
  assert (Lc : len c = p - 1) by (unfold c; rewrite len_app2, len_rep2, len_win by lia; lia).
  assert (E0 : highP b K i j = F (b :: c)).
  { unfold highP, c. rewrite (rep_cons b (p - 1 - i)) by lia. replace (p - 1 - i - 1) with (p - 2 - i) by lia. reflexivity. }
  assert (E1 : highP b K (i + 1)%Z (j + 1) = F (K (n - j)%Z :: c)).
  { unfold highP, c. replace (p - 1 - (i + 1)) with (p - 2 - i) by lia. replace (i + 1 + 1) with (i + 2) by lia. rewrite (win_cons K (n - (j + 1))%Z (i + 2)) by lia.
    replace (n - (j + 1) + 1) with (n - j) by lia. replace (i + 2 - 1) with (i + 1) by lia. apply F_perm; [symmetry; apply Permutation_middle|]. rewrite len_app2, len_rep2, len_cons, len_win by lia. lia. }
  assert (E2 : highP b K (i + 1)%Z j = F (K (n - j + i + 2)%Z :: c)).
  { unfold highP, c. replace (p - 1 - (i + 1)) with (p - 2 - i) by lia. replace (i + 1 + 1) with (i + 2) by lia. rewrite (win_snoc K (n - j)%Z (i + 2)) by lia.
    replace (i + 2 - 1) with (i + 1) by lia. replace (n - j + (i + 2)) with (n - j + i + 2) by lia. apply F_perm; [|rewrite !len_app2, len_rep2, len_win by lia; change (len [K (n - j + i + 2)%Z]) with 1; lia]. rewrite app_assoc. symmetry. apply Permutation_cons_append. }
  rewrite E0, E1, E2. destruct HF as [_ HA]. rewrite <- HA by (try ring; exact Lc). f_equal. f_equal. unfold al. field. lra.
Qed.
End Half.

Section Low.
Variables (p n : Z) (U : list R) (H : list (XYZW R)).
Hypothesis Hp1 : 1 <= p.
Hypothesis HU : curve_knots p n U.
Hypothesis HH : len H = n + 1.
Hypothesis Hlo : forall i, 0 <= i <= p -> val U i = val U p.

Let V := val U.
Let F := fun ts => bl V p (pt H) ts p.
Lemma good_p : good V p p.
Proof. pose proof HU as [A B C D E G]. pose proof (tol_pos (val U p) (val U (p + 1)%Z)). split; [unfold V; lra|]. intros i j Hi Hij Hj. apply D; lia. Qed.
Lemma FP : polar p F.
Proof. apply bl_polar; [lia|exact good_p]. Qed.

(* knots after h rounds *)
Definition low_inv (h : Z) (K : Z -> R) : Prop :=
  (forall i, p <= i -> K i = V i) /\ (forall i j, p - h <= i -> i <= j -> j <= n + p + 1 -> (K i <= K j)%R) /\
  (forall i, 0 <= i < h -> K (p - i - 1)%Z = (K (p - i)%Z - (K (n - i + 1)%Z - K (n - i)%Z))%R) /\
  (forall i, i < p - h -> K i = V i).

Lemma low_start j : 0 <= j <= p - 1 -> forall K h, (forall i, p <= i -> K i = V i) -> h = j -> lowP p F (V p) K h j = pt H j.
Proof.
  intros Hj K h HK ->. unfold lowP. replace (p - 1 - j + j) with (p - 1) by lia.
  transitivity (F (win V j p)); [|unfold F; apply bl_knots; [lia|exact good_p|lia]]. f_equal.
  replace (win V j p) with (win V j (p - 1 - j + (j + 1))) by (f_equal; lia). rewrite (win_app V j) by lia. f_equal.
  - symmetry. apply win_const. intros r Hr. unfold V. apply Hlo. lia.
  - apply win_ext. intros r Hr. rewrite HK by lia. f_equal. lia.
Qed.

Lemma low_round i K kv cp : 0 <= i <= p - 2 -> low_inv i K -> arr kv (n + p + 2) K -> arr cp (n + 1) (fun j => if j <=? i then lowP p F (V p) K i j else pt H j) ->
  exists K', low_inv (i + 1) K' /\ wp (
    let! a := get kv (p - i)%Z in
    let! b := get kv (n - i + 1)%Z in
    let! d := get kv (n - i)%Z in
    let! knotVector := upd kv (p - i - 1)%Z (a - (b - d))%R in
    let! controlPoints := for_down i 0 cp (fun j controlPoints =>
      let k := (p - 1 - (i - j))%Z in
      let! ud := get knotVector p in
      let! uk := get knotVector k in
      let! uj := get knotVector (p + j + 1)%Z in
      let! alpha := Rdiv_ (ud - uk) (uj - uk) in
      let! p := get controlPoints j in
      let! q := get controlPoints (j + 1)%Z in
      let! r := xyzw_div (xyzw_sub p (xyzw_scale alpha q)) (1 - alpha)%R in
      upd controlPoints j r) in
    Ok (knotVector, controlPoints)) (fun '(kv', cp') => arr kv' (n + p + 2) K' /\ arr cp' (n + 1) (fun j => if j <=? i + 1 then lowP p F (V p) K' (i + 1)%Z j else pt H j)).
Proof.
  intros Hi (I1 & I2 & I3 & I4) AK AC. pose proof HU as [Q1 Q2 Q3 Q4 Q5 Q6]. pose proof (tol_pos (val U p) (val U (p + 1)%Z)) as TP.
  set (x := (K (p - i)%Z - (K (n - i + 1)%Z - K (n - i)%Z))%R). set (K' := fun a => if a =? p - i - 1 then x else K a).
  assert (KE : forall a, a <> p - i - 1 -> K' a = K a) by (intros a Ha; unfold K'; destruct (Z.eqb_spec a (p - i - 1)); [contradiction|reflexivity]).
  assert (KX : K' (p - i - 1)%Z = x) by (unfold K'; rewrite Z.eqb_refl; reflexivity).
  assert (G0 : (K (n - i)%Z <= K (n - i + 1)%Z)%R) by (apply I2; lia).
  assert (LI : low_inv (i + 1) K').
  { split; [|split; [|split]].
    - intros a Ha. rewrite KE by lia. apply I1. lia.
    - intros a b Ha Hab Hb. destruct (Z.eq_dec a (p - i - 1)) as [->|Na].
      + rewrite KX. destruct (Z.eq_dec b (p - i - 1)) as [->|Nb]; [rewrite KX; lra|]. rewrite KE by lia. pose proof (I2 (p - i) b ltac:(lia) ltac:(lia) ltac:(lia)). unfold x. lra.
      + rewrite !KE by lia. apply I2; lia.
    - intros a Ha. destruct (Z.eq_dec a i) as [->|Na]; [rewrite KX, !KE by lia; reflexivity|]. rewrite !KE by lia. apply I3. lia.
    - intros a Ha. rewrite KE by lia. apply I4. lia. }
  exists K'. split; [exact LI|]. destruct LI as (J1 & J2 & J3 & J4).
  wget AK. wget AK. wget AK. apply wp_bind. apply (arr_upd _ _ _ _ _ _ AK); [lia|]. intros kv' AK'. fold x in AK'. change (arr kv' (n + p + 2) K') in AK'.
  apply wp_bind. apply wp_for_down with (P := fun j cp => arr cp (n + 1) (fun a => if a <=? j then lowP p F (V p) K i a else if a <=? i + 1 then lowP p F (V p) K' (i + 1)%Z a else pt H a)); [lia| | |].
  - eapply arr_ext; [exact AC|]. intros a Ha. cbv beta. destruct (Z.leb_spec a i); [reflexivity|]. destruct (Z.leb_spec a (i + 1)); [|reflexivity]. assert (a = i + 1) as -> by lia. symmetry. apply low_start; [lia| |reflexivity]. intros b Hb. apply J1. lia.
  - intros j cp' Hj Hcp. wget AK'. wget AK'. wget AK'. replace (p - 1 - (i - j)) with (p - 1 - i + j) by lia.
    assert (KP : K' p = V p) by (apply J1; lia).
    assert (D1 : (K' (p - 1 - i + j)%Z <= K' p)%R) by (apply J2; lia).
    assert (D2 : (K' p < K' (p + j + 1)%Z)%R). { rewrite !J1 by lia. unfold V. pose proof (Q4 (p + 1) (p + j + 1) ltac:(lia) ltac:(lia) ltac:(lia)). lra. }
    rewrite Rdiv_ok by lra. cbn [bind]. wget Hcp. wget Hcp. destruct (Z.leb_spec j j); [|lia]. destruct (Z.leb_spec (j + 1) j); [lia|]. destruct (Z.leb_spec (j + 1) (i + 1)); [|lia].
    assert (EL : lowP p F (V p) K i j = lowP p F (V p) K' i j). { unfold lowP. f_equal. f_equal. apply win_ext. intros r Hr. symmetry. apply KE. lia. }
    assert (NA : (1 - (K' p - K' (p - 1 - i + j)%Z) / (K' (p + j + 1)%Z - K' (p - 1 - i + j)%Z) <> 0)%R).
    { intros X. assert (Y : ((K' (p + j + 1)%Z - K' p) = (K' (p + j + 1)%Z - K' (p - 1 - i + j)%Z) * (1 - (K' p - K' (p - 1 - i + j)%Z) / (K' (p + j + 1)%Z - K' (p - 1 - i + j)%Z)))%R) by (field; lra). rewrite X in Y. lra. }
    rewrite (solve_lo _ _ (lowP p F (V p) K' (i + 1)%Z j)); [|exact NA|]. 2:{ rewrite EL, KP. apply (low_step p F FP); [lia|lia|exact (Rle_lt_trans _ _ _ D1 D2)]. }
    cbn [bind]. apply (arr_upd _ _ _ _ _ _ Hcp); [lia|]. intros cp'' A''. eapply arr_ext; [exact A''|]. intros a Ha. cbv beta. destruct (Z.eqb_spec a j) as [->|Na].
    + destruct (Z.leb_spec j (j - 1)); [lia|]. destruct (Z.leb_spec j (i + 1)); [reflexivity|lia].
    + destruct (Z.leb_spec a j), (Z.leb_spec a (j - 1)); try lia; reflexivity.
  - intros cp' Hcp. apply wp_ok. split; [exact AK'|]. eapply arr_ext; [exact Hcp|]. intros a Ha. cbv beta. destruct (Z.leb_spec a (0 - 1)); [lia|]. reflexivity.
Qed.

Lemma win_split K j k : 0 <= j <= p - 1 -> p <= k -> k <= j + p -> (forall i, p <= i -> K i = V i) ->
  Permutation (win K j p) ((win K j (p - j) ++ win K k (j + p - k)) ++ win V p (k - p)).
Proof.
  intros Hj Hk Hkj HK. replace (win K j p) with (win K j (p - j + ((k - p) + (j + p - k)))) by (f_equal; lia). rewrite win_app by lia. replace (j + (p - j)) with p by lia.
  rewrite (win_app K p (k - p)) by lia. replace (p + (k - p)) with k by lia. rewrite <- app_assoc. apply Permutation_app_head. replace (win V p (k - p)) with (win K p (k - p)) by (apply win_ext; intros r Hr; apply HK; lia). apply Permutation_app_comm.
Qed.

(* the control points found are those of every span *)
Lemma low_points K k m : (forall i, p <= i -> K i = V i) -> good V k p -> p <= k <= n -> k - p <= m <= k ->
  (if m <=? p - 1 then lowP p F (V p) K (p - 1) m else pt H m) = bl V p (pt H) (win K m p) k.
Proof.
  intros HK Gk Hk Hm. destruct (Z.leb_spec m (p - 1)).
  - unfold lowP. replace (p - 1 - (p - 1)) with 0 by lia. replace (p - 1 + 1) with p by lia. cbn [Z.to_nat repeat app]. rewrite Z.add_0_l. unfold F. symmetry.
    apply (bl_transfer V p k p (pt H) _ (win K m (p - m) ++ win K k (m + p - k))); [lia|exact good_p|exact Gk|lia|lia| |apply win_split; try assumption; lia].
    rewrite len_app2, !len_win by lia. lia.
  - replace (win K m p) with (win V m p) by (apply win_ext; intros r Hr; symmetry; apply HK; lia). symmetry. apply bl_knots; [lia|exact Gk|lia].
Qed.
End Low.

Section High.
Variables (p n : Z) (U : list R) (H : list (XYZW R)).
Hypothesis Hp1 : 1 <= p.
Hypothesis HU : curve_knots p n U.
Hypothesis HH : len H = n + 1.
Hypothesis Hhi : forall i, n + 1 <= i <= n + p + 1 -> val U i = val U (n + 1).
Let V := val U.
Let F := fun ts => bl V p (pt H) ts n.
Lemma good_n : good V n p.
Proof. pose proof HU as [A B C D E G]. pose proof (tol_pos (val U n) (val U (n + 1)%Z)). split; [unfold V; lra|]. intros i j Hi Hij Hj. apply D; lia. Qed.
Lemma FPh : polar p F.
Proof. apply bl_polar; [lia|exact good_n]. Qed.

Definition high_inv (h : Z) (K : Z -> R) : Prop :=
  (forall i, i <= n + 1 -> K i = V i) /\ (forall i j, 0 <= i -> i <= j -> j <= n + 1 + h -> (K i <= K j)%R) /\
  (forall i, 0 <= i < h -> K (n + i + 2)%Z = (K (n + i + 1)%Z + (K (p + i + 1)%Z - K (p + i)%Z))%R).

Lemma high_start j : 0 <= j <= p - 1 -> forall K h, (forall i, i <= n + 1 -> K i = V i) -> h = j -> highP p n F (V (n + 1)%Z) K h j = pt H (n - j).
Proof.
  intros Hj K h HK ->. pose proof HU as [Q1 Q2 _ _ _ _]. unfold highP.
  transitivity (F (win V (n - j) p)); [|unfold F; apply bl_knots; [lia|exact good_n|lia]].
  apply FPh; [|rewrite len_app2, len_rep2, len_win by lia; lia].
  replace (win V (n - j) p) with (win V (n - j) ((j + 1) + (p - 1 - j))) by (f_equal; lia). rewrite (win_app V (n - j)) by lia.
  rewrite (win_const V (n - j + (j + 1)) (p - 1 - j) (V (n + 1)%Z)). 2:{ intros r Hr. unfold V. apply Hhi. lia. }
  replace (win K (n - j) (j + 1)) with (win V (n - j) (j + 1)) by (apply win_ext; intros r Hr; symmetry; apply HK; lia). apply Permutation_app_comm.
Qed.

Lemma high_round i K kv cp : 0 <= i <= p - 2 -> high_inv i K -> arr kv (n + p + 2) K -> arr cp (n + 1) (fun a => if n - i <=? a then highP p n F (V (n + 1)%Z) K i (n - a) else pt H a) ->
  exists K', high_inv (i + 1) K' /\ wp (
    let! a := get kv (n + i + 1)%Z in
    let! b := get kv (p + i + 1)%Z in
    let! d := get kv (p + i)%Z in
    let! knotVector := upd kv (n + i + 2)%Z (a + (b - d))%R in
    let! controlPoints := for_down i 0 cp (fun j controlPoints =>
      let! un := get knotVector (n + 1)%Z in
      let! uj := get knotVector (n - j)%Z in
      let! ui := get knotVector (n - j + i + 2)%Z in
      let! alpha := Rdiv_ (un - uj) (ui - uj) in
      let! p := get controlPoints (n - j)%Z in
      let! q := get controlPoints (n - j - 1)%Z in
      let! r := xyzw_div (xyzw_sub p (xyzw_scale (1 - alpha)%R q)) alpha in
      upd controlPoints (n - j)%Z r) in
    Ok (knotVector, controlPoints)) (fun '(kv', cp') => arr kv' (n + p + 2) K' /\ arr cp' (n + 1) (fun a => if n - (i + 1) <=? a then highP p n F (V (n + 1)%Z) K' (i + 1) (n - a) else pt H a)).
Proof.
  intros Hi (I1 & I2 & I3) AK AC. pose proof HU as [Q1 Q2 Q3 Q4 Q5 Q6]. pose proof (tol_pos (val U n) (val U (n + 1)%Z)) as TP.
  set (x := (K (n + i + 1)%Z + (K (p + i + 1)%Z - K (p + i)%Z))%R). set (K' := fun a => if a =? n + i + 2 then x else K a).
  assert (KE : forall a, a <> n + i + 2 -> K' a = K a) by (intros a Ha; unfold K'; destruct (Z.eqb_spec a (n + i + 2)); [contradiction|reflexivity]).
  assert (KX : K' (n + i + 2)%Z = x) by (unfold K'; rewrite Z.eqb_refl; reflexivity).
  assert (G0 : (K (p + i)%Z <= K (p + i + 1)%Z)%R) by (apply I2; lia).
  assert (LI : high_inv (i + 1) K').
  { split; [|split].
    - intros a Ha. rewrite KE by lia. apply I1. lia.
    - intros a b Ha Hab Hb. destruct (Z.eq_dec b (n + i + 2)) as [->|Na].
      + rewrite KX. destruct (Z.eq_dec a (n + i + 2)) as [->|Nb]; [rewrite KX; lra|]. rewrite KE by lia. pose proof (I2 a (n + i + 1) ltac:(lia) ltac:(lia) ltac:(lia)). unfold x. lra.
      + rewrite !KE by lia. apply I2; lia.
    - intros a Ha. destruct (Z.eq_dec a i) as [->|Na]; [rewrite KX, !KE by lia; reflexivity|]. rewrite !KE by lia. apply I3. lia. }
  exists K'. split; [exact LI|]. destruct LI as (J1 & J2 & J3).
  wget AK. wget AK. wget AK. apply wp_bind. apply (arr_upd _ _ _ _ _ _ AK); [lia|]. intros kv' AK'. fold x in AK'. change (arr kv' (n + p + 2) K') in AK'.
  apply wp_bind. apply wp_for_down with (P := fun j cp => arr cp (n + 1) (fun a => if n - j <=? a then highP p n F (V (n + 1)%Z) K i (n - a) else if n - (i + 1) <=? a then highP p n F (V (n + 1)%Z) K' (i + 1) (n - a) else pt H a)); [lia| | |].
  - eapply arr_ext; [exact AC|]. intros a Ha. cbv beta. destruct (Z.leb_spec (n - i) a); [reflexivity|]. destruct (Z.leb_spec (n - (i + 1)) a); [|reflexivity]. replace a with (n - (i + 1)) by lia. replace (n - (n - (i + 1))) with (i + 1) by lia. symmetry. apply high_start; [lia| |reflexivity]. intros b Hb. apply J1. lia.
  - intros j cp' Hj Hcp. wget AK'. wget AK'. wget AK'.
    assert (KP : K' (n + 1)%Z = V (n + 1)%Z) by (apply J1; lia).
    assert (D1 : (K' (n + 1)%Z <= K' (n - j + i + 2)%Z)%R). { destruct (Z_le_dec (n + 1) (n - j + i + 2)); [apply J2; lia|lia]. }
    assert (D2 : (K' (n - j)%Z < K' (n + 1)%Z)%R). { rewrite !J1 by lia. unfold V. pose proof (Q4 (n - j) n ltac:(lia) ltac:(lia) ltac:(lia)). lra. }
    rewrite Rdiv_ok by lra. cbn [bind]. wget Hcp. wget Hcp. destruct (Z.leb_spec (n - j) (n - j)); [|lia]. destruct (Z.leb_spec (n - j) (n - j - 1)); [lia|]. destruct (Z.leb_spec (n - (i + 1)) (n - j - 1)); [|lia].
    replace (n - (n - j)) with j by lia. replace (n - (n - j - 1)) with (j + 1) by lia.
    assert (EL : highP p n F (V (n + 1)%Z) K i j = highP p n F (V (n + 1)%Z) K' i j). { unfold highP. f_equal. f_equal. apply win_ext. intros r Hr. symmetry. apply KE. lia. }
    assert (NA : ((K' (n + 1)%Z - K' (n - j)%Z) / (K' (n - j + i + 2)%Z - K' (n - j)%Z) <> 0)%R) by (apply Rgt_not_eq, Rdiv_lt_0_compat; lra).
    rewrite (solve_hi _ _ (highP p n F (V (n + 1)%Z) K' (i + 1)%Z j)); [|exact NA|]. 2:{ rewrite EL, KP. apply (high_step p n F FPh); [lia|lia|exact (Rlt_le_trans _ _ _ D2 D1)]. }
    cbn [bind]. apply (arr_upd _ _ _ _ _ _ Hcp); [lia|]. intros cp'' A''. eapply arr_ext; [exact A''|]. intros a Ha. cbv beta. destruct (Z.eqb_spec a (n - j)) as [->|Na].
    + destruct (Z.leb_spec (n - (j - 1)) (n - j)); [lia|]. destruct (Z.leb_spec (n - (i + 1)) (n - j)); [|lia]. replace (n - (n - j)) with j by lia. reflexivity.
    + destruct (Z.leb_spec (n - j) a), (Z.leb_spec (n - (j - 1)) a); try lia; reflexivity.
  - intros cp' Hcp. apply wp_ok. split; [exact AK'|]. eapply arr_ext; [exact Hcp|]. intros a Ha. cbv beta. destruct (Z.leb_spec (n - (0 - 1)) a); [lia|]. reflexivity.
Qed.

Lemma winh_split K m k : n - p + 1 <= m -> m <= k -> k <= n -> (forall i, i <= n + 1 -> K i = V i) ->
  Permutation (win K m p) ((win K m (k - m) ++ win K n (m + p - n)) ++ win V k (n - k)).
Proof.
  intros Hm Hk Hkn HK. replace (win K m p) with (win K m (k - m + ((n - k) + (m + p - n)))) by (f_equal; lia). rewrite win_app by lia. replace (m + (k - m)) with k by lia.
  rewrite (win_app K k (n - k)) by lia. replace (k + (n - k)) with n by lia. rewrite <- app_assoc. apply Permutation_app_head. replace (win V k (n - k)) with (win K k (n - k)) by (apply win_ext; intros r Hr; apply HK; lia). apply Permutation_app_comm.
Qed.

Lemma high_points K k m : (forall i, i <= n + 1 -> K i = V i) -> good V k p -> p <= k <= n -> k - p <= m <= k ->
  (if n - (p - 1) <=? m then highP p n F (V (n + 1)%Z) K (p - 1) (n - m) else pt H m) = bl V p (pt H) (win K m p) k.
Proof.
  intros HK Gk Hk Hm. destruct (Z.leb_spec (n - (p - 1)) m).
  - unfold highP. replace (p - 1 - (p - 1)) with 0 by lia. replace (p - 1 + 1) with p by lia. cbn [Z.to_nat repeat app]. replace (n - (n - m)) with m by lia. unfold F.
    apply (bl_transfer V k n p (pt H) _ (win K m (k - m) ++ win K n (m + p - n))); [lia|exact Gk|exact good_n|lia|lia| |apply winh_split; try assumption; lia].
    rewrite len_app2, !len_win by lia. lia.
  - replace (win K m p) with (win V m p) by (apply win_ext; intros r Hr; symmetry; apply HK; lia). symmetry. apply bl_knots; [lia|exact Gk|lia].
Qed.
End High.

(* knots with the same inner part *)
Lemma knots_change p n U U' : curve_knots p n U -> len U' = n + p + 2 -> sorted U' -> (forall i, p <= i <= n + 1 -> val U' i = val U i) -> curve_knots p n U'.
Proof.
  intros [A B C D E G] HL HS HE. constructor; [exact A|exact B|exact HL|exact HS| |].
  - rewrite (HE p), (HE (p + 1)) by lia. exact E.
  - destruct (Z.eq_dec n p) as [->|]; [rewrite (HE p), (HE (p + 1)) by lia; exact G|]. rewrite (HE n), (HE (n + 1)) by lia. exact G.
Qed.
Lemma span_change p n U U' t k : curve_knots p n U -> (forall i, p <= i <= n + 1 -> val U' i = val U i) -> span_of p n U t k -> span_of p n U' t k.
Proof. intros HU HE (K1 & K2 & K3 & K4). pose proof (ck_n _ _ _ HU). unfold span_of. rewrite !HE by lia. auto. Qed.

Lemma same_curve p n U U' H H' : 1 <= p -> curve_knots p n U -> len U' = n + p + 2 -> sorted U' -> (forall i, p <= i <= n + 1 -> val U' i = val U i) ->
  (forall k m, good (val U) k p -> p <= k <= n -> k - p <= m <= k -> pt H' m = bl (val U) p (pt H) (win (val U') m p) k) ->
  curve_knots p n U' /\ forall t, in_domain p n U t -> curve_point p n U' H' t = curve_point p n U H t.
Proof.
  intros Hp1 HU HL HS HE HP. pose proof (knots_change _ _ _ _ HU HL HS HE) as HU'. split; [exact HU'|]. intros t Ht. destruct (find_span _ _ _ _ HU Ht) as (k & _ & Hk).
  apply (refine_point p n U H n U' H' t k k HU HU' Hk); [exact (span_change p n U U' t k HU HE Hk)|]. intros m Hm. apply HP; [exact (span_of_good p n U t k HU Hk)|apply Hk|exact Hm].
Qed.

Lemma val_arr (l : list R) m f i : arr l m f -> 0 <= i < m -> val l i = f i.
Proof. intros A Hi. apply (arr_at_eq 0%R _ _ _ i A Hi). Qed.

Lemma sorted_arr (l : list R) m f : arr l m f -> (forall i j, 0 <= i -> i <= j -> j < m -> (f i <= f j)%R) -> sorted l.
Proof. intros A Hs i j Hi Hij Hj. rewrite (arr_len _ _ _ A) in Hj. rewrite !(val_arr _ _ _ _ A) by lia. apply Hs; lia. Qed.

Lemma Unclamp_ok p n U (H : list (XYZW R)) : 1 <= p -> curve_knots p n U -> len H = n + 1 ->
  (forall i, 0 <= i <= p -> val U i = val U p) -> (forall i, n + 1 <= i <= n + p + 1 -> val U i = val U (n + 1)) ->
  returns (ToUnclampCurve (mkCurve p U H)) (fun c => exists U' H', c = mkCurve p U' H' /\ curve_knots p n U' /\ len H' = n + 1 /\
    (forall i, p <= i <= n + 1 -> val U' i = val U i) /\
    (forall i, 0 <= i < p -> (val U' (p - i)%Z - val U' (p - i - 1)%Z = val U' (n - i + 1)%Z - val U' (n - i)%Z)%R) /\
    (forall i, 0 <= i < p -> (val U' (n + i + 2)%Z - val U' (n + i + 1)%Z = val U' (p + i + 1)%Z - val U' (p + i)%Z)%R) /\
    forall t, in_domain p n U t -> curve_point p n U' H' t = curve_point p n U H t).
Proof.
  intros Hp1 HU HH Hlo Hhi. pose proof HU as [Q1 Q2 Q3 Q4 Q5 Q6]. apply wp_elim. unfold ToUnclampCurve. cbn [Degree KnotVector ControlPoints]. rewrite HH. replace (n + 1 - 1) with n by lia.
  set (F := fun ts => bl (val U) p (pt H) ts p).
  apply wp_bind. apply wp_for_up with (P := fun h st => exists K, low_inv p n U h K /\ arr (fst st) (n + p + 2) K /\ arr (snd st) (n + 1) (fun j => if j <=? h then lowP p F (val U p) K h j else pt H j)); [lia| | |].
  { exists (val U). split; [|split].
    - split; [reflexivity|]. split; [intros i j Hi Hij Hj; apply Q4; lia|]. split; [intros; lia|reflexivity].
    - cbn [fst]. rewrite <- Q3. apply arr_at.
    - cbn [snd]. eapply arr_ext; [apply arr_pt; exact HH|]. intros j Hj. cbv beta. destruct (Z.leb_spec j 0); [|reflexivity]. assert (j = 0) as -> by lia. symmetry. apply (low_start p n U H Hp1 HU); auto; lia. }
  { intros i [kv cp] Hi (K & LI & AK & AC). cbn [fst snd] in *. destruct (low_round p n U H Hp1 HU Hlo i K kv cp ltac:(lia) LI AK AC) as (K' & LI' & W). eapply wp_mono; [exact W|]. intros [kv' cp'] [AK' AC']. exists K'. cbn [fst snd]. auto. }
  intros [kv cp] (K & (I1 & I2 & I3 & I4) & AK & AC). cbn [fst snd] in *. wget AK. wget AK. wget AK. apply wp_bind. apply (arr_upd _ _ _ _ _ _ AK); [lia|]. intros kv1 AK1.
  set (K1 := fun k => if k =? 0 then _ else K k) in AK1.
  assert (KE : forall a, a <> 0 -> K1 a = K a) by (intros a Ha; unfold K1; destruct (Z.eqb_spec a 0); [contradiction|reflexivity]).
  assert (KX : K1 0 = (K 1%Z - (K (n - p + 2)%Z - K (n - p + 1)%Z))%R) by reflexivity. clearbody K1.
  assert (S1 : forall i j, 0 <= i -> i <= j -> j < n + p + 2 -> (K1 i <= K1 j)%R).
  { intros i j Hi Hij Hj. destruct (Z.eq_dec j 0) as [->|Nj]; [assert (i = 0) as -> by lia; lra|]. rewrite (KE j Nj). destruct (Z.eq_dec i 0) as [->|Ni].
    - rewrite KX. pose proof (I2 1 j ltac:(lia) ltac:(lia) ltac:(lia)). pose proof (I2 (n - p + 1) (n - p + 2) ltac:(lia) ltac:(lia) ltac:(lia)). lra.
    - rewrite KE by exact Ni. apply I2; lia. }
  assert (P1 : forall i, p <= i -> K1 i = val U i) by (intros i Hi; rewrite KE by lia; apply I1; lia).
  assert (P2 : forall i, 0 <= i < p -> K1 (p - i - 1) = (K1 (p - i)%Z - (K1 (n - i + 1)%Z - K1 (n - i)%Z))%R).
  { intros i Hi. destruct (Z.eq_dec i (p - 1)) as [->|Ni].
    - replace (p - (p - 1) - 1) with 0 by lia. rewrite KX, !KE by lia. f_equal; [f_equal; lia|]. f_equal; f_equal; lia.
    - rewrite !KE by lia. apply I3. lia. }
  assert (E1 : forall i, 0 <= i < n + p + 2 -> val kv1 i = K1 i) by (intros i Hi; apply (val_arr _ _ _ _ AK1 Hi)).
  destruct (same_curve p n U kv1 H cp Hp1 HU) as (HU1 & C1).
  { apply (arr_len _ _ _ AK1). } { apply (sorted_arr _ _ _ AK1 S1). } { intros i Hi. rewrite E1 by lia. apply P1. lia. }
  { intros k m Gk Hk Hm. transitivity (bl (val U) p (pt H) (win K m p) k).
    - rewrite <- (low_points p n U H Hp1 HU K k m I1 Gk Hk Hm). pose proof (arr_at_eq vzero _ _ _ m AC ltac:(lia)) as E. exact E.
    - f_equal. apply win_ext. intros r Hr. rewrite E1 by lia. symmetry. apply KE. lia. }
  set (H1 := cp) in *. assert (HH1 : len H1 = n + 1) by apply (arr_len _ _ _ AC).
  assert (Hhi1 : forall i, n + 1 <= i <= n + p + 1 -> val kv1 i = val kv1 (n + 1)) by (intros i Hi; rewrite !E1, !P1 by lia; apply Hhi; lia).
  set (G := fun ts => bl (val kv1) p (pt H1) ts n).
  apply wp_bind. apply wp_for_up with (P := fun h st => exists K, high_inv p n kv1 h K /\ arr (fst st) (n + p + 2) K /\ arr (snd st) (n + 1) (fun a => if n - h <=? a then highP p n G (val kv1 (n + 1)) K h (n - a) else pt H1 a)); [lia| | |].
  { exists (val kv1). split; [|split].
    - split; [reflexivity|]. split; [intros i j Hi Hij Hj; apply (ck_sorted _ _ _ HU1); rewrite ?(ck_len _ _ _ HU1); lia|]. intros; lia.
    - cbn [fst]. rewrite <- (ck_len _ _ _ HU1). apply arr_at.
    - cbn [snd]. eapply arr_ext; [apply arr_pt; exact HH1|]. intros j Hj. cbv beta. destruct (Z.leb_spec (n - 0) j); [|reflexivity]. assert (j = n) as -> by lia. replace (n - n) with 0 by lia. symmetry. etransitivity; [apply (high_start p n kv1 H1 Hp1 HU1 Hhi1 0 ltac:(lia) (val kv1) 0); reflexivity|f_equal; lia]. }
  { intros i [kv2 cp2] Hi (K2 & LI & AK2 & AC2). cbn [fst snd] in *. destruct (high_round p n kv1 H1 Hp1 HU1 Hhi1 i K2 kv2 cp2 ltac:(lia) LI AK2 AC2) as (K' & LI' & W). eapply wp_mono; [exact W|]. intros [kv' cp'] [AK' AC']. exists K'. cbn [fst snd]. auto. }
  intros [kv2 cp2] (K2 & (J1 & J2 & J3) & AK2 & AC2). cbn [fst snd] in *. wget AK2. wget AK2. wget AK2. apply wp_bind. apply (arr_upd _ _ _ _ _ _ AK2); [lia|]. intros kv3 AK3.
  set (K3 := fun k => if k =? n + p + 1 then _ else K2 k) in AK3.
  assert (KE3 : forall a, a <> n + p + 1 -> K3 a = K2 a) by (intros a Ha; unfold K3; destruct (Z.eqb_spec a (n + p + 1)); [contradiction|reflexivity]).
  assert (KX3 : K3 (n + p + 1) = (K2 (n + p)%Z + (K2 (2 * p)%Z - K2 (2 * p - 1)%Z))%R) by (unfold K3; rewrite Z.eqb_refl; reflexivity). clearbody K3.
  assert (S3 : forall i j, 0 <= i -> i <= j -> j < n + p + 2 -> (K3 i <= K3 j)%R).
  { intros i j Hi Hij Hj. destruct (Z.eq_dec i (n + p + 1)) as [->|Ni]; [assert (j = n + p + 1) as -> by lia; lra|]. rewrite (KE3 i Ni). destruct (Z.eq_dec j (n + p + 1)) as [->|Nj].
    - rewrite KX3. pose proof (J2 i (n + p) ltac:(lia) ltac:(lia) ltac:(lia)). pose proof (J2 (2 * p - 1) (2 * p) ltac:(lia) ltac:(lia) ltac:(lia)). lra.
    - rewrite KE3 by exact Nj. apply J2; lia. }
  assert (E3 : forall i, 0 <= i < n + p + 2 -> val kv3 i = K3 i) by (intros i Hi; apply (val_arr _ _ _ _ AK3 Hi)).
  assert (L1 : forall i, 0 <= i <= n + 1 -> K3 i = K1 i) by (intros i Hi; rewrite KE3, J1 by lia; apply E1; lia).
  destruct (same_curve p n kv1 kv3 H1 cp2 Hp1 HU1) as (HU3 & C3).
  { apply (arr_len _ _ _ AK3). } { apply (sorted_arr _ _ _ AK3 S3). } { intros i Hi. rewrite E3, E1 by lia. apply L1. lia. }
  { intros k m Gk Hk Hm. transitivity (bl (val kv1) p (pt H1) (win K2 m p) k).
    - rewrite <- (high_points p n kv1 H1 Hp1 HU1 K2 k m J1 Gk Hk Hm). pose proof (arr_at_eq vzero _ _ _ m AC2 ltac:(lia)) as E. exact E.
    - f_equal. apply win_ext. intros r Hr. rewrite E3 by lia. symmetry. apply KE3. lia. }
  apply wp_ok. exists kv3, cp2. split; [reflexivity|]. split; [exact HU3|]. split; [apply (arr_len _ _ _ AC2)|]. split; [|split; [|split]].
  - intros i Hi. rewrite E3 by lia. rewrite L1 by lia. apply P1. lia.
  - intros i Hi. rewrite !E3, !L1 by lia. rewrite (P2 i Hi). ring.
  - intros i Hi. rewrite !E3 by lia. destruct (Z.eq_dec i (p - 1)) as [->|Ni].
    + replace (n + (p - 1) + 2) with (n + p + 1) by lia. rewrite KX3, !KE3 by lia. replace (n + (p - 1) + 1) with (n + p) by lia. replace (p + (p - 1) + 1) with (2 * p) by lia. replace (p + (p - 1)) with (2 * p - 1) by lia. ring.
    + rewrite !KE3 by lia. rewrite J3 by lia. ring.
  - intros t Ht. rewrite C3; [apply C1; exact Ht|]. destruct Ht. split; rewrite E1, P1 by lia; assumption.
Qed.
