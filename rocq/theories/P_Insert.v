(* Knot insertion. *)
From Coq Require Import ZArith List Bool Reals Lra Lia Permutation.
From Verif Require Import Base Num Vec Tac Spec M_MathUtils M_Polynomials M_Bspline M_NurbsCurve
  P_MathUtils P_Span P_Cox P_VSum P_Curve P_Bspline P_Blossom.
Import ListNotations.
Open Scope Z_scope.

(* domain side conditions of arrD_ext *)
Ltac dx := intros; cbv beta in *; first [exfalso; lia | split; [lia|reflexivity]].

Section Fun.
Context {T : Type} {V : Vec R T} {L : VecL T}.
Variables (U : Z -> R) (P : Z -> T) (p k s r : Z) (u : R).

(* de Boor table at u: column j, row i *)
Definition tab (j i : Z) : T := bl U p P (repeat u (Z.to_nat j)) i.

(* knots and control points after inserting u r times behind index k *)
Definition insU (i : Z) : R := if i <=? k then U i else if i <=? k + r then u else U (i - r).
Definition insP (m : Z) : T :=
  if m <=? k - p then P m
  else if k - s + r <=? m then P (m - r)
  else if m <? k - s then tab (Z.min (m - (k - p)) r) m
  else tab (Z.min (k - s + r - m) (p - s)) (k - s).

Hypothesis Hp : 0 <= p.
Hypothesis Hr : 1 <= r.
Hypothesis Hs : 0 <= s <= p.
Hypothesis Hsr : s + r <= p + 1.
Hypothesis Hu : forall i, k - s < i <= k -> U i = u.

Lemma tab_0 i : tab 0 i = P i.
Proof. reflexivity. Qed.

Lemma bl_snoc m d l t : bl U m d (l ++ [t]) = deB U (m - len l) (bl U m d l) t.
Proof. rewrite bl_app. reflexivity. Qed.

Lemma tab_succ j i : 1 <= j -> tab j i = deB U (p + 1 - j) (tab (j - 1)) u i.
Proof.
  intros Hj. unfold tab. replace (Z.to_nat j) with (Z.to_nat (j - 1) + 1)%nat by lia.
  rewrite repeat_app. cbn [repeat]. rewrite bl_snoc. unfold len. rewrite repeat_length.
  replace (p - Z.of_nat (Z.to_nat (j - 1))) with (p + 1 - j) by lia. reflexivity.
Qed.

Lemma tab_bl j i kk : 0 <= j <= p -> good U kk p -> kk - (p - j) <= i <= kk ->
  tab j i = bl U p P (repeat u (Z.to_nat j) ++ win U i (p - j)) kk.
Proof.
  intros Hj Hg Hi. assert (E : len (repeat u (Z.to_nat j)) = j) by (unfold len; rewrite repeat_length; lia).
  rewrite <- E at 3. rewrite bl_part; auto; rewrite E; lia.
Qed.

(* the new control points are values of the old polar form at the new knots *)
Lemma insP_bl kk kk' m : good U kk p -> (kk <= k /\ kk' = kk) \/ (k <= kk /\ kk' = kk + r) ->
  kk' - p <= m <= kk' -> insP m = bl U p P (win insU m p) kk.
Proof.
  intros Hg Hk Hm. unfold insP.
  destruct (Z.leb_spec m (k - p)) as [C1|C1].
  { rewrite <- tab_0. rewrite (tab_bl 0 m kk) by (auto; lia). cbn [Z.to_nat repeat app]. rewrite Z.sub_0_r.
    f_equal. apply win_ext. intros x Hx. unfold insU. destruct (Z.leb_spec (m + x) k); [reflexivity|lia]. }
  destruct (Z.leb_spec (k - s + r) m) as [C2|C2].
  { rewrite <- tab_0. rewrite (tab_bl 0 (m - r) kk) by (auto; lia). cbn [Z.to_nat repeat app]. rewrite Z.sub_0_r.
    f_equal. apply win_ext. intros x Hx. unfold insU. destruct (Z.leb_spec (m + x) k) as [D|D].
    - rewrite (Hu (m + x)) by lia. apply Hu. lia.
    - destruct (Z.leb_spec (m + x) (k + r)) as [E|E]; [apply Hu; lia|f_equal; lia]. }
  destruct (Z.ltb_spec m (k - s)) as [C3|C3].
  { set (j := Z.min (m - (k - p)) r). assert (Hj : 0 <= j <= p) by lia.
    rewrite (tab_bl j m kk) by (auto; lia). apply (bl_perm U kk); [|exact Hg|].
    2:{ unfold len. rewrite app_length, repeat_length, win_len. lia. }
    replace (win insU m p) with (win insU m ((k - m) + (j + (p - j - (k - m))))) by (f_equal; lia).
    rewrite win_app by lia. rewrite win_app by lia.
    replace (win U m (p - j)) with (win U m ((k - m) + (p - j - (k - m)))) by (f_equal; lia).
    rewrite win_app by lia. rewrite !app_assoc.
    rewrite (win_ext insU U m m (k - m)).
    2:{ intros x Hx. unfold insU. destruct (Z.leb_spec (m + x) k); [reflexivity|lia]. }
    rewrite (win_const insU (m + (k - m)) j u).
    2:{ intros x Hx. unfold insU. destruct (Z.leb_spec (m + (k - m) + x) k); [lia|]. destruct (Z.leb_spec (m + (k - m) + x) (k + r)); [reflexivity|lia]. }
    rewrite (win_ext insU U (m + (k - m) + j) (m + (k - m)) (p - j - (k - m))).
    2:{ intros x Hx. unfold insU. destruct (Z.leb_spec (m + (k - m) + j + x) k); [lia|].
        destruct (Z.leb_spec (m + (k - m) + j + x) (k + r)); [lia|f_equal; lia]. }
    apply Permutation_app_tail. apply Permutation_app_comm. }
  set (j := Z.min (k - s + r - m) (p - s)). assert (Hj : 0 <= j <= p) by lia.
  rewrite (tab_bl j (k - s) kk) by (auto; lia). f_equal.
  replace (win insU m p) with (win insU m ((j + s) + (p - j - s))) by (f_equal; lia). rewrite win_app by lia.
  replace (win U (k - s) (p - j)) with (win U (k - s) (s + (p - j - s))) by (f_equal; lia). rewrite win_app by lia.
  rewrite (win_const insU m (j + s) u).
  2:{ intros x Hx. unfold insU. destruct (Z.leb_spec (m + x) k); [apply Hu; lia|].
      destruct (Z.leb_spec (m + x) (k + r)); [reflexivity|lia]. }
  rewrite (win_const U (k - s) s u) by (intros x Hx; apply Hu; lia).
  rewrite app_assoc, <- repeat_app. f_equal; [f_equal; lia|].
  apply win_ext. intros x Hx. unfold insU. destruct (Z.leb_spec (m + (j + s) + x) k); [lia|].
  destruct (Z.leb_spec (m + (j + s) + x) (k + r)); [lia|f_equal; lia].
Qed.

End Fun.

(* ---------------- counting knots ---------------- *)

Lemma val_cons_0 x l : val (x :: l) 0 = x.
Proof. reflexivity. Qed.

Lemma val_cons x l i : 0 < i -> val (x :: l) i = val l (i - 1).
Proof. intros H. unfold val, at_. replace (Z.to_nat i) with (S (Z.to_nat (i - 1))) by lia. reflexivity. Qed.

Lemma len_cons {X} (x : X) l : len (x :: l) = len l + 1.
Proof. unfold len. cbn [length]. lia. Qed.

Lemma count_range (l : list R) u : forall lo hi, 0 <= lo <= hi -> hi <= len l ->
  (forall i, 0 <= i < lo -> val l i <> u) -> (forall i, lo <= i < hi -> val l i = u) ->
  (forall i, hi <= i < len l -> val l i <> u) ->
  Z.of_nat (count_occ Req_EM_T l u) = hi - lo.
Proof.
  induction l as [|x l IH]; intros lo hi Hlo Hhi H1 H2 H3.
  - unfold len in Hhi. cbn in *. lia.
  - rewrite len_cons in *. cbn [count_occ].
    assert (G : forall i, 0 <= i -> val l i = val (x :: l) (i + 1)) by (intros i Hi; rewrite val_cons by lia; f_equal; lia).
    destruct (Z.eq_dec lo 0) as [->|Hl].
    + destruct (Z.eq_dec hi 0) as [->|Hh].
      * destruct (Req_EM_T x u) as [E|E]; [exfalso; apply (H3 0); [pose proof (len_nonneg l); lia|exact E]|].
        apply (IH 0 0); try lia; [pose proof (len_nonneg l); lia|]. intros i Hi. rewrite G by lia. apply H3. lia.
      * destruct (Req_EM_T x u) as [E|E]; [|exfalso; apply E; exact (H2 0 ltac:(lia))].
        rewrite Nat2Z.inj_succ, (IH 0 (hi - 1)); try lia.
        -- intros i Hi. rewrite G by lia. apply H2. lia.
        -- intros i Hi. rewrite G by lia. apply H3. lia.
    + destruct (Req_EM_T x u) as [E|E]; [exfalso; apply (H1 0); [lia|exact E]|].
      rewrite (IH (lo - 1) (hi - 1)); try lia.
      * intros i Hi. rewrite G by lia. apply H1. lia.
      * intros i Hi. rewrite G by lia. apply H2. lia.
      * intros i Hi. rewrite G by lia. apply H3. lia.
Qed.

(* where the copies of u are, in a sorted knot vector *)
Lemma count_sorted (l : list R) u k : sorted l -> 0 <= k < len l - 1 -> (val l k <= u)%R -> (u < val l (k + 1))%R ->
  let s := Z.of_nat (count_occ Req_EM_T l u) in
  0 <= s <= k + 1 /\ (forall i, k - s < i <= k -> val l i = u) /\ (forall i, 0 <= i <= k - s -> (val l i < u)%R).
Proof.
  intros Hs Hk H1 H2.
  assert (W : exists j, 0 <= j <= k + 1 /\ (forall i, j <= i <= k -> val l i = u) /\ (forall i, 0 <= i < j -> (val l i < u)%R)).
  { assert (G : forall n : nat, Z.of_nat n <= k + 1 ->
       (exists j, 0 <= j <= Z.of_nat n /\ (forall i, j <= i < Z.of_nat n -> val l i = u) /\ (forall i, 0 <= i < j -> (val l i < u)%R))).
    { induction n as [|n IH]; intros Hn.
      - exists 0. repeat split; try lia; intros; lia.
      - destruct IH as (j & J1 & J2 & J3); [lia|].
        assert (Hle : (val l (Z.of_nat n) <= u)%R) by (pose proof (Hs (Z.of_nat n) k ltac:(lia) ltac:(lia) ltac:(lia)); lra).
        destruct (Rle_lt_or_eq_dec _ _ Hle) as [C|C].
        + exists (Z.of_nat (S n)). split; [lia|]. split; [intros; lia|]. intros i Hi.
          pose proof (Hs i (Z.of_nat n) ltac:(lia) ltac:(lia) ltac:(lia)). lra.
        + exists j. split; [lia|]. split; [|exact J3]. intros i Hi.
          destruct (Z.eq_dec i (Z.of_nat n)) as [->|]; [exact C|apply J2; lia]. }
    destruct (G (Z.to_nat (k + 1)) ltac:(lia)) as (j & J1 & J2 & J3). rewrite Z2Nat.id in * by lia.
    exists j. split; [lia|]. split; [|exact J3]. intros i Hi. apply J2. lia. }
  destruct W as (j & J1 & J2 & J3). cbv zeta.
  rewrite (count_range l u j (k + 1)); try lia.
  - split; [lia|]. split; [intros i Hi; apply J2; lia|intros i Hi; apply J3; lia].
  - intros i Hi E. specialize (J3 i Hi). lra.
  - intros i Hi. apply J2. lia.
  - intros i Hi E. pose proof (Hs (k + 1) i ltac:(lia) ltac:(lia) ltac:(lia)). lra.
Qed.

(* ---------------- std::sort ---------------- *)

Lemma sorted_tail x l : sorted (x :: l) -> sorted l.
Proof.
  intros H i j Hi Hij Hj. pose proof (H (i + 1) (j + 1) ltac:(lia) ltac:(lia) ltac:(rewrite len_cons; lia)) as G.
  rewrite !val_cons in G by lia. replace (i + 1 - 1) with i in G by lia. replace (j + 1 - 1) with j in G by lia. exact G.
Qed.

Lemma std_sort_sorted (l : list R) : sorted l -> std_sort l = l.
Proof.
  induction l as [|x l IH]; intros Hs; [reflexivity|]. cbn [std_sort]. rewrite IH by (apply (sorted_tail x); exact Hs).
  destruct l as [|y l]; [reflexivity|]. cbn [sort_insert]. change (nltb y x) with (Rltb y x).
  destruct (Rltb_spec y x) as [C|C]; [|reflexivity]. exfalso.
  pose proof (Hs 0 1 ltac:(lia) ltac:(lia) ltac:(rewrite !len_cons; pose proof (len_nonneg l); lia)) as G.
  change (x <= y)%R in G. lra.
Qed.

(* ---------------- the algorithm ---------------- *)
Section Alg.
Context {T : Type} {V : Vec R T} {L : VecL T}.

Lemma span_curve_bl k p U (P : list T) t : 0 <= p -> good (val U) k p ->
  span_curve k p U P t = bl (val U) p (pt P) (repeat t (Z.to_nat p)) k.
Proof. intros Hp Hg. unfold span_curve. apply bl_diag; auto. Qed.

Lemma span_of_good p n U t k : curve_knots p n U -> span_of p n U t k -> good (val U) k p.
Proof.
  intros [Hp Hn Hl Hs _ _] (Hk & Hlt & _ & _). split; [exact Hlt|]. intros i j Hi Hij Hj. apply Hs; lia.
Qed.

Lemma refine_point p n U (P : list T) n' U' Q t k k' : curve_knots p n U -> curve_knots p n' U' ->
  span_of p n U t k -> span_of p n' U' t k' ->
  (forall m, k' - p <= m <= k' -> pt Q m = bl (val U) p (pt P) (win (val U') m p) k) ->
  curve_point p n' U' Q t = curve_point p n U P t.
Proof.
  intros Hc Hc' Hk Hk' H. pose proof Hc as [Hp _ _ _ _ _].
  rewrite (curve_point_span _ _ _ _ _ _ Hc Hk), (curve_point_span _ _ _ _ _ _ Hc' Hk').
  pose proof (span_of_good _ _ _ _ _ Hc Hk) as G. pose proof (span_of_good _ _ _ _ _ Hc' Hk') as G'.
  rewrite !span_curve_bl by auto. apply polar_same; auto. unfold len. rewrite repeat_length. lia.
Qed.

(* number of copies really inserted *)
Definition inserted (p s times : Z) : Z := if p + 1 <? s + times then p - 1 - s else times.

Lemma blend_deB (U : Z -> R) m (d : Z -> T) t i :
  blend ((t - U i) / (U (i + m)%Z - U i))%R (d i) (d (i - 1)) = deB U m d t i.
Proof. reflexivity. Qed.

Lemma InsertKnot_arr p n U (P : list T) u times k res0 : curve_knots p n U -> len P = n + 1 -> 0 < times ->
  span_of p n U u k -> (u < val U (n + 1))%R ->
  (forall x, In x U -> (Rabs (u - x) <= tol u x)%R -> x = u) ->
  let s := Z.of_nat (count_occ Req_EM_T U u) in
  let r := inserted p s times in
  (r <= 0 -> InsertKnot (mkCurve p U P) u times res0 = Ok (0, res0)) /\
  (0 < r -> wp (InsertKnot (mkCurve p U P) u times res0) (fun '(r', c) => exists U' Q, r' = r /\ c = mkCurve p U' Q /\
     arr U' (n + p + 2 + r) (insU (val U) k r u) /\ arr Q (n + 1 + r) (insP (val U) (pt P) p k s r u))).
Proof.
  intros Hc HP Ht Hk Hun Hsep s r. pose proof Hc as [Hp Hn Hl Hsort _ _]. pose proof Hk as (Hkr & Hlt & Hku & Hku').
  assert (Hku1 : (u < val U (k + 1))%R) by (destruct Hku' as [?|[-> ->]]; lra). clear Hku'.
  pose proof (Hsort 0 k ltac:(lia) ltac:(lia) ltac:(lia)) as H0k. pose proof (Hsort (k + 1) (len U - 1) ltac:(lia) ltac:(lia) ltac:(lia)) as Hkl.
  assert (EM : GetKnotMultiplicity U u = Ok s) by (apply GetKnotMultiplicity_exact; auto; [lia|lra]).
  assert (ES : GetKnotSpanIndex p U u = Ok k) by (apply (find_span_eq p n); auto).
  destruct (count_sorted U u k Hsort ltac:(lia) Hku Hku1) as (Hs1 & Hs2 & Hs3). fold s in Hs1, Hs2, Hs3.
  unfold InsertKnot. cbn [Degree KnotVector ControlPoints]. destruct (Z.ltb_spec 0 times); [|lia]. cbn [validate bind].
  rewrite ES. cbn [bind]. rewrite EM. cbn [bind]. fold (inserted p s times). fold r.
  split.
  { intros Hr. destruct (Z.leb_spec r 0); [reflexivity|lia]. }
  intros Hr. destruct (Z.leb_spec r 0); [lia|].
  assert (Hsr : s + r <= p + 1) by (unfold r, inserted in *; destruct (Z.ltb_spec (p + 1) (s + times)); lia).
  assert (Hsp : s <= p) by lia. clearbody r s.
  assert (AU : arr U (n + p + 2) (val U)) by (rewrite <- Hl; apply arr_at). pose proof (arr_pt P _ HP) as AP.
  rewrite Hl.
  (* knots *)
  apply wp_bind. apply wp_mkvec; [lia|]. intros v Hv. apply wp_bind.
  apply wp_for_up with (P := fun h v => arrD v (n + p + 2 + r) (fun i => i < h) (insU (val U) k r u)); [lia| | |].
  { eapply arrD_ext; [apply arrD_of_arr with (D := fun _ => False); exact Hv|]; dx. }
  { intros i v' Hi Hv'. wget AU. eapply arrD_set; [exact Hv'|lia| | |intros v'' H''; exact H''].
    - unfold insU. destruct (Z.leb_spec i k); [reflexivity|lia].
    - dl. }
  clear v Hv. intros v Hv. apply wp_bind.
  apply wp_for_up with (P := fun h v => arrD v (n + p + 2 + r) (fun i => i < k + h) (insU (val U) k r u)); [lia| | |].
  { eapply arrD_ext; [exact Hv|]; dx. }
  { intros i v' Hi Hv'. eapply arrD_set; [exact Hv'|lia| | |intros v'' H''; exact H''].
    - unfold insU. destruct (Z.leb_spec (k + i) k); [lia|]. destruct (Z.leb_spec (k + i) (k + r)); [reflexivity|lia].
    - dl. }
  clear v Hv. intros v Hv. apply wp_bind.
  apply wp_for_up with (P := fun h v => arrD v (n + p + 2 + r) (fun i => i < h + r) (insU (val U) k r u)); [lia| | |].
  { eapply arrD_ext; [exact Hv|]; dx. }
  { intros i v' Hi Hv'. wget AU. eapply arrD_set; [exact Hv'|lia| | |intros v'' H''; exact H''].
    - unfold insU. destruct (Z.leb_spec (i + r) k); [lia|]. destruct (Z.leb_spec (i + r) (k + r)); [lia|f_equal; lia].
    - dl. }
  clear v Hv. intros v Hv. assert (HU' : arr v (n + p + 2 + r) (insU (val U) k r u)) by (eapply arr_of_arrD; [exact Hv|dl]).
  clear Hv.
  (* control points *)
  rewrite HP. apply wp_bind. apply wp_mkvec; [lia|]. intros q Hq. apply wp_bind.
  apply wp_for_up with (P := fun h q => arrD q (n + 1 + r) (fun i => i < h) (insP (val U) (pt P) p k s r u)); [lia| | |].
  { eapply arrD_ext; [apply arrD_of_arr with (D := fun _ => False); exact Hq|]; dx. }
  { intros i q' Hi Hq'. wget AP. eapply arrD_set; [exact Hq'|lia| | |intros q'' H''; exact H''].
    - unfold insP. destruct (Z.leb_spec i (k - p)); [reflexivity|lia].
    - dl. }
  clear q Hq. intros q Hq. apply wp_bind.
  apply wp_for_up with (P := fun h q => arrD q (n + 1 + r) (fun i => i <= k - p \/ k - s + r <= i < h + r) (insP (val U) (pt P) p k s r u)); [lia| | |].
  { eapply arrD_ext; [exact Hq|]; dx. }
  { intros i q' Hi Hq'. wget AP. eapply arrD_set; [exact Hq'|lia| | |intros q'' H''; exact H''].
    - unfold insP. destruct (Z.leb_spec (i + r) (k - p)); [lia|]. destruct (Z.leb_spec (k - s + r) (i + r)); [f_equal; lia|lia].
    - dl. }
  clear q Hq. intros q Hq.
  (* temp *)
  apply wp_bind. apply wp_mkvec; [lia|]. intros w Hw. apply wp_bind.
  set (tb := tab (val U) (pt P) p u).
  set (tv := fun j i => tb (Z.min j (p - s - i)) (k - p + Z.min j (p - s - i) + i)).
  apply wp_for_up with (P := fun h w => arrD w (p - s + 1) (fun i => i < h) (tv 0)); [lia| | |].
  { eapply arrD_ext; [apply arrD_of_arr with (D := fun _ => False); exact Hw|]; dx. }
  { intros i w' Hi Hw'. wget AP. eapply arrD_set; [exact Hw'|lia| | |intros w'' H''; exact H''].
    - unfold tv. replace (Z.min 0 (p - s - i)) with 0 by lia. unfold tb. rewrite tab_0. f_equal. lia.
    - dl. }
  clear w Hw. intros w Hw. apply arr_of_arrD in Hw; [|dl].
  (* rounds *)
  apply wp_bind.
  apply wp_for_up with (P := fun h '(w, q) => arr w (p - s + 1) (tv (h - 1)) /\
    arrD q (n + 1 + r) (fun i => i <= k - p + (h - 1) \/ k - s + r - Z.min (h - 1) (Z.max 0 (p - s - 1)) <= i) (insP (val U) (pt P) p k s r u)); [lia| | |].
  { split; [exact Hw|]. eapply arrD_ext; [exact Hq|]; dx. }
  { clear w q Hw Hq. intros j [w q] Hj [Hw Hq]. replace (j + 1 - 1) with j in * by lia. cbv beta iota.
    apply wp_bind.
    apply wp_for_up' with (P := fun h w => arr w (p - s + 1) (fun i => if i <? h then tv j i else tv (j - 1) i)).
    - eapply arr_ext; [exact Hw|]. intros i Hi. cbv beta. destruct (Z.ltb_spec i 0); [lia|reflexivity].
    - intros i w' Hi Hw'. wget AU. wget AU.
      change (ndiv (nsub u (val U (k - p + j + i))) (nsub (val U (i + k + 1)) (val U (k - p + j + i)))) with
        (Rdiv_ (u - val U (k - p + j + i)) (val U (i + k + 1) - val U (k - p + j + i))).
      assert (D : (val U (k - p + j + i) < val U (i + k + 1))%R).
      { pose proof (Hsort (k - p + j + i) k ltac:(lia) ltac:(lia) ltac:(lia)). pose proof (Hsort (k + 1) (i + k + 1) ltac:(lia) ltac:(lia) ltac:(lia)). lra. }
      rewrite Rdiv_ok by lra. cbn [bind]. wget Hw'. wget Hw'. wupd Hw'. intros w'' H''.
      eapply arr_ext; [exact H''|]. intros x Hx. cbv beta.
      destruct (Z.eqb_spec x i) as [->|Hne].
      + destruct (Z.ltb_spec i (i + 1)); [|lia]. destruct (Z.ltb_spec (i + 1) i); [lia|]. destruct (Z.ltb_spec i i); [lia|].
        unfold tv. rewrite !Z.min_l by lia. unfold tb. rewrite (tab_succ _ _ _ _ j) by lia.
        rewrite <- blend_deB. f_equal; f_equal; try lia; f_equal; f_equal; lia.
      + destruct (Z.ltb_spec x i), (Z.ltb_spec x (i + 1)); reflexivity || lia.
    - intros w' Hw'.
      assert (Hw2 : arr w' (p - s + 1) (tv j)).
      { eapply arr_ext; [exact Hw'|]. intros i Hi. cbv beta. destruct (Z.ltb_spec i (Z.max 0 (p - j - s + 1))); [reflexivity|].
        unfold tv. rewrite !Z.min_r by lia. reflexivity. }
      clear Hw' Hw. wget Hw2.
      apply wp_bind. eapply arrD_set with (D' := fun i => i <= k - p + j \/ k - s + r - Z.min (j - 1) (Z.max 0 (p - s - 1)) <= i); [exact Hq|lia| | |].
      { unfold insP, tv. destruct (Z.leb_spec (k - p + j) (k - p)); [lia|].
        destruct (Z.leb_spec (k - s + r) (k - p + j)) as [C|C].
        - assert (s = p /\ r = 1 /\ j = 1) as (-> & -> & ->) by lia. replace (Z.min 1 (p - p - 0)) with 0 by lia. unfold tb. rewrite tab_0. f_equal. lia.
        - unfold tb. destruct (Z.ltb_spec (k - p + j) (k - s)); f_equal; lia. }
      { dl. }
      clear q Hq. intros q Hq. apply wp_bind. destruct (Z.ltb_spec 0 (p - j - s)) as [C|C].
      + wget Hw2. eapply arrD_set with (D' := fun i => i <= k - p + j \/ k - s + r - Z.min j (Z.max 0 (p - s - 1)) <= i); [exact Hq|lia| | |].
        { unfold insP, tv, tb. destruct (Z.leb_spec (k + r - j - s) (k - p)); [lia|]. destruct (Z.leb_spec (k - s + r) (k + r - j - s)); [lia|].
          destruct (Z.ltb_spec (k + r - j - s) (k - s)); [lia|]. f_equal; lia. }
        { dl. }
        intros q' Hq'. split; [exact Hw2|]. exact Hq'.
      + split; [exact Hw2|]. eapply arrD_ext; [exact Hq|]; dx. }
  clear w q Hw Hq. intros [w q] [Hw Hq]. replace (r + 1 - 1) with r in * by lia. cbv beta iota.
  apply wp_bind.
  apply wp_for_up' with (P := fun h q => arrD q (n + 1 + r) (fun i => i < h \/ k - s + r - Z.min r (Z.max 0 (p - s - 1)) <= i) (insP (val U) (pt P) p k s r u)).
  { eapply arrD_ext; [exact Hq|]; dx. }
  { intros i q' Hi Hq'. wget Hw. eapply arrD_set; [exact Hq'|lia| | |intros q'' H''; exact H''].
    - unfold insP, tv, tb. destruct (Z.leb_spec i (k - p)); [lia|]. destruct (Z.leb_spec (k - s + r) i); [lia|].
      destruct (Z.ltb_spec i (k - s)); [|lia]. f_equal; lia.
    - dl. }
  clear q Hq. intros q Hq. cbn [wp]. exists (std_sort v), q. split; [reflexivity|]. split; [reflexivity|]. split.
  - rewrite std_sort_sorted; [exact HU'|]. intros i j Hi Hij Hj. rewrite (arr_len _ _ _ HU') in Hj.
    unfold val. rewrite !(arr_at_eq 0%R v _ _ _ HU') by lia. unfold insU.
    destruct (Z.leb_spec i k), (Z.leb_spec j k); try lia; [apply Hsort; lia| |].
    + destruct (Z.leb_spec j (k + r)).
      * pose proof (Hsort i k ltac:(lia) ltac:(lia) ltac:(lia)). lra.
      * apply Hsort; lia.
    + destruct (Z.leb_spec i (k + r)), (Z.leb_spec j (k + r)); try lia; [lra| |apply Hsort; lia].
      pose proof (Hsort (k + 1) (j - r) ltac:(lia) ltac:(lia) ltac:(lia)). lra.
  - eapply arr_of_arrD; [exact Hq|]. dl.
Qed.
End Alg.
