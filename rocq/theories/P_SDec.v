(* Decomposition of a surface into Bezier patches: one direction of the net. *)
From Coq Require Import ZArith List Bool Reals Lra Lia Permutation.
From Verif Require Import Base Num Vec Tac Spec Spec2 Spec4 M_MathUtils M_Polynomials M_XYZ M_Bspline M_NurbsCurve M_Knots M_Curve2 M_Surface M_Area
  P_MathUtils P_Span P_Cox P_Basis P_VSum P_Curve P_Bspline P_BsplineS P_Loop P_Blossom P_Insert P_Insert2 P_Refine P_Reverse P_Split P_Merge P_Decomp.
Import ListNotations.
Open Scope Z_scope.

(* the spans of the knots that are not empty, of those from p up to i *)
Definition strict (U : list R) (a : Z) : bool := if Rlt_dec (val U a) (val U (a + 1)) then true else false.
Definition spans (p : Z) (U : list R) (i : Z) : list Z := filter (strict U) (mklist (i - p) (fun k => p + k)).

Lemma mklist_snoc {X} n (f : Z -> X) : 0 <= n -> mklist (n + 1) f = mklist n f ++ [f n].
Proof.
  intros H. apply (arr_inj _ _ (n + 1) f); [apply arr_mklist; lia|]. apply arr_snoc; [apply arr_mklist; lia|reflexivity].
Qed.
Lemma spans_0 p U : spans p U p = [].
Proof. unfold spans. rewrite Z.sub_diag. reflexivity. Qed.
Lemma spans_succ p U i : p <= i -> spans p U (i + 1) = spans p U i ++ (if strict U i then [i] else []).
Proof.
  intros H. unfold spans. replace (i + 1 - p) with (i - p + 1) by lia. rewrite mklist_snoc by lia. rewrite filter_app. cbn [filter]. replace (p + (i - p)) with i by lia. reflexivity.
Qed.
Lemma spans_run p U a b : p <= a -> (val U a < val U (a + 1))%R -> a + 1 <= b -> (forall j, a + 1 <= j <= b -> val U j = val U (a + 1)) -> spans p U b = spans p U a ++ [a].
Proof.
  intros Ha Hlt Hb He.
  assert (G : forall d, (Z.of_nat d <= b - a - 1) -> spans p U (a + 1 + Z.of_nat d) = spans p U a ++ [a]).
  { induction d as [|d IH]; intros Hd.
    - replace (a + 1 + Z.of_nat 0) with (a + 1) by lia. rewrite spans_succ by lia. unfold strict. destruct (Rlt_dec _ _); [reflexivity|contradiction].
    - replace (a + 1 + Z.of_nat (S d)) with (a + 1 + Z.of_nat d + 1) by lia. rewrite spans_succ by lia. rewrite IH by lia. unfold strict.
      destruct (Rlt_dec _ _) as [C|]; [|apply app_nil_r]. rewrite (He (a + 1 + Z.of_nat d)), (He (a + 1 + Z.of_nat d + 1)) in C by lia. lra. }
  specialize (G (Z.to_nat (b - a - 1)) ltac:(lia)). rewrite <- G. f_equal. lia.
Qed.
Lemma spans_len p U i : p <= i -> len (spans p U i) <= i - p.
Proof.
  intros H. assert (G : forall d, len (spans p U (p + Z.of_nat d)) <= Z.of_nat d).
  { induction d as [|d IH]; [replace (p + Z.of_nat 0) with p by lia; rewrite spans_0; cbn; lia|].
    replace (p + Z.of_nat (S d)) with (p + Z.of_nat d + 1) by lia. rewrite spans_succ by lia. rewrite len_app. destruct (strict U (p + Z.of_nat d)); cbn; lia. }
  specialize (G (Z.to_nat (i - p))). replace (p + Z.of_nat (Z.to_nat (i - p))) with i in G by lia. lia.
Qed.
Lemma spans_In p U i a : p <= i -> In a (spans p U i) <-> p <= a < i /\ (val U a < val U (a + 1))%R.
Proof.
  intros Hi. unfold spans. rewrite filter_In. unfold mklist, strict. rewrite in_map_iff. split.
  - intros ((k & <- & Hk) & E). apply in_seq in Hk. destruct (Rlt_dec _ _); [|discriminate]. split; [lia|assumption].
  - intros (H & Hlt). split; [exists (Z.to_nat (a - p)); split; [lia|apply in_seq; lia]|]. destruct (Rlt_dec _ _); [reflexivity|contradiction].
Qed.

Lemma at_snoc_l (B : list Z) x i : 0 <= i < len B -> at_ 0 (B ++ [x]) i = at_ 0 B i.
Proof. intros H. assert (E : get (B ++ [x]) i = get B i) by (apply get_app_l; exact H). rewrite (get_at 0 (B ++ [x])), (get_at 0 B) in E by (rewrite ?len_app; cbn; lia). congruence. Qed.
Lemma at_snoc_r (B : list Z) x : at_ 0 (B ++ [x]) (len B) = x.
Proof. assert (E : get (B ++ [x]) (len B) = Ok x) by (rewrite get_app_r by lia; rewrite Z.sub_diag; reflexivity). rewrite (get_at 0) in E by (rewrite len_app; pose proof (len_nonneg B); cbn; lia). congruence. Qed.

Lemma get_In {X} (l : list X) i x : get l i = Ok x -> In x l.
Proof. unfold get. destruct (i <? 0); [discriminate|]. destruct (nth_error l (Z.to_nat i)) eqn:E; [|discriminate]. intros H. injection H as <-. exact (nth_error_In _ _ E). Qed.

Section Gen.
Context {T : Type} {V : Vec R T} {L : VecL T}.
Variables (p n : Z) (U : list R).
Hypothesis HU : curve_knots p n U.
Hypothesis Hcl : clamped_knots p n U.
Hypothesis Hap : forall x y, In x U -> In y U -> apart x y.
Hypothesis Hmul : forall x, (val U p < x < val U (n + 1))%R -> occ U x <= p.
Let m := n + p + 1.
Let HL := ck_len _ _ _ HU.
Let HS := ck_sorted _ _ _ HU.

Lemma sdec_run_ok b (Q : Z -> Prop) : 0 <= b <= m ->
  (forall b', b <= b' <= m -> (forall j, b <= j <= b' -> val U j = val U b) -> b' = m \/ (b' < m /\ (val U b' < val U (b' + 1))%R) -> Q b') ->
  wp (sdec_run (length U) m U b) Q.
Proof.
  pose proof (ck_p _ _ _ HU) as pu. pose proof (ck_n _ _ _ HU) as nu. intros Hb HQ. unfold sdec_run.
  apply wp_while with (I := fun x => b <= x <= m /\ forall j, b <= j <= x -> val U j = val U b) (mu := fun x => Z.to_nat (m - x)).
  - split; [lia|]. intros j Hj. replace j with b by lia. reflexivity.
  - unfold len in HL. unfold m in *. lia.
  - intros x [Hx He]. destruct (Z.ltb_spec x m).
    + pose proof (AU _ _ _ HU) as AU. fold m in AU. wget AU. wget AU.
      assert (E0 : IsLessThanOrEqual (val U (x + 1)) (val U x) = if Req_EM_T (val U (x + 1)) (val U x) then true else false).
      { pose proof (HS x (x + 1) ltac:(lia) ltac:(lia) ltac:(rewrite HL; unfold m in *; lia)) as S1.
        pose proof (Hap (val U (x + 1)) (val U x) ltac:(apply val_In; rewrite HL; unfold m in *; lia) ltac:(apply val_In; rewrite HL; unfold m in *; lia)) as A1.
        pose proof (tol_pos (val U (x + 1)) (val U x)) as TP. destruct (Req_EM_T (val U (x + 1)) (val U x)) as [E | E].
        - apply le_iff. rewrite <- tol_thr. lra.
        - apply le_false. rewrite <- tol_thr. destruct A1 as [A1|A1]; [contradiction|]. rewrite Rabs_pos_eq in A1 by lra. lra. }
      rewrite E0. destruct (Req_EM_T (val U (x + 1)) (val U x)) as [E|E]; cbn [wp].
      * split; [|lia]. split; [lia|]. intros j Hj. destruct (Z.eq_dec j (x + 1)) as [->|]; [rewrite E; apply He; lia|apply He; lia].
      * apply HQ; auto. right. split; [lia|]. pose proof (HS x (x + 1) ltac:(lia) ltac:(lia) ltac:(rewrite HL; unfold m in *; lia)). lra.
    + cbn [wp]. apply HQ; auto. left. lia.
Qed.

Lemma sdec_alphas_ok a b La al (Q : list R -> Prop) : p <= a <= n -> (val U a < val U (a + 1))%R -> a + 1 <= b <= n -> b - a <= p -> len al = La -> p + 1 <= La ->
  (forall al', len al' = La -> (forall x, 0 <= x <= p - (b - a) - 1 -> get al' x = Ok ((val U b - val U a) / (val U (a + (x + (b - a) + 1)) - val U a))%R) -> Q al') ->
  wp (sdec_alphas p (b - a) a b U al) Q.
Proof.
  pose proof (ck_p _ _ _ HU) as pu. intros Ha Hlt Hb Hm El HLa HQ. unfold sdec_alphas. pose proof (AU _ _ _ HU) as AU. fold m in AU. assert (Em : m = n + p + 1) by reflexivity. wget AU. wget AU. num. set (mu := b - a) in *.
  set (alf := fun x => ((val U b - val U a) / (val U (a + (x + mu + 1)) - val U a))%R).
  apply wp_for_down with (P := fun k v => arrD v La (fun x => k - mu <= x <= p - mu - 1) alf); [lia| | |].
  { split; [exact El|]. intros; lia. }
  { intros k v Hk Hv. wget AU.
    pose proof (HS (a + 1) (a + k) ltac:(lia) ltac:(unfold mu in *; lia) ltac:(rewrite HL; lia)). rewrite Rdiv_ok by lra. cbn [bind].
    eapply arrD_set; [exact Hv|unfold mu in *; lia| | |intros v' Hv'; exact Hv'].
    - unfold alf. replace (k - mu - 1 + mu + 1) with k by lia. reflexivity.
    - dl. }
  intros v Hv. apply HQ; [apply Hv|]. intros x Hx. apply (arrD_get _ _ _ _ _ Hv); unfold mu in *; lia.
Qed.

(* the stored points are read and written at (patch, place along the direction, line across) *)
Context {X : Type}.
Variables (C N : Z) (Gt : X -> Z -> Z -> Z -> res T) (Wr : X -> Z -> Z -> Z -> T -> res X) (Rp : X -> (Z -> Z -> Z -> T) -> Prop).
Hypothesis HC : 0 <= C.
Hypothesis Gt_ok : forall bz F x k c, Rp bz F -> 0 <= x < N -> 0 <= k <= p -> 0 <= c < C -> Gt bz x k c = Ok (F x k c).
Hypothesis Wr_ok : forall bz F x k c y, Rp bz F -> 0 <= x < N -> 0 <= k <= p -> 0 <= c < C ->
  wp (Wr bz x k c y) (fun bz' => Rp bz' (fun x' k' c' => if (x' =? x) && (k' =? k) && (c' =? c) then y else F x' k' c')).

Definition RD (bz : X) (D : Z -> Z -> Z -> Prop) (g : Z -> Z -> Z -> T) : Prop :=
  exists F, Rp bz F /\ forall x k c, 0 <= x < N -> 0 <= k <= p -> 0 <= c < C -> D x k c -> F x k c = g x k c.

Lemma RD_get bz D g x k c : RD bz D g -> 0 <= x < N -> 0 <= k <= p -> 0 <= c < C -> D x k c -> Gt bz x k c = Ok (g x k c).
Proof. intros (F & HF & E) Hx Hk Hc Hd. rewrite (Gt_ok _ _ _ _ _ HF Hx Hk Hc). f_equal. apply E; assumption. Qed.

Lemma RD_ext bz (D D' : Z -> Z -> Z -> Prop) g g' : RD bz D g -> (forall x k c, 0 <= x < N -> 0 <= k <= p -> 0 <= c < C -> D' x k c -> D x k c /\ g x k c = g' x k c) -> RD bz D' g'.
Proof. intros (F & HF & E) H. exists F. split; [exact HF|]. intros x k c Hx Hk Hc Hd. destruct (H x k c Hx Hk Hc Hd) as (A & <-). apply E; assumption. Qed.

Lemma RD_upd bz D g x k c y (Q : X -> Prop) : RD bz D g -> 0 <= x < N -> 0 <= k <= p -> 0 <= c < C ->
  (forall bz', RD bz' (fun x' k' c' => (x' = x /\ k' = k /\ c' = c) \/ D x' k' c') (fun x' k' c' => if (x' =? x) && (k' =? k) && (c' =? c) then y else g x' k' c') -> Q bz') ->
  wp (Wr bz x k c y) Q.
Proof.
  intros (F & HF & E) Hx Hk Hc HQ. eapply wp_mono; [apply (Wr_ok _ _ x k c y HF); assumption|]. cbv beta. intros bz' HF'. apply HQ. eexists. split; [exact HF'|].
  intros x' k' c' Hx' Hk' Hc' Hd. cbv beta. destruct (Z.eqb_spec x' x), (Z.eqb_spec k' k), (Z.eqb_spec c' c); cbn [andb]; try reflexivity; apply E; try assumption; destruct Hd as [Hd|Hd]; try exact Hd; lia.
Qed.

(* a loop over the lines that writes one place of one patch *)
Lemma loop_row bz D g x k f body (Q : X -> Prop) : RD bz D g -> 0 <= x < N -> 0 <= k <= p ->
  (forall c b', 0 <= c < C -> RD b' D (fun x' k' c' => if (x' =? x) && (k' =? k) && (c' <? c) then f c' else g x' k' c') -> body c b' = Wr b' x k c (f c)) ->
  (forall b', RD b' (fun x' k' c' => (x' = x /\ k' = k) \/ D x' k' c') (fun x' k' c' => if (x' =? x) && (k' =? k) then f c' else g x' k' c') -> Q b') ->
  wp (for_up 0 C bz body) Q.
Proof.
  intros H Hx Hk Hb HQ.
  apply wp_for_up with (P := fun c b' => RD b' (fun x' k' c' => (x' = x /\ k' = k /\ c' < c) \/ D x' k' c') (fun x' k' c' => if (x' =? x) && (k' =? k) && (c' <? c) then f c' else g x' k' c')); [exact HC| | |].
  - eapply RD_ext; [exact H|]. intros x' k' c' Hx' Hk' Hc' Hd. split; [destruct Hd as [Hd|Hd]; [lia|exact Hd]|]. destruct (Z.ltb_spec c' 0); [lia|]. rewrite andb_false_r. reflexivity.
  - intros c b' Hc Hb'. rewrite Hb; [|lia|].
    + eapply RD_upd; [exact Hb'|lia|lia|lia|]. intros b'' Hb''. eapply RD_ext; [exact Hb''|]. intros x' k' c' Hx' Hk' Hc' Hd. cbv beta. split.
      * destruct Hd as [Hd|Hd]; [|tauto]. destruct (Z.eq_dec c' c); [left; lia|]. right. left. lia.
      * destruct (Z.eqb_spec x' x), (Z.eqb_spec k' k); cbn [andb]; try reflexivity. destruct (Z.ltb_spec c' (c + 1)), (Z.ltb_spec c' c), (Z.eqb_spec c' c) as [E1|E1]; try lia; try reflexivity; rewrite E1; reflexivity.
    + eapply RD_ext; [exact Hb'|]. intros x' k' c' Hx' Hk' Hc' Hd. split; [right; exact Hd|reflexivity].
  - intros b' Hb'. apply HQ. eapply RD_ext; [exact Hb'|]. intros x' k' c' Hx' Hk' Hc' Hd. cbv beta. split.
    + destruct Hd as [Hd|Hd]; [left; lia|right; exact Hd].
    + destruct (Z.ltb_spec c' C); [|lia]. rewrite andb_true_r. reflexivity.
Qed.

Variables (src : Z -> Z -> res T) (Pc : Z -> list T).
Hypothesis src_ok : forall i c, 0 <= i <= n -> 0 <= c < C -> src i c = Ok (pt (Pc c) i).
Notation cur c := (cur p U (Pc c)).
Notation fin c := (fin p U (Pc c)).
Notation mid c := (mid p U (Pc c)).

Definition gen_body (s : X * list R * Z * Z * Z) : res (X * list R * Z * Z * Z) :=
  let '(bz, alphaVector, a, b, nb) := s in
  let i := b in
  let! b := sdec_run (length U) m U b in
  let multi := b - i + 1 in
  let! r :=
    if multi <? p then
      let! alphaVector := sdec_alphas p multi a b U alphaVector in
      let r := p - multi in
      let! bz := for_up 1 (r + 1) bz (fun j bz =>
        let save := r - j in
        let s := multi + j in
        let! bz := for_down p s bz (fun k bz =>
          let! alpha := get alphaVector (k - s) in
          for_up 0 C bz (fun col bz =>
            let! x := Gt bz nb k col in
            let! y := Gt bz nb (k - 1) col in
            Wr bz nb k col (blend alpha x y))) in
        if b <? m then
          for_up 0 C bz (fun col bz =>
            let! x := Gt bz nb p col in
            Wr bz (nb + 1) save col x)
        else Ok bz) in
      Ok (bz, alphaVector)
    else Ok (bz, alphaVector) in
  let '(bz, alphaVector) := r in
  let nb := nb + 1 in
  if b <? m then
    let! bz := for_up (p - multi) (p + 1) bz (fun i bz =>
      for_up 0 C bz (fun col bz =>
        let! x := src (b - p + i) col in
        Wr bz nb i col x)) in
    Ok (bz, alphaVector, b, b + 1, nb)
  else Ok (bz, alphaVector, a, b, nb).

Definition after bz' (g : Z -> Z -> Z -> T) a b nb := RD bz' (fun x _ _ => x <= nb + 1) (fun x k c => if x <? nb then g x k c else if x =? nb then fin c a k else cur c b k).

Lemma gen_step bz al g a nb La : p <= a <= n -> (val U a < val U (a + 1))%R -> 0 <= nb -> nb + (n - a) < N -> len al = La -> p + 1 <= La ->
  RD bz (fun x _ _ => x <= nb) g -> (forall k c, 0 <= k <= p -> 0 <= c < C -> g nb k c = cur c a k) ->
  wp (gen_body (bz, al, a, a + 1, nb)) (fun '(bz', al', a', b', nb') => nb' = nb + 1 /\ len al' = La /\
    ((b' = m /\ a' = a /\ a = n /\ RD bz' (fun x _ _ => x <= nb) (fun x k c => if x <? nb then g x k c else fin c n k)) \/
     (a + 1 <= a' <= n /\ b' = a' + 1 /\ (val U a' < val U (a' + 1))%R /\ (forall j, a + 1 <= j <= a' -> val U j = val U (a + 1)) /\ after bz' g a a' nb))).
Proof.
  pose proof (ck_p _ _ _ HU) as pu. pose proof (ck_n _ _ _ HU) as nu. assert (Em : m = n + p + 1) by reflexivity.
  intros Ha Hlt Hnb HN El HLa Hbz Hcur. unfold gen_body. apply wp_bind. apply sdec_run_ok; [lia|]. intros b Hb He Hor.
  replace (b - (a + 1) + 1) with (b - a) by lia.
  destruct (run_cases p n U HU Hcl a b Ha Hlt ltac:(fold m; lia) He Hor) as [(Eb & Ea)|(Hbn & Hocc & Hin & Hb1)].
  { fold m in Eb. rewrite Eb, Ea. rewrite (proj2 (Z.ltb_ge (m - n) p)) by lia. cbn [bind]. rewrite Z.ltb_irrefl. cbn [wp]. split; [reflexivity|]. split; [exact El|]. left.
    split; [reflexivity|]. split; [reflexivity|]. split; [reflexivity|]. eapply RD_ext; [exact Hbz|]. intros x k c Hx Hk Hc Hd. split; [exact Hd|]. destruct (Z.ltb_spec x nb); [reflexivity|].
    replace x with nb by (cbv beta in *; lia). rewrite Hcur by lia. rewrite Ea. unfold P_Decomp.cur, P_Decomp.fin. do 2 f_equal. apply win_const. intros r Hrr.
    rewrite (last_run p n U HU Hcl (n + r)), (last_run p n U HU Hcl (n + 1)) by lia. reflexivity. }
  pose proof (Hmul _ Hin) as Hm. rewrite Hocc in Hm. assert (Hbm : b < m) by lia. rewrite (proj2 (Z.ltb_lt b m)) by exact Hbm.
  assert (Hbr : a + 1 <= b <= n) by lia. set (mu := b - a) in *.
  (* what the first part leaves *)
  apply wp_bind.
  apply wp_mono with (P := fun r => len (snd r) = La /\ RD (fst r) (fun x k _ => x <= nb \/ (x = nb + 1 /\ k < p - mu)) (fun x k c => if x <? nb then g x k c else if x =? nb then fin c a k else cur c b k)).
  2:{ intros [bz1 al1] (L1 & H1). cbn [fst snd] in *. cbv zeta. apply wp_bind.
    apply wp_for_up with (P := fun i bz => RD bz (fun x k _ => x <= nb \/ (x = nb + 1 /\ k < i)) (fun x k c => if x <? nb then g x k c else if x =? nb then fin c a k else cur c b k)); [lia|exact H1| |].
    - intros i bi Hi Hbi. eapply (loop_row _ _ _ (nb + 1) i (fun c => cur c b i)); [exact Hbi|lia|lia| |].
      + intros c b' Hc _. rewrite src_ok by lia. cbn [bind]. f_equal. symmetry. apply (cur_next p n U (Pc c) HU a b Ha Hbr He Hb1 Hm). unfold mu in *. lia.
      + intros b' Hb'. eapply RD_ext; [exact Hb'|]. intros x k c Hx Hk Hc Hd. cbv beta in *. split; [lia|].
        destruct (Z.eqb_spec x (nb + 1)) as [->|]; [|reflexivity]. destruct (Z.eqb_spec k i) as [->|]; [|reflexivity]. cbn [andb].
        destruct (Z.ltb_spec (nb + 1) nb); [lia|]. destruct (Z.eqb_spec (nb + 1) nb); [lia|reflexivity].
    - intros bz2 H2. cbn [wp]. split; [reflexivity|]. split; [exact L1|]. right. split; [exact Hbr|]. split; [reflexivity|]. split; [exact Hb1|]. split; [exact He|].
      unfold after. eapply RD_ext; [exact H2|]. intros x k c Hx Hk Hc Hd. cbv beta in *. split; [lia|reflexivity]. }
  destruct (Z.ltb_spec mu p) as [Hmp|Hmp].
  2:{ cbn [wp fst snd]. split; [exact El|]. eapply RD_ext; [exact Hbz|]. intros x k c Hx Hk Hc Hd. cbv beta in *. split; [lia|]. destruct (Z.ltb_spec x nb); [reflexivity|].
      assert (x = nb) as -> by lia. rewrite Z.eqb_refl. rewrite Hcur by lia. rewrite <- (mid_0 p n U (Pc c) a b Hbr He k) by lia.
      replace 0 with (p - (b - a)) by (unfold mu in *; lia). apply mid_end; [exact n|lia]. }
  apply wp_bind. apply (sdec_alphas_ok a b La al _ Ha Hlt Hbr ltac:(lia) El HLa). intros al' L' Hal. fold mu in Hal. cbv zeta. apply wp_bind.
  set (Gj := fun j x k c => if x <? nb then g x k c else if x =? nb then mid c a b (j - 1) k else cur c b k).
  set (Dj := fun j (x k _ : Z) => x <= nb \/ (x = nb + 1 /\ p - mu - (j - 1) <= k < p - mu)).
  apply wp_for_up with (P := fun j bz => RD bz (Dj j) (Gj j)); [lia| | |].
  { eapply RD_ext; [exact Hbz|]. intros x k c Hx Hk Hc Hd. unfold Dj, Gj in *. cbv beta in *. split; [lia|]. destruct (Z.ltb_spec x nb); [reflexivity|].
    assert (x = nb) as -> by lia. rewrite Z.eqb_refl. rewrite Hcur by lia. symmetry. apply (mid_0 p n U (Pc c) a b Hbr He). lia. }
  { intros j bj Hj Hbj. apply wp_bind.
    set (G' := fun k x k' c => if x <? nb then g x k' c else if x =? nb then (if k <? k' then mid c a b j k' else mid c a b (j - 1) k') else cur c b k').
    apply wp_for_down with (P := fun k bz => RD bz (Dj j) (G' k)); [lia| | |].
    { eapply RD_ext; [exact Hbj|]. intros x k c Hx Hk Hc Hd. split; [exact Hd|]. unfold Gj, G'. destruct (Z.ltb_spec p k); [lia|reflexivity]. }
    { intros k bk Hk Hbk. rewrite Hal by lia. cbn [bind]. set (alv := ((val U b - val U a) / (val U (a + (k - (mu + j) + mu + 1)) - val U a))%R).
      eapply (loop_row _ _ _ nb k (fun c => mid c a b j k)); [exact Hbk|lia|lia| |].
      - intros c b' Hc Hb'. rewrite (RD_get _ _ _ nb k c Hb') by (unfold Dj; lia). cbn [bind]. rewrite (RD_get _ _ _ nb (k - 1) c Hb') by (unfold Dj; lia). cbn [bind]. f_equal.
        rewrite <- (mid_step p n U (Pc c) HU a b Ha Hlt Hbr He j k) by (unfold mu in *; lia). unfold G'.
        rewrite !Z.eqb_refl, !Z.ltb_irrefl. rewrite andb_false_r. destruct (Z.eqb_spec (k - 1) k); [lia|]. cbn [andb]. destruct (Z.ltb_spec k (k - 1)); [lia|].
        unfold alv. replace (a + (k - (mu + j) + mu + 1)) with (a + (k - j + 1)) by lia. reflexivity.
      - intros b' Hb'. eapply RD_ext; [exact Hb'|]. intros x k' c Hx Hk' Hc Hd. cbv beta. split; [right; exact Hd|]. unfold G'.
        destruct (Z.eqb_spec x nb) as [->|]; cbn [andb]; [|reflexivity]. rewrite Z.ltb_irrefl. destruct (Z.eqb_spec k' k) as [->|]; [destruct (Z.ltb_spec (k - 1) k); [reflexivity|lia]|].
        destruct (Z.ltb_spec (k - 1) k'), (Z.ltb_spec k k'); try lia; reflexivity. }
    intros b1 Hb1'.
    assert (Hb2 : RD b1 (Dj j) (Gj (j + 1))).
    { eapply RD_ext; [exact Hb1'|]. intros x k c Hx Hk Hc Hd. split; [exact Hd|]. unfold Gj, G'. replace (j + 1 - 1) with j by lia. destruct (Z.ltb_spec x nb); [reflexivity|].
      destruct (Z.eqb_spec x nb) as [->|]; [|reflexivity]. destruct (Z.ltb_spec (mu + j - 1) k); [reflexivity|]. rewrite !mid_low by (try exact n; fold mu; lia). reflexivity. }
    eapply (loop_row _ _ _ (nb + 1) (p - mu - j) (fun c => mid c a b j p)); [exact Hb2|lia|lia| |].
    - intros c b' Hc Hb'. rewrite (RD_get _ _ _ nb p c Hb') by (unfold Dj; lia). cbn [bind]. f_equal. destruct (Z.eqb_spec nb (nb + 1)); [lia|]. cbn [andb]. unfold Gj. rewrite Z.ltb_irrefl, Z.eqb_refl.
      f_equal; lia.
    - intros b' Hb'. eapply RD_ext; [exact Hb'|]. intros x k c Hx Hk Hc Hd. unfold Dj in *. cbv beta in *. split; [lia|].
      destruct (Z.eqb_spec x (nb + 1)) as [->|]; cbn [andb]; [|reflexivity]. destruct (Z.eqb_spec k (p - mu - j)) as [->|]; [|reflexivity].
      unfold Gj. destruct (Z.ltb_spec (nb + 1) nb); [lia|]. destruct (Z.eqb_spec (nb + 1) nb); [lia|]. apply (mid_next p n U (Pc c) HU a b Ha Hlt Hbr He Hb1). fold mu. lia. }
  intros b2 Hb2. cbn [wp fst snd]. split; [exact L'|]. eapply RD_ext; [exact Hb2|]. intros x k c Hx Hk Hc Hd. unfold Dj, Gj. cbv beta in *. split; [lia|].
  replace (p - mu + 1 - 1) with (p - mu) by lia. destruct (Z.ltb_spec x nb); [reflexivity|]. destruct (Z.eqb_spec x nb) as [->|]; [|reflexivity]. apply mid_end; [exact n|lia].
Qed.

Definition Sp := spans p U (n + 1).

Lemma gen_loop fuel bz al g nb0 La : 1 <= p -> n + p + 1 <= Z.of_nat fuel -> 0 <= nb0 -> nb0 + (n - p) < N -> len al = La -> p + 1 <= La ->
  RD bz (fun x _ _ => x <= nb0) g -> (forall k c, 0 <= k <= p -> 0 <= c < C -> g nb0 k c = cur c p k) ->
  wp (while_ fuel (fun '(_, _, _, b, _) => Ok (b <? m)) (bz, al, p, p + 1, nb0) gen_body) (fun '(bz', al', _, _, nb') => len al' = La /\ nb' = nb0 + len Sp /\
    RD bz' (fun x _ _ => x < nb') (fun x k c => if x <? nb0 then g x k c else fin c (at_ 0 Sp (x - nb0)) k)).
Proof.
  pose proof (ck_p _ _ _ HU) as pu. pose proof (ck_n _ _ _ HU) as nu. assert (Em : m = n + p + 1) by reflexivity.
  pose proof (ck_first _ _ _ HU) as H1. pose proof (tol_pos (val U p) (val U (p + 1))).
  intros Hp1 Hf Hnb0 HN El HLa Hbz Hcur.
  set (gen := fun a x k c => if x <? nb0 then g x k c else if x <? nb0 + len (spans p U a) then fin c (at_ 0 (spans p U a) (x - nb0)) k else cur c a k).
  apply wp_while with (mu := fun s => Z.to_nat (m - snd (fst s)))
    (I := fun '(bz, al, a, b, nb) => len al = La /\ b <= m /\
       ((p <= a <= n /\ b = a + 1 /\ (val U a < val U (a + 1))%R /\ nb = nb0 + len (spans p U a) /\ RD bz (fun x _ _ => x <= nb) (gen a)) \/
        (b = m /\ nb = nb0 + len Sp /\ RD bz (fun x _ _ => x < nb) (fun x k c => if x <? nb0 then g x k c else fin c (at_ 0 Sp (x - nb0)) k)))).
  - split; [exact El|]. split; [lia|]. left. split; [lia|]. split; [reflexivity|]. split; [lra|]. rewrite spans_0. split; [cbn; lia|]. eapply RD_ext; [exact Hbz|].
    intros x k c Hx Hk Hc Hd. cbv beta in *. split; [exact Hd|]. unfold gen. rewrite spans_0. destruct (Z.ltb_spec x nb0); [reflexivity|]. destruct (Z.ltb_spec x (nb0 + len (@nil Z))); [cbn in *; lia|].
    assert (x = nb0) as -> by lia. apply Hcur; lia.
  - cbn [fst snd]. lia.
  - intros [[[[bz1 al1] a] b] nb] (L1 & Hbm & Hcase). cbn [wp]. destruct (Z.ltb_spec b m).
    + destruct Hcase as [(Ha & -> & Hlt & Enb & HR)|(? & _)]; [|lia].
      pose proof (spans_len p U a ltac:(lia)) as SL. pose proof (len_nonneg (spans p U a)) as SL0.
      eapply wp_mono; [apply (gen_step bz1 al1 (gen a) a nb La); try assumption; try lia|].
      { intros k c Hk Hc. unfold gen. destruct (Z.ltb_spec nb nb0); [lia|]. destruct (Z.ltb_spec nb (nb0 + len (spans p U a))); [lia|reflexivity]. }
      intros [[[[bz' al'] a'] b'] nb'] (Enb' & L' & Hc'). cbn [fst snd]. destruct Hc' as [(Eb' & Ea' & Ean & HR')|(Ha' & Eb' & Hlt' & He' & HR')].
      * split; [|lia]. split; [exact L'|]. split; [lia|]. right. split; [exact Eb'|].
        assert (ESp : Sp = spans p U a ++ [a]) by (unfold Sp; rewrite Ean; apply (spans_run p U n (n + 1)); [lia|rewrite <- Ean; exact Hlt|lia|intros j Hj; f_equal; lia]).
        split; [rewrite ESp, len_app; cbn; lia|]. eapply RD_ext; [exact HR'|]. intros x k c Hx Hk Hc Hd. cbv beta in *. split; [lia|]. destruct (Z.ltb_spec x nb).
        -- unfold gen. destruct (Z.ltb_spec x nb0); [reflexivity|]. destruct (Z.ltb_spec x (nb0 + len (spans p U a))); [|lia]. rewrite ESp, at_snoc_l by lia. reflexivity.
        -- destruct (Z.ltb_spec x nb0); [lia|]. rewrite ESp. replace (x - nb0) with (len (spans p U a)) by lia. rewrite at_snoc_r, Ean. reflexivity.
      * split; [|lia]. split; [exact L'|]. split; [lia|]. left. split; [lia|]. split; [exact Eb'|]. split; [exact Hlt'|].
        assert (ESp : spans p U a' = spans p U a ++ [a]) by (apply spans_run; [lia|exact Hlt|lia|exact He']).
        split; [rewrite ESp, len_app; cbn; lia|]. unfold after in HR'. eapply RD_ext; [exact HR'|]. intros x k c Hx Hk Hc Hd. cbv beta in *. split; [lia|]. unfold gen. rewrite ESp, len_app. change (len [a]) with 1.
        destruct (Z.ltb_spec x nb).
        -- destruct (Z.ltb_spec x nb0); [reflexivity|]. destruct (Z.ltb_spec x (nb0 + len (spans p U a))); [|lia]. destruct (Z.ltb_spec x (nb0 + (len (spans p U a) + 1))); [|lia]. rewrite at_snoc_l by lia. reflexivity.
        -- destruct (Z.ltb_spec x nb0); [lia|]. destruct (Z.eqb_spec x nb) as [->|].
           ++ destruct (Z.ltb_spec nb (nb0 + (len (spans p U a) + 1))); [|lia]. replace (nb - nb0) with (len (spans p U a)) by lia. rewrite at_snoc_r. reflexivity.
           ++ destruct (Z.ltb_spec x (nb0 + (len (spans p U a) + 1))); [lia|reflexivity].
    + destruct Hcase as [(Ha & -> & Hlt & Enb & HR)|(Eb & Enb & HR)]; [lia|]. split; [exact L1|]. split; [exact Enb|exact HR].
Qed.

(* the first segment starts from the control points *)
Lemma cur_first c k : 0 <= k <= p -> cur c p k = pt (Pc c) k.
Proof.
  pose proof (ck_p _ _ _ HU) as pu. pose proof (ck_n _ _ _ HU) as nu. pose proof (ck_first _ _ _ HU) as H1. pose proof (tol_pos (val U p) (val U (p + 1))).
  intros Hk. unfold P_Decomp.cur. assert (G : good (val U) p p) by (apply (span_good p n); auto; [lia|lra]). rewrite <- (bl_knots (val U) p p (pt (Pc c)) k) by (auto; lia). f_equal.
  assert (Ew : win (val U) k (p - k + k) = repeat (val U p) (Z.to_nat (p - k)) ++ win (val U) p k).
  { rewrite win_app by lia. f_equal; [|f_equal; lia]. apply win_const. intros r0 Hr0. apply (first_run p n U HU Hcl). lia. }
  replace (p - k + k) with p in Ew by lia. rewrite Ew. reflexivity.
Qed.
End Gen.
