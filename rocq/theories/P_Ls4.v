(* Least squares for nets of points. *)
From Coq Require Import ZArith List Bool Reals Lra Lia.
From Verif Require Import Base Num Vec Tac Spec Spec2 Spec3 Spec6 Spec22 M_MathUtils M_Polynomials M_XYZ M_Bspline M_NurbsCurve M_Interp M_Fit M_Fit3 M_Fit4
  P_MathUtils P_Math2 P_XYZ P_Vec P_VSum P_Curve P_Loop P_Extract P_Lsq3 P_Make P_Local P_BsplineS M_Surface.
Import ListNotations.
Open Scope Z_scope.

(* what holds of the result when there is one *)
Definition okp {X} (m : res X) (Q : X -> Prop) : Prop := forall x, m = Ok x -> Q x.
Lemma okp_ok {X} (x : X) (Q : X -> Prop) : Q x -> okp (Ok x) Q.
Proof. intros H y E. injection E as <-. exact H. Qed.
Lemma okp_err {X} e (Q : X -> Prop) : okp (Err e) Q.
Proof. intros y E. discriminate. Qed.
Lemma okp_bind {X Y} (m : res X) (f : X -> res Y) (Q : Y -> Prop) : okp m (fun x => okp (f x) Q) -> okp (bind m f) Q.
Proof. intros H y E. destruct (bind_Ok _ _ _ E) as (x & Ex & Ey). exact (H x Ex y Ey). Qed.
Lemma okp_any {X} (m : res X) (Q : X -> Prop) : (forall x, Q x) -> okp m Q.
Proof. intros H x _. apply H. Qed.
Lemma okp_wp {X} (m : res X) (Q : X -> Prop) : wp m Q -> okp m Q.
Proof. intros H x E. rewrite E in H. exact H. Qed.
Lemma okp_mono {X} (m : res X) (P Q : X -> Prop) : okp m P -> (forall x, P x -> Q x) -> okp m Q.
Proof. intros H I x E. apply I, H, E. Qed.
Lemma okp_iter {S} (P : Z -> S -> Prop) body n : forall i s, P i s -> (forall k s, i <= k < i + Z.of_nat n -> P k s -> okp (body k s) (P (k + 1))) -> okp (iter_up n i body s) (P (i + Z.of_nat n)).
Proof.
  induction n as [|n IH]; intros i s Hs Hb.
  - cbn [iter_up]. apply okp_ok. replace (i + Z.of_nat 0) with i by lia. exact Hs.
  - cbn [iter_up]. apply okp_bind. eapply okp_mono; [apply Hb; [lia|exact Hs]|]. intros s' Hs'. replace (i + Z.of_nat (Datatypes.S n)) with (i + 1 + Z.of_nat n) by lia. apply IH; [exact Hs'|]. intros k s0 Hk. apply Hb. lia.
Qed.
Lemma okp_for {S} (P : Z -> S -> Prop) lo hi s body (Q : S -> Prop) : P lo s -> (forall k s, lo <= k < hi -> P k s -> okp (body k s) (P (k + 1))) -> (forall s, P (Z.max lo hi) s -> Q s) -> okp (for_up lo hi s body) Q.
Proof.
  intros H0 Hb HQ. unfold for_up. eapply okp_mono; [apply (okp_iter P); [exact H0|]; intros k s0 Hk; apply Hb; lia|]. intros s0 Hs. apply HQ. replace (Z.max lo hi) with (lo + Z.of_nat (Z.to_nat (hi - lo))) by lia. exact Hs.
Qed.
Lemma okp_iterc {S T} (P : Z -> S -> Prop) (F : T -> Prop) body n : forall i s, P i s -> (forall k s, i <= k < i + Z.of_nat n -> P k s -> okp (body k s) (fun c => match c with Next s' => P (k + 1) s' | Stop r => F r end)) ->
  okp (iter_upc n i body s) (fun c => match c with Next s' => P (i + Z.of_nat n) s' | Stop r => F r end).
Proof.
  induction n as [|n IH]; intros i s Hs Hb.
  - cbn [iter_upc]. apply okp_ok. replace (i + Z.of_nat 0) with i by lia. exact Hs.
  - cbn [iter_upc]. apply okp_bind. eapply okp_mono; [apply Hb; [lia|exact Hs]|]. intros [s'|r] Hs'; [|apply okp_ok, Hs']. replace (i + Z.of_nat (Datatypes.S n)) with (i + 1 + Z.of_nat n) by lia. apply IH; [exact Hs'|]. intros k s0 Hk. apply Hb. lia.
Qed.
Lemma okp_get {X Y} (l : list X) n f i (k : X -> res Y) (Q : Y -> Prop) : arr l n f -> (0 <= i < n -> okp (k (f i)) Q) -> okp (bind (get l i) k) Q.
Proof.
  intros A H. destruct (Z.lt_ge_cases i 0) as [L|L].
  - unfold get. destruct (Z.ltb_spec i 0); [|lia]. apply okp_err.
  - destruct (Z.lt_ge_cases i n) as [G|G]; [rewrite (arr_get _ _ _ _ A) by lia; apply H; lia|]. unfold get. destruct (Z.ltb_spec i 0); [lia|]. pose proof (arr_len _ _ _ A) as E. unfold len in E. rewrite (proj2 (nth_error_None l (Z.to_nat i))) by lia. apply okp_err.
Qed.
Lemma okp_upd {X} (l : list X) n f i v (Q : list X -> Prop) : arr l n f -> (0 <= i < n -> forall l', arr l' n (fun j => if j =? i then v else f j) -> Q l') -> okp (upd l i v) Q.
Proof.
  intros A H. unfold upd. destruct (Z.leb_spec 0 i) as [L|L]; [|apply okp_err]. destruct (Z.ltb_spec i (len l)) as [G|G]; [|apply okp_err]. cbn [andb]. rewrite (arr_len _ _ _ A) in G.
  pose proof (arr_upd l n f i v (fun l' => arr l' n (fun j => if j =? i then v else f j)) A ltac:(lia) ltac:(auto)) as W. unfold upd in W. rewrite (arr_len _ _ _ A) in W. destruct (Z.leb_spec 0 i); [|lia]. destruct (Z.ltb_spec i n); [|lia]. cbn [andb wp] in W. apply okp_ok. apply H; [lia|exact W].
Qed.
Lemma okp_mkvec {X} n (x : X) (Q : list X -> Prop) : (0 <= n -> forall v, arr v n (fun _ => x) -> Q v) -> okp (mkvec n x) Q.
Proof. intros H. destruct (Z.lt_ge_cases n 0) as [L|L]; [unfold mkvec; destruct (Z.ltb_spec n 0); [apply okp_err|lia]|]. apply okp_wp, wp_mkvec; [lia|]. apply H. lia. Qed.
Lemma okp_updlen {X} (l : list X) i v (Q : list X -> Prop) : (0 <= i < len l -> forall l', len l' = len l -> Q l') -> okp (upd l i v) Q.
Proof.
  intros H. unfold upd. destruct (Z.leb_spec 0 i) as [L|L]; [|apply okp_err]. destruct (Z.ltb_spec i (len l)) as [G|G]; [|apply okp_err]. cbn [andb]. apply okp_ok, H; [lia|]. unfold len. f_equal.
  generalize (Z.to_nat i). clear. induction l as [|x l IH]; intros [|k]; cbn [upd_nat length]; try reflexivity. f_equal. apply IH.
Qed.

Lemma hom_one (q : XYZ R) : M_XYZ.mkW q 1%R = hom q 1.
Proof. unfold hom, M_XYZ.mkW. num. f_equal; ring. Qed.

(* the shape of a fitted curve, whatever the decomposition does *)
Lemma Ls_shape lu p (Q : list (XYZ R)) count : okp (LeastSquaresApproximation lu p Q count) (fun r => forall c, r = Some c ->
  2 < count /\ Degree c = p /\ len (KnotVector c) = count + p + 1 /\ exists P, arr P count (pt P) /\ arr (ControlPoints c) count (fun l => hom (pt P l) 1) /\ pt P 0 = pt Q 0 /\ pt P (count - 1) = pt Q (len Q - 1)).
Proof.
  unfold LeastSquaresApproximation. destruct (_ && _); [cbn [validate bind]|apply okp_err]. destruct (0 <? count); [cbn [validate bind]|apply okp_err].
  apply okp_bind, okp_any. intros us. apply okp_bind. apply (okp_mono _ (fun U => len U = count - 1 + p + 2)).
  { unfold ls_knots. apply okp_bind, okp_mkvec. intros H0 v Hv. apply okp_bind, okp_any. intros d. apply okp_bind. apply okp_for with (P := fun _ v => len v = count - 1 + p + 2); [exact (arr_len _ _ _ Hv)| |].
    - intros k s Hk Hs. apply okp_updlen. intros _ l' ->. exact Hs.
    - intros s Hs. apply okp_for with (P := fun _ v => len v = count - 1 + p + 2); [exact Hs| |auto]. intros k s' Hk Hs'. apply okp_bind, okp_any. intros x. apply okp_bind, okp_any. intros y. apply okp_updlen. intros _ l' ->. exact Hs'. }
  intros U LU. apply okp_bind, okp_any. intros st. apply okp_bind, okp_mkvec. intros Hn en Aen. apply okp_bind, okp_any. intros ix. apply okp_bind, okp_any. intros bl. apply okp_bind, okp_any. intros B. apply okp_bind, okp_any. intros nl. apply okp_bind, okp_any. intros NTN. apply okp_bind, okp_any. intros st'.
  apply okp_bind. apply (okp_upd _ _ _ _ _ _ Aen). intros Hn1 en' Aen'. apply okp_bind, okp_any. intros ls. apply okp_bind, okp_any. intros e0. destruct (_ || _); [apply okp_ok; discriminate|].
  apply okp_bind, okp_any. intros en2. apply okp_bind, okp_any. intros NTN'. apply okp_bind, okp_any. intros Rk. apply okp_bind, okp_any. intros Rv. apply okp_bind, okp_any. intros [temp|]; [|apply okp_ok; discriminate].
  apply okp_bind, okp_mkvec. intros Hc c0 Ac0. apply okp_bind.
  apply okp_for with (P := fun i v => exists g : Z -> XYZ R, arr v count (fun l => if (0 <? l) && (l <? i) then hom (g l) 1 else xyzw0)).
  - exists (fun _ => xyz0). apply (arr_ext _ _ _ _ Ac0). intros l Hl. destruct (Z.ltb_spec 0 l), (Z.ltb_spec l 1); try lia; reflexivity.
  - intros i v Hi (g & Av). apply okp_bind, okp_any. intros row. unfold row_point. apply okp_bind. apply okp_bind, okp_any. intros x. apply okp_bind, okp_any. intros y. apply okp_bind, okp_any. intros z. apply okp_ok.
    apply (okp_upd _ _ _ _ _ _ Av). intros _ v' Av'. exists (fun l => if l =? i then mkXYZ x y z else g l). apply (arr_ext _ _ _ _ Av'). intros l Hl. cbv beta.
    destruct (Z.eqb_spec l i) as [->|Ne]; [destruct (Z.ltb_spec 0 i), (Z.ltb_spec i (i + 1)); cbn [andb]; try lia; num; apply hom_one|]. destruct (Z.ltb_spec 0 l), (Z.ltb_spec l i), (Z.ltb_spec l (i + 1)); cbn [andb]; try lia; reflexivity.
  - intros c1 (g & Ac1). pose proof (arr_pt Q _ eq_refl) as AQ. apply (okp_get _ _ _ _ _ _ AQ). intros _. apply okp_bind. apply (okp_upd _ _ _ _ _ _ Ac1). intros _ c2 Ac2. apply (okp_get _ _ _ _ _ _ AQ). intros _. apply okp_bind. apply (okp_upd _ _ _ _ _ _ Ac2). intros _ c3 Ac3. apply okp_ok. intros c E. injection E as <-. cbn [Degree KnotVector ControlPoints].
    split; [lia|]. split; [reflexivity|]. split; [lia|].
    set (f l := if l =? count - 1 then pt Q (len Q - 1) else if l =? 0 then pt Q 0 else g l).
    assert (EP : exists P, arr P count f). { exists (map f (map Z.of_nat (seq 0 (Z.to_nat count)))). split; [unfold len; rewrite !map_length, seq_length; lia|]. intros i Hi. unfold get. destruct (Z.ltb_spec i 0); [lia|]. rewrite !nth_error_map. rewrite (nth_error_nth' (seq 0 (Z.to_nat count)) 0%nat) by (rewrite seq_length; lia). rewrite seq_nth by lia. cbn [option_map]. do 2 f_equal. lia. }
    destruct EP as (P & AP). assert (FP : forall l, 0 <= l < count -> pt P l = f l) by (intros l Hl; unfold pt; rewrite (arr_at_eq _ _ _ _ _ AP) by lia; reflexivity).
    exists P. split; [apply (arr_ext _ _ _ _ AP); intros l Hl; symmetry; apply FP, Hl|]. split; [|split].
    + apply (arr_ext _ _ _ _ Ac3). intros l Hl. cbv beta. rewrite FP by exact Hl. unfold f. replace (Z.max 1 (count - 1)) with (count - 1) by lia. destruct (Z.eqb_spec l (count - 1)) as [->|N1]; [num; apply hom_one|]. destruct (Z.eqb_spec l 0) as [->|N0]; [num; apply hom_one|]. destruct (Z.ltb_spec 0 l), (Z.ltb_spec l (count - 1)); cbn [andb]; try lia. reflexivity.
    + rewrite FP by lia. unfold f. destruct (Z.eqb_spec 0 (count - 1)); [lia|]. reflexivity.
    + rewrite FP by lia. unfold f. rewrite Z.eqb_refl. reflexivity.
Qed.

Lemma fitted_shape lu p Q count K P : fitted lu p Q count K P -> 2 < count /\ len K = count + p + 1 /\ pt P 0 = pt Q 0 /\ pt P (count - 1) = pt Q (len Q - 1).
Proof.
  intros (c & E & <- & LP & AC). destruct (Ls_shape lu p Q count _ E c eq_refl) as (Hc & _ & LK & P' & AP' & AC' & E0 & E1). split; [exact Hc|]. split; [exact LK|].
  assert (EQ : forall l, 0 <= l < count -> pt P l = pt P' l).
  { intros l Hl. pose proof (arr_get _ _ _ _ AC Hl) as G. rewrite (arr_get _ _ _ _ AC' Hl) in G. assert (B : hom (pt P' l) 1 = hom (pt P l) 1) by congruence. assert (B' : Ok (pt P' l) = Ok (pt P l)) by (rewrite <- !hom_back, B; reflexivity). congruence. }
  rewrite !EQ by lia. split; assumption.
Qed.
Lemma points_of_ok (cps : list (XYZW R)) n f : arr cps n (fun l => hom (f l) 1) -> wp (points_of cps) (fun P => arr P n f).
Proof.
  intros A. unfold points_of. rewrite (arr_len _ _ _ A). apply wp_for_up with (P := fun i acc => arr acc i f).
  - pose proof (len_nonneg cps). rewrite (arr_len _ _ _ A) in H. lia.
  - split; [reflexivity|]. intros i Hi. lia.
  - intros i acc Hi Ha. wget A. rewrite hom_back. cbn [bind wp]. apply arr_snoc; auto.
  - auto.
Qed.
Lemma fit_lines_ok lu p (lines : list (list (XYZ R))) count : okp (fit_lines lu p lines count) (fun r => forall T K, r = Some (T, K) ->
  len T = len lines /\ forall i, 0 <= i < len lines -> exists Ki, fitted lu p (at_ nil lines i) count Ki (at_ nil T i) /\ (i = 0 -> Ki = K)).
Proof.
  unfold fit_lines. apply okp_bind. unfold for_upc.
  eapply okp_mono; [apply (okp_iterc (fun k (s : list (list (XYZ R)) * list R) => len (fst s) = k /\ forall i, 0 <= i < k -> exists Ki, fitted lu p (at_ nil lines i) count Ki (at_ nil (fst s) i) /\ (i = 0 -> Ki = snd s)) (fun _ => True))|].
  - split; [reflexivity|]. intros i Hi. lia.
  - intros k (acc & knots) Hk (L & F). cbn [fst snd] in L, F. rewrite (get_at nil lines k) by lia. cbn [bind]. apply okp_bind. intros c Ec. destruct c as [c|]; [|apply okp_ok; exact I].
    destruct (Ls_shape _ _ _ _ _ Ec c eq_refl) as (Hc & _ & LK & P & AP & AC & _). destruct (wp_elim _ _ (points_of_ok _ _ _ AC)) as (q & -> & Aq). cbn [bind]. apply okp_ok. cbn [fst snd].
    assert (G : forall i, 0 <= i < k -> at_ nil (acc ++ [q]) i = at_ nil acc i). { intros i Hi. pose proof (get_app_l acc [q] i ltac:(lia)) as G. rewrite (get_at nil acc i), (get_at nil (acc ++ [q]) i) in G by (rewrite ?len_app; unfold len at 2 + idtac; cbn [length]; lia). congruence. }
    assert (Gk : at_ nil (acc ++ [q]) k = q). { pose proof (get_app_r acc [q] k ltac:(lia)) as G'. rewrite L, Z.sub_diag in G'. rewrite (get_at nil (acc ++ [q]) k) in G' by (rewrite len_app; change (len [q]) with 1; lia). cbn in G'. congruence. }
    split; [rewrite len_app; change (len [q]) with 1; lia|]. intros i Hi. destruct (Z.eq_dec i k) as [->|Ne].
    + rewrite Gk. exists (KnotVector c). split.
      * exists c. split; [exact Ec|]. split; [reflexivity|]. split; [exact (arr_len _ _ _ Aq)|]. apply (arr_ext _ _ _ _ AC). intros l Hl. cbv beta. f_equal. unfold pt at 2. rewrite (arr_at_eq _ _ _ _ _ Aq) by exact Hl. reflexivity.
      * intros ->. destruct (Z.eqb_spec 0 0); [reflexivity|lia].
    + rewrite G by lia. destruct (F i ltac:(lia)) as (Ki & Fi & E0). exists Ki. split; [exact Fi|]. intros E. destruct (Z.eqb_spec k 0); [lia|]. apply E0, E.
  - intros r H. cbv beta in H. destruct r as [(T' & K')|]; [|apply okp_ok; discriminate]. apply okp_ok. intros T K E. injection E as <- <-. cbn [fst snd] in H. replace (0 + Z.of_nat (Z.to_nat (len lines - 0))) with (len lines) in H by (pose proof (len_nonneg lines); lia). exact H.
Qed.

Lemma weighted_points_ok (P : list (list (XYZ R))) r c f : 0 < r -> 0 <= c -> arr2 P r c f -> wp (weighted_points P) (fun W => arr2 W r c (fun i j => hom (f i j) 1)).
Proof.
  intros Hr Hc A. unfold weighted_points. rewrite (arr2_len _ _ _ _ A). destruct (proj2 A 0 ltac:(lia)) as (row & -> & Arow). cbn [bind]. rewrite (arr_len _ _ _ Arow). apply wp_bind.
  apply wp_mkvec; [exact Hc|]. intros line Al. apply wp_bind. apply wp_mkvec; [lia|]. intros W0 AW0.
  apply wp_for_up with (P := fun i W => arr2 W r c (fun i' j' => if i' <? i then hom (f i' j') 1 else xyzw0)); [lia| | |].
  - split; [exact (arr_len _ _ _ AW0)|]. intros i Hi. exists line. split; [rewrite (arr_get _ _ _ _ AW0) by exact Hi; reflexivity|]. apply (arr_ext _ _ _ _ Al). intros j Hj. destruct (Z.ltb_spec i 0); [lia|reflexivity].
  - intros i W Hi AW. apply wp_for_up with (P := fun j W => arr2 W r c (fun i' j' => if (i' <? i) || ((i' =? i) && (j' <? j)) then hom (f i' j') 1 else xyzw0)); [lia| | |].
    + apply (arr2_ext _ _ _ _ _ AW). intros i' j' Hi' Hj'. destruct (Z.ltb_spec i' i), (Z.eqb_spec i' i), (Z.ltb_spec j' 0); cbn [orb andb]; try lia; reflexivity.
    + intros j W' Hj AW'. rewrite (arr2_get _ _ _ _ _ _ A) by lia. cbn [bind]. eapply arr2_upd; [exact AW'|lia|lia|]. intros W'' AW''. apply (arr2_ext _ _ _ _ _ AW''). intros i' j' Hi' Hj'. cbv beta.
      destruct (Z.eqb_spec i' i) as [->|], (Z.eqb_spec j' j) as [->|]; cbn [andb]; num; rewrite ?hom_one; destruct (Z.ltb_spec i' i) + destruct (Z.ltb_spec i i); try lia; cbn [orb andb]; try (destruct (Z.ltb_spec j (j + 1)); [reflexivity|lia]); try reflexivity. destruct (Z.ltb_spec j' j), (Z.ltb_spec j' (j + 1)); try lia; reflexivity.
    + intros W' AW'. apply (arr2_ext _ _ _ _ _ AW'). intros i' j' Hi' Hj'. cbv beta. destruct (Z.ltb_spec i' i), (Z.eqb_spec i' i), (Z.ltb_spec i' (i + 1)), (Z.ltb_spec j' c); cbn [orb andb]; try lia; reflexivity.
  - intros W AW. apply (arr2_ext _ _ _ _ _ AW). intros i j Hi Hj. cbv beta. destruct (Z.ltb_spec i r); [reflexivity|lia].
Qed.

Lemma GlobalApproximation_ok lu D pU pV rows cols : okp (GlobalApproximation lu D pU pV rows cols) (fun r => forall s, r = Some s ->
  0 < len D /\ 2 < rows /\ 2 < cols /\ DegreeU s = pU /\ DegreeV s = pV /\ exists T C, arr2 (SControlPoints s) rows cols (fun i j => hom (C i j) 1) /\ fitted_net lu D pU pV rows cols (KnotVectorU s) (KnotVectorV s) T C).
Proof.
  unfold GlobalApproximation. destruct (Z.ltb_spec 0 (len D)) as [HD|]; [cbn [validate bind]|apply okp_err]. apply okp_bind, okp_any. intros line. destruct (0 <? len line); [cbn [validate bind]|apply okp_err].
  destruct (_ && _); [cbn [validate bind]|apply okp_err]. destruct (_ && _); [cbn [validate bind]|apply okp_err]. destruct (_ <? _); [cbn [validate bind]|apply okp_err]. destruct (_ <? _); [cbn [validate bind]|apply okp_err].
  apply okp_bind. eapply okp_mono; [apply fit_lines_ok|]. intros [(T & K)|] HT; [|apply okp_ok; discriminate]. destruct (HT T K eq_refl) as (LT & FT). clear HT.
  assert (Hc : 2 < cols) by (destruct (FT 0 ltac:(lia)) as (K0 & F0 & _); apply (fitted_shape _ _ _ _ _ _ F0)).
  assert (AT : arr2 T (len D) cols (pt2 T)). { apply arr2_net. split; [exact LT|]. intros i Hi. destruct (FT i Hi) as (Ki & (c & _ & _ & L & _) & _). exact L. }
  destruct (wp_elim _ _ (Transpose_ok T (len D) cols _ HD ltac:(lia) AT)) as (T' & -> & AT'). cbn [bind]. pose proof (arr2_len _ _ _ _ AT') as LT'.
  apply okp_bind. eapply okp_mono; [apply fit_lines_ok|]. intros [(F & L)|] HF; [|apply okp_ok; discriminate]. destruct (HF F L eq_refl) as (LF & FF). clear HF. rewrite LT' in LF, FF.
  assert (Hr : 2 < rows) by (destruct (FF 0 ltac:(lia)) as (K0 & F0 & _); apply (fitted_shape _ _ _ _ _ _ F0)).
  assert (AF : arr2 F cols rows (pt2 F)). { apply arr2_net. split; [exact LF|]. intros i Hi. destruct (FF i Hi) as (Ki & (c & _ & _ & L' & _) & _). exact L'. }
  destruct (wp_elim _ _ (Transpose_ok F cols rows _ ltac:(lia) ltac:(lia) AF)) as (F' & -> & AF'). cbn [bind].
  destruct (wp_elim _ _ (weighted_points_ok F' rows cols _ ltac:(lia) ltac:(lia) AF')) as (W & -> & AW). cbn [bind]. apply okp_ok. intros s E. injection E as <-. cbn [DegreeU DegreeV KnotVectorU KnotVectorV SControlPoints].
  split; [exact HD|]. split; [exact Hr|]. split; [exact Hc|]. split; [reflexivity|]. split; [reflexivity|]. exists (pt2 T), (fun i j => pt2 F j i). split; [exact AW|]. split.
  - intros i Hi. destruct (FT i Hi) as (Ki & Fi & E0). exists Ki, (at_ nil T i). split; [exact Fi|]. split; [exact E0|]. intros j Hj. reflexivity.
  - intros j Hj. destruct (FF j Hj) as (Lj & Fj & E0). exists Lj, (at_ nil T' j), (at_ nil F j). destruct (proj2 AT' j Hj) as (row & Er & Ar). rewrite (get_at nil T' j) in Er by lia. injection Er as Er. split; [rewrite Er; exact (arr_len _ _ _ Ar)|]. split.
    { intros i Hi. rewrite Er. unfold pt at 1. rewrite (arr_at_eq _ _ _ _ _ Ar) by exact Hi. reflexivity. }
    split; [exact Fj|]. split; [exact E0|]. intros i Hi. reflexivity.
Qed.

Lemma fit_lines_total lu p (lines : list (list (XYZ R))) count : (forall i, 0 <= i < len lines -> exists c, LeastSquaresApproximation lu p (at_ nil lines i) count = Ok (Some c)) -> exists T K, fit_lines lu p lines count = Ok (Some (T, K)).
Proof.
  intros H. unfold fit_lines. destruct (wp_elim (for_upc 0 (len lines) ([], []) (fun i (s : list (list (XYZ R)) * list R) => let '(acc, knots) := s in
    let! line := get lines i in let! c := LeastSquaresApproximation lu p line count in
    match c with None => Ok (Stop tt) | Some c => let! q := points_of (ControlPoints c) in Ok (Next (acc ++ [q], if i =? 0 then KnotVector c else knots)) end)) (fun r => exists s, r = Next s)) as (r & E & ((T & K) & ->)).
  - apply wp_for_upc with (P := fun _ _ => True) (F := fun _ => False); auto.
    + intros k (acc & knots) Hk _. rewrite (get_at nil lines k) by lia. cbn [bind]. destruct (H k ltac:(lia)) as (c & Ec). rewrite Ec. cbn [bind]. destruct (Ls_shape _ _ _ _ _ Ec c eq_refl) as (Hc & _ & LK & P & AP & AC & _). destruct (wp_elim _ _ (points_of_ok _ _ _ AC)) as (q & -> & Aq). exact I.
    + intros s _. exists s. reflexivity.
    + intros _ [].
  - rewrite E. exists T, K. reflexivity.
Qed.
Lemma fit_lines_fail lu p (lines : list (list (XYZ R))) count k : 0 <= k < len lines -> (forall i, 0 <= i < k -> exists c, LeastSquaresApproximation lu p (at_ nil lines i) count = Ok (Some c)) -> LeastSquaresApproximation lu p (at_ nil lines k) count = Ok None ->
  fit_lines lu p lines count = Ok None.
Proof.
  intros Hk H HN. unfold fit_lines. destruct (wp_elim (for_upc 0 (len lines) ([], []) (fun i (s : list (list (XYZ R)) * list R) => let '(acc, knots) := s in
    let! line := get lines i in let! c := LeastSquaresApproximation lu p line count in
    match c with None => Ok (Stop tt) | Some c => let! q := points_of (ControlPoints c) in Ok (Next (acc ++ [q], if i =? 0 then KnotVector c else knots)) end)) (fun r => r = Stop tt)) as (r & E & ->).
  - apply wp_for_upc with (P := fun i _ => i <= k) (F := fun _ => True); try lia.
    + intros i (acc & knots) Hi Hik. rewrite (get_at nil lines i) by lia. cbn [bind]. destruct (Z.eq_dec i k) as [->|]; [rewrite HN; exact I|]. destruct (H i ltac:(lia)) as (c & Ec). rewrite Ec. cbn [bind]. destruct (Ls_shape _ _ _ _ _ Ec c eq_refl) as (Hc & _ & LK & P & AP & AC & _). destruct (wp_elim _ _ (points_of_ok _ _ _ AC)) as (q & -> & Aq). cbn [bind wp]. lia.
    + intros [] _. reflexivity.
  - rewrite E. reflexivity.
Qed.
Lemma approximation_head lu D pU pV rows cols : approximation_input D pU pV rows cols -> GlobalApproximation lu D pU pV rows cols =
  let! a := fit_lines lu pU D cols in
  match a with
  | None => Ok None
  | Some (temp, knotVectorU) =>
      let! transposed := Transpose temp in
      let! b := fit_lines lu pV transposed rows in
      match b with
      | None => Ok None
      | Some (final, knotVectorV) =>
          let! points := Transpose final in
          let! cps := weighted_points points in
          Ok (Some (mkSurface pU pV knotVectorU knotVectorV cps))
      end
  end.
Proof.
  intros (H1 & H2 & H3 & H4 & H5 & H6). unfold GlobalApproximation. rewrite (get_at nil D 0) by lia. cbn [bind].
  repeat match goal with |- context [?a <? ?b] => rewrite (proj2 (Z.ltb_lt a b)) by (unfold NURBSMaxDegree in *; lia) end. repeat match goal with |- context [?a <=? ?b] => rewrite (proj2 (Z.leb_le a b)) by (unfold NURBSMaxDegree in *; lia) end. cbn [validate bind andb]. reflexivity.
Qed.
Lemma GlobalApproximation_total lu D pU pV rows cols : approximation_input D pU pV rows cols ->
  (forall i, 0 <= i < len D -> exists c, LeastSquaresApproximation lu pU (at_ nil D i) cols = Ok (Some c)) ->
  (forall j Q, 0 <= j < cols -> len Q = len D -> (forall i, 0 <= i < len D -> exists K P, fitted lu pU (at_ nil D i) cols K P /\ pt Q i = pt P j) -> exists c, LeastSquaresApproximation lu pV Q rows = Ok (Some c)) ->
  exists s, GlobalApproximation lu D pU pV rows cols = Ok (Some s).
Proof.
  intros HI HR HC. rewrite approximation_head by exact HI. destruct HI as (H1 & _). destruct (fit_lines_total _ _ _ _ HR) as (T & K & E). rewrite E. cbn [bind]. destruct (fit_lines_ok _ _ _ _ _ E T K eq_refl) as (LT & FT).
  assert (Hc : 2 < cols) by (destruct (FT 0 ltac:(lia)) as (K0 & F0 & _); apply (fitted_shape _ _ _ _ _ _ F0)).
  assert (AT : arr2 T (len D) cols (pt2 T)). { apply arr2_net. split; [exact LT|]. intros i Hi. destruct (FT i Hi) as (Ki & (c & _ & _ & L & _) & _). exact L. }
  destruct (wp_elim _ _ (Transpose_ok T (len D) cols _ ltac:(lia) ltac:(lia) AT)) as (T' & -> & AT'). cbn [bind]. pose proof (arr2_len _ _ _ _ AT') as LT'.
  destruct (fit_lines_total lu pV T' rows) as (F & L & EF).
  { intros j Hj. rewrite LT' in Hj. destruct (proj2 AT' j Hj) as (row & Er & Ar). rewrite (get_at nil T' j) in Er by lia. injection Er as Er. apply (HC j); [exact Hj|rewrite Er; exact (arr_len _ _ _ Ar)|]. intros i Hi. destruct (FT i Hi) as (Ki & Fi & _). exists Ki, (at_ nil T i). split; [exact Fi|]. rewrite Er. unfold pt at 1. rewrite (arr_at_eq _ _ _ _ _ Ar) by exact Hi. reflexivity. }
  rewrite EF. cbn [bind]. destruct (fit_lines_ok _ _ _ _ _ EF F L eq_refl) as (LF & FF). rewrite LT' in LF, FF.
  assert (Hr : 2 < rows) by (destruct (FF 0 ltac:(lia)) as (K0 & F0 & _); apply (fitted_shape _ _ _ _ _ _ F0)).
  assert (AF : arr2 F cols rows (pt2 F)). { apply arr2_net. split; [exact LF|]. intros i Hi. destruct (FF i Hi) as (Ki & (c & _ & _ & L' & _) & _). exact L'. }
  destruct (wp_elim _ _ (Transpose_ok F cols rows _ ltac:(lia) ltac:(lia) AF)) as (F' & -> & AF'). cbn [bind].
  destruct (wp_elim _ _ (weighted_points_ok F' rows cols _ ltac:(lia) ltac:(lia) AF')) as (W & -> & AW). cbn [bind]. eexists. reflexivity.
Qed.
Lemma GlobalApproximation_fail lu D pU pV rows cols k : approximation_input D pU pV rows cols -> 0 <= k < len D ->
  (forall i, 0 <= i < k -> exists c, LeastSquaresApproximation lu pU (at_ nil D i) cols = Ok (Some c)) -> LeastSquaresApproximation lu pU (at_ nil D k) cols = Ok None ->
  GlobalApproximation lu D pU pV rows cols = Ok None.
Proof. intros HI Hk HS HN. rewrite approximation_head by exact HI. rewrite (fit_lines_fail lu pU D cols k Hk HS HN). reflexivity. Qed.
Lemma GlobalApproximation_corners lu D pU pV rows cols s : GlobalApproximation lu D pU pV rows cols = Ok (Some s) ->
  let P i j := pt2 (SControlPoints s) i j in let Q i := at_ nil D i in
  P 0 0 = hom (pt (Q 0) 0) 1 /\ P (rows - 1) 0 = hom (pt (Q (len D - 1)) 0) 1 /\
  P 0 (cols - 1) = hom (pt (Q 0) (len (Q 0) - 1)) 1 /\ P (rows - 1) (cols - 1) = hom (pt (Q (len D - 1)) (len (Q (len D - 1)) - 1)) 1.
Proof.
  intros E. cbv zeta. destruct (GlobalApproximation_ok _ _ _ _ _ _ _ E s eq_refl) as (HD & Hr & Hc & _ & _ & T & C & AW & FR & FC).
  assert (EC : forall i j, 0 <= i < rows -> 0 <= j < cols -> pt2 (SControlPoints s) i j = hom (C i j) 1).
  { intros i j Hi Hj. pose proof (arr2_len _ _ _ _ AW) as LW. destruct (proj2 AW i Hi) as (row & Er & Ar). rewrite (get_at nil _ i) in Er by lia. injection Er as Er. unfold pt2, pt. rewrite Er. rewrite (arr_at_eq _ _ _ _ _ Ar) by exact Hj. reflexivity. }
  assert (ET : forall i, 0 <= i < len D -> T i 0 = pt (at_ nil D i) 0 /\ T i (cols - 1) = pt (at_ nil D i) (len (at_ nil D i) - 1)).
  { intros i Hi. destruct (FR i Hi) as (K & P & F & _ & EP). rewrite <- !EP by lia. apply (fitted_shape _ _ _ _ _ _ F). }
  assert (EE : forall j, 0 <= j < cols -> C 0 j = T 0 j /\ C (rows - 1) j = T (len D - 1) j).
  { intros j Hj. destruct (FC j Hj) as (L & Q & P & LQ & EQ & F & _ & EP). rewrite <- !EP, <- !EQ by lia. rewrite <- LQ. apply (fitted_shape _ _ _ _ _ _ F). }
  rewrite !EC by lia. rewrite (proj1 (EE 0 ltac:(lia))), (proj2 (EE 0 ltac:(lia))), (proj1 (EE (cols - 1) ltac:(lia))), (proj2 (EE (cols - 1) ltac:(lia))). rewrite (proj1 (ET 0 ltac:(lia))), (proj1 (ET (len D - 1) ltac:(lia))), (proj2 (ET 0 ltac:(lia))), (proj2 (ET (len D - 1) ltac:(lia))). repeat split.
Qed.
Lemma GlobalApproximation_shape lu D pU pV rows cols s : GlobalApproximation lu D pU pV rows cols = Ok (Some s) ->
  DegreeU s = pU /\ DegreeV s = pV /\ len (KnotVectorU s) = cols + pU + 1 /\ len (KnotVectorV s) = rows + pV + 1 /\ net rows cols (SControlPoints s) /\
  forall i j, 0 <= i < rows -> 0 <= j < cols -> exists q, pt2 (SControlPoints s) i j = hom q 1.
Proof.
  intros E. destruct (GlobalApproximation_ok _ _ _ _ _ _ _ E s eq_refl) as (HD & Hr & Hc & D1 & D2 & T & C & AW & FR & FC). pose proof (arr2_len _ _ _ _ AW) as LW.
  split; [exact D1|]. split; [exact D2|]. split; [destruct (FR 0 ltac:(lia)) as (K & P & F & EK & _); rewrite <- (EK eq_refl); apply (fitted_shape _ _ _ _ _ _ F)|]. split; [destruct (FC 0 ltac:(lia)) as (K & Q & P & _ & _ & F & EK & _); rewrite <- (EK eq_refl); apply (fitted_shape _ _ _ _ _ _ F)|].
  assert (R : forall i, 0 <= i < rows -> arr (at_ nil (SControlPoints s) i) cols (fun j => hom (C i j) 1)). { intros i Hi. destruct (proj2 AW i Hi) as (row & Er & Ar). rewrite (get_at nil _ i) in Er by lia. injection Er as ->. exact Ar. }
  split; [split; [exact LW|intros i Hi; exact (arr_len _ _ _ (R i Hi))]|]. intros i j Hi Hj. exists (C i j). unfold pt2, pt. rewrite (arr_at_eq _ _ _ _ _ (R i Hi)) by exact Hj. reflexivity.
Qed.
Lemma GlobalApproximation_invalid lu D pU pV rows cols s : rows <> cols -> GlobalApproximation lu D pU pV rows cols = Ok (Some s) -> NurbsSurfaceCheck s = Throw.
Proof.
  intros Ne E. destruct (GlobalApproximation_shape _ _ _ _ _ _ _ E) as (D1 & D2 & L1 & L2 & (L3 & L4) & _). unfold NurbsSurfaceCheck.
  assert (V : IsValidNurbs (DegreeU s) (len (KnotVectorU s)) (len (SControlPoints s)) = false) by (unfold IsValidNurbs; rewrite D1, L1, L3; apply Z.eqb_neq; lia). rewrite V.
  repeat match goal with |- bind (validate ?b) _ = _ => destruct b; cbn [validate bind]; [|reflexivity] end. reflexivity.
Qed.
