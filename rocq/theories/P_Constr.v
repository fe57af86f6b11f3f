(* Changing derivatives of a curve at given parameters. *)
From Coq Require Import ZArith List Bool Reals Lra Lia.
From Verif Require Import Base Num Vec Tac Spec Spec2 Spec3 Spec4 Spec5 Spec6 Spec10 Spec19 M_MathUtils M_Polynomials M_XYZ M_Bspline M_NurbsCurve M_Curve2 M_Fit M_Geom M_Curve3
  P_MathUtils P_Math2 P_Span P_Cox P_Deriv P_Ders P_XYZ P_Vec P_VSum P_Curve P_Bspline P_Loop P_Insert P_Insert2 P_Nurbs P_Fit P_Basis P_Make P_Geom P_Local P_Shape.
Import ListNotations.
Open Scope Z_scope.

Lemma rsum_pick lo hi m (mp : Z -> Z) g e : rsum lo hi (fun j => g j * rsum 0 m (fun a => if mp a =? j then e a else 0))%R = rsum 0 m (fun a => (if (lo <=? mp a) && (mp a <? hi) then g (mp a) else 0) * e a)%R.
Proof.
  rewrite (rsum_ext lo hi _ (fun j => rsum 0 m (fun a => g j * (if mp a =? j then e a else 0))%R)) by (intros; symmetry; apply rsum_scal).
  rewrite rsum_swap. apply rsum_ext. intros a Ha. destruct (Z.leb_spec lo (mp a)); [destruct (Z.ltb_spec (mp a) hi)|]; cbn [andb].
  - rewrite (rsum_single lo hi (mp a)); [rewrite Z.eqb_refl; reflexivity|lia|]. intros j Hj Hne. destruct (Z.eqb_spec (mp a) j); [lia|ring].
  - rewrite rsum_zero; [ring|]. intros j Hj. destruct (Z.eqb_spec (mp a) j); [lia|ring].
  - rewrite rsum_zero; [ring|]. intros j Hj. destruct (Z.eqb_spec (mp a) j); [lia|ring].
Qed.


Section Con.
Variable inverse : list (list R) -> res (list (list R)).
Hypothesis Hinv : exact_inverse inverse.
Variables (p n : Z) (U : list R) (H : list (XYZW R)).
Hypothesis HU : curve_knots p n U.
Hypothesis Hp : p <= 7.
Hypothesis HH : len H = n + 1.
Let c := mkCurve p U H.
Variables (ur : list R) (D : list (XYZ R)) (Dr Dk fixed : list Z).
Let rows := len D.
Hypothesis Hrow : 0 < rows.
Hypothesis Hur : 0 < len ur.
Hypothesis HDr : len Dr = rows.
Hypothesis HDk : len Dk = rows.
Let u i := val ur (at_ 0 Dr i).
Let o i := at_ 0 Dk i.
Hypothesis Hr : forall i, 0 <= i < rows -> 0 <= at_ 0 Dr i < len ur /\ in_domain p n U (u i) /\ 0 <= o i <= p.
Hypothesis Hfix : forall f, In f fixed -> 0 <= f <= n.

Definition sp (i : Z) : Z := match GetKnotSpanIndex p U (u i) with Ok k => k | Err _ => 0 end.
Definition infl (i j : Z) : R := if (sp i - p <=? j) && (j <? sp i + 1) then GN (val U) (sp i) p j (o i) (u i) else 0%R.

Lemma sp_ok i : 0 <= i < rows -> GetKnotSpanIndex p U (u i) = Ok (sp i) /\ span_of p n U (u i) (sp i).
Proof. intros Hi. destruct (Hr i Hi) as (_ & Du & _). unfold sp. destruct (find_span p n U (u i) HU Du) as (k & -> & Hk). split; [reflexivity|exact Hk]. Qed.

Lemma rows_ok : returns (constraint_rows c ur rows Dr Dk) (fun B => arr2 B rows (n + 1) infl).
Proof.
  pose proof HU as [Hp0 Hn Hl _ _ _]. apply wp_elim. unfold constraint_rows. cbn [ControlPoints c]. rewrite HH. apply wp_bind, wp_mkvec; [lia|]. intros line Hline. apply wp_bind. apply (wp_mkvec2 0%R rows (n + 1) line); [lia|exact Hline|]. intros B0 AB0.
  apply wp_for_up with (P := fun i B => arr2 B rows (n + 1) (fun a j => if a <? i then infl a j else 0%R)); [lia| | |].
  - apply (arr2_ext _ _ _ _ _ AB0). intros i j Hi Hj. destruct (Z.ltb_spec i 0); [lia|reflexivity].
  - intros i B Hi AB. rewrite (get_at 0) by lia. cbn [bind]. destruct (Hr i Hi) as (Hri & Du & Ho). rewrite get_val by lia. cbn [bind]. cbn [Degree KnotVector c]. fold (u i). destruct (sp_ok i Hi) as (-> & Hk). cbn [bind].
    rewrite (get_at 0) by lia. cbn [bind]. fold (o i). destruct (wp_elim _ _ (BasisFunctionsDerivatives_ok U p (sp i) (o i) (u i) (span_of_ok _ _ _ _ _ HU Hk) Hp Ho (accepted_dom _ _ _ _ HU Du))) as (ders & -> & Ad). cbn [bind].
    assert (Hkn : p <= sp i <= n) by (destruct Hk; lia).
    apply wp_for_up with (P := fun j B => arr2 B rows (n + 1) (fun a b => if a <? i then infl a b else if (a =? i) && (b <? sp i - p + j) then infl a b else 0%R)); [lia| | |].
    + apply (arr2_ext _ _ _ _ _ AB). intros a b Ha Hb. destruct (Z.ltb_spec a i); [reflexivity|]. destruct (Z.eqb_spec a i); [|reflexivity]. destruct (Z.ltb_spec b (sp i - p + 0)); [|reflexivity]. cbn [andb]. unfold infl. subst a. destruct (Z.leb_spec (sp i - p) b); [lia|reflexivity].
    + intros j B1 Hj AB1. rewrite (arr2_get _ _ _ _ (o i) j Ad) by lia. cbn [bind]. apply (arr2_upd _ _ _ _ _ _ _ _ AB1); [lia|lia|]. intros m' Am. apply (arr2_ext _ _ _ _ _ Am). intros a b Ha Hb. cbv beta.
      destruct (Z.eqb_spec a i), (Z.eqb_spec b (sp i - p + j)), (Z.ltb_spec a i), (Z.ltb_spec b (sp i - p + j)), (Z.ltb_spec b (sp i - p + (j + 1))); cbn [andb]; try lia; try reflexivity.
      subst. unfold infl. destruct (Z.leb_spec (sp i - p) (sp i - p + j)); [|lia]. destruct (Z.ltb_spec (sp i - p + j) (sp i + 1)); [|lia]. reflexivity.
    + intros B1 AB1. apply (arr2_ext _ _ _ _ _ AB1). intros a b Ha Hb. destruct (Z.ltb_spec a i), (Z.ltb_spec a (i + 1)), (Z.eqb_spec a i), (Z.ltb_spec b (sp i - p + (p + 1))); cbn [andb]; try lia; try reflexivity. unfold infl. subst a. destruct (Z.ltb_spec b (sp i + 1)); [lia|]. rewrite andb_false_r. reflexivity.
  - intros B AB. apply (arr2_ext _ _ _ _ _ AB). intros a b Ha Hb. destruct (Z.ltb_spec a rows); [reflexivity|lia].
Qed.

(* the control points that may move *)
Definition moves (j : Z) : Prop := 0 <= j <= n /\ ~ In j fixed /\ exists i, 0 <= i < rows /\ (tol (infl i j * infl i j) 0 < infl i j * infl i j)%R.

Lemma map_ok B : arr2 B rows (n + 1) infl -> returns (constraint_map B rows (n + 1) fixed) (fun mp => forall j, In j mp <-> moves j).
Proof.
  pose proof HU as [Hp0 Hn Hl _ _ _]. intros AB. apply wp_elim. unfold constraint_map. apply wp_bind, wp_mkvec; [lia|]. intros r0 Ar0. apply wp_bind.
  pose (touched j := exists i, 0 <= i < rows /\ (tol (infl i j * infl i j) 0 < infl i j * infl i j)%R).
  apply wp_for_up with (P := fun j r => exists f, arr r (n + 1) f /\ forall b, 0 <= b <= n -> (f b = 0 \/ f b = 1) /\ (f b = 0 <-> b < j /\ touched b)); [lia| | |].
  - exists (fun _ => 1). split; [exact Ar0|]. intros b Hb. split; [right; reflexivity|]. split; [lia|intros (K & _); lia].
  - intros j r Hj (f & Ar & Ff).
    apply wp_bind. apply wp_for_upc with (P := fun i _ => forall a, 0 <= a < i -> ~ (tol (infl a j * infl a j) 0 < infl a j * infl a j)%R) (F := fun _ => touched j).
    + intros a Ha. lia.
    + intros i [] Hi Pi. rewrite (arr2_get _ _ _ _ i j AB) by lia. cbn [bind]. num. destruct (IsGreaterThan (infl i j * infl i j)%R 0%R) eqn:E.
      * apply wp_ok. exists i. split; [lia|]. apply gt_iff in E. rewrite <- tol_thr in E. lra.
      * apply wp_ok. intros a Ha. destruct (Z.eq_dec a i) as [->|]; [|apply Pi; lia]. intros Q. assert (E2 : IsGreaterThan (infl i j * infl i j)%R 0%R = true) by (apply gt_iff; rewrite <- tol_thr; lra). congruence.
    + intros [] Pi. apply wp_ok. exists f. split; [exact Ar|]. intros b Hb. destruct (Ff b Hb) as (F1 & F2). split; [exact F1|]. rewrite F2. split; [intros (K1 & K2); split; [lia|exact K2]|]. intros (K1 & K2). split; [|exact K2].
      destruct (Z.eq_dec b j) as [->|]; [|lia]. exfalso. destruct K2 as (i & Hi & Q). exact (Pi i ltac:(lia) Q).
    + intros _ Tj. apply (arr_upd _ _ _ _ _ _ Ar); [lia|]. intros r' Ar'. exists (fun b => if b =? j then 0 else f b). split; [exact Ar'|]. intros b Hb. destruct (Z.eqb_spec b j) as [->|].
      * split; [left; reflexivity|]. split; [intros _; split; [lia|exact Tj]|reflexivity].
      * destruct (Ff b Hb) as (F1 & F2). split; [exact F1|]. rewrite F2. split; intros (K1 & K2); (split; [lia|exact K2]).
  - intros r (f & Ar & Ff). apply wp_bind.
    apply wp_for_up with (P := fun i r => exists f, arr r (n + 1) f /\ forall b, 0 <= b <= n -> (f b = 0 <-> touched b /\ forall a, 0 <= a < i -> at_ 0 fixed a <> b)); [apply len_nonneg| | |].
    + exists f. split; [exact Ar|]. intros b Hb. destruct (Ff b Hb) as (_ & ->). split; [intros (_ & K); split; [exact K|lia]|intros (K & _); split; [lia|exact K]].
    + intros i r1 Hi (f1 & Ar1 & Ff1). rewrite (get_at 0) by lia. cbn [bind]. assert (Fi : 0 <= at_ 0 fixed i <= n) by (apply Hfix; unfold at_; apply nth_In; unfold len in Hi; lia).
      apply (arr_upd _ _ _ _ _ _ Ar1); [lia|]. intros r' Ar'. exists (fun b => if b =? at_ 0 fixed i then 1 else f1 b). split; [exact Ar'|]. intros b Hb. destruct (Z.eqb_spec b (at_ 0 fixed i)) as [->|Nb].
      * split; [lia|]. intros (_ & K). exfalso. apply (K i); [lia|reflexivity].
      * rewrite (Ff1 b Hb). split; intros (K1 & K2); (split; [exact K1|]); intros a Ha; [destruct (Z.eq_dec a i) as [->|]; [auto|apply K2; lia]|apply K2; lia].
    + intros r1 (f1 & Ar1 & Ff1). apply wp_for_up with (P := fun i mp => forall j, In j mp <-> j < i /\ moves j); [lia| | |].
      * intros j. split; [intros []|]. intros (K & (K2 & _)). lia.
      * intros i mp Hi Pm. wget Ar1. apply wp_ok. assert (Q : f1 i = 0 <-> moves i).
        { rewrite (Ff1 i ltac:(lia)). unfold moves. split.
          - intros (T & K). split; [lia|]. split; [|exact T]. intros I. apply (In_nth _ _ 0) in I. destruct I as (a & Ha & E). apply (K (Z.of_nat a)); [unfold len; lia|]. unfold at_. rewrite Nat2Z.id. exact E.
          - intros (_ & K & T). split; [exact T|]. intros a Ha E. apply K. rewrite <- E. unfold at_. apply nth_In. unfold len in Ha. lia. }
        intros j. destruct (Z.eqb_spec (f1 i) 0) as [E|E].
        -- rewrite in_app_iff, Pm. cbn [In]. split; [intros [(K1 & K2)|[<-|[]]]; split; try lia; tauto|]. intros (K1 & K2). destruct (Z.eq_dec j i) as [->|]; [right; left; reflexivity|left; split; [lia|exact K2]].
        -- rewrite Pm. split; intros (K1 & K2); (split; [|exact K2]); [lia|]. destruct (Z.eq_dec j i) as [->|]; [tauto|lia].
      * intros mp Pm j. rewrite Pm. unfold moves. split; [tauto|]. intros K. split; [lia|exact K].
Qed.

Definition rowc (i a : Z) : R := if a =? 0 then gx (pt D i) else if a =? 1 then gy (pt D i) else gz (pt D i).

Definition shift (mp : Z -> Z) (m : Z) (dp : Z -> Z -> R) (j a : Z) : R := rsum 0 m (fun b => if mp b =? j then dp b a else 0%R).

Definition pushed (P : XYZW R) (d : Z -> R) : XYZW R := (mkXYZW (wx P + ww P * d 0%Z) (wy P + ww P * d 1%Z) (wz P + ww P * d 2%Z) (ww P))%R.

Definition ready (mp : list Z) (dp : Z -> Z -> R) (H' : list (XYZW R)) : Prop :=
  len H' = n + 1 /\ (forall i a, 0 <= i < rows -> 0 <= a < 3 -> rsum 0 (len mp) (fun b => infl i (at_ 0%Z mp b) * dp b a)%R = rowc i a) /\
  (forall j, 0 <= j <= n -> pt H' j = pushed (pt H j) (shift (at_ 0%Z mp) (len mp) dp j)).

Lemma Con_run : ((forall j, ~ moves j) /\ ConstraintBasedModification inverse c ur D Dr Dk fixed = UB) \/
  exists mp G, 0 < len mp /\ (forall j, In j mp <-> moves j) /\ is_mat G rows rows (fun i r => rsum 0 (len mp) (fun b => infl i (at_ 0%Z mp b) * infl r (at_ 0%Z mp b))%R) /\
    match inverse G with Err e => ConstraintBasedModification inverse c ur D Dr Dk fixed = Err e
    | Ok _ => exists dp H', ConstraintBasedModification inverse c ur D Dr Dk fixed = Ok (mkCurve p U H') /\ ready mp dp H' end.
Proof.
  pose proof HU as [Hp0 Hn Hl _ _ _]. unfold ConstraintBasedModification. fold rows. cbn [ControlPoints Degree KnotVector c]. rewrite HH. rewrite HDr, HDk, HDr || rewrite HDr, HDk.
  destruct (Z.ltb_spec 0 (len ur)); [|lia]. destruct (Z.ltb_spec 0 rows); [|lia]. rewrite !Z.eqb_refl. cbn [validate bind].
  destruct rows_ok as (B & EB & AB). fold c. rewrite EB. cbn [bind]. destruct (map_ok B AB) as (mp & EM & Hmp). rewrite EM. cbn [bind]. set (m := len mp).
  assert (Hmi : forall b, 0 <= b < m -> 0 <= at_ 0%Z mp b <= n). { intros b Hb. assert (I : In (at_ 0%Z mp b) mp) by (unfold at_; apply nth_In; unfold m, len in Hb; lia). apply Hmp in I. apply I. }
  assert (Hm0 : 0 <= m) by apply len_nonneg.
  destruct (wp_elim _ _ (wp_mkvec 0%R m (fun l => arr l m (fun _ => 0%R)) Hm0 (fun l A => A))) as (line & EL & AL). num. rewrite EL. cbn [bind].
  destruct (wp_elim _ _ (wp_mkvec2 0%R rows m line (fun l => arr2 l rows m (fun _ _ => 0%R)) ltac:(lia) AL (fun l A => A))) as (O0 & EO & AO). rewrite EO. cbn [bind].
  match goal with |- context [for_up 0 m O0 ?body] => assert (EQ : returns (for_up 0 m O0 body) (fun O => arr2 O rows m (fun i j => infl i (at_ 0%Z mp j)))) end.
  { apply wp_elim. apply wp_for_up with (P := fun j O => arr2 O rows m (fun i b => if b <? j then infl i (at_ 0%Z mp b) else 0%R)); [lia| | |].
    - apply (arr2_ext _ _ _ _ _ AO). intros i j Hi Hj. destruct (Z.ltb_spec j 0); [lia|reflexivity].
    - intros j O Hj AOj. rewrite (arr2_len _ _ _ _ AB). apply wp_for_up with (P := fun i O => arr2 O rows m (fun a b => if (b <? j) || ((b =? j) && (a <? i)) then infl a (at_ 0%Z mp b) else 0%R)); [lia| | |].
      + apply (arr2_ext _ _ _ _ _ AOj). intros a b Ha Hb. destruct (Z.ltb_spec a 0); [lia|]. rewrite andb_false_r, orb_false_r. reflexivity.
      + intros i O1 Hi AO1. rewrite (get_at 0) by (fold m; lia). cbn [bind]. rewrite (arr2_get _ _ _ _ i (at_ 0%Z mp j) AB) by (try apply Z.lt_succ_r; pose proof (Hmi j ltac:(lia)); lia). cbn [bind]. apply (arr2_upd _ _ _ _ _ _ _ _ AO1); [lia|lia|]. intros O2 AO2. apply (arr2_ext _ _ _ _ _ AO2). intros a b Ha Hb. cbv beta.
        destruct (Z.eqb_spec a i), (Z.eqb_spec b j), (Z.ltb_spec b j), (Z.ltb_spec a i), (Z.ltb_spec a (i + 1)); subst; cbn [andb orb]; try lia; reflexivity.
      + intros O1 AO1. apply (arr2_ext _ _ _ _ _ AO1). intros a b Ha Hb. destruct (Z.eqb_spec b j), (Z.ltb_spec b j), (Z.ltb_spec a rows), (Z.ltb_spec b (j + 1)); cbn [andb orb]; try lia; reflexivity.
    - intros O AOj. apply (arr2_ext _ _ _ _ _ AOj). intros i j Hi Hj. destruct (Z.ltb_spec j m); [reflexivity|lia]. }
  destruct EQ as (O & -> & AOf). cbn [bind].
  destruct (Transpose_spec O rows m _ ltac:(lia) Hm0 AOf) as (Ot & -> & AOt). cbn [bind].
  destruct (Z.eq_dec m 0) as [Em|]. { unfold MatrixMultiply. destruct AOf as (LO1 & RO). destruct (RO 0 ltac:(lia)) as (row & -> & _). cbn [bind]. assert (Ot = []) as -> by (destruct AOt as (LO & _); destruct Ot; [reflexivity|rewrite Em in LO; unfold len in LO; cbn [length] in LO; lia]). left. split; [|reflexivity]. intros j Mj. apply Hmp in Mj. unfold m in Em. destruct mp; [exact Mj|unfold len in Em; cbn [length] in Em; lia]. }
  destruct (MatrixMultiply_spec O Ot rows m rows _ _ ltac:(lia) ltac:(lia) ltac:(lia) AOf AOt) as (G & -> & AG). cbn [bind]. right. exists mp, G. fold m. split; [lia|]. split; [exact Hmp|]. split; [exact AG|].
  destruct (inverse G) as [Y|] eqn:EY; [|reflexivity]. cbn [bind]. destruct (proj1 Hinv rows G Y _ Hrow AG EY) as (fY & AY & IY).
  destruct (MatrixMultiply_spec Ot Y m rows rows _ _ ltac:(lia) ltac:(lia) ltac:(lia) AOt AY) as (M & -> & AM). cbn [bind].
  assert (AD : is_mat (map point_row D) rows 3 rowc).
  { split; [unfold len; rewrite map_length; reflexivity|]. intros i Hi. exists (point_row (pt D i)). split.
    - unfold get, pt, at_. destruct (Z.ltb_spec i 0); [lia|]. rewrite nth_error_map. rewrite (nth_error_nth' D vzero) by (unfold rows, len in Hi; lia). reflexivity.
    - split; [reflexivity|]. intros j Hj. assert (j = 0 \/ j = 1 \/ j = 2) as [-> | [-> | ->]] by lia; reflexivity. }
  destruct (MatrixMultiply_spec M _ m rows 3 _ _ ltac:(lia) ltac:(lia) ltac:(lia) AM AD) as (dP & -> & AP). cbn [bind].
  match type of AP with is_mat _ _ _ ?f => set (dp := f) in AP end.
  match goal with |- context [for_up 0 m H ?body] => assert (EQ : returns (for_up 0 m H body) (fun H' => arr H' (n + 1) (fun j => pushed (pt H j) (shift (at_ 0%Z mp) m dp j)))) end.
  { apply wp_elim. apply wp_for_up with (P := fun b H' => arr H' (n + 1) (fun j => pushed (pt H j) (shift (at_ 0%Z mp) b dp j))); [lia| |  |intros H' A; exact A].
    - rewrite <- HH. apply (arr_ext _ _ (pt H)); [apply arr_at|]. intros j Hj. unfold pushed, shift. rewrite !(rsum_nil 0 0) by lia. destruct (pt H j) as [a0 b0 c0 d0]. cbn [wx wy wz ww]. f_equal; ring.
    - intros b Hq Hb A1. rewrite (get_at 0) by (fold m; lia). cbn [bind]. pose proof (Hmi b Hb). wget A1. rewrite !(arr2_get _ _ _ _ b _ AP) by lia. cbn [bind wx wy wz ww]. apply (arr_upd _ _ _ _ _ _ A1); [lia|]. intros Hq2 A2. apply (arr_ext _ _ _ _ A2). intros j Hj. cbv beta.
      unfold pushed, shift. cbn [wx wy wz ww]. rewrite !rsum_last by lia. rewrite (Z.eqb_sym (at_ 0%Z mp b) j). destruct (Z.eqb_spec j (at_ 0%Z mp b)) as [->|]; f_equal; num; ring. }
  destruct EQ as (H' & -> & A'). cbn [bind]. exists dp, H'. split; [reflexivity|]. split; [apply (arr_len _ _ _ A')|]. fold m. split.
  - intros i a Hi Ha. unfold dp.
    rewrite (rsum_ext 0 m _ (fun b => rsum 0 rows (fun l => rsum 0 rows (fun r => infl i (at_ 0%Z mp b) * infl r (at_ 0%Z mp b) * fY r l * rowc l a)))%R).
    2:{ intros b Hb. rewrite <- rsum_scal. apply rsum_ext. intros l Hl2. rewrite <- rsum_scal_r. rewrite <- rsum_scal. apply rsum_ext. intros; ring. }
    rewrite rsum_swap. rewrite (rsum_ext 0 rows _ (fun l => (if i =? l then 1 else 0) * rowc l a)%R).
    + rewrite (rsum_single 0 rows i); [rewrite Z.eqb_refl; ring|lia|]. intros l Hl2 Ne. destruct (Z.eqb_spec i l); [lia|ring].
    + intros l Hl2. rewrite rsum_swap. rewrite <- (IY i l Hi Hl2). rewrite <- rsum_scal_r. apply rsum_ext. intros r Hr2. rewrite <- !rsum_scal_r. apply rsum_ext. intros b Hb. ring.
  - intros j Hj. exact (arr_pt_eq _ _ _ j A' ltac:(lia)).
Qed.

(* one coordinate *)
Lemma coord_change k i m (cs : nat) (a : Z) (w0 : R) (mp : list Z) (dp : Z -> Z -> R) (H' : list (XYZW R)) (F F' : R -> R) (G G' : R -> R) : (w0 <> 0)%R -> 0 <= i < rows -> k = sp i -> m = o i ->
  (forall x, F x = rsum (k - p) (k + 1) (fun j => Nspan (val U) k (Z.to_nat p) j x * co cs (pt H j)) / w0)%R ->
  (forall x, F' x = rsum (k - p) (k + 1) (fun j => Nspan (val U) k (Z.to_nat p) j x * co cs (pt H' j)) / w0)%R ->
  (forall j, 0 <= j <= n -> co cs (pt H' j) = (co cs (pt H j) + w0 * shift (at_ 0%Z mp) (len mp) dp j a)%R) ->
  rsum 0 (len mp) (fun b => infl i (at_ 0%Z mp b) * dp b a)%R = rowc i a ->
  nth_deriv (Z.to_nat m) F G -> nth_deriv (Z.to_nat m) F' G' -> (G' (u i) = G (u i) + rowc i a)%R.
Proof.
  intros W0 Hi -> -> EF EF' EH ER DF DF'. destruct (sp_ok i Hi) as (_ & Hk). destruct (Hr i Hi) as (_ & Du & Ho). pose proof HU as [Hp0 Hn Hl _ _ _]. assert (Hkn : p <= sp i <= n) by (destruct Hk; lia).
  pose (S x := rsum (sp i - p) (sp i + 1) (fun j => Nspan (val U) (sp i) (Z.to_nat p) j x * shift (at_ 0%Z mp) (len mp) dp j a)%R).
  pose (dS x := rsum (sp i - p) (sp i + 1) (fun j => GN (val U) (sp i) p j (o i) x * shift (at_ 0%Z mp) (len mp) dp j a)%R).
  assert (DS : nth_deriv (Z.to_nat (o i)) S dS). { apply nth_deriv_rsum. intros j Hj. exact (GN_is_deriv p n U (u i) (sp i) j (o i) HU Hk Ho). }
  assert (E : forall x, F' x = (F x + S x)%R).
  { intros x. rewrite EF, EF'. unfold S. rewrite (rsum_ext _ _ (fun j => Nspan (val U) (sp i) (Z.to_nat p) j x * co cs (pt H' j))%R (fun j => Nspan (val U) (sp i) (Z.to_nat p) j x * co cs (pt H j) + w0 * (Nspan (val U) (sp i) (Z.to_nat p) j x * shift (at_ 0%Z mp) (len mp) dp j a))%R) by (intros j Hj; rewrite EH by lia; ring).
    rewrite rsum_plus, rsum_scal. field. exact W0. }
  assert (DS' : nth_deriv (Z.to_nat (o i)) F' (fun x => G x + dS x)%R).
  { apply nth_deriv_ext with (fun x => rsum 0 2 (fun q => (if q =? 0 then F x else S x) * 1))%R. { intros x. rewrite E. change 2 with (1 + 1). rewrite P_Make.rsum_2. cbn [Z.eqb]. ring. }
    apply nth_deriv_ext_r with (fun x => rsum 0 2 (fun q => (if q =? 0 then G x else dS x) * 1))%R. { intros x. change 2 with (1 + 1). rewrite P_Make.rsum_2. cbn [Z.eqb]. ring. }
    apply (nth_deriv_rsum (Z.to_nat (o i)) 0 2 (fun q x => if q =? 0 then F x else S x) (fun q x => if q =? 0 then G x else dS x)). intros q Hq. destruct (q =? 0); assumption. }
  rewrite (nth_deriv_unique _ _ _ _ DF' DS' (u i)). f_equal. unfold dS, shift. rewrite rsum_pick. rewrite <- ER. apply rsum_ext. intros b Hb. unfold infl. reflexivity.
Qed.

Lemma on_all (Dm : R -> Prop) : (forall x, Dm x) -> forall k f g, nth_deriv_on Dm k f g -> nth_deriv k f g.
Proof. intros A. induction k as [|k IH]; cbn [nth_deriv_on nth_deriv]; intros f g; [intros E t; apply E, A|]. intros (h & Dh & Q). exists h. split; [intros t; apply Dh, A|apply IH, Q]. Qed.

Lemma Con_deriv w0 c' : (w0 <> 0)%R -> (forall j, 0 <= j <= n -> ww (pt H j) = w0) -> ConstraintBasedModification inverse c ur D Dr Dk fixed = Ok c' ->
  exists H', c' = mkCurve p U H' /\ len H' = n + 1 /\ (forall j, 0 <= j <= n -> ww (pt H' j) = w0) /\ (forall j, 0 <= j <= n -> ~ moves j -> pt H' j = pt H j) /\
    forall i g g', 0 <= i < rows -> curve_derivs p n U H (o i) (u i) g -> curve_derivs p n U H' (o i) (u i) g' -> g' (o i) = plus3 (g (o i)) (pt D i).
Proof.
  intros W0 HW E. destruct Con_run as [(_ & E0)|(mp & G0 & Lm & Hmp & AG & E0)]; [rewrite E in E0; discriminate|]. destruct (inverse G0) as [Y|]; [|rewrite E in E0; discriminate]. destruct E0 as (dp & H' & E0 & LH & ER & EH). rewrite E in E0. injection E0 as ->. pose proof HU as [Hp0 Hn Hl _ _ _]. exists H'. split; [reflexivity|]. split; [exact LH|]. split; [intros j Hj; rewrite EH by exact Hj; apply HW; exact Hj|]. split.
  - intros j Hj Nj. rewrite EH by exact Hj. assert (Z0 : forall a, shift (at_ 0%Z mp) (len mp) dp j a = 0%R).
    { intros a. apply rsum_zero. intros b Hb. destruct (Z.eqb_spec (at_ 0 mp b) j) as [Q|]; [|reflexivity]. exfalso. apply Nj, Hmp. rewrite <- Q. unfold at_. apply nth_In. unfold len in Hb. lia. }
    unfold pushed. rewrite !Z0. destruct (pt H j) as [x y z w]. cbn [wx wy wz ww]. f_equal; ring.
  - intros i g g' Hi (k & Hk & G) (k' & Hk' & G'). destruct (sp_ok i Hi) as (Es & Hs). destruct (Hr i Hi) as (_ & Du & Ho).
    assert (k = sp i) as -> by (pose proof (find_span_eq _ _ _ _ _ HU Hk); congruence). assert (k' = sp i) as -> by (pose proof (find_span_eq _ _ _ _ _ HU Hk'); congruence). assert (Hkn : p <= sp i <= n) by (destruct Hs; lia).
    destruct (G (o i) ltac:(lia)) as (F & (Fx & Fy & Fz) & <-). destruct (G' (o i) ltac:(lia)) as (F' & (Fx' & Fy' & Fz') & <-).
    assert (SW : forall K x, (forall j, 0 <= j <= n -> ww (pt K j) = w0) -> ww (span_curve (sp i) p U K x) = w0).
    { intros K x HK. change (ww (span_curve (sp i) p U K x)) with (co 3 (span_curve (sp i) p U K x)). unfold span_curve. rewrite co_comb. rewrite (rsum_ext _ _ _ (fun j => Nspan (val U) (sp i) (Z.to_nat p) j x * w0)%R) by (intros j Hj; f_equal; apply HK; lia). rewrite rsum_scal_r.
      replace (rsum (sp i - p) (sp i + 1) (fun j => Nspan (val U) (sp i) (Z.to_nat p) j x)) with 1%R; [ring|]. symmetry. apply (NS_sum (val U) (sp i) p x Hp0). apply span_good. eapply span_of_ok; eauto. }
    assert (HW' : forall j, 0 <= j <= n -> ww (pt H' j) = w0) by (intros j Hj; rewrite EH by exact Hj; apply HW; exact Hj).
    assert (PX : forall K x, (forall j, 0 <= j <= n -> ww (pt K j) = w0) -> proj (span_curve (sp i) p U K x) = mkXYZ (rsum (sp i - p) (sp i + 1) (fun j => Nspan (val U) (sp i) (Z.to_nat p) j x * co 0 (pt K j)) / w0)%R (rsum (sp i - p) (sp i + 1) (fun j => Nspan (val U) (sp i) (Z.to_nat p) j x * co 1 (pt K j)) / w0)%R (rsum (sp i - p) (sp i + 1) (fun j => Nspan (val U) (sp i) (Z.to_nat p) j x * co 2 (pt K j)) / w0)%R).
    { intros K x HK. unfold proj. rewrite (SW K x HK). f_equal; f_equal; [exact (co_comb 0 _ _ _ _)|exact (co_comb 1 _ _ _ _)|exact (co_comb 2 _ _ _ _)]. }
    assert (A1 : forall x, ww (span_curve (sp i) p U H x) <> 0%R) by (intros x; rewrite (SW H x HW); exact W0). assert (A2 : forall x, ww (span_curve (sp i) p U H' x) <> 0%R) by (intros x; rewrite (SW H' x HW'); exact W0).
    apply (on_all _ A1) in Fx, Fy, Fz. apply (on_all _ A2) in Fx', Fy', Fz'.
    assert (CX : gx (F' (u i)) = (gx (F (u i)) + rowc i 0)%R). { apply (coord_change (sp i) i (o i) 0 0 w0 mp dp H' _ _ _ _ W0 Hi eq_refl eq_refl) with (5 := Fx) (6 := Fx'); [intros x; rewrite PX by exact HW; reflexivity|intros x; rewrite PX by exact HW'; reflexivity| |apply ER; lia]. intros j Hj. rewrite EH by exact Hj. cbn. rewrite HW by exact Hj. reflexivity. }
    assert (CY : gy (F' (u i)) = (gy (F (u i)) + rowc i 1)%R). { apply (coord_change (sp i) i (o i) 1 1 w0 mp dp H' _ _ _ _ W0 Hi eq_refl eq_refl) with (5 := Fy) (6 := Fy'); [intros x; rewrite PX by exact HW; reflexivity|intros x; rewrite PX by exact HW'; reflexivity| |apply ER; lia]. intros j Hj. rewrite EH by exact Hj. cbn. rewrite HW by exact Hj. reflexivity. }
    assert (CZ : gz (F' (u i)) = (gz (F (u i)) + rowc i 2)%R). { apply (coord_change (sp i) i (o i) 2 2 w0 mp dp H' _ _ _ _ W0 Hi eq_refl eq_refl) with (5 := Fz) (6 := Fz'); [intros x; rewrite PX by exact HW; reflexivity|intros x; rewrite PX by exact HW'; reflexivity| |apply ER; lia]. intros j Hj. rewrite EH by exact Hj. cbn. rewrite HW by exact Hj. reflexivity. }
    destruct (F' (u i)) as [x' y' z']. cbn [gx gy gz] in CX, CY, CZ. rewrite CX, CY, CZ. reflexivity.
Qed.

Lemma moves_span j k g i : 0 <= i < rows -> 0 <= j <= n -> ~ In j fixed -> span_of p n U (u i) k -> k - p <= j <= k -> nth_deriv (Z.to_nat (o i)) (Nspan (val U) k (Z.to_nat p) j) g -> (tol (g (u i) * g (u i)) 0 < g (u i) * g (u i))%R -> moves j.
Proof.
  intros Hi Hj Nj Hk Hjk Dg T. split; [exact Hj|]. split; [exact Nj|]. exists i. split; [exact Hi|]. destruct (sp_ok i Hi) as (Es & Hs). assert (k = sp i) as -> by (pose proof (find_span_eq _ _ _ _ _ HU Hk); congruence). destruct (Hr i Hi) as (_ & _ & Ho).
  unfold infl. destruct (Z.leb_spec (sp i - p) j); [|lia]. destruct (Z.ltb_spec j (sp i + 1)); [|lia]. cbn [andb]. rewrite <- (nth_deriv_unique _ _ _ _ Dg (GN_is_deriv p n U (u i) (sp i) j (o i) HU Hs Ho) (u i)). exact T.
Qed.

Lemma moves_near j : moves j -> exists i k, 0 <= i < rows /\ span_of p n U (u i) k /\ k - p <= j <= k.
Proof.
  intros (Hj & _ & i & Hi & T). destruct (sp_ok i Hi) as (_ & Hs). exists i, (sp i). split; [exact Hi|]. split; [exact Hs|]. unfold infl in T. destruct (Z.leb_spec (sp i - p) j), (Z.ltb_spec j (sp i + 1)); cbn [andb] in T; try lia; pose proof (tol_pos (0 * 0) 0); lra.
Qed.

(* one constraint that a free control point influences: the call returns *)
Lemma Con_single j : rows = 1 -> moves j -> exists c', ConstraintBasedModification inverse c ur D Dr Dk fixed = Ok c'.
Proof.
  intros R1 Mj. destruct Con_run as [(No & _)|(mp & G & Lm & Hmp & AG & E)]; [exfalso; exact (No j Mj)|].
  destruct (proj2 Hinv rows G _ Hrow AG) as (Y & EY).
  - rewrite R1. intros x Hx l Hl. assert (l = 0) as -> by lia. specialize (Hx 0 ltac:(lia)). change 1 with (0 + 1) in Hx. rewrite rsum_one in Hx.
    destruct (Rmult_integral _ _ Hx) as [Z|Z]; [exfalso|exact Z]. pose proof Mj as Q. apply Hmp in Q. apply (In_nth _ _ 0) in Q. destruct Q as (b & Hb & Eb). destruct Mj as (_ & _ & i & Hi & T). assert (i = 0) as -> by lia.
    pose proof (P_Local.rsum_all_zero 0 (len mp) _ (fun b _ => Rle_0_sqr (infl 0 (at_ 0%Z mp b))) Z (Z.of_nat b) ltac:(unfold len; lia)) as Q. cbv beta in Q. unfold Rsqr in Q. unfold at_ in Q. rewrite Nat2Z.id, Eb in Q. rewrite Q in T. pose proof (tol_pos 0 0). lra.
  - rewrite EY in E. destruct E as (dp & H' & E & _). eexists. exact E.
Qed.

Lemma Con_fixed : (forall j, 0 <= j <= n -> In j fixed) -> ConstraintBasedModification inverse c ur D Dr Dk fixed = UB.
Proof.
  intros A. destruct Con_run as [(_ & E)|(mp & G & Lm & Hmp & _)]; [exact E|]. exfalso. assert (I : In (at_ 0 mp 0) mp) by (unfold at_; apply nth_In; unfold len in Lm; lia). apply Hmp in I. destruct I as (I1 & I2 & _). apply I2, A, I1.
Qed.
End Con.

(* an exact inverse: solve, then check *)
Definition checked_inverse (A : list (list R)) : res (list (list R)) :=
  let m := len A in
  let! Id := MakeDiagonal m in
  let! X := gauss_solver A Id in
  if (len X =? m) && forallb (fun row => len row =? m) X then
    let! P := MatrixMultiply A X in
    if list_eq_dec (list_eq_dec Req_EM_T) P Id then Ok X else NonFin
  else NonFin.

Lemma checked_inverse_exact : exact_inverse checked_inverse.
Proof.
  split.
  - intros m A Y fA Hm AA. unfold checked_inverse. assert (LA : len A = m) by apply AA. rewrite LA. destruct (wp_elim _ _ (MakeDiagonal_ok m ltac:(lia))) as (Id & -> & AI). cbn [bind].
    destruct (gauss_solver A Id) as [X|]; [|discriminate]. cbn [bind]. destruct (Z.eqb_spec (len X) m) as [LX|]; [|discriminate]. destruct (forallb _ X) eqn:FX; [|discriminate]. cbn [andb].
    pose (fX := fun i j => val (at_ [] X i) j). assert (AX : is_mat X m m fX).
    { split; [exact LX|]. intros i Hi. exists (at_ [] X i). split; [apply get_at; lia|]. rewrite forallb_forall in FX. assert (LR : len (at_ [] X i) = m). { apply Z.eqb_eq, FX. unfold at_. apply nth_In. unfold len in LX. lia. } rewrite <- LR. apply arr_at. }
    destruct (MatrixMultiply_spec A X m m m fA fX Hm Hm ltac:(lia) AA AX) as (P & -> & AP). cbn [bind]. destruct (list_eq_dec (list_eq_dec Req_EM_T) P Id) as [E|]; [|discriminate]. intros Q. injection Q as <-. exists fX. split; [exact AX|]. intros i j Hi Hj.
    subst P. pose proof (arr2_get _ _ _ _ i j AP Hi Hj) as G1. rewrite (arr2_get _ _ _ _ i j AI Hi Hj) in G1. injection G1 as G1. rewrite <- G1. reflexivity.
  - intros m A fA Hm AA RA. unfold checked_inverse. assert (LA : len A = m) by apply AA. rewrite LA. destruct (wp_elim _ _ (MakeDiagonal_ok m ltac:(lia))) as (Id & -> & AI). cbn [bind].
    destruct (gauss_exact m m A Id fA _ Hm Hm AA AI RA) as (X & -> & fX & AX & SX). cbn [bind]. assert (LX : len X = m) by apply AX. rewrite LX, Z.eqb_refl. assert (FX : forallb (fun row => len row =? m) X = true).
    { apply forallb_forall. intros row Ir. apply (In_nth _ _ []) in Ir. destruct Ir as (b & Hb & Eb). destruct AX as (_ & AX). destruct (AX (Z.of_nat b) ltac:(unfold len in LX; lia)) as (row' & G & LR & _). rewrite (get_at []) in G by (unfold len; lia). injection G as G. unfold at_ in G. rewrite Nat2Z.id, Eb in G. subst row'. apply Z.eqb_eq, LR. }
    rewrite FX. cbn [andb]. destruct (MatrixMultiply_spec A X m m m fA fX Hm Hm ltac:(lia) AA AX) as (P & -> & AP). cbn [bind].
    assert (P = Id) as ->. { apply (arr2_inj _ _ m m _ AP). apply (arr2_ext _ _ _ _ _ AI). intros i j Hi Hj. symmetry. apply SX; assumption. }
    destruct (list_eq_dec _ Id Id) as [|N]; [|contradiction]. eexists. reflexivity.
Qed.

Lemma equal_weight p n U (K : list (XYZW R)) w t : curve_knots p n U -> (forall j, 0 <= j <= n -> ww (pt K j) = w) -> in_domain p n U t -> ww (curve_point p n U K t) = w.
Proof.
  intros HU HK Du. change (co 3 (curve_point p n U K t) = w). unfold curve_point. rewrite co_comb. rewrite (rsum_ext _ _ _ (fun i => N (val U) (val U (n + 1)) (Z.to_nat p) i t * w)%R) by (intros i Hi; f_equal; apply HK; lia).
  rewrite rsum_scal_r, (N_sum p n U t HU Du). ring.
Qed.
