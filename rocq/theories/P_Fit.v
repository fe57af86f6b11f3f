(* Interpolation: the collocation matrix, its regularity, and the resulting curve. *)
From Coq Require Import ZArith List Bool Reals Lra Lia.
From Verif Require Import Base Num Vec Tac Spec Spec2 Spec3 Spec6 M_MathUtils M_Polynomials M_XYZ M_Bspline M_NurbsCurve M_Geom M_Interp M_Fit
  P_Vec P_Loop P_Reparam P_Nurbs P_Cox P_Basis P_Span P_Curve P_VSum P_XYZ P_Bspline P_Interp P_Interp2 P_SW.
Import ListNotations.
Open Scope Z_scope.

(* ---------------- an exact solver ---------------- *)
(* elimination with any non-zero pivot in the last column *)
Definition skip (i r : Z) : Z := if r <? i then r else r + 1.
Fixpoint find_pivot (m : nat) (f : Z -> R) : option Z :=
  match m with
  | O => None
  | S m' => if Reqb (f (Z.of_nat m')) 0 then find_pivot m' f else Some (Z.of_nat m')
  end.
Fixpoint gauss (m : nat) (A : Z -> Z -> R) (b : Z -> R) : Z -> R :=
  match m with
  | O => fun _ => 0%R
  | S m' => let z := Z.of_nat m' in
      match find_pivot m (fun i => A i z) with
      | None => fun _ => 0%R
      | Some i =>
          let x := gauss m' (fun r l => A (skip i r) l - A (skip i r) z / A i z * A i l)%R
                            (fun r => b (skip i r) - A (skip i r) z / A i z * b i)%R in
          fun l => if l =? z then ((b i - rsum 0 z (fun l => A i l * x l)) / A i z)%R else x l
      end
  end.

Lemma find_pivot_some m f i : find_pivot m f = Some i -> 0 <= i < Z.of_nat m /\ f i <> 0%R.
Proof.
  induction m as [|m IH]; cbn [find_pivot]; [discriminate|]. unfold Reqb. destruct (Req_EM_T _ _) as [E|E]; intros H.
  - apply IH in H. split; [lia|apply H].
  - injection H as <-. split; [lia|exact E].
Qed.
Lemma find_pivot_none m f : find_pivot m f = None -> forall i, 0 <= i < Z.of_nat m -> f i = 0%R.
Proof.
  induction m as [|m IH]; cbn [find_pivot]; [intros; lia|]. unfold Reqb. destruct (Req_EM_T _ _) as [E|E]; intros H i Hi; [|discriminate].
  destruct (Z.eq_dec i (Z.of_nat m)) as [->|]; [exact E|]. apply IH; [exact H|lia].
Qed.

Lemma skip_range m i r : 0 <= r < m -> 0 <= i <= m -> 0 <= skip i r <= m /\ skip i r <> i.
Proof. intros H1 H2. unfold skip. zcase; lia. Qed.
Lemma skip_onto m i s : 0 <= i <= m -> 0 <= s <= m -> s <> i -> exists r, 0 <= r < m /\ skip i r = s.
Proof.
  intros H1 H2 H3. exists (if s <? i then s else s - 1). unfold skip. destruct (Z.ltb_spec s i).
  - split; [lia|]. destruct (Z.ltb_spec s i); lia.
  - split; [lia|]. destruct (Z.ltb_spec (s - 1) i); lia.
Qed.

Lemma rsum_lin lo hi a f g x : rsum lo hi (fun l => (f l - a * g l) * x l)%R = (rsum lo hi (fun l => f l * x l) - a * rsum lo hi (fun l => g l * x l))%R.
Proof. rewrite <- rsum_scal, <- rsum_minus. apply rsum_ext. intros. ring. Qed.

Lemma gauss_ok : forall m A b, regular (Z.of_nat m) A -> forall i, 0 <= i < Z.of_nat m -> rsum 0 (Z.of_nat m) (fun l => A i l * gauss m A b l)%R = b i.
Proof.
  induction m as [|m IH]; intros A b HR r Hr; [lia|]. cbn [gauss]. set (z := Z.of_nat m) in *.
  replace (Z.of_nat (S m)) with (z + 1) in * by lia.
  destruct (find_pivot (S m) (fun i => A i z)) as [i|] eqn:Ep.
  - apply find_pivot_some in Ep. cbv beta in Ep. destruct Ep as [Hi Hpv]. assert (Hi' : 0 <= i <= z) by lia.
    set (A' := fun r l => (A (skip i r) l - A (skip i r) z / A i z * A i l)%R).
    set (b' := fun r => (b (skip i r) - A (skip i r) z / A i z * b i)%R).
    assert (HR' : regular z A').
    { intros c Hc l Hl. pose (c' := fun l => if l =? z then (- rsum 0 z (fun l => A i l * c l) / A i z)%R else c l).
      assert (E : c' l = 0%R).
      { apply (HR c'); [|lia]. intros s Hs. rewrite rsum_last by lia.
        assert (Er : forall q, rsum 0 z (fun l => A q l * c' l)%R = rsum 0 z (fun l => A q l * c l)%R).
        { intros q. apply rsum_ext. intros j Hj. unfold c'. zcase; [lia|reflexivity]. }
        rewrite Er. replace (c' z) with (- rsum 0 z (fun l => A i l * c l) / A i z)%R by (unfold c'; rewrite Z.eqb_refl; reflexivity).
        destruct (Z.eq_dec s i) as [->|Hne]; [field; exact Hpv|].
        destruct (skip_onto z i s Hi' ltac:(lia) Hne) as (r' & Hr' & Es). pose proof (Hc r' Hr') as Hc'. unfold A' in Hc'.
        rewrite rsum_lin, Es in Hc'. rewrite <- Hc'. field. exact Hpv. }
      unfold c' in E. destruct (Z.eqb_spec l z); [lia|exact E]. }
    set (x := gauss m A' b'). assert (IHx : forall r, 0 <= r < z -> rsum 0 z (fun l => A' r l * x l)%R = b' r) by (intros; apply IH; assumption).
    rewrite rsum_last by lia. rewrite Z.eqb_refl.
    rewrite (rsum_ext 0 z _ (fun l => A r l * x l)%R) by (intros l Hl; zcase; [lia|reflexivity]).
    destruct (Z.eq_dec r i) as [->|Hne]; [field; exact Hpv|].
    destruct (skip_onto z i r Hi' ltac:(lia) Hne) as (r' & Hr' & Es). pose proof (IHx r' Hr') as Hx. unfold A', b' in Hx. rewrite rsum_lin, Es in Hx.
    assert (E : b r = (b r - A r z / A i z * b i + A r z / A i z * b i)%R) by ring. rewrite E, <- Hx. field. exact Hpv.
  - exfalso. pose proof (find_pivot_none _ _ Ep) as Hz. cbv beta in Hz.
    assert (E : (if z =? z then 1 else 0)%R = 0%R).
    { apply (HR (fun l => if l =? z then 1 else 0)%R); [|lia]. intros s Hs. rewrite rsum_last by lia. rewrite Z.eqb_refl, Hz by lia.
      rewrite rsum_zero; [ring|]. intros l Hl. zcase; [lia|]. ring. }
    rewrite Z.eqb_refl in E. lra.
Qed.

Definition gauss_solver (A B : list (list R)) : res (list (list R)) :=
  let e M i j := val (at_ nil M i) j in
  Ok (mklist (len A) (fun i => mklist (len (at_ nil B 0)) (fun j => gauss (length A) (e A) (fun r => e B r j) i))).

Lemma get_row {X} (d : X) l i x : get l i = Ok x -> 0 <= i < len l -> at_ d l i = x.
Proof. intros E H. rewrite (get_at d) in E by exact H. congruence. Qed.

Lemma mat_ent (M : list (list R)) r c f i j : is_mat M r c f -> 0 <= i < r -> 0 <= j < c -> val (at_ nil M i) j = f i j.
Proof.
  intros [L H] Hi Hj. destruct (H i Hi) as (row & E & Hrow). rewrite (get_row nil _ _ _ E) by lia. apply (arr_at_eq _ _ _ _ _ Hrow Hj).
Qed.

Lemma regular_ext m A B : (forall i j, 0 <= i < m -> 0 <= j < m -> A i j = B i j) -> regular m A -> regular m B.
Proof.
  intros HE HR c Hc. apply HR. intros i Hi. rewrite <- (Hc i Hi). apply rsum_ext. intros l Hl. rewrite HE by lia. reflexivity.
Qed.

Lemma gauss_exact : exact_solver gauss_solver.
Proof.
  intros m k A B fA fB Hm Hk HA HB HR. pose proof (proj1 HA) as LA.
  pose proof (fun i j => mat_ent A m m fA i j HA) as GA. pose proof (fun i j => mat_ent B m k fB i j HB) as GB.
  assert (LB : len (at_ nil B 0) = k).
  { destruct (proj2 HB 0 ltac:(lia)) as (row & E & Hrow). rewrite (get_row nil _ _ _ E) by (destruct HB; lia). exact (proj1 Hrow). }
  eexists. split; [reflexivity|]. rewrite LA, LB.
  set (x := fun l j => gauss (length A) (fun i j0 => val (at_ nil A i) j0) (fun r => val (at_ nil B r) j) l). exists x. split.
  - pose proof (arr_mklist m (fun i => mklist k (x i)) ltac:(lia)) as Ha. split; [exact (proj1 Ha)|]. intros i Hi.
    exists (mklist k (x i)). split; [exact (proj2 Ha i Hi)|]. apply arr_mklist. lia.
  - intros i j Hi Hj. assert (El : Z.of_nat (length A) = m) by exact LA.
    rewrite <- (GB i j Hi Hj). rewrite <- (gauss_ok (length A) (fun i j0 => val (at_ nil A i) j0) (fun r => val (at_ nil B r) j)); [|rewrite El|rewrite El; exact Hi].
    + rewrite El. apply rsum_ext. intros l Hl. rewrite GA by lia. reflexivity.
    + apply (regular_ext m fA); [|exact HR]. intros a b Ha Hb. symmetry. apply GA; assumption.
Qed.

(* ---------------- the rows of the matrix ---------------- *)
Lemma basis_row_ok (row : list R) p n k basis b : 0 <= p -> p <= k <= n -> arr row (n + 1) (fun _ => 0%R) ->
  (forall r, 0 <= r <= p -> getu basis r = Ok (b (k - p + r))) -> (forall l, 0 <= l <= n -> l < k - p \/ k < l -> b l = 0%R) ->
  wp (basis_row row p k basis) (fun row => arr row (n + 1) b).
Proof.
  intros Hp Hk Hrow Hb Hz. unfold basis_row.
  apply (wp_fill 0 (p + 1) (k - p) (n + 1) (fun l => l < k - p \/ k < l) b).
  - apply arrD_ext with (D := fun _ => True) (f := fun _ => 0%R); [apply arrD_of_arr; exact Hrow|]. intros l Hl Hd. split; [exact I|]. symmetry. apply Hz; [lia|exact Hd].
  - intros _. lia.
  - intros j v Hj _. rewrite Hb by lia. cbn [bind]. f_equal; [lia|f_equal; lia].
  - intros v Hv. eapply arr_of_arrD; [exact Hv|]. cbv beta. intros; lia.
Qed.

Lemma Solve_shape solve A B m k fA (fB : Z -> Z -> R) : 0 < m -> 0 < k -> is_mat A m m fA -> is_mat B m k fB -> SolveLinearSystem (A := R) solve A B = solve A B.
Proof.
  intros Hm Hk [LA HA] [LB HB]. destruct (HA 0 ltac:(lia)) as (r & E & L & _). destruct (HB 0 ltac:(lia)) as (r' & E' & L' & _).
  destruct A as [|a A]; [discriminate|]. destruct B as [|b B]; [discriminate|]. cbn in E, E'. injection E as ->. injection E' as ->.
  cbn [SolveLinearSystem]. destruct r; [cbn in L; lia|]. destruct r'; [cbn in L'; lia|]. reflexivity.
Qed.

Section Interpolate.
Variables (p : Z) (us U : list R).
Let n := len us - 1.
Hypothesis Hp : 1 <= p <= 7.
Hypothesis Hn : p <= n.
Hypothesis Hu : forall i j, 0 <= i < j -> j <= n -> (val us i < val us j)%R.
Hypothesis Hu0 : val us 0 = 0%R.
Hypothesis Hun : val us n = 1%R.
Hypothesis Hck : curve_knots p n U.
Hypothesis Hcl : clamped_unit p n U.
Hypothesis Hst : forall k, p <= k <= n -> (val U k < val U (k + 1))%R.
Hypothesis Hil : forall i, 0 < i < n -> (val U i < val us i < val U (i + p + 1))%R.

Let b (i l : Z) : R := NB (val U) (val U (n + 1)) p l (val us i).

Lemma us_domain i : 0 <= i <= n -> in_domain p n U (val us i).
Proof.
  intros Hi. destruct Hcl as (_ & _ & H0 & H1). unfold in_domain. rewrite H0, H1 by lia.
  assert (0 <= val us i)%R. { destruct (Z.eq_dec i 0) as [->|]; [lra|]. pose proof (Hu 0 i ltac:(lia) ltac:(lia)). lra. }
  assert (val us i <= 1)%R. { destruct (Z.eq_dec i n) as [->|]; [lra|]. pose proof (Hu i n ltac:(lia) ltac:(lia)). lra. }
  lra.
Qed.

Lemma first_span : span_of p n U (val us 0) p.
Proof.
  destruct Hcl as (_ & _ & H0 & H1). pose proof (Hst p ltac:(lia)) as Hs. rewrite Hu0. split; [lia|]. split; [exact Hs|]. rewrite (H0 p) in * by lia. split; [lra|left; exact Hs].
Qed.
Lemma last_span : span_of p n U (val us n) n.
Proof.
  destruct Hcl as (_ & _ & H0 & H1). pose proof (Hst n ltac:(lia)) as Hs. rewrite Hun. split; [lia|]. split; [exact Hs|]. rewrite (H1 (n + 1)) in * by lia. split; [lra|right; split; [reflexivity|]]. lra.
Qed.

Lemma b_first l : 0 <= l <= n -> b 0 l = if l =? 0 then 1%R else 0%R.
Proof.
  intros Hl. unfold b. rewrite (NB_span p n U (val us 0) p p l) by (try apply first_span; try assumption; lia).
  destruct Hcl as (_ & _ & H0 & H1). replace (val us 0) with (val U p) by (rewrite H0 by lia; symmetry; exact Hu0). rewrite NS_left; [rewrite Z.sub_diag; reflexivity|lia| |].
  - apply span_good. eapply span_of_ok; [exact Hck|apply first_span].
  - intros j Hj. rewrite !H0 by lia. reflexivity.
Qed.
Lemma b_last l : 0 <= l <= n -> b n l = if l =? n then 1%R else 0%R.
Proof.
  intros Hl. unfold b. rewrite (NB_span p n U (val us n) n p l) by (try apply last_span; try assumption; lia).
  destruct Hcl as (_ & _ & H0 & H1). replace (val us n) with (val U (n + 1)) by (rewrite H1 by lia; symmetry; exact Hun). apply NS_right; [lia| |].
  - apply span_good. eapply span_of_ok; [exact Hck|apply last_span].
  - intros j Hj. rewrite !H1 by lia. reflexivity.
Qed.

Lemma colloc_regular : regular (n + 1) b.
Proof.
  intros c Hc l Hl. destruct Hcl as (HLn & Hso & H0 & H1).
  apply (sw_unique (val U) p n ltac:(lia) Hn) with (u := val us); try lia.
  - intros i j H2 H3 H4. apply Hso; lia.
  - exact Hst.
  - intros i Hi. rewrite !H0 by lia. reflexivity.
  - intros i Hi. rewrite !H1 by lia. reflexivity.
  - rewrite H0 by lia. exact Hu0.
  - rewrite H1 by lia. exact Hun.
  - exact Hil.
  - intros i Hi. apply Hu; lia.
  - intros i Hi. destruct (find_span p n U (val us i) Hck (us_domain i Hi)) as (k & _ & Hk). exists k.
    split; [apply Hk|]. split; [destruct Hk as (_ & _ & K1 & K2); split; [exact K1|destruct K2 as [K2|[-> K2]]; lra]|].
    rewrite <- (Hc i ltac:(lia)). unfold spl. pose proof (proj1 Hk) as Hkr. symmetry.
    rewrite (rsum_split 0 (k - p) (n + 1)) by lia. rewrite (rsum_split (k - p) (k + 1) (n + 1)) by lia.
    rewrite (rsum_zero 0 (k - p)), (rsum_zero (k + 1) (n + 1)).
    + rewrite Rplus_0_l, Rplus_0_r. apply rsum_ext. intros j Hj. unfold b. rewrite (NB_span p n U (val us i) k p j) by (assumption || lia). reflexivity.
    + intros j Hj. unfold b. rewrite (NB_span p n U (val us i) k p j) by (assumption || lia). rewrite NS_out by lia. ring.
    + intros j Hj. unfold b. rewrite (NB_span p n U (val us i) k p j) by (assumption || lia). rewrite NS_out by lia. ring.
Qed.

Lemma matrix_ok {X} (K : list (list R) -> res X) (Q : X -> Prop) : (forall mat, arr2 mat (n + 1) (n + 1) b -> wp (K mat) Q) -> wp (
  let! row := mkvec (n + 1) (0%R) in
  let! mat := mkvec (n + 1) row in
  let! mat := for_up 1 n mat (fun i mat =>
    let! u := get us i in
    let! spanIndex := GetKnotSpanIndex p U u in
    let! basis := BasisFunctions spanIndex p U u in
    let! row := get mat i in
    let! row := basis_row row p spanIndex basis in
    upd mat i row) in
  let! mat := upd2 mat 0 0 1%R in
  let! mat := upd2 mat n n 1%R in
  K mat) Q.
Proof.
  intros HK. apply wp_bind. apply wp_mkvec; [lia|]. intros row Hrow. apply wp_bind. apply (wp_mkvec2 0%R (n + 1) (n + 1)); [lia|exact Hrow|]. intros m0 Hm0.
  apply wp_bind. apply wp_for_up with (P := fun h m => arr2 m (n + 1) (n + 1) (fun i l => if (1 <=? i) && (i <? h) then b i l else 0%R)); [lia| | |].
  - eapply arr2_ext; [exact Hm0|]. intros i j Hi Hj. cbv beta. zb. destruct (Z.leb_spec 1 i), (Z.ltb_spec i 1); try lia; reflexivity.
  - intros i m Hi Hm. pose proof (P_Bern.arr_val us) as Hua. wget Hua.
    destruct (BasisFunctions_spec p n U (val us i) Hck ltac:(lia) (us_domain i ltac:(lia))) as ([k bs] & E & Hk & Lb & Hb & Hz).
    destruct (GetKnotSpanIndex p U (val us i)) as [k'|] eqn:Ek; [|discriminate]. cbn [bind] in E |- *.
    destruct (BasisFunctions k' p U (val us i)) as [bs'|] eqn:Eb; [|discriminate]. cbn [bind] in E |- *. injection E as -> ->.
    destruct (arr2_row _ _ _ _ i Hm ltac:(lia)) as (rw & Er & Hrw). rewrite Er. cbn [bind]. cbv beta in Hrw.
    apply wp_bind. eapply wp_mono; [apply (basis_row_ok rw p n k bs (b i)); [lia|apply Hk| |exact Hb|exact Hz]|].
    { eapply arr_ext; [exact Hrw|]. intros l Hl. cbv beta. destruct (Z.ltb_spec i i); [lia|]. rewrite andb_false_r. reflexivity. }
    cbv beta. intros rw' Hrw'. apply upd_wp with (n := n + 1); [exact (proj1 Hm)|lia|]. intros m' Hl Hs Ho. split; [exact Hl|]. intros a Ha.
    destruct (Z.eq_dec a i) as [->|Hne].
    + exists rw'. split; [exact Hs|]. eapply arr_ext; [exact Hrw'|]. intros l Hl'. cbv beta. destruct (Z.leb_spec 1 i), (Z.ltb_spec i (i + 1)); try lia. reflexivity.
    + destruct (arr2_row _ _ _ _ a Hm Ha) as (ra & Ea & Hra). exists ra. split; [rewrite Ho by auto; exact Ea|]. eapply arr_ext; [exact Hra|].
      intros l Hl'. cbv beta. destruct (Z.leb_spec 1 a), (Z.ltb_spec a i), (Z.ltb_spec a (i + 1)); try lia; reflexivity.
  - intros m Hm. apply wp_bind. apply (arr2_upd _ _ _ _ 0 0 1%R _ Hm); [lia|lia|]. intros m1 Hm1.
    apply wp_bind. apply (arr2_upd _ _ _ _ n n 1%R _ Hm1); [lia|lia|]. intros m2 Hm2. apply HK. eapply arr2_ext; [exact Hm2|]. intros i l Hi Hl. cbv beta.
    destruct (Z.eqb_spec i n) as [->|].
    + rewrite b_last by lia. cbn [andb]. zcase; try lia; reflexivity.
    + cbn [andb]. destruct (Z.eqb_spec i 0) as [->|].
      * rewrite b_first by lia. cbn [andb]. zcase; try lia; reflexivity.
      * cbn [andb]. destruct (Z.leb_spec 1 i), (Z.ltb_spec i n); try lia. reflexivity.
Qed.
End Interpolate.

Lemma rsum_const_le lo hi f m : lo <= hi -> (forall i, lo <= i < hi -> (m <= f i)%R) -> (IZR (hi - lo) * m <= rsum lo hi f)%R.
Proof.
  intros H Hf. rewrite <- (Rmult_1_r (IZR (hi - lo))). replace (IZR (hi - lo) * 1 * m)%R with (m * IZR (hi - lo))%R by ring.
  apply Rle_trans with (rsum lo hi (fun _ => m)); [|apply rsum_le; exact Hf].
  apply Req_le. clear Hf. revert H. apply (Zrange_ind lo (fun hi => (m * IZR (hi - lo))%R = rsum lo hi (fun _ => m))).
  - rewrite rsum_nil, Z.sub_diag by lia. ring.
  - intros k Hk IH. rewrite rsum_last, <- IH by lia. replace (k + 1 - lo) with (k - lo + 1) by lia. rewrite plus_IZR. ring.
Qed.

Section Main.
Variable solve : list (list R) -> list (list R) -> res (list (list R)).
Hypothesis Hsolve : exact_solver solve.
Variables (p : Z) (Q : list (XYZ R)) (us : list R).
Let n := len Q - 1.
Hypothesis Hp : 1 <= p <= 7.
Hypothesis Hn : p <= n.
Hypothesis Hlen : len us = len Q.
Hypothesis Hu : forall i j, 0 <= i < j -> j <= n -> (val us i < val us j)%R.
Hypothesis Hu0 : val us 0 = 0%R.
Hypothesis Hun : val us n = 1%R.
Hypothesis Hfirst : (2 / 1000000 < val us 1)%R.
Hypothesis Hlast : (val us (n - 1) < 1 - 2 / 1000000)%R.

Lemma knots_ok : wp (AverageKnotVector p us) (fun U => curve_knots p n U /\ clamped_unit p n U /\
  (forall k, p <= k <= n -> (val U k < val U (k + 1))%R) /\ forall i, 0 < i < n -> (val U i < val us i < val U (i + p + 1))%R).
Proof.
  assert (Hz : 0 < len Q) by (unfold n in Hn; lia).
  assert (Hm : forall i j, 0 <= i <= j -> j <= n -> (val us i <= val us j)%R).
  { intros i j Hi Hj. destruct (Z.eq_dec i j) as [->|]; [lra|]. left. apply Hu; lia. }
  assert (Hen : len us - 1 = n) by (unfold n; lia).
  destruct (Average_returns p us) as (U & -> & HA); try lia; [|lra|rewrite Hen; lra|].
  { intros i j H1 H2 H3. apply Hm; lia. }
  cbn [wp]. rewrite Hen in HA. destruct HA as (Hc & Ha & Hi). specialize (Hi ltac:(intros; apply Hu; lia) Hu0 Hun).
  pose proof Hc as (HL & Hs & H0 & H1). assert (Hpp : (1 <= IZR p)%R) by (apply IZR_le; lia).
  assert (Hlow : forall k, p + 1 <= k <= n + 1 -> (val us 1 <= val U k)%R).
  { intros k Hk. destruct (Z.eq_dec k (n + 1)) as [->|]; [rewrite H1 by lia; rewrite <- Hun; apply Hm; lia|].
    replace k with (p + (k - p)) by lia. rewrite Ha by lia.
    pose proof (rsum_const_le (k - p) (k - p + p) (val us) (val us 1) ltac:(lia) ltac:(intros; apply Hm; lia)) as HH.
    replace (k - p + p - (k - p)) with p in HH by lia. apply Rmult_le_reg_l with (IZR p); [lra|]. replace (IZR p * (rsum (k - p) (k - p + p) (val us) / IZR p))%R with (rsum (k - p) (k - p + p) (val us)) by (field; lra). exact HH. }
  assert (Hhigh : forall k, p <= k <= n -> (val U k <= val us (n - 1))%R).
  { intros k Hk. destruct (Z.eq_dec k p) as [->|]; [rewrite H0 by lia; rewrite <- Hu0; apply Hm; lia|].
    replace k with (p + (k - p)) by lia. rewrite Ha by lia.
    pose proof (rsum_const_le (k - p) (k - p + p) (fun i => - val us i)%R (- val us (n - 1))%R ltac:(lia)) as HH.
    assert (HH' := HH ltac:(intros i Hi'; apply Ropp_le_contravar; apply Hm; lia)). clear HH.
    replace (k - p + p - (k - p)) with p in HH' by lia.
    rewrite (rsum_ext _ _ _ (fun i => (-1) * val us i)%R) in HH' by (intros; ring). rewrite rsum_scal in HH'.
    apply Rmult_le_reg_l with (IZR p); [lra|]. replace (IZR p * (rsum (k - p) (k - p + p) (val us) / IZR p))%R with (rsum (k - p) (k - p + p) (val us)) by (field; lra). lra. }
  assert (Hst : forall k, p <= k <= n -> (val U k < val U (k + 1))%R).
  { intros k Hk. destruct (Z.eq_dec k p) as [->|]; [rewrite (H0 p) by lia; pose proof (Hlow (p + 1) ltac:(lia)); lra|].
    destruct (Z.eq_dec k n) as [->|]; [rewrite (H1 (n + 1)) by lia; pose proof (Hhigh n ltac:(lia)); lra|].
    replace k with (p + (k - p)) by lia. replace (p + (k - p) + 1) with (p + (k - p + 1)) by lia. rewrite !Ha by lia.
    apply Rmult_lt_compat_r; [apply Rinv_0_lt_compat; lra|]. rewrite (rsum_first (k - p)) by lia. replace (k - p + 1 + p) with (k - p + p + 1) by lia.
    rewrite (rsum_last (k - p + 1)) by lia. pose proof (Hu (k - p) (k - p + p) ltac:(lia) ltac:(lia)). lra. }
  split; [|split; [exact Hc|split; [exact Hst|exact Hi]]].
  assert (Hr : forall k, 0 <= k <= n + p + 1 -> (Rabs (val U k) <= 1)%R).
  { intros k Hk. pose proof (Hs 0 k ltac:(lia) ltac:(lia) ltac:(lia)) as G0. rewrite H0 in G0 by lia. rewrite Rabs_right by lra. rewrite <- (H1 (n + p + 1)) by lia. apply Hs; lia. }
  constructor; try lia; auto.
  - rewrite (H0 p) by lia. pose proof (tol_le 0 (val U (p + 1)) 1 ltac:(rewrite Rabs_R0; lra) (Hr (p + 1) ltac:(lia))).
    pose proof (Hlow (p + 1) ltac:(lia)). lra.
  - pose proof (tol_le (val U n) (val U (n + 1)) 1 (Hr n ltac:(lia)) (Hr (n + 1) ltac:(lia))). rewrite (H1 (n + 1)) in * by lia.
    pose proof (Hhigh n ltac:(lia)). lra.
Qed.

Lemma point_rows : is_mat (map point_row Q) (n + 1) 3 (fun i j => if j =? 0 then gx (pt Q i) else if j =? 1 then gy (pt Q i) else gz (pt Q i)).
Proof.
  split; [unfold len; rewrite map_length; unfold n, len; lia|]. intros i Hi. exists (point_row (pt Q i)). split.
  - unfold get, pt, at_. destruct (Z.ltb_spec i 0); [lia|]. rewrite nth_error_map. rewrite (nth_error_nth' Q vzero) by (unfold n, len in Hi; lia). reflexivity.
  - split; [reflexivity|]. intros j Hj. assert (j = 0 \/ j = 1 \/ j = 2) as [-> | [-> | ->]] by lia; reflexivity.
Qed.

Lemma Interpolation_ok : returns (GlobalInterpolation solve p Q us) (fun c =>
  Degree c = p /\ clamped_unit p n (KnotVector c) /\ len (ControlPoints c) = n + 1 /\
  (forall i, 0 <= i <= n -> ww (pt (ControlPoints c) i) = 1%R) /\
  (forall i, 0 <= i <= n -> curve_point p n (KnotVector c) (ControlPoints c) (val us i) = hom (pt Q i) 1) /\
  (forall i, 0 <= i <= n -> NurbsPoint c (val us i) = Ok (pt Q i)) /\
  (forall P', len P' = n + 1 -> (forall i, 0 <= i <= n -> curve_point p n (KnotVector c) P' (val us i) = hom (pt Q i) 1) -> P' = ControlPoints c)).
Proof.
  apply returns_wp. unfold GlobalInterpolation. assert (Hz : len Q = n + 1) by (unfold n; lia).
  assert (E : NURBSMaxDegree = 7) by reflexivity. rewrite E.
  destruct (Z.leb_spec 0 p); [|lia]. destruct (Z.leb_spec p 7); [|lia]. cbn [andb validate bind].
  destruct (Z.ltb_spec p (len Q)); [|lia]. cbn [validate bind]. rewrite Hlen. destruct (Z.eqb_spec (len Q) 0); [lia|]. rewrite Z.eqb_refl. cbn [validate bind].
  apply wp_bind. eapply wp_mono; [apply knots_ok|]. cbv beta. intros U (Hck & Hcl & Hst & Hil). num.
  assert (Hen : len us - 1 = n) by lia.
  pose proof (@matrix_ok p us U) as HM. pose proof (colloc_regular p us U) as HR. cbv zeta in HM, HR. rewrite Hen in HM, HR.
  specialize (HR Hp Hn Hu Hu0 Hun Hck Hcl Hst Hil). replace (len Q) with (n + 1) by lia. replace (n + 1 - 1) with n by lia.
  apply (HM Hp Hn Hu Hu0 Hun Hck Hcl Hst). clear HM. intros mat Hmat.
  apply wp_bind. apply wp_mkvec; [lia|]. intros cp0 Hcp0.
  pose proof point_rows as HB. destruct (Hsolve (n + 1) 3 _ _ _ _ ltac:(lia) ltac:(lia) Hmat HB HR) as (X & EX & x & HX & HS).
  assert (ES : SolveLinearSystem solve mat (map point_row Q) = Ok X).
  { rewrite (Solve_shape solve _ _ (n + 1) 3 _ _ ltac:(lia) ltac:(lia) Hmat HB). exact EX. }
  rewrite ES. cbn [bind]. rewrite (proj1 HX).
  set (cpt := fun i => mkW (mkXYZ (x i 0) (x i 1) (x i 2)) 1%R).
  apply wp_bind. apply (wp_fill_all (n + 1) cpt); [lia|exact (proj1 Hcp0)| |].
  { intros i v Hi _. destruct (proj2 HX i Hi) as (row & Er & Hrow). rewrite Er. cbn [bind]. unfold row_point.
    rewrite !(proj2 Hrow) by lia. cbn [bind]. reflexivity. }
  intros P HP. apply wp_ok. cbn [Degree KnotVector ControlPoints]. split; [reflexivity|]. split; [exact Hcl|]. split; [exact (proj1 HP)|].
  assert (EP : forall i, 0 <= i <= n -> pt P i = cpt i) by (intros i Hi; apply (arr_at_eq _ _ _ _ _ HP); lia).
  assert (EC : forall i, 0 <= i <= n -> curve_point p n U P (val us i) = hom (pt Q i) 1).
  { intros i Hi. set (S := curve_point p n U P (val us i)).
    assert (G : forall k, co k S = rsum 0 (n + 1) (fun l => NB (val U) (val U (n + 1)) p l (val us i) * co k (cpt l))%R).
    { intros k. unfold S, curve_point. rewrite co_comb. apply rsum_ext. intros l Hl. rewrite EP by lia. reflexivity. }
    assert (Gj : forall j, 0 <= j < 3 -> rsum 0 (n + 1) (fun l => NB (val U) (val U (n + 1)) p l (val us i) * (x l j * 1))%R = if j =? 0 then gx (pt Q i) else if j =? 1 then gy (pt Q i) else gz (pt Q i)).
    { intros j Hj. rewrite <- (HS i j ltac:(lia) Hj). apply rsum_ext. intros l Hl. ring. }
    assert (Gw : rsum 0 (n + 1) (fun l => NB (val U) (val U (n + 1)) p l (val us i) * 1)%R = 1%R).
    { transitivity (rsum 0 (n + 1) (fun l => N (val U) (val U (n + 1)) (Z.to_nat p) l (val us i))); [apply rsum_ext; intros; apply Rmult_1_r|].
      apply (N_sum p n U (val us i) Hck). pose proof (us_domain p us U) as HD. cbv zeta in HD. rewrite Hen in HD. apply HD; assumption. }
    pose proof (G 0%nat) as G0. pose proof (G 1%nat) as G1. pose proof (G 2%nat) as G2. pose proof (G 3%nat) as G3. clearbody S.
    cbn [co VecL_XYZW cpt mkW wx wy wz ww] in G0, G1, G2, G3. clear - G0 G1 G2 G3 Gj Gw.
    pose proof (Gj 0 ltac:(lia)) as E0. pose proof (Gj 1 ltac:(lia)) as E1. pose proof (Gj 2 ltac:(lia)) as E2. cbn [Z.eqb Pos.eqb] in E0, E1, E2.
    destruct S as [a b c d]. cbn [wx wy wz ww co_xyzw] in G0, G1, G2, G3. unfold cpt, mkW in G0, G1, G2, G3. cbn [wx wy wz ww gx gy gz] in G0, G1, G2, G3. num.
    rewrite E0 in G0. rewrite E1 in G1. rewrite E2 in G2. rewrite Gw in G3. subst. unfold hom. rewrite !Rmult_1_r. reflexivity. }
  split; [intros i Hi; rewrite EP by exact Hi; reflexivity|]. split; [exact EC|].
  split.
  - intros i Hi. rewrite (NurbsPoint_ok p n U P) by (try assumption; try lia; try exact (proj1 HP); pose proof (us_domain p us U) as HD; cbv zeta in HD; rewrite Hen in HD; apply HD; assumption).
    rewrite EC by exact Hi. apply ToXYZ_hom. unfold tol. rewrite Rabs_R0, Rabs_R1. rewrite Rmax_left by lra. lra.
  - intros P' L' EC'. apply (arr_inj _ _ (n + 1) (pt P)); [|apply arr_pt; exact (proj1 HP)]. apply (arr_ext _ _ (pt P')); [apply arr_pt; exact L'|]. intros l Hl. apply co_ext. intros k.
    apply Rminus_diag_uniq. apply (HR (fun l => co k (pt P' l) - co k (pt P l))%R); [|lia]. intros i Hi.
    transitivity (co k (curve_point p n U P' (val us i)) - co k (curve_point p n U P (val us i)))%R; [|rewrite EC, EC' by lia; ring].
    unfold curve_point. rewrite !co_comb, <- rsum_minus. apply rsum_ext. intros j Hj. change (N (val U) (val U (n + 1)) (Z.to_nat p) j (val us i)) with (NB (val U) (val U (n + 1)) p j (val us i)). ring.
Qed.
End Main.

Lemma Global_chord solve p (Q : list (XYZ R)) uk : 2 <= len Q -> GetChordParameterization Q = Ok uk -> len uk = len Q ->
  GlobalInterpolation solve p Q [] = GlobalInterpolation solve p Q uk.
Proof.
  intros HQ E L. unfold GlobalInterpolation. change (len (@nil R) =? 0) with true. cbn iota. rewrite E, L.
  destruct (Z.eqb_spec (len Q) 0); [lia|]. rewrite Z.eqb_refl. reflexivity.
Qed.

Lemma chord_first (f : Z -> XYZ R) : chord_length f 1 = dist3 (f 1) (f 0).
Proof. unfold chord_length. apply rsum_one. Qed.
Lemma chord_step (f : Z -> XYZ R) k : 1 <= k -> chord_length f k = (chord_length f (k - 1)%Z + dist3 (f k) (f (k - 1)%Z))%R.
Proof. intros H. unfold chord_length. replace (k - 1 + 1) with k by lia. apply rsum_last. lia. Qed.

Lemma Interpolation_chord solve p (Q : list (XYZ R)) : exact_solver solve -> 1 <= p <= 7 -> p <= len Q - 1 ->
  (forall i, 0 <= i < len Q - 1 -> pt Q i <> pt Q (i + 1)) -> ~ small (chord_length (pt Q) (len Q - 1)) ->
  (2 / 1000000 * chord_length (pt Q) (len Q - 1) < dist3 (pt Q 1) (pt Q 0))%R ->
  (2 / 1000000 * chord_length (pt Q) (len Q - 1) < dist3 (pt Q (len Q - 1)) (pt Q (len Q - 2)%Z))%R ->
  returns (GlobalInterpolation solve p Q []) (fun c =>
    Degree c = p /\ clamped_unit p (len Q - 1) (KnotVector c) /\ len (ControlPoints c) = len Q /\
    forall i, 0 <= i < len Q -> NurbsPoint c (chord_length (pt Q) i / chord_length (pt Q) (len Q - 1))%R = Ok (pt Q i)).
Proof.
  intros Hs Hp Hn Hd Hsm Hf Hl. destruct (Chord_returns Q ltac:(lia)) as (u & Eu & Lu & U0 & U1 & Us & Ui & Uc). specialize (Uc Hsm).
  rewrite (Global_chord solve p Q u ltac:(lia) Eu Lu). set (L := chord_length (pt Q) (len Q - 1)) in *.
  assert (HL0 : (0 <= L)%R). { unfold L, chord_length. apply rsum_nonneg. intros. unfold dist3, norm3. apply sqrt_pos. }
  assert (HL : (0 < L)%R). { destruct HL0 as [|E]; [assumption|]. exfalso. apply Hsm. unfold small. rewrite <- E, Rabs_R0. lra. }
  assert (Hst : forall i j, 0 <= i < j -> j <= len Q - 1 -> (val u i < val u j)%R).
  { intros i j Hij Hj. pose proof (Ui i ltac:(lia) (Hd i ltac:(lia))) as H1. pose proof (Us (i + 1) j ltac:(lia) ltac:(lia) ltac:(lia)). lra. }
  destruct (Interpolation_ok solve Hs p Q u Hp Hn Lu Hst U0 U1) as (c & E & C1 & C2 & C3 & C4 & C5 & C6 & C7).
  - rewrite Uc by lia. rewrite chord_first. apply Rmult_lt_reg_r with L; [exact HL|]. unfold Rdiv at 2. rewrite Rmult_assoc, Rinv_l by lra. lra.
  - rewrite Uc by lia. apply Rmult_lt_reg_r with L; [exact HL|]. unfold Rdiv at 1. rewrite Rmult_assoc, Rinv_l by lra.
    replace (len Q - 1 - 1) with (len Q - 2) in * by lia.
    assert (EL : L = (chord_length (pt Q) (len Q - 2) + dist3 (pt Q (len Q - 1)) (pt Q (len Q - 2)))%R).
    { unfold L. rewrite (chord_step (pt Q) (len Q - 1)) by lia. replace (len Q - 1 - 1) with (len Q - 2) by lia. reflexivity. }
    nra.
  - exists c. split; [exact E|]. split; [exact C1|]. split; [exact C2|]. split; [lia|]. intros i Hi. rewrite <- Uc by lia. apply C6. lia.
Qed.

Lemma Interpolation_degree_zero solve (Q : list (XYZ R)) : 2 <= len Q -> GlobalInterpolation solve 0 Q [] = NonFin.
Proof.
  intros HQ. destruct (Chord_returns Q HQ) as (u & Eu & Lu & _). rewrite (Global_chord solve 0 Q u HQ Eu Lu). unfold GlobalInterpolation.
  change ((0 <=? 0) && (0 <=? NURBSMaxDegree)) with true. cbn [validate bind]. destruct (Z.ltb_spec 0 (len Q)); [|lia]. cbn [validate bind].
  rewrite Lu. destruct (Z.eqb_spec (len Q) 0); [lia|]. rewrite Z.eqb_refl. cbn [validate bind]. rewrite Average_degree_zero by lia. reflexivity.
Qed.
