(* Removing repeated knots. *)
From Coq Require Import ZArith List Bool Reals Lra Lia.
From Verif Require Import Base Num Vec Tac Spec Spec4 Spec23 M_MathUtils M_Knots M_XYZ M_Bspline M_NurbsCurve M_Curve2 P_KnotMap P_Ls4.
Import ListNotations.
Open Scope Z_scope.

Lemma okp_while {S} (P : S -> Prop) cond body (Q : S -> Prop) : (forall s, P s -> okp (body s) P) -> (forall s, P s -> Q s) -> forall fuel s, P s -> okp (while_ fuel cond s body) Q.
Proof.
  intros Hb HQ. induction fuel as [|f IH]; intros s Hs; cbn [while_]; apply okp_bind; intros [|] _; try (apply okp_ok, HQ, Hs); [apply okp_err|].
  apply okp_bind. eapply okp_mono; [apply Hb, Hs|]. exact IH.
Qed.
Lemma pop_len {X} (l : list X) : okp (pop_back l) (fun l' => len l' = len l - 1).
Proof.
  intros l' E. unfold pop_back in E. destruct l as [|x l]; [discriminate|]. injection E as <-. unfold len. change (match l with [] => [] | _ :: _ => x :: removelast l end) with (removelast (x :: l)).
  assert (L : forall (m : list X), m <> [] -> S (length (removelast m)) = length m).
  { clear. induction m as [|a m IH]; [contradiction|]. intros _. destruct m; [reflexivity|]. cbn [removelast length] in *. rewrite IH by discriminate. reflexivity. }
  specialize (L (x :: l) ltac:(discriminate)). lia.
Qed.

Section Shape.
Variables (c : Curve R (XYZW R)).
Let H := ControlPoints c.
Lemma RemoveKnot_shape u : okp (RemoveKnot c u 1) (fun o => match o with None => True | Some c' => Degree c' = Degree c /\ len (KnotVector c') = len (KnotVector c) - 1 /\ len (ControlPoints c') = len H - 1 end).
Proof.
  unfold RemoveKnot. fold H. apply okp_bind, okp_any. intros _. apply okp_bind, okp_any. intros _. apply okp_bind, okp_any. intros tl. apply okp_bind, okp_any. intros s. apply okp_bind, okp_any. intros r.
  apply okp_bind. eapply okp_mono; [apply (okp_for (fun _ (v : list R) => len v = len (KnotVector c)))|].
  { reflexivity. } { intros k v _ Hv. apply okp_bind, okp_any. intros x. apply okp_updlen. intros _ l' ->. exact Hv. } { intros v Hv. exact Hv. }
  intros v Hv. apply okp_bind. change (for_up 0 1 v (fun _ v0 => pop_back v0)) with (bind (pop_back v) (fun x => Ok x)). apply okp_bind. eapply okp_mono; [apply pop_len|]. intros v' Hv'. apply okp_ok. rewrite Hv in Hv'.
  apply okp_bind, okp_any. intros temp. apply okp_bind.
  unfold for_upc. change (Z.to_nat (1 - 0)) with 1%nat.
  eapply okp_mono; [apply (okp_iterc (fun _ (st : list (XYZW R) * list (XYZW R) * Z * Z) => let '(Q, _, _, _) := st in len Q = len H) (fun st : Z * list (XYZW R) => (fst st = 0 \/ fst st = 1) /\ len (snd st) = len H))|].
  - reflexivity.
  - intros k [[[Q tp] f] l] Hk HQ. apply okp_bind, okp_any. intros x. apply okp_bind, okp_any. intros tp1. apply okp_bind, okp_any. intros y. apply okp_bind, okp_any. intros tp2. apply okp_bind, okp_any. intros [[[[tp3 i] j] ii] jj]. apply okp_bind, okp_any. intros [|]; cbn [negb].
    + apply okp_bind. eapply okp_mono; [apply (okp_while (fun st : list (XYZW R) * Z * Z => len (fst (fst st)) = len H) _ _ (fun st => len (fst (fst st)) = len H))|].
      * intros [[Q' i'] j'] HQ'. cbn [fst] in HQ'. apply okp_bind, okp_any. intros a. apply okp_bind. apply okp_updlen. intros _ l1 L1. apply okp_bind, okp_any. intros b. apply okp_bind. apply okp_updlen. intros _ l2 L2. apply okp_ok. cbn [fst]. congruence.
      * auto.
      * exact HQ.
      * intros [[Q' i'] j'] HQ'. apply okp_ok. exact HQ'.
    + apply okp_ok. cbn [fst snd]. split; [lia|exact HQ].
  - intros e He. set (tq := match e with Next s0 => _ | Stop r0 => r0 end). assert (T : (fst tq = 0 \/ fst tq = 1) /\ len (snd tq) = len H) by (unfold tq; destruct e as [ [[[Q tp] f] l] | [t Q] ]; [split; [right; reflexivity|exact He]|exact He]). clearbody tq. destruct tq as [t Q]. cbn [fst snd] in T. destruct T as (T1 & T2).
    destruct (Z.eqb_spec t 0) as [->|NT]; [apply okp_ok; exact I|]. destruct T1 as [T1 | ->]; [contradiction|]. apply okp_bind, okp_any. intros [i j]. apply okp_bind.
    eapply okp_mono; [apply (okp_for (fun _ (st : list (XYZW R) * Z) => len (fst st) = len H))|].
    { exact T2. } { intros k [Q1 j1] _ HQ1. apply okp_bind, okp_any. intros x. apply okp_bind. apply okp_updlen. intros _ l1 L1. apply okp_ok. cbn [fst] in *. congruence. } { intros st Hst. exact Hst. }
    intros [Q1 j1] HQ1. cbn [fst] in *. apply okp_bind. change (for_up 0 1 Q1 (fun _ v0 => pop_back v0)) with (bind (pop_back Q1) (fun x => Ok x)). apply okp_bind. eapply okp_mono; [apply pop_len|]. intros Q2 HQ2. apply okp_ok. apply okp_ok. cbn [Degree KnotVector ControlPoints]. split; [reflexivity|]. split; [exact Hv'|]. rewrite HQ2, HQ1. reflexivity.
Qed.
End Shape.

Definition round (c : Curve R (XYZW R)) : res (ctl unit (Curve R (XYZW R))) :=
  let! map := GetInternalKnotMultiplicityMap (KnotVector c) in
  for_upc 0 (len map) tt (fun i _ =>
    let! e := get map i in
    let '(u, currentMultiplicity) := e in
    if currentMultiplicity <=? 1 then Ok (Next tt) else
    let! q := RemoveKnot c u 1 in
    match q with
    | Some tempResult => Ok (Stop tempResult)
    | None => Ok (Next tt)
    end).
Definition shorter (c c' : Curve R (XYZW R)) (m : Z) : Prop :=
  0 <= m /\ Degree c' = Degree c /\ len (KnotVector c') = len (KnotVector c) - m /\ len (ControlPoints c') = len (ControlPoints c) - m.


Lemma round_shape c : okp (round c) (fun o => match o with Stop c' => exists u, RemoveKnot c u 1 = Ok (Some c') | Next _ => True end).
Proof.
  unfold round. apply okp_bind, okp_any. intros m. unfold for_upc. eapply okp_mono; [apply (okp_iterc (fun _ _ => True) (fun c' => exists u, RemoveKnot c u 1 = Ok (Some c')))|].
  - exact I.
  - intros k [] _ _. apply okp_bind, okp_any. intros [u mu]. destruct (mu <=? 1); [apply okp_ok; exact I|]. apply okp_bind. intros [c'|] E; apply okp_ok; [exists u; exact E|exact I].
  - intros [s|c']; auto.
Qed.
Lemma round_fail c e : round c = Err e -> GetInternalKnotMultiplicityMap (KnotVector c) = Err e \/ exists u, RemoveKnot c u 1 = Err e.
Proof.
  unfold round. destruct (GetInternalKnotMultiplicityMap (KnotVector c)) as [m|e'] eqn:Em; cbn [bind]; [|intros E; injection E as <-; left; reflexivity]. intros E. right. revert E. unfold for_upc.
  assert (G : forall k i, 0 <= i -> i + Z.of_nat k <= len m -> iter_upc k i (fun i _ => let! e := get m i in let '(u, currentMultiplicity) := e in if currentMultiplicity <=? 1 then Ok (Next tt) else let! q := RemoveKnot c u 1 in match q with Some tempResult => Ok (Stop tempResult) | None => Ok (Next tt) end) tt = Err e -> exists u, RemoveKnot c u 1 = Err e).
  { induction k as [|k IH]; intros i Hi Hl; cbn [iter_upc]; [discriminate|]. rewrite (get_at (0%R, 0)) by lia. cbn [bind]. destruct (at_ (0%R, 0) m i) as [u mu]. destruct (mu <=? 1); cbn [bind]; [apply IH; lia|].
    destruct (RemoveKnot c u 1) as [[c'|]|e'] eqn:ER; cbn [bind]; [discriminate|apply IH; lia|]. intros E. injection E as <-. exists u. exact ER. }
  apply G; [lia|]. pose proof (len_nonneg m). lia.
Qed.

Definition rounds (fuel : nat) (s : Curve R (XYZW R) * bool) := while_ fuel (fun '(_, changed) => Ok changed) s
  (fun '(result, _) => let! o := round result in match o with Stop result => Ok (result, true) | Next _ => Ok (result, false) end).
Lemma Excessive_eq c : RemoveExcessiveKnots c = let! s := rounds (length (ControlPoints c) + 1) (c, true) in Ok (fst s).
Proof.
  unfold RemoveExcessiveKnots, rounds. apply (f_equal (fun m => bind m _)). generalize (length (ControlPoints c) + 1)%nat, (c, true). induction n as [|n IH]; intros [c0 b]; cbn [while_ bind]; [reflexivity|]. destruct b; [|reflexivity].
  unfold round. destruct (GetInternalKnotMultiplicityMap (KnotVector c0)); [|reflexivity]. cbn [bind]. destruct (for_upc _ _ _ _) as [[?|?]|]; cbn [bind]; [apply IH..|reflexivity].
Qed.

Lemma shorter_refl c : shorter c c 0.
Proof. unfold shorter. repeat split; lia. Qed.
Lemma shorter_step c c' u m a : shorter a c m -> RemoveKnot c u 1 = Ok (Some c') -> shorter a c' (m + 1).
Proof. intros (M & D & K & P) E. destruct (RemoveKnot_shape c u _ E) as (D' & K' & P'). unfold shorter. rewrite D', K', P'. repeat split; try lia; congruence. Qed.

Lemma Excessive_shape c : okp (RemoveExcessiveKnots c) (fun c' => exists m, shorter c c' m).
Proof.
  rewrite Excessive_eq. unfold rounds. apply okp_bind. apply (okp_while (fun s => exists m, shorter c (fst s) m) _ _ _) with (fuel := (length (ControlPoints c) + 1)%nat); cbn [fst].
  - intros [c0 b] (m & Hm). cbn [fst] in Hm. apply okp_bind. eapply okp_mono; [apply round_shape|]. intros [s|c'].
    + intros _. apply okp_ok. exists m. exact Hm.
    + intros (u & E). apply okp_ok. exists (m + 1). exact (shorter_step _ _ _ _ _ Hm E).
  - intros s Hs. apply okp_ok. exact Hs.
  - exists 0. apply shorter_refl.
Qed.

(* the rounds come to an end *)
Lemma rounds_end : forall fuel c e, (length (ControlPoints c) + 1 <= fuel)%nat -> rounds fuel (c, true) = Err e ->
  exists c', GetInternalKnotMultiplicityMap (KnotVector c') = Err e \/ exists u, RemoveKnot c' u 1 = Err e.
Proof.
  induction fuel as [|f IH]; intros c e Hf; [lia|]. unfold rounds. cbn [while_ bind]. fold (rounds f). destruct (round c) as [[s|c']|e'] eqn:ER; cbn [bind].
  - unfold rounds. destruct f; cbn [while_ bind]; discriminate.
  - intros E. apply (IH c'); [|exact E]. destruct (round_shape c _ ER) as (u & EU). destruct (RemoveKnot_shape c u _ EU) as (_ & _ & P'). unfold len in P'. lia.
  - intros E. injection E as <-. exists c. apply round_fail, ER.
Qed.
Lemma Excessive_ends c e : RemoveExcessiveKnots c = Err e -> exists c', GetInternalKnotMultiplicityMap (KnotVector c') = Err e \/ exists u, RemoveKnot c' u 1 = Err e.
Proof. rewrite Excessive_eq. destruct (rounds _ _) as [s|e'] eqn:ER; cbn [bind]; [discriminate|]. intros E. injection E as <-. exact (rounds_end _ _ _ (Nat.le_refl _) ER). Qed.

(* nothing to remove *)
Lemma Excessive_same c a b : In a (KnotVector c) -> In b (KnotVector c) -> (a < b)%R -> unrepeated (KnotVector c) -> RemoveExcessiveKnots c = Ok c.
Proof.
  intros Ha Hb Hab Hs. destruct (GetInternal_ok _ a b Ha Hb Hab) as (m & Em & _ & Hm).
  assert (ER : round c = Ok (Next tt)).
  { assert (W : wp (round c) (fun r => r = Next tt)).
    - unfold round. rewrite Em. cbn [bind]. apply wp_for_upc with (P := fun _ _ => True) (F := fun _ => False); [exact I| |intros [] _; reflexivity|intros r []].
      intros k [] Hk _. rewrite (get_at (0%R, 0)) by lia. cbn [bind]. destruct (at_ (0%R, 0) m k) as [u mu] eqn:Eu. assert (HI : In (u, mu) m) by (rewrite <- Eu; apply nth_In; unfold len in Hk; lia). apply Hm in HI as (I1 & -> & I2 & I3). rewrite (Hs u I1 I2 I3). apply wp_ok. exact I.
    - destruct (wp_elim _ _ W) as (r & E & ->). exact E. }
  rewrite Excessive_eq. unfold rounds. replace (length (ControlPoints c) + 1)%nat with (Datatypes.S (length (ControlPoints c))) by lia. cbn [while_ bind]. rewrite ER. cbn [bind]. destruct (length (ControlPoints c)); reflexivity.
Qed.

(* what is removed and what is left *)
Lemma GetInternal_any U m : GetInternalKnotMultiplicityMap U = Ok m -> forall x c, In (x, c) m <-> In x U /\ c = occ U x /\ (exists y, In y U /\ y < x)%R /\ (exists y, In y U /\ x < y)%R.
Proof.
  intros E. destruct (GetKnotMultiplicityMap_ok U) as [_ G]. destruct (mult_map U) as (H1 & _ & _). pose proof E as E0. unfold GetInternalKnotMultiplicityMap in E0. destruct (GetKnotMultiplicityMap U) as [|[k0 c0] [|[k1 c1] m']] eqn:EM.
  - injection E0 as <-. intros x c. split; [intros []|]. intros (X & _). destruct (proj2 (G x (occ U x)) (conj X eq_refl)).
  - discriminate.
  - destruct H1 as [H1 _]. specialize (H1 (k1, c1) (or_introl eq_refl)). cbn [fst] in H1. destruct (proj1 (G k0 c0) (or_introl eq_refl)) as (K0 & _). destruct (proj1 (G k1 c1) (or_intror (or_introl eq_refl))) as (K1 & _).
    destruct (GetInternal_ok U k0 k1 K0 K1 H1) as (m2 & E2 & _ & M). rewrite E in E2. injection E2 as <-. exact M.
Qed.
Lemma occ_in U u : 2 <= occ U u -> In u U.
Proof. intros H. unfold occ in H. apply (count_occ_In Req_EM_T). lia. Qed.
Lemma round_post c : okp (round c) (fun o => match o with
  | Stop c' => exists u, repeated_inside (KnotVector c) u /\ RemoveKnot c u 1 = Ok (Some c')
  | Next _ => forall u, repeated_inside (KnotVector c) u -> RemoveKnot c u 1 = Ok None end).
Proof.
  unfold round. apply okp_bind. intros m Em. pose proof (GetInternal_any _ _ Em) as M. unfold for_upc.
  eapply okp_mono; [apply (okp_iterc (fun k _ => forall j, 0 <= j < k -> let '(u, mu) := at_ (0%R, 0) m j in 2 <= mu -> RemoveKnot c u 1 = Ok None) (fun c' => exists u, repeated_inside (KnotVector c) u /\ RemoveKnot c u 1 = Ok (Some c')))|].
  - intros j Hj. lia.
  - intros k [] Hk IH. assert (HK : 0 <= k < len m) by lia. rewrite (get_at (0%R, 0)) by lia. cbn [bind]. destruct (at_ (0%R, 0) m k) as [u mu] eqn:Eu. assert (HI : In (u, mu) m) by (rewrite <- Eu; apply nth_In; unfold len in HK; lia).
    destruct (Z.leb_spec mu 1) as [L|L].
    + apply okp_ok. intros j Hj. destruct (Z.eq_dec j k) as [-> |N]; [rewrite Eu; lia|apply IH; lia].
    + apply okp_bind. intros [c'|] E; apply okp_ok.
      * exists u. split; [|exact E]. apply M in HI as (_ & -> & I2 & I3). split; [lia|]. split; assumption.
      * intros j Hj. destruct (Z.eq_dec j k) as [-> |N]; [rewrite Eu; intros _; exact E|apply IH; lia].
  - intros [s|c']; [|auto]. intros HF u (H2 & HL & HG). assert (HI : In (u, occ (KnotVector c) u) m) by (apply M; split; [apply occ_in, H2|auto]).
    destruct (In_nth m _ (0%R, 0) HI) as (j & Lj & Ej). assert (HJ : 0 <= Z.of_nat j < 0 + Z.of_nat (Z.to_nat (len m - 0))) by (unfold len; lia). specialize (HF _ HJ). unfold at_ in HF. rewrite Nat2Z.id, Ej in HF. apply HF, H2.
Qed.
Lemma trimmed_snoc a c u c' : trimmed a c -> repeated_inside (KnotVector c) u -> RemoveKnot c u 1 = Ok (Some c') -> trimmed a c'.
Proof. intros H R E. induction H as [c0|c0 u0 c1 c2 H0 H1 H2 IH]; [eapply trimmed_step; [exact R|exact E|constructor]|]. eapply trimmed_step; [exact H0|exact H1|apply IH; assumption]. Qed.
Lemma Excessive_post c : okp (RemoveExcessiveKnots c) (fun c' => trimmed c c' /\ forall u, repeated_inside (KnotVector c') u -> RemoveKnot c' u 1 = Ok None).
Proof.
  rewrite Excessive_eq. unfold rounds. apply okp_bind. generalize (length (ControlPoints c) + 1)%nat. intros f. 
  assert (G : forall f s, trimmed c (fst s) -> (snd s = false -> forall u, repeated_inside (KnotVector (fst s)) u -> RemoveKnot (fst s) u 1 = Ok None) ->
    okp (while_ f (fun '(_, changed) => Ok changed) s (fun '(result, _) => let! o := round result in match o with Stop result => Ok (result, true) | Next _ => Ok (result, false) end))
      (fun s' => okp (Ok (fst s')) (fun c' => trimmed c c' /\ forall u, repeated_inside (KnotVector c') u -> RemoveKnot c' u 1 = Ok None))).
  { clear f. induction f as [|f IH]; intros [c0 b] T D; cbn [fst snd] in T, D; cbn [while_ bind]; destruct b.
    - apply okp_err.
    - apply okp_ok, okp_ok. cbn [fst]. split; [exact T|exact (D eq_refl)].
    - apply okp_bind. apply okp_bind. eapply okp_mono; [apply round_post|]. intros [s|c'].
      + intros HN. apply okp_ok. apply IH; cbn [fst snd]; [exact T|intros _; exact HN].
      + intros (u & RU & E). apply okp_ok. apply IH; cbn [fst snd]; [exact (trimmed_snoc _ _ _ _ T RU E)|discriminate].
    - apply okp_ok, okp_ok. cbn [fst]. split; [exact T|exact (D eq_refl)]. }
  apply G; cbn [fst snd]; [constructor|discriminate].
Qed.
