(* Volumes: nets of control points, evaluation, the lines of a net. *)
From Coq Require Import ZArith List Bool Reals Lra Lia Permutation.
From Verif Require Import Base Num Vec Tac Spec Spec2 Spec4 Spec11 M_MathUtils M_Polynomials M_XYZ M_Bspline M_NurbsCurve M_Knots M_Curve2 M_Surface M_Volume
  P_MathUtils P_Span P_Cox P_Basis P_VSum P_Curve P_Bspline P_BsplineS P_Loop P_Insert P_Insert2 P_Refine P_Reverse P_Surface.
Import ListNotations.
Open Scope Z_scope.

(** * Three-dimensional arrays *)
Definition arr3 {X} (P : list (list (list X))) (n m l : Z) (f : Z -> Z -> Z -> X) : Prop :=
  len P = n /\ forall i, 0 <= i < n -> exists p, get P i = Ok p /\ arr2 p m l (f i).

Lemma arr3_get {X} (P : list (list (list X))) n m l f i j k : arr3 P n m l f -> 0 <= i < n -> 0 <= j < m -> 0 <= k < l -> get3 P i j k = Ok (f i j k).
Proof. intros [_ H] Hi Hj Hk. destruct (H i Hi) as (p & E & Hp). unfold get3. rewrite E. cbn [bind]. apply (arr2_get _ _ _ _ j k Hp); lia. Qed.

Lemma arr3_upd {X} (P : list (list (list X))) n m l f i j k x (Q : list (list (list X)) -> Prop) : arr3 P n m l f -> 0 <= i < n -> 0 <= j < m -> 0 <= k < l ->
  (forall P', arr3 P' n m l (fun a b c => if (a =? i) && (b =? j) && (c =? k) then x else f a b c) -> Q P') -> wp (upd3 P i j k x) Q.
Proof.
  intros [Hn H] Hi Hj Hk HQ. destruct (H i Hi) as (p & E & Hp). unfold upd3. rewrite E. cbn [bind]. apply wp_bind.
  apply (arr2_upd _ _ _ _ j k x _ Hp); [lia|lia|]. intros p' Hp'. apply upd_wp with (n := n); auto.
  intros P' Hl Hs Ho. apply HQ. split; [exact Hl|]. intros a Ha. destruct (Z.eqb_spec a i) as [->|Ne].
  - exists p'. split; [exact Hs|]. eapply arr2_ext; [exact Hp'|]. intros b c Hb Hc. reflexivity.
  - destruct (H a Ha) as (q & Eq & Hq). exists q. split; [rewrite Ho; auto|exact Hq].
Qed.

Lemma arr3_ext {X} (P : list (list (list X))) n m l f g : arr3 P n m l f -> (forall i j k, 0 <= i < n -> 0 <= j < m -> 0 <= k < l -> f i j k = g i j k) -> arr3 P n m l g.
Proof.
  intros [Hn H] E. split; [exact Hn|]. intros i Hi. destruct (H i Hi) as (p & Ep & Hp). exists p. split; [exact Ep|].
  eapply arr2_ext; [exact Hp|]. intros; apply E; assumption.
Qed.

Lemma wp_mkvec3 {X} (x : X) n m l (Q : list (list (list X)) -> Prop) : 0 <= n -> 0 <= m -> 0 <= l ->
  (forall P, arr3 P n m l (fun _ _ _ => x) -> Q P) -> wp (mkvec3 n m l x) Q.
Proof.
  intros Hn Hm Hl HQ. unfold mkvec3. apply wp_bind. apply wp_mkvec; [lia|]. intros row Hrow. apply wp_bind. apply (wp_mkvec2 x m l row); auto. intros p Hp.
  apply wp_mkvec; [lia|]. intros P HP. apply HQ. split; [apply HP|]. intros i Hi. exists p. split; [apply (arr_get _ _ _ _ HP); lia|exact Hp].
Qed.

Section V1.
Context {T : Type} {V : Vec R T} {L : VecL T}.

Lemma arr3_net r c d (P : list (list (list T))) : net3 r c d P -> arr3 P r c d (pt3 P).
Proof.
  intros [Hl H]. split; [exact Hl|]. intros i Hi. exists (at_ nil P i). split; [apply get_at; lia|]. apply arr2_net. apply H. exact Hi.
Qed.
Lemma net_arr3 r c d (P : list (list (list T))) f : arr3 P r c d f -> net3 r c d P.
Proof.
  intros [Hl H]. split; [exact Hl|]. intros i Hi. destruct (H i Hi) as (p & E & Hp). rewrite (get_at nil) in E by lia. injection E as ->.
  apply (net_arr2 _ _ _ _ Hp).
Qed.
Lemma pt3_arr3 r c d (P : list (list (list T))) f i j k : arr3 P r c d f -> 0 <= i < r -> 0 <= j < c -> 0 <= k < d -> pt3 P i j k = f i j k.
Proof.
  intros [Hl H] Hi Hj Hk. destruct (H i Hi) as (p & E & Hp). rewrite (get_at nil) in E by lia. injection E as <-. unfold pt3.
  apply (pt2_arr2 _ _ _ _ j k Hp); lia.
Qed.

(** * Lines *)
Definition outer (d : VolumeDirection) : VolumeDirection := match d with DirU | DirV => DirW | DirW => DirV end.
Definition inner (d : VolumeDirection) : VolumeDirection := match d with DirU => DirV | DirV | DirW => DirU end.
Definition cell (d : VolumeDirection) (P : list (list (list T))) (i a b : Z) : T :=
  match d with DirU => pt3 P i b a | DirV => pt3 P b i a | DirW => pt3 P b a i end.

Definition arrL (d : VolumeDirection) (P : list (list (list T))) (c o n : Z) (g : Z -> Z -> Z -> T) : Prop :=
  match d with
  | DirU => arr3 P c n o (fun i b a => g i a b)
  | DirV => arr3 P n c o (fun b i a => g i a b)
  | DirW => arr3 P n o c (fun b a i => g i a b)
  end.

Lemma arrL_get d P c o n g i a b : arrL d P c o n g -> 0 <= i < c -> 0 <= a < o -> 0 <= b < n -> line_get d P i a b = Ok (g i a b).
Proof. intros H Hi Ha Hb. destruct d; cbn in *; apply (arr3_get _ _ _ _ _ _ _ _ H); lia. Qed.

Lemma arrL_upd d P c o n g i a b x (Q : list (list (list T)) -> Prop) : arrL d P c o n g -> 0 <= i < c -> 0 <= a < o -> 0 <= b < n ->
  (forall P', arrL d P' c o n (fun i' a' b' => if (i' =? i) && (a' =? a) && (b' =? b) then x else g i' a' b') -> Q P') -> wp (line_upd d P i a b x) Q.
Proof.
  intros H Hi Ha Hb HQ. destruct d; cbn in *; apply (arr3_upd _ _ _ _ _ _ _ _ x _ H); try lia; intros P' HP'; apply HQ; (eapply arr3_ext; [exact HP'|]); intros; cbn.
  - rewrite <- !andb_assoc. rewrite (andb_comm (j =? b)). reflexivity.
  - rewrite (andb_comm (i0 =? b)), <- !andb_assoc. rewrite (andb_comm (i0 =? b)). reflexivity.
  - destruct (i0 =? b), (j =? a), (k =? i); reflexivity.
Qed.

Lemma arrL_ext d P c o n g h : arrL d P c o n g -> (forall i a b, 0 <= i < c -> 0 <= a < o -> 0 <= b < n -> g i a b = h i a b) -> arrL d P c o n h.
Proof. intros H E. destruct d; cbn in *; (eapply arr3_ext; [exact H|]); intros; cbn; apply E; lia. Qed.

(* the sizes of a net seen along d *)
Definition net_along (d : VolumeDirection) (sz : VolumeDirection -> Z) (P : list (list (list T))) : Prop :=
  arrL d P (sz d + 1) (sz (outer d) + 1) (sz (inner d) + 1) (cell d P).

Lemma net_along_iff d sz (P : list (list (list T))) : net3 (sz DirU + 1) (sz DirV + 1) (sz DirW + 1) P <-> net_along d sz P.
Proof.
  split.
  - intros H. pose proof (arr3_net _ _ _ _ H) as A. destruct d; exact A.
  - intros H. destruct d; apply (net_arr3 _ _ _ _ _ H).
Qed.

Lemma net_of_arrL d sz P g : arrL d P (sz d + 1) (sz (outer d) + 1) (sz (inner d) + 1) g -> net3 (sz DirU + 1) (sz DirV + 1) (sz DirW + 1) P.
Proof. intros H. destruct d; apply (net_arr3 _ _ _ _ _ H). Qed.

Lemma cell_arrL d P c o n g i a b : arrL d P c o n g -> 0 <= i < c -> 0 <= a < o -> 0 <= b < n -> cell d P i a b = g i a b.
Proof. intros H Hi Ha Hb. destruct d; cbn in *; apply (pt3_arr3 _ _ _ _ _ _ _ _ H); lia. Qed.

Lemma net_size_ok sz (P : list (list (list T))) : (forall d, 0 <= sz d) -> net3 (sz DirU + 1) (sz DirV + 1) (sz DirW + 1) P -> net_size P = Ok (sz DirU, sz DirV, sz DirW).
Proof.
  intros H0 [Hl HP]. pose proof (H0 DirU). pose proof (H0 DirV). unfold net_size. rewrite (get_at nil) by lia. cbn [bind]. destruct (HP 0 ltac:(lia)) as (Hl0 & HP0).
  rewrite (get_at nil) by lia. cbn [bind]. rewrite (HP0 0) by lia. rewrite Hl, Hl0. repeat f_equal; lia.
Qed.

Lemma extents_ok d sz : extents d (sz DirU) (sz DirV) (sz DirW) = (sz d, sz (outer d), sz (inner d)).
Proof. destruct d; reflexivity. Qed.

Lemma new_net_ok d sz c (Q : list (list (list T)) -> Prop) : (forall e, 0 <= sz e) -> 0 <= c ->
  (forall P, arrL d P c (sz (outer d) + 1) (sz (inner d) + 1) (fun _ _ _ => vzero) -> Q P) -> wp (new_net d (sz DirU) (sz DirV) (sz DirW) c) Q.
Proof.
  intros H0 Hc HQ. pose proof (H0 DirU). pose proof (H0 DirV). pose proof (H0 DirW). destruct d; cbn [new_net]; apply wp_mkvec3; try lia; intros P HP; apply HQ; exact HP.
Qed.

(* every line along d is replaced by the control points of the curve op makes of it *)
Lemma each_line_ok d sz (P : list (list (list T))) (op : list T -> res (Curve R T)) new c' e g0 (K : list R) (Rel : list T -> list T -> Prop) :
  (forall d, 0 <= sz d) -> net3 (sz DirU + 1) (sz DirV + 1) (sz DirW + 1) P ->
  arrL d new c' (sz (outer d) + 1) (sz (inner d) + 1) g0 ->
  (forall line, len line = sz d + 1 -> exists c, op line = Ok c /\ KnotVector c = K /\ len (ControlPoints c) = e /\ Rel line (ControlPoints c)) -> e <= c' ->
  returns (each_line d (sz DirU) (sz DirV) (sz DirW) P op new) (fun '(K', P') => K' = K /\
    arrL d P' c' (sz (outer d) + 1) (sz (inner d) + 1) (cell d P') /\
    forall a b, 0 <= a <= sz (outer d) -> 0 <= b <= sz (inner d) -> exists line Q,
      len line = sz d + 1 /\ len Q = e /\ (forall i, 0 <= i <= sz d -> pt line i = cell d P i a b) /\
      (forall i, 0 <= i < e -> pt Q i = cell d P' i a b) /\ Rel line Q).
Proof.
  intros H0 HP Hnew Hop Hec. apply (net_along_iff d) in HP. pose proof (H0 d) as Hd. pose proof (H0 (outer d)) as Ho. pose proof (H0 (inner d)) as Hi.
  set (done := fun a b (g : Z -> Z -> Z -> T) => exists line Q, len line = sz d + 1 /\ len Q = e /\ (forall i, 0 <= i <= sz d -> pt line i = cell d P i a b) /\
      (forall i, 0 <= i < e -> pt Q i = g i a b) /\ Rel line Q).
  apply wp_elim. unfold each_line. rewrite extents_ok.
  apply wp_for_up with (P := fun h '(K', N) => (0 < h -> K' = K) /\ exists g, arrL d N c' (sz (outer d) + 1) (sz (inner d) + 1) g /\
     forall a b, 0 <= a < h -> 0 <= b <= sz (inner d) -> done a b g); [lia| | |].
  - split; [lia|]. exists g0. split; [exact Hnew|]. intros; lia.
  - intros a [K1 N1] Ha (_ & g1 & A1 & D1).
    apply wp_for_up with (P := fun h '(K', N) => (0 < h -> K' = K) /\ exists g, arrL d N c' (sz (outer d) + 1) (sz (inner d) + 1) g /\
       (forall a' b, 0 <= a' < a -> 0 <= b <= sz (inner d) -> done a' b g) /\ forall b, 0 <= b < h -> done a b g); [lia| | |].
    + split; [lia|]. exists g1. split; [exact A1|]. split; [exact D1|]. intros; lia.
    + intros b [K2 N2] Hb (_ & g2 & A2 & D2 & D2'). apply wp_bind. apply wp_mkvec; [lia|]. intros l0 Hl0. apply wp_bind.
      apply (wp_fill_all (sz d + 1) (fun i => cell d P i a b)); [lia|apply Hl0| |].
      { intros i v Hi0 _. rewrite (arrL_get _ _ _ _ _ _ i a b HP) by lia. reflexivity. }
      intros line Hline. destruct (Hop line (arr_len _ _ _ Hline)) as (c & Ec & EK & Lc & HR). rewrite Ec. cbn [bind]. apply wp_bind. rewrite Lc.
      pose proof (len_nonneg (ControlPoints c)) as Hc0. rewrite Lc in Hc0. pose proof (arr_pt _ _ Lc) as Ac.
      apply wp_for_up with (P := fun h N => arrL d N c' (sz (outer d) + 1) (sz (inner d) + 1)
         (fun i' a' b' => if (i' <? h) && (a' =? a) && (b' =? b) then pt (ControlPoints c) i' else g2 i' a' b')); [lia| | |].
      * eapply arrL_ext; [exact A2|]. intros i' a' b' H1 _ _. cbv beta. destruct (Z.ltb_spec i' 0); [lia|]. reflexivity.
      * intros i N3 Hi3 A3. wget Ac. apply (arrL_upd _ _ _ _ _ _ i a b _ _ A3); [lia|lia|lia|]. intros N4 A4. eapply arrL_ext; [exact A4|].
        intros i' a' b' _ _ _. cbv beta. destruct (Z.eqb_spec i' i) as [->|Ne].
        -- destruct (Z.ltb_spec i (i + 1)); [|lia]. destruct (Z.ltb_spec i i); [lia|]. destruct (a' =? a), (b' =? b); reflexivity.
        -- destruct (Z.ltb_spec i' i), (Z.ltb_spec i' (i + 1)); try lia; reflexivity.
      * intros N3 A3. cbn [wp]. split; [intros _; exact EK|]. eexists. split; [exact A3|].
        assert (Keep : forall a' b', ~ (a' = a /\ b' = b) -> done a' b' g2 ->
                  done a' b' (fun i' a'0 b'0 => if (i' <? e) && (a'0 =? a) && (b'0 =? b) then pt (ControlPoints c) i' else g2 i' a'0 b'0)).
        { intros a' b' Ne (li & Qi & L1 & L2 & L3 & L4 & L5). exists li, Qi. do 3 (split; [assumption|]). split; [|exact L5]. intros i Hi'. rewrite L4 by lia.
          destruct (Z.eqb_spec a' a), (Z.eqb_spec b' b); try tauto; rewrite ?andb_false_r; reflexivity. }
        split.
        -- intros a' b' Ha' Hb'. apply Keep; [lia|]. apply D2; lia.
        -- intros b' Hb'. destruct (Z.eq_dec b' b) as [->|Ne]; [|apply Keep; [lia|apply D2'; lia]].
           exists line, (ControlPoints c). split; [apply Hline|]. split; [exact Lc|]. split; [intros i Hi'; apply (arr_at_eq vzero _ _ _ i Hline); lia|]. split; [|exact HR].
           intros i Hi'. rewrite !Z.eqb_refl. destruct (Z.ltb_spec i e); [reflexivity|lia].
    + intros [K3 N3] (HK & g3 & A3 & D3 & D3'). split; [intros _; apply HK; lia|]. exists g3. split; [exact A3|]. intros a' b Ha' Hb.
      destruct (Z.eq_dec a' a) as [->|]; [apply D3'; lia|apply D3; lia].
  - intros [K' N'] (HK & g & A & D). split; [apply HK; lia|]. assert (E : forall i a b, 0 <= i < c' -> 0 <= a < sz (outer d) + 1 -> 0 <= b < sz (inner d) + 1 -> g i a b = cell d N' i a b).
    { intros i a b H1 H2 H3. symmetry. apply (cell_arrL _ _ _ _ _ _ _ _ _ A); lia. }
    split; [eapply arrL_ext; [exact A|exact E]|]. intros a b Ha Hb. destruct (D a b ltac:(lia) Hb) as (li & Qi & L1 & L2 & L3 & L4 & L5).
    exists li, Qi. do 3 (split; [assumption|]). split; [|exact L5]. intros i Hi'. rewrite L4 by lia. apply E; lia.
Qed.

(** * Evaluation *)
Definition basis (sz : VolumeDirection -> Z) (S : Volume R T) (t : VolumeDirection -> R) (d : VolumeDirection) (i : Z) : R :=
  N (val (knots_in d S)) (val (knots_in d S) (sz d + 1)) (Z.to_nat (degree_in d S)) i (t d).

Lemma volume_along d sz (S : Volume R T) t : volume_point sz S t =
  comb 0 (sz (outer d) + 1) (basis sz S t (outer d)) (fun a => comb 0 (sz (inner d) + 1) (basis sz S t (inner d)) (fun b =>
    comb 0 (sz d + 1) (basis sz S t d) (fun i => cell d (VControlPoints S) i a b))).
Proof.
  unfold volume_point. change (fun i => N (val (knots_in DirU S)) (val (knots_in DirU S) (sz DirU + 1)) (Z.to_nat (degree_in DirU S)) i (t DirU)) with (basis sz S t DirU).
  change (fun i => N (val (knots_in DirV S)) (val (knots_in DirV S) (sz DirV + 1)) (Z.to_nat (degree_in DirV S)) i (t DirV)) with (basis sz S t DirV).
  change (fun i => N (val (knots_in DirW S)) (val (knots_in DirW S) (sz DirW + 1)) (Z.to_nat (degree_in DirW S)) i (t DirW)) with (basis sz S t DirW).
  assert (Sw : forall (n m : Z) w w' (f : Z -> Z -> T), comb 0 n w (fun i => comb 0 m w' (fun j => f i j)) = comb 0 m w' (fun j => comb 0 n w (fun i => f i j)))
    by (intros; apply comb_swap).
  destruct d; cbn [outer inner cell].
  - (* U: W outside, V, U inside *)
    transitivity (comb 0 (sz DirU + 1) (basis sz S t DirU) (fun i => comb 0 (sz DirW + 1) (basis sz S t DirW) (fun k => comb 0 (sz DirV + 1) (basis sz S t DirV) (fun j => pt3 (VControlPoints S) i j k)))).
    { apply comb_ext. intros i _. split; [reflexivity|]. apply Sw. }
    rewrite Sw. apply comb_ext. intros k _. split; [reflexivity|]. apply Sw.
  - transitivity (comb 0 (sz DirU + 1) (basis sz S t DirU) (fun i => comb 0 (sz DirW + 1) (basis sz S t DirW) (fun k => comb 0 (sz DirV + 1) (basis sz S t DirV) (fun j => pt3 (VControlPoints S) i j k)))).
    { apply comb_ext. intros i _. split; [reflexivity|]. apply Sw. }
    apply Sw.
  - apply Sw.
Qed.

(* replacing every line by one with the same point replaces the volume by one with the same point *)
Lemma volume_lines d sz sz' (S S' : Volume R T) t t' : same_but d S S' -> (forall e, e <> d -> sz' e = sz e /\ t' e = t e) ->
  (forall a b, 0 <= a <= sz (outer d) -> 0 <= b <= sz (inner d) ->
     comb 0 (sz' d + 1) (basis sz' S' t' d) (fun i => cell d (VControlPoints S') i a b) = comb 0 (sz d + 1) (basis sz S t d) (fun i => cell d (VControlPoints S) i a b)) ->
  volume_point sz' S' t' = volume_point sz S t.
Proof.
  intros HS He H. rewrite !(volume_along d). assert (No : outer d <> d) by (destruct d; discriminate). assert (Ni : inner d <> d) by (destruct d; discriminate).
  destruct (He _ No) as (E1 & E2). destruct (He _ Ni) as (E3 & E4). destruct (HS _ No) as (E5 & E6). destruct (HS _ Ni) as (E7 & E8).
  rewrite E1, E3. apply comb_ext. intros a Ha. split; [unfold basis; rewrite E1, E2, E5, E6; reflexivity|].
  apply comb_ext. intros b Hb. split; [unfold basis; rewrite E3, E4, E7, E8; reflexivity|]. apply H; lia.
Qed.

Lemma basis_loop q m W v k (N1 : list (option R)) (f : Z -> T) : curve_knots q m W -> span_of q m W v k ->
  vsum 0 (q + 1) (fun j => vscale (NS (val W) k q (k - q + j) v) (f (k - q + j))) = comb 0 (m + 1) (fun j => N (val W) (val W (m + 1)) (Z.to_nat q) j v) f.
Proof.
  intros HW Hk. pose proof HW as [Hq Hm Hl _ _ _]. pose proof Hk as (Hkm & _).
  rewrite <- (comb_from k q (fun i => NS (val W) k q i v) f). rewrite (comb_ext 0 (m + 1) _ (fun j => NS (val W) k q j v) f f).
  - symmetry. apply comb_restrict; try lia. intros j Hj Ho. apply NS_out; lia.
  - intros j Hj. split; [|reflexivity]. apply (NB_span q m W v k q j); auto; lia.
Qed.

Lemma VolumePoint_ok sz (S : Volume R T) t : valid_volume sz S -> in_volume sz S t ->
  VolumePoint S (t DirU) (t DirV) (t DirW) = Ok (volume_point sz S t).
Proof.
  intros (HK & HP) Ht. pose proof (arr3_net _ _ _ _ HP) as AP.
  destruct (HK DirU) as (KU & U7). destruct (HK DirV) as (KV & V7). destruct (HK DirW) as (KW & W7). pose proof (Ht DirU) as TU. pose proof (Ht DirV) as TV. pose proof (Ht DirW) as TW.
  destruct S as [p q r U W X P]. cbn [degree_in knots_in VDegreeU VDegreeV VDegreeW VKnotsU VKnotsV VKnotsW VControlPoints] in *.
  set (n := sz DirU) in *. set (m := sz DirV) in *. set (l := sz DirW) in *. set (u := t DirU) in *. set (v := t DirV) in *. set (w := t DirW) in *.
  destruct (find_span _ _ _ _ KU TU) as (ku & EU & Hku). destruct (find_span _ _ _ _ KV TV) as (kv & EV & Hkv). destruct (find_span _ _ _ _ KW TW) as (kw & EW & Hkw).
  unfold VolumePoint. cbn [degree_in knots_in VDegreeU VDegreeV VDegreeW VKnotsU VKnotsV VKnotsW VControlPoints].
  rewrite EU. cbn [bind].
  destruct (wp_elim _ _ (BasisFunctions_ok U p ku u (span_of_ok _ _ _ _ _ KU Hku) U7 (accepted_dom _ _ _ _ KU TU))) as (NU & -> & HNU). cbn [bind]. rewrite EV. cbn [bind].
  destruct (wp_elim _ _ (BasisFunctions_ok W q kv v (span_of_ok _ _ _ _ _ KV Hkv) V7 (accepted_dom _ _ _ _ KV TV))) as (NV & -> & HNV). cbn [bind]. rewrite EW. cbn [bind].
  destruct (wp_elim _ _ (BasisFunctions_ok X r kw w (span_of_ok _ _ _ _ _ KW Hkw) W7 (accepted_dom _ _ _ _ KW TW))) as (NW & -> & HNW). cbn [bind].
  pose proof KU as [Hp Hn _ _ _ _]. pose proof KV as [Hq Hm _ _ _ _]. pose proof KW as [Hr Hl _ _ _ _]. pose proof Hku as (Iu & _). pose proof Hkv as (Iv & _). pose proof Hkw as (Iw & _).
  apply wp_eq. apply wp_bind. apply wp_mkvec; [lia|]. intros t1 A1. apply wp_bind. apply wp_mkvec; [lia|]. intros t2 A2. apply wp_bind.
  set (G := fun b c => comb 0 (n + 1) (fun i => N (val U) (val U (n + 1)) (Z.to_nat p) i u) (fun i => pt3 P i b c)).
  set (H := fun c => comb 0 (m + 1) (fun j => N (val W) (val W (m + 1)) (Z.to_nat q) j v) (fun j => G j c)).
  apply wp_for_up with (P := fun h '(s1, s2) => len s1 = q + 1 /\ arr s2 (r + 1) (fun j => if j <? h then H (kw - r + j) else vzero)); [lia| | |].
  - split; [apply A1|]. eapply arr_ext; [exact A2|]. intros j Hj. cbv beta. destruct (Z.ltb_spec j 0); [lia|reflexivity].
  - intros j [s1 s2] Hj (L1 & A3). assert (A4 : arr (map (fun _ : T => vzero) s1) (q + 1) (fun _ => @vzero R T _)).
    { split; [unfold len; rewrite map_length; exact L1|]. intros i Hi. unfold get. destruct (Z.ltb_spec i 0); [lia|]. rewrite nth_error_map.
      rewrite (nth_error_at vzero) by lia. reflexivity. }
    apply wp_bind. apply wp_for_up with (P := fun h s => arr s (q + 1) (fun a => if a <? h then G (kv - q + a) (kw - r + j) else vzero)); [lia| | |].
    + eapply arr_ext; [exact A4|]. intros a Ha. cbv beta. destruct (Z.ltb_spec a 0); [lia|reflexivity].
    + intros a s Ha A5. eapply (acc_arr 0 (p + 1) a (q + 1) s _ (fun k => vscale (NS (val U) ku p (ku - p + k) u) (pt3 P (ku - p + k) (kv - q + a) (kw - r + j)))); [lia|exact A5|lia| |].
      * intros k s' Hk. rewrite (getu_arrD _ _ _ _ k HNU) by lia. cbn [bind]. rewrite (arr3_get _ _ _ _ _ _ _ _ AP) by lia. reflexivity.
      * intros s' A6. eapply arr_ext; [exact A6|]. intros b Hb. cbv beta. destruct (Z.eqb_spec b a) as [->|Ne].
        -- destruct (Z.ltb_spec a a); [lia|]. destruct (Z.ltb_spec a (a + 1)); [|lia]. rewrite vadd_0_l.
           apply (basis_loop p n U u ku NU (fun i => pt3 P i (kv - q + a) (kw - r + j))); assumption.
        -- destruct (Z.ltb_spec b a), (Z.ltb_spec b (a + 1)); try lia; reflexivity.
    + intros s A5. apply wp_bind. eapply (acc_arr 0 (q + 1) j (r + 1) s2 _ (fun a => vscale (NS (val W) kv q (kv - q + a) v) (G (kv - q + a) (kw - r + j)))); [lia|exact A3|lia| |].
      * intros a s' Ha. rewrite (getu_arrD _ _ _ _ a HNV) by lia. cbn [bind]. rewrite (arr_get _ _ _ _ A5) by lia. cbn [bind]. destruct (Z.ltb_spec a (q + 1)); [|lia]. reflexivity.
      * intros s' A6. cbn [wp]. split; [apply A5|]. eapply arr_ext; [exact A6|]. intros b Hb. cbv beta. destruct (Z.eqb_spec b j) as [->|Ne].
        -- destruct (Z.ltb_spec j j); [lia|]. destruct (Z.ltb_spec j (j + 1)); [|lia]. rewrite vadd_0_l.
           apply (basis_loop q m W v kv NV (fun i => G i (kw - r + j))); assumption.
        -- destruct (Z.ltb_spec b j), (Z.ltb_spec b (j + 1)); try lia; reflexivity.
  - intros [s1 s2] (_ & A3). rewrite (acc_loop0 0 (r + 1) (fun j => vscale (NS (val X) kw r (kw - r + j) w) (H (kw - r + j)))); [|lia|].
    + cbn [wp]. rewrite (basis_loop r l X w kw NW H KW Hkw). change (fun j => N (val X) (val X (l + 1)) (Z.to_nat r) j w) with (basis sz (mkVolume p q r U W X P) t DirW).
      rewrite (volume_along DirU). reflexivity.
    + intros j x Hj. rewrite (getu_arrD _ _ _ _ j HNW) by lia. cbn [bind]. rewrite (arr_get _ _ _ _ A3) by lia. cbn [bind]. destruct (Z.ltb_spec j (r + 1)); [|lia]. reflexivity.
Qed.
End V1.
