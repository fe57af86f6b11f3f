(* Zeros of splines, and uniqueness of spline interpolation (Schoenberg-Whitney); no model functions here. *)
From Coq Require Import ZArith List Bool Reals Lra Lia Classical.
From Verif Require Import Base Num Vec Tac Spec P_Cox P_Deriv P_Bspline.
Open Scope Z_scope.

Section SW.
Variables (U : Z -> R) (p n : Z).
Hypothesis Hp : 1 <= p.
Hypothesis Hn : p <= n.
Hypothesis HU : forall i j, 0 <= i -> i <= j -> j <= n + p + 1 -> (U i <= U j)%R.
Hypothesis HS : forall k, p <= k <= n -> (U k < U (k + 1)%Z)%R.
Hypothesis HL : forall i, 0 <= i <= p -> U i = U p.
Hypothesis HR : forall i, n + 1 <= i <= n + p + 1 -> U i = U (n + 1).

(* the spline with coefficients c and degree q, on span k *)
Definition spl (q : Z) (c : Z -> R) (k : Z) (t : R) : R := rsum (k - q) (k + 1) (fun i => NS U k q i t * c i)%R.
Definition dco (q : Z) (c : Z -> R) (i : Z) : R := (IZR q * (c i - c (i - 1)%Z) * inv0 (U (i + q)%Z - U i))%R.

Lemma good_q q k : 0 <= q <= p -> p <= k <= n -> good U k q.
Proof. intros Hq Hk. split; [apply HS; lia|]. intros i j H1 H2 H3. apply HU; lia. Qed.

Lemma spl_ext q c c' k t : (forall i, k - q <= i <= k -> c i = c' i) -> spl q c k t = spl q c' k t.
Proof. intros H. apply rsum_ext. intros i Hi. rewrite H by lia. reflexivity. Qed.
Lemma spl_zero q c k t : (forall i, k - q <= i <= k -> c i = 0%R) -> spl q c k t = 0%R.
Proof. intros H. apply rsum_zero. intros i Hi. rewrite H by lia. ring. Qed.

Lemma spl_der q c k t : 1 <= q <= p -> p <= k <= n -> der (spl q c k) t (spl (q - 1) (dco q c) k t).
Proof.
  intros Hq Hk. unfold spl. eapply der_eq; [|apply (der_rsum (k - q) (k + 1) (fun i t => NS U k q i t * c i)%R (fun i => dNS U k q i t * c i)%R)].
  2: { intros i Hi. apply der_scal_r. apply der_NS; [lia|]. apply good_q; lia. }
  set (A := fun i => (NS U k (q - 1) i t * inv0 (U (i + q)%Z - U i))%R).
  rewrite (rsum_ext _ _ _ (fun i => IZR q * (A i * c i) - IZR q * (A (i + 1)%Z * c i))%R).
  2: { intros i Hi. unfold dNS, A. replace (i + 1 + q) with (i + q + 1) by lia. ring. }
  rewrite rsum_minus. rewrite (rsum_first (k - q)) by lia.
  assert (A0 : A (k - q) = 0%R) by (unfold A; rewrite NS_out by lia; ring). rewrite A0.
  rewrite (rsum_shift 1 (k - q) (k + 1)). rewrite (rsum_last (k - q + 1) (k + 1)) by lia.
  replace (k + 1 - 1 + 1) with (k + 1) by lia. assert (A1 : A (k + 1) = 0%R) by (unfold A; rewrite NS_out by lia; ring). rewrite A1.
  replace (k - (q - 1)) with (k - q + 1) by lia.
  match goal with |- (?a + ?s1 - (?s2 + ?b))%R = _ => replace (a + s1 - (s2 + b))%R with (s1 - s2)%R by ring end.
  rewrite <- rsum_minus. apply rsum_ext. intros i Hi. replace (i - 1 + 1) with i by lia. unfold A, dco. ring.
Qed.

Lemma NS_knot k q i : p <= k < n -> 1 <= q <= p -> NS U k q i (U (k + 1)%Z) = NS U (k + 1) q i (U (k + 1)%Z).
Proof.
  intros Hk Hq. destruct Hq as [Hq Hqp]. revert q Hq Hqp i. apply (Zrange_ind 1 (fun q => q <= p -> forall i, NS U k q i (U (k + 1)%Z) = NS U (k + 1) q i (U (k + 1)%Z))).
  - intros _ i. rewrite (NS_succ U k 1), (NS_succ U (k + 1) 1) by lia. replace (1 - 1) with 0 by lia. rewrite !NS_0.
    pose proof (HS k ltac:(lia)). pose proof (HS (k + 1) ltac:(lia)).
    destruct (Z.eqb_spec i k) as [->|].
    + destruct (Z.eqb_spec (k + 1) k); [lia|]. destruct (Z.eqb_spec k (k + 1)); [lia|]. rewrite Z.eqb_refl. rewrite !sdiv_ok by lra. field. lra.
    + destruct (Z.eqb_spec (i + 1) k) as [<-|].
      * destruct (Z.eqb_spec i (i + 1 + 1)); [lia|]. destruct (Z.eqb_spec (i + 1) (i + 1 + 1)); [lia|]. unfold sdiv. repeat match goal with |- context [Req_EM_T ?a ?b] => destruct (Req_EM_T a b) end; field; auto.
      * destruct (Z.eqb_spec i (k + 1)) as [->|]; [|destruct (Z.eqb_spec (i + 1) (k + 1)); [lia|ring]].
        destruct (Z.eqb_spec (k + 1 + 1) (k + 1)); [lia|]. unfold sdiv. repeat match goal with |- context [Req_EM_T ?a ?b] => destruct (Req_EM_T a b) end; field; auto.
  - intros q Hq IH Hqp i. rewrite (NS_succ U k (q + 1)), (NS_succ U (k + 1) (q + 1)) by lia. replace (q + 1 - 1) with q by lia. rewrite !IH by lia. reflexivity.
Qed.

Lemma spl_knot k q c : p <= k < n -> 1 <= q <= p -> spl q c k (U (k + 1)%Z) = spl q c (k + 1) (U (k + 1)%Z).
Proof.
  intros Hk Hq. unfold spl. transitivity (rsum (k - q) (k + 2) (fun i => NS U (k + 1) q i (U (k + 1)%Z) * c i)%R).
  - replace (k + 2) with (k + 1 + 1) by lia. rewrite (rsum_last (k - q) (k + 1)) by lia. rewrite <- (NS_knot k q (k + 1)) by lia. rewrite (NS_out U k q (k + 1)) by lia. rewrite Rmult_0_l, Rplus_0_r.
    apply rsum_ext. intros i Hi. rewrite NS_knot by lia. reflexivity.
  - rewrite (rsum_first (k - q) (k + 2)) by lia. rewrite (NS_out U (k + 1) q (k - q)) by lia. rewrite Rmult_0_l, Rplus_0_l. replace (k - q + 1) with (k + 1 - q) by lia. replace (k + 2) with (k + 1 + 1) by lia. reflexivity.
Qed.

(* a rise or fall shows in the derivative *)
Lemma spl_mvt q c e : 1 <= q <= p -> forall (j : nat) k x l y, p <= k -> l = k + Z.of_nat j -> l <= n ->
  (U k <= x <= U (k + 1)%Z)%R -> (U l <= y <= U (l + 1)%Z)%R -> (x < y)%R -> (0 < e * (spl q c l y - spl q c k x))%R ->
  exists m z, k <= m <= l /\ (x < z < y)%R /\ (U m < z < U (m + 1)%Z)%R /\ (0 < e * spl (q - 1) (dco q c) m z)%R.
Proof.
  intros Hq. assert (one : forall k x y, p <= k <= n -> (U k <= x)%R -> (y <= U (k + 1)%Z)%R -> (x < y)%R -> (0 < e * (spl q c k y - spl q c k x))%R ->
    exists z, (x < z < y)%R /\ (0 < e * spl (q - 1) (dco q c) k z)%R).
  { intros k x y Hk Hx Hy Hxy He. destruct (MVT_cor2 (spl q c k) (spl (q - 1) (dco q c) k) x y Hxy) as (z & E & Hz). { intros t _. apply spl_der; lia. }
    exists z. split; [exact Hz|]. rewrite E in He. assert (e * (spl (q - 1) (dco q c) k z * (y - x)) = (e * spl (q - 1) (dco q c) k z) * (y - x))%R as E' by ring. rewrite E' in He.
    apply (Rmult_lt_reg_r (y - x)); [lra|]. lra. }
  induction j as [|j IH]; intros k x l y Hk El Hl Hx Hy Hxy He.
  - assert (l = k) as -> by lia. destruct (one k x y ltac:(lia) (proj1 Hx) (proj2 Hy) Hxy He) as (z & Hz & Hz'). exists k, z. repeat split; try lia; try lra; assumption.
  - pose proof (HU (k + 1) l ltac:(lia) ltac:(lia) ltac:(lia)) as Hkl. pose proof (spl_knot k q c ltac:(lia) Hq) as EK.
    destruct (Rlt_dec 0 (e * (spl q c k (U (k + 1)%Z) - spl q c k x))) as [H1|H1].
    + assert (x < U (k + 1)%Z)%R as Hxk by (destruct Hx as [_ [?|E]]; [assumption|rewrite <- E in H1; exfalso; replace (spl q c k x - spl q c k x)%R with 0%R in H1 by ring; lra]).
      destruct (one k x (U (k + 1)%Z) ltac:(lia) (proj1 Hx) ltac:(lra) Hxk H1) as (z & Hz & Hz'). exists k, z. repeat split; try lia; try lra; assumption.
    + assert (He' : (0 < e * (spl q c l y - spl q c (k + 1) (U (k + 1)%Z)))%R) by (rewrite <- EK; apply Rnot_lt_le in H1; rewrite Rmult_minus_distr_l in *; lra).
      assert (Hky : (U (k + 1)%Z < y)%R).
      { destruct (Rle_lt_dec y (U (k + 1)%Z)) as [H2|]; [|assumption]. exfalso. assert (E : U l = U (k + 1)) by lra. assert (l = k + 1) as ->.
        { destruct (Z.eq_dec l (k + 1)); [assumption|]. pose proof (HS (k + 1) ltac:(lia)). pose proof (HU (k + 1 + 1) l ltac:(lia) ltac:(lia) ltac:(lia)). lra. }
        assert (y = U (k + 1)) as -> by lra. replace (spl q c (k + 1) (U (k + 1)%Z) - spl q c (k + 1) (U (k + 1)%Z))%R with 0%R in He' by ring. lra. }
      destruct (IH (k + 1) (U (k + 1)%Z) l y ltac:(lia) ltac:(lia) Hl ltac:(pose proof (HS (k + 1) ltac:(lia)); lra) Hy Hky He') as (m & z & Hm & Hz & Hz' & Hz''). exists m, z. repeat split; try lia; try lra; assumption.
Qed.

(* m points right of x, the spline alternating in sign, the first sign e *)
Fixpoint alt (f : Z -> R -> R) (e : R) (k : Z) (x : R) (m : nat) : Prop :=
  match m with
  | O => True
  | S m' => exists l y, k <= l <= n /\ (x < y)%R /\ (U l < y < U (l + 1)%Z)%R /\ (0 < e * f l y)%R /\ alt f (- e) l y m'
  end.
(* m points right of x, the spline rising and falling in turn *)
Fixpoint zig (f : Z -> R -> R) (e : R) (k : Z) (x : R) (m : nat) : Prop :=
  match m with
  | O => True
  | S m' => exists l y, k <= l <= n /\ (x < y)%R /\ (U l <= y <= U (l + 1)%Z)%R /\ (0 < e * (f l y - f k x))%R /\ zig f (- e) l y m'
  end.
(* x is a zero, m zeros follow with non-zeros between *)
Fixpoint humps (f : Z -> R -> R) (k : Z) (x : R) (m : nat) : Prop :=
  match m with
  | O => True
  | S m' => exists l y l' x', k <= l <= l' /\ l' <= n /\ (x < y < x')%R /\ (U l <= y <= U (l + 1)%Z)%R /\ (U l' <= x' <= U (l' + 1)%Z)%R /\
      f l y <> 0%R /\ f l' x' = 0%R /\ humps f l' x' m'
  end.

Lemma alt_weak f e k x k' x' m : k' <= k -> (x' <= x)%R -> alt f e k x m -> alt f e k' x' m.
Proof. intros Hk Hx. destruct m; [auto|]. cbn. intros (l & y & H1 & H2 & H3 & H4 & H5). exists l, y. repeat split; try lia; try lra; assumption. Qed.

Lemma zig_alt q c : 1 <= q <= p -> forall m e k x, p <= k -> (U k <= x <= U (k + 1)%Z)%R -> zig (spl q c) e k x m -> alt (spl (q - 1) (dco q c)) e k x m.
Proof.
  intros Hq. induction m as [|m IH]; intros e k x Hk Hx; [exact (fun _ => I)|]. cbn [zig alt]. intros (l & y & Hl & Hxy & Hy & He & Hz).
  destruct (spl_mvt q c e Hq (Z.to_nat (l - k)) k x l y Hk ltac:(lia) ltac:(lia) Hx Hy Hxy He) as (j & z & Hj & Hz1 & Hz2 & Hz3).
  exists j, z. split; [lia|]. split; [lra|]. split; [exact Hz2|]. split; [exact Hz3|]. apply (alt_weak _ _ l y); [lia|lra|]. apply IH; [lia|exact Hy|exact Hz].
Qed.

Lemma alt_zig f : forall m e k x, (U k < x < U (k + 1)%Z)%R -> p <= k <= n -> alt f e k x m -> (0 < - e * f k x)%R ->
  zig f e k x m /\ (f n (U (n + 1)%Z) = 0%R -> zig f e k x (S m)).
Proof.
  induction m as [|m IH]; intros e k x Hx Hk Ha Hs.
  - split; [exact I|]. intros Hb. exists n, (U (n + 1)%Z). pose proof (HU (k + 1) (n + 1) ltac:(lia) ltac:(lia) ltac:(lia)). pose proof (HS n ltac:(lia)).
    split; [lia|]. split; [lra|]. split; [lra|]. split; [rewrite Hb; lra|exact I].
  - cbn [alt] in Ha. destruct Ha as (l & y & Hl & Hxy & Hy & He & Ha). destruct (IH (- e)%R l y Hy ltac:(lia) Ha ltac:(lra)) as (Z1 & Z2).
    split; [|intros Hb]; exists l, y; (split; [lia|]); (split; [lra|]); (split; [lra|]); (split; [rewrite Rmult_minus_distr_l; lra|]); auto.
Qed.

Lemma vd_zero c mu nu : (forall i, p <= i <= n -> i < mu \/ nu < i -> c i = 0%R) -> forall m e k x, p <= k -> (e * c k <= 0)%R \/ k < mu ->
  alt (spl 0 c) e k x m -> Z.of_nat m <= Z.max 0 (nu - Z.max k (mu - 1)).
Proof.
  intros Hc. assert (E : forall k t, spl 0 c k t = c k).
  { intros k t. unfold spl. rewrite Z.sub_0_r, rsum_one, NS_0, Z.eqb_refl. ring. }
  induction m as [|m IH]; intros e k x Hk H1 Ha; [lia|]. cbn [alt] in Ha. destruct Ha as (l & y & Hl & _ & _ & He & Ha). rewrite E in He.
  assert (Hlb : mu <= l <= nu). { destruct (Z_lt_dec l mu); [rewrite (Hc l) in He by lia; lra|]. destruct (Z_lt_dec nu l); [rewrite (Hc l) in He by lia; lra|]. lia. }
  assert (Hkl : k < mu \/ k < l). { destruct H1; [|left; lia]. right. destruct (Z.eq_dec k l) as [->|]; [lra|lia]. }
  specialize (IH (- e)%R l y ltac:(lia) ltac:(left; lra) Ha). lia.
Qed.

Lemma spl_left q c : 0 <= q <= p -> spl q c p (U p) = c (p - q).
Proof.
  intros Hq. unfold spl. rewrite (rsum_single _ _ (p - q)); [|lia|].
  - rewrite NS_left; [rewrite Z.eqb_refl; ring|lia|apply good_q; lia|]. intros j Hj. apply HL. lia.
  - intros i Hi Hne. rewrite NS_left; [destruct (Z.eqb_spec i (p - q)); [lia|ring]|lia|apply good_q; lia|]. intros j Hj. apply HL. lia.
Qed.
Lemma spl_right q c : 0 <= q <= p -> spl q c n (U (n + 1)%Z) = c n.
Proof.
  intros Hq. unfold spl. rewrite (rsum_single _ _ n); [|lia|].
  - rewrite NS_right; [rewrite Z.eqb_refl; ring|lia|apply good_q; lia|]. intros j Hj. apply HR. lia.
  - intros i Hi Hne. rewrite NS_right; [destruct (Z.eqb_spec i n); [lia|ring]|lia|apply good_q; lia|]. intros j Hj. apply HR. lia.
Qed.

(* a spline changes its sign less often than it has coefficients *)
Lemma vd q : 0 <= q -> q <= p -> forall c mu nu, p - q <= mu -> nu <= n -> mu <= nu + 1 -> (forall i, p - q <= i <= n -> i < mu \/ nu < i -> c i = 0%R) ->
  forall m e k x, p <= k -> alt (spl q c) e k x m -> Z.of_nat m <= nu - mu + 1.
Proof.
  revert q. apply (Zrange_ind 0 (fun q => q <= p -> forall c mu nu, p - q <= mu -> nu <= n -> mu <= nu + 1 -> (forall i, p - q <= i <= n -> i < mu \/ nu < i -> c i = 0%R) ->
    forall m e k x, p <= k -> alt (spl q c) e k x m -> Z.of_nat m <= nu - mu + 1)).
  - intros _ c mu nu Hmu Hnu Hmn Hc m e k x Hk Ha. destruct (Z_lt_dec k mu).
    + pose proof (vd_zero c mu nu ltac:(intros i Hi; apply Hc; lia) m e k x Hk ltac:(right; lia) Ha). lia.
    + destruct m as [|m]; [lia|]. cbn [alt] in Ha. destruct Ha as (l & y & Hl & Hxy & Hy & He & Ha).
      assert (El : spl 0 c l y = c l) by (unfold spl; rewrite Z.sub_0_r, rsum_one, NS_0, Z.eqb_refl; ring). rewrite El in He.
      assert (Hlb : mu <= l <= nu). { destruct (Z_lt_dec l mu); [rewrite (Hc l) in He by lia; lra|]. destruct (Z_lt_dec nu l); [rewrite (Hc l) in He by lia; lra|]. lia. }
      pose proof (vd_zero c mu nu ltac:(intros i Hi; apply Hc; lia) m (- e)%R l y ltac:(lia) ltac:(left; lra) Ha). lia.
  - intros q Hq IH Hqp c mu nu Hmu Hnu Hmn Hc m e k x Hk Ha. destruct m as [|m]; [lia|]. cbn [alt] in Ha. destruct Ha as (l & y & Hl & Hxy & Hy & He & Ha).
    destruct (alt_zig (spl (q + 1) c) m (- e)%R l y Hy ltac:(lia) Ha ltac:(lra)) as (Z1 & Z2).
    set (mu' := if Z_lt_dec (p - (q + 1)) mu then mu else mu + 1). set (nu' := if Z_lt_dec nu n then nu + 1 else nu).
    set (mr := if Z_lt_dec nu n then S m else m).
    assert (Zr : zig (spl (q + 1) c) (- e) l y mr).
    { unfold mr. destruct (Z_lt_dec nu n); [|exact Z1]. apply Z2. rewrite spl_right by lia. apply Hc; lia. }
    set (ml := if Z_lt_dec (p - (q + 1)) mu then S mr else mr).
    assert (Zl : exists e' k' x', p <= k' /\ (U k' <= x' <= U (k' + 1)%Z)%R /\ zig (spl (q + 1) c) e' k' x' ml).
    { unfold ml. destruct (Z_lt_dec (p - (q + 1)) mu).
      - exists e, p, (U p). pose proof (HS p ltac:(lia)). split; [lia|]. split; [lra|]. exists l, y. split; [lia|]. pose proof (HU p l ltac:(lia) ltac:(lia) ltac:(lia)). split; [lra|]. split; [lra|].
        split; [|exact Zr]. rewrite spl_left by lia. rewrite (Hc (p - (q + 1))) by lia. lra.
      - exists (- e)%R, l, y. split; [lia|]. split; [lra|exact Zr]. }
    destruct Zl as (e' & k' & x' & Hk' & Hx' & Zl). apply (zig_alt (q + 1) c ltac:(lia)) in Zl; [|exact Hk'|exact Hx']. replace (q + 1 - 1) with q in Zl by lia.
    assert (B : Z.of_nat ml <= nu' - mu' + 1).
    { apply (IH ltac:(lia) (dco (q + 1) c) mu' nu') with (m := ml) (e := e') (k := k') (x := x'); [| | | |exact Hk'|exact Zl].
      - unfold mu'. destruct (Z_lt_dec (p - (q + 1)) mu); lia.
      - unfold nu'. destruct (Z_lt_dec nu n); lia.
      - unfold mu', nu'. destruct (Z_lt_dec (p - (q + 1)) mu), (Z_lt_dec nu n); lia.
      - intros i Hi Hor. unfold dco. assert (c i = 0%R /\ c (i - 1) = 0%R) as [-> ->]; [|ring]. unfold mu', nu' in Hor.
        split; apply Hc; destruct (Z_lt_dec (p - (q + 1)) mu), (Z_lt_dec nu n); lia. }
    unfold ml, mr, mu', nu' in B. destruct (Z_lt_dec (p - (q + 1)) mu), (Z_lt_dec nu n); lia.
Qed.

Lemma humps_alt q c : 1 <= q <= p -> forall m k x, p <= k -> (U k <= x <= U (k + 1)%Z)%R -> spl q c k x = 0%R -> humps (spl q c) k x m ->
  (forall e, e = 1%R \/ e = (-1)%R -> alt (spl (q - 1) (dco q c)) e k x m) /\ ((0 < m)%nat -> exists e, alt (spl (q - 1) (dco q c)) e k x (S m)).
Proof.
  intros Hq. induction m as [|m IH]; intros k x Hk Hx H0 Hh; [split; [intros; exact I|lia]|].
  cbn [humps] in Hh. destruct Hh as (l & y & l' & x' & Hl & Hl' & Hxy & Hy & Hx' & Hne & H0' & Hh).
  destruct (IH l' x' ltac:(lia) Hx' H0' Hh) as (IHa & _). clear IH.
  assert (He : exists e, (e = 1%R \/ e = (-1)%R) /\ (0 < e * spl q c l y)%R).
  { destruct (Rtotal_order (spl q c l y) 0) as [?|[?|?]]; [exists (-1)%R|tauto|exists 1%R]; (split; [tauto|lra]). }
  destruct He as (e & He1 & He).
  destruct (spl_mvt q c e Hq (Z.to_nat (l - k)) k x l y Hk ltac:(lia) ltac:(lia) Hx Hy ltac:(lra) ltac:(rewrite H0; lra)) as (j1 & z1 & Hj1 & Hz1 & Hu1 & Hs1).
  destruct (spl_mvt q c (- e) Hq (Z.to_nat (l' - l)) l y l' x' ltac:(lia) ltac:(lia) ltac:(lia) Hy Hx' ltac:(lra) ltac:(rewrite H0'; lra)) as (j2 & z2 & Hj2 & Hz2 & Hu2 & Hs2).
  assert (He2 : (- e = 1 \/ - e = -1)%R) by (destruct He1; [right|left]; lra).
  assert (A2 : alt (spl (q - 1) (dco q c)) (- e) j1 z1 (S m)).
  { exists j2, z2. split; [lia|]. split; [lra|]. split; [exact Hu2|]. split; [exact Hs2|]. rewrite Ropp_involutive. apply (alt_weak _ _ l' x'); [lia|lra|]. apply IHa. exact He1. }
  split.
  - intros e' He'. assert (e' = e \/ e' = - e)%R as [-> | ->] by (destruct He1, He'; lra).
    + exists j1, z1. split; [lia|]. split; [lra|]. split; [exact Hu1|]. split; [exact Hs1|]. apply (alt_weak _ _ l' x'); [lia|lra|]. apply IHa. exact He2.
    + apply (alt_weak _ _ j1 z1); [lia|lra|exact A2].
  - intros _. exists e. exists j1, z1. split; [lia|]. split; [lra|]. split; [exact Hu1|]. split; [exact Hs1|]. exact A2.
Qed.

(* a spline that vanishes on an interval has vanishing coefficients there *)
Lemma spl_indep k x y : p <= k <= n -> (x < y)%R -> forall q, 0 <= q -> q <= p -> forall c, (forall t, (x < t < y)%R -> spl q c k t = 0%R) -> forall i, k - q <= i <= k -> c i = 0%R.
Proof.
  intros Hk Hxy. apply (Zrange_ind 0 (fun q => q <= p -> forall c, (forall t, (x < t < y)%R -> spl q c k t = 0%R) -> forall i, k - q <= i <= k -> c i = 0%R)).
  - intros _ c H i Hi. assert (i = k) as -> by lia. specialize (H ((x + y) / 2)%R ltac:(lra)). unfold spl in H. rewrite Z.sub_0_r, rsum_one, NS_0, Z.eqb_refl in H. lra.
  - intros q Hq IH Hqp c H.
    assert (D : forall t, (x < t < y)%R -> spl q (dco (q + 1) c) k t = 0%R).
    { intros t Ht. pose proof (spl_der (q + 1) c k t ltac:(lia) Hk) as D. replace (q + 1 - 1) with q in D by lia.
      refine (uniqueness_limite _ _ _ _ D _). intros eps He. set (dl := Rmin (t - x) (y - t)). assert (Hd : (0 < dl)%R) by (unfold dl; apply Rmin_pos; lra).
      exists (mkposreal dl Hd). cbn [pos]. intros h Hh1 Hh2. assert (dl <= t - x)%R by apply Rmin_l. assert (dl <= y - t)%R by apply Rmin_r.
      assert (x < t + h < y)%R by (apply Rabs_def2 in Hh2; lra). rewrite !H by assumption. unfold Rdiv, Rminus. rewrite Ropp_0, !Rplus_0_r, Rmult_0_l, Rabs_R0. exact He. }
    pose proof (IH ltac:(lia) _ D) as ID. clear IH D.
    assert (E : forall i, k - (q + 1) <= i <= k -> c i = c k).
    { intros i [Hi1 Hi2]. replace i with (k - (k - i)) by lia. assert (Hd : 0 <= k - i) by lia. assert (Hd2 : k - i <= q + 1) by lia. revert Hd Hd2. generalize (k - i). clear i Hi1 Hi2.
      apply (Zrange_ind 0 (fun d => d <= q + 1 -> c (k - d) = c k)); [intros _; f_equal; lia|]. intros d Hd IH Hd2. rewrite <- IH by lia.
      specialize (ID (k - d) ltac:(lia)). unfold dco in ID. pose proof (good_den U k (q + 1) (k - d) (k - d + (q + 1)) (good_q (q + 1) k ltac:(lia) Hk) ltac:(lia) ltac:(lia) ltac:(lia) ltac:(lia)) as G.
      pose proof (inv0_ok (U (k - d + (q + 1))%Z - U (k - d)%Z)%R ltac:(lra)) as I1. set (g := inv0 _) in *.
      assert (Hg : (g <> 0)%R) by (intros Eg; rewrite Eg in I1; lra). assert (HQ : (IZR (q + 1) <> 0)%R) by (apply not_0_IZR; lia).
      apply Rmult_integral in ID. destruct ID as [ID|]; [|tauto]. apply Rmult_integral in ID. destruct ID as [|ID]; [tauto|]. replace (k - (d + 1)) with (k - d - 1) by lia. lra. }
    intros i Hi. rewrite (E i Hi). specialize (H ((x + y) / 2)%R ltac:(lra)). unfold spl in H.
    rewrite (rsum_ext _ _ _ (fun i => NS U k (q + 1) i ((x + y) / 2) * c k)%R) in H by (intros j Hj; rewrite (E j) by lia; reflexivity).
    rewrite rsum_scal_r, NS_sum in H; [lra|lia|apply good_q; lia].
Qed.

Lemma locate t : (U p <= t <= U (n + 1)%Z)%R -> exists k, p <= k <= n /\ (U k <= t <= U (k + 1)%Z)%R.
Proof.
  intros Ht. assert (H : forall m, p <= m -> m <= n -> (t <= U (m + 1)%Z)%R -> exists k, p <= k <= n /\ (U k <= t <= U (k + 1)%Z)%R).
  { apply (Zrange_ind p (fun m => m <= n -> (t <= U (m + 1)%Z)%R -> exists k, p <= k <= n /\ (U k <= t <= U (k + 1)%Z)%R)).
    - intros H1 H2. exists p. split; [lia|lra].
    - intros m Hm IH H1 H2. destruct (Rle_dec t (U (m + 1)%Z)) as [H|H]; [apply IH; [lia|exact H]|]. exists (m + 1). split; [lia|]. lra. }
  apply (H n); [lia|lia|lra].
Qed.
Lemma located_le k x l y : p <= k <= n -> p <= l <= n -> (U k <= x <= U (k + 1)%Z)%R -> (U l <= y <= U (l + 1)%Z)%R -> (x < y)%R -> k <= l.
Proof. intros Hk Hl Hx Hy Hxy. destruct (Z_lt_dec l k); [|lia]. pose proof (HU (l + 1) k ltac:(lia) ltac:(lia) ltac:(lia)). lra. Qed.

Section Zeros.
Variable u : Z -> R.

Lemma block_zero : forall (size : nat) mu nu c, 1 <= mu -> nu <= n - 1 -> nu - mu + 1 <= Z.of_nat size ->
  (forall i, 0 <= i <= n -> i < mu \/ nu < i -> c i = 0%R) ->
  (forall i, mu <= i <= nu -> exists k, p <= k <= n /\ (U k <= u i <= U (k + 1)%Z)%R /\ spl p c k (u i) = 0%R) ->
  (forall i, mu <= i <= nu -> (U i < u i < U (i + p + 1)%Z)%R) -> (forall i, mu <= i < nu -> (u i < u (i + 1)%Z)%R) ->
  forall i, 0 <= i <= n -> c i = 0%R.
Proof.
  induction size as [|size IH]; intros mu nu c Hmu Hnu Hsz Hc Hz Hu Hinc.
  { intros i Hi. apply Hc; lia. }
  destruct (Z_lt_dec nu mu) as [He|He]. { intros i Hi. apply Hc; lia. }
  set (z := fun i => if Z_lt_dec i mu then U mu else if Z_le_dec i nu then u i else U (nu + p + 1)%Z).
  assert (Zinc : forall i, mu - 1 <= i <= nu -> (z i < z (i + 1)%Z)%R).
  { intros i Hi. unfold z. destruct (Z_lt_dec i mu).
    - destruct (Z_lt_dec (i + 1) mu); [lia|]. destruct (Z_le_dec (i + 1) nu); [|lia]. assert (i + 1 = mu) as -> by lia. apply Hu. lia.
    - destruct (Z_lt_dec (i + 1) mu); [lia|]. destruct (Z_le_dec i nu); [|lia]. destruct (Z_le_dec (i + 1) nu); [apply Hinc; lia|]. assert (i = nu) as -> by lia. apply Hu. lia. }
  assert (Zmon : forall i j, mu - 1 <= i -> i <= j -> j <= nu + 1 -> (z i <= z j)%R).
  { intros i j Hi. revert j. apply (Zrange_ind i (fun j => j <= nu + 1 -> (z i <= z j)%R)); [intros; lra|]. intros j Hj IHj Hj2. specialize (IHj ltac:(lia)). pose proof (Zinc j ltac:(lia)). lra. }
  assert (Zzero : forall i, mu - 1 <= i <= nu + 1 -> exists k, p <= k <= n /\ (U k <= z i <= U (k + 1)%Z)%R /\ spl p c k (z i) = 0%R).
  { intros i Hi. unfold z. destruct (Z_lt_dec i mu); [|destruct (Z_le_dec i nu); [apply Hz; lia|]].
    - destruct (Z_le_dec mu p).
      + exists p. split; [lia|]. rewrite (HL mu) by lia. pose proof (HS p ltac:(lia)). split; [lra|]. rewrite spl_left by lia. rewrite Z.sub_diag. apply Hc; lia.
      + exists mu. split; [lia|]. pose proof (HS mu ltac:(lia)). split; [lra|]. pose proof (spl_knot (mu - 1) p c ltac:(lia) ltac:(lia)) as EK. replace (mu - 1 + 1) with mu in EK by lia. rewrite <- EK.
        apply spl_zero. intros j Hj. apply Hc; lia.
    - destruct (Z_le_dec n (nu + p)).
      + exists n. split; [lia|]. rewrite (HR (nu + p + 1)) by lia. pose proof (HS n ltac:(lia)). split; [lra|]. rewrite spl_right by lia. apply Hc; lia.
      + exists (nu + p). split; [lia|]. pose proof (HS (nu + p) ltac:(lia)). split; [lra|]. rewrite spl_knot by lia. apply spl_zero. intros j Hj. apply Hc; lia. }
  destruct (classic (exists i, mu - 1 <= i <= nu /\ forall l y, p <= l <= n -> (U l <= y <= U (l + 1)%Z)%R -> (z i < y < z (i + 1)%Z)%R -> spl p c l y = 0%R)) as [(g & Hg & Hgap)|Hno].
  - (* the spline vanishes between two zeros: divide *)
    destruct (locate ((z g + z (g + 1)%Z) / 2)%R) as (k & Hk & Hw).
    { pose proof (Zinc g Hg). pose proof (Zmon (mu - 1) g ltac:(lia) ltac:(lia) ltac:(lia)) as Z1. pose proof (Zmon (g + 1) (nu + 1) ltac:(lia) ltac:(lia) ltac:(lia)) as Z2.
      destruct (Zzero (mu - 1) ltac:(lia)) as (k1 & Hk1 & Hz1 & _). destruct (Zzero (nu + 1) ltac:(lia)) as (k2 & Hk2 & Hz2 & _).
      pose proof (HU p k1 ltac:(lia) ltac:(lia) ltac:(lia)). pose proof (HU (k2 + 1) (n + 1) ltac:(lia) ltac:(lia) ltac:(lia)). lra. }
    pose proof (Zinc g Hg) as Zg. pose proof (HS k Hk) as Sk.
    assert (I0 : forall i, k - p <= i <= k -> c i = 0%R).
    { apply (spl_indep k (Rmax (U k) (z g)) (Rmin (U (k + 1)%Z) (z (g + 1)%Z)) Hk) with (q := p); [|lia|lia|].
      - apply Rmax_lub_lt; apply Rmin_glb_lt; lra.
      - intros t Ht. apply Hgap; [exact Hk| |].
        + pose proof (Rmax_l (U k) (z g)). pose proof (Rmin_l (U (k + 1)%Z) (z (g + 1)%Z)). lra.
        + pose proof (Rmax_r (U k) (z g)). pose proof (Rmin_r (U (k + 1)%Z) (z (g + 1)%Z)). lra. }
    assert (Hkr : mu <= k <= nu + p).
    { pose proof (Zmon (mu - 1) g ltac:(lia) ltac:(lia) ltac:(lia)) as Z1. pose proof (Zmon (g + 1) (nu + 1) ltac:(lia) ltac:(lia) ltac:(lia)) as Z2.
      unfold z in Z1 at 1. unfold z in Z2 at 2. destruct (Z_lt_dec (mu - 1) mu); [|lia]. destruct (Z_lt_dec (nu + 1) mu); [lia|]. destruct (Z_le_dec (nu + 1) nu); [lia|]. split.
      - destruct (Z_lt_dec k mu); [|lia]. pose proof (HU (k + 1) mu ltac:(lia) ltac:(lia) ltac:(lia)). lra.
      - destruct (Z_lt_dec (nu + p) k); [|lia]. pose proof (HU (nu + p + 1) k ltac:(lia) ltac:(lia) ltac:(lia)). lra. }
    set (cl := fun i => if Z_lt_dec i (k - p) then c i else 0%R). set (cr := fun i => if Z_lt_dec k i then c i else 0%R).
    assert (L0 : forall i, 0 <= i <= n -> cl i = 0%R).
    { apply (IH mu (k - p - 1) cl); [lia|lia|lia| | | |].
      - intros i Hi Hor. unfold cl. destruct (Z_lt_dec i (k - p)); [|reflexivity]. apply Hc; lia.
      - intros i Hi. destruct (Hz i ltac:(lia)) as (l & Hl & Hul & Hs). exists l. split; [exact Hl|]. split; [exact Hul|].
        assert (l < k). { destruct (Z_lt_dec l k); [assumption|]. pose proof (Hu i ltac:(lia)). pose proof (HU (i + p + 1) k ltac:(lia) ltac:(lia) ltac:(lia)). pose proof (HU k l ltac:(lia) ltac:(lia) ltac:(lia)). lra. }
        rewrite <- Hs. apply spl_ext. intros j Hj. unfold cl. destruct (Z_lt_dec j (k - p)); [reflexivity|]. symmetry. apply I0. lia.
      - intros i Hi. apply Hu. lia.
      - intros i Hi. apply Hinc. lia. }
    assert (R0 : forall i, 0 <= i <= n -> cr i = 0%R).
    { apply (IH (k + 1) nu cr); [lia|lia|lia| | | |].
      - intros i Hi Hor. unfold cr. destruct (Z_lt_dec k i); [|reflexivity]. apply Hc; lia.
      - intros i Hi. destruct (Hz i ltac:(lia)) as (l & Hl & Hul & Hs). exists l. split; [exact Hl|]. split; [exact Hul|].
        assert (k < l). { destruct (Z_lt_dec k l); [assumption|]. pose proof (Hu i ltac:(lia)). pose proof (HU (k + 1) i ltac:(lia) ltac:(lia) ltac:(lia)). pose proof (HU (l + 1) (k + 1) ltac:(lia) ltac:(lia) ltac:(lia)). lra. }
        rewrite <- Hs. apply spl_ext. intros j Hj. unfold cr. destruct (Z_lt_dec k j); [reflexivity|]. symmetry. apply I0. lia.
      - intros i Hi. apply Hu. lia.
      - intros i Hi. apply Hinc. lia. }
    intros i Hi. destruct (Z_lt_dec i (k - p)) as [H1|H1]; [specialize (L0 i Hi); unfold cl in L0; destruct (Z_lt_dec i (k - p)); [exact L0|lia]|].
    destruct (Z_lt_dec k i) as [H2|H2]; [specialize (R0 i Hi); unfold cr in R0; destruct (Z_lt_dec k i); [exact R0|lia]|]. apply I0. lia.
  - (* too many sign changes of the derivative *)
    exfalso. assert (HH : forall j, 0 <= j -> j <= nu - mu + 2 -> forall k, p <= k <= n -> (U k <= z (nu + 1 - j)%Z <= U (k + 1)%Z)%R -> humps (spl p c) k (z (nu + 1 - j)) (Z.to_nat j)).
    { apply (Zrange_ind 0 (fun j => j <= nu - mu + 2 -> forall k, p <= k <= n -> (U k <= z (nu + 1 - j)%Z <= U (k + 1)%Z)%R -> humps (spl p c) k (z (nu + 1 - j)) (Z.to_nat j))); [intros; exact I|].
      intros j Hj IHj Hj2 k Hk Hzk. replace (Z.to_nat (j + 1)) with (S (Z.to_nat j)) by lia. set (i := nu + 1 - (j + 1)) in *.
      assert (Hy : exists l y, p <= l <= n /\ (U l <= y <= U (l + 1)%Z)%R /\ (z i < y < z (i + 1)%Z)%R /\ spl p c l y <> 0%R).
      { apply NNPP. intros HN. apply Hno. exists i. split; [unfold i; lia|]. intros l y Hl Hul Hy. apply NNPP. intros Hne. apply HN. exists l, y. auto. }
      destruct Hy as (l & y & Hl & Hul & Hy & Hne). destruct (Zzero (i + 1) ltac:(unfold i; lia)) as (l' & Hl' & Hul' & Hz').
      exists l, y, l', (z (i + 1)). pose proof (located_le k (z i) l y Hk Hl Hzk Hul ltac:(lra)). pose proof (located_le l y l' (z (i + 1)) Hl Hl' Hul Hul' ltac:(lra)).
      split; [lia|]. split; [lia|]. split; [exact Hy|]. split; [exact Hul|]. split; [exact Hul'|]. split; [exact Hne|]. split; [exact Hz'|].
      replace (i + 1) with (nu + 1 - j) in * by (unfold i; lia). apply IHj; [lia|exact Hl'|exact Hul']. }
    destruct (Zzero (mu - 1) ltac:(lia)) as (k & Hk & Hzk & Hz0). specialize (HH (nu - mu + 2) ltac:(lia) ltac:(lia) k Hk). replace (nu + 1 - (nu - mu + 2)) with (mu - 1) in HH by lia. specialize (HH Hzk).
    destruct (humps_alt p c ltac:(lia) _ k _ ltac:(lia) Hzk Hz0 HH) as (_ & HA). destruct (HA ltac:(lia)) as (e & A).
    pose proof (vd (p - 1) ltac:(lia) ltac:(lia) (dco p c) mu (nu + 1) ltac:(lia) ltac:(lia) ltac:(lia)
      ltac:(intros i Hi Hor; unfold dco; rewrite (Hc i), (Hc (i - 1)) by lia; ring) _ e k _ ltac:(lia) A). lia.
Qed.

(* uniqueness: the parameters interlace with the knots *)
Lemma sw_unique c : u 0 = U p -> u n = U (n + 1) -> (forall i, 0 < i < n -> (U i < u i < U (i + p + 1)%Z)%R) -> (forall i, 0 <= i < n -> (u i < u (i + 1)%Z)%R) ->
  (forall i, 0 <= i <= n -> exists k, p <= k <= n /\ (U k <= u i <= U (k + 1)%Z)%R /\ spl p c k (u i) = 0%R) ->
  forall i, 0 <= i <= n -> c i = 0%R.
Proof.
  intros U0 Un Hi Hinc Hz. assert (C0 : c 0 = 0%R).
  { destruct (Hz 0 ltac:(lia)) as (k & Hk & Hk2 & H0). rewrite U0 in *. assert (k = p) as ->.
    { destruct (Z.eq_dec k p); [assumption|]. pose proof (HS p ltac:(lia)). pose proof (HU (p + 1) k ltac:(lia) ltac:(lia) ltac:(lia)). lra. }
    rewrite spl_left in H0 by lia. rewrite Z.sub_diag in H0. exact H0. }
  assert (Cn : c n = 0%R).
  { destruct (Hz n ltac:(lia)) as (k & Hk & Hk2 & H0). rewrite Un in *. assert (k = n) as ->.
    { destruct (Z.eq_dec k n); [assumption|]. pose proof (HS n ltac:(lia)). pose proof (HU (k + 1) n ltac:(lia) ltac:(lia) ltac:(lia)). lra. }
    rewrite spl_right in H0 by lia. exact H0. }
  apply (block_zero (Z.to_nat n) 1 (n - 1) c); [lia|lia|lia| | | |].
  - intros i Hi1 Hi2. assert (i = 0 \/ i = n) as [-> | ->] by lia; assumption.
  - intros i Hi1. apply Hz. lia.
  - intros i Hi1. apply Hi. lia.
  - intros i Hi1. apply Hinc. lia.
Qed.
End Zeros.
End SW.
