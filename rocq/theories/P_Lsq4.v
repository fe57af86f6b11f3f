(* Least squares with weights and constraints: the optimum. *)
From Coq Require Import ZArith List Bool Reals Lra Lia Permutation.
From Verif Require Import Base Num Vec Tac Spec Spec2 Spec3 Spec6 Spec20 M_MathUtils M_Polynomials M_XYZ M_Bspline M_NurbsCurve M_Interp M_Fit M_Fit2
  P_MathUtils P_Math2 P_Span P_Cox P_Deriv P_Ders P_XYZ P_Vec P_VSum P_Curve P_Bspline P_BsplineS P_Loop P_Basis P_Fit P_Interp2 P_Interp P_Local P_Lsq P_Lsq2 P_Lsq3.
Import ListNotations.
Open Scope Z_scope.

Lemma positions (l : list Z) (lam : Z -> R) : NoDup l -> exists f : Z -> R, forall q, 0 <= q < len l -> f (at_ 0 l q) = lam q.
Proof.
  intros ND. exists (fun x => rsum 0 (len l) (fun q => if at_ 0 l q =? x then lam q else 0%R)). intros q Hq. rewrite (rsum_single 0 (len l) q); [rewrite Z.eqb_refl; reflexivity|lia|]. intros i Hi Ne. destruct (Z.eqb_spec (at_ 0 l i) (at_ 0 l q)) as [E|]; [|reflexivity]. exfalso. apply Ne. apply (at_inj l); auto; lia.
Qed.

Section Main.
Variable solve : list (list R) -> list (list R) -> res (list (list R)).
Hypothesis Hsolve : exact_solver solve.
Variables (p n : Z) (U us : list R) (Q D : list (XYZ R)) (W Wt : list R) (J : list Z).
Hypothesis Hp1 : 1 <= p.
Hypothesis HpQ : p < len Q.
Hypothesis HW : len W = len Q.
Hypothesis HJ : len J = len D.
Hypothesis HWt : len Wt = len D.
Hypothesis HJr : forall j, In j J -> 0 <= j < len Q.
Let m := len Q + len D.
Let data := fit_data us Q W D J Wt.
Let cnt r := is_counted (data r).
Let hld r := is_held (data r).
Let mu := number m cnt.
Let mc := number m hld.

Lemma counts : (let (ru, rc) := count_weights W in let (su, sc) := count_weights Wt in (ru + su, rc + sc)) = (mu, mc).
Proof using HW HWt.
  clear HJr Hsolve. rewrite !cw_ok. pose proof (len_nonneg Q) as LQ. pose proof (len_nonneg D) as LD. unfold mu, mc, number. fold (zseq m). unfold m. rewrite zseq_app by lia. rewrite !filter_app, !len_app', !filter_map_len.
  assert (E : forall f : R -> bool, len (filter f W) = len (filter (fun x => f (val W x)) (zseq (len Q)))). { intros f. rewrite <- (filter_map_len f (val W)). unfold val. rewrite <- HW. rewrite (zseq_map 0%R W) || (change (map (fun i => at_ 0%R W i) (zseq (len W))) with (map (at_ 0%R W) (zseq (len W))); rewrite zseq_map). reflexivity. }
  assert (E' : forall f : R -> bool, len (filter f Wt) = len (filter (fun x => f (val Wt x)) (zseq (len D)))). { intros f. rewrite <- (filter_map_len f (val Wt)). unfold val. rewrite <- HWt. change (map (fun i => at_ 0%R Wt i) (zseq (len Wt))) with (map (at_ 0%R Wt) (zseq (len Wt))). rewrite zseq_map. reflexivity. }
  rewrite !E, !E'. f_equal; f_equal; f_equal; apply filter_ext_in; intros x Hx; apply zseq_in in Hx.
  - unfold cnt, data. rewrite <- (gt_cnt us Q D W Wt J x). unfold fit_data. destruct (Z.ltb_spec x (len Q)); [reflexivity|lia].
  - unfold cnt, data. rewrite <- (gt_cnt us Q D W Wt J (len Q + x)). unfold fit_data. destruct (Z.ltb_spec (len Q + x) (len Q)); [lia|]. cbn [d_weight]. do 2 f_equal. lia.
  - unfold hld, data. rewrite <- (lt_hld us Q D W Wt J x). unfold fit_data. destruct (Z.ltb_spec x (len Q)); [reflexivity|lia].
  - unfold hld, data. rewrite <- (lt_hld us Q D W Wt J (len Q + x)). unfold fit_data. destruct (Z.ltb_spec (len Q + x) (len Q)); [lia|]. cbn [d_weight]. do 2 f_equal. lia.
Qed.

Lemma start_ok : forallb (fun idx => (0 <=? idx) && (idx <? len Q)) J = true.
Proof using HJr. clear Hp1 HpQ HW HJ HWt. clear mc mu hld cnt data m. apply forallb_forall. intros j Hj. specialize (HJr j Hj). destruct (Z.leb_spec 0 j), (Z.ltb_spec j (len Q)); try lia; reflexivity. Qed.

Lemma Wls_none : mu = 0 \/ n < mc \/ n < 0 -> WeightedLeastSquares solve p Q W D J Wt (n + 1) = Ok None.
Proof using Hp1 HpQ HW HJ HWt HJr.
  clear Hsolve. intros H0. unfold WeightedLeastSquares. destruct (Z.ltb_spec 0 p); [|lia]. destruct (Z.ltb_spec p (len Q)); [|lia]. rewrite HW, HJ, HWt, !Z.eqb_refl, start_ok. cbn [validate bind].
  pose proof counts as C. destruct (count_weights W) as [ru rc], (count_weights Wt) as [su sc]. injection C as C1 C2. rewrite C1, C2. replace (n + 1 - 1) with n by lia.
  destruct (Z.eqb_spec mu 0), (Z.ltb_spec n mc), (Z.leb_spec (n + 1) 0); cbn [orb]; try reflexivity. lia.
Qed.

Hypothesis HU : curve_knots p n U.
Hypothesis Hp7 : p <= 7.
Hypothesis Eus : GetChordParameterization Q = Ok us.
Hypothesis EU : ComputeKnotVector p (n + 1) us = Ok U.
Hypothesis Hus : len us = len Q.
Hypothesis Hdom : forall i, 0 <= i < len Q -> in_domain p n U (val us i).
Hypothesis HJn : NoDup J.
Hypothesis Hmu : 0 < mu.
Hypothesis Hmc : mc <= n.
Let cf := coef p U us Q D W Wt J.
Hypothesis Hdet : forall P : Z -> R, (forall x, 0 <= x < m -> cnt x = true \/ hld x = true -> dotl n (cf x) P = 0%R) -> forall l, 0 <= l <= n -> P l = 0%R.
Hypothesis Hind : forall f : Z -> R, exists P : Z -> R, forall x, 0 <= x < m -> hld x = true -> dotl n (cf x) P = f x.
Let wg r := d_weight (data r).
Let tg r := d_target (data r).

Lemma Wls_run : returns (WeightedLeastSquares solve p Q W D J Wt (n + 1)) (fun r => exists cps (X : Z -> Z -> R), r = Some (mkCurve p U cps) /\
  arr cps (n + 1) (fun l => hom (mkXYZ (X l 0) (X l 1) (X l 2)) 1) /\
  (forall x a, 0 <= x < m -> hld x = true -> 0 <= a < 3 -> dotl n (cf x) (fun l => X l a) = cof (tg x) a) /\
  forall a X', 0 <= a < 3 -> (forall x, 0 <= x < m -> hld x = true -> dotl n (cf x) (fun l => X l a) = dotl n (cf x) X') ->
    (rsum 0 m (fun x => if cnt x then wg x * ((dotl n (cf x) (fun l => X l a) - cof (times3 (wg x) (tg x)) a) * (dotl n (cf x) (fun l => X l a) - cof (times3 (wg x) (tg x)) a)) else 0) <=
     rsum 0 m (fun x => if cnt x then wg x * ((dotl n (cf x) X' - cof (times3 (wg x) (tg x)) a) * (dotl n (cf x) X' - cof (times3 (wg x) (tg x)) a)) else 0))%R).
Proof.
  pose proof HU as [Hp0 Hn Hl _ _ _]. pose proof (len_nonneg Q) as LQ. pose proof (len_nonneg D) as LD. assert (Hm : 0 <= m) by (unfold m; lia).
  unfold WeightedLeastSquares. destruct (Z.ltb_spec 0 p); [|lia]. destruct (Z.ltb_spec p (len Q)); [|lia]. rewrite HW, HJ, HWt, !Z.eqb_refl, start_ok. cbn [validate bind].
  pose proof counts as C. destruct (count_weights W) as [ru rc], (count_weights Wt) as [su sc]. injection C as C1 C2. rewrite C1, C2. replace (n + 1 - 1) with n by lia. clear C1 C2.
  assert (Hmc0 : 0 <= mc) by (unfold mc, number; apply len_nonneg).
  destruct (Z.eqb_spec mu 0); [lia|]. destruct (Z.ltb_spec n mc); [lia|]. destruct (Z.leb_spec (n + 1) 0); [lia|]. cbn [orb]. rewrite Eus. cbn [bind]. rewrite EU. cbn [bind].
  apply wp_elim. apply wp_bind, wp_mkvec; [lia|]. intros line Al. num. apply wp_bind. apply (wp_mkvec2 0%R mu (n + 1) line); [lia|exact Al|]. intros N0 AN0. apply wp_bind. apply (wp_mkvec2 0%R mc (n + 1) line); [lia|exact Al|]. intros M0 AM0.
  apply wp_bind, wp_mkvec; [lia|]. intros S0 AS0. apply wp_bind, wp_mkvec; [lia|]. intros T0 AT0. apply wp_bind, wp_mkvec; [lia|]. intros W0 AW0.
  apply wp_bind. eapply wp_mono.
  { assert (EO : map Z.of_nat (seq 0 (length D)) = zseq (len D)) by (unfold zseq, len; rewrite Nat2Z.id; reflexivity). rewrite EO.
    exact (loop_ok p n U us Q D W Wt J HU Hp1 Hp7 HpQ Hus Hdom HW HJ HWt HJr HJn N0 M0 S0 T0 W0 AN0 AM0 AS0 AT0 AW0). }
  cbv beta. intros st (s & Ps & (FN & FM & FS & FT & FW & Emu & Emc)). fold data in FN, FM, FS, FT, FW, Emu, Emc. fold m in Ps, FN, FM, FS, FT, FW. fold cf in FN, FM.
  change (fun r => is_counted (data r)) with cnt in FN, FM, FS, FT, FW, Emu, Emc. change (fun r => is_held (data r)) with hld in FN, FM, FS, FT, FW, Emu, Emc. change (number m cnt) with mu in FN, FM, FS, FT, FW, Emu, Emc. change (number m hld) with mc in FN, FM, FS, FT, FW, Emu, Emc.
  set (ps := filter cnt s) in *. set (hs := filter hld s) in *.
  assert (Pp : Permutation ps (filter cnt (zseq m))) by (apply filter_perm, Ps). assert (Ph : Permutation hs (filter hld (zseq m))) by (apply filter_perm, Ps).
  assert (Lp : len ps = mu) by (unfold len at 1; rewrite (Permutation_length Pp); reflexivity). assert (Lh : len hs = mc) by (unfold len at 1; rewrite (Permutation_length Ph); reflexivity).
  assert (Ip : forall x, In x ps <-> 0 <= x < m /\ cnt x = true). { intros x. rewrite <- zseq_in, <- filter_In. split; apply Permutation_in; [|apply Permutation_sym]; exact Pp. }
  assert (Ih : forall x, In x hs <-> 0 <= x < m /\ hld x = true). { intros x. rewrite <- zseq_in, <- filter_In. split; apply Permutation_in; [|apply Permutation_sym]; exact Ph. }
  assert (NDh : NoDup hs). { apply (Permutation_NoDup (Permutation_sym Ph)). apply NoDup_filter, zseq_nodup. }
  rewrite Emu, Emc, Lp, Lh, !Z.eqb_refl. cbn [andb negb].
  set (b r l := cf (at_ 0 ps r) l). set (e q l := cf (at_ 0 hs q) l). set (w r := wg (at_ 0 ps r)).
  assert (AN : is_mat (fN st) mu (n + 1) b). { apply (arr2_ext _ _ _ _ _ FN). intros r l Hr Hl'. destruct (Z.ltb_spec r (len ps)); [reflexivity|lia]. }
  assert (AM : is_mat (fM st) mc (n + 1) e). { apply (arr2_ext _ _ _ _ _ FM). intros r l Hr Hl'. destruct (Z.ltb_spec r (len hs)); [reflexivity|lia]. }
  assert (AS : arr (fS st) mu (fun r => times3 (w r) (tg (at_ 0 ps r)))). { apply (arr_ext _ _ _ _ FS). intros r Hr. destruct (Z.ltb_spec r (len ps)); [|lia]. reflexivity || (unfold times3, xyz_scale, w, wg, tg, data; num; f_equal; apply Rmult_comm). }
  assert (AT : arr (fT st) mc (fun r => tg (at_ 0 hs r))). { apply (arr_ext _ _ _ _ FT). intros r Hr. destruct (Z.ltb_spec r (len hs)); [reflexivity|lia]. }
  assert (AW : arr (fW st) mu w). { apply (arr_ext _ _ _ _ FW). intros r Hr. destruct (Z.ltb_spec r (len ps)); [reflexivity|lia]. }
  apply wp_bind, wp_mkvec; [lia|]. intros wl Awl. apply wp_bind. apply (wp_mkvec2 0%R mu mu wl); [lia|exact Awl|]. intros D0 AD0.
  apply wp_bind. apply wp_for_up with (P := fun i m => arr2 m mu mu (fun r c => if (r <? i) && (r =? c) then w r else 0%R)); [lia| | |].
  { apply (arr2_ext _ _ _ _ _ AD0). intros r c Hr Hc. destruct (Z.ltb_spec r 0); [lia|reflexivity]. }
  { intros i D1 Hi AD1. wget AW. apply (arr2_upd _ _ _ _ _ _ _ _ AD1); [lia|lia|]. intros D2 AD2. apply (arr2_ext _ _ _ _ _ AD2). intros r c Hr Hc. cbv beta.
    destruct (Z.eqb_spec r i), (Z.eqb_spec c i), (Z.ltb_spec r i), (Z.ltb_spec r (i + 1)), (Z.eqb_spec r c); cbn [andb]; subst; try lia; reflexivity. }
  intros Dm ADm. assert (AD : is_mat Dm mu mu (fun r c => if r =? c then w r else 0%R)). { apply (arr2_ext _ _ _ _ _ ADm). intros r c Hr Hc. destruct (Z.ltb_spec r mu); [reflexivity|lia]. } clear ADm.
  destruct (Transpose_spec _ mu (n + 1) _ Hmu ltac:(lia) AN) as (tN & -> & AtN). cbn [bind].
  destruct (MatrixMultiply_spec _ _ (n + 1) mu mu _ _ ltac:(lia) Hmu ltac:(lia) AtN AD) as (tNW & -> & AtNW). cbn [bind].
  assert (AtNW' : is_mat tNW (n + 1) mu (fun i r => b r i * w r)%R). { apply (arr2_ext _ _ _ _ _ AtNW). intros i r Hi Hr. rewrite (rsum_single 0 mu r); [rewrite Z.eqb_refl; ring|lia|]. intros k Hk Ne. destruct (Z.eqb_spec k r); [lia|ring]. } clear AtNW.
  destruct (MatrixMultiply_spec _ _ (n + 1) mu (n + 1) _ _ ltac:(lia) Hmu ltac:(lia) AtNW' AN) as (G & -> & AG). cbn [bind].
  destruct (MatrixMultiply_spec _ _ (n + 1) mu 3 _ _ ltac:(lia) Hmu ltac:(lia) AtNW' (rows3 _ _ _ AS)) as (Sm & -> & ASm). cbn [bind].
  assert (Hw : forall r, 0 <= r < mu -> (0 < w r)%R). { intros r Hr. assert (I : In (at_ 0 ps r) ps) by (apply at_in; lia). apply Ip in I. destruct I as (_ & I). unfold w, wg. unfold cnt, is_counted in I. pose proof (tol_pos (d_weight (data (at_ 0 ps r))) 0). destruct (Rlt_dec _ _) as [L|L] in I; [lra|discriminate]. }
  assert (Reg : regular (n + 1 + mc) (kkt n mu b e w)).
  { apply (kkt_regular n mu mc b e w (fun _ => 0%R) (fun _ => 0%R)); [lia|exact Hmc0|exact Hw| |].
    - intros P Ka Kb. apply Hdet. intros x Hx [K|K].
      + assert (I : In x ps) by (apply Ip; split; assumption). destruct (in_at _ _ I) as (r & Hr & <-). apply Ka. lia.
      + assert (I : In x hs) by (apply Ih; split; assumption). destruct (in_at _ _ I) as (r & Hr & <-). apply Kb. lia.
    - intros lam Ka. destruct (positions hs lam NDh) as (f & Hf). destruct (Hind f) as (P & HP).
      assert (Z0 : rsum 0 mc (fun q => lam q * lam q)%R = 0%R).
      { rewrite (rsum_ext 0 mc _ (fun q => lam q * dotl n (e q) P)%R). - rewrite <- (sum_dot n mc e lam P). apply rsum_zero. intros l Hl'. rewrite Ka by lia. ring.
        - intros q Hq. unfold e. assert (I : In (at_ 0 hs q) hs) by (apply at_in; lia). apply Ih in I. change (dotl n (fun l => cf (at_ 0 hs q) l) P) with (dotl n (cf (at_ 0 hs q)) P). rewrite HP by tauto. rewrite Hf by lia. reflexivity. }
      intros q Hq. pose proof (rsum_all_zero 0 mc (fun q => lam q * lam q)%R ltac:(intros i Hi; pose proof (Rle_0_sqr (lam i)) as Q0; unfold Rsqr in Q0; exact Q0) Z0 q Hq) as E. cbv beta in E. apply Rmult_integral in E. tauto. }
  (* whatever the branch, the system is solved *)
  assert (Fin : forall r X fX, 0 <= r -> n + 1 <= r -> is_mat X r 3 fX ->
    (forall l a, 0 <= l <= n -> 0 <= a < 3 -> (rsum 0 mu (fun r => b r l * w r * dotl n (b r) (fun l => fX l a)) + rsum 0 mc (fun q => e q l * fX (n + 1 + q)%Z a) = rsum 0 mu (fun r => b r l * w r * cof (times3 (w r) (tg (at_ 0%Z ps r))) a))%R) ->
    (forall q a, 0 <= q < mc -> 0 <= a < 3 -> dotl n (e q) (fun l => fX l a) = cof (tg (at_ 0 hs q)) a) ->
    wp (let! r := (let! ok := good_solution X r in if ok then let! cps := solution_points X (n + 1) in Ok (Some cps) else Ok None) in match r with Some cps => Ok (Some (mkCurve p U cps)) | None => Ok None end)
    (fun r => exists cps (X : Z -> Z -> R), r = Some (mkCurve p U cps) /\
  arr cps (n + 1) (fun l => hom (mkXYZ (X l 0) (X l 1) (X l 2)) 1) /\
  (forall x a, 0 <= x < m -> hld x = true -> 0 <= a < 3 -> dotl n (cf x) (fun l => X l a) = cof (tg x) a) /\
  forall a X', 0 <= a < 3 -> (forall x, 0 <= x < m -> hld x = true -> dotl n (cf x) (fun l => X l a) = dotl n (cf x) X') ->
    (rsum 0 m (fun x => if cnt x then wg x * ((dotl n (cf x) (fun l => X l a) - cof (times3 (wg x) (tg x)) a) * (dotl n (cf x) (fun l => X l a) - cof (times3 (wg x) (tg x)) a)) else 0) <=
     rsum 0 m (fun x => if cnt x then wg x * ((dotl n (cf x) X' - cof (times3 (wg x) (tg x)) a) * (dotl n (cf x) X' - cof (times3 (wg x) (tg x)) a)) else 0))%R)).
  { intros r X fX Hr0 Hr HX Top Bot. destruct (solution_ok X r n fX ltac:(lia) Hr HX) as (-> & cps & -> & Ac). cbn [bind]. apply wp_ok. exists cps, fX. split; [reflexivity|]. split; [exact Ac|]. split.
    - intros x a Hx K Ha. assert (I : In x hs) by (apply Ih; split; assumption). destruct (in_at _ _ I) as (q & Hq & <-). apply (Bot q a); [lia|exact Ha].
    - intros a X' Ha Same.
      assert (Conv : forall Y : Z -> R, rsum 0 m (fun x => if cnt x then wg x * ((dotl n (cf x) Y - cof (times3 (wg x) (tg x)) a) * (dotl n (cf x) Y - cof (times3 (wg x) (tg x)) a)) else 0)%R = rsum 0 mu (fun r => w r * ((dotl n (b r) Y - cof (times3 (w r) (tg (at_ 0%Z ps r))) a) * (dotl n (b r) Y - cof (times3 (w r) (tg (at_ 0%Z ps r))) a)))%R).
      { intros Y. rewrite <- (lsum_zseq (fun x => if cnt x then wg x * ((dotl n (cf x) Y - cof (times3 (wg x) (tg x)) a) * (dotl n (cf x) Y - cof (times3 (wg x) (tg x)) a)) else 0)%R m Hm). rewrite <- (lsum_filter (fun x => wg x * ((dotl n (cf x) Y - cof (times3 (wg x) (tg x)) a) * (dotl n (cf x) Y - cof (times3 (wg x) (tg x)) a)))%R cnt). rewrite <- (lsum_perm _ _ _ Pp). rewrite <- lsum_at, Lp. reflexivity. }
      rewrite !Conv. apply (optimal n mu mc b e w (fun r => cof (times3 (w r) (tg (at_ 0 ps r))) a) Hw (fun l => fX l a) X' (fun q => fX (n + 1 + q) a)).
      + intros l Hl'. specialize (Top l a Hl' Ha). rewrite (rsum_ext 0 mu (fun r => b r l * (w r * (dotl n (b r) (fun l => fX l a) - cof (times3 (w r) (tg (at_ 0%Z ps r))) a)))%R (fun r => b r l * w r * dotl n (b r) (fun l => fX l a) - b r l * w r * cof (times3 (w r) (tg (at_ 0%Z ps r))) a)%R) by (intros; ring). rewrite rsum_minus. lra.
      + intros q Hq. apply Same; [|]; assert (I : In (at_ 0 hs q) hs) by (apply at_in; lia); apply Ih in I; tauto. }
  rewrite <- bind_assoc || idtac.
  destruct (Z.eqb_spec mc 0) as [Em|Em].
  - assert (Reg0 : regular (n + 1) (gram mu b w)). { replace (n + 1) with (n + 1 + mc) by lia. apply (regular_ext _ _ _ (fun i j Hi Hj => eq_refl)). apply (regular_ext _ (kkt n mu b e w)); [|exact Reg]. intros i j Hi Hj. unfold kkt. destruct (Z.leb_spec i n), (Z.leb_spec j n); try lia. reflexivity. }
    destruct (Hsolve (n + 1) 3 _ _ _ _ ltac:(lia) ltac:(lia) AG ASm Reg0) as (X & EX & x & HX & HS).
    rewrite (Solve_shape solve _ _ (n + 1) 3 _ _ ltac:(lia) ltac:(lia) AG ASm), EX. cbn [bind]. apply (Fin (n + 1) X x); [lia|lia|exact HX| |intros; lia].
    intros l a Hl' Ha. rewrite (rsum_nil 0 mc) by lia. rewrite <- (HS l a ltac:(lia) Ha). rewrite Rplus_0_r. symmetry. apply (gram_dot n mu b w l (fun l => x l a)).
  - destruct (system_ok n mu mc b e w (fun r => tg (at_ 0 hs r)) ltac:(lia) ltac:(lia) G Sm (fM st) (fT st) _ AG ASm AM AT) as ((A1 & B1) & -> & HA & HB). cbn [bind fst snd].
    destruct (Hsolve (n + 1 + mc) 3 _ _ _ _ ltac:(lia) ltac:(lia) HA HB Reg) as (X & EX & x & HX & HS).
    cbn [fst snd] in HA, HB. rewrite (Solve_shape solve _ _ (n + 1 + mc) 3 _ _ ltac:(lia) ltac:(lia) HA HB). cbn [fst snd] in EX. rewrite EX. cbn [bind]. apply (Fin (n + 1 + mc) X x); [lia|lia|exact HX| |].
    + intros l a Hl' Ha. specialize (HS l a ltac:(lia) Ha). cbv beta in HS. destruct (Z.leb_spec l n); [|lia]. rewrite <- HS. symmetry. apply (kkt_top n mu mc b e w); lia.
    + intros q a Hq Ha. specialize (HS (n + 1 + q) a ltac:(lia) Ha). cbv beta in HS. destruct (Z.leb_spec (n + 1 + q) n); [lia|]. replace (n + 1 + q - (n + 1)) with q in HS by lia. rewrite <- HS. symmetry. apply (kkt_bottom n mu mc b e w); lia.
Qed.
End Main.
