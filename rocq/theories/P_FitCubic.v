(* Fitting points with one cubic segment. *)
From Coq Require Import ZArith List Bool Reals Lra Lia.
From Verif Require Import Base Num Vec Tac Spec Spec2 Spec3 Spec24 Spec25 M_MathUtils M_Polynomials M_XYZ M_Bspline M_NurbsCurve M_Matrix M_Curve2 M_Geom M_Interp M_Conic M_Curve4 M_FitConic
  P_MathUtils P_Bern P_Cox P_Vec P_XYZ P_VSum P_Curve P_Bspline P_Nurbs P_Matrix P_Loop P_Geom P_Interp P_Interp2 P_Conic P_Conic2 P_Ls4 P_Bound2 P_ProjNorm P_Shape P_FitConic P_FitConic2.
Import ListNotations.
Open Scope Z_scope.

(* the start tangent lies in the plane of the chord and the start tangent, so this intersection is never found *)
Lemma spatial_skip fuel p c a e ta : cubic_spatial fuel p (CrossProduct c ta) a e ta = Ok Step_skip.
Proof.
  unfold cubic_spatial. rewrite cross_eq. destruct (LineAndPlane_ok (cross3 c ta) a p ta xyz0) as (_ & L1 & L2).
  assert (S0 : small (dot3 ta (cross3 c ta))). { replace (dot3 ta (cross3 c ta)) with 0%R by (clear; d3; v3h; ring). exact small_0. }
  destruct (small_dec (dot3 (minus3 p a) (cross3 c ta))) as [S1|S1]; [rewrite L1 by assumption|rewrite L2 by assumption]; reflexivity.
Qed.

(* equal parameters in a row: a division by zero *)
Lemma planar_stop (Q : list (XYZ R)) uh k a e ta te : 1 <= k -> k + 1 < len Q -> k + 1 < len uh ->
  val uh (k - 1) = 0%R -> val uh k = 0%R -> val uh (k + 1) = 0%R -> cubic_planar Q uh k a e ta te = NonFin.
Proof.
  intros Hk HQ HU E0 E1 E2. unfold cubic_planar. pose proof (arr_pt Q _ eq_refl) as AQ.
  rewrite (P_Span.get_val uh k), (P_Span.get_val uh (k - 1)), (P_Span.get_val uh (k + 1)) by lia. rewrite E0, E1, E2. cbn [bind]. rewrite (arr_get _ _ _ _ AQ) by lia. cbn [bind]. num.
  assert (D : Rdiv_ (0 - 0) (0 - 0) = NonFin) by (unfold Rdiv_; destruct (Req_EM_T _ _); [reflexivity|lra]). rewrite D. reflexivity.
Qed.

Definition off_plane (n a te p : XYZ R) : Prop := ~ (small (dot3 te n) /\ small (dot3 (minus3 p a) n)).
Lemma plane_cases n a te p : (off_plane n a te p /\ exists r, ComputeLineAndPlane n a p te xyz0 = Ok r /\ fst r <> LP_On) \/
  (~ off_plane n a te p /\ exists r, ComputeLineAndPlane n a p te xyz0 = Ok r /\ fst r = LP_On).
Proof.
  destruct (LineAndPlane_ok n a p te xyz0) as (L0 & L1 & L2). unfold off_plane.
  destruct (small_dec (dot3 te n)) as [S0|S0].
  - destruct (small_dec (dot3 (minus3 p a) n)) as [S1|S1].
    + right. split; [tauto|]. rewrite L1 by assumption. eexists. split; reflexivity.
    + left. split; [tauto|]. rewrite L2 by assumption. eexists. split; [reflexivity|discriminate].
  - left. split; [tauto|]. destruct (L0 S0) as (x & t & E & _). rewrite E. eexists. split; [reflexivity|discriminate].
Qed.

Definition zeros (dk : Z) : list R := repeat 0%R (Z.to_nat dk).

Section Tangents.
Variables (fuel : nat) (Q : list (XYZ R)) (uh : list R) (s dk : Z) (a e ta te u : XYZ R).
Hypothesis Hs : 0 <= s.
Hypothesis Hdk : 2 <= dk.
Hypothesis HQ : s + dk < len Q.
Hypothesis HU : dk < len uh.
Hypothesis U0 : forall k, 0 <= k <= dk -> val uh k = 0%R.
Hypothesis EU : Normalize (minus3 e a) = Ok u.

Lemma tangents_free : (forall k, 1 <= k < dk -> off_plane (cross3 u ta) a te (pt Q (s + k))) ->
  cubic_tangents fuel Q uh s dk a e ta te = Ok (Next (uh, zeros dk, zeros dk)).
Proof.
  intros HO. pose proof (arr_pt Q _ eq_refl) as AQ. unfold cubic_tangents, mkvec. destruct (Z.ltb_spec dk 0); [lia|]. cbn [bind]. num. fold (zeros dk).
  assert (W : wp (for_upc 1 dk (uh, zeros dk, zeros dk) (fun k '(uh, alphak, betak) =>
    let! chord := Normalize (xyz_sub e a) in
    let normalPi := CrossProduct chord ta in
    let! point := get Q (k + s)%Z in
    let! r := ComputeLineAndPlane normalPi a point te xyz0 in
    match fst r with
    | LP_On =>
        let! r := cubic_planar Q uh k a e ta te in
        match r with
        | None => Ok (Stop tt)
        | Some (ak, bk) =>
            let! alphak := upd alphak k ak in
            let! betak := upd betak k bk in
            Ok (Next (uh, alphak, betak))
        end
    | _ =>
        let! r := cubic_spatial fuel point normalPi a e ta in
        match r with
        | Step_false => Ok (Stop tt)
        | Step_skip => Ok (Next (uh, alphak, betak))
        | Step_set u ak bk =>
            let! uh := upd uh k u in
            let! alphak := upd alphak k ak in
            let! betak := upd betak k bk in
            Ok (Next (uh, alphak, betak))
        end
    end)) (fun c => c = Next (uh, zeros dk, zeros dk))).
  { apply wp_for_upc with (P := fun _ st => st = (uh, zeros dk, zeros dk)) (F := fun _ => False).
    - reflexivity.
    - intros k st Hk ->. g3. rewrite EU. cbn [bind]. rewrite (arr_get _ _ _ _ AQ) by lia. cbn [bind]. rewrite spatial_skip. cbn [bind]. rewrite cross_eq. replace (k + s) with (s + k) by lia.
      destruct (plane_cases (cross3 u ta) a te (pt Q (s + k))) as [(_ & r & -> & Hr)|(N & _)]; [|exfalso; apply N, HO; lia]. cbn [bind]. destruct (fst r); [reflexivity|reflexivity|contradiction].
    - intros st ->. reflexivity.
    - intros r []. }
  destruct (wp_elim _ _ W) as (c & E & ->). exact E.
Qed.

Lemma tangents_only : okp (cubic_tangents fuel Q uh s dk a e ta te) (fun c => c = Next (uh, zeros dk, zeros dk)).
Proof.
  pose proof (arr_pt Q _ eq_refl) as AQ. unfold cubic_tangents, mkvec. destruct (Z.ltb_spec dk 0); [lia|]. cbn [bind]. num. fold (zeros dk).
  apply okp_forc with (P := fun _ st => st = (uh, zeros dk, zeros dk)) (F := fun _ => False).
  - reflexivity.
  - intros k st Hk ->. g3. rewrite EU. cbn [bind]. rewrite (arr_get _ _ _ _ AQ) by lia. cbn [bind]. rewrite spatial_skip. cbn [bind]. rewrite cross_eq. replace (k + s) with (s + k) by lia.
    destruct (plane_cases (cross3 u ta) a te (pt Q (s + k))) as [(_ & r & -> & Hr)|(N & r & -> & Hr)]; cbn [bind].
    + destruct (fst r); [apply okp_ok; reflexivity..|contradiction].
    + rewrite Hr, planar_stop by (try lia; apply U0; lia). apply okp_err.
  - intros st ->. reflexivity.
  - intros r [].
Qed.

Lemma tangents_planar : ~ off_plane (cross3 u ta) a te (pt Q (s + 1)) -> cubic_tangents fuel Q uh s dk a e ta te = NonFin.
Proof.
  intros HO. pose proof (arr_pt Q _ eq_refl) as AQ. unfold cubic_tangents, mkvec. destruct (Z.ltb_spec dk 0); [lia|]. cbn [bind]. num. fold (zeros dk).
  unfold for_upc. replace (Z.to_nat (dk - 1)) with (S (Z.to_nat (dk - 2))) by lia. cbn [iter_upc]. g3. rewrite EU. cbn [bind]. rewrite (arr_get _ _ _ _ AQ) by lia. cbn [bind]. rewrite cross_eq. replace (1 + s) with (s + 1) by lia.
  destruct (plane_cases (cross3 u ta) a te (pt Q (s + 1))) as [(N & _)|(_ & r & -> & Hr)]; [contradiction|]. cbn [bind].
  rewrite Hr, planar_stop by (try lia; apply U0; lia). reflexivity.
Qed.
End Tangents.

(** * The parameters: the points follow as many points at the origin, so the parameters used are all zero *)
Definition padded (Q : list (XYZ R)) (s dk i : Z) : XYZ R := if i <=? dk then zero3 else pt Q (s + (i - dk - 1)).

Lemma padded_ok Q s e : 0 <= s -> s <= e < len Q -> exists N, arr N (2 * (e - s) + 2) (padded Q s (e - s)) /\
  (let! new := mkvec (e - s + 1)%Z xyz0 in for_up s (e + 1) new (fun i new => let! p := get Q i in Ok (new ++ [p]))) = Ok N.
Proof.
  intros Hs He. pose proof (arr_pt Q _ eq_refl) as AQ. unfold mkvec. destruct (Z.ltb_spec (e - s + 1) 0); [lia|]. cbn [bind].
  assert (W : wp (for_up s (e + 1) (repeat xyz0 (Z.to_nat (e - s + 1))) (fun i new => let! p := get Q i in Ok (new ++ [p]))) (fun N => arr N (2 * (e - s) + 2) (padded Q s (e - s)))).
  2:{ destruct (wp_elim _ _ W) as (N & E & A). exists N. auto. }
  apply wp_for_up' with (P := fun k N => arr N (e - s + 1 + (k - s)) (padded Q s (e - s))).
  - replace (e - s + 1 + (s - s)) with (e - s + 1) by lia. eapply arr_ext; [apply arr_repeat; lia|]. intros i Hi. cbv beta. unfold padded. destruct (Z.leb_spec i (e - s)); [reflexivity|lia].
  - intros k N Hk HN. rewrite (arr_get _ _ _ _ AQ) by lia. cbn [bind wp]. replace (e - s + 1 + (k + 1 - s)) with (e - s + 1 + (k - s) + 1) by lia. apply arr_snoc; [exact HN|].
    unfold padded. destruct (Z.leb_spec (e - s + 1 + (k - s)) (e - s)); [lia|]. f_equal. lia.
  - intros N HN. replace (2 * (e - s) + 2) with (e - s + 1 + (Z.max s (e + 1) - s)) by lia. exact HN.
Qed.

Lemma padded_params Q s dk N : 0 <= dk -> arr N (2 * dk + 2) (padded Q s dk) -> ~ small (chord_length (fun i => pt Q (s + i)) dk) ->
  exists uh, GetChordParameterization N = Ok uh /\ dk < len uh /\ forall k, 0 <= k <= dk -> val uh k = 0%R.
Proof.
  intros Hdk AN HL. pose proof (arr_len _ _ _ AN) as LN. destruct (wp_elim _ _ (Chord_ok N ltac:(lia))) as (uh & E & L & _ & _ & _ & _ & HV).
  exists uh. split; [exact E|]. split; [lia|].
  assert (PN : forall i, 0 <= i < 2 * dk + 2 -> pt N i = padded Q s dk i) by (intros i Hi; exact (P_Insert2.arr_pt_eq _ _ _ _ AN Hi)).
  assert (D0 : forall i, 0 <= i -> i <= dk -> partial_sums dist3 N i = 0%R).
  { intros i H0 Hi. unfold partial_sums. apply rsum_zero. intros k Hk. rewrite !PN by lia. unfold padded. destruct (Z.leb_spec k dk); [|lia]. destruct (Z.leb_spec (k - 1) dk); [|lia]. apply dist_self. }
  assert (T : (chord_length (fun i => pt Q (s + i)) dk <= partial_sums dist3 N (len N - 1))%R).
  { unfold partial_sums, chord_length. rewrite LN. replace (2 * dk + 2 - 1 + 1) with (2 * dk + 2) by lia. rewrite (rsum_split 1 (dk + 2) (2 * dk + 2)) by lia.
    rewrite (rsum_shift (dk + 1) 1 (dk + 1)). replace (1 + (dk + 1)) with (dk + 2) by lia. replace (dk + 1 + (dk + 1)) with (2 * dk + 2) by lia.
    rewrite (rsum_ext (dk + 2) (2 * dk + 2) (fun k => dist3 (pt N k) (pt N (k - 1))) (fun i => dist3 (pt Q (s + (i - (dk + 1)))) (pt Q (s + (i - (dk + 1) - 1))))).
    - assert (0 <= rsum 1 (dk + 2) (fun k => dist3 (pt N k) (pt N (k - 1))))%R by (apply Vec.rsum_nonneg; intros; apply sqrt_pos). lra.
    - intros i Hi. rewrite !PN by lia. unfold padded. destruct (Z.leb_spec i dk); [lia|]. destruct (Z.leb_spec (i - 1) dk); [lia|]. do 3 f_equal; lia. }
  assert (C0 : (0 <= chord_length (fun i => pt Q (s + i)) dk)%R) by (apply Vec.rsum_nonneg; intros; apply sqrt_pos).
  intros k Hk. rewrite HV by (try lia; unfold small in *; rewrite Rabs_pos_eq in * by lra; lra). rewrite D0 by lia. unfold Rdiv. ring.
Qed.

Lemma get_zeros dk k : 0 <= k < dk -> get (zeros dk) k = Ok 0%R.
Proof. intros Hk. exact (arr_get _ _ _ _ (arr_repeat 0%R dk ltac:(lia)) Hk). Qed.
Lemma sums_zero dk : cubic_sums (zeros dk) (zeros dk) dk = Ok (0, 0)%R.
Proof.
  unfold cubic_sums. num. assert (W : wp (for_up 1 dk (0, 0)%R (fun k '(alpha, beta) => let! a := get (zeros dk) k in let! b := get (zeros dk) k in Ok (alpha + a, beta + b)%R)) (fun x => x = (0, 0)%R)).
  - apply wp_for_up' with (P := fun _ st => st = (0, 0)%R); [reflexivity| |auto]. intros k st Hk ->. rewrite !get_zeros by lia. cbn [bind wp]. f_equal; ring.
  - destruct (wp_elim _ _ W) as (x & E & ->). exact E.
Qed.

Lemma third1 (a e : XYZ R) : xyz_div (xyz_add (xyz_scale (IZR 2) a) e) (IZR 3) = Ok (line_at a (minus3 e a) (1 / 3)).
Proof. rewrite xyz_div_ok by lra. f_equal. rewrite scale_eq. g3. d3. v3h. apply xyz_eq; cbn [gx gy gz]; field. Qed.
Lemma third2 (a e : XYZ R) : xyz_div (xyz_add a (xyz_scale (IZR 2) e)) (IZR 3) = Ok (line_at a (minus3 e a) (2 / 3)).
Proof. rewrite xyz_div_ok by lra. f_equal. rewrite scale_eq. g3. d3. v3h. apply xyz_eq; cbn [gx gy gz]; field. Qed.

(* the part after the validation *)
Definition cubic_rest (fuel : nat) (Q : list (XYZ R)) (s e : Z) (ta te : XYZ R) (err : R) : res (option (list (XYZW R))) :=
  let a := pt Q s in let b := pt Q e in let dk := e - s in
  let! line := cubic_line Q s dk a in
  match line with
  | Next _ => Ok (Some (thirds a b))
  | Stop _ =>
      let! new := mkvec (dk + 1)%Z xyz0 in
      let! new := for_up s (e + 1) new (fun i new => let! p := get Q i in Ok (new ++ [p])) in
      let! uh := GetChordParameterization new in
      let! c := cubic_tangents fuel Q uh s dk a b ta te in
      match c with
      | Stop _ => Ok None
      | Next (uh, alphak, betak) =>
          let! m := cubic_sums alphak betak dk in
          let! alpha := Rdiv_ (fst m) (IZR (dk - 1)) in
          let! beta := Rdiv_ (snd m) (IZR (dk - 1)) in
          let P1 := plus3 a (times3 alpha ta) in
          let P2 := plus3 b (times3 beta te) in
          let! c := cubic_check Q uh alphak betak s dk alpha beta a b ta te P1 P2 err in
          match c with
          | Stop _ => Ok None
          | Next _ => Ok (Some [hom P1 1; hom P2 1])
          end
      end
  end.

Lemma cubic_enter fuel Q s e ta te err : 0 <= s -> 2 <= e - s -> e < len Q -> IsZero ta = false -> IsZero te = false ->
  FitWithCubic fuel Q s e ta te err = cubic_rest fuel Q s e ta te err.
Proof.
  intros Hs He HQ Za Ze. pose proof (arr_pt Q _ eq_refl) as AQ. unfold FitWithCubic, cubic_rest, validate_int_range. rewrite Za, Ze. cbn [negb].
  destruct (Z.leb_spec 3 (len Q)); [cbn [validate bind]|lia].
  replace (negb ((s <? 0) || (len Q - 1 <? s))) with true by (symmetry; blia). cbn [validate bind].
  replace (negb ((e <? s + 1) || (len Q - 1 <? e))) with true by (symmetry; blia). cbn [validate bind].
  rewrite !(arr_get _ _ _ _ AQ) by lia. cbn [bind]. destruct (Z.eqb_spec (e - s) 1); [lia|]. num. rewrite third1, third2. cbn [bind].
  destruct (cubic_line Q s (e - s) (pt Q s)) as [[l|l]|]; cbn [bind]; [reflexivity| |reflexivity].
  destruct (mkvec (e - s + 1) xyz0) as [N|]; cbn [bind]; [|reflexivity]. destruct (for_up s (e + 1) N _) as [N'|]; cbn [bind]; [|reflexivity].
  destruct (GetChordParameterization N') as [uh|]; cbn [bind]; [|reflexivity]. destruct (cubic_tangents _ _ _ _ _ _ _ _ _) as [[[[uh' al] be]|]|]; cbn [bind]; [|reflexivity..].
  destruct (cubic_sums al be (e - s)) as [[x y]|]; cbn [bind fst snd]; [|reflexivity]. destruct (Rdiv_ x _) as [al'|]; cbn [bind]; [|reflexivity]. destruct (Rdiv_ y _) as [be'|]; cbn [bind]; [|reflexivity].
  rewrite !scale_eq. reflexivity.
Qed.

Lemma ends_eq (a t : XYZ R) : plus3 a (times3 0 t) = a.
Proof. d3. v3h. apply xyz_eq; cbn [gx gy gz]; ring. Qed.

(* whatever comes out is one of two straight segments *)
Lemma cubic_never fuel Q s e ta te err l : FitWithCubic fuel Q s e ta te err = Ok (Some l) -> 2 <= e - s -> ~ small (chord_length (fun i => pt Q (s + i)) (e - s)) ->
  l = thirds (pt Q s) (pt Q e) \/ l = [hom (pt Q s) 1; hom (pt Q e) 1].
Proof.
  intros E He HL.
  assert (HV : 0 <= s /\ e < len Q /\ IsZero ta = false /\ IsZero te = false).
  { unfold FitWithCubic, validate_int_range in E. destruct (3 <=? len Q); [cbn [validate bind] in E|discriminate].
    destruct (negb ((s <? 0) || (len Q - 1 <? s))) eqn:V1; [cbn [validate bind] in E|discriminate]. destruct (negb ((e <? s + 1) || (len Q - 1 <? e))) eqn:V2; [cbn [validate bind] in E|discriminate].
    destruct (IsZero ta); [discriminate|]. destruct (IsZero te); [discriminate|]. repeat split; blia. }
  destruct HV as (Hs & HQ & Za & Ze). rewrite cubic_enter in E by assumption. revert E. enough (W : okp (cubic_rest fuel Q s e ta te err) (fun r => forall l, r = Some l -> l = thirds (pt Q s) (pt Q e) \/ l = [hom (pt Q s) 1; hom (pt Q e) 1])) by (intros E; exact (W _ E _ eq_refl)).
  unfold cubic_rest. cbv zeta. apply okp_bind, okp_any. intros [x|x]; [apply okp_ok; intros l' E; injection E as <-; left; reflexivity|].
  destruct (padded_ok Q s e Hs ltac:(lia)) as (N & AN & EN). destruct (padded_params Q s (e - s) N ltac:(lia) AN HL) as (uh & EU & LU & VU).
  rewrite <- bind_assoc. rewrite EN. cbn [bind]. rewrite EU. cbn [bind].
  destruct (Normalize_any (minus3 (pt Q e) (pt Q s))) as (u & Eu & _).
  apply okp_bind. eapply okp_mono; [apply (tangents_only fuel Q uh s (e - s) (pt Q s) (pt Q e) ta te u); try assumption; lia|]. intros c ->. cbv beta iota. rewrite sums_zero. cbn [bind fst snd].
  assert (D0 : Rdiv_ 0 (IZR (e - s - 1)) = Ok 0%R). { rewrite Rdiv_ok by (apply not_0_IZR; lia). f_equal. unfold Rdiv. ring. }
  rewrite D0. cbn [bind]. rewrite !ends_eq. apply okp_bind, okp_any. intros [x'|x']; [|apply okp_ok; discriminate]. apply okp_ok. intros l' E. injection E as <-. right. reflexivity.
Qed.

(* a window that starts far enough in the list is taken for a straight line without looking at its points *)
Lemma cubic_window fuel Q s e ta te err : 2 <= e - s -> e - s < s -> e < len Q -> IsZero ta = false -> IsZero te = false ->
  FitWithCubic fuel Q s e ta te err = Ok (Some (thirds (pt Q s) (pt Q e))).
Proof.
  intros H1 H2 HQ Za Ze. rewrite cubic_enter by (try assumption; lia). unfold cubic_rest, cubic_line, for_upc. replace (Z.to_nat (e - s + 1 - s)) with 0%nat by lia. reflexivity.
Qed.

Lemma IsZero_zero : IsZero (zero3 : XYZ R) = true.
Proof. unfold IsZero, IsZero_eps. num. change (SqrLength (zero3 : XYZ R)) with (dot3 zero3 zero3). unfold dot3, zero3. cbn [gx gy gz]. destruct (Rleb_spec (0 * 0 + 0 * 0 + 0 * 0) (DoubleEpsilon * DoubleEpsilon))%R as [|H]; [reflexivity|]. exfalso. unfold DoubleEpsilon in H. num. lra. Qed.
Lemma Normalize_zero : Normalize (zero3 : XYZ R) = Ok zero3.
Proof. destruct (Normalize_any zero3) as (u & E & _ & H). rewrite H in E by reflexivity. exact E. Qed.
Lemma minus_self (a : XYZ R) : minus3 a a = zero3.
Proof. unfold zero3. d3. v3h. apply xyz_eq; cbn [gx gy gz]; ring. Qed.
Lemma line_stop Q a u1 u : len Q = 3 -> a = pt Q 0 -> direction_of (minus3 (pt Q 1) a) u1 -> direction_of (minus3 (pt Q 2) a) u -> ~ near u1 u -> cubic_line Q 0 2 a = Ok (Stop tt).
Proof.
  intros LQ -> D1 D HN. pose proof (arr_pt Q _ eq_refl) as AQ. unfold cubic_line, for_upc. replace (Z.to_nat (2 + 1 - 0)) with 3%nat by lia. cbn [iter_upc].
  rewrite (arr_get _ _ _ 0 AQ) by lia. cbn [bind]. g3. rewrite minus_self, Normalize_zero. cbn [bind]. change xyz0 with (zero3 : XYZ R). rewrite IsZero_zero. cbn [bind].
  rewrite (arr_get _ _ _ (0 + 1) AQ) by lia. cbn [bind]. g3. change (0 + 1) with 1. rewrite (Normalize_direction _ _ D1). cbn [bind]. rewrite IsZero_zero. cbn [bind].
  rewrite (arr_get _ _ _ (1 + 1) AQ) by lia. cbn [bind]. g3. change (1 + 1) with 2. rewrite (Normalize_direction _ _ D). cbn [bind].
  rewrite IsZero_false by (destruct D1 as (-> & _); lra). destruct (xyz_IsAlmostEqualTo u1 u) eqn:EA; [|reflexivity]. exfalso. apply HN. exact (proj1 (near_iff _ _) EA).
Qed.

Lemma times_0 (a : XYZ R) : times3 0 a = zero3.
Proof. unfold zero3. d3. v3h. apply xyz_eq; cbn [gx gy gz]; ring. Qed.

Section Three.
Variables (fuel : nat) (a p e ta te u1 u : XYZ R) (err : R).
Hypothesis Za : IsZero ta = false.
Hypothesis Ze : IsZero te = false.
Hypothesis D1 : direction_of (minus3 p a) u1.
Hypothesis D : direction_of (minus3 e a) u.
Hypothesis HN : ~ near u1 u.
Hypothesis HL : ~ small (dist3 p a).

Lemma three_long : ~ small (chord_length (fun i => pt [a; p; e] (0 + i)) (2 - 0)).
Proof.
  assert (C : (dist3 p a <= chord_length (fun i => pt [a; p; e] (0 + i)) (2 - 0))%R).
  { unfold chord_length. change (2 - 0 + 1) with 3. rewrite rsum_first by lia. change (1 + 1) with 2. change (pt [a; p; e] (0 + 1)) with p. change (pt [a; p; e] (0 + (1 - 1))) with a. assert (0 <= rsum 2 3 (fun k => dist3 (pt [a; p; e] (0 + k)) (pt [a; p; e] (0 + (k - 1)))))%R by (apply Vec.rsum_nonneg; intros; apply sqrt_pos). lra. }
  assert (0 <= dist3 p a)%R by apply sqrt_pos. unfold small in *. rewrite Rabs_pos_eq in * by lra. lra.
Qed.

Lemma three_off : off_plane (cross3 u ta) a te p -> (0 <= err)%R -> FitWithCubic fuel [a; p; e] 0 2 ta te err = Ok (Some [hom a 1; hom e 1]).
Proof.
  intros HO Herr. rewrite cubic_enter by (try assumption; cbn; lia). unfold cubic_rest. cbv zeta. change (pt [a; p; e] 0) with a. change (pt [a; p; e] 2) with e.
  change (cubic_line [a; p; e] 0 (2 - 0) a) with (cubic_line [a; p; e] 0 2 a). rewrite (line_stop [a; p; e] a u1 u) by (try reflexivity; assumption). cbn [bind].
  destruct (padded_ok [a; p; e] 0 2 ltac:(lia) ltac:(cbn; lia)) as (N & AN & EN). destruct (padded_params [a; p; e] 0 (2 - 0) N ltac:(lia) AN three_long) as (uh & EU & LU & VU).
  rewrite <- bind_assoc. rewrite EN. cbn [bind]. rewrite EU. cbn [bind].
  rewrite (tangents_free fuel [a; p; e] uh 0 (2 - 0) a e ta te u); try assumption; try (cbn; lia); try (apply Normalize_direction; exact D).
  2:{ intros k Hk. replace k with 1 by lia. exact HO. }
  cbn [bind]. rewrite sums_zero. cbn [bind fst snd]. rewrite Rdiv_ok by (apply not_0_IZR; lia). cbn [bind]. replace (0 / IZR (2 - 0 - 1))%R with 0%R by (unfold Rdiv; ring). rewrite !ends_eq.
  unfold cubic_check, for_upc. replace (Z.to_nat (2 - 0 - 1)) with 1%nat by lia. cbn [iter_upc]. rewrite (P_Span.get_val uh 1), VU by lia. cbn [bind]. rewrite get_zeros by lia. cbn [bind].
  rewrite !P_Math2.Bernstein_inside by (try lia; lra). cbn [bind]. num. rewrite Rminus_eq_0, !Rmult_0_l. rewrite !scale_eq. rewrite Distance_eq. cbn [bind].
  replace (dist3 (times3 0 ta) (times3 0 te)) with 0%R. 2:{ symmetry. rewrite !times_0. apply dist_self. }
  unfold IsLessThanOrEqual, IsLessThanOrEqual_tol. num. cbn [orb]. rewrite nmax_R.
  destruct (Rleb_spec (0 - err) (DoubleEpsilon * (1 + Rmax (Rabs 0) (Rabs err))))%R as [|H]; [reflexivity|]. exfalso.
  pose proof (Rmax_r (Rabs 0) (Rabs err)). pose proof (Rabs_pos err). unfold DoubleEpsilon in H. num. nra.
Qed.

Lemma three_in : ~ off_plane (cross3 u ta) a te p -> FitWithCubic fuel [a; p; e] 0 2 ta te err = NonFin.
Proof.
  intros HO. rewrite cubic_enter by (try assumption; cbn; lia). unfold cubic_rest. cbv zeta. change (pt [a; p; e] 0) with a. change (pt [a; p; e] 2) with e.
  change (cubic_line [a; p; e] 0 (2 - 0) a) with (cubic_line [a; p; e] 0 2 a). rewrite (line_stop [a; p; e] a u1 u) by (try reflexivity; assumption). cbn [bind].
  destruct (padded_ok [a; p; e] 0 2 ltac:(lia) ltac:(cbn; lia)) as (N & AN & EN). destruct (padded_params [a; p; e] 0 (2 - 0) N ltac:(lia) AN three_long) as (uh & EU & LU & VU).
  rewrite <- bind_assoc. rewrite EN. cbn [bind]. rewrite EU. cbn [bind].
  rewrite (tangents_planar fuel [a; p; e] uh 0 (2 - 0) a e ta te u); try assumption; try (cbn; lia); try (apply Normalize_direction; exact D). reflexivity.
Qed.
End Three.

(** * Two points in a row *)
Lemma cubic_pair fuel Q s e ta te err l : FitWithCubic fuel Q s e ta te err = Ok (Some l) -> e = s + 1 -> exists al be, (0 <= al)%R /\ (0 <= be)%R /\
  l = [hom (line_at (pt Q s) ta al) 1; hom (line_at (pt Q e) te (- be)) 1] /\
  (0 < s -> al = (dist3 (pt Q e) (pt Q s) / dist3 (pt Q s) (pt Q (s - 1)) * norm3 ta / 3)%R) /\
  (e < len Q - 1 -> be = (dist3 (pt Q (e + 1)) (pt Q e) / dist3 (pt Q e) (pt Q s) * norm3 te / 3)%R).
Proof.
  intros E He. pose proof (arr_pt Q _ eq_refl) as AQ. unfold FitWithCubic, validate_int_range in E. destruct (3 <=? len Q); [cbn [validate bind] in E|discriminate].
  destruct (negb ((s <? 0) || (len Q - 1 <? s))) eqn:V1; [cbn [validate bind] in E|discriminate]. destruct (negb ((e <? s + 1) || (len Q - 1 <? e))) eqn:V2; [cbn [validate bind] in E|discriminate].
  destruct (IsZero ta) eqn:Za; [discriminate|]. destruct (IsZero te) eqn:Ze; [discriminate|]. cbn [negb validate bind] in E.
  assert (R1 : 0 <= s) by blia. assert (R2 : e <= len Q - 1) by blia. clear V1 V2. rewrite !(arr_get _ _ _ _ AQ) in E by lia. cbn [bind] in E. destruct (Z.eqb_spec (e - s) 1); [|lia].
  destruct (cubic_two Q s e (pt Q s) (pt Q e) ta te) as [l'|] eqn:E2; [|discriminate]. cbn [bind] in E. injection E as <-. unfold cubic_two in E2.
  destruct (ComputeTangent Q) as [T|]; [|discriminate]. cbn [bind] in E2.
  match type of E2 with bind ?m _ = _ => destruct m as [Ds|] eqn:E3 end; [|discriminate]. cbn [bind] in E2.
  match type of E2 with bind ?m _ = _ => destruct m as [De|] eqn:E4 end; [|discriminate]. cbn [bind] in E2.
  rewrite !Length_eq in E2. cbn [bind] in E2. num. rewrite !Rdiv_ok in E2 by lra. cbn [bind] in E2. injection E2 as <-. rewrite !scale_eq. g3.
  exists (norm3 Ds / 3)%R, (norm3 De / 3)%R. pose proof (norm_nonneg Ds). pose proof (norm_nonneg De).
  split; [lra|]. split; [lra|]. split; [unfold line_at; replace (- (norm3 De / 3))%R with (- norm3 De / 3)%R by field; reflexivity|]. split; intros Hb.
  - destruct (Z.eqb_spec s 0); [lia|]. rewrite !Distance_eq in E3. cbn [bind] in E3. rewrite (arr_get _ _ _ _ AQ) in E3 by lia. cbn [bind] in E3. rewrite Distance_eq in E3. cbn [bind] in E3.
    unfold Rdiv_ in E3. destruct (Req_EM_T (dist3 (pt Q s) (pt Q (s - 1))) 0) as [|Hz]; [discriminate|]. cbn [bind] in E3. injection E3 as <-. rewrite scale_eq, P_Surf6.norm_times; [reflexivity|].
    assert (0 <= dist3 (pt Q e) (pt Q s))%R by apply sqrt_pos. assert (0 <= dist3 (pt Q s) (pt Q (s - 1)))%R by apply sqrt_pos. apply Rmult_le_pos; [lra|]. left. apply Rinv_0_lt_compat. lra.
  - destruct (Z.eqb_spec e (len Q - 1)); [lia|]. rewrite (arr_get _ _ _ _ AQ) in E4 by lia. cbn [bind] in E4. rewrite !Distance_eq in E4. cbn [bind] in E4.
    unfold Rdiv_ in E4. destruct (Req_EM_T (dist3 (pt Q e) (pt Q s)) 0) as [|Hz]; [discriminate|]. cbn [bind] in E4. injection E4 as <-. rewrite scale_eq, P_Surf6.norm_times; [reflexivity|].
    assert (0 <= dist3 (pt Q (e + 1)) (pt Q e))%R by apply sqrt_pos. assert (0 <= dist3 (pt Q e) (pt Q s))%R by apply sqrt_pos. apply Rmult_le_pos; [lra|]. left. apply Rinv_0_lt_compat. lra.
Qed.
