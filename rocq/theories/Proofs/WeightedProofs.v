From Verif.Go Require Import GoInt GoFloat.
From Verif.Model Require Import WeightedSnapshot.
From Verif.Spec Require Import BucketSpec SnapshotSpec WeightedSpec.
From Verif.Proofs Require Import FloatProofs UniformSnapshotProofs.
From Coq Require Import Reals Lra.
From Flocq Require Import Core.Core IEEE754.BinarySingleNaN.
Local Open Scope Z_scope.

(** ** Binary search *)
Lemma search_loop_any f fuel : forall i j n, (j - i <= fuel)%nat -> (i <= j)%nat -> j = n \/ f j = true ->
  let r := search_loop fuel f i j in (i <= r <= j)%nat /\ (r = n \/ f r = true).
Proof.
  induction fuel as [|fuel IH]; intros i j n Hf Hij Hj; cbn [search_loop].
  - assert (i = j) as -> by lia. split; [lia|done].
  - destruct (Nat.ltb_spec i j) as [C|C].
    + set (h := ((i + j) / 2)%nat). assert (i <= h < j)%nat as Hh.
      { split; [apply Nat.div_le_lower_bound; lia|apply Nat.div_lt_upper_bound; lia]. }
      destruct (f h) eqn:E; cbn [negb].
      * destruct (IH i h n) as [H1 H2]; [lia|lia|by right|]. split; [lia|done].
      * destruct (IH (h + 1)%nat j n) as [H1 H2]; [lia|lia|done|]. split; [lia|done].
    + assert (i = j) as -> by lia. split; [lia|done].
Qed.
Lemma sort_Search_any n f : (sort_Search n f <= n)%nat /\ (sort_Search n f <> n -> f (sort_Search n f) = true).
Proof.
  destruct (search_loop_any f n 0 n n) as [H1 H2]; [lia|lia|by left|]. unfold sort_Search. split; [lia|]. intros H. by destruct H2.
Qed.

Lemma search_loop_least f n fuel : (forall a b, (a <= b < n)%nat -> f a = true -> f b = true) ->
  forall i j, (j - i <= fuel)%nat -> (i <= j <= n)%nat -> (forall k, (k < i)%nat -> f k = false) ->
  let r := search_loop fuel f i j in forall k, (k < r)%nat -> f k = false.
Proof.
  intros Hm. induction fuel as [|fuel IH]; intros i j Hf Hij Hlow; cbn [search_loop]; [done|].
  destruct (Nat.ltb_spec i j) as [C|C]; [|done].
  set (h := ((i + j) / 2)%nat). assert (i <= h < j)%nat as Hh.
  { split; [apply Nat.div_le_lower_bound; lia|apply Nat.div_lt_upper_bound; lia]. }
  destruct (f h) eqn:E; cbn [negb].
  - apply IH; [lia|lia|done].
  - apply IH; [lia|lia|]. intros k Hk. destruct (f k) eqn:Ek; [|done]. rewrite (Hm k h) in E; [done|lia|done].
Qed.
Lemma sort_Search_least n f : (forall a b, (a <= b < n)%nat -> f a = true -> f b = true) ->
  (forall k, (k < sort_Search n f)%nat -> f k = false) /\ (forall k, (sort_Search n f <= k < n)%nat -> f k = true).
Proof.
  intros Hm. split.
  - apply (search_loop_least f n n); try done; lia.
  - intros k Hk. destruct (sort_Search_any n f) as [H1 H2]. apply (Hm (sort_Search n f)); [lia|]. apply H2. lia.
Qed.

Lemma sort_Search_ext n f g : (forall k, (k < n)%nat -> f k = g k) -> sort_Search n f = sort_Search n g.
Proof.
  unfold sort_Search. intros H. generalize n at 1 3 as fuel.
  assert (forall fuel i j, (j <= n)%nat -> search_loop fuel f i j = search_loop fuel g i j) as X; [|intros; by apply X].
  induction fuel as [|fuel IH]; intros i j Hj; [done|]. cbn [search_loop]. destruct (Nat.ltb_spec i j); [|done].
  assert ((i + j) / 2 < j)%nat by (apply Nat.div_lt_upper_bound; lia).
  rewrite H by lia. destruct (g _); cbn [negb]; apply IH; lia.
Qed.

Section weights.
Local Open Scope R_scope.

(** ** The total weight *)
Lemma fadd_pos x y : ffinite x = true -> ffinite y = true -> 0 <= RF x -> 0 <= RF y ->
  (ffinite (fadd x y) = true /\ RF (fadd x y) = rnd (RF x + RF y)) \/ fadd x y = B754_infinity false.
Proof.
  intros Fx Fy Hx Hy. destruct (Rlt_le_dec (Rabs (rnd (RF x + RF y))) (bpow radix2 1024)) as [E|E].
  - left. destruct (fadd_spec x y Fx Fy) as [H1 H2]; [|done]. exact E.
  - right. pose proof (Bplus_correct 53 1024 _ _ mode_NE x y Fx Fy) as C.
    rewrite Rlt_bool_false in C by exact E. destruct C as [C Hs].
    assert (Bsign x = false) as Sx.
    { destruct (Bsign x) eqn:Ex; [|done]. exfalso.
      destruct (Bsign_RF x Fx) as [A _]. destruct (Bsign_RF y Fy) as [B _]. specialize (A Ex). specialize (B (eq_sym Hs)).
      assert (rnd (RF x + RF y) = 0) as Z0 by (replace (RF x + RF y) with 0 by lra; apply rnd_0).
      rewrite Z0, Rabs_R0 in E. pose proof (bpow_gt_0 radix2 1024). lra. }
    unfold fadd. destruct (Bplus mode_NE x y) as [?|[|]| |?]; cbn in C; try (by rewrite Sx in C); done.
Qed.

Lemma fadd_inf y : ffinite y = true -> fadd (B754_infinity false) y = B754_infinity false.
Proof. by destruct y. Qed.

Lemma total_fold samples : good_weights samples -> forall acc,
  ffinite acc = true -> 0 <= RF acc ->
  let total := fold_left (fun total ele => fadd total (sm_weight ele)) samples acc in
  total = B754_infinity false \/
  (ffinite total = true /\ RF acc <= RF total /\ Forall (fun s => RF (sm_weight s) <= RF total) samples).
Proof.
  intros HW. induction HW as [|s samples [Fs Ps] HW IH]; intros acc Fa Pa; cbn [fold_left].
  - right. split; [done|]. split; [lra|constructor].
  - destruct (fadd_pos acc (sm_weight s) Fa Fs Pa) as [[F R]|E]; [lra| |].
    + assert (RF acc <= RF (fadd acc (sm_weight s))) as H1 by (rewrite R; apply rnd_ge_l; [apply fmt_RF|lra]).
      assert (RF (sm_weight s) <= RF (fadd acc (sm_weight s))) as H2 by (rewrite R; apply rnd_ge_l; [apply fmt_RF|lra]).
      destruct (IH _ F) as [E|(F' & R' & HF)]; [lra|by left|]. right. split; [done|]. split; [lra|]. constructor; [lra|done].
    + left. rewrite E. clear -HW. induction HW as [|s samples [Fs Ps] HW IH]; [done|]. cbn [fold_left]. by rewrite fadd_inf.
Qed.

Lemma total_spec samples : good_weights samples ->
  ws_totalWeight samples = B754_infinity false \/
  (ffinite (ws_totalWeight samples) = true /\ forall s, s ∈ samples -> RF (sm_weight s) <= RF (ws_totalWeight samples)).
Proof.
  intros HW. destruct (total_fold samples HW f0 eq_refl) as [E|(F & _ & HF)]; [rewrite RF_f0; lra|by left|].
  right. split; [done|]. by rewrite Forall_forall in HF.
Qed.

(** Each normalised weight is a double in [0,1]. *)
Definition unit_float (x : f64) : Prop := ffinite x = true /\ 0 <= RF x <= 1.
Lemma normalized_unit samples s : good_weights samples -> s ∈ samples ->
  unit_float (fdiv (sm_weight s) (ws_totalWeight samples)).
Proof.
  intros HW Hin. pose proof HW as HW'. unfold good_weights in HW'. rewrite Forall_forall in HW'. destruct (HW' s Hin) as [Fs Ps].
  destruct (total_spec samples HW) as [E|[F HF]].
  - rewrite E. destruct (sm_weight s); try done; (split; [done|]); cbn; lra.
  - specialize (HF s Hin). assert (RF (ws_totalWeight samples) <> 0) by lra.
    assert (0 <= RF (sm_weight s) / RF (ws_totalWeight samples) <= 1) as Hb.
    { split.
      - apply Rmult_le_pos; [lra|]. apply Rlt_le, Rinv_0_lt_compat. lra.
      - apply Rmult_le_reg_r with (RF (ws_totalWeight samples)); [lra|]. unfold Rdiv. rewrite Rmult_assoc, Rinv_l by lra. lra. }
    destruct (fdiv_spec (sm_weight s) (ws_totalWeight samples)) as [D1 D2]; [done|done| |].
    + apply fits_bound. rewrite Rabs_pos_eq by lra. apply Rle_trans with 1; [lra|]. apply (bpow_le radix2 0). lia.
    + split; [done|]. rewrite D1. split; [apply rnd_ge_l; [apply fmt_0|lra]|apply rnd_le_r; [apply (fmt_IZR 1); lia|lra]].
Qed.

(** Cumulated weights never decrease and stay finite. *)
Lemma cumulate_spec nws : Forall unit_float nws -> forall acc k,
  ffinite acc = true -> 0 <= RF acc <= IZR k -> (0 <= k)%Z -> (k + Z.of_nat (length nws) <= 2 ^ 53)%Z ->
  Forall (fun x => ffinite x = true /\ RF acc <= RF x) (ws_cumulate acc nws) /\
  StronglySorted (fun x y => RF x <= RF y) (ws_cumulate acc nws).
Proof.
  intros HF. induction HF as [|w nws [Fw Hw] HF IH]; intros acc k Fa Ha Hk Hn; cbn [ws_cumulate].
  - split; constructor.
  - cbn [length] in Hn.
    assert (0 <= RF acc + RF w <= IZR (k + 1)) as Hb by (rewrite plus_IZR; lra).
    assert (IZR (k + 1) <= bpow radix2 53) as Hk53.
    { rewrite <- IZR_pow2 by lia. apply IZR_le. lia. }
    destruct (fadd_spec acc w Fa Fw) as [R F].
    { apply fits_bound. rewrite Rabs_pos_eq by lra. apply Rle_trans with (bpow radix2 53); [lra|]. apply bpow_le. lia. }
    destruct (IH (fadd acc w) (k + 1)%Z F) as [H1 H2]; [|lia|lia|].
    { rewrite R. split; [apply rnd_ge_l; [apply fmt_0|lra]|apply rnd_le_r; [apply fmt_IZR; lia|lra]]. }
    assert (RF acc <= RF (fadd acc w)) as Hle by (rewrite R; apply rnd_ge_l; [apply fmt_RF|lra]).
    assert (Forall (fun x => ffinite x = true /\ RF acc <= RF x) (ws_cumulate (fadd acc w) nws)) as H3.
    { eapply Forall_impl; [exact H1|]. intros x [A B]. split; [done|lra]. }
    split.
    + constructor; [split; [done|lra]|done].
    + constructor; [done|]. eapply Forall_impl; [exact H3|]. intros x [A B]. done.
Qed.
End weights.

Lemma cumulate_length acc nws : length (ws_cumulate acc nws) = length nws.
Proof. revert acc. induction nws as [|w nws IH]; intros acc; [done|]. cbn. by rewrite IH. Qed.
Lemma cumulate_lookup nws acc i : (i < length nws)%nat -> ws_cumulate acc nws !! i = Some (fold_left fadd (take i nws) acc).
Proof.
  revert acc i. induction nws as [|w nws IH]; intros acc i Hi; [cbn in Hi; lia|]. cbn [length] in Hi.
  destruct i as [|i]; [done|]. cbn. apply IH. lia.
Qed.

(** ** Built snapshots *)
Definition qsorted (w : weighted_snapshot) : Prop :=
  length (ws_quantiles w) = length (ws_values w) /\ length (ws_normalizedWeights w) = length (ws_values w) /\
  (forall i x, ws_quantiles w !! i = Some x -> ffinite x = true /\ (0 <= RF x)%R) /\
  (forall i j x y, (i <= j)%nat -> ws_quantiles w !! i = Some x -> ws_quantiles w !! j = Some y -> (RF x <= RF y)%R) /\
  (forall x, ws_quantiles w !! 0%nat = Some x -> x = f0).

Lemma build_qsorted samples cp : good_weights samples -> Z.of_nat (length samples) <= 2 ^ 53 -> sorted_by_value samples cp ->
  qsorted (ws_build (ws_totalWeight samples) cp).
Proof.
  intros HW Hn [P S]. unfold qsorted, ws_build. cbn [ws_values ws_quantiles ws_normalizedWeights].
  rewrite cumulate_length, !fmap_length. split; [done|]. split; [done|].
  set (nws := (fun ele => fdiv (sm_weight ele) (ws_totalWeight samples)) <$> cp).
  assert (Forall unit_float nws) as HF.
  { apply Forall_forall. intros x Hx. apply elem_of_list_fmap in Hx as (s & -> & Hs). apply normalized_unit; [done|]. by rewrite <- P. }
  assert (length nws = length samples) as Ln by (unfold nws; rewrite fmap_length; by apply Permutation_length).
  destruct (cumulate_spec nws HF f0 0) as [C1 C2]; [done|rewrite RF_f0; lra|lia|rewrite Ln; lia|].
  split; [|split].
  - intros i x Hi. rewrite Forall_forall in C1. apply (C1 x). by eapply elem_of_list_lookup_2.
  - clear -C2. revert C2. generalize (ws_cumulate f0 nws) as l. intros l C2.
    induction C2 as [|a l S IH HF]; intros i j x y Hij Hi Hj; [done|]. rewrite Forall_forall in HF.
    destruct i as [|i], j as [|j]; cbn in Hi, Hj; try lia.
    + simplify_eq. lra.
    + injection Hi as <-. apply HF. by eapply elem_of_list_lookup_2.
    + eapply (IH i j); [lia|done|done].
  - intros x Hx. destruct nws; [done|]. cbn in Hx. by injection Hx.
Qed.

Lemma build_ascending total samples cp : sorted_by_value samples cp -> ascending (ws_values (ws_build total cp)) /\
  Permutation (ws_values (ws_build total cp)) (sm_value <$> samples).
Proof.
  intros [P S]. cbn [ws_build ws_values]. split.
  - unfold ascending. clear P. induction S as [|a l S IH HF]; [constructor|]. cbn. constructor; [apply IH|].
    apply Forall_forall. intros x Hx. apply elem_of_list_fmap in Hx as (s & -> & Hs). rewrite Forall_forall in HF. by apply HF.
  - by rewrite P.
Qed.

(** ** Position of a quantile *)
Definition ws_index (w : weighted_snapshot) (q : f64) : nat :=
  let '(p, found) := ws_searchQuantile w q in if found then p else (p - 1)%nat.

Lemma search_found w q : qsorted w -> ffinite q = true ->
  let '(p, found) := ws_searchQuantile w q in
  (p <= length (ws_quantiles w))%nat /\
  (forall i x, ws_quantiles w !! i = Some x -> ((i < p)%nat <-> (RF x < RF q)%R)) /\
  (found = true -> exists x, ws_quantiles w !! p = Some x /\ RF x = RF q).
Proof.
  intros (L1 & L2 & Hfin & Hsort & H0) Fq. unfold ws_searchQuantile. set (n := length (ws_quantiles w)).
  set (at_ := fun i => default f0 (ws_quantiles w !! i)).
  assert (forall i, (i < n)%nat -> exists x, ws_quantiles w !! i = Some x /\ at_ i = x) as Hat.
  { intros i Hi. apply lookup_lt_is_Some in Hi as [x Hx]. exists x. split; [done|]. unfold at_. by rewrite Hx. }
  destruct (sort_Search_any n (fun i => fle q (at_ i))) as [B1 _].
  destruct (sort_Search_least n (fun i => fle q (at_ i))) as [B2 B3].
  { intros a b Hab Ha. destruct (Hat a) as (x & Hx & Ex); [lia|]. destruct (Hat b) as (y & Hy & Ey); [lia|]. rewrite Ex in Ha. rewrite Ey.
    pose proof (proj1 (Hfin _ _ Hx)) as Fx. pose proof (proj1 (Hfin _ _ Hy)) as Fy.
    rewrite fle_spec in Ha by done. rewrite fle_spec by done. pose proof (Hsort a b x y ltac:(lia) Hx Hy). lra. }
  set (p := sort_Search n (fun i => fle q (at_ i))) in *.
  assert (forall i x, ws_quantiles w !! i = Some x -> ((i < p)%nat <-> (RF x < RF q)%R)) as Hp.
  { intros i x Hx. assert (at_ i = x) as Ex by (unfold at_; by rewrite Hx). destruct (Hfin i x Hx) as [Fx _].
    pose proof (lookup_lt_Some _ _ _ Hx) as Hi. fold n in Hi. split.
    - intros C. specialize (B2 i C). cbv beta in B2. rewrite Ex in B2. apply Rnot_le_lt. intros Hle.
      apply fle_spec in Hle; [|done|done]. congruence.
    - intros C. destruct (decide (i < p)%nat) as [?|N]; [done|]. exfalso. specialize (B3 i ltac:(lia)). cbv beta in B3. rewrite Ex in B3.
      apply fle_spec in B3; [|done|done]. lra. }
  split; [done|]. split; [done|]. intros Hf.
  assert (sort_Search n (fun i => feq (at_ i) q) <> n) as N.
  { intros E. unfold at_ in E. fold n in E. rewrite E, Nat.eqb_refl in Hf. discriminate. }
  destruct (sort_Search_any n (fun i => feq (at_ i) q)) as [R1 R2]. specialize (R2 N). cbv beta in R2.
  set (r := sort_Search n (fun i => feq (at_ i) q)) in *.
  destruct (Hat r) as (x & Hx & Ex); [lia|]. rewrite Ex in R2. pose proof (proj1 (Hfin _ _ Hx)) as Fx. rewrite feq_spec in R2 by done.
  (* p <= r, so q_p exists and q <= q_p <= q_r = q *)
  assert (p <= r)%nat as Hpr.
  { destruct (decide (p <= r)%nat) as [?|C]; [done|]. assert (RF x < RF q)%R by (apply (Hp r x Hx); lia). lra. }
  destruct (Hat p) as (y & Hy & _); [lia|]. exists y. split; [done|].
  pose proof (Hsort p r y x Hpr Hy Hx). assert (~ (RF y < RF q)%R) by (rewrite <- (Hp p y Hy); lia). lra.
Qed.

Lemma ws_at_lookup w i x : 0 <= i -> ws_values w !! Z.to_nat i = Some x -> ws_at w i = Ok x.
Proof. intros H E. unfold ws_at. destruct (Z.ltb_spec i 0); [lia|]. by rewrite E. Qed.

Lemma GetValue_index w q : qsorted w -> valid_quantile q -> ws_values w <> [] ->
  exists v, ws_values w !! ws_index w q = Some v /\ ws_GetValue w q = Ok (f_of_int v, false).
Proof.
  intros Hq Hv Hne. unfold ws_GetValue. rewrite (proj1 (valid_cases q) Hv).
  assert (0 < length (ws_values w))%nat as Hl by (destruct (ws_values w); [done|cbn; lia]).
  rewrite (proj2 (Z.eqb_neq _ 0)) by lia. pose proof (search_found w q Hq (proj1 Hv)) as S. unfold ws_index.
  destruct Hq as (L1 & L2 & Hfin & Hsort & H0).
  destruct (ws_searchQuantile w q) as [p found]. destruct S as (Hp & _ & Hf). rewrite L1 in Hp.
  assert (exists i, (if found then p else (p - 1)%nat) = i /\ (i < length (ws_values w))%nat) as (i & Ei & Hi).
  { eexists. split; [done|]. destruct found; [|lia]. destruct (Hf eq_refl) as (x & Hx & _). apply lookup_lt_Some in Hx. lia. }
  rewrite Ei. pose proof Hi as Hi'. apply lookup_lt_is_Some in Hi' as [v Hv']. exists v. split; [done|].
  destruct (Z.ltb_spec (if found then Z.of_nat p else Z.of_nat p - 1) 1) as [C|C].
  - assert (i = 0%nat) as -> by (destruct found; lia). by rewrite (ws_at_lookup w 0 v).
  - destruct (Z.leb_spec (Z.of_nat (length (ws_values w))) (if found then Z.of_nat p else Z.of_nat p - 1)); [destruct found; lia|].
    rewrite (ws_at_lookup w _ v); [done|destruct found; lia|]. rewrite <- Hv'. f_equal. destruct found; lia.
Qed.

Lemma search_same w q1 q2 : qsorted w -> ffinite q1 = true -> ffinite q2 = true -> RF q1 = RF q2 ->
  ws_searchQuantile w q1 = ws_searchQuantile w q2.
Proof.
  intros (L1 & L2 & Hfin & Hsort & H0) F1 F2 E. unfold ws_searchQuantile.
  assert (forall k, (k < length (ws_quantiles w))%nat -> ffinite (default f0 (ws_quantiles w !! k)) = true) as Hat.
  { intros k Hk. apply lookup_lt_is_Some in Hk as [x Hx]. rewrite Hx. by eapply Hfin. }
  f_equal.
  - apply sort_Search_ext. intros k Hk. specialize (Hat k Hk). apply eq_true_iff_eq. rewrite !fle_spec by done. by rewrite E.
  - f_equal. f_equal. apply sort_Search_ext. intros k Hk. specialize (Hat k Hk). apply eq_true_iff_eq. rewrite !feq_spec by done. by rewrite E.
Qed.

Lemma index_mono w q1 q2 : qsorted w -> ffinite q1 = true -> ffinite q2 = true -> (RF q1 <= RF q2)%R ->
  (ws_index w q1 <= ws_index w q2)%nat.
Proof.
  intros Hq F1 F2 Hle. destruct (Req_dec (RF q1) (RF q2)) as [E|N].
  { unfold ws_index. by rewrite (search_same w q1 q2). }
  pose proof (search_found w q1 Hq F1) as S1. pose proof (search_found w q2 Hq F2) as S2. unfold ws_index.
  destruct (ws_searchQuantile w q1) as [p1 f1']. destruct (ws_searchQuantile w q2) as [p2 f2'].
  destruct S1 as (B1 & P1 & X1). destruct S2 as (B2 & P2 & X2).
  assert (p1 <= p2)%nat as Hp.
  { destruct (decide (p1 <= p2)%nat) as [?|C]; [done|]. destruct (ws_quantiles w !! p2) as [x|] eqn:Ex.
    - pose proof (proj1 (P1 p2 x Ex) ltac:(lia)). assert (~ (RF x < RF q2)%R) by (rewrite <- (P2 p2 x Ex); lia). lra.
    - apply lookup_ge_None in Ex. lia. }
  destruct f1', f2'; try lia. destruct (X1 eq_refl) as (x & Hx & Ex).
  assert (p1 < p2)%nat; [|lia]. apply (P2 p1 x Hx). lra.
Qed.

(** What the index is. *)
Lemma index_spec w q : qsorted w -> ffinite q = true -> (0 <= RF q)%R -> ws_values w <> [] ->
  (forall x, ws_quantiles w !! ws_index w q = Some x -> (RF x <= RF q)%R) /\
  (forall i x, (ws_index w q < i)%nat -> ws_quantiles w !! i = Some x -> (RF q <= RF x)%R).
Proof.
  intros Hq F Hpos Hne. pose proof (search_found w q Hq F) as S. unfold ws_index.
  destruct Hq as (L1 & L2 & Hfin & Hsort & H0). destruct (ws_searchQuantile w q) as [p found]. destruct S as (B & P & X).
  split.
  - intros x Hx. destruct found.
    + destruct (X eq_refl) as (y & Hy & Ey). rewrite Hx in Hy. injection Hy as <-. lra.
    + destruct (decide (p = 0)%nat) as [->|Np].
      * cbn in Hx. apply H0 in Hx as ->. rewrite RF_f0. lra.
      * apply Rlt_le, (P _ _ Hx). lia.
  - intros i x Hi Hx. apply Rnot_lt_le. rewrite <- (P i x Hx). destruct found; lia.
Qed.

(** ** Exact boundaries *)
Lemma search_loop_false f n fuel : forall lo hi, (hi - lo <= fuel)%nat -> (lo <= hi <= n)%nat ->
  (forall k, (lo <= k < hi)%nat -> f k = false) -> search_loop fuel f lo hi = hi.
Proof.
  induction fuel as [|fuel IH]; intros lo hi Hf Hlh Hfalse; cbn [search_loop]; [lia|].
  destruct (Nat.ltb_spec lo hi) as [C|C]; [|lia]. set (h := ((lo + hi) / 2)%nat).
  assert (lo <= h < hi)%nat as Hh. { split; [apply Nat.div_le_lower_bound; lia|apply Nat.div_lt_upper_bound; lia]. }
  rewrite Hfalse by lia. cbn [negb]. apply IH; [lia|lia|]. intros k Hk. apply Hfalse. lia.
Qed.
Lemma search_loop_unique f n i fuel : f i = true -> (forall k, (k < n)%nat -> k <> i -> f k = false) ->
  forall lo hi, (hi - lo <= fuel)%nat -> (lo <= hi <= n)%nat ->
  search_loop fuel f lo hi = if decide (i ∈ right_spine fuel lo hi) then i else hi.
Proof.
  intros Hi Hk. induction fuel as [|fuel IH]; intros lo hi Hf Hlh; cbn [search_loop right_spine].
  - rewrite decide_False by (apply not_elem_of_nil). lia.
  - destruct (Nat.ltb_spec lo hi) as [C|C]; [|rewrite decide_False by (apply not_elem_of_nil); lia].
    set (h := ((lo + hi) / 2)%nat).
    assert (lo <= h < hi)%nat as Hh. { split; [apply Nat.div_le_lower_bound; lia|apply Nat.div_lt_upper_bound; lia]. }
    destruct (decide (h = i)) as [->|N].
    + rewrite Hi. cbn [negb]. rewrite decide_True by (left). apply (search_loop_false f n); [lia|lia|]. intros k Hk'. apply Hk; lia.
    + rewrite Hk by lia. cbn [negb]. rewrite IH by lia. apply decide_ext. rewrite elem_of_cons. split; [by right|]. intros [?|?]; [congruence|done].
Qed.
Lemma right_spine_bounds fuel : forall lo hi i, i ∈ right_spine fuel lo hi -> (lo <= i < hi)%nat.
Proof.
  induction fuel as [|fuel IH]; intros lo hi i; cbn [right_spine]; [intros H; by apply elem_of_nil in H|].
  destruct (Nat.ltb_spec lo hi) as [C|C]; [|intros H; by apply elem_of_nil in H].
  set (h := ((lo + hi) / 2)%nat).
  assert (lo <= h < hi)%nat as Hh. { split; [apply Nat.div_le_lower_bound; lia|apply Nat.div_lt_upper_bound; lia]. }
  rewrite elem_of_cons. intros [->|H]; [done|]. apply IH in H. lia.
Qed.

Lemma index_at_boundary w q i : qsorted w -> ffinite q = true -> (i < length (ws_quantiles w))%nat ->
  (forall k x, ws_quantiles w !! k = Some x -> (RF x = RF q <-> k = i)) ->
  ws_index w q = if decide (i ∈ right_spine (length (ws_quantiles w)) 0 (length (ws_quantiles w))) then i else (i - 1)%nat.
Proof.
  intros Hq F Hi Hu. pose proof (search_found w q Hq F) as S. unfold ws_index.
  destruct Hq as (L1 & L2 & Hfin & Hsort & H0).
  assert (ws_searchQuantile w q = (i, bool_decide (i ∈ right_spine (length (ws_quantiles w)) 0 (length (ws_quantiles w))))) as E.
  { destruct (ws_searchQuantile w q) as [p found] eqn:E. destruct S as (B & Pp & X). f_equal.
    - pose proof Hi as Hi'. apply lookup_lt_is_Some in Hi' as [x Hx]. pose proof (proj2 (Hu i x Hx) eq_refl) as Ex.
      assert (~ (i < p)%nat) as N1 by (rewrite (Pp i x Hx); lra).
      destruct (decide (p = i)) as [?|N]; [done|]. exfalso.
      assert (p < length (ws_quantiles w))%nat as Hp by lia. apply lookup_lt_is_Some in Hp as [y Hy].
      pose proof (Hsort p i y x ltac:(lia) Hy Hx). assert (~ (RF y < RF q)%R) by (rewrite <- (Pp p y Hy); lia).
      apply N. apply (Hu p y Hy). lra.
    - unfold ws_searchQuantile in E. injection E as _ <-.
      set (n := length (ws_quantiles w)) in *.
      assert (forall k, (k < n)%nat -> feq (default f0 (ws_quantiles w !! k)) q = bool_decide (k = i)) as Hf.
      { intros k Hk. apply lookup_lt_is_Some in Hk as [x Hx]. rewrite Hx. cbn [default]. apply eq_true_iff_eq.
        rewrite feq_spec; [|by eapply Hfin|done]. rewrite bool_decide_eq_true. by apply Hu. }
      unfold sort_Search. rewrite (search_loop_unique _ n i); [| | |lia|lia].
      + destruct (decide _) as [D|D].
        * rewrite (bool_decide_true _ D). rewrite (proj2 (Nat.eqb_neq i n)) by lia. done.
        * rewrite (bool_decide_false _ D). by rewrite Nat.eqb_refl.
      + rewrite Hf by lia. by apply bool_decide_true.
      + intros k Hk N. rewrite Hf by lia. by apply bool_decide_false. }
  rewrite E. case_bool_decide as D; [by rewrite decide_True|by rewrite decide_False].
Qed.

Lemma quantile_lookup total cp i : (i < length cp)%nat ->
  ws_quantiles (ws_build total cp) !! i = Some (cumulative_before total cp i).
Proof.
  intros Hi. cbn [ws_build ws_quantiles]. rewrite cumulate_lookup by (by rewrite fmap_length). f_equal. unfold cumulative_before.
  rewrite <- fmap_take. generalize f0. generalize (take i cp). clear. intros l. induction l as [|s l IH]; intros a; [done|]. cbn. apply IH.
Qed.
