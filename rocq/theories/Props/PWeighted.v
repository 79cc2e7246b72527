(** C47 - C50: the weighted snapshot.  [NewWeightedSnapshot samples w] means that
    [w] is a snapshot the constructor may return (any outcome of the unstable sort). *)
From Verif.Go Require Import GoInt GoFloat.
From Verif.Model Require Import WeightedSnapshot.
From Verif.Spec Require Import BucketSpec SnapshotSpec WeightedSpec.
From Verif.Proofs Require Import FloatProofs UniformSnapshotProofs WeightedProofs FloatSum WeightedMean WeightedVar.
From Coq Require Import Reals Lra.
From Flocq Require Import Core.Core IEEE754.BinarySingleNaN.
Local Open Scope Z_scope.

(** C47. *)
Theorem C47_sorted : forall samples w, NewWeightedSnapshot samples w ->
  (exists l, ws_GetValues w = (l, false) /\ ascending l /\ Permutation l (sm_value <$> samples)) /\
  ws_Size w = (Z.of_nat (length samples), false) /\
  (samples = [] -> ws_GetMin w = Ok (0, true) /\ ws_GetMax w = Ok (0, true) /\ ws_GetMean w = (f0, true)) /\
  (samples <> [] -> exists mn mx, ws_GetMin w = Ok (mn, false) /\ ws_GetMax w = Ok (mx, false) /\
     is_min mn (sm_value <$> samples) /\ is_max mx (sm_value <$> samples) /\ exists x, ws_GetMean w = (x, false)).
Proof.
  intros samples w (cp & S & ->). pose proof (build_ascending (ws_totalWeight samples) samples cp S) as [A P].
  set (w := ws_build (ws_totalWeight samples) cp) in *.
  assert (length (ws_values w) = length samples) as Ll by (rewrite P; apply fmap_length).
  split; [|split; [|split]].
  - eexists. split; [done|]. done.
  - unfold ws_Size. by rewrite Ll.
  - intros ->. assert (ws_values w = []) as E by (by apply nil_length_inv).
    unfold ws_GetMin, ws_GetMax, ws_GetMean. rewrite E. done.
  - intros Hne. assert (0 < length (ws_values w))%nat as Hl by (rewrite Ll; destruct samples; [done|cbn; lia]).
    destruct (ws_values w !! 0%nat) as [mn|] eqn:E0; [|apply lookup_ge_None in E0; lia].
    destruct (ws_values w !! (length (ws_values w) - 1)%nat) as [mx|] eqn:E1; [|apply lookup_ge_None in E1; lia].
    exists mn, mx. unfold ws_GetMin, ws_GetMax, ws_GetMean.
    rewrite (proj2 (Z.eqb_neq (Z.of_nat (length (ws_values w))) 0)) by lia.
    rewrite (ws_at_lookup w 0 mn) by done. rewrite (ws_at_lookup w _ mx); [|lia|rewrite <- E1; f_equal; lia].
    split; [done|]. split; [done|]. split; [split|split; [split|]].
    + rewrite <- P. by eapply elem_of_list_lookup_2.
    + intros x Hx. rewrite <- P in Hx. apply elem_of_list_lookup in Hx as [i Hi]. eapply (ascending_lookup _ 0 i); [exact A|lia|done|done].
    + rewrite <- P. by eapply elem_of_list_lookup_2.
    + intros x Hx. rewrite <- P in Hx. apply elem_of_list_lookup in Hx as [i Hi].
      eapply (ascending_lookup _ i (length (ws_values w) - 1)); [exact A|apply lookup_lt_Some in Hi; lia|done|done].
    + by eexists.
Qed.
Print Assumptions C47_sorted.

(** C48. *)
Theorem C48_rejects : forall samples w q, NewWeightedSnapshot samples w -> good_weights samples -> Z.of_nat (length samples) <= 2 ^ 53 ->
  (~ valid_quantile q -> ws_GetValue w q = Ok (f0, true)) /\
  (valid_quantile q -> samples = [] -> ws_GetValue w q = Ok (f0, false)) /\
  (valid_quantile q -> samples <> [] ->
     exists v, v ∈ (sm_value <$> samples) /\ ws_GetValue w q = Ok (f_of_int v, false) /\
       (RF q = 0%R -> is_min v (sm_value <$> samples))).
Proof.
  intros samples w q (cp & S & ->) HW Hn. pose proof (build_qsorted samples cp HW Hn S) as Q.
  pose proof (build_ascending (ws_totalWeight samples) samples cp S) as [A P].
  set (w := ws_build (ws_totalWeight samples) cp) in *.
  assert (length (ws_values w) = length samples) as Ll by (rewrite P; apply fmap_length).
  split; [|split].
  - intros Hq. unfold ws_GetValue. destruct (_ || _)%bool eqn:E; [done|]. exfalso. apply Hq. by apply valid_cases.
  - intros Hq ->. unfold ws_GetValue. rewrite (proj1 (valid_cases q) Hq). assert (ws_values w = []) as E by (by apply nil_length_inv). by rewrite E.
  - intros Hq Hne. assert (ws_values w <> []) as Hne' by (intros E; rewrite E in Ll; destruct samples; [done|discriminate Ll]).
    destruct (GetValue_index w q Q Hq Hne') as (v & Hv & Ev). exists v. split; [rewrite <- P; by eapply elem_of_list_lookup_2|]. split; [done|].
    intros Hz. assert (v ∈ (sm_value <$> samples)) as Hin by (rewrite <- P; by eapply elem_of_list_lookup_2).
    (* every position below has cumulative weight 0 = the first one; all positive weights may still round to 0 *)
    split; [done|]. intros x Hx. rewrite <- P in Hx. apply elem_of_list_lookup in Hx as [i Hi].
    assert (ws_index w q = 0%nat) as E0.
    { unfold ws_index. pose proof (search_found w q Q (proj1 Hq)) as SF. destruct Q as (L1 & L2 & Hfin & Hsort & H0).
      destruct (ws_searchQuantile w q) as [p found]. destruct SF as (Bp & Pp & X).
      assert (p = 0)%nat as ->; [|by destruct found].
      destruct (decide (p = 0)%nat) as [?|N]; [done|]. exfalso.
      assert (0 < length (ws_quantiles w))%nat as Hl by lia. apply lookup_lt_is_Some in Hl as [y Hy].
      pose proof (proj1 (Pp 0%nat y Hy) ltac:(lia)). pose proof (Hfin 0%nat y Hy) as [_ ?]. lra. }
    rewrite E0 in Hv. eapply (ascending_lookup _ 0 i); [exact A|lia|done|done].
Qed.
Print Assumptions C48_rejects.

Theorem C48_monotone : forall samples w q1 q2, NewWeightedSnapshot samples w -> good_weights samples -> Z.of_nat (length samples) <= 2 ^ 53 ->
  samples <> [] -> valid_quantile q1 -> valid_quantile q2 -> (RF q1 <= RF q2)%R ->
  exists v1 v2, ws_GetValue w q1 = Ok (f_of_int v1, false) /\ ws_GetValue w q2 = Ok (f_of_int v2, false) /\ v1 <= v2.
Proof.
  intros samples w q1 q2 (cp & S & ->) HW Hn Hne V1 V2 Hle. pose proof (build_qsorted samples cp HW Hn S) as Q.
  pose proof (build_ascending (ws_totalWeight samples) samples cp S) as [A P].
  set (w := ws_build (ws_totalWeight samples) cp) in *.
  assert (length (ws_values w) = length samples) as Ll by (rewrite P; apply fmap_length).
  assert (ws_values w <> []) as Hne' by (intros E; rewrite E in Ll; destruct samples; [done|discriminate Ll]).
  destruct (GetValue_index w q1 Q V1 Hne') as (v1 & H1 & E1). destruct (GetValue_index w q2 Q V2 Hne') as (v2 & H2 & E2).
  exists v1, v2. split; [done|]. split; [done|]. eapply ascending_lookup; [exact A| |exact H1|exact H2].
  apply index_mono; [done|apply V1|apply V2|done].
Qed.
Print Assumptions C48_monotone.

(** Never a panic, whatever the weights and the quantile are (NaN, infinite,
    negative). *)
Theorem C48_total : forall samples w q, NewWeightedSnapshot samples w ->
  ws_GetValue w q <> Panic /\ ws_GetMin w <> Panic /\ ws_GetMax w <> Panic.
Proof.
  intros samples w q _.
  assert (forall i, 0 <= i < Z.of_nat (length (ws_values w)) -> exists x, ws_at w i = Ok x) as Hat.
  { intros i Hi. destruct (ws_values w !! Z.to_nat i) as [x|] eqn:E; [|apply lookup_ge_None in E; lia]. exists x. apply ws_at_lookup; [lia|done]. }
  split; [|split].
  - unfold ws_GetValue. destruct (_ || _)%bool; [done|].
    destruct (Z.eqb_spec (Z.of_nat (length (ws_values w))) 0) as [E|N]; [done|]. destruct (ws_searchQuantile w q) as [p found].
    destruct (Z.ltb_spec (if found then Z.of_nat p else Z.of_nat p - 1) 1) as [C|C].
    + destruct (Hat 0) as [x ->]; [lia|discriminate].
    + destruct (Z.leb_spec (Z.of_nat (length (ws_values w))) (if found then Z.of_nat p else Z.of_nat p - 1)) as [D|D].
      * destruct (Hat (Z.of_nat (length (ws_values w)) - 1)) as [x ->]; [lia|discriminate].
      * destruct (Hat (if found then Z.of_nat p else Z.of_nat p - 1)) as [x ->]; [lia|discriminate].
  - unfold ws_GetMin. destruct (Z.eqb_spec (Z.of_nat (length (ws_values w))) 0) as [E|N]; [done|]. destruct (Hat 0) as [x ->]; [lia|discriminate].
  - unfold ws_GetMax. destruct (Z.eqb_spec (Z.of_nat (length (ws_values w))) 0) as [E|N]; [done|].
    destruct (Hat (Z.of_nat (length (ws_values w)) - 1)) as [x ->]; [lia|discriminate].
Qed.
Print Assumptions C48_total.

(** C49.  Between two neighbouring boundaries the quantile is the sample's value. *)
Theorem C49_between_partial : forall samples cp q i s,
  good_weights samples -> Z.of_nat (length samples) <= 2 ^ 53 -> sorted_by_value samples cp -> cp !! i = Some s ->
  valid_quantile q ->
  (RF (cumulative_before (ws_totalWeight samples) cp i) < RF q)%R ->
  (i + 1 < length cp -> (RF q < RF (cumulative_before (ws_totalWeight samples) cp (i + 1)))%R)%nat ->
  ws_GetValue (ws_build (ws_totalWeight samples) cp) q = Ok (f_of_int (sm_value s), false).
Proof.
  intros samples cp q i s HW Hn S Hs Hq Hlo Hhi. pose proof (build_qsorted samples cp HW Hn S) as Q.
  set (total := ws_totalWeight samples) in *. set (w := ws_build total cp) in *.
  pose proof (lookup_lt_Some _ _ _ Hs) as Hi.
  assert (length (ws_values w) = length cp) as Lv by apply fmap_length.
  assert (ws_values w <> []) as Hne by (intros E; rewrite E in Lv; cbn in Lv; lia).
  destruct (GetValue_index w q Q Hq Hne) as (v & Hv & Ev). rewrite Ev.
  destruct (index_spec w q Q (proj1 Hq) (proj1 (proj2 Hq)) Hne) as [I1 I2].
  assert (ws_index w q = i) as Ei.
  { pose proof (lookup_lt_Some _ _ _ Hv) as Hj. rewrite Lv in Hj.
    pose proof (I1 _ (quantile_lookup total cp _ Hj)) as J1.
    destruct (lt_eq_lt_dec (ws_index w q) i) as [[C|C]|C]; [|done|].
    - pose proof (I2 i _ C (quantile_lookup total cp i Hi)). lra.
    - exfalso. specialize (Hhi ltac:(lia)). destruct Q as (_ & _ & _ & Hsort & _).
      pose proof (Hsort (i + 1)%nat (ws_index w q) _ _ ltac:(lia) (quantile_lookup total cp (i + 1) ltac:(lia)) (quantile_lookup total cp _ Hj)). lra. }
  rewrite Ei in Hv. assert (ws_values w !! i = Some (sm_value s)) as Hv' by (unfold w; cbn [ws_build ws_values]; by rewrite list_lookup_fmap, Hs).
  rewrite Hv in Hv'. by injection Hv' as ->.
Qed.
Print Assumptions C49_between_partial.

(** C49.  Exactly at boundary [i], when the boundaries are distinct: the i-th value
    if the search for an equal boundary happens to probe [i] while moving right only,
    the value before it otherwise. *)
Theorem C49_boundary_partial : forall samples cp q i s,
  good_weights samples -> Z.of_nat (length samples) <= 2 ^ 53 -> sorted_by_value samples cp -> cp !! i = Some s ->
  (forall j k, (j < k < length cp)%nat ->
     (RF (cumulative_before (ws_totalWeight samples) cp j) < RF (cumulative_before (ws_totalWeight samples) cp k))%R) ->
  valid_quantile q -> RF q = RF (cumulative_before (ws_totalWeight samples) cp i) ->
  exists s', cp !! (if decide (i ∈ right_spine (length cp) 0 (length cp)) then i else (i - 1)%nat) = Some s' /\
  ws_GetValue (ws_build (ws_totalWeight samples) cp) q = Ok (f_of_int (sm_value s'), false).
Proof.
  intros samples cp q i s HW Hn S Hs Hd Hq Eq. pose proof (build_qsorted samples cp HW Hn S) as Q.
  set (total := ws_totalWeight samples) in *. set (w := ws_build total cp) in *.
  pose proof (lookup_lt_Some _ _ _ Hs) as Hi.
  assert (length (ws_values w) = length cp) as Lv by apply fmap_length.
  assert (length (ws_quantiles w) = length cp) as Lq by (destruct Q as (-> & _); done).
  assert (ws_values w <> []) as Hne by (intros E; rewrite E in Lv; cbn in Lv; lia).
  destruct (GetValue_index w q Q Hq Hne) as (v & Hv & Ev).
  rewrite (index_at_boundary w q i Q (proj1 Hq)) in Hv; [|by rewrite Lq|].
  - rewrite Lq in Hv. set (j := if decide _ then i else (i - 1)%nat) in *.
    unfold w in Hv. cbn [ws_build ws_values] in Hv. rewrite list_lookup_fmap in Hv. destruct (cp !! j) as [s'|]; [|done]. injection Hv as <-.
    by exists s'.
  - intros k x Hx. pose proof (lookup_lt_Some _ _ _ Hx) as Hk. rewrite Lq in Hk.
    unfold w in Hx. rewrite quantile_lookup in Hx by done. injection Hx as <-. rewrite Eq. split; [|by intros ->].
    intros E. destruct (lt_eq_lt_dec k i) as [[C|C]|C]; [|done|].
    + pose proof (Hd k i ltac:(lia)). lra.
    + pose proof (Hd i k ltac:(lia)). lra.
Qed.
Print Assumptions C49_boundary_partial.

(** Position 1 is never on that path when there are four samples or more, ... *)
Lemma spine_misses_1 n : (4 <= n)%nat -> 1%nat ∉ right_spine n 0 n.
Proof.
  intros Hn. destruct n as [|n]; [lia|]. cbn [right_spine]. rewrite (proj2 (Nat.ltb_lt 0 (S n))) by lia.
  rewrite elem_of_cons. intros [E|H].
  - assert (2 <= (0 + S n) / 2)%nat by (apply Nat.div_le_lower_bound; lia). lia.
  - apply right_spine_bounds in H. assert (2 <= (0 + S n) / 2)%nat by (apply Nat.div_le_lower_bound; lia). lia.
Qed.
(** ... so the property fails for every such snapshot with distinct boundaries. *)
Theorem C49_refuted_general : forall samples cp q s0 s1,
  good_weights samples -> Z.of_nat (length samples) <= 2 ^ 53 -> sorted_by_value samples cp ->
  (4 <= length cp)%nat -> cp !! 0%nat = Some s0 -> cp !! 1%nat = Some s1 -> sm_value s0 < sm_value s1 ->
  (forall j k, (j < k < length cp)%nat ->
     (RF (cumulative_before (ws_totalWeight samples) cp j) < RF (cumulative_before (ws_totalWeight samples) cp k))%R) ->
  valid_quantile q -> RF q = RF (cumulative_before (ws_totalWeight samples) cp 1) ->
  ws_GetValue (ws_build (ws_totalWeight samples) cp) q = Ok (f_of_int (sm_value s0), false).
Proof.
  intros samples cp q s0 s1 HW Hn S H4 H0 H1 Hlt Hd Hq Eq.
  destruct (C49_boundary_partial samples cp q 1 s1 HW Hn S H1 Hd Hq Eq) as (s' & Hs' & E).
  rewrite decide_False in Hs' by (by apply spine_misses_1). cbn in Hs'. rewrite H0 in Hs'. injection Hs' as <-. exact E.
Qed.
Print Assumptions C49_refuted_general.

Definition unit_sample (v : Z) : sample := WeightedSample f0 v f1.
Definition four := [unit_sample 10; unit_sample 20; unit_sample 30; unit_sample 40].
Definition quarter : f64 := fdiv f1 (f_of_int 4).
Lemma four_sorted : sorted_by_value four four.
Proof. split; [done|]. repeat constructor; cbn; lia. Qed.
Theorem C49_refuted : exists samples w q, NewWeightedSnapshot samples w /\ good_weights samples /\
  feq q (cumulative_before (ws_totalWeight samples) samples 1) = true /\
  sm_value <$> samples = [10; 20; 30; 40] /\
  match ws_GetValue w q with Ok (x, false) => feq x (f_of_int 10) | _ => false end = true.
Proof.
  exists four, (ws_build (ws_totalWeight four) four), quarter. split; [exists four; split; [apply four_sorted|done]|].
  split; [|split; [vm_compute; reflexivity|split; [done|vm_compute; reflexivity]]].
  repeat constructor; cbn [sm_weight unit_sample]; try rewrite RF_f1; lra.
Qed.
Print Assumptions C49_refuted.

(** The hypotheses of the statements above hold for [four]. *)
Example C49_case : good_weights four /\ sorted_by_value four four /\ valid_quantile quarter /\
  forallb (fun i => flt (cumulative_before (ws_totalWeight four) four i) (cumulative_before (ws_totalWeight four) four (i + 1))) [0; 1; 2]%nat = true /\
  right_spine 4 0 4 = [2; 3]%nat.
Proof.
  split; [repeat constructor; cbn [sm_weight unit_sample]; try rewrite RF_f1; lra|]. split; [apply four_sorted|].
  split; [apply valid_cases; vm_compute; reflexivity|]. split; vm_compute; reflexivity.
Qed.
Example C48_case :
  match ws_GetMedian (ws_build (ws_totalWeight four) four) with Ok (x, false) => feq x (f_of_int 30) | _ => false end = true.
Proof. vm_compute. reflexivity. Qed.

(** C50.  Ten equal samples: the mean is below the smallest value. *)
Definition ten := replicate 10 (unit_sample 1).
Theorem C50_refuted : exists samples w, NewWeightedSnapshot samples w /\ moderate_weights samples /\
  ws_GetMin w = Ok (1, false) /\ flt (ws_GetMean w).1 (f_of_int 1) = true.
Proof.
  exists ten, (ws_build (ws_totalWeight ten) ten).
  split; [exists ten; split; [|done]; split; [done|]; repeat constructor; cbn; lia|].
  split; [|split; vm_compute; reflexivity].
  apply Forall_replicate. cbn [sm_weight unit_sample]. split; [done|]. rewrite RF_f1.
  assert (1 <= 2 ^ 400)%R as H by (apply pow_R1_Rle; lra). split; [|done].
  apply Rmult_le_reg_r with (2 ^ 400)%R; [lra|]. rewrite Rinv_l, Rmult_1_l by lra. done.
Qed.
Print Assumptions C50_refuted.

(** The mean is within rounding error of the weighted average (which lies between
    min and max). *)
Theorem C50_mean_partial : forall samples w M,
  NewWeightedSnapshot samples w -> moderate_weights samples -> samples <> [] -> Z.of_nat (length samples) <= 2 ^ 50 ->
  Forall (fun s => in64 (sm_value s) /\ Z.abs (sm_value s) <= M) samples ->
  exists x, ws_GetMean w = (x, false) /\ ffinite x = true /\
    (Rabs (RF x - weighted_mean samples) <= INR (4 * length samples + 6) * / 2 ^ 53 * IZR M)%R.
Proof.
  intros samples w M (cp & [P S] & ->) HM Hne Hn HV.
  destruct (mean_error samples cp M HM Hn Hne P HV) as [F E].
  exists (mean_sum (ws_totalWeight samples) cp). split; [apply mean_build; intros ->; apply Permutation_nil_l in P; congruence|].
  split; [done|]. eapply Rle_trans; [exact E|]. rewrite (pow2_bpow 53), <- bpow_opp. apply Req_le. f_equal.
  change (- Z.of_nat 53)%Z with (-53). f_equal. rewrite !plus_INR, !mult_INR, (INR_IZR_INZ 2), (INR_IZR_INZ 3), (INR_IZR_INZ 4), (INR_IZR_INZ 6).
  cbn [Z.of_nat Pos.of_succ_nat Pos.succ]. ring.
Qed.
Print Assumptions C50_mean_partial.

Theorem weighted_mean_between : forall samples mn mx, moderate_weights samples -> samples <> [] -> Z.of_nat (length samples) <= 2 ^ 50 ->
  is_min mn (sm_value <$> samples) -> is_max mx (sm_value <$> samples) -> (IZR mn <= weighted_mean samples <= IZR mx)%R.
Proof.
  intros samples mn mx HM Hne Hn [_ Mn] [_ Mx]. destruct (total_near samples HM Hn Hne) as (HT & _).
  assert (forall c, sumR ((fun s => RF (sm_weight s) * c)%R <$> samples) = (total_weight samples * c)%R) as Hc.
  { intros c. unfold total_weight. rewrite Rmult_comm, <- sumR_scal. f_equal. apply list_fmap_ext. intros; apply Rmult_comm. }
  assert (Forall (fun s => (0 <= RF (sm_weight s))%R) samples) as HW.
  { eapply Forall_impl; [apply moderate_bpow, HM|]. intros s [_ [W _]]. cbv beta. pose proof (bpow_gt_0 radix2 (-400)). lra. }
  rewrite Forall_forall in HW.
  unfold weighted_mean. split.
  - apply Rmult_le_reg_r with (total_weight samples); [done|]. unfold Rdiv. rewrite Rmult_assoc, Rinv_l, Rmult_1_r by lra.
    rewrite Rmult_comm, <- Hc. apply sumR_le, Forall_forall. intros s Hs. apply Rmult_le_compat_l; [by apply HW|]. apply IZR_le, Mn.
    by apply elem_of_list_fmap_1.
  - apply Rmult_le_reg_r with (total_weight samples); [done|]. unfold Rdiv. rewrite Rmult_assoc, Rinv_l, Rmult_1_r by lra.
    rewrite (Rmult_comm (IZR mx)), <- Hc. apply sumR_le, Forall_forall. intros s Hs. apply Rmult_le_compat_l; [by apply HW|]. apply IZR_le, Mx.
    by apply elem_of_list_fmap_1.
Qed.
Print Assumptions weighted_mean_between.

(** The square of the standard deviation is within rounding error of the weighted
    variance. *)
Theorem C50_stddev_partial : forall samples w M,
  NewWeightedSnapshot samples w -> moderate_weights samples -> Z.of_nat (length samples) <= 2 ^ 50 ->
  Forall (fun s => in64 (sm_value s) /\ Z.abs (sm_value s) <= M) samples -> 1 <= M <= 2 ^ 63 ->
  exists x, ws_GetStdDev w = (x, false) /\ ffinite x = true /\ (0 <= RF x)%R /\
    ((length samples <= 1)%nat -> RF x = 0%R) /\
    (samples <> [] -> Rabs (RF x * RF x - weighted_variance samples) <= INR (128 * length samples + 400) * / 2 ^ 53 * (IZR M * IZR M))%R.
Proof.
  intros samples w M (cp & [P S] & ->) HM Hn HV HM1.
  assert (length cp = length samples) as Lc by (by apply Permutation_length).
  assert (1 <= IZR M)%R as HMR by (apply (IZR_le 1); lia).
  assert (0 <= / 2 ^ 53 * (IZR M * IZR M))%R as Hpos.
  { apply Rmult_le_pos; [apply Rlt_le, Rinv_0_lt_compat, pow_lt; lra|]. apply Rmult_le_pos; lra. }
  rewrite stddev_build, Lc.
  destruct (Z.leb_spec (Z.of_nat (length samples)) 1) as [C|C].
  { exists f0. split; [done|]. rewrite RF_f0. split; [done|]. split; [lra|]. split; [done|]. intros Hne.
    assert (weighted_variance samples = 0)%R as ->; [|rewrite Rmult_0_l, Rminus_0_r, Rabs_R0, Rmult_assoc; apply Rmult_le_pos; [apply pos_INR|done]].
    destruct (total_near samples HM Hn Hne) as (HT & _).
    destruct samples as [|s [|s' l]]; [done| |cbn in C; lia]. unfold weighted_variance, weighted_mean, total_weight in *. cbn in *.
    field. lra. }
  assert (samples <> []) as Hne by (intros ->; cbn in C; lia).
  rewrite mean_build by (intros ->; cbn in Lc; lia). cbn [fst].
  destruct (mean_error samples cp M HM Hn Hne P HV) as [Fm Em]. set (mf := mean_sum (ws_totalWeight samples) cp) in *.
  destruct (var_error samples M HM Hn HV HM1 mf Fm Em cp Hne P) as (Fv & Pv & Ev).
  set (v := var_sum samples mf cp) in *.
  destruct (fsqrt_spec v Fv Pv) as [R1 F1]. exists (fsqrt v). split; [done|]. split; [done|].
  split; [rewrite R1; apply rnd_ge_l; [apply fmt_0|apply sqrt_pos]|]. split; [lia|]. intros _.
  rewrite (pow2_bpow 53), <- bpow_opp in *. change (- Z.of_nat 53)%Z with (-53) in *.
  destruct (rnd_rel (sqrt (RF v))) as (t & Nt & Et).
  { destruct (Rle_lt_or_eq_dec 0 (RF v) Pv) as [Hlt|Heq]; [|left; rewrite <- Heq; apply sqrt_0]. right.
    rewrite Rabs_pos_eq by apply sqrt_pos.
    assert (bpow radix2 (-1074) <= RF v)%R as Hmin.
    { rewrite <- (Rabs_pos_eq (RF v)) by lra. apply (abs_B2R_ge_emin 53 1024). destruct v as [?|?| |? ? ? ?]; try done; cbn in Hlt; lra. }
    apply Rle_trans with (sqrt (bpow radix2 (-1074))); [|by apply sqrt_le_1_alt].
    change (-1074)%Z with (2 * -537)%Z. rewrite sqrt_bpow. apply bpow_le. lia. }
  assert (RF (fsqrt v) * RF (fsqrt v) = RF v * (t * t))%R as E2.
  { rewrite R1, Et. transitivity (sqrt (RF v) * sqrt (RF v) * (t * t))%R; [ring|]. by rewrite sqrt_sqrt. }
  rewrite E2. pose proof (near_2_dist (t * t) (near_mult 1 1 t t Nt Nt)) as D2. pose proof uro_bounds as U.
  assert (Rabs (weighted_variance samples) <= 4 * (IZR M * IZR M))%R as BV.
  { destruct (total_near samples HM Hn Hne) as (HT & _). apply (weighted_bound (fun s => (IZR (sm_value s) - weighted_mean samples) * (IZR (sm_value s) - weighted_mean samples))%R);
      [by apply weights_pos|done|]. apply Forall_forall. intros s Hs. pose proof (mean_abs samples M HM Hn HV Hne) as MA. pose proof HV as HV'. rewrite Forall_forall in HV'.
    destruct (HV' s Hs) as [_ B]. apply IZR_le in B. rewrite abs_IZR in B.
    assert (Rabs (IZR (sm_value s) - weighted_mean samples) <= 2 * IZR M)%R as B2.
    { apply Rabs_le_inv in MA, B. apply Rabs_le. lra. }
    rewrite Rabs_mult. replace (4 * (IZR M * IZR M))%R with ((2 * IZR M) * (2 * IZR M))%R by ring. apply Rmult_le_compat; try apply Rabs_pos; done. }
  set (V := weighted_variance samples) in *. set (MM := (IZR M * IZR M)%R) in *.
  assert (0 <= MM)%R as HMM by (apply Rmult_le_pos; lra).
  replace (INR (128 * length samples + 263)) with (128 * INR (length samples) + 263)%R in Ev.
  2:{ rewrite plus_INR, mult_INR, (INR_IZR_INZ 128), (INR_IZR_INZ 263). done. }
  replace (INR (128 * length samples + 400)) with (128 * INR (length samples) + 400)%R.
  2:{ rewrite plus_INR, mult_INR, (INR_IZR_INZ 128), (INR_IZR_INZ 400). done. }
  assert (RF v <= 22 * MM)%R as Bv.
  { assert ((128 * INR (length samples) + 263) * uro <= 17)%R as B17.
    { assert (INR (length samples) <= bpow radix2 50)%R as HL by (rewrite INR_IZR_INZ, <- IZR_pow2 by lia; by apply IZR_le).
      assert (bpow radix2 50 * uro = / 8)%R as E8 by (rewrite <- bpow_plus; done).
      assert (INR (length samples) * uro <= / 8)%R by (rewrite <- E8; apply Rmult_le_compat_r; lra). lra. }
    assert ((128 * INR (length samples) + 263) * uro * MM <= 17 * MM)%R by (by apply Rmult_le_compat_r).
    apply Rabs_le_inv in Ev, BV. lra. }
  assert (Rabs (RF v * (t * t) - RF v) <= 22 * MM * (4 * uro))%R as E3.
  { replace (RF v * (t * t) - RF v)%R with (RF v * (t * t - 1))%R by ring. rewrite Rabs_mult, (Rabs_pos_eq (RF v)) by done.
    apply Rmult_le_compat; [done|apply Rabs_pos|done|done]. }
  replace (RF v * (t * t) - V)%R with ((RF v * (t * t) - RF v) + (RF v - V))%R by ring. eapply Rle_trans; [apply Rabs_triang|].
  assert (0 <= uro * MM)%R by (apply Rmult_le_pos; lra).
  replace ((128 * INR (length samples) + 400) * uro * MM)%R with ((128 * INR (length samples) + 263) * uro * MM + 137 * (uro * MM))%R by ring. lra.
Qed.
Print Assumptions C50_stddev_partial.

Example C50_case :
  feq (ws_GetMean (ws_build (ws_totalWeight four) four)).1 (f_of_int 25) = true /\
  flt (f_of_int 11) (ws_GetStdDev (ws_build (ws_totalWeight four) four)).1 = true.
Proof. split; vm_compute; reflexivity. Qed.
