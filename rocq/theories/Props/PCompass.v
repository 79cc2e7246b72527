(** C30-C37, C88: the compass used by one goroutine at a time (concurrency:
    PCompassConc.v).

    The compass is created with the reservoir [r0], [N] buckets of [I] nanoseconds and
    the limits [maxE], [maxA]; [nowT], [now], [nowS] are the wall clock readings (ms)
    made then.  A call carries everything it reads from the clock; the reservoir is
    any reservoir whatsoever.  Spec/CompassSpec.v defines [updates], [successes],
    [codes], [with_code] ... of a history. *)
From Verif.Go Require Import GoInt GoFloat.
From Verif.Model Require Import Counter BucketQueue BucketCounter EWMA ManualClock Compass.
From Verif.Spec Require Import BucketSpec CounterSpec CompassSpec.
From Verif.Proofs Require Import BucketMain BucketProps CompassProofs CompassMeter FloatProofs FloatSum DecayingCalls MeanRate.
From Coq Require Import Reals Lra.
From Flocq Require Import Core.Core IEEE754.BinarySingleNaN.
Local Open Scope Z_scope.

Section histories.
Context {R RR : Type} (rsv_UpdateN : R -> RR -> Z -> res R) (rsv_GetSnapshot : R -> RR -> R) (r0 : R) (N I maxE maxA nowT now nowS : Z).

Definition setting_ok : Prop := Second <= I /\ in64 I /\ 0 <= N.
Notation exec calls := (cp_exec rsv_UpdateN rsv_GetSnapshot r0 N I maxE maxA nowT now nowS calls).

(** C30: GetCount is the number of update calls, GetSuccessCount the number of
    successful ones (as int64 values), and so the latter is never larger. *)
Theorem C30_compass_counts calls cp : setting_ok -> readings_in64 calls -> exec calls = Ok cp ->
  cp_GetCount cp = wrap64 (Z.of_nat (length (updates calls))) /\
  cp_GetSuccessCount cp = wrap64 (Z.of_nat (length (successes calls))) /\
  (Z.of_nat (length calls) < 2 ^ 63 -> cp_GetCount cp = Z.of_nat (length (updates calls)) /\
     cp_GetSuccessCount cp = Z.of_nat (length (successes calls)) /\ 0 <= cp_GetSuccessCount cp <= cp_GetCount cp).
Proof.
  intros (H1 & H2 & H3) HR E. pose proof HR as [HR1 HR2]. destruct (exec_inv rsv_UpdateN rsv_GetSnapshot r0 N I maxE maxA nowT now nowS calls cp H1 H2 H3 HR E) as [P1 P2 _ _ _ _ _].
  assert (Forall (fun o : Z * bc_op => in64 o.1) (total_ops calls)) as F1 by (unfold total_ops; by apply Forall_fmap).
  assert (Forall (fun o : Z * bc_op => in64 o.1) (success_ops calls)) as F2.
  { unfold success_ops, successes. apply Forall_fmap, Forall_forall. intros x Hx. apply elem_of_list_filter in Hx as [_ Hx]. rewrite Forall_forall in HR2. by apply (HR2 x Hx). }
  destruct (exec_total I N nowT true _ H1 H2 H3 F1) as (c1 & E1 & G1). rewrite P1 in E1. injection E1 as <-.
  destruct (exec_total I N nowS true _ H1 H2 H3 F2) as (c2 & E2 & G2). rewrite P2 in E2. injection E2 as <-.
  cbv iota in G1, G2. unfold total_ops in G1. unfold success_ops in G2. rewrite sum_updates in G1. rewrite sum_updates in G2.
  unfold cp_GetCount, cp_GetSuccessCount. rewrite G1, G2. split; [done|]. split; [done|]. intros HL.
  assert (length (updates calls) <= length calls)%nat as L1.
  { apply updates_length. }
  assert (length (successes calls) <= length (updates calls))%nat as L2.
  { etransitivity; [apply filter_length|]. apply outcomes_length. }
  rewrite !wrap64_id by (unfold in64, two63; lia). split; [done|]. split; [done|]. lia.
Qed.

(** C31: the tracked codes are the non-empty codes passed, never more than
    maxErrorCodeCount; each one's counter counts the calls carrying it, in total and
    (if the clock does not go back) per interval.  The same for addons. *)
Theorem C31_compass_codes calls cp : setting_ok -> readings_in64 calls -> exec calls = Ok cp ->
  dom (cp_GetErrorCodeCounts cp) = codes calls /\ Z.of_nat (size (cp_GetErrorCodeCounts cp)) <= Z.max 0 maxE /\
  forall code c, cp_GetErrorCodeCounts cp !! code = Some c ->
    bc_GetCount c = wrap64 (Z.of_nat (length (with_code code calls))) /\
    forall t, in64 t -> nondecreasing 0 (oc_timeCode <$> with_code code calls) t -> exists m, bc_GetBucketCounts c t = Ok m /\
      forall k, m !! k = recent_sum (Z.to_nat N) ((fun o => (bucket_key (I / Second) (oc_timeCode o), 1)) <$> with_code code calls) k.
Proof.
  intros (H1 & H2 & H3) HR E. pose proof HR as [HR1 HR2]. destruct (exec_inv rsv_UpdateN rsv_GetSnapshot r0 N I maxE maxA nowT now nowS calls cp H1 H2 H3 HR E) as [_ _ [Hd Hs Hc] _ _ _ _].
  unfold cp_GetErrorCodeCounts. rewrite codes_notes. split; [done|]. split; [done|]. intros code c Ec. destruct (Hc code c Ec) as (t0 & _ & Ex).
  assert (note_hist code (code_notes calls) = (fun o => (oc_timeCode o, BUpdate)) <$> with_code code calls) as Eh.
  { unfold note_hist, code_notes, with_code. clear. generalize (outcomes calls). intros l. induction l as [|o l IH]; [done|].
    cbn [fmap list_fmap]. rewrite !filter_cons. cbn [fst]. destruct (decide (oc_code o = code)); [|exact IH]. cbn [fmap list_fmap snd]. f_equal. exact IH. }
  rewrite Eh in Ex.
  assert (Forall (fun o : Z * bc_op => in64 o.1) ((fun o => (oc_timeCode o, BUpdate)) <$> with_code code calls)) as F.
  { unfold with_code. apply Forall_fmap, Forall_forall. intros x Hx. apply elem_of_list_filter in Hx as [_ Hx]. rewrite Forall_forall in HR2. by apply (HR2 x Hx). }
  destruct (exec_total I N t0 true _ H1 H2 H3 F) as (c1 & E1 & G1). rewrite Ex in E1. injection E1 as <-. cbv iota in G1. rewrite sum_updates in G1. split; [done|].
  intros t Ht Hm. destruct (exec_counts_monotone I N t0 true ((fun o => (oc_timeCode o, BUpdate)) <$> with_code code calls) t H1 H2 H3) as (c1 & m & E1 & Em & Gm); [|done|].
  { by rewrite <- list_fmap_compose. }
  rewrite Ex in E1. injection E1 as <-. exists m. split; [done|]. intros k. rewrite Gm. unfold by_time, bc_hist. by rewrite <- !list_fmap_compose.
Qed.
Theorem C31_compass_addons calls cp : setting_ok -> readings_in64 calls -> exec calls = Ok cp ->
  dom (cp_GetAddonCounts cp) = addons calls /\ Z.of_nat (size (cp_GetAddonCounts cp)) <= Z.max 0 maxA /\
  forall addon c, cp_GetAddonCounts cp !! addon = Some c ->
    bc_GetCount c = wrap64 (Z.of_nat (length (with_addon addon calls))) /\
    forall t, in64 t -> nondecreasing 0 (oc_timeAddon <$> with_addon addon calls) t -> exists m, bc_GetBucketCounts c t = Ok m /\
      forall k, m !! k = recent_sum (Z.to_nat N) ((fun o => (bucket_key (I / Second) (oc_timeAddon o), 1)) <$> with_addon addon calls) k.
Proof.
  intros (H1 & H2 & H3) HR E. pose proof HR as [HR1 HR2]. destruct (exec_inv rsv_UpdateN rsv_GetSnapshot r0 N I maxE maxA nowT now nowS calls cp H1 H2 H3 HR E) as [_ _ _ [Hd Hs Hc] _ _ _].
  unfold cp_GetAddonCounts. rewrite addons_notes. split; [done|]. split; [done|]. intros addon c Ec. destruct (Hc addon c Ec) as (t0 & _ & Ex).
  assert (note_hist addon (addon_notes calls) = (fun o => (oc_timeAddon o, BUpdate)) <$> with_addon addon calls) as Eh.
  { unfold note_hist, addon_notes, with_addon. clear. generalize (outcomes calls). intros l. induction l as [|o l IH]; [done|].
    cbn [fmap list_fmap]. rewrite !filter_cons. cbn [fst]. destruct (decide (oc_addon o = addon)); [|exact IH]. cbn [fmap list_fmap snd]. f_equal. exact IH. }
  rewrite Eh in Ex.
  assert (Forall (fun o : Z * bc_op => in64 o.1) ((fun o => (oc_timeAddon o, BUpdate)) <$> with_addon addon calls)) as F.
  { unfold with_addon. apply Forall_fmap, Forall_forall. intros x Hx. apply elem_of_list_filter in Hx as [_ Hx]. rewrite Forall_forall in HR2. by apply (HR2 x Hx). }
  destruct (exec_total I N t0 true _ H1 H2 H3 F) as (c1 & E1 & G1). rewrite Ex in E1. injection E1 as <-. cbv iota in G1. rewrite sum_updates in G1. split; [done|].
  intros t Ht Hm. destruct (exec_counts_monotone I N t0 true ((fun o => (oc_timeAddon o, BUpdate)) <$> with_addon addon calls) t H1 H2 H3) as (c1 & m & E1 & Em & Gm); [|done|].
  { by rewrite <- list_fmap_compose. }
  rewrite Ex in E1. injection E1 as <-. exists m. split; [done|]. intros k. rewrite Gm. unfold by_time, bc_hist. by rewrite <- !list_fmap_compose.
Qed.

(** C32 is violated: every history with more different codes or addons than
    configured ends in a panic (unless the reservoir panics before). *)
Theorem C32_excess_code_refuted calls : setting_ok -> readings_in64 calls -> (exists r, rsv_run rsv_UpdateN rsv_GetSnapshot r0 (rsv_calls calls) = Ok r) ->
  Z.max 0 maxE < Z.of_nat (size (codes calls)) \/ Z.max 0 maxA < Z.of_nat (size (addons calls)) -> exec calls = Panic.
Proof. intros (H1 & H2 & H3) HR HQ HX. apply exec_iff; try done. unfold fits_in. lia. Qed.
(** C32, what does hold: within the limits no call panics.  Missing: calls beyond
    the limits should be dropped. *)
Theorem C32_no_panic_partial calls : setting_ok -> readings_in64 calls -> (exists r, rsv_run rsv_UpdateN rsv_GetSnapshot r0 (rsv_calls calls) = Ok r) ->
  Z.of_nat (size (codes calls)) <= Z.max 0 maxE -> Z.of_nat (size (addons calls)) <= Z.max 0 maxA -> exists cp, exec calls = Ok cp.
Proof. intros (H1 & H2 & H3) HR HQ HX HY. apply exec_iff; done. Qed.

(** C88: the reservoir's UpdateN is called once per update call, in order, with its
    duration in nanoseconds, and nothing else happens to the reservoir. *)
Theorem C88_compass_feeds_reservoir calls cp : setting_ok -> readings_in64 calls -> exec calls = Ok cp ->
  rsv_run rsv_UpdateN rsv_GetSnapshot r0 (rsv_calls calls) = Ok (cp_reservoir cp).
Proof. intros (H1 & H2 & H3) HR E. by destruct (exec_inv rsv_UpdateN rsv_GetSnapshot r0 N I maxE maxA nowT now nowS calls cp H1 H2 H3 HR E). Qed.

(** The three moving averages of a reachable compass, from the counts TickN was called
    with. *)
Lemma rates_log calls cp : setting_ok -> readings_in64 calls -> exec calls = Ok cp ->
  exists L, mt_run log_TickN I (newMeter [] now) (meter_calls calls) = Ok L /\ cp_meter cp = of_log ew_TickN zeroEWMA L.
Proof.
  intros (H1 & H2 & H3) HR E. destruct (exec_inv rsv_UpdateN rsv_GetSnapshot r0 N I maxE maxA nowT now nowS calls cp H1 H2 H3 HR E) as [_ _ _ _ P _ _].
  by apply meter_log.
Qed.
Lemma hits_updates (calls : list (cp_call RR)) : hits (meter_calls calls) = Z.of_nat (length (updates calls)).
Proof.
  induction calls as [|c calls IH] using rev_ind; [done|]. rewrite meter_snoc, updates_snoc, app_length.
  destruct c as [u|u o|t|sr]; cbn [meter_calls updates omap list_omap length]; rewrite ?app_nil_r, ?hits_snoc, IH; cbn [snd]; lia.
Qed.

(** C36, one goroutine: the three averages received the same counts, none negative,
    and these add up to the number of update calls but for the pending count. *)
Theorem C36_conservation calls cp : setting_ok -> readings_in64 calls -> Z.of_nat (length (updates calls)) < 2 ^ 63 -> exec calls = Ok cp ->
  exists counts, let ticked := fold_left ew_TickN counts zeroEWMA in
    mt_m1Rate (cp_meter cp) = ticked /\ mt_m5Rate (cp_meter cp) = ticked /\ mt_m15Rate (cp_meter cp) = ticked /\
    Forall (fun c => 0 <= c) counts /\ 0 <= mt_uncounted (cp_meter cp) /\
    sumZ counts + mt_uncounted (cp_meter cp) = Z.of_nat (length (updates calls)).
Proof.
  intros HS HR HL E. destruct (rates_log calls cp HS HR E) as (L & EL & Em). rewrite Em. destruct HS as (H1 & H2 & H3).
  rewrite <- hits_updates in *. destruct (log_conserve I now (meter_calls calls) L) as (C1 & C2 & C3 & C4 & C5); [unfold Second in *; lia|done|done|].
  exists (mt_m1Rate L). cbn. rewrite C4, C5. done.
Qed.

(** C35: ticks made until now. *)
Lemma ticks_meter (calls : list (cp_call RR)) : (meter_calls calls).*1 = ticks calls.
Proof.
  induction calls as [|c calls IH]; [done|]. unfold meter_calls, ticks in *. destruct c as [u|u o|t|sr]; cbn [omap list_omap fmap list_fmap]; [f_equal; exact IH..|exact IH].
Qed.
(** C35, what does hold, for non-negative clock readings: the averages are ticked
    once per full 5 s since [now] (with an interval of 5 s), at most once (if the
    interval divides 5 s) and at least once (if it is a multiple of 5 s; at a time that
    is itself a multiple of 5 s the last tick may be outstanding).  Missing: other
    intervals; and [now] should be the tick, not the time, of the creation. *)
Theorem C35_ticks_partial calls cp : setting_ok -> readings_in64 calls -> 0 <= now < 2 ^ 63 -> Forall (fun t => 0 <= t < 2 ^ 63) (ticks calls) ->
  exec calls = Ok cp ->
  exists counts, let ticked := fold_left ew_TickN counts zeroEWMA in let n := Z.of_nat (length counts) in let elapsed := latest now (ticks calls) - now in
    mt_m1Rate (cp_meter cp) = ticked /\ mt_m5Rate (cp_meter cp) = ticked /\ mt_m15Rate (cp_meter cp) = ticked /\
    (I = 5 * Second -> 5 * Second * n <= elapsed <= 5 * Second * (n + 1)) /\
    ((I | 5 * Second) -> 5 * Second * n <= elapsed) /\
    ((5 * Second | I) -> elapsed <= 5 * Second * (n + 1)).
Proof.
  intros HS HR Hn HT E. destruct (rates_log calls cp HS HR E) as (L & EL & Em). rewrite Em. destruct HS as (H1 & H2 & H3).
  destruct (log_often I now (meter_calls calls) L) as (B & D1 & D2); [unfold Second in *; lia|done| |done|].
  { rewrite <- ticks_meter in HT. by rewrite Forall_fmap in HT. }
  rewrite ticks_meter in *.
  assert (same_logs L) as [C4 C5].
  { assert (forall cs L, mt_run log_TickN I (newMeter [] now) cs = Ok L -> same_logs L) as X; [|by eapply X].
    clear -H1. intros cs. induction cs as [|c cs IH] using rev_ind; intros L H; [cbn in H; injection H as <-; done|].
    destruct (run_log_unsnoc _ _ _ _ _ H) as (L1 & L2 & E1 & E2 & ->). specialize (IH L1 E1).
    assert (same_logs L2) by (destruct (tick_cases I L1 c.1 L2) as [[_ ->]|(_ & _ & _ & _ & X)]; [unfold Second in *; lia|done|done|by apply X]).
    by destruct c.2. }
  exists (mt_m1Rate L). cbv zeta. cbn [of_log mt_m1Rate mt_m5Rate mt_m15Rate]. rewrite C4, C5.
  split; [done|]. split; [done|]. split; [done|]. change (5 * Second) with tickInterval.
  split; [|split].
  - intros EI. rewrite <- EI in D1, D2. destruct (D1 (Z.divide_refl I)). destruct (D2 (Z.divide_refl I)). rewrite <- EI. lia.
  - intros D. destruct (D2 D). lia.
  - intros D. destruct (D1 D). lia.
Qed.

Lemma rates_char calls cp tick r : setting_ok -> readings_in64 calls -> Z.of_nat (length (updates calls)) < 2 ^ 63 ->
  Forall (fun t => in64 (t - now)) (ticks calls ++ [tick]) -> exec calls = Ok cp ->
  cp_GetOneMinuteRate cp tick = Ok r \/ cp_GetFiveMinuteRate cp tick = Ok r \/ cp_GetFifteenMinuteRate cp tick = Ok r ->
  (Forall (fun t => t <= now + 5 * Second) (ticks calls ++ [tick]) -> r = f0) /\
  (~ Forall (fun t => t <= now + 5 * Second) (ticks calls ++ [tick]) -> ffinite r = false) /\
  flt r f0 = false.
Proof.
  intros HS HR HL HT E Hr. destruct (rates_log calls cp HS HR E) as (L & EL & Em). pose proof HS as (H1 & H2 & H3).
  assert (cp_bucketInterval cp = I) as EI. { destruct (exec_inv rsv_UpdateN rsv_GetSnapshot r0 N I maxE maxA nowT now nowS calls cp H1 H2 H3 HR E) as [_ _ _ _ _ _ (_ & _ & _ & ? & _)]. done. }
  assert (exists L', mt_run log_TickN I (newMeter [] now) (meter_calls calls ++ [(tick, false)]) = Ok L' /\ r = fmul (zrate (mt_m1Rate L')) (f_of_int Second) /\ same_logs L') as (L' & EL' & Er & _).
  { unfold cp_GetOneMinuteRate, cp_GetFiveMinuteRate, cp_GetFifteenMinuteRate, cp_tick in Hr. rewrite EI, Em, of_log_tick in Hr.
    destruct (mt_tickIfNecessary log_TickN I L tick) as [L'|] eqn:EL2; [|destruct Hr as [?|[?|?]]; done].
    assert (mt_run log_TickN I (newMeter [] now) (meter_calls calls ++ [(tick, false)]) = Ok L') as EL'.
    { rewrite (mt_snoc _ _ _ _ _ _ EL). unfold mt_step. cbn [fst snd]. rewrite EL2. done. }
    destruct (log_conserve I now (meter_calls calls ++ [(tick, false)]) L') as (_ & _ & _ & C4 & C5); [unfold Second in *; lia| |done|].
    { rewrite hits_snoc, hits_updates. cbn. unfold two63. lia. }
    exists L'. split; [done|]. split; [|done]. unfold ew_GetRate, zrate in *. cbn [mbind res_bind cp_meter of_log mt_m1Rate mt_m5Rate mt_m15Rate] in Hr. rewrite C4, C5 in Hr.
    destruct Hr as [Hr|[Hr|Hr]]; injection Hr as <-; done. }
  destruct (log_conserve I now (meter_calls calls ++ [(tick, false)]) L') as (C1 & C2 & C3 & _); [unfold Second in *; lia| |done|].
  { rewrite hits_snoc, hits_updates. cbn. unfold two63. lia. }
  rewrite hits_snoc, hits_updates in C1. cbn [snd] in C1.
  destruct (log_empty I now (meter_calls calls ++ [(tick, false)]) L') as [LE _]; [unfold Second in *; lia|done|].
  assert (Forall (fun c : Z * bool => wrap64 (c.1 - now) <= tickInterval) (meter_calls calls ++ [(tick, false)]) <-> Forall (fun t => t <= now + 5 * Second) (ticks calls ++ [tick])) as HF.
  { assert (ticks calls ++ [tick] = (meter_calls calls ++ [(tick, false)]).*1) as Et by (rewrite fmap_app, ticks_meter; done).
    rewrite Et in HT |- *. rewrite !Forall_fmap in *. rewrite !Forall_forall in *. unfold compose in *. change (5 * Second) with tickInterval.
    split; intros H x Hx; specialize (H x Hx); specialize (HT x Hx); cbv beta in *; [rewrite wrap64_id in H by done; lia|rewrite wrap64_id by done; lia]. }
  rewrite HF in LE. clear HF.
  assert (Forall (fun c => in64 c /\ 0 <= c) (mt_m1Rate L')) as FL.
  { assert (forall l, Forall (fun c => 0 <= c) l -> sumZ l < two63 -> Forall (fun c => in64 c /\ 0 <= c) l) as X.
    { clear. intros l F. induction F as [|c l Hc F IH]; intros HB; [constructor|].
      assert (0 <= sumZ l) by (clear -F; induction F; unfold sumZ in *; cbn; lia).
      unfold sumZ in HB, IH. cbn in HB. fold (sumZ l) in HB, IH. constructor; [|apply IH; lia]. split; [|done]. unfold in64, two63 in *. lia. }
    apply X; [done|]. unfold two63. lia. }
  pose proof (zrate_cons _ FL) as EZ. split; [|split].
  - intros F. apply LE in F. rewrite F in Er. rewrite Er. rewrite zrate_nil. vm_compute. reflexivity.
  - intros F. rewrite Er, EZ. destruct (mt_m1Rate L') as [|a [|b l]]; [exfalso; apply F; by apply LE|..].
    + destruct (decide (0 < a)); reflexivity.
    + reflexivity.
  - rewrite Er, EZ. destruct (mt_m1Rate L') as [|a [|b l]]; [reflexivity|destruct (decide (0 < a)); reflexivity|reflexivity].
Qed.

(** C33 is violated: the averages are never initialised (their interval is 0), so what
    GetOneMinuteRate etc. return is 0 as long as no tick was due, and infinite or not a
    number ever after; never a positive finite rate. *)
Theorem C33_rates_refuted calls cp tick r : setting_ok -> readings_in64 calls -> Z.of_nat (length (updates calls)) < 2 ^ 63 ->
  Forall (fun t => in64 (t - now)) (ticks calls ++ [tick]) -> exec calls = Ok cp ->
  cp_GetOneMinuteRate cp tick = Ok r \/ cp_GetFiveMinuteRate cp tick = Ok r \/ cp_GetFifteenMinuteRate cp tick = Ok r ->
  (Forall (fun t => t <= now + 5 * Second) (ticks calls ++ [tick]) -> r = f0) /\
  (~ Forall (fun t => t <= now + 5 * Second) (ticks calls ++ [tick]) -> ffinite r = false).
Proof. intros HS HR HL HT E Hr. destruct (rates_char calls cp tick r HS HR HL HT E Hr) as (A & B & _). by split. Qed.
(** C33, what does hold: the rates are never negative.  Missing: finite. *)
Theorem C33_rates_partial calls cp tick r : setting_ok -> readings_in64 calls -> Z.of_nat (length (updates calls)) < 2 ^ 63 ->
  Forall (fun t => in64 (t - now)) (ticks calls ++ [tick]) -> exec calls = Ok cp ->
  cp_GetOneMinuteRate cp tick = Ok r \/ cp_GetFiveMinuteRate cp tick = Ok r \/ cp_GetFifteenMinuteRate cp tick = Ok r ->
  flt r f0 = false.
Proof. intros HS HR HL HT E Hr. by destruct (rates_char calls cp tick r HS HR HL HT E Hr) as (_ & _ & A). Qed.

(** C34: the mean rate is 0 without events; otherwise it is the count divided by the
    difference of the tick (nanoseconds of GetTick) and the creation's GetTime
    (milliseconds), per second, with a relative error of at most 2^-50.  Missing: the
    difference should be of two ticks. *)
Theorem C34_mean_rate_partial calls cp tick : setting_ok -> readings_in64 calls -> Z.of_nat (length calls) < 2 ^ 63 -> in64 (tick - now) -> exec calls = Ok cp ->
  let n := length (updates calls) in
  (n = 0%nat \/ tick <= now -> cp_GetMeanRate cp tick = f0) /\
  (n <> 0%nat /\ now < tick -> ffinite (cp_GetMeanRate cp tick) = true /\
     let exact := (IZR (Z.of_nat n) / IZR (tick - now) * IZR Second)%R in (Rabs (RF (cp_GetMeanRate cp tick) - exact) <= bpow radix2 (-50) * exact)%R).
Proof.
  intros HS HR HL Ht E n. destruct (C30_compass_counts calls cp HS HR E) as (_ & _ & C). destruct (C HL) as (EC & _ & _).
  assert (Z.of_nat n < 2 ^ 63) as Hn. { assert (length (updates calls) <= length calls)%nat as L1; [|unfold n; lia]. apply updates_length. }
  destruct HS as (H1 & H2 & H3).
  assert (cp_startTime cp = now) as ES. { by destruct (exec_inv rsv_UpdateN rsv_GetSnapshot r0 N I maxE maxA nowT now nowS calls cp H1 H2 H3 HR E) as [_ _ _ _ _ _ (? & _ & _ & _ & _)]. }
  unfold cp_GetMeanRate. rewrite ES, EC, wrap64_id by done. fold n. split.
  - intros [->|HX]; [done|]. destruct (Z.leb_spec (tick - now) 0); [by rewrite orb_true_r|lia].
  - intros [Hn0 HX]. destruct (Z.eqb_spec (Z.of_nat n) 0); [lia|]. destruct (Z.leb_spec (tick - now) 0); [lia|]. cbn [orb].
    set (c := Z.of_nat n) in *. set (e := tick - now) in *. assert (in64 c) as Hc by (unfold in64, two63; lia).
    apply mean_rate_error; [lia|exact Hc|unfold e; lia|exact Ht].
Qed.

(** C34 is violated with the default clock: GetTick counts nanoseconds from the start of
    the process ([start]), but the creation time is remembered as GetTime, milliseconds
    since 1970.  While the process is younger (in ns) than that number - 1.7e12 ns, 28
    minutes - the mean rate is 0 no matter how many events there were. *)
Theorem C34_default_clock_refuted calls cp start created tick : setting_ok -> readings_in64 calls -> Z.of_nat (length calls) < 2 ^ 63 ->
  0 <= start -> start <= created -> created <= tick -> tick < 2 ^ 63 ->
  now = uc_GetTime created -> exec calls = Ok cp -> tick - start <= created / 1000000 -> cp_GetMeanRate cp (uc_GetTick start tick) = f0.
Proof.
  intros HS HR HL H1 H2 H3 H4 En E HX.
  assert (uc_GetTick start tick = tick - start) as Et by (unfold uc_GetTick; apply wrap64_id; unfold in64, two63; lia).
  assert (uc_GetTime created = created / 1000000) as Ec.
  { unfold uc_GetTime, Millisecond. rewrite Z.quot_div_nonneg by lia. apply wrap64_id. pose proof (Z.div_pos created 1000000). pose proof (Z.div_le_upper_bound created 1000000 created). unfold in64, two63. lia. }
  assert (0 <= created / 1000000 <= created) as Bc by (split; [apply Z.div_pos; lia|apply Z.div_le_upper_bound; lia]).
  rewrite Et. refine (proj1 (C34_mean_rate_partial calls cp (tick - start) HS HR HL _ E) _); [unfold in64, two63; lia|right; lia].
Qed.

(** C37: the instant counts are exact, for any non-decreasing clock. *)
Theorem C37_instant_counts calls cp t : setting_ok -> readings_in64 calls -> nondecreasing 0 (up_time <$> updates calls) t -> in64 t -> exec calls = Ok cp ->
  exists m, cp_GetInstantCount cp t = Ok m /\
    (forall k, m !! k = recent_sum (Z.to_nat N) ((fun u => (bucket_key (I / Second) (up_time u), 1)) <$> updates calls) k) /\
    forall start, 0 <= start -> cp_GetInstantCountSince cp t start = Ok (filter (fun kv => start <= kv.1) m).
Proof.
  intros (H1 & H2 & H3) HR Hm Ht E. pose proof HR as [HR1 HR2]. destruct (exec_inv rsv_UpdateN rsv_GetSnapshot r0 N I maxE maxA nowT now nowS calls cp H1 H2 H3 HR E) as [P1 _ _ _ _ _ _].
  destruct (exec_counts_monotone I N nowT true (total_ops calls) t H1 H2 H3) as (c1 & m & E1 & Em & Gm); [|done|].
  { unfold total_ops. by rewrite <- list_fmap_compose. }
  rewrite P1 in E1. injection E1 as <-. exists m. split; [done|]. split.
  { intros k. rewrite Gm. unfold by_time, bc_hist, total_ops. by rewrite <- !list_fmap_compose. }
  intros start Hs. destruct (exec_filter I N nowT true (total_ops calls) t start H1 H2 H3) as (c1 & m' & E1 & Em' & Gm'); [|done|done|].
  { unfold total_ops. by apply Forall_fmap. }
  rewrite P1 in E1. injection E1 as <-. rewrite Em in Em'. injection Em' as <-. exact Gm'.
Qed.

(** C37, success against total: per interval the success counter is never above the
    instant count, for intervals reported by both, if each call counts its success in
    the interval it is counted in itself.  Missing: calls during which an interval ends. *)
Theorem C37_success_bounded_partial calls cp t : setting_ok -> readings_in64 calls -> Z.of_nat (length calls) < 2 ^ 63 ->
  nondecreasing 0 (up_time <$> updates calls) t -> nondecreasing 0 (oc_timeSuccess <$> successes calls) t -> in64 t ->
  same_interval (I / Second) calls -> exec calls = Ok cp ->
  exists mt ms, cp_GetInstantCount cp t = Ok mt /\ bc_GetBucketCounts (cp_GetBucketSuccessCount cp) t = Ok ms /\
    forall k total success, mt !! k = Some total -> ms !! k = Some success -> 0 <= success <= total.
Proof.
  intros (H1 & H2 & H3) HR HL Hm1 Hm2 Ht HSI E. pose proof HR as [HR1 HR2]. destruct (exec_inv rsv_UpdateN rsv_GetSnapshot r0 N I maxE maxA nowT now nowS calls cp H1 H2 H3 HR E) as [P1 P2 _ _ _ _ _].
  destruct (exec_counts_monotone I N nowT true (total_ops calls) t H1 H2 H3) as (c1 & m1 & E1 & Em1 & Gm1); [|done|].
  { unfold total_ops. by rewrite <- list_fmap_compose. }
  destruct (exec_counts_monotone I N nowS true (success_ops calls) t H1 H2 H3) as (c2 & m2 & E2 & Em2 & Gm2); [|done|].
  { unfold success_ops. by rewrite <- list_fmap_compose. }
  rewrite P1 in E1. injection E1 as <-. rewrite P2 in E2. injection E2 as <-. exists m1, m2. split; [done|]. split; [done|].
  intros k total success Hk1 Hk2. rewrite Gm1 in Hk1. rewrite Gm2 in Hk2. unfold recent_sum in Hk1, Hk2.
  destruct (decide _) as [_|]; [|done]. injection Hk1 as <-. destruct (decide _) as [_|]; [|done]. injection Hk2 as <-.
  unfold total_ops, success_ops. rewrite !hist_updates.
  assert (length (filter (fun x => bucket_key (I / Second) (oc_timeSuccess x) = k) (successes calls)) <= length (filter (fun x => bucket_key (I / Second) (up_time x) = k) (updates calls)))%nat as LE.
  { clear -HSI. induction calls as [|c calls IH]; [done|].
    specialize (IH ltac:(intros u o Hin; apply HSI; by right)).
    assert (updates (c :: calls) = updates [c] ++ updates calls) as -> by (destruct c; done).
    assert (successes (c :: calls) = successes [c] ++ successes calls) as -> by (unfold successes; rewrite <- filter_app; f_equal; destruct c; done).
    rewrite !filter_app, !app_length. apply Nat.add_le_mono; [|exact IH]. destruct c as [u|u o|tk|sr]; [apply Nat.le_0_l| |apply Nat.le_0_l|apply Nat.le_0_l].
    unfold successes. change (outcomes [CpUpdateWithError u o]) with [o]. change (updates [CpUpdateWithError u o]) with [u].
    rewrite (filter_cons _ o), (filter_cons _ u). destruct (decide (oc_success o = true)); [|apply Nat.le_0_l].
    rewrite filter_nil, filter_cons, (HSI u o ltac:(left)). by destruct (decide (bucket_key (I / Second) (up_time u) = k)). }
  assert (length (filter (fun x => bucket_key (I / Second) (up_time x) = k) (updates calls)) <= length calls)%nat as LC.
  { etransitivity; [apply filter_length|]. apply updates_length. }
  rewrite !wrap64_id by (unfold in64, two63; lia). lia.
Qed.
End histories.
Print Assumptions C30_compass_counts.
Print Assumptions C31_compass_codes.
Print Assumptions C31_compass_addons.
Print Assumptions C32_excess_code_refuted.
Print Assumptions C32_no_panic_partial.
Print Assumptions C33_rates_refuted.
Print Assumptions C33_rates_partial.
Print Assumptions C34_mean_rate_partial.
Print Assumptions C34_default_clock_refuted.
Print Assumptions C35_ticks_partial.
Print Assumptions C36_conservation.
Print Assumptions C37_instant_counts.
Print Assumptions C37_success_bounded_partial.
Print Assumptions C88_compass_feeds_reservoir.

(** ** Cases: a reservoir that keeps everything, a manual clock *)
Definition keep_UpdateN (r : list Z) (_ : unit) (d : Z) : res (list Z) := Ok (r ++ [d]).
Definition keep_GetSnapshot (r : list Z) (_ : unit) : list Z := r.
Notation run_case maxE maxA now calls := (cp_exec keep_UpdateN keep_GetSnapshot [] 10 Second maxE maxA now now now calls).
Definition at_ms (t : Z) (d : Z) : update unit := MkUpdate (t * 1000000) t tt d.
Definition result_at_ms (t : Z) (ok : bool) (code addon : string) : outcome := MkOutcome ok code addon t t t t t.

Definition case_calls : list (cp_call unit) :=
  [CpUpdate (at_ms 1100 7); CpUpdateWithError (at_ms 1200 8) (result_at_ms 1200 true "a" "x");
   CpUpdateWithError (at_ms 2300 9) (result_at_ms 2300 false "b" ""); CpSnapshot tt; CpUpdateWithError (at_ms 2400 10) (result_at_ms 2400 true "a" "")].
Example case_hypotheses : setting_ok 10 Second /\ readings_in64 case_calls /\ nondecreasing 0 (up_time <$> updates case_calls) 2500 /\
  nondecreasing 0 (oc_timeSuccess <$> successes case_calls) 2500 /\ fits_in 2 1 case_calls /\ same_interval (Second / Second) case_calls.
Proof.
  split; [unfold setting_ok, in64, two63, Second; lia|]. split.
  { split; cbn; [repeat (constructor; [unfold in64, two63; cbn; lia|])|repeat (constructor; [unfold outcome_in64, in64, two63; cbn; lia|])]; constructor. }
  assert (forall P Q : Prop, P -> Q -> P /\ Q) as K by tauto.
  split; [vm_compute; repeat (apply K; [discriminate|]); discriminate|]. split; [vm_compute; repeat (apply K; [discriminate|]); discriminate|]. split; [vm_compute; split; discriminate|].
  intros u o Hin. cbn in Hin. repeat (apply elem_of_cons in Hin as [Hin|Hin]; [try discriminate; injection Hin as -> ->; reflexivity|]). by apply elem_of_nil in Hin.
Qed.
Example C30_case : (cp ← run_case 2 1 1000 case_calls; Ok (cp_GetCount cp, cp_GetSuccessCount cp, cp_reservoir cp)) = Ok (4, 2, [7; 8; 9; 10]).
Proof. vm_compute. reflexivity. Qed.
Example C31_case : (cp ← run_case 2 1 1000 case_calls; Ok (map_to_list (bc_GetCount <$> cp_GetErrorCodeCounts cp), map_to_list (bc_GetCount <$> cp_GetAddonCounts cp)))
  = Ok ([("b"%string, 1); ("a"%string, 2)], [("x"%string, 1)]).
Proof. vm_compute. reflexivity. Qed.
(** The third call's "b" is one code too many. *)
Example C32_case : run_case 1 1 1000 case_calls = Panic.
Proof. vm_compute. reflexivity. Qed.
(** 6 s after the creation all averages are infinite, 11 s after it not a number. *)
Example C33_case :
  (cp ← run_case 2 1 1000 case_calls; r1 ← cp_GetOneMinuteRate cp 5001000000; r2 ← cp_GetFiveMinuteRate cp 5001000000; r3 ← cp_GetFifteenMinuteRate cp 10001001000;
   Ok (ffinite r1, fisnan r1, ffinite r2, fisnan r2, fisnan r3)) = Ok (false, false, false, false, true).
Proof. vm_compute. reflexivity. Qed.
(** A manual clock at 10 s when the compass is created; one event; one second later the
    mean rate is not 1 but less than 0.1. *)
Theorem C34_mean_rate_refuted : let created := ManualClock 10000000000 in let later := mc_Add created 1000000000 in
  (cp ← run_case 2 1 (mc_GetTime created) [CpUpdate (MkUpdate (mc_GetTick created) (mc_GetTime created) tt 5)];
   let r := cp_GetMeanRate cp (mc_GetTick later) in Ok (mc_GetTick later - mc_GetTick created, cp_GetCount cp, flt (fmul r (f_of_int 10)) f1)) = Ok (Second, 1, true).
Proof. vm_compute. reflexivity. Qed.
(** C35 is violated: with an interval of 1 s, 2 ticks after 18 s instead of 3; with an
    interval of a minute, 3 ticks after 8 s instead of 1.  (The averages are a function
    of this log: see rates_log.) *)
Theorem C35_ticks_refuted :
  (m ← mt_run log_TickN (1 * Second) (newMeter [] 0) [(9 * Second, false); (18 * Second, false)]; Ok (length (mt_m1Rate m))) = Ok 2%nat /\
  (m ← mt_run log_TickN (60 * Second) (newMeter [] 0) [(6 * Second, false); (7 * Second, false); (8 * Second, false)]; Ok (length (mt_m1Rate m))) = Ok 3%nat.
Proof. split; vm_compute; reflexivity. Qed.
Example C35_case : (m ← mt_run log_TickN (5 * Second) (newMeter [] 0) [(9 * Second, true); (18 * Second, false)]; Ok (mt_m1Rate m)) = Ok [0; 1; 0].
Proof. vm_compute. reflexivity. Qed.
(** C37, last part, is violated: the first call is counted at 999 ms and its success at
    1000 ms, so the second interval has two successes but one call. *)
Theorem C37_success_bounded_refuted :
  (cp ← run_case 2 1 0 [CpUpdateWithError (at_ms 999 1) (result_at_ms 1000 true "" ""); CpUpdateWithError (at_ms 1000 1) (result_at_ms 1000 true "" "")];
   mt ← cp_GetInstantCount cp 1500; ms ← bc_GetBucketCounts (cp_GetBucketSuccessCount cp) 1500; Ok (mt !! 1000, ms !! 1000)) = Ok (Some 1, Some 2).
Proof. vm_compute. reflexivity. Qed.
Example C37_case : (cp ← run_case 2 1 1000 case_calls; mt ← cp_GetInstantCount cp 2500; ms ← bc_GetBucketCounts (cp_GetBucketSuccessCount cp) 2500; Ok (map_to_list mt, map_to_list ms))
  = Ok ([(2000, 2); (1000, 2)], [(2000, 1); (1000, 1)]).
Proof. vm_compute. reflexivity. Qed.
Print Assumptions C34_mean_rate_refuted.
Print Assumptions C35_ticks_refuted.
Print Assumptions C37_success_bounded_refuted.
