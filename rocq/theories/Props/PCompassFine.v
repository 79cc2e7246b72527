(** C114-C120: a compass with all the objects it is made of, every access of a shared
    variable a step (Model/CompassFine.v), any number of goroutines, any schedule.
    [cf_run math_Exp rk I N maxE maxA e0 progs sched]: a compass created when the
    environment shows [e0] (clock and random number), with bucket interval [I], [N] buckets,
    limits [maxE] and [maxA] and a reservoir of the kind [rk] (decaying with a size and
    [alpha], uniform with a size, or the bucket reservoir, which the manager's compasses have), used by
    goroutines with the programs [progs]. *)
From Verif.Go Require Import GoInt GoFloat GoConc GoCompose.
From Verif.Model Require Import Counter BucketQueue BucketCounter BucketCounterConc BucketReservoir EWMA EWMAConc WeightedSnapshot DecayingReservoir DecayingConc UniformSnapshot UniformReservoir ReservoirConc Compass CompassConc CompassFine.
From Verif.Spec Require Import BucketSpec BucketConcSpec EWMASpec EWMAConcSpec DecayingSpec DecayingConcSpec ReservoirSpec ReservoirConcSpec CompassConcSpec CompassFineSpec.
From Verif.Proofs Require Import BucketAbs BucketHist BucketMain BucketConcMain BucketReservoirProofs ReservoirConcProofs ComposeProofs CompassConcProofs CompassConcTables CompassConcMore CompassFineProofs CompassFineParts CompassFineUniform CompassFineMain.
From Verif.Props Require Import PCompassConc PDecaying PDecayingConc PReservoirConc.
From Coq Require Import Reals.
Local Open Scope Z_scope.

Section compass.
Context (math_Exp : f64 -> f64) (rk : reservoir_kind) (I N maxE maxA : Z) (e0 : cenv) (progs : list (list kcall)).
Notation run := (cf_run math_Exp rk I N maxE maxA e0 progs).
Notation coarse := (cp_crun I maxE maxA (ce_ms e0) (ce_tick e0) progs).

(** C118: the compass's own variables and the goroutines' positions in its methods are as
    in the model in which each call of an object is one step. *)
Theorem C118_refines sched c : run sched = Some c -> exists sched', compass_alone c = coarse sched'.
Proof. intros Hc. exact (cf_client _ _ _ _ _ _ _ _ _ _ Hc). Qed.
Lemma not_counter sched c : run sched = Some c -> forall k s, k = KReservoir \/ k = KUniform -> gs_objs (shared c) !! k = Some (OCounter s) -> False.
Proof.
  intros Hc k s Hk0 Ho. destruct (object_steps _ _ _ _ _ _ _ _ _ _ Hc k _ Ho) as (o0 & tr & Hst & Hk). apply rest_part in Hst. cbn [shared] in Hst.
  destruct Hk0 as [-> | ->]; cbn [is_counter] in Hk; destruct rk; try (exfalso; exact Hk); destruct Hk as [s0 ->]; destruct Hst as [[x Hx] _]; discriminate Hx.
Qed.
(** C118: each counter is as if it were used on its own, created at a time the clock
    showed, by goroutines that call Update (UpdateN for the bucket reservoir's values). *)
Theorem C118_counters sched c k b : run sched = Some c -> counter_at c k = Some b ->
  exists before e es calls tr c', e0 :: shown sched = before ++ e :: es /\ (k <> KValues -> Forall (fun n => n = 1) (mjoin calls)) /\
    shown tr = ce_ms <$> es /\ bc_crun I N (ce_ms e) true calls tr = Ok c' /\ bs_bc (shared c') = b.
Proof.
  intros Hc Hb. unfold counter_at in Hb. destruct (gs_objs (shared c) !! k) as [o|] eqn:Ho; [|done]. destruct o as [s|s|s|s]; try done. injection Hb as <-.
  assert (Hk : is_counter k = true).
  { destruct (is_counter k) eqn:Ek; [done|]. exfalso. destruct (decide (k = KReservoir \/ k = KUniform)) as [Hor|Hne].
    - by apply (not_counter _ _ Hc k s Hor Ho).
    - assert (Hka : k ∈ [KOne; KFive; KFifteen]) by (destruct k; try discriminate Ek; try (by exfalso; tauto); set_solver).
      destruct (average_run _ _ _ _ _ _ _ _ _ _ _ _ Hc Hka Ho) as (x & tr & E & _). discriminate E. }
  destruct (counter_run _ _ _ _ _ _ _ _ _ _ _ _ Hc Hk Ho) as (s' & before & e & es & tr & Es & H1 & H2 & H3). injection Es as <-.
  eexists before, e, es, _, tr, _. split; [done|]. split; [|split; [done|split; [exact H3|done]]].
  intros Hv. rewrite (counter_received _ _ _ _ _ _ _ _ _ _ Hc k Hk). assert (Ht : is_tally k = true) by (by destruct k). rewrite (counter_ones _ _ _ _ _ _ _ _ _ _ Hc k Ht). apply Forall_replicate. done.
Qed.
(** C118: each moving average is as if it were used on its own, by goroutines that call
    TickN. *)
Theorem C118_averages sched c k a : run sched = Some c -> k ∈ [KOne; KFive; KFifteen] -> average_at c k = Some a ->
  exists calls tr, Forall (fun call => exists count, call = ETickN count) (mjoin calls) /\ shared (ewma_crun f0 0 calls tr) = a.
Proof.
  intros Hc Hk Ha. unfold average_at in Ha. destruct (gs_objs (shared c) !! k) as [o|] eqn:Ho; [|discriminate Ha].
  destruct (average_run _ _ _ _ _ _ _ _ _ _ _ _ Hc Hk Ho) as (s & tr & -> & H). injection Ha as <-.
  eexists _, tr. split; [|rewrite H; reflexivity].
  apply Forall_forall. intros x (l & Hx & (t & -> & Ht)%elem_of_list_fmap)%elem_of_list_join. unfold tickns in Hx. apply elem_of_list_omap in Hx as (y & _ & Hy). destruct y; try discriminate Hy. injection Hy as <-. eauto.
Qed.
(** C118: the reservoir is as if it were used on its own, by goroutines that call UpdateN,
    at the times the clock showed. *)
Theorem C118_reservoir sched c r size alpha : rk = RDecaying size alpha -> run sched = Some c -> reservoir_at c KReservoir = Some r ->
  exists calls tr, Forall (fun call => exists value random, call = DecayingConc.KUpdate value random) (mjoin calls) /\
    shown tr = (fun e => (ce_ms e, ce_tick e)) <$> shown sched /\ shared (dx_crun math_Exp size alpha (ce_ms e0) (ce_tick e0) calls tr) = r.
Proof.
  intros Hrk Hc Ha. unfold reservoir_at in Ha. destruct (gs_objs (shared c) !! KReservoir) as [o|] eqn:Ho; [|discriminate Ha].
  destruct (reservoir_run _ _ _ _ _ _ _ _ _ _ _ _ _ Hrk Hc Ho) as (s & tr & -> & Hsh & H). injection Ha as <-.
  eexists _, tr. split; [|split; [exact Hsh|rewrite H; reflexivity]].
  apply Forall_forall. intros x (l & Hx & (t & -> & Ht)%elem_of_list_fmap)%elem_of_list_join. unfold records in Hx. apply elem_of_list_omap in Hx as (y & _ & Hy). destruct y; try discriminate Hy. injection Hy as <-. eauto.
Qed.
(** C118: the uniform reservoir is as if it were used on its own, by goroutines that call
    UpdateN (the log, a ghost, does not say which goroutine called). *)
Theorem C118_uniform sched c r cap : rk = RUniform cap -> run sched = Some c -> uniform_at c KUniform = Some r ->
  exists calls tr, Forall (fun call => exists value draws, call = RUpdate value draws) (mjoin calls) /\
    let s := shared (rx_run cap calls tr) in
    rs_rsv r = rs_rsv s /\ rs_writer r = rs_writer s /\ rs_readers r = rs_readers s /\
    log_calls (rs_log r) = log_calls (rs_log s) /\ log_answers (rs_log r) = log_answers (rs_log s).
Proof.
  intros Hrk Hc Ha. unfold uniform_at in Ha. destruct (gs_objs (shared c) !! KUniform) as [o|] eqn:Ho; [|discriminate Ha].
  destruct (uniform_run _ _ _ _ _ _ _ _ _ _ _ _ Hrk Hc Ho) as (tr & -> & _). injection Ha as <-.
  exists ((fun t => draws_of (calls KUniform t)) <$> threads c), tr. split.
  - apply Forall_forall. intros x (l & Hx & (t & -> & Ht)%elem_of_list_fmap)%elem_of_list_join. unfold draws_of in Hx. apply elem_of_list_omap in Hx as (y & _ & Hy). destruct y; try discriminate Hy. injection Hy as <-. eauto.
  - cbv zeta. split; [reflexivity|]. split; [reflexivity|]. split; [reflexivity|]. unfold bare_shared, log_calls, log_answers. cbn [rs_log]. by rewrite !fmap_fmap.
Qed.
(** C118: without the two map getters the process is not aborted. *)
Theorem C118_no_abort sched c : run sched = Some c -> Forall (Forall no_getter) progs -> cs_crashed (compass_of c) = false.
Proof.
  intros Hc Hg. destruct (C118_refines _ _ Hc) as [sched' Hr]. pose proof (C92_updates_safe_partial I maxE maxA (ce_ms e0) (ce_tick e0) progs sched' Hg) as H.
  rewrite <- Hr in H. exact H.
Qed.

Lemma alone_done (c : fine) : Forall returned_all (threads c) -> Forall cp_done (threads (compass_alone c)) /\ Forall outside (threads c).
Proof.
  intros H. split; [unfold compass_alone; cbn [threads]; apply Forall_fmap|]; (eapply Forall_impl; [exact H|]); intros t (H1 & H2 & H3); [by split|done].
Qed.
Lemma alone_panics (c : fine) : panicked (threads (compass_alone c)) = fine_panics c.
Proof. unfold panicked, fine_panics, compass_alone. cbn [threads]. f_equal. rewrite <- list_fmap_compose. reflexivity. Qed.

(** C114: when all goroutines have returned, GetCount of the total counter is the number of
    updates, GetCount of the success counter the number of successful ones; at most the
    configured number of codes and addons have counters, and GetCount of each is the number
    of calls that carried it (and did not panic before).  Modulo 2^64, like all counts. *)
Theorem C114_counts sched : counter_setting I N -> exists c, run sched = Some c /\ (Forall returned_all (threads c) ->
  (exists b, counter_at c KTotal = Some b /\ bc_GetCount b = wrap64 (Z.of_nat (length (planned durations progs)))) /\
  (exists b, counter_at c KSuccess = Some b /\ bc_GetCount b = wrap64 (successes (planned results progs))) /\
  forall w, Z.of_nat (base.size (tracked w (compass_of c))) <= Z.max 0 (limit maxE maxA w) /\ tracked w (compass_of c) ⊆ passed w (planned results progs) /\
    forall key, key ∈ tracked w (compass_of c) -> exists b, key_counter c w key = Some b /\
      bc_GetCount b = wrap64 (carrying w key (planned results progs) - carrying w key (lost w (fine_panics c)))).
Proof.
  intros HS. destruct (cf_defined math_Exp rk I N maxE maxA e0 progs sched HS) as [c Hc]. exists c. split; [done|]. intros Hd.
  destruct (alone_done c Hd) as [Hd1 Hd2]. destruct (C118_refines _ _ Hc) as [sched' Hr].
  destruct (C90_concurrent_counts_final I maxE maxA (ce_ms e0) (ce_tick e0) progs sched') as (T1 & T2 & _); [by rewrite <- Hr|]. rewrite <- Hr in T1, T2. cbn [compass_alone shared] in T1, T2.
  destruct (exists_run _ _ _ _ _ _ _ _ _ _ Hc) as [X1 X2].
  assert (Hfin : forall k, is_tally k = true -> is_Some (gs_objs (shared c) !! k) -> exists b, counter_at c k = Some b /\ bc_GetCount b = wrap64 (tally (compass_of c) k)).
  { intros k Hk [o Ho]. destruct (counter_final _ _ _ _ _ _ _ _ _ _ Hc k o (tally_counter k Hk) HS Hd2 Ho) as (s & -> & Hs). exists (bs_bc s). split; [unfold counter_at; by rewrite Ho|]. by rewrite Hs, (md_tally _ _ (made_run _ _ _ _ _ _ _ _ _ _ Hc) k Hk). }
  split; [|split].
  - destruct (Hfin KTotal eq_refl) as (b & B1 & B2); [apply X1; set_solver|]. exists b. split; [done|]. rewrite B2. cbn [tally]. by rewrite T1.
  - destruct (Hfin KSuccess eq_refl) as (b & B1 & B2); [apply X1; set_solver|]. exists b. split; [done|]. rewrite B2. cbn [tally]. by rewrite T2.
  - intros w. destruct (C91_concurrent_keys I maxE maxA (ce_ms e0) (ce_tick e0) progs sched' w) as (K1 & K2 & K3 & _). rewrite <- Hr in K1, K2, K3. cbn [compass_alone shared threads] in K1, K2, K3.
    split; [exact K1|]. split; [exact K2|]. intros key Hkey.
    assert (Hne : key <> ""%string). { apply K2 in Hkey. unfold passed in Hkey. apply elem_of_list_to_set, elem_of_list_filter in Hkey. tauto. }
    specialize (K3 key Hne). change (threads (compass_alone c)) with (gt_client <$> threads c) in Hd1.
    rewrite (done_all (unnoted_yet w)), (done_to_come results) in K3 by (try exact Hd1; by destruct w). cbn [app] in K3.
    change (panicked (gt_client <$> threads c)) with (panicked (threads (compass_alone c))) in K3. rewrite alone_panics in K3.
    unfold tracked in Hkey. apply elem_of_dom in Hkey as [p Hp]. unfold key_counter. rewrite Hp.
    assert (Hlt : (p < length (tb_heap (tb_of w (gs_client (shared c)))))%nat).
    { pose proof (tinv_run I maxE maxA w (ce_ms e0) (ce_tick e0) progs sched') as T. cbv zeta in T. rewrite <- Hr in T. cbn [compass_alone shared] in T. by eapply (t_heap _ _ _ _ _ _ T). }
    destruct (Hfin (KCounter w p) eq_refl) as (b & B1 & B2); [by apply X2|]. exists b. split; [done|]. rewrite B2. f_equal. cbn [tally].
    unfold noted in K3. rewrite Hp in K3. change (counters w (compass_of c)) with (tb_of w (compass_of c)) in K3. lia.
Qed.

(** C114 within the limits: nobody panics, and exactly the codes and addons that were passed
    have counters, each with the number of calls that carried it. *)
Theorem C114_counts_within sched : counter_setting I N -> (forall w, Z.of_nat (base.size (passed w (planned results progs))) <= limit maxE maxA w) ->
  exists c, run sched = Some c /\ fine_panics c = [] /\ (Forall returned_all (threads c) -> forall w,
    tracked w (compass_of c) = passed w (planned results progs) /\
    forall key, key ∈ passed w (planned results progs) -> exists b, key_counter c w key = Some b /\ bc_GetCount b = wrap64 (carrying w key (planned results progs))).
Proof.
  intros HS Hm. destruct (C114_counts sched HS) as (c & Hc & H). exists c. split; [done|]. destruct (C118_refines _ _ Hc) as [sched' Hr].
  destruct (C91_concurrent_keys_within I maxE maxA (ce_ms e0) (ce_tick e0) progs sched' Hm) as [P1 P2]. rewrite <- Hr in P1, P2. rewrite alone_panics in P1. split; [done|].
  intros Hd w. destruct (P2 (proj1 (alone_done c Hd)) w) as [P3 _]. cbn [compass_alone shared] in P3. split; [done|]. intros key Hk. destruct (H Hd) as (_ & _ & HK). destruct (HK w) as (_ & _ & HK').
  destruct (HK' key) as (b & B1 & B2); [by rewrite P3|]. exists b. split; [done|]. rewrite B2, P1. change (lost w []) with (@nil result). rewrite carrying_nil. f_equal. lia.
Qed.

(** C115: when all goroutines have returned, the three moving averages have received the
    same counts; these and the pending count add up to the number of updates; and each rate
    is the result of its ticks, one after the other. *)
Theorem C115_averages sched : let n := Z.of_nat (length (planned durations progs)) in n < 2 ^ 63 -> counter_setting I N ->
  exists c, run sched = Some c /\ (Forall returned_all (threads c) ->
  exists a1 a5 a15 counts1 counts5 counts15, average_at c KOne = Some a1 /\ average_at c KFive = Some a5 /\ average_at c KFifteen = Some a15 /\
    counts1 ≡ₚ counts5 /\ counts5 ≡ₚ counts15 /\
    ew_rate (es_ewma a1) = ew_rate (fold_left ew_TickN counts1 zeroEWMA) /\
    ew_rate (es_ewma a5) = ew_rate (fold_left ew_TickN counts5 zeroEWMA) /\
    ew_rate (es_ewma a15) = ew_rate (fold_left ew_TickN counts15 zeroEWMA) /\
    Forall (fun count => 0 <= count) counts1 /\ 0 <= mt_uncounted (cs_meter (compass_of c)) /\
    sumZ counts1 + mt_uncounted (cs_meter (compass_of c)) = n).
Proof.
  intros n Hn HS. destruct (cf_defined math_Exp rk I N maxE maxA e0 progs sched HS) as [c Hc]. exists c. split; [done|]. intros Hd.
  destruct (alone_done c Hd) as [Hd1 Hd2]. destruct (C118_refines _ _ Hc) as [sched' Hr].
  destruct (C36_concurrent I maxE maxA (ce_ms e0) (ce_tick e0) progs sched' Hn) as (M1 & M2 & M3 & M4 & M5 & _). rewrite <- Hr in M1, M2, M3, M4, M5.
  rewrite (done_all taken), (done_all uncounted_yet), (done_to_come durations) in M1 by done. rewrite (done_all not_yet5), app_nil_r in M4 by done. rewrite (done_all not_yet15), app_nil_r in M5 by done.
  cbn [compass_alone shared] in M1, M2, M3, M4, M5.
  destruct (exists_run _ _ _ _ _ _ _ _ _ _ Hc) as [X1 _].
  assert (Hfin : forall k, k ∈ [KOne; KFive; KFifteen] -> exists s, average_at c k = Some s /\ es_ticked s ≡ₚ logs rk (compass_of c) k /\ ew_rate (es_ewma s) = ew_rate (fold_left ew_TickN (es_ticked s) zeroEWMA)).
  { intros k Hk. destruct (X1 k) as [o Ho]; [set_solver|]. destruct (average_final _ _ _ _ _ _ _ _ _ _ Hc k o Hk Hd2 Ho) as (s & -> & H1 & H2). exists s. split; [unfold average_at; by rewrite Ho|done]. }
  destruct (Hfin KOne) as (a1 & A1 & B1 & C1); [set_solver|]. destruct (Hfin KFive) as (a5 & A5 & B5 & C5); [set_solver|]. destruct (Hfin KFifteen) as (a15 & A15 & B15 & C15); [set_solver|].
  cbn [logs] in B1, B5, B15. exists a1, a5, a15, (es_ticked a1), (es_ticked a5), (es_ticked a15). split; [done|]. split; [done|]. split; [done|].
  split; [by rewrite B1, B5|]. split; [by rewrite B5, B15|]. split; [exact C1|]. split; [exact C5|]. split; [exact C15|]. split; [by rewrite B1|]. split; [done|].
  rewrite (sumZ_perm _ _ B1). change (sumZ []) with 0 in M1. cbn [length] in M1. fold n in M1. lia.
Qed.

(** C116: the reservoir.  At every moment: nobody panics in it, it holds between 0 and
    [size] values, all of them durations of updates, and it holds what the critical sections
    carried out so far lead to when carried out one after the other; when all goroutines
    have returned, each duration has been offered exactly once. *)
Theorem C116_reservoir sched size alpha : rk = RDecaying size alpha -> counter_setting I N -> decaying_setting math_Exp size alpha e0 progs sched ->
  exists c r, run sched = Some c /\ reservoir_at c KReservoir = Some r /\
  (forall i t, threads c !! i = Some t -> dx_pc (ci_dx (inside_of cin_idle KReservoir t)) <> XPanic) /\
  0 <= ed_Size (ds_rsv r) <= size /\
  holds_after size alpha (ce_ms e0) (ce_tick e0) (ds_log r) (ds_rsv r) /\
  offers (ds_log r) ⊆+ planned durations progs /\
  (Forall returned_all (threads c) -> offers (ds_log r) ≡ₚ planned durations progs).
Proof.
  intros Hrk HS HR. destruct (cf_defined math_Exp rk I N maxE maxA e0 progs sched HS) as [c Hc]. destruct (C118_refines _ _ Hc) as [sched' Hr].
  destruct (C90_concurrent_counts I maxE maxA (ce_ms e0) (ce_tick e0) progs sched') as (_ & _ & D & _). rewrite <- Hr in D. cbn [compass_alone shared threads] in D.
  destruct (exists_run _ _ _ _ _ _ _ _ _ _ Hc) as [X1 _]. destruct (X1 KReservoir) as [o Ho]; [rewrite Hrk; set_solver|].
  destruct (reservoir_run _ _ _ _ _ _ _ _ _ _ _ _ _ Hrk Hc Ho) as (r & tr & -> & Htr & Hrun).
  assert (HL : (length (cs_durations (compass_of c)) <= length (planned durations progs))%nat) by (rewrite <- D, app_length; lia).
  pose proof (reservoir_conc_ok _ _ _ _ _ _ _ _ _ _ Hc tr _ _ Hrk HR Htr HL) as Hok.
  destruct (C98_decaying_atomic math_Exp size alpha (ce_ms e0) (ce_tick e0) _ tr Hok) as (A1 & A2 & _ & A4 & A5 & _). rewrite Hrun in A1, A2, A4, A5. cbn [shared threads] in A1, A2, A4, A5.
  rewrite (reservoir_received _ _ _ _ _ _ _ _ _ _ Hc) in A4. rewrite (md_logs _ _ (made_run _ _ _ _ _ _ _ _ _ _ Hc) KReservoir eq_refl) in A4. unfold logs in A4. rewrite Hrk in A4.
  exists c, r. split; [done|]. split; [unfold reservoir_at; by rewrite Ho|]. split; [|split; [done|split; [exact A5|split]]].
  - intros i t Hi. apply (A1 i). by rewrite list_lookup_fmap, Hi.
  - etransitivity; [apply submseteq_inserts_r; reflexivity|]. rewrite A4. etransitivity; [apply submseteq_inserts_r; reflexivity|]. unfold compass_of in D. rewrite D. done.
  - intros Hd. destruct (alone_done c Hd) as [Hd1 Hd2]. change (threads (compass_alone c)) with (gt_client <$> threads c) in Hd1.
    rewrite (done_all unsampled_yet), (done_to_come durations), app_nil_r in D by done. rewrite <- D. unfold compass_of. rewrite <- A4.
    assert (Ej : mjoin (to_record <$> ((λ t, ci_dx (at_in KReservoir t)) <$> threads c)) = []); [|by rewrite Ej, app_nil_r].
    pose proof (all_outside _ _ _ _ _ _ _ _ _ _ Hc KReservoir Hd2) as Hall. clear -Hall. induction Hall as [|t ts Ht _ IH]; [done|]. cbn [fmap list_fmap mjoin list_join]. cbv beta in Ht. rewrite Ht. exact IH.
Qed.

(** C142: a uniform reservoir.  At every moment: nobody panics in it, and whenever nobody is
    inside it, it is the reservoir that some of the durations, recorded one after the other
    with random positions in range, lead to, each at most once; when all goroutines have
    returned, all of them, each exactly once. *)
Theorem C142_uniform sched cap : rk = RUniform cap -> counter_setting I N -> uniform_setting cap e0 progs sched ->
  exists c r, run sched = Some c /\ uniform_at c KUniform = Some r /\
  (forall i t, threads c !! i = Some t -> rx_pc (ci_rx (inside_of cin_idle KUniform t)) <> RPanic) /\
  ((forall i t, threads c !! i = Some t -> gt_in t <> Some KUniform) ->
   exists ups, picks_in_range ups /\ ups.*1 ⊆+ planned durations progs /\ ur_exec cap ups = Ok (rs_rsv r) /\
     ur_Size (rs_rsv r) = Z.min (Z.of_nat (length ups)) cap) /\
  (Forall returned_all (threads c) ->
   exists ups, picks_in_range ups /\ ups.*1 ≡ₚ planned durations progs /\ ur_exec cap ups = Ok (rs_rsv r) /\
     ur_Size (rs_rsv r) = Z.min (Z.of_nat (length (planned durations progs))) cap).
Proof.
  intros Hrk HS HR. destruct (cf_defined math_Exp rk I N maxE maxA e0 progs sched HS) as [c Hc]. destruct (C118_refines _ _ Hc) as [sched' Hr].
  destruct (C90_concurrent_counts I maxE maxA (ce_ms e0) (ce_tick e0) progs sched') as (_ & _ & D & _). rewrite <- Hr in D. cbn [compass_alone shared threads] in D.
  destruct (exists_run _ _ _ _ _ _ _ _ _ _ Hc) as [X1 _]. destruct (X1 KUniform) as [o Ho]; [rewrite Hrk; set_solver|].
  destruct (uniform_run _ _ _ _ _ _ _ _ _ _ _ _ Hrk Hc Ho) as (tr & Eo & Eth). set (c' := rx_run _ _ tr) in *.
  assert (HL : (length (cs_durations (compass_of c)) <= length (planned durations progs))%nat) by (rewrite <- D, app_length; lia).
  pose proof (uniform_rx_ok _ _ _ _ _ _ _ _ _ _ Hc cap Hrk HR HL) as Hok.
  pose proof (rxinv_run _ _ Hok tr) as RI. fold c' in RI.
  assert (Hth : forall i t, threads c' !! i = Some t -> exists g, threads c !! i = Some g /\ ci_rx (at_in KUniform g) = bare t).
  { intros i t Hi. apply (f_equal (fun l => l !! i)) in Eth. rewrite !list_lookup_fmap, Hi in Eth. destruct (threads c !! i) as [g|]; [|done]. exists g. split; [done|]. by injection Eth as Eth. }
  assert (Hrec : received KUniform (threads c) ≡ₚ cs_durations (compass_of c)).
  { rewrite (md_logs _ _ (made_run _ _ _ _ _ _ _ _ _ _ Hc) KUniform eq_refl). unfold logs. by rewrite Hrk. }
  rewrite <- (uniform_received _ _ _ _ _ _ _ _ _ _ Hc) in Hrec.
  assert (Hperm : recorded_by (log_calls (rs_log (shared c'))) ++ recorded_by (mjoin (pending <$> threads c')) ≡ₚ cs_durations (compass_of c)).
  { rewrite <- Hrec, <- recorded_app. unfold recorded_by. by rewrite (r_p _ _ _ _ RI). }
  assert (Hout : (forall i t, threads c !! i = Some t -> gt_in t <> Some KUniform) ->
    (forall i t, threads c' !! i = Some t -> rx_updating t = false) /\ mjoin (pending <$> threads c') = []).
  { intros Hn. assert (Hb : forall i t, threads c' !! i = Some t -> bare t = RxThread 0 [] RIdle []).
    { intros i t Hi. destruct (Hth i t Hi) as (g & Hg & <-). by rewrite (at_in_away _ _ _ _ _ _ _ _ _ _ Hc i g KUniform Hg (Hn i g Hg)). }
    split; [intros i t Hi; specialize (Hb i t Hi); destruct t; by injection Hb as -> ->|].
    clear -Hb. induction (threads c') as [|t ts IH]; [done|]. change (pending t ++ mjoin (pending <$> ts) = []). rewrite IH by (intros i u Hi; by apply (Hb (S i) u)).
    specialize (Hb 0%nat t eq_refl). destruct t; by injection Hb as -> ->. }
  exists c, (bare_shared (shared c')). split; [done|]. split; [unfold uniform_at; by rewrite Ho, Eo|]. split; [|split].
  - intros i t Hi. apply (f_equal (fun l => l !! i)) in Eth. rewrite !list_lookup_fmap, Hi in Eth. destruct (threads c' !! i) as [u|] eqn:Eu; [|done]. injection Eth as Eth. unfold at_in in Eth. rewrite <- Eth.
    pose proof (r_u _ _ _ _ RI) as (x & _ & _ & _ & _ & U5). specialize (U5 i u Eu). cbn [bare rx_pc]. intros Hp. by rewrite Hp in U5.
  - intros Hn. destruct (Hout Hn) as [O1 O2]. destruct (C101_history _ _ _ Hok O1) as (ups & P1 & P2 & P3 & P4). exists ups. split; [exact P1|]. split; [|by split].
    rewrite P2. fold c'. rewrite O2, app_nil_r in Hperm. rewrite Hperm. unfold compass_of in D |- *. rewrite <- D. by apply submseteq_inserts_r.
  - intros Hd. destruct (alone_done c Hd) as [Hd1 Hd2]. change (threads (compass_alone c)) with (gt_client <$> threads c) in Hd1.
    rewrite (done_all unsampled_yet), (done_to_come durations), app_nil_r in D by done. 
    destruct Hout as [O1 O2]. { intros i t Hi. rewrite (proj1 (Forall_lookup _ _) Hd2 i t Hi). done. }
    destruct (C101_history _ _ _ Hok O1) as (ups & P1 & P2 & P3 & P4). fold c' in P2, P3, P4. exists ups. rewrite O2, app_nil_r in Hperm.
    assert (Hp : ups.*1 ≡ₚ planned durations progs) by (rewrite P2, Hperm; exact D).
    split; [exact P1|]. split; [exact Hp|]. split; [exact P3|]. cbn [bare_shared rs_rsv]. rewrite P4. by rewrite <- (Permutation_length Hp), fmap_length.
Qed.

(** C120: the bucket reservoir (its Size is GetCount of the total counter, C114): when all
    goroutines have returned, its counter of values has counted all durations; and if the
    clock has shown only times of the interval [k], a snapshot taken in that interval or the
    next one has the number of updates as its count and the sum of their durations as its
    value. *)
Theorem C120_bucket sched : rk = RBucket -> counter_setting I N ->
  exists c, run sched = Some c /\ (Forall returned_all (threads c) ->
  exists values total, counter_at c KValues = Some values /\ counter_at c KTotal = Some total /\
    bc_GetCount values = wrap64 (sumZ (planned durations progs)) /\
    forall k, 1 <= N -> within_interval I k e0 sched ->
    forall now1 now2 now3, 1000 <= now1 <= now2 -> now1 <= now3 -> in64 now2 -> in64 now3 ->
    bucket_key (interval_seconds I) now1 = k \/ bucket_key (interval_seconds I) now1 = k + 1000 * interval_seconds I ->
    snapshot_total I progs values total now1 now2 now3).
Proof.
  intros Hrk HS. destruct (cf_defined math_Exp rk I N maxE maxA e0 progs sched HS) as [c Hc]. exists c. split; [done|]. intros Hd.
  destruct (alone_done c Hd) as [Hd1 Hd2]. destruct (C118_refines _ _ Hc) as [sched' Hr].
  destruct (C90_concurrent_counts_final I maxE maxA (ce_ms e0) (ce_tick e0) progs sched') as (T1 & _ & D); [by rewrite <- Hr|]. rewrite <- Hr in T1, D. cbn [compass_alone shared] in T1, D.
  destruct (exists_run _ _ _ _ _ _ _ _ _ _ Hc) as [X1 _]. destruct (X1 KValues) as [o Ho]; [rewrite Hrk; set_solver|]. destruct (X1 KTotal) as [o' Ho']; [set_solver|].
  assert (Hrecv : received KValues (threads c) ≡ₚ planned durations progs).
  { rewrite (md_logs _ _ (made_run _ _ _ _ _ _ _ _ _ _ Hc) KValues eq_refl). unfold logs. rewrite Hrk. exact D. }
  assert (Hrect : received KTotal (threads c) = replicate (length (planned durations progs)) 1).
  { rewrite (counter_ones _ _ _ _ _ _ _ _ _ _ Hc KTotal eq_refl). f_equal. apply Nat2Z.inj. rewrite (counter_length _ _ _ _ _ _ _ _ _ _ Hc KTotal eq_refl). exact T1. }
  destruct (counter_final _ _ _ _ _ _ _ _ _ _ Hc KValues o eq_refl HS Hd2 Ho) as (v & -> & Hv). destruct (counter_final _ _ _ _ _ _ _ _ _ _ Hc KTotal o' eq_refl HS Hd2 Ho') as (tt & -> & Ht).
  exists (bs_bc v), (bs_bc tt). split; [unfold counter_at; by rewrite Ho|]. split; [unfold counter_at; by rewrite Ho'|]. split; [by rewrite Hv, (sumZ_perm _ _ Hrecv)|].
  intros k HN HW now1 now2 now3 Hn12 Hn13 H2 H3 Hk. destruct HS as (S1 & S2 & S3). pose proof (interval_seconds_pos _ S1 S2) as HI.
  destruct (counter_one_interval _ _ _ _ _ _ _ _ _ _ Hc KValues _ k eq_refl (conj S1 (conj S2 S3)) Hd2 Ho HW) as (v' & Ev & Bv). injection Ev as <-.
  destruct (counter_one_interval _ _ _ _ _ _ _ _ _ _ Hc KTotal _ k eq_refl (conj S1 (conj S2 S3)) Hd2 Ho' HW) as (t' & Et & Bt). injection Et as <-.
  set (i := interval_seconds I) in *. set (cur := bucket_key i now1) in *.
  assert (Ea : br_alignToBucketStartTimeInMs (BucketReservoir (bs_bc v) I) now1 = Ok (Z.max 0 (cur - 1000 * i))).
  { unfold cur, i. rewrite interval_seconds_div by done. apply (br_align (BucketReservoir (bs_bc v) I) now1 S1 S2); [lia|]. unfold in64, two63 in *. lia. }
  set (start := Z.max 0 (cur - 1000 * i)) in *.
  destruct (Bv now2 start H2) as (mv & Mv & Kv); [unfold start; lia|]. destruct (Bt now3 start H3) as (mt & Mt & Kt); [unfold start; lia|].
  assert (Hk0 : 0 <= k). { unfold within_interval in HW. apply Forall_cons in HW as [(W1 & W2 & <-) _]. unfold bucket_key. apply Z.mul_nonneg_nonneg; [lia|]. apply Z.div_pos; lia. }
  assert (Hkn : forall now, now1 <= now -> start <= k <= trunc_key i now).
  { intros now Hn. assert (cur <= trunc_key i now). { unfold cur, bucket_key, trunc_key. rewrite Z.quot_div_nonneg by lia. apply Z.mul_le_mono_nonneg_l; [lia|]. apply Z.div_le_mono; lia. } unfold start. lia. }
  assert (Hrs : forall l k', recent_sum (Z.to_nat N) (pair k <$> l) k' = if decide (k' = k /\ l <> []) then Some (wrap64 (sumZ l)) else None).
  { intros l k'. unfold recent_sum. assert (Hf : (pair k <$> l).*1 = replicate (length l) k).
    { rewrite <- list_fmap_compose. clear. induction l as [|x l IH]; [done|]. cbn. f_equal. exact IH. }
    rewrite Hf. destruct (decide (k' = k /\ l <> [])) as [[-> Hl]|Hno].
    - rewrite decide_True.
      + f_equal. f_equal. unfold sum_at. clear. induction l as [|x l IH]; [done|]. rewrite fmap_cons, filter_cons. cbn [fst]. rewrite decide_True by done. rewrite fmap_cons. cbn [snd]. rewrite !sumZ_cons, IH. done.
      + split; [destruct l; [done|left]|]. assert (newer_keys k (pair k <$> l) = 0%nat) as ->; [|lia]. unfold newer_keys. rewrite Hf. apply size_empty_iff. apply elem_of_equiv_empty. intros x.
        rewrite elem_of_list_to_set, elem_of_list_filter. intros [Hx1 Hx2]. apply elem_of_replicate in Hx2 as [-> _]. lia.
    - rewrite decide_False; [done|]. intros [Hin _]. apply elem_of_replicate in Hin as [-> Hl]. apply Hno. split; [done|]. by intros ->. }
  assert (Hm : forall m l now, now1 <= now -> (forall k', m !! k' = if decide (start <= k' /\ k' <= trunc_key i now) then recent_sum (Z.to_nat N) (pair k <$> l) k' else None) ->
    forall x, fetchValueFromMap m x <-> x = wrap64 (sumZ l)).
  { intros m l now Hnow Hmk x. assert (Hm1 : forall k', m !! k' = if decide (k' = k /\ l <> []) then Some (wrap64 (sumZ l)) else None).
    { intros k'. rewrite Hmk. destruct (decide (start <= k' /\ k' <= trunc_key i now)) as [Hb|Hb]; [apply Hrs|]. rewrite decide_False; [done|]. intros [-> _]. specialize (Hkn now Hnow). lia. }
    unfold fetchValueFromMap. destruct l as [|y l].
    - split; [|intros ->; left; split; [|done]].
      + intros [[_ ->]|[k' Hk']]; [done|]. rewrite Hm1, decide_False in Hk' by (by intros [_ ?]). done.
      + apply map_eq. intros k'. rewrite Hm1, decide_False, lookup_empty by (by intros [_ ?]). done.
    - split.
      + intros [[-> _]|[k' Hk']]; [specialize (Hm1 k); rewrite decide_True, lookup_empty in Hm1 by done; done|]. rewrite Hm1 in Hk'. destruct (decide _); [by injection Hk'|done].
      + intros ->. right. exists k. by rewrite Hm1, decide_True by done. }
  specialize (Hm mv (received KValues (threads c)) now2 ltac:(lia) Kv) as Fv. specialize (Hm mt (received KTotal (threads c)) now3 Hn13 Kt) as Ft.
  assert (En : wrap64 (sumZ (received KTotal (threads c))) = wrap64 (Z.of_nat (length (planned durations progs)))).
  { rewrite Hrect. f_equal. generalize (length (planned durations progs)). clear. intros n. induction n as [|n IH]; [done|]. cbn [replicate]. rewrite sumZ_cons, IH. lia. }
  split.
  - exists (NewBucketSnapshot (wrap64 (sumZ (received KTotal (threads c)))) (wrap64 (sumZ (received KValues (threads c))))). unfold br_GetSnapshot. cbn [br_valuePerBucket].
    exists start, mv, (wrap64 (sumZ (received KValues (threads c)))), mt, (wrap64 (sumZ (received KTotal (threads c)))). split; [exact Ea|]. split; [exact Mv|]. split; [by apply Fv|]. split; [exact Mt|]. split; [by apply Ft|done].
  - intros s (st & vr & x & cnt & y & A1 & A2 & A3 & A4 & A5 & ->). cbn [br_valuePerBucket] in A2. rewrite Ea in A1. injection A1 as <-. rewrite Mv in A2. injection A2 as <-. rewrite Mt in A4. injection A4 as <-.
    apply Fv in A3. apply Ft in A5. subst x y. cbn [NewBucketSnapshot bs_value bs_count]. rewrite En. by rewrite (sumZ_perm _ _ Hrecv).
Qed.

(** C117: unless the process was aborted, somebody with an unfinished call can go on. *)
Theorem C117_no_deadlock sched : counter_setting I N -> reservoir_setting math_Exp rk e0 progs sched ->
  exists c, run sched = Some c /\ (cs_crashed (compass_of c) = false -> ~ Forall returned_all (threads c) ->
  exists i t, threads c !! i = Some t /\
    gstep (cp_tstep I maxE maxA) cs_crashed (cf_effect rk I N) (cobj_step math_Exp) cin_idle cin_push cin_returned (shared c) t <> None).
Proof.
  intros HS HR. destruct (cf_defined math_Exp rk I N maxE maxA e0 progs sched HS) as [c Hc]. exists c. split; [done|]. intros Hcr Hnot. destruct (C118_refines _ _ Hc) as [sched' Hr].
  destruct (C90_concurrent_counts I maxE maxA (ce_ms e0) (ce_tick e0) progs sched') as (_ & _ & D & _). rewrite <- Hr in D. cbn [compass_alone shared threads] in D.
  assert (HL : (length (cs_durations (compass_of c)) <= length (planned durations progs))%nat) by (rewrite <- D, app_length; lia).
  destruct (fine_progress _ _ _ _ _ _ _ _ _ _ Hc HS HR HL Hcr Hnot) as (i & t & s' & t' & Hi & Hs). exists i, t. split; [done|]. by rewrite Hs.
Qed.

(** C119: if the clock shows only times of one interval, then, when all goroutines have
    returned, each counter reports for that interval exactly the updates it has received
    (ones, the durations for the bucket reservoir's counter of values), and nothing else. *)
Theorem C119_bucket_counts_partial sched k : counter_setting I N -> within_interval I k e0 sched ->
  exists c, run sched = Some c /\ (Forall returned_all (threads c) -> forall key b, counter_at c key = Some b ->
    exists counted, (key <> KValues -> Forall (fun n => n = 1) counted) /\ (key = KValues -> counted ≡ₚ planned durations progs) /\
      bc_GetCount b = wrap64 (sumZ counted) /\
    forall now start, in64 now -> -1000 < start -> exists m, bc_GetBucketCountsSince b now start = Ok m /\
      forall k', m !! k' = if decide (start <= k' /\ k' <= trunc_key (interval_seconds I) now)
        then recent_sum (Z.to_nat N) (pair k <$> counted) k' else None).
Proof.
  intros HS HW. destruct (cf_defined math_Exp rk I N maxE maxA e0 progs sched HS) as [c Hc]. exists c. split; [done|]. intros Hd key b Hb. destruct (alone_done c Hd) as [_ Hd2].
  unfold counter_at in Hb. destruct (gs_objs (shared c) !! key) as [o|] eqn:Ho; [|done].
  assert (Hk : is_counter key = true).
  { destruct (is_counter key) eqn:Ek; [done|]. exfalso. destruct (decide (key = KReservoir \/ key = KUniform)) as [Hor|Hne].
    - destruct o as [s|s|s|s]; try discriminate Hb. by apply (not_counter _ _ Hc key s Hor Ho).
    - assert (Hka : key ∈ [KOne; KFive; KFifteen]) by (destruct key; try discriminate Ek; try (by exfalso; tauto); set_solver).
      destruct (average_run _ _ _ _ _ _ _ _ _ _ _ _ Hc Hka Ho) as (x & tr & -> & _). discriminate Hb. }
  destruct (counter_final _ _ _ _ _ _ _ _ _ _ Hc key o Hk HS Hd2 Ho) as (s & -> & Hs). injection Hb as <-.
  destruct (counter_one_interval _ _ _ _ _ _ _ _ _ _ Hc key _ k Hk HS Hd2 Ho HW) as (s' & Es & Hb). injection Es as <-.
  exists (received key (threads c)). split; [|split; [|split; [exact Hs|exact Hb]]].
  - intros Hv. assert (Ht : is_tally key = true) by (by destruct key). rewrite (counter_ones _ _ _ _ _ _ _ _ _ _ Hc key Ht). by apply Forall_replicate.
  - intros ->. destruct (alone_done c Hd) as [Hd1 _]. destruct (C118_refines _ _ Hc) as [sched' Hr].
    destruct (C90_concurrent_counts_final I maxE maxA (ce_ms e0) (ce_tick e0) progs sched') as (_ & _ & D); [by rewrite <- Hr|]. rewrite <- Hr in D. cbn [compass_alone shared] in D.
    rewrite (md_logs _ _ (made_run _ _ _ _ _ _ _ _ _ _ Hc) KValues eq_refl). etransitivity; [|exact D]. unfold logs. enough (Hrk : rk = RBucket) by (by rewrite Hrk).
    destruct (decide (reservoir_key rk = KValues)) as [Hv|Hv]; [by destruct rk|].
    (* another reservoir: no such counter *)
    exfalso. destruct (cf_started _ _ _ _ _ _ _ _ _ _ Hc) as [objs0 H0]. pose proof (cf_seen _ _ _ _ _ _ _ _ _ _ _ H0 Hc) as Sn.
    destruct (sn_some _ _ _ _ _ _ _ _ _ Sn KValues _ Ho) as (o0 & tr & Hor & _). revert Hor. clear -H0 Hv. intros [[Hl _]|(s1 & t1 & e & before & He & _)].
    + unfold cf_objs0 in H0. destruct (new_counter _ _ _) as [x|]; [|done]. injection H0 as <-. cbn [list_to_map foldr fst snd] in Hl. rewrite !lookup_insert_ne in Hl by done. by rewrite lookup_empty in Hl.
    + unfold cf_effect in He. destruct (kt_pc t1) as [|k0|old k0|old new k0|n k0|n count k0|n count k0|n count k0|n count k0|d r0|d r0|d r0|r0|w r0|w r0|w r0|w r0|w r0|w p r0|w [p|] r0|w n]; try done.
      * by destruct (rs_success r0).
      * destruct (new_counter _ _ _); [|done]. by injection He as He _.
Qed.
End compass.

(** A concrete case: two goroutines that interleave step by step, with time passing. *)
Definition fine_progs : list (list kcall) :=
  [[KUpdate 7 (Some (MkResult true "a" "x")); KUpdate 8 (Some (MkResult false "b" "x")); KRate]; [KUpdate 9 None; KUpdate 10 (Some (MkResult true "a" ""))]].
Definition fine_e0 : cenv := CEnv 0 1000 half [6].
Definition both (n : nat) : list (event cenv) := mjoin (replicate n [Run 0%nat; Run 1%nat]).
Definition fine_sched : list (event cenv) := both 60 ++ Env (CEnv 6000000000 1500 half [9223372036854775807; 4]) :: both 300.
Definition fine_doneb (c : fine) : bool :=
  forallb (fun t => match kt_todo (gt_client t), kt_pc (gt_client t), gt_in t with [], PIdle, None => true | _, _, _ => false end) (threads c).
Lemma fine_doneb_ok c : fine_doneb c = true -> Forall returned_all (threads c).
Proof.
  unfold fine_doneb. rewrite forallb_forall. intros H. apply Forall_forall. intros t Ht. specialize (H t (proj1 (elem_of_list_In _ _) Ht)). cbv beta in H.
  unfold returned_all. destruct (kt_todo (gt_client t)), (kt_pc (gt_client t)), (gt_in t); try discriminate H; done.
Qed.
Definition fine_case : option fine := cf_run toy_exp (RDecaying 2 half) (5 * Second) 10 2 2 fine_e0 fine_progs fine_sched.
(** Total 4, success 2, a 2, b 1, x 2; the averages got one tick of what was pending then;
    the reservoir holds two of the four values. *)
Example fine_result :
  match fine_case with
  | Some c => (fine_doneb c, bc_GetCount <$> counter_at c KTotal, bc_GetCount <$> counter_at c KSuccess,
      bc_GetCount <$> key_counter c Codes "a", bc_GetCount <$> key_counter c Codes "b", bc_GetCount <$> key_counter c Addons "x",
      es_ticked <$> average_at c KOne, mt_uncounted (cs_meter (compass_of c)), (fun r => ed_Size (ds_rsv r)) <$> reservoir_at c KReservoir)
  | None => (false, None, None, None, None, None, None, 0, None)
  end = (true, Some 4, Some 2, Some 2, Some 1, Some 2, Some [3], 1, Some 2).
Proof. vm_compute. reflexivity. Qed.
(** With a bucket reservoir: the values 7, 8, 9, 10, and a snapshot in the same interval. *)
Definition bucket_case : option fine := cf_run toy_exp RBucket (5 * Second) 10 2 2 fine_e0 fine_progs fine_sched.
Example bucket_result :
  match bucket_case with
  | Some c => (fine_doneb c, bc_GetCount <$> counter_at c KTotal, bc_GetCount <$> counter_at c KValues)
  | None => (false, None, None)
  end = (true, Some 4, Some 34).
Proof. vm_compute. reflexivity. Qed.
(** With a uniform reservoir of two: what it holds at the end. *)
Definition uniform_case : option fine := cf_run toy_exp (RUniform 2) (5 * Second) 10 2 2 fine_e0 fine_progs fine_sched.
Example uniform_result :
  match uniform_case with
  | Some c => (fine_doneb c, bc_GetCount <$> counter_at c KTotal, (fun r => (ur_values (rs_rsv r), log_calls (rs_log r))) <$> uniform_at c KUniform)
  | None => (false, None, None)
  end = (true, Some 4, Some ([10; 7], [RUpdate 9 [6]; RUpdate 7 [6]; RUpdate 10 [6]; RUpdate 8 [9223372036854775807; 4]])).
Proof. vm_compute. reflexivity. Qed.
Example uniform_case_setting : uniform_setting 2 fine_e0 fine_progs fine_sched.
Proof.
  split; [lia|]. split; [|cbn; lia]. intros e He. assert (Hs : e ∈ [fine_e0; CEnv 6000000000 1500 half [9223372036854775807; 4]]).
  { destruct He as [->|He]; [left|right]. assert (Hs : e ∈ shown fine_sched) by (apply elem_of_list_omap; exists (Env e); done). exact Hs. }
  clear He. apply elem_of_cons in Hs as [->|Hs]; [|apply elem_of_list_singleton in Hs as ->].
  - split; [repeat constructor; lia|]. exists 6. split; [left|lia].
  - split; [repeat constructor; lia|]. exists 4. split; [right; left|lia].
Qed.
Example fine_setting : counter_setting (5 * Second) 10 /\ reservoir_setting toy_exp (RDecaying 2 half) fine_e0 fine_progs fine_sched /\
  (forall w, Z.of_nat (base.size (passed w (planned results fine_progs))) <= limit 2 2 w) /\ within_interval (5 * Second) 0 fine_e0 fine_sched.
Proof.
  split; [split; [vm_compute; discriminate|split; [split; vm_compute; congruence|lia]]|].
  split; [|split].
  - split; [apply toy_exp_ok|]. split; [lia|]. split; [apply decaying_case_setting|]. split; [cbn; lia|].
    change (ms_of fine_sched) with [1500]. split; [cbn; lia|]. split; [|cbn; lia].
    assert (He : forall e, shows fine_e0 fine_sched e -> ce_random e = half).
    { intros e [->|He]; [reflexivity|]. assert (Hs : e ∈ shown fine_sched) by (apply elem_of_list_omap; exists (Env e); done).
      change (shown fine_sched) with [CEnv 6000000000 1500 half [9223372036854775807; 4]] in Hs. apply elem_of_list_singleton in Hs. by rewrite Hs. }
    intros e Hs. rewrite (He e Hs). exact half_facts.
  - intros []; vm_compute; discriminate.
  - change (Forall (fun ms => in64 ms /\ 0 <= ms /\ bucket_key (interval_seconds (5 * Second)) ms = 0) [1000; 1500]).
    repeat (apply Forall_cons; split); [| |done]; (split; [unfold in64, two63; lia|split; [lia|vm_compute; reflexivity]]).
Qed.

(** C119 without that condition is false: the first updates of seconds 1 and 2 enter their
    buckets at the same time; one of the two is lost, although ten intervals are kept. *)
Definition lost_env (ms : Z) : cenv := CEnv 1000 ms half [].
Definition lost_sched : list (event cenv) :=
  replicate 5 (Run 0%nat) ++ replicate 5 (Run 1%nat) ++ [Env (lost_env 1000)] ++ replicate 5 (Run 0%nat) ++
  [Env (lost_env 2000)] ++ replicate 5 (Run 1%nat) ++ [Run 0; Run 1; Run 0; Run 1; Run 0; Run 1; Run 1; Run 0; Run 0; Run 1]%nat ++
  replicate 40 (Run 0%nat) ++ replicate 40 (Run 1%nat).
Definition lost_case : option fine := cf_run toy_exp RBucket Second 10 2 2 (CEnv 0 0 half []) [[KUpdate 7 None]; [KUpdate 5 None]] lost_sched.
Lemma lost_result :
  match lost_case with
  | Some c => (fine_doneb c, option_map bc_GetCount (counter_at c KTotal),
      option_map (fun b => match bc_GetBucketCounts b 2000 with Ok m => map_to_list m | Panic => [] end) (counter_at c KTotal))
  | None => (false, None, None)
  end = (true, Some 2, Some [(1000, 1)]).
Proof. vm_compute. reflexivity. Qed.
Theorem C119_bucket_counts_refuted : exists c b m,
  lost_case = Some c /\ Forall returned_all (threads c) /\ counter_at c KTotal = Some b /\
  bc_GetCount b = 2 /\ bc_GetBucketCounts b 2000 = Ok m /\ map_to_list m = [(1000, 1)].
Proof.
  pose proof lost_result as E. destruct lost_case as [c|]; [|discriminate E]. exists c.
  destruct (counter_at c KTotal) as [b|]; [|discriminate E]. exists b. cbn [option_map] in E.
  destruct (bc_GetBucketCounts b 2000) as [m|] eqn:Em; [|discriminate E]. exists m. injection E as E1 E2 E3.
  split; [done|]. split; [by apply fine_doneb_ok|]. split; [done|]. split; [exact E2|]. by split.
Qed.
Print Assumptions C119_bucket_counts_refuted.

Print Assumptions C118_refines.
Print Assumptions C118_counters.
Print Assumptions C118_averages.
Print Assumptions C118_reservoir.
Print Assumptions C118_no_abort.
Print Assumptions C114_counts.
Print Assumptions C114_counts_within.
Print Assumptions C115_averages.
Print Assumptions C116_reservoir.
Print Assumptions C120_bucket.
Print Assumptions C118_uniform.
Print Assumptions C142_uniform.
Print Assumptions C117_no_deadlock.
Print Assumptions C119_bucket_counts_partial.
