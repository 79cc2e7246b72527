(** C121-C127: the whole library in use.  [sy_run math_Exp maxs e0 plans sched]: fresh
    registries with the limits [maxs] and a fresh manager, used by any number of goroutines
    that look metrics up and call methods of them, one step per access of a shared variable,
    under any schedule [sched], which also says what the environment (clock and random
    number) shows; at first it shows [e0] (Model/SystemConc.v). *)
From Verif.Go Require Import GoInt GoFloat GoConc GoCompose.
From Verif.Model Require Import Config Registry RegistryConc BucketCounter FastCompass FastCompassConc FastCompassFine Compass CompassTypes CompassConc CompassFine CompassRead SystemConc.
From Verif.Spec Require Import ConfigSpec BucketSpec FastCompassSpec FastCompassConcSpec FastCompassFineSpec CompassConcSpec CompassFineSpec CompassReadSpec RegistrySpec RegistryConcSpec SystemSpec.
From Verif.Proofs Require Import ComposeProofs CompassFineParts RegistryConcProofs RegistryConcMore RegistryKinds FastCompassFineMain CompassReadProofs CompassReadProgress SystemProofs SystemMain SystemUse SystemProgress.
From Verif.Props Require Import PDecaying PFastCompassFine PCompassFine.
Local Open Scope Z_scope.

(** C121, for the registries alone: if not more different names are looked up in a registry
    (or group, of a manager nobody disables) than its limit, and everyone who looks a name
    up asks for the same kind of metric, then every lookup gives a recording metric of that
    kind: the one GetMetrics lists. *)
Theorem C121_below_limit maxs progs sched pl max k nm x : let c := r_crun maxs progs sched in
  registries_exist maxs progs -> stays_enabled pl progs -> limit_at pl maxs = Some max -> Z.of_nat (size (keys_at pl progs)) <= max < 2 ^ 31 ->
  (forall k' nm', lookup_at pl k' nm' ∈ mjoin progs -> nm_hash nm' = nm_hash nm -> k' = k) ->
  completed c (lookup_at pl k nm) x ->
  exists r m, behind pl (shared c) r /\ listed c r (nm_hash nm) m /\ x = Some (Ok m) /\ RegistrySpec.records m = true /\ implements k m = true.
Proof.
  intros c HR HE Hmax [H1 H2] Hk Hc. destruct (below_limit maxs progs pl max HR Hmax H1 H2 sched k nm x HE Hk Hc) as (r & e & Hb & He & Hx & Hrec & Himp). fold c in Hb, He.
  exists r, (e_metric e). split; [done|]. split; [|done]. unfold entry_at in He. destruct (rs_regs (shared c) !! r) as [reg|] eqn:Er; [|done]. exists reg, e. done.
Qed.
Print Assumptions C121_below_limit.


(** Two goroutines look up two names, as many as the limit. *)
Definition two_names : list (list rop) := [[RLookup 0 KCompass (NameRef "a" 0); RLookup 0 KFastCompass (NameRef "b" 4)]; [RLookup 0 KCompass (NameRef "a" 0)]].
Definition two_names_run := r_crun [2] two_names (mjoin (replicate 12 [Run 0; Run 1]%nat)).
Example C121_case : registries_exist [2] two_names /\ size (keys_at (inl 0%nat) two_names) = 2%nat /\
  (fun t => (rt_got t).*2) <$> threads two_names_run =
    [[Some (Ok (MCompass 0 (CompassParams 0 10 (seconds 1) 20 20))); Some (Ok (MFastCompass 2 (seconds 60) 10 20))]; [Some (Ok (MCompass 0 (CompassParams 0 10 (seconds 1) 20 20)))]].
Proof. split; [repeat constructor|]. split; by vm_compute. Qed.

Section system.
Context (math_Exp : f64 -> f64) (maxs : list Z) (e0 : cenv) (plans : list (list saction)).
Notation run := (sy_run math_Exp maxs e0 plans).

(** C122: the registries and the manager are as they are used on their own, whatever is
    done with the metrics. *)
Theorem C122_registries sched : exists sched', registries (run sched) = r_crun maxs (lookups <$> plans) sched'.
Proof. apply registries_run. Qed.
(** C122: each compass somebody was given is as it is used on its own: created, with the
    parameters the registry gave it, at a time the environment showed, and called by the
    goroutines that have it, updating or reading it, as far as they have come with their plans. *)
Theorem C122_compass sched ref p : let c := run sched in (exists i j, given c i j = Some (MCompass ref p)) ->
  (cpp_numOfBucket p = 10 /\ cpp_maxErrorCodeCount p = 20 /\ cpp_maxAddonCount p = 20 /\ (cpp_bucketInterval p = seconds 1 \/ cpp_bucketInterval p = seconds 60)) /\
  exists before e es progs tr cc, e0 :: shown sched = before ++ e :: es /\ shown tr = es /\ reading_at c ref = Some cc /\
    cr_run math_Exp RBucket (cpp_bucketInterval p) 10 20 20 e progs tr = Some cc /\ progressed compass_calls (is_given c (MCompass ref p)) plans c progs.
Proof.
  intros c Hg. pose proof (sinv_run math_Exp maxs e0 plans sched) as HI. fold c in HI. destruct (compass_alone_run math_Exp maxs e0 plans sched ref p Hg) as (before & e & es & rk & progs & tr & cc & H1 & H2 & H3 & _ & H4 & H5 & H6).
  destruct Hg as (i & j & Hg). pose proof (given_fits plans c _ _ _ HI Hg) as [[nm Hnm] _]. destruct (created_params _ _ _ Hnm) as (P1 & _ & P2 & P3 & P4 & P5). split; [done|].
  rewrite P1 in H3. subst rk. rewrite P2, P3, P4 in H5. exists before, e, es, progs, tr, cc. done.
Qed.
(** C122: and so is each fast compass. *)
Theorem C122_fast_compass sched ref i n mx : let c := run sched in (exists i0 j0, given c i0 j0 = Some (MFastCompass ref i n mx)) ->
  (n = 10 /\ mx = 20 /\ (i = seconds 1 \/ i = seconds 60)) /\
  exists before e es progs tr cc, e0 :: shown sched = before ++ e :: es /\ shown tr = ce_ms <$> es /\ fast_at c ref = Some cc /\
    ff_crun (newFastCompass mx i n) (ce_ms e) progs tr = cc /\ progressed fast_calls (is_given c (MFastCompass ref i n mx)) plans c progs.
Proof.
  intros c Hg. pose proof (sinv_run math_Exp maxs e0 plans sched) as HI. fold c in HI. split; [|exact (fast_alone_run math_Exp maxs e0 plans sched ref i n mx Hg)].
  destruct Hg as (i0 & j0 & Hg). pose proof (given_fits plans c _ _ _ HI Hg) as [[nm Hnm] _]. by destruct (created_fast _ _ _ _ _ Hnm) as (_ & P1 & P2 & P3).
Qed.

Lemma compass_finished sched ref p : let c := run sched in (exists i j, given c i j = Some (MCompass ref p)) -> Forall finished (threads c) ->
  exists before e es tr cc, e0 :: shown sched = before ++ e :: es /\ shown tr = es /\ compass_at c ref = Some cc /\
    cf_run math_Exp RBucket (cpp_bucketInterval p) 10 20 20 e (compass_programs (is_given c (MCompass ref p)) plans) tr = Some cc /\ Forall returned_all (threads cc) /\
    counter_setting (cpp_bucketInterval p) 10.
Proof.
  intros c Hg Hf. destruct (C122_compass sched ref p Hg) as ((_ & _ & _ & P) & before & e & es & progs & tr & cc & H1 & H2 & H3 & H4 & H5). fold c in H3, H5.
  destruct (readers_disturb_nothing _ _ _ _ _ _ _ _ _ _ H4) as (tr' & _ & Htr & Hrun). assert (Hat : compass_at c ref = Some (without_reads cc)) by (unfold compass_at; by rewrite H3).
  exists before, e, es, tr', (without_reads cc). split; [done|]. split; [by rewrite Htr|]. split; [done|]. split; [|split].
  - rewrite (progressed_all _ _ _ _ _ (threads_length math_Exp maxs e0 plans sched) H5 Hf), fmap_fmap in Hrun. exact Hrun.
  - by eapply finished_compass.
  - destruct (interval_ok _ P) as [I1 I2]. done.
Qed.
Lemma ms_shown sched : ms_of sched = ce_ms <$> shown sched.
Proof. unfold ms_of, shown. induction sched as [|[i|e] sched IH]; [done|done|]. cbn. f_equal. exact IH. Qed.

(** C123: when all goroutines have finished, the counters of each compass somebody was given
    count the calls made through the handles that are this compass, by all goroutines. *)
Theorem C123_counts sched ref p : let c := run sched in (exists i j, given c i j = Some (MCompass ref p)) -> Forall finished (threads c) ->
  exists cc, compass_at c ref = Some cc /\ counted cc (compass_programs (is_given c (MCompass ref p)) plans).
Proof.
  intros c Hg Hf. destruct (compass_finished sched ref p Hg Hf) as (before & e & es & tr & cc & _ & _ & Hat & Hrun & Hret & HS). fold c in Hat, Hrun. exists cc. split; [done|].
  destruct (C114_counts math_Exp RBucket (cpp_bucketInterval p) 10 20 20 e (compass_programs (is_given c (MCompass ref p)) plans) tr HS) as (cc' & Hc' & H). rewrite Hrun in Hc'. injection Hc' as <-.
  destruct (H Hret) as (T1 & T2 & T3). split; [exact T1|]. split; [exact T2|]. intros w. destruct (T3 w) as (K1 & K2 & K3). split; [|split; [exact K2|exact K3]]. destruct w; exact K1.
Qed.
(** C123: with at most 20 codes and 20 addons, of all codes and addons. *)
Theorem C123_all_counts sched ref p : let c := run sched in (exists i j, given c i j = Some (MCompass ref p)) -> Forall finished (threads c) ->
  (forall w, Z.of_nat (size (passed w (planned results (compass_programs (is_given c (MCompass ref p)) plans)))) <= 20) ->
  exists cc, compass_at c ref = Some cc /\ all_counted cc (compass_programs (is_given c (MCompass ref p)) plans).
Proof.
  intros c Hg Hf Hm. destruct (compass_finished sched ref p Hg Hf) as (before & e & es & tr & cc & _ & _ & Hat & Hrun & Hret & HS). fold c in Hat, Hrun. exists cc. split; [done|].
  destruct (C114_counts_within math_Exp RBucket (cpp_bucketInterval p) 10 20 20 e (compass_programs (is_given c (MCompass ref p)) plans) tr HS) as (cc' & Hc' & Hp & H); [intros []; apply Hm|]. rewrite Hrun in Hc'. injection Hc' as <-.
  split; [exact Hp|exact (H Hret)].
Qed.
(** C123: its moving averages, ... *)
Theorem C123_averages sched ref p : let c := run sched in (exists i j, given c i j = Some (MCompass ref p)) -> Forall finished (threads c) ->
  Z.of_nat (length (planned durations (compass_programs (is_given c (MCompass ref p)) plans))) < 2 ^ 63 ->
  exists cc, compass_at c ref = Some cc /\ averaged cc (compass_programs (is_given c (MCompass ref p)) plans).
Proof.
  intros c Hg Hf Hn. destruct (compass_finished sched ref p Hg Hf) as (before & e & es & tr & cc & _ & _ & Hat & Hrun & Hret & HS). fold c in Hat, Hrun. exists cc. split; [done|].
  destruct (C115_averages math_Exp RBucket (cpp_bucketInterval p) 10 20 20 e (compass_programs (is_given c (MCompass ref p)) plans) tr Hn HS) as (cc' & Hc' & H). rewrite Hrun in Hc'. injection Hc' as <-.
  exact (H Hret).
Qed.
(** C123: ... and its snapshot. *)
Theorem C123_snapshot sched ref p : let c := run sched in (exists i j, given c i j = Some (MCompass ref p)) -> Forall finished (threads c) ->
  exists cc, compass_at c ref = Some cc /\ sampled cc (cpp_bucketInterval p) (compass_programs (is_given c (MCompass ref p)) plans) e0 sched.
Proof.
  intros c Hg Hf. destruct (compass_finished sched ref p Hg Hf) as (before & e & es & tr & cc & Hsh & Htr & Hat & Hrun & Hret & HS). fold c in Hat, Hrun. exists cc. split; [done|].
  destruct (C120_bucket math_Exp RBucket (cpp_bucketInterval p) 10 20 20 e (compass_programs (is_given c (MCompass ref p)) plans) tr eq_refl HS) as (cc' & Hc' & H). rewrite Hrun in Hc'. injection Hc' as <-.
  destruct (H Hret) as (values & total & V1 & V2 & V3 & V4). exists values, total. split; [exact V1|]. split; [exact V2|]. split; [exact V3|]. intros k HW. apply V4; [lia|].
  unfold within_interval in *. rewrite ms_shown in *. change (ce_ms e0 :: (ce_ms <$> shown sched)) with (ce_ms <$> (e0 :: shown sched)) in HW. rewrite Hsh, fmap_app in HW. apply Forall_app in HW as [_ HW]. rewrite Htr. exact HW.
Qed.

(** C124: if not more different names are looked up in a registry (or group, of a manager
    nobody disables) than its limit, and everyone who looks a name up there asks for the
    same kind of metric, then, when all goroutines have finished, all of them have been given
    the same recording metric of that kind, the one GetMetrics lists, and nobody who asked
    for something else has it. *)
Theorem C124_same_metric sched pl h k : let c := run sched in room_for maxs plans pl -> all_ask plans pl h k -> Forall finished (threads c) ->
  exists r m, behind pl (shared (registries c)) r /\ listed (registries c) r h m /\ RegistrySpec.records m = true /\ implements k m = true /\
    forall i j, given c i j = Some m <-> asked_at plans pl h i j = true.
Proof. apply same_metric. Qed.

Lemma asked_compass sched pl h : let c := run sched in room_for maxs plans pl -> all_ask plans pl h KCompass -> Forall finished (threads c) ->
  exists r ref p, behind pl (shared (registries c)) r /\ listed (registries c) r h (MCompass ref p) /\ (exists i j, given c i j = Some (MCompass ref p)) /\
    compass_programs (is_given c (MCompass ref p)) plans = compass_programs (asked_at plans pl h) plans.
Proof.
  intros c HR HA Hf. destruct (C124_same_metric sched pl h KCompass HR HA Hf) as (r & m & Hb & Hl & Hrec & Himp & Hall). fold c in Hb, Hl, Hall. destruct m as [ref p| | |]; try done.
  exists r, ref, p. split; [done|]. split; [done|]. split.
  - destruct HA as [(i & j & Hij) _]. exists i, j. by apply Hall.
  - unfold compass_programs. apply list_fmap_ext. intros i plan _. do 2 f_equal. by apply (is_given_asked math_Exp maxs e0 plans sched).
Qed.
(** C125: then the compass listed under that name has counted the updates through all
    handles that were looked up under that name there: what the plans say, whatever the
    schedule. *)
Theorem C125_compass sched pl h : let c := run sched in room_for maxs plans pl -> all_ask plans pl h KCompass -> Forall finished (threads c) ->
  exists r ref p cc, behind pl (shared (registries c)) r /\ listed (registries c) r h (MCompass ref p) /\ compass_at c ref = Some cc /\
    counted cc (compass_programs (asked_at plans pl h) plans) /\ sampled cc (cpp_bucketInterval p) (compass_programs (asked_at plans pl h) plans) e0 sched /\
    (Z.of_nat (length (planned durations (compass_programs (asked_at plans pl h) plans))) < 2 ^ 63 -> averaged cc (compass_programs (asked_at plans pl h) plans)) /\
    ((forall w, Z.of_nat (size (passed w (planned results (compass_programs (asked_at plans pl h) plans)))) <= 20) -> all_counted cc (compass_programs (asked_at plans pl h) plans)).
Proof.
  intros c HR HA Hf. destruct (asked_compass sched pl h HR HA Hf) as (r & ref & p & Hb & Hl & Hg & Hp). fold c in Hb, Hl, Hg, Hp. rewrite <- Hp.
  destruct (C123_counts sched ref p Hg Hf) as (cc & Hat & H1). destruct (C123_snapshot sched ref p Hg Hf) as (cc2 & Hat2 & H2). fold c in Hat, Hat2, H1, H2. rewrite Hat in Hat2. injection Hat2 as <-.
  exists r, ref, p, cc. split; [done|]. split; [done|]. split; [done|]. split; [done|]. split; [done|]. split.
  - intros Hn. destruct (C123_averages sched ref p Hg Hf Hn) as (cc2 & Hat2 & H3). fold c in Hat2. rewrite Hat in Hat2. injection Hat2 as <-. exact H3.
  - intros Hm. destruct (C123_all_counts sched ref p Hg Hf Hm) as (cc2 & Hat2 & H3). fold c in Hat2. rewrite Hat in Hat2. injection Hat2 as <-. exact H3.
Qed.

(** C126: the same for a fast compass, unless one of its getters has aborted the process:
    it is as after the Records through all handles looked up under that name. *)
Theorem C126_fast_compass sched pl h : let c := run sched in room_for maxs plans pl -> all_ask plans pl h KFastCompass -> Forall finished (threads c) ->
  exists r ref i n mx cc, behind pl (shared (registries c)) r /\ listed (registries c) r h (MFastCompass ref i n mx) /\ fast_at c ref = Some cc /\
    (fs_crashed (shared cc) = false -> recorded i n mx cc (fast_programs (asked_at plans pl h) plans)) /\
    (Forall (Forall (fun call => exists d category, call = QRecord d category)) (fast_programs (asked_at plans pl h) plans) -> fs_crashed (shared cc) = false).
Proof.
  intros c HR HA Hf. destruct (C124_same_metric sched pl h KFastCompass HR HA Hf) as (r & m & Hb & Hl & Hrec & Himp & Hall). fold c in Hb, Hl, Hall. destruct m as [|ref i n mx| |]; try done.
  assert (Hg : exists i0 j0, given c i0 j0 = Some (MFastCompass ref i n mx)) by (destruct HA as [(i0 & j0 & Hij) _]; exists i0, j0; by apply Hall).
  destruct (C122_fast_compass sched ref i n mx Hg) as ((P1 & P2 & P3) & before & e & es & progs & tr & cc & _ & _ & Hat & Hrun & Hpr). fold c in Hat, Hpr.
  exists r, ref, i, n, mx, cc. split; [done|]. split; [done|]. split; [done|]. rewrite (progressed_all _ _ _ _ _ (threads_length math_Exp maxs e0 plans sched) Hpr Hf) in Hrun.
  assert (Hp : ((fun plan => fast_calls (uses (is_given c (MFastCompass ref i n mx)) plan)) <$> plans) = fast_programs (asked_at plans pl h) plans).
  { unfold fast_programs. apply list_fmap_ext. intros k plan _. f_equal. by apply (is_given_asked math_Exp maxs e0 plans sched). }
  rewrite Hp in Hrun. destruct (interval_ok _ P3) as [I1 I2]. assert (HN : 0 <= n) by lia. split.
  - intros Hcr. destruct (C22_steps_final mx i n [] (newFastCompass mx i n) (ce_ms e) (fast_programs (asked_at plans pl h) plans) tr I1 I2 HN (Forall_nil_2 _) eq_refl) as (log & L1 & L2 & _ & L4).
    + by rewrite Hrun. + rewrite Hrun. by eapply finished_fast. + rewrite Hrun in L2, L4. by exists log.
  - intros Hrecs. rewrite <- Hrun. apply (C23_steps_records_only_partial mx i n [] (newFastCompass mx i n)); [done|done|done|constructor|done|]. intros prog call Hpg Hcall. rewrite Forall_forall in Hrecs. specialize (Hrecs _ Hpg). rewrite Forall_forall in Hrecs. by apply Hrecs.
Qed.

(** C132: under the same conditions, all results the getters of the fast compass have given,
    to whoever looked it up under that name, are real. *)
Theorem C132_getters sched pl h : let c := run sched in room_for maxs plans pl -> all_ask plans pl h KFastCompass -> Forall finished (threads c) ->
  exists r ref i n mx cc, behind pl (shared (registries c)) r /\ listed (registries c) r h (MFastCompass ref i n mx) /\ fast_at c ref = Some cc /\
    (fs_crashed (shared cc) = false -> answered i n mx cc (fast_programs (asked_at plans pl h) plans)).
Proof.
  intros c HR HA Hf. destruct (C124_same_metric sched pl h KFastCompass HR HA Hf) as (r & m & Hb & Hl & Hrec & Himp & Hall). fold c in Hb, Hl, Hall. destruct m as [|ref i n mx| |]; try done.
  assert (Hg : exists i0 j0, given c i0 j0 = Some (MFastCompass ref i n mx)) by (destruct HA as [(i0 & j0 & Hij) _]; exists i0, j0; by apply Hall).
  destruct (C122_fast_compass sched ref i n mx Hg) as ((P1 & P2 & P3) & before & e & es & progs & tr & cc & _ & _ & Hat & Hrun & Hpr). fold c in Hat, Hpr.
  exists r, ref, i, n, mx, cc. split; [done|]. split; [done|]. split; [done|]. rewrite (progressed_all _ _ _ _ _ (threads_length math_Exp maxs e0 plans sched) Hpr Hf) in Hrun.
  assert (Hp : ((fun plan => fast_calls (uses (is_given c (MFastCompass ref i n mx)) plan)) <$> plans) = fast_programs (asked_at plans pl h) plans).
  { unfold fast_programs. apply list_fmap_ext. intros k plan _. f_equal. by apply (is_given_asked math_Exp maxs e0 plans sched). }
  rewrite Hp in Hrun. destruct (interval_ok _ P3) as [I1 I2]. assert (HN : 0 <= n) by lia.
  intros Hcr. pose proof (finished_fast math_Exp maxs e0 plans sched ref cc Hf Hat) as Hd.
  destruct (C128_one_order mx i n [] (newFastCompass mx i n) (ce_ms e) (fast_programs (asked_at plans pl h) plans) tr I1 I2 HN (Forall_nil_2 _) eq_refl) as (log & L1 & L2); [by rewrite Hrun|].
  rewrite Hrun in L1, L2. exists log. split.
  - apply L1. rewrite <- Hrun. apply (ff_done_unlocked mx i n [] (newFastCompass mx i n) (ce_ms e)); [done|done|done|constructor|done|by rewrite Hrun|by rewrite Hrun].
  - intros k prog Hk. destruct (L2 k prog Hk) as (t & Ht & Hv & Hr). destruct (proj1 (Forall_lookup _ _) Hd _ _ Ht) as [D1 D2]. rewrite D1, D2, app_nil_r in Hv. exists t. split; [done|]. split; [done|]. split; [|done].
    destruct (C128_results_of_calls (newFastCompass mx i n) (ce_ms e) (fast_programs (asked_at plans pl h) plans) tr k prog) as (t' & Ht' & Ha & _); [by rewrite Hrun|done|].
    rewrite Hrun, Ht in Ht'. injection Ht' as <-. rewrite D1, D2, app_nil_r in Ha. done.
Qed.

(** C127: no deadlock.  Goroutines that use metrics they have looked up themselves before,
    or that goroutines with smaller numbers look up, and that do not call the four getters
    that read maps unprotected, can always go on: as long as not all have finished, some
    goroutine can make a step. *)
Theorem C127_no_deadlock sched : let c := run sched in registries_exist maxs (lookups <$> plans) -> (forall i plan, plans !! i = Some plan -> well_planned plans i 0 plan) -> Forall (Forall no_map_getter) plans ->
  ~ Forall finished (threads c) -> exists i u s' t', threads c !! i = Some u /\
    gstep sy_tstep (fun _ => false) sy_effect (mobj_step math_Exp) min_idle min_push min_returned (shared c) u = Some (s', t').
Proof. apply progress. Qed.

(** C127, with these getters: no deadlock either, as long as the runtime has not aborted the
    process because a map was assigned to while a getter was iterating over it (C23, C92). *)
Theorem C127_no_deadlock_unless_aborted sched : let c := run sched in registries_exist maxs (lookups <$> plans) -> (forall i plan, plans !! i = Some plan -> well_planned plans i 0 plan) -> Forall (Forall existing_method) plans ->
  nothing_aborted c -> ~ Forall finished (threads c) -> exists i u s' t', threads c !! i = Some u /\
    gstep sy_tstep (fun _ => false) sy_effect (mobj_step math_Exp) min_idle min_push min_returned (shared c) u = Some (s', t').
Proof. intros c HR HW HG Ha Hn. apply (progress_unaborted math_Exp maxs e0 plans sched HR HW HG); [|exact Hn]. intros i j m ref _ _ o Ho. exact (Ha ref o Ho). Qed.
End system.
Print Assumptions C122_registries.
Print Assumptions C122_compass.
Print Assumptions C122_fast_compass.
Print Assumptions C123_counts.
Print Assumptions C123_all_counts.
Print Assumptions C123_averages.
Print Assumptions C123_snapshot.
Print Assumptions C124_same_metric.
Print Assumptions C125_compass.
Print Assumptions C126_fast_compass.
Print Assumptions C132_getters.
Print Assumptions C127_no_deadlock.
Print Assumptions C127_no_deadlock_unless_aborted.

(** A run: three goroutines; the first two look the compass "a" of the group "app" up at the
    same time and update it; the second also records in the fast compass "b" of that group;
    the third uses the compass the second was given. *)
Definition a_system : list (list saction) :=
  [[SLookup (GLookup "app" KCompass (NameRef "a" 0)); SUse 0 0 (UCompass [DWrite (KUpdate 5 (Some (MkResult true "" "")))]); SUse 0 0 (UCompass [DWrite (KUpdate 7 (Some (MkResult false "E1" "")))])];
   [SLookup (GLookup "app" KCompass (NameRef "a" 0)); SLookup (GLookup "app" KFastCompass (NameRef "b" 4)); SUse 1 0 (UCompass [DWrite (KUpdate 9 (Some (MkResult false "E1" "")))]); SUse 1 1 (UFast (QRecord 2000000 "x"))];
   [SUse 1 0 (UCompass [DWrite (KUpdate 100 None)]); SUse 1 1 (UFast (QRecord 3000000 "x"))]].
Definition a_system_run : system := sy_run (fun x => x) [] (CEnv 5000000000 5000 half [3]) a_system (mjoin (replicate 250 [Run 0; Run 1; Run 2]%nat)).
Definition finishedb (t : gthread sthread min nat ucall) : bool :=
  match st_plan (gt_client t), rt_pc (st_reg (gt_client t)), gt_in t with [], RegistryConc.PIdle, None => true | _, _, _ => false end.
Example C124_case : room_for [] a_system (inr "app"%string) /\ all_ask a_system (inr "app"%string) "a" KCompass /\ all_ask a_system (inr "app"%string) "b" KFastCompass /\
  (forall i plan, a_system !! i = Some plan -> well_planned a_system i 0 plan) /\ Forall (Forall no_map_getter) a_system /\
  planned durations (compass_programs (asked_at a_system (inr "app"%string) "a") a_system) = [5; 7; 9; 100] /\
  fast_programs (asked_at a_system (inr "app"%string) "b") a_system = [[]; [QRecord 2000000 "x"]; [QRecord 3000000 "x"]].
Proof.
  refine (conj _ (conj _ (conj _ (conj _ (conj _ (conj _ _)))))).
  - split; [repeat constructor|]. split; [repeat constructor; done|]. exists 5000. split; [done|]. by vm_compute.
  - split; [by exists 0%nat, 0%nat|]. cbn. intros op Hop. repeat (apply elem_of_cons in Hop as [->|Hop]; [intros E; first [discriminate E|by eexists]|]). by apply elem_of_nil in Hop.
  - split; [by exists 1%nat, 1%nat|]. cbn. intros op Hop. repeat (apply elem_of_cons in Hop as [->|Hop]; [intros E; first [discriminate E|by eexists]|]). by apply elem_of_nil in Hop.
  - intros [|[|[|i]]] plan H; [injection H as <-; cbn [well_planned]..|done].
    + split; [left; lia|]. split; [left; lia|done].
    + split; [left; lia|]. split; [left; lia|done].
    + split; [right; split; [lia|]; eexists; split; [reflexivity|cbn; lia]|]. split; [right; split; [lia|]; eexists; split; [reflexivity|cbn; lia]|done].
  - repeat constructor; by eexists _, _.
  - by vm_compute.
  - by vm_compute.
Qed.
Example a_system_result :
  let cc := match given a_system_run 0 0 with Some (MCompass ref _) => compass_at a_system_run ref | _ => None end in
  let fc := match given a_system_run 1 1 with Some (MFastCompass ref _ _ _) => fast_at a_system_run ref | _ => None end in
  forallb finishedb (threads a_system_run) = true /\
  (cc ≫= fun cc => bc_GetCount <$> counter_at cc KTotal) = Some 4 /\ (cc ≫= fun cc => bc_GetCount <$> counter_at cc KSuccess) = Some 1 /\
  (cc ≫= fun cc => bc_GetCount <$> key_counter cc Codes "E1") = Some 2 /\ (cc ≫= fun cc => bc_GetCount <$> counter_at cc KValues) = Some 121 /\
  (fc ≫= fun fc => Some (fs_crashed (shared fc), elements (dom (fc_subCategories (fs_fc (shared fc)))))) = Some (false, ["x"%string]).
Proof. cbv zeta. split_and!; vm_compute; reflexivity. Qed.
(** With a clock that stays in one interval. *)
Example a_system_interval : within_interval (seconds 1) 5000 (CEnv 5000000000 5000 half [3]) (mjoin (replicate 250 [Run 0; Run 1; Run 2]%nat)).
Proof. change (Forall (fun ms => in64 ms /\ 0 <= ms /\ bucket_key (interval_seconds (seconds 1)) ms = 5000) [5000]). repeat constructor; by vm_compute. Qed.
(** Two goroutines that share a fast compass and ask it: the second one's Record falls between
    the first one's Record and its question. *)
Definition b_system : list (list saction) :=
  [[SLookup (GLookup "app" KFastCompass (NameRef "b" 4)); SUse 0 0 (UFast (QRecord 2000000 "x")); SUse 0 0 (UFast (QGet GRt 0 []))];
   [SUse 0 0 (UFast (QRecord 3000000 "x")); SUse 0 0 (UFast (QGet GCount 0 []))]].
Definition b_system_run : system := sy_run (fun x => x) [] (CEnv 5000000000 5000 half [3]) b_system
  (replicate 40 (Run 0%nat) ++ replicate 30 (Run 1%nat) ++ mjoin (replicate 150 [Run 0; Run 1]%nat)).
Example C132_case : all_ask b_system (inr "app"%string) "b" KFastCompass /\ forallb finishedb (threads b_system_run) = true /\
  fast_programs (asked_at b_system (inr "app"%string) "b") b_system = [[QRecord 2000000 "x"; QGet GRt 0 []]; [QRecord 3000000 "x"; QGet GCount 0 []]] /\
  (match given b_system_run 0 0 with Some (MFastCompass ref _ _ _) => fast_at b_system_run ref | _ => None end ≫= fun fc =>
    Some (fs_crashed (shared fc), (fun t => as_lists <$> q_got t) <$> threads fc)) = Some (false, [[(0, [("x"%string, [(0, 5)])])]; [(0, [("x"%string, [(0, 2)])])]]).
Proof.
  refine (conj _ (conj _ (conj _ _))).
  - split; [by exists 0%nat, 0%nat|]. cbn. intros op Hop. repeat (apply elem_of_cons in Hop as [->|Hop]; [intros E; first [discriminate E|by eexists]|]). by apply elem_of_nil in Hop.
  - vm_compute; reflexivity.
  - by vm_compute.
  - vm_compute. reflexivity.
Qed.
