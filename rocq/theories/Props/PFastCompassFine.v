(** C22, C23, C84, C128-C131: a fast compass in which every access of a shared variable by
    Record, the three getters and LastUpdateTime is a step.  [ff_crun fc0 now0 progs sched]
    starts goroutines with programs [progs] on a compass in state [fc0] and runs them under
    the arbitrary schedule [sched], which also moves the clock arbitrarily. *)
From Verif.Go Require Import GoInt GoConc.
From Verif.Model Require Import BucketQueue BucketCounter FastCompass BucketCounterConc BucketReadConc FastCompassConc FastCompassFine.
From Verif.Spec Require Import BucketSpec BucketConcSpec BucketReadSpec FastCompassSpec FastCompassConcSpec FastCompassFineSpec.
From Verif.Proofs Require Import FastCompassProofs FastCompassConcProofs BucketRest FastCompassFineProofs FastCompassFineRead FastCompassFineMain FastCompassFineResults FastCompassFineSafe FastCompassFineQuiet FastCompassLatest.
Local Open Scope Z_scope.

(** C22, step by step: there is a list of the Record calls that have taken effect which only
    grows during the run; at every moment it holds each goroutine's valid calls in program
    order, all but the one under way and those still to come; it is in lock order, its clock
    readings have occurred, and whenever nobody is inside the critical section the compass is
    in exactly the state that these calls, executed one after another, give. *)
Theorem C22_steps_linearizable : forall max interval N recs0 fc0 now0 progs,
  Second <= interval -> in64 interval -> 0 <= N -> Forall (fun r => in64 (rc_time r)) recs0 ->
  fc_exec max interval N recs0 = Ok fc0 ->
  exists log : list (event Z) -> list (nat * fc_record),
  (forall s s', log s `prefix_of` log (s ++ s')) /\
  forall sched, let c := ff_crun fc0 now0 progs sched in
  fs_crashed (shared c) = false ->
    (forall i prog, progs !! i = Some prog -> exists t, threads c !! i = Some t /\
       valid_calls prog = log_of i (log sched) ++ recording (q_pc t) ++ valid_calls (q_todo t)) /\
    (forall e, e ∈ log sched -> (e.1 < length progs)%nat /\ rc_time e.2 ∈ fs_times (shared c) /\ rc_createTime e.2 ∈ fs_times (shared c)) /\
    ((fun e => (rc_duration e.2, rc_category e.2)) <$> log sched) `prefix_of` fs_entered (shared c) /\
    (fs_locked (shared c) = false ->
       fs_entered (shared c) = (fun e => (rc_duration e.2, rc_category e.2)) <$> log sched /\
       fc_exec max interval N (recs0 ++ (log sched).*2) = Ok (fs_fc (shared c))).
Proof.
  intros max interval N recs0 fc0 now0 progs I1 I2 I3 Hf E. exists (landed fc0 progs now0).
  split; [intros; apply landed_mono|]. intros sched. by apply ff_linearizable.
Qed.
Print Assumptions C22_steps_linearizable.

Theorem C22_steps_final : forall max interval N recs0 fc0 now0 progs sched,
  Second <= interval -> in64 interval -> 0 <= N -> Forall (fun r => in64 (rc_time r)) recs0 ->
  fc_exec max interval N recs0 = Ok fc0 ->
  let c := ff_crun fc0 now0 progs sched in
  fs_crashed (shared c) = false -> Forall q_done (threads c) ->
  exists log,
    (forall i prog, progs !! i = Some prog -> valid_calls prog = log_of i log) /\
    (forall e, e ∈ log -> (e.1 < length progs)%nat /\ rc_time e.2 ∈ fs_times (shared c) /\ rc_createTime e.2 ∈ fs_times (shared c)) /\
    fs_entered (shared c) = (fun e => (rc_duration e.2, rc_category e.2)) <$> log /\
    fc_exec max interval N (recs0 ++ log.*2) = Ok (fs_fc (shared c)).
Proof.
  intros max interval N recs0 fc0 now0 progs sched I1 I2 I3 Hf E c Hc Hd.
  destruct (ff_linearizable max interval N recs0 fc0 now0 progs I1 I2 I3 Hf E sched Hc) as (H1 & H2 & _ & H4).
  destruct H4 as [H4 H5]; [by apply (ff_done_unlocked max interval N recs0 fc0 now0 progs I1 I2 I3 Hf E)|].
  eexists. split; [|split; [exact H2|split; [exact H4|exact H5]]].
  intros i prog Hp. destruct (H1 i prog Hp) as (t & Ht & ->).
  pose proof (Forall_lookup_1 _ _ _ _ Hd Ht) as [-> ->]. cbn. by rewrite app_nil_r.
Qed.
Print Assumptions C22_steps_final.

(** C84, step by step. *)
Theorem C84_steps_no_deadlock : forall max interval N recs0 fc0 now0 progs sched,
  Second <= interval -> in64 interval -> 0 <= N -> Forall (fun r => in64 (rc_time r)) recs0 ->
  fc_exec max interval N recs0 = Ok fc0 ->
  let c := ff_crun fc0 now0 progs sched in
  fs_crashed (shared c) = false -> ~ Forall q_done (threads c) ->
  exists i t s' t', threads c !! i = Some t /\ ff_tstep (shared c) t = Some (s', t').
Proof. intros max interval N recs0 fc0 now0 progs sched I1 I2 I3 Hf E. by apply (ff_progress max interval N recs0 fc0 progs I1 I2 I3 now0 sched Hf E). Qed.
Print Assumptions C84_steps_no_deadlock.

(** C23, step by step: the abort needs a Record that creates a category next to an iteration. *)
Theorem C23_steps_records_only_partial : forall max interval N recs0 fc0 now0 progs sched,
  Second <= interval -> in64 interval -> 0 <= N -> Forall (fun r => in64 (rc_time r)) recs0 ->
  fc_exec max interval N recs0 = Ok fc0 ->
  (forall prog call, prog ∈ progs -> call ∈ prog -> exists d cat, call = QRecord d cat) ->
  fs_crashed (shared (ff_crun fc0 now0 progs sched)) = false.
Proof.
  intros max interval N recs0 fc0 now0 progs sched I1 I2 I3 Hf E Hg.
  eapply ff_records_safe; try done. apply Forall_forall. intros prog Hp. apply Forall_forall.
  intros call Hc. by destruct (Hg prog call Hp Hc) as (d & cat & ->).
Qed.
Print Assumptions C23_steps_records_only_partial.

Theorem C23_steps_no_new_category_partial : forall fc0 now0 progs sched,
  (forall prog d cat, prog ∈ progs -> QRecord d cat ∈ prog ->
     is_Some (fc_subCategories fc0 !! cat) \/
     fc_maxSubCategoryCount fc0 <= Z.of_nat (size (fc_subCategories fc0))) ->
  fs_crashed (shared (ff_crun fc0 now0 progs sched)) = false.
Proof.
  intros fc0 now0 progs sched Hg. apply ff_no_create_safe. apply Forall_forall. intros prog Hp. apply Forall_forall.
  intros [d cat|g st o|o] Hc; [|done|done]. by eapply Hg.
Qed.
Print Assumptions C23_steps_no_new_category_partial.

(** C128: a getter that overlaps Records.  In a run that does not abort it returns an answer
    for every category that was there when it was called, and only for categories that are
    there when it returns; per category at most N values, for intervals between the start
    asked for and the interval of one clock reading shown during the call; each value is what
    the invocations (total milliseconds, or both packed) of that category in that interval
    were at some moment during the call - all Records that had taken effect then, none of the
    others. *)
Theorem C128_getter_content : forall max interval N recs0 fc0 now0 progs,
  Second <= interval -> in64 interval -> 0 <= N -> Forall (fun r => in64 (rc_time r)) recs0 ->
  fc_exec max interval N recs0 = Ok fc0 ->
  exists log : list (event Z) -> list (nat * fc_record),
  (forall s s', log s `prefix_of` log (s ++ s')) /\
  (forall s i prog, fs_crashed (shared (ff_crun fc0 now0 progs s)) = false -> progs !! i = Some prog ->
     exists t, threads (ff_crun fc0 now0 progs s) !! i = Some t /\
     valid_calls prog = log_of i (log s) ++ recording (q_pc t) ++ valid_calls (q_todo t)) /\
  forall s1 s2 i g st order todo got res,
  let c1 := ff_crun fc0 now0 progs s1 in let c2 := ff_crun fc0 now0 progs (s1 ++ s2) in
  fs_crashed (shared c2) = false ->
  threads c1 !! i = Some (QThread (QGet g st order :: todo) (QAt FIdle) got) ->
  threads c2 !! i = Some (QThread todo (QAt FIdle) (got ++ [JMap g st res])) ->
  -1000 < st ->
  (forall cat, is_Some (fc_subCategories (fs_fc (shared c1)) !! cat) -> is_Some (res !! cat)) /\
  forall cat m, res !! cat = Some m ->
    is_Some (fc_subCategories (fs_fc (shared c2)) !! cat) /\
    (size m <= Z.to_nat N)%nat /\
    exists now, now ∈ clock_values (fs_clock (shared c1)) s2 /\
    forall k v, m !! k = Some v -> st <= k <= trunc_key (interval `quot` Second) now /\
      exists s', s' `prefix_of` s2 /\
        v = reported g (interval `quot` Second) (records_of cat (recs0 ++ (log (s1 ++ s')).*2)) k.
Proof.
  intros max interval N recs0 fc0 now0 progs I1 I2 I3 Hf E. exists (landed fc0 progs now0).
  split; [intros; apply landed_mono|]. split.
  - intros s i prog Hc Hp. destruct (ff_linearizable max interval N recs0 fc0 now0 progs I1 I2 I3 Hf E s Hc) as (H1 & _). by apply H1.
  - intros s1 s2 i g st order todo got res c1 c2 Hc Hi Hi' Hst.
    exact (ff_getter_content max interval N recs0 fc0 now0 progs I1 I2 I3 Hf E s1 s2 i g st order todo got res Hc Hi Hi' Hst).
Qed.
Print Assumptions C128_getter_content.

(** While a category has fewer than 2^26 invocations and 2^38 milliseconds in all, the
    reported numbers are the number of invocations and the milliseconds themselves. *)
Theorem C128_within_capacity : forall I recs k, Forall valid_record recs ->
  Z.of_nat (length recs) < 2 ^ 26 -> sumZ (durations_ms recs).*2 < 2 ^ 38 ->
  reported GCount I recs k = sum_at k (by_latest (-1000) I (invocations recs)) /\
  reported GRt I recs k = sum_at k (by_latest (-1000) I (durations_ms recs)).
Proof. exact reported_exact. Qed.
Print Assumptions C128_within_capacity.

(** If nobody changes the compass during the call, it returns exactly what the getter called
    with nobody else running returns, each category read at a clock reading of the call. *)
Theorem C128_getter_quiet : forall max interval N recs0 fc0 now0 progs s1 s2 i g st order todo got res order',
  Second <= interval -> in64 interval -> 0 <= N -> Forall (fun r => in64 (rc_time r)) recs0 ->
  fc_exec max interval N recs0 = Ok fc0 ->
  let c1 := ff_crun fc0 now0 progs s1 in let c2 := ff_crun fc0 now0 progs (s1 ++ s2) in
  fs_crashed (shared c2) = false ->
  threads c1 !! i = Some (QThread (QGet g st order :: todo) (QAt FIdle) got) ->
  threads c2 !! i = Some (QThread todo (QAt FIdle) (got ++ [JMap g st res])) ->
  compass_untouched fc0 now0 progs s1 s2 ->
  is_order order' (fc_subCategories (fs_fc (shared c1))) ->
  exists now, (forall cat, now cat ∈ clock_values (fs_clock (shared c1)) s2) /\
    getter_alone g (fs_fc (shared c1)) order' now st = Ok res.
Proof. exact ff_getter_quiet. Qed.
Print Assumptions C128_getter_quiet.

(** Every result a goroutine has got is that of one of its calls: in a run that does not abort
    the results answer the getter and LastUpdateTime calls of its program in order, all of
    them when it has finished, and for each result there are the moments of call and return
    that C128_getter_content, C128_getter_quiet and C130 speak of. *)
Theorem C128_results_of_calls : forall fc0 now0 progs sched i prog,
  let c := ff_crun fc0 now0 progs sched in
  fs_crashed (shared c) = false -> progs !! i = Some prog ->
  exists t, threads c !! i = Some t /\
    omap asks prog = (answers <$> q_got t) ++ asking (q_pc t) ++ omap asks (q_todo t) /\
    forall got job rest, q_got t = got ++ job :: rest -> returned_by fc0 now0 progs i sched got job.
Proof.
  intros fc0 now0 progs sched i prog c Hc Hp. destruct (ff_answers fc0 now0 progs sched Hc i prog Hp) as (t & Ht & Ha).
  exists t. split; [done|]. split; [done|]. by apply (ff_returned fc0 now0 progs sched i t Ht).
Qed.
Print Assumptions C128_results_of_calls.

(** All results together: one order of the Records explains the state of the compass and the
    values in all results of all goroutines; every goroutine sees its own Records. *)
Theorem C128_one_order : forall max interval N recs0 fc0 now0 progs sched,
  Second <= interval -> in64 interval -> 0 <= N -> Forall (fun r => in64 (rc_time r)) recs0 ->
  fc_exec max interval N recs0 = Ok fc0 ->
  let c := ff_crun fc0 now0 progs sched in
  fs_crashed (shared c) = false ->
  exists log,
    (fs_locked (shared c) = false -> fc_exec max interval N (recs0 ++ log.*2) = Ok (fs_fc (shared c))) /\
    forall i prog, progs !! i = Some prog -> exists t, threads c !! i = Some t /\
      valid_calls prog = log_of i log ++ recording (q_pc t) ++ valid_calls (q_todo t) /\
      real_results interval N recs0 log i prog (q_got t).
Proof.
  intros max interval N recs0 fc0 now0 progs sched I1 I2 I3 Hf E c Hc. exists (landed fc0 progs now0 sched).
  destruct (ff_linearizable max interval N recs0 fc0 now0 progs I1 I2 I3 Hf E sched Hc) as (H1 & _ & _ & H4). split; [by apply H4|].
  intros i prog Hp. destruct (H1 i prog Hp) as (t & Ht & Hv). exists t. split; [done|]. split; [done|].
  intros got g st res rest Hg Hst.
  destruct (ff_result max interval N recs0 fc0 now0 progs I1 I2 I3 Hf E sched i t prog got g st res rest Hc Ht Hp Hg Hst) as (before & call & after & A & B & C & D).
  exists before, call, after. split; [done|]. split; [done|]. split; [done|]. intros cat m Hm. destruct (D cat m Hm) as (_ & D1 & D2). done.
Qed.
Print Assumptions C128_one_order.

(** C129: a getter or LastUpdateTime never waits for anybody.  After so many of its own
    steps - a bound fixed by the configuration - it has returned, however the others are
    scheduled and even if one of them has stopped inside Record with the lock held. *)
Theorem C129_getters_finish : forall max interval N recs0 fc0 now0 progs s1 s2 i call order todo got,
  Second <= interval -> in64 interval -> 0 <= N -> Forall (fun r => in64 (rc_time r)) recs0 ->
  fc_exec max interval N recs0 = Ok fc0 ->
  let c1 := ff_crun fc0 now0 progs s1 in let c2 := ff_crun fc0 now0 progs (s1 ++ s2) in
  order_of call = Some order ->
  threads c1 !! i = Some (QThread (call :: todo) (QAt FIdle) got) ->
  fs_crashed (shared c2) = false ->
  ((3 * Z.to_nat N + 10) * (length order + Z.to_nat max) + 2 < runs i s2)%nat ->
  exists t, threads c2 !! i = Some t /\ exists job more, q_got t = got ++ job :: more.
Proof.
  intros max interval N recs0 fc0 now0 progs s1 s2 i call order todo got I1 I2 I3 Hf E c1 c2 Ho Hi Hc Hr.
  destruct (ff_getter_finishes max interval N recs0 fc0 now0 progs I1 I2 I3 Hf E s1 s2 i call order todo got Ho Hi Hc) as (t & Ht & [?|?]); [eauto|lia].
Qed.
Print Assumptions C129_getters_finish.

(** C130: LastUpdateTime next to Records.  The result is 0 or the last-update time that some
    category had at some moment during the call, and at least the time of the latest interval
    any category had when the call began. *)
Theorem C130_last_update_content : forall max interval N recs0 fc0 now0 progs s1 s2 i order todo got r,
  Second <= interval -> in64 interval -> 0 <= N -> Forall (fun r => in64 (rc_time r)) recs0 ->
  fc_exec max interval N recs0 = Ok fc0 ->
  let run := ff_crun fc0 now0 progs in
  fs_crashed (shared (run (s1 ++ s2))) = false ->
  threads (run s1) !! i = Some (QThread (QLast order :: todo) (QAt FIdle) got) ->
  threads (run (s1 ++ s2)) !! i = Some (QThread todo (QAt FIdle) (got ++ [JLast r])) ->
  0 <= r /\
  (forall cat bc b, fc_subCategories (fs_fc (shared (run s1))) !! cat = Some bc -> bc_heap bc !! bc_latestBucket bc = Some b ->
     bk_ts b <= r) /\
  (r = 0 \/ exists s' cat bc, s' `prefix_of` s2 /\ fc_subCategories (fs_fc (shared (run (s1 ++ s')))) !! cat = Some bc /\ bc_LastUpdateTime bc = Ok r).
Proof.
  intros max interval N recs0 fc0 now0 progs s1 s2 i order todo got r I1 I2 I3 Hf E run.
  exact (ff_last_content max interval N recs0 fc0 now0 progs I1 I2 I3 Hf E s1 s2 i order todo got r).
Qed.
Print Assumptions C130_last_update_content.

(** The same in terms of the Records, for a compass that starts empty: with [log] the Records
    that had taken effect when LastUpdateTime was called (each goroutine's valid calls up to
    the one it is in), the result, in seconds, is not before the interval of any of them whose
    category is tracked; and it is 0, the interval of a time the clock has shown or such a
    time itself (the creation time of a category, in milliseconds: C131). *)
Theorem C130_last_update_records : forall max interval N now0 progs s1 s2 i order todo got r,
  Second <= interval -> in64 interval -> 0 <= N ->
  let run := ff_crun (newFastCompass max interval N) now0 progs in
  fs_crashed (shared (run (s1 ++ s2))) = false ->
  threads (run s1) !! i = Some (QThread (QLast order :: todo) (QAt FIdle) got) ->
  threads (run (s1 ++ s2)) !! i = Some (QThread todo (QAt FIdle) (got ++ [JLast r])) ->
  exists log,
    (forall k prog, progs !! k = Some prog -> exists t, threads (run s1) !! k = Some t /\
       valid_calls prog = log_of k log ++ recording (q_pc t) ++ valid_calls (q_todo t)) /\
    (forall e, e ∈ log -> (e.1 < length progs)%nat /\ rc_time e.2 ∈ fs_times (shared (run s1))) /\
    (forall e, e ∈ log -> valid_record e.2 -> rc_category e.2 ∈ tracked max log.*2 -> trunc_key (interval `quot` Second) (rc_time e.2) <= 1000 * r) /\
    (r = 0 \/ (exists t, t ∈ fs_times (shared (run (s1 ++ s2))) /\ 1000 * r = trunc_key (interval `quot` Second) t) \/ r ∈ fs_times (shared (run (s1 ++ s2)))).
Proof.
  intros max interval N now0 progs s1 s2 i order todo got r I1 I2 I3 run Hc Hi Hi'. set (fc0 := newFastCompass max interval N) in *. assert (Hf : Forall (fun r => in64 (rc_time r)) (@nil fc_record)) by constructor. assert (E : fc_exec max interval N [] = Ok fc0) by reflexivity.
  destruct (ff_last_records max interval N fc0 now0 progs I1 I2 I3 E s1 s2 i order todo got r Hc Hi Hi') as (_ & H1 & H2).
  assert (Hc1 : fs_crashed (shared (run s1)) = false) by (by eapply crashed_app).
  destruct (ff_linearizable max interval N [] fc0 now0 progs I1 I2 I3 Hf E s1 Hc1) as (L1 & L2 & _).
  exists (landed fc0 progs now0 s1). split; [exact L1|]. split; [|split; [exact H1|exact H2]]. intros e He. destruct (L2 e He) as (? & ? & _). done.
Qed.
Print Assumptions C130_last_update_records.

(** C131 is false: between the moment a Record has entered its new category and the moment it
    has added to it, LastUpdateTime reports the creation time of the counter - in milliseconds;
    afterwards the time of the interval, in seconds. *)
Theorem C131_monotone_refuted : exists fc0 progs s1 s2 s3 s4 r1 r2,
  fc_exec 3 Second 4 [] = Ok fc0 /\
  let run := ff_crun fc0 1700000000000 progs in
  fs_crashed (shared (run (((s1 ++ s2) ++ s3) ++ s4))) = false /\
  threads (run s1) !! 1%nat = Some (QThread [QLast []; QLast []] (QAt FIdle) []) /\
  threads (run (s1 ++ s2)) !! 1%nat = Some (QThread [QLast []] (QAt FIdle) [JLast r1]) /\
  threads (run ((s1 ++ s2) ++ s3)) !! 1%nat = Some (QThread [QLast []] (QAt FIdle) [JLast r1]) /\
  threads (run (((s1 ++ s2) ++ s3) ++ s4)) !! 1%nat = Some (QThread [] (QAt FIdle) [JLast r1; JLast r2]) /\
  r2 < r1.
Proof.
  exists (newFastCompass 3 Second 4), [[QRecord 1000000 "a"]; [QLast []; QLast []]].
  exists (replicate 6 (Run 0%nat)), (replicate 5 (Run 1%nat)), (replicate 20 (Run 0%nat)), (replicate 5 (Run 1%nat)).
  exists 1700000000000, 1700000000.
  split; [reflexivity|]. cbv zeta. split; [vm_compute; reflexivity|]. split; [vm_compute; reflexivity|].
  split; [vm_compute; reflexivity|]. split; [vm_compute; reflexivity|]. split; [vm_compute; reflexivity|]. reflexivity.
Qed.
Print Assumptions C131_monotone_refuted.

(** What does hold: a call that begins after another has returned reports no less, unless the
    earlier one reported the creation time of a counter. *)
Theorem C131_monotone_partial : forall max interval N recs0 fc0 now0 progs s1 s2 s3 s4 i j order1 todo1 got1 r1 order2 todo2 got2 r2,
  Second <= interval -> in64 interval -> 0 <= N -> Forall (fun r => in64 (rc_time r)) recs0 ->
  fc_exec max interval N recs0 = Ok fc0 ->
  let run := ff_crun fc0 now0 progs in
  fs_crashed (shared (run (((s1 ++ s2) ++ s3) ++ s4))) = false ->
  threads (run s1) !! i = Some (QThread (QLast order1 :: todo1) (QAt FIdle) got1) ->
  threads (run (s1 ++ s2)) !! i = Some (QThread todo1 (QAt FIdle) (got1 ++ [JLast r1])) ->
  threads (run ((s1 ++ s2) ++ s3)) !! j = Some (QThread (QLast order2 :: todo2) (QAt FIdle) got2) ->
  threads (run (((s1 ++ s2) ++ s3) ++ s4)) !! j = Some (QThread todo2 (QAt FIdle) (got2 ++ [JLast r2])) ->
  r1 <= r2 \/ exists s' cat bc, s' `prefix_of` s2 /\
    fc_subCategories (fs_fc (shared (run (s1 ++ s')))) !! cat = Some bc /\ r1 = bc_initTimestamp bc.
Proof. exact ff_last_twice. Qed.
Print Assumptions C131_monotone_partial.

(** ** Cases *)
(** A warm compass ("a": 2 invocations, 5 ms, in the interval 1700000000).  Goroutine 0
    Records twice, goroutine 1 gets the counts and goroutine 2 the time of the last update
    in the meantime; goroutine 3 gets the milliseconds when all is over. *)
Definition warm_recs : list fc_record := [FcRecord 1700000000000 1700000000000 2000000 "a"; FcRecord 1700000000000 1700000000500 3000000 "a"].
Definition warm_progs : list (list qcall) :=
  [[QRecord 7000000 "a"; QRecord 1000000 "a"]; [QGet GCount 1699999990000 ["a"%string]]; [QLast []]; [QGet GRt 0 []]].
Definition warm : fast_compass :=
  match fc_exec 1 Second 4 warm_recs with Ok fc => fc | Panic => newFastCompass 1 Second 4 end.
(** Goroutine 0 has looked the category up and not added to it yet: *)
Definition before_call : list (event Z) := replicate 5 (Run 0%nat).
(** the getter starts, the Record finishes, the getter and the second Record alternate: *)
Definition during_call : list (event Z) :=
  replicate 4 (Run 1%nat) ++ [Run 2%nat] ++ replicate 12 (Run 0%nat) ++ [Env 1700000001200; Run 2%nat] ++
  mjoin (replicate 20 [Run 0%nat; Run 1%nat; Run 2%nat]).
Definition after_call : list (event Z) := replicate 60 (Run 3%nat).
Definition as_lists (j : qjob) : Z * list (string * list (Z * Z)) :=
  match j with JMap _ _ res => (0, (fun kv => (kv.1, map_to_list kv.2)) <$> map_to_list res) | JLast r => (r, []) end.
Definition all_done (c : config fc_shared qthread) : bool :=
  forallb (fun t => match q_todo t, q_pc t with [], QAt FIdle => true | _, _ => false end) (threads c).
Example C128_case :
  fc_exec 1 Second 4 warm_recs = Ok warm /\
  let run := ff_crun warm 1700000000900 warm_progs in
  threads (run before_call) !! 1%nat = Some (QThread [QGet GCount 1699999990000 ["a"%string]] (QAt FIdle) []) /\
  fs_crashed (shared (run (before_call ++ during_call ++ after_call))) = false /\
  all_done (run (before_call ++ during_call ++ after_call)) = true /\
  ((fun t => as_lists <$> q_got t) <$> threads (run (before_call ++ during_call))) =
    [[]; [(0, [("a"%string, [(1700000000000, 4)])])]; [(1700000000, [])]; []] /\
  ((fun t => as_lists <$> q_got t) <$> threads (run (before_call ++ during_call ++ after_call))) =
    [[]; [(0, [("a"%string, [(1700000000000, 4)])])]; [(1700000000, [])]; [(0, [("a"%string, [(1700000000000, 13)])])]].
Proof.
  split; [vm_compute; reflexivity|]. cbv zeta. split; [vm_compute; reflexivity|]. split; [vm_compute; reflexivity|].
  split; [vm_compute; reflexivity|]. split; vm_compute; reflexivity.
Qed.

(** Goroutine 0 stops inside Record with the lock held; both readers finish all the same, and
    within the bound. *)
Example C129_case : let run := ff_crun warm 1700000000900 warm_progs in
  let c := run (before_call ++ replicate 40 (Run 1%nat) ++ replicate 6 (Run 2%nat)) in
  fs_locked (shared c) = true /\ fs_crashed (shared c) = false /\
  ((fun t => as_lists <$> q_got t) <$> threads c) = [[]; [(0, [("a"%string, [(1700000000000, 2)])])]; [(1700000000, [])]; []] /\
  (40 < (3 * Z.to_nat 4 + 10) * (1 + Z.to_nat 1) + 2)%nat.
Proof. cbv zeta. split; [vm_compute; reflexivity|]. split; [vm_compute; reflexivity|]. split; [vm_compute; reflexivity|]. vm_compute. lia. Qed.

(** The hypotheses of the two safety statements: the warm compass tracks its one category, and
    is full. *)
Example C23_steps_case : fc_subCategories warm !! "a"%string <> None /\
  fc_maxSubCategoryCount warm = Z.of_nat (size (fc_subCategories warm)) /\ records_of "b" warm_recs = [].
Proof. split; [vm_compute; discriminate|]. split; vm_compute; reflexivity. Qed.
