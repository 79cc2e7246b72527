(** C22, C23, C84: a fast compass used by any number of goroutines.
    [fc_crun fc0 now0 progs sched] starts goroutines with programs [progs] on a
    compass in state [fc0] and runs them under the arbitrary schedule [sched],
    which also moves the clock arbitrarily. *)
From Verif.Go Require Import GoInt GoConc.
From Verif.Model Require Import BucketQueue BucketCounter FastCompass FastCompassConc.
From Verif.Spec Require Import FastCompassSpec FastCompassConcSpec.
From Verif.Proofs Require Import FastCompassProofs FastCompassConcProofs.
Local Open Scope Z_scope.

(** At every moment there is a total order (log) of the valid Record calls
    carried out so far - each goroutine's calls in its program order, in the
    order in which they got the lock, with clock readings that occurred - such
    that whenever nobody is inside the critical section the compass is in
    exactly the state that executing the log one call after another gives. *)
Theorem C22_record_linearizable : forall max interval N recs0 fc0 now0 progs sched,
  Second <= interval -> in64 interval -> 0 <= N -> Forall (fun r => in64 (rc_time r)) recs0 ->
  fc_exec max interval N recs0 = Ok fc0 ->
  let c := fc_crun fc0 now0 progs sched in
  fs_crashed (shared c) = false ->
  exists log,
    (forall i prog, progs !! i = Some prog -> exists t, threads c !! i = Some t /\
       accepted prog = log_of i log ++ begun (ft_pc t) ++ accepted (ft_todo t)) /\
    (forall e, e ∈ log -> (e.1 < length progs)%nat /\ rc_time e.2 ∈ fs_times (shared c) /\ rc_createTime e.2 ∈ fs_times (shared c)) /\
    ((fun e => (rc_duration e.2, rc_category e.2)) <$> log) `prefix_of` fs_entered (shared c) /\
    (fs_locked (shared c) = false ->
       fs_entered (shared c) = (fun e => (rc_duration e.2, rc_category e.2)) <$> log /\
       fc_exec max interval N (recs0 ++ log.*2) = Ok (fs_fc (shared c))).
Proof. exact fc_linearizable. Qed.
Print Assumptions C22_record_linearizable.

(** When all goroutines have finished, the compass is in the state that the
    calls of all programs give when executed one after another in lock order. *)
Theorem C22_record_final : forall max interval N recs0 fc0 now0 progs sched,
  Second <= interval -> in64 interval -> 0 <= N -> Forall (fun r => in64 (rc_time r)) recs0 ->
  fc_exec max interval N recs0 = Ok fc0 ->
  let c := fc_crun fc0 now0 progs sched in
  fs_crashed (shared c) = false -> Forall fc_done (threads c) ->
  exists log,
    (forall i prog, progs !! i = Some prog -> accepted prog = log_of i log) /\
    (forall e, e ∈ log -> (e.1 < length progs)%nat /\ rc_time e.2 ∈ fs_times (shared c) /\ rc_createTime e.2 ∈ fs_times (shared c)) /\
    fs_entered (shared c) = (fun e => (rc_duration e.2, rc_category e.2)) <$> log /\
    fc_exec max interval N (recs0 ++ log.*2) = Ok (fs_fc (shared c)).
Proof.
  intros max interval N recs0 fc0 now0 progs sched I1 I2 I3 Hf E c Hc Hd.
  destruct (fc_linearizable max interval N recs0 fc0 now0 progs sched I1 I2 I3 Hf E Hc) as (log & H1 & H2 & _ & H4).
  destruct H4 as [H4 H5]; [by eapply fc_done_unlocked|]. exists log. split_and!; try done.
  intros i prog Hp. destruct (H1 i prog Hp) as (t & Ht & ->).
  pose proof (Forall_lookup_1 _ _ _ _ Hd Ht) as [-> ->]. cbn. by rewrite app_nil_r.
Qed.
Print Assumptions C22_record_final.

(** Two goroutines with three Records whose critical sections are separated by
    clock movements; the schedule makes goroutine 1 wait for the lock. *)
Example C22_case :
  exists fc0, fc_exec 2 Second 3 [] = Ok fc0 /\
  let c := fc_crun fc0 0 [[CRecord 2000000 "a"; CRecord 5 "b"]; [CRecord 3000000 "a"; CRecord (-1) "a"; CRecord 1 "c"]]
     ([Run 0; Run 1; Run 0; Run 1; Run 0; Env 1000000000%Z; Run 0; Run 0; Run 0; Run 1; Run 0; Run 0]%nat ++
      replicate 20 (Run 1%nat) ++ replicate 12 (Run 0%nat)) in
  fs_crashed (shared c) = false /\ forallb (fun t => match ft_todo t, ft_pc t with [], FIdle => true | _, _ => false end) (threads c) = true /\
  fs_entered (shared c) = [(2000000, "a"%string); (3000000, "a"%string); (1, "c"%string); (5, "b"%string)] /\
  elements (dom (fc_subCategories (fs_fc (shared c)))) = ["a"%string; "c"%string].
Proof. eexists. split; [vm_compute; reflexivity|]. cbv zeta. split_and!; vm_compute; reflexivity. Qed.

(** C84: no deadlock - as long as some call is unfinished some goroutine can run. *)
Theorem C84_no_deadlock : forall max interval N recs0 fc0 now0 progs sched,
  Second <= interval -> in64 interval -> 0 <= N -> Forall (fun r => in64 (rc_time r)) recs0 ->
  fc_exec max interval N recs0 = Ok fc0 ->
  let c := fc_crun fc0 now0 progs sched in
  fs_crashed (shared c) = false -> ~ Forall fc_done (threads c) ->
  exists i t s' t', threads c !! i = Some t /\ fc_tstep (shared c) t = Some (s', t').
Proof. exact fc_conc_progress. Qed.
Print Assumptions C84_no_deadlock.

(** C23 is false: a getter that iterates over the categories while a Record
    adds one aborts the process. *)
Theorem C23_queries_safe_refuted : exists fc0 progs sched,
  fc_exec 10 (60 * Second) 5 [] = Ok fc0 /\
  progs = [[CRecord 1000000 "login"]; [CGetter 1]] /\
  fs_crashed (shared (fc_crun fc0 0 progs sched)) = true.
Proof.
  eexists _, _, [Run 0; Run 0; Run 0; Run 0; Run 0; Run 1; Run 1]%nat.
  split; [vm_compute; reflexivity|]. split; [reflexivity|]. vm_compute. reflexivity.
Qed.
Print Assumptions C23_queries_safe_refuted.

(** What does hold: Record calls alone are safe against each other, ... *)
Theorem C23_records_only_partial : forall max interval N recs0 fc0 now0 progs sched,
  Second <= interval -> in64 interval -> 0 <= N -> Forall (fun r => in64 (rc_time r)) recs0 ->
  fc_exec max interval N recs0 = Ok fc0 ->
  (forall prog call, prog ∈ progs -> call ∈ prog -> exists d cat, call = CRecord d cat) ->
  fs_crashed (shared (fc_crun fc0 now0 progs sched)) = false.
Proof.
  intros max interval N recs0 fc0 now0 progs sched I1 I2 I3 Hf E Hg.
  eapply fc_no_getter_no_crash; try done. apply Forall_forall. intros prog Hp. apply Forall_forall.
  intros call Hc. by destruct (Hg prog call Hp Hc) as (d & cat & ->).
Qed.
Print Assumptions C23_records_only_partial.

(** ... and getters are safe next to Records that add no category, because it is
    already tracked or the limit is reached. *)
Theorem C23_no_new_category_partial : forall fc0 now0 progs sched,
  (forall prog d cat, prog ∈ progs -> CRecord d cat ∈ prog ->
     is_Some (fc_subCategories fc0 !! cat) \/
     fc_maxSubCategoryCount fc0 <= Z.of_nat (size (fc_subCategories fc0))) ->
  fs_crashed (shared (fc_crun fc0 now0 progs sched)) = false.
Proof.
  intros fc0 now0 progs sched Hg. apply fc_no_create_no_crash. apply Forall_forall. intros prog Hp. apply Forall_forall.
  intros [d cat|k] Hc; [|done]. by eapply Hg.
Qed.
Print Assumptions C23_no_new_category_partial.

(** Both hypotheses are met by a warmed-up compass. *)
Example C23_case : exists fc0, fc_exec 10 Second 5 [FcRecord 0 0 7 "a"] = Ok fc0 /\
  fc_subCategories fc0 !! "a"%string <> None /\
  fs_crashed (shared (fc_crun fc0 0 [[CRecord 1 "a"]; [CGetter 3]]
    [Run 0; Run 1; Run 0; Run 1; Run 0; Run 1; Run 0; Run 1; Run 0; Run 1; Run 1]%nat)) = false.
Proof. eexists. split; [vm_compute; reflexivity|]. split; [vm_compute; discriminate|]. vm_compute. reflexivity. Qed.
