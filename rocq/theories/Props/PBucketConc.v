(** C12-C15: one bucket counter updated by any number of goroutines.

    [bc_crun interval N now0 upd progs sched] creates the counter, starts one
    goroutine per element of [progs] (the amounts of its UpdateN calls) and runs
    the arbitrary schedule [sched], one memory access per [Run i]; [Env t] sets
    the clock to [t].  Vocabulary: Spec/BucketConcSpec.v. *)
From Verif.Go Require Import GoInt GoConc.
From Verif.Model Require Import Counter BucketQueue BucketCounter BucketCounterConc.
From Verif.Spec Require Import BucketSpec BucketConcSpec.
From Verif.Proofs Require Import BucketConcMain.
Local Open Scope Z_scope.

(** The step model and the sequential model describe the same code. *)
Theorem conc_agrees_with_sequential : forall c clk n c',
  bc_UpdateN c clk n = Ok c' ->
  crun bc_tstep bc_estep (Config (BcShared c clk) [BThread [n] PIdle]) (replicate 10 (Run 0%nat)) =
  Config (BcShared c' clk) [BThread [] PIdle].
Proof. exact conc_agrees. Qed.
Print Assumptions conc_agrees_with_sequential.

(** C12 *)
Theorem C12_total_exact : forall interval N now0 upd progs sched,
  Second <= interval -> in64 interval -> 0 <= N ->
  exists c, bc_crun interval N now0 upd progs sched = Ok c /\
    (quiescent c -> bc_GetCount (bs_bc (shared c)) = if upd then wrap64 (sumZ (mjoin progs)) else 0).
Proof. exact conc_total. Qed.
Print Assumptions C12_total_exact.

(** C13: at every moment each amount is either still to be added or has been
    credited to exactly one bucket, and a bucket's count is the sum of its
    credits. *)
Theorem C13_one_bucket_each : forall interval N now0 upd progs sched,
  Second <= interval -> in64 interval -> 0 <= N ->
  exists c cr, bc_crun interval N now0 upd progs sched = Ok c /\
    cr.*2 ++ mjoin (unfinished <$> threads c) ≡ₚ mjoin progs /\
    (forall p, p ∈ cr.*1 -> (p < length (bc_heap (bs_bc (shared c))))%nat) /\
    (forall p b, bc_heap (bs_bc (shared c)) !! p = Some b -> bk_count b = wrap64 (credit p cr)).
Proof. exact conc_credits. Qed.
Print Assumptions C13_one_bucket_each.

(** C13: the sum over all buckets ever created. *)
Theorem C13_sum_over_buckets : forall interval N now0 upd progs sched,
  Second <= interval -> in64 interval -> 0 <= N ->
  exists c, bc_crun interval N now0 upd progs sched = Ok c /\
    (quiescent c ->
       wrap64 (sumZ (bk_count <$> bc_heap (bs_bc (shared c)))) = wrap64 (sumZ (mjoin progs))).
Proof. exact conc_sum_over_buckets. Qed.
Print Assumptions C13_sum_over_buckets.

(** C14: the first N+1 heap entries are the placeholders of the constructor
    (timestamp -1), all later ones are buckets installed by updates. *)
Theorem C14_one_bucket_per_timestamp : forall interval N now0 upd progs sched,
  Second <= interval -> in64 interval -> 0 <= N ->
  exists c, bc_crun interval N now0 upd progs sched = Ok c /\
    let h := bc_heap (bs_bc (shared c)) in
    (forall p b, h !! p = Some b -> (p < S (Z.to_nat N))%nat -> bk_ts b = -1) /\
    (forall p q b b', (p < q)%nat -> (S (Z.to_nat N) <= q)%nat -> h !! p = Some b -> h !! q = Some b' ->
       bk_ts b < bk_ts b') /\
    (exists b, h !! bc_latestBucket (bs_bc (shared c)) = Some b /\
       forall p b', h !! p = Some b' -> bk_ts b' <= bk_ts b).
Proof. exact conc_buckets. Qed.
Print Assumptions C14_one_bucket_per_timestamp.

Theorem C14_latest_never_decreases : forall interval N now0 upd progs s1 s2,
  Second <= interval -> in64 interval -> 0 <= N ->
  exists c1 c2 b1 b2, bc_crun interval N now0 upd progs s1 = Ok c1 /\
    bc_crun interval N now0 upd progs (s1 ++ s2) = Ok c2 /\
    bc_heap (bs_bc (shared c1)) !! bc_latestBucket (bs_bc (shared c1)) = Some b1 /\
    bc_heap (bs_bc (shared c2)) !! bc_latestBucket (bs_bc (shared c2)) = Some b2 /\
    bk_ts b1 <= bk_ts b2.
Proof. exact conc_latest_monotone. Qed.
Print Assumptions C14_latest_never_decreases.

(** C83: UpdateN is wait-free and never panics: a goroutine that has been run
    ten times per call is done, whatever the others and the clock do. *)
Theorem C83_update_wait_free : forall interval N now0 upd progs sched i prog,
  Second <= interval -> in64 interval -> 0 <= N -> progs !! i = Some prog ->
  exists c t, bc_crun interval N now0 upd progs sched = Ok c /\ threads c !! i = Some t /\
    (unfinished t = [] \/ (runs i sched < 10 * length prog)%nat).
Proof. exact conc_wait_free. Qed.
Print Assumptions C83_update_wait_free.

(** A schedule of [n] steps of goroutine [i]. *)
Notation steps i n := (replicate n (Run (E:=Z) i%nat)).

(** C15 is violated: two goroutines create the buckets of seconds 1 and 2 and
    then interleave in addLast.  Both enter their bucket in the same ring slot,
    so the newest bucket, holding the amount 7 of second 2, is lost although
    only two buckets exist and two are kept. *)
Definition lost_bucket_schedule : list (event Z) :=
  [Env 1000] ++ steps 0 5 ++ [Env 2000] ++ steps 1 5 ++   (* both have installed their bucket *)
  [Run 0; Run 1; Run 0; Run 1; Run 0; Run 1; Run 1; Run 0; Run 0; Run 1]%nat.

Theorem C15_counts_exact_refuted : exists c m,
  bc_crun Second 2 0 true [[5]; [7]] lost_bucket_schedule = Ok c /\
  unfinished <$> threads c = [[]; []] /\
  bc_GetCount (bs_bc (shared c)) = 12 /\
  (fun b => (bk_ts b, bk_count b)) <$> bc_heap (bs_bc (shared c)) = [(-1, 0); (-1, 0); (-1, 0); (1, 5); (2, 7)] /\
  bc_GetBucketCounts (bs_bc (shared c)) 2000 = Ok m /\ map_to_list m = [(1000, 5)].
Proof. do 2 eexists. split; [vm_compute; reflexivity|]. split_and!; vm_compute; reflexivity. Qed.
Print Assumptions C15_counts_exact_refuted.

(** C15 is also violated without that race: the call of goroutine 0 starts and
    ends in second 2, loses the CompareAndSwap to goroutine 1 (which had read
    the clock in second 1) and adds its 7 to the bucket of second 1. *)
Definition wrong_interval_schedule : list (event Z) :=
  [Env 1000] ++ steps 1 2 ++ [Env 2000] ++ steps 0 4 ++ steps 1 10 ++ steps 0 3.

Theorem C15_wrong_interval_refuted : exists c m,
  bc_crun Second 2 0 true [[7]; [5]] wrong_interval_schedule = Ok c /\
  unfinished <$> threads c = [[]; []] /\
  bc_GetBucketCounts (bs_bc (shared c)) 2000 = Ok m /\ map_to_list m = [(1000, 12)].
Proof. do 2 eexists. split; [vm_compute; reflexivity|]. split_and!; vm_compute; reflexivity. Qed.
Print Assumptions C15_wrong_interval_refuted.

(** C15 when no two goroutines are ever in addLast at the same time: after the
    run the reported counts are exactly the sums of the amounts credited to the
    N newest buckets.  Missing: overlapping addLast calls (see the refutation),
    and that the credited bucket is the one of the clock reading. *)
Theorem C15_counts_partial : forall interval N now0 upd progs sched,
  Second <= interval -> in64 interval -> 0 <= N ->
  (forall s1 s2 c, sched = s1 ++ s2 -> bc_crun interval N now0 upd progs s1 = Ok c -> exclusive c) ->
  exists c cr, bc_crun interval N now0 upd progs sched = Ok c /\
    (forall p, p ∈ cr.*1 -> (p < length (bc_heap (bs_bc (shared c))))%nat) /\
    (quiescent c -> cr.*2 ≡ₚ mjoin progs /\
      forall now start, in64 now -> -1000 < start ->
      exists m, bc_GetBucketCountsSince (bs_bc (shared c)) now start = Ok m /\
        forall k, m !! k =
          if decide (start <= k /\ k <= trunc_key (interval_seconds interval) now)
          then recent_sum (Z.to_nat N) (by_bucket (bc_heap (bs_bc (shared c))) cr) k else None).
Proof. exact conc_counts_exclusive. Qed.
Print Assumptions C15_counts_partial.

(** C15 for a burst within one interval, under every interleaving and with no
    further condition: the amounts of all calls are reported for that interval. *)
Theorem C15_one_interval_partial : forall interval N now0 upd progs sched k,
  Second <= interval -> in64 interval -> 0 <= N ->
  Forall (in_interval (interval_seconds interval) k) (Env now0 :: sched) ->
  exists c, bc_crun interval N now0 upd progs sched = Ok c /\
    (quiescent c ->
      forall now start, in64 now -> -1000 < start ->
      exists m, bc_GetBucketCountsSince (bs_bc (shared c)) now start = Ok m /\
        forall k', m !! k' =
          if decide (start <= k' /\ k' <= trunc_key (interval_seconds interval) now)
          then recent_sum (Z.to_nat N) (pair k <$> mjoin progs) k' else None).
Proof. exact conc_one_interval. Qed.
Print Assumptions C15_one_interval_partial.

(** A case meeting the hypotheses of all of these: three goroutines racing to
    create the bucket of second 1; everybody finishes, all is reported. *)
Definition burst_schedule : list (event Z) :=
  [Env 1500] ++ steps 0 4 ++ steps 1 4 ++ steps 2 4 ++ [Env 1999] ++ steps 1 3 ++ steps 0 1 ++
  steps 2 10 ++ steps 0 10 ++ [Env 1001] ++ steps 1 20.
Example C15_case :
  Forall (in_interval 1 1000) (Env 1000 :: burst_schedule) /\
  (c ← bc_crun Second 2 1000 true [[5]; [7; 1]; [2]] burst_schedule;
   m ← bc_GetBucketCounts (bs_bc (shared c)) 1999;
   Ok (unfinished <$> threads c, map_to_list m, bc_GetCount (bs_bc (shared c)))) =
  Ok ([[]; []; []], [(1000, 15)], 15).
Proof.
  split; [|vm_compute; reflexivity].
  repeat constructor; unfold in64, two63; try done; lia.
Qed.

(** The condition of [C15_counts_partial] holds e.g. for any single goroutine. *)
Example C15_exclusive_case : forall c t, threads c = [t] -> exclusive c.
Proof.
  intros c t E i j ti tj Hi Hj _ _. rewrite E in *.
  apply lookup_lt_Some in Hi. apply lookup_lt_Some in Hj. cbn in *. lia.
Qed.
