(** C03-C11: the bucket counter used by one goroutine at a time.

    Vocabulary (Spec/BucketSpec.v, Spec/CounterSpec.v): [bc_hist ops] is the
    list of (time, amount); [by_time I h] credits each amount to the start of
    the [I]-second interval containing its time; [recent_sum N h k] is the
    wrapped sum of the amounts credited to key [k] if [k] is among the [N]
    largest keys, and [None] otherwise. *)
From Verif.Go Require Import GoInt.
From Verif.Model Require Import Counter BucketQueue BucketCounter.
From Verif.Spec Require Import BucketSpec CounterSpec.
From Verif.Proofs Require Import BucketMain BucketProps.
Local Open Scope Z_scope.

(** C03 *)
Theorem C03_total : forall interval N now0 upd (ops : list (Z * bc_op)),
  Second <= interval -> in64 interval -> 0 <= N -> Forall (fun o => in64 o.1) ops ->
  exists c, bc_exec interval N now0 upd ops = Ok c /\
    bc_GetCount c = (if upd then wrap64 (sumZ (bc_delta <$> ops.*2)) else 0).
Proof. exact exec_total. Qed.
Print Assumptions C03_total.

(** C04 *)
Theorem C04_bucket_counts_exact : forall interval N now0 upd (ops : list (Z * bc_op)) now,
  Second <= interval -> in64 interval -> 0 <= N ->
  nondecreasing 0 ops.*1 now -> in64 now ->
  exists c m, bc_exec interval N now0 upd ops = Ok c /\ bc_GetBucketCounts c now = Ok m /\
    forall k, m !! k = recent_sum (Z.to_nat N) (by_time (interval / Second) (bc_hist ops)) k.
Proof. exact exec_counts_monotone. Qed.
Print Assumptions C04_bucket_counts_exact.

(** C05 *)
Theorem C05_since_is_filter : forall interval N now0 upd (ops : list (Z * bc_op)) now start,
  Second <= interval -> in64 interval -> 0 <= N -> Forall (fun o => in64 o.1) ops ->
  in64 now -> 0 <= start ->
  exists c m, bc_exec interval N now0 upd ops = Ok c /\ bc_GetBucketCounts c now = Ok m /\
    bc_GetBucketCountsSince c now start = Ok (filter (fun kv => start <= kv.1) m).
Proof. exact exec_filter. Qed.
Print Assumptions C05_since_is_filter.

(** C06 is violated: a fresh counter reports a bucket that no update created
    when asked for a start time of -1000 or earlier. *)
Theorem C06_no_phantom_refuted : exists c m,
  bc_exec Second 3 0 true [] = Ok c /\ bc_GetBucketCountsSince c 5000 (-1000) = Ok m /\
  m !! (-1000) = Some 0.
Proof. do 2 eexists. split; [vm_compute; reflexivity|]. split; vm_compute; reflexivity. Qed.
Print Assumptions C06_no_phantom_refuted.

(** C06 for every later start time: each reported key is the interval start of
    an update that was made.  Missing: start times <= -1000. *)
Theorem C06_no_phantom_partial : forall interval N now0 upd (ops : list (Z * bc_op)) now start,
  Second <= interval -> in64 interval -> 0 <= N -> Forall (fun o => in64 o.1) ops ->
  in64 now -> -1000 < start ->
  exists c m, bc_exec interval N now0 upd ops = Ok c /\ bc_GetBucketCountsSince c now start = Ok m /\
    forall k v, m !! k = Some v ->
      start <= k /\ exists t o, (t, o) ∈ ops /\ k = trunc_key (interval / Second) t.
Proof. exact no_phantom. Qed.
Print Assumptions C06_no_phantom_partial.

(** C07, for every start time. *)
Theorem C07_bounded : forall interval N now0 upd (ops : list (Z * bc_op)) now start,
  Second <= interval -> in64 interval -> 0 <= N -> Forall (fun o => in64 o.1) ops -> in64 now ->
  exists c m, bc_exec interval N now0 upd ops = Ok c /\
    bc_GetBucketCountsSince c now start = Ok m /\ Z.of_nat (size m) <= N.
Proof.
  intros interval N now0 upd ops now start H1 H2 H3 H4 H5.
  destruct (exec_since_size interval N now0 upd ops now start H1 H2 H3 H4 H5) as (c & m & A & B & C & _).
  exact (ex_intro _ c (ex_intro _ m (conj A (conj B C)))).
Qed.
Print Assumptions C07_bounded.

(** C08: any clock.  [by_latest] credits every update to the largest interval
    start seen so far; entries later than the query time are hidden. *)
Theorem C08_any_clock : forall interval N now0 upd (ops : list (Z * bc_op)) now start,
  Second <= interval -> in64 interval -> 0 <= N -> Forall (fun o => in64 o.1) ops ->
  in64 now -> -1000 < start ->
  exists c m, bc_exec interval N now0 upd ops = Ok c /\ bc_GetBucketCountsSince c now start = Ok m /\
    forall k, m !! k =
      if decide (start <= k /\ k <= trunc_key (interval / Second) now)
      then recent_sum (Z.to_nat N) (by_latest (-1000) (interval / Second) (bc_hist ops)) k
      else None.
Proof. exact exec_since. Qed.
Print Assumptions C08_any_clock.

(** C08: effective timestamps never go back, for any clock. *)
Theorem C08_effective_times_sorted : forall lo I hist,
  StronglySorted Z.le (by_latest lo I hist).*1.
Proof. exact by_latest_sorted. Qed.
Print Assumptions C08_effective_times_sorted.

(** C09, first half: any clock. *)
Theorem C09_keys_aligned : forall interval N now0 upd (ops : list (Z * bc_op)) now start,
  Second <= interval -> in64 interval -> 0 <= N -> Forall (fun o => in64 o.1) ops ->
  in64 now -> -1000 < start ->
  exists c m, bc_exec interval N now0 upd ops = Ok c /\ bc_GetBucketCountsSince c now start = Ok m /\
    forall k v, m !! k = Some v -> k mod (1000 * (interval / Second)) = 0.
Proof. exact keys_aligned. Qed.
Print Assumptions C09_keys_aligned.

(** C09, second half: after an update at time [t], the result at time [t] has
    an entry whose interval contains [t]. *)
Theorem C09_bucket_contains_update : forall interval N now0 upd (ops : list (Z * bc_op)) t o,
  Second <= interval -> in64 interval -> 0 < N ->
  nondecreasing 0 (ops ++ [(t, o)]).*1 t -> in64 t ->
  exists c m k v, bc_exec interval N now0 upd (ops ++ [(t, o)]) = Ok c /\
    bc_GetBucketCounts c t = Ok m /\ m !! k = Some v /\
    k <= t < k + 1000 * (interval / Second).
Proof. exact update_bucket_contains. Qed.
Print Assumptions C09_bucket_contains_update.

(** C10, first half: creation, every update sequence, every query and
    LastUpdateTime succeed. *)
Theorem C10_no_panic : forall interval N now0 upd (ops : list (Z * bc_op)) now start,
  Second <= interval -> in64 interval -> 0 <= N -> Forall (fun o => in64 o.1) ops -> in64 now ->
  exists c m t, bc_exec interval N now0 upd ops = Ok c /\
    bc_GetBucketCountsSince c now start = Ok m /\ bc_LastUpdateTime c = Ok t.
Proof.
  intros interval N now0 upd ops now start H1 H2 H3 H4 H5.
  destruct (exec_since_size interval N now0 upd ops now start H1 H2 H3 H4 H5) as (c & m & A & B & C & _).
  destruct (exec_LastUpdateTime interval N now0 upd ops H1 H2 H3 H4) as (c' & A' & T).
  rewrite A in A'. injection A' as <-.
  exact (ex_intro _ c (ex_intro _ m (ex_intro _ _ (conj A (conj B T))))).
Qed.
Print Assumptions C10_no_panic.

(** C10, second half: below one second every call panics. *)
Theorem C10_subsecond_panics : forall interval c now n start,
  - Second < interval < Second -> bc_interval c = interval ->
  bc_UpdateN c now n = Panic /\ bc_GetBucketCountsSince c now start = Panic.
Proof. exact subsecond_panics. Qed.
Print Assumptions C10_subsecond_panics.

(** C11 is violated: the time is reported in seconds. *)
Theorem C11_LastUpdateTime_refuted : exists c,
  bc_exec (5 * Second) 3 1000000 true [(1007000, BUpdate)] = Ok c /\
  bc_LastUpdateTime c = Ok 1005.
Proof. eexists. split; vm_compute; reflexivity. Qed.
Print Assumptions C11_LastUpdateTime_refuted.

(** C11, what does hold: never updated - the creation time; otherwise the start
    of the last update's interval, but in seconds (and the creation time while
    that start is 0).  Missing: the unit promised is milliseconds. *)
Theorem C11_LastUpdateTime_partial :
  (forall interval N now0 upd, Second <= interval -> in64 interval -> 0 <= N ->
     exists c, bc_exec interval N now0 upd [] = Ok c /\ bc_LastUpdateTime c = Ok now0) /\
  (forall interval N now0 upd (ops : list (Z * bc_op)) t o,
     Second <= interval -> in64 interval -> 0 <= N ->
     nondecreasing 0 (ops ++ [(t, o)]).*1 t -> in64 t ->
     exists c, bc_exec interval N now0 upd (ops ++ [(t, o)]) = Ok c /\
       bc_LastUpdateTime c =
         Ok (if decide (bucket_key (interval / Second) t = 0) then now0
             else bucket_key (interval / Second) t / 1000)).
Proof.
  split.
  - intros interval N now0 upd H1 H2 H3.
    exact (exec_LastUpdateTime interval N now0 upd [] H1 H2 H3 (List.Forall_nil _)).
  - exact LastUpdateTime_monotone.
Qed.
Print Assumptions C11_LastUpdateTime_partial.

(** Hypotheses are met by concrete histories, including eviction, a backward
    clock and ring wrap-around. *)
Definition demo_ops : list (Z * bc_op) :=
  [(1000, BUpdate); (4999, BUpdateN 6); (5000, BIncN 10); (11000, BDec); (14999, BDecN 3); (31000, BInc)].

Example demo_hypotheses :
  Second <= 5 * Second /\ in64 (5 * Second) /\ 0 <= 2 /\
  nondecreasing 0 demo_ops.*1 33000 /\ Forall (fun o => in64 o.1) demo_ops /\ in64 33000 /\
  nondecreasing 0 (demo_ops ++ [(33000, BUpdate)]).*1 33000.
Proof.
  unfold Second, in64, two63, demo_ops. cbn [app fmap list_fmap fst nondecreasing].
  split_and!; try lia. repeat (apply List.Forall_cons; [cbn [fst]; lia|]). apply List.Forall_nil.
Qed.

Example demo_result :
  (c ← bc_exec (5 * Second) 2 0 true demo_ops;
   m ← bc_GetBucketCounts c 33000;
   Ok (map_to_list m, bc_GetCount c)) = Ok ([(10000, -4); (30000, 1)], 14).
Proof. vm_compute. reflexivity. Qed.

Example demo_backward :
  (c ← bc_exec (5 * Second) 2 0 true [(31000, BUpdate); (7000, BUpdateN 4); (36000, BUpdate)];
   m ← bc_GetBucketCounts c 34000;
   Ok (map_to_list m)) = Ok [(30000, 5)].
Proof. vm_compute. reflexivity. Qed.

Example demo_subsecond : - Second < 1500000 < Second.
Proof. unfold Second; lia. Qed.
