(** impl/bucket_snapshot.go and impl/bucket_reservoir.go, one goroutine at a time. *)
From Verif.Go Require Import GoInt GoFloat.
From Verif.Model Require Import Counter BucketQueue BucketCounter.
Local Open Scope Z_scope.

(** metric.go:22 *)
Definition NotAvailable : Z := -10001.

(** impl/bucket_snapshot.go:28-31.  Results are (value, error present). *)
Record bucket_snapshot := BucketSnapshot { bs_count : Z; bs_value : Z }.
(** impl/bucket_snapshot.go:88-93 *)
Definition NewBucketSnapshot (count value : Z) : bucket_snapshot := BucketSnapshot count value.
(** impl/bucket_snapshot.go:33-35 *)
Definition bs_GetValue (b : bucket_snapshot) (quantile : f64) : f64 * bool := (f_of_int NotAvailable, true).
(** impl/bucket_snapshot.go:37-39 *)
Definition bs_GetValues (b : bucket_snapshot) : list Z * bool := ([0], true).
(** impl/bucket_snapshot.go:41-43 *)
Definition bs_Size (b : bucket_snapshot) : Z * bool := (bs_count b, false).
(** impl/bucket_snapshot.go:45-67 *)
Definition bs_GetMedian (b : bucket_snapshot) : f64 * bool := (f_of_int NotAvailable, true).
Definition bs_Get75thPercentile (b : bucket_snapshot) : f64 * bool := (f_of_int NotAvailable, true).
Definition bs_Get95thPercentile (b : bucket_snapshot) : f64 * bool := (f_of_int NotAvailable, true).
Definition bs_Get98thPercentile (b : bucket_snapshot) : f64 * bool := (f_of_int NotAvailable, true).
Definition bs_Get99thPercentile (b : bucket_snapshot) : f64 * bool := (f_of_int NotAvailable, true).
Definition bs_Get999thPercentile (b : bucket_snapshot) : f64 * bool := (f_of_int NotAvailable, true).
(** impl/bucket_snapshot.go:69-71 *)
Definition bs_GetMax (b : bucket_snapshot) : Z * bool := (NotAvailable, true).
(** impl/bucket_snapshot.go:73-78 *)
Definition bs_GetMean (b : bucket_snapshot) : f64 * bool :=
  if bs_count b =? 0 then (f0, false) else (fdiv (f_of_int (bs_value b)) (f_of_int (bs_count b)), false).
(** impl/bucket_snapshot.go:80-82 *)
Definition bs_GetMin (b : bucket_snapshot) : Z * bool := (NotAvailable, true).
(** impl/bucket_snapshot.go:84-86 *)
Definition bs_GetStdDev (b : bucket_snapshot) : f64 * bool := (f_of_int NotAvailable, true).

(** impl/bucket_reservoir.go:27-32.  [countPerBucket] is a pointer to a counter
    that somebody else (the compass) updates; the functions take its current
    state as an argument. *)
Record bucket_reservoir := BucketReservoir { br_valuePerBucket : bucket_counter; br_interval : Z }.

(** impl/bucket_reservoir.go:72-79 *)
Definition NewBucketReservoir (interval numOfBucket now : Z) : res bucket_reservoir :=
  c ← newBucketCounterImpl interval numOfBucket now true; Ok (BucketReservoir c interval).

(** impl/bucket_reservoir.go:34-36 *)
Definition br_Size (countPerBucket : bucket_counter) : Z := bc_GetCount countPerBucket.

(** impl/bucket_reservoir.go:38-40 *)
Definition br_UpdateN (b : bucket_reservoir) (now value : Z) : res bucket_reservoir :=
  c ← bc_UpdateN (br_valuePerBucket b) now value; Ok (BucketReservoir c (br_interval b)).

(** impl/bucket_reservoir.go:62-70 *)
Definition br_alignToBucketStartTimeInMs (b : bucket_reservoir) (now : Z) : res Z :=
  current ← go_div now secondToMsRate;
  let intervalInSecond := interval_seconds (br_interval b) in
  q ← go_div (wrap64 (current - intervalInSecond)) intervalInSecond;
  Ok (wrap64 (wrap64 (q * intervalInSecond) * secondToMsRate)).

(** impl/bucket_reservoir.go:53-60: the first element of an iteration over a map,
    which can be any element. *)
Definition fetchValueFromMap (target : gmap Z Z) (v : Z) : Prop :=
  (target = ∅ /\ v = 0) \/ (exists k, target !! k = Some v).

(** impl/bucket_reservoir.go:42-51: the snapshots the call may return; [now1],
    [now2], [now3]: the clock readings. *)
Definition br_GetSnapshot (b : bucket_reservoir) (countPerBucket : bucket_counter) (now1 now2 now3 : Z)
  (s : bucket_snapshot) : Prop :=
  exists startTime valueResult value countResult count,
    br_alignToBucketStartTimeInMs b now1 = Ok startTime /\
    bc_GetBucketCountsSince (br_valuePerBucket b) now2 startTime = Ok valueResult /\ fetchValueFromMap valueResult value /\
    bc_GetBucketCountsSince countPerBucket now3 startTime = Ok countResult /\ fetchValueFromMap countResult count /\
    s = NewBucketSnapshot count value.

(** One event: the count is updated at one clock reading, the value at the next
    (impl/default_compass.go:182-184). *)
Record br_event := BrEvent { be_countTime : Z; be_valueTime : Z; be_value : Z }.
Definition br_step (s : bucket_counter * bucket_reservoir) (e : br_event) : res (bucket_counter * bucket_reservoir) :=
  c ← bc_UpdateN (fst s) (be_countTime e) 1;
  b ← br_UpdateN (snd s) (be_valueTime e) (be_value e);
  Ok (c, b).
Definition br_exec (interval N now0 now1 : Z) (evs : list br_event) : res (bucket_counter * bucket_reservoir) :=
  c ← newBucketCounterImpl interval N now0 true;
  b ← NewBucketReservoir interval N now1;
  run_ops br_step (c, b) evs.
