(** impl/default_bucket_counter.go, as executed by one goroutine at a time.
    (The interleaved version of [UpdateN] is in Model/BucketCounterConc.v.) *)
From Verif.Go Require Import GoInt.
From Verif.Model Require Import Counter BucketQueue.
Local Open Scope Z_scope.

(** impl/default_bucket_counter.go:31 [secondToMsRate = 1000] *)
Definition secondToMsRate : Z := 1000.

(** One second as a time.Duration (nanoseconds). *)
Definition Second : Z := 1000000000.

(** [int64(interval.Seconds())], impl/default_bucket_counter.go:152.
    [Seconds()] goes through float64; for |interval| below 2^22 seconds the
    result is the integer quotient (proved against binary64 arithmetic as
    [seconds_float_exact] in Props/PFloat.v).  Simplification: the quotient is used
    for every interval. *)
Definition interval_seconds (d : Z) : Z := Z.quot d Second.

(** impl/default_bucket_counter.go:39-65  [type BucketCounterImpl struct].
    The [clock] field is not stored: every operation that reads the clock takes
    the reading as an argument. *)
Record bucket_counter := BucketCounterImpl {
  bc_totalCount : counter;
  bc_updateTotalCount : bool;
  bc_latestBucket : ptr;
  bc_heap : heap;
  bc_buckets : deque;
  bc_interval : Z;
  bc_initTimestamp : Z
}.

(** impl/default_bucket_counter.go:151-153  [alignTimestamp] *)
Definition alignTimestamp (interval timestmp : Z) : res Z :=
  a ← go_div timestmp secondToMsRate;
  b ← go_div a (interval_seconds interval);
  Ok (wrap64 (b * interval_seconds interval)).

(** impl/default_bucket_counter.go:157-169  [newBucketCounterImpl];
    [now] is the reading of [clock.GetTime()]. *)
Definition newBucketCounterImpl (interval numbOfBuckets now : Z) (updateTotalCount : bool)
  : res bucket_counter :=
  hd ← newBucketDequeue numbOfBuckets;
  p ← dq_peek (snd hd);
  Ok (BucketCounterImpl newCounter updateTotalCount p (fst hd) (snd hd) interval now).

(** impl/default_bucket_counter.go:69-75  [LastUpdateTime] *)
Definition bc_LastUpdateTime (c : bucket_counter) : res Z :=
  b ← of_option (bc_heap c !! bc_latestBucket c);
  Ok (if bk_ts b <=? 0 then bc_initTimestamp c else bk_ts b).

(** impl/default_bucket_counter.go:78-80  [GetCount] *)
Definition bc_GetCount (c : bucket_counter) : Z := counter_GetCount (bc_totalCount c).

(** [atomic.AddInt64(&b.count, n)] on a heap bucket,
    impl/default_bucket_counter.go:123. *)
Definition heap_add (h : heap) (p : ptr) (n : Z) : res heap :=
  b ← of_option (h !! p);
  Ok (<[p := Bucket (bk_ts b) (wrap64 (bk_count b + n))]> h).

(** impl/default_bucket_counter.go:102-124  [UpdateN].  With one goroutine the
    CompareAndSwapPointer always succeeds, so only that branch appears. *)
Definition bc_UpdateN (c : bucket_counter) (now n : Z) : res bucket_counter :=
  let total := if bc_updateTotalCount c then counter_IncN (bc_totalCount c) n
               else bc_totalCount c in
  currentTs ← alignTimestamp (bc_interval c) now;
  old ← of_option (bc_heap c !! bc_latestBucket c);
  if bk_ts old <? currentTs then
    let p := length (bc_heap c) in
    let h := bc_heap c ++ [Bucket currentTs 0] in
    d ← dq_addLast (bc_buckets c) p;
    h' ← heap_add h p n;
    Ok (BucketCounterImpl total (bc_updateTotalCount c) p h' d
          (bc_interval c) (bc_initTimestamp c))
  else
    h' ← heap_add (bc_heap c) (bc_latestBucket c) n;
    Ok (BucketCounterImpl total (bc_updateTotalCount c) (bc_latestBucket c) h'
          (bc_buckets c) (bc_interval c) (bc_initTimestamp c)).

(** impl/default_bucket_counter.go:98-100 [Update], 82-84 [Inc], 86-88 [IncN],
    90-92 [Dec], 94-96 [DecN]; counter.go:24-46, bucket_counter.go:24-51. *)
Inductive bc_op :=
| BUpdate | BUpdateN (n : Z) | BInc | BIncN (n : Z) | BDec | BDecN (n : Z).

Definition bc_step (c : bucket_counter) (o : Z * bc_op) : res bucket_counter :=
  match snd o with
  | BUpdate => bc_UpdateN c (fst o) 1
  | BUpdateN n => bc_UpdateN c (fst o) n
  | BInc => bc_UpdateN c (fst o) 1
  | BIncN n => bc_UpdateN c (fst o) n
  | BDec => bc_UpdateN c (fst o) (-1)
  | BDecN n => bc_UpdateN c (fst o) (wrap64 (- n))
  end.

(** A history: each call paired with the clock reading it sees. *)
Definition bc_run (c : bucket_counter) (ops : list (Z * bc_op)) : res bucket_counter :=
  run_ops bc_step c ops.

(** impl/default_bucket_counter.go:135-141, the loop filling the result map. *)
Fixpoint gbc_loop (h : heap) (currentTs startTime : Z) (l : list ptr) (result : gmap Z Z)
  : res (gmap Z Z) :=
  match l with
  | [] => Ok result
  | p :: l' =>
      b ← of_option (h !! p);
      let ms := wrap64 (secondToMsRate * bk_ts b) in
      gbc_loop h currentTs startTime l'
        (if (startTime <=? ms) && (bk_ts b <=? currentTs)
         then <[ms := bk_count b]> result else result)
  end.

(** impl/default_bucket_counter.go:130-143  [GetBucketCountsSince] *)
Definition bc_GetBucketCountsSince (c : bucket_counter) (now startTime : Z) : res (gmap Z Z) :=
  currentTs ← alignTimestamp (bc_interval c) now;
  l ← dq_getBucketList (bc_heap c) (bc_buckets c);
  gbc_loop (bc_heap c) currentTs startTime l ∅.

(** impl/default_bucket_counter.go:126-128  [GetBucketCounts] *)
Definition bc_GetBucketCounts (c : bucket_counter) (now : Z) : res (gmap Z Z) :=
  bc_GetBucketCountsSince c now 0.

(** impl/default_bucket_counter.go:145-147  [GetBucketInterval] *)
Definition bc_GetBucketInterval (c : bucket_counter) : Z := bc_interval c.

(** A counter created at clock reading [now0] and then driven through [ops]. *)
Definition bc_exec (interval numbOfBuckets now0 : Z) (upd : bool) (ops : list (Z * bc_op))
  : res bucket_counter :=
  c ← newBucketCounterImpl interval numbOfBuckets now0 upd;
  bc_run c ops.
