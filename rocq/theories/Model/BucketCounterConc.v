(** impl/default_bucket_counter.go [UpdateN] executed by any number of
    goroutines, one memory access per step.  The sequential model of the same
    code is Model/BucketCounter.v; [conc_agrees_with_sequential]
    (Props/PBucketConc.v) shows that an uninterrupted goroutine does the same.

    Simplifications: memory is sequentially consistent; the new bucket of
    line 112 is entered into the heap only when it is published by the CAS (the
    bucket of a failed CAS is garbage that nobody can reach); pointers are
    never reused, so the CAS has no ABA problem (the loser still holds the old
    pointer, hence the garbage collector cannot recycle it). *)
From Verif.Go Require Import GoInt GoConc.
From Verif.Model Require Import Counter BucketQueue BucketCounter.
Local Open Scope Z_scope.

Record bc_shared := BcShared { bs_bc : bucket_counter; bs_clock : Z }.

(** Where a goroutine is inside UpdateN(n), with its local variables. *)
Inductive bpc :=
| PIdle                                 (* between calls *)
| PClock (n : Z)                        (* line 107: about to read the clock *)
| PLoad (n ts : Z)                      (* line 108: about to load latestBucket *)
| PCmp (n ts : Z) (old : ptr)           (* line 110: about to read old.timestamp *)
| PCas (n ts : Z) (old : ptr)           (* line 114: about to CompareAndSwap *)
| PCurLoad (n : Z) (bk : ptr)           (* bucket_queue.go:66: about to load current *)
| PCurStore (n : Z) (bk : ptr) (v : nat)(* bucket_queue.go:66: about to store current *)
| PSlotLoad (n : Z) (bk : ptr)          (* bucket_queue.go:67: about to load current *)
| PSlotStore (n : Z) (bk : ptr) (i : nat)(* bucket_queue.go:67: about to store queue[i] *)
| PReload (n : Z)                       (* line 120: about to load latestBucket *)
| PAdd (n : Z) (bk : ptr).              (* line 123: about to AddInt64 *)

(** A goroutine: the amounts of the UpdateN calls after the current one. *)
Record bthread := BThread { bt_todo : list Z; bt_pc : bpc }.

(** Field updates of the shared counter. *)
Definition set_total (c : bucket_counter) (x : counter) : bucket_counter :=
  BucketCounterImpl x (bc_updateTotalCount c) (bc_latestBucket c) (bc_heap c) (bc_buckets c)
    (bc_interval c) (bc_initTimestamp c).
Definition set_buckets (c : bucket_counter) (d : deque) : bucket_counter :=
  BucketCounterImpl (bc_totalCount c) (bc_updateTotalCount c) (bc_latestBucket c) (bc_heap c) d
    (bc_interval c) (bc_initTimestamp c).
Definition set_heap (c : bucket_counter) (h : list bucket) : bucket_counter :=
  BucketCounterImpl (bc_totalCount c) (bc_updateTotalCount c) (bc_latestBucket c) h (bc_buckets c)
    (bc_interval c) (bc_initTimestamp c).
Definition publish (c : bucket_counter) (ts : Z) : bucket_counter :=
  BucketCounterImpl (bc_totalCount c) (bc_updateTotalCount c) (length (bc_heap c))
    (bc_heap c ++ [Bucket ts 0]) (bc_buckets c) (bc_interval c) (bc_initTimestamp c).

(** One step.  [None]: no call left, or the goroutine panics (nil/out of range
    or division by zero). *)
Definition bc_tstep (s : bc_shared) (t : bthread) : option (bc_shared * bthread) :=
  let c := bs_bc s in
  let goto c' pc := Some (BcShared c' (bs_clock s), BThread (bt_todo t) pc) in
  match bt_pc t with
  | PIdle => (* lines 103-105 *)
      match bt_todo t with
      | [] => None
      | n :: todo =>
          Some (BcShared (if bc_updateTotalCount c then set_total c (counter_IncN (bc_totalCount c) n) else c)
                  (bs_clock s), BThread todo (PClock n))
      end
  | PClock n => (* line 107 *)
      match alignTimestamp (bc_interval c) (bs_clock s) with
      | Ok ts => goto c (PLoad n ts)
      | Panic => None
      end
  | PLoad n ts => goto c (PCmp n ts (bc_latestBucket c)) (* line 108 *)
  | PCmp n ts old => (* line 110 *)
      match bc_heap c !! old with
      | Some b => goto c (if bk_ts b <? ts then PCas n ts old else PAdd n old)
      | None => None
      end
  | PCas n ts old => (* line 114 *)
      if decide (bc_latestBucket c = old)
      then goto (publish c ts) (PCurLoad n (length (bc_heap c)))
      else goto c (PReload n)
  | PCurLoad n bk => (* bucket_queue.go:66 *)
      match length (dq_queue (bc_buckets c)) with
      | O => None
      | len => goto c (PCurStore n bk ((dq_current (bc_buckets c) + 1) mod len)%nat)
      end
  | PCurStore n bk v => (* bucket_queue.go:66 *)
      goto (set_buckets c (Deque (dq_queue (bc_buckets c)) v)) (PSlotLoad n bk)
  | PSlotLoad n bk => goto c (PSlotStore n bk (dq_current (bc_buckets c))) (* bucket_queue.go:67 *)
  | PSlotStore n bk i => (* bucket_queue.go:67 *)
      if (i <? length (dq_queue (bc_buckets c)))%nat
      then goto (set_buckets c (Deque (<[i := bk]> (dq_queue (bc_buckets c))) (dq_current (bc_buckets c)))) (PAdd n bk)
      else None
  | PReload n => goto c (PAdd n (bc_latestBucket c)) (* line 120 *)
  | PAdd n bk => (* line 123 *)
      match heap_add (bc_heap c) bk n with
      | Ok h => goto (set_heap c h) PIdle
      | Panic => None
      end
  end.

(** The clock may be set to any int64 value at any moment. *)
Definition bc_estep (s : bc_shared) (now : Z) : bc_shared := BcShared (bs_bc s) (wrap64 now).

(** A fresh counter, with one goroutine per list of UpdateN amounts. *)
Definition bc_cinit (interval N now0 : Z) (upd : bool) (progs : list (list Z))
  : res (config bc_shared bthread) :=
  c ← newBucketCounterImpl interval N now0 upd;
  Ok (Config (BcShared c (wrap64 now0)) ((fun p => BThread p PIdle) <$> progs)).

Definition bc_crun (interval N now0 : Z) (upd : bool) (progs : list (list Z)) (sched : list (event Z))
  : res (config bc_shared bthread) :=
  c0 ← bc_cinit interval N now0 upd progs;
  Ok (crun bc_tstep bc_estep c0 sched).
