(** impl/default_bucket_counter.go: goroutines calling GetBucketCountsSince on a counter
    while others call UpdateN.  The updating goroutines take exactly the steps of
    Model/BucketCounterConc.v; a reading goroutine makes one access of a shared field per
    step.  It holds no lock.

    Simplification: a bucket's timestamp never changes after the bucket was published, so
    reading it together with the access that found the bucket is the same as reading it
    later. *)
From Verif.Go Require Import GoInt GoConc.
From Verif.Model Require Import Counter BucketQueue BucketCounter BucketCounterConc.
Local Open Scope Z_scope.

(** Where a goroutine is inside GetBucketCountsSince(start), with its local variables. *)
Inductive rdpc :=
| RIdle
| RClock (start : Z)                                 (* line 132: read the clock *)
| RCur (start cts : Z)                               (* bucket_queue.go:87: startPos := bq.current *)
| RCur2 (start cts : Z) (pos : nat)                  (* bucket_queue.go:89: load bq.current again *)
| RTop (start cts : Z) (pos j : nat)                 (* bucket_queue.go:89: load bq.queue[j] *)
| RLoop1 (start cts : Z) (pos : nat) (sts : Z) (i1 : nat) (acc : list ptr)
                                                     (* bucket_queue.go:91-93; i = i1 - 1 *)
| RLoop2 (start cts : Z) (pos : nat) (sts : Z) (i : nat) (acc : list ptr)
                                                     (* bucket_queue.go:95-101 *)
| RFill (start cts : Z) (l : list ptr) (result : gmap Z Z). (* lines 135-141 *)

(** A reading goroutine: the start times of its next calls, the results of the finished
    ones. *)
Record rdthread := RdThread { rd_todo : list Z; rd_pc : rdpc; rd_got : list (gmap Z Z) }.

(** One step; [None]: no call left, or the goroutine panics. *)
Definition rd_step (s : bc_shared) (t : rdthread) : option rdthread :=
  let c := bs_bc s in
  let q := dq_queue (bc_buckets c) in
  let len := (length q - 1)%nat in
  let goto pc := Some (RdThread (rd_todo t) pc (rd_got t)) in
  match rd_pc t with
  | RIdle =>
      match rd_todo t with
      | [] => None
      | start :: todo => Some (RdThread todo (RClock start) (rd_got t))
      end
  | RClock start =>
      match alignTimestamp (bc_interval c) (bs_clock s) with
      | Ok cts => goto (RCur start cts)
      | Panic => None
      end
  | RCur start cts => goto (RCur2 start cts (dq_current (bc_buckets c)))
  | RCur2 start cts pos => goto (RTop start cts pos (dq_current (bc_buckets c)))
  | RTop start cts pos j =>
      p ← q !! j; b ← bc_heap c !! p;
      goto (RLoop1 start cts pos (bk_ts b) (S pos) [])
  | RLoop1 start cts pos sts O acc => goto (RLoop2 start cts pos sts len acc)
  | RLoop1 start cts pos sts (S i) acc =>
      if (pos - i <? len)%nat then
        p ← q !! i; goto (RLoop1 start cts pos sts i (acc ++ [p]))
      else goto (RLoop2 start cts pos sts len acc)
  | RLoop2 start cts pos sts i acc =>
      if (pos + 1 <? i)%nat then
        p ← q !! i; b ← bc_heap c !! p;
        goto (RLoop2 start cts pos sts (i - 1) (if bk_ts b <=? sts then acc ++ [p] else acc))
      else goto (RFill start cts acc ∅)
  | RFill start cts [] result => Some (RdThread (rd_todo t) RIdle (rd_got t ++ [result]))
  | RFill start cts (p :: l) result =>
      b ← bc_heap c !! p;
      let ms := wrap64 (secondToMsRate * bk_ts b) in
      goto (RFill start cts l
              (if (start <=? ms) && (bk_ts b <=? cts) then <[ms := bk_count b]> result else result))
  end.

(** Updating and reading goroutines together. *)
Inductive mthread := MUpd (t : bthread) | MRead (t : rdthread).

Definition mx_tstep (s : bc_shared) (t : mthread) : option (bc_shared * mthread) :=
  match t with
  | MUpd t => match bc_tstep s t with Some (s', t') => Some (s', MUpd t') | None => None end
  | MRead t => match rd_step s t with Some t' => Some (s, MRead t') | None => None end
  end.

(** What each goroutine does: amounts for UpdateN, or start times for
    GetBucketCountsSince. *)
Inductive mprog := PUpd (amounts : list Z) | PRead (starts : list Z).
Definition mx_start (p : mprog) : mthread :=
  match p with PUpd l => MUpd (BThread l PIdle) | PRead l => MRead (RdThread l RIdle []) end.

Definition mx_crun (interval N now0 : Z) (upd : bool) (progs : list mprog) (sched : list (event Z))
  : res (config bc_shared mthread) :=
  c ← newBucketCounterImpl interval N now0 upd;
  Ok (crun mx_tstep bc_estep (Config (BcShared c (wrap64 now0)) (mx_start <$> progs)) sched).
