(** The accesses of default_bucket_counter.go, bucket_queue.go and counter_impl.go to the
    variables of a bucket counter.  (A bucket's timestamp is set before the bucket is
    published and never changes.) *)
From Verif.Go Require Import GoInt GoConc.
From Verif.Model Require Import Counter BucketQueue BucketCounter BucketCounterConc BucketReadConc.
From Verif.Spec Require Import RaceSpec.
Local Open Scope Z_scope.

(** The total; [latestBucket]; the ring's [current] and its slots; the count of the bucket
    at address [p]. *)
Inductive bc_var := VTotal | VLatest | VCurrent | VSlot (i : nat) | VBucket (p : ptr).
Global Instance bc_var_eq_dec : EqDecision bc_var.
Proof. solve_decision. Defined.

Definition upd_next (s : bc_shared) (t : bthread) : list (access bc_var) :=
  match bt_pc t with
  | PIdle =>
      match bt_todo t with
      | _ :: _ => if bc_updateTotalCount (bs_bc s) then [atomic_op VTotal] else [] (* line 104, counter_impl.go:50 *)
      | [] => []
      end
  | PClock _ | PCmp _ _ _ => []
  | PLoad _ _ => [loads VLatest]               (* line 108 *)
  | PCas _ _ _ => [atomic_op VLatest]          (* line 114 *)
  | PCurLoad _ _ => [loads VCurrent]           (* bucket_queue.go:66 *)
  | PCurStore _ _ _ => [stores VCurrent]       (* bucket_queue.go:66 *)
  | PSlotLoad _ _ => [loads VCurrent]          (* bucket_queue.go:67 *)
  | PSlotStore _ _ i => [stores (VSlot i)]     (* bucket_queue.go:67 *)
  | PReload _ => [loads VLatest]               (* line 120 *)
  | PAdd _ p => [atomic_op (VBucket p)]        (* line 123 *)
  end.

Definition read_next (s : bc_shared) (t : rdthread) : list (access bc_var) :=
  let len := (length (dq_queue (bc_buckets (bs_bc s))) - 1)%nat in
  match rd_pc t with
  | RIdle | RClock _ => []
  | RCur _ _ | RCur2 _ _ _ => [loads VCurrent]                                 (* bucket_queue.go:87, 89 *)
  | RTop _ _ _ j => [loads (VSlot j)]                                          (* bucket_queue.go:89 *)
  | RLoop1 _ _ pos _ (S i) _ => if (pos - i <? len)%nat then [loads (VSlot i)] else [] (* bucket_queue.go:92 *)
  | RLoop1 _ _ _ _ O _ => []
  | RLoop2 _ _ pos _ i _ => if (pos + 1 <? i)%nat then [loads (VSlot i)] else []       (* bucket_queue.go:96 *)
  | RFill _ _ (p :: _) _ => [loads (VBucket p)]                                (* line 139 *)
  | RFill _ _ [] _ => []
  end.

Definition mx_next (s : bc_shared) (t : mthread) : list (access bc_var) :=
  match t with MUpd t => upd_next s t | MRead t => read_next s t end.

Definition bc_same (l : bc_var) (s1 s2 : bc_shared) : Prop :=
  match l with
  | VTotal => bc_totalCount (bs_bc s1) = bc_totalCount (bs_bc s2)
  | VLatest => bc_latestBucket (bs_bc s1) = bc_latestBucket (bs_bc s2)
  | VCurrent => dq_current (bc_buckets (bs_bc s1)) = dq_current (bc_buckets (bs_bc s2))
  | VSlot i => dq_queue (bc_buckets (bs_bc s1)) !! i = dq_queue (bc_buckets (bs_bc s2)) !! i
  | VBucket p => forall b1 b2, bc_heap (bs_bc s1) !! p = Some b1 -> bc_heap (bs_bc s2) !! p = Some b2 -> bk_count b1 = bk_count b2
  end.
Definition bc_rest (s1 s2 : bc_shared) : Prop :=
  bs_clock s1 = bs_clock s2 /\ bc_updateTotalCount (bs_bc s1) = bc_updateTotalCount (bs_bc s2) /\
  bc_interval (bs_bc s1) = bc_interval (bs_bc s2) /\
  length (dq_queue (bc_buckets (bs_bc s1))) = length (dq_queue (bc_buckets (bs_bc s2))) /\
  bk_ts <$> bc_heap (bs_bc s1) = bk_ts <$> bc_heap (bs_bc s2).

(** Goroutines started on a counter in the state [s0]. *)
Definition mx_from (s0 : bc_shared) (progs : list mprog) (sched : list (event Z)) : config bc_shared mthread :=
  crun mx_tstep bc_estep (Config s0 (mx_start <$> progs)) sched.
(** The clock does not go past the interval of the latest bucket. *)
Definition within (s0 : bc_shared) (now : Z) : Prop :=
  exists b ts, bc_heap (bs_bc s0) !! bc_latestBucket (bs_bc s0) = Some b /\
    alignTimestamp (bc_interval (bs_bc s0)) now = Ok ts /\ ts <= bk_ts b.
Definition clocks (sched : list (event Z)) : list Z :=
  omap (fun ev => match ev with Run _ => None | Env now => Some (wrap64 now) end) sched.

Definition reads (progs : list mprog) (i : nat) : Prop := exists l, progs !! i = Some (PRead l).
Definition updates (progs : list mprog) (i : nat) : Prop := exists l, progs !! i = Some (PUpd l).
