(** impl/bucket_queue.go

    Buckets are heap objects: the counter's latest bucket and the ring share
    pointers.  A pointer is an index into a heap ([list bucket]) to which
    allocation appends. *)
From Verif.Go Require Import GoInt.
Local Open Scope Z_scope.

(** impl/bucket_queue.go:24-33  [type bucket struct] *)
Record bucket := Bucket { bk_ts : Z; bk_count : Z }.

Notation ptr := nat (only parsing).
Notation heap := (list bucket) (only parsing).

(** impl/bucket_queue.go:35-39  [newBucket] *)
Definition newBucket : bucket := Bucket (-1) 0.

(** impl/bucket_queue.go:44-47  [type bucketDequeue struct] *)
Record deque := Deque { dq_queue : list ptr; dq_current : nat }.

(** impl/bucket_queue.go:50-59  [newBucketDequeue]: [make([]*bucket, n+1)]
    panics for a negative length; the loop fills every slot with a fresh
    bucket.  The fresh heap holds exactly these buckets (the counter owns its
    buckets, so each counter gets its own heap). *)
Definition newBucketDequeue (n : Z) : res (heap * deque) :=
  if n + 1 <? 0 then Panic
  else Ok (replicate (Z.to_nat (n + 1)) newBucket,
           Deque (seq 0 (Z.to_nat (n + 1))) 0).

(** impl/bucket_queue.go:61-63  [peek] *)
Definition dq_peek (d : deque) : res ptr :=
  of_option (dq_queue d !! dq_current d).

(** impl/bucket_queue.go:65-68  [addLast]; [%] panics on an empty ring. *)
Definition dq_addLast (d : deque) (bk : ptr) : res deque :=
  match length (dq_queue d) with
  | O => Panic
  | len =>
      let cur := ((dq_current d + 1) mod len)%nat in
      Ok (Deque (<[cur := bk]> (dq_queue d)) cur)
  end.

(** impl/bucket_queue.go:91-93, first loop
    [for i := startPos; i >= 0 && startPos-i < length; i--]; the argument [i1]
    is i+1. *)
Fixpoint gbl_loop1 (q : list ptr) (startPos length : nat) (i1 : nat) : res (list ptr) :=
  match i1 with
  | O => Ok []
  | S i =>
      if (startPos - i <? length)%nat then
        p ← of_option (q !! i);
        rest ← gbl_loop1 q startPos length i;
        Ok (p :: rest)
      else Ok []
  end.

(** impl/bucket_queue.go:95-101, second loop
    [for i := length; i > startPos+1; i--] with the timestamp test. *)
Fixpoint gbl_loop2 (h : heap) (q : list ptr) (startPos : nat) (startTs : Z) (i : nat)
  : res (list ptr) :=
  if (startPos + 1 <? i)%nat then
    match i with
    | O => Ok []
    | S i' =>
        p ← of_option (q !! i);
        b ← of_option (h !! p);
        rest ← gbl_loop2 h q startPos startTs i';
        Ok (if bk_ts b <=? startTs then p :: rest else rest)
    end
  else Ok [].

(** impl/bucket_queue.go:84-104  [getBucketList] *)
Definition dq_getBucketList (h : heap) (d : deque) : res (list ptr) :=
  let len := (length (dq_queue d) - 1)%nat in
  let startPos := dq_current d in
  p ← of_option (dq_queue d !! dq_current d);
  b ← of_option (h !! p);
  let startTs := bk_ts b in
  l1 ← gbl_loop1 (dq_queue d) startPos len (S startPos);
  l2 ← gbl_loop2 h (dq_queue d) startPos startTs len;
  Ok (l1 ++ l2).
