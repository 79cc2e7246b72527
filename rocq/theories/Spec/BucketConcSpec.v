(** Vocabulary for concurrent bucket counters: a credit list says, for each
    finished UpdateN, which bucket its amount went to. *)
From Verif.Go Require Import GoInt GoConc.
From Verif.Model Require Import BucketQueue BucketCounter BucketCounterConc.
From Verif.Spec Require Import BucketSpec.
Local Open Scope Z_scope.

(** Sum credited to bucket [p]. *)
Definition credit (p : nat) (cr : list (nat * Z)) : Z :=
  sumZ (snd <$> filter (fun u => u.1 = p) cr).

(** Amount of the call a goroutine is executing. *)
Definition inflight (pc : bpc) : list Z :=
  match pc with
  | PIdle => []
  | PClock n | PLoad n _ | PCmp n _ _ | PCas n _ _ | PCurLoad n _ | PCurStore n _ _
  | PSlotLoad n _ | PSlotStore n _ _ | PReload n | PAdd n _ => [n]
  end.

(** Amounts of the calls a goroutine has not finished. *)
Definition unfinished (t : bthread) : list Z := inflight (bt_pc t) ++ bt_todo t.

(** All goroutines have returned from all their calls. *)
Definition quiescent (c : config bc_shared bthread) : Prop :=
  Forall (fun t => unfinished t = []) (threads c).

(** The goroutine has installed a new latest bucket and is still entering it
    into the ring of buckets. *)
Definition in_addLast (t : bthread) : Prop :=
  match bt_pc t with
  | PCurLoad _ _ | PCurStore _ _ _ | PSlotLoad _ _ | PSlotStore _ _ _ => True
  | _ => False
  end.

(** At most one goroutine does that. *)
Definition exclusive (c : config bc_shared bthread) : Prop :=
  forall i j ti tj, threads c !! i = Some ti -> threads c !! j = Some tj ->
    in_addLast ti -> in_addLast tj -> i = j.

(** Key (start in ms) of bucket [p]. *)
Definition key_of (h : list bucket) (p : nat) : Z :=
  match h !! p with Some b => 1000 * bk_ts b | None => -1000 end.

(** Credits in terms of bucket keys. *)
Definition by_bucket (h : list bucket) (cr : list (nat * Z)) : list (Z * Z) :=
  (fun u => (key_of h u.1, u.2)) <$> cr.

(** The clock is only ever set to times of the interval starting at [k] ms. *)
Definition in_interval (I k : Z) (ev : event Z) : Prop :=
  match ev with Run _ => True | Env t => in64 t /\ 0 <= t /\ bucket_key I t = k end.

(** How often the schedule runs goroutine [i]. *)
Definition runs (i : nat) (sched : list (event Z)) : nat :=
  length (filter (fun ev => ev = Run i) sched).
