(** Vocabulary for bucket counters read and updated at the same time. *)
From Verif.Go Require Import GoInt GoConc.
From Verif.Model Require Import BucketQueue BucketCounter BucketCounterConc BucketReadConc.
From Verif.Spec Require Import BucketSpec BucketConcSpec.
Local Open Scope Z_scope.

(** The amounts a goroutine's program passes to UpdateN. *)
Definition amounts_of (p : mprog) : list Z := match p with PUpd l => l | PRead _ => [] end.

(** The amounts a goroutine still has to add to a bucket. *)
Definition to_add (t : mthread) : list Z := match t with MUpd t => unfinished t | MRead _ => [] end.

(** The values the clock shows in the course of a schedule that starts at [now]. *)
Definition clock_values (now : Z) (sched : list (event Z)) : list Z :=
  wrap64 now :: omap (fun ev => match ev with Run _ => None | Env t => Some (wrap64 t) end) sched.

(** [credits]: pairs of an interval start (ms) and an amount.  They account for all
    amounts but those still to be added. *)
Definition accounts (progs : list mprog) (c : config bc_shared mthread) (credits : list (Z * Z)) : Prop :=
  credits.*2 ++ mjoin (to_add <$> threads c) ≡ₚ mjoin (amounts_of <$> progs).

(** The ring of buckets does not change between [c] and the end of [sched]. *)
Definition ring_untouched (c : config bc_shared mthread) (sched : list (event Z)) : Prop :=
  forall s1 s2, sched = s1 ++ s2 ->
    bc_buckets (bs_bc (shared (crun mx_tstep bc_estep c s1))) = bc_buckets (bs_bc (shared c)).

(** No amount is added to a bucket between [c] and the end of [sched], and no bucket is
    created. *)
Definition amounts_untouched (c : config bc_shared mthread) (sched : list (event Z)) : Prop :=
  forall s1 s2, sched = s1 ++ s2 ->
    bc_heap (bs_bc (shared (crun mx_tstep bc_estep c s1))) = bc_heap (bs_bc (shared c)).
