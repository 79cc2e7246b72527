(** Independent vocabulary for "per-interval sums of an update history".
    A history is a list of (time in ms, amount), oldest first.  A credited
    history is a list of (bucket key in ms, amount). *)
From Verif.Go Require Import GoInt.
Local Open Scope Z_scope.

Definition sumZ (l : list Z) : Z := foldr Z.add 0 l.

(** Start in ms of the interval of [I] seconds that contains the time [t] (ms). *)
Definition bucket_key (I t : Z) : Z := 1000 * I * (t / (1000 * I)).

(** Sum of all amounts credited to key [k]. *)
Definition sum_at (k : Z) (l : list (Z * Z)) : Z :=
  sumZ (snd <$> filter (fun u => u.1 = k) l).

(** Number of different keys larger than [k]. *)
Definition newer_keys (k : Z) (l : list (Z * Z)) : nat :=
  size (list_to_set (filter (fun x => k < x) (fst <$> l)) : gset Z).

(** What should be reported for key [k] when the [N] most recent keys are kept:
    the int64 sum of its amounts, or nothing. *)
Definition recent_sum (N : nat) (l : list (Z * Z)) (k : Z) : option Z :=
  if decide (k ∈ (fst <$> l) /\ (newer_keys k l < N)%nat)
  then Some (wrap64 (sum_at k l)) else None.

(** Each update of the history credited to the interval it happened in. *)
Definition by_time (I : Z) (hist : list (Z * Z)) : list (Z * Z) :=
  (fun u => (bucket_key I u.1, u.2)) <$> hist.

(** The history never goes back in time, starts at or after [lo] and ends at or
    before [hi]. *)
Fixpoint nondecreasing (lo : Z) (ts : list Z) (hi : Z) : Prop :=
  match ts with
  | [] => lo <= hi
  | t :: ts' => lo <= t /\ nondecreasing t ts' hi
  end.

(** Arbitrary clocks.  [trunc_key I t] is the interval start obtained by
    rounding towards zero (same as [bucket_key] for t >= 0); an update is
    credited to the largest such start seen so far (at first: [lo]). *)
Definition trunc_key (I t : Z) : Z := 1000 * I * (Z.quot t (1000 * I)).

Fixpoint by_latest (lo I : Z) (hist : list (Z * Z)) : list (Z * Z) :=
  match hist with
  | [] => []
  | (t, n) :: hist' =>
      let k := Z.max lo (trunc_key I t) in
      (k, n) :: by_latest k I hist'
  end.
