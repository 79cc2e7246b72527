(** The quantile of a sorted list of values, over the reals. *)
From Verif.Go Require Import GoInt.
From Coq Require Import Reals.
From Flocq Require Import Core.Core.
Local Open Scope Z_scope.

(** The [i]-th value, counted from 1. *)
Definition nth_value (sorted : list Z) (i : Z) : Z := default 0 (sorted !! Z.to_nat (i - 1)).

(** The value at the real position [p] of n sorted values: the first one before
    position 1, the last one from position n on, and in between the straight line
    between the two neighbours. *)
Definition value_at (sorted : list Z) (p : R) : R :=
  let n := Z.of_nat (length sorted) in
  let k := Zfloor p in
  if k <? 1 then IZR (nth_value sorted 1)
  else if n <=? k then IZR (nth_value sorted n)
  else (IZR (nth_value sorted k) + (p - IZR k) * (IZR (nth_value sorted (k + 1)) - IZR (nth_value sorted k)))%R.

(** The real mean of the values and their sample variance: the squared distances
    from the mean, over n - 1. *)
Definition mean_of (values : list Z) : R := (foldr Rplus 0 (IZR <$> values) / INR (length values))%R.
Definition sample_variance (values : list Z) : R :=
  (foldr Rplus 0 ((fun v => (IZR v - mean_of values) * (IZR v - mean_of values))%R <$> values) / (INR (length values) - 1))%R.
