(** Vocabulary for the bucket reservoir. *)
From Verif.Go Require Import GoInt.
From Verif.Model Require Import BucketReservoir.
From Verif.Spec Require Import BucketSpec.
Local Open Scope Z_scope.

(** The intervals of I seconds starting at k (ms): how many events were counted in
    it, and which values were recorded in it. *)
Definition counted_in (I k : Z) (evs : list br_event) : Z :=
  Z.of_nat (length (filter (fun e => bucket_key I (be_countTime e) = k) evs)).
Definition values_in (I k : Z) (evs : list br_event) : list Z :=
  be_value <$> filter (fun e => bucket_key I (be_valueTime e) = k) evs.
