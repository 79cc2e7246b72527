(** compare.go and time.Duration.Seconds. *)
From Verif.Go Require Import GoInt GoFloat.
From Verif.Model Require Import BucketCounter.
Local Open Scope Z_scope.

(** compare.go:3-8 [DeltaCompareFloat64] *)
Definition deltaCompareFloat64 (expected actual delta : f64) : bool :=
  if flt actual expected then fle (fsub expected actual) delta
  else fle (fsub actual expected) delta.

(** Go's time package: Duration.Seconds(), used in impl/default_bucket_counter.go:152
    and impl/bucket_reservoir.go:66. *)
Definition duration_Seconds (d : Z) : f64 :=
  fadd (f_of_int (Z.quot d Second)) (fdiv (f_of_int (Z.rem d Second)) (f_of_int 1000000000)).
