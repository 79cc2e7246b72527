(** What a manual clock is asked for: the durations added, in nanoseconds. *)
From Verif.Go Require Import GoInt.
From Verif.Model Require Import ManualClock.
From Verif.Spec Require Import BucketSpec.
Local Open Scope Z_scope.

Definition added (call : mc_call) : Z := match call with MAdd d => d | _ => 0 end.
Definition total_added (calls : list mc_call) : Z := sumZ (added <$> calls).
