(** C01: the plain counter. *)
From Verif.Go Require Import GoInt.
From Verif.Model Require Import Counter BucketQueue BucketCounter.
From Verif.Spec Require Import BucketSpec CounterSpec.
From Verif.Proofs Require Import BucketMain.
Local Open Scope Z_scope.

(** C01. *)
Theorem C01_counter_is_running_sum : forall ops : list counter_op,
  counter_GetCount (counter_run newCounter ops) = wrap64 (sumZ (counter_delta <$> ops)) /\
  counter_LastUpdateTime (counter_run newCounter ops) = 0.
Proof. intros ops. split; [exact (counter_value ops)|reflexivity]. Qed.
Print Assumptions C01_counter_is_running_sum.

(** No wrap-around: the plain mathematical sum. *)
Theorem C01_counter_exact_in_range : forall ops : list counter_op,
  in64 (sumZ (counter_delta <$> ops)) ->
  counter_GetCount (counter_run newCounter ops) = sumZ (counter_delta <$> ops).
Proof. intros ops H. rewrite (counter_value ops). exact (wrap64_id _ H). Qed.
Print Assumptions C01_counter_exact_in_range.

Example C01_case : in64 (sumZ (counter_delta <$> [CInc; CIncN 41; CDecN 5; CDec; CInc])) /\
  counter_GetCount (counter_run newCounter [CInc; CIncN 41; CDecN 5; CDec; CInc]) = 37.
Proof. split; [unfold in64, two63; cbn; lia | reflexivity]. Qed.

Example C01_wraps : counter_GetCount (counter_run newCounter [CIncN (two63 - 1); CInc]) = - two63.
Proof. reflexivity. Qed.
