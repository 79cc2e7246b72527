(** Linearization of counter calls: a log of (goroutine, call, result). *)
From Verif.Go Require Import GoInt.
From Verif.Model Require Import Counter CounterConc.
From Verif.Spec Require Import BucketSpec CounterSpec.
Local Open Scope Z_scope.

Definition call_delta (c : counter_call) : Z :=
  match c with CUpd o => counter_delta o | CGet => 0 end.

Global Instance counter_call_eq_dec : EqDecision counter_call.
Proof. intros x y. unfold Decision. repeat decide equality. Defined.

Notation log_entry := (nat * counter_call * Z)%type.

(** The calls of goroutine [i], in log order. *)
Definition calls_of (i : nat) (log : list log_entry) : list counter_call :=
  (fun e => e.1.2) <$> filter (fun e => e.1.1 = i) log.

(** What the GetCount calls of goroutine [i] returned. *)
Definition reads_of (i : nat) (log : list log_entry) : list Z :=
  snd <$> filter (fun e => e.1.1 = i /\ e.1.2 = CGet) log.

(** The increments made before position [p] of the log. *)
Definition sum_before (p : nat) (log : list log_entry) : Z :=
  sumZ ((fun e => call_delta e.1.2) <$> take p log).
