(** What the calls of an EWMA may cost when [n] goroutines use it. *)
From Verif.Go Require Import GoInt.
From Verif.Model Require Import EWMA EWMAConc.
From Verif.Spec Require Import BucketSpec.
Local Open Scope Z_scope.

(** The steps of a call that nobody disturbs (1 for Update and GetRate, 5 for TickN, 7 for
    Tick), and two for each goroutine whose compare-and-swap a change of the pending count
    can make fail. *)
Definition call_cost (n : nat) (c : ewma_call) : Z :=
  match c with EUpdate _ => 1 + 2 * Z.of_nat n | ETick => 7 + 2 * Z.of_nat n | ETickN _ => 5 | EGetRate _ => 1 end.
Definition program_cost (progs : list (list ewma_call)) : Z := sumZ (call_cost (length progs) <$> mjoin progs).
