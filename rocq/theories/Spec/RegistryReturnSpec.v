(** Vocabulary for "every lookup returns". *)
From Verif.Go Require Import GoInt GoConc.
From Verif.Model Require Import RegistryConc.

(** How many turns goroutine [i] is given. *)
Fixpoint turns_given (i : nat) (sched : list (event Empty_set)) : nat :=
  match sched with
  | [] => 0
  | Run j :: sched => (if (j =? i)%nat then 1 else 0) + turns_given i sched
  | Env _ :: sched => turns_given i sched
  end.
(** All calls of the goroutine have returned. *)
Definition lookups_returned (t : rthread) : Prop := rt_todo t = [] /\ rt_pc t = PIdle.
