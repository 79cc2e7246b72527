(** Vocabulary for "every call returns". *)
From Verif.Go Require Import GoInt GoConc.
Local Open Scope Z_scope.

Section progress.
  Context {S T E : Type} (tstep : S -> T -> option (S * T)) (estep : S -> E -> S).

  (** The goroutine [i] can make a step. *)
  Definition can_step (c : config S T) (i : nat) : Prop :=
    exists t, threads c !! i = Some t /\ tstep (shared c) t <> None.
  (** The event is a step of a goroutine (not the clock, nor a goroutine that has nothing to
      do or waits). *)
  Definition is_step (c : config S T) (ev : event E) : bool :=
    match ev with
    | Run i => match threads c !! i with Some t => match tstep (shared c) t with Some _ => true | None => false end | None => false end
    | Env _ => false
    end.
  (** How many steps goroutines make in a schedule. *)
  Fixpoint steps_made (c : config S T) (sched : list (event E)) : nat :=
    match sched with
    | [] => 0
    | ev :: sched => (if is_step c ev then 1 else 0) + steps_made (cstep tstep estep c ev) sched
    end.
  (** Each of [n] goroutines gets at least one turn. *)
  Definition round (n : nat) (sched : list (event E)) : Prop := forall i, (i < n)%nat -> Run i ∈ sched.
End progress.
