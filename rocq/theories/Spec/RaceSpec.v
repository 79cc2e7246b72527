(** Data races, as in the Go memory model (https://go.dev/ref/mem): two goroutines are at
    a point where each can make its next access, both accesses are to the same variable,
    at least one writes, and not both are operations of sync/atomic.

    In a program none of whose sequentially consistent executions comes to such a point,
    Go guarantees that there are no other executions. *)
From Verif.Go Require Import GoInt GoConc.

Record access (L : Type) := Access { ac_loc : L; ac_write : bool; ac_atomic : bool }.
Arguments Access {L} ac_loc ac_write ac_atomic.
Arguments ac_loc {L} a.
Arguments ac_write {L} a.
Arguments ac_atomic {L} a.

(** Plain loads and stores, operations of sync/atomic. *)
Definition loads {L} (l : L) : access L := Access l false false.
Definition stores {L} (l : L) : access L := Access l true false.
Definition atomic_op {L} (l : L) : access L := Access l true true.
Definition atomic_load {L} (l : L) : access L := Access l false true.

Definition conflict {L} (a b : access L) : Prop :=
  ac_loc a = ac_loc b /\ (ac_write a = true \/ ac_write b = true) /\ ~ (ac_atomic a = true /\ ac_atomic b = true).

Section race.
  Context {S T L : Type}.
  (** [next s t]: the variables the next step of goroutine [t] accesses. *)
  Context (next : S -> T -> list (access L)).

  Definition data_race_on (l : L) (c : config S T) : Prop :=
    exists i j ti tj a b,
      i <> j /\ threads c !! i = Some ti /\ threads c !! j = Some tj /\
      a ∈ next (shared c) ti /\ b ∈ next (shared c) tj /\ ac_loc a = l /\ conflict a b.
  Definition race_free (c : config S T) : Prop := forall l, ~ data_race_on l c.

  (** The table [next] leaves nothing out.  [same l]: two states agree on the variable [l];
      [rest]: they agree on everything else a step may depend on (mutexes, clocks, what is
      constant after creation).  A step changes no variable [next] does not list as
      written, and what it does is determined by the variables listed. *)
  Context (tstep : S -> T -> option (S * T)) (same : L -> S -> S -> Prop) (rest : S -> S -> Prop).
  Definition lists_writes : Prop :=
    forall s t s' t' l, tstep s t = Some (s', t') ->
      (forall a, a ∈ next s t -> ac_loc a = l -> ac_write a = false) -> same l s s'.
  Definition lists_reads : Prop :=
    forall s1 s2 t, rest s1 s2 -> (forall a, a ∈ next s1 t -> same (ac_loc a) s1 s2) ->
      match tstep s1 t, tstep s2 t with
      | Some (s1', t1'), Some (s2', t2') =>
          t1' = t2' /\ rest s1' s2' /\ (forall a, a ∈ next s1 t -> same (ac_loc a) s1' s2')
      | None, None => True
      | _, _ => False
      end.
End race.
