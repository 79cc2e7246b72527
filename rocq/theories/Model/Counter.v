(** impl/counter_impl.go *)
From Verif.Go Require Import GoInt.
Local Open Scope Z_scope.

(** impl/counter_impl.go:28-30  [type counterImpl struct { count int64 }] *)
Record counter := Counter { c_count : Z }.

(** impl/counter_impl.go:61-63  [newCounter] *)
Definition newCounter : counter := Counter 0.

(** impl/counter_impl.go:37-39  [LastUpdateTime] *)
Definition counter_LastUpdateTime (c : counter) : Z := 0.

(** impl/counter_impl.go:41-43  [GetCount] *)
Definition counter_GetCount (c : counter) : Z := c_count c.

(** impl/counter_impl.go:49-51  [IncN], [atomic.AddInt64(&c.count, n)] *)
Definition counter_IncN (c : counter) (n : Z) : counter :=
  Counter (wrap64 (c_count c + n)).

(** impl/counter_impl.go:45-47  [Inc] *)
Definition counter_Inc (c : counter) : counter := Counter (wrap64 (c_count c + 1)).

(** impl/counter_impl.go:53-55  [Dec] *)
Definition counter_Dec (c : counter) : counter := Counter (wrap64 (c_count c + -1)).

(** impl/counter_impl.go:57-59  [DecN]; [-n] itself wraps. *)
Definition counter_DecN (c : counter) (n : Z) : counter :=
  Counter (wrap64 (c_count c + wrap64 (- n))).

(** The calls of the interface counter.go:24-46 that change a counter. *)
Inductive counter_op := CInc | CIncN (n : Z) | CDec | CDecN (n : Z).

Definition counter_step (c : counter) (o : counter_op) : counter :=
  match o with
  | CInc => counter_Inc c
  | CIncN n => counter_IncN c n
  | CDec => counter_Dec c
  | CDecN n => counter_DecN c n
  end.

Definition counter_run (c : counter) (ops : list counter_op) : counter :=
  fold_left counter_step ops c.
