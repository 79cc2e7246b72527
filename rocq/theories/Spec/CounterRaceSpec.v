(** The accesses of the counter (impl/counter_impl.go) and of the manual clock
    (impl/manual_clock.go): each object has one variable. *)
From Verif.Go Require Import GoInt GoConc GoAtomic.
From Verif.Model Require Import Counter CounterConc ManualClock.
From Verif.Spec Require Import RaceSpec.
Local Open Scope Z_scope.

Inductive one_var := TheField.

(** counter_impl.go:41-43 (GetCount: a plain load), 45-59 (Inc, IncN, Dec, DecN: AddInt64). *)
Definition ctr_next (_ : counter) (t : counter_thread) : list (access one_var) :=
  match ct_todo t with
  | [] => []
  | CUpd _ :: _ => [atomic_op TheField]
  | CGet :: _ => [loads TheField]
  end.

(** manual_clock.go:32-38 (GetTick, GetTime: a plain load), 40-42 (Add: AddInt64). *)
Definition clk_next (_ : manual_clock) (t : athread mc_call Z) : list (access one_var) :=
  match at_todo t with
  | [] => []
  | MAdd _ :: _ => [atomic_op TheField]
  | MGetTick :: _ | MGetTime :: _ => [loads TheField]
  end.

(** The field is the whole state. *)
Definition field_same {S} (_ : one_var) (s1 s2 : S) : Prop := s1 = s2.
Definition nothing_else {S} (_ _ : S) : Prop := True.

(** Goroutine [i]'s program makes a call of which [f] holds. *)
Definition some_call {O} (progs : list (list O)) (i : nat) (f : O -> bool) : Prop :=
  exists p k, progs !! i = Some p /\ k ∈ p /\ f k = true.
Definition is_CGet (k : counter_call) : bool := match k with CGet => true | CUpd _ => false end.
Definition is_CUpd (k : counter_call) : bool := match k with CGet => false | CUpd _ => true end.
Definition is_MAdd (k : mc_call) : bool := match k with MAdd _ => true | _ => false end.
Definition is_MRead (k : mc_call) : bool := match k with MAdd _ => false | _ => true end.
