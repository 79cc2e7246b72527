(** The accesses of ewma.go to the fields of an EWMA. *)
From Verif.Go Require Import GoInt GoFloat GoConc.
From Verif.Model Require Import EWMA EWMAConc.
From Verif.Spec Require Import RaceSpec.
Local Open Scope Z_scope.

(** The fields that change: [uncounted]; [rate] together with [initialized]. *)
Inductive ew_var := VUncounted | VRate.

Definition ew_next (_ : ewma_shared) (t : ethread) : list (access ew_var) :=
  match et_pc t with
  | EIdle =>
      match et_todo t with
      | EUpdate _ :: _ => [atomic_op VUncounted] (* ewma.go:63 *)
      | EGetRate _ :: _ => [loads VRate]         (* ewma.go:97 *)
      | _ => []
      end
  | ELoad => [loads VUncounted]                  (* ewma.go:83, 86 *)
  | ECas _ => [atomic_op VUncounted]             (* ewma.go:85, 87 *)
  | ERead _ => [loads VRate]                     (* ewma.go:71-72, under the mutex *)
  | EWrite _ _ => [stores VRate]                 (* ewma.go:73, 77-78, under the mutex *)
  | ELock _ | EUnlock => []
  end.

Definition ew_same (l : ew_var) (s1 s2 : ewma_shared) : Prop :=
  match l with
  | VUncounted => ew_uncounted (es_ewma s1) = ew_uncounted (es_ewma s2)
  | VRate => ew_rate (es_ewma s1) = ew_rate (es_ewma s2) /\ ew_initialized (es_ewma s1) = ew_initialized (es_ewma s2)
  end.
Definition ew_rest (s1 s2 : ewma_shared) : Prop :=
  es_locked s1 = es_locked s2 /\ ew_alpha (es_ewma s1) = ew_alpha (es_ewma s2) /\
  ew_interval (es_ewma s1) = ew_interval (es_ewma s2).

(** Goroutine [i]'s program makes a call of which [f] holds. *)
Definition calls (progs : list (list ewma_call)) (i : nat) (f : ewma_call -> bool) : Prop :=
  exists p k, progs !! i = Some p /\ k ∈ p /\ f k = true.
Definition is_Update (k : ewma_call) : bool := match k with EUpdate _ => true | _ => false end.
Definition is_Tick (k : ewma_call) : bool := match k with ETick => true | _ => false end.
Definition is_TickN (k : ewma_call) : bool := match k with ETickN _ => true | _ => false end.
Definition is_GetRate (k : ewma_call) : bool := match k with EGetRate _ => true | _ => false end.
