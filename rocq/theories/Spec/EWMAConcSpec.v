(** What goroutines hand to an EWMA. *)
From Verif.Go Require Import GoInt GoFloat GoConc.
From Verif.Model Require Import EWMA EWMAConc.
From Verif.Spec Require Import BucketSpec.
Local Open Scope Z_scope.

(** Events a call adds: by Update, or directly to a tick by TickN. *)
Definition events_of (c : ewma_call) : Z := match c with EUpdate n => n | ETickN n => n | _ => 0 end.
Definition events (calls : list ewma_call) : Z := sumZ (events_of <$> calls).

(** Ticks requested. *)
Definition is_tick (c : ewma_call) : Z := match c with ETick | ETickN _ => 1 | _ => 0 end.
Definition tick_calls (calls : list ewma_call) : Z := sumZ (is_tick <$> calls).

(** Taken by a tick that is not carried out yet. *)
Definition in_flight (t : ethread) : Z :=
  match et_pc t with ELock c | ERead c | EWrite c _ => c | _ => 0 end.
Definition ticking (t : ethread) : Z :=
  match et_pc t with ELoad | ECas _ | ELock _ | ERead _ | EWrite _ _ => 1 | _ => 0 end.

Definition ewma_done (t : ethread) : Prop := et_todo t = [] /\ et_pc t = EIdle.
