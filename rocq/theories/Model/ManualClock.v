(** impl/manual_clock.go and clock.go. *)
From Verif.Go Require Import GoInt GoConc GoAtomic.
Local Open Scope Z_scope.

(** impl/manual_clock.go:27-30; [mutex] is never used. *)
Record manual_clock := ManualClock { tickInNanos : Z }.

(** ManualClock{} *)
Definition newManualClock : manual_clock := ManualClock 0.

(** impl/manual_clock.go:32-34 *)
Definition mc_GetTick (mc : manual_clock) : Z := tickInNanos mc.

(** time.Millisecond *)
Definition Millisecond : Z := 1000000.

(** impl/manual_clock.go:36-38 *)
Definition mc_GetTime (mc : manual_clock) : Z := wrap64 (Z.quot (tickInNanos mc) Millisecond).

(** impl/manual_clock.go:40-42 *)
Definition mc_Add (mc : manual_clock) (d : Z) : manual_clock := ManualClock (wrap64 (tickInNanos mc + d)).

(** Calls, each a single access of tickInNanos (the plain loads of lines 33 and
    37 are taken to be atomic, as on 64-bit hardware). *)
Inductive mc_call := MAdd (d : Z) | MGetTick | MGetTime.

Definition mc_act (mc : manual_clock) (call : mc_call) : manual_clock * Z :=
  match call with
  | MAdd d => (mc_Add mc d, 0)
  | MGetTick => (mc, mc_GetTick mc)
  | MGetTime => (mc, mc_GetTime mc)
  end.

(** clock.go:46-52: UserTimeClock; [now] is time.Now().UnixNano(). *)
Definition uc_GetTick (startNanoTime now : Z) : Z := wrap64 (now - startNanoTime).
Definition uc_GetTime (now : Z) : Z := wrap64 (Z.quot now Millisecond).
