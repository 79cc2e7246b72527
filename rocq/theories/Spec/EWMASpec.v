(** The exponentially weighted moving average over the reals. *)
From Verif.Go Require Import GoInt.
From Coq Require Import Reals.
Local Open Scope R_scope.

(** One tick: move towards the instantaneous rate by the fraction [a]. *)
Definition ema_step (a r x : R) : R := r + a * (x - r).

(** The average after a sequence of instantaneous rates; the first one initialises. *)
Definition ema (a : R) (xs : list R) : R :=
  match xs with [] => 0 | x :: xs => fold_left (ema_step a) xs x end.

(** a(1-a)^(k-1) y1 + ... + a(1-a) y(k-1) + a yk *)
Fixpoint ema_sum (a : R) (ys : list R) : R :=
  match ys with
  | [] => 0
  | y :: ys => a * (1 - a) ^ length ys * y + ema_sum a ys
  end.

(** Events (amounts) and ticks as they come: the total of the events between one tick and
    the next, for each tick, and the total after the last tick. *)
Local Open Scope Z_scope.
Inductive ewma_event := Events (n : Z) | TickNow.
Fixpoint tick_counts (pending : Z) (l : list ewma_event) : list Z :=
  match l with
  | [] => []
  | Events n :: l => tick_counts (pending + n) l
  | TickNow :: l => wrap64 pending :: tick_counts 0 l
  end.
Fixpoint since_tick (pending : Z) (l : list ewma_event) : Z :=
  match l with
  | [] => pending
  | Events n :: l => since_tick (pending + n) l
  | TickNow :: l => since_tick 0 l
  end.
