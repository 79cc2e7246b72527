(** Vocabulary for Size of a decaying reservoir next to updates. *)
From Verif.Go Require Import GoInt GoFloat GoConc.
From Verif.Model Require Import WeightedSnapshot DecayingReservoir DecayingConc DecayingSizeConc.
From Verif.Spec Require Import DecayingSpec RaceSpec DecayingRaceSpec.
Local Open Scope Z_scope.

(** The calls of UpdateN and GetSnapshot of a goroutine. *)
Definition sz_calls (p : sz_prog) : list dx_call := match p with PUse calls => calls | PSize _ => [] end.
(** The number of values recorded so far. *)
Definition recorded (s : dx_shared) : Z := Z.of_nat (length (offers (ds_log s))).

(** The accesses: Size loads [count] (which belongs to VSamples) without the lock. *)
Definition sz_next (s : dx_shared) (t : sz_thread) : list (access dx_var) :=
  match t with
  | SUse t => dx_next s t
  | SSize O false _ => []
  | SSize _ _ _ => [loads VSamples]
  end.
Definition asks_size (progs : list sz_prog) (i : nat) : Prop := exists n, progs !! i = Some (PSize n).
Definition uses (progs : list sz_prog) (i : nat) : Prop := exists calls, progs !! i = Some (PUse calls) /\ calls <> [].
