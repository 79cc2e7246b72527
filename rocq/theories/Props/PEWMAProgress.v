(** Every call of an EWMA returns (C144). *)
From Verif.Go Require Import GoInt GoFloat GoConc.
From Verif.Model Require Import EWMA EWMAConc.
From Verif.Spec Require Import BucketSpec EWMAConcSpec ProgressSpec EWMAProgressSpec.
From Verif.Proofs Require Import EWMAProgress.
Local Open Scope Z_scope.

(** An EWMA that goroutines with the programs [progs] begin to use. *)
Definition ewma_start (alpha : f64) (interval : Z) (progs : list (list ewma_call)) : config ewma_shared ethread := ewma_crun alpha interval progs [].

(** C144: whatever the schedule, all goroutines together make at most [program_cost progs]
    steps: the retries of Tick come to an end. *)
Theorem C144_bounded_steps alpha interval progs sched :
  Z.of_nat (steps_made ewma_tstep (fun s (_ : Empty_set) => s) (ewma_start alpha interval progs) sched) <= program_cost progs.
Proof. apply ewma_bound. Qed.

(** C144: as long as not all calls have returned, some goroutine can make a step. *)
Theorem C144_no_deadlock alpha interval progs sched : let c := ewma_crun alpha interval progs sched in
  ~ Forall ewma_done (threads c) -> exists i, can_step ewma_tstep c i.
Proof. apply ewma_progress. Qed.

(** C144: so every fair schedule completes all calls: it is enough that every goroutine is
    given [program_cost progs + 1] turns, however they are interleaved. *)
Theorem C144_all_return alpha interval progs rounds : Forall (round (length progs)) rounds -> program_cost progs < Z.of_nat (length rounds) ->
  Forall ewma_done (threads (ewma_crun alpha interval progs (mjoin rounds))).
Proof. apply ewma_all_return. Qed.
Print Assumptions C144_bounded_steps.
Print Assumptions C144_no_deadlock.
Print Assumptions C144_all_return.

(** A Tick that has to try three times because two Updates come in between, and is done. *)
Example C144_case : let progs := [[ETick]; [EUpdate 3; EUpdate 4]] in
  let sched := [Run 0; Run 0; Run 1; Run 0; Run 0; Run 1; Run 0; Run 0; Run 0; Run 0; Run 0; Run 0; Run 0]%nat in
  program_cost progs = 21 /\ steps_made ewma_tstep (fun s (_ : Empty_set) => s) (ewma_start f0 ewmaInterval progs) sched = 13%nat /\
  es_ticked (shared (ewma_crun f0 ewmaInterval progs sched)) = [7] /\
  Forall (round 2) (replicate 22 [Run 1; Run 0 : event Empty_set]%nat).
Proof.
  refine (conj _ (conj _ (conj _ _))); [by vm_compute..|]. apply Forall_replicate. intros i Hi. destruct i as [|[|i]]; [right; left|left|lia].
Qed.
