(** Every call of a fast compass returns (C146): every access of a shared variable a step
    (Model/FastCompassFine.v), any number of goroutines that record and read. *)
From Verif.Go Require Import GoInt GoConc.
From Verif.Model Require Import BucketQueue BucketCounter FastCompass BucketCounterConc BucketReadConc FastCompassConc FastCompassFine.
From Verif.Spec Require Import BucketSpec FastCompassFineSpec ProgressSpec.
From Verif.Proofs Require Import BucketHist FastCompassBound FastCompassReturn.
From Verif.Props Require Import PFastCompassFine.
Local Open Scope Z_scope.

(** C146: all goroutines together make boundedly many steps: the bound depends only on the
    number of buckets, the category limit and the calls they make, not on the schedule, the
    clock or the interval. *)
Theorem C146_bounded_steps max N progs : exists B : nat, forall interval now0 sched,
  Second <= interval -> in64 interval -> 0 <= N ->
  (steps_made ff_tstep fc_estep (ff_cinit (newFastCompass max interval N) now0 progs) sched <= B)%nat.
Proof.
  exists (Z.to_nat (sumZ ((fun p => sumZ (q_cost (Z.of_nat (Z.to_nat (N + 1))) (Z.of_nat (Z.to_nat max)) <$> p)) <$> progs))).
  intros interval now0 sched I1 I2 I3. pose proof (ff_bound max interval N now0 progs I1 I2 I3 sched). lia.
Qed.

(** C146: so every fair schedule completes all calls (unless Go's runtime aborts the process
    because the map of categories is iterated over while it is assigned to: C23): it is enough
    that every goroutine gets [B + 1] turns, however they are interleaved. *)
Theorem C146_all_return max N progs : exists B : nat, forall interval now0 rounds,
  Second <= interval -> in64 interval -> 0 <= N ->
  Forall (round (length progs)) rounds -> (B < length rounds)%nat ->
  let c := ff_crun (newFastCompass max interval N) now0 progs (mjoin rounds) in
  fs_crashed (shared c) = true \/ Forall q_done (threads c).
Proof.
  exists (Z.to_nat (sumZ ((fun p => sumZ (q_cost (Z.of_nat (Z.to_nat (N + 1))) (Z.of_nat (Z.to_nat max)) <$> p)) <$> progs))).
  intros interval now0 rounds I1 I2 I3 Hr Hlen. apply ff_all_return; try done. lia.
Qed.
(** C146: and among Record calls only there is no such abort: all calls return. *)
Theorem C146_records_return max N progs : (forall prog call, prog ∈ progs -> call ∈ prog -> exists d cat, call = QRecord d cat) ->
  exists B : nat, forall interval now0 rounds,
  Second <= interval -> in64 interval -> 0 <= N ->
  Forall (round (length progs)) rounds -> (B < length rounds)%nat ->
  Forall q_done (threads (ff_crun (newFastCompass max interval N) now0 progs (mjoin rounds))).
Proof.
  intros HR. destruct (C146_all_return max N progs) as [B HB]. exists B. intros interval now0 rounds I1 I2 I3 Hr Hlen.
  destruct (HB interval now0 rounds I1 I2 I3 Hr Hlen) as [H|H]; [|exact H]. exfalso.
  pose proof (C23_steps_records_only_partial max interval N [] (newFastCompass max interval N) now0 progs (mjoin rounds) I1 I2 I3 (Forall_nil_2 _) eq_refl HR). congruence.
Qed.
Print Assumptions C146_bounded_steps.
Print Assumptions C146_all_return.
Print Assumptions C146_records_return.

(** The hypotheses are met; a schedule of rounds completes all calls of three goroutines that
    create two categories and read them at the same time, and it does take more than a few. *)
Definition return_progs : list (list qcall) := [[QRecord 7000000 "a"; QRecord 1000000 "b"]; [QRecord 2000000 "a"; QRecord 3000000 "c"]; [QGet GBoth 1699999990000 []; QLast ["b"%string]]].
Definition three_rounds (n : nat) : list (list (event Z)) :=
  (replicate n (Run 0%nat) ++ replicate n (Run 1%nat) ++ [Run 2%nat]) :: replicate n [Run 0; Run 1; Run 2]%nat ++ [Env 1700000007000; Run 2%nat; Run 1%nat; Run 0%nat] :: replicate n [Run 2; Run 1; Run 0]%nat.
Example C146_case : Second <= Second /\ in64 Second /\
  (forall n, (0 < n)%nat -> Forall (round 3) (three_rounds n) /\ (n < length (three_rounds n))%nat) /\
  (let run n := ff_crun (newFastCompass 2 Second 4) 1700000000900 return_progs (mjoin (three_rounds n)) in
   ((all_done (run 8%nat), fs_crashed (shared (run 8%nat))), (all_done (run 80%nat), fs_crashed (shared (run 80%nat))))) = ((false, false), (true, false)).
Proof.
  split; [lia|]. split; [split; vm_compute; congruence|]. split.
  - intros n Hn. split; [|unfold three_rounds; rewrite app_comm_cons, app_length; cbn [length]; rewrite !replicate_length; lia].
    apply Forall_cons. split.
    { destruct n as [|n]; [lia|]. intros i Hi. rewrite !elem_of_app. destruct i as [|[|[|i]]]; [left; left|right; left; left|right; right; left|lia]. }
    apply Forall_app. split; [apply Forall_replicate; intros i Hi; destruct i as [|[|[|i]]]; [left|right; left|right; right; left|lia]|].
    apply Forall_cons. split; [intros i Hi; destruct i as [|[|[|i]]]; [right; right; right; left|right; right; left|right; left|lia]|].
    apply Forall_replicate; intros i Hi; destruct i as [|[|[|i]]]; [right; right; left|right; left|left|lia].
  - vm_compute. reflexivity.
Qed.
