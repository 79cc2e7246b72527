(** C02: the counter under concurrency.  [counter_crun progs sched] runs the
    goroutines with programs [progs] under the arbitrary schedule [sched]. *)
From Verif.Go Require Import GoInt GoConc.
From Verif.Model Require Import Counter CounterConc.
From Verif.Spec Require Import BucketSpec CounterSpec CounterConcSpec.
From Verif.Proofs Require Import CounterConcProofs.
Local Open Scope Z_scope.

(** At every moment there is a log (total order) of the calls made so far that
    respects every goroutine's program order, in which each GetCount returned
    exactly the sum of the increments before it, and whose sum is the value of
    the counter. *)
Theorem C02_counter_linearizable : forall progs sched, exists log,
  let c := counter_crun progs sched in
  (forall i prog, progs !! i = Some prog -> exists t, threads c !! i = Some t /\
      prog = calls_of i log ++ ct_todo t /\ ct_got t = reads_of i log) /\
  (forall p i v, log !! p = Some (i, CGet, v) -> v = wrap64 (sum_before p log)) /\
  counter_GetCount (shared c) = wrap64 (sum_before (length log) log) /\
  (forall e, e ∈ log -> (e.1.1 < length progs)%nat).
Proof.
  intros progs sched. destruct (counter_linearizable progs sched) as [log L].
  exact (ex_intro _ log (conj (cl_threads _ _ _ L) (conj (cl_reads _ _ _ L)
          (conj (cl_value _ _ _ L) (cl_tids _ _ _ L))))).
Qed.
Print Assumptions C02_counter_linearizable.

(** When all goroutines are done nothing was lost. *)
Theorem C02_counter_final : forall progs sched,
  Forall (fun t => ct_todo t = []) (threads (counter_crun progs sched)) ->
  counter_GetCount (shared (counter_crun progs sched)) = wrap64 (sumZ (call_delta <$> mjoin progs)).
Proof. exact counter_final. Qed.
Print Assumptions C02_counter_final.

Example C02_case :
  let c := counter_crun [[CUpd CInc; CGet; CUpd (CIncN 5)]; [CUpd (CDecN 3); CGet]]
             [Run 0; Run 1; Run 0; Run 1; Run 1; Run 7; Run 0]%nat in
  Forall (fun t => ct_todo t = []) (threads c) /\ c_count (shared c) = 3 /\
  ct_got <$> threads c = [[-2]; [-2]].
Proof. split_and!; [repeat constructor|reflexivity|reflexivity]. Qed.
