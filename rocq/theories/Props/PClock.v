(** C81: the manual clock. *)
From Verif.Go Require Import GoInt GoConc GoAtomic.
From Verif.Model Require Import ManualClock.
From Verif.Spec Require Import BucketSpec ClockSpec.
From Verif.Proofs Require Import ClockProofs.
Local Open Scope Z_scope.

(** One goroutine: after any calls the tick is the wrapped sum of what was
    added, the time is the tick in milliseconds, rounded towards zero. *)
Theorem C81_tick_is_sum : forall calls,
  mc_GetTick (at_seq mc_act newManualClock calls) = wrap64 (total_added calls) /\
  mc_GetTime (at_seq mc_act newManualClock calls) = Z.quot (wrap64 (total_added calls)) 1000000.
Proof. intros calls. exact (conj (mc_seq_GetTick calls) (mc_seq_GetTime calls)). Qed.
Print Assumptions C81_tick_is_sum.

(** Any number of goroutines: under every schedule there is a total order of the
    calls made, respecting each goroutine's program order, in which every GetTick
    and GetTime returned the value for the sum added before it; if no negative
    duration is added and the sum stays below 2^63 later readings are never
    smaller. *)
Theorem C81_concurrent : forall progs sched, exists log,
  let c := at_crun mc_act newManualClock progs sched in
  (forall i prog, progs !! i = Some prog -> exists t, threads c !! i = Some t /\
      prog = ops_of i log ++ at_todo t /\ at_got t = results_of i log) /\
  (forall p i r, log !! p = Some (i, MGetTick, r) ->
      r = wrap64 (total_added ((fun e => e.1.2) <$> take p log))) /\
  (forall p i r, log !! p = Some (i, MGetTime, r) ->
      r = Z.quot (wrap64 (total_added ((fun e => e.1.2) <$> take p log))) 1000000) /\
  mc_GetTick (shared c) = wrap64 (total_added ((fun e => e.1.2) <$> log)) /\
  (Forall (fun e => 0 <= added e.1.2) log -> total_added ((fun e => e.1.2) <$> log) < 2 ^ 63 ->
   forall p q i j o r r', (p <= q)%nat -> (o = MGetTick \/ o = MGetTime) ->
     log !! p = Some (i, o, r) -> log !! q = Some (j, o, r') -> r <= r').
Proof.
  intros progs sched. destruct (at_linearizable mc_act newManualClock progs sched) as [log L].
  exists log. cbv zeta. split_and!.
  - apply (al_threads _ _ _ _ _ L).
  - intros p i r Hp. rewrite (al_results _ _ _ _ _ L _ _ _ _ Hp). cbn. apply mc_seq_GetTick.
  - intros p i r Hp. rewrite (al_results _ _ _ _ _ L _ _ _ _ Hp). cbn. apply mc_seq_GetTime.
  - rewrite (al_state _ _ _ _ _ L). apply mc_seq_GetTick.
  - intros Hn Hb p q i j o r r' Hpq Ho Hp Hq.
    rewrite (al_results _ _ _ _ _ L _ _ _ _ Hp), (al_results _ _ _ _ _ L _ _ _ _ Hq).
    rewrite !fmap_take.
    destruct (mc_seq_mono ((fun e => e.1.2) <$> log) p q) as [H1 H2]; [by apply Forall_fmap|done|done|].
    destruct Ho as [-> | ->]; done.
Qed.
Print Assumptions C81_concurrent.

(** Two goroutines; the reads see 5 ms, then 12 ms. *)
Example C81_case :
  let c := at_crun mc_act newManualClock [[MAdd 5000000; MGetTime; MGetTick]; [MAdd 7000000]]
     [Run 0; Run 0; Run 1; Run 0; Run 1]%nat in
  at_got <$> threads c = [[0; 5; 12000000]; [0]] /\ mc_GetTime (shared c) = 12.
Proof. vm_compute. auto. Qed.

(** The real clock: over readings [n1 <= n2] of the system time at or after the
    start, both GetTick and GetTime never decrease, and GetTick is the
    nanoseconds since the start. *)
Theorem C81_user_clock : forall start n1 n2,
  0 <= start <= n1 -> n1 <= n2 -> n2 < 2 ^ 63 ->
  uc_GetTick start n1 = n1 - start /\ 0 <= uc_GetTick start n1 <= uc_GetTick start n2 /\
  uc_GetTime n1 = Z.quot n1 1000000 /\ uc_GetTime n1 <= uc_GetTime n2.
Proof.
  intros start n1 n2 H1 H2 H3. unfold uc_GetTick, uc_GetTime.
  rewrite !wrap64_quot by (unfold in64, two63; lia).
  rewrite !wrap64_id by (unfold in64, two63; lia). unfold Millisecond.
  split_and!; [done|lia|lia|done|apply Z.quot_le_mono; lia].
Qed.
Print Assumptions C81_user_clock.
Example C81_user_case : uc_GetTick 1000 2500000 = 2499000 /\ uc_GetTime 2500000 = 2.
Proof. vm_compute. auto. Qed.
