(** Every call of a compass returns (C145): every access of a shared variable a step
    (Model/CompassRead.v), any number of goroutines that update and read. *)
From Verif.Go Require Import GoInt GoFloat GoConc GoCompose.
From Verif.Model Require Import Counter BucketQueue BucketCounter BucketCounterConc EWMA EWMAConc Compass CompassConc CompassFine CompassRead.
From Verif.Spec Require Import BucketSpec CompassConcSpec CompassFineSpec CompassReadSpec ProgressSpec.
From Verif.Proofs Require Import CompassReadProofs CompassBound CompassReturn.
From Verif.Props Require Import PDecaying PCompassFine PCompassRead.
Local Open Scope Z_scope.

(** C145: all goroutines together make boundedly many steps: the bound depends only on the
    number of buckets and the calls they make, not on the schedule, the clock, the reservoir,
    the limits.  So no loop of a call goes on for ever: not the retries of tickIfNecessary
    (default_compass.go:198-208) and not the loops of the reading methods. *)
Theorem C145_bounded_steps N progs : exists B : nat, forall math_Exp rk I maxE maxA e0 c0 sched,
  cr_run math_Exp rk I N maxE maxA e0 progs [] = Some c0 ->
  (steps_made (cr_tstep math_Exp rk I N maxE maxA (ce_ms e0)) (gestep cf_estep cobj_estep) c0 sched <= B)%nat.
Proof.
  exists (Z.to_nat (sumZ ((fun p => sumZ (d_cost (length progs) (Z.of_nat (Z.to_nat (N + 1))) <$> p)) <$> progs))).
  intros math_Exp rk I maxE maxA e0 c0 sched H0. pose proof (cr_bound math_Exp rk I N maxE maxA e0 progs c0 H0 sched). lia.
Qed.

(** C145: so every fair schedule completes all calls (unless Go's runtime aborts the process
    because a map is iterated over while it is assigned to: C92): it is enough that every
    goroutine gets [B + 1] turns, however they are interleaved. *)
Theorem C145_all_return N progs : exists B : nat, forall math_Exp rk I maxE maxA e0 rounds,
  counter_setting I N -> reservoir_setting math_Exp rk e0 (writes <$> progs) (mjoin rounds) ->
  Forall (Forall (fun d => match d with DRead call => reading_call rk call | DWrite _ => True end)) progs ->
  Forall (round (length progs)) rounds -> (B < length rounds)%nat ->
  exists c, cr_run math_Exp rk I N maxE maxA e0 progs (mjoin rounds) = Some c /\
    (cs_crashed (gs_client (shared c)) = true \/ Forall (fun t => dt_todo t = [] /\ idle_thread t = true) (threads c)).
Proof.
  exists (Z.to_nat (sumZ ((fun p => sumZ (d_cost (length progs) (Z.of_nat (Z.to_nat (N + 1))) <$> p)) <$> progs))).
  intros math_Exp rk I maxE maxA e0 rounds HS HR HP Hr Hlen. destruct (run_defined math_Exp rk I N maxE maxA e0 progs [] HS) as [c0 H0].
  exists (crun (cr_tstep math_Exp rk I N maxE maxA (ce_ms e0)) (gestep cf_estep cobj_estep) c0 (mjoin rounds)).
  split; [by apply (run_from math_Exp rk I N maxE maxA e0 progs c0 H0)|]. apply (cr_all_return math_Exp rk I N maxE maxA e0 progs c0 H0 rounds); try done. lia.
Qed.
(** C145: and without the map getters there is no such abort: all calls return. *)
Theorem C145_all_return_without_getters N progs : Forall (Forall no_getter) (writes <$> progs) ->
  exists B : nat, forall math_Exp rk I maxE maxA e0 rounds,
  counter_setting I N -> reservoir_setting math_Exp rk e0 (writes <$> progs) (mjoin rounds) ->
  Forall (Forall (fun d => match d with DRead call => reading_call rk call | DWrite _ => True end)) progs ->
  Forall (round (length progs)) rounds -> (B < length rounds)%nat ->
  exists c, cr_run math_Exp rk I N maxE maxA e0 progs (mjoin rounds) = Some c /\
    Forall (fun t => dt_todo t = [] /\ idle_thread t = true) (threads c).
Proof.
  intros HG. destruct (C145_all_return N progs) as [B HB]. exists B. intros math_Exp rk I maxE maxA e0 rounds HS HR HP Hr Hlen.
  destruct (HB math_Exp rk I maxE maxA e0 rounds HS HR HP Hr Hlen) as (c & Hc & H). exists c. split; [done|]. destruct H as [H|H]; [|done]. exfalso.
  destruct (readers_disturb_nothing math_Exp rk I N maxE maxA e0 progs _ c Hc) as (sched' & _ & _ & Hrun).
  pose proof (C118_no_abort math_Exp rk I N maxE maxA e0 (writes <$> progs) sched' _ Hrun HG) as Hn. unfold compass_of in Hn. cbn [without_reads shared] in Hn. congruence.
Qed.
Print Assumptions C145_bounded_steps.
Print Assumptions C145_all_return.
Print Assumptions C145_all_return_without_getters.

(** The hypotheses are met, and a schedule of rounds completes all calls of two goroutines that
    update and read, ticks of the averages included. *)
Definition two_rounds (n : nat) : list (list (event cenv)) := replicate n [Run 0; Run 1]%nat ++ [Env (CEnv 7000000000 6500 half [3]); Run 1%nat; Run 0%nat] :: replicate n [Run 1; Run 0]%nat.
Example C145_case : counter_setting (5 * Second) 10 /\ Forall (Forall no_getter) (writes <$> read_progs) /\
  Forall (Forall (fun d => match d with DRead call => reading_call RBucket call | DWrite _ => True end)) read_progs /\
  (forall n, Forall (round 2) (two_rounds n) /\ (n < length (two_rounds n))%nat) /\
  (read_doneb <$> read_case (mjoin (two_rounds 20)), read_doneb <$> read_case (mjoin (two_rounds 300))) = (Some false, Some true).
Proof.
  refine (conj _ (conj _ (conj _ (conj _ _)))).
  - split; [vm_compute; congruence|]. split; [split; vm_compute; congruence|lia].
  - repeat constructor.
  - repeat constructor.
  - intros n. split; [|unfold two_rounds; rewrite app_length, replicate_length; cbn [length]; lia]. apply Forall_app. split; [apply Forall_replicate; intros i Hi; destruct i as [|[|i]]; [left|right; left|lia]|].
    apply Forall_cons. split; [intros i Hi; destruct i as [|[|i]]; [right; right; left|right; left|lia]|]. apply Forall_replicate; intros i Hi; destruct i as [|[|i]]; [right; left|left|lia].
  - vm_compute. reflexivity.
Qed.
