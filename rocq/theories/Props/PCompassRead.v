(** C133-C140: a compass that is read while it is updated, every access of a shared
    variable a step (Model/CompassRead.v), any number of goroutines, any schedule.
    [cr_run math_Exp rk I N maxE maxA e0 progs sched]: a compass created when the
    environment shows [e0], with bucket interval [I], [N] buckets, limits [maxE] and [maxA]
    and a reservoir of the kind [rk], used by goroutines with the programs [progs], each a
    list of updating and reading calls.
    [reads c1 c2 i call a] (Spec/CompassReadSpec.v): the goroutine [i] is about to make the
    reading call [call] in the state [c1], and in [c2] that call has returned [a].
    A call that takes place during [s2] after [s1]: the moments of the call are the prefixes
    of [s2]. *)
From Verif.Go Require Import GoInt GoFloat GoConc GoCompose.
From Verif.Model Require Import Counter BucketQueue BucketCounter BucketCounterConc BucketReservoir EWMA EWMAConc WeightedSnapshot DecayingReservoir DecayingConc Compass CompassConc CompassFine CompassRead.
From Verif.Spec Require Import BucketSpec BucketConcSpec EWMASpec EWMAConcSpec DecayingSpec DecayingConcSpec CompassConcSpec CompassFineSpec CompassReadSpec.
From Verif.Proofs Require Import FloatProofs BucketHist MeanRate CompassReadProofs CompassReadInv CompassReadMain CompassReadCalls CompassReadRest CompassReadGives CompassReadOrder CompassReadProgress.
From Verif.Props Require Import PDecaying PCompassFine.
From Coq Require Import Reals.
From Flocq Require Import Core.Core.
Local Open Scope Z_scope.

Section compass.
Context (math_Exp : f64 -> f64) (rk : reservoir_kind) (I N maxE maxA : Z) (e0 : cenv) (progs : list (list dcall)).
Notation run := (cr_run math_Exp rk I N maxE maxA e0 progs).
Notation Isec := (interval_seconds I).

Lemma started : counter_setting I N -> exists objs0, cf_objs0 rk I N e0 = Some objs0.
Proof. intros HS. destruct (run_defined math_Exp rk I N maxE maxA e0 progs [] HS) as [c Hc]. destruct (run_started _ _ _ _ _ _ _ _ _ _ Hc) as (objs0 & H & _). eauto. Qed.

(** C133: what is left of an execution when the reading calls are taken out is an execution
    of the updating calls alone, with the same clock. *)
Theorem C133_readers_disturb_nothing sched c : run sched = Some c ->
  exists sched', sched' `sublist_of` sched /\ shown sched' = shown sched /\ cf_run math_Exp rk I N maxE maxA e0 (writes <$> progs) sched' = Some (without_reads c).
Proof. apply readers_disturb_nothing. Qed.
(** C133: a step inside a reading call changes nothing but the goroutine that makes it. *)
Theorem C133_reads_change_nothing start s t s' t' : cr_tstep math_Exp rk I N maxE maxA start s t = Some (s', t') -> dt_read t <> None -> s' = s.
Proof.
  unfold cr_tstep. destruct (cs_crashed _); [done|]. destruct (dt_read t) as [[call pc]|]; [|by intros _ []].
  destruct (read_step _ _ _ _) as [[pc'|a]|]; [..|done]; intros Hs _; by injection Hs as <- <-.
Qed.
(** C133: so with readers, too: when all goroutines have returned from all their calls,
    every update has been counted exactly once. *)
Theorem C133_final_counts sched : counter_setting I N ->
  exists c, run sched = Some c /\ (Forall (fun t => idle_thread t = true /\ dt_todo t = []) (threads c) ->
  (exists b, counter_at (without_reads c) KTotal = Some b /\ bc_GetCount b = wrap64 (Z.of_nat (length (planned durations (writes <$> progs))))) /\
  exists b, counter_at (without_reads c) KSuccess = Some b /\ bc_GetCount b = wrap64 (successes (planned results (writes <$> progs)))).
Proof.
  intros HS. destruct (run_defined math_Exp rk I N maxE maxA e0 progs sched HS) as [c Hc]. exists c. split; [done|]. intros Hd.
  destruct (readers_disturb_nothing _ _ _ _ _ _ _ _ _ _ Hc) as (sched' & _ & _ & Hf).
  destruct (C114_counts math_Exp rk I N maxE maxA e0 (writes <$> progs) sched' HS) as (c' & Hc' & H). rewrite Hf in Hc'. injection Hc' as <-.
  destruct H as (H1 & H2 & _); [|split; [exact H1|exact H2]].
  unfold without_reads. cbn [threads]. apply Forall_fmap. eapply Forall_impl; [exact Hd|]. intros t [Ht1 Ht2]. cbn. unfold idle_thread in Ht1. destruct (dt_read t); [done|].
  apply rest_idle in Ht1 as (R1 & R2 & R3). unfold returned_all, g_push. cbn [gt_client kt_todo kt_pc gt_in]. rewrite R1, Ht2. done.
Qed.

(** C134: GetCount and GetSuccessCount.  There is an order in which the updates are counted,
    each once, all finished ones and no other than the ones begun; and what a call of
    GetCount (GetSuccessCount) returns is what had been counted at a moment of the call. *)
Theorem C134_counts k : main_counter rk k -> counter_setting I N ->
  exists T : list (event cenv) -> list Z, (forall s s', T s `prefix_of` T (s ++ s')) /\
  (forall s c, run s = Some c -> all_amounts k (finished progs c) ⊆+ T s /\ T s ⊆+ all_amounts k (begun progs c)) /\
  forall s1 s2 c1 c2 i a, run s1 = Some c1 -> run (s1 ++ s2) = Some c2 -> reads c1 c2 i (RCount k) a ->
    exists s', s' `prefix_of` s2 /\ a = AInt (wrap64 (sumZ (T (s1 ++ s')))).
Proof.
  intros Hk HS. destruct (started HS) as [objs0 H0]. exists (counts math_Exp rk I N maxE maxA e0 progs objs0 k). split; [intros; apply counts_prefix|]. split.
  - intros s c Hc. rewrite (run_at _ _ _ _ _ _ _ _ _ H0) in Hc. injection Hc as <-. destruct (count_value math_Exp rk I N maxE maxA e0 progs objs0 HS H0 k s Hk) as (_ & _ & _ & H1 & H2). by split.
  - intros s1 s2 c1 c2 i a Hc1 Hc2 Hr. rewrite (run_at _ _ _ _ _ _ _ _ _ H0) in Hc1, Hc2. injection Hc1 as <-. injection Hc2 as <-. by eapply count_answer.
Qed.

Lemma ones k l : k = KTotal \/ k = KSuccess -> sumZ (all_amounts k l) = Z.of_nat (length (all_amounts k l)) /\ Forall (fun n => n = 1) (all_amounts k l).
Proof.
  intros Hk. induction l as [|[d [r|]| |w key] l [IH1 IH2]]; [split; [done|constructor]|..]; rewrite all_amounts_cons; destruct Hk as [->| ->]; cbn [amounts app]; try done; try (destruct (rs_success r)); cbn [app]; try done.
  all: rewrite sumZ_cons; cbn [length]; split; [lia|by constructor].
Qed.
Lemma ones_sum l : Forall (fun n => n = 1) l -> sumZ l = Z.of_nat (length l).
Proof. induction 1 as [|x l -> _ IH]; [done|]. rewrite sumZ_cons. cbn [length]. lia. Qed.
Lemma amounts_le k l : (length (all_amounts k l) <= length (durations l))%nat.
Proof. induction l as [|[d [r|]| |w key] l IH]; [done|..]; rewrite all_amounts_cons; destruct k; cbn [amounts app length durations omap list_omap]; try (destruct (rs_success r)); cbn [app length]; unfold durations in IH; lia. Qed.
Lemma begun_le s c : counter_setting I N -> run s = Some c -> (length (durations (begun progs c)) <= length (planned durations (writes <$> progs)))%nat.
Proof.
  intros HS Hc. rewrite (begun_durations (threads c) progs); [unfold begun; lia|]. eapply Forall2_impl; [exact (tinv_run math_Exp rk I N maxE maxA e0 progs HS _ _ Hc)|]. intros p t [E1 _]. exact E1.
Qed.

(** C134 for fewer than 2^63 updates: GetCount is at least the number of updates that had
    returned when it was called and at most the number of those begun when it returned
    (GetSuccessCount: of successful ones); and it never goes down. *)
Theorem C134_count_bounds k s1 s2 c1 c2 i n : k = KTotal \/ k = KSuccess -> counter_setting I N -> Z.of_nat (length (planned durations (writes <$> progs))) < 2 ^ 63 ->
  run s1 = Some c1 -> run (s1 ++ s2) = Some c2 -> reads c1 c2 i (RCount k) (AInt n) ->
  Z.of_nat (length (all_amounts k (finished progs c1))) <= n <= Z.of_nat (length (all_amounts k (begun progs c2))).
Proof.
  intros Hk HS Hn Hc1 Hc2 Hr. assert (Hm : main_counter rk k) by (by destruct Hk as [->| ->]).
  destruct (C134_counts k Hm HS) as (T & Hp & Hb & Ha). destruct (Ha _ _ _ _ _ _ Hc1 Hc2 Hr) as (s' & [z ->] & E). injection E as ->.
  destruct (Hb _ _ Hc1) as [B1 _]. destruct (Hb _ _ Hc2) as [_ B2].
  assert (P1 : T s1 ⊆+ T (s1 ++ s')) by (destruct (Hp s1 s') as [x ->]; by apply submseteq_inserts_r).
  assert (P2 : T (s1 ++ s') ⊆+ T (s1 ++ s' ++ z)) by (destruct (Hp (s1 ++ s') z) as [x E]; rewrite app_assoc, E; by apply submseteq_inserts_r).
  assert (P3 : T (s1 ++ s') ⊆+ all_amounts k (begun progs c2)) by (by etransitivity).
  assert (F : Forall (fun n => n = 1) (T (s1 ++ s'))).
  { destruct (ones k (begun progs c2) Hk) as [_ F]. apply submseteq_Permutation in P3 as [l E]. rewrite E in F. by apply Forall_app in F as [F _]. }
  rewrite (ones_sum _ F). apply submseteq_length in P1, P3, B1. pose proof (amounts_le k (begun progs c2)). pose proof (begun_le _ _ HS Hc2).
  rewrite wrap64_id by (unfold in64, two63; lia). lia.
Qed.
Theorem C134_counts_never_fall k s1 s2 s3 s4 c1 c2 c3 c4 i j n m : k = KTotal \/ k = KSuccess -> counter_setting I N -> Z.of_nat (length (planned durations (writes <$> progs))) < 2 ^ 63 ->
  run s1 = Some c1 -> run (s1 ++ s2) = Some c2 -> reads c1 c2 i (RCount k) (AInt n) ->
  run (s1 ++ s2 ++ s3) = Some c3 -> run (s1 ++ s2 ++ s3 ++ s4) = Some c4 -> reads c3 c4 j (RCount k) (AInt m) -> n <= m.
Proof.
  intros Hk HS Hn Hc1 Hc2 Hr1 Hc3 Hc4 Hr2. assert (Hm : main_counter rk k) by (by destruct Hk as [->| ->]).
  destruct (C134_counts k Hm HS) as (T & Hp & Hb & Ha). destruct (Ha _ _ _ _ _ _ Hc1 Hc2 Hr1) as (s' & [z ->] & E1). injection E1 as ->.
  replace (s1 ++ (s' ++ z) ++ s3 ++ s4) with ((s1 ++ (s' ++ z) ++ s3) ++ s4) in Hc4 by (by rewrite !app_assoc).
  destruct (Ha _ _ _ _ _ _ Hc3 Hc4 Hr2) as (s'' & [y ->] & E2). injection E2 as ->. destruct (Hb _ _ Hc4) as [_ B].
  assert (P : forall u, u ++ y = (s1 ++ (s' ++ z) ++ s3) ++ s'' ++ y -> T u ⊆+ all_amounts k (begun progs c4)).
  { intros u Hu. etransitivity; [|exact B]. rewrite <- Hu. destruct (Hp u y) as [x ->]. by apply submseteq_inserts_r. }
  assert (P2 : T ((s1 ++ (s' ++ z) ++ s3) ++ s'') ⊆+ all_amounts k (begun progs c4)) by (apply P; by rewrite <- !app_assoc).
  assert (P1 : T (s1 ++ s') ⊆+ T ((s1 ++ (s' ++ z) ++ s3) ++ s'')).
  { replace ((s1 ++ (s' ++ z) ++ s3) ++ s'') with ((s1 ++ s') ++ z ++ s3 ++ s'') by (by rewrite <- !app_assoc). destruct (Hp (s1 ++ s') (z ++ s3 ++ s'')) as [x ->]. by apply submseteq_inserts_r. }
  assert (F : forall l, l ⊆+ all_amounts k (begun progs c4) -> sumZ l = Z.of_nat (length l)).
  { intros l Hl. apply ones_sum. destruct (ones k (begun progs c4) Hk) as [_ F]. apply submseteq_Permutation in Hl as [x E]. rewrite E in F. by apply Forall_app in F as [F _]. }
  rewrite (F _ P2), (F _ ltac:(by etransitivity)). apply submseteq_length in P1, P2. pose proof (amounts_le k (begun progs c4)). pose proof (begun_le _ _ HS Hc4).
  rewrite !wrap64_id by (unfold in64, two63; lia). lia.
Qed.

(** C135: GetInstantCount (GetInstantCountSince, and GetBucketCountsSince of the counters of
    successes and values).  There is an order [L] in which amounts are added to intervals,
    each once, all of the finished updates and none but of those begun, to intervals the
    clock showed; a call with the start [st] during [s2] reports at most [N] intervals, none
    before [st] or after the interval of a time the clock showed during the call, each with
    exactly what had been added to it at a moment of the call. *)
Theorem C135_instant_counts k : main_counter rk k -> counter_setting I N ->
  exists L : list (event cenv) -> list (Z * Z), (forall s s', L s `prefix_of` L (s ++ s')) /\
  (forall s c, run s = Some c -> all_amounts k (finished progs c) ⊆+ (L s).*2 /\ (L s).*2 ⊆+ all_amounts k (begun progs c) /\
     forall x n, (x, n) ∈ L s -> x = -1000 \/ exists now, now ∈ times (ce_ms e0) s /\ x = trunc_key Isec now) /\
  forall s1 s2 c1 c2 i st a, -1000 < st -> run s1 = Some c1 -> run (s1 ++ s2) = Some c2 -> reads c1 c2 i (RSince k st) a ->
    exists m, a = ACounts m /\ (size m <= Z.to_nat N)%nat /\
    exists now, now ∈ times (ce_ms (gs_env (shared c1))) s2 /\
    forall x v, m !! x = Some v -> st <= x <= trunc_key Isec now /\
      (exists now', now' ∈ times (ce_ms e0) (s1 ++ s2) /\ x = trunc_key Isec now') /\
      exists s', s' `prefix_of` s2 /\ v = wrap64 (sum_at x (L (s1 ++ s'))).
Proof.
  intros Hk HS. destruct (started HS) as [objs0 H0]. exists (added math_Exp rk I N maxE maxA e0 progs objs0 k). split; [intros; by apply added_prefix|]. split.
  - intros s c Hc. rewrite (run_at _ _ _ _ _ _ _ _ _ H0) in Hc. injection Hc as <-. destruct (added_bounds math_Exp rk I N maxE maxA e0 progs objs0 HS H0 k s Hk) as [H1 H2].
    split; [done|]. split; [done|]. intros x n Hx. by eapply added_keys.
  - intros s1 s2 c1 c2 i st a Hst Hc1 Hc2 Hr. rewrite (run_at _ _ _ _ _ _ _ _ _ H0) in Hc1, Hc2. injection Hc1 as <-. injection Hc2 as <-. by eapply since_answer.
Qed.

(** C136: GetMeanRate returns 0 if nothing was counted or no time has passed, and otherwise,
    up to a relative error of 2^-50, the number [n] of updates counted at a moment of the
    call per second of the time between the creation (the milliseconds the clock showed
    then) and the tick shown at a later moment of the call. *)
Theorem C136_mean_rate s1 s2 c1 c2 i a : counter_setting I N -> Z.of_nat (length (planned durations (writes <$> progs))) < 2 ^ 63 ->
  run s1 = Some c1 -> run (s1 ++ s2) = Some c2 -> reads c1 c2 i RMean a ->
  exists n r s', a = AFloat r /\ Z.of_nat (length (all_amounts KTotal (finished progs c1))) <= n <= Z.of_nat (length (all_amounts KTotal (begun progs c2))) /\ s' `prefix_of` s2 /\
    let elapsed := wrap64 (wrap64 (ce_tick (showing e0 (s1 ++ s'))) - ce_ms e0) in
    (n = 0 \/ elapsed <= 0 -> r = f0) /\
    (n <> 0 /\ 0 < elapsed -> ffinite r = true /\ let exact := (IZR n / IZR elapsed * IZR Second)%R in (Rabs (RF r - exact) <= bpow radix2 (-50) * exact)%R).
Proof.
  intros HS Hn Hc1 Hc2 Hr. destruct (started HS) as [objs0 H0]. pose proof Hc1 as Hc1'. pose proof Hc2 as Hc2'.
  rewrite (run_at _ _ _ _ _ _ _ _ _ H0) in Hc1, Hc2. injection Hc1 as Ec1. injection Hc2 as Ec2. subst c1 c2.
  destruct (mean_answer math_Exp rk I N maxE maxA e0 progs objs0 HS H0 s1 s2 i a Hr) as (s' & s'' & Hp & Hp2 & Ea).
  set (T := counts math_Exp rk I N maxE maxA e0 progs objs0 KTotal) in *.
  assert (Hs' : s' `prefix_of` s2) by (by etransitivity).
  assert (Hb : Z.of_nat (length (all_amounts KTotal (finished progs (at_ math_Exp rk I N maxE maxA e0 progs objs0 s1)))) <= wrap64 (sumZ (T (s1 ++ s'))) <= Z.of_nat (length (all_amounts KTotal (begun progs (at_ math_Exp rk I N maxE maxA e0 progs objs0 (s1 ++ s2)))))).
  { destruct Hs' as [z ->]. destruct (count_value math_Exp rk I N maxE maxA e0 progs objs0 HS H0 KTotal s1 Logic.I) as (_ & _ & _ & B1 & _).
    destruct (count_value math_Exp rk I N maxE maxA e0 progs objs0 HS H0 KTotal (s1 ++ s' ++ z) Logic.I) as (_ & _ & _ & _ & B2).
    assert (P1 : T s1 ⊆+ T (s1 ++ s')) by (destruct (counts_prefix math_Exp rk I N maxE maxA e0 progs objs0 KTotal s1 s') as [x E]; unfold T; rewrite E; by apply submseteq_inserts_r).
    assert (P2 : T (s1 ++ s') ⊆+ T (s1 ++ s' ++ z)) by (destruct (counts_prefix math_Exp rk I N maxE maxA e0 progs objs0 KTotal (s1 ++ s') z) as [x E]; unfold T; rewrite app_assoc, E; by apply submseteq_inserts_r).
    fold T in B1, B2. assert (P3 : T (s1 ++ s') ⊆+ all_amounts KTotal (begun progs (at_ math_Exp rk I N maxE maxA e0 progs objs0 (s1 ++ s' ++ z)))) by (by etransitivity).
    assert (F : Forall (fun n => n = 1) (T (s1 ++ s'))).
    { destruct (ones KTotal (begun progs (at_ math_Exp rk I N maxE maxA e0 progs objs0 (s1 ++ s' ++ z))) (or_introl eq_refl)) as [_ F]. pose proof P3 as P4. apply submseteq_Permutation in P4 as [l E]. rewrite E in F. by apply Forall_app in F as [F _]. }
    rewrite (ones_sum _ F). apply submseteq_length in P1, P3, B1. pose proof (amounts_le KTotal (begun progs (at_ math_Exp rk I N maxE maxA e0 progs objs0 (s1 ++ s' ++ z)))). pose proof (begun_le _ _ HS Hc2').
    rewrite wrap64_id by (unfold in64, two63; lia). lia. }
  pose proof (begun_le _ _ HS Hc2') as Hle. pose proof (amounts_le KTotal (begun progs (at_ math_Exp rk I N maxE maxA e0 progs objs0 (s1 ++ s2)))) as Hle2.
  set (n := wrap64 (sumZ (T (s1 ++ s')))) in *. eexists n, _, s''. split; [exact Ea|]. split; [exact Hb|]. split; [exact Hp2|].
  cbv zeta. unfold mean_rate. set (tick := wrap64 (ce_tick (showing e0 (s1 ++ s'')))). set (e := wrap64 (tick - ce_ms e0)).
  assert (Hn0 : 0 <= n) by lia. assert (Hn64 : in64 n) by (unfold in64, two63; lia). assert (He64 : in64 e) by apply wrap64_range. clearbody n e. clear Ea Hb Hle Hle2.
  split.
  - intros [->|He]; [reflexivity|]. destruct (Z.leb_spec e 0); [|lia]. rewrite orb_true_r. reflexivity.
  - intros [H1 H2]. destruct (Z.eqb_spec n 0); [lia|]. destruct (Z.leb_spec e 0); [lia|]. cbn [orb]. apply mean_rate_error; [lia|exact Hn64|lia|exact He64].
Qed.

(** C137: LastUpdateTime.  With the order [L] of C135 there is a latest interval [latest]
    (in seconds; -1 at first), one the clock showed, that never goes back and is never
    before one that something was added to; what a call of LastUpdateTime returns is the
    latest interval at a moment of the call (while that is not positive, the creation time
    in milliseconds). *)
Theorem C137_last_update k : main_counter rk k -> counter_setting I N ->
  exists (L : list (event cenv) -> list (Z * Z)) (latest : list (event cenv) -> Z),
  (forall s s', L s `prefix_of` L (s ++ s') /\ latest s <= latest (s ++ s')) /\
  (forall s c, run s = Some c -> all_amounts k (finished progs c) ⊆+ (L s).*2 /\ (L s).*2 ⊆+ all_amounts k (begun progs c) /\
     (forall x n, (x, n) ∈ L s -> x <= 1000 * latest s) /\
     (latest s = -1 \/ exists now, now ∈ times (ce_ms e0) s /\ 1000 * latest s = trunc_key Isec now)) /\
  forall s1 s2 c1 c2 i a, run s1 = Some c1 -> run (s1 ++ s2) = Some c2 -> reads c1 c2 i (RLast k) a ->
    exists s', s' `prefix_of` s2 /\ a = AInt (if latest (s1 ++ s') <=? 0 then ce_ms e0 else latest (s1 ++ s')).
Proof.
  intros Hk HS. destruct (started HS) as [objs0 H0]. exists (added math_Exp rk I N maxE maxA e0 progs objs0 k), (latest math_Exp rk I N maxE maxA e0 progs objs0 k). split; [|split].
  - intros s s'. split; [by apply added_prefix|by apply latest_mono].
  - intros s c Hc. rewrite (run_at _ _ _ _ _ _ _ _ _ H0) in Hc. injection Hc as <-. destruct (added_bounds math_Exp rk I N maxE maxA e0 progs objs0 HS H0 k s Hk) as [H1 H2].
    split; [done|]. split; [done|]. split; [intros x n Hx; by eapply latest_added|]. destruct (latest_state math_Exp rk I N maxE maxA e0 progs objs0 HS H0 k s Hk) as (_ & _ & _ & H & _). exact H.
  - intros s1 s2 c1 c2 i a Hc1 Hc2 Hr. rewrite (run_at _ _ _ _ _ _ _ _ _ H0) in Hc1, Hc2. injection Hc1 as <-. injection Hc2 as <-. by eapply last_answer.
Qed.

(** C138: the rate getters.  The average receives counts one after the other, all
    non-negative and together no more than the updates begun; what GetRate returns is the
    result of those received until a moment of the call. *)
Theorem C138_rates k : k ∈ [KOne; KFive; KFifteen] -> counter_setting I N -> Z.of_nat (length (planned durations (writes <$> progs))) < 2 ^ 63 ->
  exists T : list (event cenv) -> list Z, (forall s s', T s `prefix_of` T (s ++ s')) /\
  (forall s c, run s = Some c -> Forall (fun count => 0 <= count) (T s) /\ sumZ (T s) <= Z.of_nat (length (durations (begun progs c)))) /\
  forall s1 s2 c1 c2 i a, run s1 = Some c1 -> run (s1 ++ s2) = Some c2 -> reads c1 c2 i (RRate k) a ->
    exists s' r, s' `prefix_of` s2 /\ a = AFloat r /\ r = ew_GetRate (fold_left ew_TickN (T (s1 ++ s')) zeroEWMA) Second.
Proof.
  intros Hk HS Hn. destruct (started HS) as [objs0 H0]. exists (ticks_of math_Exp rk I N maxE maxA e0 progs objs0 k). split; [intros; by apply ticks_prefix|]. split.
  - intros s c Hc. rewrite (run_at _ _ _ _ _ _ _ _ _ H0) in Hc. injection Hc as <-. destruct (rate_state math_Exp rk I N maxE maxA e0 progs objs0 HS H0 k s Hk Hn) as (_ & _ & _ & H). exact H.
  - intros s1 s2 c1 c2 i a Hc1 Hc2 Hr. rewrite (run_at _ _ _ _ _ _ _ _ _ H0) in Hc1, Hc2. injection Hc1 as <-. injection Hc2 as <-.
    destruct (rate_answer math_Exp rk I N maxE maxA e0 progs objs0 HS H0 s1 s2 i k a Hk Hn Hr) as (s' & Hs' & ->). eexists s', _. split; [exact Hs'|]. split; reflexivity.
Qed.
(** C138: whatever the schedule, what GetOneMinuteRate, GetFiveMinuteRate and
    GetFifteenMinuteRate return is 0, infinite or not a number (C33), never negative. *)
Theorem C138_never_a_rate k s1 s2 c1 c2 i a : k ∈ [KOne; KFive; KFifteen] -> counter_setting I N -> Z.of_nat (length (planned durations (writes <$> progs))) < 2 ^ 63 ->
  run s1 = Some c1 -> run (s1 ++ s2) = Some c2 -> reads c1 c2 i (RRate k) a -> exists r, a = AFloat r /\ (r = f0 \/ ffinite r = false) /\ flt r f0 = false.
Proof.
  intros Hk HS Hn Hc1 Hc2 Hr. destruct (C138_rates k Hk HS Hn) as (T & _ & Hb & Ha). destruct (Ha _ _ _ _ _ _ Hc1 Hc2 Hr) as (s' & r & [z ->] & -> & ->). eexists. split; [reflexivity|].
  destruct (run_defined math_Exp rk I N maxE maxA e0 progs (s1 ++ s') HS) as [c Hc]. destruct (Hb _ _ Hc) as [F1 F2]. pose proof (begun_le _ _ HS Hc).
  destruct (rate_values (T (s1 ++ s')) F1 ltac:(lia)) as (R1 & R2 & R3). split; [|exact R3]. destruct (T (s1 ++ s')) as [|x l]; [left; exact (R1 eq_refl)|right; apply R2; discriminate].
Qed.

(** C139: GetSnapshot of a compass with a bucket reservoir, made while the clock shows
    times after the first second.  With the order of C135 for the durations and for the
    counts: value and count of the snapshot are each 0 or what had been added, until a
    moment of the call, to an interval not before the one that precedes the interval of a
    time shown during the call. *)
Theorem C139_snapshot : rk = RBucket -> counter_setting I N ->
  exists L : ckey -> list (event cenv) -> list (Z * Z), (forall k s s', k = KValues \/ k = KTotal -> L k s `prefix_of` L k (s ++ s')) /\
  (forall k s c, k = KValues \/ k = KTotal -> run s = Some c -> all_amounts k (finished progs c) ⊆+ (L k s).*2 /\ (L k s).*2 ⊆+ all_amounts k (begun progs c)) /\
  forall s1 s2 c1 c2 i p q a, run s1 = Some c1 -> run (s1 ++ s2) = Some c2 -> reads c1 c2 i (RSnapshot p q) a ->
    let during := times (ce_ms (gs_env (shared c1))) s2 in (forall now, now ∈ during -> 1000 <= now) ->
    exists snap from, a = ASnapshot snap /\ from ∈ during /\
    forall k v, (k = KValues /\ v = bs_value snap) \/ (k = KTotal /\ v = bs_count snap) ->
      v = 0 \/ exists x now now' s', now ∈ during /\ trunc_key Isec from - 1000 * Isec <= x <= trunc_key Isec now /\
        now' ∈ times (ce_ms e0) (s1 ++ s2) /\ x = trunc_key Isec now' /\ s' `prefix_of` s2 /\ v = wrap64 (sum_at x (L k (s1 ++ s'))).
Proof.
  intros Hrk HS. destruct (started HS) as [objs0 H0]. exists (added math_Exp rk I N maxE maxA e0 progs objs0).
  assert (Hm : forall k, k = KValues \/ k = KTotal -> main_counter rk k) by (intros k [->| ->]; rewrite Hrk; exact Logic.I).
  split; [intros k s s' Hk; by apply added_prefix, Hm|]. split.
  - intros k s c Hk Hc. rewrite (run_at _ _ _ _ _ _ _ _ _ H0) in Hc. injection Hc as <-. apply added_bounds; [done..|by apply Hm].
  - intros s1 s2 c1 c2 i p q a Hc1 Hc2 Hr. rewrite (run_at _ _ _ _ _ _ _ _ _ H0) in Hc1, Hc2. injection Hc1 as <-. injection Hc2 as <-. cbv zeta. intros Hpos.
    destruct (snapshot_answer math_Exp rk I N maxE maxA e0 progs objs0 HS H0 s1 s2 i p q a Hrk Hpos Hr) as (snap & from & -> & Hfrom & PV & PT).
    exists snap, from. split; [done|]. split; [done|]. intros k v Hkv.
    assert (P : part_of math_Exp rk I N maxE maxA e0 progs objs0 s1 s2 k from v) by (by destruct Hkv as [[-> ->]|[-> ->]]).
    destruct P as [->|(now & x & s' & P1 & P2 & (now' & P3 & P4) & P5 & P6)]; [by left|right]. exists x, now, now', s'. done.
Qed.

(** C140: every reading call returns after at most [cost N call] steps of its goroutine
    (2 for GetCount, GetSuccessCount, LastUpdateTime and GetRate, 3 for GetMeanRate,
    3 N + 10 for GetInstantCount, 6 N + 18 for GetSnapshot), whatever the others do, unless
    the process was aborted. *)
Theorem C140_reads_return s1 s2 c1 c2 i t call todo : counter_setting I N -> reading_call rk call ->
  run s1 = Some c1 -> run (s1 ++ s2) = Some c2 -> threads c1 !! i = Some t -> idle_thread t = true -> dt_todo t = DRead call :: todo ->
  cs_crashed (gs_client (shared c2)) = false -> cost N call <= Z.of_nat (turns i s2) -> exists a, reads c1 c2 i call a.
Proof.
  intros HS Hcall Hc1 Hc2 Hi Hidle Htodo Hnc Hcost. destruct (started HS) as [objs0 H0]. rewrite (run_at _ _ _ _ _ _ _ _ _ H0) in Hc1, Hc2. injection Hc1 as <-. injection Hc2 as <-.
  by eapply read_returns.
Qed.
(** C140: no deadlock, with readers: as long as not all goroutines have finished their
    programs, one of them can make a step. *)
Theorem C140_no_deadlock s c : counter_setting I N -> reservoir_setting math_Exp rk e0 (writes <$> progs) s -> Forall (Forall (fun d => match d with DRead call => reading_call rk call | DWrite _ => True end)) progs ->
  run s = Some c -> cs_crashed (gs_client (shared c)) = false -> ~ Forall (fun t => dt_todo t = [] /\ idle_thread t = true) (threads c) ->
  exists i t, threads c !! i = Some t /\ cr_tstep math_Exp rk I N maxE maxA (ce_ms e0) (shared c) t <> None.
Proof.
  intros HS HR HP Hc. destruct (reading_progress math_Exp rk I N maxE maxA e0 progs s HS HR HP) as (c' & Hc' & H). rewrite Hc in Hc'. injection Hc' as <-. exact H.
Qed.
(** The methods (Model/CompassRead.v), called next to updates. *)
Lemma total_amounts l : length (all_amounts KTotal l) = length (durations l).
Proof. induction l as [|[d r| |w key] l IH]; [done|..]; rewrite all_amounts_cons; cbn [amounts app length durations omap list_omap]; unfold durations in IH; lia. Qed.
Lemma success_amounts l : Z.of_nat (length (all_amounts KSuccess l)) = successes (results l).
Proof.
  unfold successes. f_equal. induction l as [|[d [r|]| |w key] l IH]; [done|..]; rewrite all_amounts_cons; cbn [amounts app length results omap list_omap]; unfold results in IH; try exact IH.
  rewrite filter_cons. destruct (rs_success r); [rewrite decide_True by done|rewrite decide_False by done]; cbn [length app]; [f_equal; exact IH|exact IH].
Qed.
Theorem C134_GetCount s1 s2 c1 c2 i a : counter_setting I N -> Z.of_nat (length (planned durations (writes <$> progs))) < 2 ^ 63 ->
  run s1 = Some c1 -> run (s1 ++ s2) = Some c2 -> gives c1 c2 i GetCount a ->
  exists n, a = AInt n /\ Z.of_nat (length (durations (finished progs c1))) <= n <= Z.of_nat (length (durations (begun progs c2))).
Proof.
  intros HS Hn Hc1 Hc2 Hg. pose proof (gives_reads _ _ _ _ _ _ _ _ _ _ _ _ _ _ _ Hc1 Hc2 Hg) as Hr. destruct (C134_counts KTotal Logic.I HS) as (T & _ & _ & Ha).
  destruct (Ha _ _ _ _ _ _ Hc1 Hc2 Hr) as (s' & _ & ->). eexists. split; [reflexivity|]. rewrite <- !total_amounts. eapply C134_count_bounds; [by left|done..].
Qed.
Theorem C134_GetSuccessCount s1 s2 c1 c2 i a : counter_setting I N -> Z.of_nat (length (planned durations (writes <$> progs))) < 2 ^ 63 ->
  run s1 = Some c1 -> run (s1 ++ s2) = Some c2 -> gives c1 c2 i GetSuccessCount a ->
  exists n, a = AInt n /\ successes (results (finished progs c1)) <= n <= successes (results (begun progs c2)).
Proof.
  intros HS Hn Hc1 Hc2 Hg. pose proof (gives_reads _ _ _ _ _ _ _ _ _ _ _ _ _ _ _ Hc1 Hc2 Hg) as Hr. destruct (C134_counts KSuccess Logic.I HS) as (T & _ & _ & Ha).
  destruct (Ha _ _ _ _ _ _ Hc1 Hc2 Hr) as (s' & _ & ->). eexists. split; [reflexivity|]. rewrite <- !success_amounts. eapply C134_count_bounds; [by right|done..].
Qed.
Theorem C135_GetInstantCount : counter_setting I N ->
  exists L : list (event cenv) -> list (Z * Z), (forall s s', L s `prefix_of` L (s ++ s')) /\
  (forall s c, run s = Some c -> (length (durations (finished progs c)) <= length (L s) <= length (durations (begun progs c)))%nat /\
     forall x n, (x, n) ∈ L s -> n = 1 /\ (x = -1000 \/ exists now, now ∈ times (ce_ms e0) s /\ x = trunc_key Isec now)) /\
  forall s1 s2 c1 c2 i st a, -1000 < st -> run s1 = Some c1 -> run (s1 ++ s2) = Some c2 -> gives c1 c2 i (GetInstantCountSince st) a \/ (st = 0 /\ gives c1 c2 i GetInstantCount a) ->
    exists m, a = ACounts m /\ (size m <= Z.to_nat N)%nat /\
    exists now, now ∈ times (ce_ms (gs_env (shared c1))) s2 /\
    forall x v, m !! x = Some v -> st <= x <= trunc_key Isec now /\
      (exists now', now' ∈ times (ce_ms e0) (s1 ++ s2) /\ x = trunc_key Isec now') /\
      exists s', s' `prefix_of` s2 /\ v = wrap64 (sum_at x (L (s1 ++ s'))).
Proof.
  intros HS. destruct (C135_instant_counts KTotal Logic.I HS) as (L & Hp & Hb & Ha). exists L. split; [exact Hp|]. split.
  - intros s c Hc. destruct (Hb s c Hc) as (B1 & B2 & B3). split.
    + apply submseteq_length in B1, B2. rewrite total_amounts, fmap_length in B1, B2. lia.
    + intros x n Hx. split; [|by eapply B3]. destruct (ones KTotal (begun progs c) ltac:(by left)) as [_ F]. apply submseteq_Permutation in B2 as [l E]. rewrite E in F. apply Forall_app in F as [F _].
      apply (proj1 (Forall_forall _ _) F). apply elem_of_list_fmap. by exists (x, n).
  - intros s1 s2 c1 c2 i st a Hst Hc1 Hc2 Hg. eapply Ha; [done..|]. destruct Hg as [Hg|[-> Hg]]; by eapply gives_reads.
Qed.
Theorem C136_GetMeanRate s1 s2 c1 c2 i a : counter_setting I N -> Z.of_nat (length (planned durations (writes <$> progs))) < 2 ^ 63 ->
  run s1 = Some c1 -> run (s1 ++ s2) = Some c2 -> gives c1 c2 i GetMeanRate a ->
  exists n r s', a = AFloat r /\ Z.of_nat (length (durations (finished progs c1))) <= n <= Z.of_nat (length (durations (begun progs c2))) /\ s' `prefix_of` s2 /\
    let elapsed := wrap64 (wrap64 (ce_tick (showing e0 (s1 ++ s'))) - ce_ms e0) in
    (n = 0 \/ elapsed <= 0 -> r = f0) /\
    (n <> 0 /\ 0 < elapsed -> ffinite r = true /\ let exact := (IZR n / IZR elapsed * IZR Second)%R in (Rabs (RF r - exact) <= bpow radix2 (-50) * exact)%R).
Proof.
  intros HS Hn Hc1 Hc2 Hg. pose proof (gives_reads _ _ _ _ _ _ _ _ _ _ _ _ _ _ _ Hc1 Hc2 Hg) as Hr. rewrite <- !total_amounts. exact (C136_mean_rate _ _ _ _ _ _ HS Hn Hc1 Hc2 Hr).
Qed.
Theorem C137_LastUpdateTime : counter_setting I N ->
  exists (L : list (event cenv) -> list (Z * Z)) (latest : list (event cenv) -> Z),
  (forall s s', L s `prefix_of` L (s ++ s') /\ latest s <= latest (s ++ s')) /\
  (forall s c, run s = Some c -> (length (durations (finished progs c)) <= length (L s) <= length (durations (begun progs c)))%nat /\
     (forall x n, (x, n) ∈ L s -> x <= 1000 * latest s) /\
     (latest s = -1 \/ exists now, now ∈ times (ce_ms e0) s /\ 1000 * latest s = trunc_key Isec now)) /\
  forall s1 s2 c1 c2 i a, run s1 = Some c1 -> run (s1 ++ s2) = Some c2 -> gives c1 c2 i LastUpdateTime a ->
    exists s', s' `prefix_of` s2 /\ a = AInt (if latest (s1 ++ s') <=? 0 then ce_ms e0 else latest (s1 ++ s')).
Proof.
  intros HS. destruct (C137_last_update KTotal Logic.I HS) as (L & latest & Hp & Hb & Ha). exists L, latest. split; [exact Hp|]. split.
  - intros s c Hc. destruct (Hb s c Hc) as (B1 & B2 & B3). split; [|exact B3]. apply submseteq_length in B1, B2. rewrite total_amounts, fmap_length in B1, B2. lia.
  - intros s1 s2 c1 c2 i a Hc1 Hc2 Hg. eapply Ha; [done..|]. by eapply gives_reads.
Qed.
Theorem C138_methods s1 s2 c1 c2 i method a : counter_setting I N -> Z.of_nat (length (planned durations (writes <$> progs))) < 2 ^ 63 ->
  run s1 = Some c1 -> run (s1 ++ s2) = Some c2 -> method ∈ [GetOneMinuteRate; GetFiveMinuteRate; GetFifteenMinuteRate] -> gives c1 c2 i method a ->
  exists r, a = AFloat r /\ (r = f0 \/ ffinite r = false) /\ flt r f0 = false.
Proof.
  intros HS Hn Hc1 Hc2 Hm Hg. assert (Hk : exists k, k ∈ [KOne; KFive; KFifteen] /\ method = [DWrite KRate; DRead (RRate k)]).
  { apply elem_of_cons in Hm as [->|Hm]; [exists KOne; split; [set_solver|done]|]. apply elem_of_cons in Hm as [->|Hm]; [exists KFive; split; [set_solver|done]|]. apply elem_of_list_singleton in Hm as ->. exists KFifteen. split; [set_solver|done]. }
  destruct Hk as (k & Hk & ->). destruct (gives_reads2 _ _ _ _ _ _ _ _ _ _ _ _ _ _ _ _ Hc1 Hc2 Hg) as (s2' & s2'' & c & -> & Hc & Hr). rewrite app_assoc in Hc2. exact (C138_never_a_rate k _ _ _ _ _ _ Hk HS Hn Hc Hc2 Hr).
Qed.
(** C138: what each of them reads is its own average. *)
Theorem C138_own_average s1 s2 c1 c2 i method k a : counter_setting I N -> Z.of_nat (length (planned durations (writes <$> progs))) < 2 ^ 63 ->
  run s1 = Some c1 -> run (s1 ++ s2) = Some c2 -> (method, k) ∈ [(GetOneMinuteRate, KOne); (GetFiveMinuteRate, KFive); (GetFifteenMinuteRate, KFifteen)] -> gives c1 c2 i method a ->
  exists s' c avg r, s' `prefix_of` s2 /\ run (s1 ++ s') = Some c /\ average_at (without_reads c) k = Some avg /\ a = AFloat r /\ r = ew_GetRate (es_ewma avg) Second.
Proof.
  intros HS Hn Hc1 Hc2 Hm Hg. assert (Hk : k ∈ [KOne; KFive; KFifteen] /\ method = [DWrite KRate; DRead (RRate k)]).
  { apply elem_of_cons in Hm as [E|Hm]; [injection E as -> ->; split; [set_solver|done]|]. apply elem_of_cons in Hm as [E|Hm]; [injection E as -> ->; split; [set_solver|done]|]. apply elem_of_list_singleton in Hm. injection Hm as -> ->. split; [set_solver|done]. }
  destruct Hk as [Hk ->]. clear Hm. destruct (gives_reads2 _ _ _ _ _ _ _ _ _ _ _ _ _ _ _ _ Hc1 Hc2 Hg) as (s2' & s2'' & c & -> & Hc & Hr).
  destruct (started HS) as [objs0 H0]. pose proof (run_at math_Exp rk I N maxE maxA e0 progs objs0 H0) as Hat. rewrite app_assoc in Hc2. rewrite Hat in Hc, Hc2. injection Hc as <-. injection Hc2 as <-.
  destruct (call_answer _ _ _ _ _ _ _ _ _ _ _ _ _ _ (fun _ pc => pc = DAt (RRate k)) (fun s b => exists s', s' `prefix_of` s /\ exists avg r, average_of (shared (at_ math_Exp rk I N maxE maxA e0 progs objs0 ((s1 ++ s2') ++ s'))) k = Some avg /\ b = AFloat r /\ r = ew_GetRate (es_ewma avg) Second) Hr)
    as (s' & [z ->] & avg & r & Havg & -> & ->).
  - reflexivity.
  - intros s ev pc ->. reflexivity.
  - intros s ev b. apply prefix_mono.
  - intros s pc ->. cbn [read_step]. destruct (average_of _ k) as [avg|] eqn:Ea; [|exact Logic.I]. cbn [mbind option_bind]. exists s. split; [reflexivity|]. eexists avg, _. split; [exact Ea|]. split; reflexivity.
  - exists (s2' ++ s'), (at_ math_Exp rk I N maxE maxA e0 progs objs0 (s1 ++ s2' ++ s')), avg. eexists. split; [exists z; by rewrite <- app_assoc|]. split; [apply Hat|]. split; [|split; reflexivity].
    rewrite <- app_assoc in Havg. exact Havg.
Qed.
Theorem C139_GetSnapshot : rk = RBucket -> counter_setting I N ->
  exists L : ckey -> list (event cenv) -> list (Z * Z), (forall k s s', k = KValues \/ k = KTotal -> L k s `prefix_of` L k (s ++ s')) /\
  (forall k s c, k = KValues \/ k = KTotal -> run s = Some c -> all_amounts k (finished progs c) ⊆+ (L k s).*2 /\ (L k s).*2 ⊆+ all_amounts k (begun progs c)) /\
  forall s1 s2 c1 c2 i p q a, run s1 = Some c1 -> run (s1 ++ s2) = Some c2 -> gives c1 c2 i (GetSnapshot p q) a ->
    let during := times (ce_ms (gs_env (shared c1))) s2 in (forall now, now ∈ during -> 1000 <= now) ->
    exists snap from, a = ASnapshot snap /\ from ∈ during /\
    forall k v, (k = KValues /\ v = bs_value snap) \/ (k = KTotal /\ v = bs_count snap) ->
      v = 0 \/ exists x now now' s', now ∈ during /\ trunc_key Isec from - 1000 * Isec <= x <= trunc_key Isec now /\
        now' ∈ times (ce_ms e0) (s1 ++ s2) /\ x = trunc_key Isec now' /\ s' `prefix_of` s2 /\ v = wrap64 (sum_at x (L k (s1 ++ s'))).
Proof.
  intros Hrk HS. destruct (C139_snapshot Hrk HS) as (L & Hp & Hb & Ha). exists L. split; [exact Hp|]. split; [exact Hb|]. intros s1 s2 c1 c2 i p q a Hc1 Hc2 Hg. eapply Ha; [done..|]. by eapply gives_reads.
Qed.
(** C141: a success count read before a count is not larger. *)
Theorem C141_success_rate s1 s2 s3 s4 c1 c2 c3 c4 i j a b : counter_setting I N -> Z.of_nat (length (planned durations (writes <$> progs))) < 2 ^ 63 ->
  run s1 = Some c1 -> run (s1 ++ s2) = Some c2 -> gives c1 c2 i GetSuccessCount a ->
  run ((s1 ++ s2) ++ s3) = Some c3 -> run (((s1 ++ s2) ++ s3) ++ s4) = Some c4 -> gives c3 c4 j GetCount b ->
  exists successes total, a = AInt successes /\ b = AInt total /\ 0 <= successes <= total.
Proof.
  intros HS Hn Hc1 Hc2 Hg1 Hc3 Hc4 Hg2. pose proof (gives_reads _ _ _ _ _ _ _ _ _ _ _ _ _ _ _ Hc1 Hc2 Hg1) as Hr1. pose proof (gives_reads _ _ _ _ _ _ _ _ _ _ _ _ _ _ _ Hc3 Hc4 Hg2) as Hr2.
  destruct (started HS) as [objs0 H0]. pose proof (begun_le _ _ HS Hc4) as Hle. rewrite (run_at _ _ _ _ _ _ _ _ _ H0) in Hc1, Hc2, Hc3, Hc4. injection Hc1 as <-. injection Hc2 as <-. injection Hc3 as <-. injection Hc4 as <-.
  destruct (count_answer math_Exp rk I N maxE maxA e0 progs objs0 HS H0 _ _ _ KSuccess _ Logic.I Hr1) as (x & [x' ->] & ->).
  destruct (count_answer math_Exp rk I N maxE maxA e0 progs objs0 HS H0 _ _ _ KTotal _ Logic.I Hr2) as (y & [y' ->] & ->).
  set (T := counts math_Exp rk I N maxE maxA e0 progs objs0) in *. pose proof (success_after_total math_Exp rk I N maxE maxA e0 progs objs0 HS H0 (s1 ++ x)) as Hst. fold T in Hst.
  destruct (count_value math_Exp rk I N maxE maxA e0 progs objs0 HS H0 KTotal ((((s1 ++ x ++ x') ++ s3) ++ y) ++ y') Logic.I) as (_ & _ & _ & _ & B).
  destruct (count_value math_Exp rk I N maxE maxA e0 progs objs0 HS H0 KSuccess (s1 ++ x) Logic.I) as (_ & _ & _ & _ & B2). fold T in B, B2.
  destruct (counts_prefix math_Exp rk I N maxE maxA e0 progs objs0 KTotal (((s1 ++ x ++ x') ++ s3) ++ y) y') as [l1 P1]. destruct (counts_prefix math_Exp rk I N maxE maxA e0 progs objs0 KTotal (s1 ++ x) (x' ++ s3 ++ y)) as [l2 P2]. fold T in P1, P2.
  rewrite P1 in B. assert (E : (s1 ++ x) ++ x' ++ s3 ++ y = ((s1 ++ x ++ x') ++ s3) ++ y) by (by rewrite <- !app_assoc). rewrite E in P2.
  destruct (ones KTotal (begun progs (at_ math_Exp rk I N maxE maxA e0 progs objs0 ((((s1 ++ x ++ x') ++ s3) ++ y) ++ y'))) ltac:(by left)) as [_ F1].
  destruct (ones KSuccess (begun progs (at_ math_Exp rk I N maxE maxA e0 progs objs0 (s1 ++ x))) ltac:(by right)) as [_ F2].
  assert (S1 : sumZ (T KTotal (((s1 ++ x ++ x') ++ s3) ++ y)) = Z.of_nat (length (T KTotal (((s1 ++ x ++ x') ++ s3) ++ y)))).
  { apply ones_sum. apply submseteq_Permutation in B as [l E1]. rewrite E1 in F1. apply Forall_app in F1 as [F1 _]. by apply Forall_app in F1 as [F1 _]. }
  assert (S2 : sumZ (T KSuccess (s1 ++ x)) = Z.of_nat (length (T KSuccess (s1 ++ x)))).
  { apply ones_sum. apply submseteq_Permutation in B2 as [l E1]. rewrite E1 in F2. by apply Forall_app in F2 as [F2 _]. }
  apply submseteq_length in B. rewrite total_amounts in B. rewrite app_assoc in Hle. rewrite app_length in B. rewrite S1, S2. apply (f_equal length) in P2. rewrite app_length in P2.
  rewrite !wrap64_id by (unfold in64, two63; lia). eexists _, _. split; [reflexivity|]. split; [reflexivity|]. lia.
Qed.
End compass.

(** A concrete case: one goroutine updates and reads, another one reads between its steps. *)
Definition read_progs : list (list dcall) :=
  [[DWrite (KUpdate 7 (Some (MkResult true "a" "x"))); DWrite (KUpdate 8 (Some (MkResult false "b" "x")))] ++ GetOneMinuteRate ++ GetSuccessCount ++ LastUpdateTime;
   GetCount ++ GetInstantCount ++ [DWrite (KUpdate 9 None)] ++ GetMeanRate ++ GetSnapshot 0 0 ++ GetCount].
Definition read_case (sched : list (event cenv)) : option reading := cr_run toy_exp RBucket (5 * Second) 10 2 2 fine_e0 read_progs sched.
(** Answers as integers (of a float: is it 0, is it finite). *)
Definition show_answer (a : answer) : list (Z * Z) :=
  match a with
  | AInt n => [(n, 0)]
  | ACounts m => map_to_list m
  | AFloat x => [(if feq x f0 then 1 else 0, if ffinite x then 1 else 0)]
  | ASnapshot s => [(bs_count s, bs_value s)]
  end.
Definition show_got (c : reading) : list (list (list (Z * Z))) := (fun t => show_answer ∘ snd <$> dt_got t) <$> threads c.
Definition read_doneb (c : reading) : bool := forallb (fun t => match dt_todo t with [] => idle_thread t | _ => false end) (threads c).
Definition read_sched (n : nat) : list (event cenv) := both n ++ Env (CEnv 7000000000 6500 half [3]) :: both 300.
(** The first goroutine: a one-minute rate that is not a number or infinite (C33), one
    success, and the interval of second 5.  The second one: 0 at first, nothing counted in
    any interval yet, a positive mean rate, a snapshot of two updates with the durations 7
    and 9, 3 in the end. *)
Example read_result : match read_case (read_sched 50) with Some c => (read_doneb c, show_got c) | None => (false, []) end =
  (true, [[[(0, 0)]; [(1, 0)]; [(5, 0)]]; [[(0, 0)]; []; [(0, 1)]; [(2, 16)]; [(3, 0)]]]).
Proof. vm_compute. reflexivity. Qed.
(** C139: value and count of a snapshot need not be of the same updates: every duration is
    at least 7, and a snapshot reports two updates that took 7 together. *)
Theorem C139_torn_snapshot : exists progs sched, Forall (fun d => 7 <= d) (planned durations (writes <$> progs)) /\
  match cr_run toy_exp RBucket (5 * Second) 10 2 2 fine_e0 progs sched with Some c => (read_doneb c, show_got c !! 1%nat ≫= (.!! 3%nat)) | None => (false, None) end = (true, Some [(2, 7)]).
Proof. exists read_progs, (read_sched 40). split; [repeat constructor; lia|vm_compute; reflexivity]. Qed.

(** The hypotheses of C134-C140 are met: for each kind of reading call a run in which one
    goroutine updates while another one makes that call, alone. *)
Definition sole_reader (call : rcall) : list (list dcall) := [[DWrite (KUpdate 7 (Some (MkResult true "a" "x"))); DWrite (KUpdate 8 None)]; [DRead call]].
Definition sole_before : list (event cenv) := replicate 40 (Run 0%nat) ++ [Env (CEnv 7000000000 6500 half [3])].
Definition sole_run (call : rcall) (sched : list (event cenv)) : option reading := cr_run toy_exp RBucket (5 * Second) 10 2 2 fine_e0 (sole_reader call) sched.
Definition firstb (c1 c2 : option reading) : bool :=
  match c1, c2 with
  | Some c1, Some c2 =>
      match threads c1 !! 1%nat, threads c2 !! 1%nat with
      | Some t1, Some t2 => match dt_todo t1, dt_got t1, dt_got t2 with [DRead _], [], [_] => idle_thread t1 && negb (cs_crashed (gs_client (shared c2))) | _, _, _ => false end
      | _, _ => false
      end
  | _, _ => false
  end.
Lemma got_own_call call sched c : sole_run call sched = Some c -> forall t, threads c !! 1%nat = Some t -> (forall x, x ∈ dt_todo t -> x = DRead call) /\ (forall x pc, dt_read t = Some (x, pc) -> x = call) /\ forall x a, (x, a) ∈ dt_got t -> x = call.
Proof.
  unfold sole_run, cr_run. destruct (cf_objs0 _ _ _ _) as [objs0|]; [|done]. intros Hc. injection Hc as <-.
  set (P := fun c : reading => forall t, threads c !! 1%nat = Some t -> (forall x, x ∈ dt_todo t -> x = DRead call) /\ (forall x pc, dt_read t = Some (x, pc) -> x = call) /\ forall x a, (x, a) ∈ dt_got t -> x = call).
  apply (crun_inv _ _ P); unfold P.
  2: { intros s ts i t0 s' t' HI Ht Hs t. cbn [threads] in *. destruct (decide (i = 1%nat)) as [->|Hne]; [|rewrite list_lookup_insert_ne by done; apply HI].
    rewrite list_lookup_insert by (by eapply lookup_lt_Some). intros E. injection E as <-. destruct (HI _ Ht) as (H1 & H2 & H3). unfold cr_tstep in Hs. destruct (cs_crashed _); [done|].
    destruct (dt_read t0) as [[x pc]|] eqn:Er.
    + assert (x = call) as -> by (by eapply H2). destruct (read_step _ _ _ _) as [[pc'|a]|]; [..|done]; injection Hs as <- <-; cbn [dt_todo dt_read dt_got]; (split; [exact H1|split; [|]]); try exact H3.
      * intros x' p E. by injection E as <- _.
      * done.
      * intros x' a' Hx. apply elem_of_app in Hx as [Hx|Hx]; [by eapply H3|]. apply elem_of_list_singleton in Hx. by injection Hx as -> _.
    + destruct (at_rest _).
      * destruct (dt_todo t0) as [|[w|x] todo] eqn:Et; [done|..]; injection Hs as <- <-; cbn [dt_todo dt_read dt_got].
        -- specialize (H1 _ (elem_of_list_here _ _)). done.
        -- assert (x = call) as -> by (specialize (H1 _ (elem_of_list_here _ _)); by injection H1). split; [intros y Hy; apply H1; by right|]. split; [intros y p E; by injection E as <- _|exact H3].
      * destruct (cf_gstep _ _ _ _ _ _ _ _) as [[s'' g']|]; [|done]. injection Hs as <- <-. cbn [dt_todo dt_read dt_got]. done. }
  2: { intros s ts e HI. exact HI. }
  - intros t Ht. cbn in Ht. injection Ht as <-. cbn [dt_todo dt_read dt_got]. split; [intros x Hx; by apply elem_of_list_singleton in Hx|]. split; [done|]. intros x a Hx. by apply elem_of_nil in Hx.
Qed.
Example first_reads call : firstb (sole_run call sole_before) (sole_run call (sole_before ++ both 80)) = true -> exists c1 c2 a, sole_run call sole_before = Some c1 /\ sole_run call (sole_before ++ both 80) = Some c2 /\ reads c1 c2 1 call a.
Proof.
  destruct (sole_run call sole_before) as [c1|] eqn:E1; [|done]. destruct (sole_run call (sole_before ++ _)) as [c2|] eqn:E2; [|done]. pose proof (got_own_call _ _ _ E1) as G1. pose proof (got_own_call _ _ _ E2) as G2. clear E1 E2.
  unfold firstb. destruct (threads c1 !! 1%nat) as [t1|] eqn:T1; [|done]. destruct (threads c2 !! 1%nat) as [t2|] eqn:T2; [|done]. destruct (G1 _ eq_refl) as (A & _ & _). destruct (G2 _ eq_refl) as (_ & _ & B). clear G1 G2.
  destruct (dt_todo t1) as [|[|x] [|]] eqn:D1; try done. destruct (dt_got t1) eqn:D2; [|done]. destruct (dt_got t2) as [|[y a] [|]] eqn:D3; try done. intros H. apply andb_prop in H as [H _].
  assert (x = call) as -> by (specialize (A _ (elem_of_list_here _ _)); by injection A). assert (y = call) as -> by (eapply B; apply elem_of_list_here).
  exists c1, c2, a. split; [done|]. split; [done|]. exists t1, t2, [], []. rewrite D1, D2, D3. done.
Qed.
Example all_calls_read : forallb (fun call => firstb (sole_run call sole_before) (sole_run call (sole_before ++ both 80)))
  [RCount KTotal; RCount KSuccess; RSince KTotal 0; RSince KTotal 5000; RLast KTotal; RMean; RRate KOne; RRate KFive; RRate KFifteen; RSnapshot 0 0] = true.
Proof. vm_compute. reflexivity. Qed.
Example read_setting : counter_setting (5 * Second) 10 /\ Z.of_nat (length (planned durations (writes <$> sole_reader RMean))) < 2 ^ 63 /\ reading_call RBucket (RSnapshot 0 0) /\
  cost 10 (RSnapshot 0 0) <= Z.of_nat (turns 1 (both 80)) /\ forall now, now ∈ times 6500 (both 80) -> 1000 <= now.
Proof.
  split; [split; [vm_compute; discriminate|split; [split; vm_compute; congruence|lia]]|]. split; [reflexivity|]. split; [reflexivity|]. split; [vm_compute; discriminate|].
  change (times 6500 (both 80)) with [6500]. intros now Hn. apply elem_of_list_singleton in Hn. lia.
Qed.

(** C140: the hypotheses of no deadlock are met: in the middle of a run nobody has finished. *)
Example C140_no_deadlock_case :
  (match sole_run (RSnapshot 0 0) (sole_before ++ replicate 3 (Run 1%nat)) with
   | Some c => (cs_crashed (gs_client (shared c)), (fun t => (length (dt_todo t), idle_thread t)) <$> threads c)
   | None => (true, [])
   end) = (false, [(1%nat, false); (0%nat, false)]) /\
  Forall (Forall (fun d => match d with DRead call => reading_call RBucket call | DWrite _ => True end)) (sole_reader (RSnapshot 0 0)).
Proof. split; [vm_compute; reflexivity|repeat constructor]. Qed.

(** C141: in the other order it may be: GetCount says 0, GetSuccessCount after it 1. *)
Theorem C141_other_order : exists progs sched,
  match cr_run toy_exp RBucket (5 * Second) 10 2 2 fine_e0 progs sched with Some c => (read_doneb c, show_got c !! 1%nat) | None => (false, None) end = (true, Some [[(0, 0)]; [(1, 0)]]).
Proof.
  exists [[DWrite (KUpdate 7 (Some (MkResult true "a" "x")))]; GetCount ++ GetSuccessCount], (replicate 2 (Run 1%nat) ++ replicate 200 (Run 0%nat) ++ replicate 2 (Run 1%nat)). vm_compute. reflexivity.
Qed.
(** C141: its hypotheses are met. *)
Example order_result :
  match cr_run toy_exp RBucket (5 * Second) 10 2 2 fine_e0 [[DWrite (KUpdate 7 (Some (MkResult true "a" "x"))); DWrite (KUpdate 7 None)]; GetSuccessCount ++ GetCount] (replicate 45 (Run 0%nat) ++ replicate 2 (Run 1%nat) ++ replicate 200 (Run 0%nat) ++ replicate 2 (Run 1%nat)) with
  | Some c => (read_doneb c, show_got c !! 1%nat) | None => (false, None) end = (true, Some [[(1, 0)]; [(2, 0)]]).
Proof. vm_compute. reflexivity. Qed.

Print Assumptions C133_readers_disturb_nothing.
Print Assumptions C133_reads_change_nothing.
Print Assumptions C133_final_counts.
Print Assumptions C134_counts.
Print Assumptions C134_count_bounds.
Print Assumptions C134_counts_never_fall.
Print Assumptions C135_instant_counts.
Print Assumptions C136_mean_rate.
Print Assumptions C137_last_update.
Print Assumptions C138_rates.
Print Assumptions C138_never_a_rate.
Print Assumptions C139_snapshot.
Print Assumptions C139_torn_snapshot.
Print Assumptions C140_reads_return.
Print Assumptions C140_no_deadlock.
Print Assumptions C134_GetCount.
Print Assumptions C134_GetSuccessCount.
Print Assumptions C135_GetInstantCount.
Print Assumptions C136_GetMeanRate.
Print Assumptions C137_LastUpdateTime.
Print Assumptions C138_methods.
Print Assumptions C138_own_average.
Print Assumptions C139_GetSnapshot.
Print Assumptions C141_success_rate.
Print Assumptions C141_other_order.
