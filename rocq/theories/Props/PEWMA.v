(** C25 - C29: the exponentially weighted moving average.
    [ticks e counts]: TickN with each of the counts in turn.
    [instantRate interval c]: the double count / interval. *)
From Verif.Go Require Import GoInt GoFloat GoConc.
From Verif.Model Require Import EWMA EWMAConc.
From Verif.Spec Require Import BucketSpec EWMASpec EWMAConcSpec.
From Verif.Proofs Require Import EWMAProofs EWMAError EWMAConcProofs.
From Coq Require Import Reals Lra.
From Flocq Require Import Core BinarySingleNaN.
Local Open Scope Z_scope.

(** ** C25 *)
(** At every moment of every interleaving: what is still uncounted plus what
    ticks consumed (carried out, or taken and about to be) equals the events
    handed in by the calls made so far. *)
Theorem C25_conservation : forall a interval progs sched,
  let c := ewma_crun a interval progs sched in
  wrap64 (ew_uncounted (es_ewma (shared c)) + sumZ (es_ticked (shared c)) + sumZ (in_flight <$> threads c)) =
  wrap64 (sumZ (events <$> progs) - sumZ ((fun t => events (et_todo t)) <$> threads c)).
Proof. exact ewma_conservation. Qed.
Print Assumptions C25_conservation.

(** When all goroutines are done: every event was consumed by exactly one of the
    ticks or is still uncounted, every requested tick was carried out, and the
    rate is what those ticks give one after another. *)
Theorem C25_final : forall a interval progs sched,
  let c := ewma_crun a interval progs sched in
  Forall ewma_done (threads c) ->
  wrap64 (ew_uncounted (es_ewma (shared c)) + sumZ (es_ticked (shared c))) = wrap64 (sumZ (events <$> progs)) /\
  Z.of_nat (length (es_ticked (shared c))) = sumZ (tick_calls <$> progs) /\
  ew_rate (es_ewma (shared c)) = ew_rate (ticks (newEWMA a interval) (es_ticked (shared c))).
Proof. exact ewma_final. Qed.
Print Assumptions C25_final.

(** Every GetRate returns the rate after some initial part of the ticks carried out. *)
Theorem C25_reads : forall a interval progs sched i t u v,
  let c := ewma_crun a interval progs sched in
  threads c !! i = Some t -> (u, v) ∈ et_got t ->
  exists pre, pre `prefix_of` es_ticked (shared c) /\ v = ew_GetRate (ticks (newEWMA a interval) pre) u.
Proof.
  intros a iv progs sched i t u v c Hi Hv.
  pose proof (e_got _ _ _ _ _ (ewma_conc_inv a iv progs sched) i t Hi) as G.
  unfold got_ok in G. rewrite Forall_forall in G. exact (G (u, v) Hv).
Qed.
Print Assumptions C25_reads.

(** No deadlock: as long as a call is unfinished some goroutine can run. *)
Theorem C25_progress : forall a interval progs sched,
  let c := ewma_crun a interval progs sched in
  ~ Forall ewma_done (threads c) ->
  exists i t s' t', threads c !! i = Some t /\ ewma_tstep (shared c) t = Some (s', t').
Proof. exact ewma_conc_progress. Qed.
Print Assumptions C25_progress.

(** One goroutine: each tick is a tick with the total of the events since the tick
    before, and what comes after the last tick is kept. *)
Theorem C25_calls : forall a interval (l : list ewma_event),
  let e := fold_left (fun e x => match x with Events n => ew_Update e n | TickNow => ew_Tick e end) l (newEWMA a interval) in
  ew_uncounted e = wrap64 (since_tick 0 l) /\
  ew_rate e = ew_rate (ticks (newEWMA a interval) (tick_counts 0 l)).
Proof.
  intros a interval l. cbv zeta.
  enough (H : forall l e p x, ew_uncounted e = wrap64 p -> EWMA (ew_initialized e) (ew_rate e) 0 (ew_alpha e) (ew_interval e) = ticks x [] ->
    let e' := fold_left (fun e x => match x with Events n => ew_Update e n | TickNow => ew_Tick e end) l e in
    ew_uncounted e' = wrap64 (since_tick p l) /\ ew_rate e' = ew_rate (ticks x (tick_counts p l))).
  { by apply (H l (newEWMA a interval) 0 (newEWMA a interval)). }
  clear. induction l as [|[n|] l IH]; intros e p x Hu Hx; cbv zeta; cbn [fold_left since_tick tick_counts].
  - split; [done|]. by rewrite <- Hx.
  - apply (IH (ew_Update e n) (p + n) x).
    + cbn [ew_Update ew_uncounted]. rewrite Hu. apply wrap64_add_l.
    + exact Hx.
  - cbn [ticks fold_left]. rewrite <- Hu. change (ticks x (ew_uncounted e :: tick_counts 0 l)) with (ticks (ew_TickN x (ew_uncounted e)) (tick_counts 0 l)).
    apply (IH (ew_Tick e) 0).
    + unfold ew_Tick, ew_TickN. cbn [ew_initialized ew_uncounted]. by destruct (ew_initialized e).
    + cbn [ticks fold_left] in Hx |- *. rewrite <- Hx. unfold ew_Tick, ew_TickN. cbn [ew_initialized ew_uncounted ew_rate ew_alpha ew_interval].
      by destruct (ew_initialized e).
Qed.
Print Assumptions C25_calls.
Example C25_calls_case : tick_counts 0 [Events 3; Events 4; TickNow; TickNow; Events 5; TickNow; Events 6] = [7; 0; 5] /\
  since_tick 0 [Events 3; Events 4; TickNow; TickNow; Events 5; TickNow; Events 6] = 6.
Proof. done. Qed.

(** An Update between the load and the CAS of a Tick makes it retry. *)
Example C25_case :
  let c := ewma_crun f0 ewmaInterval [[EUpdate 3; ETick]; [EUpdate 4; ETick]]
     ([Run 0; Run 0; Run 0; Run 1; Run 0; Run 0; Run 0; Run 1; Run 1; Run 1; Run 0; Run 1; Run 0; Run 0; Run 0]%nat ++ replicate 8 (Run 1%nat)) in
  forallb (fun t => match et_todo t, et_pc t with [], EIdle => true | _, _ => false end) (threads c) = true /\
  es_ticked (shared c) = [7; 0] /\ ew_uncounted (es_ewma (shared c)) = 0.
Proof. vm_compute. auto. Qed.

(** ** C26 *)
(** The first tick sets the rate to count / interval, rounded once; ... *)
Theorem C26_first_tick : forall a interval c,
  ew_rate (ticks (newEWMA a interval) [c]) = instantRate interval c /\
  (0 < interval <= 2 ^ 53 -> Z.abs c <= 2 ^ 53 ->
   RF (ew_rate (ticks (newEWMA a interval) [c])) = rnd (IZR c / IZR interval)).
Proof. intros a i c. split; [reflexivity|]. exact (instant_once i c). Qed.
Print Assumptions C26_first_tick.

(** ... and any number of ticks with the same count leaves it unchanged, bit for bit. *)
Theorem C26_constant_input : forall a interval c n,
  ffinite a = true -> in64 interval -> 0 < interval -> in64 c ->
  ew_rate (ticks (newEWMA a interval) (replicate (S n) c)) = instantRate interval c.
Proof. exact tick_same. Qed.
Print Assumptions C26_constant_input.
Example C26_case : ffinite (fdiv f1 (f_of_int 13)) = true /\ in64 ewmaInterval /\ 0 < ewmaInterval /\ in64 17 /\
  B2SF (instantRate ewmaInterval 17) = B2SF (ew_rate (ticks (newEWMA (fdiv f1 (f_of_int 13)) ewmaInterval) [17; 17; 17])) /\
  ffinite (instantRate ewmaInterval 17) = true.
Proof. unfold in64. split_and!; vm_compute; first [reflexivity|discriminate]. Qed.

(** ** C27 *)
(** The rate always lies within any bounds of the instantaneous rates seen ... *)
Theorem C27_within : forall a interval counts lo hi,
  ffinite a = true -> (0 <= RF a <= 1 / 2)%R -> in64 interval -> 0 < interval ->
  Forall in64 counts -> counts <> [] ->
  (forall c, c ∈ counts -> lo <= RF (instantRate interval c) <= hi)%R ->
  ffinite (ew_rate (ticks (newEWMA a interval) counts)) = true /\
  (lo <= RF (ew_rate (ticks (newEWMA a interval) counts)) <= hi)%R.
Proof.
  intros a i cs lo hi Fa Ha Hi Hp Hc Hn Hb. apply ticks_within; try done.
  by apply Forall_forall.
Qed.
Print Assumptions C27_within.

(** ... and every tick moves it towards the current one without overshooting. *)
Theorem C27_no_overshoot : forall a interval counts c,
  ffinite a = true -> (0 <= RF a <= 1 / 2)%R -> in64 interval -> 0 < interval ->
  Forall in64 counts -> in64 c -> counts <> [] ->
  let r := RF (ew_rate (ticks (newEWMA a interval) counts)) in
  let r' := RF (ew_rate (ticks (newEWMA a interval) (counts ++ [c]))) in
  let x := RF (instantRate interval c) in
  ((r <= x -> r <= r' <= x) /\ (x <= r -> x <= r' <= r))%R.
Proof. intros a i cs c Fa Ha Hi Hp Hcs Hc Hn. apply tick_moves; done. Qed.
Print Assumptions C27_no_overshoot.

(** The smoothing factors of ewma.go satisfy the hypothesis whenever math.Exp of
    a number in [-1/12, 0] is a double in [1/2, 1]. *)
Theorem C27_alpha : forall e, ffinite e = true -> (1 / 2 <= RF e <= 1)%R ->
  ffinite (alpha_of_exp e) = true /\ (0 <= RF (alpha_of_exp e) <= 1 / 2)%R.
Proof.
  intros e Fe He. unfold alpha_of_exp.
  assert (F12 : fmt (1 / 2)) by (replace (1/2)%R with (bpow radix2 (-1)) by (change (bpow radix2 (-1)) with (/2)%R; lra); apply fmt_bpow; lia).
  destruct (fsub_spec f1 e) as [E F]; try done.
  - rewrite RF_f1. apply fits_bound. rewrite Rabs_pos_eq by lra.
    apply Rle_trans with (bpow radix2 0); [cbn; lra|apply bpow_le; lia].
  - split; [done|]. rewrite E, RF_f1. split; [apply rnd_ge_l; [apply fmt_0|lra]|apply rnd_le_r; [done|lra]].
Qed.
Print Assumptions C27_alpha.
(** (which the real exponential satisfies: exp(-1/12) is between 11/12 and 1) *)
Lemma exp_in_range : forall x, (-1 / 12 <= x <= 0 -> 11 / 12 <= exp x <= 1)%R.
Proof.
  intros x H. split.
  - pose proof (exp_ineq1_le x). lra.
  - rewrite <- exp_0. destruct (Req_dec x 0) as [->|Hx]; [lra|]. left. apply exp_increasing. lra.
Qed.

Example C27_case : let a := alpha_of_exp (fdiv (f_of_int 23) (f_of_int 25)) in
  fle f0 a = true /\ fle a (fdiv f1 (f_of_int 2)) = true /\
  (let r n := ew_rate (ticks (newEWMA a ewmaInterval) (take n [5; 100; 0])) in
   flt (r 1%nat) (r 2%nat) = true /\ flt (r 3%nat) (r 2%nat) = true).
Proof. vm_compute. auto. Qed.

(** ** C28 *)
Theorem C28_idle_decay : forall e,
  ew_initialized e = true -> ffinite (ew_rate e) = true -> (0 <= RF (ew_rate e))%R ->
  ffinite (ew_alpha e) = true -> (0 <= RF (ew_alpha e) <= 1)%R -> in64 (ew_interval e) -> 0 < ew_interval e ->
  ffinite (ew_rate (ew_TickN e 0)) = true /\
  (0 <= RF (ew_rate (ew_TickN e 0)) <= RF (ew_rate e))%R.
Proof. exact tick_idle. Qed.
Print Assumptions C28_idle_decay.
Example C28_case : let e := ticks (newEWMA (fdiv f1 (f_of_int 12)) ewmaInterval) [600] in
  ew_initialized e = true /\ flt f0 (ew_rate e) = true /\
  flt (ew_rate (ew_TickN e 0)) (ew_rate e) = true /\ flt f0 (ew_rate (ew_TickN e 0)) = true.
Proof. vm_compute. auto. Qed.

(** ** C29 *)
(** Over the reals the recurrence is the exponentially weighted sum, and the
    double arithmetic stays within (number of ticks) x (4 x 2^-53 x the largest
    rate + 2^-1073) of it. *)
Theorem C29_exact_recurrence : forall a x ys,
  ema a (x :: ys) = ((1 - a) ^ length ys * x + ema_sum a ys)%R.
Proof. exact ema_closed. Qed.
Print Assumptions C29_exact_recurrence.

Theorem C29_float_error : forall a interval counts M,
  ffinite a = true -> (0 <= RF a <= 1 / 2)%R -> in64 interval -> 0 < interval ->
  Forall in64 counts -> counts <> [] ->
  Forall (fun c => Rabs (RF (instantRate interval c)) <= M)%R counts ->
  (Rabs (RF (ew_rate (ticks (newEWMA a interval) counts)) -
         ema (RF a) ((fun c => RF (instantRate interval c)) <$> counts)) <=
   INR (length counts - 1) * (4 * bpow radix2 (-53) * M + bpow radix2 (-1073)))%R.
Proof. intros a i cs M Fa Ha Hi Hp Hc Hn Hb. apply ticks_error; done. Qed.
Print Assumptions C29_float_error.

(** GetRate(unit) is the rate per nanosecond times the unit, rounded once. *)
Theorem C29_get_rate : forall e u,
  ffinite (ew_rate e) = true -> (Rabs (RF (ew_rate e)) <= bpow radix2 63)%R -> in64 u ->
  RF (ew_GetRate e u) = rnd (RF (ew_rate e) * RF (f_of_int u)) /\ ffinite (ew_GetRate e u) = true.
Proof.
  intros e u Fr Br Hu. unfold ew_GetRate. apply fmul_spec; [done|by apply f_of_int_finite64|].
  apply fits_bound. rewrite Rabs_mult. apply Rle_trans with (bpow radix2 63 * bpow radix2 63)%R.
  - apply Rmult_le_compat; try apply Rabs_pos; [done|by apply f_of_int_bound64].
  - rewrite <- bpow_plus. apply bpow_le. lia.
Qed.
Print Assumptions C29_get_rate.

Example C29_case : (ema (1/2) [8; 4; 2] = 1/4 * 8 + 1/4 * 4 + 1/2 * 2)%R.
Proof. rewrite ema_closed. cbn. lra. Qed.
