(** The exponentially decaying reservoir (impl/exponentially_decaying_reservoir.go), any
    number of goroutines and any schedule.  [math_Exp], the random numbers and the clock
    are as in PDecaying. *)
From Verif.Go Require Import GoInt GoFloat GoConc.
From Verif.Model Require Import WeightedSnapshot DecayingReservoir DecayingConc.
From Verif.Spec Require Import BucketSpec DecayingSpec DecayingConcSpec.
From Verif.Proofs Require Import FloatProofs DecayingProofs DecayingCalls DecayingConcProofs DecayingConcMore DecayingConcTicks DecayingConcSkew DecayingConcMain.
From Verif.Props Require Import PDecaying.
From Coq Require Import Reals Lra.
From Flocq Require Import Core.Core IEEE754.BinarySingleNaN.
Local Open Scope Z_scope.

Section runs.
Context (math_Exp : f64 -> f64) (size : Z) (alpha : f64) (ms0 tick0 : Z) (progs : list (list dx_call)).
Notation run sched := (dx_crun math_Exp size alpha ms0 tick0 progs sched).
Notation new := (NewEDR size alpha ms0 tick0).

(** C98: nobody panics; Size is in range; what the reservoir holds is what its critical
    sections, one after the other, lead to; every value is offered exactly once; every
    snapshot is the reservoir's contents at one moment. *)
Theorem C98_decaying_atomic sched : conc_ok math_Exp size alpha ms0 progs sched ->
  let c := run sched in
  let es := ds_log (shared c) in
  (forall i t, threads c !! i = Some t -> dx_pc t <> XPanic) /\
  0 <= ed_Size (ds_rsv (shared c)) <= size /\
  Forall event_ok es /\
  offers es ++ mjoin (to_record <$> threads c) ≡ₚ mjoin (call_value <$> mjoin progs) /\
  holds_after size alpha ms0 tick0 es (ds_rsv (shared c)) /\
  (forall i t x, threads c !! i = Some t -> x ∈ dx_got t ->
     exists es' r, es' `prefix_of` es /\ ed_events new es' = Ok r /\ x = ed_GetValues r /\
       Z.of_nat (length x) <= size /\ keys_ascending x /\ forall s, s ∈ x -> sm_value s ∈ offers es').
Proof.
  intros H c es. pose proof (dxinv_main math_Exp size alpha ms0 tick0 progs sched H) as D. fold c in D.
  destruct H as (HE & Hs & Ha & Hm & Hc & Hp & Hn). pose proof D as [D1 D2 D3 D4 D5 D6 D7 D8 D9 D10 D11].
  pose proof (dxinv_ed size alpha ms0 tick0 _ ltac:(lia) Hn _ _ D) as I.
  assert (S : ed_size (ds_rsv (shared c)) = size).
  { destruct D1 as (r & Er & _ & _ & ->). apply Permutation_length in D9. rewrite app_length in D9.
    destruct (events_inv es D2 new [] 0 (ed_inv_new size alpha ms0 tick0 (proj1 Hs))) as (r' & E' & _ & S'); [fold es in D9; lia|].
    fold es in Er. rewrite Er in E'. by injection E' as <-. }
  split; [|split; [|split; [|split; [|split]]]].
  - intros i t Hi E. destruct (D10 i t Hi) as [P _]. by rewrite E in P.
  - unfold ed_Size. pose proof (ei_len _ _ _ I). rewrite S in *. destruct (Z.ltb_spec (ed_count (ds_rsv (shared c))) size); lia.
  - done.
  - done.
  - destruct D1 as (r & Er & V & C & Sr). exists r. split_and!; done.
  - intros i t x Hi Hx. destruct (D11 i t x Hi Hx) as (es' & r & P & Er & ->). exists es', r. split; [done|]. split; [done|]. split; [done|].
    destruct P as [rest P]. pose proof D2 as D2'. rewrite P in D2'. apply Forall_app in D2' as [F' _].
    apply Permutation_length in D9. rewrite app_length in D9. unfold es in *. rewrite P, offers_app, app_length in D9.
    destruct (events_inv es' F' new [] 0 (ed_inv_new size alpha ms0 tick0 (proj1 Hs))) as (r' & E' & I' & S'); [lia|].
    rewrite Er in E'. injection E' as <-. unfold ed_GetValues. rewrite iter_all by apply I'.
    split; [|split].
    + pose proof (ei_len _ _ _ I') as L. rewrite S' in L. cbn [NewEDR ed_size] in L. lia.
    + apply asc_keys; apply I'.
    + intros s Hs'. apply (ei_vals _ _ _ I') in Hs'. cbn [app] in Hs'. by apply (offered_offers es' [] (sm_value s)) in Hs'.
Qed.

(** C98: a snapshot that a goroutine gets after the moment reached by [s1] shows at least
    the critical sections done by then. *)
Theorem C98_decaying_snapshot_fresh s1 s2 i t1 : conc_ok math_Exp size alpha ms0 progs (s1 ++ s2) ->
  threads (run s1) !! i = Some t1 ->
  ds_log (shared (run s1)) `prefix_of` ds_log (shared (run (s1 ++ s2))) /\
  exists t more, threads (run (s1 ++ s2)) !! i = Some t /\ dx_got t = dx_got t1 ++ more /\
    forall x, x ∈ more -> exists es r, ds_log (shared (run s1)) `prefix_of` es /\ es `prefix_of` ds_log (shared (run (s1 ++ s2))) /\
      ed_events new es = Ok r /\ x = ed_GetValues r.
Proof. apply fresh. Qed.

(** C98: as long as some goroutine has not returned, some goroutine can go on. *)
Theorem C98_decaying_no_deadlock sched : conc_ok math_Exp size alpha ms0 progs sched ->
  (exists i t, threads (run sched) !! i = Some t /\ ~ dx_finished t) ->
  exists j u, threads (run sched) !! j = Some u /\ dx_tstep math_Exp (shared (run sched)) u <> None.
Proof.
  intros H (i & t & Hi & Hf). pose proof (dxinv_main math_Exp size alpha ms0 tick0 progs sched H) as D. by eapply progress.
Qed.

(** C99 for the runs in which no goroutine's landmark goes out of date between the
    loading and the insertion: nobody being in a critical section, the reservoir holds
    what the updates recorded so far lead to when made one at a time. *)
Theorem C99_decaying_one_at_a_time_partial sched : conc_ok math_Exp size alpha ms0 progs sched ->
  (forall n, landmark_current (run (take n sched))) ->
  ds_writer (shared (run sched)) = false ->
  exists recorded, recorded ++ mjoin (updates_left <$> threads (run sched)) ≡ₚ updates_of (mjoin progs) /\
    one_at_a_time math_Exp size alpha ms0 tick0 (ms_shown ms0 sched) recorded (ds_rsv (shared (run sched))).
Proof.
  intros H HL Hw. pose proof (dxinv_main math_Exp size alpha ms0 tick0 progs sched H) as D.
  destruct H as (HE & Hs & Ha & Hm & Hc & Hp & Hn).
  pose proof (dxinv_init math_Exp size alpha ms0 tick0 progs HE Ha Hm Hp) as D0.
  destruct (ainv_run math_Exp HE size alpha ms0 tick0 _ ltac:(lia) Ha Hn (updates_of (mjoin progs)) _ sched D0 Hc eq_refl HL) as (acts & rA & A).
  { eexists _, _. apply ainv_init. }
  fold (run sched) in A. change (crun (dx_tstep math_Exp) dx_estep (dx_init size alpha ms0 tick0 progs) sched) with (run sched) in A.
  destruct A as [A1 (V & C & _) A3 A4 _ _ A7 A8 _]. exists (mjoin (action_update <$> acts)). split; [done|].
  exists acts, rA. split_and!; try done. apply A8. intros i t Hi. destruct (is_scale (dx_pc t)) eqn:E; [|done]. exfalso.
  pose proof (sum_flags_one (fun t => in_write (dx_pc t)) (threads (run sched)) i t Hi) as One. cbv beta in One. rewrite (d_w _ _ _ _ _ _ _ D), Hw in One.
  cbn [b2Z] in One. assert (1 <= 0); [|lia]. apply One. by destruct (dx_pc t).
Qed.

(** In particular, when the ticks show no full hour. *)
Theorem C99_decaying_first_hour_partial sched : conc_ok math_Exp size alpha ms0 progs sched ->
  Forall tick_ok (ticks_shown tick0 sched) -> Forall (fun t => t < tick0 + edrRescaleThreshold) (ticks_shown tick0 sched) ->
  Forall dx_finished (threads (run sched)) ->
  one_at_a_time math_Exp size alpha ms0 tick0 (ms_shown ms0 sched) (updates_of (mjoin progs)) (ds_rsv (shared (run sched))).
Proof.
  intros H Hok Hlt Hf. pose proof (dxinv_main math_Exp size alpha ms0 tick0 progs sched H) as D.
  assert (Hw : ds_writer (shared (run sched)) = false).
  { destruct (ds_writer (shared (run sched))) eqn:E; [|done]. exfalso.
    destruct (sum_flags_pos (fun t => in_write (dx_pc t)) (threads (run sched))) as (j & u & Hj & Hu).
    { cbv beta. rewrite (d_w _ _ _ _ _ _ _ D), E. cbn [b2Z]. lia. }
    rewrite Forall_lookup in Hf. destruct (Hf j u Hj) as [_ E']. by rewrite E' in Hu. }
  destruct (C99_decaying_one_at_a_time_partial sched H) as (rec & P & (acts & r & A1 & A2 & A3 & A4 & A5)); [|done|].
  - intros n. apply no_rescale_landmark; eapply Forall_take_ticks; done.
  - exists acts, r. split_and!; try done; try apply A5. rewrite A4, <- P.
    assert (mjoin (updates_left <$> threads (run sched)) = []) as ->; [|by rewrite app_nil_r].
    clear -Hf. induction Hf as [|t ts [E1 E2] Hf IH]; [done|]. rewrite fmap_cons.
    change (updates_left t ++ mjoin (updates_left <$> ts) = []). rewrite IH. unfold updates_left. by rewrite E1, E2.
Qed.
End runs.

(** C99 is false: an update computes its weight from a landmark, then another goroutine
    moves the landmark and rescales, then the sample is inserted with the weight for the
    old landmark.  Here [alpha] is any decay rate for which the weight of a value of age
    3600 s is at least 2 and that of an hour ahead at most 1/2 (for the default 0.015 it is
    exp 54). *)
Definition skew_progs : list (list dx_call) := [[KUpdate 7 half]; [KSnapshot]].
Definition skew_before : list (event (Z * Z)) :=
  [Env (3600000, 3599999999999)] ++ repeat (Run 0%nat) 5 ++ [Env (3600000, 3600000000000)] ++ repeat (Run 1%nat) 8.
Definition skew_sched : list (event (Z * Z)) := skew_before ++ [Run 1%nat] ++ repeat (Run 1%nat) 2 ++ repeat (Run 0%nat) 2.

Lemma rescale_empty r f : ed_values r = [] -> ed_rescale_body r f = set_count (set_values r []) 0.
Proof. intros E. unfold ed_rescale_body, ed_GetValues. rewrite E. by destruct (feq f f0). Qed.

Lemma half_facts : random_ok half /\ (0 < RF half)%R.
Proof.
  split; [apply (random_reciprocal 2); lia|].
  assert (RF (f_of_int 2) = 2)%R as R2 by (apply (f_of_int_exact 2); lia). pose proof fmt_half as Ft.
  destruct (fdiv_spec f1 (f_of_int 2)) as [R F2]; [done|lra| |].
  - unfold fits. rewrite RF_f1, R2, rnd_fmt by done. rewrite Rabs_pos_eq by lra. apply Rlt_trans with 1%R; [lra|].
    change 1%R with (bpow radix2 0). apply bpow_lt. lia.
  - fold half in R. rewrite R, RF_f1, R2, rnd_fmt by done. lra.
Qed.

Lemma skew_run mexp alpha :
  let W := mexp (fmul alpha (f_of_int 3600)) in
  let c := dx_crun mexp 10 alpha 0 0 skew_progs skew_sched in
  ed_values (ds_rsv (shared c)) = [WeightedSample (fdiv W half) 7 W] /\ ed_startTime (ds_rsv (shared c)) = 3600 /\
  threads c = [DxThread [] XIdle []; DxThread [] XIdle [[]]].
Proof.
  intros W c. unfold c, skew_sched, dx_crun. rewrite !crun_app.
  set (r := set_nextScaleTime (set_startTime (NewEDR 10 alpha 0 0) 3600) 7200000000000).
  assert (crun (dx_tstep mexp) dx_estep (dx_init 10 alpha 0 0 skew_progs) skew_before =
    Config (DxShared r true 0 3600000 3600000000000 [])
      [DxThread [] (XULock 7 half 3600000 0) []; DxThread [] (XScale KSnapshot (mexp (fmul (Bopp alpha) (f_of_int 3600)))) []]) as ->.
  { lazy -[f_of_int fmul fdiv Bopp half]. reflexivity. }
  set (f := mexp (fmul (Bopp alpha) (f_of_int 3600))).
  set (r2 := set_count (set_values r []) 0).
  assert (forall s ts k got, ds_rsv s = r -> ts !! 1%nat = Some (DxThread [] (XScale k f) got) ->
    crun (dx_tstep mexp) dx_estep (Config s ts) [Run 1%nat] =
    Config (logged (set_lock (set_rsv s r2) false 0) (Rescale f)) (<[1%nat := DxThread [] (dx_after k) got]> ts)) as Hstep.
  { intros s ts k got Es Ht. cbn [crun fold_left cstep shared threads]. rewrite Ht. unfold dx_tstep. cbn [dx_pc dx_todo dx_got]. cbv zeta.
    rewrite Es, rescale_empty by done. done. }
  rewrite (Hstep _ _ KSnapshot []); [|reflexivity|reflexivity]. clear Hstep.
  split; [|split]; lazy -[f_of_int fmul fdiv Bopp half]; reflexivity.
Qed.

Theorem C99_decaying_one_at_a_time_refuted math_Exp alpha :
  exp_ok math_Exp -> decay_ok alpha ->
  let W := math_Exp (fmul alpha (f_of_int 3600)) in
  let G := math_Exp (fmul (Bopp alpha) (f_of_int 3600)) in
  ffinite W = true -> (2 <= RF W)%R -> (RF G <= 1 / 2)%R ->
  exists progs sched, conc_ok math_Exp 10 alpha 0 progs sched /\
    let c := dx_crun math_Exp 10 alpha 0 0 progs sched in
    Forall dx_finished (threads c) /\
    ~ one_at_a_time math_Exp 10 alpha 0 0 (ms_shown 0 sched) (updates_of (mjoin progs)) (ds_rsv (shared c)).
Proof.
  intros HE Ha W G FW HW HG. exists skew_progs, skew_sched.
  destruct (skew_run math_Exp alpha) as (E1 & E2 & E3). cbv zeta in E1, E2, E3. split.
  { split; [done|]. split; [lia|]. split; [done|]. split; [lia|]. split; [cbn; lia|]. split; [|done].
    repeat constructor; apply half_facts. }
  intros c. fold c in E1, E2, E3. split.
  { rewrite E3. by repeat constructor. }
  intros (acts & r & A1 & A2 & A3 & A4 & V & C & S).
  assert (sinv math_Exp alpha r) as [_ _ Hw].
  { assert (A2' : Forall (fun a => action_ms a = 0 \/ action_ms a = 3600000) acts).
    { eapply Forall_impl; [exact A2|]. intros a Hin. cbv beta in Hin. change (ms_shown 0 skew_sched) with [0; 3600000; 3600000] in Hin.
      clear -Hin. rewrite !elem_of_cons in Hin. destruct Hin as [?|[?|[?|Hin]]]; [by left|by right|by right|by apply elem_of_nil in Hin]. }
    apply (sinv_acts math_Exp HE alpha Ha FW HW HG acts (NewEDR 10 alpha 0 0) r [] 0); [| |exact A2'|exact A3| | | |exact A1].
    - constructor; [reflexivity|left; reflexivity|]. intros s Hs. destruct (not_elem_of_nil s Hs).
    - apply ed_inv_new. lia.
    - cbn [NewEDR ed_startTime]. change (currentTimeInSecond 0) with 0. lia.
    - rewrite A4. cbn [skew_progs]. change (updates_of (mjoin skew_progs)) with [KUpdate 7 half]. apply Forall_singleton. exact half_facts.
    - apply Permutation_length in A4. rewrite A4. reflexivity. }
  rewrite V in E1. specialize (Hw (WeightedSample (fdiv W half) 7 W)). destruct Hw as [_ Hw].
  { rewrite E1. apply elem_of_list_singleton. reflexivity. }
  rewrite <- S, E2 in Hw. change (wmax math_Exp alpha 3600) with (3 / 4 * RF W)%R in Hw. cbn [sm_weight] in Hw. lra.
Qed.

(** ** Rescales *)

(** C100, the part that always holds: no rescale before the ticks show a full hour. *)
Theorem C100_decaying_rescale_not_early_partial math_Exp size alpha ms0 tick0 progs sched :
  Forall tick_ok (ticks_shown tick0 sched) -> Forall (fun t => t < tick0 + edrRescaleThreshold) (ticks_shown tick0 sched) ->
  rescales (shared (dx_crun math_Exp size alpha ms0 tick0 progs sched)) = 0%nat.
Proof.
  intros Hok Hlt.
  assert (T : tinv tick0 false (ticks_shown tick0 sched) (shared (dx_crun math_Exp size alpha ms0 tick0 progs sched)) (threads (dx_crun math_Exp size alpha ms0 tick0 progs sched))).
  { apply tinv_run; [done| |done]. apply tinv_init. unfold ticks_shown in Hok. by apply Forall_cons in Hok as [? _]. }
  destruct (rescales _) as [|n] eqn:E; [done|exfalso]. destruct (t_early _ _ _ _ _ T) as (m & Hm & Hge).
  - pose proof (claims_ge (shared (dx_crun math_Exp size alpha ms0 tick0 progs sched)) (threads (dx_crun math_Exp size alpha ms0 tick0 progs sched))). lia.
  - rewrite Forall_forall in Hlt. specialize (Hlt m Hm). lia.
Qed.

(** C100 for the runs in which nobody claims a rescale for a time that its second load of
    nextScaleTime shows to be ahead: one rescale per hour. *)
Theorem C100_decaying_rescale_hourly_partial math_Exp size alpha ms0 tick0 progs sched :
  Forall tick_ok (ticks_shown tick0 sched) ->
  (forall n, due_when_claimed (dx_crun math_Exp size alpha ms0 tick0 progs (take n sched))) ->
  exists tick, tick ∈ ticks_shown tick0 sched /\
    Z.of_nat (rescales (shared (dx_crun math_Exp size alpha ms0 tick0 progs sched))) * edrRescaleThreshold <= tick - tick0.
Proof.
  intros Hok HD.
  assert (T : tinv tick0 true (ticks_shown tick0 sched) (shared (dx_crun math_Exp size alpha ms0 tick0 progs sched)) (threads (dx_crun math_Exp size alpha ms0 tick0 progs sched))).
  { apply tinv_run; [done| |done]. apply tinv_init. unfold ticks_shown in Hok. by apply Forall_cons in Hok as [? _]. }
  destruct T as [_ (m & Hm & En & _) _ T4 _]. exists m. split; [done|]. specialize (T4 eq_refl). rewrite En in T4.
  pose proof (claims_ge (shared (dx_crun math_Exp size alpha ms0 tick0 progs sched)) (threads (dx_crun math_Exp size alpha ms0 tick0 progs sched))) as G.
  assert (0 < edrRescaleThreshold) by done. nia.
Qed.

(** C100 is false: nextScaleTime is loaded once to decide and once more to claim, so two
    goroutines that both find the rescale due can claim it one after the other. *)
Definition twice_first : list (event (Z * Z)) :=
  [Env (3600000, 3600000000000)] ++ repeat (Run 0%nat) 3 ++ repeat (Run 1%nat) 3 ++ repeat (Run 0%nat) 5.
Definition twice_sched : list (event (Z * Z)) := twice_first ++ [Run 0%nat] ++ repeat (Run 1%nat) 5 ++ [Run 1%nat].

Lemma scale_step mexp s ts i k f got : ed_values (ds_rsv s) = [] -> ts !! i = Some (DxThread [] (XScale k f) got) ->
  crun (dx_tstep mexp) dx_estep (Config s ts) [Run i] =
  Config (logged (set_lock (set_rsv s (set_count (set_values (ds_rsv s) []) 0)) false 0) (Rescale f)) (<[i := DxThread [] (dx_after k) got]> ts).
Proof.
  intros Es Ht. cbn [crun fold_left cstep shared threads]. rewrite Ht. unfold dx_tstep. cbn [dx_pc dx_todo dx_got]. cbv zeta.
  rewrite rescale_empty by done. done.
Qed.

Theorem C100_decaying_rescale_hourly_refuted math_Exp size alpha :
  exists progs sched, Forall tick_ok (ticks_shown 0 sched) /\ ticks_shown 0 sched = [0; 3600000000000] /\
    rescales (shared (dx_crun math_Exp size alpha 0 0 progs sched)) = 2%nat.
Proof.
  exists [[KSnapshot]; [KSnapshot]], twice_sched. split; [repeat constructor; done|]. split; [reflexivity|].
  unfold twice_sched, dx_crun. rewrite !crun_app.
  set (f := math_Exp (fmul (Bopp alpha) (f_of_int 3600))). set (f' := math_Exp (fmul (Bopp alpha) (f_of_int 0))).
  set (r := set_nextScaleTime (set_startTime (NewEDR size alpha 0 0) 3600) 7200000000000).
  assert (crun (dx_tstep math_Exp) dx_estep (dx_init size alpha 0 0 [[KSnapshot]; [KSnapshot]]) twice_first =
    Config (DxShared r true 0 3600000 3600000000000 [])
      [DxThread [] (XScale KSnapshot f) []; DxThread [] (XNext KSnapshot 3600000000000) []]) as ->.
  { lazy -[f_of_int fmul fdiv Bopp]. reflexivity. }
  rewrite (scale_step _ _ _ 0 KSnapshot f []); [|reflexivity|reflexivity].
  assert (forall s, ds_rsv s = r -> ds_writer s = false -> ds_readers s = 0%nat -> ds_ms s = 3600000 ->
    crun (dx_tstep math_Exp) dx_estep (Config s [DxThread [] XRLock []; DxThread [] (XNext KSnapshot 3600000000000) []]) (repeat (Run 1%nat) 5) =
    Config (set_lock s true 0) [DxThread [] XRLock []; DxThread [] (XScale KSnapshot f') []]) as Hs.
  { intros [rr w n ms tick l]. cbn [ds_rsv ds_writer ds_readers ds_ms]. intros -> -> -> ->. lazy -[f_of_int fmul fdiv Bopp]. reflexivity. }
  cbn [insert list_insert dx_after]. rewrite Hs by reflexivity.
  rewrite (scale_step _ _ _ 1 KSnapshot f' []); [|reflexivity|reflexivity]. reflexivity.
Qed.

(** The hypotheses of the refutation of C99 hold of the correctly rounded exponential
    function and of every decay rate between 1/1000 and 1/10 (the default is 0.015). *)
Lemma exp_bound x : (x <= 360)%R -> (exp x <= bpow radix2 720)%R.
Proof.
  intros Hx. assert (forall n, exp (INR n) = exp 1 ^ n)%R as E.
  { induction n as [|n IH]; [exact exp_0|]. rewrite S_INR, exp_plus, IH. cbn [pow]. ring. }
  apply Rle_trans with (exp (INR 360)).
  - rewrite INR_IZR_INZ. replace (Z.of_nat 360) with 360%Z by reflexivity. destruct Hx as [L| ->]; [apply Rlt_le, exp_increasing, L|lra].
  - rewrite E. assert (bpow radix2 720 = 4 ^ 360)%R as ->.
    { rewrite bpow_powerRZ. change (IZR radix2) with 2%R. change 720 with (Z.of_nat (2 * 360)). rewrite <- pow_powerRZ, pow_mult. f_equal. ring. }
    apply pow_incr. pose proof exp_le_3. pose proof (exp_pos 1). lra.
Qed.

Theorem skew_rounded (m : f64 -> f64) alpha :
  (forall x, ffinite x = true ->
     (Rabs (rnd (exp (RF x))) < bpow radix2 1024 -> ffinite (m x) = true /\ RF (m x) = rnd (exp (RF x)))%R /\
     (bpow radix2 1024 <= Rabs (rnd (exp (RF x))) -> m x = B754_infinity false)%R) ->
  ffinite alpha = true -> (1 / 1000 <= RF alpha <= 1 / 10)%R ->
  exp_ok m /\ decay_ok alpha /\ ffinite (m (fmul alpha (f_of_int 3600))) = true /\
  (2 <= RF (m (fmul alpha (f_of_int 3600))))%R /\ (RF (m (fmul (Bopp alpha) (f_of_int 3600))) <= 1 / 2)%R.
Proof.
  intros H Fa Ra. split; [by apply exp_ok_rounded|]. split; [split; [done|lra]|].
  assert (RF (f_of_int 3600) = 3600)%R as R3 by (apply (f_of_int_exact 3600); lia).
  assert (ffinite (f_of_int 3600) = true) as F3 by (apply f_of_int_finite64; unfold in64, two63; lia).
  assert (forall z, Z.abs z <= 1000 -> fmt (IZR z)) as Fi by (intros z Hz; apply fmt_IZR; lia).
  assert (B : (3 <= rnd (RF alpha * 3600) <= 360)%R).
  { split; [apply rnd_ge_l; [apply (Fi 3); lia|lra]|apply rnd_le_r; [apply (Fi 360); lia|lra]]. }
  assert (B' : (-360 <= rnd (- RF alpha * 3600) <= -3)%R).
  { split; [apply rnd_ge_l; [apply (Fi (-360)); lia|lra]|apply rnd_le_r; [apply (Fi (-3)); lia|lra]]. }
  assert (360 < bpow radix2 1024)%R as Big.
  { apply Rlt_trans with (bpow radix2 10); [change (bpow radix2 10) with 1024%R; lra|apply bpow_lt; lia]. }
  destruct (fmul_spec alpha (f_of_int 3600) Fa F3) as [R1 F1].
  { unfold fits. rewrite R3, Rabs_pos_eq by lra. lra. }
  destruct (fmul_spec (Bopp alpha) (f_of_int 3600)) as [R2 F2]; [by destruct alpha|done| |].
  { unfold fits. unfold RF at 1. rewrite B2R_Bopp. fold (RF alpha). rewrite R3. apply Rabs_def1; lra. }
  rewrite R3 in R1, R2. unfold RF in R2 at 2. rewrite B2R_Bopp in R2. fold (RF alpha) in R2.
  destruct (H _ F1) as [H1 _]. destruct (H _ F2) as [H2 _].
  pose proof (exp_ineq1_le 1) as E1.
  assert (X1 : (2 <= rnd (exp (RF (fmul alpha (f_of_int 3600)))) <= bpow radix2 720)%R).
  { rewrite R1. split; [apply rnd_ge_l; [apply (Fi 2); lia|]|apply rnd_le_r; [apply fmt_bpow; lia|apply exp_bound; lra]].
    pose proof (exp_increasing 1 (rnd (RF alpha * 3600)) ltac:(lra)). lra. }
  assert (X2 : (0 <= rnd (exp (RF (fmul (Bopp alpha) (f_of_int 3600)))) <= 1 / 2)%R).
  { rewrite R2. pose proof (exp_pos (rnd (- RF alpha * 3600))). split; [apply rnd_ge_l; [apply fmt_0|lra]|apply rnd_le_r; [apply fmt_half|]].
    pose proof (exp_increasing (rnd (- RF alpha * 3600)) (Ropp 1) ltac:(lra)) as L. rewrite exp_Ropp in L.
    assert (/ exp 1 <= / 2)%R by (apply Rinv_le_contravar; lra). lra. }
  destruct H1 as [A1 A2].
  { rewrite Rabs_pos_eq by lra. eapply Rle_lt_trans; [apply X1|]. apply bpow_lt. lia. }
  destruct H2 as [A3 A4].
  { rewrite Rabs_pos_eq by lra. lra. }
  rewrite A2, A4. split; [done|]. lra.
Qed.

(** Concrete cases, with the crude exponential function [toy_exp]. *)
Definition third : f64 := fdiv f1 (f_of_int 3).
Definition busy_progs : list (list dx_call) :=
  [[KUpdate 5 third; KUpdate 6 half]; [KUpdate 7 (fdiv f1 (f_of_int 7)); KSnapshot]; [KSnapshot; KUpdate 8 (fdiv f1 (f_of_int 9))]].
Definition mixed : list (event (Z * Z)) := mjoin (repeat [Run 0%nat; Run 2%nat; Run 1%nat] 30).
Definition busy_sched (tick : Z) : list (event (Z * Z)) := Env (5000, 1000) :: take 17 mixed ++ Env (9000, tick) :: mixed.
Lemma random_reciprocal_pos n : 1 < n < 2 ^ 53 -> (0 < RF (fdiv f1 (f_of_int n)))%R.
Proof.
  intros Hn. assert (RF (f_of_int n) = IZR n)%R as Rn by (apply f_of_int_exact; lia). assert (2 <= IZR n)%R as H2 by (apply IZR_le; lia).
  assert (0 < 1 / IZR n <= 1 / 2)%R as B.
  { split; [apply Rdiv_lt_0_compat; lra|]. unfold Rdiv. apply Rmult_le_compat_l; [lra|]. by apply Rinv_le_contravar; lra. }
  assert (0 <= rnd (1 / IZR n) <= 1 / 2)%R as Br by (split; [apply rnd_ge_l; [apply fmt_0|lra]|apply rnd_le_r; [apply fmt_half|lra]]).
  destruct (fdiv_spec f1 (f_of_int n)) as [R F2]; [done|lra| |].
  - unfold fits. rewrite RF_f1, Rn, Rabs_pos_eq by lra. apply Rlt_trans with 1%R; [lra|]. change 1%R with (bpow radix2 0). apply bpow_lt. lia.
  - rewrite R, RF_f1, Rn. apply Rlt_le_trans with (bpow radix2 (-53)); [apply bpow_gt_0|]. apply rnd_ge_l; [apply fmt_bpow; lia|].
    change (-53) with (- (53)). rewrite bpow_opp, <- (IZR_pow2 53) by lia. unfold Rdiv. rewrite Rmult_1_l. apply Rinv_le_contravar; [lra|]. apply IZR_le. lia.
Qed.
Lemma busy_ok tick : conc_ok toy_exp 2 half 1000 busy_progs (busy_sched tick).
Proof.
  split; [apply toy_exp_ok|]. split; [lia|]. split; [apply decaying_case_setting|]. split; [lia|]. split; [cbn; lia|].
  assert (forall n, 1 < n < 2 ^ 53 -> call_ok (KUpdate 0 (fdiv f1 (f_of_int n)))) as Hr.
  { intros n Hn. split; [by apply random_reciprocal|]. by apply random_reciprocal_pos. }
  split; [|vm_compute; reflexivity].
  repeat apply Forall_cons_2; try apply Forall_nil_2.
  - exact (Hr 3 ltac:(lia)).
  - exact half_facts.
  - exact (Hr 7 ltac:(lia)).
  - exact I.
  - exact I.
  - exact (Hr 9 ltac:(lia)).
Qed.
Example busy_run :
  ((fun t => (length (dx_todo t), map (map sm_value) (dx_got t))) <$> threads (dx_crun toy_exp 2 half 1000 0 busy_progs (busy_sched 4000000000000)),
   rescales (shared (dx_crun toy_exp 2 half 1000 0 busy_progs (busy_sched 4000000000000))))
  = ([(0%nat, []); (0%nat, [[5; 7]]); (0%nat, [[]])], 2%nat).
Proof. vm_compute. reflexivity. Qed.

(** Within the first hour (C99_decaying_first_hour_partial). *)
Example busy_first_hour :
  Forall tick_ok (ticks_shown 0 (busy_sched 2000)) /\ Forall (fun t => t < 0 + edrRescaleThreshold) (ticks_shown 0 (busy_sched 2000)) /\
  ((fun t => (dx_todo t, match dx_pc t with XIdle => true | _ => false end)) <$> threads (dx_crun toy_exp 2 half 1000 0 busy_progs (busy_sched 2000)))
    = [([], true); ([], true); ([], true)] /\
  sm_value <$> ed_GetValues (ds_rsv (shared (dx_crun toy_exp 2 half 1000 0 busy_progs (busy_sched 2000)))) = [7; 8].
Proof.
  change (ticks_shown 0 (busy_sched 2000)) with [0; 1000; 2000].
  split; [repeat constructor; done|]. split; [repeat constructor; done|]. split; vm_compute; reflexivity.
Qed.

(** A run with a rescale in which landmarks are current and rescales are claimed only when
    due. *)
Definition calm_sched : list (event (Z * Z)) :=
  Env (5000, 1000) :: repeat (Run 0%nat) 30 ++ take 6 (repeat (Run 1%nat) 30) ++ Env (9000, 3600000000000) :: repeat (Run 1%nat) 40 ++ repeat (Run 2%nat) 40.
Definition landmark_currentb (c : config dx_shared dxthread) : bool :=
  forallb (fun t => match dx_pc t with XULock _ _ _ land | XInsert _ _ _ land => land =? ed_startTime (ds_rsv (shared c)) | _ => true end) (threads c).
Definition dueb (c : config dx_shared dxthread) : bool :=
  forallb (fun t => match dx_pc t with XCas _ now next => next <=? now | _ => true end) (threads c).
Lemma landmark_currentb_ok c : landmark_currentb c = true -> landmark_current c.
Proof.
  unfold landmark_currentb. rewrite forallb_forall. intros H i t Hi. specialize (H t (proj1 (elem_of_list_In _ _) (elem_of_list_lookup_2 _ _ _ Hi))). cbv beta in H.
  destruct (dx_pc t); try done; lia.
Qed.
Lemma dueb_ok c : dueb c = true -> due_when_claimed c.
Proof.
  unfold dueb. rewrite forallb_forall. intros H i t Hi. specialize (H t (proj1 (elem_of_list_In _ _) (elem_of_list_lookup_2 _ _ _ Hi))). cbv beta in H.
  destruct (dx_pc t); try done; lia.
Qed.
Lemma prefixes_checked (c : config dx_shared dxthread) sched (P : config dx_shared dxthread -> bool) mexp :
  forallb (fun n => P (crun (dx_tstep mexp) dx_estep c (take n sched))) (seq 0 (S (length sched))) = true ->
  forall n, P (crun (dx_tstep mexp) dx_estep c (take n sched)) = true.
Proof.
  rewrite forallb_forall. intros H n. destruct (decide (n <= length sched)%nat).
  - apply H. apply in_seq. lia.
  - rewrite take_ge by lia. rewrite <- (firstn_all sched). apply H. apply in_seq. lia.
Qed.
Example calm_run :
  (forall n, landmark_current (dx_crun toy_exp 2 half 1000 0 busy_progs (take n calm_sched))) /\
  (forall n, due_when_claimed (dx_crun toy_exp 2 half 1000 0 busy_progs (take n calm_sched))) /\
  conc_ok toy_exp 2 half 1000 busy_progs calm_sched /\
  rescales (shared (dx_crun toy_exp 2 half 1000 0 busy_progs calm_sched)) = 1%nat /\
  ds_writer (shared (dx_crun toy_exp 2 half 1000 0 busy_progs calm_sched)) = false /\
  ((fun t => map (map sm_value) (dx_got t)) <$> threads (dx_crun toy_exp 2 half 1000 0 busy_progs calm_sched)) = [[]; [[5; 7]]; [[5; 7]]].
Proof.
  split; [|split; [|split; [|split; [|split]]]].
  - intros n. apply landmark_currentb_ok. revert n. apply prefixes_checked. vm_compute. reflexivity.
  - intros n. apply dueb_ok. revert n. apply prefixes_checked. vm_compute. reflexivity.
  - destruct (busy_ok 0) as (A & B & C & D & _ & F). split; [exact A|]. split; [exact B|]. split; [exact C|]. split; [exact D|]. split; [cbn; lia|exact F].
  - vm_compute. reflexivity.
  - vm_compute. reflexivity.
  - vm_compute. reflexivity.
Qed.

Print Assumptions C98_decaying_atomic.
Print Assumptions C98_decaying_snapshot_fresh.
Print Assumptions C98_decaying_no_deadlock.
Print Assumptions C99_decaying_one_at_a_time_partial.
Print Assumptions C99_decaying_first_hour_partial.
Print Assumptions C99_decaying_one_at_a_time_refuted.
Print Assumptions C100_decaying_rescale_not_early_partial.
Print Assumptions C100_decaying_rescale_hourly_partial.
Print Assumptions C100_decaying_rescale_hourly_refuted.
