From Verif.Go Require Import GoInt GoFloat.
From Verif.Model Require Import Counter BucketQueue BucketCounter EWMA Compass.
From Verif.Spec Require Import BucketSpec CompassSpec.
From Verif.Proofs Require Import FloatProofs DecayingCalls.
From Coq Require Import Reals Lra.
From Flocq Require Import BinarySingleNaN.
Local Open Scope Z_scope.

(** ** Any moving average is driven by the log of counts *)
Section sim.
Context {E : Type} (T : E -> Z -> E) (z : E) (I : Z).
Definition of_log (m : meter (list Z)) : meter E :=
  Meter (fold_left T (mt_m1Rate m) z) (fold_left T (mt_m5Rate m) z) (fold_left T (mt_m15Rate m) z) (mt_lastTick m) (mt_uncounted m).
Lemma of_log_round m : of_log (mt_round log_TickN m) = mt_round T (of_log m).
Proof. unfold of_log, mt_round, log_TickN. cbn. by rewrite !fold_left_app. Qed.
Lemma of_log_rounds n m : of_log (Nat.iter n (mt_round log_TickN) m) = Nat.iter n (mt_round T) (of_log m).
Proof. induction n as [|n IH]; [done|]. cbn [Nat.iter nat_rect]. rewrite of_log_round. f_equal. exact IH. Qed.
Lemma of_log_tick m t : mt_tickIfNecessary T I (of_log m) t = (m' ← mt_tickIfNecessary log_TickN I m t; Ok (of_log m')).
Proof.
  unfold mt_tickIfNecessary. cbn [mt_lastTick of_log]. destruct (_ <? _); [|done].
  destruct (go_mod _ _); [|done]. cbn [mbind res_bind]. destruct (go_div _ _); [|done]. cbn [mbind res_bind]. f_equal. by rewrite of_log_rounds.
Qed.
Lemma of_log_run m cs : mt_run T I (of_log m) cs = (m' ← mt_run log_TickN I m cs; Ok (of_log m')).
Proof.
  revert m. induction cs as [|c cs IH]; intros m; [done|]. cbn. unfold mt_step at 1 3. rewrite of_log_tick.
  destruct (mt_tickIfNecessary log_TickN I m c.1) as [m1|]; [|done]. cbn [mbind res_bind].
  replace (if c.2 then mt_count (of_log m1) else of_log m1) with (of_log (if c.2 then mt_count m1 else m1)) by (by destruct c.2).
  apply IH.
Qed.
Lemma meter_log now cs m : mt_run T I (newMeter z now) cs = Ok m ->
  exists L, mt_run log_TickN I (newMeter [] now) cs = Ok L /\ m = of_log L.
Proof.
  intros H. change (newMeter z now) with (of_log (newMeter [] now)) in H. rewrite of_log_run in H.
  destruct (mt_run log_TickN I (newMeter [] now) cs) as [L|]; [|done]. cbn in H. injection H as <-. by exists L.
Qed.
End sim.

(** ** The log *)
Lemma round_fields n (m : meter (list Z)) : mt_lastTick (Nat.iter n (mt_round log_TickN) m) = mt_lastTick m.
Proof. induction n; [done|]. cbn. done. Qed.
Lemma round_zero n (m : meter (list Z)) : mt_uncounted m = 0 -> mt_m1Rate (Nat.iter n (mt_round log_TickN) m) = mt_m1Rate m ++ replicate n 0 /\ mt_uncounted (Nat.iter n (mt_round log_TickN) m) = 0.
Proof.
  induction n as [|n IH]; intros H0; [cbn; by rewrite app_nil_r|]. destruct (IH H0) as [E1 E2]. clear IH.
  change (Nat.iter (S n) (mt_round log_TickN) m) with (mt_round log_TickN (Nat.iter n (mt_round log_TickN) m)).
  generalize dependent (Nat.iter n (mt_round log_TickN) m). intros x E1 E2. unfold mt_round, log_TickN. cbn [mt_m1Rate mt_uncounted].
  rewrite E1, E2. split; [|done]. rewrite <- app_assoc. f_equal. clear. induction n; [done|]. cbn. by f_equal.
Qed.
Lemma rounds_log n (m : meter (list Z)) : (0 < n)%nat ->
  mt_m1Rate (Nat.iter n (mt_round log_TickN) m) = mt_m1Rate m ++ mt_uncounted m :: replicate (n - 1) 0 /\ mt_uncounted (Nat.iter n (mt_round log_TickN) m) = 0.
Proof.
  intros H. destruct n as [|n]; [lia|]. replace (S n - 1)%nat with n by lia.
  assert (Nat.iter (S n) (mt_round log_TickN) m = Nat.iter n (mt_round log_TickN) (mt_round log_TickN m)) as ->.
  { clear. induction n as [|n IH]; [done|]. cbn [Nat.iter nat_rect] in *. by rewrite IH. }
  destruct (round_zero n (mt_round log_TickN m) eq_refl) as [-> ->]. split; [|done]. unfold mt_round, log_TickN. cbn [mt_m1Rate]. by rewrite <- app_assoc.
Qed.
Definition same_logs (m : meter (list Z)) : Prop := mt_m5Rate m = mt_m1Rate m /\ mt_m15Rate m = mt_m1Rate m.
Lemma same_rounds n m : same_logs m -> same_logs (Nat.iter n (mt_round log_TickN) m).
Proof. intros H. induction n as [|n IH]; [done|].
  change (Nat.iter (S n) (mt_round log_TickN) m) with (mt_round log_TickN (Nat.iter n (mt_round log_TickN) m)).
  generalize dependent (Nat.iter n (mt_round log_TickN) m). intros x [E1 E2]. unfold same_logs, mt_round, log_TickN. cbn. by rewrite E1, E2. Qed.

(** One call, spelled out. *)
Definition tick_age (m : meter (list Z)) (t : Z) : Z := wrap64 (t - mt_lastTick m).
Lemma tick_cases I m t m' : I <> 0 -> mt_tickIfNecessary log_TickN I m t = Ok m' ->
  (tick_age m t <= tickInterval /\ m' = m) \/
  (tickInterval < tick_age m t /\ mt_lastTick m' = wrap64 (t - Z.rem (tick_age m t) I) /\
   mt_m1Rate m' = mt_m1Rate m ++ mt_uncounted m :: replicate (Z.to_nat (Z.quot (tick_age m t) tickInterval) - 1) 0 /\
   mt_uncounted m' = 0 /\ (same_logs m -> same_logs m')).
Proof.
  intros HI. unfold mt_tickIfNecessary, tick_age. set (age := wrap64 (t - mt_lastTick m)).
  assert (in64 age) as Ha by apply wrap64_range.
  destruct (Z.ltb_spec tickInterval age) as [L|L]; [|intros H; injection H as <-; by left].
  unfold go_mod, go_div. destruct (Z.eqb_spec I 0); [done|]. cbn [mbind res_bind]. rewrite (bool_decide_eq_false_2 (tickInterval = 0)) || idtac.
  change (tickInterval =? 0) with false. cbn [mbind res_bind]. intros H. injection H as <-. right. split; [done|].
  assert (tickInterval <= age) as L' by lia. assert (wrap64 (Z.quot age tickInterval) = Z.quot age tickInterval) as ->.
  { apply wrap64_id. unfold in64, tickInterval, Second, two63 in *. rewrite Z.quot_div_nonneg by lia.
    pose proof (Z.div_le_upper_bound age (5 * 1000000000) age ltac:(lia) ltac:(lia)). pose proof (Z.div_pos age (5 * 1000000000) ltac:(lia) ltac:(lia)). lia. }
  assert (0 < Z.to_nat (Z.quot age tickInterval))%nat as Hn.
  { assert (1 <= Z.quot age tickInterval); [|lia]. unfold tickInterval, Second in *. rewrite Z.quot_div_nonneg by lia. apply Z.div_le_lower_bound; lia. }
  rewrite round_fields. cbn [mt_lastTick]. split; [done|].
  destruct (rounds_log (Z.to_nat (Z.quot age tickInterval))
    {| mt_m1Rate := mt_m1Rate m; mt_m5Rate := mt_m5Rate m; mt_m15Rate := mt_m15Rate m; mt_lastTick := wrap64 (t - Z.rem age I); mt_uncounted := mt_uncounted m |} Hn) as [-> ->].
  split; [done|]. split; [done|]. intros S. apply same_rounds. exact S.
Qed.

Definition hits (cs : list (Z * bool)) : Z := Z.of_nat (length (filter (fun c => c.2 = true) cs)).
Lemma hits_snoc cs c : hits (cs ++ [c]) = hits cs + (if c.2 then 1 else 0).
Proof. unfold hits. rewrite filter_app, app_length, Nat2Z.inj_add, filter_cons. f_equal. destruct c as [t b]. cbn [snd]. destruct b; [by rewrite decide_True|by rewrite decide_False]. Qed.
Lemma hits_le cs : 0 <= hits cs <= Z.of_nat (length cs).
Proof. unfold hits. pose proof (filter_length (fun c : Z * bool => c.2 = true) cs). lia. Qed.
Lemma sumZ_app' l1 l2 : sumZ (l1 ++ l2) = sumZ l1 + sumZ l2.
Proof. unfold sumZ. induction l1; cbn in *; lia. Qed.
Lemma sumZ_zeros n : sumZ (replicate n 0) = 0.
Proof. unfold sumZ. induction n; cbn; lia. Qed.

Lemma run_log_unsnoc I m cs c L : mt_run log_TickN I m (cs ++ [c]) = Ok L ->
  exists L1 L2, mt_run log_TickN I m cs = Ok L1 /\ mt_tickIfNecessary log_TickN I L1 c.1 = Ok L2 /\ L = if c.2 then mt_count L2 else L2.
Proof.
  unfold mt_run. rewrite run_ops_app. destruct (run_ops _ m cs) as [L1|]; [|done]. cbn. unfold mt_step.
  destruct (mt_tickIfNecessary log_TickN I L1 c.1) as [L2|] eqn:E2; [|done]. cbn. intros H. injection H as <-. by exists L1, L2.
Qed.

(** Conservation, and nonnegative counts. *)
Lemma log_conserve I now cs L : I <> 0 -> hits cs < two63 -> mt_run log_TickN I (newMeter [] now) cs = Ok L ->
  sumZ (mt_m1Rate L) + mt_uncounted L = hits cs /\ Forall (fun c => 0 <= c) (mt_m1Rate L) /\ 0 <= mt_uncounted L /\ same_logs L.
Proof.
  intros HI. revert L. induction cs as [|c cs IH] using rev_ind; intros L HB H.
  { cbn in H. injection H as <-. cbn. split; [done|]. split; [constructor|]. done. }
  rewrite hits_snoc in *. destruct (run_log_unsnoc _ _ _ _ _ H) as (L1 & L2 & E1 & E2 & ->).
  destruct (IH L1) as (S1 & F1 & U1 & M1); [destruct c.2; lia|done|]. clear IH.
  assert (0 <= sumZ (mt_m1Rate L1)) as P1. { clear -F1. induction F1; [done|]. unfold sumZ in *. cbn. lia. }
  assert (sumZ (mt_m1Rate L2) + mt_uncounted L2 = hits cs /\ Forall (fun c => 0 <= c) (mt_m1Rate L2) /\ 0 <= mt_uncounted L2 <= mt_uncounted L1 /\ same_logs L2) as (S2 & F2 & U2 & M2).
  { destruct (tick_cases I L1 c.1 L2 HI E2) as [[_ ->]|(_ & _ & El & Eu & Hs)]; [done|].
    rewrite El, Eu, sumZ_app'. unfold sumZ at 2. cbn. fold (sumZ (replicate (Z.to_nat (tick_age L1 c.1 ÷ tickInterval) - 1) 0)). rewrite sumZ_zeros.
    split; [lia|]. split; [|split; [lia|by apply Hs]]. apply Forall_app. split; [done|]. constructor; [done|].
    apply Forall_replicate. lia. }
  destruct c.2; [|split; [lia|]; split; [done|]; split; [lia|done]].
  unfold mt_count. cbn [mt_m1Rate mt_uncounted]. rewrite wrap64_id by (unfold in64, two63 in *; lia).
  split; [lia|]. split; [done|]. split; [lia|done].
Qed.

(** The log is empty as long as no tick is more than 5 s past the start. *)
Lemma log_empty I now cs L : I <> 0 -> mt_run log_TickN I (newMeter [] now) cs = Ok L ->
  (mt_m1Rate L = [] <-> Forall (fun c => wrap64 (c.1 - now) <= tickInterval) cs) /\ (mt_m1Rate L = [] -> mt_lastTick L = now).
Proof.
  intros HI. revert L. induction cs as [|c cs IH] using rev_ind; intros L H.
  { cbn in H. injection H as <-. cbn. split; [|done]. split; [intros _; constructor|done]. }
  destruct (run_log_unsnoc _ _ _ _ _ H) as (L1 & L2 & E1 & E2 & ->). destruct (IH L1 E1) as [IH1 IH2].
  rewrite Forall_app, Forall_singleton.
  assert ((mt_m1Rate (if c.2 then mt_count L2 else L2) = mt_m1Rate L2) /\ mt_lastTick (if c.2 then mt_count L2 else L2) = mt_lastTick L2) as [-> ->] by (by destruct c.2).
  destruct (tick_cases I L1 c.1 L2 HI E2) as [[Ha ->]|(Ha & _ & El & _)].
  - split; [|done]. rewrite <- IH1. split; [|tauto]. intros E. split; [done|]. unfold tick_age in Ha. by rewrite IH2 in Ha by done.
  - rewrite El. split; [|intros E; by destruct (mt_m1Rate L1)]. split; [intros E; by destruct (mt_m1Rate L1)|].
    intros [F Hc]. apply IH1 in F. unfold tick_age in Ha. rewrite (IH2 F) in Ha. lia.
Qed.

(** ** A zero EWMA *)
Definition zrate (log : list Z) : f64 := ew_rate (fold_left ew_TickN log zeroEWMA).
Lemma zero_params log : ew_alpha (fold_left ew_TickN log zeroEWMA) = f0 /\ ew_interval (fold_left ew_TickN log zeroEWMA) = 0 /\
  (ew_initialized (fold_left ew_TickN log zeroEWMA) = match log with [] => false | _ => true end).
Proof.
  induction log as [|c log IH] using rev_ind; [done|]. rewrite fold_left_app. cbn [fold_left]. destruct IH as (E1 & E2 & E3).
  unfold ew_TickN at 1 3 5. rewrite E3. destruct log; cbn; done.
Qed.
Lemma instant_zero c : in64 c -> 0 <= c -> instantRate 0 c = if decide (0 < c) then B754_infinity false else B754_nan.
Proof.
  intros Hr Hc. unfold instantRate. destruct (decide (0 < c)) as [Hp|Hp].
  - pose proof (f_of_int_finite64 c Hr) as F.
    assert (1 <= RF (f_of_int c))%R as P.
    { rewrite <- (f_of_int_exact 1) by lia. apply f_of_int_mono; [done|done|lia]. }
    pose proof (pos_sign (f_of_int c) F ltac:(lra)) as S. change (f_of_int 0) with f0.
    destruct (f_of_int c) as [s|s| |s m e Hb]; try done; cbn in P; [lra|]. cbn in S. subst s. done.
  - replace c with 0 by lia. done.
Qed.
Lemma nan_or_zero_mul x : ffinite x = false -> fmul f0 x = B754_nan.
Proof. by destruct x as [s|[]| |s m e Hb]. Qed.
Lemma zrate_nil : zrate [] = f0.
Proof. done. Qed.
Lemma zrate_snoc log c : log <> [] -> zrate (log ++ [c]) = fadd (zrate log) (fmul f0 (fsub (instantRate 0 c) (zrate log))).
Proof.
  intros H. unfold zrate. rewrite fold_left_app. cbn [fold_left]. destruct (zero_params log) as (E1 & E2 & E3).
  unfold ew_TickN at 1. rewrite E1, E2, E3. by destruct log.
Qed.
(** The rate: +Inf after one tick with events, NaN after anything else. *)
Lemma zrate_cons log : Forall (fun c => in64 c /\ 0 <= c) log ->
  zrate log = match log with [] => f0 | [c] => if decide (0 < c) then B754_infinity false else B754_nan | _ => B754_nan end.
Proof.
  induction log as [|c log IH] using rev_ind; [done|]. intros F. apply Forall_app in F as [F Fc]. apply Forall_cons in Fc as [[Hc1 Hc2] _].
  destruct log as [|a log].
  { cbn [app]. unfold zrate. cbn [fold_left]. unfold ew_TickN. cbn [ew_initialized zeroEWMA ew_interval ew_rate]. by apply instant_zero. }
  rewrite zrate_snoc by done. rewrite (IH F).
  assert (match (a :: log) ++ [c] with [] => f0 | [c0] => if decide (0 < c0) then B754_infinity false else B754_nan | _ => B754_nan end = B754_nan) as ->.
  { cbn. by destruct log. }
  apply Forall_cons in F as [[Ha1 Ha2] F]. rewrite (instant_zero c) by done.
  destruct log as [|b log]; repeat destruct (decide _); reflexivity.
Qed.

(** ** How often *)
Lemma latest_snoc now ts t : latest now (ts ++ [t]) = Z.max (latest now ts) t.
Proof. unfold latest. by rewrite fold_left_app. Qed.
Lemma latest_ge now ts : now <= latest now ts.
Proof. unfold latest. revert now. induction ts as [|t ts IH]; intros now; cbn; [lia|]. specialize (IH (Z.max now t)). lia. Qed.

Lemma log_often I now cs L : 0 < I -> 0 <= now < two63 -> Forall (fun c => 0 <= c.1 < two63) cs ->
  mt_run log_TickN I (newMeter [] now) cs = Ok L ->
  let M := latest now (cs.*1) in let n := Z.of_nat (length (mt_m1Rate L)) in
  now <= mt_lastTick L <= M /\
  ((tickInterval | I) -> mt_lastTick L - now <= tickInterval * n /\ M - now <= tickInterval * (n + 1)) /\
  ((I | tickInterval) -> tickInterval * n <= mt_lastTick L - now /\ M - mt_lastTick L <= tickInterval).
Proof.
  intros HI Hnow. revert L. induction cs as [|c cs IH] using rev_ind; intros L F H; cbv zeta.
  { cbn in H. injection H as <-. unfold latest. cbn [fmap list_fmap fold_left newMeter mt_lastTick mt_m1Rate length]. unfold tickInterval, Second. lia. }
  apply Forall_app in F as [F Fc]. apply Forall_cons in Fc as [Hc _].
  destruct (run_log_unsnoc _ _ _ _ _ H) as (L1 & L2 & E1 & E2 & ->). destruct (IH L1 F E1) as (B & D1 & D2). clear IH. cbv zeta in *.
  rewrite fmap_app. cbn [fmap list_fmap]. rewrite latest_snoc. pose proof (latest_ge now cs.*1) as HM.
  assert (latest now cs.*1 < two63) as HM2.
  { clear -F Hnow. induction cs as [|x cs IH] using rev_ind; [cbn; lia|]. apply Forall_app in F as [F Fc]. apply Forall_cons in Fc as [Hc _].
    rewrite fmap_app. cbn [fmap list_fmap]. rewrite latest_snoc. specialize (IH F). lia. }
  assert ((mt_m1Rate (if c.2 then mt_count L2 else L2) = mt_m1Rate L2) /\ mt_lastTick (if c.2 then mt_count L2 else L2) = mt_lastTick L2) as [-> ->] by (by destruct c.2).
  set (M := latest now cs.*1) in *. set (n := Z.of_nat (length (mt_m1Rate L1))) in *.
  assert (tick_age L1 c.1 = c.1 - mt_lastTick L1) as Eage by (unfold tick_age; apply wrap64_id; unfold in64, two63 in *; lia).
  assert (0 < tickInterval) as HT by (unfold tickInterval, Second; lia).
  destruct (tick_cases I L1 c.1 L2 ltac:(lia) E2) as [[Ha ->]|(Ha & El & Elog & _)].
  { fold n. split; [lia|]. rewrite Eage in Ha. split; [intros Hd; specialize (D1 Hd); lia|intros Hd; specialize (D2 Hd); lia]. }
  rewrite Eage in *. set (age := c.1 - mt_lastTick L1) in *.
  assert (Z.rem age I = age - I * (age / I)) as Er by (rewrite Z.rem_mod_nonneg, Z.mod_eq by lia; lia).
  assert (Z.quot age tickInterval = age / tickInterval) as Eq by (apply Z.quot_div_nonneg; lia).
  pose proof (Z.mul_div_le age I ltac:(lia)) as I1. pose proof (Z.mul_succ_div_gt age I ltac:(lia)) as I2.
  pose proof (Z.mul_div_le age tickInterval ltac:(lia)) as T1. pose proof (Z.mul_succ_div_gt age tickInterval ltac:(lia)) as T2.
  pose proof (Z.div_pos age I ltac:(lia) ltac:(lia)) as I3.
  assert (1 <= age / tickInterval) as T3 by (apply Z.div_le_lower_bound; lia).
  rewrite El, Er. rewrite wrap64_id by (unfold in64, two63 in *; lia).
  rewrite Elog, app_length. cbn [length]. rewrite replicate_length, Eq.
  assert (Z.of_nat (length (mt_m1Rate L1) + S (Z.to_nat (age / tickInterval) - 1)) = n + age / tickInterval) as -> by lia.
  set (q := age / tickInterval) in *. set (p := age / I) in *. split; [lia|]. split.
  - intros [k Hk]. specialize (D1 ltac:(by exists k)) as [D1 D1'].
    assert (0 < k) by nia. assert (k * p <= q) as Hkp.
    { unfold q. apply Z.div_le_lower_bound; [done|]. rewrite Z.mul_assoc, (Z.mul_comm tickInterval k), <- Hk. done. }
    split; [|nia]. replace (c.1 - (age - I * p) - now) with ((mt_lastTick L1 - now) + I * p) by (unfold age; lia). nia.
  - intros [k Hk]. specialize (D2 ltac:(by exists k)) as [D2 D2'].
    assert (0 < k) by nia. assert (k * q <= p) as Hkq.
    { unfold p. apply Z.div_le_lower_bound; [done|]. rewrite Z.mul_assoc, (Z.mul_comm I k), <- Hk. done. }
    split; [|nia]. replace (c.1 - (age - I * p) - now) with ((mt_lastTick L1 - now) + I * p) by (unfold age; lia). nia.
Qed.
