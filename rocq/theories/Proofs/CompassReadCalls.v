(** A compass read while it is updated: the answers of reading calls. *)
From Verif.Go Require Import GoInt GoFloat GoConc GoCompose.
From Verif.Model Require Import Counter BucketQueue BucketCounter BucketCounterConc BucketReadConc BucketReservoir EWMA EWMAConc Compass CompassConc CompassFine CompassRead.
From Verif.Spec Require Import BucketSpec BucketConcSpec BucketReadSpec CompassConcSpec.
From Verif.Proofs Require Import BucketAbs BucketHist BucketMain BucketConcProofs BucketConcRing BucketConcMain BucketReadProofs BucketReadMain EWMAConcProofs ComposeProofs CompassConcProofs CompassFineProofs CompassFineParts CompassFineMain CompassLedger CompassReadProofs CompassReadInv CompassReadMain.
From Verif.Spec Require Import CompassFineSpec CompassReadSpec.
Local Open Scope Z_scope.

Section calls.
Context (math_Exp : f64 -> f64) (rk : reservoir_kind) (I N maxE maxA : Z).
Context (e0 : cenv) (progs : list (list dcall)) (objs0 : gmap ckey cobj).
Context (HS : counter_setting I N) (H0 : cf_objs0 rk I N e0 = Some objs0).
Notation ge := (gestep cf_estep cobj_estep).
Notation run := (cr_run math_Exp rk I N maxE maxA).
Notation tstep := (cr_tstep math_Exp rk I N maxE maxA (ce_ms e0)).
Notation Isec := (interval_seconds I).
Notation at_ := (at_ math_Exp rk I N maxE maxA e0 progs objs0).
Notation heap_at := (heap_at math_Exp rk I N maxE maxA e0 progs objs0).
Notation added := (added math_Exp rk I N maxE maxA e0 progs objs0).
Notation counts := (counts math_Exp rk I N maxE maxA e0 progs objs0).
Notation cl := (cl math_Exp rk I N maxE maxA e0 progs objs0).

Lemma crashed_stays s ev : cs_crashed (gs_client (shared (at_ s))) = true -> at_ (s ++ [ev]) = match ev with Run _ => at_ s | Env e => Config (ge (shared (at_ s)) e) (threads (at_ s)) end /\
  cs_crashed (gs_client (shared (at_ (s ++ [ev])))) = true.
Proof.
  intros Hc. rewrite at_snoc. destruct (at_ s) as [sh ts]. cbn [shared threads] in *. destruct ev as [i|e]; cbn [cstep shared threads].
  - assert (E : forall t, tstep sh t = None) by (intros t; unfold cr_tstep; by rewrite Hc). destruct (ts !! i) as [t|]; [rewrite E|]; done.
  - done.
Qed.

(** ** One call of a goroutine. *)
Section call.
Context (s1 : list (event cenv)) (i : nat) (call : rcall) (t1 : dthread) (todo : list dcall).
Context (Hi : threads (at_ s1) !! i = Some t1) (Hidle : idle_thread t1 = true) (Htodo : dt_todo t1 = DRead call :: todo).
Context (P : list (event cenv) -> dpc -> Prop) (Q : list (event cenv) -> answer -> Prop).
Context (HP0 : forall s, P s (DAt call)).
Context (HPm : forall s ev pc, P s pc -> P (s ++ [ev]) pc) (HQm : forall s ev a, Q s a -> Q (s ++ [ev]) a).
Context (Hstep : forall s pc, P s pc ->
  match read_step I (ce_ms e0) (shared (at_ (s1 ++ s))) pc with Some (inl pc') => P s pc' | Some (inr a) => Q s a | None => True end).

Definition call_stage (s : list (event cenv)) (t : dthread) : Prop :=
  t = t1 \/ (exists pc, t = DThread todo (dt_g t1) (Some (call, pc)) (dt_got t1) /\ P s pc) \/
  exists a more, dt_got t = dt_got t1 ++ (call, a) :: more /\ Q s a.

Lemma got_grows sh t s' t' : tstep sh t = Some (s', t') -> exists l, dt_got t' = dt_got t ++ l.
Proof.
  unfold cr_tstep. destruct (cs_crashed _); [done|]. destruct (dt_read t) as [[cl' pc]|].
  - destruct (read_step _ _ _ _) as [[pc'|a]|]; [..|done]; intros Hs; injection Hs as <- <-; cbn [dt_got]; [exists []; by rewrite app_nil_r|eauto].
  - destruct (at_rest _).
    + destruct (dt_todo t) as [|[c|c] td]; [done|..]; intros Hs; injection Hs as <- <-; cbn [dt_got]; exists []; by rewrite app_nil_r.
    + destruct (cf_gstep _ _ _ _ _ _ _ _) as [[s2 g']|]; [|done]. intros Hs. injection Hs as <- <-. exists []. by rewrite app_nil_r.
Qed.

Lemma stage_mono s ev t : call_stage s t -> call_stage (s ++ [ev]) t.
Proof using HPm HQm.
  intros [->|[(pc & -> & H)|(a & more & E & H)]]; [by left|right; left; eauto|right; right]. exists a, more. eauto.
Qed.

Lemma call_run s : exists t, threads (at_ (s1 ++ s)) !! i = Some t /\ call_stage s t.
Proof using Hi Hidle Htodo HP0 HPm HQm Hstep.
  induction s as [|ev s IH] using rev_ind; [rewrite app_nil_r; exists t1; split; [done|by left]|].
  destruct IH as (t & Ht & Hst). rewrite app_assoc, at_snoc. pose proof (Hstep s) as Hs1. destruct (at_ (s1 ++ s)) as [sh ts]. cbn [shared threads] in *.
  destruct ev as [j|e]; cbn [cstep shared threads]; [|exists t; split; [done|by apply stage_mono]].
  destruct (ts !! j) as [u|] eqn:Hj; [|exists t; split; [done|by apply stage_mono]].
  destruct (tstep sh u) as [[sh' u']|] eqn:Hs; [|exists t; split; [done|by apply stage_mono]]. cbn [threads].
  destruct (decide (j = i)) as [->|Hne]; [|exists t; rewrite list_lookup_insert_ne by done; split; [done|by apply stage_mono]].
  rewrite Ht in Hj. injection Hj as <-. exists u'. rewrite list_lookup_insert by (by apply lookup_lt_Some in Ht). split; [done|]. apply stage_mono.
  destruct Hst as [->|[(pc & -> & H)|(a & more & E & H)]].
  - right. left. unfold idle_thread in Hidle. unfold cr_tstep in Hs. destruct (cs_crashed _); [done|]. destruct (dt_read t1); [done|]. rewrite Hidle, Htodo in Hs.
    injection Hs as <- <-. exists (DAt call). split; [done|]. apply HP0.
  - specialize (Hs1 pc H). unfold cr_tstep in Hs. cbn [dt_read dt_todo dt_g dt_got] in Hs. destruct (cs_crashed _); [done|].
    destruct (read_step _ _ _ pc) as [[pc'|a]|]; [..|done]; injection Hs as <- <-.
    + right. left. by exists pc'.
    + right. right. exists a, []. done.
  - right. right. destruct (got_grows _ _ _ _ Hs) as [l El]. exists a, (more ++ l). rewrite El, E, <- app_assoc. done.
Qed.

(** How many steps of its own it takes. *)
Context (R : dpc -> nat) (HR : forall s pc, P s pc -> (0 < R pc)%nat).
Context (Hprog : forall s pc, P s pc -> match read_step I (ce_ms e0) (shared (at_ (s1 ++ s))) pc with Some (inl pc') => (R pc' < R pc)%nat | Some (inr a) => True | None => False end).
Notation own := (turns i).
Lemma call_steps s : cs_crashed (gs_client (shared (at_ (s1 ++ s)))) = false ->
  exists t, threads (at_ (s1 ++ s)) !! i = Some t /\
    ((t = t1 /\ own s = 0%nat) \/ (exists pc, t = DThread todo (dt_g t1) (Some (call, pc)) (dt_got t1) /\ P s pc /\ (own s + R pc <= 1 + R (DAt call))%nat) \/
    exists a more, dt_got t = dt_got t1 ++ (call, a) :: more).
Proof using Hi Hidle Htodo HP0 HPm Hstep Hprog.
  induction s as [|ev s IH] using rev_ind; intros Hnc; [rewrite app_nil_r; exists t1; split; [done|by left]|].
  assert (Hnc1 : cs_crashed (gs_client (shared (at_ (s1 ++ s)))) = false).
  { destruct (cs_crashed (gs_client (shared (at_ (s1 ++ s))))) eqn:E; [|done]. destruct (crashed_stays _ ev E) as [_ E2]. rewrite <- app_assoc in E2. congruence. }
  destruct (IH Hnc1) as (t & Ht & Hst). clear IH Hnc. rewrite app_assoc, at_snoc. pose proof (Hstep s) as Hs1. pose proof (Hprog s) as Hp1. destruct (at_ (s1 ++ s)) as [sh ts]. cbn [shared threads] in *.
  assert (Hr : ev = Run i -> own (s ++ [ev]) = (own s + 1)%nat).
  { intros ->. unfold turns. rewrite omap_app, app_length. cbn [omap list_omap]. by rewrite Nat.eqb_refl. }
  assert (Ho : ev <> Run i -> own (s ++ [ev]) = own s).
  { intros Hne. unfold turns. rewrite omap_app, app_length. destruct ev as [j|e]; cbn [omap list_omap length]; [|lia]. destruct (Nat.eqb_spec j i) as [->|]; [done|]. cbn [length]. lia. }
  assert (Hother : ev <> Run i -> exists t0, ts !! i = Some t0 /\ ((t0 = t1 /\ own (s ++ [ev]) = 0%nat) \/ (exists pc, t0 = DThread todo (dt_g t1) (Some (call, pc)) (dt_got t1) /\ P (s ++ [ev]) pc /\ (own (s ++ [ev]) + R pc <= 1 + R (DAt call))%nat) \/
     exists a more, dt_got t0 = dt_got t1 ++ (call, a) :: more)).
  { intros Hne. specialize (Ho Hne). exists t. split; [done|]. rewrite Ho. destruct Hst as [?|[(pc & ? & ? & ?)|?]]; [by left|right; left|by right; right]. exists pc. split; [done|]. split; [by apply HPm|done]. }
  destruct ev as [j|e]; cbn [cstep shared threads]; [|by apply Hother].
  destruct (decide (j = i)) as [->|Hne].
  2:{ destruct (ts !! j) as [u|]; [|apply Hother; congruence]. destruct (tstep sh u) as [[sh' u']|]; [|apply Hother; congruence]. cbn [threads]. rewrite list_lookup_insert_ne by done. apply Hother. congruence. }
  specialize (Hr eq_refl). rewrite Ht, Hr.
  destruct Hst as [[-> Hz]|[(pc & -> & H & Hle)|(a & more & E)]].
  - assert (Es : tstep sh t1 = Some (sh, DThread todo (dt_g t1) (Some (call, DAt call)) (dt_got t1))).
    { unfold idle_thread in Hidle. unfold cr_tstep. rewrite Hnc1. destruct (dt_read t1); [done|]. by rewrite Hidle, Htodo. }
    rewrite Es. cbn [threads]. eexists. rewrite list_lookup_insert by (by apply lookup_lt_Some in Ht). split; [done|]. right. left. exists (DAt call). split; [done|]. split; [apply HP0|lia].
  - specialize (Hs1 pc H). specialize (Hp1 pc H). unfold cr_tstep. cbn [dt_read dt_todo dt_g dt_got]. rewrite Hnc1.
    destruct (read_step _ _ _ pc) as [[pc'|a]|]; [..|done]; cbn [threads]; eexists; rewrite list_lookup_insert by (by apply lookup_lt_Some in Ht); (split; [done|]).
    + right. left. exists pc'. split; [done|]. split; [by apply HPm|lia].
    + right. right. by exists a, [].
  - destruct (tstep sh t) as [[sh' u']|] eqn:Hs; cbn [threads].
    + eexists. rewrite list_lookup_insert by (by apply lookup_lt_Some in Ht). split; [done|]. right. right. destruct (got_grows _ _ _ _ Hs) as [l El]. exists a, (more ++ l). rewrite El, E, <- app_assoc. done.
    + exists t. split; [done|]. right. right. eauto.
Qed.
Lemma call_returns s : cs_crashed (gs_client (shared (at_ (s1 ++ s)))) = false -> (1 + R (DAt call) <= own s)%nat ->
  exists t a more, threads (at_ (s1 ++ s)) !! i = Some t /\ dt_got t = dt_got t1 ++ (call, a) :: more.
Proof using Hi Hidle Htodo HP0 HPm HR Hstep Hprog.
  intros Hnc Hle. destruct (call_steps s Hnc) as (t & Ht & [[-> Hz]|[(pc & -> & H & Hle2)|(a & more & E)]]); [lia|pose proof (HR s pc H); lia|]. exists t, a, more. done.
Qed.
End call.

Lemma call_answer s1 s2 i call a (P : list (event cenv) -> dpc -> Prop) (Q : list (event cenv) -> answer -> Prop) :
  reads (at_ s1) (at_ (s1 ++ s2)) i call a -> (forall s, P s (DAt call)) -> (forall s ev pc, P s pc -> P (s ++ [ev]) pc) -> (forall s ev a, Q s a -> Q (s ++ [ev]) a) ->
  (forall s pc, P s pc -> match read_step I (ce_ms e0) (shared (at_ (s1 ++ s))) pc with Some (inl pc') => P s pc' | Some (inr a) => Q s a | None => True end) -> Q s2 a.
Proof.
  intros (t1 & t2 & todo & more & T1 & T2 & Hidle & Htodo & Hgot) HP0 HPm HQm Hstep.
  destruct (call_run s1 i call t1 todo T1 Hidle Htodo P Q HP0 HPm HQm Hstep s2) as (t & Ht & Hst). rewrite T2 in Ht. injection Ht as <-.
  destruct Hst as [->|[(pc & -> & _)|(a' & more' & E & H)]].
  - apply (f_equal length) in Hgot. rewrite app_length in Hgot. cbn in Hgot. lia.
  - cbn [dt_got] in Hgot. apply (f_equal length) in Hgot. rewrite app_length in Hgot. cbn in Hgot. lia.
  - rewrite E in Hgot. apply app_inv_head in Hgot. injection Hgot as <- _. done.
Qed.

(** ** GetCount *)
Lemma prefix_mono (s : list (event cenv)) ev (X : list (event cenv) -> Prop) : (exists s', s' `prefix_of` s /\ X s') -> exists s', s' `prefix_of` s ++ [ev] /\ X s'.
Proof. intros (s' & H & HX). exists s'. split; [by apply prefix_app_r|done]. Qed.

Lemma count_answer s1 s2 i k a : main_counter rk k -> reads (at_ s1) (at_ (s1 ++ s2)) i (RCount k) a ->
  exists s', s' `prefix_of` s2 /\ a = AInt (wrap64 (sumZ (counts k (s1 ++ s')))).
Proof using HS H0.
  intros Hk Hr. apply (call_answer s1 s2 i (RCount k) a (fun _ pc => pc = DAt (RCount k)) (fun s a => exists s', s' `prefix_of` s /\ a = AInt (wrap64 (sumZ (counts k (s1 ++ s'))))) Hr); [done..| |].
  - intros s ev b. apply prefix_mono.
  - intros s pc ->. cbn [read_step]. destruct (count_value math_Exp rk I N maxE maxA e0 progs objs0 HS H0 k (s1 ++ s) Hk) as (b & -> & E & _). cbn [mbind option_bind]. exists s. split; [done|]. by rewrite E.
Qed.

(** ** GetMeanRate *)
Lemma mean_answer s1 s2 i a : reads (at_ s1) (at_ (s1 ++ s2)) i RMean a ->
  exists s' s'', s' `prefix_of` s'' /\ s'' `prefix_of` s2 /\ a = AFloat (mean_rate (ce_ms e0) (wrap64 (sumZ (counts KTotal (s1 ++ s')))) (wrap64 (ce_tick (showing e0 (s1 ++ s''))))).
Proof using HS H0.
  intros Hr. apply (call_answer s1 s2 i RMean a (fun s pc => pc = DAt RMean \/ exists s', s' `prefix_of` s /\ pc = DMean (wrap64 (sumZ (counts KTotal (s1 ++ s')))))
    (fun s a => exists s' s'', s' `prefix_of` s'' /\ s'' `prefix_of` s /\ a = AFloat (mean_rate (ce_ms e0) (wrap64 (sumZ (counts KTotal (s1 ++ s')))) (wrap64 (ce_tick (showing e0 (s1 ++ s'')))))) Hr).
  - by left.
  - intros s ev pc [->|H]; [by left|right]. by apply prefix_mono.
  - intros s ev b (s' & s'' & E1 & E2 & E). exists s', s''. split; [done|]. split; [by apply prefix_app_r|done].
  - intros s pc [->|(s' & Hs' & ->)]; cbn [read_step].
    + destruct (count_value math_Exp rk I N maxE maxA e0 progs objs0 HS H0 KTotal (s1 ++ s) Logic.I) as (b & -> & E & _). cbn [mbind option_bind]. right. exists s. split; [done|]. by rewrite E.
    + exists s', s. split; [done|]. split; [done|]. by rewrite (proj2 (env_run _ _ _ _ _ _ _ _ _ _ (run_at math_Exp rk I N maxE maxA e0 progs objs0 H0 (s1 ++ s)))).
Qed.

(** ** GetBucketCountsSince *)
Lemma clock_now s1 s : wrap64 (ce_ms (showing e0 (s1 ++ s))) ∈ times (ce_ms (gs_env (shared (at_ s1)))) s.
Proof using H0.
  rewrite (proj1 (env_run _ _ _ _ _ _ _ _ _ _ (run_at math_Exp rk I N maxE maxA e0 progs objs0 H0 s1))). unfold times, showing, shown, ms_of.
  induction s as [|ev s IH] using rev_ind; [rewrite app_nil_r; by left|]. rewrite !app_assoc, !omap_app in *. destruct ev as [j|e]; cbn [omap list_omap].
  - rewrite !app_nil_r. exact IH.
  - rewrite last_snoc. cbn [default]. rewrite fmap_app. apply elem_of_list_further, elem_of_app. right. by left.
Qed.
Lemma times_app now s s' : times now s ⊆ times now (s ++ s').
Proof. unfold times, ms_of. rewrite omap_app, fmap_app. intros x. rewrite !elem_of_cons, elem_of_app. tauto. Qed.

Section since.
Context (s1 : list (event cenv)) (k : ckey) (st : Z) (Hk : main_counter rk k).
Notation now1 := (ce_ms (gs_env (shared (at_ s1)))).
Definition rfine (s : list (event cenv)) (cts : Z) (m : gmap Z Z) : Prop :=
  (exists now, now ∈ times now1 s /\ cts = Isec * Z.quot now (1000 * Isec)) /\
  forall x v, m !! x = Some v -> st <= x <= 1000 * cts /\
    exists s' p b, s' `prefix_of` s /\ heap_at k (s1 ++ s') !! p = Some b /\ key b = x /\ bk_count b = v.
Lemma rfine_mono s ev cts m : rfine s cts m -> rfine (s ++ [ev]) cts m.
Proof.
  intros [(now & Hn & ->) H]. split; [exists now; split; [by apply times_app|done]|].
  intros x v Hx. destruct (H x v Hx) as (? & s' & p & b & ? & ? & ? & ?). split; [done|]. exists s', p, b. split; [by apply prefix_app_r|done].
Qed.
Definition rpc_fine (s : list (event cenv)) (pc : rdpc) : Prop :=
  match pc with
  | RIdle => False
  | RClock start => start = st
  | RCur start cts | RCur2 start cts _ | RTop start cts _ _ | RLoop1 start cts _ _ _ _ | RLoop2 start cts _ _ _ _ => start = st /\ rfine s cts ∅
  | RFill start cts _ m => start = st /\ rfine s cts m
  end.
Definition since_fine (s : list (event cenv)) (t : rdthread) : Prop :=
  exists pc, t = RdThread [] pc [] /\ rd_ok (Z.to_nat N) (heap_at k (s1 ++ s)) pc /\ rpc_fine s pc.
Lemma since_start s : since_fine s (since st).
Proof. exists (RClock st). done. Qed.
Lemma since_mono s ev t : since_fine s t -> since_fine (s ++ [ev]) t.
Proof using HS H0 Hk.
  intros (pc & -> & Hok & H). exists pc. split; [done|]. split.
  - eapply rd_ok_mono; [|exact Hok]. rewrite app_assoc. by apply heap_longer.
  - destruct pc; cbn in *; try done; destruct H; (split; [done|by apply rfine_mono]).
Qed.
Lemma since_step s t : since_fine s t -> exists b t', counter_of (shared (at_ (s1 ++ s))) k = Some b /\ rd_step b t = Some t' /\ (rd_rank (Z.to_nat N) t' < rd_rank (Z.to_nat N) t)%nat /\
  (since_fine s t' \/ exists m cts, t' = RdThread [] RIdle [m] /\ (size m <= Z.to_nat N)%nat /\ rfine s cts m).
Proof using HS H0 Hk.
  intros (pc & -> & Hok & H). destruct (counter_state math_Exp rk I N maxE maxA e0 progs objs0 HS H0 k (s1 ++ s) Hk) as (b & t0 & Eb & Eh & Ec & M & _).
  pose proof HS as (HS1 & HS2 & _). pose proof (interval_seconds_pos _ HS1 HS2) as HI.
  assert (Hok' : rd_ok (Z.to_nat N) (bc_heap (bs_bc b)) (rd_pc (RdThread [] pc []))) by (rewrite <- Eh; exact Hok).
  destruct (rd_progress _ _ _ _ _ HI _ _ _ (RdThread [] pc []) M Hok') as [t' Hs]; [intros [_ E]; cbn in E; by rewrite E in H|].
  pose proof (rd_step_ok _ _ _ _ _ _ _ _ _ _ M Hok' Hs) as Hok2. rewrite <- Eh in Hok2. pose proof (rd_step_rank _ _ _ _ _ _ _ _ _ _ M Hok' Hs) as Hrank.
  exists b, t'. split; [done|]. split; [done|]. split; [done|]. destruct M as [B _]. cbn [view shared threads] in B.
  pose proof (b_interval _ _ _ _ _ _ _ _ B) as Hint. pose proof (b_clock _ _ _ _ _ _ _ _ B) as Hclk.
  assert (Hgo : forall pc', t' = RdThread [] pc' [] -> rpc_fine s pc' -> since_fine s t' \/ exists m cts, t' = RdThread [] RIdle [m] /\ (size m <= Z.to_nat N)%nat /\ rfine s cts m).
  { intros pc' -> F. left. exists pc'. split; [done|]. split; [exact Hok2|exact F]. }
  unfold rd_step in Hs. cbn [rd_pc rd_todo rd_got] in *. cbv zeta in Hs.
  destruct pc as [|start|start cts|start cts pos|start cts pos j|start cts pos sts [|j] acc|start cts pos sts j acc|start cts [|p l] result]; cbn [rpc_fine] in H.
  - done.
  - rewrite Hint, alignTimestamp_spec in Hs by done. injection Hs as <-. eapply Hgo; [done|]. split; [done|]. split; [|by intros x v Hx]. eexists. split; [|done]. rewrite Ec. apply clock_now.
  - injection Hs as <-. by eapply Hgo.
  - injection Hs as <-. by eapply Hgo.
  - destruct (_ !! j) as [p|]; [|done]. cbn in Hs. destruct (_ !! p) as [b'|]; [|done]. cbn in Hs. injection Hs as <-. by eapply Hgo.
  - injection Hs as <-. by eapply Hgo.
  - destruct (_ <? _)%nat.
    + destruct (_ !! j) as [p|]; [|done]. cbn in Hs. injection Hs as <-. by eapply Hgo.
    + injection Hs as <-. by eapply Hgo.
  - destruct (_ <? _)%nat.
    + destruct (_ !! j) as [p|]; [|done]. cbn in Hs. destruct (_ !! p) as [b'|]; [|done]. cbn in Hs. injection Hs as <-. by eapply Hgo.
    + injection Hs as <-. by eapply Hgo.
  - injection Hs as <-. right. destruct H as [_ H]. exists result, cts. split; [done|]. split; [|done]. cbn in Hok'. lia.
  - destruct (_ !! p) as [b'|] eqn:Hb; [|done]. cbn [mbind option_bind] in Hs. injection Hs as <-. eapply Hgo; [done|].
    destruct H as [-> [Hc Hf]]. split; [done|]. split; [done|]. intros x v.
    assert (Hms : wrap64 (secondToMsRate * bk_ts b') = key b').
    { unfold secondToMsRate. rewrite wrap64_id; [done|]. exact (b_in64 _ _ _ _ _ _ _ _ B _ _ Hb). }
    rewrite Hms. destruct (Z.leb_spec st (key b')); cbn [andb]; [|apply Hf]. destruct (Z.leb_spec (bk_ts b') cts); [|apply Hf].
    rewrite lookup_insert_Some. intros [[<- <-]|[_ Hx]]; [|by apply Hf].
    split; [unfold key in *; lia|]. exists s, p, b'. rewrite Eh. done.
Qed.

Lemma rfine_content s cts m : -1000 < st -> rfine s cts m ->
  exists now, now ∈ times now1 s /\ forall x v, m !! x = Some v -> st <= x <= trunc_key Isec now /\
    (exists now', now' ∈ times (ce_ms e0) (s1 ++ s) /\ x = trunc_key Isec now') /\ exists s', s' `prefix_of` s /\ v = wrap64 (sum_at x (added k (s1 ++ s'))).
Proof using HS H0 Hk.
  intros Hst [(now & Hn & ->) H]. exists now. split; [done|]. intros x v Hx. destruct (H x v Hx) as (Hle & s' & p & b & [z ->] & Hb & <- & <-). rewrite key_trunc in Hle. split; [done|].
  destruct (bucket_content math_Exp rk I N maxE maxA e0 progs objs0 HS H0 k (s1 ++ s') p b Hk Hb ltac:(lia)) as (E & now' & Hn' & E').
  split; [exists now'; split; [rewrite app_assoc; by apply times_app|done]|]. exists s'. split; [by eexists|done].
Qed.
End since.

Lemma since_answer s1 s2 i k st a : main_counter rk k -> -1000 < st -> reads (at_ s1) (at_ (s1 ++ s2)) i (RSince k st) a ->
  exists m, a = ACounts m /\ (size m <= Z.to_nat N)%nat /\
  exists now, now ∈ times (ce_ms (gs_env (shared (at_ s1)))) s2 /\ forall x v, m !! x = Some v -> st <= x <= trunc_key Isec now /\
    (exists now', now' ∈ times (ce_ms e0) (s1 ++ s2) /\ x = trunc_key Isec now') /\ exists s', s' `prefix_of` s2 /\ v = wrap64 (sum_at x (added k (s1 ++ s'))).
Proof using HS H0.
  intros Hk Hst Hr.
  assert (H : exists m cts, a = ACounts m /\ (size m <= Z.to_nat N)%nat /\ rfine s1 k st s2 cts m).
  { apply (call_answer s1 s2 i (RSince k st) a (fun s pc => pc = DAt (RSince k st) \/ exists t, pc = DSince k t /\ since_fine s1 k st s t)
      (fun s a => exists m cts, a = ACounts m /\ (size m <= Z.to_nat N)%nat /\ rfine s1 k st s cts m) Hr).
    - by left.
    - intros s ev pc [->|(t & -> & H)]; [by left|right]. exists t. split; [done|]. by apply since_mono.
    - intros s ev b (m & cts & E1 & E2 & E3). exists m, cts. split; [done|]. split; [done|]. by apply rfine_mono.
    - intros s pc [->|(t & -> & H)]; cbn [read_step].
      + right. eexists. split; [done|]. apply since_start.
      + destruct (since_step s1 k st Hk s t H) as (b & t' & -> & Hs & _ & [F|(m & cts & -> & Hsz & F)]); cbn [mbind option_bind]; rewrite Hs.
        * pose proof F as (pc & -> & _ & Hpc). destruct pc; [done|..]; right; eexists; (split; [done|exact F]).
        * exists m, cts. done. }
  destruct H as (m & cts & -> & Hsz & F). exists m. split; [done|]. split; [done|]. by apply rfine_content in F.
Qed.

(** ** GetSnapshot of the bucket reservoir *)
Lemma pick_cases (m : gmap Z Z) j : (m = ∅ /\ pick m j = 0) \/ exists x, m !! x = Some (pick m j).
Proof.
  unfold pick. destruct (map_to_list m) as [|p l] eqn:E; [left; split; [by apply map_to_list_empty_iff|done]|right].
  destruct (lookup_lt_is_Some_2 (p :: l) (j mod length (p :: l))%nat) as [[x v] Hx]; [apply Nat.mod_upper_bound; cbn; lia|].
  rewrite Hx. exists x. apply elem_of_map_to_list. rewrite E. by apply elem_of_list_lookup_2 in Hx.
Qed.

Lemma align_start b now : 1000 <= now -> in64 now -> exists st, br_alignToBucketStartTimeInMs (BucketReservoir b I) now = Ok st /\ 0 <= st /\ trunc_key Isec now - 1000 * Isec <= st <= trunc_key Isec now.
Proof using HS.
  intros Hn H64. pose proof HS as (HS1 & HS2 & _). pose proof (interval_seconds_pos _ HS1 HS2) as HI.
  assert (HI2 : Isec < 2 ^ 40). { assert (ES : Second = 1000000000) by reflexivity. unfold interval_seconds. rewrite ES in *. unfold in64, two63 in HS2.
    rewrite Z.quot_div_nonneg by lia. apply Z.div_lt_upper_bound; lia. }
  unfold br_alignToBucketStartTimeInMs, go_div, secondToMsRate. cbn [br_interval Z.eqb]. cbn [mbind res_bind].
  rewrite (Z.quot_div_nonneg now 1000) by lia. assert (Hcur : 1 <= now / 1000 <= now) by (split; [apply Z.div_le_lower_bound; lia|apply Z.div_le_upper_bound; lia]). 
  assert (Hc2 : now / 1000 < 2 ^ 62). { unfold in64, two63 in H64. apply Z.div_lt_upper_bound; lia. }
  rewrite (wrap64_id (now / 1000)) by (unfold in64, two63 in *; lia).
  rewrite (wrap64_id (now / 1000 - Isec)) by (unfold in64, two63 in *; lia).
  assert (E0 : (Isec =? 0) = false) by lia. rewrite E0. cbn [mbind res_bind].
  assert (Htk : trunc_key Isec now = 1000 * (Isec * (now / (1000 * Isec)))) by (rewrite <- key_trunc; rewrite (Z.quot_div_nonneg now) by lia; done).
  rewrite Htk, <- Z.div_div by lia. set (cur := now / 1000) in *.
  assert (Hq : 0 <= Z.quot (cur - Isec) Isec /\ cur / Isec - 1 <= Z.quot (cur - Isec) Isec <= cur / Isec).
  { destruct (Z_le_gt_dec Isec cur).
    - rewrite Z.quot_div_nonneg by lia. replace (cur - Isec) with (cur + (-1) * Isec) by lia. rewrite Z.div_add by lia. assert (1 <= cur / Isec) by (apply Z.div_le_lower_bound; lia). lia.
    - replace (cur - Isec) with (- (Isec - cur)) by lia. rewrite Z.quot_opp_l by lia. rewrite Z.quot_small by lia. rewrite Z.div_small by lia. lia. }
  destruct Hq as [Hq1 Hq2]. set (q := Z.quot (cur - Isec) Isec) in *.
  assert (Hqc : cur / Isec * Isec <= cur) by (rewrite Z.mul_comm; apply Z.mul_div_le; lia).
  assert (Hqi : 0 <= q * Isec <= cur) by nia. assert (Hc1 : 1000 * cur <= now) by (unfold cur; apply Z.mul_div_le; lia).
  unfold in64, two63 in H64. rewrite (wrap64_id q) by (unfold in64, two63; nia). rewrite (wrap64_id (q * Isec)) by (unfold in64, two63; lia). rewrite (wrap64_id (q * Isec * 1000)) by (unfold in64, two63; lia).
  eexists. split; [done|]. nia.
Qed.

Definition part_of (s1 s2 : list (event cenv)) (k : ckey) (from : Z) (v : Z) : Prop :=
  v = 0 \/ exists now x s', now ∈ times (ce_ms (gs_env (shared (at_ s1)))) s2 /\ trunc_key Isec from - 1000 * Isec <= x <= trunc_key Isec now /\
    (exists now', now' ∈ times (ce_ms e0) (s1 ++ s2) /\ x = trunc_key Isec now') /\ s' `prefix_of` s2 /\ v = wrap64 (sum_at x (added k (s1 ++ s'))).
Lemma part_mono s1 s ev k from v : part_of s1 s k from v -> part_of s1 (s ++ [ev]) k from v.
Proof.
  intros [->|(now & x & s' & H1 & H2 & (now' & H3 & H4) & H5 & H6)]; [by left|right]. exists now, x, s'. split; [by apply times_app|]. split; [done|].
  split; [exists now'; split; [rewrite app_assoc; by apply times_app|done]|]. split; [by apply prefix_app_r|done].
Qed.
Lemma part_pick s1 s k st cts m from j : main_counter rk k -> 0 <= st -> trunc_key Isec from - 1000 * Isec <= st -> rfine s1 k st s cts m -> part_of s1 s k from (pick m j).
Proof using HS H0.
  intros Hk Hst Hfrom F. destruct (pick_cases m j) as [[_ ->]|[x Hx]]; [by left|right].
  destruct (rfine_content s1 k st Hk s cts m ltac:(lia) F) as (now & Hn & H). destruct (H x _ Hx) as (Hle & Hsh & s' & Hs' & E). exists now, x, s'. split; [done|]. split; [lia|done].
Qed.

Lemma snapshot_answer s1 s2 i p q a : rk = RBucket -> (forall now, now ∈ times (ce_ms (gs_env (shared (at_ s1)))) s2 -> 1000 <= now) ->
  reads (at_ s1) (at_ (s1 ++ s2)) i (RSnapshot p q) a ->
  exists snap from, a = ASnapshot snap /\ from ∈ times (ce_ms (gs_env (shared (at_ s1)))) s2 /\ part_of s1 s2 KValues from (bs_value snap) /\ part_of s1 s2 KTotal from (bs_count snap).
Proof using HS H0.
  intros Hrk Hpos Hr. assert (HkV : main_counter rk KValues) by (by rewrite Hrk). assert (HkT : main_counter rk KTotal) by done.
  set (ok := fun s : list (event cenv) => (forall now, now ∈ times (ce_ms (gs_env (shared (at_ s1)))) s -> 1000 <= now)).
  assert (Hokm : forall s ev, ok (s ++ [ev]) -> ok s) by (intros s ev H now Hn; apply H; by apply times_app).
  set (base := fun s start from => from ∈ times (ce_ms (gs_env (shared (at_ s1)))) s /\ 0 <= start /\ trunc_key Isec from - 1000 * Isec <= start).
  assert (Hbm : forall s ev start from, base s start from -> base (s ++ [ev]) start from) by (intros s ev start from (X1 & X2 & X3); split; [by apply times_app|done]).
  apply (call_answer s1 s2 i (RSnapshot p q) a
    (fun s pc => ok s -> pc = DAt (RSnapshot p q) \/ (exists start from t, base s start from /\ pc = DValue start p q t /\ since_fine s1 KValues start s t) \/
       (exists start from value t, base s start from /\ part_of s1 s KValues from value /\ pc = DTotal start value q t /\ since_fine s1 KTotal start s t))
    (fun s a => ok s -> exists snap from, a = ASnapshot snap /\ from ∈ times (ce_ms (gs_env (shared (at_ s1)))) s /\ part_of s1 s KValues from (bs_value snap) /\ part_of s1 s KTotal from (bs_count snap)) Hr); [..|exact Hpos].
  - intros s _. by left.
  - intros s ev pc H Ho. specialize (H (Hokm _ _ Ho)). destruct H as [->|[(start & from & t & H1 & -> & H3)|(start & from & value & t & H1 & H2 & -> & H3)]]; [by left|right; left|right; right].
    + exists start, from, t. split; [by apply Hbm|]. split; [done|]. by apply since_mono.
    + exists start, from, value, t. split; [by apply Hbm|]. split; [by apply part_mono|]. split; [done|]. by apply since_mono.
  - intros s ev b H Ho. destruct (H (Hokm _ _ Ho)) as (snap & from & -> & H1 & H2 & H3). exists snap, from. split; [done|]. split; [by apply times_app|]. split; by apply part_mono.
  - intros s pc H.
    destruct (counter_state math_Exp rk I N maxE maxA e0 progs objs0 HS H0 KValues (s1 ++ s) HkV) as (bV & tV & EV & _).
    destruct (read_step I (ce_ms e0) (shared (at_ (s1 ++ s))) pc) as [[pc'|b]|] eqn:Es; [..|done]; intros Ho; specialize (H Ho); destruct H as [->|[(start & from & t & H1 & -> & H3)|(start & from & value & t & H1 & H2 & -> & H3)]]; cbn [read_step] in Es.
    + rewrite EV in Es. cbn [mbind option_bind] in Es. rewrite (proj1 (env_run _ _ _ _ _ _ _ _ _ _ (run_at math_Exp rk I N maxE maxA e0 progs objs0 H0 (s1 ++ s)))) in Es.
      pose proof (clock_now s1 s) as Hclk. set (now := wrap64 (ce_ms (showing e0 (s1 ++ s)))) in *.
      destruct (align_start (bs_bc bV) now (Ho now Hclk)) as (st & E & Hst & Hb & _); [apply wrap64_range|]. rewrite E in Es. injection Es as <-. right. left. exists st, now, (since st).
      split; [split; [done|split; done]|]. split; [done|]. apply since_start.
    + destruct (since_step s1 KValues start HkV s t H3) as (b & t' & Eb & Hs & _ & [F|(m & cts & -> & Hsz & F)]); rewrite Eb in Es; cbn [mbind option_bind] in Es; rewrite Hs in Es.
      * right. left. exists start, from, t'. split; [done|]. split; [|exact F]. pose proof F as (pc & -> & _ & Hpc). destruct pc; [done|..]; by injection Es as <-.
      * injection Es as <-. right. right. exists start, from, (pick m p), (since start). split; [done|]. split; [|split; [done|apply since_start]].
        destruct H1 as (_ & B2 & B3). by eapply part_pick.
    + destruct (since_step s1 KTotal start HkT s t H3) as (b & t' & Eb & Hs & _ & [F|(m & cts & -> & Hsz & F)]); rewrite Eb in Es; cbn [mbind option_bind] in Es; rewrite Hs in Es.
      * right. right. exists start, from, value, t'. split; [done|]. split; [done|]. split; [|exact F]. pose proof F as (pc & -> & _ & Hpc). destruct pc; [done|..]; by injection Es as <-.
      * done.
    + rewrite EV in Es. cbn [mbind option_bind] in Es. destruct (br_alignToBucketStartTimeInMs _ _); done.
    + destruct (since_step s1 KValues start HkV s t H3) as (b' & t' & Eb & Hs & _ & [F|(m & cts & -> & Hsz & F)]); rewrite Eb in Es; cbn [mbind option_bind] in Es; rewrite Hs in Es; [|done].
      pose proof F as (pc & -> & _ & Hpc). destruct pc; done.
    + destruct (since_step s1 KTotal start HkT s t H3) as (b' & t' & Eb & Hs & _ & [F|(m & cts & -> & Hsz & F)]); rewrite Eb in Es; cbn [mbind option_bind] in Es; rewrite Hs in Es.
      * pose proof F as (pc & -> & _ & Hpc). destruct pc; done.
      * injection Es as <-. eexists _, from. split; [done|]. destruct H1 as (B1 & B2 & B3). split; [done|]. split; [done|]. cbn [NewBucketSnapshot bs_count]. by eapply part_pick.
Qed.
End calls.
