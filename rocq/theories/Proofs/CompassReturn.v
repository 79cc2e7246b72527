(** Every call of a compass returns. *)
From Verif.Go Require Import GoInt GoFloat GoConc GoCompose.
From Verif.Model Require Import Counter BucketQueue BucketCounter BucketCounterConc BucketReadConc EWMA EWMAConc WeightedSnapshot DecayingReservoir DecayingConc UniformReservoir ReservoirConc BucketReservoir Compass CompassConc CompassFine CompassRead.
From Verif.Spec Require Import BucketSpec ProgressSpec CompassConcSpec.
From Verif.Proofs Require Import BucketHist ProgressLemmas ComposeProofs CompassConcProofs CompassFineProofs CompassReadProofs CompassReadProgress CompassBound.
From Verif.Spec Require Import CompassFineSpec CompassReadSpec.
Local Open Scope Z_scope.

(** * The clock enables and disables nothing. *)
Lemma align_some I t t' : match alignTimestamp I t, alignTimestamp I t' with Ok _, Ok _ | Panic, Panic => True | _, _ => False end.
Proof. unfold alignTimestamp, go_div. change (secondToMsRate =? 0) with false. cbn [mbind res_bind]. by destruct (interval_seconds I =? 0). Qed.
Lemma bc_env s t now : bc_tstep s t <> None -> bc_tstep (bc_estep s now) t <> None.
Proof.
  unfold bc_tstep. cbn [bc_estep bs_bc bs_clock]. intros H.
  assert (Hal := align_some (bc_interval (bs_bc s)) (bs_clock s) (wrap64 now)).
  destruct (bt_pc t); repeat case_match; done.
Qed.
Lemma dx_env math_Exp s t e : dx_tstep math_Exp s t <> None -> dx_tstep math_Exp (dx_estep s e) t <> None.
Proof.
  unfold dx_tstep. cbn [dx_estep ds_rsv ds_writer ds_readers ds_ms ds_tick]. destruct (dx_pc t); try done.
  - by destruct (dx_todo t).
  - by destruct (_ =? _).
  - by destruct (_ || _).
  - by destruct (_ || _).
  - by destruct (ed_insert _ _ _ _).
  - by destruct (ds_writer _).
Qed.
Lemma obj_env math_Exp o l e : cobj_step math_Exp o l <> None -> cobj_step math_Exp (cobj_estep o e) l <> None.
Proof.
  destruct o as [s|s|s|s]; cbn [cobj_step cobj_estep]; [| intros H; exact H| |intros H; exact H].
  - intros H. pose proof (bc_env s (ci_bc l) (ce_ms e)) as Hx. destruct (bc_tstep s (ci_bc l)) as [[]|]; [|done]. specialize (Hx ltac:(done)). by destruct (bc_tstep _ _) as [[]|].
  - intros H. pose proof (dx_env math_Exp s (ci_dx l) (ce_ms e, ce_tick e)) as Hx. destruct (dx_tstep _ s (ci_dx l)) as [[]|]; [|done]. specialize (Hx ltac:(done)). by destruct (dx_tstep _ _ _) as [[]|].
Qed.
Lemma cp_env I maxE maxA s t now : cp_tstep I maxE maxA s t <> None -> cp_tstep I maxE maxA (cp_estep s now) t <> None.
Proof.
  assert (Htb : forall w, tb_of w (cp_estep s now) = tb_of w s) by (by intros []).
  unfold cp_tstep. change (cs_crashed (cp_estep s now)) with (cs_crashed s). change (cs_meter (cp_estep s now)) with (cs_meter s). destruct (cs_crashed s); [done|].
  destruct (kt_pc t) as [|k|old k|old new k|m k|m count k|m count k|m count k|m count k|d r|d r|d r|r|w r|w r|w r|w r|w r|w p r|w p r|w m]; cbv zeta; rewrite ?Htb; intros H; repeat case_match; done.
Qed.
Lemma new_counter_some I N ms ms' : match new_counter I N ms, new_counter I N ms' with Some _, Some _ | None, None => True | _, _ => False end.
Proof. unfold new_counter, newBucketCounterImpl. destruct (newBucketDequeue N) as [hd|]; [|done]. cbn [mbind res_bind]. by destruct (dq_peek _). Qed.
Lemma eff_env rk I N s t e e' : match cf_effect rk I N s t e, cf_effect rk I N (cf_estep s e') t e' with
  | Some Silent, Some Silent | Some (Create _ _), Some (Create _ _) | Some (Invoke _ _), Some (Invoke _ _) | None, None => True | _, _ => False end.
Proof.
  unfold cf_effect. destruct (kt_pc t) as [|k|old k|old new k|m k|m count k|m count k|m count k|m count k|d r|d r|d r|r|w r|w r|w r|w r|w r|w p r|w p r|w m]; try done; [by destruct (rs_success r)| |by destruct p].
  pose proof (new_counter_some I N (ce_ms e) (ce_ms e')). by destruct (new_counter I N (ce_ms e)), (new_counter I N (ce_ms e')).
Qed.
Section run.
Context (math_Exp : f64 -> f64) (rk : reservoir_kind) (I N maxE maxA : Z).
Notation es := (gestep cf_estep cobj_estep).
Lemma gs_env_keeps s g e : cf_gstep math_Exp rk I N maxE maxA s g <> None -> cf_gstep math_Exp rk I N maxE maxA (es s e) g <> None.
Proof.
  unfold cf_gstep, gstep. cbn [gestep gs_client gs_objs gs_env]. change (cs_crashed (cf_estep (gs_client s) e)) with (cs_crashed (gs_client s)). destruct (cs_crashed _); [done|].
  destruct (gt_in g) as [k|].
  - destruct (cin_returned _); [done|]. rewrite lookup_fmap. destruct (gs_objs s !! k) as [o|]; [|done]. cbn [fmap option_fmap option_map]. pose proof (obj_env math_Exp o (inside_of cin_idle k g) e) as Hx.
    destruct (cobj_step math_Exp o _) as [[]|]; [|done]. intros _. specialize (Hx ltac:(done)). by destruct (cobj_step math_Exp (cobj_estep o e) _) as [[]|].
  - pose proof (cp_env I maxE maxA (gs_client s) (gt_client g) (ce_tick e)) as Hx. fold (cf_estep (gs_client s) e) in Hx. pose proof (eff_env rk I N (gs_client s) (gt_client g) (gs_env s) e) as Hy.
    destruct (cp_tstep I maxE maxA (gs_client s) (gt_client g)) as [[]|]; [|done]. specialize (Hx ltac:(done)). destruct (cp_tstep I maxE maxA (cf_estep _ _) _) as [[]|]; [|done].
    by destruct (cf_effect rk I N (gs_client s) _ _) as [[| |]|], (cf_effect rk I N (cf_estep _ _) _ _) as [[| |]|].
Qed.
Lemma counter_env (s : gshared cp_shared cenv ckey cobj) e k : counter_of (es s e) k = (fun b => bc_estep b (ce_ms e)) <$> counter_of s k.
Proof. unfold counter_of. cbn [gestep gs_objs]. rewrite lookup_fmap. by destruct (gs_objs s !! k) as [[]|]. Qed.
Lemma rd_env s t now : rd_step s t <> None -> rd_step (bc_estep s now) t <> None.
Proof.
  unfold rd_step. cbn [bc_estep bs_bc bs_clock]. destruct (rd_pc t); try (intros H; exact H).
  pose proof (align_some (bc_interval (bs_bc s)) (bs_clock s) (wrap64 now)). by destruct (alignTimestamp _ (bs_clock s)), (alignTimestamp _ (wrap64 now)).
Qed.
Lemma read_env startTime s pc e : read_step I startTime s pc <> None -> read_step I startTime (es s e) pc <> None.
Proof.
  destruct pc as [[k|k start|k| |k|i j]|k t|count|start i j t|start v j t]; cbn [read_step]; rewrite ?counter_env.
  - by destruct (counter_of s k).
  - done.
  - destruct (counter_of s k) as [b|]; [|done]. cbn [fmap option_fmap option_map mbind option_bind bc_estep bs_bc]. done.
  - by destruct (counter_of s KTotal).
  - unfold average_of. cbn [gestep gs_objs]. rewrite lookup_fmap. by destruct (gs_objs s !! k) as [[]|].
  - destruct (counter_of s KValues) as [b|]; [|done]. cbn [fmap option_fmap option_map mbind option_bind bc_estep bs_bc gestep gs_env].
    unfold br_alignToBucketStartTimeInMs, go_div. change (secondToMsRate =? 0) with false. cbn [mbind res_bind br_interval]. by destruct (_ =? 0).
  - destruct (counter_of s k) as [b|]; [|done]. cbn [fmap option_fmap option_map mbind option_bind]. pose proof (rd_env b t (ce_ms e)) as Hx. destruct (rd_step b t) as [t1|]; [|done].
    specialize (Hx ltac:(done)). destruct (rd_step (bc_estep b (ce_ms e)) t) as [[[] [] [|? []]]|]; done.
  - done.
  - destruct (counter_of s KValues) as [b|]; [|done]. cbn [fmap option_fmap option_map mbind option_bind]. pose proof (rd_env b t (ce_ms e)) as Hx. destruct (rd_step b t) as [t1|]; [|done].
    specialize (Hx ltac:(done)). destruct (rd_step (bc_estep b (ce_ms e)) t) as [[[] [] [|? []]]|]; done.
  - destruct (counter_of s KTotal) as [b|]; [|done]. cbn [fmap option_fmap option_map mbind option_bind]. pose proof (rd_env b t (ce_ms e)) as Hx. destruct (rd_step b t) as [t1|]; [|done].
    specialize (Hx ltac:(done)). destruct (rd_step (bc_estep b (ce_ms e)) t) as [[[] [] [|? []]]|]; done.
Qed.
Lemma cr_env startTime s t e : cr_tstep math_Exp rk I N maxE maxA startTime s t <> None -> cr_tstep math_Exp rk I N maxE maxA startTime (es s e) t <> None.
Proof.
  unfold cr_tstep. change (cs_crashed (gs_client (es s e))) with (cs_crashed (gs_client s)). destruct (cs_crashed _); [done|]. destruct (dt_read t) as [[call pc]|].
  - pose proof (read_env startTime s pc e) as Hx. destruct (read_step _ _ s pc) as [[]|]; [..|done]; intros _; specialize (Hx ltac:(done)); by destruct (read_step _ _ (es s e) pc) as [[]|].
  - destruct (at_rest _); [by destruct (dt_todo t) as [|[]]|]. pose proof (gs_env_keeps s (dt_g t) e) as Hx. destruct (cf_gstep _ _ _ _ _ _ s _) as [[]|]; [|done]. intros _. specialize (Hx ltac:(done)). by destruct (cf_gstep _ _ _ _ _ _ (es s e) _) as [[]|].
Qed.

(** * The bound. *)
Section started.
Context (e0 : cenv) (progs : list (list dcall)) (c0 : reading) (H0 : cr_run math_Exp rk I N maxE maxA e0 progs [] = Some c0).
Notation ts := (cr_tstep math_Exp rk I N maxE maxA (ce_ms e0)).
Let nt := length progs.
Let L := Z.of_nat (Z.to_nat (N + 1)).
Lemma run_from sched : cr_run math_Exp rk I N maxE maxA e0 progs sched = Some (crun ts es c0 sched).
Proof using H0. unfold cr_run in *. destruct (cf_objs0 rk I N e0); [|done]. by injection H0 as <-. Qed.
Lemma start_threads : threads c0 = (fun p => DThread p (GThread (KThread [] PIdle []) None ∅ []) None []) <$> progs.
Proof using H0. unfold cr_run in *. destruct (cf_objs0 rk I N e0); [|done]. by injection H0 as <-. Qed.
Definition Phi (c : reading) : Z := if cs_crashed (gs_client (shared c)) then 0 else sumZ (d_pot nt L (unc (gs_client (shared c))) <$> threads c).
Definition binv (c : reading) : Prop := rings L (shared c) /\ Forall d_ok (threads c).
Lemma ring_env s e : rings L s -> rings L (es s e).
Proof using.
  intros H k b. cbn [gestep gs_objs]. rewrite lookup_fmap. destruct (gs_objs s !! k) as [[]|] eqn:E; try done. cbn [fmap option_fmap option_map cobj_estep]. intros [= <-]. exact (H k _ E).
Qed.
Lemma binv_run sched : binv (crun ts es c0 sched).
Proof using H0.
  apply (crun_inv ts es binv); unfold binv; cbn [shared threads].
  - split.
    + unfold cr_run, cf_objs0 in H0. destruct (new_counter I N (ce_ms e0)) as [ctr|] eqn:En; [|done]. injection H0 as <-. cbn [shared].
      assert (Hc : forall b, ctr = OCounter b -> Z.of_nat (length (dq_queue (bc_buckets (bs_bc b)))) <= L).
      { intros b ->. unfold new_counter, newBucketCounterImpl, newBucketDequeue in En. destruct (N + 1 <? 0); [done|]. cbn [mbind res_bind fst snd] in En. destruct (dq_peek _) as [p|]; [|done]. cbn [mbind res_bind] in En. injection En as <-. cbn [bs_bc bc_buckets dq_queue]. unfold L. by rewrite seq_length. }
      intros k b Hk. cbn [gs_objs] in Hk. 
      apply lookup_insert_Some in Hk as [[_ Hk]|[_ Hk]]; [by apply Hc|]. apply lookup_insert_Some in Hk as [[_ Hk]|[_ Hk]]; [by apply Hc|].
      do 3 (apply lookup_insert_Some in Hk as [[_ Hk]|[_ Hk]]; [done|]). apply lookup_insert_Some in Hk as [[_ Hk]|[_ Hk]]; [|by rewrite lookup_empty in Hk].
      destruct rk; try done. by apply Hc.
    + rewrite start_threads. apply Forall_fmap. apply Forall_forall. intros p _. split; [|done]. intros k. change (inside_of cin_idle k _) with cin_idle. destruct in_idle as [A B]. split; [exact A|]. intros _. exact B.
  - intros s l i t s' t' [A B] Hi Hs. pose proof (proj1 (Forall_lookup _ _) B _ _ Hi) as Ht. apply (d_step nt L) in Hs as (C & D & _); [|unfold L; lia..|done|done]. split; [done|]. by apply Forall_insert.
  - intros s l e [A B]. split; [by apply ring_env|done].
Qed.
Lemma Phi_start : Phi c0 = sumZ ((fun p => sumZ (d_cost nt L <$> p)) <$> progs).
Proof using H0.
  unfold Phi. replace (cs_crashed _) with false by (unfold cr_run in H0; destruct (cf_objs0 rk I N e0); [|done]; by injection H0 as <-).
  rewrite start_threads. generalize (unc (gs_client (shared c0))). intros u. generalize nt as n. clear. intros n. induction progs as [|p l IH]; [done|]. rewrite !fmap_cons, !sumZ_cons. rewrite IH. f_equal. unfold d_pot, f_pot, k_pot. cbn [dt_todo dt_g dt_read gt_client gt_in kt_todo kt_pc k_rank]. change (sumZ (k_cost n <$> [])) with 0. lia.
Qed.
Lemma cr_bound sched : Z.of_nat (steps_made ts es c0 sched) <= sumZ ((fun p => sumZ (d_cost nt L <$> p)) <$> progs).
Proof using H0.
  rewrite <- Phi_start. apply made_bound.
  - intros s. unfold Phi. destruct (cs_crashed _); [lia|]. apply sum_nonneg. intros t _. apply d_pot_nonneg. unfold L. lia.
  - intros s i t s' t' c Hi Hs. destruct (binv_run s) as [A B]. fold c in A, B. pose proof (proj1 (Forall_lookup _ _) B _ _ Hi) as Ht.
    apply (d_step nt L) in Hs as (_ & _ & C & D & E); [|unfold L; lia..|done|done]. unfold Phi. cbn [shared threads]. rewrite C.
    assert (Hlen : (length (threads c) <= nt)%nat) by (unfold c; rewrite run_length, start_threads, fmap_length; done).
    destruct E as [E|[(E1 & E2 & E3)|(E1 & E2)]]; [rewrite E|rewrite E1..].
    + clear -Hi D. assert (HL : 0 <= L) by (unfold L; lia). rewrite <- (take_drop_middle _ _ _ Hi). rewrite fmap_app, fmap_cons, sumZ_app, sumZ_cons.
      assert (forall l, 0 <= sumZ (d_pot nt L (unc (gs_client (shared c))) <$> l)) as Hnn by (intros l; apply sum_nonneg; intros x _; by apply d_pot_nonneg).
      pose proof (Hnn (take i (threads c))). pose proof (Hnn (drop (S i) (threads c))). lia.
    + eapply (sum_bound _ _ _ i t t' 0 nt); [done|lia|done| |lia]. intros j u _ _. rewrite E2. lia.
    + eapply (sum_bound _ _ _ i t t' 30 nt); [done|lia|done| |lia]. intros j u _ _. apply d_pot_change.
  - intros s e. cbv zeta. unfold Phi. cbn [shared threads]. change (cs_crashed (gs_client (es (shared (crun ts es c0 s)) e))) with (cs_crashed (gs_client (shared (crun ts es c0 s)))).
    destruct (cs_crashed _); [lia|]. change (unc (gs_client (es (shared (crun ts es c0 s)) e))) with (unc (gs_client (shared (crun ts es c0 s)))). lia.
Qed.

(** All goroutines have finished their programs. *)
Notation done_ := (fun c : reading => Forall (fun t => dt_todo t = [] /\ idle_thread t = true) (threads c)).
Lemma done_step s t : dt_todo t = [] /\ idle_thread t = true -> ts s t = None.
Proof using.
  intros [A B]. unfold cr_tstep. destruct (cs_crashed _); [done|]. unfold idle_thread in B. destruct (dt_read t); [done|]. by rewrite B, A.
Qed.
Lemma crashed_step s t : cs_crashed (gs_client s) = true -> ts s t = None.
Proof using. intros H. unfold cr_tstep. by rewrite H. Qed.
Lemma setting_prefix s1 s2 : reservoir_setting math_Exp rk e0 (writes <$> progs) (s1 ++ s2) -> reservoir_setting math_Exp rk e0 (writes <$> progs) s1.
Proof using All.
  assert (Hsh : forall e, shows e0 s1 e -> shows e0 (s1 ++ s2) e) by (intros e [->|H]; [by left|right; set_solver]).
  assert (Hms : forall l l2 x, ms_ok x (l ++ l2) -> ms_ok x l) by (induction l as [|a l IH]; intros l2 x; [done|]; cbn; intros [A B]; split; [done|by eapply IH]).
  unfold reservoir_setting. destruct rk as [size alpha| |cap]; [|done|].
  - intros (A & B & C & D & F & G & H). refine (conj A (conj B (conj C (conj D (conj _ (conj _ H)))))); [|intros e He; apply G; by apply Hsh]. unfold ms_of in F. rewrite omap_app in F. by eapply Hms.
  - intros (A & B & C). refine (conj A (conj _ C)). intros e He. apply B. by apply Hsh.
Qed.
Lemma cr_all_return rounds : counter_setting I N -> reservoir_setting math_Exp rk e0 (writes <$> progs) (mjoin rounds) ->
  Forall (Forall (fun d => match d with DRead call => reading_call rk call | DWrite _ => True end)) progs ->
  Forall (round (length progs)) rounds -> sumZ ((fun p => sumZ (d_cost nt L <$> p)) <$> progs) < Z.of_nat (length rounds) ->
  let c := crun ts es c0 (mjoin rounds) in cs_crashed (gs_client (shared c)) = true \/ Forall (fun t => dt_todo t = [] /\ idle_thread t = true) (threads c).
Proof using H0.
  intros HS HR HP Hround Hlen. cbv zeta.
  refine (fair_finish ts es (fun c => cs_crashed (gs_client (shared c)) = true \/ Forall (fun t => dt_todo t = [] /\ idle_thread t = true) (threads c)) _ c0
    (Z.to_nat (sumZ ((fun p => sumZ (d_cost nt L <$> p)) <$> progs))) rounds _ _ _ _ _ _).
  - intros s. pose proof (cr_bound s). lia.
  - intros s1 s2 Hj. rewrite Hj in HR. apply setting_prefix in HR. destruct (reading_progress math_Exp rk I N maxE maxA e0 progs s1 HS HR HP) as (c & Hc & Hp). rewrite run_from in Hc. injection Hc as <-.
    destruct (cs_crashed _) eqn:Ec; [by left; left|]. specialize (Hp eq_refl). destruct (decide (Forall (fun t => dt_todo t = [] /\ idle_thread t = true) (threads (crun ts es c0 s1)))) as [Hd|Hd]; [by left; right|]. right.
    destruct (Hp Hd) as (i & t & Hi & Ht). exists i, t. done.
  - intros s ev Hd. rewrite crun_snoc. destruct ev as [i|e]; cbn [cstep].
    + destruct (threads (crun ts es c0 s) !! i) as [t|] eqn:Ei; [|done]. destruct (ts _ t) as [[s' t']|] eqn:Et; [|done]. destruct Hd as [Hd|Hd].
      * by rewrite (crashed_step _ _ Hd) in Et.
      * rewrite done_step in Et; [done|]. by apply (proj1 (Forall_lookup _ _) Hd _ _ Ei).
    + cbn [shared threads]. exact Hd.
  - intros c e i (t & Hi & Ht). exists t. split; [done|]. cbn [cstep shared]. by apply cr_env.
  - rewrite start_threads, fmap_length. exact Hround.
  - pose proof (cr_bound []). lia.
Qed.
End started.
End run.
