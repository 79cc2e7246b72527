(** Concurrent compass: ticks, progress, aborts. *)
From Verif.Go Require Import GoInt GoFloat GoConc.
From Verif.Model Require Import BucketQueue BucketCounter EWMA Compass CompassConc.
From Verif.Spec Require Import BucketSpec CompassConcSpec.
From Verif.Proofs Require Import BucketHist BucketMain EWMAConcProofs CompassConcProofs CompassConcTables.
Local Open Scope Z_scope.

Section inv.
Context (I maxE maxA : Z).
Notation tstep := (cp_tstep I maxE maxA).

(** No tick is made twice: the clock never shows more than [M]. *)
Record kinv (start M : Z) (s : cp_shared) (ts : list kthread) : Prop := {
  k_clock : 0 <= cs_clock s <= M;
  k_last : 0 <= mt_lastTick (cs_meter s) <= M;
  k_pc : forall i t, ts !! i = Some t -> match kt_pc t with PClock old _ => 0 <= old <= M | PCas old new _ => 0 <= old <= M /\ 0 <= new <= M /\ tickInterval < new - old | _ => True end;
  k_due : start + tickInterval * (Z.of_nat (length (cs_log1 s)) + sumZ ((fun t => due (kt_pc t)) <$> ts)) <= mt_lastTick (cs_meter s);
  k_exact : I = tickInterval -> start + tickInterval * (Z.of_nat (length (cs_log1 s)) + sumZ ((fun t => due (kt_pc t)) <$> ts)) = mt_lastTick (cs_meter s)
}.
Lemma kinv_local start M s ts i t s' t' : kinv start M s ts -> ts !! i = Some t ->
  cs_clock s' = cs_clock s -> mt_lastTick (cs_meter s') = mt_lastTick (cs_meter s) ->
  Z.of_nat (length (cs_log1 s')) + due (kt_pc t') = Z.of_nat (length (cs_log1 s)) + due (kt_pc t) ->
  match kt_pc t' with PClock old _ => 0 <= old <= M | PCas old new _ => 0 <= old <= M /\ 0 <= new <= M /\ tickInterval < new - old | _ => True end ->
  kinv start M s' (<[i := t']> ts).
Proof.
  intros K Hi Ec El Ed Hp. assert (Hlt : (i < length ts)%nat) by (by apply lookup_lt_Some in Hi). destruct K. constructor; rewrite ?Ec, ?El; try done.
  - intros j u Hj. destruct (lookup_insert_cases ts i t' j u Hlt Hj) as [[-> ->]|[_ Hj']]; [done|by eapply k_pc0].
  - rewrite (sumZ_insert (fun t => due (kt_pc t)) _ _ _ _ Hi). lia.
  - intros E. specialize (k_exact0 E). rewrite (sumZ_insert (fun t => due (kt_pc t)) _ _ _ _ Hi). lia.
Qed.
Lemma kinv_step start M s ts i t s' t' : 0 < I -> (I | tickInterval) -> M < 2 ^ 63 -> kinv start M s ts -> ts !! i = Some t -> tstep s t = Some (s', t') -> kinv start M s' (<[i := t']> ts).
Proof.
  intros HI Hd HM K Hi Hs. pose proof (k_pc _ _ _ _ K i t Hi) as Hp. pose proof (k_clock _ _ _ _ K) as Hc. pose proof (k_last _ _ _ _ K) as Hl.
  assert (Hlt : (i < length ts)%nat) by (by apply lookup_lt_Some in Hi).
  steps s t Hs; cbn [kt_pc] in Hp.
  all: try (eapply kinv_local; [exact K|exact Hi|try done; by destruct (rs_success _)|try done; by destruct (rs_success _)| |]; cbn [kt_pc kt_todo]; try done;
    try (destruct k as [[dd rr]|]); try (destruct w); try (destruct r as [r0|]); try (destruct (rs_success _)); cbn; rewrite ?app_length; cbn; try lia; done).
  - (* PClock *) rewrite wrap64_id in Hage by (unfold in64, two63; lia). apply Z.ltb_lt in Hage. eapply kinv_local; [exact K|exact Hi|done..|]. cbn. lia.
  - (* PCas *) destruct Hp as (P1 & P2 & P3). unfold go_mod in Hgm. unfold go_div in Hgd. unfold tickInterval, Second in P3.
    rewrite wrap64_id in Hgm by (unfold in64, two63; lia). rewrite (wrap64_id (new - old)) in Hgd by (unfold in64, two63; lia).
    destruct (I =? 0) eqn:E0; [lia|]. injection Hgm as <-. cbn [Z.eqb tickInterval] in Hgd. change (tickInterval =? 0) with false in Hgd. cbv iota in Hgd. injection Hgd as <-.
    set (a := new - old) in *. assert (0 < a < 2 ^ 63) by lia.
    rewrite Z.rem_mod_nonneg, Z.quot_div_nonneg by (unfold tickInterval, Second; lia).
    pose proof (Z.mod_pos_bound a I HI). pose proof (Z.div_mod a I ltac:(lia)) as Ea.
    assert (0 <= a / tickInterval) by (apply Z.div_pos; unfold tickInterval, Second; lia).
    assert (a / tickInterval <= a) by (apply Z.div_le_upper_bound; unfold tickInterval, Second; lia).
    rewrite (wrap64_id (a / _)) by (unfold in64, two63; lia). 
    assert (a mod I <= a) by (apply Z.mod_le; lia).
    rewrite (wrap64_id (new - _)) by (unfold in64, two63; lia).
    assert (tickInterval * (a / tickInterval) <= a - a mod I) as Hle.
    { replace (a - a mod I) with (I * (a / I)) by lia. destruct Hd as [q Eq]. rewrite Eq at 1. rewrite Z.mul_comm, <- (Z.mul_comm I q), (Z.mul_comm _ (I * q)), <- Z.mul_assoc.
      apply Z.mul_le_mono_nonneg_l; [lia|]. assert (0 < q) by (unfold tickInterval, Second in Eq; nia).
      apply Z.div_le_lower_bound; [lia|]. rewrite Z.mul_assoc, <- (Z.mul_comm q I), <- Eq. apply Z.mul_div_le. unfold tickInterval, Second. lia. }
    assert (I = tickInterval -> tickInterval * (a / tickInterval) = a - a mod I) as Heq by (intros <-; lia).
    destruct K. constructor; cbn [cs_clock cs_meter cs_log1 set_meter set_lastTick mt_lastTick]; try done.
    + nia || lia.
    + intros j u Hj. destruct (lookup_insert_cases ts i _ j u Hlt Hj) as [[-> ->]|[_ Hj']]; [done|by eapply k_pc0].
    + rewrite (sumZ_insert (fun t => due (kt_pc t)) _ _ _ _ Hi). cbn [kt_pc due]. rewrite Z2Nat.id by done. lia.
    + intros E. specialize (Heq E). specialize (k_exact0 E). rewrite (sumZ_insert (fun t => due (kt_pc t)) _ _ _ _ Hi). cbn [kt_pc due]. rewrite Z2Nat.id by done. lia.
Qed.

Lemma kinv_run start clock M progs sched : 0 < I -> (I | tickInterval) -> M < 2 ^ 63 -> 0 <= start <= M -> 0 <= wrap64 clock <= M -> Forall (clock_below M) sched ->
  let c := cp_crun I maxE maxA start clock progs sched in kinv start M (shared c) (threads c).
Proof.
  intros HI Hd HM Hst Hcl. cbv zeta. unfold cp_crun. induction sched as [|ev sched IH] using rev_ind; intros HF.
  - cbn [crun fold_left cp_cinit shared threads].
    assert (sumZ ((fun t => due (kt_pc t)) <$> ((fun p => KThread p PIdle []) <$> progs)) = 0) as E0.
    { rewrite <- list_fmap_compose. clear. induction progs as [|p ps IH]; [done|]. cbn [fmap list_fmap]. rewrite sumZ_cons. exact IH. }
    constructor; cbn [cs_clock cs_meter cs_log1 newMeter mt_lastTick]; try lia; [|rewrite E0; cbn; lia..].
    intros i t Hi. rewrite list_lookup_fmap in Hi. destruct (progs !! i); [|done]. by injection Hi as <-.
  - apply Forall_app in HF as [HF He]. specialize (IH HF). rewrite crun_snoc. destruct (crun _ _ _ sched) as [s ts]. cbn [shared threads] in IH. destruct ev as [i|e]; cbn [cstep].
    + cbn [threads shared]. destruct (ts !! i) as [t|] eqn:Hi; [|done]. destruct (tstep s t) as [[s' t']|] eqn:Hs; [|done]. cbn [threads shared]. by eapply kinv_step.
    + apply Forall_inv in He. cbn in He. cbn [threads shared]. destruct IH. by constructor.
Qed.

(** Somebody can always go on. *)
Lemma cp_progress start clock progs sched : I <> 0 -> let c := cp_crun I maxE maxA start clock progs sched in
  cs_crashed (shared c) = false -> ~ Forall cp_done (threads c) -> exists i t s' t', threads c !! i = Some t /\ tstep (shared c) t = Some (s', t').
Proof.
  intros HI c Hcr Hd. pose proof (fun W => tinv_run I maxE maxA W start clock progs sched) as T. cbv zeta in T. fold c in T.
  assert (Hins : forall W i t, threads c !! i = Some t -> inside W (kt_pc t) = true -> exists s' t', tstep (shared c) t = Some (s', t')).
  { intros W i t Hi Hin. unfold cp_tstep. rewrite Hcr. destruct (kt_pc t); try done; repeat case_match; (do 2 eexists; reflexivity). }
  assert (Hrun : exists i t, threads c !! i = Some t /\ ~ cp_done t).
  { clear -Hd. induction (threads c) as [|t ts IH]; [by destruct Hd|].
    assert (Hdec : cp_done t \/ ~ cp_done t). { unfold cp_done. destruct (kt_todo t), (kt_pc t); (by left) || (right; intros [??]; done). }
    destruct Hdec as [Hy|Hn]; [|by exists 0%nat, t].
    destruct IH as (i & u & Hi & Hu); [|by exists (S i), u]. intros Hx. apply Hd. by constructor. }
  destruct Hrun as (i & t & Hi & Hn).
  assert ((exists w r, kt_pc t = PLock w r /\ tb_locked (tb_of w (shared c)) = true) \/ ~ (exists w r, kt_pc t = PLock w r /\ tb_locked (tb_of w (shared c)) = true)) as [(w & r & Hpc & Hl)|Hno].
  { destruct (kt_pc t) eqn:E; try (right; intros (? & ? & ? & ?); congruence). destruct (tb_locked (tb_of w (shared c))) eqn:El; [left; eauto|right; intros (? & ? & ? & ?); congruence]. }
  - destruct (t_holder _ _ _ _ _ _ (T w) Hl) as (j & u & Hj & Hu). destruct (Hins w j u Hj Hu) as (s' & t' & Hs). by exists j, u, s', t'.
  - exists i, t. unfold cp_tstep. rewrite Hcr. destruct (kt_pc t) eqn:Hpc; try (by eauto).
    + destruct (kt_todo t) as [|[d r| |w n] todo] eqn:Ht; [destruct Hn; by split|..]; eauto.
    + case_match; do 2 eexists; (split; [exact Hi|reflexivity]).
    + unfold go_mod, go_div. destruct (I =? 0) eqn:E0; [lia|]. change (tickInterval =? 0) with false. cbv iota. case_match; do 2 eexists; (split; [exact Hi|reflexivity]).
    + repeat case_match; do 2 eexists; (split; [exact Hi|reflexivity]).
    + repeat case_match; do 2 eexists; (split; [exact Hi|reflexivity]).
    + repeat case_match; do 2 eexists; (split; [exact Hi|reflexivity]).
    + destruct (tb_locked _) eqn:El; [destruct Hno; eauto|]. do 2 eexists; (split; [exact Hi|reflexivity]).
    + repeat case_match; do 2 eexists; (split; [exact Hi|reflexivity]).
    + repeat case_match; do 2 eexists; (split; [exact Hi|reflexivity]).
    + repeat case_match; do 2 eexists; (split; [exact Hi|reflexivity]).
    + repeat case_match; do 2 eexists; (split; [exact Hi|reflexivity]).
Qed.

(** Without the map getters nothing aborts. *)
Lemma cp_no_abort start clock progs sched : Forall (Forall no_getter) progs -> cs_crashed (shared (cp_crun I maxE maxA start clock progs sched)) = false.
Proof.
  intros HF. pose proof (fun W => tinv_run I maxE maxA W start clock progs) as T. cbv zeta in T. unfold cp_crun in *.
  enough (cs_crashed (shared (crun tstep cp_estep (cp_cinit start clock progs) sched)) = false /\
    forall i t, threads (crun tstep cp_estep (cp_cinit start clock progs) sched) !! i = Some t -> Forall no_getter (kt_todo t) /\ match kt_pc t with PIter _ _ => False | _ => True end) by tauto.
  induction sched as [|ev sched [IH1 IH2]] using rev_ind.
  - cbn. split; [done|]. intros i t Hi. rewrite list_lookup_fmap in Hi. destruct (progs !! i) as [p|] eqn:Ep; [|done]. injection Hi as <-. split; [|done]. cbn. by eapply Forall_lookup_1 in HF.
  - pose proof (fun W => T W sched) as T'. rewrite crun_snoc. destruct (crun tstep cp_estep _ sched) as [s ts]. cbn [shared threads] in *. destruct ev as [i|e]; [|done].
    cbn [cstep threads shared]. destruct (ts !! i) as [t|] eqn:Hi; [|done]. destruct (tstep s t) as [[s' t']|] eqn:Hs; [|done]. cbn [threads shared].
    assert (Hlt : (i < length ts)%nat) by (by apply lookup_lt_Some in Hi). destruct (IH2 i t Hi) as [A1 A2].
    assert (Hnw : forall W, inside W (kt_pc t) = true -> (forall r, kt_pc t <> PAssigning W r) -> tb_writing (tb_of W s) = false).
    { intros W Hin Hna. destruct (tb_writing _) eqn:E; [|done]. destruct (t_write _ _ _ _ _ _ (T' W) E) as (j & u & r & Hj & Hu). exfalso.
      assert (j = i) as ->. { eapply (t_excl _ _ _ _ _ _ (T' W)); [exact Hj|exact Hi|rewrite Hu; cbn; by rewrite bool_decide_eq_true_2|exact Hin]. }
      rewrite Hi in Hj. injection Hj as <-. by apply (Hna r). }
    assert (cs_crashed s' = false /\ Forall no_getter (kt_todo t') /\ match kt_pc t' with PIter _ _ => False | _ => True end) as (B1 & B2 & B3).
    { steps s t Hs; cbn [kt_pc kt_todo kt_panics] in *; try done; try (apply Forall_cons in A1 as [A0 A1]); try done.
      all: try (split; [first [done|by destruct w|by destruct (rs_success _)]|]; split; [done|]; try done; first [by destruct k as [[??]|]|by destruct r|by destruct w]).
      - rewrite (Hnw w) in Hwr; [done|cbn; by rewrite bool_decide_eq_true_2|done].
      - rewrite (Hnw w) in Hwr; [done|cbn; by rewrite bool_decide_eq_true_2|done]. }
    split; [done|]. intros j u Hj. destruct (lookup_insert_cases ts i t' j u Hlt Hj) as [[-> ->]|[_ Hj']]; [done|by eapply IH2].
Qed.

(** Nor with the getters of a map that gets no new entries. *)
Lemma warm_step v s ts i t s' t' : ts !! i = Some t -> tstep s t = Some (s', t') ->
  (forall W, pc_ok maxE maxA W (tb_map (tb_of W s)) (kt_pc t)) ->
  warm maxE maxA v (Config s ts) -> (tb_map (tb_of v s') = tb_map (tb_of v s)) /\ warm maxE maxA v (Config s' (<[i := t']> ts)).
Proof.
  intros Hi Hs Hpc Hw.
  assert (Hwi : forall r, r ∈ unnoted_yet v (kt_pc t) ++ results (kt_todo t) -> asked v r = ""%string \/ asked v r ∈ tracked v s \/ limit maxE maxA v <= Z.of_nat (size (tracked v s))).
  { intros r Hr. apply (Hw t r); [|done]. cbn [threads]. by apply elem_of_list_lookup_2 in Hi. }
  assert (Hna : forall r, kt_pc t <> PAssigning v r).
  { intros r E. specialize (Hpc v). rewrite E in Hpc. cbn in Hpc. destruct (Hpc eq_refl) as (P1 & P2 & P3). destruct (Hwi r) as [H|[H|H]].
    - rewrite E. unfold unnoted_yet. cbn. apply elem_of_app. left. by destruct v; left.
    - by rewrite asked_key in H.
    - rewrite asked_key in H. unfold tracked in H. apply elem_of_dom in H as [p Hp]. unfold counters in Hp. unfold tb_of in P1. by rewrite P1 in Hp.
    - unfold tracked in H. rewrite size_dom in H. unfold counters, limit in H. unfold tb_of, max_of in P2. destruct v; lia. }
  assert (Hm : tb_map (tb_of v s') = tb_map (tb_of v s)).
  { clear -Hs Hna. steps s t Hs; cbn [kt_pc] in *; try done; try (destruct v, w; try done; by specialize (Hna r)); try (by destruct (rs_success _)); destruct v, w; done. }
  split; [exact Hm|].
  assert (Et : tracked v s' = tracked v s) by (unfold tracked; change counters with (fun w s => tb_of w s); cbn; by rewrite Hm).
  assert (Hsub : forall r, r ∈ unnoted_yet v (kt_pc t') ++ results (kt_todo t') -> r ∈ unnoted_yet v (kt_pc t) ++ results (kt_todo t)).
  { clear -Hs. intros x. steps s t Hs; cbn [kt_pc kt_todo]; progs_rw; try (destruct k as [[? [?|]]|]); try (destruct r as [r|]); unfold unnoted_yet, unjudged_yet; cbn; rewrite ?elem_of_cons, ?elem_of_app, ?elem_of_cons; try tauto; destruct v; try destruct w; cbn; rewrite ?elem_of_cons; rewrite ?elem_of_nil; tauto. }
  intros u r Hu Hr. cbn [shared threads] in *. rewrite Et. apply elem_of_list_lookup in Hu as [j Hj]. assert (Hlt : (i < length ts)%nat) by (by apply lookup_lt_Some in Hi).
  destruct (lookup_insert_cases ts i t' j u Hlt Hj) as [[-> ->]|[_ Hj']]; [by apply Hwi, Hsub|]. apply (Hw u r); [|done]. by eapply elem_of_list_lookup_2.
Qed.

Lemma cp_warm_no_abort start clock progs sched1 sched2 : let c := cp_crun I maxE maxA start clock progs sched1 in
  cs_crashed (shared c) = false -> (forall w, unread w (threads c) \/ warm maxE maxA w c) ->
  cs_crashed (shared (cp_crun I maxE maxA start clock progs (sched1 ++ sched2))) = false.
Proof.
  cbv zeta. intros Hc Hq. pose proof (fun W => tinv_run I maxE maxA W start clock progs) as T. cbv zeta in T. unfold cp_crun in *.
  enough (cs_crashed (shared (crun tstep cp_estep (cp_cinit start clock progs) (sched1 ++ sched2))) = false /\
    forall w, unread w (threads (crun tstep cp_estep (cp_cinit start clock progs) (sched1 ++ sched2))) \/ warm maxE maxA w (crun tstep cp_estep (cp_cinit start clock progs) (sched1 ++ sched2))) by tauto.
  induction sched2 as [|ev sched [IH1 IH2]] using rev_ind; [by rewrite app_nil_r|].
  pose proof (fun W => T W (sched1 ++ sched)) as T'. rewrite app_assoc, crun_snoc. destruct (crun tstep cp_estep _ (sched1 ++ sched)) as [s ts]. cbn [shared threads] in *. destruct ev as [i|e].
  2:{ split; [done|]. intros w. destruct (IH2 w) as [H|H]; [by left|right]. intros t r Ht Hr. specialize (H t r Ht Hr). by destruct w. }
  cbn [cstep threads shared]. destruct (ts !! i) as [t|] eqn:Hi; [|done]. destruct (tstep s t) as [[s' t']|] eqn:Hs; [|done]. cbn [threads shared].
  assert (Hlt : (i < length ts)%nat) by (by apply lookup_lt_Some in Hi).
  assert (Hnw : forall W, inside W (kt_pc t) = true -> (forall r, kt_pc t <> PAssigning W r) -> tb_writing (tb_of W s) = false).
  { intros W Hin Hna. destruct (tb_writing _) eqn:E; [|done]. destruct (t_write _ _ _ _ _ _ (T' W) E) as (j & u & r & Hj & Hu). exfalso.
    assert (j = i) as ->. { eapply (t_excl _ _ _ _ _ _ (T' W)); [exact Hj|exact Hi|rewrite Hu; cbn; by rewrite bool_decide_eq_true_2|exact Hin]. }
    rewrite Hi in Hj. injection Hj as <-. by apply (Hna r). }
  assert (Hit : forall w n, kt_pc t = PIter w n -> tb_writing (tb_of w s) = false).
  { intros w n E. destruct (tb_writing _) eqn:Ew; [|done]. exfalso. destruct (IH2 w) as [H|H].
    - eapply Forall_lookup_1 in H; [|exact Hi]. rewrite E in H. by destruct H.
    - destruct (t_write _ _ _ _ _ _ (T' w) Ew) as (j & u & r & Hj & Hu). destruct (t_ptr _ _ _ _ _ _ (T' w) j u Hj) as [P _]. rewrite Hu in P. destruct (P eq_refl) as (P1 & P2 & P3).
      destruct (H u r) as [A|[A|A]].
      + cbn [threads]. by eapply elem_of_list_lookup_2.
      + rewrite Hu. unfold unnoted_yet. cbn. apply elem_of_app. left. by destruct w; left.
      + by rewrite asked_key in A.
      + rewrite asked_key in A. unfold tracked in A. apply elem_of_dom in A as [p Hp]. unfold counters in Hp. unfold tb_of in P1. cbn [shared] in Hp. by rewrite P1 in Hp.
      + unfold tracked in A. rewrite size_dom in A. unfold counters, limit in A. unfold tb_of, max_of in P2. cbn [shared] in A. destruct w; lia. }
  split.
  - clear -IH1 Hs Hnw Hit. steps s t Hs; cbn [kt_pc kt_todo kt_panics] in *; try done; try (by destruct w); try (by destruct (rs_success _)).
    + rewrite (Hnw w) in Hwr; [done|cbn; by rewrite bool_decide_eq_true_2|done].
    + rewrite (Hnw w) in Hwr; [done|cbn; by rewrite bool_decide_eq_true_2|done].
    + by rewrite (Hit w n eq_refl) in Hwr.
  - intros v. destruct (IH2 v) as [H|H].
    + left. unfold unread. apply Forall_insert; [done|]. eapply Forall_lookup_1 in H; [|exact Hi]. destruct H as [A1 A2]. clear -Hs A1 A2.
      steps s t Hs; cbn [kt_pc kt_todo kt_panics] in *; try (apply Forall_cons in A1 as [A0 A1]); try done; try (split; [done|]); try done; try (by destruct k as [[??]|]); try (by destruct r); try (by destruct w).
    + right. eapply warm_step; [exact Hi|exact Hs| |exact H]. intros W. by destruct (t_ptr _ _ _ _ _ _ (T' W) i t Hi).
Qed.

(** A successful call is in the total before it is in the success count. *)
Definition judging (t : kthread) : Z := match kt_pc t with PReservoir _ (Some r) | PSuccess r => if rs_success r then 1 else 0 | _ => 0 end.
Lemma success_le_total start clock progs sched : let c := cp_crun I maxE maxA start clock progs sched in 0 <= cs_success (shared c) <= cs_total (shared c).
Proof.
  cbv zeta. unfold cp_crun. set (c0 := cp_cinit start clock progs).
  enough (0 <= cs_success (shared (crun tstep cp_estep c0 sched)) /\ cs_success (shared (crun tstep cp_estep c0 sched)) + sumZ (judging <$> threads (crun tstep cp_estep c0 sched)) <= cs_total (shared (crun tstep cp_estep c0 sched))) as [H1 H2].
  { assert (0 <= sumZ (judging <$> threads (crun tstep cp_estep c0 sched))); [|lia]. apply sumZ_nonneg, Forall_forall. intros t _. unfold judging. repeat case_match; lia. }
  induction sched as [|ev sched IH] using rev_ind.
  - cbn [crun fold_left]. unfold c0, cp_cinit. cbn [shared threads cs_success cs_total]. split; [done|]. clear. induction progs as [|p ps IH]; [done|]. cbn [fmap list_fmap]. rewrite sumZ_cons. exact IH.
  - rewrite crun_snoc. destruct (crun tstep cp_estep c0 sched) as [s ts]. destruct ev as [i|e]; [|exact IH].
    cbn [cstep threads shared] in *. destruct (ts !! i) as [t|] eqn:Hi; [|done]. destruct (tstep s t) as [[s' t']|] eqn:Hs; [|done].
    cbn [threads shared]. rewrite (sumZ_insert judging _ _ _ _ Hi).
    assert (cs_success s <= cs_success s' /\ cs_success s' + judging t' - cs_total s' <= cs_success s + judging t - cs_total s); [|lia].
    destruct IH as [IH _]. clear Hi. steps s t Hs; unfold judging; cbn [kt_pc]; try (destruct w); try (destruct k as [[d r]|]); try (destruct r as [r|]); cbn; try lia; repeat case_match; cbn; lia.
Qed.
End inv.
