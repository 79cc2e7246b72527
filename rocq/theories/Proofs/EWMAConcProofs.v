From Verif.Go Require Import GoInt GoFloat GoConc.
From Verif.Model Require Import EWMA EWMAConc.
From Verif.Spec Require Import BucketSpec EWMAConcSpec.
From Verif.Proofs Require Import BucketHist BucketMain EWMAProofs.
Local Open Scope Z_scope.

Definition e_holds (pc : epc) : bool := match pc with ERead _ | EWrite _ _ | EUnlock => true | _ => false end.

Definition got_ok (a : f64) (i : Z) (ticked : list Z) (t : ethread) : Prop :=
  Forall (fun ur => exists pre, pre `prefix_of` ticked /\ ur.2 = ew_GetRate (ticks (newEWMA a i) pre) ur.1) (et_got t).

Record einv (a : f64) (iv : Z) (progs : list (list ewma_call)) (s : ewma_shared) (ts : list ethread) : Prop := {
  e_ew : set_uncounted (es_ewma s) 0 = ticks (newEWMA a iv) (es_ticked s);
  e_sum : wrap64 (ew_uncounted (es_ewma s) + sumZ (es_ticked s) + sumZ (in_flight <$> ts) +
            sumZ ((fun t => events (et_todo t)) <$> ts)) = wrap64 (sumZ (events <$> progs));
  e_cnt : Z.of_nat (length (es_ticked s)) + sumZ (ticking <$> ts) +
            sumZ ((fun t => tick_calls (et_todo t)) <$> ts) = sumZ (tick_calls <$> progs);
  e_lock : es_locked s = false -> forall i t, ts !! i = Some t -> e_holds (et_pc t) = false;
  e_holder : es_locked s = true -> exists i t, ts !! i = Some t /\ e_holds (et_pc t) = true;
  e_excl : forall i j ti tj, ts !! i = Some ti -> ts !! j = Some tj ->
      e_holds (et_pc ti) = true -> e_holds (et_pc tj) = true -> i = j;
  e_write : forall i t c r, ts !! i = Some t -> et_pc t = EWrite c r ->
      r = ew_rate (ew_TickN (set_uncounted (es_ewma s) 0) c);
  e_got : forall i t, ts !! i = Some t -> got_ok a iv (es_ticked s) t;
  e_range : in64 (ew_uncounted (es_ewma s))
}.

Lemma got_ok_app a iv l c t : got_ok a iv l t -> got_ok a iv (l ++ [c]) t.
Proof.
  intros H. eapply Forall_impl; [exact H|]. intros ur (pre & Hp & E). exists pre. split; [|done].
  by apply prefix_app_r.
Qed.

Lemma events_cons c l : events (c :: l) = events_of c + events l.
Proof. done. Qed.
Lemma tick_calls_cons c l : tick_calls (c :: l) = is_tick c + tick_calls l.
Proof. done. Qed.

Lemma lookup_insert_cases {A} (ts : list A) i t' j u : (i < length ts)%nat ->
  <[i := t']> ts !! j = Some u -> (j = i /\ u = t') \/ (j <> i /\ ts !! j = Some u).
Proof.
  intros Hlt Hj. destruct (decide (i = j)) as [<-|Hne].
  - rewrite list_lookup_insert in Hj by done. injection Hj as <-. by left.
  - rewrite list_lookup_insert_ne in Hj by done. right. split; [congruence|done].
Qed.

Ltac sums Hi := rewrite ?(sumZ_insert in_flight _ _ _ _ Hi), ?(sumZ_insert ticking _ _ _ _ Hi),
   ?(sumZ_insert (fun t => events (et_todo t)) _ _ _ _ Hi), ?(sumZ_insert (fun t => tick_calls (et_todo t)) _ _ _ _ Hi);
   match goal with Hi : ?ts !! _ = Some _ |- _ => set (SA := sumZ (in_flight <$> ts)) in *; set (SB := sumZ (ticking <$> ts)) in * end;
   unfold in_flight, ticking; cbn [et_pc et_todo].

(** A step that changes neither the average, nor the ticked list, nor the lock. *)
Lemma einv_local a iv progs s ts i t s' t' :
  einv a iv progs s ts -> ts !! i = Some t ->
  set_uncounted (es_ewma s') 0 = set_uncounted (es_ewma s) 0 -> es_ticked s' = es_ticked s -> es_locked s' = es_locked s ->
  in64 (ew_uncounted (es_ewma s')) ->
  wrap64 (ew_uncounted (es_ewma s') + in_flight t' + events (et_todo t')) =
  wrap64 (ew_uncounted (es_ewma s) + in_flight t + events (et_todo t)) ->
  ticking t' + tick_calls (et_todo t') = ticking t + tick_calls (et_todo t) ->
  e_holds (et_pc t') = e_holds (et_pc t) ->
  (forall c r, et_pc t' = EWrite c r -> r = ew_rate (ew_TickN (set_uncounted (es_ewma s) 0) c)) ->
  got_ok a iv (es_ticked s) t' ->
  einv a iv progs s' (<[i := t']> ts).
Proof.
  intros I Hi Ee Et El Hr Hs Hc Hh Hw Hg. destruct I.
  assert (Hlt : (i < length ts)%nat) by (by apply lookup_lt_Some in Hi).
  pose proof (lookup_insert_cases ts i t' ) as HL.
  constructor; rewrite ?Ee, ?Et, ?El; try done.
  - rewrite (sumZ_insert in_flight _ _ _ _ Hi), (sumZ_insert (fun t => events (et_todo t)) _ _ _ _ Hi).
    rewrite <- e_sum0.
    set (A := sumZ (in_flight <$> ts)). set (B := sumZ ((fun t => events (et_todo t)) <$> ts)).
    set (T := sumZ (es_ticked s)).
    replace (ew_uncounted (es_ewma s') + T + (A - in_flight t + in_flight t') + (B - events (et_todo t) + events (et_todo t')))
      with ((ew_uncounted (es_ewma s') + in_flight t' + events (et_todo t')) + (T + A + B - in_flight t - events (et_todo t))) by lia.
    rewrite <- wrap64_add_l, Hs, wrap64_add_l. f_equal. lia.
  - rewrite (sumZ_insert ticking _ _ _ _ Hi), (sumZ_insert (fun t => tick_calls (et_todo t)) _ _ _ _ Hi). lia.
  - intros Hl j u Hj. destruct (HL j u Hlt Hj) as [[-> ->]|[_ Hj']]; [|by eapply e_lock0].
    rewrite Hh. by eapply e_lock0.
  - intros Hl. destruct (e_holder0 Hl) as (j & u & Hj & Hu). destruct (decide (i = j)) as [<-|Hne].
    + exists i, t'. rewrite list_lookup_insert by done. split; [done|]. congruence.
    + exists j, u. by rewrite list_lookup_insert_ne by done.
  - intros j k tj tk Hj Hk Hhj Hhk.
    destruct (HL j tj Hlt Hj) as [[-> ->]|[Hnj Hj']], (HL k tk Hlt Hk) as [[-> ->]|[Hnk Hk']]; try done.
    + rewrite Hh in Hhj. by eapply e_excl0.
    + rewrite Hh in Hhk. by eapply e_excl0.
    + by eapply e_excl0.
  - intros j u c r Hj Hu. destruct (HL j u Hlt Hj) as [[-> ->]|[Hnj Hj']]; [by apply Hw|by eapply e_write0].
  - intros j u Hj. destruct (HL j u Hlt Hj) as [[-> ->]|[Hnj Hj']]; [done|by eapply e_got0].
Qed.

Lemma einv_step a iv progs s ts i t s' t' :
  einv a iv progs s ts -> ts !! i = Some t -> ewma_tstep s t = Some (s', t') -> einv a iv progs s' (<[i := t']> ts).
Proof.
  intros I Hi Hs.
  assert (Hlt : (i < length ts)%nat) by (by apply lookup_lt_Some in Hi).
  pose proof (e_got _ _ _ _ _ I i t Hi) as Hg.
  pose proof (e_range _ _ _ _ _ I) as Hr.
  unfold ewma_tstep in Hs. destruct (et_pc t) eqn:Hpc.
  - (* EIdle *)
    destruct (et_todo t) as [|[n| |c|u] todo] eqn:Htd; [done|..]; injection Hs as <- <-.
    + eapply einv_local; try done; unfold in_flight, ticking; rewrite ?Hpc, ?Htd; cbn [et_pc et_todo es_ewma ew_Update ew_uncounted]; try done.
      * apply wrap64_range.
      * rewrite events_cons. cbn [events_of]. replace (wrap64 (ew_uncounted (es_ewma s) + n) + 0 + events todo) with (wrap64 (ew_uncounted (es_ewma s) + n) + events todo) by lia.
        rewrite wrap64_add_l. f_equal. lia.
    + eapply einv_local; try done; unfold in_flight, ticking; rewrite ?Hpc, ?Htd; cbn [et_pc et_todo]; try done.
    + eapply einv_local; try done; unfold in_flight, ticking; rewrite ?Hpc, ?Htd; cbn [et_pc et_todo]; try done.
      rewrite events_cons. cbn [events_of]. f_equal. lia.
    + eapply einv_local; try done; unfold in_flight, ticking; rewrite ?Hpc, ?Htd; cbn [et_pc et_todo]; try done.
      apply Forall_app. split; [done|]. apply Forall_singleton. exists (es_ticked s). split; [done|].
      cbn. rewrite <- (e_ew _ _ _ _ _ I). reflexivity.
  - (* ELoad *)
    injection Hs as <- <-.
    eapply einv_local; try done; unfold in_flight, ticking; rewrite ?Hpc; cbn [et_pc et_todo]; try done.
  - (* ECas *)
    destruct (Z.eqb_spec (ew_uncounted (es_ewma s)) old) as [E|E]; injection Hs as <- <-.
    + eapply einv_local; try done; unfold in_flight, ticking; rewrite ?Hpc; cbn [et_pc et_todo es_ewma set_uncounted ew_uncounted]; try done.
      * f_equal. lia.
    + eapply einv_local; try done; unfold in_flight, ticking; rewrite ?Hpc; cbn [et_pc et_todo]; try done.
  - (* ELock *)
    destruct (es_locked s) eqn:Hl; [done|]. injection Hs as <- <-.
    pose proof (lookup_insert_cases ts i (EThread (et_todo t) (ERead count) (et_got t))) as HL.
    pose proof (e_lock _ _ _ _ _ I Hl) as Hno.
    destruct I. constructor; cbn [es_ewma es_locked es_ticked]; try done.
    + sums Hi. rewrite Hpc. rewrite <- e_sum0. f_equal. lia.
    + sums Hi. rewrite Hpc. lia.
    + intros _. eexists i, _. by rewrite list_lookup_insert.
    + intros j k tj tk Hj Hk Hhj Hhk.
      destruct (HL j tj Hlt Hj) as [[-> ->]|[Hnj Hj']], (HL k tk Hlt Hk) as [[-> ->]|[Hnk Hk']]; try done.
      * by rewrite (Hno _ _ Hk') in Hhk.
      * by rewrite (Hno _ _ Hj') in Hhj.
      * by rewrite (Hno _ _ Hj') in Hhj.
    + intros j u c r Hj Hu. destruct (HL j u Hlt Hj) as [[-> ->]|[Hnj Hj']]; [done|by eapply e_write0].
    + intros j u Hj. destruct (HL j u Hlt Hj) as [[-> ->]|[Hnj Hj']]; [done|by eapply e_got0].
  - (* ERead *)
    injection Hs as <- <-.
    eapply einv_local; try done; unfold in_flight, ticking; rewrite ?Hpc; cbn [et_pc et_todo]; try done.
    intros c r E. injection E as <- <-. unfold ew_TickN. cbn. by destruct (ew_initialized (es_ewma s)).
  - (* EWrite *)
    injection Hs as <- <-.
    pose proof (lookup_insert_cases ts i (EThread (et_todo t) EUnlock (et_got t))) as HL.
    assert (Hh : e_holds (et_pc t) = true) by (by rewrite Hpc).
    pose proof (e_write _ _ _ _ _ I i t count r Hi Hpc) as Hw.
    assert (Hlk : es_locked s = true).
    { destruct (es_locked s) eqn:Hl; [done|]. by rewrite (e_lock _ _ _ _ _ I Hl i t Hi) in Hh. }
    assert (Honly : forall j u, ts !! j = Some u -> j <> i -> e_holds (et_pc u) = false).
    { intros j u Hj Hne. destruct (e_holds (et_pc u)) eqn:E; [|done]. destruct Hne. by eapply (e_excl _ _ _ _ _ I). }
    destruct I. constructor; cbn [es_ewma es_locked es_ticked]; try done.
    + rewrite ticks_snoc, <- e_ew0. unfold ew_TickN in Hw |- *. cbn in Hw |- *.
      destruct (ew_initialized (es_ewma s)); cbn in Hw |- *; rewrite Hw; reflexivity.
    + sums Hi. rewrite Hpc. rewrite <- e_sum0. rewrite sumZ_app. cbn [ew_uncounted]. f_equal. cbn. lia.
    + sums Hi. rewrite Hpc. rewrite app_length. cbn. lia.
    + congruence.
    + intros _. eexists i, _. by rewrite list_lookup_insert.
    + intros j k tj tk Hj Hk Hhj Hhk.
      destruct (HL j tj Hlt Hj) as [[-> ->]|[Hnj Hj']], (HL k tk Hlt Hk) as [[-> ->]|[Hnk Hk']]; try done.
      * by rewrite (Honly _ _ Hk' Hnk) in Hhk.
      * by rewrite (Honly _ _ Hj' Hnj) in Hhj.
      * by rewrite (Honly _ _ Hj' Hnj) in Hhj.
    + intros j u c r' Hj Hu. destruct (HL j u Hlt Hj) as [[-> ->]|[Hnj Hj']]; [done|].
      pose proof (Honly j u Hj' Hnj) as Hx. by rewrite Hu in Hx.
    + intros j u Hj. destruct (HL j u Hlt Hj) as [[-> ->]|[Hnj Hj']]; apply got_ok_app; [done|by eapply e_got0].
  - (* EUnlock *)
    injection Hs as <- <-.
    pose proof (lookup_insert_cases ts i (EThread (et_todo t) EIdle (et_got t))) as HL.
    assert (Hh : e_holds (et_pc t) = true) by (by rewrite Hpc).
    assert (Hall : forall j u, <[i := EThread (et_todo t) EIdle (et_got t)]> ts !! j = Some u -> e_holds (et_pc u) = false).
    { intros j u Hj. destruct (HL j u Hlt Hj) as [[-> ->]|[Hne Hj']]; [done|].
      destruct (e_holds (et_pc u)) eqn:E; [|done]. destruct Hne. by eapply (e_excl _ _ _ _ _ I). }
    destruct I. constructor; cbn [es_ewma es_locked es_ticked]; try done.
    + sums Hi. rewrite Hpc. rewrite <- e_sum0. f_equal. lia.
    + sums Hi. rewrite Hpc. lia.
    + intros j k tj tk Hj Hk Hhj Hhk. by rewrite (Hall j tj Hj) in Hhj.
    + intros j u c r' Hj Hu. destruct (HL j u Hlt Hj) as [[-> ->]|[Hnj Hj']]; [done|by eapply e_write0].
    + intros j u Hj. destruct (HL j u Hlt Hj) as [[-> ->]|[Hnj Hj']]; [done|by eapply e_got0].
Qed.

Lemma ewma_conc_inv a iv progs sched :
  einv a iv progs (shared (ewma_crun a iv progs sched)) (threads (ewma_crun a iv progs sched)).
Proof.
  unfold ewma_crun.
  apply (crun_inv ewma_tstep (fun s _ => s) (fun c => einv a iv progs (shared c) (threads c))).
  - cbn. set (ts := (fun p : list ewma_call => EThread p EIdle []) <$> progs).
    assert (Ht : forall i t, ts !! i = Some t -> exists p, t = EThread p EIdle []).
    { intros i t Hi. subst ts. rewrite list_lookup_fmap in Hi. destruct (progs !! i); [|done]. injection Hi as <-. eauto. }
    assert (Hz : forall f : ethread -> Z, (forall p, f (EThread p EIdle []) = 0) -> sumZ (f <$> ts) = 0).
    { intros f Hf. subst ts. clear -Hf. induction progs as [|p ps IH]; [done|].
      cbn [fmap list_fmap]. rewrite sumZ_cons, Hf. fold (fmap (M:=list) (A:=list ewma_call) (B:=ethread)). rewrite IH. done. }
    constructor; cbn [es_ewma es_locked es_ticked]; try done.
    + rewrite (Hz in_flight) by done. cbn. subst ts. rewrite <- list_fmap_compose. reflexivity.
    + rewrite (Hz ticking) by done. cbn. subst ts. rewrite <- list_fmap_compose. reflexivity.
    + intros _ i t Hi. by destruct (Ht i t Hi) as [p ->].
    + intros i j ti tj Hi _ Hh. by destruct (Ht i ti Hi) as [p ->].
    + intros i t c r Hi Hu. by destruct (Ht i t Hi) as [p ->].
    + intros i t Hi. destruct (Ht i t Hi) as [p ->]. by apply Forall_nil.
  - intros s ts i t s' t' I Hi Hs. cbn in *. by eapply einv_step.
  - intros s ts [].
Qed.

Lemma ewma_conc_progress a iv progs sched :
  let c := ewma_crun a iv progs sched in
  ~ Forall ewma_done (threads c) -> exists i t s' t', threads c !! i = Some t /\ ewma_tstep (shared c) t = Some (s', t').
Proof.
  intros c Hd. pose proof (ewma_conc_inv a iv progs sched) as I. fold c in I.
  assert (Hrun : exists i t, threads c !! i = Some t /\ ~ ewma_done t /\
     (es_locked (shared c) = true -> e_holds (et_pc t) = true)).
  { destruct (es_locked (shared c)) eqn:Hl.
    - destruct (e_holder _ _ _ _ _ I Hl) as (i & t & Hi & Hh). exists i, t. split_and!; try done.
      intros [_ Hp]. by rewrite Hp in Hh.
    - clear -Hd. induction (threads c) as [|t ts IH]; [by destruct Hd|].
      assert (Hdec : ewma_done t \/ ~ ewma_done t).
      { unfold ewma_done. destruct (et_todo t), (et_pc t); (by left) || (right; intros [??]; done). }
      destruct Hdec as [Hy|Hn]; [|by exists 0%nat, t].
      destruct IH as (i & u & Hi & Hu); [|by exists (S i), u]. intros Hx. apply Hd. by constructor. }
  destruct Hrun as (i & t & Hi & Hnd & Hlk). exists i, t. unfold ewma_tstep.
  destruct (et_pc t) eqn:Hpc; try (by eauto).
  - destruct (et_todo t) as [|[n| |k|u] todo] eqn:Htd; [destruct Hnd; by split|..]; eauto.
  - destruct (_ =? _); eauto.
  - destruct (es_locked (shared c)); [by specialize (Hlk eq_refl)|]. eauto.
Qed.

Lemma ewma_conservation a iv progs sched :
  let c := ewma_crun a iv progs sched in
  wrap64 (ew_uncounted (es_ewma (shared c)) + sumZ (es_ticked (shared c)) + sumZ (in_flight <$> threads c)) =
  wrap64 (sumZ (events <$> progs) - sumZ ((fun t => events (et_todo t)) <$> threads c)).
Proof.
  intros c. pose proof (e_sum _ _ _ _ _ (ewma_conc_inv a iv progs sched)) as H. fold c in H.
  replace (sumZ (events <$> progs) - sumZ ((fun t => events (et_todo t)) <$> threads c))
    with (sumZ (events <$> progs) + - sumZ ((fun t => events (et_todo t)) <$> threads c)) by lia.
  rewrite <- (wrap64_add_l (sumZ (events <$> progs))), <- H, wrap64_add_l. f_equal. lia.
Qed.

Lemma done_sums (ts : list ethread) : Forall ewma_done ts ->
  sumZ (in_flight <$> ts) = 0 /\ sumZ (ticking <$> ts) = 0 /\
  sumZ ((fun t => events (et_todo t)) <$> ts) = 0 /\ sumZ ((fun t => tick_calls (et_todo t)) <$> ts) = 0.
Proof.
  induction 1 as [|t ts [H1 H2] _ (I1 & I2 & I3 & I4)]; [done|].
  cbn [fmap list_fmap]. rewrite !sumZ_cons. unfold in_flight at 1, ticking at 1. rewrite H1, H2.
  split_and!; [exact I1|exact I2|exact I3|exact I4].
Qed.

Lemma ewma_final a iv progs sched :
  let c := ewma_crun a iv progs sched in
  Forall ewma_done (threads c) ->
  wrap64 (ew_uncounted (es_ewma (shared c)) + sumZ (es_ticked (shared c))) = wrap64 (sumZ (events <$> progs)) /\
  Z.of_nat (length (es_ticked (shared c))) = sumZ (tick_calls <$> progs) /\
  ew_rate (es_ewma (shared c)) = ew_rate (ticks (newEWMA a iv) (es_ticked (shared c))).
Proof.
  intros c Hd. pose proof (ewma_conc_inv a iv progs sched) as I. fold c in I.
  destruct (done_sums _ Hd) as (D1 & D2 & D3 & D4). destruct I. split_and!.
  - rewrite <- e_sum0, D1, D3. f_equal. lia.
  - rewrite <- e_cnt0, D2, D4. lia.
  - by rewrite <- e_ew0.
Qed.
