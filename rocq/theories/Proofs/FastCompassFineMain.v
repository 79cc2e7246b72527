From Verif.Go Require Import GoInt GoConc.
From Verif.Model Require Import Counter BucketQueue BucketCounter FastCompass BucketCounterConc BucketReadConc FastCompassConc FastCompassFine.
From Verif.Spec Require Import CounterSpec BucketSpec BucketReadSpec FastCompassSpec FastCompassConcSpec FastCompassFineSpec.
From Verif.Proofs Require Import BucketAbs BucketHist BucketMain BucketConcMain BucketReadProofs BucketReadMain BucketRest FastCompassProofs FastCompassProps FastCompassConcProofs FastCompassFineProofs FastCompassFineRead.
Local Open Scope Z_scope.

Lemma recording_begun pc : is_adding pc = false -> recording pc = begun (cpc pc).
Proof.
  destruct pc as [|d cat ct u| | | | | ]; try done. cbn. unfold addingb. destruct u as [[|] pc]; [|done]. by destruct pc.
Qed.

Lemma recording_adding d cat ct u : addingb u = true -> recording (QUpdate d cat ct u) = [(d, cat)] /\ begun (cpc (QUpdate d cat ct u)) = [].
Proof. unfold addingb. destruct u as [[|] pc]; destruct pc; done. Qed.

Lemma adding_holds pc : is_adding pc = true -> holds_lock (cpc pc) = true.
Proof. destruct pc as [|d cat ct u| | | | | ]; try done. cbn. unfold addingb. by destruct (waitingb u). Qed.

(** The clock belongs to the environment. *)
Lemma ff_clock s t s' t' : ff_tstep s t = Some (s', t') -> fs_clock s' = fs_clock s.
Proof.
  intros Hs. unfold ff_tstep in Hs. destruct (fs_crashed s) eqn:Hc; [done|].
  destruct t as [todo pc got]. cbn [q_pc q_todo q_got] in Hs.
  destruct pc as [pc|d cat ct u|job order|job rest|g start result cat r rest|result cat rest|result cat p rest].
  - destruct (match pc with FIdle | FUpdate _ _ _ => true | _ => false end) eqn:Hk.
    { destruct pc; try done; [|by injection Hs as <- <-].
      destruct todo as [|[d cat|g st o|o] todo]; [done| |by injection Hs as <- <-|by injection Hs as <- <-].
      by destruct (_ || _); injection Hs as <- <-. }
    assert (Hs' : ff_at s (QThread todo (QAt pc) got) pc = Some (s', t')) by (by destruct pc).
    unfold ff_at in Hs'. destruct (fc_tstep s (FThread [] pc)) as [[s1 u1]|] eqn:Hst; [|done].
    injection Hs' as <- _. unfold fc_tstep in Hst. rewrite Hc in Hst. cbn [ft_pc ft_todo] in Hst.
    destruct pc; try done;
      repeat match type of Hst with context [if ?b then _ else _] => destruct b | context [match ?x with _ => _ end] => destruct x end; try done; by injection Hst as <- _.
  - destruct (finishedb u) eqn:Hfin.
    { assert (u = BThread [] PIdle) as ->. { destruct u as [[|] []]; done. } by injection Hs as <- _. }
    destruct (fc_subCategories (fs_fc s) !! cat) as [bc|] eqn:Hb; [|destruct u as [[|? ?] []]; done].
    destruct (bc_tstep (BcShared bc (fs_clock s)) u) as [[o u']|] eqn:Hu; destruct u as [[|? ?] []]; try done; by injection Hs as <- _.
  - destruct (fs_writing s); by injection Hs as <- _.
  - destruct (fs_writing s); by injection Hs as <- _.
  - destruct (rd_got r) as [|m got']; [|by injection Hs as <- _].
    destruct (_ !! cat); [|done]. destruct (rd_step _ _); [|done]. by injection Hs as <- _.
  - destruct (_ !! cat); [|done]. by injection Hs as <- _.
  - destruct (_ !! cat); [|done]. destruct (_ !! p); [|done]. by injection Hs as <- _.
Qed.

(** The three readings of a sum. *)
Lemma decode_reported g I cat recs k :
  decode g (wrap64 (sum_at k (crs I cat recs))) = reported g I (records_of cat recs) k.
Proof.
  pose proof (F3_sum k _ _ _ (F3_by_latest I _ _ _ (F3_hist _ (records_of_valid cat recs)) (-1000))) as H.
  unfold crs, reported. destruct (dec_of_sum _ _ _ H) as [H1 H2].
  destruct g; cbn [decode]; [exact H1|exact H2|exact H].
Qed.

Section fine.
Context (max interval N : Z) (recs0 : list fc_record) (fc0 : fast_compass) (now0 : Z) (progs : list (list qcall)).
Context (I1 : Second <= interval) (I2 : in64 interval) (I3 : 0 <= N).
Context (Hf : Forall (fun r => in64 (rc_time r)) recs0) (E : fc_exec max interval N recs0 = Ok fc0).
Notation Isec := (interval_seconds interval).
Notation n := (Z.to_nat N).
Notation FI := (FI max interval N recs0 fc0 progs).
Notation L := (landed fc0 progs now0).
Notation run := (ff_crun fc0 now0 progs).

Lemma run_FI s : fs_crashed (shared (run s)) = false -> FI (shared (run s)) (threads (run s)) (grun fc0 progs now0 s).2.
Proof. intros Hc. destruct (grun_inv max interval N recs0 fc0 progs I1 I2 I3 now0 s Hf E) as [H|H]; [congruence|done]. Qed.

Lemma run_rwf s i t : fs_crashed (shared (run s)) = false -> threads (run s) !! i = Some t -> rwf n (shared (run s)) t.
Proof.
  intros Hc Hi. destruct (grun_RI max interval N recs0 fc0 progs I1 I2 I3 now0 s Hf E) as [H|H]; [congruence|].
  by apply (proj1 (Forall_lookup _ _) H i).
Qed.

Lemma ff_linearizable s : let c := run s in fs_crashed (shared c) = false ->
  (forall i prog, progs !! i = Some prog -> exists t, threads c !! i = Some t /\
     valid_calls prog = log_of i (L s) ++ recording (q_pc t) ++ valid_calls (q_todo t)) /\
  (forall e, e ∈ L s -> (e.1 < length progs)%nat /\ rc_time e.2 ∈ fs_times (shared c) /\ rc_createTime e.2 ∈ fs_times (shared c)) /\
  ((fun e => (rc_duration e.2, rc_category e.2)) <$> L s) `prefix_of` fs_entered (shared c) /\
  (fs_locked (shared c) = false ->
     fs_entered (shared c) = (fun e => (rc_duration e.2, rc_category e.2)) <$> L s /\
     fc_exec max interval N (recs0 ++ (L s).*2) = Ok (fs_fc (shared c))).
Proof.
  intros c Hc. pose proof (run_FI s Hc) as HF. fold c in HF. unfold landed. destruct (grun fc0 progs now0 s).2 as [L P]. cbn [fst].
  destruct HF as [W HF]. destruct P as [[i r]|]; cbn [fst snd] in HF.
  - destruct HF as (fc' & t & d & cat & ct & u & bc & bc' & F & Hi & Hpc & Ha & Hd & Hcat & Hrest). clear Hrest.
    destruct F. split_and!.
    + intros j prog Hp. destruct (lookup_lt_is_Some_2 (threads c) j) as [tj Hj].
      { rewrite fmap_length in f_len. rewrite f_len, fmap_length. by apply lookup_lt_Some in Hp. }
      exists tj. split; [done|].
      specialize (f_progs j (crecords prog) (cview tj)). rewrite !list_lookup_fmap, Hp, Hj in f_progs.
      specialize (f_progs eq_refl eq_refl). cbn [ft_pc ft_todo cview] in f_progs. rewrite !accepted_crecords, log_of_snoc in f_progs.
      destruct (decide (i = j)) as [->|Hne].
      * rewrite Hi in Hj. injection Hj as <-. rewrite Hpc in f_progs |- *. destruct (recording_adding d cat ct u Ha) as [-> E2].
        rewrite E2, Hd, Hcat, <- app_assoc in f_progs. done.
      * rewrite app_nil_r in f_progs. rewrite recording_begun; [done|].
        destruct (is_adding (q_pc tj)) eqn:Haj; [|done]. exfalso. apply Hne.
        eapply f_excl; [by rewrite list_lookup_fmap, Hi|by rewrite list_lookup_fmap, Hj|..]; cbn; apply adding_holds; [|done].
        by rewrite Hpc.
    + intros e He. assert (He' : e ∈ L ++ [(i, r)]) by (apply elem_of_app; by left).
      rewrite Forall_forall in f_times. destruct (f_times e He') as (_ & ? & ?).
      split_and!; try done. rewrite <- (fmap_length crecords). by apply f_tids.
    + destruct f_entered as [_ H2]. change (fs_entered (with_fc (shared c) fc')) with (fs_entered (shared c)) in H2. rewrite (H2 i (cview t)), fmap_app; [|by rewrite list_lookup_fmap, Hi|].
      * rewrite <- app_assoc. by apply prefix_app_r.
      * cbn. apply adding_holds. by rewrite Hpc.
    + intros Hl. exfalso. specialize (f_lock Hl i (cview t)). rewrite list_lookup_fmap, Hi in f_lock. specialize (f_lock eq_refl).
      cbn in f_lock. rewrite adding_holds in f_lock; [done|]. by rewrite Hpc.
  - destruct HF as [F HA]. destruct F. split_and!.
    + intros j prog Hp. destruct (lookup_lt_is_Some_2 (threads c) j) as [tj Hj].
      { rewrite fmap_length in f_len. rewrite f_len, fmap_length. by apply lookup_lt_Some in Hp. }
      exists tj. split; [done|].
      specialize (f_progs j (crecords prog) (cview tj)). rewrite !list_lookup_fmap, Hp, Hj in f_progs.
      specialize (f_progs eq_refl eq_refl). cbn [ft_pc ft_todo cview] in f_progs. rewrite !accepted_crecords in f_progs.
      rewrite recording_begun; [done|]. by apply (proj1 (Forall_lookup _ _) HA j).
    + intros e He. rewrite Forall_forall in f_times. destruct (f_times e He) as (_ & ? & ?).
      split_and!; try done. rewrite <- (fmap_length crecords). by apply f_tids.
    + destruct f_entered as [H1 H2]. destruct (fs_locked (shared c)) eqn:Hl.
      * destruct (f_holder eq_refl) as (i & t & Hi & Hh). rewrite (H2 i t Hi Hh). by apply prefix_app_r.
      * rewrite H1 by done. done.
    + intros Hl. split; [by apply f_entered|]. destruct f_log as (fcs & E' & _ & H1 & _). by rewrite H1.
Qed.

Lemma ff_done_unlocked s : let c := run s in fs_crashed (shared c) = false -> Forall q_done (threads c) -> fs_locked (shared c) = false.
Proof.
  intros c Hc Hd. pose proof (run_FI s Hc) as [_ HF]. fold c in HF. destruct (fs_locked (shared c)) eqn:Hl; [exfalso|done].
  assert (Hx : exists fc' log, finv max interval N recs0 fc0 (crecords <$> progs) (with_fc (shared c) fc') (cview <$> threads c) log).
  { destruct (grun fc0 progs now0 s).2 as [L [[i r]|]]; cbn in HF.
    - destruct HF as (fc' & t & d & cat & ct & u & bc & bc' & F & _). eauto.
    - exists (fs_fc (shared c)), L. rewrite with_fc_same. apply HF. }
  destruct Hx as (fc' & log & F). destruct (f_holder _ _ _ _ _ _ _ _ _ F Hl) as (j & t & Hj & Hh).
  rewrite list_lookup_fmap in Hj. destruct (threads c !! j) as [t0|] eqn:Ht; [|done]. injection Hj as <-.
  destruct (proj1 (Forall_lookup _ _) Hd _ _ Ht) as [_ Hp]. cbn in Hh. by rewrite Hp in Hh.
Qed.

(** ** The content of what a getter returns *)
Lemma clock_in64 s : fs_crashed (shared (run s)) = false -> in64 (fs_clock (shared (run s))).
Proof.
  intros Hc. pose proof (run_FI s Hc) as [_ HF]. destruct (grun fc0 progs now0 s).2 as [L [[i r]|]]; cbn in HF.
  - destruct HF as (fc' & t & d & cat & ct & u & bc & bc' & F & _). apply (f_clock _ _ _ _ _ _ _ _ _ F).
  - apply (f_clock _ _ _ _ _ _ _ _ _ (proj1 HF)).
Qed.

Lemma ff_clock_shown s1 s : in64 (fs_clock (shared (run s1))) -> fs_clock (shared (run (s1 ++ s))) ∈ clock_values (fs_clock (shared (run s1))) s.
Proof.
  intros Hc. induction s as [|ev s IH] using rev_ind; [rewrite app_nil_r; unfold clock_values; rewrite wrap64_id by done; by left|].
  unfold ff_crun in *. rewrite app_assoc, crun_snoc, clock_values_app. destruct (crun _ _ _ (s1 ++ s)) as [sh ts].
  destruct ev as [i|e]; cbn [cstep shared threads omap list_omap].
  - rewrite app_nil_r. destruct (ts !! i) as [t|]; [|done]. destruct (ff_tstep sh t) as [[s' t']|] eqn:Hs; [|done].
    cbn [shared] in *. by rewrite (ff_clock _ _ _ _ Hs).
  - apply elem_of_app. right. by left.
Qed.

Lemma ext_run s1 s : fs_crashed (shared (run (s1 ++ s))) = false -> ext (shared (run s1)) (shared (run (s1 ++ s))).
Proof.
  induction s as [|ev s IH] using rev_ind; [rewrite app_nil_r; intros _; by apply ext_same|].
  rewrite app_assoc. intros Hc. pose proof (crashed_app _ _ _ _ _ Hc) as Hc'. specialize (IH Hc'). pose proof (run_FI _ Hc') as HF.
  eapply ext_trans; [exact IH|]. unfold ff_crun in *. rewrite crun_snoc. destruct (crun _ _ _ (s1 ++ s)) as [sh ts]. cbn [shared threads] in *.
  destruct ev as [i|e]; cbn [cstep shared threads]; [|by apply ext_same].
  destruct (ts !! i) as [t|] eqn:Hi; [|by apply ext_same]. destruct (ff_tstep sh t) as [[s' t']|] eqn:Hs; [|by apply ext_same].
  eapply FI_ext; done.
Qed.

Section call.
Context (s1 : list (event Z)) (i : nat) (g : getter) (st : Z) (order : list string) (todo : list qcall) (got : list qjob).
Context (Hst : -1000 < st).
Notation at_ s := (run (s1 ++ s)).
Notation before := (subs (shared (run s1))).

(** The raw sums of one counter. *)
Definition raw (cat : string) (s : list (event Z)) (cts : Z) (m : gmap Z Z) : Prop :=
  (exists now, now ∈ clock_values (fs_clock (shared (run s1))) s /\ cts = Isec * Z.quot now (1000 * Isec)) /\
  forall k v, m !! k = Some v -> st <= k <= 1000 * cts /\
    exists s', s' `prefix_of` s /\ v = wrap64 (sum_at k (crs Isec cat (recs0 ++ (L (s1 ++ s')).*2))).

Lemma raw_mono cat s ev cts m : raw cat s cts m -> raw cat (s ++ [ev]) cts m.
Proof.
  intros [(now & Hn & ->) H]. split; [exists now; split; [by apply clock_values_prefix|done]|].
  intros k v Hk. destruct (H k v Hk) as (? & s' & ? & ?). split; [done|]. exists s'. split; [by apply prefix_app_r|done].
Qed.

Definition pc_raw (cat : string) (s : list (event Z)) (pc : rdpc) : Prop :=
  match pc with
  | RIdle => False
  | RClock start => start = st
  | RCur start cts | RCur2 start cts _ | RTop start cts _ _ | RLoop1 start cts _ _ _ _ | RLoop2 start cts _ _ _ _ =>
      start = st /\ raw cat s cts ∅
  | RFill start cts _ m => start = st /\ raw cat s cts m
  end.

Definition rgood (cat : string) (s : list (event Z)) (r : rdthread) : Prop :=
  rd_todo r = [] /\
  ((rd_got r = [] /\ pc_raw cat s (rd_pc r)) \/
   exists m cts, rd_got r = [m] /\ (size m <= n)%nat /\ raw cat s cts m).

(** What has been computed for the categories dealt with. *)
Definition good (s : list (event Z)) (res : gmap string (gmap Z Z)) : Prop :=
  forall cat m, res !! cat = Some m -> is_Some (subs (shared (at_ s)) !! cat) /\ (size m <= n)%nat /\
    exists now, now ∈ clock_values (fs_clock (shared (run s1))) s /\
    forall k v, m !! k = Some v -> st <= k <= trunc_key Isec now /\
      exists s', s' `prefix_of` s /\ v = reported g Isec (records_of cat (recs0 ++ (L (s1 ++ s')).*2)) k.

Definition cover (res : gmap string (gmap Z Z)) (rest : list string) : Prop :=
  forall cat, is_Some (before !! cat) -> is_Some (res !! cat) \/ cat ∈ rest.

Definition gstage (s : list (event Z)) (t : qthread) : Prop :=
  t = QThread (QGet g st order :: todo) (QAt FIdle) got \/
  (q_todo t = todo /\ q_got t = got /\
   match q_pc t with
   | QStart job o => job = JMap g st ∅ /\ o = order
   | QIter job rest => exists res, job = JMap g st res /\ good s res /\ cover res rest
   | QRead g' st' res cat r rest => g' = g /\ st' = st /\ good s res /\ cover res (cat :: rest) /\ rgood cat s r
   | _ => False
   end) \/
  (exists res more, q_got t = got ++ JMap g st res :: more /\ good s res /\ cover res []).

Lemma good_mono s ev res : fs_crashed (shared (at_ (s ++ [ev]))) = false -> good s res -> good (s ++ [ev]) res.
Proof.
  intros Hc H cat m Hm. destruct (H cat m Hm) as ([bc Hb] & Hsz & now & Hn & Hkv). rewrite app_assoc in Hc.
  destruct (ext_run (s1 ++ s) [ev] Hc cat bc Hb) as (bc' & Hb' & _). rewrite <- app_assoc in Hb'.
  split; [eauto|]. split; [done|]. exists now. split; [by apply clock_values_prefix|].
  intros k v Hk. destruct (Hkv k v Hk) as (? & s' & ? & ?). split; [done|]. exists s'. split; [by apply prefix_app_r|done].
Qed.

Lemma rgood_mono cat s ev r : rgood cat s r -> rgood cat (s ++ [ev]) r.
Proof.
  intros [Ht [[Hg H]|(m & cts & ? & ? & ?)]]; (split; [done|]); [left|right].
  - split; [done|]. destruct (rd_pc r); cbn in *; try done; destruct H; (split; [done|by apply raw_mono]).
  - exists m, cts. split; [done|]. split; [done|]. by apply raw_mono.
Qed.

Lemma gstage_mono s ev t : fs_crashed (shared (at_ (s ++ [ev]))) = false -> gstage s t -> gstage (s ++ [ev]) t.
Proof.
  intros Hc [?|[(Ht & Hg & H)|(res & more & ? & ? & ?)]]; [by left|right; left|right; right].
  - split; [done|]. split; [done|]. destruct (q_pc t); try done.
    + destruct H as (res & ? & ? & ?). exists res. split; [done|]. split; [by apply good_mono|done].
    + destruct H as (? & ? & ? & ? & ?). split; [done|]. split; [done|]. split; [by apply good_mono|]. split; [done|by apply rgood_mono].
  - exists res, more. split; [done|]. split; [by apply good_mono|done].
Qed.

Lemma rgood_step cat s r r' bc : fs_crashed (shared (at_ s)) = false -> subs (shared (at_ s)) !! cat = Some bc ->
  rd_ok n (bc_heap bc) (rd_pc r) -> rgood cat s r -> rd_got r = [] ->
  rd_step (BcShared bc (fs_clock (shared (at_ s)))) r = Some r' -> rgood cat s r'.
Proof.
  intros Hc Hb Hok (Ht & Hor) Hg Hs. destruct Hor as [[_ H]|(m & cts & Hm & _)]; [|by rewrite Hg in Hm].
  destruct (FI_hok _ _ _ _ _ _ I1 I2 I3 _ _ _ _ _ (run_FI _ Hc) Hb) as [lo Hhok].
  change ((grun fc0 progs now0 (s1 ++ s)).2.1) with (L (s1 ++ s)) in Hhok.
  pose proof (h_int _ _ _ _ _ Hhok) as Hint. pose proof (clock_in64 _ Hc) as Hclk.
  unfold rd_step in Hs. cbv zeta in Hs. rewrite Ht, Hg in Hs. cbn [bs_bc bs_clock] in Hs.
  unfold rgood.
  destruct (rd_pc r) as [|start|start cts|start cts pos|start cts pos j|start cts pos sts [|j] acc|start cts pos sts j acc|start cts [|p l] result]; cbn [pc_raw] in H.
  - done.
  - rewrite Hint, alignTimestamp_spec in Hs by (try done; by apply interval_seconds_pos). injection Hs as <-. split; [done|]. left. split; [done|].
    split; [done|]. split; [|by intros k v Hk]. eexists. split; [|done]. apply ff_clock_shown.
    eapply clock_in64, crashed_app. exact Hc.
  - injection Hs as <-. split; [done|]. by left.
  - injection Hs as <-. split; [done|]. by left.
  - destruct (_ !! j) as [p|]; [|done]. cbn in Hs. destruct (_ !! p) as [b|]; [|done]. cbn in Hs. injection Hs as <-. split; [done|]. by left.
  - injection Hs as <-. split; [done|]. by left.
  - destruct (_ <? _)%nat.
    + destruct (_ !! j) as [p|]; [|done]. cbn in Hs. injection Hs as <-. split; [done|]. by left.
    + injection Hs as <-. split; [done|]. by left.
  - destruct (_ <? _)%nat.
    + destruct (_ !! j) as [p|]; [|done]. cbn in Hs. destruct (_ !! p) as [b|]; [|done]. cbn in Hs. injection Hs as <-. split; [done|]. by left.
    + injection Hs as <-. split; [done|]. by left.
  - injection Hs as <-. split; [done|]. right. destruct H as [_ H]. exists result, cts. split; [done|]. split; [|done]. cbn in Hok. lia.
  - destruct (_ !! p) as [b|] eqn:Hb2; [|done]. cbn [mbind option_bind] in Hs. injection Hs as <-. split; [done|]. left. split; [done|].
    destruct H as [-> [Hcl Hf2]]. split; [done|]. split; [done|]. intros k v.
    assert (Hms : wrap64 (secondToMsRate * bk_ts b) = key b).
    { unfold secondToMsRate. rewrite wrap64_id; [done|]. exact (h_in64 _ _ _ _ _ Hhok _ _ Hb2). }
    rewrite Hms. destruct (Z.leb_spec st (key b)); cbn [andb]; [|apply Hf2]. destruct (Z.leb_spec (bk_ts b) cts); [|apply Hf2].
    rewrite lookup_insert_Some. intros [[<- <-]|[_ Hk]]; [|by apply Hf2].
    split; [unfold key in *; lia|]. exists s. split; [done|].
    destruct (h_count _ _ _ _ _ Hhok _ _ Hb2) as [Hm1|Hcnt]; [|done]. unfold key in *. lia.
Qed.

Lemma gstage_next s t rest res : fs_crashed (shared (at_ s)) = false -> q_todo t = todo -> q_got t = got ->
  good s res -> cover res rest -> gstage s (next_entry (shared (at_ s)) t (JMap g st res) rest).
Proof.
  intros Hc Ht Hg Hgood Hcov. unfold next_entry. rewrite Ht, Hg. destruct rest as [|cat rest].
  - right. right. exists res, []. done.
  - right. left. split; [done|]. split; [done|]. cbn [q_pc]. destruct (_ !! cat) as [bc|] eqn:Hb.
    + split; [done|]. split; [done|]. split; [done|]. split; [done|]. split; [done|]. left. done.
    + exists res. split; [done|]. split; [done|]. intros cat' [bc' Hb']. destruct (Hcov cat') as [?|Hin]; [eauto|by left|].
      apply elem_of_cons in Hin as [->|?]; [|by right]. exfalso.
      destruct (ext_run s1 s Hc cat bc' Hb') as (bc2 & Hb2 & _). unfold subs in Hb2. congruence.
Qed.

Lemma iteration_all {A} o (m : gmap string A) cat : is_Some (m !! cat) -> cat ∈ iteration o m.
Proof.
  intros [x Hx]. unfold iteration. apply elem_of_app. destruct (decide (cat ∈ o)); [left; by apply elem_of_remove_dups|right].
  apply elem_of_list_filter. split; [done|]. apply elem_of_list_fmap. exists (cat, x). split; [done|]. by apply elem_of_map_to_list.
Qed.

(** A later call adds to the results. *)
Lemma ff_got s t s' t' : ff_tstep s t = Some (s', t') -> exists more, q_got t' = q_got t ++ more.
Proof.
  assert (Hn : forall job rest, exists more, q_got (next_entry s t job rest) = q_got t ++ more).
  { intros job rest. unfold next_entry. destruct rest as [|cat rest]; [by exists [job]|exists []; by rewrite app_nil_r]. }
  assert (Hid : exists more, q_got t = q_got t ++ more) by (exists []; by rewrite app_nil_r).
  intros Hs. unfold ff_tstep in Hs. destruct (fs_crashed s) eqn:Hc; [done|].
  destruct (q_pc t) as [pc|d cat ct u|job order'|job rest|g' start result cat r rest|result cat rest|result cat p rest].
  - destruct (match pc with FIdle | FUpdate _ _ _ => true | _ => false end) eqn:Hk.
    { destruct pc; try done; [|by injection Hs as _ <-].
      destruct (q_todo t) as [|[d cat|g' st' o|o] td]; [done| |by injection Hs as _ <-|by injection Hs as _ <-].
      by destruct (_ || _); injection Hs as _ <-. }
    assert (Hs' : ff_at s t pc = Some (s', t')) by (by destruct pc).
    unfold ff_at in Hs'. destruct (fc_tstep s (FThread [] pc)) as [[s2 u2]|] eqn:Hst2; [|done]. by injection Hs' as _ <-.
  - destruct (finishedb u) eqn:Hfin.
    { assert (u = BThread [] PIdle) as ->. { destruct u as [[|] []]; done. } by injection Hs as _ <-. }
    destruct (fc_subCategories (fs_fc s) !! cat) as [bc|] eqn:Hb; [|destruct u as [[|? ?] []]; done].
    destruct (bc_tstep (BcShared bc (fs_clock s)) u) as [[o u']|] eqn:Hu; destruct u as [[|? ?] []]; try done; by injection Hs as _ <-.
  - destruct (fs_writing s); by injection Hs as _ <-.
  - destruct (fs_writing s); by injection Hs as _ <-.
  - destruct (rd_got r) as [|m got']; [|by injection Hs as _ <-].
    destruct (_ !! cat); [|done]. destruct (rd_step _ _); [|done]. by injection Hs as _ <-.
  - destruct (_ !! cat); [|done]. by injection Hs as _ <-.
  - destruct (_ !! cat); [|done]. destruct (_ !! p); [|done]. by injection Hs as _ <-.
Qed.

(** A step of the goroutine. *)
Lemma gstage_step s t s' t' : fs_crashed (shared (at_ s)) = false -> fs_crashed s' = false -> threads (at_ s) !! i = Some t ->
  gstage s t -> ff_tstep (shared (at_ s)) t = Some (s', t') -> gstage s t'.
Proof.
  intros Hc Hc' Hi Hg Hs. pose proof (run_rwf _ _ _ Hc Hi) as Hr.
  destruct Hg as [->|[(Ht & Hg & H)|(res & more & Hg & Hgood & Hcov)]].
  - unfold ff_tstep in Hs. rewrite Hc in Hs. cbn in Hs. injection Hs as <- <-. right. left. done.
  - unfold ff_tstep in Hs. rewrite Hc in Hs. unfold rwf in Hr. destruct (q_pc t) as [| |job o|job rest|g' st' res cat r rest| |] eqn:Hpc; try done.
    + destruct H as [-> ->]. destruct (fs_writing (shared (at_ s))). { injection Hs as <- <-. done. }
      injection Hs as <- <-. apply gstage_next; try done.
      intros cat [bc Hb]. right. apply iteration_all. destruct (ext_run s1 s Hc cat bc Hb) as (bc' & Hb' & _). eauto.
    + destruct H as (res & -> & Hgood & Hcov). destruct (fs_writing (shared (at_ s))). { injection Hs as <- <-. done. }
      injection Hs as <- <-. by apply gstage_next.
    + destruct H as (-> & -> & Hgood & Hcov & Hrg). destruct Hr as (bc & Hb & Htd & Hor).
      destruct (rd_got r) as [|m got'] eqn:Eg.
      * unfold subs in Hb. rewrite Hb in Hs. destruct (rd_step _ r) as [r'|] eqn:Er; [|done]. injection Hs as <- <-.
        destruct Hor as [(_ & _ & Hok)|[? ?]]; [|done].
        right. left. cbn. split; [done|]. split; [done|]. split; [done|]. split; [done|]. split; [done|]. split; [done|].
        eapply rgood_step; done.
      * injection Hs as <- <-. destruct Hor as [(Hx & _)|[m' Hx]]; [done|]. injection Hx as -> ->.
        destruct Hrg as [_ [[Hx _]|(m & cts & Hm & Hsz & (now & Hn & Hcts) & Hraw)]]; [congruence|].
        rewrite Eg in Hm. injection Hm as ->.
        right. left. cbn. split; [done|]. split; [done|]. eexists. split; [done|]. split.
        -- intros cat' m'. rewrite lookup_insert_Some. intros [[<- <-]|[Hne Hm']]; [|by apply Hgood].
           split; [eauto|]. split; [by rewrite map_size_fmap|]. exists now. split; [done|].
           intros k v. rewrite lookup_fmap_Some. intros (v0 & <- & Hv0). destruct (Hraw k v0 Hv0) as (Hk & s' & Hp & ->).
           split; [unfold trunc_key; lia|]. exists s'. split; [done|]. apply decode_reported.
        -- intros cat' Hin. rewrite lookup_insert_is_Some. destruct (decide (cat = cat')); [by left; left|].
           destruct (Hcov cat' Hin) as [?|Hin']; [left; by right|]. apply elem_of_cons in Hin' as [?|?]; [congruence|by right].
  - destruct (ff_got _ _ _ _ Hs) as (more' & Hm). right. right. exists res, (more ++ more'). split; [|done].
    by rewrite Hm, Hg, <- app_assoc.
Qed.

Lemma gstage_run s : threads (run s1) !! i = Some (QThread (QGet g st order :: todo) (QAt FIdle) got) ->
  fs_crashed (shared (at_ s)) = false -> exists t, threads (at_ s) !! i = Some t /\ gstage s t.
Proof.
  intros Hi. induction s as [|ev s IH] using rev_ind.
  { rewrite app_nil_r. intros _. eexists. split; [exact Hi|by left]. }
  intros Hc. pose proof Hc as Hc0. rewrite app_assoc in Hc. pose proof (crashed_app _ _ _ _ _ Hc) as Hc1.
  destruct (IH Hc1) as (t & Ht & Hg).
  assert (Hm : forall t', gstage s t' -> gstage (s ++ [ev]) t') by (intros t'; by apply gstage_mono).
  pose proof (fun s' t' => gstage_step s t s' t' Hc1) as Hstep.
  rewrite app_assoc. unfold ff_crun in *. rewrite crun_snoc in Hc |- *. destruct (crun _ _ _ (s1 ++ s)) as [sh ts]. cbn [shared threads] in *.
  destruct ev as [j|e]; cbn [cstep shared threads] in Hc |- *.
  2:{ exists t. split; [done|]. by apply Hm. }
  destruct (ts !! j) as [u|] eqn:Hj; [|exists t; split; [done|by apply Hm]].
  destruct (ff_tstep sh u) as [[sh' u']|] eqn:Hs; [|exists t; split; [done|by apply Hm]].
  cbn [threads shared] in *. destruct (decide (j = i)) as [->|Hne].
  - rewrite Ht in Hj. injection Hj as <-. exists u'. rewrite list_lookup_insert by (by apply lookup_lt_Some in Ht). split; [done|].
    apply Hm. exact (Hstep sh' u' Hc Ht Hg Hs).
  - exists t. rewrite list_lookup_insert_ne by done. split; [done|]. by apply Hm.
Qed.
End call.

Lemma ff_getter_content s1 s2 i g st order todo got res :
  fs_crashed (shared (run (s1 ++ s2))) = false ->
  threads (run s1) !! i = Some (QThread (QGet g st order :: todo) (QAt FIdle) got) ->
  threads (run (s1 ++ s2)) !! i = Some (QThread todo (QAt FIdle) (got ++ [JMap g st res])) ->
  -1000 < st ->
  (forall cat, is_Some (fc_subCategories (fs_fc (shared (run s1))) !! cat) -> is_Some (res !! cat)) /\
  forall cat m, res !! cat = Some m ->
    is_Some (fc_subCategories (fs_fc (shared (run (s1 ++ s2)))) !! cat) /\
    (size m <= Z.to_nat N)%nat /\
    exists now, now ∈ clock_values (fs_clock (shared (run s1))) s2 /\
    forall k v, m !! k = Some v -> st <= k <= trunc_key Isec now /\
      exists s', s' `prefix_of` s2 /\ v = reported g Isec (records_of cat (recs0 ++ (L (s1 ++ s')).*2)) k.
Proof.
  intros Hc Hi Hi' Hst. destruct (gstage_run s1 i g st order todo got Hst s2 Hi Hc) as (t & Ht & Hg).
  rewrite Hi' in Ht. injection Ht as <-.
  destruct Hg as [Hx|[(_ & Hg & _)|(res' & more & Hg & Hgood & Hcov)]].
  - exfalso. injection Hx as Hx _. apply (f_equal length) in Hx. cbn in Hx. lia.
  - exfalso. cbn in Hg. apply (f_equal length) in Hg. rewrite app_length in Hg. cbn in Hg. lia.
  - cbn in Hg. apply app_inv_head in Hg. injection Hg as <- _. split; [|exact Hgood].
    intros cat Hin. destruct (Hcov cat Hin) as [?|Hx]; [done|by apply elem_of_nil in Hx].
Qed.
End fine.

(** ** Within the capacity of the packed numbers *)
Lemma by_latest_snd lo I h : (by_latest lo I h).*2 = h.*2.
Proof. revert lo. induction h as [|[t x] h IH]; intros lo; [done|]. cbn. by rewrite IH. Qed.

Lemma sum_at_bound k (h : list (Z * Z)) : Forall (fun x => 0 <= x) h.*2 -> 0 <= sum_at k h <= sumZ h.*2.
Proof.
  unfold sum_at. induction h as [|[a x] h IH]; intros H; [done|]. cbn in H. pose proof (Forall_inv H) as Hx. apply Forall_inv_tail in H.
  specialize (IH H). cbn beta in Hx. rewrite filter_cons. cbn [fst].
  destruct (decide (a = k)); rewrite ?fmap_cons, ?sumZ_cons; cbn [snd]; lia.
Qed.

Lemma reported_exact I recs k : Forall valid_record recs ->
  Z.of_nat (length recs) < 2 ^ 26 -> sumZ (durations_ms recs).*2 < 2 ^ 38 ->
  reported GCount I recs k = sum_at k (by_latest (-1000) I (invocations recs)) /\
  reported GRt I recs k = sum_at k (by_latest (-1000) I (durations_ms recs)).
Proof.
  intros Hv Hc Hm.
  assert (H1 : Forall (fun x => 0 <= x) (by_latest (-1000) I (invocations recs)).*2 /\ sumZ (by_latest (-1000) I (invocations recs)).*2 = Z.of_nat (length recs)).
  { rewrite by_latest_snd. unfold invocations. clear. induction recs as [|r recs [IH1 IH2]]; [split; [constructor|reflexivity]|]. rewrite !fmap_cons.
    split; [constructor; [cbn; lia|done]|]. rewrite sumZ_cons, IH2. cbn [snd length]. lia. }
  assert (H2 : Forall (fun x => 0 <= x) (by_latest (-1000) I (durations_ms recs)).*2).
  { rewrite by_latest_snd. unfold durations_ms. clear -Hv. induction Hv as [|r recs [Hr _] _ IH]; [constructor|]. cbn [fmap list_fmap]. constructor; [|exact IH].
    cbn. apply Z.div_pos; lia. }
  pose proof (sum_at_bound k _ (proj1 H1)) as B1. pose proof (sum_at_bound k _ H2) as B2. rewrite by_latest_snd in B2. rewrite (proj2 H1) in B1.
  unfold reported. split.
  - rewrite (Z.div_small (sum_at k (by_latest (-1000) I (durations_ms recs)))) by lia. rewrite Z.add_0_r. apply Z.mod_small. lia.
  - apply Z.mod_small. lia.
Qed.
