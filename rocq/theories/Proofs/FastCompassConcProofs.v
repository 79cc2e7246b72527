From Verif.Go Require Import GoInt GoConc.
From Verif.Model Require Import Counter BucketQueue BucketCounter FastCompass FastCompassConc.
From Verif.Spec Require Import BucketSpec FastCompassSpec FastCompassConcSpec.
From Verif.Proofs Require Import BucketAbs BucketHist BucketMain FastCompassProofs.
Local Open Scope Z_scope.

Lemma accepted_cons c l : accepted (c :: l) = accepted [c] ++ accepted l.
Proof. unfold accepted. cbn. by rewrite app_nil_r. Qed.

Lemma log_of_snoc i log j r : log_of i (log ++ [(j, r)]) =
  log_of i log ++ (if decide (j = i) then [(rc_duration r, rc_category r)] else []).
Proof. unfold log_of. rewrite filter_app, fmap_app. f_equal. rewrite filter_cons, filter_nil. cbn. by destruct (decide _). Qed.

Lemma valid_cond d cat : ((d <? 0) || (Z.of_nat (String.length cat) <=? 0)) = false <-> (0 <= d /\ cat <> ""%string).
Proof.
  pose proof (valid_bool (FcRecord 0 0 d cat)) as V. cbn [rc_duration rc_category] in V. rewrite V. destruct (bool_decide_reflect (valid_record (FcRecord 0 0 d cat))); cbn; unfold valid_record in *; cbn in *; intuition congruence.
Qed.

(** What the shared compass looks like, [fcs] being the compass after the log. *)
Definition midstate (fcs fc : fast_compass) (pc : fpc) : Prop :=
  match pc with
  | FCreate d cat => fc = fcs /\ fc_subCategories fcs !! cat = None /\
      Z.of_nat (size (fc_subCategories fcs)) < fc_maxSubCategoryCount fcs
  | FAssign d cat ct bc | FAssigning d cat ct bc => fc = fcs /\ fc_subCategories fcs !! cat = None /\
      Z.of_nat (size (fc_subCategories fcs)) < fc_maxSubCategoryCount fcs /\
      newBucketCounterImpl (fc_bucketInterval fcs) (fc_numberOfBuckets fcs) ct false = Ok bc
  | FUpdate d cat None => fc = fcs /\ is_Some (fc_subCategories fcs !! cat)
  | FUpdate d cat (Some ct) => exists bc, fc = set_sub fcs (<[cat := bc]> (fc_subCategories fcs)) /\
      fc_subCategories fcs !! cat = None /\
      Z.of_nat (size (fc_subCategories fcs)) < fc_maxSubCategoryCount fcs /\
      newBucketCounterImpl (fc_bucketInterval fcs) (fc_numberOfBuckets fcs) ct false = Ok bc
  | _ => fc = fcs
  end.

Definition pc_valid (pc : fpc) : Prop := Forall (fun e => 0 <= e.1 /\ e.2 <> ""%string) (begun pc).

Record finv (max interval N : Z) (recs0 : list fc_record) (fc0 : fast_compass) (progs : list (list fc_call))
  (s : fc_shared) (ts : list fthread) (log : list (nat * fc_record)) : Prop := {
  f_crash : fs_crashed s = false;
  f_clock : in64 (fs_clock s);
  f_clockin : fs_clock s ∈ fs_times s;
  f_log : exists fcs, fc_exec max interval N (recs0 ++ log.*2) = Ok fcs /\
     fc_inv max interval N (recs0 ++ log.*2) fcs /\
     (fs_locked s = false -> fs_fc s = fcs) /\
     (forall i t, ts !! i = Some t -> holds_lock (ft_pc t) = true -> midstate fcs (fs_fc s) (ft_pc t));
  f_times : Forall (fun e => in64 (rc_time e.2) /\ rc_time e.2 ∈ fs_times s /\ rc_createTime e.2 ∈ fs_times s) log;
  f_pre : Forall (fun r => in64 (rc_time r)) recs0;
  f_lock : fs_locked s = false -> forall i t, ts !! i = Some t -> holds_lock (ft_pc t) = false;
  f_holder : fs_locked s = true -> exists i t, ts !! i = Some t /\ holds_lock (ft_pc t) = true;
  f_excl : forall i j ti tj, ts !! i = Some ti -> ts !! j = Some tj ->
      holds_lock (ft_pc ti) = true -> holds_lock (ft_pc tj) = true -> i = j;
  f_wr : fs_writing s = true -> exists i t, ts !! i = Some t /\ exists d cat ct bc, ft_pc t = FAssigning d cat ct bc;
  f_valid : forall i t, ts !! i = Some t -> pc_valid (ft_pc t);
  f_ct : forall i t d cat ct, ts !! i = Some t ->
      (ft_pc t = FUpdate d cat (Some ct) \/ (exists bc, ft_pc t = FAssign d cat ct bc \/ ft_pc t = FAssigning d cat ct bc)) ->
      ct ∈ fs_times s;
  f_entered : (fs_locked s = false -> fs_entered s = (fun e => (rc_duration e.2, rc_category e.2)) <$> log) /\
      (forall i t, ts !! i = Some t -> holds_lock (ft_pc t) = true ->
         fs_entered s = ((fun e => (rc_duration e.2, rc_category e.2)) <$> log) ++ begun (ft_pc t));
  f_len : length ts = length progs;
  f_tids : forall e, e ∈ log -> (e.1 < length progs)%nat;
  f_progs : forall i prog t, progs !! i = Some prog -> ts !! i = Some t ->
      accepted prog = log_of i log ++ begun (ft_pc t) ++ accepted (ft_todo t)
}.

(** Steps that change only one goroutine (and the lock not at all). *)
Lemma finv_pc max interval N recs0 fc0 progs s ts log i t t' :
  finv max interval N recs0 fc0 progs s ts log -> ts !! i = Some t ->
  holds_lock (ft_pc t') = holds_lock (ft_pc t) ->
  begun (ft_pc t') ++ accepted (ft_todo t') = begun (ft_pc t) ++ accepted (ft_todo t) ->
  (holds_lock (ft_pc t') = true -> begun (ft_pc t') = begun (ft_pc t)) ->
  pc_valid (ft_pc t') ->
  (forall fcs, holds_lock (ft_pc t) = true -> midstate fcs (fs_fc s) (ft_pc t) -> midstate fcs (fs_fc s) (ft_pc t')) ->
  (forall d cat ct bc, ft_pc t <> FAssigning d cat ct bc) ->
  (forall d cat ct, (ft_pc t' = FUpdate d cat (Some ct) \/ (exists bc, ft_pc t' = FAssign d cat ct bc \/ ft_pc t' = FAssigning d cat ct bc)) -> ct ∈ fs_times s) ->
  finv max interval N recs0 fc0 progs s (<[i := t']> ts) log.
Proof.
  intros F Hi Hh Hb Hb' Hv Hm Hna Hct.
  assert (Hlt : (i < length ts)%nat) by (by apply lookup_lt_Some in Hi).
  assert (HL : forall j u, <[i := t']> ts !! j = Some u -> (j = i /\ u = t') \/ (j <> i /\ ts !! j = Some u)).
  { intros j u Hj. destruct (decide (i = j)) as [<-|Hne].
    - rewrite list_lookup_insert in Hj by done. injection Hj as <-. by left.
    - rewrite list_lookup_insert_ne in Hj by done. right. split; [congruence|done]. }
  destruct F. constructor; try done.
  - destruct f_log0 as (fcs & E & I & H1 & H2). exists fcs. split_and!; try done.
    intros j u Hj Hu. destruct (HL j u Hj) as [[-> ->]|[_ Hj']]; [|by eapply H2].
    rewrite Hh in Hu. apply Hm; [done|]. by eapply H2.
  - intros Hlk j u Hj. destruct (HL j u Hj) as [[-> ->]|[_ Hj']]; [|by eapply f_lock0].
    rewrite Hh. by eapply f_lock0.
  - intros Hlk. destruct (f_holder0 Hlk) as (j & u & Hj & Hu). destruct (decide (i = j)) as [<-|Hne].
    + exists i, t'. rewrite list_lookup_insert by done. split; [done|]. rewrite Hi in Hj. injection Hj as <-. congruence.
    + exists j, u. by rewrite list_lookup_insert_ne by done.
  - intros a b ta tb Ha Hb2 Hha Hhb.
    destruct (HL a ta Ha) as [[-> ->]|[Hna' Ha']], (HL b tb Hb2) as [[-> ->]|[Hnb' Hb'']]; [done|..].
    + rewrite Hh in Hha. by eapply f_excl0.
    + rewrite Hh in Hhb. by eapply f_excl0.
    + by eapply f_excl0.
  - intros Hw. destruct (f_wr0 Hw) as (j & u & Hj & d & cat & ct & bc & Hu). exists j, u.
    assert (i <> j) by (intros <-; rewrite Hi in Hj; injection Hj as <-; by eapply Hna).
    rewrite list_lookup_insert_ne by done. split; [done|]. eauto.
  - intros j u Hj. destruct (HL j u Hj) as [[-> ->]|[_ Hj']]; [done|by eapply f_valid0].
  - intros j u d cat ct Hj. destruct (HL j u Hj) as [[-> ->]|[_ Hj']]; [apply Hct|by eapply f_ct0].
  - destruct f_entered0 as [H1 H2]. split; [done|]. intros j u Hj Hu.
    destruct (HL j u Hj) as [[-> ->]|[_ Hj']]; [|by eapply H2].
    rewrite Hb' by done. rewrite Hh in Hu. by eapply H2.
  - by rewrite insert_length.
  - intros j prog u Hp Hj. destruct (HL j u Hj) as [[-> ->]|[_ Hj']]; [|by eapply f_progs0].
    rewrite Hb. by eapply f_progs0.
Qed.

Lemma fc_Record_known fc ct now d cat bc bc' :
  0 <= d /\ cat <> ""%string -> fc_subCategories fc !! cat = Some bc ->
  bc_UpdateN bc now (record_amount d) = Ok bc' ->
  fc_Record fc (FcRecord ct now d cat) = Ok (set_sub fc (<[cat := bc']> (fc_subCategories fc))).
Proof.
  intros Hv Hc Hu. unfold fc_Record. cbn [rc_duration rc_category rc_time rc_createTime].
  rewrite (proj2 (valid_cond d cat) Hv), Hc, Hu. reflexivity.
Qed.

Lemma fc_Record_new fc ct now d cat bc bc' :
  0 <= d /\ cat <> ""%string -> fc_subCategories fc !! cat = None ->
  Z.of_nat (size (fc_subCategories fc)) < fc_maxSubCategoryCount fc ->
  newBucketCounterImpl (fc_bucketInterval fc) (fc_numberOfBuckets fc) ct false = Ok bc ->
  bc_UpdateN bc now (record_amount d) = Ok bc' ->
  fc_Record fc (FcRecord ct now d cat) = Ok (set_sub fc (<[cat := bc']> (fc_subCategories fc))).
Proof.
  intros Hv Hc Hm Hn Hu. unfold fc_Record. cbn [rc_duration rc_category rc_time rc_createTime].
  rewrite (proj2 (valid_cond d cat) Hv), Hc, Hn. destruct (Z.leb_spec (fc_maxSubCategoryCount fc) (Z.of_nat (size (fc_subCategories fc)))); [lia|].
  cbn [mbind res_bind]. rewrite Hu. reflexivity.
Qed.

Lemma fc_Record_full fc ct now d cat :
  0 <= d /\ cat <> ""%string -> fc_subCategories fc !! cat = None ->
  fc_maxSubCategoryCount fc <= Z.of_nat (size (fc_subCategories fc)) ->
  fc_Record fc (FcRecord ct now d cat) = Ok fc.
Proof.
  intros Hv Hc Hm. unfold fc_Record. cbn [rc_duration rc_category rc_time rc_createTime].
  rewrite (proj2 (valid_cond d cat) Hv), Hc. destruct (Z.leb_spec (fc_maxSubCategoryCount fc) (Z.of_nat (size (fc_subCategories fc)))); [done|lia].
Qed.

(** The step that carries a record out: append it to the log. *)
Lemma finv_log max interval N recs0 fc0 progs s ts log i t d cat ct fc' :
  Second <= interval -> in64 interval -> 0 <= N ->
  finv max interval N recs0 fc0 progs s ts log -> ts !! i = Some t ->
  holds_lock (ft_pc t) = true -> begun (ft_pc t) = [(d, cat)] ->
  (forall d cat ct bc, ft_pc t <> FAssigning d cat ct bc) ->
  ct ∈ fs_times s ->
  (forall fcs, midstate fcs (fs_fc s) (ft_pc t) -> fc_Record fcs (FcRecord ct (fs_clock s) d cat) = Ok fc') ->
  finv max interval N recs0 fc0 progs (with_fc s fc') (<[i := FThread (ft_todo t) FUnlock]> ts)
    (log ++ [(i, FcRecord ct (fs_clock s) d cat)]).
Proof.
  intros I1 I2 I3 F Hi Hh Hb Hna Hct Hrec.
  assert (Hlt : (i < length ts)%nat) by (by apply lookup_lt_Some in Hi).
  set (t' := FThread (ft_todo t) FUnlock).
  assert (HL : forall j u, <[i := t']> ts !! j = Some u -> (j = i /\ u = t') \/ (j <> i /\ ts !! j = Some u)).
  { intros j u Hj. destruct (decide (i = j)) as [<-|Hne].
    - rewrite list_lookup_insert in Hj by done. injection Hj as <-. by left.
    - rewrite list_lookup_insert_ne in Hj by done. right. split; [congruence|done]. }
  assert (Honly : forall j u, ts !! j = Some u -> j <> i -> holds_lock (ft_pc u) = false).
  { intros j u Hj Hne. destruct (holds_lock (ft_pc u)) eqn:E; [|done]. destruct Hne.
    by eapply (f_excl _ _ _ _ _ _ _ _ _ F). }
  destruct F. set (r := FcRecord ct (fs_clock s) d cat).
  constructor; cbn; try done.
  - destruct f_log0 as (fcs & E & I & H1 & H2). specialize (Hrec fcs (H2 i t Hi Hh)). fold r in Hrec.
    rewrite fmap_app. cbn [fmap list_fmap snd]. rewrite app_assoc. exists fc'.
    assert (Hf : Forall (fun r => in64 (rc_time r)) ((recs0 ++ log.*2) ++ [r])).
    { rewrite !Forall_app, Forall_singleton. split_and!; [done| |done].
      apply Forall_fmap. eapply Forall_impl; [exact f_times0|]. cbn. tauto. }
    destruct (fc_inv_step max interval N (recs0 ++ log.*2) fcs r I1 I2 I3 Hf I) as (fc'' & E'' & I'' & _).
    rewrite Hrec in E''. injection E'' as <-. split_and!; [by rewrite (fc_exec_snoc _ _ _ _ _ _ E)|done|done|].
    intros j u Hj Hu. destruct (HL j u Hj) as [[-> ->]|[Hne Hj']]; [done|]. by rewrite (Honly j u Hj' Hne) in Hu.
  - apply Forall_app. split; [done|]. by apply Forall_singleton.
  - intros Hlk. pose proof (f_lock0 Hlk i t Hi). congruence.
  - intros _. exists i, t'. by rewrite list_lookup_insert by done.
  - intros a b ta tb Ha Hb2 Hha Hhb.
    destruct (HL a ta Ha) as [[-> ->]|[Hna' Ha']], (HL b tb Hb2) as [[-> ->]|[Hnb' Hb'']]; [done|..].
    + by rewrite (Honly b tb Hb'' Hnb') in Hhb.
    + by rewrite (Honly a ta Ha' Hna') in Hha.
    + by eapply f_excl0.
  - intros Hw. destruct (f_wr0 Hw) as (j & u & Hj & d' & cat' & ct' & bc & Hu).
    assert (Hne : j <> i) by (intros ->; rewrite Hi in Hj; injection Hj as <-; by eapply Hna).
    pose proof (Honly j u Hj Hne) as Hx. by rewrite Hu in Hx.
  - intros j u Hj. destruct (HL j u Hj) as [[-> ->]|[_ Hj']]; [by constructor|by eapply f_valid0].
  - intros j u d' cat' ct' Hj. destruct (HL j u Hj) as [[-> ->]|[_ Hj']]; [cbn; intros [?|(? & [?|?])]; done|by eapply f_ct0].
  - destruct f_entered0 as [H1 H2]. split; [intros Hlk; pose proof (f_lock0 Hlk i t Hi); congruence|].
    intros j u Hj Hu. destruct (HL j u Hj) as [[-> ->]|[Hne Hj']].
    + rewrite (H2 i t Hi Hh), Hb, fmap_app. cbn. by rewrite app_nil_r.
    + by rewrite (Honly j u Hj' Hne) in Hu.
  - by rewrite insert_length.
  - intros e He. apply elem_of_app in He as [He|He]; [by apply f_tids0|]. apply elem_of_list_singleton in He as ->.
    cbn. lia.
  - intros j prog u Hp Hj. rewrite log_of_snoc. destruct (HL j u Hj) as [[-> ->]|[Hne Hj']].
    + rewrite decide_True by done. cbn. rewrite (f_progs0 i prog t Hp Hi), Hb, <- app_assoc. done.
    + rewrite decide_False by done. rewrite app_nil_r. by eapply f_progs0.
Qed.

(** Steps of the lock holder that change the shared state but not the log. *)
Lemma finv_hold max interval N recs0 fc0 progs s ts log i t s' t' :
  finv max interval N recs0 fc0 progs s ts log -> ts !! i = Some t ->
  holds_lock (ft_pc t) = true -> holds_lock (ft_pc t') = true ->
  ft_todo t' = ft_todo t -> begun (ft_pc t') = begun (ft_pc t) ->
  fs_locked s' = fs_locked s -> fs_crashed s' = false -> fs_clock s' = fs_clock s ->
  fs_entered s' = fs_entered s -> fs_times s' = fs_times s ->
  (forall fcs, midstate fcs (fs_fc s) (ft_pc t) -> midstate fcs (fs_fc s') (ft_pc t')) ->
  (fs_writing s' = true -> exists d cat ct bc, ft_pc t' = FAssigning d cat ct bc) ->
  (forall d cat ct, (ft_pc t' = FUpdate d cat (Some ct) \/ (exists bc, ft_pc t' = FAssign d cat ct bc \/ ft_pc t' = FAssigning d cat ct bc)) -> ct ∈ fs_times s) ->
  finv max interval N recs0 fc0 progs s' (<[i := t']> ts) log.
Proof.
  intros F Hi Hh Hh' Htd Hb El Ec Ek Ee Et Hm Hw Hct.
  assert (Hlt : (i < length ts)%nat) by (by apply lookup_lt_Some in Hi).
  assert (HL : forall j u, <[i := t']> ts !! j = Some u -> (j = i /\ u = t') \/ (j <> i /\ ts !! j = Some u)).
  { intros j u Hj. destruct (decide (i = j)) as [<-|Hne].
    - rewrite list_lookup_insert in Hj by done. injection Hj as <-. by left.
    - rewrite list_lookup_insert_ne in Hj by done. right. split; [congruence|done]. }
  assert (Honly : forall j u, ts !! j = Some u -> j <> i -> holds_lock (ft_pc u) = false).
  { intros j u Hj Hne. destruct (holds_lock (ft_pc u)) eqn:E; [|done]. destruct Hne.
    by eapply (f_excl _ _ _ _ _ _ _ _ _ F). }
  destruct F. constructor; rewrite ?El, ?Ek, ?Ee, ?Et; try done.
  - destruct f_log0 as (fcs & E & I & H1 & H2). exists fcs. split_and!; try done.
    + intros Hlk. pose proof (f_lock0 Hlk i t Hi). congruence.
    + intros j u Hj Hu. destruct (HL j u Hj) as [[-> ->]|[Hne Hj']]; [apply Hm; by eapply H2|].
      by rewrite (Honly j u Hj' Hne) in Hu.
  - intros Hlk. pose proof (f_lock0 Hlk i t Hi). congruence.
  - intros _. exists i, t'. by rewrite list_lookup_insert by done.
  - intros a b ta tb Ha Hb2 Hha Hhb.
    destruct (HL a ta Ha) as [[-> ->]|[Hna' Ha']], (HL b tb Hb2) as [[-> ->]|[Hnb' Hb'']]; [done|..].
    + by rewrite (Honly b tb Hb'' Hnb') in Hhb.
    + by rewrite (Honly a ta Ha' Hna') in Hha.
    + by eapply f_excl0.
  - intros Hwr. exists i, t'. rewrite list_lookup_insert by done. split; [done|]. by apply Hw.
  - intros j u Hj. destruct (HL j u Hj) as [[-> ->]|[_ Hj']]; [|by eapply f_valid0].
    unfold pc_valid. rewrite Hb. by eapply f_valid0.
  - intros j u d' cat' ct' Hj. destruct (HL j u Hj) as [[-> ->]|[_ Hj']]; [apply Hct|by eapply f_ct0].
  - destruct f_entered0 as [H1 H2]. split; [done|]. intros j u Hj Hu. destruct (HL j u Hj) as [[-> ->]|[Hne Hj']].
    + rewrite Hb. by eapply H2.
    + by rewrite (Honly j u Hj' Hne) in Hu.
  - by rewrite insert_length.
  - intros j prog u Hp Hj. destruct (HL j u Hj) as [[-> ->]|[_ Hj']]; [|by eapply f_progs0].
    rewrite Hb, Htd. by eapply f_progs0.
Qed.

(** What a step of goroutine [i] adds to the log. *)
Definition logged (i : nat) (s : fc_shared) (t : fthread) : list (nat * fc_record) :=
  match ft_pc t with
  | FLookup d cat =>
      if fs_writing s then []
      else match fc_subCategories (fs_fc s) !! cat with
           | Some _ => []
           | None => if fc_maxSubCategoryCount (fs_fc s) <=? Z.of_nat (size (fc_subCategories (fs_fc s)))
                     then [(i, FcRecord (fs_clock s) (fs_clock s) d cat)] else []
           end
  | FUpdate d cat ct => [(i, FcRecord (default (fs_clock s) ct) (fs_clock s) d cat)]
  | _ => []
  end.

Lemma finv_step_log max interval N recs0 fc0 progs s ts log i t s' t' :
  Second <= interval -> in64 interval -> 0 <= N ->
  finv max interval N recs0 fc0 progs s ts log -> ts !! i = Some t ->
  fc_tstep s t = Some (s', t') ->
  fs_crashed s' = true \/ exists log', log' = log ++ logged i s t /\ finv max interval N recs0 fc0 progs s' (<[i := t']> ts) log'.
Proof.
  intros I1 I2 I3 F Hi Hs. unfold fc_tstep in Hs. rewrite (f_crash _ _ _ _ _ _ _ _ _ F) in Hs.
  assert (Hlt : (i < length ts)%nat) by (by apply lookup_lt_Some in Hi).
  pose proof (f_valid _ _ _ _ _ _ _ _ _ F i t Hi) as Hv.
  pose proof (f_clockin _ _ _ _ _ _ _ _ _ F) as Hck.
  destruct (ft_pc t) eqn:Hpc.
  - destruct (ft_todo t) as [|[d cat|k] todo] eqn:Htd; [done|..].
    + destruct ((d <? 0) || (Z.of_nat (String.length cat) <=? 0)) eqn:Hc; injection Hs as <- <-; right; exists log; (split; [unfold logged; rewrite Hpc; by rewrite ?app_nil_r|]).
      * eapply finv_pc; try done; rewrite ?Hpc, ?Htd; try done.
        -- cbn [begun app ft_pc ft_todo]. rewrite (accepted_cons _ todo). unfold accepted at 2. cbn.
           rewrite decide_False; [done|]. intros Hx. apply valid_cond in Hx. congruence.
        -- cbn. intros ? ? ? [?|(? & [?|?])]; done.
      * apply valid_cond in Hc. eapply finv_pc; try done; rewrite ?Hpc, ?Htd; try done.
        -- cbn [begun app ft_pc ft_todo]. rewrite (accepted_cons _ todo). unfold accepted at 2. cbn.
           by rewrite decide_True.
        -- apply Forall_singleton. done.
        -- cbn. intros ? ? ? [?|(? & [?|?])]; done.
    + injection Hs as <- <-. right. exists log; (split; [unfold logged; rewrite Hpc; by rewrite ?app_nil_r|]). eapply finv_pc; try done; rewrite ?Hpc, ?Htd; try done.
      * cbn. intros ? ? ? [?|(? & [?|?])]; done.
  - (* FLock *)
    destruct (fs_locked s) eqn:Hlk; [done|]. injection Hs as <- <-. right. exists log; (split; [unfold logged; rewrite Hpc; by rewrite ?app_nil_r|]).
    set (t' := FThread (ft_todo t) (FLookup d cat)).
    assert (HL : forall j u, <[i := t']> ts !! j = Some u -> (j = i /\ u = t') \/ (j <> i /\ ts !! j = Some u)).
    { intros j u Hj. destruct (decide (i = j)) as [<-|Hne].
      - rewrite list_lookup_insert in Hj by done. injection Hj as <-. by left.
      - rewrite list_lookup_insert_ne in Hj by done. right. split; [congruence|done]. }
    destruct F. specialize (f_lock0 Hlk). constructor; cbn; try done.
    + destruct f_log0 as (fcs & E & I & H1 & H2). exists fcs. split_and!; try done.
      intros j u Hj Hu. destruct (HL j u Hj) as [[-> ->]|[Hne Hj']]; [by apply H1|].
      by rewrite (f_lock0 j u Hj') in Hu.
    + intros _. exists i, t'. by rewrite list_lookup_insert by done.
    + intros a b ta tb Ha Hb2 Hha Hhb.
      destruct (HL a ta Ha) as [[-> ->]|[Hna' Ha']], (HL b tb Hb2) as [[-> ->]|[Hnb' Hb'']]; [done|..].
      * by rewrite (f_lock0 b tb Hb'') in Hhb.
      * by rewrite (f_lock0 a ta Ha') in Hha.
      * by eapply f_excl0.
    + intros Hw. destruct (f_wr0 Hw) as (j & u & Hj & d' & cat' & ct' & bc & Hu).
      pose proof (f_lock0 j u Hj) as Hx. by rewrite Hu in Hx.
    + intros j u Hj. destruct (HL j u Hj) as [[-> ->]|[_ Hj']]; [exact Hv|by eapply f_valid0].
    + intros j u d' cat' ct' Hj. destruct (HL j u Hj) as [[-> ->]|[_ Hj']]; [cbn; intros [?|(? & [?|?])]; done|by eapply f_ct0].
    + destruct f_entered0 as [H1 H2]. split; [done|]. intros j u Hj Hu. destruct (HL j u Hj) as [[-> ->]|[Hne Hj']].
      * rewrite (H1 Hlk). done.
      * by rewrite (f_lock0 j u Hj') in Hu.
    + by rewrite insert_length.
    + intros j prog u Hp Hj. destruct (HL j u Hj) as [[-> ->]|[_ Hj']]; [|by eapply f_progs0].
      cbn. pose proof (f_progs0 i prog t Hp Hi) as Hx. by rewrite Hpc in Hx.
  - (* FLookup *)
    destruct (fs_writing s) eqn:Hwr; [injection Hs as <- <-; by left|]. right.
    destruct (f_log _ _ _ _ _ _ _ _ _ F) as (fcs & E & I & H1 & H2).
    assert (Hfc : fs_fc s = fcs). { specialize (H2 i t Hi). rewrite Hpc in H2. by apply H2. }
    destruct (fc_subCategories (fs_fc s) !! cat) as [bc|] eqn:Hc; [|destruct (Z.leb_spec (fc_maxSubCategoryCount (fs_fc s)) (Z.of_nat (size (fc_subCategories (fs_fc s)))))];
      injection Hs as <- <-.
    + exists log; (split; [unfold logged; rewrite Hpc, Hwr, Hc; try (rewrite (proj2 (Z.leb_gt _ _)) by lia); by rewrite app_nil_r|]). eapply finv_hold; try done; rewrite ?Hpc; try done; try by apply (f_crash _ _ _ _ _ _ _ _ _ F).
      * intros fcs' Hx. cbn in Hx |- *. rewrite <- Hx. split; [done|]. rewrite Hc. eauto.
      * congruence.
      * cbn. intros ? ? ? [?|(? & [?|?])]; done.
    + exists (log ++ [(i, FcRecord (fs_clock s) (fs_clock s) d cat)]); split; [unfold logged; rewrite Hpc, Hwr, Hc; destruct (Z.leb_spec (fc_maxSubCategoryCount (fs_fc s)) (Z.of_nat (size (fc_subCategories (fs_fc s))))); [done|lia]|].
      assert (Es : s = with_fc s (fs_fc s)) by (by destruct s). rewrite Es at 1.
      eapply finv_log; try done; rewrite ?Hpc; try done.
      intros fcs' Hm. cbn in Hm. rewrite <- Hm. apply fc_Record_full; [|done|done].
      unfold pc_valid in Hv. cbn in Hv. rewrite Forall_singleton in Hv. done.
    + exists log; (split; [unfold logged; rewrite Hpc, Hwr, Hc; try (rewrite (proj2 (Z.leb_gt _ _)) by lia); by rewrite app_nil_r|]). eapply finv_hold; try done; rewrite ?Hpc; try done; try by apply (f_crash _ _ _ _ _ _ _ _ _ F).
      * intros fcs' Hx. cbn in Hx |- *. rewrite <- Hx. done.
      * congruence.
      * cbn. intros ? ? ? [?|(? & [?|?])]; done.
  - (* FCreate *)
    destruct (newBucketCounterImpl _ _ _ _) as [bc|] eqn:Hn; [|done]. injection Hs as <- <-. right. exists log; (split; [unfold logged; rewrite Hpc; by rewrite ?app_nil_r|]).
    eapply finv_pc; try done; rewrite ?Hpc; try done.
    + intros fcs _ (Hx & Hy & Hz). cbn. rewrite Hx in Hn. done.
    + cbn. intros ? ? ? [?|(? & [Hx|?])]; try done. injection Hx as <- <- <- <-. done.
  - (* FAssign *)
    destruct (fs_writing s) eqn:Hwr; injection Hs as <- <-; [by left|]. right. exists log; (split; [unfold logged; rewrite Hpc; by rewrite ?app_nil_r|]).
    eapply finv_hold; try done; rewrite ?Hpc; try done; cbn; try by apply (f_crash _ _ _ _ _ _ _ _ _ F).
    + eauto 10.
    + intros ? ? ? [?|(? & [?|Hx])]; try done. injection Hx as <- <- <- <-.
      eapply (f_ct _ _ _ _ _ _ _ _ _ F i t); [done|]. rewrite Hpc. right. eauto.
  - (* FAssigning *)
    injection Hs as <- <-. right. exists log; (split; [unfold logged; rewrite Hpc; by rewrite ?app_nil_r|]).
    eapply finv_hold; try done; rewrite ?Hpc; try done; cbn; try by apply (f_crash _ _ _ _ _ _ _ _ _ F).
    + intros fcs (Hx & Hy & Hz & Hw). exists bc. rewrite Hx. done.
    + intros ? ? ? [Hx|(? & [?|?])]; try done. injection Hx as <- <- <-.
      eapply (f_ct _ _ _ _ _ _ _ _ _ F i t); [done|]. rewrite Hpc. right. eauto.
  - (* FUpdate *)
    destruct (fc_subCategories (fs_fc s) !! cat) as [bc|] eqn:Hc; [|done].
    destruct (bc_UpdateN bc (fs_clock s) (record_amount d)) as [bc'|] eqn:Hu; [|done]. injection Hs as <- <-. right.
    unfold pc_valid in Hv. cbn in Hv. rewrite Forall_singleton in Hv. cbn in Hv.
    exists (log ++ [(i, FcRecord (default (fs_clock s) ct) (fs_clock s) d cat)]); split; [unfold logged; by rewrite Hpc|].
    eapply finv_log; try done; rewrite ?Hpc; try done.
    + destruct ct as [ct|]; cbn; [|done].
      eapply (f_ct _ _ _ _ _ _ _ _ _ F i t); [done|]. rewrite Hpc. by left.
    + intros fcs Hm. destruct ct as [ct|]; cbn in Hm |- *.
      * destruct Hm as (bc0 & Hx & Hy & Hz & Hw). rewrite Hx in Hc |- *. cbn in Hc |- *.
        rewrite lookup_insert in Hc. injection Hc as ->. rewrite insert_insert.
        etransitivity; [by eapply fc_Record_new|]. done.
      * destruct Hm as [Hx _]. rewrite Hx in Hc |- *. by eapply fc_Record_known.
  - (* FUnlock *)
    injection Hs as <- <-. right. exists log; (split; [unfold logged; rewrite Hpc; by rewrite ?app_nil_r|]). set (t' := FThread (ft_todo t) FIdle).
    assert (HL : forall j u, <[i := t']> ts !! j = Some u -> (j = i /\ u = t') \/ (j <> i /\ ts !! j = Some u)).
    { intros j u Hj. destruct (decide (i = j)) as [<-|Hne].
      - rewrite list_lookup_insert in Hj by done. injection Hj as <-. by left.
      - rewrite list_lookup_insert_ne in Hj by done. right. split; [congruence|done]. }
    assert (Hh : holds_lock (ft_pc t) = true) by (by rewrite Hpc).
    assert (Honly : forall j u, ts !! j = Some u -> j <> i -> holds_lock (ft_pc u) = false).
    { intros j u Hj Hne. destruct (holds_lock (ft_pc u)) eqn:E; [|done]. destruct Hne.
      by eapply (f_excl _ _ _ _ _ _ _ _ _ F). }
    assert (Hall : forall j u, <[i := t']> ts !! j = Some u -> holds_lock (ft_pc u) = false).
    { intros j u Hj. destruct (HL j u Hj) as [[-> ->]|[Hne Hj']]; [done|by eapply Honly]. }
    destruct F. constructor; cbn; try done.
    + destruct f_log0 as (fcs & E & I & H1 & H2). exists fcs. split_and!; try done.
      * intros _. specialize (H2 i t Hi Hh). by rewrite Hpc in H2.
      * intros j u Hj Hu. by rewrite (Hall j u Hj) in Hu.
    + intros a b ta tb Ha Hb2 Hha Hhb. by rewrite (Hall a ta Ha) in Hha.
    + intros Hw. destruct (f_wr0 Hw) as (j & u & Hj & d' & cat' & ct' & bc & Hu).
      assert (Hne : j <> i) by (intros ->; rewrite Hi in Hj; injection Hj as <-; congruence).
      pose proof (Honly j u Hj Hne) as Hx. by rewrite Hu in Hx.
    + intros j u Hj. destruct (HL j u Hj) as [[-> ->]|[_ Hj']]; [by apply Forall_nil|by eapply f_valid0].
    + intros j u d' cat' ct' Hj. destruct (HL j u Hj) as [[-> ->]|[_ Hj']]; [cbn; intros [?|(? & [?|?])]; done|by eapply f_ct0].
    + destruct f_entered0 as [H1 H2]. split.
      * intros _. rewrite (H2 i t Hi Hh), Hpc. cbn. by rewrite app_nil_r.
      * intros j u Hj Hu. by rewrite (Hall j u Hj) in Hu.
    + by rewrite insert_length.
    + intros j prog u Hp Hj. destruct (HL j u Hj) as [[-> ->]|[_ Hj']]; [|by eapply f_progs0].
      cbn. pose proof (f_progs0 i prog t Hp Hi) as Hx. by rewrite Hpc in Hx.
  - (* FIter *)
    destruct (fs_writing s) eqn:Hwr; injection Hs as <- <-; [by left|]. right. exists log; (split; [unfold logged; rewrite Hpc; by rewrite ?app_nil_r|]).
    eapply finv_pc; try done; rewrite ?Hpc; try done; cbn; try (by destruct k).
    intros ? ? ? [?|(? & [?|?])]; by destruct k.
Qed.

Lemma finv_step max interval N recs0 fc0 progs s ts log i t s' t' :
  Second <= interval -> in64 interval -> 0 <= N ->
  finv max interval N recs0 fc0 progs s ts log -> ts !! i = Some t ->
  fc_tstep s t = Some (s', t') ->
  fs_crashed s' = true \/ exists log', finv max interval N recs0 fc0 progs s' (<[i := t']> ts) log'.
Proof.
  intros I1 I2 I3 F Hi Hs. destruct (finv_step_log _ _ _ _ _ _ _ _ _ _ _ _ _ I1 I2 I3 F Hi Hs) as [?|(log' & _ & ?)]; eauto.
Qed.

Lemma finv_env max interval N recs0 fc0 progs s ts log e :
  finv max interval N recs0 fc0 progs s ts log -> finv max interval N recs0 fc0 progs (fc_estep s e) ts log.
Proof.
  intros F. destruct F; constructor; cbn; try done.
  - apply wrap64_range.
  - apply elem_of_app. right. left.
  - eapply Forall_impl; [exact f_times0|]. intros x (H1 & H2 & H3). rewrite !elem_of_app. tauto.
  - intros i t d cat ct Hi Hx. apply elem_of_app. left. by eapply f_ct0.
Qed.

Lemma finv_init max interval N recs0 fc0 now0 progs :
  Second <= interval -> in64 interval -> 0 <= N -> Forall (fun r => in64 (rc_time r)) recs0 ->
  fc_exec max interval N recs0 = Ok fc0 ->
  finv max interval N recs0 fc0 progs (shared (fc_cinit fc0 now0 progs)) (threads (fc_cinit fc0 now0 progs)) [].
Proof.
  intros I1 I2 I3 Hf E. cbn.
  set (ts := (fun p : list fc_call => FThread p FIdle) <$> progs).
  assert (Ht : forall i t, ts !! i = Some t -> exists p, progs !! i = Some p /\ t = FThread p FIdle).
  { intros i t Hi. subst ts. rewrite list_lookup_fmap in Hi. destruct (progs !! i) as [p|]; [|done]. injection Hi as <-. eauto. }
  assert (Hh : forall i t, ts !! i = Some t -> holds_lock (ft_pc t) = false).
  { intros i t Hi. by destruct (Ht i t Hi) as (p & _ & ->). }
  constructor; cbn [fs_fc fs_locked fs_writing fs_crashed fs_clock fs_entered fs_times].
  - done.
  - apply wrap64_range.
  - left.
  - destruct (fc_exec_inv max interval N recs0 I1 I2 I3 Hf) as (fc & E' & I). rewrite E in E'. injection E' as <-.
    exists fc0. cbn. rewrite app_nil_r. split_and!; try done.
    intros i t Hi Hx. by rewrite (Hh i t Hi) in Hx.
  - constructor.
  - done.
  - intros _. exact Hh.
  - done.
  - intros i j ti tj Hi Hj Hx. by rewrite (Hh i ti Hi) in Hx.
  - done.
  - intros i t Hi. destruct (Ht i t Hi) as (p & _ & ->). by apply Forall_nil.
  - intros i t d cat ct Hi. destruct (Ht i t Hi) as (p & _ & ->). cbn. intros [?|(? & [?|?])]; done.
  - split; [done|]. intros i t Hi Hx. by rewrite (Hh i t Hi) in Hx.
  - subst ts. by rewrite fmap_length.
  - intros e He. by apply elem_of_nil in He.
  - intros i prog t Hp Hi. destruct (Ht i t Hi) as (p & Hp' & ->). rewrite Hp in Hp'. by injection Hp' as ->.
Qed.

Lemma fc_conc_inv max interval N recs0 fc0 now0 progs sched :
  Second <= interval -> in64 interval -> 0 <= N -> Forall (fun r => in64 (rc_time r)) recs0 ->
  fc_exec max interval N recs0 = Ok fc0 ->
  let c := fc_crun fc0 now0 progs sched in
  fs_crashed (shared c) = true \/
  exists log, finv max interval N recs0 fc0 progs (shared c) (threads c) log.
Proof.
  intros I1 I2 I3 Hf E. cbn. unfold fc_crun.
  apply (crun_inv fc_tstep fc_estep (fun c => fs_crashed (shared c) = true \/
     exists log, finv max interval N recs0 fc0 progs (shared c) (threads c) log)).
  - right. exists []. by apply finv_init.
  - intros s ts i t s' t' [Hc|[log F]] Hi Hs; cbn in *.
    + unfold fc_tstep in Hs. by rewrite Hc in Hs.
    + by eapply finv_step.
  - intros s ts e [Hc|[log F]]; cbn in *; [by left|]. right. exists log. by apply finv_env.
Qed.

Lemma fc_linearizable max interval N recs0 fc0 now0 progs sched :
  Second <= interval -> in64 interval -> 0 <= N -> Forall (fun r => in64 (rc_time r)) recs0 ->
  fc_exec max interval N recs0 = Ok fc0 ->
  let c := fc_crun fc0 now0 progs sched in
  fs_crashed (shared c) = false ->
  exists log,
    (forall i prog, progs !! i = Some prog -> exists t, threads c !! i = Some t /\
       accepted prog = log_of i log ++ begun (ft_pc t) ++ accepted (ft_todo t)) /\
    (forall e, e ∈ log -> (e.1 < length progs)%nat /\ rc_time e.2 ∈ fs_times (shared c) /\ rc_createTime e.2 ∈ fs_times (shared c)) /\
    ((fun e => (rc_duration e.2, rc_category e.2)) <$> log) `prefix_of` fs_entered (shared c) /\
    (fs_locked (shared c) = false ->
       fs_entered (shared c) = (fun e => (rc_duration e.2, rc_category e.2)) <$> log /\
       fc_exec max interval N (recs0 ++ log.*2) = Ok (fs_fc (shared c))).
Proof.
  intros I1 I2 I3 Hf E c Hc. destruct (fc_conc_inv max interval N recs0 fc0 now0 progs sched I1 I2 I3 Hf E) as [H|[log F]].
  { fold c in H. congruence. }
  fold c in F. destruct F. exists log. split_and!.
  - intros i prog Hp. destruct (lookup_lt_is_Some_2 (threads c) i) as [t Ht].
    { rewrite f_len0. by apply lookup_lt_Some in Hp. }
    exists t. split; [done|]. by eapply f_progs0.
  - intros e He. rewrite Forall_forall in f_times0. destruct (f_times0 e He) as (? & ? & ?). auto.
  - destruct f_entered0 as [H1 H2]. destruct (fs_locked (shared c)) eqn:Hl.
    + destruct (f_holder0 eq_refl) as (i & t & Hi & Hh). rewrite (H2 i t Hi Hh). by apply prefix_app_r.
    + rewrite H1 by done. done.
  - intros Hl. split; [by apply f_entered0|]. destruct f_log0 as (fcs & E' & _ & H1 & _). by rewrite H1.
Qed.

Lemma fc_done_unlocked max interval N recs0 fc0 now0 progs sched :
  Second <= interval -> in64 interval -> 0 <= N -> Forall (fun r => in64 (rc_time r)) recs0 ->
  fc_exec max interval N recs0 = Ok fc0 ->
  let c := fc_crun fc0 now0 progs sched in
  fs_crashed (shared c) = false -> Forall fc_done (threads c) -> fs_locked (shared c) = false.
Proof.
  intros I1 I2 I3 Hf E c Hc Hd. destruct (fc_conc_inv max interval N recs0 fc0 now0 progs sched I1 I2 I3 Hf E) as [H|[log F]].
  { fold c in H. congruence. }
  fold c in F. destruct (fs_locked (shared c)) eqn:Hl; [|done].
  destruct (f_holder _ _ _ _ _ _ _ _ _ F Hl) as (i & t & Hi & Hh).
  rewrite Forall_forall in Hd. destruct (Hd t) as [_ Hp]; [by eapply elem_of_list_lookup_2|]. by rewrite Hp in Hh.
Qed.

(** ** Progress: as long as somebody has work left, somebody can run *)
Lemma fc_conc_progress max interval N recs0 fc0 now0 progs sched :
  Second <= interval -> in64 interval -> 0 <= N -> Forall (fun r => in64 (rc_time r)) recs0 ->
  fc_exec max interval N recs0 = Ok fc0 ->
  let c := fc_crun fc0 now0 progs sched in
  fs_crashed (shared c) = false -> ~ Forall fc_done (threads c) ->
  exists i t s' t', threads c !! i = Some t /\ fc_tstep (shared c) t = Some (s', t').
Proof.
  intros I1 I2 I3 Hf E c Hc Hd. destruct (fc_conc_inv max interval N recs0 fc0 now0 progs sched I1 I2 I3 Hf E) as [H|[log F]].
  { fold c in H. congruence. }
  fold c in F.
  assert (Hrun : exists i t, threads c !! i = Some t /\ ~ fc_done t /\
     (fs_locked (shared c) = true -> holds_lock (ft_pc t) = true)).
  { destruct (fs_locked (shared c)) eqn:Hl.
    - destruct (f_holder _ _ _ _ _ _ _ _ _ F Hl) as (i & t & Hi & Hh). exists i, t. split_and!; try done.
      intros [_ Hp]. by rewrite Hp in Hh.
    - clear -Hd. induction (threads c) as [|t ts IH]; [by destruct Hd|].
      assert (Hdec : fc_done t \/ ~ fc_done t).
      { unfold fc_done. destruct (ft_todo t), (ft_pc t); (by left) || (right; intros [??]; done). }
      destruct Hdec as [Hy|Hn]; [|by exists 0%nat, t].
      destruct IH as (i & u & Hi & Hu); [|by exists (S i), u]. intros Hx. apply Hd. by constructor. }
  destruct Hrun as (i & t & Hi & Hnd & Hlk). exists i, t. unfold fc_tstep. rewrite Hc.
  destruct F. destruct f_log0 as (fcs & E' & I & H1 & H2).
  destruct (ft_pc t) eqn:Hpc.
  - destruct (ft_todo t) as [|[d cat|k] todo] eqn:Htd; [destruct Hnd; by split|..].
    + destruct (_ || _); eauto.
    + eauto.
  - destruct (fs_locked (shared c)); [by specialize (Hlk eq_refl)|]. eauto.
  - destruct (fs_writing (shared c)); [eauto|].
    destruct (fc_subCategories (fs_fc (shared c)) !! cat); [eauto|]. destruct (_ <=? _); eauto.
  - specialize (H2 i t Hi). rewrite Hpc in H2. destruct (H2 eq_refl) as (-> & Hy & Hz).
    rewrite (fi_int _ _ _ _ _ I), (fi_n _ _ _ _ _ I).
    destruct (newBucketCounterImpl_repr interval N (fs_clock (shared c)) false I3) as (bc & -> & _). eauto.
  - destruct (fs_writing (shared c)); eauto.
  - eauto.
  - specialize (H2 i t Hi). rewrite Hpc in H2. specialize (H2 eq_refl).
    assert (Hbc : exists bc bc', fc_subCategories (fs_fc (shared c)) !! cat = Some bc /\
       bc_UpdateN bc (fs_clock (shared c)) (record_amount d) = Ok bc').
    { destruct ct as [ct|]; cbn in H2.
      - destruct H2 as (bc & -> & Hy & Hz & Hw). cbn. exists bc. rewrite lookup_insert.
        rewrite (fi_int _ _ _ _ _ I), (fi_n _ _ _ _ _ I) in Hw.
        destruct (newBucketCounterImpl_repr interval N ct false I3) as (bc0 & Ew & Hr & Hbi & _).
        rewrite Hw in Ew. injection Ew as <-.
        destruct (bc_UpdateN_spec _ _ _ (fs_clock (shared c)) (record_amount d) Hr) as (bc' & Eu & _); [rewrite Hbi; by apply interval_seconds_pos|done|].
        eauto.
      - destruct H2 as [-> [bc Hb]]. exists bc. rewrite Hb.
        destruct (fi_counter _ _ _ _ _ I cat bc Hb) as (r & rs & Hr & Eb).
        destruct (bc_history interval N (rc_createTime r) false (cat_ops (r :: rs)) I1 I2 I3) as (bc0 & Eb0 & Hbi & _ & _ & _ & l & lo & C & Z0 & Hrep & _).
        { unfold cat_ops. rewrite <- Hr. apply Forall_fmap. apply records_of_forall.
          apply Forall_app. split; [done|]. apply Forall_fmap. eapply Forall_impl; [exact f_times0|]. cbn. tauto. }
        unfold bc_exec in Eb. rewrite Eb in Eb0. injection Eb0 as <-.
        destruct (bc_UpdateN_spec _ _ _ (fs_clock (shared c)) (record_amount d) Hrep) as (bc' & Eu & _); [rewrite Hbi; by apply interval_seconds_pos|done|].
        eauto. }
    destruct Hbc as (bc & bc' & -> & ->). eauto.
  - eauto.
  - destruct (fs_writing (shared c)); eauto.
Qed.

(** ** C23: when the getters are safe *)
Definition no_getter_call (call : fc_call) : Prop := match call with CGetter _ => False | _ => True end.

Lemma finv_nocrash_step max interval N recs0 fc0 progs s ts log i t s' t' :
  finv max interval N recs0 fc0 progs s ts log -> ts !! i = Some t ->
  (fs_writing s = true -> forall k, ft_pc t <> FIter k) ->
  fc_tstep s t = Some (s', t') -> fs_crashed s' = false.
Proof.
  intros F Hi Hk Hs. pose proof (f_crash _ _ _ _ _ _ _ _ _ F) as Hc.
  assert (Hw : fs_writing s = true -> holds_lock (ft_pc t) = true -> exists d cat ct bc, ft_pc t = FAssigning d cat ct bc).
  { intros Hw Hh. destruct (f_wr _ _ _ _ _ _ _ _ _ F Hw) as (j & u & Hj & d & cat & ct & bc & Hu).
    assert (i = j) as <-.
    { eapply (f_excl _ _ _ _ _ _ _ _ _ F); try done. by rewrite Hu. }
    rewrite Hi in Hj. injection Hj as <-. eauto. }
  unfold fc_tstep in Hs. rewrite Hc in Hs. destruct (ft_pc t) eqn:Hpc.
  - destruct (ft_todo t) as [|[d cat|k] todo]; [done|..]; [|by simplify_eq/=].
    destruct (_ || _); by simplify_eq/=.
  - destruct (fs_locked s); [done|]. by simplify_eq/=.
  - destruct (fs_writing s) eqn:E. { destruct (Hw eq_refl eq_refl) as (?&?&?&?&?). done. }
    destruct (fc_subCategories (fs_fc s) !! cat); [by simplify_eq/=|]. destruct (_ <=? _); by simplify_eq/=.
  - destruct (newBucketCounterImpl _ _ _ _); [|done]. by simplify_eq/=.
  - destruct (fs_writing s) eqn:E. { destruct (Hw eq_refl eq_refl) as (?&?&?&?&?). done. }
    by simplify_eq/=.
  - by simplify_eq/=.
  - destruct (fc_subCategories (fs_fc s) !! cat); [|done]. destruct (bc_UpdateN _ _ _); [|done]. by simplify_eq/=.
  - by simplify_eq/=.
  - destruct (fs_writing s) eqn:E. { by destruct (Hk eq_refl k). }
    by simplify_eq/=.
Qed.

Lemma fc_no_getter_no_crash max interval N recs0 fc0 now0 progs sched :
  Second <= interval -> in64 interval -> 0 <= N -> Forall (fun r => in64 (rc_time r)) recs0 ->
  fc_exec max interval N recs0 = Ok fc0 ->
  Forall (Forall no_getter_call) progs ->
  fs_crashed (shared (fc_crun fc0 now0 progs sched)) = false.
Proof.
  intros I1 I2 I3 Hf E Hg.
  cut (fs_crashed (shared (fc_crun fc0 now0 progs sched)) = false /\
    (exists log, finv max interval N recs0 fc0 progs (shared (fc_crun fc0 now0 progs sched)) (threads (fc_crun fc0 now0 progs sched)) log) /\
    Forall (fun t => Forall no_getter_call (ft_todo t) /\ forall k, ft_pc t <> FIter k) (threads (fc_crun fc0 now0 progs sched))).
  { tauto. }
  unfold fc_crun.
  apply (crun_inv fc_tstep fc_estep (fun c => fs_crashed (shared c) = false /\
     (exists log, finv max interval N recs0 fc0 progs (shared c) (threads c) log) /\
     Forall (fun t => Forall no_getter_call (ft_todo t) /\ forall k, ft_pc t <> FIter k) (threads c))).
  - split; [done|]. split; [exists []; by apply finv_init|]. cbn. apply Forall_fmap.
    eapply Forall_impl; [exact Hg|]. intros p Hp. by split.
  - intros s ts i t s' t' (Hc & [log F] & HP) Hi Hs. cbn in *.
    pose proof (Forall_lookup_1 _ _ _ _ HP Hi) as [Ht1 Ht2].
    assert (Hc' : fs_crashed s' = false).
    { eapply finv_nocrash_step; done. }
    split; [done|]. split.
    + destruct (finv_step _ _ _ _ _ _ _ _ _ _ _ _ _ I1 I2 I3 F Hi Hs) as [Hx|[log' F']]; [congruence|eauto].
    + apply Forall_insert; [done|]. clear -Ht1 Ht2 Hs Hc. unfold fc_tstep in Hs. rewrite Hc in Hs.
      destruct (ft_pc t) eqn:Hpc; try (by destruct (Ht2 k));
        repeat (case_match; try done); simplify_eq/=; try (split; [first [done|by inversion Ht1]|done]).
      all: by inversion Ht1.
  - intros s ts e (Hc & [log F] & HP); cbn in *. split_and!; [done| |done]. exists log. by apply finv_env.
Qed.

(** A call that cannot create a category: it is a getter, invalid, of a known
    category, or the limit is reached. *)
Definition creates_nothing (fc : fast_compass) (call : fc_call) : Prop :=
  match call with
  | CGetter _ => True
  | CRecord _ cat => is_Some (fc_subCategories fc !! cat) \/
      fc_maxSubCategoryCount fc <= Z.of_nat (size (fc_subCategories fc))
  end.

Lemma fc_no_create_no_crash fc0 now0 progs sched :
  Forall (Forall (creates_nothing fc0)) progs ->
  fs_crashed (shared (fc_crun fc0 now0 progs sched)) = false.
Proof.
  intros Hg.
  set (P := fun c : config fc_shared fthread =>
    (fs_crashed (shared c) = false /\ fs_writing (shared c) = false /\
     fc_maxSubCategoryCount (fs_fc (shared c)) = fc_maxSubCategoryCount fc0 /\
     dom (fc_subCategories (fs_fc (shared c))) = dom (fc_subCategories fc0)) /\
    Forall (fun t => Forall (creates_nothing fc0) (ft_todo t) /\
       match ft_pc t with
       | FLock d cat | FLookup d cat => creates_nothing fc0 (CRecord d cat)
       | FCreate _ _ | FAssign _ _ _ _ | FAssigning _ _ _ _ => False
       | _ => True
       end) (threads c)).
  cut (P (fc_crun fc0 now0 progs sched)). { unfold P. tauto. }
  unfold fc_crun. apply (crun_inv fc_tstep fc_estep P).
  - split; [done|]. cbn. apply Forall_fmap. eapply Forall_impl; [exact Hg|]. intros p Hp. by split.
  - intros s ts i t s' t' [(Hc & Hw & Hm & Hd) HP] Hi Hs. cbn in *.
    pose proof (Forall_lookup_1 _ _ _ _ HP Hi) as [Ht1 Ht2].
    enough ((fs_crashed s' = false /\ fs_writing s' = false /\
       fc_maxSubCategoryCount (fs_fc s') = fc_maxSubCategoryCount fc0 /\
       dom (fc_subCategories (fs_fc s')) = dom (fc_subCategories fc0)) /\
      (Forall (creates_nothing fc0) (ft_todo t') /\
       match ft_pc t' with
       | FLock d cat | FLookup d cat => creates_nothing fc0 (CRecord d cat)
       | FCreate _ _ | FAssign _ _ _ _ | FAssigning _ _ _ _ => False
       | _ => True
       end)) as [H1 H2].
    { split; [exact H1|]. cbn. by apply Forall_insert. }
    unfold fc_tstep in Hs. rewrite Hc, Hw in Hs. destruct (ft_pc t) eqn:Hpc; try done.
    + destruct (ft_todo t) as [|[d cat|k] todo]; [done|..]; inversion Ht1; subst.
      * destruct (_ || _); injection Hs as <- <-; cbn; auto.
      * injection Hs as <- <-; cbn; auto.
    + destruct (fs_locked s); [done|]. injection Hs as <- <-; cbn; auto.
    + destruct (fc_subCategories (fs_fc s) !! cat) eqn:El.
      * injection Hs as <- <-; cbn; auto.
      * destruct (_ <=? _) eqn:Hlt.
        -- injection Hs as <- <-; cbn; auto.
        -- exfalso. apply Z.leb_gt in Hlt. rewrite Hm in Hlt. rewrite <- size_dom, Hd, size_dom in Hlt.
           cbn in Ht2. destruct Ht2 as [Hx|Hx]; [|lia].
           rewrite <- elem_of_dom, <- Hd in Hx. by apply not_elem_of_dom in El.
    + destruct (fc_subCategories (fs_fc s) !! cat) eqn:El; [|done].
      destruct (bc_UpdateN _ _ _) as [bc'|]; [|done].
      injection Hs as <- <-; cbn. split_and!; try done. rewrite dom_insert_lookup_L; [done|by eexists].
    + injection Hs as <- <-; cbn; auto.
    + injection Hs as <- <-; cbn; split_and!; try done. by destruct k.
  - intros s ts e H. exact H.
Qed.
