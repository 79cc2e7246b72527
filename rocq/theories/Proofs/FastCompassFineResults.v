(** Every result a goroutine has is that of one of its calls. *)
From Verif.Go Require Import GoInt GoConc.
From Verif.Model Require Import BucketQueue BucketCounter FastCompass BucketCounterConc BucketReadConc FastCompassConc FastCompassFine.
From Verif.Spec Require Import BucketSpec FastCompassSpec FastCompassConcSpec FastCompassFineSpec.
From Verif.Proofs Require Import FastCompassFineProofs FastCompassFineRead FastCompassFineMain.
Local Open Scope Z_scope.

(** What a step does with questions, results and calls. *)
Inductive qmove : qthread -> qthread -> Prop :=
| mv_call t call todo pc : q_pc t = QAt FIdle -> q_todo t = call :: todo -> asks call = None -> asking pc = [] -> qmove t (QThread todo pc (q_got t))
| mv_ask t call todo pc q : q_pc t = QAt FIdle -> q_todo t = call :: todo -> asks call = Some q -> asking pc = [q] -> qmove t (QThread todo pc (q_got t))
| mv_go t pc : asking pc = asking (q_pc t) -> qmove t (QThread (q_todo t) pc (q_got t))
| mv_crash t pc : asking pc = [] -> qmove t (QThread (q_todo t) pc (q_got t))
| mv_done t job : asking (q_pc t) = [answers job] -> qmove t (QThread (q_todo t) (QAt FIdle) (q_got t ++ [job])).

Lemma ff_move s t s' t' : ff_tstep s t = Some (s', t') ->
  qmove t t' /\ (fs_crashed s' = true \/
    (asks <$> q_todo t = asks <$> q_todo t' /\ q_got t' = q_got t /\ asking (q_pc t') = asking (q_pc t)) \/
    (exists call, q_todo t = call :: q_todo t' /\ q_got t' = q_got t /\ asking (q_pc t) = [] /\ q_pc t = QAt FIdle /\ asking (q_pc t') = match asks call with Some q => [q] | None => [] end) \/
    (exists job, q_todo t' = q_todo t /\ q_got t' = q_got t ++ [job] /\ asking (q_pc t) = [answers job] /\ q_pc t' = QAt FIdle)).
Proof.
  assert (Hn : forall job rest, asking (q_pc t) = [answers job] -> qmove t (next_entry s t job rest) /\
    ((asks <$> q_todo t = asks <$> q_todo (next_entry s t job rest) /\ q_got (next_entry s t job rest) = q_got t /\ asking (q_pc (next_entry s t job rest)) = asking (q_pc t)) \/
     (exists job', q_todo (next_entry s t job rest) = q_todo t /\ q_got (next_entry s t job rest) = q_got t ++ [job'] /\ asking (q_pc t) = [answers job'] /\ q_pc (next_entry s t job rest) = QAt FIdle))).
  { intros job rest Ha. unfold next_entry. destruct rest as [|cat rest].
    - split; [by apply mv_done|]. right. exists job. done.
    - assert (Hp : asking match fc_subCategories (fs_fc s) !! cat with Some _ => match job with JMap g start result => QRead g start result cat (RdThread [] (RClock start) []) rest | JLast result => QLoad result cat rest end | None => QIter job rest end = asking (q_pc t)).
      { rewrite Ha. destruct (fc_subCategories _ !! cat); [|done]. by destruct job. }
      split; [by apply mv_go|]. left. done. }
  intros Hs. unfold ff_tstep in Hs. destruct (fs_crashed s) eqn:Hc; [done|].
  destruct (q_pc t) as [pc|d cat ct u|job order'|job rest|g' start result cat r rest|result cat rest|result cat p rest] eqn:Hpc.
  - destruct (match pc with FIdle | FUpdate _ _ _ => true | _ => false end) eqn:Hk.
    { destruct pc; try done.
      - destruct (q_todo t) as [|[d cat|g' st' o|o] td] eqn:Htd; [done|..].
        + destruct (_ || _); injection Hs as <- <-.
          * split; [by eapply mv_call|]. right. right. left. exists (QRecord d cat). done.
          * split; [by eapply mv_call|]. right. right. left. exists (QRecord d cat). done.
        + injection Hs as <- <-. split; [by eapply mv_ask|]. right. right. left. exists (QGet g' st' o). done.
        + injection Hs as <- <-. split; [by eapply mv_ask|]. right. right. left. exists (QLast o). done.
      - injection Hs as <- <-. split; [apply mv_go; by rewrite Hpc|]. right. left. done. }
    assert (Hs' : ff_at s t pc = Some (s', t')) by (by destruct pc).
    unfold ff_at in Hs'. destruct (fc_tstep s (FThread [] pc)) as [[s2 u2]|] eqn:Hst2; [|done]. injection Hs' as <- <-.
    split; [apply mv_go; by rewrite Hpc|]. right. left. done.
  - assert (Hgo : exists s2 pc, (s', t') = (s2, QThread (q_todo t) pc (q_got t)) /\ asking pc = []).
    { destruct u as [[|n todo] upc].
      - destruct upc; try (injection Hs as <- <-; eexists _, _; split; [reflexivity|done]);
          (destruct (fc_subCategories (fs_fc s) !! cat) as [bc|]; [|done]; destruct (bc_tstep _ _) as [[o u']|]; [|done]; injection Hs as <- <-; eexists _, _; split; [reflexivity|done]).
      - destruct (fc_subCategories (fs_fc s) !! cat) as [bc|]; [|destruct upc; done]. destruct (bc_tstep _ _) as [[o u']|]; [|destruct upc; done].
        destruct upc; injection Hs as <- <-; eexists _, _; (split; [reflexivity|done]). }
    destruct Hgo as (s2 & pc & Heq & Hp). injection Heq as -> ->.
    split; [apply mv_go; by rewrite Hpc, Hp|]. right. left. done.
  - destruct (fs_writing s); injection Hs as <- <-.
    + split; [by apply mv_crash|]. by left.
    + destruct (Hn job (iteration order' (fc_subCategories (fs_fc s))) eq_refl) as [H1 [H2|H2]]; (split; [done|]); right; [by left|by right; right].
  - destruct (fs_writing s); injection Hs as <- <-.
    + split; [by apply mv_crash|]. by left.
    + destruct (Hn job rest eq_refl) as [H1 [H2|H2]]; (split; [done|]); right; [by left|by right; right].
  - destruct (rd_got r) as [|m got'].
    + destruct (_ !! cat); [|done]. destruct (rd_step _ _); [|done]. injection Hs as <- <-. split; [apply mv_go; by rewrite Hpc|]. right. left. done.
    + injection Hs as <- <-. split; [apply mv_go; by rewrite Hpc|]. right. left. done.
  - destruct (_ !! cat); [|done]. injection Hs as <- <-. split; [apply mv_go; by rewrite Hpc|]. right. left. done.
  - destruct (_ !! cat); [|done]. destruct (_ !! p); [|done]. injection Hs as <- <-. split; [apply mv_go; by rewrite Hpc|]. right. left. done.
Qed.

(** In a run that does not abort no question is lost. *)
Lemma ff_answers fc0 now0 progs s : let c := ff_crun fc0 now0 progs s in fs_crashed (shared c) = false ->
  forall i prog, progs !! i = Some prog -> exists t, threads c !! i = Some t /\
    omap asks prog = (answers <$> q_got t) ++ asking (q_pc t) ++ omap asks (q_todo t).
Proof.
  induction s as [|ev s IH] using rev_ind; intros c Hc i prog Hp.
  { unfold c. cbn. rewrite list_lookup_fmap, Hp. cbn. eexists. split; [done|]. done. }
  pose proof (crashed_app _ _ _ _ _ Hc) as Hc1. destruct (IH Hc1 i prog Hp) as (t & Ht & He). clear IH.
  unfold c, ff_crun in *. rewrite crun_snoc in Hc |- *. destruct (crun _ _ _ s) as [sh ts]. cbn [shared threads] in *.
  destruct ev as [j|e]; cbn [cstep shared threads] in Hc |- *; [|by exists t].
  destruct (ts !! j) as [u|] eqn:Hj; [|by exists t].
  destruct (ff_tstep sh u) as [[sh' u']|] eqn:Hs; [|by exists t]. cbn [threads shared] in *.
  destruct (decide (j = i)) as [->|Hne]; [|exists t; by rewrite list_lookup_insert_ne].
  rewrite Ht in Hj. injection Hj as <-. exists u'. rewrite list_lookup_insert by (by apply lookup_lt_Some in Ht). split; [done|].
  rewrite He. destruct (ff_move _ _ _ _ Hs) as [_ [Hx|[(H1 & -> & ->)|[(call & H1 & -> & H2 & H3 & H4)|(job & -> & -> & -> & ->)]]]]; [congruence|..].
  - do 2 f_equal. clear -H1. revert H1. generalize (q_todo t) (q_todo u'). intros l. induction l as [|a l IH]; intros [|b l'] H; [done|done|done|].
    cbn in H. injection H as Hab Hl. cbn. rewrite Hab. destruct (asks b); [f_equal|]; by apply IH.
  - rewrite H1, H2, H4. cbn. by destruct (asks call).
  - by rewrite fmap_app, <- app_assoc.
Qed.

Lemma ff_returned fc0 now0 progs s i t : let c := ff_crun fc0 now0 progs s in
  threads c !! i = Some t ->
  (forall got job rest, q_got t = got ++ job :: rest -> returned_by fc0 now0 progs i s got job) /\
  (forall q, asking (q_pc t) = [q] -> exists s1 s2 call, s = s1 ++ s2 /\ asks call = Some q /\
     threads (ff_crun fc0 now0 progs s1) !! i = Some (QThread (call :: q_todo t) (QAt FIdle) (q_got t))).
Proof.
  revert t. induction s as [|ev s IH] using rev_ind; intros t c Hi.
  { unfold c in Hi. cbn in Hi. rewrite list_lookup_fmap in Hi. destruct (progs !! i); [|done]. injection Hi as <-. cbn. split; [|done].
    intros got job rest H. by destruct got. }
  assert (Hold : forall t0, threads (ff_crun fc0 now0 progs s) !! i = Some t0 ->
    (forall got job rest, q_got t0 = got ++ job :: rest -> returned_by fc0 now0 progs i (s ++ [ev]) got job) /\
    (forall q, asking (q_pc t0) = [q] -> exists s1 s2 call, s ++ [ev] = s1 ++ s2 /\ asks call = Some q /\
     threads (ff_crun fc0 now0 progs s1) !! i = Some (QThread (call :: q_todo t0) (QAt FIdle) (q_got t0)))).
  { intros t0 H0. destruct (IH t0 H0) as [A B]. split.
    - intros got job rest H. destruct (A got job rest H) as (s1 & s2 & s3 & call & todo & -> & H1 & H2 & H3).
      exists s1, s2, (s3 ++ [ev]), call, todo. split; [by rewrite <- !app_assoc|done].
    - intros q Hq. destruct (B q Hq) as (s1 & s2 & call & -> & H1 & H2). exists s1, (s2 ++ [ev]), call. split; [by rewrite <- app_assoc|done]. }
  pose proof Hi as Hi0.
  unfold c, ff_crun in Hi. rewrite crun_snoc in Hi. fold (ff_crun fc0 now0 progs s) in Hi.
  destruct (ff_crun fc0 now0 progs s) as [sh ts] eqn:Er. cbn [shared threads] in *.
  destruct ev as [j|e]; cbn [cstep shared threads] in Hi; [|by apply Hold].
  destruct (ts !! j) as [u|] eqn:Hj; [|by apply Hold].
  destruct (ff_tstep sh u) as [[sh' u']|] eqn:Hs; [|by apply Hold]. cbn [threads shared] in *.
  destruct (decide (j = i)) as [->|Hne]; [|rewrite list_lookup_insert_ne in Hi by done; by apply Hold].
  rewrite list_lookup_insert in Hi by (by apply lookup_lt_Some in Hj). injection Hi as ->.
  destruct (Hold u Hj) as [A B]. destruct (ff_move _ _ _ _ Hs) as [Hm _].
  inversion Hm as [t0 call todo pc P1 P2 P3 P4 E1 E2|t0 call todo pc q P1 P2 P3 P4 E1 E2|t0 pc P1 E1 E2|t0 pc P1 E1 E2|t0 job P1 E1 E2]; subst t0; subst t; cbn [q_got q_pc q_todo] in *.
  - split; [exact A|]. intros q Hq. rewrite P4 in Hq. discriminate Hq.
  - split; [exact A|]. intros q' Hq. rewrite P4 in Hq. injection Hq as <-. exists s, [Run i], call. split; [done|]. split; [done|].
    rewrite Er. cbn [threads]. rewrite Hj. destruct u as [utodo upc ugot]. cbn in *. by subst.
  - split; [exact A|]. intros q Hq. rewrite P1 in Hq. by apply B.
  - split; [exact A|]. intros q Hq. rewrite P1 in Hq. discriminate Hq.
  - split; [|done]. intros got job' rest H. destruct (B _ P1) as (s1 & s2 & call & Hs12 & Hc & Ht1).
    destruct (decide (rest = [])) as [->|Hne].
    + apply app_inj_tail in H as [<- <-]. exists s1, s2, [], call, (q_todo u). split; [by rewrite app_nil_r|]. split; [done|]. split; [done|].
      rewrite <- Hs12. exact Hi0.
    + destruct (exists_last Hne) as (rest' & x & ->). assert (Hg : q_got u = got ++ job' :: rest').
      { apply (app_inj_tail (q_got u) (got ++ job' :: rest') job x). rewrite H. by rewrite <- app_assoc. }
      exact (A _ _ _ Hg).
Qed.

(** What a goroutine has still to do is the end of its program. *)
Lemma ff_todo fc0 now0 progs s i t prog : threads (ff_crun fc0 now0 progs s) !! i = Some t -> progs !! i = Some prog ->
  exists before, prog = before ++ q_todo t.
Proof.
  revert t. induction s as [|ev s IH] using rev_ind; intros t Hi Hp.
  { cbn in Hi. rewrite list_lookup_fmap, Hp in Hi. injection Hi as <-. by exists []. }
  unfold ff_crun in Hi. rewrite crun_snoc in Hi. fold (ff_crun fc0 now0 progs s) in Hi.
  destruct (ff_crun fc0 now0 progs s) as [sh ts] eqn:Er. cbn [shared threads] in *.
  destruct ev as [j|e]; cbn [cstep shared threads] in Hi; [|by apply IH].
  destruct (ts !! j) as [u|] eqn:Hj; [|by apply IH].
  destruct (ff_tstep sh u) as [[sh' u']|] eqn:Hs; [|by apply IH]. cbn [threads shared] in *.
  destruct (decide (j = i)) as [->|Hne]; [|rewrite list_lookup_insert_ne in Hi by done; by apply IH].
  rewrite list_lookup_insert in Hi by (by apply lookup_lt_Some in Hj). injection Hi as ->.
  destruct (IH u Hj Hp) as [before Hb]. destruct (ff_move _ _ _ _ Hs) as [Hm _].
  inversion Hm as [t0 call todo pc P1 P2 P3 P4 E1 E2|t0 call todo pc q P1 P2 P3 P4 E1 E2|t0 pc P1 E1 E2|t0 pc P1 E1 E2|t0 job P1 E1 E2]; subst t0; subst t; cbn [q_todo].
  - exists (before ++ [call]). by rewrite Hb, P2, <- app_assoc.
  - exists (before ++ [call]). by rewrite Hb, P2, <- app_assoc.
  - by exists before. - by exists before. - by exists before.
Qed.

Lemma valid_calls_app l1 l2 : valid_calls (l1 ++ l2) = valid_calls l1 ++ valid_calls l2.
Proof. unfold valid_calls. apply flat_map_app. Qed.
Lemma log_of_prefix i l1 l2 : l1 `prefix_of` l2 -> log_of i l1 `prefix_of` log_of i l2.
Proof. intros [k ->]. unfold log_of. rewrite filter_app, fmap_app. by eexists. Qed.

Section results.
Context (max interval N : Z) (recs0 : list fc_record) (fc0 : fast_compass) (now0 : Z) (progs : list (list qcall)).
Context (I1 : Second <= interval) (I2 : in64 interval) (I3 : 0 <= N) (Hf : Forall (fun r => in64 (rc_time r)) recs0) (E : fc_exec max interval N recs0 = Ok fc0).
Notation run := (ff_crun fc0 now0 progs).
Notation L := (landed fc0 progs now0).

Lemma ff_result s i t prog got g st res rest : fs_crashed (shared (run s)) = false -> threads (run s) !! i = Some t -> progs !! i = Some prog ->
  q_got t = got ++ JMap g st res :: rest -> -1000 < st ->
  exists before call after, prog = before ++ call :: after /\ asks call = Some (Some (g, st)) /\ omap asks before = answers <$> got /\
    forall cat m, res !! cat = Some m -> is_Some (fc_subCategories (fs_fc (shared (run s))) !! cat) /\ (size m <= Z.to_nat N)%nat /\
    forall key v, m !! key = Some v -> st <= key /\
      exists log, log `prefix_of` L s /\ log_of i log = valid_calls before /\
        v = reported g (interval `quot` Second) (records_of cat (recs0 ++ log.*2)) key.
Proof using E Hf I1 I2 I3.
  intros Hc Hi Hp Hg Hst. destruct (ff_returned fc0 now0 progs s i t Hi) as [A _]. destruct (A _ _ _ Hg) as (s1 & s2 & s3 & call & todo & -> & Hask & H1 & H2).
  cbn [answers] in Hask. destruct call as [|g' st' order|]; try done. injection Hask as -> ->.
  rewrite app_assoc in Hc. pose proof (crashed_app _ _ _ _ _ Hc) as Hc2. pose proof (crashed_app _ _ _ _ _ Hc2) as Hc1.
  destruct (ff_todo fc0 now0 progs s1 i _ prog H1 Hp) as [before Hb]. cbn [q_todo] in Hb.
  exists before, (QGet g st order), todo. split; [done|]. split; [done|]. split.
  { destruct (ff_answers fc0 now0 progs s1 Hc1 i prog Hp) as (t1 & Ht1 & Ha). rewrite H1 in Ht1. injection Ht1 as <-. cbn [q_got q_pc asking q_todo app] in Ha.
    rewrite Hb, omap_app in Ha. by apply app_inv_tail in Ha. }
  destruct (ff_getter_content max interval N recs0 fc0 now0 progs I1 I2 I3 Hf E s1 s2 i g st order todo got res Hc2 H1 H2 Hst) as [_ Hcont].
  assert (V1 : log_of i (L s1) = valid_calls before).
  { destruct (ff_linearizable max interval N recs0 fc0 now0 progs I1 I2 I3 Hf E s1 Hc1) as (V & _). destruct (V i prog Hp) as (t1 & Ht1 & Ha). rewrite H1 in Ht1. injection Ht1 as <-.
    cbn [q_pc recording begun q_todo app] in Ha. rewrite Hb, valid_calls_app in Ha. by apply app_inv_tail in Ha. }
  assert (V2 : log_of i (L (s1 ++ s2)) = valid_calls before).
  { destruct (ff_linearizable max interval N recs0 fc0 now0 progs I1 I2 I3 Hf E (s1 ++ s2) Hc2) as (V & _). destruct (V i prog Hp) as (t1 & Ht1 & Ha). rewrite H2 in Ht1. injection Ht1 as <-.
    cbn [q_pc recording begun q_todo app] in Ha. rewrite Hb, valid_calls_app in Ha. change (valid_calls (QGet g st order :: todo)) with (valid_calls todo) in Ha. by apply app_inv_tail in Ha. }
  intros cat m Hm. destruct (Hcont cat m Hm) as ([bc Hbc] & Hsz & now & _ & Hv). split; [|split; [done|]].
  { rewrite app_assoc. destruct (ext_run max interval N recs0 fc0 now0 progs I1 I2 I3 Hf E (s1 ++ s2) s3 Hc cat bc Hbc) as (bc' & Hb' & _). eauto. }
  intros key v Hk. destruct (Hv key v Hk) as ([Hlo _] & s' & [s'' ->] & ->). split; [done|].
  exists (L (s1 ++ s')). split; [|split; [|done]].
  - replace (s1 ++ (s' ++ s'') ++ s3) with ((s1 ++ s') ++ s'' ++ s3) by (by rewrite <- !app_assoc). apply landed_mono.
  - assert (P1 : log_of i (L s1) `prefix_of` log_of i (L (s1 ++ s'))) by (apply log_of_prefix, landed_mono).
    assert (P2 : log_of i (L (s1 ++ s')) `prefix_of` log_of i (L (s1 ++ s' ++ s''))) by (apply log_of_prefix; rewrite app_assoc; apply landed_mono).
    rewrite V1 in P1. rewrite V2 in P2. destruct P1 as [x Hx], P2 as [y Hy]. rewrite Hx in Hy |- *. rewrite <- app_assoc in Hy.
    apply (f_equal length) in Hy. rewrite !app_length in Hy. destruct x; [by rewrite app_nil_r|]. cbn in Hy. lia.
Qed.
End results.
