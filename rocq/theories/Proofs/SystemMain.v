(** The whole library in use: each part as it is on its own. *)
From Verif.Go Require Import GoInt GoFloat GoConc GoCompose.
From Verif.Model Require Import Config Registry RegistryConc BucketCounter FastCompass FastCompassConc FastCompassFine Compass CompassTypes CompassConc CompassFine CompassRead SystemConc.
From Verif.Spec Require Import BucketSpec CompassConcSpec CompassFineSpec CompassReadSpec RegistrySpec RegistryConcSpec SystemSpec.
From Verif.Proofs Require Import ComposeProofs CompassConcProofs CompassFineProofs CompassFineParts CompassFineMain RegistryProofs RegistryConcProofs RegistryLimit RegistryConcMore CompassReadProofs SystemProofs.
Local Open Scope Z_scope.

Section system.
Context (math_Exp : f64 -> f64).
Notation mstep := (mobj_step math_Exp).
Notation gs := (gstep sy_tstep (fun _ => false) sy_effect mstep min_idle min_push min_returned).
Notation ge := (gestep (fun s _ => s) mobj_estep).
Notation run := (sy_run math_Exp).

Lemma threads_length maxs e0 plans sched : length (threads (run maxs e0 plans sched)) = length plans.
Proof.
  unfold sy_run, grun. apply (crun_inv gs ge (fun c => length (threads c) = length plans)).
  - cbn. by rewrite fmap_length, imap_length.
  - intros s ts i t s' t' H _ _. cbn [threads] in *. by rewrite insert_length.
  - done.
Qed.
Lemma plan_of maxs e0 plans sched k t : threads (run maxs e0 plans sched) !! k = Some t -> exists plan, plans !! k = Some plan.
Proof. intros Hk. destruct (si_threads _ _ (sinv_run math_Exp maxs e0 plans sched) k t Hk) as [_ _ _ (before & Hp & _)]. eauto. Qed.

(** The registries alone. *)
Lemma registries_run maxs e0 plans sched : exists sched', registries (run maxs e0 plans sched) = r_crun maxs (lookups <$> plans) sched'.
Proof.
  induction sched as [|ev sched IH] using rev_ind.
  - exists []. unfold registries, sy_run, grun, r_crun, r_init. cbn. f_equal. rewrite !fmap_fmap. clear. rewrite fmap_imap.
    apply list_eq. intros i. rewrite list_lookup_imap, !list_lookup_fmap. by destruct (plans !! i).
  - destruct IH as [sched' IH]. pose proof (sinv_run math_Exp maxs e0 plans sched) as HI. unfold sy_run, grun in *. rewrite crun_snoc.
    destruct (crun gs ge _ sched) as [s ts]. destruct ev as [i|e]; cbn [cstep threads shared].
    2: { exists sched'. exact IH. }
    destruct (ts !! i) as [t|] eqn:Hi; [|by exists sched']. destruct (gs s t) as [[s' t']|] eqn:Hs; [|by exists sched'].
    assert (Hstep : (sy_reg (gs_client s') = sy_reg (gs_client s) /\ st_reg (gt_client t') = st_reg (gt_client t)) \/
      rstep (sy_reg (gs_client s)) (st_reg (gt_client t)) = Some (sy_reg (gs_client s'), st_reg (gt_client t'))).
    { destruct (client_step sy_tstep (fun _ => false) sy_effect mstep min_idle min_push min_returned s t s' t' Hs) as [[E1 E2]|[_ Hc]]; [left; by rewrite E1, E2|].
      assert (Hreg : forall plan, sy_reg_step (gs_client s) (gt_client t) plan = Some (gs_client s', gt_client t') -> rstep (sy_reg (gs_client s)) (st_reg (gt_client t)) = Some (sy_reg (gs_client s'), st_reg (gt_client t'))).
      { intros plan. unfold sy_reg_step. destruct (rstep _ _) as [[r' reg']|]; [|done]. intros Heq. by injection Heq as <- <-. }
      unfold sy_tstep in Hc. destruct (rt_pc _); [|right; by eapply Hreg..].
      destruct (st_plan _) as [|[op|i' j' u] plan]; [done|right; by eapply Hreg|]. destruct (handle_at _ _ _); [|done]. left. injection Hc as <- <-. done. }
    unfold registries in *. cbn [shared threads] in *. rewrite list_fmap_insert. destruct Hstep as [[-> ->]|Hr].
    + exists sched'. rewrite <- IH. f_equal. apply list_insert_id. by rewrite list_lookup_fmap, Hi.
    + exists (sched' ++ [Run i]). unfold r_crun in *. rewrite crun_snoc, <- IH. cbn [cstep threads shared]. rewrite list_lookup_fmap, Hi. cbn. by rewrite Hr.
Qed.

(** Handles. *)
Lemma given_handle plans c i j m : sinv plans c -> given c i j = Some m <-> handle_at (gs_client (shared c)) i j = Some (Some (Ok m)).
Proof.
  intros [HT _ _ _ HN]. unfold given, registries. cbn [threads]. rewrite list_lookup_fmap. destruct (threads c !! i) as [t|] eqn:Hi; cbn [fmap option_fmap option_map].
  - destruct (HT i t Hi) as [_ T2 _ _]. unfold handle_at. rewrite T2, list_lookup_fmap. destruct (rt_got _ !! j) as [[op [[m'|]|]]|]; cbn; split; intros E; try discriminate E; congruence.
  - unfold handle_at. rewrite (HN i Hi). cbn. done.
Qed.
Lemma given_fits plans c i j m : sinv plans c -> given c i j = Some m -> fits (gs_objs (shared c)) m.
Proof.
  intros [_ _ _ HH _]. unfold given, registries. cbn [threads]. rewrite list_lookup_fmap. destruct (threads c !! i) as [t|] eqn:Hi; [|done]. cbn.
  destruct (rt_got (st_reg (gt_client t)) !! j) as [[op [[m'|]|]]|] eqn:Ej; try done. intros [= ->]. destruct (HH i t Hi) as [_ H]. eapply H. by eapply elem_of_list_lookup_2.
Qed.

Lemma sy_proper_run maxs e0 plans sched : proper sy_tstep sy_effect (run maxs e0 plans sched).
Proof.
  pose proof (sinv_run math_Exp maxs e0 plans sched) as HI. intros i t Hi Hin. destruct (sy_effect _ _ _) as [[|ref o|ref u]|] eqn:Ee; try done; intros _.
  - apply eq_None_not_Some. rewrite (si_dom _ _ HI). unfold sy_effect in Ee. destruct (rt_pc _).
    + destruct (st_plan _) as [|[op|i' j' u] plan]; try done. destruct (handle_at _ _ _) as [[[[]|]|]|], u; done.
    + done. + done. + done.
    + destruct (new_metric _ _); [|done]. injection Ee as <- _. lia.
    + done. + done. + done.
  - unfold sy_effect in Ee. destruct (rt_pc _); try done.
    2: { destruct (new_metric _ _); done. }
    destruct (st_plan _) as [|[op|i' j' u'] plan]; try done. destruct (handle_at _ i' j') as [[[[r p|r a b d| |]|]|]|] eqn:Eh; destruct u'; try done; injection Ee as -> _;
      apply (given_handle plans _ i' j' _ HI) in Eh; apply (given_fits plans _ _ _ _ HI) in Eh; cbn in Eh.
    + destruct Eh as [_ (rk & st & s & _ & ->)]. done. + destruct Eh as [_ (s & ->)]. done.
Qed.
Lemma sy_seen maxs e0 plans sched : seen sy_effect mstep mobj_estep min_idle min_push ∅ e0 (shown sched) (run maxs e0 plans sched).
Proof. apply seen_run; [apply mobj_push|]. intros sched'. apply sy_proper_run. Qed.

(** A metric as an object of its own model. *)
Lemma compass_part c0 tr c : esteps mstep mobj_estep c0 tr c -> forall p rk st s0 ts0, c0 = Config (OCompass p rk st s0) ts0 ->
  exists s, shared c = OCompass p rk st s /\ esteps (compass_step math_Exp p rk st) (gestep cf_estep cobj_estep) (Config s0 (mi_compass <$> ts0)) tr (Config s (mi_compass <$> threads c)).
Proof.
  induction 1 as [|tr s ts i t s' t' _ IH Hi Hs|tr s ts e _ IH]; intros p rk st s0 ts0 Hc.
  - subst. exists s0. split; [done|constructor].
  - destruct (IH _ _ _ _ _ Hc) as (b & Hb & Hst). cbn [shared threads] in *. subst s. cbn [mobj_step] in Hs. destruct (compass_step _ p rk st b (mi_compass t)) as [[b' l]|] eqn:E; [|done].
    injection Hs as <- <-. exists b'. split; [done|]. rewrite list_fmap_insert. cbn [mi_compass]. econstructor; [exact Hst| |exact E]. by rewrite list_lookup_fmap, Hi.
  - destruct (IH _ _ _ _ _ Hc) as (b & Hb & Hst). cbn [shared threads] in *. subst s. eexists. split; [done|]. by apply (es_env (compass_step math_Exp p rk st) (gestep cf_estep cobj_estep)).
Qed.
Lemma fast_part c0 tr c : esteps mstep mobj_estep c0 tr c -> forall i n mx s0 ts0, c0 = Config (OFast i n mx s0) ts0 ->
  exists s, shared c = OFast i n mx s /\ esteps ff_tstep (fun s e => fc_estep s (ce_ms e)) (Config s0 (mi_fast <$> ts0)) tr (Config s (mi_fast <$> threads c)).
Proof.
  induction 1 as [|tr s ts k t s' t' _ IH Hi Hs|tr s ts e _ IH]; intros i n mx s0 ts0 Hc.
  - subst. exists s0. split; [done|constructor].
  - destruct (IH _ _ _ _ _ Hc) as (b & Hb & Hst). cbn [shared threads] in *. subst s. cbn [mobj_step] in Hs. destruct (ff_tstep b (mi_fast t)) as [[b' l]|] eqn:E; [|done].
    injection Hs as <- <-. exists b'. split; [done|]. rewrite list_fmap_insert. cbn [mi_fast]. econstructor; [exact Hst| |exact E]. by rewrite list_lookup_fmap, Hi.
  - destruct (IH _ _ _ _ _ Hc) as (b & Hb & Hst). cbn [shared threads] in *. subst s. eexists. split; [done|]. by apply (es_env ff_tstep (fun s e => fc_estep s (ce_ms e))).
Qed.

Lemma new_compass_inv m e p rk st s0 : new_metric m e = Some (OCompass p rk st s0) ->
  exists objs0, cf_objs0 rk (cpp_bucketInterval p) (cpp_numOfBucket p) e = Some objs0 /\ st = ce_ms e /\ s0 = GShared (shared (cp_cinit (ce_ms e) (ce_tick e) [])) objs0 e.
Proof.
  destruct m as [r p'|r a b d| |]; cbn [new_metric]; try done. cbv zeta. destruct (cf_objs0 _ _ _ _) as [objs0|] eqn:Eo; [|done].
  intros Heq. injection Heq as <- <- <- <-. eauto.
Qed.
Lemma new_fast_inv m e i n mx s0 : new_metric m e = Some (OFast i n mx s0) -> s0 = shared (fc_cinit (newFastCompass mx i n) (ce_ms e) []).
Proof.
  destruct m as [r p'|r a b d| |]; cbn [new_metric]; try done.
  - cbv zeta. by destruct (cf_objs0 _ _ _ _).
  - intros Heq. by injection Heq as -> -> -> <-.
Qed.
(** The calls a goroutine has made of a metric. *)
Lemma uses_app sel p1 p2 : uses sel (p1 ++ p2) = uses sel p1 ++ uses sel p2.
Proof. unfold uses. by rewrite omap_app. Qed.
Lemma compass_calls_app l1 l2 : compass_calls (l1 ++ l2) = compass_calls l1 ++ compass_calls l2.
Proof. unfold compass_calls. by rewrite omap_app, join_app'. Qed.
Lemma fast_calls_app l1 l2 : fast_calls (l1 ++ l2) = fast_calls l1 ++ fast_calls l2.
Proof. unfold fast_calls. by rewrite omap_app. Qed.

Lemma made_compass plans c before ref p : sinv plans c -> (exists i j, given c i j = Some (MCompass ref p)) ->
  compass_calls (calls_of ref (omap (resolve (gs_client (shared c))) before)) = compass_calls (uses (is_given c (MCompass ref p)) before).
Proof.
  intros HI (i0 & j0 & H0). apply (given_fits _ _ _ _ _ HI) in H0. cbn [fits] in H0. destruct H0 as [_ (rk0 & st0 & s0 & _ & H0)].
  induction before as [|a before IH] using rev_ind; [done|].
  rewrite omap_app, calls_of_app, uses_app, !compass_calls_app, IH. f_equal. clear IH.
  destruct a as [op|i j u]; [done|]. unfold uses, is_given. cbn [omap list_omap resolve].
  destruct (handle_at (gs_client (shared c)) i j) as [x|] eqn:Eh.
  2: { rewrite bool_decide_eq_false_2; [done|]. rewrite (given_handle _ _ _ _ _ HI), Eh. done. }
  destruct x as [[m|]|]; [|rewrite bool_decide_eq_false_2 by (rewrite (given_handle _ _ _ _ _ HI), Eh; done); by destruct u..].
  destruct (decide (m = MCompass ref p)) as [->|Hne].
  - rewrite bool_decide_eq_true_2 by (rewrite (given_handle _ _ _ _ _ HI), Eh; done). destruct u; [|done]. cbn. by rewrite decide_True.
  - rewrite bool_decide_eq_false_2 by (rewrite (given_handle _ _ _ _ _ HI), Eh; congruence).
    apply (given_handle _ _ _ _ _ HI) in Eh. apply (given_fits _ _ _ _ _ HI) in Eh.
    destruct m as [r p'|r a b d| |], u; try done; cbn; destruct (decide (r = ref)) as [->|]; try done.
    cbn [fits] in Eh. destruct Eh as [_ (rk & st & s & _ & Ho)]. rewrite H0 in Ho. injection Ho as <- _ _ _. done.
Qed.
Lemma made_fast plans c before ref a b d : sinv plans c -> (exists i j, given c i j = Some (MFastCompass ref a b d)) ->
  fast_calls (calls_of ref (omap (resolve (gs_client (shared c))) before)) = fast_calls (uses (is_given c (MFastCompass ref a b d)) before).
Proof.
  intros HI (i0 & j0 & H0). apply (given_fits _ _ _ _ _ HI) in H0. cbn [fits] in H0. destruct H0 as [_ (s0 & H0)].
  induction before as [|x before IH] using rev_ind; [done|].
  rewrite omap_app, calls_of_app, uses_app, !fast_calls_app, IH. f_equal. clear IH.
  destruct x as [op|i j u]; [done|]. unfold uses, is_given. cbn [omap list_omap resolve].
  destruct (handle_at (gs_client (shared c)) i j) as [x|] eqn:Eh.
  2: { rewrite bool_decide_eq_false_2; [done|]. rewrite (given_handle _ _ _ _ _ HI), Eh. done. }
  destruct x as [[m|]|]; [|rewrite bool_decide_eq_false_2 by (rewrite (given_handle _ _ _ _ _ HI), Eh; done); by destruct u..].
  destruct (decide (m = MFastCompass ref a b d)) as [->|Hne].
  - rewrite bool_decide_eq_true_2 by (rewrite (given_handle _ _ _ _ _ HI), Eh; done). destruct u; [done|]. cbn. by rewrite decide_True.
  - rewrite bool_decide_eq_false_2 by (rewrite (given_handle _ _ _ _ _ HI), Eh; congruence).
    apply (given_handle _ _ _ _ _ HI) in Eh. apply (given_fits _ _ _ _ _ HI) in Eh.
    destruct m as [r p'|r a' b' d'| |], u; try done; cbn; destruct (decide (r = ref)) as [->|]; try done.
    cbn [fits] in Eh. destruct Eh as [_ (s & Ho)]. rewrite H0 in Ho. injection Ho as <- <- <- _. done.
Qed.

(** How an object at an address began. *)
Lemma origin_new e0 es ref o0 es' : origin sy_effect ∅ e0 es ref o0 es' -> exists k nm e before, new_metric (create k nm ref) e = Some o0 /\ e0 :: es = before ++ e :: es'.
Proof.
  intros [[He _]|(s1 & t1 & e & before & He & Hb)]; [by rewrite lookup_empty in He|]. unfold sy_effect in He. destruct (rt_pc _) as [| | | |r k nm| | |]; try done.
  - destruct (st_plan _) as [|[op|i' j' u] plan]; try done. destruct (handle_at _ _ _) as [[[[]|]|]|], u; done.
  - destruct (new_metric _ _) as [o|] eqn:En; [|done]. injection He as <- <-. eauto 6.
Qed.
Lemma began_compass tr o0 ts0 p rk st s ts : esteps mstep mobj_estep (Config o0 ts0) tr (Config (OCompass p rk st s) ts) -> exists s0, o0 = OCompass p rk st s0.
Proof.
  intros Hst. destruct o0 as [p' rk' st' s0|a b d s0].
  - destruct (compass_part _ _ _ Hst _ _ _ _ _ eq_refl) as (s' & Hs' & _). injection Hs' as <- <- <- _. by exists s0.
  - destruct (fast_part _ _ _ Hst _ _ _ _ _ eq_refl) as (s' & Hs' & _). discriminate Hs'.
Qed.
Lemma compass_alone_run maxs e0 plans sched ref p : let c := run maxs e0 plans sched in
  (exists i j, given c i j = Some (MCompass ref p)) ->
  exists before e es rk progs tr cc, e0 :: shown sched = before ++ e :: es /\ shown tr = es /\ reservoir_of (cpp_reservoirType p) = rk /\
    (exists s, gs_objs (shared c) !! ref = Some (OCompass p rk (ce_ms e) s)) /\ reading_at c ref = Some cc /\
    cr_run math_Exp rk (cpp_bucketInterval p) (cpp_numOfBucket p) (cpp_maxErrorCodeCount p) (cpp_maxAddonCount p) e progs tr = Some cc /\
    progressed compass_calls (is_given c (MCompass ref p)) plans c progs.
Proof.
  intros c Hg. pose proof (sinv_run math_Exp maxs e0 plans sched) as HI. fold c in HI. pose proof (sy_seen maxs e0 plans sched) as HS. fold c in HS.
  destruct Hg as (i0 & j0 & Hg). pose proof (given_fits _ _ _ _ _ HI Hg) as [_ (rk & st & s & Hrk & Ho)].
  destruct (sn_some _ _ _ _ _ _ _ _ _ HS ref _ Ho) as (o0 & tr & Hor & Hst). destruct (origin_new _ _ _ _ _ Hor) as (k & nm & e & before & Hnew & Hb). exists before, e, (shown tr), rk.
  destruct (began_compass _ _ _ _ _ _ _ _ Hst) as [s0 ->]. destruct (compass_part _ _ _ Hst _ _ _ _ _ eq_refl) as (s' & Hs' & Hcp). cbn [shared threads] in Hs'. injection Hs' as <-.
  exists ((fun t => compass_calls (calls_of ref (gt_made t))) <$> threads c), tr, (Config s ((fun t => mi_compass (inside_of min_idle ref t)) <$> threads c)).
  destruct (new_compass_inv _ _ _ _ _ _ Hnew) as (objs0 & Eo & -> & ->). split; [done|]. split; [done|]. split; [done|]. split; [by exists s|]. split; [unfold reading_at; by rewrite Ho|]. split.
  -
    unfold cr_run. rewrite Eo. f_equal. apply esteps_crun in Hcp. cbn [threads] in Hcp. rewrite !fmap_fmap in Hcp. unfold compass_step in Hcp. rewrite <- Hcp. do 2 f_equal.
    rewrite !fmap_fmap. apply list_fmap_ext. intros x t _. by rewrite with_calls_min.
  - split; [rewrite fmap_length; apply threads_length|]. intros q t plan prog Hq Hpl Hpr. rewrite list_lookup_fmap, Hq in Hpr. injection Hpr as <-.
    destruct (si_threads _ _ HI q t Hq) as [_ _ _ (bef & T4 & _ & T6)]. rewrite T6. rewrite (made_compass plans c bef ref p HI) by eauto. rewrite T4 in Hpl. injection Hpl as <-. split.
    + rewrite uses_app, compass_calls_app. by eexists.
    + intros (F1 & _ & _). by rewrite F1, app_nil_r.
Qed.
Lemma fast_alone_run maxs e0 plans sched ref i n mx : let c := run maxs e0 plans sched in
  (exists i0 j0, given c i0 j0 = Some (MFastCompass ref i n mx)) ->
  exists before e es progs tr cc, e0 :: shown sched = before ++ e :: es /\ shown tr = ce_ms <$> es /\ fast_at c ref = Some cc /\
    ff_crun (newFastCompass mx i n) (ce_ms e) progs tr = cc /\
    progressed fast_calls (is_given c (MFastCompass ref i n mx)) plans c progs.
Proof.
  intros c Hg. pose proof (sinv_run math_Exp maxs e0 plans sched) as HI. fold c in HI. pose proof (sy_seen maxs e0 plans sched) as HS. fold c in HS.
  destruct Hg as (i0 & j0 & Hg). pose proof (given_fits _ _ _ _ _ HI Hg) as [_ (s & Ho)].
  destruct (sn_some _ _ _ _ _ _ _ _ _ HS ref _ Ho) as (o0 & tr & Hor & Hst). destruct Hor as [[He _]|(s1 & t1 & e & before & He & Hb)]; [by rewrite lookup_empty in He|].
  assert (Hnew : exists k nm, new_metric (create k nm ref) e = Some o0).
  { unfold sy_effect in He. destruct (rt_pc _) as [| | | |r k nm| | |]; try done.
    - destruct (st_plan _) as [|[op|i' j' u] plan]; try done. destruct (handle_at _ _ _) as [[[[]|]|]|], u; done.
    - destruct (new_metric _ _) as [o|] eqn:En; [|done]. injection He as <- <-. eauto. }
  destruct Hnew as (k & nm & Hnew).
  assert (Hk : exists s0, o0 = OFast i n mx s0).
  { destruct o0 as [p' rk' st' s0|a b d s0].
    - destruct (compass_part _ _ _ Hst _ _ _ _ _ eq_refl) as (s' & Hs' & _). discriminate Hs'.
    - destruct (fast_part _ _ _ Hst _ _ _ _ _ eq_refl) as (s' & Hs' & _). injection Hs' as <- <- <- _. by exists s0. }
  destruct Hk as [s0 ->]. destruct (fast_part _ _ _ Hst _ _ _ _ _ eq_refl) as (s' & Hs' & Hcp). cbn [shared threads] in Hs'. injection Hs' as <-.
  destruct (esteps_map ff_tstep fc_estep ce_ms _ _ _ Hcp) as (tr' & Hcp' & Htr).
  exists before, e, (shown tr), ((fun t => fast_calls (calls_of ref (gt_made t))) <$> threads c), tr', (Config s ((fun t => mi_fast (inside_of min_idle ref t)) <$> threads c)).
  split; [done|]. split; [done|]. split; [unfold fast_at; by rewrite Ho|]. split.
  - rewrite (new_fast_inv _ _ _ _ _ _ Hnew) in Hcp'.
    apply esteps_crun in Hcp'. cbn [threads] in Hcp'. rewrite !fmap_fmap in Hcp'. rewrite <- Hcp'. unfold ff_crun, ff_cinit. f_equal. cbn [shared]. f_equal. rewrite !fmap_fmap. apply list_fmap_ext. intros x t _. by rewrite with_calls_min.
  - split; [rewrite fmap_length; apply threads_length|]. intros q t plan prog Hq Hpl Hpr. rewrite list_lookup_fmap, Hq in Hpr. injection Hpr as <-.
    destruct (si_threads _ _ HI q t Hq) as [_ _ _ (bef & T4 & _ & T6)]. rewrite T6. rewrite (made_fast plans c bef ref i n mx HI) by eauto. rewrite T4 in Hpl. injection Hpl as <-. split.
    + rewrite uses_app, fast_calls_app. by eexists.
    + intros (F1 & _ & _). by rewrite F1, app_nil_r.
Qed.
End system.
