(** A compass with all its objects: the order in which amounts are added to the buckets of
    each counter. *)
From Verif.Go Require Import GoInt GoFloat GoConc GoCompose.
From Verif.Model Require Import Counter BucketQueue BucketCounter BucketCounterConc BucketReadConc EWMA EWMAConc WeightedSnapshot DecayingReservoir DecayingConc Compass CompassConc CompassFine.
From Verif.Spec Require Import BucketSpec BucketConcSpec BucketReadSpec CompassConcSpec CompassFineSpec.
From Verif.Proofs Require Import BucketAbs BucketHist BucketConcProofs BucketConcRing BucketConcMain BucketReadProofs BucketReadMain EWMAConcProofs ComposeProofs CompassConcProofs CompassFineProofs CompassFineParts CompassFineMain.
From Verif.Spec Require Import CompassFineSpec.
Local Open Scope Z_scope.

(** A goroutine gets one more amount to add. *)
Definition bt_push (t : bthread) (n : Z) : bthread := BThread (bt_todo t ++ [n]) (bt_pc t).

Lemma mjoin_fmap_insert_app {A B} (f : A -> list B) (l : list A) i x y b : l !! i = Some x -> f y = f x ++ b ->
  mjoin (f <$> <[i := y]> l) ≡ₚ mjoin (f <$> l) ++ b.
Proof.
  revert i. induction l as [|z l IH]; intros [|i] Hi E; try done; cbn in Hi |- *.
  - injection Hi as ->. rewrite E, <- !app_assoc. apply Permutation_app_head, Permutation_app_comm.
  - rewrite <- app_assoc. apply Permutation_app_head. by apply IH.
Qed.

Lemma mxinv_push N interval t0 all all' s ts i t n cr :
  mxinv N interval t0 true all (Config s (MUpd <$> ts)) cr -> ts !! i = Some t -> all' ≡ₚ all ++ [n] ->
  mxinv N interval t0 true all' (Config s (MUpd <$> <[i := bt_push t n]> ts)) cr.
Proof.
  intros [B Q] Hi Ha. split; [|exact Q]. cbn [shared threads] in *.
  assert (Ep : forall l : list bthread, proj <$> (MUpd <$> l) = l). { intros l. rewrite <- list_fmap_compose. apply list_fmap_id. }
  rewrite Ep in *. destruct B. constructor; try done.
  - rewrite Ha, <- b_amts, <- app_assoc. apply Permutation_app_head. apply (mjoin_fmap_insert_app unfinished _ _ t); [done|]. unfold unfinished, bt_push. cbn. by rewrite app_assoc.
  - rewrite (sumZ_insert (fun t => sumZ (bt_todo t)) _ _ t) by done. rewrite (sumZ_perm _ _ Ha). unfold bt_push. cbn [bt_todo]. rewrite !sumZ_app, sumZ_cons. change (sumZ []) with 0.
    rewrite <- (wrap64_add_l (sumZ all)), <- b_total, wrap64_add_l. f_equal. lia.
  - intros j u Hj. apply list_lookup_insert_Some in Hj as [(-> & <- & _)|[_ Hj]]; [|by eapply b_pcs]. cbn. by eapply b_pcs.
  - intros q Hq. destruct (b_cover q Hq) as [?|(j & u & Hj & Hu)]; [by left|right]. destruct (decide (i = j)) as [->|Hne].
    + exists j, (bt_push t n). rewrite list_lookup_insert by (by eapply lookup_lt_Some). split; [done|]. by rewrite Hi in Hj; injection Hj as <-.
    + exists j, u. by rewrite list_lookup_insert_ne.
Qed.

Lemma tsinv_push Is vals s ts i t n : tsinv Is vals (Config s (MUpd <$> ts)) -> ts !! i = Some t -> tsinv Is vals (Config s (MUpd <$> <[i := bt_push t n]> ts)).
Proof.
  intros [T1 T2 T3] Hi. constructor; [exact T1|exact T2|]. cbn [threads] in *. intros j u x Hj. rewrite list_lookup_fmap in Hj.
  destruct (<[i := bt_push t n]> ts !! j) as [v|] eqn:E; [|done]. injection Hj as <-. apply list_lookup_insert_Some in E as [(-> & <- & _)|[_ E]].
  - cbn. eapply (T3 j). by rewrite list_lookup_fmap, Hi.
  - eapply (T3 j). by rewrite list_lookup_fmap, E.
Qed.
Lemma tsinv_mono Is v1 v2 c : v1 ⊆ v2 -> tsinv Is v1 c -> tsinv Is v2 c.
Proof.
  intros H [T1 T2 T3]. constructor; [by apply H|..].
  - intros p b Hp. destruct (T2 p b Hp); [by left|right]. by eapply tsok_mono.
  - intros i t x Hi Hx. eapply tsok_mono; [exact H|]. by eapply T3.
Qed.

(** A new counter. *)
Lemma mxinv_new interval N ms bc n : 0 <= N -> newBucketCounterImpl interval N ms true = Ok bc ->
  mxinv (Z.to_nat N) interval ms true [] (Config (BcShared bc (wrap64 ms)) (MUpd <$> replicate n (BThread [] BucketCounterConc.PIdle))) [] /\
  (forall p b, bc_heap bc !! p = Some b -> bk_ts b = -1).
Proof.
  intros HN Hbc. destruct (mx_init interval N ms true (replicate n (PUpd [])) HN) as (c0 & E & M). rewrite Hbc in E. injection E as <-.
  rewrite !fmap_replicate in *. cbn [amounts_of mx_start] in M. replace (mjoin (replicate n [])) with (@nil Z) in M by (clear; induction n as [|n IH]; [done|exact IH]).
  split; [exact M|]. destruct M as [B _]. intros p b Hp. eapply (b_init _ _ _ _ _ _ _ _ B); [|exact Hp]. cbn [shared bs_bc] in *.
  apply lookup_lt_Some in Hp. destruct (binv_init interval N ms true [] HN) as (c & Ec & _ & Hh & _). unfold bc_cinit in Ec. rewrite Hbc in Ec. cbn in Ec. injection Ec as <-. cbn [shared bs_bc] in Hh.
  rewrite Hh, replicate_length in Hp. done.
Qed.

(** The amount that a goroutine adds to a bucket of the counter [k] in the next step. *)
Definition cadds (k : ckey) (c : fine) (ev : event cenv) : list (nat * Z) :=
  match ev with
  | Run i => if cs_crashed (gs_client (shared c)) then [] else
      match threads c !! i with
      | Some t => match ci_bc (at_in k t) with BThread _ (BucketCounterConc.PAdd n q) => [(q, n)] | _ => [] end
      | None => []
      end
  | Env _ => []
  end.
Definition view (k : ckey) (sk : bc_shared) (c : fine) : mcfg := Config sk (MUpd <$> ((fun t => ci_bc (at_in k t)) <$> threads c)).
Definition asked_of (k : ckey) (c : fine) : list Z := mjoin ((fun t => updates (calls k t)) <$> threads c).
Definition ms_values (e0 : cenv) (sched : list (event cenv)) : list Z := (fun e => wrap64 (ce_ms e)) <$> (e0 :: shown sched).

Section ledger.
Context (math_Exp : f64 -> f64) (rk : reservoir_kind) (I N maxE maxA : Z).
Notation effect_of := (cf_effect rk I N).
Notation gs := (gstep (cp_tstep I maxE maxA) cs_crashed effect_of (cobj_step math_Exp) cin_idle cin_push cin_returned).
Notation ge := (gestep cf_estep cobj_estep).
Notation cf := (cf_run math_Exp rk I N maxE maxA).

Fixpoint cledger (k : ckey) (c : fine) (sched : list (event cenv)) : list (nat * Z) :=
  match sched with [] => [] | ev :: sched => cadds k c ev ++ cledger k (cstep gs ge c ev) sched end.
Lemma cledger_app k c s1 s2 : cledger k c (s1 ++ s2) = cledger k c s1 ++ cledger k (crun gs ge c s1) s2.
Proof. revert c. induction s1 as [|ev s1 IH]; intros c; [done|]. cbn. rewrite IH. by rewrite app_assoc. Qed.

Definition start (e0 : cenv) (progs : list (list kcall)) (objs0 : gmap ckey cobj) : fine :=
  let c0 := cp_cinit (ce_ms e0) (ce_tick e0) progs in ginit (shared c0) objs0 e0 (threads c0).

Record linv (e0 : cenv) (k : ckey) (sched : list (event cenv)) (c : fine) (L : list (nat * Z)) : Prop := {
  l_some : forall o, gs_objs (shared c) !! k = Some o -> exists sk t0, o = OCounter sk /\
    bs_clock sk = wrap64 (ce_ms (gs_env (shared c))) /\
    mxinv (Z.to_nat N) I t0 true (asked_of k c) (view k sk c) L /\
    tsinv (interval_seconds I) (ms_values e0 sched) (view k sk c);
  l_none : gs_objs (shared c) !! k = None -> L = [] }.

Lemma ms_values_app e0 s1 s2 : ms_values e0 (s1 ++ s2) = ms_values e0 s1 ++ ((fun e => wrap64 (ce_ms e)) <$> shown s2).
Proof. unfold ms_values, shown. rewrite omap_app, !fmap_cons, fmap_app. done. Qed.

Lemma new_counter_new ms o : new_counter I N ms = Some o -> exists bc, newBucketCounterImpl I N ms true = Ok bc /\ o = OCounter (BcShared bc (wrap64 ms)).
Proof. unfold new_counter. destruct (newBucketCounterImpl _ _ _ _) as [bc|]; [|done]. intros [= <-]. by exists bc. Qed.

(** A counter nobody has called. *)
Lemma linv_new e0 k sched (c : fine) ms bc : counter_setting I N -> newBucketCounterImpl I N ms true = Ok bc ->
  gs_env (shared c) = CEnv (ce_tick (gs_env (shared c))) ms (ce_random (gs_env (shared c))) (ce_draws (gs_env (shared c))) -> wrap64 ms ∈ ms_values e0 sched ->
  (forall i t, threads c !! i = Some t -> calls k t = [] /\ at_in k t = cin_idle) ->
  gs_objs (shared c) !! k = Some (OCounter (BcShared bc (wrap64 ms))) -> linv e0 k sched c [].
Proof.
  intros (H1 & H2 & H3) Hbc Henv Hms Hno Ho. constructor; [|by rewrite Ho].
  intros o Ho'. rewrite Ho in Ho'. injection Ho' as <-. exists (BcShared bc (wrap64 ms)), ms. split; [done|]. split; [cbn; by rewrite Henv|].
  destruct (mxinv_new I N ms bc (length (threads c)) H3 Hbc) as [M Mh].
  assert (Ev : view k (BcShared bc (wrap64 ms)) c = Config (BcShared bc (wrap64 ms)) (MUpd <$> replicate (length (threads c)) (BThread [] BucketCounterConc.PIdle))).
  { unfold view. f_equal. f_equal. clear -Hno. induction (threads c) as [|t ts IH]; [done|]. rewrite fmap_cons. cbn [length replicate]. f_equal.
    - by rewrite (proj2 (Hno 0%nat t eq_refl)).
    - apply IH. intros i u Hu. by apply (Hno (S i)). }
  assert (Ea : asked_of k c = []).
  { unfold asked_of. clear -Hno. induction (threads c) as [|t ts IH]; [done|]. rewrite fmap_cons. cbn [mjoin list_join]. rewrite (proj1 (Hno 0%nat t eq_refl)). cbn.
    apply IH. intros i u Hu. by apply (Hno (S i)). }
  rewrite Ev, Ea. split; [exact M|]. constructor; cbn [shared bs_clock bs_bc threads]; [done|..].
  - intros p b Hp. left. by eapply Mh.
  - intros i t x Hi. rewrite list_lookup_fmap in Hi. destruct (replicate _ _ !! i) as [u|] eqn:Eu; [|done]. apply lookup_replicate in Eu as [-> _]. by injection Hi as <-.
Qed.

(** Nothing about [k] changes. *)
Lemma linv_same e0 k sched sched' (c c' : fine) L : ms_values e0 sched = ms_values e0 sched' -> gs_env (shared c') = gs_env (shared c) ->
  gs_objs (shared c') !! k = gs_objs (shared c) !! k -> (forall sk, view k sk c' = view k sk c) -> asked_of k c' = asked_of k c -> linv e0 k sched c L -> linv e0 k sched' c' L.
Proof. intros E1 E2 E3 E4 E5 [J1 J2]. constructor; rewrite E3; [|done]. intros o Ho. destruct (J1 o Ho) as (sk & t0 & K). exists sk, t0. by rewrite E2, E4, E5, <- E1. Qed.

Lemma view_same k sk s s' (ts : list (gthread kthread cin ckey cop)) i t t' : ts !! i = Some t -> at_in k t' = at_in k t -> view k sk (Config s' (<[i := t']> ts)) = view k sk (Config s ts).
Proof. intros Hi E. unfold view. cbn [threads]. f_equal. f_equal. rewrite list_fmap_insert. apply list_insert_id. by rewrite list_lookup_fmap, Hi, E. Qed.
Lemma asked_same k s s' (ts : list (gthread kthread cin ckey cop)) i t t' : ts !! i = Some t -> calls k t' = calls k t -> asked_of k (Config s' (<[i := t']> ts)) = asked_of k (Config s ts).
Proof. intros Hi E. unfold asked_of. cbn [threads]. f_equal. rewrite list_fmap_insert. apply list_insert_id. by rewrite list_lookup_fmap, Hi, E. Qed.

Lemma updates_snoc l a : updates (l ++ [a]) = updates l ++ updates [a].
Proof. unfold updates. by rewrite omap_app. Qed.

Theorem linv_run e0 progs objs0 : counter_setting I N -> cf_objs0 rk I N e0 = Some objs0 ->
  forall sched c, cf e0 progs sched = Some c -> forall k, is_counter k = true -> linv e0 k sched c (cledger k (start e0 progs objs0) sched).
Proof.
  intros HS H0. pose proof HS as (HS1 & HS2 & HS3). pose proof (interval_seconds_pos _ HS1 HS2) as HI.
  assert (Hcf : forall sched, cf e0 progs sched = Some (crun gs ge (start e0 progs objs0) sched)) by (intros sched; unfold cf_run; by rewrite H0).
  intros sched c Hc k Hk. rewrite Hcf in Hc. injection Hc as <-. induction sched as [|ev sched IH] using rev_ind.
  - cbn [cledger crun fold_left]. constructor; [|done]. intros o Ho.
    pose proof (cf_seen _ _ _ _ _ _ _ _ [] _ _ H0 (Hcf [])) as Sn. destruct (sn_some _ _ _ _ _ _ _ _ _ Sn k o Ho) as (o0 & tr & Hor & _).
    clear Hor tr o0 Sn.
    assert (Hnew : exists bc, newBucketCounterImpl I N (ce_ms e0) true = Ok bc /\ o = OCounter (BcShared bc (wrap64 (ce_ms e0)))).
    { apply new_counter_new. destruct (origin_counter I N rk e0 objs0 [] k o [] H0 Hk) as (before & e & Hb & Hn); [left; by split|].
      destruct before as [|? before]; [by injection Hb as <-|]. injection Hb as <- Hb. by destruct before. }
    destruct Hnew as (bc & Hbc & ->). eapply (l_some e0 k [] (start e0 progs objs0) []); [|exact Ho].
    eapply linv_new; [done|exact Hbc|by destruct e0|by left| |exact Ho].
    intros i t Hi. unfold start in Hi. cbn in Hi. rewrite !list_lookup_fmap in Hi. destruct (progs !! i); [|done]. injection Hi as <-. split; [done|]. done.
  - rewrite cledger_app. cbn [cledger]. rewrite app_nil_r, crun_snoc. pose proof (Hcf sched) as Hc. destruct (crun gs ge (start e0 progs objs0) sched) as [s ts].
    set (L := cledger k (start e0 progs objs0) sched) in *.
    pose proof (fun i t k' => at_in_away _ _ _ _ _ _ _ _ _ _ Hc i t k') as Haway. cbn [threads] in Haway.
    pose proof (cf_seen _ _ _ _ _ _ _ _ _ _ _ H0 Hc) as Sn. pose proof (cf_proper _ _ _ _ _ _ _ _ _ _ Hc) as HP.
    destruct ev as [i|e].
    2:{ (* the clock *)
      cbn [cstep shared threads cadds]. rewrite app_nil_r. destruct IH as [J1 J2]. constructor; cbn [shared threads gs_objs gestep gs_env] in *.
      - intros o Ho. rewrite lookup_fmap in Ho. destruct (gs_objs s !! k) as [o1|] eqn:Eo; [|done]. injection Ho as <-.
        destruct (J1 o1 eq_refl) as (sk & t0 & -> & Hck & M & T). exists (bc_estep sk (ce_ms e)), t0. split; [done|]. split; [done|].
        split; [|].
        + pose proof (mxinv_cstep _ _ _ _ _ HI _ _ (Env (ce_ms e)) M) as M'. cbn [adds] in M'. rewrite app_nil_r in M'. exact M'.
        + rewrite ms_values_app. assert (Hsub : ms_values e0 sched ⊆ ms_values e0 sched ++ ((fun e1 => wrap64 (ce_ms e1)) <$> shown [Env e])) by (intros x; rewrite elem_of_app; tauto).
          destruct (tsinv_mono _ _ _ _ Hsub T) as [T1 T2 T3]. constructor; [|exact T2|exact T3]. cbn [shared bc_estep bs_clock view]. apply elem_of_app. right. by left.
      - intros Hn. rewrite lookup_fmap in Hn. apply J2. by destruct (gs_objs s !! k). }
    assert (Ems : ms_values e0 sched = ms_values e0 (sched ++ [Run i])) by (rewrite ms_values_app; cbn; by rewrite app_nil_r).
    cbn [cstep shared threads cadds]. destruct (ts !! i) as [t|] eqn:Hi.
    2:{ assert (E : (if cs_crashed (gs_client s) then [] else []) = @nil (nat * Z)) by (by destruct (cs_crashed _)). rewrite E, app_nil_r. destruct IH as [J1 J2]. constructor; [|done]. by rewrite <- Ems. }
    specialize (HP i t Hi). cbn [shared] in HP. cbn [shared threads] in Sn.
    unfold gstep at 1. destruct (cs_crashed (gs_client s)) eqn:Ecr.
    { rewrite app_nil_r. destruct IH as [J1 J2]. constructor; [|done]. by rewrite <- Ems. }
    assert (Hidle : gt_in t <> Some k -> match ci_bc (at_in k t) with BThread _ (BucketCounterConc.PAdd n q) => [(q, n)] | _ => [] end = []).
    { intros Hne. by rewrite (Haway i t k Hi Hne). }
    destruct (gt_in t) as [k'|] eqn:Ein.
    + destruct (cin_returned (inside_of cin_idle k' t)) eqn:Er.
      { (* returns *)
        assert (E : match ci_bc (at_in k t) with BThread _ (BucketCounterConc.PAdd n q) => [(q, n)] | _ => [] end = []).
        { destruct (decide (k' = k)) as [->|Hne]; [|apply Hidle; congruence]. unfold at_in. by rewrite (cin_returned_idle _ Er). }
        rewrite E, app_nil_r. cbn [shared threads]. eapply linv_same; [exact Ems|..|exact IH]; try done.
        - intros sk. by apply (view_same k sk s s ts i t).
        - by apply (asked_same k s s ts i t). }
      destruct (gs_objs s !! k') as [o|] eqn:Eo.
      2:{ exfalso. apply (sn_in _ _ _ _ _ _ _ _ _ Sn i t k' Hi Ein). by eapply (sn_none _ _ _ _ _ _ _ _ _ Sn). }
      destruct (decide (k' = k)) as [->|Hne].
      * destruct (l_some _ _ _ _ _ IH o Eo) as (sk & t0 & -> & Hck & M & T). unfold at_in in *. cbn [shared] in *.
        set (b := ci_bc (inside_of cin_idle k t)) in *.
        assert (Hb : threads (view k sk (Config s ts)) !! i = Some (MUpd b)) by (unfold view; cbn [threads]; rewrite !list_lookup_fmap, Hi; done).
        pose proof (mxinv_cstep _ _ _ _ _ HI _ _ (Run i) M) as M'.
        assert (Ead : adds (view k sk (Config s ts)) (Run i) = match b with BThread _ (BucketCounterConc.PAdd n q) => [(q, n)] | _ => [] end) by (unfold adds; by rewrite Hb).
        rewrite Ead in M'. cbn [cstep] in M'. rewrite Hb in M'. cbn [mx_tstep view shared threads] in M'.
        unfold cobj_step at 1. fold b. destruct (bc_tstep sk b) as [[sk' b']|] eqn:Est.
        -- (* a step inside the counter *)
           assert (T' : tsinv (interval_seconds I) (ms_values e0 sched) (Config sk' (<[i := MUpd b']> (threads (view k sk (Config s ts)))))).
           { eapply (tsinv_tstep _ _ sk _ i (MUpd b)); [exact HI|exact (b_clock _ _ _ _ _ _ _ _ (proj1 M))| |exact T|exact Hb|cbn [mx_tstep]; by rewrite Est].
             f_equal. exact (b_interval _ _ _ _ _ _ _ _ (proj1 M)). }
           set (t' := GThread (gt_client t) (Some k) (<[k := CIn b' (ci_ew (inside_of cin_idle k t)) (ci_dx (inside_of cin_idle k t)) (ci_rx (inside_of cin_idle k t))]> (gt_local t)) (gt_made t)).
           assert (Ev : view k sk' (Config s (<[i := t']> ts)) = Config sk' (<[i := MUpd b']> (threads (view k sk (Config s ts))))).
           { unfold view. cbn [threads]. rewrite !list_fmap_insert. f_equal. f_equal. unfold at_in, inside_of, t'. cbn [gt_local]. by rewrite lookup_insert. }
           cbv iota beta; constructor; cbn [shared gs_objs]; [|by rewrite lookup_insert].
           intros o Ho. rewrite lookup_insert in Ho. injection Ho as <-. exists sk', t0. split; [done|]. split.
           { cbn [shared gs_env] in *. rewrite <- Hck. clear -Est. unfold bc_tstep in Est. destruct (bt_pc b).
             - destruct (bt_todo b); [done|]. by injection Est as <- _.
             - destruct (alignTimestamp _ _); [|done]. by injection Est as <- _.
             - by injection Est as <- _.
             - destruct (_ !! old); [|done]. by injection Est as <- _.
             - destruct (decide _); by injection Est as <- _.
             - destruct (length _); [done|]. by injection Est as <- _.
             - by injection Est as <- _.
             - by injection Est as <- _.
             - destruct (_ <? _)%nat; [|done]. by injection Est as <- _.
             - by injection Est as <- _.
             - destruct (heap_add _ _ _); [|done]. by injection Est as <- _. }
           rewrite <- Ems. split.
           ++ assert (Ea : asked_of k (Config (GShared (gs_client s) (<[k:=OCounter sk']> (gs_objs s)) (gs_env s)) (<[i:=t']> ts)) = asked_of k (Config s ts)) by (by apply (asked_same k _ _ ts i t)).
              rewrite Ea. unfold view in Ev |- *. cbn [threads] in Ev |- *. rewrite Ev. exact M'.
           ++ unfold view in Ev, T' |- *. cbn [threads] in Ev, T' |- *. rewrite Ev. exact T'.
        -- (* stuck: the invariant says what can be *)
           constructor; cbn [shared]; [|by rewrite Eo]. intros o Ho. rewrite Eo in Ho. injection Ho as <-. exists sk, t0. rewrite <- Ems. split; [done|]. split; [done|]. split; [exact M'|exact T].
      * rewrite Hidle by congruence. rewrite app_nil_r. destruct (cobj_step math_Exp o _) as [[o' ot']|].
        -- cbn [shared threads]. eapply linv_same; [exact Ems|..|exact IH]; cbn [shared gs_env gs_objs]; try done.
           ++ by rewrite lookup_insert_ne.
           ++ intros sk. apply (view_same k sk s _ ts i t); [done|]. unfold at_in, inside_of. cbn [gt_local]. by rewrite lookup_insert_ne.
           ++ by apply (asked_same k s _ ts i t).
        -- destruct IH as [J1 J2]. constructor; [|done]. by rewrite <- Ems.
    + rewrite Hidle by done. rewrite app_nil_r. specialize (HP eq_refl).
      destruct (cp_tstep I maxE maxA (gs_client s) (gt_client t)) as [[s1 t1]|] eqn:Ets.
      2:{ destruct IH as [J1 J2]. constructor; [|done]. by rewrite <- Ems. }
      destruct (effect_of (gs_client s) (gt_client t) (gs_env s)) as [[|k' o|k' a]|] eqn:Ee.
      * eapply linv_same; [exact Ems|..|exact IH]; try done; [intros sk; by apply (view_same k sk s _ ts i t)|by apply (asked_same k s _ ts i t)].
      * destruct (decide (k' = k)) as [->|Hne].
        2:{ eapply linv_same; [exact Ems|..|exact IH]; cbn [shared gs_objs]; try done; [by rewrite lookup_insert_ne|intros sk; by apply (view_same k sk s _ ts i t)|by apply (asked_same k s _ ts i t)]. }
        assert (Hn : gs_objs s !! k = None) by (by apply HP). rewrite (l_none _ _ _ _ _ IH Hn).
        assert (Hbc : exists bc, newBucketCounterImpl I N (ce_ms (gs_env s)) true = Ok bc /\ o = OCounter (BcShared bc (wrap64 (ce_ms (gs_env s))))).
        { apply new_counter_new. unfold cf_effect in Ee. destruct (kt_pc (gt_client t)) as [|k0|old k0|old new k0|n k0|n count k0|n count k0|n count k0|n count k0|d r|d r|d r|r|w r|w r|w r|w r|w r|w p r|w [p|] r|w n]; try done.
          - by destruct (rs_success r).
          - destruct (new_counter _ _ _) as [x|] eqn:Ex; [|done]. injection Ee as _ <-. done. }
        destruct Hbc as (bc & Hbc & ->). eapply linv_new; cbn [shared gs_env gs_objs threads]; [done|exact Hbc|by destruct (gs_env s)| | |by rewrite lookup_insert].
        -- rewrite <- Ems. unfold ms_values. apply elem_of_list_fmap. exists (gs_env s). split; [done|]. destruct (sn_env _ _ _ _ _ _ _ _ _ Sn) as [before ->]. cbn [shared]. apply elem_of_app. right. by left.
        -- intros j u Hj. assert (Hc0 : calls k u = [] /\ gt_local u !! k = None).
           { apply list_lookup_insert_Some in Hj as [(-> & <- & _)|[_ Hj]].
             - split; [by eapply (sn_none _ _ _ _ _ _ _ _ _ Sn k j t)|]. eapply (sn_local _ _ _ _ _ _ _ _ _ Sn j t); [done|]. by eapply (sn_none _ _ _ _ _ _ _ _ _ Sn k j t).
             - split; [by eapply (sn_none _ _ _ _ _ _ _ _ _ Sn k j u)|]. eapply (sn_local _ _ _ _ _ _ _ _ _ Sn j u); [done|]. by eapply (sn_none _ _ _ _ _ _ _ _ _ Sn k j u). }
           destruct Hc0 as [Hc0 Hl0]. split; [done|]. unfold at_in, inside_of. by rewrite Hl0.
      * set (t' := GThread t1 (Some k') (<[k' := cin_push (inside_of cin_idle k' t) a]> (gt_local t)) (gt_made t ++ [(k', a)])).
        destruct (decide (k' = k)) as [->|Hne].
        2:{ eapply linv_same; [exact Ems|..|exact IH]; cbn [shared gs_objs]; try done.
            - intros sk. apply (view_same k sk s _ ts i t); [done|]. unfold at_in, inside_of, t'. cbn [gt_local]. by rewrite lookup_insert_ne.
            - apply (asked_same k s _ ts i t); [done|]. unfold calls, t'. cbn [gt_made]. by rewrite calls_of_other. }
        destruct IH as [J1 J2]. cbn [shared] in J1, J2. constructor; cbn [shared gs_objs]; [|done]. intros o Ho. destruct (J1 o Ho) as (sk & t0 & -> & Hck & M & T). exists sk, t0. split; [done|]. split; [done|].
        assert (exists n, a = CUpdate n) as [n ->].
        { pose proof (step_kind _ _ _ _ _ _ _ _ Ee) as K. destruct k; try discriminate Hk; destruct a; try done; eauto. }
        assert (Ev : view k sk (Config (GShared s1 (gs_objs s) (gs_env s)) (<[i := t']> ts)) = Config sk (MUpd <$> <[i := bt_push (ci_bc (at_in k t)) n]> ((fun t => ci_bc (at_in k t)) <$> ts))).
        { unfold view. cbn [threads]. rewrite !list_fmap_insert. f_equal. f_equal. unfold at_in, inside_of, t'. cbn [gt_local]. by rewrite lookup_insert. }
        assert (Ea : asked_of k (Config (GShared s1 (gs_objs s) (gs_env s)) (<[i := t']> ts)) ≡ₚ asked_of k (Config s ts) ++ [n]).
        { unfold asked_of. cbn [threads]. apply (mjoin_fmap_insert_app (fun t => updates (calls k t)) ts i t); [done|]. unfold calls, t'. cbn [gt_made]. by rewrite calls_of_same, updates_snoc. }
        rewrite Ev, <- Ems. split; [eapply mxinv_push; [exact M|by rewrite list_lookup_fmap, Hi|exact Ea]|eapply tsinv_push; [exact T|by rewrite list_lookup_fmap, Hi]].
      * destruct IH as [J1 J2]. constructor; [|done]. by rewrite <- Ems.
Qed.
End ledger.
