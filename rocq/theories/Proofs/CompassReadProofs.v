(** A compass read while it is updated: the reading calls taken out. *)
From Verif.Go Require Import GoInt GoFloat GoConc GoCompose.
From Verif.Model Require Import Counter BucketQueue BucketCounter BucketCounterConc BucketReadConc BucketReservoir EWMA EWMAConc Compass CompassConc CompassFine CompassRead.
From Verif.Spec Require Import BucketSpec BucketConcSpec BucketReadSpec CompassConcSpec.
From Verif.Proofs Require Import BucketAbs BucketHist BucketConcMain ComposeProofs CompassConcProofs CompassFineProofs CompassFineParts CompassFineMain CompassLedger.
From Verif.Spec Require Import CompassFineSpec CompassReadSpec.
Local Open Scope Z_scope.

(** Calling a method leaves the steps as they are. *)
Definition k_push (t : kthread) (call : kcall) : kthread := KThread (kt_todo t ++ [call]) (kt_pc t) (kt_panics t).
Lemma cp_push I maxE maxA s t s' t' call : cp_tstep I maxE maxA s t = Some (s', t') -> cp_tstep I maxE maxA s (k_push t call) = Some (s', k_push t' call).
Proof.
  intros Hs. destruct t as [todo pc pa]. unfold k_push. cbn [kt_todo kt_pc kt_panics]. unfold cp_tstep in *. cbn [kt_todo kt_pc kt_panics] in *.
  destruct (cs_crashed s); [done|]. destruct pc.
  { destruct todo as [|[] todo]; [done|..]; cbn; injection Hs as <- <-; done. }
  all: repeat match type of Hs with
    | context [match ?x with _ => _ end] => destruct x
    | Some _ = Some _ => injection Hs as <- <-; cbn [kt_todo kt_pc kt_panics]; reflexivity
    | None = Some _ => discriminate Hs
    end.
Qed.

Section reading.
Context (math_Exp : f64 -> f64) (rk : reservoir_kind) (I N maxE maxA : Z).
Notation effect_of := (cf_effect rk I N).
Notation gs := (cf_gstep math_Exp rk I N maxE maxA).
Notation ge := (gestep cf_estep cobj_estep).
Notation cf := (cf_run math_Exp rk I N maxE maxA).

Lemma g_push_nil g : g_push g [] = g.
Proof. destruct g as [[todo pc pa] inn loc made]. unfold g_push. cbn. by rewrite app_nil_r. Qed.
Lemma g_push_app g l1 l2 : g_push (g_push g l1) l2 = g_push g (l1 ++ l2).
Proof. unfold g_push. cbn. by rewrite app_assoc. Qed.

Lemma gs_push1 s g s' g' call : gs s g = Some (s', g') -> gs s (g_push g [call]) = Some (s', g_push g' [call]).
Proof.
  destruct g as [cl inn loc made]. unfold cf_gstep, gstep, g_push. cbn [gt_client gt_in gt_local gt_made]. destruct (cs_crashed _); [done|].
  destruct inn as [k|].
  - unfold inside_of. cbn [gt_local]. destruct (cin_returned _); [intros Hs; by injection Hs as <- <-|]. destruct (gs_objs s !! k); [|done]. destruct (cobj_step _ _ _) as [[o' ot']|]; [|done].
    intros Hs. by injection Hs as <- <-.
  - change (KThread (kt_todo cl ++ [call]) (kt_pc cl) (kt_panics cl)) with (k_push cl call).
    destruct (cp_tstep _ _ _ _ cl) as [[s1 t1]|] eqn:E; [|done]. rewrite (cp_push _ _ _ _ _ _ _ call E).
    change (effect_of (gs_client s) (k_push cl call) (gs_env s)) with (effect_of (gs_client s) cl (gs_env s)).
    destruct (cf_effect _ _ _ _ cl _) as [[|k o|k a]|]; [..|done]; intros Hs; by injection Hs as <- <-.
Qed.
Lemma gs_push s g s' g' l : gs s g = Some (s', g') -> gs s (g_push g l) = Some (s', g_push g' l).
Proof.
  induction l as [|x l IH] using rev_ind; intros Hs; [by rewrite !g_push_nil|]. rewrite <- !g_push_app. apply gs_push1. by apply IH.
Qed.

(** The events of a schedule that are not steps of reading calls (or no steps at all). *)
Section strip.
  Context (st : Z).
  Notation tstep := (cr_tstep math_Exp rk I N maxE maxA st).
  Definition kept (c : reading) (ev : event cenv) : list (event cenv) :=
    match ev with
    | Env _ => [ev]
    | Run i =>
        match threads c !! i with
        | Some t =>
            if cs_crashed (gs_client (shared c)) then [] else
            match dt_read t with
            | Some _ => []
            | None => if at_rest (dt_g t) then [] else match gs (shared c) (dt_g t) with Some _ => [ev] | None => [] end
            end
        | None => []
        end
    end.
  Fixpoint strip (c : reading) (sched : list (event cenv)) : list (event cenv) :=
    match sched with [] => [] | ev :: sched => kept c ev ++ strip (cstep tstep ge c ev) sched end.
  Lemma strip_app c s1 s2 : strip c (s1 ++ s2) = strip c s1 ++ strip (crun tstep ge c s1) s2.
  Proof. revert c. induction s1 as [|ev s1 IH]; intros c; [done|]. cbn. rewrite IH. by rewrite app_assoc. Qed.
  Lemma strip_shown c sched : shown (strip c sched) = shown sched.
  Proof.
    revert c. induction sched as [|ev sched IH]; intros c; [done|]. cbn [strip]. unfold shown in *. rewrite omap_app, IH.
    destruct ev as [i|e]; [|done]. unfold kept. destruct (threads c !! i) as [t|]; [|done]. destruct (cs_crashed _); [done|]. destruct (dt_read t); [done|]. destruct (at_rest _); [done|]. by destruct (gs _ _).
  Qed.
  Lemma strip_sublist c sched : strip c sched `sublist_of` sched.
  Proof.
    revert c. induction sched as [|ev sched IH]; intros c; [constructor|]. cbn [strip]. destruct ev as [i|e]; [|by apply sublist_skip].
    assert (E : kept c (Run i) = [] \/ kept c (Run i) = [Run i]).
    { unfold kept. destruct (threads c !! i) as [t|]; [|by left]. destruct (cs_crashed _); [by left|]. destruct (dt_read t); [by left|]. destruct (at_rest _); [by left|]. destruct (gs _ _); [by right|by left]. }
    destruct E as [->| ->]; [apply sublist_cons|apply sublist_skip]; apply IH.
  Qed.

  Lemma without_lookup (c : reading) i t : threads c !! i = Some t -> threads (without_reads c) !! i = Some (g_push (dt_g t) (writes (dt_todo t))).
  Proof. intros Hi. unfold without_reads. cbn [threads]. by rewrite list_lookup_fmap, Hi. Qed.

  Lemma writes_cons d l : writes (d :: l) = match d with DWrite call => [call] | DRead _ => [] end ++ writes l.
  Proof. by destruct d. Qed.
  Lemma writes_app l1 l2 : writes (l1 ++ l2) = writes l1 ++ writes l2.
  Proof. unfold writes. by rewrite omap_app. Qed.

  Lemma strip_step c ev : without_reads (cstep tstep ge c ev) = crun gs ge (without_reads c) (kept c ev).
  Proof.
    destruct c as [s ts]. destruct ev as [i|e]; [|done]. cbn [cstep kept shared threads]. destruct (ts !! i) as [t|] eqn:Hi; [|done].
    unfold cr_tstep. destruct (cs_crashed _); [done|].
    assert (Hsame : forall t', g_push (dt_g t') (writes (dt_todo t')) = g_push (dt_g t) (writes (dt_todo t)) -> without_reads (Config s (<[i := t']> ts)) = without_reads (Config s ts)).
    { intros t' E. unfold without_reads. cbn [shared threads]. f_equal. rewrite list_fmap_insert. apply list_insert_id. by rewrite list_lookup_fmap, Hi, E. }
    destruct (dt_read t) as [[call pc]|].
    - destruct (read_step _ _ _ _) as [[pc'|a]|]; [by apply Hsame..|done].
    - destruct (at_rest (dt_g t)).
      + destruct (dt_todo t) as [|[call|call] todo] eqn:Et; [done|..]; apply Hsame; cbn [dt_g dt_todo]; rewrite writes_cons; [|done]. by rewrite g_push_app.
      + destruct (gs s (dt_g t)) as [[s' g']|] eqn:Es; [|done]. cbn [crun fold_left cstep].
        rewrite (without_lookup (Config s ts) i t Hi). cbn [without_reads shared threads]. rewrite (gs_push _ _ _ _ _ Es). unfold without_reads. cbn [shared threads]. by rewrite list_fmap_insert.
  Qed.
  Lemma strip_run c sched : without_reads (crun tstep ge c sched) = crun gs ge (without_reads c) (strip c sched).
  Proof. revert c. induction sched as [|ev sched IH]; intros c; [done|]. cbn [strip]. rewrite crun_app, <- strip_step. apply (IH (cstep tstep ge c ev)). Qed.
End strip.

(** Runs. *)
Notation run := (cr_run math_Exp rk I N maxE maxA).
Definition rstart (e0 : cenv) (progs : list (list dcall)) (objs0 : gmap ckey cobj) : reading :=
  Config (GShared (shared (cp_cinit (ce_ms e0) (ce_tick e0) [])) objs0 e0) ((fun p => DThread p (GThread (KThread [] PIdle []) None ∅ []) None []) <$> progs).
Lemma without_start e0 progs objs0 : without_reads (rstart e0 progs objs0) = start e0 (writes <$> progs) objs0.
Proof. unfold without_reads, rstart, start, ginit. cbn [shared threads cp_cinit]. f_equal. rewrite !fmap_fmap. done. Qed.

Lemma run_started e0 progs sched c : run e0 progs sched = Some c -> exists objs0, cf_objs0 rk I N e0 = Some objs0 /\
  forall s, run e0 progs s = Some (crun (cr_tstep math_Exp rk I N maxE maxA (ce_ms e0)) ge (rstart e0 progs objs0) s).
Proof. unfold cr_run. destruct (cf_objs0 _ _ _ e0) as [objs0|]; [|done]. intros _. by exists objs0. Qed.

Lemma run_defined e0 progs sched : counter_setting I N -> exists c, run e0 progs sched = Some c.
Proof.
  intros H. unfold cr_run, cf_objs0, new_counter. destruct (new_counter_ok I N (ce_ms e0) H) as [bc ->]. eexists. reflexivity.
Qed.

Definition sched_of e0 progs objs0 sched := strip (ce_ms e0) (rstart e0 progs objs0) sched.
Lemma run_fine e0 progs objs0 sched c : cf_objs0 rk I N e0 = Some objs0 -> run e0 progs sched = Some c ->
  cf e0 (writes <$> progs) (sched_of e0 progs objs0 sched) = Some (without_reads c).
Proof.
  intros H0 Hc. unfold cr_run in Hc. rewrite H0 in Hc. injection Hc as <-. unfold cf_run. rewrite H0. f_equal.
  etransitivity; [|symmetry; exact (strip_run (ce_ms e0) (rstart e0 progs objs0) sched)]. by rewrite without_start.
Qed.

Lemma readers_disturb_nothing e0 progs sched c : run e0 progs sched = Some c ->
  exists sched', sched' `sublist_of` sched /\ shown sched' = shown sched /\ cf e0 (writes <$> progs) sched' = Some (without_reads c).
Proof.
  intros Hc. destruct (run_started _ _ _ _ Hc) as (objs0 & H0 & _). exists (sched_of e0 progs objs0 sched). split; [apply strip_sublist|]. split; [apply strip_shown|]. by apply run_fine.
Qed.

Lemma run_ind (J : list (event cenv) -> reading -> Prop) e0 progs :
  (forall objs0, cf_objs0 rk I N e0 = Some objs0 -> J [] (rstart e0 progs objs0)) ->
  (forall sched s ts i t s' t', run e0 progs sched = Some (Config s ts) -> J sched (Config s ts) -> ts !! i = Some t ->
     cr_tstep math_Exp rk I N maxE maxA (ce_ms e0) s t = Some (s', t') -> J (sched ++ [Run i]) (Config s' (<[i := t']> ts))) ->
  (forall sched s ts e, run e0 progs sched = Some (Config s ts) -> J sched (Config s ts) -> J (sched ++ [Env e]) (Config (ge s e) ts)) ->
  (forall sched i c, J sched c -> J (sched ++ [Run i]) c) ->
  forall sched c, run e0 progs sched = Some c -> J sched c.
Proof.
  intros H0 Ht He Hst sched. induction sched as [|ev sched IH] using rev_ind; intros c Hc; destruct (run_started _ _ _ _ Hc) as (objs0 & Ho & Hr).
  - rewrite Hr in Hc. injection Hc as <-. by apply H0.
  - rewrite Hr in Hc. injection Hc as <-. specialize (IH _ (Hr sched)). specialize (Hr sched). rewrite crun_snoc. destruct (crun _ _ _ sched) as [s ts].
    destruct ev as [i|e]; cbn [cstep threads shared].
    + destruct (ts !! i) as [t|] eqn:Hi; [|by apply Hst]. destruct (cr_tstep _ _ _ _ _ _ _ s t) as [[s' t']|] eqn:Hs; [|by apply Hst]. by eapply Ht.
    + by apply He.
Qed.

Lemma run_app e0 progs s1 s2 c1 : run e0 progs s1 = Some c1 -> run e0 progs (s1 ++ s2) = Some (crun (cr_tstep math_Exp rk I N maxE maxA (ce_ms e0)) ge c1 s2).
Proof. intros Hc. destruct (run_started _ _ _ _ Hc) as (objs0 & Ho & Hr). rewrite Hr in Hc. injection Hc as <-. by rewrite Hr, crun_app. Qed.

Lemma env_run e0 progs sched c : run e0 progs sched = Some c -> gs_env (shared c) = showing e0 sched /\ cs_clock (gs_client (shared c)) = wrap64 (ce_tick (showing e0 sched)).
Proof.
  revert sched c. apply (run_ind (fun sched c => gs_env (shared c) = showing e0 sched /\ cs_clock (gs_client (shared c)) = wrap64 (ce_tick (showing e0 sched)))).
  - intros objs0 _. done.
  - intros sched s ts i t s' t' _ [J1 J2] _ Hs. assert (E : showing e0 (sched ++ [Run i]) = showing e0 sched) by (unfold showing; by rewrite shown_run). rewrite E. cbn [shared] in *.
    enough (G : gs_env s' = gs_env s /\ cs_clock (gs_client s') = cs_clock (gs_client s)) by (destruct G as [-> ->]; done).
    clear -Hs. unfold cr_tstep in Hs. destruct (cs_crashed _); [done|]. destruct (dt_read t) as [[call pc]|].
    + destruct (read_step _ _ _ _) as [[pc'|a]|]; [..|done]; by injection Hs as <- <-.
    + destruct (at_rest _); [destruct (dt_todo t) as [|[call|call] todo]; [done|..]; by injection Hs as <- <-|].
      destruct (gs s (dt_g t)) as [[s1 g']|] eqn:Es; [|done]. injection Hs as <- <-. unfold cf_gstep, gstep in Es. destruct (cs_crashed _); [done|]. destruct (gt_in (dt_g t)).
      * destruct (cin_returned _); [by injection Es as <- <-|]. destruct (_ !! c); [|done]. destruct (cobj_step _ _ _) as [[? ?]|]; [|done]. by injection Es as <- <-.
      * destruct (cp_tstep _ _ _ _ _) as [[s2 t2]|] eqn:Et; [|done].
        assert (Ec : cs_clock s2 = cs_clock (gs_client s)).
        { clear -Et. destruct (gt_client (dt_g t)) as [todo pc pa]. unfold cp_tstep in Et. cbn [kt_pc kt_todo kt_panics] in Et. destruct (cs_crashed _); [done|].
          destruct pc; repeat match type of Et with
            | context [match ?x with _ => _ end] => destruct x
            | Some _ = Some _ => injection Et as <- <-; try reflexivity
            | None = Some _ => discriminate Et
            end; reflexivity. }
        destruct (cf_effect _ _ _ _ _ _) as [[|k o|k a]|]; [..|done]; injection Es as <- <-; cbn; done.
  - intros sched s ts e _ _. unfold showing. rewrite shown_env, last_snoc. done.
  - intros sched i c [J1 J2]. assert (E : showing e0 (sched ++ [Run i]) = showing e0 sched) by (unfold showing; by rewrite shown_run). by rewrite E.
Qed.
End reading.
