(** A compass with all its objects: the calls each object receives, and each object as a
    run of its own model. *)
From Verif.Go Require Import GoInt GoFloat GoConc GoCompose.
From Verif.Model Require Import Counter BucketQueue BucketCounter BucketCounterConc EWMA EWMAConc WeightedSnapshot DecayingReservoir DecayingConc UniformReservoir ReservoirConc Compass CompassConc CompassFine.
From Verif.Spec Require Import BucketSpec CompassConcSpec CompassFineSpec.
From Verif.Proofs Require Import BucketHist BucketConcMain EWMAConcProofs ComposeProofs CompassConcProofs CompassConcTables CompassConcMore CompassFineProofs.
Local Open Scope Z_scope.

Definition arg (a : cop) : Z := match a with CUpdate n => n | CTickN c => c | CRecord v _ => v | CDraw v _ => v end.
(** The arguments of the calls the object [k] has received. *)
Definition args_of (k : ckey) (t : gthread kthread cin ckey cop) : list Z := arg <$> calls_of k (gt_made t).
Definition received (k : ckey) (ts : list (gthread kthread cin ckey cop)) : list Z := mjoin (args_of k <$> ts).

Definition kind_ok (k : ckey) (a : cop) : Prop :=
  match k, a with
  | (KTotal | KSuccess | KCounter _ _), CUpdate n => n = 1
  | (KOne | KFive | KFifteen), CTickN _ => True
  | KReservoir, CRecord _ _ => True
  | KValues, CUpdate _ => True
  | KUniform, CDraw _ _ => True
  | _, _ => False
  end.

(** What the client has noted of the calls. *)
Definition tally (s : cp_shared) (k : ckey) : Z :=
  match k with KTotal => cs_total s | KSuccess => cs_success s | KCounter w p => default 0 (tb_heap (tb_of w s) !! p) | _ => 0 end.
Definition logs (rk : reservoir_kind) (s : cp_shared) (k : ckey) : list Z :=
  match k, rk with
  | KOne, _ => cs_log1 s | KFive, _ => cs_log5 s | KFifteen, _ => cs_log15 s
  | KReservoir, RDecaying _ _ | KValues, RBucket | KUniform, RUniform _ => cs_durations s
  | _, _ => []
  end.
Definition is_tally (k : ckey) : bool := match k with KTotal | KSuccess | KCounter _ _ => true | _ => false end.
Definition is_counter (k : ckey) : bool := match k with KTotal | KSuccess | KValues | KCounter _ _ => true | _ => false end.

Definition eff_args (k : ckey) (e : option (effect ckey cop cobj)) : list Z :=
  match e with Some (Invoke k' a) => if decide (k' = k) then [arg a] else [] | _ => [] end.

(** An object of the compass as an object of its own model. *)
Lemma esteps_map {S T E E'} (tstep : S -> T -> option (S * T)) (estep : S -> E -> S) (f : E' -> E) c tr c' :
  esteps tstep (fun s e => estep s (f e)) c tr c' ->
  exists tr', esteps tstep estep c tr' c' /\ shown tr' = f <$> shown tr.
Proof.
  induction 1 as [|tr s ts i t s' t' _ (tr' & IH & IHs) Hi Hs|tr s ts e _ (tr' & IH & IHs)].
  - exists []. split; [constructor|done].
  - exists (tr' ++ [Run i]). split; [by econstructor|]. by rewrite !shown_run.
  - exists (tr' ++ [Env (f e)]). split; [by constructor|]. by rewrite !shown_env, fmap_app, IHs.
Qed.

Lemma counter_part math_Exp c0 tr c : esteps (cobj_step math_Exp) cobj_estep c0 tr c -> forall s0 ts0, c0 = Config (OCounter s0) ts0 ->
  exists s, shared c = OCounter s /\ esteps bc_tstep (fun s e => bc_estep s (ce_ms e)) (Config s0 (ci_bc <$> ts0)) tr (Config s (ci_bc <$> threads c)).
Proof.
  induction 1 as [|tr s ts i t s' t' _ IH Hi Hs|tr s ts e _ IH]; intros s0 ts0 Hc.
  - subst. exists s0. split; [done|constructor].
  - destruct (IH _ _ Hc) as (b & Hb & Hst). cbn [shared threads] in *. subst s. cbn [cobj_step] in Hs. destruct (bc_tstep b (ci_bc t)) as [[b' l]|] eqn:E; [|done].
    injection Hs as <- <-. exists b'. split; [done|]. rewrite list_fmap_insert. cbn [ci_bc]. econstructor; [exact Hst| |exact E]. by rewrite list_lookup_fmap, Hi.
  - destruct (IH _ _ Hc) as (b & Hb & Hst). cbn [shared threads] in *. subst s. exists (bc_estep b (ce_ms e)). split; [done|]. by apply (es_env bc_tstep (fun s e => bc_estep s (ce_ms e))).
Qed.
Lemma average_part math_Exp c0 tr c : esteps (cobj_step math_Exp) cobj_estep c0 tr c -> forall s0 ts0, c0 = Config (OAverage s0) ts0 ->
  exists s, shared c = OAverage s /\ esteps ewma_tstep (fun s (_ : cenv) => s) (Config s0 (ci_ew <$> ts0)) tr (Config s (ci_ew <$> threads c)).
Proof.
  induction 1 as [|tr s ts i t s' t' _ IH Hi Hs|tr s ts e _ IH]; intros s0 ts0 Hc.
  - subst. exists s0. split; [done|constructor].
  - destruct (IH _ _ Hc) as (b & Hb & Hst). cbn [shared threads] in *. subst s. cbn [cobj_step] in Hs. destruct (ewma_tstep b (ci_ew t)) as [[b' l]|] eqn:E; [|done].
    injection Hs as <- <-. exists b'. split; [done|]. rewrite list_fmap_insert. cbn [ci_ew]. econstructor; [exact Hst| |exact E]. by rewrite list_lookup_fmap, Hi.
  - destruct (IH _ _ Hc) as (b & Hb & Hst). cbn [shared threads] in *. subst s. exists b. split; [done|]. by apply (es_env ewma_tstep (fun s (_ : cenv) => s)).
Qed.
Lemma reservoir_part math_Exp c0 tr c : esteps (cobj_step math_Exp) cobj_estep c0 tr c -> forall s0 ts0, c0 = Config (OReservoir s0) ts0 ->
  exists s, shared c = OReservoir s /\ esteps (dx_tstep math_Exp) (fun s e => dx_estep s (ce_ms e, ce_tick e)) (Config s0 (ci_dx <$> ts0)) tr (Config s (ci_dx <$> threads c)).
Proof.
  induction 1 as [|tr s ts i t s' t' _ IH Hi Hs|tr s ts e _ IH]; intros s0 ts0 Hc.
  - subst. exists s0. split; [done|constructor].
  - destruct (IH _ _ Hc) as (b & Hb & Hst). cbn [shared threads] in *. subst s. cbn [cobj_step] in Hs. destruct (dx_tstep math_Exp b (ci_dx t)) as [[b' l]|] eqn:E; [|done].
    injection Hs as <- <-. exists b'. split; [done|]. rewrite list_fmap_insert. cbn [ci_dx]. econstructor; [exact Hst| |exact E]. by rewrite list_lookup_fmap, Hi.
  - destruct (IH _ _ Hc) as (b & Hb & Hst). cbn [shared threads] in *. subst s. exists (dx_estep b (ce_ms e, ce_tick e)). split; [done|]. by apply (es_env (dx_tstep math_Exp) (fun s e => dx_estep s (ce_ms e, ce_tick e))).
Qed.

(** The uniform reservoir, with the numbers of the goroutines and what they got left out. *)
Definition bare (t : rxthread) : rxthread := RxThread 0 (rx_todo t) (rx_pc t) [].
Definition rx_bare_step (s : rx_shared) (t : rxthread) : option (rx_shared * rxthread) :=
  match rx_tstep s t with Some (s', r) => Some (s', RxThread (rx_id r) (rx_todo r) (rx_pc r) []) | None => None end.
Lemma uniform_part math_Exp c0 tr c : esteps (cobj_step math_Exp) cobj_estep c0 tr c -> forall s0 ts0, c0 = Config (OUniform s0) ts0 ->
  exists s, shared c = OUniform s /\ esteps rx_bare_step (fun s (_ : cenv) => s) (Config s0 (ci_rx <$> ts0)) tr (Config s (ci_rx <$> threads c)).
Proof.
  induction 1 as [|tr s ts i t s' t' _ IH Hi Hs|tr s ts e _ IH]; intros s0 ts0 Hc.
  - subst. exists s0. split; [done|constructor].
  - destruct (IH _ _ Hc) as (b & Hb & Hst). cbn [shared threads] in *. subst s. cbn [cobj_step] in Hs. destruct (rx_tstep b (ci_rx t)) as [[b' l]|] eqn:E; [|done].
    injection Hs as <- <-. exists b'. split; [done|]. rewrite list_fmap_insert. cbn [ci_rx]. econstructor; [exact Hst| |unfold rx_bare_step; rewrite E; reflexivity]. by rewrite list_lookup_fmap, Hi.
  - destruct (IH _ _ Hc) as (b & Hb & Hst). cbn [shared threads] in *. subst s. exists b. split; [done|]. by apply (es_env rx_bare_step (fun s (_ : cenv) => s)).
Qed.

(** The environment of an average shows nothing. *)
Lemma esteps_quiet {S T E} (tstep : S -> T -> option (S * T)) c tr c' :
  esteps tstep (fun s (_ : E) => s) c tr c' -> exists tr' : list (event Empty_set), esteps tstep (fun s _ => s) c tr' c'.
Proof.
  induction 1 as [|tr s ts i t s' t' _ (tr' & IH) Hi Hs|tr s ts e _ (tr' & IH)].
  - exists []. constructor.
  - exists (tr' ++ [Run i]). by econstructor.
  - by exists tr'.
Qed.

Definition updates (l : list cop) : list Z := omap (fun a => match a with CUpdate n => Some n | _ => None end) l.
Definition tickns (l : list cop) : list ewma_call := omap (fun a => match a with CTickN n => Some (ETickN n) | _ => None end) l.
Definition records (l : list cop) : list dx_call := omap (fun a => match a with CRecord v r => Some (DecayingConc.KUpdate v r) | _ => None end) l.
Definition draws_of (l : list cop) : list rx_call := omap (fun a => match a with CDraw v ds => Some (RUpdate v ds) | _ => None end) l.
Lemma with_calls_parts l : with_calls cin_idle cin_push l = CIn (BThread (updates l) BucketCounterConc.PIdle) (EThread (tickns l) EIdle []) (DxThread (records l) XIdle []) (RxThread 0 (draws_of l) RIdle []).
Proof.
  unfold with_calls, updates, tickns, records, draws_of. induction l as [|a l IH] using rev_ind; [done|]. rewrite fold_left_app, IH, !omap_app. cbn. destruct a; cbn; by rewrite ?app_nil_r.
Qed.

Lemma fmap_fmap {A B C} (f : B -> C) (g : A -> B) (l : list A) : f <$> (g <$> l) = (fun x => f (g x)) <$> l.
Proof. symmetry. exact (list_fmap_compose g f l). Qed.

Section fine.
Context (math_Exp : f64 -> f64).
Context (I N maxE maxA : Z).
Lemma step_kind rk s t e k a : cf_effect rk I N s t e = Some (Invoke k a) -> kind_ok k a.
Proof.
  unfold cf_effect. destruct (kt_pc t) as [|k0|old k0|old new k0|n k0|n count k0|n count k0|n count k0|n count k0|d r|d r|d r|r|w r|w r|w r|w r|w r|w p r|w [p|] r|w n]; try done.
  all: try (intros [= <- <-]; destruct rk; done). - destruct (rs_success r); [|done]. by intros [= <- <-]. - destruct (new_counter _ _ _); done.
Qed.
Lemma step_random rk s t e v r : cf_effect rk I N s t e = Some (Invoke KReservoir (CRecord v r)) -> r = ce_random e.
Proof.
  unfold cf_effect. destruct (kt_pc t) as [|k0|old k0|old new k0|n k0|n count k0|n count k0|n count k0|n count k0|d r0|d r0|d r0|r0|w r0|w r0|w r0|w r0|w r0|w p r0|w [p|] r0|w n]; try done.
  - destruct rk; [|done..]. by intros [= -> ->]. - by destruct (rs_success r0). - by destruct (new_counter _ _ _).
Qed.

Lemma step_tally rk s t s' t' e kk : is_tally kk = true -> cp_tstep I maxE maxA s t = Some (s', t') ->
  (forall w p r, kt_pc t = PCount w (Some p) r -> (p < length (tb_heap (tb_of w s)))%nat) ->
  tally s' kk = tally s kk + sumZ (eff_args kk (cf_effect rk I N s t e)).
Proof.
  intros Hk Hs Hp. unfold cf_effect. steps s t Hs; cbn [kt_pc] in Hp |- *; cbn [eff_args];
    try (destruct (new_counter _ _ _)); try (destruct (rs_success r)); cbn [eff_args]; try (destruct rk; cbn [reservoir_key reservoir_op eff_args]);
    destruct kk as [| | | | | | | |w0 p0]; try discriminate Hk; try (rewrite decide_False by done); try (rewrite decide_True by done); try (change (sumZ []) with 0; rewrite Z.add_0_r);
    try (destruct w; destruct w0); try (destruct w0); try reflexivity; cbn; try reflexivity; try lia.
  all: try (rewrite lookup_app; destruct (tb_heap _ !! p0) eqn:E; [reflexivity|cbn]; destruct (p0 - _)%nat as [|[|?]]; reflexivity).
  all: try (rewrite decide_False by congruence; cbn; rewrite ?Z.add_0_r; reflexivity).
  all: destruct (decide (p = p0)) as [->|Hne];
    [rewrite decide_True by done; cbn; rewrite list_lookup_alter; destruct (lookup_lt_is_Some_2 _ _ (Hp _ _ _ eq_refl)) as [x E]; cbn in E; rewrite E; cbn; lia
    |rewrite decide_False by congruence; rewrite list_lookup_alter_ne by done; cbn; lia].
Qed.

Lemma step_logs rk s t s' t' e kk : is_tally kk = false -> cp_tstep I maxE maxA s t = Some (s', t') ->
  logs rk s' kk = logs rk s kk ++ eff_args kk (cf_effect rk I N s t e).
Proof.
  intros Hk Hs. unfold cf_effect. steps s t Hs; cbn [kt_pc]; cbn [eff_args];
    try (destruct (new_counter _ _ _)); try (destruct (rs_success r)); cbn [eff_args]; try (destruct rk; cbn [reservoir_key reservoir_op eff_args]);
    destruct kk as [| | | | | | | |w0 p0]; try discriminate Hk; try (rewrite decide_False by done); try (rewrite decide_True by done); cbn; rewrite ?app_nil_r; try reflexivity.
  all: try (by destruct w).
Qed.

Context (rk : reservoir_kind).
Notation effect_of := (cf_effect rk I N).
Notation gs := (gstep (cp_tstep I maxE maxA) cs_crashed effect_of (cobj_step math_Exp) cin_idle cin_push cin_returned).
Notation ge := (gestep cf_estep cobj_estep).
Notation cf := (cf_run math_Exp rk I N maxE maxA).

Lemma received_step k ts i t t' l : ts !! i = Some t -> args_of k t' = args_of k t ++ l -> received k (<[i := t']> ts) ≡ₚ received k ts ++ l.
Proof.
  intros Hi E. unfold received. revert i Hi. induction ts as [|u ts IH]; intros [|i] Hi; try done; cbn in Hi |- *.
  - injection Hi as ->. rewrite E. rewrite <- !app_assoc. apply Permutation_app_head, Permutation_app_comm.
  - rewrite <- app_assoc. apply Permutation_app_head. by apply IH.
Qed.

Record made (c : fine) : Prop := {
  md_kind : forall i t k a, threads c !! i = Some t -> a ∈ calls_of k (gt_made t) -> kind_ok k a;
  md_tally : forall k, is_tally k = true -> sumZ (received k (threads c)) = tally (gs_client (shared c)) k;
  md_logs : forall k, is_tally k = false -> received k (threads c) ≡ₚ logs rk (gs_client (shared c)) k }.

Lemma args_of_made k t t' k' a : gt_made t' = gt_made t ++ [(k', a)] -> args_of k t' = args_of k t ++ (if decide (k' = k) then [arg a] else []).
Proof.
  intros E. unfold args_of. rewrite E. destruct (decide (k' = k)) as [->|Hne]; [by rewrite calls_of_same, fmap_app|by rewrite calls_of_other, app_nil_r].
Qed.

Lemma cf_run_ind (J : list (event cenv) -> fine -> Prop) e0 progs :
  (forall objs0, cf_objs0 rk I N e0 = Some objs0 -> let c0 := cp_cinit (ce_ms e0) (ce_tick e0) progs in J [] (ginit (shared c0) objs0 e0 (threads c0))) ->
  (forall sched s ts i t s' t', cf e0 progs sched = Some (Config s ts) -> J sched (Config s ts) -> ts !! i = Some t -> gs s t = Some (s', t') -> J (sched ++ [Run i]) (Config s' (<[i := t']> ts))) ->
  (forall sched s ts e, cf e0 progs sched = Some (Config s ts) -> J sched (Config s ts) -> J (sched ++ [Env e]) (Config (ge s e) ts)) ->
  (forall sched i c, J sched c -> J (sched ++ [Run i]) c) ->
  forall sched c, cf e0 progs sched = Some c -> J sched c.
Proof.
  intros H0 Ht He Hst sched. induction sched as [|ev sched IH] using rev_ind; intros c Hc; unfold cf_run in *;
    destruct (cf_objs0 rk I N e0) as [objs0|] eqn:Ho; try done.
  - injection Hc as <-. by apply H0.
  - injection Hc as <-. unfold grun in *. rewrite crun_snoc. destruct (crun _ _ _ sched) as [s ts] eqn:Er. specialize (IH _ eq_refl).
    destruct ev as [i|e]; cbn [cstep threads shared].
    + destruct (ts !! i) as [t|] eqn:Hi; [|by apply Hst]. destruct (gs s t) as [[s' t']|] eqn:Hs; [|by apply Hst].
      eapply Ht; [|done|done|done]. by rewrite Er.
    + apply He; [|done]. by rewrite Er.
Qed.

Lemma gs_cases s t s' t' : gs s t = Some (s', t') ->
  (gs_client s' = gs_client s /\ gt_made t' = gt_made t) \/
  (cp_tstep I maxE maxA (gs_client s) (gt_client t) = Some (gs_client s', gt_client t') /\
   gt_made t' = gt_made t ++ match cf_effect rk I N (gs_client s) (gt_client t) (gs_env s) with Some (Invoke k a) => [(k, a)] | _ => [] end).
Proof.
  unfold gstep. destruct (cs_crashed _); [done|]. destruct (gt_in t) as [k|].
  - intros Hs. left. destruct (cin_returned _); [by injection Hs as <- <-|]. destruct (gs_objs s !! k); [|done]. destruct (cobj_step _ _ _) as [[? ?]|]; [|done]. by injection Hs as <- <-.
  - intros Hs. right. destruct (cp_tstep _ _ _ _ _) as [[s1 t1]|]; [|done].
    destruct (cf_effect _ _ _ _ _ _) as [[|k o|k a]|]; [..|done]; injection Hs as <- <-; cbn; by rewrite ?app_nil_r.
Qed.

Lemma received_init k (progs : list (list kcall)) :
  received k ((fun t => GThread t None ∅ []) <$> ((fun p => KThread p PIdle []) <$> progs)) = [].
Proof. unfold received. induction progs as [|p ps IH]; [done|]. cbn. exact IH. Qed.

Lemma made_run e0 progs sched c : cf e0 progs sched = Some c -> made c.
Proof.
  revert sched c. apply (cf_run_ind (fun _ c => made c)).
  - intros objs0 _. cbv zeta. constructor; cbn [ginit cp_cinit shared threads gs_client].
    + intros i t k a Hi. rewrite !list_lookup_fmap in Hi. destruct (progs !! i); [|done]. injection Hi as <-. cbn. intros H. by apply elem_of_nil in H.
    + intros k Hk. rewrite received_init. destruct k as [| | | | | | | |w p]; try done. by destruct w.
    + intros k Hk. rewrite received_init. by destruct k, rk.
  - intros sched s ts i t s' t' Hc [M1 M2 M3] Hi Hs. cbn [shared threads] in *.
    destruct (gs_cases _ _ _ _ Hs) as [[E1 E2]|[E1 E2]].
    + assert (Hr : forall k, received k (<[i := t']> ts) ≡ₚ received k ts).
      { intros k. rewrite (received_step k ts i t t' []); [by rewrite app_nil_r|done|]. unfold args_of. by rewrite E2, app_nil_r. }
      constructor; cbn [shared threads].
      * intros j u k a Hj Ha. apply list_lookup_insert_Some in Hj as [(-> & <- & _)|[_ Hj]]; [rewrite E2 in Ha|]; by eapply M1.
      * intros k Hk. rewrite E1, <- M2 by done. by apply sumZ_perm.
      * intros k Hk. rewrite E1, Hr. by apply M3.
    + set (e := cf_effect rk I N (gs_client s) (gt_client t) (gs_env s)) in *.
      assert (Ha : forall k, args_of k t' = args_of k t ++ eff_args k e).
      { intros k. destruct e as [[|k' o|k' a]|]; cbn [eff_args]; [..|]; try (by unfold args_of; rewrite E2, !app_nil_r). by apply args_of_made. }
      assert (Hr : forall k, received k (<[i := t']> ts) ≡ₚ received k ts ++ eff_args k e) by (intros k; by eapply received_step).
      constructor; cbn [shared threads].
      * intros j u k a Hj Hin. apply list_lookup_insert_Some in Hj as [(-> & <- & _)|[_ Hj]]; [|by eapply M1].
        rewrite E2 in Hin. destruct e as [[|k' o|k' a']|] eqn:Ee; rewrite ?app_nil_r in Hin; try by eapply M1.
        destruct (decide (k' = k)) as [->|Hne]; [rewrite calls_of_same in Hin|rewrite calls_of_other in Hin by done; by eapply M1].
        apply elem_of_app in Hin as [Hin|Hin]; [by eapply M1|]. apply elem_of_list_singleton in Hin as ->. by eapply step_kind.
      * intros k Hk. rewrite (sumZ_perm _ _ (Hr k)), sumZ_app, (M2 k Hk). symmetry. eapply step_tally; [done|exact E1|]. intros w p r Hp. by eapply (pointer_ok _ _ _ _ _ _ _ _ sched (Config s ts)).
      * intros k Hk. rewrite Hr, (M3 k Hk). symmetry. rewrite (step_logs rk _ _ _ _ (gs_env s) k Hk E1). reflexivity.
  - intros sched s ts e _ [M1 M2 M3]. constructor; cbn [shared threads gestep gs_client] in *; [exact M1|..].
    + intros k Hk. rewrite M2 by done. destruct k as [| | | | | | | |[] p]; done.
    + intros k Hk. rewrite M3 by done. by destruct k, rk.
  - done.
Qed.

(** Where the objects come from. *)
Lemma new_counter_counter ms o : new_counter I N ms = Some o -> exists bc, newBucketCounterImpl I N ms true = Ok bc /\ o = OCounter (BcShared bc (wrap64 ms)).
Proof. unfold new_counter. destruct (newBucketCounterImpl _ _ _ _) as [bc|]; [|done]. intros [= <-]. by exists bc. Qed.

Lemma origin_counter e0 objs0 all k o es : cf_objs0 rk I N e0 = Some objs0 -> is_counter k = true -> origin effect_of objs0 e0 all k o es ->
  exists before e, e0 :: all = before ++ e :: es /\ new_counter I N (ce_ms e) = Some o.
Proof.
  intros Ho Hk [[Hl ->]|(s & t & e & before & He & Hb)].
  - exists [], e0. split; [done|]. unfold cf_objs0 in Ho. destruct (new_counter _ _ _) as [x|]; [|done]. injection Ho as <-.
    assert (Hall : forall y, (list_to_map [(KTotal, x); (KSuccess, x);
        (KOne, OAverage (EwmaShared zeroEWMA false [])); (KFive, OAverage (EwmaShared zeroEWMA false [])); (KFifteen, OAverage (EwmaShared zeroEWMA false []));
        (reservoir_key rk, y)] : gmap ckey cobj) !! k = Some o -> k <> reservoir_key rk -> Some x = Some o).
    { intros y Hy Hne. cbn [list_to_map foldr fst snd] in Hy. destruct k as [| | | | | | | |w p]; try discriminate Hk.
      - by rewrite lookup_insert in Hy.
      - rewrite lookup_insert_ne, lookup_insert in Hy by done. done.
      - do 5 rewrite lookup_insert_ne in Hy by done. rewrite lookup_insert_ne in Hy by done. by rewrite lookup_empty in Hy.
      - do 5 rewrite lookup_insert_ne in Hy by done. rewrite lookup_insert_ne in Hy by done. by rewrite lookup_empty in Hy. }
    destruct (decide (k = reservoir_key rk)) as [->|Hne]; [|by eapply Hall].
    destruct rk; [discriminate Hk| |discriminate Hk]. cbn [reservoir_key list_to_map foldr fst snd] in Hl. do 5 rewrite lookup_insert_ne in Hl by done. rewrite lookup_insert in Hl. exact Hl.
  - exists before, e. split; [done|]. unfold cf_effect in He.
    destruct (kt_pc t) as [|k0|old k0|old new k0|n k0|n count k0|n count k0|n count k0|n count k0|d r0|d r0|d r0|r0|w r0|w r0|w r0|w r0|w r0|w p r0|w [p|] r0|w n]; try done.
    + by destruct (rs_success r0).
    + destruct (new_counter _ _ _); [|done]. by injection He as _ <-.
Qed.
Lemma origin_other e0 objs0 all k o es : cf_objs0 rk I N e0 = Some objs0 -> is_counter k = false -> origin effect_of objs0 e0 all k o es ->
  es = all /\ match k, rk with KReservoir, RDecaying size alpha => o = OReservoir (DxShared (NewEDR size alpha (ce_ms e0) (ce_tick e0)) false 0 (ce_ms e0) (ce_tick e0) []) | KReservoir, _ => False
    | KUniform, RUniform cap => o = OUniform (RxShared (UniformReservoir 0 (replicate (Z.to_nat cap) 0)) false 0 []) | KUniform, _ => False | _, _ => o = OAverage (EwmaShared zeroEWMA false []) end.
Proof.
  intros Ho Hk [[Hl ->]|(s & t & e & before & He & Hb)].
  - split; [done|]. unfold cf_objs0 in Ho. destruct (new_counter _ _ _) as [x|]; [|done]. injection Ho as <-.
    destruct rk; cbn [reservoir_key list_to_map foldr fst snd] in Hl; destruct k as [| | | | | | | |w p]; try discriminate Hk; repeat (rewrite lookup_insert_ne in Hl by done); try (by rewrite lookup_empty in Hl); rewrite lookup_insert in Hl; injection Hl as <-; reflexivity.
  - exfalso. unfold cf_effect in He.
    destruct (kt_pc t) as [|k0|old k0|old new k0|n k0|n count k0|n count k0|n count k0|n count k0|d r0|d r0|d r0|r0|w r0|w r0|w r0|w r0|w r0|w p r0|w [p|] r0|w n]; try done.
    + by destruct (rs_success r0).
    + destruct (new_counter _ _ _); [|done]. injection He as <- _. done.
Qed.

Lemma cf_started e0 progs sched c : cf e0 progs sched = Some c -> exists objs0, cf_objs0 rk I N e0 = Some objs0.
Proof. unfold cf_run. destruct (cf_objs0 _ _ _ e0) as [o|]; [|done]. by exists o. Qed.

(** The calls object [k] receives from each goroutine, and where they are inside it. *)
Definition calls (k : ckey) (t : gthread kthread cin ckey cop) : list cop := calls_of k (gt_made t).
Definition at_in (k : ckey) (t : gthread kthread cin ckey cop) : cin := inside_of cin_idle k t.

Lemma counter_run e0 progs sched c k o : cf e0 progs sched = Some c -> is_counter k = true -> gs_objs (shared c) !! k = Some o ->
  exists s before e es tr, o = OCounter s /\ e0 :: shown sched = before ++ e :: es /\ shown tr = ce_ms <$> es /\
    bc_crun I N (ce_ms e) true ((fun t => updates (calls k t)) <$> threads c) tr = Ok (Config s ((fun t => ci_bc (at_in k t)) <$> threads c)).
Proof.
  intros Hc Hk Ho. destruct (cf_started _ _ _ _ Hc) as [objs0 H0]. pose proof (cf_seen _ _ _ _ _ _ _ _ _ _ _ H0 Hc) as Sn.
  destruct (sn_some _ _ _ _ _ _ _ _ _ Sn k o Ho) as (o0 & tr & Hor & Hst). destruct (origin_counter _ _ _ _ _ _ H0 Hk Hor) as (before & e & Hb & Hn).
  apply new_counter_counter in Hn as (bc & Hbc & ->). destruct (counter_part _ _ _ _ Hst _ _ eq_refl) as (s & Es & Hs). cbn [shared threads] in Es, Hs.
  apply (esteps_map bc_tstep bc_estep ce_ms) in Hs as (tr' & Hs & Hsh). exists s, before, e, (shown tr), tr'. split_and!; try done.
  apply esteps_crun in Hs. unfold bc_crun, bc_cinit. rewrite Hbc. cbn [res_bind mbind]. rewrite !fmap_fmap in Hs. rewrite !fmap_fmap. f_equal. etransitivity; [|exact Hs].
  f_equal. f_equal. apply list_fmap_ext. intros i t _. cbn. by rewrite with_calls_parts.
Qed.
Lemma average_run e0 progs sched c k o : cf e0 progs sched = Some c -> k ∈ [KOne; KFive; KFifteen] -> gs_objs (shared c) !! k = Some o ->
  exists s tr, o = OAverage s /\ ewma_crun f0 0 ((fun t => tickns (calls k t)) <$> threads c) tr = Config s ((fun t => ci_ew (at_in k t)) <$> threads c).
Proof.
  intros Hc Hk Ho. destruct (cf_started _ _ _ _ Hc) as [objs0 H0]. pose proof (cf_seen _ _ _ _ _ _ _ _ _ _ _ H0 Hc) as Sn.
  assert (Hk' : is_counter k = false) by (destruct k; try done; set_solver).
  destruct (sn_some _ _ _ _ _ _ _ _ _ Sn k o Ho) as (o0 & tr & Hor & Hst). destruct (origin_other _ _ _ _ _ _ H0 Hk' Hor) as [_ Eo].
  assert (Ek : o0 = OAverage (EwmaShared zeroEWMA false [])) by (destruct k; try done; set_solver).
  rewrite Ek in Hst. destruct (average_part _ _ _ _ Hst _ _ eq_refl) as (s & Es & Hs). cbn [shared threads] in Es, Hs.
  apply esteps_quiet in Hs as (tr' & Hs). exists s, tr'. split; [done|]. apply esteps_crun in Hs. unfold ewma_crun. rewrite !fmap_fmap in Hs. rewrite !fmap_fmap. etransitivity; [|exact Hs].
  f_equal. f_equal. apply list_fmap_ext. intros i t _. cbn. by rewrite with_calls_parts.
Qed.
Lemma reservoir_run size alpha e0 progs sched c o : rk = RDecaying size alpha -> cf e0 progs sched = Some c -> gs_objs (shared c) !! KReservoir = Some o ->
  exists s tr, o = OReservoir s /\ shown tr = (fun e => (ce_ms e, ce_tick e)) <$> shown sched /\
    dx_crun math_Exp size alpha (ce_ms e0) (ce_tick e0) ((fun t => records (calls KReservoir t)) <$> threads c) tr = Config s ((fun t => ci_dx (at_in KReservoir t)) <$> threads c).
Proof.
  intros Hrk Hc Ho. destruct (cf_started _ _ _ _ Hc) as [objs0 H0]. pose proof (cf_seen _ _ _ _ _ _ _ _ _ _ _ H0 Hc) as Sn.
  destruct (sn_some _ _ _ _ _ _ _ _ _ Sn KReservoir o Ho) as (o0 & tr & Hor & Hst). destruct (origin_other _ _ _ KReservoir _ _ H0 eq_refl Hor) as [Esh Eo]. rewrite Hrk in Eo. subst o0.
  destruct (reservoir_part _ _ _ _ Hst _ _ eq_refl) as (s & Es & Hs). cbn [shared threads] in Es, Hs.
  apply (esteps_map (dx_tstep math_Exp) dx_estep (fun e => (ce_ms e, ce_tick e))) in Hs as (tr' & Hs & Hsh). exists s, tr'. split; [done|]. split; [by rewrite Hsh, Esh|].
  apply esteps_crun in Hs. unfold dx_crun, dx_init. rewrite !fmap_fmap in Hs. rewrite !fmap_fmap. etransitivity; [|exact Hs].
  f_equal. f_equal. apply list_fmap_ext. intros i t _. cbn. by rewrite with_calls_parts.
Qed.
End fine.
