(** The whole library in use: the registries alone, each metric alone, and who calls what. *)
From Verif.Go Require Import GoInt GoFloat GoConc GoCompose.
From Verif.Model Require Import Config Registry RegistryConc BucketCounter BucketCounterConc BucketReadConc FastCompass FastCompassConc FastCompassFine Compass CompassTypes CompassConc CompassFine CompassRead SystemConc.
From Verif.Spec Require Import BucketSpec CompassConcSpec CompassFineSpec CompassReadSpec RegistrySpec RegistryConcSpec SystemSpec.
From Verif.Proofs Require Import ComposeProofs CompassConcProofs CompassFineProofs CompassFineParts CompassFineMain RegistryProofs RegistryConcProofs RegistryLimit RegistryConcMore CompassReadProofs.
Local Open Scope Z_scope.

(** ** Calling a method leaves the steps as they are *)
Definition q_push (t : qthread) (call : qcall) : qthread := QThread (q_todo t ++ [call]) (q_pc t) (q_got t).
Lemma next_entry_push s t job rest call : next_entry s (q_push t call) job rest = q_push (next_entry s t job rest) call.
Proof. unfold next_entry, q_push. destruct rest; reflexivity. Qed.
Lemma ff_at_push s t s' t' pc call : ff_at s t pc = Some (s', t') -> ff_at s (q_push t call) pc = Some (s', q_push t' call).
Proof. unfold ff_at. destruct (fc_tstep s _) as [[o u]|]; [|done]. intros Hs. injection Hs as <- <-. reflexivity. Qed.
Lemma ff_push s t s' t' call : ff_tstep s t = Some (s', t') -> ff_tstep s (q_push t call) = Some (s', q_push t' call).
Proof.
  intros Hs. unfold ff_tstep in *. cbn [q_push q_todo q_pc q_got] in *. destruct (fs_crashed s); [done|].
  destruct (q_pc t) as [pc|d cat ct u|job o|job rest|g st res cat r rest|r cat rest|r cat p rest] eqn:Hpc.
  - destruct pc as [|d cat|d cat|d cat|d cat c ct|d cat c ct|d cat ct| |k]; try (by apply ff_at_push).
    + destruct (q_todo t) as [|[] todo]; [done|..]; cbn [app].
      * destruct ((d <? 0) || _); injection Hs as <- <-; done.
      * injection Hs as <- <-; done.
      * injection Hs as <- <-; done.
    + injection Hs as <- <-. done.
  - destruct u as [[|n todo] upc].
    + destruct upc; try (injection Hs as <- <-; done);
        (destruct (fc_subCategories (fs_fc s) !! cat) as [bc|]; [|done]; destruct (bc_tstep _ _) as [[o u']|]; [|done]; injection Hs as <- <-; done).
    + destruct (fc_subCategories (fs_fc s) !! cat) as [bc|]; [|destruct upc; done]. destruct (bc_tstep _ _) as [[o u']|]; [|destruct upc; done].
      destruct upc; injection Hs as <- <-; done.
  - destruct (fs_writing s); injection Hs as <- <-; [done|]. by rewrite <- next_entry_push.
  - destruct (fs_writing s); injection Hs as <- <-; [done|]. by rewrite <- next_entry_push.
  - destruct (rd_got r); [|injection Hs as <- <-; done]. destruct (fc_subCategories (fs_fc s) !! cat) as [bc|]; [|done].
    destruct (rd_step _ _); [|done]. injection Hs as <- <-. done.
  - destruct (fc_subCategories (fs_fc s) !! cat) as [bc|]; [|done]. injection Hs as <- <-. done.
  - destruct (fc_subCategories (fs_fc s) !! cat) as [bc|]; [|done]. destruct (bc_heap bc !! p); [|done]. injection Hs as <- <-. done.
Qed.

Section system.
Context (math_Exp : f64 -> f64).
Notation mstep := (mobj_step math_Exp).
Notation gs := (gstep sy_tstep (fun _ => false) sy_effect mstep min_idle min_push min_returned).
Notation ge := (gestep (fun s _ => s) mobj_estep).
Notation run := (sy_run math_Exp).

Lemma compass_push p rk st s t s' t' l : compass_step math_Exp p rk st s t = Some (s', t') -> compass_step math_Exp p rk st s (d_push t l) = Some (s', d_push t' l).
Proof.
  destruct t as [todo g rd got]. unfold compass_step, cr_tstep, d_push. cbn [dt_todo dt_g dt_read dt_got]. destruct (cs_crashed _); [done|]. destruct rd as [[call pc]|].
  - destruct (read_step _ _ _ _) as [[pc'|a]|]; [..|done]; intros Hs; by injection Hs as <- <-.
  - destruct (at_rest g).
    + destruct todo as [|[call|call] todo]; [done|..]; intros Hs; by injection Hs as <- <-.
    + destruct (cf_gstep _ _ _ _ _ _ s g) as [[s1 g1]|]; [|done]. intros Hs; by injection Hs as <- <-.
Qed.
Lemma mobj_push o t o' t' u : mstep o t = Some (o', t') -> mstep o (min_push t u) = Some (o', min_push t' u).
Proof.
  destruct t as [g f]. unfold mobj_step. destruct o as [p rk st s|i n m s]; cbn [mi_compass mi_fast].
  - destruct (compass_step _ _ _ _ _ g) as [[s1 g1]|] eqn:E; [|done]. intros Hs. injection Hs as <- <-. destruct u as [call|call]; cbn [min_push mi_compass mi_fast].
    + by rewrite (compass_push _ _ _ _ _ _ _ call E). + by rewrite E.
  - destruct (ff_tstep s f) as [[s1 f1]|] eqn:E; [|done]. intros Hs. injection Hs as <- <-. destruct u as [call|call]; cbn [min_push mi_compass mi_fast].
    + by rewrite E. + pose proof (ff_push _ _ _ _ call E) as E2; unfold q_push in E2; by rewrite E2.
Qed.
Lemma with_calls_min l : with_calls min_idle min_push l =
  MIn (DThread (compass_calls l) (GThread (KThread [] CompassConc.PIdle []) None ∅ []) None []) (QThread (fast_calls l) (QAt FIdle) []).
Proof.
  unfold with_calls, compass_calls, fast_calls. induction l as [|a l IH] using rev_ind; [done|]. rewrite fold_left_app, IH, !omap_app, join_app'. cbn [fold_left]. destruct a; cbn; by rewrite ?app_nil_r.
Qed.
Lemma min_returned_parts t : min_returned t = true -> dt_todo (mi_compass t) = [] /\ idle_thread (mi_compass t) = true /\ q_todo (mi_fast t) = [] /\ q_pc (mi_fast t) = QAt FIdle.
Proof.
  unfold min_returned, idle_thread. destruct (dt_todo _); [|done]. destruct (dt_read _); [done|]. destruct (at_rest _); [|done]. destruct (q_todo _); [|done]. destruct (q_pc _) as [[]| | | | | |]; done.
Qed.
Lemma parts_returned t : dt_todo (mi_compass t) = [] -> idle_thread (mi_compass t) = true -> q_todo (mi_fast t) = [] -> q_pc (mi_fast t) = QAt FIdle -> min_returned t = true.
Proof.
  unfold min_returned, idle_thread. intros -> H -> ->. destruct (dt_read _); [done|]. by rewrite H.
Qed.

(** ** Metrics in the registries and in the hands of the goroutines *)
Definition metrics_s (P : metric -> Prop) (s : rshared) : Prop := forall r reg h e, rs_regs s !! r = Some reg -> r_metricsMap reg !! h = Some e -> P (e_metric e).
Definition metrics_t (P : metric -> Prop) (t : rthread) : Prop :=
  match rt_pc t with RegistryConc.PCount _ _ _ m | PStore _ _ _ m | RegistryConc.PAdd _ _ _ m => P m | _ => True end /\
  forall op m, (op, Some (Ok m)) ∈ rt_got t -> P m.
Lemma metrics_s_mono (P Q : metric -> Prop) s : (forall m, P m -> Q m) -> metrics_s P s -> metrics_s Q s.
Proof. intros H H1 r reg h e Hr He. eapply H, H1; done. Qed.
Lemma metrics_t_mono (P Q : metric -> Prop) t : (forall m, P m -> Q m) -> metrics_t P t -> metrics_t Q t.
Proof. intros H [H1 H2]. split; [destruct (rt_pc t); auto|]. intros op m Hin. eapply H, H2; done. Qed.
Lemma metrics_return P t x : (match x with Some (Ok m) => P m | _ => True end) -> metrics_t P t -> metrics_t P (r_return t x).
Proof.
  intros Hx [H1 H2]. unfold r_return. destruct (rt_todo t); [done|]. split; cbn [rt_pc rt_got]; [done|].
  intros op m Hin. apply elem_of_app in Hin as [Hin|Hin]; [by eapply H2|]. apply elem_of_list_singleton in Hin. injection Hin as -> <-. done.
Qed.
Lemma assert_kind_metric (P : metric -> Prop) k m : P m -> match Some (assert_kind k m) with Some (Ok m') => P m' | _ => True end.
Proof. intros H. unfold assert_kind. destruct (implements k m); done. Qed.

Lemma metrics_rstep (P : metric -> Prop) s t s' t' : (forall k, P (nop k)) -> metrics_s P s -> metrics_t P t ->
  (forall r k nm, rt_pc t = PCreate r k nm -> P (create k nm (rs_next s))) -> rstep s t = Some (s', t') -> metrics_s P s' /\ metrics_t P t'.
Proof.
  intros Hnop Hs Ht Hnew H. pose proof Ht as [T1 T2]. unfold rstep in H.
  destruct (rt_pc t) as [|g k nm|g k nm|r k nm|r k nm|r k nm m|r k nm m|r k nm m] eqn:Epc.
  - destruct (rt_todo t) as [|[r k nm|g k nm|b] todo]; [done|..]; injection H as <- <-; (split; [exact Hs|]).
    + by split. + destruct (rs_enable s); [by split|]. apply metrics_return; [apply Hnop|done]. + by apply metrics_return.
  - destruct (rs_groups s !! g); injection H as <- <-; (split; [exact Hs|by split]).
  - destruct (rs_groups s !! g); injection H as <- <-; [by split; [|split]|]. split; [|by split].
    intros r reg h e Hr He. cbn [rs_regs] in Hr. apply lookup_app_Some in Hr as [Hr|[_ Hr]]; [by eapply Hs|].
    apply list_lookup_singleton_Some in Hr as [_ <-]. cbn in He. by rewrite lookup_empty in He.
  - destruct (rs_regs s !! r) as [reg|] eqn:Er; [|done]. cbn in H. destruct (r_metricsMap reg !! nm_hash nm) as [e|] eqn:Em; injection H as <- <-; (split; [exact Hs|]).
    + apply metrics_return; [|done]. apply assert_kind_metric. by eapply Hs.
    + by split.
  - injection H as <- <-. split; [exact Hs|]. split; [|done]. cbn. by eapply Hnew.
  - destruct (rs_regs s !! r) as [reg|] eqn:Er; [|done]. injection H as <- <-. split; [exact Hs|]. split; [|done]. cbn. destruct (_ <=? _); [apply Hnop|done].
  - destruct (rs_regs s !! r) as [reg|] eqn:Er; [|done]. cbn in H. destruct (r_metricsMap reg !! nm_hash nm) as [e|] eqn:Em; injection H as <- <-.
    + split; [exact Hs|]. apply metrics_return; [|done]. apply assert_kind_metric. by eapply Hs.
    + split; [|by split]. intros r' reg' h e Hr He. cbn [rs_regs] in Hr. apply list_lookup_insert_Some in Hr as [(-> & <- & _)|[_ Hr]]; [|by eapply Hs].
      cbn [r_metricsMap] in He. destruct (decide (h = nm_hash nm)) as [->|Hne]; [rewrite lookup_insert in He; by injection He as <-|rewrite lookup_insert_ne in He by done; by eapply Hs].
  - destruct (rs_regs s !! r) as [reg|] eqn:Er; [|done]. injection H as <- <-. split.
    + intros r' reg' h e Hr He. cbn [rs_regs] in Hr. apply list_lookup_insert_Some in Hr as [(-> & <- & _)|[_ Hr]]; [|by eapply Hs]. cbn [r_metricsMap] in He. by eapply Hs.
    + apply metrics_return; [|done]. by apply assert_kind_metric.
Qed.

(** What a step of a lookup does to the lists of calls. *)
Lemma rstep_todo s t s' t' : rstep s t = Some (s', t') -> (rt_pc t <> RegistryConc.PIdle -> rt_todo t <> []) ->
  (rt_pc t' <> RegistryConc.PIdle /\ rt_todo t' = rt_todo t /\ rt_got t' = rt_got t) \/
  (rt_pc t' = RegistryConc.PIdle /\ exists op x, rt_todo t = op :: rt_todo t' /\ rt_got t' = rt_got t ++ [(op, x)]).
Proof.
  intros H Hne. unfold rstep in H.
  assert (Hr : forall x, rt_todo t <> [] -> (rt_pc (r_return t x) <> RegistryConc.PIdle /\ rt_todo (r_return t x) = rt_todo t /\ rt_got (r_return t x) = rt_got t) \/
    (rt_pc (r_return t x) = RegistryConc.PIdle /\ exists op y, rt_todo t = op :: rt_todo (r_return t x) /\ rt_got (r_return t x) = rt_got t ++ [(op, y)])).
  { intros x Hn. right. unfold r_return. destruct (rt_todo t) as [|op todo]; [done|]. split; [done|]. by exists op, x. }
  destruct (rt_pc t) as [|g k nm|g k nm|r k nm|r k nm|r k nm m|r k nm m|r k nm m] eqn:Epc.
  - destruct (rt_todo t) as [|[r k nm|g k nm|b] todo] eqn:Et; [done|..]; injection H as <- <-.
    + by left. + destruct (rs_enable s); [by left|]. by apply Hr. + by apply Hr.
  - destruct (rs_groups s !! g); injection H as <- <-; by left.
  - destruct (rs_groups s !! g); injection H as <- <-; by left.
  - destruct (rs_regs s !! r); [|done]. cbn in H. destruct (_ !! _); injection H as <- <-; [apply Hr; by apply Hne|by left].
  - injection H as <- <-; by left.
  - destruct (rs_regs s !! r); [|done]. injection H as <- <-; by left.
  - destruct (rs_regs s !! r); [|done]. cbn in H. destruct (_ !! _); injection H as <- <-; [apply Hr; by apply Hne|by left].
  - destruct (rs_regs s !! r); [|done]. injection H as <- <-. apply Hr; by apply Hne.
Qed.
Lemma rstep_next s t s' t' : rstep s t = Some (s', t') -> rs_next s' = match rt_pc t with PCreate _ _ _ => S (rs_next s) | _ => rs_next s end.
Proof.
  intros H. unfold rstep in H. destruct (rt_pc t) as [|g k nm|g k nm|r k nm|r k nm|r k nm m|r k nm m|r k nm m].
  - destruct (rt_todo t) as [|[r k nm|g k nm|b] todo]; [done|..]; by injection H as <- <-.
  - destruct (rs_groups s !! g); by injection H as <- <-.
  - destruct (rs_groups s !! g); by injection H as <- <-.
  - destruct (rs_regs s !! r); [|done]. cbn in H. destruct (_ !! _); by injection H as <- <-.
  - by injection H as <- <-.
  - destruct (rs_regs s !! r); [|done]. by injection H as <- <-.
  - destruct (rs_regs s !! r); [|done]. cbn in H. destruct (_ !! _); by injection H as <- <-.
  - destruct (rs_regs s !! r); [|done]. by injection H as <- <-.
Qed.

(** ** The invariant *)
(** The object at the address of a metric is that metric. *)
Definition fits (objs : gmap nat mobj) (m : metric) : Prop :=
  match m with
  | MCompass ref p => (exists nm, m = create KCompass nm ref) /\ exists rk st s, reservoir_of (cpp_reservoirType p) = rk /\ objs !! ref = Some (OCompass p rk st s)
  | MFastCompass ref i n mx => (exists nm, m = create KFastCompass nm ref) /\ exists s, objs !! ref = Some (OFast i n mx s)
  | _ => True
  end.
(** The call an action turns into. *)
Definition resolve (s : sy_shared) (a : saction) : option (nat * ucall) :=
  match a with
  | SUse i j u =>
      match handle_at s i j, u with
      | Some (Some (Ok (MCompass ref _))), UCompass _ => Some (ref, u)
      | Some (Some (Ok (MFastCompass ref _ _ _))), UFast _ => Some (ref, u)
      | _, _ => None
      end
  | SLookup _ => None
  end.
Definition available (s : sy_shared) (a : saction) : Prop := match a with SUse i j _ => is_Some (handle_at s i j) | SLookup _ => True end.

Record thread_ok (plans : list (list saction)) (s : sy_shared) (i : nat) (t : gthread sthread min nat ucall) : Prop := {
  tk_id : st_id (gt_client t) = i;
  tk_handles : default [] (sy_handles s !! i) = (rt_got (st_reg (gt_client t))).*2;
  tk_todo : match rt_pc (st_reg (gt_client t)) with
            | RegistryConc.PIdle => rt_todo (st_reg (gt_client t)) = lookups (st_plan (gt_client t))
            | _ => exists op, rt_todo (st_reg (gt_client t)) = op :: lookups (st_plan (gt_client t))
            end;
  tk_plan : exists before, plans !! i = Some (before ++ st_plan (gt_client t)) /\ Forall (available s) before /\ gt_made t = omap (resolve s) before }.
Record sinv (plans : list (list saction)) (c : system) : Prop := {
  si_threads : forall i t, threads c !! i = Some t -> thread_ok plans (gs_client (shared c)) i t;
  si_dom : forall ref, is_Some (gs_objs (shared c) !! ref) <-> (ref < rs_next (sy_reg (gs_client (shared c))))%nat;
  si_entries : metrics_s (fits (gs_objs (shared c))) (sy_reg (gs_client (shared c)));
  si_hands : forall i t, threads c !! i = Some t -> metrics_t (fits (gs_objs (shared c))) (st_reg (gt_client t));
  si_nobody : forall i, threads c !! i = None -> sy_handles (gs_client (shared c)) !! i = None }.

Lemma tk_nonempty plans s i t : thread_ok plans s i t -> rt_pc (st_reg (gt_client t)) <> RegistryConc.PIdle -> rt_todo (st_reg (gt_client t)) <> [].
Proof. intros [_ _ H _]. destruct (rt_pc _); [done|..]; intros _; destruct H as [op ->]; done. Qed.

(** Handles stay. *)
Definition handles_le (s s' : sy_shared) : Prop := forall i j x, handle_at s i j = Some x -> handle_at s' i j = Some x.
Lemma resolve_le s s' a : handles_le s s' -> available s a -> resolve s' a = resolve s a.
Proof. intros H. destruct a as [op|i j u]; [done|]. intros [x Hx]. cbn. by rewrite Hx, (H _ _ _ Hx). Qed.
Lemma available_le s s' a : handles_le s s' -> available s a -> available s' a.
Proof. intros H. destruct a as [op|i j u]; [done|]. intros [x Hx]. cbn. rewrite (H _ _ _ Hx). done. Qed.
Lemma omap_resolve_le s s' l : handles_le s s' -> Forall (available s) l -> omap (resolve s') l = omap (resolve s) l.
Proof.
  intros H. induction 1 as [|a l Ha _ IH]; [done|].
  change (match resolve s' a with Some y => y :: omap (resolve s') l | None => omap (resolve s') l end = match resolve s a with Some y => y :: omap (resolve s) l | None => omap (resolve s) l end).
  by rewrite (resolve_le _ _ _ H Ha), IH.
Qed.
Lemma fits_le objs objs' m : (forall ref o, objs !! ref = Some o -> exists o', objs' !! ref = Some o' /\
   match o with OCompass p rk st _ => exists s, o' = OCompass p rk st s | OFast i n mx _ => exists s, o' = OFast i n mx s end) -> fits objs m -> fits objs' m.
Proof.
  intros H. destruct m as [ref p|ref i n mx| |]; cbn [fits]; try done.
  - intros [Hn (rk & st & s & Hrk & Ho)]. split; [done|]. destruct (H _ _ Ho) as (o' & Ho' & s' & ->). eauto 6.
  - intros [Hn (s & Ho)]. split; [done|]. destruct (H _ _ Ho) as (o' & Ho' & s' & ->). eauto.
Qed.
Lemma mstep_kind o t o' t' : mstep o t = Some (o', t') -> match o with OCompass p rk st _ => exists s, o' = OCompass p rk st s | OFast i n mx _ => exists s, o' = OFast i n mx s end.
Proof. unfold mobj_step. destruct o; [destruct (compass_step _ _ _ _ _ _) as [[s' g]|]|destruct (ff_tstep _ _) as [[s' g]|]]; try done; intros Hs; injection Hs as <- <-; eauto. Qed.
Lemma new_metric_fits k nm ref e o objs : new_metric (create k nm ref) e = Some o -> fits (<[ref := o]> objs) (create k nm ref).
Proof.
  destruct k; cbn [create new_metric fits].
  - cbv zeta. destruct (cf_objs0 _ _ _ _); [|done]. intros [= <-]. split; [by exists nm|]. eexists _, _, _. split; [done|]. by rewrite lookup_insert.
  - intros [= <-]. split; [by exists nm|]. eexists. by rewrite lookup_insert.
Qed.
Lemma fits_nop objs k : fits objs (nop k).
Proof. by destruct k. Qed.

Lemma thread_ok_le plans s s' i t : handles_le s s' -> default [] (sy_handles s' !! i) = default [] (sy_handles s !! i) -> thread_ok plans s i t -> thread_ok plans s' i t.
Proof.
  intros H Hi [T1 T2 T3 (before & T4 & T5 & T6)]. constructor; [done|by rewrite Hi|done|]. exists before. split; [done|]. split.
  - eapply Forall_impl; [exact T5|]. intros a Ha. by eapply available_le.
  - rewrite T6. symmetry. by apply omap_resolve_le.
Qed.

(** A step of the client that looks something up. *)
Lemma reg_step_ok plans s (ts : list (gthread sthread min nat ucall)) i t s' c' plan : (forall j u, ts !! j = Some u -> thread_ok plans s j u) -> ts !! i = Some t -> sy_reg_step s (gt_client t) plan = Some (s', c') ->
  (rt_pc (st_reg (gt_client t)) <> RegistryConc.PIdle /\ plan = st_plan (gt_client t) \/ rt_pc (st_reg (gt_client t)) = RegistryConc.PIdle /\ exists op, st_plan (gt_client t) = SLookup op :: plan) ->
  forall t' : gthread sthread min nat ucall, gt_client t' = c' -> gt_made t' = gt_made t ->
  (forall j u, <[i := t']> ts !! j = Some u -> thread_ok plans s' j u).
Proof.
  intros HT Hi Hs Hplan t' Hc Hm. pose proof (HT i t Hi) as Tt. pose proof Tt as [T1 T2 T3 (before & T4 & T5 & T6)].
  unfold sy_reg_step in Hs. destruct (rstep (sy_reg s) (st_reg (gt_client t))) as [[r' reg']|] eqn:Er; [|done]. injection Hs as <- Hc'.
  pose proof (rstep_todo _ _ _ _ Er (tk_nonempty _ _ _ _ Tt)) as Htd. rewrite T1.
  assert (Hgot : exists more, rt_got reg' = rt_got (st_reg (gt_client t)) ++ more).
  { destruct Htd as [(_ & _ & ->)|(_ & op & x & _ & ->)]; [exists []; by rewrite app_nil_r|by exists [(op, x)]]. }
  assert (Hle : handles_le s (SyShared r' (<[i := (rt_got reg').*2]> (sy_handles s)))).
  { intros i' j x Hx. unfold handle_at in *. cbn [sy_handles]. destruct (decide (i' = i)) as [->|]; [|by rewrite lookup_insert_ne by done].
    rewrite lookup_insert. cbn [default]. destruct Hgot as [more ->]. rewrite fmap_app. apply lookup_app_l_Some. rewrite <- T2. exact Hx. }
  intros j u Hj. apply list_lookup_insert_Some in Hj as [(-> & <- & _)|[Hne Hj]].
  - assert (Hst : st_id (gt_client t') = j /\ st_reg (gt_client t') = reg' /\ st_plan (gt_client t') = plan) by (rewrite Hc, <- Hc'; cbn; by rewrite T1).
    destruct Hst as (S1 & S2 & S3). constructor; rewrite ?S1, ?S2, ?S3; [done|cbn; by rewrite lookup_insert|..].
    + (* the calls to come *)
      assert (Hc1 : (rt_pc (st_reg (gt_client t)) <> RegistryConc.PIdle -> exists op, rt_todo (st_reg (gt_client t)) = op :: lookups (st_plan (gt_client t))) /\
        (rt_pc (st_reg (gt_client t)) = RegistryConc.PIdle -> rt_todo (st_reg (gt_client t)) = lookups (st_plan (gt_client t)))).
      { clear -T3. destruct (rt_pc _); split; done. }
      assert (Hop : exists op, rt_todo (st_reg (gt_client t)) = op :: lookups plan).
      { destruct Hplan as [[Hp ->]|[Hp [op Hpl]]]; [by apply Hc1|]. exists op. destruct Hc1 as [_ Hc1]. rewrite (Hc1 Hp), Hpl. done. }
      destruct Hop as [op Hop]. destruct Htd as [(Hp & Ht & _)|(Hp & op' & x & Ht & _)].
      * rewrite Ht, Hop. destruct (rt_pc reg'); [done|by exists op..].
      * rewrite Hp. rewrite Hop in Ht. by injection Ht as _ <-.
    + destruct Hplan as [[Hp ->]|[Hp [op Hpl]]].
      * exists before. split; [done|]. split; [eapply Forall_impl; [exact T5|]; intros a Ha; by eapply available_le|]. rewrite Hm, T6. symmetry. by apply omap_resolve_le.
      * exists (before ++ [SLookup op]). rewrite <- app_assoc. rewrite Hpl in T4. split; [done|]. split.
        -- apply Forall_app. split; [eapply Forall_impl; [exact T5|]; intros a Ha; by eapply available_le|]. by apply Forall_singleton.
        -- rewrite omap_app, Hm, T6. cbn. rewrite app_nil_r. symmetry. by apply omap_resolve_le.
  - apply (thread_ok_le plans s); [done| |by apply HT]. cbn. by rewrite lookup_insert_ne by done.
Qed.

Lemma sinv_step plans s ts i t s' t' : sinv plans (Config s ts) -> ts !! i = Some t -> gs s t = Some (s', t') -> sinv plans (Config s' (<[i := t']> ts)).
Proof.
  intros [HT HD HE HH HN] Hi Hs. cbn [shared threads] in *. pose proof (HT i t Hi) as Tt.
  assert (HN1 : forall (t1 : gthread sthread min nat ucall) k, <[i := t1]> ts !! k = None -> sy_handles (gs_client s) !! k = None).
  { intros t1 k Hk. apply HN. apply lookup_ge_None. apply lookup_ge_None in Hk. by rewrite insert_length in Hk. }
  assert (HN2 : forall (t1 : gthread sthread min nat ucall) r l k, <[i := t1]> ts !! k = None -> sy_handles (SyShared r (<[st_id (gt_client t) := l]> (sy_handles (gs_client s)))) !! k = None).
  { intros t1 r l k Hk. cbn. rewrite (tk_id _ _ _ _ Tt). rewrite lookup_insert_ne; [by eapply HN1|]. intros <-. apply lookup_ge_None in Hk. rewrite insert_length in Hk. apply lookup_lt_Some in Hi. lia. }
  unfold gstep in Hs. destruct (gt_in t) as [ref|] eqn:Ein.
  - (* inside a metric *)
    assert (Hsame : forall t1 : gthread sthread min nat ucall, gt_client t1 = gt_client t -> gt_made t1 = gt_made t -> forall j u, <[i := t1]> ts !! j = Some u -> thread_ok plans (gs_client s) j u).
    { intros t1 E1 E2 j u Hj. apply list_lookup_insert_Some in Hj as [(-> & <- & _)|[_ Hj]]; [|by apply HT]. destruct Tt as [T1 T2 T3 T4]. constructor; rewrite ?E1, ?E2; done. }
    destruct (min_returned _).
    { injection Hs as <- <-. constructor; cbn [shared threads]; [by apply Hsame|done|done| |by apply HN1].
      intros j u Hj. apply list_lookup_insert_Some in Hj as [(-> & <- & _)|[_ Hj]]; [exact (HH _ _ Hi)|by apply (HH j)]. }
    destruct (gs_objs s !! ref) as [o|] eqn:Eo; [|done]. destruct (mstep o _) as [[o' ot']|] eqn:Em; [|done]. injection Hs as <- <-.
    assert (Hf : forall m, fits (gs_objs s) m -> fits (<[ref := o']> (gs_objs s)) m).
    { intros m. apply fits_le. intros ref' o1 Ho1. destruct (decide (ref' = ref)) as [->|Hne].
      - exists o'. rewrite lookup_insert. split; [done|]. rewrite Eo in Ho1. injection Ho1 as <-. by eapply mstep_kind.
      - exists o1. rewrite lookup_insert_ne by done. split; [done|]. destruct o1; eauto. }
    constructor; cbn [shared threads gs_client gs_objs]; [by apply Hsame|..|by apply HN1].
    + intros ref'. rewrite <- HD. destruct (decide (ref' = ref)) as [->|Hne]; [rewrite lookup_insert, Eo; done|by rewrite lookup_insert_ne].
    + eapply metrics_s_mono; [|exact HE]. done.
    + intros j u Hj. eapply metrics_t_mono; [exact Hf|]. apply list_lookup_insert_Some in Hj as [(-> & <- & _)|[_ Hj]]; [exact (HH _ _ Hi)|by apply (HH j)].
  - destruct (sy_tstep _ _) as [[s1 c1]|] eqn:Ets; [|done].
    destruct (rt_pc (st_reg (gt_client t))) eqn:Epc.
    2-8: (* in a lookup *)
      assert (Hreg : sy_reg_step (gs_client s) (gt_client t) (st_plan (gt_client t)) = Some (s1, c1)) by (unfold sy_tstep in Ets; rewrite Epc in Ets; exact Ets);
      assert (Hok : forall t1 : gthread sthread min nat ucall, gt_client t1 = c1 -> gt_made t1 = gt_made t -> forall j u, <[i := t1]> ts !! j = Some u -> thread_ok plans s1 j u)
        by (intros t1 E1 E2; refine (reg_step_ok plans _ ts i t s1 c1 _ HT Hi Hreg _ t1 E1 E2); left; split; [by rewrite Epc|done]);
      unfold sy_reg_step in Hreg; destruct (rstep (sy_reg (gs_client s)) (st_reg (gt_client t))) as [[r' reg']|] eqn:Er; [|done]; injection Hreg as <- <-;
      pose proof (rstep_next _ _ _ _ Er) as Hnx; rewrite Epc in Hnx; unfold sy_effect in Hs; rewrite Epc in Hs.
    5: { (* a new metric *)
      destruct (new_metric _ _) as [o|] eqn:Enew; [|done]. injection Hs as <- <-.
      assert (Hnone : gs_objs s !! rs_next (sy_reg (gs_client s)) = None).
      { apply eq_None_not_Some. rewrite HD. lia. }
      assert (Hf : forall m, fits (gs_objs s) m -> fits (<[rs_next (sy_reg (gs_client s)) := o]> (gs_objs s)) m).
      { intros m. apply fits_le. intros ref' o1 Ho1. exists o1. rewrite lookup_insert_ne by congruence. split; [done|]. destruct o1; eauto. }
      assert (Hnew : forall r0 k0 nm0, rt_pc (st_reg (gt_client t)) = PCreate r0 k0 nm0 -> fits (<[rs_next (sy_reg (gs_client s)) := o]> (gs_objs s)) (create k0 nm0 (rs_next (sy_reg (gs_client s))))).
      { intros r0 k0 nm0 E. rewrite Epc in E. injection E as <- <- <-. by eapply new_metric_fits. }
      destruct (metrics_rstep _ _ _ _ _ (fits_nop _) (metrics_s_mono _ _ _ Hf HE) (metrics_t_mono _ _ _ Hf (HH _ _ Hi)) Hnew Er) as [M1 M2].
      constructor; cbn [shared threads gs_client gs_objs sy_reg]; [by apply Hok| |done| |by eapply HN2].
      - intros ref'. rewrite Hnx. destruct (decide (ref' = rs_next (sy_reg (gs_client s)))) as [->|Hne].
        + rewrite lookup_insert. split; [lia|done]. + rewrite lookup_insert_ne by done. rewrite HD. lia.
      - intros j u Hj. apply list_lookup_insert_Some in Hj as [(-> & <- & _)|[_ Hj]]; [exact M2|]. eapply metrics_t_mono; [exact Hf|]. by apply (HH j). }
    2-7: injection Hs as <- <-;
      assert (Hnc : forall r0 k0 nm0, rt_pc (st_reg (gt_client t)) = PCreate r0 k0 nm0 -> fits (gs_objs s) (create k0 nm0 (rs_next (sy_reg (gs_client s))))) by (intros ? ? ? E; rewrite Epc in E; discriminate E);
      pose proof (metrics_rstep (fits (gs_objs s)) _ _ _ _ (fits_nop _) HE (HH _ _ Hi) Hnc Er) as [M1 M2];
      constructor; cbn [shared threads gs_client gs_objs sy_reg]; [by apply Hok|intros ref'; by rewrite Hnx|done| |by eapply HN2];
      intros j u Hj; apply list_lookup_insert_Some in Hj as [(-> & <- & _)|[_ Hj]]; [exact M2|by apply (HH j)].
    (* between two calls of the registry *)
    unfold sy_tstep in Ets. rewrite Epc in Ets. unfold sy_effect in Hs. rewrite Epc in Hs. destruct (st_plan (gt_client t)) as [|[op|i' j' u] plan] eqn:Epl; [done|..].
    + assert (Hok : forall t1 : gthread sthread min nat ucall, gt_client t1 = c1 -> gt_made t1 = gt_made t -> forall j u, <[i := t1]> ts !! j = Some u -> thread_ok plans s1 j u)
        by (intros t1 E1 E2; refine (reg_step_ok plans _ ts i t s1 c1 _ HT Hi Ets _ t1 E1 E2); right; split; [done|by exists op]).
      unfold sy_reg_step in Ets. destruct (rstep (sy_reg (gs_client s)) (st_reg (gt_client t))) as [[r' reg']|] eqn:Er; [|done]. injection Ets as <- <-.
      pose proof (rstep_next _ _ _ _ Er) as Hnx. rewrite Epc in Hnx. injection Hs as <- <-.
      destruct (metrics_rstep (fits (gs_objs s)) _ _ _ _ (fits_nop _) HE (HH _ _ Hi) ltac:(intros ? ? ? E; rewrite Epc in E; discriminate E) Er) as [M1 M2].
      constructor; cbn [shared threads gs_client gs_objs sy_reg]; [by apply Hok|intros ref'; by rewrite Hnx|done| |by eapply HN2].
      intros j u Hj. apply list_lookup_insert_Some in Hj as [(-> & <- & _)|[_ Hj]]; [exact M2|by apply (HH j)].
    + destruct (handle_at (gs_client s) i' j') as [x|] eqn:Ex; [|done]. injection Ets as <- <-.
      assert (Hok : forall t1 : gthread sthread min nat ucall, gt_client t1 = SThread (st_id (gt_client t)) (st_reg (gt_client t)) plan ->
        gt_made t1 = gt_made t ++ match resolve (gs_client s) (SUse i' j' u) with Some y => [y] | None => [] end ->
        forall j u', <[i := t1]> ts !! j = Some u' -> thread_ok plans (gs_client s) j u').
      { intros t1 E1 E2 j u' Hj. apply list_lookup_insert_Some in Hj as [(-> & <- & _)|[_ Hj]]; [|by apply HT]. destruct Tt as [T1 T2 T3 (before & T4 & T5 & T6)].
        constructor; rewrite ?E1; cbn [st_id st_reg st_plan]; [done|done| |].
        - rewrite Epc in T3 |- *. by rewrite T3, Epl.
        - exists (before ++ [SUse i' j' u]). rewrite <- app_assoc. rewrite Epl in T4. split; [done|]. split.
          + apply Forall_app. split; [done|]. apply Forall_singleton. cbn. by rewrite Ex.
          + by rewrite omap_app, E2, T6. }
      assert (Hrest : forall t1 : gthread sthread min nat ucall, gt_client t1 = SThread (st_id (gt_client t)) (st_reg (gt_client t)) plan ->
        forall j u', <[i := t1]> ts !! j = Some u' -> metrics_t (fits (gs_objs s)) (st_reg (gt_client u'))).
      { intros t1 E1 j u' Hj. apply list_lookup_insert_Some in Hj as [(-> & <- & _)|[_ Hj]]; [|by apply (HH j)]. rewrite E1. exact (HH _ _ Hi). }
      cbn [resolve] in Hok. rewrite Ex in Hok.
      assert (Hfin : exists t1 e, (s', t') = (GShared (gs_client s) (gs_objs s) e, t1) /\ gt_client t1 = SThread (st_id (gt_client t)) (st_reg (gt_client t)) plan /\
        gt_made t1 = gt_made t ++ match x, u with Some (Ok (MCompass ref _)), UCompass _ => [(ref, u)] | Some (Ok (MFastCompass ref _ _ _)), UFast _ => [(ref, u)] | _, _ => [] end).
      { destruct x as [[[ref p|ref a b d| |]|]|]; destruct u as [call|call]; injection Hs as <- <-; do 2 eexists; (split; [reflexivity|]); cbn; rewrite ?app_nil_r; done. }
      destruct Hfin as (t1 & e1 & Heq & E1 & E2). injection Heq as -> ->. constructor; cbn [shared threads gs_client gs_objs]; [|done|done|by apply Hrest|by apply HN1].
      apply Hok; [done|]. rewrite E2. f_equal. destruct x as [[[]|]|], u; done.
Qed.

Lemma sinv_run maxs e0 plans sched : sinv plans (run maxs e0 plans sched).
Proof.
  unfold sy_run, grun. apply (crun_inv gs ge (sinv plans)).
  - constructor; cbn [ginit shared threads gs_client gs_objs sy_reg].
    + intros i t Hi. rewrite list_lookup_fmap, list_lookup_imap in Hi. destruct (plans !! i) as [plan|] eqn:Ep; [|done]. injection Hi as <-.
      constructor; cbn; [done|by rewrite lookup_empty|done|]. exists []. done.
    + intros ref. rewrite lookup_empty. cbn. split; [by intros [? ?]|lia].
    + intros r reg h e Hr He. cbn in Hr. rewrite list_lookup_fmap in Hr. destruct (maxs !! r); [|done]. injection Hr as <-. cbn in He. by rewrite lookup_empty in He.
    + intros i t Hi. rewrite list_lookup_fmap, list_lookup_imap in Hi. destruct (plans !! i) as [plan|] eqn:Ep; [|done]. injection Hi as <-. split; cbn; [done|]. intros op m Hin. by apply elem_of_nil in Hin.
    + intros i _. apply lookup_empty.
  - intros s ts i t s' t'. apply sinv_step.
  - intros s ts e [HT HD HE HH HN]. assert (Hf : forall m, fits (gs_objs s) m -> fits ((fun o => mobj_estep o e) <$> gs_objs s) m).
    { intros m. apply fits_le. intros ref o Ho. exists (mobj_estep o e). rewrite lookup_fmap, Ho. split; [done|]. destruct o; cbn; eauto. }
    constructor; cbn [shared threads gestep gs_client gs_objs] in *; [done|..|done].
    + intros ref. rewrite lookup_fmap, fmap_is_Some. apply HD.
    + by eapply metrics_s_mono.
    + intros i t Hi. eapply metrics_t_mono; [exact Hf|]. by apply (HH i).
Qed.
End system.
