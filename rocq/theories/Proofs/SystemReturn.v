(** The whole library in use: every call returns. *)
From Verif.Go Require Import GoInt GoFloat GoConc GoCompose.
From Verif.Model Require Import Config Registry RegistryConc BucketQueue BucketCounter FastCompass FastCompassConc FastCompassFine Compass CompassTypes CompassConc CompassFine CompassRead SystemConc.
From Verif.Spec Require Import ConfigSpec BucketSpec FastCompassSpec FastCompassConcSpec FastCompassFineSpec CompassConcSpec CompassFineSpec CompassReadSpec RegistrySpec RegistryConcSpec SystemSpec ProgressSpec.
From Verif.Proofs Require Import BucketHist ProgressLemmas ComposeProofs CompassReadProofs SystemProofs SystemMain SystemUse SystemProgress CompassBound CompassReturn FastCompassBound FastCompassReturn.
Local Open Scope Z_scope.

Notation M := (Z.of_nat (Z.to_nat (GetMaxSubCategoryCount GetMetricConfig))).
Lemma M_nonneg : 0 <= M.
Proof. lia. Qed.

Section pot.
Context (nt : nat). (* the goroutines *)
Definition act_cost (a : saction) : Z :=
  match a with SLookup _ => 9 | SUse _ _ (UCompass method) => 2 + sumZ (d_cost nt 11 <$> method) | SUse _ _ (UFast call) => 2 + q_cost 11 M call end.
Definition reg_rank (pc : rpc) : Z :=
  match pc with
  | RegistryConc.PIdle => 0 | RegistryConc.PAdd _ _ _ _ => 1 | PStore _ _ _ _ => 2 | RegistryConc.PCount _ _ _ _ => 3 | PCreate _ _ _ => 4 | RegistryConc.PLoad _ _ _ => 5 | PGroupStore _ _ _ => 6 | PGroup _ _ _ => 7
  end.
Definition mo_pot (o : option mobj) (l : min) : Z :=
  match o with
  | Some (OCompass _ _ _ s) => if cs_crashed (gs_client s) then 0 else d_pot nt 11 (unc (gs_client s)) (mi_compass l)
  | Some (OFast _ _ _ s) => if fs_crashed s then 0 else q_pot 11 M (mi_fast l)
  | None => 0
  end.
Definition own_pot (t : sthread) : Z := sumZ (act_cost <$> st_plan t) + reg_rank (rt_pc (st_reg t)).
Definition s_pot (objs : gmap nat mobj) (g : gthread sthread min nat ucall) : Z :=
  own_pot (gt_client g) + match gt_in g with Some ref => 1 + mo_pot (objs !! ref) (inside_of min_idle ref g) | None => 0 end.

Lemma act_cost_pos a : 2 <= act_cost a.
Proof.
  destruct a as [op|i j [method|call]]; cbn [act_cost]; [lia|pose proof (d_todo_nonneg nt 11 method); lia|pose proof (q_cost_pos 11 M ltac:(lia) M_nonneg call); lia].
Qed.
Lemma plan_nonneg l : 0 <= sumZ (act_cost <$> l).
Proof. apply sum_nonneg. intros a _. pose proof (act_cost_pos a). lia. Qed.
Lemma reg_rank_nonneg pc : 0 <= reg_rank pc <= 7.
Proof. destruct pc; cbn; lia. Qed.
Lemma own_nonneg t : 0 <= own_pot t.
Proof. unfold own_pot. pose proof (plan_nonneg (st_plan t)). pose proof (reg_rank_nonneg (rt_pc (st_reg t))). lia. Qed.
Lemma mo_nonneg o l : 0 <= mo_pot o l.
Proof.
  destruct o as [[p rk st s|a b d s]|]; cbn [mo_pot]; [destruct (cs_crashed _); [lia|apply d_pot_nonneg; lia]|destruct (fs_crashed _); [lia|apply q_pot_nonneg; lia]|lia].
Qed.
Lemma s_pot_nonneg objs g : 0 <= s_pot objs g.
Proof. unfold s_pot. pose proof (own_nonneg (gt_client g)). destruct (gt_in g) as [ref|]; [pose proof (mo_nonneg (objs !! ref) (inside_of min_idle ref g))|]; lia. Qed.

(** Who is outside has nothing to do there; a call costs what was planned for it. *)
Lemma push_pot o l u i j : min_returned l = true -> mo_pot o (min_push l u) + 2 <= act_cost (SUse i j u).
Proof.
  intros H. apply min_returned_parts in H as (A & B & C & D). destruct l as [g f]. cbn [mi_compass mi_fast] in *. destruct g as [todo g rd got], f as [ftodo pc fgot]. cbn [dt_todo q_todo q_pc] in *. subst.
  unfold idle_thread in B. cbn [dt_read dt_g] in B. destruct rd; [done|]. unfold at_rest in B. destruct (kt_todo (gt_client g)) eqn:E1; [|done]. destruct (kt_pc (gt_client g)) eqn:E2; try done. destruct (gt_in g) eqn:E3; [done|].
  assert (Hd : forall u l, d_pot nt 11 u (DThread l g None got) = sumZ (d_cost nt 11 <$> l)).
  { intros v l. unfold d_pot, f_pot, k_pot. cbn [dt_todo dt_g dt_read]. rewrite E1, E2, E3. cbn [k_rank fmap list_fmap]. change (sumZ []) with 0. lia. }
  assert (Hq : forall l, q_pot 11 M (QThread l (QAt FIdle) fgot) = sumZ (q_cost 11 M <$> l)) by (intros l; unfold q_pot; cbn [q_todo q_pc q_rank fpc_rank]; lia).
  pose proof (act_cost_pos (SUse i j u)).
  destruct u as [method|call]; cbn [min_push mi_compass mi_fast q_todo q_pc q_got act_cost d_push dt_todo dt_g dt_read dt_got app] in *; destruct o as [[p rk st s|a b d s]|]; cbn [mo_pot mi_compass mi_fast]; unfold d_push; cbn [dt_todo dt_g dt_read dt_got app]; try lia.
  - rewrite Hd. destruct (cs_crashed _); lia.
  - rewrite Hq. change (sumZ (q_cost 11 M <$> [])) with 0. destruct (fs_crashed _); lia.
  - rewrite Hd. change (sumZ (d_cost nt 11 <$> [])) with 0. destruct (cs_crashed _); lia.
  - rewrite Hq. rewrite fmap_cons, sumZ_cons. change (sumZ (q_cost 11 M <$> [])) with 0. destruct (fs_crashed _); lia.
Qed.

(** A step of the registries. *)
Lemma reg_drop s t s' t' : rstep s t = Some (s', t') -> rt_todo t <> [] -> reg_rank (rt_pc t') + 1 <= (if decide (reg_rank (rt_pc t) = 0) then 9 else reg_rank (rt_pc t)).
Proof.
  intros H Hne. unfold rstep in H. destruct t as [pc todo got]. cbn [rt_pc rt_todo rt_got] in *. destruct todo as [|op todo]; [done|].
  destruct pc as [|g k nm|g k nm|r k nm|r k nm|r k nm m|r k nm m|r k nm m]; cbn [reg_rank]; destruct (decide _) as [Hd|Hd]; try lia.
  - destruct op as [r k nm|g k nm|b]; [|destruct (rs_enable s)|]; injection H as _ <-; cbn; lia.
  - destruct (rs_groups s !! g); injection H as _ <-; cbn; lia.
  - destruct (rs_groups s !! g); injection H as _ <-; cbn; lia.
  - destruct (rs_regs s !! r) as [reg|]; [|done]. cbn [mbind option_bind] in H. destruct (_ !! nm_hash nm); injection H as _ <-; cbn; lia.
  - injection H as _ <-; cbn; lia.
  - destruct (rs_regs s !! r) as [reg|]; [|done]. cbn [mbind option_bind] in H. injection H as _ <-; cbn; lia.
  - destruct (rs_regs s !! r) as [reg|]; [|done]. cbn [mbind option_bind] in H. destruct (_ !! nm_hash nm); injection H as _ <-; cbn; lia.
  - destruct (rs_regs s !! r) as [reg|]; [|done]. cbn [mbind option_bind] in H. injection H as _ <-; cbn; lia.
Qed.
End pot.

Section run.
Context (math_Exp : f64 -> f64) (maxs : list Z) (e0 : cenv) (plans : list (list saction)).
Notation gs := (gstep sy_tstep (fun _ => false) sy_effect (mobj_step math_Exp) min_idle min_push min_returned).
Notation ge := (gestep (fun s (_ : cenv) => s) mobj_estep).
Notation run := (sy_run math_Exp maxs e0 plans).
Notation c0 := (sy_run math_Exp maxs e0 plans []).
Notation nt := (length plans).
Definition Pot (c : system) : Z := sumZ (s_pot nt (gs_objs (shared c)) <$> threads c).

Lemma run_eq sched : run sched = crun gs ge c0 sched.
Proof. reflexivity. Qed.

(** Somebody inside a metric: its parts are in order. *)
Lemma inside_ok sched k t ref : threads (run sched) !! k = Some t -> gt_in t = Some ref ->
  match gs_objs (shared (run sched)) !! ref with
  | Some (OCompass p rk st s) => cpp_numOfBucket p = 10 /\ rings 11 s /\ d_ok (mi_compass (inside_of min_idle ref t))
  | Some (OFast i n mx s) => fast_ok 11 s /\ q_ok 11 (mi_fast (inside_of min_idle ref t)) /\ (fs_crashed s = false -> Z.of_nat (size (fc_subCategories (fs_fc s))) <= M)
  | None => False
  end.
Proof.
  intros Hk Hin. set (c := run sched) in *.
  pose proof (sy_seen math_Exp maxs e0 plans sched) as HS. fold c in HS. pose proof (sn_in _ _ _ _ _ _ _ _ _ HS k t ref Hk Hin) as Hne. destruct (calls_of ref (gt_made t)) as [|u0 rest] eqn:Ec; [done|].
  pose proof (sinv_run math_Exp maxs e0 plans sched) as HI. fold c in HI.
  destruct (made_given math_Exp maxs e0 plans sched k t ref u0 Hk) as [(p & call & i & j & Hg & _)|(a & b & d & call & i & j & Hg & _)]; [rewrite Ec; left|..]; fold c in Hg.
  - pose proof (given_fits plans c _ _ _ HI Hg) as [[nm Hnm] (rk & st & s & Hrk & Ho)]. destruct (created_params _ _ _ Hnm) as (P1 & P2 & P3 & _).
    destruct (compass_alone_run math_Exp maxs e0 plans sched ref p) as (before & e & es & rk' & progs & tr & cc & _ & _ & _ & _ & Hat & Hrun & _); [by exists i, j|]. fold c in Hat.
    rewrite Ho. split; [done|]. unfold reading_at in Hat. rewrite Ho in Hat. injection Hat as <-.
    destruct (run_defined math_Exp rk' (cpp_bucketInterval p) (cpp_numOfBucket p) (cpp_maxErrorCodeCount p) (cpp_maxAddonCount p) e progs [] P2) as [cc0 H0].
    rewrite (run_from _ _ _ _ _ _ _ _ _ H0) in Hrun. injection Hrun as Hrun.
    destruct (binv_run _ _ _ _ _ _ _ _ _ H0 tr) as [B1 B2]. rewrite Hrun in B1, B2. cbn [shared threads] in B1, B2. rewrite P3 in B1. split; [exact B1|].
    apply (proj1 (Forall_lookup _ _) B2 k). by rewrite list_lookup_fmap, Hk.
  - pose proof (given_fits plans c _ _ _ HI Hg) as [[nm Hnm] (s & Ho)]. destruct (created_fast _ _ _ _ _ Hnm) as ([F1 F2] & F3 & _ & F4).
    destruct (fast_alone_run math_Exp maxs e0 plans sched ref a b d) as (before & e & es & progs & tr & cc & _ & _ & Hat & Hrun & _); [by exists i, j|]. fold c in Hat.
    rewrite Ho. unfold fast_at in Hat. rewrite Ho in Hat. injection Hat as <-. assert (HN : 0 <= b) by lia.
    destruct (ok_run d a b (ce_ms e) progs F1 F2 HN tr) as [B1 B2]. pose proof (size_run d a b (ce_ms e) progs F1 F2 HN tr) as B3. rewrite Hrun in B1, B2, B3. cbn [shared threads] in *. subst b d.
    split; [exact B1|]. split; [|exact B3]. apply (proj1 (Forall_lookup _ _) B2 k). by rewrite list_lookup_fmap, Hk.
Qed.

Lemma inside_exists sched k t ref : threads (run sched) !! k = Some t -> gt_in t = Some ref -> is_Some (gs_objs (shared (run sched)) !! ref).
Proof. intros H1 H2. pose proof (inside_ok sched k t ref H1 H2) as H. destruct (gs_objs _ !! ref); [by eexists|done]. Qed.

Lemma pot_start : Pot c0 = sumZ ((fun p => sumZ (act_cost nt <$> p)) <$> plans).
Proof.
  unfold Pot, sy_run, grun, ginit, crun. cbn [fold_left shared threads gs_objs]. rewrite fmap_imap.
  assert (Hgen : forall n (l : list (list saction)) f, sumZ (s_pot n ∅ <$> imap (fun i plan => GThread (SThread (f i) (RThread RegistryConc.PIdle (lookups plan) []) plan) None ∅ []) l) = sumZ ((fun p => sumZ (act_cost n <$> p)) <$> l)).
  { intros n l. induction l as [|p l IH]; intros f; [done|]. rewrite imap_cons, !fmap_cons, !sumZ_cons. f_equal; [unfold s_pot, own_pot; cbn [gt_client gt_in st_plan st_reg rt_pc reg_rank]; lia|]. apply (IH (f ∘ S)). }
  apply (Hgen nt plans id).
Qed.

Lemma own_step (s : gshared sy_shared cenv nat mobj) (t : sthread) s' t' plans' i g : gt_client g = t -> thread_ok plans' (gs_client s) i g -> sy_tstep (gs_client s) t = Some (s', t') ->
  (forall r k nm, rt_pc (st_reg t) = PCreate r k nm -> own_pot nt t' + 1 <= own_pot nt t) /\ own_pot nt t' + 1 <= own_pot nt t /\
  (forall i' j' u plan, rt_pc (st_reg t) = RegistryConc.PIdle -> st_plan t = SUse i' j' u :: plan -> own_pot nt t' + act_cost nt (SUse i' j' u) = own_pot nt t).
Proof.
  intros Hg Tk Hs. assert (Hmain : own_pot nt t' + 1 <= own_pot nt t).
  { pose proof (tk_todo _ _ _ _ Tk) as T3. rewrite Hg in T3. unfold sy_tstep in Hs. unfold own_pot. destruct (rt_pc (st_reg t)) eqn:Epc.
    - destruct (st_plan t) as [|[op|i' j' u] plan] eqn:Epl; [done|..].
      + unfold sy_reg_step in Hs. destruct (rstep _ _) as [[r' reg']|] eqn:Er; [|done]. injection Hs as <- <-. cbn [st_plan st_reg]. apply reg_drop in Er; [|by rewrite T3]. rewrite Epc in Er. cbn [reg_rank] in *. destruct (decide _); [|done]. rewrite fmap_cons, sumZ_cons. cbn [act_cost]. lia.
      + destruct (handle_at _ _ _); [|done]. injection Hs as <- <-. cbn [st_plan st_reg]. rewrite fmap_cons, sumZ_cons, Epc. pose proof (act_cost_pos nt (SUse i' j' u)). cbn [reg_rank]. lia.
    - unfold sy_reg_step in Hs. destruct (rstep _ _) as [[r' reg']|] eqn:Er; [|done]. injection Hs as <- <-. cbn [st_plan st_reg]. destruct T3 as [op T3]. apply reg_drop in Er; [|by rewrite T3]. rewrite Epc in Er. cbn [reg_rank] in *. destruct (decide _); [done|]. lia.
    - unfold sy_reg_step in Hs. destruct (rstep _ _) as [[r' reg']|] eqn:Er; [|done]. injection Hs as <- <-. cbn [st_plan st_reg]. destruct T3 as [op T3]. apply reg_drop in Er; [|by rewrite T3]. rewrite Epc in Er. cbn [reg_rank] in *. destruct (decide _); [done|]. lia.
    - unfold sy_reg_step in Hs. destruct (rstep _ _) as [[r' reg']|] eqn:Er; [|done]. injection Hs as <- <-. cbn [st_plan st_reg]. destruct T3 as [op T3]. apply reg_drop in Er; [|by rewrite T3]. rewrite Epc in Er. cbn [reg_rank] in *. destruct (decide _); [done|]. lia.
    - unfold sy_reg_step in Hs. destruct (rstep _ _) as [[r' reg']|] eqn:Er; [|done]. injection Hs as <- <-. cbn [st_plan st_reg]. destruct T3 as [op T3]. apply reg_drop in Er; [|by rewrite T3]. rewrite Epc in Er. cbn [reg_rank] in *. destruct (decide _); [done|]. lia.
    - unfold sy_reg_step in Hs. destruct (rstep _ _) as [[r' reg']|] eqn:Er; [|done]. injection Hs as <- <-. cbn [st_plan st_reg]. destruct T3 as [op T3]. apply reg_drop in Er; [|by rewrite T3]. rewrite Epc in Er. cbn [reg_rank] in *. destruct (decide _); [done|]. lia.
    - unfold sy_reg_step in Hs. destruct (rstep _ _) as [[r' reg']|] eqn:Er; [|done]. injection Hs as <- <-. cbn [st_plan st_reg]. destruct T3 as [op T3]. apply reg_drop in Er; [|by rewrite T3]. rewrite Epc in Er. cbn [reg_rank] in *. destruct (decide _); [done|]. lia.
    - unfold sy_reg_step in Hs. destruct (rstep _ _) as [[r' reg']|] eqn:Er; [|done]. injection Hs as <- <-. cbn [st_plan st_reg]. destruct T3 as [op T3]. apply reg_drop in Er; [|by rewrite T3]. rewrite Epc in Er. cbn [reg_rank] in *. destruct (decide _); [done|]. lia. }
  split; [by intros|]. split; [exact Hmain|]. intros i' j' u plan Epc Epl. unfold sy_tstep in Hs. rewrite Epc, Epl in Hs. destruct (handle_at _ _ _); [|done]. injection Hs as <- <-. unfold own_pot. cbn [st_plan st_reg]. rewrite Epc, Epl, fmap_cons, sumZ_cons. lia.
Qed.

Lemma pot_step sched i t s' t' : let c := run sched in threads c !! i = Some t -> gs (shared c) t = Some (s', t') -> Pot (Config s' (<[i := t']> (threads c))) + 1 <= Pot c.
Proof.
  intros c Hi Hs. unfold Pot. cbn [shared threads].
  assert (Hlen : length (threads c) = nt) by (apply threads_length).
  pose proof (sinv_run math_Exp maxs e0 plans sched) as HI. fold c in HI. pose proof (si_threads _ _ HI i t Hi) as Tk.
  unfold gstep in Hs. destruct (gt_in t) as [ref|] eqn:Ein.
  - destruct (min_returned _) eqn:Er.
    + injection Hs as <- <-. eapply (sum_bound _ _ _ i t _ 0 nt); [done|lia|lia|intros j v _ _; lia|]. unfold s_pot. cbn [gt_client gt_in]. rewrite Ein. pose proof (mo_nonneg nt (gs_objs (shared c) !! ref) (inside_of min_idle ref t)). lia.
    + pose proof (inside_ok sched i t ref Hi Ein) as Hok. fold c in Hok. destruct (gs_objs (shared c) !! ref) as [o|] eqn:Eo; [|done]. destruct (mobj_step _ o _) as [[o' l']|] eqn:Em; [|done]. injection Hs as <- <-. cbn [gs_objs].
      assert (Hin : forall g : gthread sthread min nat ucall, inside_of min_idle ref (GThread (gt_client g) (Some ref) (<[ref := l']> (gt_local g)) (gt_made g)) = l') by (intros g; unfold inside_of; cbn [gt_local]; by rewrite lookup_insert).
      assert (Hcases : exists delta, 0 <= delta /\ (forall l, mo_pot nt (Some o') l <= mo_pot nt (Some o) l + delta) /\ mo_pot nt (Some o') l' + 1 + delta * Z.of_nat nt <= mo_pot nt (Some o) (inside_of min_idle ref t)).
      { destruct o as [p rk st s|a b d s]; cbn [mobj_step] in Em.
        - destruct Hok as (K1 & K2 & K3). destruct (compass_step _ _ _ _ _ _) as [[s2 g2]|] eqn:Es; [|done]. injection Em as <- <-. unfold compass_step in Es.
          apply (d_step nt 11) in Es as (_ & _ & D1 & D2 & D3); [|lia|rewrite K1; vm_compute; congruence|done|done]. cbn [mo_pot mi_compass]. rewrite D1. destruct D3 as [D3|[(D3 & D4 & D5)|(D3 & D5)]]; rewrite D3.
          + exists 0. split; [lia|]. split; [intros l; pose proof (d_pot_nonneg nt 11 (unc (gs_client s)) (mi_compass l)); lia|lia].
          + exists 0. split; [lia|]. split; [intros l; rewrite D4; lia|lia].
          + exists 30. split; [lia|]. split; [intros l; apply d_pot_change|lia].
        - destruct Hok as (K1 & K2 & K3). destruct (ff_tstep _ _) as [[s2 g2]|] eqn:Es; [|done]. injection Em as <- <-.
          assert (Hc : fs_crashed s = false) by (apply (alive_step s (mi_fast (inside_of min_idle ref t))); congruence).
          apply (q_step 11 M) in Es as (_ & _ & _ & D2 & D3); [|lia|apply M_nonneg|done|by apply K3|done]. cbn [mo_pot mi_fast]. rewrite Hc. exists 0. split; [lia|]. destruct D3 as [D3|(D3 & D5)]; rewrite D3.
          + split; [intros l; pose proof (q_pot_nonneg 11 M ltac:(lia) M_nonneg (mi_fast l)); lia|lia].
          + split; [intros l; lia|lia]. }
      destruct Hcases as (delta & C1 & C2 & C3). eapply (sum_bound _ _ _ i t _ delta nt); [done|lia|lia| |].
      * intros j v _ _. unfold s_pot. destruct (gt_in v) as [ref'|]; [|lia]. destruct (decide (ref' = ref)) as [->|]; [rewrite lookup_insert, Eo; pose proof (C2 (inside_of min_idle ref v)); lia|rewrite lookup_insert_ne by done; lia].
      * unfold s_pot. cbn [gt_client gt_in]. rewrite Ein, Hin, lookup_insert, Eo. lia.
  - destruct (sy_tstep (gs_client (shared c)) (gt_client t)) as [[s1 t1]|] eqn:Et; [|done]. destruct (own_step (shared c) (gt_client t) s1 t1 plans i t eq_refl Tk Et) as (_ & O1 & O2).
    destruct (sy_effect _ _ _) as [[|ref o|ref u]|] eqn:Ee; [| | |done]; injection Hs as <- <-; cbn [gs_objs].
    + eapply (sum_bound _ _ _ i t _ 0 nt); [done|lia|lia|intros j v _ _; lia|]. unfold s_pot. cbn [gt_client gt_in]. rewrite Ein. lia.
    + pose proof (sy_proper_run math_Exp maxs e0 plans sched i t Hi Ein) as HP. fold c in HP. rewrite Ee in HP. specialize (HP ltac:(congruence)).
      eapply (sum_bound _ _ _ i t _ 0 nt); [done|lia|lia| |unfold s_pot; cbn [gt_client gt_in]; rewrite Ein; lia].
      intros j v _ Hj. unfold s_pot. destruct (gt_in v) as [ref'|] eqn:Ev; [|lia]. destruct (decide (ref' = ref)) as [->|]; [|rewrite lookup_insert_ne by done; lia].
      destruct (inside_exists sched j v ref Hj Ev) as [x Hx]. fold c in Hx. congruence.
    + assert (Hu : exists i' j' plan, rt_pc (st_reg (gt_client t)) = RegistryConc.PIdle /\ st_plan (gt_client t) = SUse i' j' u :: plan).
      { unfold sy_effect in Ee. destruct (rt_pc _) as [| | | |r k nm| | |]; try done; [|by destruct (new_metric _ _)]. destruct (st_plan _) as [|[op|i' j' u'] plan]; try done. destruct (handle_at _ _ _) as [[[[]|]|]|], u'; try done; injection Ee as <- <-; eauto. }
      destruct Hu as (i' & j' & plan & Hpc & Hpl). specialize (O2 i' j' u plan Hpc Hpl).
      eapply (sum_bound _ _ _ i t _ 0 nt); [done|lia|lia|intros j v _ _; lia|]. unfold s_pot. cbn [gt_client gt_in]. rewrite Ein. unfold inside_of at 1. cbn [gt_local]. rewrite lookup_insert. cbn [default].
      assert (Hret : min_returned (inside_of min_idle ref t) = true) by (apply (finished_outside math_Exp maxs e0 plans sched i t ref Hi); congruence).
      pose proof (push_pot nt (gs_objs (shared c) !! ref) _ u i' j' Hret). unfold id. lia.
Qed.

Lemma pot_env sched e : let c := run sched in Pot (Config (ge (shared c) e) (threads c)) <= Pot c.
Proof.
  intros c. unfold Pot. cbn [shared threads gestep gs_objs]. apply sum_le. intros t _. unfold s_pot. destruct (gt_in t) as [ref|]; [|lia]. rewrite lookup_fmap. assert (Hm : forall o l, mo_pot nt (Some (mobj_estep o e)) l = mo_pot nt (Some o) l) by (intros [p rk st s|a b d s] l; reflexivity). destruct (gs_objs (shared c) !! ref) as [o|]; cbn [fmap option_fmap option_map]; [rewrite Hm|]; lia.
Qed.
Lemma sy_bound sched : Z.of_nat (steps_made gs ge c0 sched) <= sumZ ((fun p => sumZ (act_cost nt <$> p)) <$> plans).
Proof.
  rewrite <- pot_start. apply made_bound.
  - intros s. unfold Pot. apply sum_nonneg. intros t _. apply s_pot_nonneg.
  - intros s i t s' t' c Hi Hs. exact (pot_step s i t s' t' Hi Hs).
  - intros s e. exact (pot_env s e).
Qed.

(** The environment enables and disables nothing. *)
Lemma sy_env s g e : gs s g <> None -> gs (ge s e) g <> None.
Proof.
  unfold gstep. cbn [gestep gs_client gs_objs gs_env]. destruct (gt_in g) as [ref|].
  - destruct (min_returned _); [done|]. rewrite lookup_fmap. destruct (gs_objs s !! ref) as [[p rk st b|x y z b]|]; [..|done]; cbn [fmap option_fmap option_map mobj_estep mobj_step].
    + pose proof (cr_env math_Exp rk (cpp_bucketInterval p) (cpp_numOfBucket p) (cpp_maxErrorCodeCount p) (cpp_maxAddonCount p) st b (mi_compass (inside_of min_idle ref g)) e) as Hx. unfold compass_step.
      destruct (cr_tstep _ _ _ _ _ _ _ b _) as [[]|]; [|done]. intros _. specialize (Hx ltac:(done)). by destruct (cr_tstep _ _ _ _ _ _ _ (gestep _ _ b e) _) as [[]|].
    + pose proof (ff_env b (mi_fast (inside_of min_idle ref g)) (ce_ms e)) as Hx. destruct (ff_tstep b _) as [[]|]; [|done]. intros _. specialize (Hx ltac:(done)). by destruct (ff_tstep (fc_estep b _) _) as [[]|].
  - destruct (sy_tstep _ _) as [[s1 t1]|]; [|done]. unfold sy_effect. destruct (rt_pc _) as [| | | |r k nm| | |]; try done.
    + destruct (st_plan _) as [|[op|i j u] plan]; try done. by destruct (handle_at _ i j) as [[[[]|]|]|], u.
    + intros _. destruct (new_metric_defined math_Exp k nm (rs_next (sy_reg (gs_client s))) e) as [o ->]. done.
Qed.
Lemma finished_stuck s t : finished t -> gs s t = None.
Proof. intros (A & B & C). unfold gstep. rewrite C. unfold sy_tstep. by rewrite B, A. Qed.
Global Instance finished_dec t : Decision (finished t).
Proof. unfold finished. destruct (st_plan _); [|right; by intros [??]]. destruct (rt_pc _); try (right; by intros (?&?&?)). destruct (gt_in t); [right; by intros (?&?&?)|by left]. Defined.

Lemma sy_all_return rounds : registries_exist maxs (lookups <$> plans) -> (forall i plan, plans !! i = Some plan -> well_planned plans i 0 plan) -> Forall (Forall no_map_getter) plans ->
  Forall (round nt) rounds -> sumZ ((fun p => sumZ (act_cost nt <$> p)) <$> plans) < Z.of_nat (length rounds) -> Forall finished (threads (run (mjoin rounds))).
Proof.
  intros HR HW HG Hround Hlen. rewrite run_eq.
  refine (fair_finish gs ge (fun c => Forall finished (threads c)) _ c0 (Z.to_nat (sumZ ((fun p => sumZ (act_cost nt <$> p)) <$> plans))) rounds _ _ _ _ _ _).
  - intros s. pose proof (sy_bound s). lia.
  - intros s1 s2 _. rewrite <- run_eq. destruct (decide (Forall finished (threads (run s1)))) as [Hd|Hd]; [by left|]. right.
    destruct (progress math_Exp maxs e0 plans s1 HR HW HG Hd) as (i & t & s' & t' & Hi & Ht). exists i, t. split; [exact Hi|]. congruence.
  - intros s ev Hd. rewrite crun_snoc. destruct ev as [i|e]; cbn [cstep]; [|exact Hd].
    destruct (threads (crun gs ge c0 s) !! i) as [t|] eqn:Ei; [|done]. rewrite finished_stuck; [done|]. by apply (proj1 (Forall_lookup _ _) Hd _ _ Ei).
  - intros c e i (t & Hi & Ht). exists t. split; [done|]. cbn [cstep shared]. by apply sy_env.
  - rewrite threads_length. exact Hround.
  - pose proof (sy_bound []). lia.
Qed.

(** What has aborted the process stays aborted. *)
Lemma aborted_obj o l : unaborted o = false -> mobj_step math_Exp o l = None.
Proof.
  destruct o as [p rk st b|x y z b]; cbn [unaborted mobj_step]; intros H; apply negb_false_iff in H.
  - unfold compass_step, cr_tstep. by rewrite H.
  - unfold ff_tstep. by rewrite H.
Qed.
Lemma aborted_env o e : unaborted (mobj_estep o e) = unaborted o.
Proof. by destruct o. Qed.
Lemma aborted_stays s ev : ~ nothing_aborted (run s) -> ~ nothing_aborted (run (s ++ [ev])).
Proof.
  intros Hn Ha. apply Hn. intros ref o Ho. destruct (unaborted o) eqn:Eu; [done|]. exfalso.
  assert (Hk : exists o', gs_objs (shared (run (s ++ [ev]))) !! ref = Some o' /\ unaborted o' = false).
  2:{ destruct Hk as (o' & Hk & Hu). specialize (Ha _ _ Hk). cbn in Ha. congruence. }
  clear Ha Hn. pose proof (sy_proper_run math_Exp maxs e0 plans s) as HP. assert (Hsn : run (s ++ [ev]) = cstep gs ge (run s) ev) by (rewrite (run_eq (s ++ [ev])), crun_snoc; reflexivity). rewrite Hsn. clear Hsn. set (c := run s) in *. destruct ev as [i|e]; cbn [cstep].
  - destruct (threads c !! i) as [t|] eqn:Hi; [|eauto]. destruct (gs (shared c) t) as [[s' t']|] eqn:Et; [|eauto]. cbn [shared].
    specialize (HP i t Hi). unfold gstep in Et. destruct (gt_in t) as [r|] eqn:Ein.
    + destruct (min_returned _); [injection Et as <- _; eauto|]. destruct (gs_objs (shared c) !! r) as [o1|] eqn:Er; [|done]. destruct (mobj_step _ o1 _) as [[o2 l2]|] eqn:Es; [|done]. injection Et as <- _. cbn [gs_objs].
      destruct (decide (r = ref)) as [->|Hne]; [|rewrite lookup_insert_ne by done; eauto]. rewrite Ho in Er. injection Er as <-. by rewrite aborted_obj in Es.
    + specialize (HP eq_refl). destruct (sy_tstep _ _) as [[s1 t1]|] eqn:Es; [|done]. destruct (sy_effect _ _ _) as [[|k o1|k a]|]; [..|done]; injection Et as <- _; cbn [gs_objs]; [eauto| |eauto].
      destruct (decide (k = ref)) as [->|Hne]; [|rewrite lookup_insert_ne by done; eauto]. rewrite HP in Ho; done.
  - cbn [shared gestep gs_objs]. rewrite lookup_fmap, Ho. eexists. split; [reflexivity|]. by rewrite aborted_env.
Qed.

Lemma sy_all_return_or_abort rounds : registries_exist maxs (lookups <$> plans) -> (forall i plan, plans !! i = Some plan -> well_planned plans i 0 plan) -> Forall (Forall existing_method) plans ->
  Forall (round nt) rounds -> sumZ ((fun p => sumZ (act_cost nt <$> p)) <$> plans) < Z.of_nat (length rounds) ->
  ~ nothing_aborted (run (mjoin rounds)) \/ Forall finished (threads (run (mjoin rounds))).
Proof.
  intros HR HW HG Hround Hlen. rewrite run_eq.
  refine (fair_finish gs ge (fun c => ~ nothing_aborted c \/ Forall finished (threads c)) _ c0 (Z.to_nat (sumZ ((fun p => sumZ (act_cost nt <$> p)) <$> plans))) rounds _ _ _ _ _ _).
  - intros s. pose proof (sy_bound s). lia.
  - intros s1 s2 _. rewrite <- run_eq. destruct (decide (nothing_aborted (run s1))) as [Ha|Ha]; [|by left; left]. destruct (decide (Forall finished (threads (run s1)))) as [Hd|Hd]; [by left; right|]. right.
    destruct (progress_unaborted math_Exp maxs e0 plans s1 HR HW HG) as (i & t & s' & t' & Hi & Ht); [|exact Hd|exists i, t; split; [exact Hi|]; congruence].
    intros i j m ref _ _ o Ho. exact (Ha ref o Ho).
  - intros s ev [Hd|Hd]; [left; exact (aborted_stays s ev Hd)|]. right. rewrite crun_snoc. destruct ev as [i|e]; cbn [cstep]; [|exact Hd].
    destruct (threads (crun gs ge c0 s) !! i) as [t|] eqn:Ei; [|done]. rewrite finished_stuck; [done|]. by apply (proj1 (Forall_lookup _ _) Hd _ _ Ei).
  - intros c e i (t & Hi & Ht). exists t. split; [done|]. cbn [cstep shared]. by apply sy_env.
  - rewrite threads_length. exact Hround.
  - pose proof (sy_bound []). lia.
Qed.
End run.
