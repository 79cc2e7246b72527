(** The whole library in use: what goroutines that have finished have done to a metric. *)
From Verif.Go Require Import GoInt GoFloat GoConc GoCompose.
From Verif.Model Require Import Config Registry RegistryConc BucketCounter FastCompass FastCompassConc FastCompassFine Compass CompassTypes CompassConc CompassFine CompassRead SystemConc.
From Verif.Spec Require Import BucketSpec FastCompassConcSpec FastCompassFineSpec CompassConcSpec CompassFineSpec CompassReadSpec RegistrySpec RegistryConcSpec SystemSpec.
From Verif.Proofs Require Import ComposeProofs CompassConcProofs CompassFineProofs CompassFineParts CompassFineMain RegistryProofs RegistryConcProofs RegistryLimit RegistryConcMore RegistryKinds CompassReadProofs CompassReadInv SystemProofs SystemMain.
Local Open Scope Z_scope.

Lemma progressed_all {A} (f : list ucall -> list A) sel plans c progs : length (threads c) = length plans -> progressed f sel plans c progs -> Forall finished (threads c) ->
  progs = (fun plan => f (uses sel plan)) <$> plans.
Proof.
  intros Hlen [Hl H] Hf. apply list_eq. intros k. rewrite list_lookup_fmap. destruct (progs !! k) as [prog|] eqn:Ek.
  - destruct (plans !! k) as [plan|] eqn:Ep; [|apply lookup_lt_Some in Ek; apply lookup_ge_None in Ep; lia].
    destruct (threads c !! k) as [t|] eqn:Et; [|apply lookup_lt_Some in Ep; apply lookup_ge_None in Et; lia].
    destruct (H k t plan prog Et Ep Ek) as [_ Hfin]. cbn. f_equal. apply Hfin. exact (proj1 (Forall_lookup _ _) Hf _ _ Et).
  - destruct (plans !! k) as [plan|] eqn:Ep; [|done]. apply lookup_lt_Some in Ep. apply lookup_ge_None in Ek. lia.
Qed.
Lemma uses_ext sel sel' plan : (forall i j u, SUse i j u ∈ plan -> sel i j = sel' i j) -> uses sel plan = uses sel' plan.
Proof.
  induction plan as [|a plan IH]; intros H; [done|]. unfold uses in *. cbn [omap list_omap]. rewrite IH by (intros; eapply H; by right).
  destruct a as [op|i j u]; [done|]. rewrite (H i j u) by left. done.
Qed.

Section system.
Context (math_Exp : f64 -> f64) (maxs : list Z) (e0 : cenv) (plans : list (list saction)) (sched : list (event cenv)).
Let c := sy_run math_Exp maxs e0 plans sched.

Lemma finished_outside k t ref : threads c !! k = Some t -> gt_in t <> Some ref -> min_returned (inside_of min_idle ref t) = true.
Proof. intros Hk. eapply away_run; [|exact Hk]. done. Qed.
Lemma finished_reading ref cc : Forall finished (threads c) -> reading_at c ref = Some cc -> Forall (fun t => dt_todo t = [] /\ idle_thread t = true) (threads cc).
Proof.
  intros Hf Hc. unfold reading_at in Hc. destruct (gs_objs (shared c) !! ref) as [[p rk st s|]|]; [|done..]. injection Hc as <-. cbn [threads]. apply Forall_fmap, Forall_lookup. intros k t Hk.
  assert (Hr : min_returned (inside_of min_idle ref t) = true). { eapply finished_outside; [exact Hk|]. destruct (proj1 (Forall_lookup _ _) Hf _ _ Hk) as (_ & _ & ->). done. }
  apply min_returned_parts in Hr as (H1 & H2 & _). done.
Qed.
Lemma idle_returned t : dt_todo t = [] -> idle_thread t = true -> returned_all (g_push (dt_g t) (writes (dt_todo t))).
Proof.
  intros -> H. unfold idle_thread in H. destruct (dt_read t); [done|]. apply rest_idle in H as (H1 & H2 & H3). rewrite g_push_nil. done.
Qed.
Lemma finished_compass ref cc : Forall finished (threads c) -> compass_at c ref = Some cc -> Forall returned_all (threads cc).
Proof.
  intros Hf Hc. unfold compass_at in Hc. destruct (reading_at c ref) as [rc|] eqn:Er; [|done]. injection Hc as <-. pose proof (finished_reading ref rc Hf Er) as H. cbn [without_reads threads]. apply Forall_fmap.
  eapply Forall_impl; [exact H|]. intros t [H1 H2]. by apply idle_returned.
Qed.
Lemma finished_fast ref cc : Forall finished (threads c) -> fast_at c ref = Some cc -> Forall q_done (threads cc).
Proof.
  intros Hf Hc. unfold fast_at in Hc. destruct (gs_objs (shared c) !! ref) as [[|a b d s]|]; [done| |done]. injection Hc as <-. cbn [threads]. apply Forall_fmap, Forall_lookup. intros k t Hk.
  assert (Hr : min_returned (inside_of min_idle ref t) = true). { eapply finished_outside; [exact Hk|]. destruct (proj1 (Forall_lookup _ _) Hf _ _ Hk) as (_ & _ & ->). done. }
  apply min_returned_parts in Hr as (_ & _ & H1 & H2). by split.
Qed.
(** A finished goroutine has the results of all its lookups. *)
Lemma finished_got k t : threads c !! k = Some t -> finished t -> exists plan, plans !! k = Some plan /\ (rt_got (st_reg (gt_client t))).*1 = lookups plan.
Proof.
  intros Hk (F1 & F2 & _). pose proof (sinv_run math_Exp maxs e0 plans sched) as HI. fold c in HI. destruct (si_threads _ _ HI k t Hk) as [_ _ T3 (before & T4 & _)].
  rewrite F2, F1 in T3. cbn in T3. exists (before ++ st_plan (gt_client t)). split; [done|]. destruct (registries_run math_Exp maxs e0 plans sched) as [sched' Hr]. fold c in Hr.
  pose proof (todo_run maxs (lookups <$> plans) sched' k (st_reg (gt_client t))) as Ht. rewrite <- Hr in Ht. unfold registries in Ht. cbn [threads] in Ht. rewrite !list_lookup_fmap, Hk, T4 in Ht.
  specialize (Ht eq_refl). injection Ht as Ht. rewrite T3, app_nil_r in Ht. done.
Qed.
Lemma given_got i j m : given c i j = Some m <-> exists t op, threads c !! i = Some t /\ rt_got (st_reg (gt_client t)) !! j = Some (op, Some (Ok m)).
Proof.
  unfold given, registries. cbn [threads]. rewrite list_lookup_fmap. destruct (threads c !! i) as [t|]; cbn.
  - destruct (rt_got _ !! j) as [[op [[m'|]|]]|] eqn:Ej; split; try done; try (intros (t' & op' & [= <-] & Hj); rewrite Ej in Hj; try discriminate Hj; injection Hj as _ ->; done).
    intros [= ->]. exists t, op. by rewrite Ej.
  - split; [done|]. by intros (t' & op' & ? & _).
Qed.

(** Everyone who asked for a metric has it, nobody else. *)
Lemma same_metric pl h k : room_for maxs plans pl -> all_ask plans pl h k -> Forall finished (threads c) ->
  exists r m, behind pl (shared (registries c)) r /\ listed (registries c) r h m /\ RegistrySpec.records m = true /\ implements k m = true /\
    forall i j, given c i j = Some m <-> asked_at plans pl h i j = true.
Proof.
  intros (HR & HE & max & Hmax & Hsize) [(i0 & j0 & H0) HA] Hf.
  destruct (registries_run math_Exp maxs e0 plans sched) as [sched' Hr]. fold c in Hr.
  assert (Hask : forall i j, asked_at plans pl h i j = true -> exists t nm x, threads c !! i = Some t /\ nm_hash nm = h /\ rt_got (st_reg (gt_client t)) !! j = Some (lookup_at pl k nm, x)).
  { intros i j H. unfold asked_at in H. destruct (plans !! i) as [plan|] eqn:Ep; [|done]. destruct (lookups plan !! j) as [op|] eqn:Ej; [|done]. apply bool_decide_eq_true in H.
    destruct (HA op) as [nm Hop]; [|done|].
    { apply elem_of_list_join. exists (lookups plan). split; [by eapply elem_of_list_lookup_2|]. apply elem_of_list_fmap. eexists. split; [done|by eapply elem_of_list_lookup_2]. }
    destruct (threads c !! i) as [t|] eqn:Et; [|apply lookup_lt_Some in Ep; apply lookup_ge_None in Et; unfold c in Et; rewrite threads_length in Et; lia].
    destruct (finished_got i t Et) as (plan' & Ep' & Hg); [exact (proj1 (Forall_lookup _ _) Hf _ _ Et)|]. rewrite Ep in Ep'. injection Ep' as <-.
    rewrite <- Hg, list_lookup_fmap in Ej. destruct (rt_got _ !! j) as [[op' x]|] eqn:Eg; [|done]. injection Ej as ->. exists t, nm, x. split; [done|]. split; [|by rewrite Eg, Hop].
    rewrite Hop in H. destruct pl; cbn in H; by injection H. }
  assert (Hget : forall i j, asked_at plans pl h i j = true -> exists r e, behind pl (shared (registries c)) r /\ entry_at (shared (registries c)) r h = Some e /\
    given c i j = Some (e_metric e) /\ RegistrySpec.records (e_metric e) = true /\ implements k (e_metric e) = true).
  { intros i j H. destruct (Hask i j H) as (t & nm & x & Ht & <- & Hg).
    destruct (below_limit maxs (lookups <$> plans) pl max HR Hmax (proj1 Hsize) (proj2 Hsize) sched' k nm x HE) as (r & e & H1 & H2 & H3 & H4 & H5).
    - intros k' nm' Hin Hh. destruct (HA _ Hin) as [nm'' Hop]; [destruct pl; cbn; by rewrite Hh|]. destruct pl; by injection Hop.
    - rewrite <- Hr. exists i, (st_reg (gt_client t)). split; [unfold registries; cbn; by rewrite list_lookup_fmap, Ht|]. by eapply elem_of_list_lookup_2.
    - rewrite <- Hr in H1, H2. exists r, e. split; [done|]. split; [done|]. split; [|done]. apply given_got. exists t, (lookup_at pl k nm). split; [done|]. by rewrite Hg, H3. }
  destruct (Hget _ _ H0) as (r & e & Hb & He & _ & Hrec & Himp). exists r, (e_metric e). split; [done|]. split.
  { unfold entry_at in He. destruct (rs_regs (shared (registries c)) !! r) as [reg|] eqn:Er; [|done]. cbn in He. exists reg, e. done. }
  split; [done|]. split; [done|]. intros i j. split.
  - intros Hg. apply given_got in Hg as (t & op & Ht & Hg). pose proof (cinv_run maxs (lookups <$> plans) sched' False) as [HC _]; [done|]. rewrite <- Hr in HC.
    pose proof (refs_run maxs (lookups <$> plans) sched') as [_ HU]. rewrite <- Hr in HU. pose proof (groups_run maxs (lookups <$> plans) sched') as (G1 & G2 & _ & _). rewrite <- Hr in G1, G2.
    destruct (HC i (st_reg (gt_client t))) as (_ & HF & _); [unfold registries; cbn; by rewrite list_lookup_fmap, Ht|]. rewrite Forall_forall in HF.
    specialize (HF _ (elem_of_list_lookup_2 _ _ _ Hg)).
    assert (Hfound : forall r' k' nm, found (shared (registries c)) r' k' nm (Some (Ok (e_metric e))) -> r' = r /\ nm_hash nm = h).
    { intros r' k' nm (e' & He' & Hx). unfold assert_kind in Hx. destruct (implements k' _); [|done]. injection Hx as Hx.
      assert (Hm : exists ref, mref (e_metric e) = Some ref) by (destruct (e_metric e); [by eexists..|done|done]). destruct Hm as [ref Hm].
      assert (Ho : OEntry r' (nm_hash nm) = OEntry r h); [|by injection Ho].
      apply (HU _ _ ref); [exists e'; by rewrite <- Hx|by exists e]. }
    destruct (finished_got i t Ht) as (plan & Ep & Hgot); [exact (proj1 (Forall_lookup _ _) Hf _ _ Ht)|].
    assert (Ej : lookups plan !! j = Some op) by (by rewrite <- Hgot, list_lookup_fmap, Hg).
    unfold asked_at. rewrite Ep, Ej. apply bool_decide_eq_true.
    destruct op as [r' k' nm|g' k' nm|b]; cbn [got_ok] in HF; cbn [place].
    + destruct (Hfound _ _ _ HF) as [-> ->]. destruct pl as [r'|g]; cbn in Hb; [by subst|]. exfalso.
      pose proof (proj1 (Forall_lookup _ _) HR i (lookups plan)) as HRi. rewrite list_lookup_fmap, Ep in HRi. specialize (HRi eq_refl). pose proof (proj1 (Forall_lookup _ _) HRi _ _ Ej) as HRj. cbn in HRj.
      apply G1 in Hb. lia.
    + destruct HF as [[_ Hx]|(r' & Hg' & HF)]; [injection Hx as Hx; rewrite Hx in Hrec; by destruct k'|]. destruct (Hfound _ _ _ HF) as [-> ->]. destruct pl as [r'|g]; cbn in Hb.
      * subst r'. exfalso. apply G1 in Hg'. cbn in Hmax. apply lookup_lt_Some in Hmax. lia.
      * by rewrite (G2 _ _ _ Hg' Hb).
    + done.
  - intros H. destruct (Hget i j H) as (r' & e' & Hb' & He' & Hg & _). assert (r' = r) as -> by (destruct pl; cbn in *; congruence). congruence.
Qed.
Lemma is_given_asked pl h m : (forall i j, given c i j = Some m <-> asked_at plans pl h i j = true) -> forall plan, uses (is_given c m) plan = uses (asked_at plans pl h) plan.
Proof.
  intros H plan. apply uses_ext. intros i j u _. unfold is_given. destruct (asked_at plans pl h i j) eqn:E; [apply bool_decide_eq_true|apply bool_decide_eq_false]; rewrite H; congruence.
Qed.
End system.
