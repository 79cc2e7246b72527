(** The registries behind the groups of a manager are pairwise different, differ
    from the directly used ones, and have limit 5000. *)
From Verif.Go Require Import GoInt GoConc.
From Verif.Model Require Import Config Registry RegistryConc.
From Verif.Spec Require Import NameSpec RegistrySpec RegistryConcSpec.
From Verif.Proofs Require Import RegistryProofs RegistryConcProofs RegistryLimit.
Local Open Scope Z_scope.

Definition groups_ok (maxs : list Z) (s : rshared) : Prop :=
  (forall g r, rs_groups s !! g = Some r -> (length maxs <= r < length (rs_regs s))%nat) /\
  (forall g g' r, rs_groups s !! g = Some r -> rs_groups s !! g' = Some r -> g = g') /\
  (forall r reg, rs_regs s !! r = Some reg -> r_maxMetricCount reg = default 5000 (maxs !! r)) /\
  (length maxs <= length (rs_regs s))%nat.

Lemma groups_ok_regs maxs s s' :
  rs_groups s' = rs_groups s -> (fun x => r_maxMetricCount x) <$> rs_regs s' = (fun x => r_maxMetricCount x) <$> rs_regs s ->
  groups_ok maxs s -> groups_ok maxs s'.
Proof.
  intros Hg Hr (H1 & H2 & H3 & H4).
  assert (length (rs_regs s') = length (rs_regs s)) as Hl.
  { apply (f_equal length) in Hr. by rewrite !fmap_length in Hr. }
  unfold groups_ok. rewrite Hg, Hl. split_and!; [done|done| |done].
  intros r reg Hreg. apply (f_equal (fun l => l !! r)) in Hr. rewrite !list_lookup_fmap, Hreg in Hr. cbn in Hr.
  destruct (rs_regs s !! r) as [x|] eqn:E; [|done]. injection Hr as ->. by apply H3.
Qed.

Lemma groups_step maxs s t s' t' : rstep s t = Some (s', t') -> groups_ok maxs s -> groups_ok maxs s'.
Proof.
  intros H G. unfold rstep in H.
  destruct (rt_pc t) as [|g k nm|g k nm|r k nm|r k nm|r k nm m|r k nm m|r k nm m].
  - destruct (rt_todo t) as [|[r k nm|g k nm|b] todo]; [done|..]; injection H as <- <-; exact G.
  - destruct (rs_groups s !! g); injection H as <- <-; exact G.
  - destruct (rs_groups s !! g) eqn:E; injection H as <- <-; [exact G|].
    destruct G as (H1 & H2 & H3 & H4). unfold groups_ok. cbn [rs_groups rs_regs]. rewrite app_length. cbn [length].
    split_and!.
    + intros g' r. destruct (decide (g' = g)) as [->|N].
      * rewrite lookup_insert. intros [= <-]. lia.
      * rewrite lookup_insert_ne by done. intros Hr. apply H1 in Hr. lia.
    + intros g1 g2 r. destruct (decide (g1 = g)) as [->|N1], (decide (g2 = g)) as [->|N2];
        rewrite ?lookup_insert, ?lookup_insert_ne by done; [done| | |eauto].
      * intros [= <-] Hr. apply H1 in Hr. lia.
      * intros Hr [= <-]. apply H1 in Hr. lia.
    + intros r reg Hr. apply lookup_app_Some in Hr as [Hr|[Hge Hr]]; [by apply H3|].
      apply list_lookup_singleton_Some in Hr as [Hr <-]. cbn [NewMetricRegistry r_maxMetricCount].
      rewrite lookup_ge_None_2 by lia. done.
    + lia.
  - destruct (rs_regs s !! r); [|done]. cbn in H. destruct (r_metricsMap _ !! _); injection H as <- <-; exact G.
  - injection H as <- <-; exact G.
  - destruct (rs_regs s !! r); [|done]. injection H as <- <-; exact G.
  - destruct (rs_regs s !! r) as [reg|] eqn:Er; [|done]. cbn [mbind option_bind] in H.
    destruct (r_metricsMap _ !! _); injection H as <- <-; [exact G|].
    revert G. apply groups_ok_regs; [done|]. cbn [rs_regs]. rewrite list_fmap_insert. cbn [r_maxMetricCount].
    apply list_insert_id. rewrite list_lookup_fmap, Er. done.
  - destruct (rs_regs s !! r) as [reg|] eqn:Er; [|done]. cbn [mbind option_bind] in H. injection H as <- <-.
    revert G. apply groups_ok_regs; [done|]. cbn [rs_regs]. rewrite list_fmap_insert. cbn [r_maxMetricCount].
    apply list_insert_id. rewrite list_lookup_fmap, Er. done.
Qed.

Lemma groups_run maxs progs sched : groups_ok maxs (shared (r_crun maxs progs sched)).
Proof.
  unfold r_crun. apply (crun_inv rstep (fun s _ => s) (fun c => groups_ok maxs (shared c))).
  - unfold groups_ok. cbn [r_init shared rs_groups rs_regs]. rewrite fmap_length. split_and!.
    + intros g r. by rewrite lookup_empty.
    + intros g g' r. by rewrite lookup_empty.
    + intros r reg Hr. rewrite list_lookup_fmap in Hr. destruct (maxs !! r); [|done]. by injection Hr as <-.
    + done.
  - intros s ts i t s' t' G _ Hs. cbn [shared] in *. by eapply groups_step.
  - intros s ts [].
Qed.

(** No step ever waits for another goroutine. *)
Lemma rstep_progress maxs progs sched i t :
  Forall (Forall (fun o => match o with RLookup r _ _ => (r < length maxs)%nat | _ => True end)) progs ->
  let c := r_crun maxs progs sched in
  threads c !! i = Some t -> rt_todo t <> [] -> exists x, rstep (shared c) t = Some x.
Proof.
  intros HF. cbv zeta.
  assert (forall sched, let c := r_crun maxs progs sched in
     forall i t, threads c !! i = Some t ->
     Forall (fun o => match o with RLookup r _ _ => (r < length maxs)%nat | _ => True end) (rt_todo t)) as HT.
  { clear -HF. intros sched. unfold r_crun. cbv zeta.
    apply (crun_inv rstep (fun s _ => s) (fun c => forall i t, threads c !! i = Some t ->
       Forall (fun o => match o with RLookup r _ _ => (r < length maxs)%nat | _ => True end) (rt_todo t))).
    - intros i t Hi. cbn in Hi. rewrite list_lookup_fmap in Hi. destruct (progs !! i) eqn:E; [|done].
      injection Hi as <-. cbn. rewrite Forall_lookup in HF. by apply (HF i).
    - intros s ts i t s' t' I Hi Hs j u Hj. cbn [threads] in *. destruct (decide (j = i)) as [->|N].
      + rewrite list_lookup_insert in Hj by (by apply lookup_lt_Some in Hi). injection Hj as <-.
        assert (rt_todo t' = rt_todo t \/ exists o, rt_todo t = o :: rt_todo t') as Ht.
        { assert (forall x, rt_todo (r_return t x) = rt_todo t \/ exists o, rt_todo t = o :: rt_todo (r_return t x)) as Hr.
          { intros x. unfold r_return. destruct (rt_todo t) eqn:E; [by left; rewrite E|right; eexists; done]. }
          clear -Hs Hr. unfold rstep in Hs.
          destruct (rt_pc t) as [|g k nm|g k nm|r k nm|r k nm|r k nm m|r k nm m|r k nm m].
          - destruct (rt_todo t) as [|[r k nm|g k nm|b] todo] eqn:Et; [done|..]; injection Hs as <- <-.
            + left. done.
            + destruct (rs_enable s); [by left|apply Hr].
            + apply Hr.
          - destruct (rs_groups s !! g); injection Hs as <- <-; by left.
          - destruct (rs_groups s !! g); injection Hs as <- <-; by left.
          - destruct (rs_regs s !! r); [|done]. cbn in Hs. destruct (r_metricsMap _ !! _); injection Hs as <- <-; [apply Hr|by left].
          - injection Hs as <- <-; by left.
          - destruct (rs_regs s !! r); [|done]. injection Hs as <- <-; by left.
          - destruct (rs_regs s !! r); [|done]. cbn in Hs. destruct (r_metricsMap _ !! _); injection Hs as <- <-; [apply Hr|by left].
          - destruct (rs_regs s !! r); [|done]. injection Hs as <- <-. apply Hr. }
        specialize (I i t Hi). destruct Ht as [->|(o & Ho)]; [done|]. rewrite Ho in I. by apply Forall_cons in I as [_ I].
      + rewrite list_lookup_insert_ne in Hj by done. eauto.
    - intros s ts []. }
  intros Hi Hne. specialize (HT sched i t Hi). pose proof (groups_run maxs progs sched) as (G1 & _ & _ & G4).
  pose proof (cinv_run maxs progs sched False) as [C _]; [done|]. specialize (C i t Hi) as (P & _). unfold pc_ok in P.
  assert (forall r k nm, on_reg (shared (r_crun maxs progs sched)) (rt_todo t) r k nm ->
    exists reg, rs_regs (shared (r_crun maxs progs sched)) !! r = Some reg) as Hreg.
  { intros r k nm (rest & [E|(g & Hg & E)]); apply lookup_lt_is_Some_2.
    - rewrite E in HT. apply Forall_cons in HT as [HT _]. lia.
    - apply G1 in Hg. lia. }
  unfold rstep. destruct (rt_pc t) as [|g k nm|g k nm|r k nm|r k nm|r k nm m|r k nm m|r k nm m].
  - destruct (rt_todo t) as [|[r k nm|g k nm|b] todo]; [done|..]; eauto.
  - destruct (_ !! g); eauto.
  - destruct (_ !! g); eauto.
  - destruct (Hreg _ _ _ P) as [reg ->]. cbn [mbind option_bind]. destruct (_ !! nm_hash nm); eauto.
  - eauto.
  - destruct (Hreg _ _ _ P) as [reg ->]. cbn [mbind option_bind]. eauto.
  - destruct (Hreg _ _ _ P) as [reg ->]. cbn [mbind option_bind]. destruct (_ !! nm_hash nm); eauto.
  - destruct P as [P _]. destruct (Hreg _ _ _ P) as [reg ->]. cbn [mbind option_bind]. eauto.
Qed.

(** A completed call comes from a program. *)
Lemma completed_prog maxs progs sched op x :
  RegistryConcSpec.completed (r_crun maxs progs sched) op x -> exists p, p ∈ progs /\ op ∈ p.
Proof.
  assert (forall i t, threads (r_crun maxs progs sched) !! i = Some t ->
    exists p, progs !! i = Some p /\ (rt_got t).*1 ++ rt_todo t = p) as H.
  { unfold r_crun. apply (crun_inv rstep (fun s _ => s) (fun c => forall i t, threads c !! i = Some t ->
       exists p, progs !! i = Some p /\ (rt_got t).*1 ++ rt_todo t = p)).
    - intros i t Hi. cbn in Hi. rewrite list_lookup_fmap in Hi. destruct (progs !! i) eqn:E; [|done].
      injection Hi as <-. eexists. split; [done|]. done.
    - intros s ts i t s' t' I Hi Hs j u Hj. cbn [threads] in *. destruct (decide (j = i)) as [->|N].
      + rewrite list_lookup_insert in Hj by (by apply lookup_lt_Some in Hi). injection Hj as <-.
        destruct (I i t Hi) as (p & Hp & Hq). exists p. split; [done|]. rewrite <- Hq.
        assert (forall x, (rt_got (r_return t x)).*1 ++ rt_todo (r_return t x) = (rt_got t).*1 ++ rt_todo t) as Hr.
        { intros y. unfold r_return. destruct (rt_todo t) eqn:E; cbn [rt_got rt_todo]; [by rewrite E|].
          rewrite fmap_app. cbn. by rewrite <- app_assoc. }
        clear -Hs Hr. unfold rstep in Hs.
        destruct (rt_pc t) as [|g k nm|g k nm|r k nm|r k nm|r k nm m|r k nm m|r k nm m].
        * destruct (rt_todo t) as [|[r k nm|g k nm|b] todo] eqn:Et; [done|..]; injection Hs as <- <-.
          -- cbn [r_goto rt_got rt_todo]. by rewrite Et.
          -- destruct (rs_enable s); [cbn [r_goto rt_got rt_todo]; by rewrite Et|by rewrite Hr].
          -- by rewrite Hr.
        * destruct (rs_groups s !! g); by injection Hs as <- <-.
        * destruct (rs_groups s !! g); by injection Hs as <- <-.
        * destruct (rs_regs s !! r); [|done]. cbn [mbind option_bind] in Hs.
          destruct (r_metricsMap _ !! _); injection Hs as <- <-; [by rewrite Hr|done].
        * by injection Hs as <- <-.
        * destruct (rs_regs s !! r); [|done]. by injection Hs as <- <-.
        * destruct (rs_regs s !! r); [|done]. cbn [mbind option_bind] in Hs.
          destruct (r_metricsMap _ !! _); injection Hs as <- <-; [by rewrite Hr|done].
        * destruct (rs_regs s !! r); [|done]. injection Hs as <- <-. by rewrite Hr.
      + rewrite list_lookup_insert_ne in Hj by done. eauto.
    - intros s ts []. }
  intros (i & t & Hi & Hin). destruct (H i t Hi) as (p & Hp & Hq). exists p. split; [by eapply elem_of_list_lookup_2|].
  rewrite <- Hq. apply elem_of_app. left. apply elem_of_list_fmap. by exists (op, x).
Qed.
