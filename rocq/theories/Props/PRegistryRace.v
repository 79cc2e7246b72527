(** Data races on registries and the manager (C108). *)
From Verif.Go Require Import GoInt GoConc.
From Verif.Model Require Import Config Registry RegistryConc.
From Verif.Spec Require Import RaceSpec RegistryRaceSpec.
From Verif.Proofs Require Import RaceLemmas.
Local Open Scope Z_scope.

Local Notation agree g1 g2 := (r_metricsMap g1 = r_metricsMap g2 /\ r_maxMetricCount g1 = r_maxMetricCount g2).

(** The table of accesses is complete. *)
Theorem C108_table : lists_writes r_next rstep r_same /\ lists_reads r_next rstep r_same r_rest.
Proof.
  split.
  - intros s [pc todo got] s' t' l Hs Hl. unfold rstep, r_next in *. cbn in Hs, Hl.
    assert (Hrefl : r_same l s s). { destruct l; [|done]. intros g1 g2 H1 H2. cbn in *. congruence. }
    destruct pc as [|g k name|g k name|r k name|r k name|r k name m|r k name m|r k name m].
    + destruct todo as [|[]]; [done|..]; cbn in Hs.
      * by injection Hs as <- <-.
      * by destruct (rs_enable s); injection Hs as <- <-.
      * specialize (Hl _ (elem_of_list_here _ _)). injection Hs as <- <-. destruct l; [exact Hrefl|]. by specialize (Hl eq_refl).
    + by destruct (rs_groups s !! g); injection Hs as <- <-.
    + destruct (rs_groups s !! g); injection Hs as <- <-; [done|]. destruct l as [r|]; [|done]. intros g1 g2 H1 H2. cbn in *.
      rewrite (lookup_app_l_Some _ _ _ _ H1) in H2. congruence.
    + destruct (rs_regs s !! r) as [g|]; [|done]. cbn in Hs. by destruct (r_metricsMap g !! _); injection Hs as <- <-.
    + by injection Hs as <- <-.
    + destruct (rs_regs s !! r) as [g|]; [|done]. cbn in Hs. by injection Hs as <- <-.
    + destruct (rs_regs s !! r) as [g|] eqn:Hr; [|done]. cbn in Hs. destruct (r_metricsMap g !! _); injection Hs as <- <-; [done|].
      destruct l as [r'|]; [|done]. intros g1 g2 H1 H2. cbn in *.
      apply list_lookup_insert_Some in H2 as [(-> & <- & _)|[_ H2]]; [|congruence]. cbn. congruence.
    + destruct (rs_regs s !! r) as [g|] eqn:Hr; [|done]. cbn in Hs. injection Hs as <- <-.
      specialize (Hl _ (elem_of_list_here _ _)). destruct l as [r'|]; [|done]. intros g1 g2 H1 H2. cbn in *.
      apply list_lookup_insert_Some in H2 as [(-> & <- & _)|[_ H2]]; [|congruence]. by specialize (Hl eq_refl).
  - intros s1 s2 [pc todo got] (R1 & R2 & R3) Hs.
    assert (Hreg : forall r, match rs_regs s1 !! r, rs_regs s2 !! r with Some g1, Some g2 => agree g1 g2 | None, None => True | _, _ => False end).
    { intros r. destruct (rs_regs s1 !! r) as [g1|] eqn:E1.
      - destruct (Forall2_lookup_l _ _ _ _ _ R3 E1) as (g2 & -> & H). done.
      - destruct (rs_regs s2 !! r) as [g2|] eqn:E2; [|done]. destruct (Forall2_lookup_r _ _ _ _ _ R3 E2) as (g1 & H & _). congruence. }
    assert (HR : r_rest s1 s2) by done.
    assert (Hput : forall r g1 g2 e e', rs_regs s1 !! r = Some g1 -> agree g1 g2 ->
      r_rest (RShared (<[r := g1]> (rs_regs s1)) (rs_groups s1) e (rs_next s1)) (RShared (<[r := g2]> (rs_regs s2)) (rs_groups s2) e' (rs_next s2))).
    { intros r g1 g2 e e' _ Ha. split_and!; [done|done|]. cbn. by apply Forall2_insert. }
    assert (Hput' : forall r g1 g2 e e', agree g1 g2 ->
      r_rest (RShared (<[r := g1]> (rs_regs s1)) (rs_groups s1) e (rs_next s1)) (RShared (<[r := g2]> (rs_regs s2)) (rs_groups s2) e' (rs_next s2))).
    { intros r g1 g2 e e' Ha. split_and!; [done|done|]. cbn. by apply Forall2_insert. }
    clear Hput. unfold rstep, r_next in *. cbn in *.
    assert (Hnil : forall s1 s2 x, x ∈ [] -> r_same (ac_loc x) s1 s2) by (intros ??? []%elem_of_nil).
    destruct pc as [|g k name|g k name|r k name|r k name|r k name m|r k name m|r k name m]; cbn in *.
    + destruct todo as [|[r k name|g k name|b] todo]; [done|..]; cbn in *.
      * split_and!; [done|done..|apply Hnil].
      * pose proof (Hs _ (elem_of_list_here _ _)) as H1. cbn in H1. rewrite <- H1. split_and!; [done|done..|exact Hs].
      * split_and!; [done..|]. intros a ->%elem_of_list_singleton. done.
    + rewrite <- R1. destruct (rs_groups s1 !! g); cbn; split_and!; first [done|apply Hnil].
    + rewrite <- R1. destruct (rs_groups s1 !! g); cbn; [split_and!; first [done|apply Hnil]|].
      rewrite <- (Forall2_length _ _ _ R3). split; [done|]. split; [|apply Hnil]. split_and!; cbn; [done|done|].
      apply Forall2_app; [done|]. by repeat constructor.
    + specialize (Hreg r). destruct (rs_regs s1 !! r) as [g1|], (rs_regs s2 !! r) as [g2|]; cbn; try done.
      destruct Hreg as [<- _]. destruct (r_metricsMap g1 !! nm_hash name); cbn; split_and!; first [done|apply Hnil].
    + rewrite <- R2. split; [done|]. split; [|apply Hnil]. split_and!; cbn; done.
    + pose proof (Hs _ (elem_of_list_here _ _)) as H1. cbn in H1.
      specialize (Hreg r). destruct (rs_regs s1 !! r) as [g1|], (rs_regs s2 !! r) as [g2|]; cbn; try done.
      destruct Hreg as [_ <-]. rewrite <- (H1 _ _ eq_refl eq_refl). split_and!; try done. 
    + pose proof (Hreg r) as Hr. destruct (rs_regs s1 !! r) as [g1|] eqn:E1, (rs_regs s2 !! r) as [g2|] eqn:E2; cbn; try done.
      destruct Hr as [Em Ex]. rewrite <- Em. destruct (r_metricsMap g1 !! nm_hash name); cbn; [split_and!; first [done|apply Hnil]|].
      split; [done|]. split; [|apply Hnil]. apply Hput'. cbn. by rewrite Ex.
    + pose proof (Hs _ (elem_of_list_here _ _)) as H1. cbn in H1. pose proof (Hreg r) as Hr.
      destruct (rs_regs s1 !! r) as [g1|] eqn:E1, (rs_regs s2 !! r) as [g2|] eqn:E2; cbn; try done.
      destruct Hr as [Em Ex]. split; [done|]. split; [by apply Hput'|]. intros a ->%elem_of_list_singleton. cbn.
      rewrite !list_lookup_insert by (by eapply lookup_lt_Some). intros x y [= <-] [= <-]. cbn. by rewrite (H1 _ _ eq_refl eq_refl).
Qed.
Print Assumptions C108_table.

Definition r_is_from (p : list rop) (t : rthread) : Prop := forall op, op ∈ rt_todo t -> op ∈ p.

Lemma r_from_run s0 progs sched i t :
  threads (r_from s0 progs sched) !! i = Some t -> exists p, progs !! i = Some p /\ r_is_from p t.
Proof.
  apply (program_inv rstep (fun s (_ : Empty_set) => s) r_is_from (fun p => RThread PIdle p [])).
  - intros p. by unfold r_is_from.
  - clear. intros p s t s' t' Ht Hs op Hop. apply Ht. clear Ht.
    assert (Hret : forall x, op ∈ rt_todo (r_return t x) -> op ∈ rt_todo t).
    { intros x. unfold r_return. destruct (rt_todo t) eqn:E; cbn; [by rewrite E|]. by right. }
    assert (Hgo : forall pc, op ∈ rt_todo (r_goto t pc) -> op ∈ rt_todo t) by done.
    unfold rstep in Hs. destruct (rt_pc t) as [|g k name|g k name|r k name|r k name|r k name m|r k name m|r k name m].
    + destruct (rt_todo t) as [|[] todo] eqn:E; [done|..]; try (destruct (rs_enable s)); injection Hs as <- <-; eauto.
    + destruct (rs_groups s !! g); injection Hs as <- <-; eauto.
    + destruct (rs_groups s !! g); injection Hs as <- <-; eauto.
    + destruct (rs_regs s !! r) as [g|]; [|done]. cbn in Hs. destruct (r_metricsMap g !! _); injection Hs as <- <-; eauto.
    + injection Hs as <- <-; eauto.
    + destruct (rs_regs s !! r) as [g|]; [|done]. cbn in Hs. injection Hs as <- <-; eauto.
    + destruct (rs_regs s !! r) as [g|]; [|done]. cbn in Hs. destruct (r_metricsMap g !! _); injection Hs as <- <-; eauto.
    + destruct (rs_regs s !! r) as [g|]; [|done]. cbn in Hs. injection Hs as <- <-; eauto.
Qed.

(** C108 (what is missing: metricsCount, see [C108_refuted]): the enable switch is raced on
    only if some goroutine calls SetEnable while another uses the manager. *)
Theorem C108_enable_partial s0 progs sched :
  data_race_on r_next VEnable (r_from s0 progs sched) ->
  exists i j, i <> j /\ op_in progs i sets_enable /\ op_in progs j uses_manager.
Proof.
  intros (i & j & ti & tj & a & b & Hne & Hi & Hj & Ha & Hb & La & Lb & Hw & _)%race_sym. exists i, j. split; [done|].
  destruct (r_from_run _ _ _ _ _ Hi) as (p & Hp & Hip). destruct (r_from_run _ _ _ _ _ Hj) as (q & Hq & Hjq).
  unfold r_next in Ha, Hb. split.
  - destruct (rt_pc ti); try (by apply elem_of_nil in Ha); [|apply elem_of_list_singleton in Ha as ->; done..].
    destruct (rt_todo ti) as [|[] todo] eqn:E; try (by apply elem_of_nil in Ha); apply elem_of_list_singleton in Ha as ->; [done|].
    eexists _, _. split; [exact Hp|]. split; [apply Hip; rewrite E; left|done].
  - destruct (rt_pc tj); try (by apply elem_of_nil in Hb); [|apply elem_of_list_singleton in Hb as ->; done..].
    destruct (rt_todo tj) as [|[] todo] eqn:E; try (by apply elem_of_nil in Hb); apply elem_of_list_singleton in Hb as ->.
    all: eexists _, _; (split; [exact Hq|]); (split; [apply Hjq; rewrite E; left|done]).
Qed.
Print Assumptions C108_enable_partial.

(** Nobody registers anything. *)
Definition r_warm (s : rshared) (t : rthread) : Prop :=
  Forall (known s) (rt_todo t) /\
  match rt_pc t with
  | PIdle => True
  | PGroup g k name => known s (GLookup g k name)
  | PLoad r k name => known s (RLookup r k name)
  | _ => False
  end.

Lemma known_run s0 progs sched :
  Forall (Forall (known s0)) progs ->
  let c := r_from s0 progs sched in
  rs_regs (shared c) = rs_regs s0 /\ rs_groups (shared c) = rs_groups s0 /\ forall i t, threads c !! i = Some t -> r_warm s0 t.
Proof.
  intros Hk. cbv zeta. unfold r_from.
  apply (crun_inv rstep (fun s (_ : Empty_set) => s)
    (fun c => rs_regs (shared c) = rs_regs s0 /\ rs_groups (shared c) = rs_groups s0 /\ forall i t, threads c !! i = Some t -> r_warm s0 t)).
  - split_and!; [done..|]. cbn. intros i t Hi. rewrite list_lookup_fmap in Hi. destruct (progs !! i) as [p|] eqn:E; [|done].
    cbn in Hi. injection Hi as <-. split; [|done]. cbn. rewrite Forall_lookup in Hk. by eapply Hk.
  - cbn. intros s ts i t s' t' (I1 & I2 & I3) Hi Hs. destruct (I3 _ _ Hi) as [W1 W2].
    assert (Hret : forall x, r_warm s0 (r_return t x)).
    { intros x. unfold r_return. destruct (rt_todo t) as [|op todo] eqn:E; [by split; [rewrite E|]|].
      split; [|done]. cbn. by apply Forall_cons in W1 as [_ W1]. }
    assert (HG : rs_regs s' = rs_regs s0 /\ rs_groups s' = rs_groups s0 /\ r_warm s0 t').
    2:{ destruct HG as (G1 & G2 & G3). split_and!; [done..|]. intros j u Hj.
        apply list_lookup_insert_Some in Hj as [(-> & <- & _)|[_ Hj]]; [done|by eapply I3]. }
    unfold rstep in Hs. destruct (rt_pc t) as [|g k name|g k name|r k name|r k name|r k name m|r k name m|r k name m]; try done.
    + destruct (rt_todo t) as [|op todo] eqn:E; [done|]. apply Forall_cons in W1 as [K1 K2].
      destruct op as [r k name|g k name|b].
      * injection Hs as <- <-. split; [done|]. split; [done|]. split; cbn; [rewrite E; by constructor|done].
      * destruct (rs_enable s); injection Hs as <- <-; (split; [done|]); (split; [done|]); [|apply Hret].
        split; cbn; [rewrite E; by constructor|done].
      * injection Hs as <- <-. split; [done|]. split; [done|apply Hret].
    + rewrite I2 in Hs. destruct W2 as (r & g' & Hr & Hg & Hm). rewrite Hr in Hs. injection Hs as <- <-. split; [done|]. split; [done|]. split; [done|].
      cbn. by exists g'.
    + rewrite I1 in Hs. destruct W2 as (g' & Hg & [e Hm]). rewrite Hg in Hs. cbn in Hs. rewrite Hm in Hs. injection Hs as <- <-.
      split; [done|]. split; [done|apply Hret].
  - done.
Qed.

(** C108 for names that are registered already, with the manager not switched on or off:
    no races at all. *)
Theorem C108_known_partial s0 progs sched :
  Forall (Forall (known s0)) progs -> Forall (Forall (fun op => sets_enable op = false)) progs ->
  race_free r_next (r_from s0 progs sched).
Proof.
  intros Hk He [r|] Hr.
  - apply race_sym in Hr as (i & j & ti & tj & a & b & Hne & Hi & Hj & Ha & Hb & La & Lb & Hw & _).
    destruct (known_run s0 progs sched Hk) as (_ & _ & W). destruct (W _ _ Hi) as [_ Wi].
    unfold r_next in Ha. destruct (rt_pc ti); try (by apply elem_of_nil in Ha); try done.
    destruct (rt_todo ti) as [|[] todo]; try (by apply elem_of_nil in Ha); apply elem_of_list_singleton in Ha as ->; done.
  - destruct (C108_enable_partial _ _ _ Hr) as (i & j & _ & (p & op & Hp & Hop & Hs) & _).
    rewrite Forall_lookup in He. specialize (He _ _ Hp). rewrite Forall_forall in He. by rewrite (He _ Hop) in Hs.
Qed.
Print Assumptions C108_known_partial.

(** C108 is false: metricsCount is loaded without sync/atomic (line 128) while another
    goroutine adds to it (line 139); enable is stored while others load it. *)
Theorem C108_refuted :
  let a := NameRef "a" 0 in let b := NameRef "b" 0 in
  data_race_on r_next (VMetricsCount 0)
    (r_crun [10] [[RLookup 0 KCompass a]; [RLookup 0 KCompass b]]
       [Run 0%nat; Run 0%nat; Run 0%nat; Run 0%nat; Run 0%nat; Run 1%nat; Run 1%nat; Run 1%nat]) /\
  data_race_on r_next VEnable (r_crun [] [[GSetEnable false]; [GLookup "g" KCompass a]] []).
Proof.
  intros a b. split.
  - apply (race_intro r_next _ 0 1
      (RThread (PAdd 0 KCompass a (create KCompass a 0)) [RLookup 0 KCompass a] [])
      (RThread (PCount 0 KCompass b (create KCompass b 1)) [RLookup 0 KCompass b] [])
      (atomic_op (VMetricsCount 0)) (loads (VMetricsCount 0))); try (vm_compute; reflexivity); [done|by left|by left].
  - apply (race_intro r_next _ 0 1 (RThread PIdle [GSetEnable false] []) (RThread PIdle [GLookup "g" KCompass a] [])
      (stores VEnable) (loads VEnable)); try reflexivity; [done|by left|by left].
Qed.
Print Assumptions C108_refuted.

(** The hypotheses of C108_known_partial hold after one goroutine has registered the names. *)
Example C108_witness :
  let s0 := shared (r_crun [10] [[RLookup 0 KCompass (NameRef "a" 0); GLookup "g" KFastCompass (NameRef "b" 0)]] (repeat (Run 0%nat) 20)) in
  Forall (Forall (known s0)) [[RLookup 0 KCompass (NameRef "a" 0); GLookup "g" KFastCompass (NameRef "b" 0)]; [RLookup 0 KCompass (NameRef "a" 0)]].
Proof.
  intros s0.
  assert (E1 : (g ← rs_regs s0 !! 0%nat; e ← r_metricsMap g !! "a"; Some (nm_hash (e_name e))) = Some "a") by (vm_compute; reflexivity).
  assert (E2 : (r ← rs_groups s0 !! "g"; g ← rs_regs s0 !! r; e ← r_metricsMap g !! "b"; Some (nm_hash (e_name e))) = Some "b") by (vm_compute; reflexivity).
  clearbody s0.
  assert (K1 : forall k l, known s0 (RLookup 0 k (NameRef "a" l))).
  { intros k l. unfold known. cbn [nm_hash]. destruct (rs_regs s0 !! 0%nat) as [g|]; [|done]. exists g. split; [done|].
    cbn [mbind option_bind] in E1. destruct (r_metricsMap g !! "a"); [by eexists|done]. }
  assert (K2 : forall k l, known s0 (GLookup "g" k (NameRef "b" l))).
  { intros k l. unfold known. cbn [nm_hash]. destruct (rs_groups s0 !! "g") as [r|]; [|done]. cbn [mbind option_bind] in E2.
    destruct (rs_regs s0 !! r) as [g|] eqn:Eg; [|done]. exists r, g. split; [done|]. split; [done|].
    cbn [mbind option_bind] in E2. destruct (r_metricsMap g !! "b"); [by eexists|done]. }
  apply Forall_cons. split; [|apply Forall_cons; split; [|constructor]].
  - apply Forall_cons. split; [apply K1|]. apply Forall_cons. split; [apply K2|constructor].
  - apply Forall_cons. split; [apply K1|constructor].
Qed.
