From Verif.Go Require Import GoInt GoConc.
From Verif.Model Require Import Config Registry RegistryConc.
From Verif.Spec Require Import BucketSpec NameSpec RegistrySpec.
From Verif.Proofs Require Import RegistryProofs RegistryConcProofs.
Local Open Scope Z_scope.

(** Goroutines about to store a recording metric in registry [r]; goroutines that
    stored and did not count yet; calls that may still store. *)
Definition storing (r : nat) (t : rthread) : Z :=
  match rt_pc t with PStore r' _ _ m => if decide (r' = r) then if records m then 1 else 0 else 0 | _ => 0 end.
Definition counting (r : nat) (t : rthread) : Z :=
  match rt_pc t with PAdd r' _ _ _ => if decide (r' = r) then 1 else 0 | _ => 0 end.
Definition may_store (t : rthread) : Z :=
  Z.of_nat (length (rt_todo t)) - match rt_pc t with PAdd _ _ _ _ => 1 | _ => 0 end.

Lemma storing_counting r t : 0 <= storing r t /\ 0 <= counting r t /\ storing r t + counting r t <= 1.
Proof. unfold storing, counting. destruct (rt_pc t); repeat case_match; lia. Qed.

Lemma sumZ_nonneg {A} (f : A -> Z) l : (forall x, 0 <= f x) -> 0 <= sumZ (f <$> l).
Proof. intros H. induction l as [|x l IH]; cbn; [lia|]. specialize (H x). unfold sumZ in *. lia. Qed.
Lemma sumZ_le1 {A} (f g : A -> Z) (l : list A) :
  (forall x, f x + g x <= 1) -> sumZ (f <$> l) + sumZ (g <$> l) <= Z.of_nat (length l).
Proof. intros H. induction l as [|x l IH]; cbn; [lia|]. specialize (H x). unfold sumZ in *. lia. Qed.

Definition reg_inv (N : Z) (r : nat) (reg : registry) (ts : list rthread) : Prop :=
  exists k : Z, 0 <= k /\ r_metricsCount reg = wrap32 k /\
    Z.of_nat (size (r_metricsMap reg)) = k + sumZ (counting r <$> ts) /\
    recording_entries (r_metricsMap reg) + sumZ (storing r <$> ts) <=
      (if decide (r_maxMetricCount reg <= 0) then 0 else r_maxMetricCount reg + N - 1).

Definition linv (N total : Z) (c : config rshared rthread) : Prop :=
  Z.of_nat (length (threads c)) = N /\ sumZ (may_store <$> threads c) <= total /\
  cinv False c /\
  (forall i t, threads c !! i = Some t -> match rt_pc t with
     | PStore r _ _ _ | PAdd r _ _ _ => (r < length (rs_regs (shared c)))%nat | _ => True end) /\
  (forall r reg, rs_regs (shared c) !! r = Some reg ->
     reg_inv N r reg (threads c) /\
     Z.of_nat (size (r_metricsMap reg)) + sumZ (may_store <$> threads c) <= total).

Lemma may_store_nonneg s t : pc_ok s t -> 0 <= may_store t.
Proof.
  unfold may_store, pc_ok, on_reg. destruct (rt_pc t); try lia.
  intros [(rest & [E|(g & _ & E)]) _]; rewrite E; cbn; lia.
Qed.

Lemma sum_may_store_nonneg s (ts : list rthread) :
  (forall i t, ts !! i = Some t -> pc_ok s t) -> 0 <= sumZ (may_store <$> ts).
Proof.
  induction ts as [|t ts IH]; intros H; cbn; [lia|].
  pose proof (may_store_nonneg _ _ (H 0%nat t eq_refl)).
  assert (0 <= sumZ (may_store <$> ts)) by (apply IH; intros i u Hi; by apply (H (S i))). unfold sumZ in *. lia.
Qed.

Lemma return_counts r t x :
  storing r (r_return t x) = (match rt_todo t with [] => storing r t | _ => 0 end) /\
  counting r (r_return t x) = (match rt_todo t with [] => counting r t | _ => 0 end) /\
  may_store (r_return t x) = (match rt_todo t with [] => may_store t | _ :: todo => Z.of_nat (length todo) end).
Proof. unfold r_return. destruct (rt_todo t); [done|]. unfold storing, counting, may_store. cbn. split_and!; lia. Qed.

Lemma on_reg_todo s todo r k nm : on_reg s todo r k nm -> exists o rest, todo = o :: rest.
Proof. intros (rest & [E|(g & _ & E)]); eauto. Qed.

(** A step that does not change any registry. *)
Lemma reg_inv_same N r reg ts i t t' :
  ts !! i = Some t -> storing r t' <= storing r t -> counting r t' = counting r t ->
  reg_inv N r reg ts -> reg_inv N r reg (<[i := t']> ts).
Proof.
  intros Hi Hs Hc (k & H0 & H1 & H2 & H3). exists k. rewrite !(sumZ_insert _ _ _ t) by done.
  split_and!; [done|done|lia|lia].
Qed.

Lemma linv_step N total s ts i t s' t' :
  0 <= total < 2147483648 ->
  linv N total (Config s ts) -> ts !! i = Some t -> rstep s t = Some (s', t') ->
  linv N total (Config s' (<[i := t']> ts)).
Proof.
  intros Htot (L1 & L5 & L2 & L3 & L4) Hi H.
  pose proof (cinv_step _ _ _ _ _ _ _ L2 Hi H) as L2'.
  assert (pc_ok s t) as Hpc by (by apply (proj1 L2 i t Hi)).
  cbn [shared threads] in *.
  assert (length (rs_regs s) <= length (rs_regs s'))%nat as Hlen.
  { clear -H. unfold rstep in H. destruct (rt_pc t) as [|g k nm|g k nm|r k nm|r k nm|r k nm m|r k nm m|r k nm m].
    - destruct (rt_todo t) as [|[r k nm|g k nm|b] todo]; simplify_eq/=; lia.
    - destruct (rs_groups s !! g); simplify_eq/=; lia.
    - destruct (rs_groups s !! g); simplify_eq/=; rewrite ?app_length; lia.
    - destruct (rs_regs s !! r); [|done]. cbn in H. destruct (r_metricsMap _ !! _); simplify_eq/=; lia.
    - simplify_eq/=. lia.
    - destruct (rs_regs s !! r); [|done]. simplify_eq/=. lia.
    - destruct (rs_regs s !! r); [|done]. cbn in H. destruct (r_metricsMap _ !! _); simplify_eq/=; rewrite ?insert_length; lia.
    - destruct (rs_regs s !! r); [|done]. simplify_eq/=. rewrite ?insert_length; lia. }
  assert (forall r, 0 <= sumZ (storing r <$> ts) /\ 0 <= sumZ (counting r <$> ts) /\
     sumZ (storing r <$> ts) + sumZ (counting r <$> ts) <= N) as Hsums.
  { intros r. rewrite <- L1. split_and!.
    - apply sumZ_nonneg. intros x. apply storing_counting.
    - apply sumZ_nonneg. intros x. apply storing_counting.
    - apply sumZ_le1. intros x. apply storing_counting. }
  assert (0 <= sumZ (may_store <$> ts)) as Hms.
  { apply (sum_may_store_nonneg s). intros j u Hj. apply (proj1 L2 j u Hj). }
  assert (forall x, rt_todo t <> [] -> may_store (r_return t x) <= may_store t) as Hmr.
  { intros x Hx. destruct (return_counts 0 t x) as (_ & _ & ->). unfold may_store.
    destruct (rt_todo t) eqn:Et; [done|]. cbn [length]. destruct (rt_pc t); lia. }
  assert (may_store t' <= may_store t) as Hmono.
  { clear -H Hmr Hpc. unfold rstep in H. unfold pc_ok in Hpc.
    assert (forall pc, (forall r k nm m, pc <> PAdd r k nm m) -> (forall r k nm m, rt_pc t <> PAdd r k nm m) ->
       may_store (r_goto t pc) <= may_store t) as Hg.
    { intros pc Hp1 Hp2. unfold may_store. cbn [r_goto rt_pc rt_todo]. 
      destruct pc; try (exfalso; by eapply Hp1); destruct (rt_pc t); try (exfalso; by eapply Hp2); lia. }
    destruct (rt_pc t) as [|g k nm|g k nm|r k nm|r k nm|r k nm m|r k nm m|r k nm m] eqn:Epc.
    - destruct (rt_todo t) as [|[r k nm|g k nm|b] todo] eqn:Et; [done|..]; injection H as <- <-.
      + by apply Hg.
      + destruct (rs_enable s); [by apply Hg|by apply Hmr].
      + by apply Hmr.
    - destruct (rs_groups s !! g); injection H as <- <-; by apply Hg.
    - destruct (rs_groups s !! g); injection H as <- <-; by apply Hg.
    - apply on_reg_todo in Hpc as (o & rest & Et). destruct (rs_regs s !! r); [|done]. cbn in H.
      destruct (r_metricsMap _ !! _); injection H as <- <-; [apply Hmr; by rewrite Et|by apply Hg].
    - injection H as <- <-; by apply Hg.
    - destruct (rs_regs s !! r); [|done]. injection H as <- <-; by apply Hg.
    - apply on_reg_todo in Hpc as (o & rest & Et). destruct (rs_regs s !! r); [|done]. cbn in H.
      destruct (r_metricsMap _ !! _); injection H as <- <-; [apply Hmr; by rewrite Et|].
      unfold may_store. rewrite Epc. cbn. lia.
    - destruct Hpc as [Hpc _]. apply on_reg_todo in Hpc as (o & rest & Et). destruct (rs_regs s !! r); [|done].
      injection H as <- <-. apply Hmr. by rewrite Et. }
  assert (sumZ (may_store <$> <[i := t']> ts) <= sumZ (may_store <$> ts)) as Hsm
    by (rewrite (sumZ_insert _ _ _ t) by done; lia).
  split; [cbn [threads]; by rewrite insert_length|]. split; [cbn [threads]; lia|]. split; [done|]. cbn [shared threads].
  (* the registry of a goroutine that stores exists *)
  assert (match rt_pc t' with
          | PStore r _ _ _ | PAdd r _ _ _ => (r < length (rs_regs s'))%nat | _ => True end) as L3'.
  { pose proof (L3 i t Hi) as Hr. unfold rstep in H.
    assert (forall x, match rt_pc (r_return t x) with
          | PStore r _ _ _ | PAdd r _ _ _ => (r < length (rs_regs s'))%nat | _ => True end) as Hret.
    { intros x. unfold r_return. destruct (rt_todo t); [|done]. destruct (rt_pc t); try done; lia. }
    destruct (rt_pc t) as [|g k nm|g k nm|r k nm|r k nm|r k nm m|r k nm m|r k nm m] eqn:Epc.
    - destruct (rt_todo t) as [|[r k nm|g k nm|b] todo] eqn:Et; [done|..]; injection H as <- <-; [done| |apply Hret].
      destruct (rs_enable s); [done|apply Hret].
    - destruct (rs_groups s !! g); by injection H as <- <-.
    - destruct (rs_groups s !! g); by injection H as <- <-.
    - destruct (rs_regs s !! r); [|done]. cbn in H. destruct (r_metricsMap _ !! _); injection H as <- <-; [apply Hret|done].
    - by injection H as <- <-.
    - destruct (rs_regs s !! r) eqn:Er; [|done]. injection H as <- <-. cbn. by apply lookup_lt_Some in Er.
    - destruct (rs_regs s !! r); [|done]. cbn in H. destruct (r_metricsMap _ !! _); injection H as <- <-; [apply Hret|].
      cbn. by rewrite insert_length.
    - destruct (rs_regs s !! r); [|done]. injection H as <- <-. apply Hret. }
  split.
  { intros j u Hj. destruct (decide (j = i)) as [->|N'].
    - rewrite list_lookup_insert in Hj by (by apply lookup_lt_Some in Hi). by injection Hj as <-.
    - rewrite list_lookup_insert_ne in Hj by done. specialize (L3 j u Hj). destruct (rt_pc u); try done; lia. }
  (* steps that leave the registries alone *)
  assert (rs_regs s' = rs_regs s ->
    (forall r reg, rs_regs s !! r = Some reg -> reg_inv N r reg ts ->
       Z.of_nat (size (r_metricsMap reg)) + sumZ (may_store <$> ts) <= total -> reg_inv N r reg (<[i := t']> ts)) ->
    forall r reg, rs_regs s' !! r = Some reg -> reg_inv N r reg (<[i := t']> ts) /\
      Z.of_nat (size (r_metricsMap reg)) + sumZ (may_store <$> <[i := t']> ts) <= total) as Hsame.
  { intros Hr Hri r reg Hreg. rewrite Hr in Hreg. destruct (L4 r reg Hreg) as [A B].
    split; [by apply Hri|]. lia. }
  assert (forall x, t' = r_return t x -> (forall r, counting r t = 0) -> rs_regs s' = rs_regs s ->
    forall r reg, rs_regs s' !! r = Some reg -> reg_inv N r reg (<[i := t']> ts) /\
      Z.of_nat (size (r_metricsMap reg)) + sumZ (may_store <$> <[i := t']> ts) <= total) as Hret.
  { intros x -> Hc Hr. apply Hsame; [done|..].
    intros r reg _ Hri _. apply (reg_inv_same _ _ _ _ _ t); try done;
        destruct (return_counts r t x) as (E1 & E2 & _); rewrite ?E1, ?E2.
    + destruct (rt_todo t); [lia|]. apply storing_counting.
    + destruct (rt_todo t); [done|]. by rewrite Hc. }
  assert (forall pc, t' = r_goto t pc -> (forall r, counting r t = 0) -> (forall r, counting r t' = 0) ->
    (forall r, storing r t' = 0) -> rs_regs s' = rs_regs s ->
    forall r reg, rs_regs s' !! r = Some reg -> reg_inv N r reg (<[i := t']> ts) /\
      Z.of_nat (size (r_metricsMap reg)) + sumZ (may_store <$> <[i := t']> ts) <= total) as Hgoto.
  { intros pc -> Hc Hc' Hst Hr. apply Hsame; [done|..].
    intros r reg _ Hri _. apply (reg_inv_same _ _ _ _ _ t); try done.
    + rewrite Hst. apply storing_counting.
    + by rewrite Hc, Hc'. }
  unfold rstep in H. unfold pc_ok in Hpc.
  destruct (rt_pc t) as [|g k nm|g k nm|r k nm|r k nm|r k nm m|r k nm m|r k nm m] eqn:Epc.
  - assert (forall r, counting r t = 0) as Hc by (intros; unfold counting; by rewrite Epc).
    destruct (rt_todo t) as [|[r k nm|g k nm|b] todo] eqn:Et; [done|..]; injection H as <- <-.
    + by eapply Hgoto.
    + destruct (rs_enable s); [by eapply Hgoto|by eapply Hret].
    + by eapply Hret.
  - assert (forall r, counting r t = 0) as Hc by (intros; unfold counting; by rewrite Epc).
    destruct (rs_groups s !! g); injection H as <- <-; by eapply Hgoto.
  - assert (forall r, counting r t = 0) as Hc by (intros; unfold counting; by rewrite Epc).
    destruct (rs_groups s !! g); injection H as <- <-; [by eapply Hgoto|]. cbn [rs_regs].
    intros r reg Hreg. destruct (decide (r < length (rs_regs s))%nat).
    + rewrite lookup_app_l in Hreg by done. destruct (L4 r reg Hreg) as [A B]. split; [|lia].
      apply (reg_inv_same _ _ _ _ _ t); [done|..|done].
      * unfold storing at 1. cbn. apply storing_counting.
      * by rewrite Hc.
    + rewrite lookup_app_r in Hreg by lia. destruct (r - length (rs_regs s))%nat eqn:Ed; [|done].
      cbn in Hreg. injection Hreg as <-.
      assert (forall u, u ∈ <[i := r_goto t (PLoad (length (rs_regs s)) k nm)]> ts -> storing r u = 0 /\ counting r u = 0) as Hz.
      { intros u Hu. apply elem_of_list_lookup in Hu as [j Hj].
        assert (match rt_pc u with PStore r _ _ _ | PAdd r _ _ _ => (r < length (rs_regs s))%nat | _ => True end) as Hb.
        { destruct (decide (j = i)) as [->|Nj].
          - rewrite list_lookup_insert in Hj by (by apply lookup_lt_Some in Hi). injection Hj as <-. done.
          - rewrite list_lookup_insert_ne in Hj by done. by apply (L3 j). }
        unfold storing, counting. destruct (rt_pc u); try done.
        - rewrite decide_False by lia. done.
        - rewrite decide_False by lia. done. }
      assert (forall l, (forall u, u ∈ l -> storing r u = 0 /\ counting r u = 0) ->
        sumZ (storing r <$> l) = 0 /\ sumZ (counting r <$> l) = 0) as Hz2.
      { clear. induction l as [|u l IH]; intros Hu; [done|]. destruct (Hu u) as [E1 E2]; [by left|].
        destruct IH as [E3 E4]; [intros; apply Hu; by right|]. unfold sumZ in *. cbn. lia. }
      destruct (Hz2 _ Hz) as [Z1 Z2]. split.
      * exists 0. cbn [NewMetricRegistry r_metricsCount r_metricsMap r_maxMetricCount]. rewrite Z1, Z2.
        rewrite map_size_empty. unfold recording_entries. rewrite map_filter_empty, map_size_empty.
        split_and!; [lia|done|done|]. rewrite decide_False by lia. assert (0 < N) by (apply lookup_lt_Some in Hi; lia). lia.
      * cbn [NewMetricRegistry r_metricsMap]. rewrite map_size_empty. lia.
  - assert (forall r, counting r t = 0) as Hc by (intros; unfold counting; by rewrite Epc).
    destruct (rs_regs s !! r) as [reg|] eqn:Er; [|done]. cbn in H.
    destruct (r_metricsMap reg !! nm_hash nm); injection H as <- <-; [by eapply Hret|by eapply Hgoto].
  - assert (forall r, counting r t = 0) as Hc by (intros; unfold counting; by rewrite Epc).
    injection H as <- <-. by eapply Hgoto.
  - assert (forall r, counting r t = 0) as Hc by (intros; unfold counting; by rewrite Epc).
    destruct (rs_regs s !! r) as [reg|] eqn:Er; [|done]. injection H as <- <-. apply Hsame; [done|].
    intros r' reg' Hreg' (kk & K0 & K1 & K2 & K3) Hb. exists kk.
    rewrite !(sumZ_insert _ _ _ t) by done. rewrite Hc.
    assert (storing r' t = 0) as -> by (unfold storing; by rewrite Epc).
    set (t2 := r_goto t _). assert (counting r' t2 = 0) as -> by done.
    split_and!; [done|done|lia|].
    unfold storing at 2. unfold t2. cbn [r_goto rt_pc]. destruct (decide (r = r')) as [<-|N']; [|lia].
    rewrite Er in Hreg'. injection Hreg' as <-.
    assert (records (if r_maxMetricCount reg <=? r_metricsCount reg then nop k else m) = true ->
            r_metricsCount reg < r_maxMetricCount reg) as Hck.
    { destruct (Z.leb_spec (r_maxMetricCount reg) (r_metricsCount reg)); [by rewrite records_nop|lia]. }
    destruct (records (if r_maxMetricCount reg <=? r_metricsCount reg then nop k else m)); [|lia].
    specialize (Hck eq_refl). rewrite K1 in Hck. 
    destruct (Hsums r) as (S1 & S2 & S3). pose proof (recording_le_size (r_metricsMap reg)) as Hrs.
    assert (sumZ (storing r <$> ts) + sumZ (counting r <$> ts) + 1 <= N) as S4.
    { pose proof (sumZ_le1 (storing r) (counting r) (<[i := RThread (PAdd r k nm m) (rt_todo t) (rt_got t)]> ts)) as S5.
      rewrite insert_length, L1 in S5. rewrite !(sumZ_insert _ _ _ t) in S5 by done.
      rewrite Hc in S5.
      assert (storing r t = 0) as E0 by (unfold storing; by rewrite Epc). rewrite E0 in S5.
      set (t3 := RThread (PAdd r k nm m) (rt_todo t) (rt_got t)) in S5.
      assert (storing r t3 = 0) as E1 by done.
      assert (counting r t3 = 1) as E2 by (unfold counting, t3; cbn; by rewrite decide_True). rewrite E1, E2 in S5.
      assert (forall x, storing r x + counting r x <= 1) by (intros x; apply storing_counting). specialize (S5 H). lia. }
    assert (sumZ (may_store <$> ts) >= 0) by lia.
    rewrite wrap32_small in Hck by lia.
    rewrite decide_False by lia. lia.
  - destruct (rs_regs s !! r) as [reg|] eqn:Er; [|done]. cbn in H.
    destruct (r_metricsMap reg !! nm_hash nm) as [e|] eqn:Em; injection H as <- <-.
    + assert (forall r, counting r t = 0) as Hc by (intros; unfold counting; by rewrite Epc). by eapply Hret.
    + cbn [rs_regs]. set (t2 := r_goto t _) in *. intros r' reg' Hreg'.
      destruct (decide (r' = r)) as [->|N'].
      * rewrite list_lookup_insert in Hreg' by (by apply lookup_lt_Some in Er). injection Hreg' as <-.
        destruct (L4 r reg Er) as [(kk & K0 & K1 & K2 & K3) B]. 
        cbn [r_metricsMap]. rewrite map_size_insert_None by done. split.
        -- exists kk. rewrite !(sumZ_insert _ _ _ t) by done. cbn [r_metricsCount r_metricsMap r_maxMetricCount].
           rewrite map_size_insert_None by done. rewrite recording_insert by done. cbn [e_metric].
           assert (counting r t = 0) as -> by (unfold counting; by rewrite Epc).
           assert (counting r t2 = 1) as -> by (unfold counting, t2; cbn; by rewrite decide_True).
           assert (storing r t = if records m then 1 else 0) as -> by (unfold storing; rewrite Epc; by rewrite decide_True).
           assert (storing r t2 = 0) as -> by done. split_and!; [done|done|lia|lia].
        -- rewrite (sumZ_insert _ _ _ t) by done.
           assert (may_store t2 = may_store t - 1) as -> by (unfold may_store, t2; rewrite Epc; cbn [r_goto rt_todo rt_pc]; lia). lia.
      * rewrite list_lookup_insert_ne in Hreg' by done. destruct (L4 r' reg' Hreg') as [A B]. split; [|lia].
        apply (reg_inv_same _ _ _ _ _ t); [done|..|done].
        -- unfold storing at 1, t2. cbn. apply storing_counting.
        -- unfold counting, t2. rewrite Epc. cbn. by rewrite decide_False.
  - destruct (rs_regs s !! r) as [reg|] eqn:Er; [|done]. injection H as <- <-.
    destruct Hpc as [Hpc _]. apply on_reg_todo in Hpc as (o & rest & Et).
    cbn [rs_regs]. set (t2 := r_return t _) in *. intros r' reg' Hreg'.
    assert (forall q, storing q t2 = 0 /\ counting q t2 = 0) as Ht2.
    { intros q. unfold t2. destruct (return_counts q t (Some (assert_kind k m))) as (E1 & E2 & _).
      rewrite E1, E2, Et. done. }
    assert (forall q, storing q t = 0) as Hst by (intros q; unfold storing; by rewrite Epc).
    destruct (decide (r' = r)) as [->|N'].
    + rewrite list_lookup_insert in Hreg' by (by apply lookup_lt_Some in Er). injection Hreg' as <-.
      destruct (L4 r reg Er) as [(kk & K0 & K1 & K2 & K3) B].
      cbn [r_metricsMap]. split; [|lia].
      exists (kk + 1). rewrite !(sumZ_insert _ _ _ t) by done. cbn [r_metricsCount r_metricsMap r_maxMetricCount].
      destruct (Ht2 r) as [-> ->]. rewrite Hst.
      assert (counting r t = 1) as -> by (unfold counting; rewrite Epc; by rewrite decide_True).
      destruct (Hsums r) as (S1 & S2 & S3).
      split_and!; [lia| |lia|lia].
      rewrite K1. destruct (decide (kk = 0)); [subst; done|]. 
      assert (kk < 2147483648) by lia. by rewrite (wrap32_small kk) by lia.
    + rewrite list_lookup_insert_ne in Hreg' by done. destruct (L4 r' reg' Hreg') as [A B]. split; [|lia].
      apply (reg_inv_same _ _ _ _ _ t); [done|..|done].
      * destruct (Ht2 r') as [-> _]. rewrite Hst. lia.
      * destruct (Ht2 r') as [_ ->]. unfold counting. rewrite Epc. by rewrite decide_False.
Qed.

Definition total_ops (progs : list (list rop)) : Z := sumZ ((fun p => Z.of_nat (length p)) <$> progs).

Lemma linv_run maxs progs sched :
  progs <> [] -> total_ops progs < 2147483648 ->
  linv (Z.of_nat (length progs)) (total_ops progs) (r_crun maxs progs sched).
Proof.
  intros Hne Ht. assert (0 <= total_ops progs) by (apply sumZ_nonneg; lia).
  unfold r_crun. apply (crun_inv rstep (fun s _ => s) (linv _ _)).
  - assert (sumZ (may_store <$> threads (r_init maxs progs)) = total_ops progs) as Hms.
    { cbn. rewrite <- list_fmap_compose. unfold total_ops. f_equal. apply list_fmap_ext. intros i p _. cbn. unfold may_store. cbn. lia. }
    split; [cbn; by rewrite fmap_length|]. split; [lia|]. split; [by apply cinv_init|]. split.
    + intros i t Hi. cbn in Hi. rewrite list_lookup_fmap in Hi. destruct (progs !! i); [|done]. by injection Hi as <-.
    + intros r reg Hr. assert (exists mx, reg = NewMetricRegistry mx) as [mx ->].
      { cbn in Hr. rewrite list_lookup_fmap in Hr. destruct (maxs !! r); [|done]. injection Hr as <-. eauto. }
      assert (sumZ (storing r <$> threads (r_init maxs progs)) = 0 /\ sumZ (counting r <$> threads (r_init maxs progs)) = 0) as [Z1 Z2].
      { cbn. clear. split; induction progs as [|p progs IH]; try done; cbn; unfold sumZ in *; rewrite IH; done. }
      split.
      * exists 0. rewrite Z1, Z2. cbn [NewMetricRegistry r_metricsCount r_metricsMap r_maxMetricCount].
        rewrite map_size_empty. unfold recording_entries. rewrite map_filter_empty, map_size_empty.
        split_and!; [lia|done|done|]. destruct (decide (mx <= 0)); [lia|]. destruct progs; [done|]. cbn. lia.
      * cbn [NewMetricRegistry r_metricsMap]. rewrite map_size_empty. lia.
  - intros s ts i t s' t'. apply linv_step. lia.
  - intros s ts [].
Qed.

(** At most [max - 1] more than there are goroutines. *)
Lemma limit_conc maxs progs sched r reg :
  total_ops progs < 2147483648 ->
  rs_regs (shared (r_crun maxs progs sched)) !! r = Some reg ->
  recording_entries (r_metricsMap reg) <=
    (if decide (r_maxMetricCount reg <= 0) then 0 else r_maxMetricCount reg + Z.of_nat (length progs) - 1).
Proof.
  intros Ht Hr. destruct progs as [|p progs].
  - (* no goroutine, nothing happens *)
    assert (forall sched, r_crun maxs [] sched = r_init maxs []) as E.
    { clear. intros sched. unfold r_crun. induction sched as [|ev sched IH] using rev_ind; [done|].
      rewrite crun_snoc, IH. destruct ev as [i|[]]. cbn. done. }
    rewrite E in Hr. cbn in Hr. rewrite list_lookup_fmap in Hr. destruct (maxs !! r) as [mx|]; [|done].
    injection Hr as <-. cbn [NewMetricRegistry r_metricsMap r_maxMetricCount].
    unfold recording_entries. rewrite map_filter_empty, map_size_empty. destruct (decide (mx <= 0)); cbn; lia.
  - pose proof (linv_run maxs (p :: progs) sched) as (_ & _ & _ & _ & L4); [done|done|].
    destruct (L4 r reg Hr) as [(kk & _ & _ & _ & K) _].
    assert (0 <= sumZ (storing r <$> threads (r_crun maxs (p :: progs) sched))).
    { apply sumZ_nonneg. intros x. apply storing_counting. }
    lia.
Qed.
