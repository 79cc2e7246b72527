(** Lookups below the limit give recording metrics of the kind asked for. *)
From Verif.Go Require Import GoInt GoConc.
From Verif.Model Require Import Config Registry RegistryConc.
From Verif.Spec Require Import BucketSpec NameSpec RegistrySpec RegistryConcSpec.
From Verif.Proofs Require Import RegistryProofs RegistryConcProofs RegistryLimit RegistryConcMore.
Local Open Scope Z_scope.

(** metricsCount: the entries, less those just stored. *)
Definition cnt_inv (c : config rshared rthread) : Prop :=
  forall r reg, rs_regs (shared c) !! r = Some reg -> exists k, 0 <= k /\ r_metricsCount reg = wrap32 k /\
    Z.of_nat (size (r_metricsMap reg)) = k + sumZ (counting r <$> threads c).

Lemma return_counting r t x : rt_todo t <> [] -> counting r (r_return t x) = 0.
Proof. intros H. unfold r_return. destruct (rt_todo t); [done|]. done. Qed.
Lemma sum_counting_zero r (ts : list rthread) : (forall i t k nm m, ts !! i = Some t -> rt_pc t <> PAdd r k nm m) -> sumZ (counting r <$> ts) = 0.
Proof.
  induction ts as [|t ts IH]; intros H; [done|]. rewrite fmap_cons. change (counting r t + sumZ (counting r <$> ts) = 0). rewrite IH; [|intros i u k nm m Hi; by apply (H (S i))].
  unfold counting. destruct (rt_pc t) eqn:E; try done. destruct (decide _) as [->|]; [|done]. exfalso. by eapply (H 0%nat t).
Qed.

Lemma wrap32_succ k : wrap32 (wrap32 k + 1) = wrap32 (k + 1).
Proof.
  unfold wrap32. f_equal. replace ((k + 2147483648) mod 4294967296 - 2147483648 + 1 + 2147483648) with ((k + 2147483648) mod 4294967296 + 1) by lia.
  rewrite Zplus_mod_idemp_l. f_equal. lia.
Qed.
Lemma cnt_step s ts i t s' t' : cinv False (Config s ts) -> cnt_inv (Config s ts) -> ts !! i = Some t -> rstep s t = Some (s', t') -> cnt_inv (Config s' (<[i := t']> ts)).
Proof.
  intros [HC _] HI Hi Hs r reg Hr. cbn [shared threads] in *. pose proof (HC i t Hi) as (P & _ & _). unfold pc_ok in P.
  assert (Hne : rt_pc t <> PIdle -> rt_todo t <> []).
  { destruct (rt_pc t); try done; intros _.
    1-2: destruct P as [rest ->]; done. 1-4: destruct (on_reg_todo _ _ _ _ _ P) as (o & rest & ->); done. destruct P as [P _]. destruct (on_reg_todo _ _ _ _ _ P) as (o & rest & ->); done. }
  (* registries and this goroutine's contribution unchanged *)
  assert (Hsame : rs_regs s' = rs_regs s -> counting r t' = counting r t -> exists k, 0 <= k /\ r_metricsCount reg = wrap32 k /\ Z.of_nat (size (r_metricsMap reg)) = k + sumZ (counting r <$> <[i:=t']> ts)).
  { intros E1 E2. rewrite E1 in Hr. destruct (HI _ _ Hr) as (k & H1 & H2 & H3); cbn [threads] in H3. exists k. split; [done|]. split; [done|]. rewrite (sumZ_insert _ _ _ t) by done. lia. }
  unfold rstep in Hs. destruct (rt_pc t) as [|g k nm|g k nm|r0 k nm|r0 k nm|r0 k nm m|r0 k nm m|r0 k nm m] eqn:Epc.
  - assert (Hc0 : counting r t = 0) by (unfold counting; by rewrite Epc).
    destruct (rt_todo t) as [|[r1 k nm|g k nm|b] todo] eqn:Et; [done|..]; injection Hs as <- <-; (apply Hsame; [done|]); rewrite Hc0; try done.
    + destruct (rs_enable s); [done|]. apply return_counting. by rewrite Et.
    + apply return_counting. by rewrite Et.
  - assert (Hc0 : counting r t = 0) by (unfold counting; by rewrite Epc). destruct (rs_groups s !! g); injection Hs as <- <-; (apply Hsame; [done|]); by rewrite Hc0.
  - assert (Hc0 : counting r t = 0) by (unfold counting; by rewrite Epc). destruct (rs_groups s !! g); injection Hs as <- <-; [apply Hsame; [done|]; by rewrite Hc0|].
    cbn [rs_regs] in Hr. apply lookup_app_Some in Hr as [Hr|[Hge Hr]].
    + destruct (HI _ _ Hr) as (k' & H1 & H2 & H3); cbn [threads] in H3. exists k'. split; [done|]. split; [done|]. rewrite (sumZ_insert _ _ _ t) by done. change (counting r (r_goto t _)) with 0. lia.
    + apply list_lookup_singleton_Some in Hr as [Hr <-]. exists 0. split; [done|]. split; [done|]. cbn [NewMetricRegistry r_metricsMap]. rewrite map_size_empty.
      rewrite (sumZ_insert _ _ _ t) by done. change (counting r (r_goto t _)) with 0. rewrite Hc0, sum_counting_zero; [done|].
      intros j u k' nm' m' Hj Hu. destruct (HC j u Hj) as (Pu & _ & _). unfold pc_ok in Pu. rewrite Hu in Pu. destruct Pu as [_ (e & He & _)].
      unfold entry_at in He. destruct (rs_regs s !! r) eqn:E; [|done]. apply lookup_lt_Some in E. lia.
  - assert (Hc0 : counting r t = 0) by (unfold counting; by rewrite Epc). destruct (rs_regs s !! r0); [|done]. cbn in Hs.
    destruct (r_metricsMap _ !! _); injection Hs as <- <-; (apply Hsame; [done|]); rewrite Hc0; [apply return_counting; by apply Hne|done].
  - assert (Hc0 : counting r t = 0) by (unfold counting; by rewrite Epc). injection Hs as <- <-. apply Hsame; [done|]. by rewrite Hc0.
  - assert (Hc0 : counting r t = 0) by (unfold counting; by rewrite Epc). destruct (rs_regs s !! r0); [|done]. injection Hs as <- <-. apply Hsame; [done|]. by rewrite Hc0.
  - assert (Hc0 : counting r t = 0) by (unfold counting; by rewrite Epc). destruct (rs_regs s !! r0) as [reg0|] eqn:Er; [|done]. cbn in Hs.
    destruct (r_metricsMap reg0 !! nm_hash nm) eqn:Em; injection Hs as <- <-; [apply Hsame; [done|]; rewrite Hc0; apply return_counting; by apply Hne|].
    cbn [rs_regs] in Hr. apply list_lookup_insert_Some in Hr as [(-> & <- & _)|[Hnr Hr]].
    + destruct (HI _ _ Er) as (k' & H1 & H2 & H3); cbn [threads] in H3. exists k'. split; [done|]. split; [done|]. cbn [r_metricsMap]. rewrite map_size_insert_None by done. rewrite (sumZ_insert _ _ _ t) by done.
      change (counting r (r_goto t (PAdd r k nm m))) with (if decide (r = r) then 1 else 0). rewrite decide_True by done. lia.
    + destruct (HI _ _ Hr) as (k' & H1 & H2 & H3); cbn [threads] in H3. exists k'. split; [done|]. split; [done|]. rewrite (sumZ_insert _ _ _ t) by done.
      change (counting r (r_goto t (PAdd r0 k nm m))) with (if decide (r0 = r) then 1 else 0). rewrite decide_False by done. lia.
  - assert (Hc0 : counting r t = if decide (r0 = r) then 1 else 0) by (unfold counting; by rewrite Epc). destruct (rs_regs s !! r0) as [reg0|] eqn:Er; [|done]. injection Hs as <- <-.
    assert (Hc1 : counting r (r_return t (Some (assert_kind k m))) = 0) by (apply return_counting; by apply Hne).
    cbn [rs_regs] in Hr. apply list_lookup_insert_Some in Hr as [(-> & <- & _)|[Hnr Hr]].
    + destruct (HI _ _ Er) as (k' & H1 & H2 & H3); cbn [threads] in H3. exists (k' + 1). split; [lia|]. split; [cbn [r_metricsCount]; rewrite H2; apply wrap32_succ|].
      cbn [r_metricsMap]. rewrite (sumZ_insert _ _ _ t) by done. rewrite Hc1, Hc0, decide_True by done. lia.
    + destruct (HI _ _ Hr) as (k' & H1 & H2 & H3); cbn [threads] in H3. exists k'. split; [done|]. split; [done|]. rewrite (sumZ_insert _ _ _ t) by done. rewrite Hc1, Hc0, decide_False by done. lia.
Qed.
Lemma cnt_run maxs progs sched : cnt_inv (r_crun maxs progs sched).
Proof.
  assert (H : cinv False (r_crun maxs progs sched) /\ cnt_inv (r_crun maxs progs sched)); [|by destruct H].
  unfold r_crun. apply (crun_inv rstep (fun s _ => s) (fun c => cinv False c /\ cnt_inv c)).
  - split; [by apply cinv_init|]. intros r reg Hr. cbn in Hr. rewrite list_lookup_fmap in Hr. destruct (maxs !! r); [|done]. injection Hr as <-. exists 0. split; [done|]. split; [done|].
    cbn [NewMetricRegistry r_metricsMap]. rewrite map_size_empty, sum_counting_zero; [done|]. intros i t k nm m Hi. cbn in Hi. rewrite list_lookup_fmap in Hi. destruct (progs !! i); [|done]. by injection Hi as <-.
  - intros s ts i t s' t' [H1 H2] Hi Hs. split; [by eapply cinv_step|by eapply cnt_step].
  - intros s ts [].
Qed.

(** The calls of a goroutine are those of its program. *)
Lemma todo_run maxs progs sched i t : threads (r_crun maxs progs sched) !! i = Some t -> progs !! i = Some ((rt_got t).*1 ++ rt_todo t).
Proof.
  revert i t. unfold r_crun. apply (crun_inv rstep (fun s _ => s) (fun c => forall i t, threads c !! i = Some t -> progs !! i = Some ((rt_got t).*1 ++ rt_todo t))).
  - intros i t Hi. cbn in Hi. rewrite list_lookup_fmap in Hi. destruct (progs !! i) eqn:E; [|done]. by injection Hi as <-.
  - intros s ts i t s' t' I Hi Hs j u Hj. cbn [threads] in *. apply list_lookup_insert_Some in Hj as [(-> & <- & _)|[_ Hj]]; [|by apply I].
    rewrite (I _ _ Hi). f_equal.
    assert (forall x, (rt_got (r_return t x)).*1 ++ rt_todo (r_return t x) = (rt_got t).*1 ++ rt_todo t) as Hr.
    { intros y. unfold r_return. destruct (rt_todo t) eqn:E; cbn [rt_got rt_todo]; [by rewrite E|]. rewrite fmap_app. cbn. by rewrite <- app_assoc. }
    clear -Hs Hr. symmetry. unfold rstep in Hs. destruct (rt_pc t) as [|g k nm|g k nm|r k nm|r k nm|r k nm m|r k nm m|r k nm m].
    + destruct (rt_todo t) as [|[r k nm|g k nm|b] todo] eqn:Et; [done|..]; injection Hs as <- <-.
      * cbn [r_goto rt_got rt_todo]. by rewrite Et.
      * destruct (rs_enable s); [cbn [r_goto rt_got rt_todo]; by rewrite Et|by rewrite Hr].
      * by rewrite Hr.
    + destruct (rs_groups s !! g); by injection Hs as <- <-.
    + destruct (rs_groups s !! g); by injection Hs as <- <-.
    + destruct (rs_regs s !! r); [|done]. cbn [mbind option_bind] in Hs. destruct (r_metricsMap _ !! _); injection Hs as <- <-; [by rewrite Hr|done].
    + by injection Hs as <- <-.
    + destruct (rs_regs s !! r); [|done]. by injection Hs as <- <-.
    + destruct (rs_regs s !! r); [|done]. cbn [mbind option_bind] in Hs. destruct (r_metricsMap _ !! _); injection Hs as <- <-; [by rewrite Hr|done].
    + destruct (rs_regs s !! r); [|done]. injection Hs as <- <-. by rewrite Hr.
  - intros s ts [].
Qed.


Global Instance behind_dec pl s r : Decision (behind pl s r).
Proof. destruct pl; cbn; apply _. Defined.

Lemma same_set (X Y : gset string) : X ⊆ Y -> (size Y <= size X)%nat -> X = Y.
Proof. intros H1 H2. destruct (decide (Y ⊆ X)); [set_solver|]. assert (X ⊂ Y) as H by done. apply subset_size in H. lia. Qed.

Section place.
Context (maxs : list Z) (progs : list (list rop)) (pl : nat + string) (max : Z).
Context (HR : registries_exist maxs progs) (Hmax : limit_at pl maxs = Some max) (Hsize : Z.of_nat (size (keys_at pl progs)) <= max) (Hmax32 : max < 2 ^ 31).

Lemma keys_in k nm : lookup_at pl k nm ∈ mjoin progs -> nm_hash nm ∈ keys_at pl progs.
Proof.
  intros H. unfold keys_at. apply elem_of_list_to_set. apply elem_of_list_omap. exists (lookup_at pl k nm). split; [done|]. destruct pl; cbn; by rewrite decide_True.
Qed.
(** What is done at the registry is for a lookup of the place. *)
Lemma on_place sched i t r k nm : let c := r_crun maxs progs sched in threads c !! i = Some t -> on_reg (shared c) (rt_todo t) r k nm -> behind pl (shared c) r ->
  lookup_at pl k nm ∈ mjoin progs.
Proof using HR Hmax Hsize Hmax32.
  intros c Hi (rest & Ho) Hb. pose proof (todo_run maxs progs sched i t Hi) as Hp. pose proof (groups_run maxs progs sched) as (G1 & G2 & _ & _). fold c in G1, G2.
  assert (Hin : forall op, rt_todo t = op :: rest -> op ∈ mjoin progs).
  { intros op E. apply elem_of_list_join. eexists. split; [|by eapply elem_of_list_lookup_2]. rewrite E. apply elem_of_app. right. left. }
  destruct pl as [r'|g']; cbn [behind lookup_at limit_at] in *.
  - subst r'. destruct Ho as [E|(g & Hg & E)]; [by apply Hin|]. apply G1 in Hg. apply lookup_lt_Some in Hmax. lia.
  - destruct Ho as [E|(g & Hg & E)].
    + exfalso. specialize (Hin _ E). apply elem_of_list_join in Hin as (p & Hin & Hp'). unfold registries_exist in HR. rewrite Forall_forall in HR. specialize (HR p Hp'). rewrite Forall_forall in HR. specialize (HR _ Hin). cbn in HR.
      apply G1 in Hb. lia.
    + rewrite (G2 g' g r Hb Hg). by apply Hin.
Qed.

Definition place_inv (c : config rshared rthread) : Prop := forall r, behind pl (shared c) r ->
  (forall h e, entry_at (shared c) r h = Some e -> records (e_metric e) = true /\ exists k nm, lookup_at pl k nm ∈ mjoin progs /\ nm_hash nm = h /\ implements k (e_metric e) = true) /\
  (forall i t, threads c !! i = Some t -> match rt_pc t with
     | PCount r' k nm m => r' = r -> records m = true /\ implements k m = true
     | PStore r' k nm m => r' = r -> (records m = true /\ implements k m = true) \/ is_Some (entry_at (shared c) r (nm_hash nm))
     | _ => True end).

Lemma return_pc t x : rt_todo t <> [] -> rt_pc (r_return t x) = PIdle.
Proof. unfold r_return. by destruct (rt_todo t). Qed.

Lemma place_step sched i t s' t' : let c := r_crun maxs progs sched in place_inv c -> threads c !! i = Some t -> rstep (shared c) t = Some (s', t') -> place_inv (Config s' (<[i := t']> (threads c))).
Proof using HR Hmax Hsize Hmax32.
  intros c HI Hi Hs. pose proof (cinv_run maxs progs sched False) as [HC _]; [done|]. fold c in HC. pose proof (HC i t Hi) as (P & _ & _). unfold pc_ok in P.
  pose proof (groups_run maxs progs sched) as (G1 & G2 & G3 & G4). fold c in G1, G2, G3, G4. pose proof (cnt_run maxs progs sched) as HK. fold c in HK.
  pose proof (rstep_le _ _ _ _ Hs) as L.
  assert (Hne : rt_pc t <> PIdle -> rt_todo t <> []).
  { destruct (rt_pc t); try done; intros _.
    1-2: destruct P as [rest ->]; done. 1-4: destruct (on_reg_todo _ _ _ _ _ P) as (o & rest & ->); done. destruct P as [P _]. destruct (on_reg_todo _ _ _ _ _ P) as (o & rest & ->); done. }
  assert (Hon := fun r k nm => on_place sched i t r k nm Hi). fold c in Hon.
  (* a step that changes neither the groups nor the entries *)
  assert (Hquiet : rs_groups s' = rs_groups (shared c) -> (forall r h, entry_at s' r h = entry_at (shared c) r h) ->
    (forall r, behind pl (shared c) r -> match rt_pc t' with
     | PCount r' k nm m => r' = r -> records m = true /\ implements k m = true
     | PStore r' k nm m => r' = r -> (records m = true /\ implements k m = true) \/ is_Some (entry_at (shared c) r (nm_hash nm))
     | _ => True end) -> place_inv (Config s' (<[i := t']> (threads c)))).
  { intros E1 E2 Hpc r Hb. cbn [shared threads] in *. assert (Hb' : behind pl (shared c) r) by (destruct pl; cbn in *; [done|by rewrite E1 in Hb]). destruct (HI r Hb') as [I1 I2]. split.
    - intros h e He. rewrite E2 in He. by apply I1.
    - intros j u Hj. apply list_lookup_insert_Some in Hj as [(-> & <- & _)|[_ Hj]].
      + specialize (Hpc r Hb'). destruct (rt_pc t'); try done. by rewrite E2.
      + specialize (I2 j u Hj). destruct (rt_pc u); try done. by rewrite E2. }
  unfold rstep in Hs. destruct (rt_pc t) as [|g k nm|g k nm|r0 k nm|r0 k nm|r0 k nm m|r0 k nm m|r0 k nm m] eqn:Epc.
  - destruct (rt_todo t) as [|[r1 k nm|g k nm|b] todo] eqn:Et; [done|..]; injection Hs as <- <-; (apply Hquiet; [done|done|]); intros r Hb.
    + done. + destruct (rs_enable _); [done|]. by rewrite return_pc by (by rewrite Et). + by rewrite return_pc by (by rewrite Et).
  - destruct (rs_groups _ !! g); injection Hs as <- <-; by apply Hquiet.
  - destruct (rs_groups _ !! g) eqn:Eg; injection Hs as <- <-; [by apply Hquiet|]. (* a new registry *)
    assert (Hent : forall r h, entry_at (RShared (rs_regs (shared c) ++ [NewMetricRegistry 5000]) (<[g:=length (rs_regs (shared c))]> (rs_groups (shared c))) (rs_enable (shared c)) (rs_next (shared c))) r h = entry_at (shared c) r h).
    { intros r h. unfold entry_at. cbn [rs_regs]. destruct (decide (r < length (rs_regs (shared c)))%nat).
      - by rewrite lookup_app_l by done.
      - rewrite lookup_app_r by lia. rewrite (lookup_ge_None_2 (rs_regs (shared c))) by lia. destruct (r - _)%nat; cbn; [by rewrite lookup_empty|done]. }
    intros r Hb. cbn [shared threads] in *. destruct (decide (behind pl (shared c) r)) as [Hb'|Hnb].
    + destruct (HI r Hb') as [I1 I2]. split.
      * intros h e He. rewrite Hent in He. by apply I1.
      * intros j u Hj. apply list_lookup_insert_Some in Hj as [(-> & <- & _)|[_ Hj]]; [done|]. specialize (I2 j u Hj). destruct (rt_pc u); try done. by rewrite Hent.
    + assert (r = length (rs_regs (shared c))) as ->.
      { destruct pl as [r'|g']; cbn in *; [done|]. destruct (decide (g' = g)) as [->|]; [rewrite lookup_insert in Hb; congruence|by rewrite lookup_insert_ne in Hb]. }
      split.
      * intros h e He. rewrite Hent in He. unfold entry_at in He. rewrite lookup_ge_None_2 in He by lia. done.
      * intros j u Hj. assert (Hfar : forall k nm, on_reg (shared c) (rt_todo u) (length (rs_regs (shared c))) k nm -> j <> i -> threads c !! j = Some u -> False).
        { intros k' nm' (rest & [E|(g' & Hg' & E)]) _ Hu; [|apply G1 in Hg'; lia]. pose proof (todo_run maxs progs sched j u Hu) as Hp. unfold registries_exist in HR. rewrite Forall_lookup in HR. specialize (HR _ _ Hp). rewrite Forall_app in HR. destruct HR as [_ HR'].
          rewrite E in HR'. apply Forall_cons in HR' as [HR' _]. lia. }
        apply list_lookup_insert_Some in Hj as [(-> & <- & _)|[Hji Hj]]; [done|]. destruct (HC j u Hj) as (Pu & _ & _). unfold pc_ok in Pu. destruct (rt_pc u); try done; intros ->; exfalso; by eapply Hfar.
  - destruct (rs_regs _ !! r0) as [reg|]; [|done]. cbn in Hs. destruct (r_metricsMap _ !! _); injection Hs as <- <-; (apply Hquiet; [done|done|]); intros r Hb; [by rewrite return_pc by (by apply Hne)|done].
  - injection Hs as <- <-. apply Hquiet; [done|done|]. intros r Hb. cbn [r_goto rt_pc]. intros ->. by destruct k.
  - destruct (rs_regs _ !! r0) as [reg|] eqn:Er; [|done]. injection Hs as <- <-. apply Hquiet; [done|done|]. intros r Hb. cbn [r_goto rt_pc]. intros ->.
    destruct (HI r Hb) as [I1 I2]. specialize (I2 i t Hi). rewrite Epc in I2. specialize (I2 eq_refl). destruct (r_maxMetricCount reg <=? r_metricsCount reg) eqn:Elim; [|by left]. right.
    (* the limit is reached: all keys are there *)
    assert (Hm : r_maxMetricCount reg = max).
    { rewrite (G3 r reg Er). destruct pl as [r'|g']; cbn in *; [by subst; rewrite Hmax|]. apply G1 in Hb. rewrite lookup_ge_None_2 by lia. by injection Hmax. }
    destruct (HK r reg Er) as (kk & K0 & K1 & K2).
    assert (Hkeys : dom (r_metricsMap reg) ⊆ keys_at pl progs).
    { intros h [e He]%elem_of_dom. destruct (I1 h e) as (_ & k' & nm' & Hin & <- & _); [unfold entry_at; by rewrite Er|]. by eapply keys_in. }
    pose proof (subseteq_size _ _ Hkeys) as Hsz. rewrite size_dom in Hsz. assert (Hcnt : 0 <= sumZ (counting r <$> threads c)) by (apply sumZ_nonneg; intros x; apply storing_counting).
    apply Z.leb_le in Elim. rewrite Hm, K1 in Elim. unfold wrap32 in Elim. rewrite Z.mod_small in Elim by lia.
    assert (Heq : dom (r_metricsMap reg) = keys_at pl progs) by (apply same_set; [done|rewrite size_dom; lia]).
    assert (Hh : nm_hash nm ∈ dom (r_metricsMap reg)) by (rewrite Heq; eapply keys_in, Hon; done). apply elem_of_dom in Hh. unfold entry_at. by rewrite Er.
  - destruct (rs_regs _ !! r0) as [reg|] eqn:Er; [|done]. cbn in Hs. destruct (r_metricsMap reg !! nm_hash nm) eqn:Em; injection Hs as <- <-.
    { apply Hquiet; [done|done|]. intros r Hb. by rewrite return_pc by (by apply Hne). }
    intros r Hb. cbn [shared threads] in *. assert (Hb' : behind pl (shared c) r) by (destruct pl; done). destruct (HI r Hb') as [I1 I2]. pose proof (I2 i t Hi) as It. rewrite Epc in It. split.
    + intros h e He. rewrite (entry_at_insert _ _ reg) in He by done. destruct (decide (r = r0)) as [->|]; [|by apply I1]. cbn [r_metricsMap] in He.
      destruct (decide (h = nm_hash nm)) as [->|Hnh]; [|rewrite lookup_insert_ne in He by done; apply I1; unfold entry_at; by rewrite Er].
      rewrite lookup_insert in He. injection He as <-. cbn [e_metric]. destruct (It eq_refl) as [[It1 It2]|[x Hx]]; [|unfold entry_at in Hx; rewrite Er in Hx; cbn in Hx; congruence].
      split; [done|]. exists k, nm. split; [by eapply Hon|done].
    + intros j u Hj. apply list_lookup_insert_Some in Hj as [(-> & <- & _)|[_ Hj]]; [done|]. specialize (I2 j u Hj). destruct (rt_pc u); try done. intros ->. destruct (I2 eq_refl) as [I3|[x I3]]; [by left|right].
      exists x. by apply (rle_entry _ _ L).
  - destruct (rs_regs _ !! r0) as [reg|] eqn:Er; [|done]. injection Hs as <- <-. apply Hquiet; [done| |].
    + intros r h. rewrite (entry_at_insert _ _ reg) by done. destruct (decide (r = r0)) as [->|]; [|done]. unfold entry_at. by rewrite Er.
    + intros r Hb. by rewrite return_pc by (by apply Hne).
Qed.
Lemma place_run sched : place_inv (r_crun maxs progs sched).
Proof using HR Hmax Hsize Hmax32.
  induction sched as [|ev sched IH] using rev_ind.
  - intros r Hb. split.
    + intros h e He. unfold entry_at in He. cbn in He. rewrite list_lookup_fmap in He. destruct (maxs !! r); [|done]. cbn in He. by rewrite lookup_empty in He.
    + intros i t Hi. cbn in Hi. rewrite list_lookup_fmap in Hi. destruct (progs !! i); [|done]. by injection Hi as <-.
  - pose proof (place_step sched) as HS. cbv zeta in HS. unfold r_crun in *. rewrite crun_snoc. destruct ev as [i|[]]. unfold cstep. destruct (threads _ !! i) as [t|] eqn:Hi; [|done]. destruct (rstep _ t) as [[s' t']|] eqn:Hs; [|done]. by eapply HS.
Qed.

(** A completed lookup there, if all lookups under that key are of one kind. *)
Lemma below_limit sched k nm x : let c := r_crun maxs progs sched in
  stays_enabled pl progs -> (forall k' nm', lookup_at pl k' nm' ∈ mjoin progs -> nm_hash nm' = nm_hash nm -> k' = k) ->
  completed c (lookup_at pl k nm) x -> exists r e, behind pl (shared c) r /\ entry_at (shared c) r (nm_hash nm) = Some e /\
    x = Some (Ok (e_metric e)) /\ records (e_metric e) = true /\ implements k (e_metric e) = true.
Proof using HR Hmax Hsize Hmax32.
  intros c Hen Hkind (i & t & Hi & Hin).
  assert (Hgot : exists r, behind pl (shared c) r /\ found (shared c) r k nm x).
  { destruct pl as [r'|g']; cbn [lookup_at stays_enabled behind] in *.
    - destruct (cinv_run maxs progs sched False) as [I _]; [done|]. destruct (I i t Hi) as (_ & HF & _). rewrite Forall_forall in HF. specialize (HF _ Hin). cbn in HF. by exists r'.
    - destruct (cinv_run maxs progs sched True) as [I _]; [done|]. destruct (I i t Hi) as (_ & HF & _). rewrite Forall_forall in HF. specialize (HF _ Hin). cbn in HF. destruct HF as [[[] _]|(r & H1 & H2)]; [done|]. by exists r. }
  destruct Hgot as (r & Hb & e & He & ->). destruct (place_run sched r Hb) as [I1 _]. destruct (I1 _ _ He) as (Hrec & k' & nm' & Hin' & Hh & Himp). rewrite (Hkind _ _ Hin' Hh) in Himp.
  exists r, e. split; [done|]. split; [done|]. unfold assert_kind. by rewrite Himp.
Qed.
End place.
