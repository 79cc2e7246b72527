From Verif.Go Require Import GoInt GoConc.
From Verif.Model Require Import Config Registry RegistryConc.
From Verif.Spec Require Import BucketSpec NameSpec RegistrySpec.
From Verif.Proofs Require Import RegistryProofs.
Local Open Scope Z_scope.

(** ** The shared state only grows *)
Definition entry_at (s : rshared) (r : nat) (h : string) : option mentry :=
  reg ← rs_regs s !! r; r_metricsMap reg !! h.

Record rle (s s' : rshared) : Prop := {
  rle_entry : forall r h e, entry_at s r h = Some e -> entry_at s' r h = Some e;
  rle_max : forall r, (fun x => r_maxMetricCount x) <$> (rs_regs s !! r) <> None ->
     (fun x => r_maxMetricCount x) <$> (rs_regs s' !! r) = (fun x => r_maxMetricCount x) <$> (rs_regs s !! r);
  rle_groups : rs_groups s ⊆ rs_groups s'
}.

Lemma rle_refl s : rle s s.
Proof. by constructor. Qed.
Lemma rle_trans s1 s2 s3 : rle s1 s2 -> rle s2 s3 -> rle s1 s3.
Proof.
  intros [A1 A2 A3] [B1 B2 B3]. constructor; [eauto| |by etrans].
  intros r Hr. rewrite B2; [by apply A2|]. by rewrite A2.
Qed.

Lemma entry_at_insert s r reg reg' h r' g b n :
  rs_regs s !! r = Some reg ->
  entry_at (RShared (<[r := reg']> (rs_regs s)) g b n) r' h =
  if decide (r' = r) then r_metricsMap reg' !! h else entry_at s r' h.
Proof.
  intros Hr. unfold entry_at. cbn [rs_regs]. destruct (decide (r' = r)) as [->|N].
  - rewrite list_lookup_insert by (by apply lookup_lt_Some in Hr). done.
  - by rewrite list_lookup_insert_ne.
Qed.

Lemma rstep_le s t s' t' : rstep s t = Some (s', t') -> rle s s'.
Proof.
  unfold rstep. intros H. destruct (rt_pc t) as [|g k nm|g k nm|r k nm|r k nm|r k nm m|r k nm m|r k nm m].
  - destruct (rt_todo t) as [|[r k nm|g k nm|b] todo]; [done|..]; injection H as <- <-; by constructor.
  - destruct (rs_groups s !! g); injection H as <- <-; apply rle_refl.
  - destruct (rs_groups s !! g) eqn:E; injection H as <- <-; [apply rle_refl|]. constructor; cbn [rs_groups].
    + intros r h e. unfold entry_at. cbn [rs_regs]. intros He.
      destruct (rs_regs s !! r) as [reg|] eqn:Er; [|done]. rewrite lookup_app_l by (by apply lookup_lt_Some in Er).
      by rewrite Er.
    + intros r Hr. cbn [rs_regs]. destruct (rs_regs s !! r) as [reg|] eqn:Er; [|done].
      rewrite lookup_app_l by (by apply lookup_lt_Some in Er). by rewrite Er.
    + by apply insert_subseteq.
  - destruct (rs_regs s !! r); [|done]. cbn in H.
    destruct (r_metricsMap _ !! _); injection H as <- <-; apply rle_refl.
  - injection H as <- <-. by constructor.
  - destruct (rs_regs s !! r); [|done]. injection H as <- <-. apply rle_refl.
  - destruct (rs_regs s !! r) as [reg|] eqn:Er; [|done]. cbn in H.
    destruct (r_metricsMap reg !! nm_hash nm) eqn:Em; injection H as <- <-; [apply rle_refl|]. constructor.
    + intros r' h e He. rewrite (entry_at_insert _ _ reg) by done. destruct (decide (r' = r)) as [->|N]; [|done].
      unfold entry_at in He. rewrite Er in He. cbn in He. cbn [r_metricsMap].
      rewrite lookup_insert_ne; [done|]. congruence.
    + intros r' Hr'. cbn [rs_regs]. destruct (decide (r' = r)) as [->|N].
      * rewrite list_lookup_insert by (by apply lookup_lt_Some in Er). by rewrite Er.
      * by rewrite list_lookup_insert_ne.
    + done.
  - destruct (rs_regs s !! r) as [reg|] eqn:Er; [|done]. injection H as <- <-. constructor.
    + intros r' h e He. rewrite (entry_at_insert _ _ reg) by done. destruct (decide (r' = r)) as [->|N]; [|done].
      unfold entry_at in He. by rewrite Er in He.
    + intros r' Hr'. cbn [rs_regs]. destruct (decide (r' = r)) as [->|N].
      * rewrite list_lookup_insert by (by apply lookup_lt_Some in Er). by rewrite Er.
      * by rewrite list_lookup_insert_ne.
    + done.
Qed.

(** ** Results *)
(** A lookup of kind [k] that returned [x] found entry [(r, h)]. *)
Definition found (s : rshared) (r : nat) (k : mkind) (nm : nameref) (x : option (res metric)) : Prop :=
  exists e, entry_at s r (nm_hash nm) = Some e /\ x = Some (assert_kind k (e_metric e)).

Definition got_ok (strict : Prop) (s : rshared) (ox : rop * option (res metric)) : Prop :=
  match ox with
  | (RLookup r k nm, x) => found s r k nm x
  | (GLookup g k nm, x) =>
      (~ strict /\ x = Some (Ok (nop k))) \/ exists r, rs_groups s !! g = Some r /\ found s r k nm x
  | (GSetEnable _, x) => x = None
  end.

(** The call being executed may use registry [r]. *)
Definition on_reg (s : rshared) (todo : list rop) (r : nat) (k : mkind) (nm : nameref) : Prop :=
  exists rest, todo = RLookup r k nm :: rest \/
  exists g, rs_groups s !! g = Some r /\ todo = GLookup g k nm :: rest.

Definition pc_ok (s : rshared) (t : rthread) : Prop :=
  match rt_pc t with
  | PIdle => True
  | PGroup g k nm | PGroupStore g k nm => exists rest, rt_todo t = GLookup g k nm :: rest
  | PLoad r k nm | PCreate r k nm => on_reg s (rt_todo t) r k nm
  | PCount r k nm m | PStore r k nm m => on_reg s (rt_todo t) r k nm
  | PAdd r k nm m => on_reg s (rt_todo t) r k nm /\
      exists e, entry_at s r (nm_hash nm) = Some e /\ e_metric e = m
  end.

Definition thr_ok (strict : Prop) (s : rshared) (t : rthread) : Prop :=
  pc_ok s t /\ Forall (got_ok strict s) (rt_got t) /\
  (strict -> Forall (fun o => o <> GSetEnable false) (rt_todo t)).

Lemma found_mono s s' r k nm x : rle s s' -> found s r k nm x -> found s' r k nm x.
Proof. intros L (e & H1 & H2). exists e. split; [by apply (rle_entry _ _ L)|done]. Qed.
Lemma got_mono strict s s' ox : rle s s' -> got_ok strict s ox -> got_ok strict s' ox.
Proof.
  intros L. destruct ox as [[r k nm|g k nm|b] x]; cbn; [by apply found_mono| |done].
  intros [H|(r & H1 & H2)]; [by left|]. right. exists r. split; [|by eapply found_mono].
  eapply lookup_weaken; [done|]. apply (rle_groups _ _ L).
Qed.
Lemma on_reg_mono s s' todo r k nm : rle s s' -> on_reg s todo r k nm -> on_reg s' todo r k nm.
Proof.
  intros L (rest & [H|(g & H1 & H2)]); exists rest; [by left|]. right. exists g. split; [|done].
  eapply lookup_weaken; [done|]. apply (rle_groups _ _ L).
Qed.
Lemma thr_mono strict s s' t : rle s s' -> thr_ok strict s t -> thr_ok strict s' t.
Proof.
  intros L (H1 & H2 & H3). split_and!; [|eapply Forall_impl; [done|]; intros; by eapply got_mono|done].
  unfold pc_ok in *. destruct (rt_pc t); try done; try (by eapply on_reg_mono).
  destruct H1 as [H1 (e & H4 & H5)]. split; [by eapply on_reg_mono|]. exists e. split; [|done].
  by apply (rle_entry _ _ L).
Qed.

(** Returning the entry found. *)
Lemma return_ok strict s t r k nm e :
  on_reg s (rt_todo t) r k nm -> entry_at s r (nm_hash nm) = Some e ->
  thr_ok strict s t -> thr_ok strict s (r_return t (Some (assert_kind k (e_metric e)))).
Proof.
  intros (rest & Ho) He (H1 & H2 & H3). unfold r_return.
  assert (found s r k nm (Some (assert_kind k (e_metric e)))) as Hf by (exists e; done).
  destruct Ho as [E|(g & Hg & E)]; rewrite E in *; split_and!; cbn [rt_pc rt_got rt_todo]; try done.
  - apply Forall_app. split; [done|]. by apply Forall_singleton.
  - intros Hs. specialize (H3 Hs). by apply Forall_cons in H3 as [_ H3].
  - apply Forall_app. split; [done|]. apply Forall_singleton. right. eauto.
  - intros Hs. specialize (H3 Hs). by apply Forall_cons in H3 as [_ H3].
Qed.

Lemma goto_ok strict s t pc :
  pc_ok s (RThread pc (rt_todo t) (rt_got t)) -> thr_ok strict s t -> thr_ok strict s (r_goto t pc).
Proof. intros Hp (H1 & H2 & H3). split_and!; done. Qed.

Lemma rstep_thr (strict : Prop) s t s' t' :
  rstep s t = Some (s', t') -> (strict -> rs_enable s = true) -> thr_ok strict s t ->
  thr_ok strict s' t' /\ (strict -> rs_enable s' = true).
Proof.
  intros H He Ht. pose proof (rstep_le _ _ _ _ H) as L. pose proof (thr_mono _ _ _ _ L Ht) as Ht'.
  pose proof Ht as (P1 & P2 & P3). unfold pc_ok in P1. unfold rstep in H.
  destruct (rt_pc t) as [|g k nm|g k nm|r k nm|r k nm|r k nm m|r k nm m|r k nm m] eqn:Epc.
  - destruct (rt_todo t) as [|[r k nm|g k nm|b] todo] eqn:Etodo; [done|..]; injection H as <- <-.
    + split; [|done]. apply goto_ok; [|done]. cbn. rewrite Etodo. exists todo. by left.
    + split; [|done]. destruct (rs_enable s) eqn:Een.
      * apply goto_ok; [|done]. cbn. exists todo. done.
      * unfold r_return. rewrite Etodo. split_and!; cbn [rt_pc rt_got rt_todo]; [done|..].
        -- apply Forall_app. split; [done|]. apply Forall_singleton. cbn. left. split; [|done].
           intros Hs. by specialize (He Hs).
        -- intros Hs. specialize (P3 Hs). by apply Forall_cons in P3 as [_ P3].
    + destruct Ht' as (Q1 & Q2 & Q3). cbn [rs_enable]. unfold r_return. rewrite Etodo. split.
      * split_and!; cbn [rt_pc rt_got rt_todo]; [done|..].
        -- apply Forall_app. split; [done|]. apply Forall_singleton. done.
        -- intros Hs. specialize (P3 Hs). by apply Forall_cons in P3 as [_ P3].
      * intros Hs. specialize (P3 Hs). apply Forall_cons in P3 as [P3 _]. by destruct b.
  - destruct P1 as [rest Er]. destruct (rs_groups s !! g) as [r|] eqn:Eg; injection H as <- <-.
    + split; [|done]. apply goto_ok; [|done]. cbn. rewrite Er. exists rest. right. eauto.
    + split; [|done]. apply goto_ok; [|done]. cbn. rewrite Er. eauto.
  - destruct P1 as [rest Er]. destruct (rs_groups s !! g) as [r|] eqn:Eg; injection H as <- <-.
    + split; [|done]. apply goto_ok; [|done]. cbn. rewrite Er. exists rest. right. eauto.
    + split; [|done]. apply goto_ok; [|done]. cbn. rewrite Er. exists rest. right. exists g.
      cbn [rs_groups]. by rewrite lookup_insert.
  - destruct (rs_regs s !! r) as [reg|] eqn:Er; [|done]. cbn in H.
    destruct (r_metricsMap reg !! nm_hash nm) as [e|] eqn:Em; injection H as <- <-; (split; [|done]).
    + eapply return_ok; [done| |done]. unfold entry_at. by rewrite Er.
    + by apply goto_ok.
  - injection H as <- <-. split; [|done]. apply goto_ok; [|done]. cbn. by eapply on_reg_mono.
  - destruct (rs_regs s !! r) as [reg|] eqn:Er; [|done]. injection H as <- <-. split; [|done].
    by apply goto_ok.
  - destruct (rs_regs s !! r) as [reg|] eqn:Er; [|done]. cbn in H.
    destruct (r_metricsMap reg !! nm_hash nm) as [e|] eqn:Em; injection H as <- <-; (split; [|done]).
    + eapply return_ok; [done| |done]. unfold entry_at. by rewrite Er.
    + apply goto_ok; [|done]. cbn. split; [by eapply on_reg_mono|].
      eexists. rewrite (entry_at_insert _ _ reg) by done. rewrite decide_True by done. cbn [r_metricsMap].
      rewrite lookup_insert. done.
  - destruct (rs_regs s !! r) as [reg|] eqn:Er; [|done]. injection H as <- <-. split; [|done].
    destruct P1 as [P1 (e & Hent & <-)]. apply (return_ok _ _ _ r k nm); [by eapply on_reg_mono| |done].
    by apply (rle_entry _ _ L).
Qed.

Definition cinv (strict : Prop) (c : config rshared rthread) : Prop :=
  (forall i t, threads c !! i = Some t -> thr_ok strict (shared c) t) /\ (strict -> rs_enable (shared c) = true).

Lemma cinv_step (strict : Prop) s ts i t s' t' :
  cinv strict (Config s ts) -> ts !! i = Some t -> rstep s t = Some (s', t') ->
  cinv strict (Config s' (<[i := t']> ts)).
Proof.
  intros [I1 I2] Hi Hst. cbn [shared threads] in *.
  destruct (rstep_thr strict s t s' t' Hst I2 (I1 i t Hi)) as [A B].
  split; cbn [shared threads]; [|done]. intros j u Hj. destruct (decide (j = i)) as [->|N].
  + rewrite list_lookup_insert in Hj by (by apply lookup_lt_Some in Hi). by injection Hj as <-.
  + rewrite list_lookup_insert_ne in Hj by done. eapply thr_mono; [by eapply rstep_le|eauto].
Qed.

Lemma cinv_init (strict : Prop) maxs progs :
  (strict -> Forall (Forall (fun o => o <> GSetEnable false)) progs) -> cinv strict (r_init maxs progs).
Proof.
  intros Hs. split; [|done]. intros i t Hi. cbn in Hi. rewrite list_lookup_fmap in Hi.
  destruct (progs !! i) as [p|] eqn:Hp; [|done]. injection Hi as <-. split_and!; try done.
  + cbn. constructor.
  + intros S. specialize (Hs S). rewrite Forall_lookup in Hs. by apply (Hs i).
Qed.

Lemma cinv_run maxs progs sched (strict : Prop) :
  (strict -> Forall (Forall (fun o => o <> GSetEnable false)) progs) ->
  cinv strict (r_crun maxs progs sched).
Proof.
  intros Hs. unfold r_crun. apply (crun_inv rstep (fun s _ => s) (cinv strict)).
  - by apply cinv_init.
  - intros s ts i t s' t'. apply cinv_step.
  - intros s ts [].
Qed.

(** Entries are permanent. *)
Lemma crun_le c sched : rle (shared c) (shared (crun rstep (fun s (_ : Empty_set) => s) c sched)).
Proof.
  induction sched as [|ev sched IH] using rev_ind; [apply rle_refl|].
  rewrite crun_snoc. eapply rle_trans; [done|]. destruct (crun rstep _ c sched) as [s ts].
  destruct ev as [i|[]]. cbn. destruct (ts !! i) as [t|]; [|apply rle_refl].
  destruct (rstep s t) as [[s' t']|] eqn:E; [|apply rle_refl]. cbn. by eapply rstep_le.
Qed.

(** ** Identities *)
Inductive owner := OEntry (r : nat) (h : string) | OThread (i : nat).

Definition pending_ref (t : rthread) : option nat :=
  match rt_pc t with PCount _ _ _ m | PStore _ _ _ m => mref m | _ => None end.

Definition owns (c : config rshared rthread) (o : owner) (ref : nat) : Prop :=
  match o with
  | OEntry r h => exists e, entry_at (shared c) r h = Some e /\ mref (e_metric e) = Some ref
  | OThread i => exists t, threads c !! i = Some t /\ pending_ref t = Some ref
  end.

Definition refs_ok (c : config rshared rthread) : Prop :=
  (forall o ref, owns c o ref -> (ref < rs_next (shared c))%nat) /\
  (forall o o' ref, owns c o ref -> owns c o' ref -> o = o').

Lemma refs_step s ts i t s' t' :
  ts !! i = Some t -> rstep s t = Some (s', t') ->
  (rs_next s <= rs_next s')%nat /\
  exists moved : option owner, forall o ref, owns (Config s' (<[i := t']> ts)) o ref ->
    (owns (Config s ts) o ref /\ (moved = None \/ o <> OThread i)) \/
    (o = OThread i /\ ref = rs_next s /\ (rs_next s < rs_next s')%nat) \/
    (moved = Some o /\ owns (Config s ts) (OThread i) ref).
Proof.
  intros Hi H.
  assert (forall s1, rs_regs s1 = rs_regs s -> (pending_ref t' = None \/ pending_ref t' = pending_ref t) ->
    forall o ref, owns (Config s1 (<[i := t']> ts)) o ref -> owns (Config s ts) o ref) as Hsame.
  { intros s1 Hr Hp [r h|j] ref; cbn [owns shared threads].
    - unfold entry_at. by rewrite Hr.
    - intros (u & Hu & Hpu). destruct (decide (j = i)) as [->|N].
      + rewrite list_lookup_insert in Hu by (by apply lookup_lt_Some in Hi). injection Hu as <-.
        exists t. split; [done|]. destruct Hp as [E|E]; congruence.
      + rewrite list_lookup_insert_ne in Hu by done. eauto. }
  assert (forall t x, pending_ref (r_return t x) = None \/ pending_ref (r_return t x) = pending_ref t) as Hret.
  { intros u x. unfold r_return. destruct (rt_todo u) eqn:E; [by right|by left]. }
  unfold rstep in H. destruct (rt_pc t) as [|g k nm|g k nm|r k nm|r k nm|r k nm m|r k nm m|r k nm m] eqn:Epc.
  - destruct (rt_todo t) as [|[r k nm|g k nm|b] todo] eqn:Etodo; [done|..]; injection H as <- <-; (split; [cbn; lia|]);
      exists None; intros o ref Ho; left; (split; [|by left]); eapply Hsame; try exact Ho; try done.
    + by left.
    + destruct (rs_enable s); [by left|apply Hret].
  - destruct (rs_groups s !! g); injection H as <- <-; (split; [cbn; lia|]);
      exists None; intros o ref Ho; left; (split; [|by left]); eapply Hsame; try exact Ho; try done; by left.
  - destruct (rs_groups s !! g); injection H as <- <-; (split; [cbn; lia|]);
      exists None; intros o ref Ho; left; (split; [|by left]).
    + eapply Hsame; try exact Ho; try done; by left.
    + apply (Hsame s); [done|by left|]. destruct o as [r h|j]; cbn [owns shared threads] in Ho |- *; [|done].
      destruct Ho as (e & He & Hr). exists e. split; [|done]. unfold entry_at in *. cbn [rs_regs] in He.
      destruct (decide (r < length (rs_regs s))%nat).
      * by rewrite lookup_app_l in He by done.
      * rewrite lookup_app_r in He by lia. exfalso. destruct (r - length (rs_regs s))%nat eqn:Ed; cbn in He.
        -- by rewrite lookup_empty in He.
        -- done.
  - destruct (rs_regs s !! r); [|done]. cbn in H.
    destruct (r_metricsMap _ !! _); injection H as <- <-; (split; [cbn; lia|]);
      exists None; intros o ref Ho; left; (split; [|by left]); eapply Hsame; try exact Ho; try done; by left.
  - injection H as <- <-. split; [cbn; lia|]. exists None. intros o ref Ho.
    assert (o = OThread i \/ o <> OThread i) as [->|N] by (destruct o as [? ?|j]; [by right|]; destruct (decide (j = i)); [left|right]; congruence).
    { destruct (decide True) as [_|]; [|done]. right. left. split; [done|]. split; [|cbn; lia].
      destruct Ho as (u & Hu & Hp). cbn [threads] in Hu. rewrite list_lookup_insert in Hu by (by apply lookup_lt_Some in Hi).
      injection Hu as <-. cbn in Hp. rewrite mref_create in Hp. by injection Hp as <-. }
    left. split; [|by left]. destruct o as [r' h|j]; cbn [owns shared threads] in Ho |- *; [done|].
    destruct Ho as (u & Hu & Hp). rewrite list_lookup_insert_ne in Hu by congruence. eauto.
  - destruct (rs_regs s !! r) as [reg|] eqn:Er; [|done]. injection H as <- <-. split; [lia|].
    exists None. intros o ref Ho. left. split; [|by left]. eapply Hsame; try exact Ho; [done|].
    unfold pending_ref. rewrite Epc. cbn. destruct (_ <=? _); [left; apply mref_nop|by right].
  - destruct (rs_regs s !! r) as [reg|] eqn:Er; [|done]. cbn in H.
    destruct (r_metricsMap reg !! nm_hash nm) as [e|] eqn:Em; injection H as <- <-; (split; [cbn; lia|]).
    + exists None; intros o ref Ho; left; (split; [|by left]); eapply Hsame; try exact Ho; try done.
    + exists (Some (OEntry r (nm_hash nm))). intros o ref Ho.
      destruct o as [r' h|j]; cbn [owns shared threads] in Ho |- *.
      * destruct Ho as (e & He & Hr). rewrite (entry_at_insert _ _ reg) in He by done.
        destruct (decide (r' = r)) as [->|N]; [|left; split; [eauto|by right]].
        cbn [r_metricsMap] in He. destruct (decide (h = nm_hash nm)) as [->|N].
        -- right. right. split; [done|]. rewrite lookup_insert in He. injection He as <-. cbn in Hr.
           exists t. split; [done|]. unfold pending_ref. by rewrite Epc.
        -- left. rewrite lookup_insert_ne in He by done. split; [|by right]. exists e.
           unfold entry_at. rewrite Er. done.
      * destruct Ho as (u & Hu & Hp). destruct (decide (j = i)) as [->|N].
        -- rewrite list_lookup_insert in Hu by (by apply lookup_lt_Some in Hi). injection Hu as <-. done.
        -- rewrite list_lookup_insert_ne in Hu by done. left. split; [eauto|]. right. congruence.
  - destruct (rs_regs s !! r) as [reg|] eqn:Er; [|done]. injection H as <- <-. split; [cbn; lia|].
    exists None. intros o ref Ho. left. split; [|by left]. apply (Hsame s); [done|apply Hret|].
    destruct o as [r' h|j]; cbn [owns shared threads] in Ho |- *; [|done].
    rewrite (entry_at_insert _ _ reg) in Ho by done. destruct (decide (r' = r)) as [->|N]; [|done].
    unfold entry_at. by rewrite Er.
Qed.

Lemma refs_run maxs progs sched : refs_ok (r_crun maxs progs sched).
Proof.
  unfold r_crun. apply (crun_inv rstep (fun s _ => s) refs_ok).
  - assert (forall o ref, ~ owns (r_init maxs progs) o ref) as Hno.
    { intros [r h|i] ref; cbn.
      - intros (e & He & _). unfold entry_at in He. cbn in He. rewrite list_lookup_fmap in He.
        destruct (maxs !! r); [|done]. cbn in He. by rewrite lookup_empty in He.
      - intros (t & Ht & Hp). rewrite list_lookup_fmap in Ht. destruct (progs !! i); [|done]. by injection Ht as <-. }
    split; intros; by exfalso; eapply Hno.
  - intros s ts i t s' t' [R1 R2] Hi Hs. destruct (refs_step s ts i t s' t' Hi Hs) as (Hn & moved & Hm).
    cbn [shared] in *. split; cbn [shared].
    + intros o ref Ho. destruct (Hm _ _ Ho) as [[H _]|[(_ & -> & H)|[_ H]]]; [apply R1 in H; lia|done|apply R1 in H; lia].
    + intros o o' ref Ho Ho'.
      destruct (Hm _ _ Ho) as [[H N]|[(E & Hr & Hlt)|[E H]]], (Hm _ _ Ho') as [[H' N']|[(E' & Hr' & Hlt')|[E' H']]].
      * eauto.
      * apply R1 in H. lia.
      * pose proof (R2 _ _ _ H H') as ->. destruct N as [N|N]; congruence.
      * apply R1 in H'. lia.
      * congruence.
      * apply R1 in H'. lia.
      * pose proof (R2 _ _ _ H' H) as ->. destruct N' as [N'|N']; congruence.
      * apply R1 in H. lia.
      * congruence.
  - intros s ts [].
Qed.
