From Verif.Go Require Import GoInt.
From Verif.Model Require Import Config Registry.
From Verif.Spec Require Import NameSpec RegistrySpec.
Local Open Scope Z_scope.

Lemma reg_Get_spec r n k nm r' n' x :
  reg_Get r n k nm = (r', n', x) ->
  r_metricsMap r ⊆ r_metricsMap r' /\ r_maxMetricCount r' = r_maxMetricCount r /\
  exists e, r_metricsMap r' !! nm_hash nm = Some e /\ x = assert_kind k (e_metric e) /\
    ((r_metricsMap r !! nm_hash nm = Some e /\ r' = r /\ n' = n) \/
     (r_metricsMap r !! nm_hash nm = None /\ e_name e = nm /\ n' = S n /\
      r_metricsMap r' = <[nm_hash nm := e]> (r_metricsMap r) /\
      r_metricsCount r' = wrap32 (r_metricsCount r + 1) /\
      e_metric e = if r_maxMetricCount r <=? r_metricsCount r then nop k else create k nm n)).
Proof.
  unfold reg_Get, getMetric. destruct (r_metricsMap r !! nm_hash nm) as [e|] eqn:E; intros H; injection H as <- <- <-.
  - split_and!; [done..|]. exists e. split_and!; [done..|]. left. done.
  - cbn [r_metricsMap r_maxMetricCount r_metricsCount].
    split_and!; [by apply insert_subseteq|done|]. eexists. rewrite lookup_insert. split_and!; [done|done|].
    right. split_and!; done.
Qed.

Lemma reg_run_spec r n ops r' n' xs :
  reg_run r n ops = (r', n', xs) ->
  r_metricsMap r ⊆ r_metricsMap r' /\ r_maxMetricCount r' = r_maxMetricCount r /\ length xs = length ops /\
  forall i k nm x, ops !! i = Some (k, nm) -> xs !! i = Some x ->
    exists e, r_metricsMap r' !! nm_hash nm = Some e /\ x = assert_kind k (e_metric e).
Proof.
  revert r n xs. induction ops as [|[k nm] ops IH]; intros r n xs H; cbn [reg_run] in H.
  - injection H as <- <- <-. split_and!; try done. 
  - destruct (reg_Get r n k nm) as [[r1 n1] m] eqn:E1.
    destruct (reg_run r1 n1 ops) as [[r2 n2] ms] eqn:E2. injection H as -> -> <-.
    apply reg_Get_spec in E1 as (A1 & A2 & e & A3 & A4 & _).
    apply IH in E2 as (B1 & B2 & B3 & B4). split_and!; [by etrans|congruence|cbn; congruence|].
    intros [|i] k' nm' x Hi Hx; cbn in Hi, Hx.
    + injection Hi as <- <-. injection Hx as <-. exists e. split; [|done]. by eapply lookup_weaken.
    + eauto.
Qed.

(** Invariants over a run from the empty registry. *)
Lemma reg_run_inv (I : registry -> nat -> Prop) (P : mkind -> nameref -> Prop) r n ops :
  I r n -> Forall (fun o => P o.1 o.2) ops ->
  (forall r n k nm r' n' x, I r n -> P k nm -> reg_Get r n k nm = (r', n', x) -> I r' n') ->
  forall r' n' xs, reg_run r n ops = (r', n', xs) -> I r' n'.
Proof.
  revert r n. induction ops as [|[k nm] ops IH]; intros r n H0 HP Hs r' n' xs H; cbn [reg_run] in H.
  - by injection H as <- <- <-.
  - destruct (reg_Get r n k nm) as [[r1 n1] m] eqn:E1.
    destruct (reg_run r1 n1 ops) as [[r2 n2] ms] eqn:E2. injection H as -> -> <-.
    apply Forall_cons in HP as [HP1 HP2]. cbn in HP1. eapply (IH r1 n1); eauto.
Qed.

Lemma reg_run_dom r n ops r' n' xs :
  reg_run r n ops = (r', n', xs) -> dom (r_metricsMap r') = dom (r_metricsMap r) ∪ hashes ops.
Proof.
  revert r n xs. induction ops as [|[k nm] ops IH]; intros r n xs H; cbn [reg_run] in H.
  - injection H as <- <- <-. unfold hashes. cbn. set_solver.
  - destruct (reg_Get r n k nm) as [[r1 n1] m] eqn:E1.
    destruct (reg_run r1 n1 ops) as [[r2 n2] ms] eqn:E2. injection H as -> -> <-.
    apply IH in E2. rewrite E2. apply reg_Get_spec in E1 as (_ & _ & e & A3 & _ & [(A4 & -> & _)|(A4 & _ & _ & A5 & _)]).
    + assert (nm_hash nm ∈ dom (r_metricsMap r)) by (by apply elem_of_dom_2 in A4). unfold hashes. cbn. set_solver.
    + rewrite A5, dom_insert_L. unfold hashes. cbn. set_solver.
Qed.

Lemma wrap32_small x : 0 <= x < 2147483648 -> wrap32 x = x.
Proof. intros H. unfold wrap32. rewrite Z.mod_small; lia. Qed.

Lemma recording_insert m h e :
  m !! h = None ->
  recording_entries (<[h := e]> m) = recording_entries m + (if records (e_metric e) then 1 else 0).
Proof.
  intros H. unfold recording_entries. destruct (records (e_metric e)) eqn:E.
  - rewrite map_filter_insert_True by done. rewrite map_size_insert_None; [lia|].
    rewrite map_filter_lookup, H. done.
  - rewrite map_filter_insert_False by (cbn; congruence). rewrite delete_notin by done. lia.
Qed.

Definition rinv (max : Z) (r : registry) (n : nat) : Prop :=
  r_maxMetricCount r = max /\ (size (r_metricsMap r) <= n)%nat /\
  (Z.of_nat n < 2147483648 -> r_metricsCount r = Z.of_nat (size (r_metricsMap r)) /\
     recording_entries (r_metricsMap r) <= Z.max 0 max).

Lemma records_nop k : records (nop k) = false.
Proof. by destruct k. Qed.
Lemma records_create k nm n : records (create k nm n) = true.
Proof. by destruct k. Qed.

Lemma recording_le_size m : 0 <= recording_entries m <= Z.of_nat (size m).
Proof.
  unfold recording_entries. split; [lia|]. apply inj_le. 
  rewrite <- !size_dom. apply subseteq_size. apply subseteq_dom, map_filter_subseteq.
Qed.

Lemma rinv_run max ops r' n' xs :
  reg_run (NewMetricRegistry max) 0 ops = (r', n', xs) -> rinv max r' n' /\ (n' <= length ops)%nat.
Proof.
  intros H. split.
  - revert H. apply (reg_run_inv (rinv max) (fun _ _ => True)); [|by apply Forall_true|].
    + unfold rinv. cbn [NewMetricRegistry r_maxMetricCount r_metricsMap r_metricsCount].
      rewrite map_size_empty. split_and!; [done|lia|]. intros _. split; [done|]. unfold recording_entries.
      rewrite map_filter_empty, map_size_empty. lia.
    + clear. intros r n k nm r' n' x (I1 & I2 & I3) _ H.
      apply reg_Get_spec in H as (_ & H2 & e & _ & _ & [(_ & -> & ->)|(H3 & _ & -> & H4 & H5 & H6)]); [done|].
      unfold rinv. rewrite H4. rewrite map_size_insert_None by done. split_and!; [congruence|lia|].
      intros Hn. destruct I3 as [J1 J2]; [lia|]. rewrite H5, J1. rewrite wrap32_small by lia. split; [lia|].
      rewrite recording_insert by done. rewrite H6. rewrite I1, J1.
      pose proof (recording_le_size (r_metricsMap r)).
      destruct (Z.leb_spec max (Z.of_nat (size (r_metricsMap r)))); rewrite ?records_nop, ?records_create; lia.
  - revert H. generalize (NewMetricRegistry max) as r. 
    assert (forall ops r n r' n' xs, reg_run r n ops = (r', n', xs) -> (n' <= n + length ops)%nat) as Hg.
    { clear. induction ops as [|[k nm] ops IH]; intros r n r' n' xs H; cbn [reg_run] in H.
      - injection H as <- <- <-. cbn. lia.
      - destruct (reg_Get r n k nm) as [[r1 n1] m] eqn:E1.
        destruct (reg_run r1 n1 ops) as [[r2 n2] ms] eqn:E2. injection H as -> -> <-.
        apply IH in E2. apply reg_Get_spec in E1 as (_ & _ & e & _ & _ & [(_ & _ & ->)|(_ & _ & -> & _)]); cbn; lia. }
    intros r H. apply Hg in H. lia.
Qed.

(** The next new name gets the no-op metric once the registry is full. *)
Lemma reg_full max ops r' n' xs k nm r2 n2 x :
  reg_run (NewMetricRegistry max) 0 ops = (r', n', xs) -> Z.of_nat (length ops) < 2147483648 ->
  reg_Get r' n' k nm = (r2, n2, x) -> r_metricsMap r' !! nm_hash nm = None ->
  (max <= Z.of_nat (size (r_metricsMap r')) -> x = Ok (nop k)) /\
  (Z.of_nat (size (r_metricsMap r')) < max -> x = Ok (create k nm n')).
Proof.
  intros H Hl Hg Hn. destruct (rinv_run _ _ _ _ _ H) as [(I1 & I2 & I3) I4].
  destruct I3 as [J1 _]; [lia|].
  apply reg_Get_spec in Hg as (_ & _ & e & _ & -> & [(H3 & _)|(_ & _ & _ & _ & _ & H6)]); [congruence|].
  rewrite H6, I1, J1. destruct (Z.leb_spec max (Z.of_nat (size (r_metricsMap r')))); split; intros; try lia; by destruct k.
Qed.

(** Each hash key used with one kind only. *)
Lemma kinds_run (kind : string -> mkind) max ops r' n' xs :
  Forall (fun o => o.1 = kind (nm_hash o.2)) ops ->
  reg_run (NewMetricRegistry max) 0 ops = (r', n', xs) ->
  forall h e, r_metricsMap r' !! h = Some e -> implements (kind h) (e_metric e) = true.
Proof.
  intros HP H. revert H.
  apply (reg_run_inv (fun r _ => forall h e, r_metricsMap r !! h = Some e -> implements (kind h) (e_metric e) = true)
    (fun k nm => k = kind (nm_hash nm))).
  - intros h e He. cbn in He. by rewrite lookup_empty in He.
  - done.
  - clear. intros r n k nm r' n' x I -> H h e He.
    apply reg_Get_spec in H as (_ & _ & e' & _ & _ & [(_ & -> & ->)|(H3 & _ & _ & H4 & _ & H6)]); [eauto|].
    rewrite H4 in He. apply lookup_insert_Some in He as [[<- <-]|[? He]]; [|eauto].
    rewrite H6. destruct (r_maxMetricCount r <=? r_metricsCount r); by destruct (kind (nm_hash nm)).
Qed.

(** Every listed metric implements exactly one of the two interfaces. *)
Lemma implements_xor m : implements KCompass m = negb (implements KFastCompass m).
Proof. by destruct m. Qed.

(** ** LastUpdateTime *)
Lemma reg_lut_loop_spec lut order r :
  let z := reg_lut_loop lut order r in
  r <= z /\ (forall h e, (h, e) ∈ order -> lut (e_metric e) <= z) /\
  (z = r \/ exists h e, (h, e) ∈ order /\ z = lut (e_metric e)).
Proof.
  cbv zeta. revert r. induction order as [|[h e] order IH]; intros r; cbn [reg_lut_loop].
  - split_and!; [lia| |by left]. intros h e He. by apply elem_of_nil in He.
  - destruct (IH (if r <? lut (e_metric e) then lut (e_metric e) else r)) as (A & B & C).
    set (z := reg_lut_loop _ _ _) in *.
    destruct (Z.ltb_spec r (lut (e_metric e))); split_and!.
    + lia.
    + intros h' e' He. apply elem_of_cons in He as [He|He]; [injection He as -> ->; lia|eauto].
    + destruct C as [C|(h' & e' & C1 & C2)].
      * right. exists h, e. split; [by left|done].
      * right. exists h', e'. split; [by right|done].
    + lia.
    + intros h' e' He. apply elem_of_cons in He as [He|He]; [injection He as -> ->; lia|eauto].
    + destruct C as [C|(h' & e' & C1 & C2)]; [by left|].
      right. exists h', e'. split; [by right|done].
Qed.

(** ** The manager *)
Definition mref (m : metric) : option nat :=
  match m with MCompass ref _ => Some ref | MFastCompass ref _ _ _ => Some ref | _ => None end.

Definition mgr_entry (d : manager) (g h : string) : option mentry :=
  match m_registries d !! g with Some r => r_metricsMap r !! h | None => None end.

Definition mgr_refs (d : manager) : Prop :=
  (forall g h e ref, mgr_entry d g h = Some e -> mref (e_metric e) = Some ref -> (ref < m_next d)%nat) /\
  (forall g h e g' h' e' ref, mgr_entry d g h = Some e -> mgr_entry d g' h' = Some e' ->
     mref (e_metric e) = Some ref -> mref (e_metric e') = Some ref -> g = g' /\ h = h').

Lemma mgr_Get_enabled d k g nm d' x :
  m_enable d = true -> mgr_Get d k g nm = (d', x) ->
  let r := default (NewMetricRegistry 5000) (m_registries d !! g) in
  exists r' n', reg_Get r (m_next d) k nm = (r', n', x) /\
    d' = DefaultMetricManager (<[g := r']> (m_registries d)) true n'.
Proof.
  intros He H. unfold mgr_Get, getMetricRegistry in H. rewrite He in H. cbn [negb] in H. cbv zeta.
  destruct (m_registries d !! g) as [r|] eqn:E; cbn [default].
  - destruct (reg_Get r (m_next d) k nm) as [[r' n'] y] eqn:E2. injection H as <- <-. exists r', n'.
    rewrite He. done.
  - cbn [m_registries m_enable m_next] in H.
    destruct (reg_Get (NewMetricRegistry 5000) (m_next d) k nm) as [[r' n'] y] eqn:E2. injection H as <- <-.
    exists r', n'. rewrite insert_insert. done.
Qed.

Lemma mgr_entry_insert d g r' n' b g' h :
  mgr_entry (DefaultMetricManager (<[g := r']> (m_registries d)) b n') g' h =
  if decide (g' = g) then r_metricsMap r' !! h else mgr_entry d g' h.
Proof.
  unfold mgr_entry. cbn [m_registries]. destruct (decide (g' = g)) as [->|N].
  - by rewrite lookup_insert.
  - by rewrite lookup_insert_ne.
Qed.

Lemma mgr_entry_default d g h :
  r_metricsMap (default (NewMetricRegistry 5000) (m_registries d !! g)) !! h = mgr_entry d g h.
Proof. unfold mgr_entry. by destruct (m_registries d !! g). Qed.

Lemma mref_nop k : mref (nop k) = None.
Proof. by destruct k. Qed.
Lemma mref_create k nm n : mref (create k nm n) = Some n.
Proof. by destruct k. Qed.

Lemma mgr_act_entries d op d' x :
  mgr_act d op = (d', x) -> forall g h e, mgr_entry d g h = Some e -> mgr_entry d' g h = Some e.
Proof.
  intros H g h e He. destruct op as [k g' nm|b]; cbn [mgr_act] in H; [|by injection H as <- <-].
  destruct (mgr_Get d k g' nm) as [d1 y] eqn:E. injection H as <- <-.
  destruct (m_enable d) eqn:Een; [|unfold mgr_Get in E; rewrite Een in E; by injection E as <- <-].
  apply mgr_Get_enabled in E as (r' & n' & E1 & ->); [|done].
  rewrite mgr_entry_insert. destruct (decide (g = g')) as [->|N]; [|done].
  apply reg_Get_spec in E1 as (A1 & _). eapply lookup_weaken; [|done]. by rewrite mgr_entry_default.
Qed.

Lemma mgr_act_refs d op d' x : mgr_act d op = (d', x) -> mgr_refs d -> mgr_refs d'.
Proof.
  intros H [R1 R2]. destruct op as [k g nm|b]; cbn [mgr_act] in H; [|by injection H as <- <-].
  destruct (mgr_Get d k g nm) as [d1 y] eqn:E. injection H as <- <-.
  destruct (m_enable d) eqn:Een; [|unfold mgr_Get in E; rewrite Een in E; by injection E as <- <-].
  apply mgr_Get_enabled in E as (r' & n' & E1 & ->); [|done].
  apply reg_Get_spec in E1 as (_ & _ & e & A3 & _ & [(A4 & -> & ->)|(A4 & A5 & -> & A6 & _ & A7)]).
  - assert (forall g0 h0, mgr_entry (DefaultMetricManager (<[g := default (NewMetricRegistry 5000) (m_registries d !! g)]> (m_registries d)) true (m_next d)) g0 h0 = mgr_entry d g0 h0) as Heq.
    { intros g0 h0. rewrite mgr_entry_insert. destruct (decide (g0 = g)) as [->|N]; [|done]. apply mgr_entry_default. }
    split.
    + intros g0 h0 e0 ref. rewrite Heq. apply R1.
    + intros g0 h0 e0 g1 h1 e1 ref. rewrite !Heq. apply R2.
  - assert (forall g0 h0 e0, mgr_entry (DefaultMetricManager (<[g := r']> (m_registries d)) true (S (m_next d))) g0 h0 = Some e0 ->
      (g0 = g /\ h0 = nm_hash nm /\ e0 = e) \/ mgr_entry d g0 h0 = Some e0) as Heq.
    { intros g0 h0 e0. rewrite mgr_entry_insert. destruct (decide (g0 = g)) as [->|N]; [|by right].
      rewrite A6. rewrite lookup_insert_Some. rewrite mgr_entry_default. naive_solver. }
    assert (forall ref, mref (e_metric e) = Some ref -> ref = m_next d) as Href.
    { intros ref. rewrite A7. destruct (_ <=? _); [by rewrite mref_nop|]. rewrite mref_create. congruence. }
    split.
    + intros g0 h0 e0 ref H0 Hr. cbn [m_next]. apply Heq in H0 as [(-> & -> & ->)|H0].
      * apply Href in Hr. lia.
      * specialize (R1 _ _ _ _ H0 Hr). lia.
    + intros g0 h0 e0 g1 h1 e1 ref H0 H1 Hr0 Hr1.
      apply Heq in H0 as [(-> & -> & ->)|H0], H1 as [(-> & -> & ->)|H1]; [done|..|eauto].
      * apply Href in Hr0. specialize (R1 _ _ _ _ H1 Hr1). lia.
      * apply Href in Hr1. specialize (R1 _ _ _ _ H0 Hr0). lia.
Qed.

(** What each lookup of a history returned, in terms of the final state. *)
Lemma mgr_run_spec d ops d' xs :
  mgr_run d ops = (d', xs) -> mgr_refs d ->
  mgr_refs d' /\ (forall g h e, mgr_entry d g h = Some e -> mgr_entry d' g h = Some e) /\ length xs = length ops /\
  forall i k g nm x, ops !! i = Some (OpGet k g nm) -> xs !! i = Some x ->
    (x = Some (Ok (nop k)) /\ ~ (m_enable d = true /\ Forall (fun o => o <> OpSetEnable false) ops)) \/
    exists e, mgr_entry d' g (nm_hash nm) = Some e /\ x = Some (assert_kind k (e_metric e)).
Proof.
  revert d xs. induction ops as [|op ops IH]; intros d xs H HR; cbn [mgr_run] in H.
  - injection H as <- <-. split_and!; try done.
  - destruct (mgr_act d op) as [d1 y] eqn:E1. destruct (mgr_run d1 ops) as [d2 ys] eqn:E2. injection H as -> <-.
    pose proof (mgr_act_refs _ _ _ _ E1 HR) as HR1.
    destruct (IH d1 ys E2 HR1) as (B1 & B2 & B3 & B4).
    pose proof (mgr_act_entries _ _ _ _ E1) as A1.
    split_and!; [done|eauto|cbn; congruence|].
    intros [|i] k g nm x Hi Hx; cbn in Hi, Hx.
    + injection Hi as ->. injection Hx as <-. cbn [mgr_act] in E1.
      destruct (mgr_Get d k g nm) as [d3 z] eqn:E3. injection E1 as <- <-.
      destruct (m_enable d) eqn:Een.
      * right. apply mgr_Get_enabled in E3 as (r' & n' & E4 & ->); [|done].
        apply reg_Get_spec in E4 as (_ & _ & e & C3 & -> & _). exists e. split; [|done]. apply B2.
        rewrite mgr_entry_insert. by rewrite decide_True.
      * left. unfold mgr_Get in E3. rewrite Een in E3. injection E3 as <- <-. split; [done|]. by intros [? _].
    + destruct (B4 i k g nm x Hi Hx) as [[C1 C2]|C]; [left|by right]. split; [done|].
      intros [D1 D2]. apply Forall_cons in D2 as [D2 D3]. apply C2. split; [|done].
      destruct op as [k' g' nm'|b]; cbn [mgr_act] in E1.
      * destruct (mgr_Get d k' g' nm') as [d3 z] eqn:E3. injection E1 as <- <-.
        apply mgr_Get_enabled in E3 as (r' & n' & E4 & ->); done.
      * injection E1 as <- <-. cbn. by destruct b.
Qed.

Lemma mgr_refs_new : mgr_refs newDefaultMetricManager.
Proof.
  assert (forall g h, mgr_entry newDefaultMetricManager g h = None) as E.
  { intros. unfold mgr_entry. cbn. by rewrite lookup_empty. }
  split; intros; rewrite E in *; done.
Qed.

(** ** One group alone *)
(** Two registries that agree up to the identity of the metrics. *)
Definition same_shape (r1 r2 : registry) : Prop :=
  r_metricsCount r1 = r_metricsCount r2 /\ r_maxMetricCount r1 = r_maxMetricCount r2 /\
  (fun e => shape (e_metric e)) <$> r_metricsMap r1 = (fun e => shape (e_metric e)) <$> r_metricsMap r2.

Lemma shape_implements k m1 m2 : shape m1 = shape m2 -> implements k m1 = implements k m2.
Proof. by destruct k, m1, m2. Qed.

Lemma res_shape_assert k m1 m2 :
  shape m1 = shape m2 -> res_shape (assert_kind k m1) = res_shape (assert_kind k m2).
Proof.
  intros H. unfold assert_kind. rewrite (shape_implements k m1 m2 H).
  destruct (implements k m2); [|done]. cbn. by rewrite H.
Qed.

Lemma shape_nop_create k (b : bool) nm n nm' n' :
  shape (if b then nop k else create k nm n) = shape (if b then nop k else create k nm' n').
Proof. by destruct b, k. Qed.

Lemma reg_Get_shape r1 n1 r2 n2 k nm r1' n1' x1 r2' n2' x2 :
  same_shape r1 r2 -> reg_Get r1 n1 k nm = (r1', n1', x1) -> reg_Get r2 n2 k nm = (r2', n2', x2) ->
  same_shape r1' r2' /\ res_shape x1 = res_shape x2.
Proof.
  intros (S1 & S2 & S3) H1 H2.
  apply reg_Get_spec in H1 as (_ & M1 & e1 & A1 & -> & B1).
  apply reg_Get_spec in H2 as (_ & M2 & e2 & A2 & -> & B2).
  assert ((fun e => shape (e_metric e)) <$> r_metricsMap r1 !! nm_hash nm =
          (fun e => shape (e_metric e)) <$> r_metricsMap r2 !! nm_hash nm) as Hl.
  { rewrite <- !lookup_fmap. by rewrite S3. }
  destruct B1 as [(B11 & -> & _)|(B11 & _ & _ & B12 & B13 & B14)],
           B2 as [(B21 & -> & _)|(B21 & _ & _ & B22 & B23 & B24)]; rewrite B11, B21 in Hl; cbn in Hl; try done.
  - injection Hl as Hl. split; [done|]. by apply res_shape_assert.
  - assert (shape (e_metric e1) = shape (e_metric e2)) as He by (rewrite B14, B24, S1, S2; apply shape_nop_create).
    split; [|by apply res_shape_assert]. split_and!.
    + rewrite B13, B23. congruence.
    + congruence.
    + rewrite B12, B22, !fmap_insert. congruence.
Qed.

Lemma mgr_group g ops d d' xs r n r' n' ys :
  m_enable d = true -> Forall (fun o => o <> OpSetEnable false) ops ->
  same_shape (default (NewMetricRegistry 5000) (m_registries d !! g)) r ->
  mgr_run d ops = (d', xs) -> reg_run r n (group_ops g ops) = (r', n', ys) ->
  res_shape <$> group_results g ops xs = res_shape <$> ys.
Proof.
  revert d xs r n ys. induction ops as [|op ops IH]; intros d xs r n ys Hen HF HS H1 H2.
  - cbn in H1, H2. injection H1 as <- <-. injection H2 as <- <- <-. done.
  - apply Forall_cons in HF as [HF1 HF2]. cbn [mgr_run] in H1.
    destruct (mgr_act d op) as [d1 x1] eqn:E1. destruct (mgr_run d1 ops) as [d2 x2] eqn:E2. injection H1 as -> <-.
    destruct op as [k g' nm|b].
    + cbn [mgr_act] in E1. destruct (mgr_Get d k g' nm) as [d3 z] eqn:E3. injection E1 as <- <-.
      apply mgr_Get_enabled in E3 as (r1 & n1 & E4 & ->); [|done].
      cbn [group_ops group_results] in H2 |- *. destruct (decide (g' = g)) as [->|N].
      * cbn [reg_run] in H2. destruct (reg_Get r n k nm) as [[r2 n2] z2] eqn:E5.
        destruct (reg_run r2 n2 (group_ops g ops)) as [[r3 n3] z3] eqn:E6. injection H2 as -> -> <-.
        destruct (reg_Get_shape _ _ _ _ _ _ _ _ _ _ _ _ HS E4 E5) as [HS' Hx]. cbn [fmap list_fmap]. f_equal; [done|].
        apply (IH (DefaultMetricManager (<[g := r1]> (m_registries d)) true n1) x2 r2 n2 z3); try done.
        cbn [m_registries]. by rewrite lookup_insert.
      * apply (IH (DefaultMetricManager (<[g' := r1]> (m_registries d)) true n1) x2 r n ys); try done.
        cbn [m_registries]. by rewrite lookup_insert_ne.
    + injection E1 as <- <-. cbn [group_ops group_results] in H2 |- *.
      apply (IH (DefaultMetricManager (m_registries d) b (m_next d)) x2 r n ys); try done. by destruct b.
Qed.

(** ** Disabled *)
Definition is_get (o : mgr_op) : Prop := match o with OpGet _ _ _ => True | _ => False end.
Definition nop_answer (o : mgr_op) : option (res metric) :=
  match o with OpGet k _ _ => Some (Ok (nop k)) | OpSetEnable _ => None end.

Lemma mgr_run_disabled d ops :
  m_enable d = false -> Forall is_get ops -> mgr_run d ops = (d, nop_answer <$> ops).
Proof.
  intros Hd. induction ops as [|op ops IH]; intros HF; [done|]. apply Forall_cons in HF as [H1 H2].
  destruct op as [k g nm|b]; [|done]. cbn [mgr_run mgr_act]. unfold mgr_Get. rewrite Hd. cbn [negb].
  rewrite IH by done. done.
Qed.

Lemma mgr_run_app d ops1 ops2 :
  mgr_run d (ops1 ++ ops2) =
  let '(d1, x1) := mgr_run d ops1 in let '(d2, x2) := mgr_run d1 ops2 in (d2, x1 ++ x2).
Proof.
  revert d. induction ops1 as [|op ops1 IH]; intros d; cbn [app mgr_run].
  - by destruct (mgr_run d ops2).
  - destruct (mgr_act d op) as [d1 y]. rewrite IH. destruct (mgr_run d1 ops1) as [d2 ys].
    by destruct (mgr_run d2 ops2).
Qed.
