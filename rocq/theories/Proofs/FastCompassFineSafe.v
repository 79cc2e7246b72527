From Verif.Go Require Import GoInt GoConc.
From Verif.Model Require Import Counter BucketQueue BucketCounter FastCompass BucketCounterConc BucketReadConc FastCompassConc FastCompassFine.
From Verif.Spec Require Import CounterSpec BucketSpec BucketConcSpec BucketReadSpec FastCompassSpec FastCompassConcSpec FastCompassFineSpec.
From Verif.Proofs Require Import BucketAbs BucketHist BucketMain BucketConcMain BucketReadProofs BucketReadMain BucketRest FastCompassProofs FastCompassProps FastCompassConcProofs FastCompassFineProofs FastCompassFineRead FastCompassFineMain.
Local Open Scope Z_scope.

(** ** When nothing crashes *)
Section fine.
Context (max interval N : Z) (recs0 : list fc_record) (fc0 : fast_compass) (now0 : Z) (progs : list (list qcall)).
Context (I1 : Second <= interval) (I2 : in64 interval) (I3 : 0 <= N).
Context (Hf : Forall (fun r => in64 (rc_time r)) recs0) (E : fc_exec max interval N recs0 = Ok fc0).
Notation Isec := (interval_seconds interval).
Notation n := (Z.to_nat N).
Notation FI := (FI max interval N recs0 fc0 progs).
Notation run := (ff_crun fc0 now0 progs).

Lemma FI_finv s ts G : FI s ts G -> exists fc' log, finv max interval N recs0 fc0 (crecords <$> progs) (with_fc s fc') (cview <$> ts) log.
Proof.
  intros [_ F]. destruct G as [L [[i r]|]]; cbn in F.
  - destruct F as (fc' & t0 & d & cat & ct & u & bc & bc' & F & _). eauto.
  - exists (fs_fc s), L. rewrite with_fc_same. apply F.
Qed.

Lemma FI_writing s ts G i t : FI s ts G -> fs_writing s = true -> ts !! i = Some t -> holds_lock (cpc (q_pc t)) = true ->
  exists d cat ct bc, q_pc t = QAt (FAssigning d cat ct bc).
Proof.
  intros HF Hw Hi Hh. destruct (FI_finv _ _ _ HF) as (fc' & log & F).
  destruct (f_wr _ _ _ _ _ _ _ _ _ F Hw) as (j & u & Hj & d & cat & ct & bc & Hu).
  assert (i = j) as <-.
  { eapply (f_excl _ _ _ _ _ _ _ _ _ F); [by rewrite list_lookup_fmap, Hi|exact Hj|done|by rewrite Hu]. }
  rewrite list_lookup_fmap, Hi in Hj. injection Hj as <-. cbn in Hu. exists d, cat, ct, bc.
  destruct (q_pc t) as [pc|d' cat' ct' bt| | | | | ]; try done; cbn in Hu; [by rewrite Hu|]. by destruct (waitingb bt).
Qed.

Lemma ff_nocrash_step s ts G i t s' t' : FI s ts G -> ts !! i = Some t ->
  (fs_writing s = true -> exists pc, q_pc t = QAt pc \/ exists d cat ct u, q_pc t = QUpdate d cat ct u) ->
  ff_tstep s t = Some (s', t') -> fs_crashed s' = false.
Proof.
  intros HF Hi Hk Hs. pose proof (FI_crash _ _ _ _ _ _ _ _ _ HF) as Hc. pose proof (fun H => FI_writing _ _ _ i t HF H Hi) as Hw.
  unfold ff_tstep in Hs. rewrite Hc in Hs.
  destruct t as [todo pc got]. cbn [q_pc q_todo q_got] in *.
  destruct pc as [pc|d cat ct u|job order|job rest|g start result cat r rest|result cat rest|result cat p rest].
  - destruct (match pc with FIdle | FUpdate _ _ _ => true | _ => false end) eqn:Hkk.
    { destruct pc; try done; [|by injection Hs as <- <-].
      destruct todo as [|[d cat|g st o|o] todo]; [done| |by injection Hs as <- <-|by injection Hs as <- <-].
      by destruct (_ || _); injection Hs as <- <-. }
    assert (Hs' : ff_at s (QThread todo (QAt pc) got) pc = Some (s', t')) by (by destruct pc).
    unfold ff_at in Hs'. destruct (fc_tstep s (FThread [] pc)) as [[s1 u1]|] eqn:Hst; [|done].
    injection Hs' as <- _. unfold fc_tstep in Hst. rewrite Hc in Hst. cbn [ft_pc ft_todo cpc] in *.
    destruct pc; try done.
    + destruct (fs_locked s); [done|]. by injection Hst as <- _.
    + destruct (fs_writing s); [by destruct (Hw eq_refl eq_refl) as (?&?&?&?&?)|].
      destruct (_ !! cat); [by injection Hst as <- _|]. destruct (_ <=? _); by injection Hst as <- _.
    + destruct (newBucketCounterImpl _ _ _ _); [|done]. by injection Hst as <- _.
    + destruct (fs_writing s); [by destruct (Hw eq_refl eq_refl) as (?&?&?&?&?)|]. by injection Hst as <- _.
    + by injection Hst as <- _.
    + by injection Hst as <- _.
    + exfalso. assert (H : qwf (QThread todo (QAt (FIter k)) got)). { eapply (proj1 (Forall_lookup _ _) (proj1 HF)); exact Hi. } done.
  - destruct (finishedb u) eqn:Hfin.
    { assert (u = BThread [] PIdle) as ->. { destruct u as [[|] []]; done. } by injection Hs as <- _. }
    destruct (fc_subCategories (fs_fc s) !! cat) as [bc|] eqn:Hb; [|destruct u as [[|? ?] []]; done].
    destruct (bc_tstep (BcShared bc (fs_clock s)) u) as [[o u']|] eqn:Hu; destruct u as [[|? ?] []]; try done; by injection Hs as <- _.
  - destruct (fs_writing s). { destruct (Hk eq_refl) as (? & [?|(?&?&?&?&?)]); done. } by injection Hs as <- _.
  - destruct (fs_writing s). { destruct (Hk eq_refl) as (? & [?|(?&?&?&?&?)]); done. } by injection Hs as <- _.
  - destruct (rd_got r) as [|m got']; [|by injection Hs as <- _].
    destruct (_ !! cat); [|done]. destruct (rd_step _ _); [|done]. by injection Hs as <- _.
  - destruct (_ !! cat); [|done]. by injection Hs as <- _.
  - destruct (_ !! cat); [|done]. destruct (_ !! p); [|done]. by injection Hs as <- _.
Qed.

Definition rec_pc (t : qthread) : Prop := Forall only_records (q_todo t) /\ match q_pc t with QAt _ | QUpdate _ _ _ _ => True | _ => False end.

Lemma rec_pc_step s t s' t' : rec_pc t -> ff_tstep s t = Some (s', t') -> rec_pc t'.
Proof.
  intros [H1 H2] Hs. unfold ff_tstep in Hs. destruct (fs_crashed s) eqn:Hc; [done|].
  destruct t as [todo pc got]. cbn [q_pc q_todo q_got] in *.
  destruct pc as [pc|d cat ct u| | | | | ]; try done.
  - destruct (match pc with FIdle | FUpdate _ _ _ => true | _ => false end) eqn:Hkk.
    { destruct pc; try done; [|by injection Hs as <- <-].
      destruct todo as [|[d cat|g st o|o] todo]; [done| |by apply Forall_inv in H1|by apply Forall_inv in H1].
      apply Forall_inv_tail in H1. by destruct (_ || _); injection Hs as <- <-. }
    assert (Hs' : ff_at s (QThread todo (QAt pc) got) pc = Some (s', t')) by (by destruct pc).
    unfold ff_at in Hs'. destruct (fc_tstep s (FThread [] pc)) as [[s1 u1]|] eqn:Hst; [|done].
    by injection Hs' as _ <-.
  - destruct (finishedb u) eqn:Hfin.
    { assert (u = BThread [] PIdle) as ->. { destruct u as [[|] []]; done. } by injection Hs as _ <-. }
    destruct (fc_subCategories (fs_fc s) !! cat) as [bc|] eqn:Hb; [|destruct u as [[|? ?] []]; done].
    destruct (bc_tstep (BcShared bc (fs_clock s)) u) as [[o u']|] eqn:Hu; destruct u as [[|? ?] []]; try done; by injection Hs as _ <-.
Qed.

Lemma ff_records_safe sched : Forall (Forall only_records) progs -> fs_crashed (shared (run sched)) = false.
Proof.
  intros Hr.
  assert (H : fs_crashed (shared (run sched)) = false /\ Forall rec_pc (threads (run sched))); [|apply H].
  induction sched as [|ev sched [IH1 IH2]] using rev_ind.
  - split; [done|]. cbn. apply Forall_fmap. eapply Forall_impl; [exact Hr|]. intros p Hp. done.
  - pose proof (run_FI max interval N recs0 fc0 now0 progs I1 I2 I3 Hf E sched IH1) as HF.
    unfold ff_crun in *. rewrite crun_snoc. destruct (crun _ _ _ sched) as [sh ts]. cbn [shared threads] in *.
    destruct ev as [i|e]; cbn [cstep shared threads]; [|done].
    destruct (ts !! i) as [t|] eqn:Hi; [|done]. destruct (ff_tstep sh t) as [[s' t']|] eqn:Hs; [|done]. cbn [shared threads].
    pose proof (proj1 (Forall_lookup _ _) IH2 _ _ Hi) as Hp. split.
    + eapply ff_nocrash_step; [exact HF|exact Hi| |exact Hs]. intros _. destruct Hp as [_ Hp].
      destruct (q_pc t) as [pc|d cat ct u| | | | | ]; try done; [exists pc; by left|exists FIdle; right; eauto].
    + apply Forall_insert; [done|]. by eapply rec_pc_step.
Qed.
End fine.

(** Records that create no category. *)
Definition known (fc : fast_compass) (cat : string) : Prop :=
  is_Some (fc_subCategories fc !! cat) \/ fc_maxSubCategoryCount fc <= Z.of_nat (size (fc_subCategories fc)).
Definition no_new (fc : fast_compass) (call : qcall) : Prop := match call with QRecord _ cat => known fc cat | _ => True end.

Lemma ff_no_create_safe fc0 now0 progs sched : Forall (Forall (no_new fc0)) progs ->
  fs_crashed (shared (ff_crun fc0 now0 progs sched)) = false.
Proof.
  intros Hg.
  set (PT := fun t : qthread => Forall (no_new fc0) (q_todo t) /\
       match q_pc t with
       | QAt (FLock d cat) | QAt (FLookup d cat) => known fc0 cat
       | QAt (FCreate _ _) | QAt (FAssign _ _ _ _) | QAt (FAssigning _ _ _ _) => False
       | _ => True
       end).
  set (PS := fun s : fc_shared => fs_crashed s = false /\ fs_writing s = false /\
     fc_maxSubCategoryCount (fs_fc s) = fc_maxSubCategoryCount fc0 /\
     dom (fc_subCategories (fs_fc s)) = dom (fc_subCategories fc0)).
  cut (PS (shared (ff_crun fc0 now0 progs sched)) /\ Forall PT (threads (ff_crun fc0 now0 progs sched))). { unfold PS. tauto. }
  unfold ff_crun. apply (crun_inv ff_tstep fc_estep (fun c => PS (shared c) /\ Forall PT (threads c))).
  - split; [done|]. cbn. apply Forall_fmap. eapply Forall_impl; [exact Hg|]. intros p Hp. by split.
  - intros s ts i t s' t' [HS HP] Hi Hs. cbn in *.
    pose proof (Forall_lookup_1 _ _ _ _ HP Hi) as [Ht1 Ht2].
    enough (PS s' /\ PT t') as [H1 H2] by (split; [exact H1|by apply Forall_insert]).
    pose proof HS as (Hc & Hw & Hm & Hd).
    assert (Hnext : forall job rest, PT (next_entry s t job rest)).
    { intros job rest. unfold next_entry. destruct rest as [|cat rest]; [done|].
      destruct (fc_subCategories (fs_fc s) !! cat); [|done]. by destruct job. }
    unfold ff_tstep in Hs. rewrite Hc, Hw in Hs.
    destruct (q_pc t) as [pc|d cat ct u|job order|job rest|g start result cat r rest|result cat rest|result cat p rest] eqn:Hpc.
    + destruct (match pc with FIdle | FUpdate _ _ _ => true | _ => false end) eqn:Hkk.
      { destruct pc; try done; [|by injection Hs as <- <-].
        destruct (q_todo t) as [|[d cat|g st o|o] todo] eqn:Htd; [done| |injection Hs as <- <-; split; [done|]; split; [by apply Forall_inv_tail in Ht1|done]..].
        pose proof (Forall_inv Ht1) as Hk. apply Forall_inv_tail in Ht1. destruct (_ || _); injection Hs as <- <-; (split; [done|]); split; done. }
      assert (Hs' : ff_at s t pc = Some (s', t')) by (by destruct pc).
      unfold ff_at in Hs'. destruct (fc_tstep s (FThread [] pc)) as [[s1 u1]|] eqn:Hst; [|done].
      injection Hs' as <- <-. unfold fc_tstep in Hst. rewrite Hc, Hw in Hst. cbn [ft_pc ft_todo] in Hst.
      destruct pc; try done.
      * destruct (fs_locked s); [done|]. injection Hst as <- <-. split; [done|]. split; done.
      * destruct (fc_subCategories (fs_fc s) !! cat) eqn:El; [injection Hst as <- <-; split; [done|]; split; done|].
        rewrite Hm in Hst.
        assert (Hsz : size (fc_subCategories (fs_fc s)) = size (fc_subCategories fc0)) by (rewrite <- !size_dom; by rewrite Hd).
        destruct Ht2 as [Hk|Hk].
        { exfalso. rewrite <- elem_of_dom, <- Hd, elem_of_dom, El in Hk. by destruct Hk. }
        rewrite Hsz, (proj2 (Z.leb_le _ _) Hk) in Hst. injection Hst as <- <-. split; [done|]. split; done.
      * injection Hst as <- <-. split; [done|]. split; done.
      * injection Hst as <- <-. split; [done|]. split; [done|]. by destruct k.
    + destruct (finishedb u) eqn:Hfin.
      { assert (u = BThread [] PIdle) as ->. { destruct u as [[|] []]; done. } by injection Hs as <- <-. }
      destruct (fc_subCategories (fs_fc s) !! cat) as [bc|] eqn:Hb; [|destruct u as [[|? ?] []]; done].
      assert (HS' : forall o, PS (with_fc s (set_sub (fs_fc s) (<[cat:=bs_bc o]> (fc_subCategories (fs_fc s)))))).
      { intros o. split; [done|]. split; [done|]. split; [done|]. cbn. rewrite dom_insert_lookup_L; [done|]. by rewrite Hb. }
      destruct (bc_tstep (BcShared bc (fs_clock s)) u) as [[o u']|] eqn:Hu; destruct u as [[|? ?] []]; try done; injection Hs as <- <-; (split; [apply HS'|done]).
    + injection Hs as <- <-. split; [done|apply Hnext].
    + injection Hs as <- <-. split; [done|apply Hnext].
    + destruct (rd_got r) as [|m got']; [|by injection Hs as <- <-].
      destruct (_ !! cat); [|done]. destruct (rd_step _ _); [|done]. by injection Hs as <- <-.
    + destruct (_ !! cat); [|done]. by injection Hs as <- <-.
    + destruct (_ !! cat); [|done]. destruct (_ !! p); [|done]. by injection Hs as <- <-.
  - intros s ts e [HS HP]. split; [exact HS|exact HP].
Qed.

(** ** Getters finish *)
Section rank.
Context (N : nat) (interval : Z).

Lemma hok_rd_step_rank s cr lo t t' : hok N interval (bs_bc s) cr lo -> rd_ok N (bc_heap (bs_bc s)) (rd_pc t) -> rd_pc t <> RIdle ->
  rd_step s t = Some t' -> (rd_rank_pc N (rd_pc t') < rd_rank_pc N (rd_pc t))%nat.
Proof.
  intros H Hok Hni Hs. pose proof (hok_rd_step_ok N interval s cr lo t t' H Hok Hs) as Hok'.
  pose proof (h_qlen _ _ _ _ _ H) as Hq.
  unfold rd_step in Hs. rewrite Hq in Hs. replace (S N - 1)%nat with N in Hs by lia. cbv zeta in Hs.
  destruct (rd_pc t) as [|start|start cts|start cts pos|start cts pos j|start cts pos sts [|i] acc|start cts pos sts i acc|start cts [|p l] result] eqn:Hpc; cbn [rd_ok rd_rank_pc] in Hok |- *.
  - done.
  - destruct (alignTimestamp _ _); [|done]. injection Hs as <-. cbn. lia.
  - injection Hs as <-. cbn. lia.
  - injection Hs as <-. cbn. lia.
  - destruct (_ !! j) as [p|] eqn:Hp; [|done]. cbn in Hs. destruct (_ !! p) as [b|] eqn:Hb; [|done]. cbn in Hs. injection Hs as <-. cbn in *. lia.
  - injection Hs as <-. cbn. lia.
  - destruct (Nat.ltb_spec (pos - i) N).
    + destruct (_ !! i) as [p|] eqn:Hp; [|done]. cbn in Hs. injection Hs as <-. cbn. lia.
    + injection Hs as <-. cbn. lia.
  - destruct (Nat.ltb_spec (pos + 1) i).
    + destruct (_ !! i) as [p|] eqn:Hp; [|done]. cbn in Hs. destruct (_ !! p) as [b|] eqn:Hb; [|done]. cbn in Hs. injection Hs as <-. cbn. lia.
    + injection Hs as <-. cbn. lia.
  - injection Hs as <-. cbn. lia.
  - destruct (_ !! p) as [b|] eqn:Hb; [|done]. cbn in Hs. injection Hs as <-. cbn. lia.
Qed.
End rank.

Section finish.
Context (max interval N : Z) (recs0 : list fc_record) (fc0 : fast_compass) (now0 : Z) (progs : list (list qcall)).
Context (I1 : Second <= interval) (I2 : in64 interval) (I3 : 0 <= N).
Context (Hf : Forall (fun r => in64 (rc_time r)) recs0) (E : fc_exec max interval N recs0 = Ok fc0).
Notation Isec := (interval_seconds interval).
Notation n := (Z.to_nat N).
Notation FI := (FI max interval N recs0 fc0 progs).
Notation run := (ff_crun fc0 now0 progs).

Lemma FI_size s ts G : FI s ts G -> (size (subs s) <= Z.to_nat max)%nat.
Proof.
  intros HF.
  assert (Hfin : forall s' log, finv max interval N recs0 fc0 (crecords <$> progs) s' (cview <$> ts) log -> (size (fc_subCategories (fs_fc s')) <= Z.to_nat max)%nat).
  { intros s' log F. destruct (f_log _ _ _ _ _ _ _ _ _ F) as (fcs & _ & I & H1 & H2).
    assert (Hs : (size (fc_subCategories fcs) <= Z.to_nat max)%nat).
    { rewrite (fi_size _ _ _ _ _ I). unfold tracked. rewrite take_length. lia. }
    destruct (fs_locked s') eqn:Hl; [|by rewrite H1].
    destruct (f_holder _ _ _ _ _ _ _ _ _ F Hl) as (j & u & Hj & Hh). specialize (H2 j u Hj Hh).
    destruct (ft_pc u); cbn in H2; try (destruct_and?; congruence); try (destruct H2 as [-> _]; done); try (by rewrite H2).
    destruct ct as [ct|]; [|by destruct H2 as [-> _]]. destruct H2 as (bc & -> & Hn & Hlt & _). cbn.
    rewrite map_size_insert_None by done. rewrite (fi_max _ _ _ _ _ I) in Hlt. lia. }
  destruct HF as [_ F]. destruct G as [L [[i r]|]]; cbn in F.
  - destruct F as (fc' & t0 & d & cat & ct & u & bc & bc' & F & _ & _ & _ & _ & _ & _ & _ & Hfc & Hfc' & _).
    apply Hfin in F. cbn in F. unfold subs. rewrite Hfc. cbn. by rewrite map_size_insert_Some.
  - apply (Hfin _ _ (proj1 F)).
Qed.

Notation W := (3 * n + 10)%nat.
Definition qrank (B : nat) (pc : qpc) : nat :=
  match pc with
  | QStart _ order => W * (length order + B) + 2
  | QIter _ rest => W * length rest + 1
  | QRead _ _ _ _ r rest => match rd_got r with [] => rd_rank_pc n (rd_pc r) | _ => 0 end + 2 + W * length rest
  | QLoad _ _ rest => 3 + W * length rest
  | QStamp _ _ _ rest => 2 + W * length rest
  | _ => 0
  end.
Definition reading (pc : qpc) : Prop :=
  match pc with QStart _ _ | QIter _ _ | QRead _ _ _ _ _ _ | QLoad _ _ _ | QStamp _ _ _ _ => True | _ => False end.

Lemma next_rank s t job rest B (t' := next_entry s t job rest) :
  (exists more, q_got t' = q_got t ++ job :: more) \/
  (q_got t' = q_got t /\ reading (q_pc t') /\ (qrank B (q_pc t') <= W * length rest)%nat).
Proof.
  subst t'. unfold next_entry. destruct rest as [|cat rest]; [left; by exists []|right].
  split; [done|]. cbn [q_pc]. destruct (_ !! cat); [destruct job|]; cbn; (split; [done|]); lia.
Qed.

Lemma iteration_length {A} o (m : gmap string A) : (length (iteration o m) <= length o + size m)%nat.
Proof.
  unfold iteration. rewrite app_length.
  assert (H1 : forall l : list string, (length (remove_dups l) <= length l)%nat).
  { induction l as [|x l IH]; [done|]. cbn. destruct (decide_rel _ _ _); cbn; lia. }
  specialize (H1 o). pose proof (filter_length (fun cat => cat ∉ o) (map_to_list m).*1) as H2. rewrite fmap_length in H2.
  change (length (map_to_list m)) with (size m) in H2. lia.
Qed.

Lemma reader_rank s ts G i t s' t' : FI s ts G -> ts !! i = Some t -> rwf n s t -> reading (q_pc t) ->
  ff_tstep s t = Some (s', t') -> fs_crashed s' = false ->
  (exists job more, q_got t' = q_got t ++ job :: more) \/
  (q_got t' = q_got t /\ reading (q_pc t') /\ (qrank (Z.to_nat max) (q_pc t') < qrank (Z.to_nat max) (q_pc t))%nat).
Proof.
  intros HF Hi Hr Hrd Hs Hc'. pose proof (FI_crash _ _ _ _ _ _ _ _ _ HF) as Hc. pose proof (FI_size _ _ _ HF) as Hsz.
  unfold ff_tstep in Hs. rewrite Hc in Hs. unfold rwf in Hr.
  destruct (q_pc t) as [pc|d cat ct u|job order|job rest|g start result cat r rest|result cat rest|result cat p rest] eqn:Hpc; try done.
  - destruct (fs_writing s); injection Hs as <- <-; [done|].
    destruct (next_rank s t job (iteration order (fc_subCategories (fs_fc s))) (Z.to_nat max)) as [[more ?]|(? & ? & ?)]; [left; eauto|right].
    split; [done|]. split; [done|]. pose proof (iteration_length order (fc_subCategories (fs_fc s))). unfold subs in Hsz. cbn [qrank]. nia.
  - destruct (fs_writing s); injection Hs as <- <-; [done|].
    destruct (next_rank s t job rest (Z.to_nat max)) as [[more ?]|(? & ? & ?)]; [left; eauto|right].
    split; [done|]. split; [done|]. cbn [qrank]. lia.
  - right. destruct Hr as (bc & Hb & Ht & Hor). destruct (rd_got r) as [|m got'] eqn:Eg.
    + unfold subs in Hb. rewrite Hb in Hs. destruct (rd_step (BcShared bc (fs_clock s)) r) as [r'|] eqn:Er; [|done]. injection Hs as <- <-.
      split; [done|]. split; [done|]. destruct Hor as [(_ & Hni & Hok)|[? ?]]; [|done].
      destruct (FI_hok _ _ _ _ _ _ I1 I2 I3 _ _ _ _ _ HF Hb) as [lo Hhok].
      pose proof (hok_rd_step_rank n interval (BcShared bc (fs_clock s)) _ _ _ _ Hhok Hok Hni Er) as Hlt.
      cbn [qrank q_pc]. rewrite Eg. destruct (rd_got r'); lia.
    + injection Hs as <- <-. split; [done|]. split; [done|]. cbn [qrank q_pc]. rewrite Eg. lia.
  - right. destruct (_ !! cat); [|done]. injection Hs as <- <-. split; [done|]. split; [done|]. cbn. lia.
  - right. destruct (_ !! cat); [|done]. destruct (_ !! p); [|done]. injection Hs as <- <-. split; [done|]. split; [done|]. cbn. lia.
Qed.

Lemma runs_snoc i sched ev : runs i (sched ++ [ev]) = (runs i sched + (if decide (ev = Run i) then 1 else 0))%nat.
Proof. unfold runs. rewrite filter_app, app_length, filter_cons. destruct (decide (ev = Run i)); cbn; lia. Qed.

Lemma ff_getter_finishes s1 s2 i call order todo got :
  order_of call = Some order ->
  threads (run s1) !! i = Some (QThread (call :: todo) (QAt FIdle) got) ->
  fs_crashed (shared (run (s1 ++ s2))) = false ->
  exists t, threads (run (s1 ++ s2)) !! i = Some t /\
    ((exists job more, q_got t = got ++ job :: more) \/
     (runs i s2 <= W * (length order + Z.to_nat max) + 2)%nat).
Proof.
  intros Ho Hi Hc.
  assert (G : exists t, threads (run (s1 ++ s2)) !! i = Some t /\
    ((t = QThread (call :: todo) (QAt FIdle) got /\ runs i s2 = 0%nat) \/
     (q_got t = got /\ reading (q_pc t) /\ (qrank (Z.to_nat max) (q_pc t) + runs i s2 <= W * (length order + Z.to_nat max) + 3)%nat) \/
     (exists job more, q_got t = got ++ job :: more))).
  { induction s2 as [|ev s2 IH] using rev_ind.
    { rewrite app_nil_r. eexists. split; [exact Hi|]. left. done. }
    rewrite app_assoc in Hc. pose proof (crashed_app _ _ _ _ _ Hc) as Hc1. destruct (IH Hc1) as (t & Ht & Hst).
    pose proof (run_FI max interval N recs0 fc0 now0 progs I1 I2 I3 Hf E _ Hc1) as HF.
    pose proof (run_rwf max interval N recs0 fc0 now0 progs I1 I2 I3 Hf E _ _ _ Hc1 Ht) as Hr.
    pose proof (ff_reader_step max interval N recs0 fc0 progs I1 I2 I3 now0 (s1 ++ s2) i t Hf E Hc1 Ht) as Hprog.
    rewrite runs_snoc. rewrite app_assoc. unfold ff_crun in *. rewrite crun_snoc in Hc |- *.
    destruct (crun _ _ _ (s1 ++ s2)) as [sh ts]. cbn [shared threads] in *.
    destruct ev as [j|e]; cbn [cstep shared threads] in Hc |- *.
    2:{ exists t. split; [done|]. rewrite decide_False by done. by rewrite Nat.add_0_r. }
    destruct (decide (j = i)) as [->|Hne].
    - rewrite decide_True by done. rewrite Ht in Hc |- *.
      destruct Hst as [(-> & Hz)|[(Hg & Hrd & Hrk)|(job & more & Hg)]].
      + destruct call as [d cat|g st o|o]; cbn in Ho; [done|injection Ho as ->..];
          unfold ff_tstep in Hc |- *; rewrite Hc1 in Hc |- *; cbn [q_pc q_todo q_got shared threads] in Hc |- *;
          (eexists; split; [apply list_lookup_insert; by apply lookup_lt_Some in Ht|]; right; left; split; [done|]; split; [done|]; cbn [qrank q_pc]; lia).
      + destruct Hprog as (s' & t' & Hs').
        { intros pc Hx. by rewrite Hx in Hrd. }
        { intros d cat ct u Hx. by rewrite Hx in Hrd. }
        rewrite Hs' in Hc |- *. cbn [shared threads] in *. exists t'.
        split; [apply list_lookup_insert; by apply lookup_lt_Some in Ht|].
        destruct (reader_rank _ _ _ _ _ _ _ HF Ht Hr Hrd Hs' Hc) as [(job & more & Hm)|(Hg' & Hrd' & Hlt)].
        * right. right. rewrite Hm, Hg. eauto.
        * right. left. split; [congruence|]. split; [done|]. lia.
      + destruct (ff_tstep sh t) as [[s' t']|] eqn:Hs'; [|exists t; split; [done|]; right; right; eauto].
        cbn [shared threads] in *. exists t'. split; [apply list_lookup_insert; by apply lookup_lt_Some in Ht|]. right. right.
        destruct (ff_got _ _ _ _ Hs') as (more' & ->). rewrite Hg, <- app_assoc. cbn. eauto.
    - rewrite decide_False by (intros Hx; injection Hx; done). rewrite Nat.add_0_r.
      destruct (ts !! j) as [u|] eqn:Hj; [|exists t; done].
      destruct (ff_tstep sh u) as [[sh' u']|] eqn:Hs; [|exists t; done].
      cbn [threads]. exists t. by rewrite list_lookup_insert_ne. }
  destruct G as (t & Ht & [(-> & Hz)|[(Hg & Hrd & Hrk)|?]]); exists t || eexists; (split; [exact Ht|]).
  - right. lia.
  - right. assert (1 <= qrank (Z.to_nat max) (q_pc t))%nat; [|lia].
    destruct (q_pc t); try done; cbn; lia.
  - by left.
Qed.

(** ** LastUpdateTime *)
Section last.
Context (s1 : list (event Z)) (i : nat) (order : list string) (todo : list qcall) (got : list qjob).
Notation at_ s := (run (s1 ++ s)).
Notation before := (subs (shared (run s1))).

(** A moment of the call at which the category's counter answers [v]. *)
Definition seen_at (s : list (event Z)) (v : Z) : Prop :=
  exists s' cat bc, s' `prefix_of` s /\ subs (shared (at_ s')) !! cat = Some bc /\ bc_LastUpdateTime bc = Ok v.
Definition lgood (s : list (event Z)) (r : Z) : Prop := 0 <= r /\ (r = 0 \/ seen_at s r).
Definition lcover (r : Z) (rest : list string) : Prop :=
  forall cat bc b, before !! cat = Some bc -> bc_heap bc !! bc_latestBucket bc = Some b -> cat ∈ rest \/ bk_ts b <= r.

(** What the loaded pointer stands for. *)
Definition stamp (s : list (event Z)) (cat : string) (p : ptr) : Prop :=
  exists bc b, subs (shared (at_ s)) !! cat = Some bc /\ bc_heap bc !! p = Some b /\
    seen_at s (if bk_ts b <=? 0 then bc_initTimestamp bc else bk_ts b) /\
    forall bc1 b1, before !! cat = Some bc1 -> bc_heap bc1 !! bc_latestBucket bc1 = Some b1 -> bk_ts b1 <= bk_ts b.

Definition lstage (s : list (event Z)) (t : qthread) : Prop :=
  t = QThread (QLast order :: todo) (QAt FIdle) got \/
  (q_todo t = todo /\ q_got t = got /\
   match q_pc t with
   | QStart job o => job = JLast 0 /\ o = order
   | QIter job rest => exists r, job = JLast r /\ lgood s r /\ lcover r rest
   | QLoad r cat rest => lgood s r /\ lcover r (cat :: rest)
   | QStamp r cat p rest => lgood s r /\ lcover r (cat :: rest) /\ stamp s cat p
   | _ => False
   end) \/
  (exists r more, q_got t = got ++ JLast r :: more /\ lgood s r /\ lcover r []).

Lemma seen_mono s ev v : seen_at s v -> seen_at (s ++ [ev]) v.
Proof. intros (s' & cat & bc & ? & ? & ?). exists s', cat, bc. split; [by apply prefix_app_r|done]. Qed.
Lemma lgood_mono s ev r : lgood s r -> lgood (s ++ [ev]) r.
Proof. intros [? [?|?]]; (split; [done|]); [by left|right; by apply seen_mono]. Qed.
Lemma stamp_mono s ev cat p : fs_crashed (shared (at_ (s ++ [ev]))) = false -> stamp s cat p -> stamp (s ++ [ev]) cat p.
Proof.
  intros Hc (bc & b & Hb & Hp & Hseen & Hlow). rewrite app_assoc in Hc.
  destruct (ext_run max interval N recs0 fc0 now0 progs I1 I2 I3 Hf E (s1 ++ s) [ev] Hc cat bc Hb) as (bc' & Hb' & _ & Hh & Hini). rewrite <- app_assoc in Hb'.
  destruct (Hh p b Hp) as (b' & Hp' & Hts). exists bc', b'. split; [done|]. split; [done|]. rewrite Hini, Hts. split; [by apply seen_mono|done].
Qed.
Lemma lstage_mono s ev t : fs_crashed (shared (at_ (s ++ [ev]))) = false -> lstage s t -> lstage (s ++ [ev]) t.
Proof.
  intros Hc [?|[(Ht & Hg & H)|(r & more & ? & ? & ?)]]; [by left|right; left|right; right].
  - split; [done|]. split; [done|]. destruct (q_pc t); try done.
    + destruct H as (r & ? & ? & ?). exists r. split; [done|]. split; [by apply lgood_mono|done].
    + destruct H as [? ?]. split; [by apply lgood_mono|done].
    + destruct H as (? & ? & ?). split; [by apply lgood_mono|]. split; [done|by apply stamp_mono].
  - exists r, more. split; [done|]. split; [by apply lgood_mono|done].
Qed.

Lemma lstage_next s t rest r : fs_crashed (shared (at_ s)) = false -> q_todo t = todo -> q_got t = got ->
  lgood s r -> lcover r rest -> lstage s (next_entry (shared (at_ s)) t (JLast r) rest).
Proof.
  intros Hc Ht Hg Hgood Hcov. unfold next_entry. rewrite Ht, Hg. destruct rest as [|cat rest].
  - right. right. exists r, []. done.
  - right. left. split; [done|]. split; [done|]. cbn [q_pc]. destruct (_ !! cat) as [bc|] eqn:Hb; [done|].
    exists r. split; [done|]. split; [done|]. intros cat' bc' b' Hb' Hl. destruct (Hcov cat' bc' b' Hb' Hl) as [Hin|?]; [|by right].
    apply elem_of_cons in Hin as [->|?]; [|by left]. exfalso.
    destruct (ext_run max interval N recs0 fc0 now0 progs I1 I2 I3 Hf E s1 s Hc cat bc' Hb') as (bc2 & Hb2 & _). unfold subs in Hb2. congruence.
Qed.

Lemma lstage_step s t s' t' : fs_crashed (shared (at_ s)) = false -> fs_crashed s' = false -> threads (at_ s) !! i = Some t ->
  lstage s t -> ff_tstep (shared (at_ s)) t = Some (s', t') -> lstage s t'.
Proof.
  intros Hc Hc' Hi Hg Hs. pose proof (run_FI max interval N recs0 fc0 now0 progs I1 I2 I3 Hf E _ Hc) as HF.
  destruct Hg as [->|[(Ht & Hg & H)|(r & more & Hg & Hgood & Hcov)]].
  - unfold ff_tstep in Hs. rewrite Hc in Hs. cbn in Hs. injection Hs as <- <-. right. left. done.
  - unfold ff_tstep in Hs. rewrite Hc in Hs. destruct (q_pc t) as [| |job o|job rest| |r cat rest|r cat p rest] eqn:Hpc; try done.
    + destruct H as [-> ->]. destruct (fs_writing (shared (at_ s))). { injection Hs as <- <-. done. }
      injection Hs as <- <-. apply lstage_next; try done.
      * split; [lia|]. by left.
      * intros cat bc b Hb Hl. left. apply iteration_all.
        destruct (ext_run max interval N recs0 fc0 now0 progs I1 I2 I3 Hf E s1 s Hc cat bc Hb) as (bc' & Hb' & _). eauto.
    + destruct H as (r & -> & Hgood & Hcov). destruct (fs_writing (shared (at_ s))). { injection Hs as <- <-. done. }
      injection Hs as <- <-. by apply lstage_next.
    + destruct H as [Hgood Hcov]. destruct (_ !! cat) as [bc|] eqn:Hb; [|done]. injection Hs as <- <-.
      right. left. cbn. split; [done|]. split; [done|]. split; [done|]. split; [done|].
      destruct (FI_hok _ _ _ _ _ _ I1 I2 I3 _ _ _ _ _ HF Hb) as [lo Hhok].
      destruct (h_latest _ _ _ _ _ Hhok) as (b & Hl & Hkey). exists bc, b. split; [done|]. split; [done|]. split.
      * exists s, cat, bc. split; [done|]. split; [done|]. unfold bc_LastUpdateTime. by rewrite Hl.
      * intros bc1 b1 Hb1 Hl1.
        destruct (ext_run max interval N recs0 fc0 now0 progs I1 I2 I3 Hf E s1 s Hc cat bc1 Hb1) as (bc' & Hb' & _ & Hh & _).
        unfold subs in Hb'. rewrite Hb in Hb'. injection Hb' as <-. destruct (Hh _ _ Hl1) as (b' & Hp' & <-).
        destruct (decide (bc_latestBucket bc1 = bc_latestBucket bc)) as [Heq|Hne]; [rewrite Heq in Hp'; rewrite Hl in Hp'; injection Hp' as <-; lia|].
        pose proof (h_lo _ _ _ _ _ Hhok) as Hlo.
        destruct (h_others _ _ _ _ _ Hhok _ _ Hp' Hne) as [Hm1|Hlt]; unfold key in *; lia.
    + destruct H as (Hgood & Hcov & bc & b & Hb & Hp & Hseen & Hlow). unfold subs in Hb. rewrite Hb, Hp in Hs. injection Hs as <- <-.
      right. left. cbn. split; [done|]. split; [done|]. eexists. split; [done|].
      set (u := if bk_ts b <=? 0 then bc_initTimestamp bc else bk_ts b) in *.
      split.
      * destruct Hgood as [Hr Hor]. destruct (Z.ltb_spec r u); (split; [lia|]); [by right|done].
      * intros cat' bc' b' Hb' Hl'. destruct (Hcov cat' bc' b' Hb' Hl') as [Hin|Hle]; [|right; destruct (Z.ltb_spec r u); lia].
        apply elem_of_cons in Hin as [->|?]; [|by left]. right. specialize (Hlow _ _ Hb' Hl').
        destruct Hgood as [Hr _]. assert (Hu : bk_ts b <= 0 \/ u = bk_ts b) by (unfold u; destruct (Z.leb_spec (bk_ts b) 0); [by left|by right]).
        clearbody u. destruct (Z.ltb_spec r u); lia.
  - destruct (ff_got _ _ _ _ Hs) as (more' & Hm). right. right. exists r, (more ++ more'). split; [|done].
    by rewrite Hm, Hg, <- app_assoc.
Qed.

Lemma lstage_run s : threads (run s1) !! i = Some (QThread (QLast order :: todo) (QAt FIdle) got) ->
  fs_crashed (shared (at_ s)) = false -> exists t, threads (at_ s) !! i = Some t /\ lstage s t.
Proof.
  intros Hi. induction s as [|ev s IH] using rev_ind.
  { rewrite app_nil_r. intros _. eexists. split; [exact Hi|by left]. }
  intros Hc. pose proof Hc as Hc0. rewrite app_assoc in Hc. pose proof (crashed_app _ _ _ _ _ Hc) as Hc1.
  destruct (IH Hc1) as (t & Ht & Hg).
  assert (Hm : forall t', lstage s t' -> lstage (s ++ [ev]) t') by (intros t'; by apply lstage_mono).
  pose proof (fun s' t' => lstage_step s t s' t' Hc1) as Hstep.
  rewrite app_assoc. unfold ff_crun in *. rewrite crun_snoc in Hc |- *. destruct (crun _ _ _ (s1 ++ s)) as [sh ts]. cbn [shared threads] in *.
  destruct ev as [j|e]; cbn [cstep shared threads] in Hc |- *.
  2:{ exists t. split; [done|]. by apply Hm. }
  destruct (ts !! j) as [u|] eqn:Hj; [|exists t; split; [done|by apply Hm]].
  destruct (ff_tstep sh u) as [[sh' u']|] eqn:Hs; [|exists t; split; [done|by apply Hm]].
  cbn [threads shared] in *. destruct (decide (j = i)) as [->|Hne].
  - rewrite Ht in Hj. injection Hj as <-. exists u'. rewrite list_lookup_insert by (by apply lookup_lt_Some in Ht). split; [done|].
    apply Hm. exact (Hstep sh' u' Hc Ht Hg Hs).
  - exists t. rewrite list_lookup_insert_ne by done. split; [done|]. by apply Hm.
Qed.
End last.

Lemma ff_last_content s1 s2 i order todo got r :
  fs_crashed (shared (run (s1 ++ s2))) = false ->
  threads (run s1) !! i = Some (QThread (QLast order :: todo) (QAt FIdle) got) ->
  threads (run (s1 ++ s2)) !! i = Some (QThread todo (QAt FIdle) (got ++ [JLast r])) ->
  0 <= r /\
  (forall cat bc b, fc_subCategories (fs_fc (shared (run s1))) !! cat = Some bc -> bc_heap bc !! bc_latestBucket bc = Some b ->
     bk_ts b <= r) /\
  (r = 0 \/ exists s' cat bc, s' `prefix_of` s2 /\ fc_subCategories (fs_fc (shared (run (s1 ++ s')))) !! cat = Some bc /\ bc_LastUpdateTime bc = Ok r).
Proof.
  intros Hc Hi Hi'. destruct (lstage_run s1 i order todo got s2 Hi Hc) as (t & Ht & Hg).
  rewrite Hi' in Ht. injection Ht as <-.
  destruct Hg as [Hx|[(_ & Hg & _)|(r' & more & Hg & [Hr Hor] & Hcov)]].
  - exfalso. injection Hx as Hx _. apply (f_equal length) in Hx. cbn in Hx. lia.
  - exfalso. cbn in Hg. apply (f_equal length) in Hg. rewrite app_length in Hg. cbn in Hg. lia.
  - cbn in Hg. apply app_inv_head in Hg. injection Hg as <- _. split; [done|]. split; [|exact Hor].
    intros cat bc b Hb Hl. destruct (Hcov cat bc b Hb Hl) as [Hx|Hle]; [by apply elem_of_nil in Hx|done].
Qed.
End finish.

(** ** Two calls of LastUpdateTime *)
Lemma ff_last_twice max interval N recs0 fc0 now0 progs s1 s2 s3 s4 i j order1 todo1 got1 r1 order2 todo2 got2 r2 :
  Second <= interval -> in64 interval -> 0 <= N -> Forall (fun r => in64 (rc_time r)) recs0 ->
  fc_exec max interval N recs0 = Ok fc0 ->
  let run := ff_crun fc0 now0 progs in
  fs_crashed (shared (run (((s1 ++ s2) ++ s3) ++ s4))) = false ->
  threads (run s1) !! i = Some (QThread (QLast order1 :: todo1) (QAt FIdle) got1) ->
  threads (run (s1 ++ s2)) !! i = Some (QThread todo1 (QAt FIdle) (got1 ++ [JLast r1])) ->
  threads (run ((s1 ++ s2) ++ s3)) !! j = Some (QThread (QLast order2 :: todo2) (QAt FIdle) got2) ->
  threads (run (((s1 ++ s2) ++ s3) ++ s4)) !! j = Some (QThread todo2 (QAt FIdle) (got2 ++ [JLast r2])) ->
  r1 <= r2 \/ exists s' cat bc, s' `prefix_of` s2 /\
    fc_subCategories (fs_fc (shared (run (s1 ++ s')))) !! cat = Some bc /\ r1 = bc_initTimestamp bc.
Proof.
  intros I1 I2 I3 Hf E run Hc H1 H2 H3 H4.
  pose proof (crashed_app _ _ _ _ _ Hc) as Hc3. pose proof (crashed_app _ _ _ _ _ Hc3) as Hc2.
  destruct (ff_last_content max interval N recs0 fc0 now0 progs I1 I2 I3 Hf E s1 s2 _ _ _ _ _ Hc2 H1 H2) as (_ & _ & Hor).
  destruct (ff_last_content max interval N recs0 fc0 now0 progs I1 I2 I3 Hf E _ s4 _ _ _ _ _ Hc H3 H4) as (Hr2 & Hlow & _).
  destruct Hor as [->|(s' & cat & bc & Hp & Hb & Hv)]; [by left|].
  unfold bc_LastUpdateTime in Hv. destruct (bc_heap bc !! bc_latestBucket bc) as [b|] eqn:Hl; [|done]. cbn in Hv. injection Hv as Hv.
  destruct (Z.leb_spec (bk_ts b) 0) as [Hz|Hpos]; [right; exists s', cat, bc; done|left].
  destruct Hp as [s'' ->]. rewrite <- app_assoc in Hc3. rewrite <- !app_assoc in Hc3. rewrite app_assoc in Hc3.
  destruct (ext_run max interval N recs0 fc0 now0 progs I1 I2 I3 Hf E (s1 ++ s') (s'' ++ s3) Hc3 cat bc Hb) as (bc' & Hb' & _ & Hh & _).
  destruct (Hh _ _ Hl) as (b' & Hp' & Hts).
  destruct (FI_hok _ _ _ _ _ _ I1 I2 I3 _ _ _ _ _ (run_FI max interval N recs0 fc0 now0 progs I1 I2 I3 Hf E _ Hc3) Hb') as [lo Hhok].
  destruct (h_latest _ _ _ _ _ Hhok) as (bl & Hbl & Hkey).
  assert (Hle : bk_ts b <= bk_ts bl).
  { destruct (decide (bc_latestBucket bc = bc_latestBucket bc')) as [Heq|Hne]; [rewrite Heq in Hp'; rewrite Hbl in Hp'; injection Hp' as <-; lia|].
    pose proof (h_lo _ _ _ _ _ Hhok) as Hlo. destruct (h_others _ _ _ _ _ Hhok _ _ Hp' Hne) as [Hm1|Hlt]; unfold key in *; lia. }
  unfold subs in Hb'. replace ((s1 ++ s') ++ s'' ++ s3) with ((s1 ++ s' ++ s'') ++ s3) in Hb' by (by rewrite <- !app_assoc).
  specialize (Hlow cat bc' bl Hb' Hbl). lia.
Qed.
