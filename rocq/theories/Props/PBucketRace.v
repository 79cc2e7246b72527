(** Data races on a bucket counter (C109). *)
From Verif.Go Require Import GoInt GoConc.
From Verif.Model Require Import Counter BucketQueue BucketCounter BucketCounterConc BucketReadConc.
From Verif.Spec Require Import BucketSpec RaceSpec BucketRaceSpec.
From Verif.Proofs Require Import RaceLemmas.
Local Open Scope Z_scope.

Lemma heap_add_inv h p n h' : heap_add h p n = Ok h' ->
  exists b, h !! p = Some b /\ h' = <[p := Bucket (bk_ts b) (wrap64 (bk_count b + n))]> h.
Proof. unfold heap_add. destruct (h !! p) as [b|]; [|done]. cbn. intros [= <-]. eauto. Qed.

Ltac same := match goal with |- bc_same ?l _ _ =>
  first [done | intros b1 b2 H1 H2; cbn in *; congruence | destruct l; first [done | intros b1 b2 H1 H2; cbn in *; congruence]] end.

(** The table of accesses is complete. *)
Theorem C109_table : lists_writes mx_next mx_tstep bc_same /\ lists_reads mx_next mx_tstep bc_same bc_rest.
Proof.
  split.
  - intros s t s' t' l Hs Hl. destruct t as [[todo pc]|t].
    2:{ cbn in Hs. destruct (rd_step s t); [|done]. injection Hs as <- <-. same. }
    cbn in Hs. destruct (bc_tstep s _) as [[s'' t'']|] eqn:Ht; [|done]. injection Hs as <- <-.
    unfold bc_tstep in Ht. cbn -[alignTimestamp heap_add Nat.ltb Nat.modulo] in Ht. unfold mx_next, upd_next in Hl. cbn in Hl.
    destruct pc as [|n|n ts|n ts old|n ts old|n bk|n bk v|n bk|n bk i|n|n bk].
    + destruct todo; [done|]. injection Ht as <- <-. destruct (bc_updateTotalCount (bs_bc s)); [|same].
      destruct l; try same. specialize (Hl _ (elem_of_list_here _ _) eq_refl). done.
    + destruct (alignTimestamp _ _); [|done]. injection Ht as <- <-. same.
    + injection Ht as <- <-. same.
    + destruct (bc_heap (bs_bc s) !! old); [|done]. injection Ht as <- <-. same.
    + destruct (decide _); injection Ht as <- <-; [|same].
      destruct l; try same; [specialize (Hl _ (elem_of_list_here _ _) eq_refl); done|].
      intros b1 b2 H1 H2. cbn in *. rewrite (lookup_app_l_Some _ _ _ _ H1) in H2. congruence.
    + destruct (length _); [done|]. injection Ht as <- <-. same.
    + injection Ht as <- <-. destruct l; try same. specialize (Hl _ (elem_of_list_here _ _) eq_refl). done.
    + injection Ht as <- <-. same.
    + destruct (_ <? _)%nat; [|done]. injection Ht as <- <-. destruct l as [| | |j|]; try same.
      destruct (decide (i = j)) as [<-|Hne]; [specialize (Hl _ (elem_of_list_here _ _) eq_refl); done|].
      cbn. by rewrite list_lookup_insert_ne by done.
    + injection Ht as <- <-. same.
    + destruct (heap_add _ _ _) as [h'|] eqn:E; [|done]. injection Ht as <- <-. apply heap_add_inv in E as (b & Hb & ->).
      destruct l as [| | |j|p]; try same. intros b1 b2 H1 H2. cbn in *.
      destruct (decide (bk = p)) as [<-|Hne]; [specialize (Hl _ (elem_of_list_here _ _) eq_refl); done|].
      rewrite list_lookup_insert_ne in H2 by done. congruence.
  - intros s1 s2 t HR Hs.
    assert (Hone : forall (P : access bc_var -> Prop) a, P a -> forall x, x ∈ [a] -> P x) by (intros P a Ha x ->%elem_of_list_singleton; done).
    assert (Hnil : forall (P : access bc_var -> Prop), forall x, x ∈ [] -> P x) by (intros P x []%elem_of_nil).
    pose proof HR as (R1 & R2 & R3 & R4 & R5).
    assert (Hheap : forall p, match bc_heap (bs_bc s1) !! p, bc_heap (bs_bc s2) !! p with
       Some b1, Some b2 => bk_ts b1 = bk_ts b2 | None, None => True | _, _ => False end).
    { intros p. assert (E : (bk_ts <$> bc_heap (bs_bc s1)) !! p = (bk_ts <$> bc_heap (bs_bc s2)) !! p) by (by rewrite R5).
      rewrite !list_lookup_fmap in E. destruct (bc_heap (bs_bc s1) !! p), (bc_heap (bs_bc s2) !! p); try done. by injection E. }
    assert (Hlen : length (bc_heap (bs_bc s1)) = length (bc_heap (bs_bc s2))).
    { rewrite <- (fmap_length bk_ts), R5. apply fmap_length. }
    destruct t as [[todo pc]|[todo pc got]].
    + unfold mx_tstep, mx_next, upd_next in *. cbn in Hs |- *. unfold bc_tstep. cbn -[alignTimestamp heap_add Nat.ltb Nat.modulo].
      destruct pc as [|n|n ts|n ts old|n ts old|n bk|n bk v|n bk|n bk i|n|n bk].
      * destruct todo; [done|]. rewrite <- R2. destruct (bc_updateTotalCount (bs_bc s1)) eqn:E.
        -- pose proof (Hs _ (elem_of_list_here _ _)) as H1. cbn in H1. split; [done|]. split; [unfold bc_rest; cbn; split_and!; congruence|].
           refine (Hone _ _ _). cbn. by rewrite H1.
        -- split; [done|]. split; [done|]. refine (Hnil _).
      * rewrite <- R1, <- R3. destruct (alignTimestamp _ _); [|done]. split; [done|]. split; [by destruct s1, s2|]. refine (Hnil _).
      * pose proof (Hs _ (elem_of_list_here _ _)) as H1. cbn in H1. rewrite <- H1. split; [done|]. split; [done|]. by refine (Hone _ _ _).
      * specialize (Hheap old). destruct (bc_heap (bs_bc s1) !! old), (bc_heap (bs_bc s2) !! old); try done. rewrite Hheap.
        split; [done|]. split; [done|]. refine (Hnil _).
      * pose proof (Hs _ (elem_of_list_here _ _)) as H1. cbn in H1. rewrite <- H1, <- Hlen. destruct (decide _).
        -- split; [done|]. split; [|by refine (Hone _ _ _)]. unfold bc_rest. cbn. split_and!; try done. by rewrite !fmap_app, R5.
        -- split; [done|]. split; [done|]. by refine (Hone _ _ _).
      * pose proof (Hs _ (elem_of_list_here _ _)) as H1. cbn in H1. rewrite <- H1, <- R4. destruct (length _); [done|].
        split; [done|]. split; [done|]. by refine (Hone _ _ _).
      * split; [done|]. split; [done|]. by refine (Hone _ _ _).
      * pose proof (Hs _ (elem_of_list_here _ _)) as H1. cbn in H1. rewrite <- H1. split; [done|]. split; [done|]. by refine (Hone _ _ _).
      * rewrite <- R4. destruct (Nat.ltb_spec i (length (dq_queue (bc_buckets (bs_bc s1))))) as [Hi|]; [|done].
        split; [done|]. split; [unfold bc_rest; cbn; rewrite !insert_length; done|]. refine (Hone _ _ _). cbn.
        rewrite !list_lookup_insert; [done|by rewrite <- R4|done].
      * pose proof (Hs _ (elem_of_list_here _ _)) as H1. cbn in H1. rewrite <- H1. split; [done|]. split; [done|]. by refine (Hone _ _ _).
      * pose proof (Hs _ (elem_of_list_here _ _)) as H1. cbn in H1. pose proof (Hheap bk) as Hb. unfold heap_add.
        destruct (bc_heap (bs_bc s1) !! bk) as [b1|] eqn:E1, (bc_heap (bs_bc s2) !! bk) as [b2|] eqn:E2; try done. cbn.
        split; [done|]. split.
        -- unfold bc_rest. cbn. split_and!; try done. by rewrite !list_fmap_insert, R5, Hb.
        -- refine (Hone _ _ _). cbn. rewrite !list_lookup_insert by (by eapply lookup_lt_Some). intros x y [= <-] [= <-]. cbn.
           by rewrite (H1 _ _ eq_refl eq_refl).
    + unfold mx_tstep, mx_next, read_next in *. cbn -[Nat.ltb] in Hs |- *. unfold rd_step. cbn -[alignTimestamp Nat.ltb].
      destruct pc as [|st|st cts|st cts pos|st cts pos j|st cts pos sts i1 acc|st cts pos sts i acc|st cts l m].
      * destruct todo; [done|]. split; [done|]. split; [done|]. refine (Hnil _).
      * rewrite <- R1, <- R3. destruct (alignTimestamp _ _); [|done]. split; [done|]. split; [done|]. refine (Hnil _).
      * pose proof (Hs _ (elem_of_list_here _ _)) as H1. cbn in H1. rewrite <- H1. split; [done|]. split; [done|]. exact Hs.
      * pose proof (Hs _ (elem_of_list_here _ _)) as H1. cbn in H1. rewrite <- H1. split; [done|]. split; [done|]. exact Hs.
      * pose proof (Hs _ (elem_of_list_here _ _)) as H1. cbn in H1. rewrite <- H1. destruct (dq_queue _ !! j) as [p|]; [|done]. cbn.
        specialize (Hheap p). destruct (bc_heap (bs_bc s1) !! p), (bc_heap (bs_bc s2) !! p); try done. cbn. rewrite Hheap.
        split; [done|]. split; [done|]. exact Hs.
      * rewrite <- R4. destruct i1 as [|i]; [split; [done|]; split; [done|]; refine (Hnil _)|].
        destruct (_ <? _)%nat; [|split; [done|]; split; [done|]; refine (Hnil _)].
        pose proof (Hs _ (elem_of_list_here _ _)) as H1. cbn in H1. rewrite <- H1. destruct (dq_queue _ !! i) as [p|]; [|done]. cbn.
        split; [done|]. split; [done|]. exact Hs.
      * destruct (_ <? _)%nat; [|split; [done|]; split; [done|]; refine (Hnil _)].
        pose proof (Hs _ (elem_of_list_here _ _)) as H1. cbn in H1. rewrite <- H1. destruct (dq_queue _ !! i) as [p|]; [|done]. cbn.
        specialize (Hheap p). destruct (bc_heap (bs_bc s1) !! p), (bc_heap (bs_bc s2) !! p); try done. cbn. rewrite Hheap.
        split; [done|]. split; [done|]. exact Hs.
      * destruct l as [|p l]; [split; [done|]; split; [done|]; refine (Hnil _)|].
        pose proof (Hs _ (elem_of_list_here _ _)) as H1. cbn in H1. pose proof (Hheap p) as Hp.
        destruct (bc_heap (bs_bc s1) !! p) as [b1|] eqn:E1, (bc_heap (bs_bc s2) !! p) as [b2|] eqn:E2; try done. cbn.
        rewrite <- Hp, <- (H1 _ _ eq_refl eq_refl). split; [done|]. split; [done|]. exact Hs.
Qed.
Print Assumptions C109_table.

(** Goroutines keep to their kind. *)
Definition kind_of (p : mprog) (t : mthread) : Prop :=
  match p, t with PUpd _, MUpd _ | PRead _, MRead _ => True | _, _ => False end.
Lemma kind_run s0 progs sched i t :
  threads (mx_from s0 progs sched) !! i = Some t -> exists p, progs !! i = Some p /\ kind_of p t.
Proof.
  apply (program_inv mx_tstep bc_estep kind_of mx_start).
  - by intros [].
  - clear. intros p s [t|t] s' t' Hk Hs; cbn in Hs.
    + destruct (bc_tstep s t) as [[]|]; [|done]. injection Hs as <- <-. by destruct p.
    + destruct (rd_step s t) as [|]; [|done]. injection Hs as <- <-. by destruct p.
Qed.

Lemma upd_on_total s t a : a ∈ mx_next s t -> ac_loc a = VTotal -> ac_atomic a = true.
Proof.
  destruct t as [t|t]; cbn.
  - unfold upd_next. intros Ha Hl. destruct (bt_pc t); try (by apply elem_of_nil in Ha);
      try (apply elem_of_list_singleton in Ha as ->; done).
    destruct (bt_todo t); [by apply elem_of_nil in Ha|]. destruct (bc_updateTotalCount _); [|by apply elem_of_nil in Ha].
    by apply elem_of_list_singleton in Ha as ->.
  - unfold read_next. intros Ha Hl. destruct (rd_pc t) as [|st|st cts|st cts pos|st cts pos j|st cts pos sts [|i1] acc|st cts pos sts i acc|st cts [|p l] m];
      try (by apply elem_of_nil in Ha); try (apply elem_of_list_singleton in Ha as ->; done).
    all: destruct (_ <? _)%nat; [apply elem_of_list_singleton in Ha as ->; done|by apply elem_of_nil in Ha].
Qed.

Lemma on_bucket s t a p : a ∈ mx_next s t -> ac_loc a = VBucket p ->
  match t with MUpd _ => ac_atomic a = true /\ ac_write a = true | MRead _ => ac_write a = false end.
Proof.
  destruct t as [t|t]; cbn.
  - unfold upd_next. intros Ha Hl. destruct (bt_pc t); try (by apply elem_of_nil in Ha);
      try (apply elem_of_list_singleton in Ha as ->; done).
    destruct (bt_todo t); [by apply elem_of_nil in Ha|]. destruct (bc_updateTotalCount _); [|by apply elem_of_nil in Ha].
    by apply elem_of_list_singleton in Ha as ->.
  - unfold read_next. intros Ha Hl. destruct (rd_pc t) as [|st|st cts|st cts pos|st cts pos j|st cts pos sts [|i1] acc|st cts pos sts i acc|st cts [|q l] m];
      try (by apply elem_of_nil in Ha); try (apply elem_of_list_singleton in Ha as ->; done).
    all: destruct (_ <? _)%nat; [apply elem_of_list_singleton in Ha as ->; done|by apply elem_of_nil in Ha].
Qed.

(** C109 (what is missing: latestBucket and the ring, and bucket counts read while they are
    added to, see [C109_refuted]): the total is never raced on, and a bucket's count only
    between GetBucketCountsSince and an update.  In particular updates add to the total
    and to the buckets without races. *)
Theorem C109_counts_partial s0 progs sched :
  ~ data_race_on mx_next VTotal (mx_from s0 progs sched) /\
  forall p, data_race_on mx_next (VBucket p) (mx_from s0 progs sched) -> exists i j, reads progs i /\ updates progs j.
Proof.
  split.
  - intros (i & j & ti & tj & a & b & Hne & Hi & Hj & Ha & Hb & La & Lb & Hw & Hat)%race_sym.
    rewrite (upd_on_total _ _ _ Ha La), (upd_on_total _ _ _ Hb Lb) in Hat. by destruct Hat.
  - intros p (i & j & ti & tj & a & b & Hne & Hi & Hj & Ha & Hb & La & Lb & Hw & Hat)%race_sym.
    pose proof (on_bucket _ _ _ _ Ha La) as Ka. pose proof (on_bucket _ _ _ _ Hb Lb) as Kb.
    destruct (kind_run _ _ _ _ _ Hi) as (pi & Pi & Ki). destruct (kind_run _ _ _ _ _ Hj) as (pj & Pj & Kj).
    destruct ti as [ti|ti]; [|by rewrite Ka in Hw]. destruct tj as [tj|tj].
    { destruct Ka as [Ka _], Kb as [Kb _]. rewrite Ka, Kb in Hat. by destruct Hat. }
    exists j, i. destruct pi as [li|], pj as [|lj]; try done. split; by eexists.
Qed.
Print Assumptions C109_counts_partial.

(** Within the interval of the latest bucket. *)
Definition steady (s0 : bc_shared) (b : bucket) (t : mthread) : Prop :=
  match t with
  | MRead _ => True
  | MUpd t =>
      match bt_pc t with
      | PIdle | PClock _ => True
      | PLoad _ ts => ts <= bk_ts b
      | PCmp _ ts old => ts <= bk_ts b /\ old = bc_latestBucket (bs_bc s0)
      | PAdd _ old => old = bc_latestBucket (bs_bc s0)
      | _ => False
      end
  end.

Lemma steady_run s0 progs sched :
  Forall (within s0) (bs_clock s0 :: clocks sched) ->
  exists b, let c := mx_from s0 progs sched in
  bc_interval (bs_bc (shared c)) = bc_interval (bs_bc s0) /\
  bc_latestBucket (bs_bc (shared c)) = bc_latestBucket (bs_bc s0) /\
  (exists b', bc_heap (bs_bc (shared c)) !! bc_latestBucket (bs_bc s0) = Some b' /\ bk_ts b' = bk_ts b) /\
  bc_heap (bs_bc s0) !! bc_latestBucket (bs_bc s0) = Some b /\
  within s0 (bs_clock (shared c)) /\
  forall i t, threads c !! i = Some t -> steady s0 b t.
Proof.
  intros HW. assert (Hb : exists b, bc_heap (bs_bc s0) !! bc_latestBucket (bs_bc s0) = Some b).
  { apply Forall_cons in HW as [(b & ts & Hb & _) _]. by exists b. }
  destruct Hb as [b Hb]. exists b. unfold mx_from. cbv zeta.
  induction sched as [|ev sched IH] using rev_ind.
  - cbn. apply Forall_cons in HW as [HW _]. split_and!; try done; [by exists b|].
    intros i t Hi. rewrite list_lookup_fmap in Hi. destruct (progs !! i) as [[]|]; [| |done]; cbn in Hi; injection Hi as <-; done.
  - unfold clocks in HW. rewrite omap_app in HW. apply Forall_cons in HW as [HW0 HW]. apply Forall_app in HW as [HW1 HW2].
    destruct IH as (I1 & I2 & (b' & I3 & I3') & _ & I5 & I6); [by constructor|]. rewrite crun_snoc.
    set (c := crun mx_tstep bc_estep (Config s0 (mx_start <$> progs)) sched) in *.
    destruct ev as [i|now]; cbn [cstep].
    2:{ cbn. apply Forall_cons in HW2 as [H _]. split_and!; try done. by exists b'. }
    destruct (threads c !! i) as [t|] eqn:Hi; [|split_and!; try done; by exists b']. pose proof (I6 _ _ Hi) as Q.
    destruct (mx_tstep (shared c) t) as [[s' t']|] eqn:Hs; [|split_and!; try done; by exists b']. cbn [shared threads].
    assert (HG : bc_interval (bs_bc s') = bc_interval (bs_bc s0) /\ bc_latestBucket (bs_bc s') = bc_latestBucket (bs_bc s0) /\
      (exists b', bc_heap (bs_bc s') !! bc_latestBucket (bs_bc s0) = Some b' /\ bk_ts b' = bk_ts b) /\
      bs_clock s' = bs_clock (shared c) /\ steady s0 b t').
    2:{ destruct HG as (G1 & G2 & G3 & G4 & G5). split_and!; try done; [by rewrite G4|]. intros j u Hj.
        apply list_lookup_insert_Some in Hj as [(-> & <- & _)|[_ Hj]]; [done|by eapply I6]. }
    destruct t as [[todo pc]|t]; cbn in Hs.
    2:{ destruct (rd_step _ _); [|done]. injection Hs as <- <-. split_and!; try done. by exists b'. }
    destruct (bc_tstep (shared c) _) as [[s'' t'']|] eqn:Ht; [|done]. injection Hs as <- <-.
    unfold bc_tstep in Ht. cbn -[alignTimestamp heap_add Nat.ltb Nat.modulo] in Ht.
    destruct pc as [|n|n ts|n ts old|n ts old|n bk|n bk v|n bk|n bk i'|n|n bk]; try done; cbn in Q.
    + destruct todo; [done|]. injection Ht as <- <-. destruct (bc_updateTotalCount _); cbn; split_and!; try done; by exists b'.
    + rewrite I1 in Ht. destruct I5 as (b0 & ts & Hb0 & E & Hle). rewrite E in Ht. injection Ht as <- <-. cbn.
      split_and!; try done; [by exists b'|]. congruence.
    + injection Ht as <- <-. cbn. split_and!; try done; by exists b'.
    + destruct Q as [Q ->]. rewrite I3 in Ht. destruct (Z.ltb_spec (bk_ts b') ts); [lia|]. injection Ht as <- <-. cbn.
      split_and!; try done. by exists b'.
    + subst bk. destruct (heap_add _ _ _) as [h'|] eqn:E; [|done]. injection Ht as <- <-. apply heap_add_inv in E as (b1 & Hb1 & ->).
      cbn. split_and!; try done. eexists. rewrite list_lookup_insert by (by eapply lookup_lt_Some). split; [done|]. cbn. congruence.
Qed.

(** C109 while the clock stays within the interval of the latest bucket, whatever happened
    before: updates do not race with each other; with readers around, only bucket counts
    are raced on. *)
Theorem C109_same_interval_partial s0 progs sched :
  Forall (within s0) (bs_clock s0 :: clocks sched) ->
  (forall l, data_race_on mx_next l (mx_from s0 progs sched) -> exists p, l = VBucket p) /\
  ((forall i, ~ reads progs i) -> race_free mx_next (mx_from s0 progs sched)).
Proof.
  intros HW. assert (H1 : forall l, data_race_on mx_next l (mx_from s0 progs sched) -> exists p, l = VBucket p).
  { intros l Hr. destruct (steady_run s0 progs sched HW) as (b & _ & _ & _ & _ & _ & Q).
    destruct (C109_counts_partial s0 progs sched) as [T _].
    destruct (decide (l = VTotal)) as [->|Hnt]; [done|].
    apply race_sym in Hr as (i & j & ti & tj & a & b' & Hne & Hi & Hj & Ha & Hb & La & Lb & Hw & Hat).
    specialize (Q _ _ Hi). destruct ti as [ti|ti]; cbn in Ha, Q.
    - unfold upd_next in Ha. destruct (bt_pc ti); try done; try (by apply elem_of_nil in Ha).
      + destruct (bt_todo ti); [by apply elem_of_nil in Ha|]. destruct (bc_updateTotalCount _); [|by apply elem_of_nil in Ha].
        by apply elem_of_list_singleton in Ha as ->.
      + by apply elem_of_list_singleton in Ha as ->.
      + apply elem_of_list_singleton in Ha as ->. cbn in La. subst l. by eexists.
    - exfalso. unfold read_next in Ha. destruct (rd_pc ti) as [|st|st cts|st cts pos|st cts pos k|st cts pos sts [|i1] acc|st cts pos sts k acc|st cts [|p l'] m];
      try (by apply elem_of_nil in Ha); try (apply elem_of_list_singleton in Ha as ->; done).
      all: destruct (_ <? _)%nat; [apply elem_of_list_singleton in Ha as ->; done|by apply elem_of_nil in Ha]. }
  split; [done|]. intros Hnr l Hr. destruct (H1 _ Hr) as [p ->]. apply C109_counts_partial in Hr as (i & _ & Hi & _). by eapply Hnr.
Qed.
Print Assumptions C109_same_interval_partial.

(** C109 is false in general: latestBucket is loaded without sync/atomic (line 108) while
    another goroutine swaps it (line 114); GetBucketCountsSince loads a count (line 139) an
    update is adding to (line 123), and the ring's position (bucket_queue.go:87) while
    addLast stores it (line 66). *)
Theorem C109_refuted :
  (exists c, mx_crun 1000000000 2 5000 true [PUpd [1]; PUpd [1]] (Run <$> [0; 0; 0; 0; 1; 1]%nat) = Ok c /\
     data_race_on mx_next VLatest c) /\
  (exists c, mx_crun 1000000000 2 5000 true [PUpd [1]; PRead [0]] (Run <$> [0; 0; 0; 0; 0; 0; 1; 1]%nat) = Ok c /\
     data_race_on mx_next VCurrent c) /\
  (exists c, mx_crun 1000000000 2 5000 true [PUpd [1]; PRead [0]]
       (Run <$> [0; 0; 0; 0; 0; 0; 0; 0; 0; 1; 1; 1; 1; 1; 1; 1; 1; 1]%nat) = Ok c /\
     data_race_on mx_next (VBucket 3) c).
Proof.
  split_and!.
  - eexists. split; [reflexivity|].
    apply (race_intro mx_next _ 0 1 (MUpd (BThread [] (PCas 1 5 0))) (MUpd (BThread [] (PLoad 1 5))) (atomic_op VLatest) (loads VLatest));
      try reflexivity; [done|by left|by left].
  - eexists. split; [reflexivity|].
    apply (race_intro mx_next _ 0 1 (MUpd (BThread [] (PCurStore 1 3 1))) (MRead (RdThread [] (RCur 0 5) [])) (stores VCurrent) (loads VCurrent));
      try reflexivity; [done|by left|by left].
  - eexists. split; [reflexivity|].
    apply (race_intro mx_next _ 0 1 (MUpd (BThread [] (PAdd 1 3))) (MRead (RdThread [] (RFill 0 5 [3; 0]%nat ∅) [])) (atomic_op (VBucket 3)) (loads (VBucket 3)));
      try reflexivity; [done|by left|by left].
Qed.
Print Assumptions C109_refuted.

(** The hypothesis of C109_same_interval_partial holds of a counter that has been updated
    in the second the clock shows. *)
Example C109_witness :
  exists c, newBucketCounterImpl 1000000000 2 5000 true = Ok c /\ exists c', bc_UpdateN c 5200 1 = Ok c' /\
    Forall (within (BcShared c' 5200)) (5200 :: clocks [Run 0%nat; Env 5900; Run 1%nat; Env 4000; Run 0%nat]).
Proof.
  eexists. split; [reflexivity|]. eexists. split; [reflexivity|].
  change (clocks _) with [5900; 4000]. apply Forall_cons_2; [|apply Forall_cons_2; [|apply Forall_cons_2; [|apply Forall_nil_2]]]; (eexists _, _; split; [reflexivity|]; split; [reflexivity|]; vm_compute; discriminate).
Qed.
