From Verif.Go Require Import GoInt GoConc.
From Verif.Model Require Import Counter BucketQueue BucketCounter BucketCounterConc BucketReadConc.
From Verif.Spec Require Import BucketSpec BucketConcSpec BucketReadSpec.
From Verif.Proofs Require Import BucketAbs BucketHist BucketMain BucketConcProofs BucketConcRing BucketConcMain.
Local Open Scope Z_scope.

(** A reading goroutine seen as an updating one that has nothing to do. *)
Definition proj (t : mthread) : bthread := match t with MUpd t => t | MRead _ => BThread [] PIdle end.

Lemma to_add_proj (ts : list mthread) : to_add <$> ts = unfinished <$> (proj <$> ts).
Proof. rewrite <- list_fmap_compose. apply list_fmap_ext. by intros i [t|t] _. Qed.

Definition qinv (c : bucket_counter) : Prop :=
  Forall (fun p => (p < length (bc_heap c))%nat) (dq_queue (bc_buckets c)).

Definition mxinv (N : nat) (interval now0 : Z) (upd : bool) (all : list Z) (c : config bc_shared mthread)
  (cr : list (nat * Z)) : Prop :=
  binv N interval now0 upd all (shared c) (proj <$> threads c) cr /\ qinv (bs_bc (shared c)).

Section inv.
Context (N : nat) (interval now0 : Z) (upd : bool) (all : list Z).
Context (HI : 1 <= interval_seconds interval).

Lemma qinv_step s t s' t' : bc_tstep s t = Some (s', t') -> pc_ok (S N) (bc_heap (bs_bc s)) (bt_pc t) ->
  qinv (bs_bc s) -> qinv (bs_bc s').
Proof.
  destruct s as [c clk]. unfold bc_tstep, qinv. cbn [bs_bc bs_clock]. intros Hs Hok Hq.
  destruct (bt_pc t).
  - destruct (bt_todo t); [done|]. injection Hs as <- <-. cbn. by destruct (bc_updateTotalCount c).
  - destruct (alignTimestamp _ _); [|done]. by injection Hs as <- <-.
  - by injection Hs as <- <-.
  - destruct (bc_heap c !! old); [|done]. by injection Hs as <- <-.
  - destruct (decide _); injection Hs as <- <-; [|done]. cbn. eapply Forall_impl; [exact Hq|].
    intros p Hp. rewrite app_length. cbn in *. lia.
  - destruct (length (dq_queue (bc_buckets c))); [done|]. by injection Hs as <- <-.
  - by injection Hs as <- <-.
  - by injection Hs as <- <-.
  - destruct (_ <? _)%nat; [|done]. injection Hs as <- <-. cbn in *. apply Forall_insert; [done|]. lia.
  - by injection Hs as <- <-.
  - unfold heap_add in Hs. destruct (bc_heap c !! bk) as [b0|] eqn:E; [|done]. injection Hs as <- <-. cbn.
    by rewrite insert_length.
Qed.

Lemma mxinv_step s ts i t s' t' cr :
  mxinv N interval now0 upd all (Config s ts) cr -> ts !! i = Some t -> mx_tstep s t = Some (s', t') ->
  exists ex, mxinv N interval now0 upd all (Config s' (<[i := t']> ts)) (cr ++ ex).
Proof.
  intros [B Q] Hi Hs. cbn in *. destruct t as [t|t]; cbn in Hs.
  - destruct (bc_tstep s t) as [[s1 t1]|] eqn:Hst; [|done]. injection Hs as <- <-.
    assert (Hi' : (proj <$> ts) !! i = Some t) by (by rewrite list_lookup_fmap, Hi).
    destruct (binv_step _ _ _ _ _ _ _ _ _ _ _ _ HI B Hi' Hst) as (cr' & B' & Hcr).
    assert (exists ex, cr' = cr ++ ex) as [ex ->].
    { destruct Hcr as [->|(n & q & _ & ->)]; [exists []; by rewrite app_nil_r|eauto]. }
    exists ex. split; cbn.
    + by rewrite list_fmap_insert.
    + eapply qinv_step; [done| |done]. by apply (b_pcs _ _ _ _ _ _ _ _ B i).
  - destruct (rd_step s t) as [t1|] eqn:Hst; [|done]. injection Hs as <- <-. exists []. rewrite app_nil_r. split; cbn; [|done].
    rewrite list_fmap_insert, list_insert_id; [done|]. by rewrite list_lookup_fmap, Hi.
Qed.

Lemma mxinv_run c cr sched : mxinv N interval now0 upd all c cr ->
  exists ex, mxinv N interval now0 upd all (crun mx_tstep bc_estep c sched) (cr ++ ex).
Proof.
  intros H. induction sched as [|ev sched IH] using rev_ind; [exists []; by rewrite app_nil_r|].
  rewrite crun_snoc. destruct IH as [ex IH]. destruct (crun mx_tstep bc_estep c sched) as [s ts].
  destruct ev as [i|e]; cbn.
  - destruct (ts !! i) as [t|] eqn:Hi; [|eauto]. destruct (mx_tstep s t) as [[s' t']|] eqn:Hs; [|eauto].
    destruct (mxinv_step _ _ _ _ _ _ _ IH Hi Hs) as [ex' ?]. exists (ex ++ ex'). by rewrite app_assoc.
  - exists ex. destruct IH as [B Q]. split; [by apply binv_env|done].
Qed.

(** What a reading goroutine has in its hands. *)
Definition rd_ok (h : list bucket) (pc : rdpc) : Prop :=
  match pc with
  | RIdle | RClock _ | RCur _ _ => True
  | RCur2 _ _ pos => (pos <= N)%nat
  | RTop _ _ pos j => (pos <= N)%nat /\ (j <= N)%nat
  | RLoop1 _ _ pos _ i1 acc => (pos <= N)%nat /\ (i1 + length acc = S pos)%nat /\ (length acc <= N)%nat /\
      Forall (fun p => (p < length h)%nat) acc
  | RLoop2 _ _ pos _ i acc => (i <= N)%nat /\ (length acc + (i - (pos + 1)) <= N)%nat /\ Forall (fun p => (p < length h)%nat) acc
  | RFill _ _ l result => (length l + size result <= N)%nat /\ Forall (fun p => (p < length h)%nat) l
  end.

Lemma rd_ok_mono h h' pc : (length h <= length h')%nat -> rd_ok h pc -> rd_ok h' pc.
Proof.
  intros Hl. assert (HF : forall l, Forall (fun p => (p < length h)%nat) l -> Forall (fun p => (p < length h')%nat) l).
  { intros l Hf. eapply Forall_impl; [exact Hf|]. intros. cbv beta in *. lia. }
  destruct pc; cbn; try tauto; naive_solver.
Qed.

Lemma rd_step_ok s ts cr t t' :
  mxinv N interval now0 upd all (Config s ts) cr -> rd_ok (bc_heap (bs_bc s)) (rd_pc t) -> rd_step s t = Some t' ->
  rd_ok (bc_heap (bs_bc s)) (rd_pc t').
Proof.
  intros [B Q] Hok Hs. cbn in *. pose proof (b_qlen _ _ _ _ _ _ _ _ B) as Hq. pose proof (b_cur _ _ _ _ _ _ _ _ B) as Hc.
  unfold qinv in Q. rewrite Forall_lookup in Q.
  unfold rd_step in Hs. rewrite Hq in Hs. replace (S N - 1)%nat with N in Hs by lia. cbv zeta in Hs.
  destruct (rd_pc t) as [|start|start cts|start cts pos|start cts pos j|start cts pos sts [|i] acc|start cts pos sts i acc|start cts [|p l] result]; cbn in Hok.
  - destruct (rd_todo t); [done|]. injection Hs as <-. done.
  - destruct (alignTimestamp _ _); [|done]. injection Hs as <-. done.
  - injection Hs as <-. cbn. lia.
  - injection Hs as <-. cbn. lia.
  - destruct (_ !! j) as [p|] eqn:Hp; [|done]. cbn in Hs. destruct (_ !! p) as [b|] eqn:Hb; [|done]. cbn in Hs. injection Hs as <-. cbn.
    split_and!; try lia. done.
  - injection Hs as <-. cbn. destruct Hok as (? & ? & ? & ?). split_and!; try lia; done.
  - destruct Hok as (? & ? & ? & ?). destruct (Nat.ltb_spec (pos - i) N).
    + destruct (_ !! i) as [p|] eqn:Hp; [|done]. cbn in Hs. injection Hs as <-. cbn. rewrite app_length. cbn. split_and!; try lia.
      apply Forall_app. split; [done|]. constructor; [|constructor]. eapply Q; done.
    + injection Hs as <-. cbn. split_and!; try lia; done.
  - destruct Hok as (? & ? & ?). destruct (Nat.ltb_spec (pos + 1) i).
    + destruct (_ !! i) as [p|] eqn:Hp; [|done]. cbn in Hs. destruct (_ !! p) as [b|] eqn:Hb; [|done]. cbn in Hs. injection Hs as <-. cbn.
      destruct (bk_ts b <=? sts); [rewrite app_length; cbn|]; split_and!; try lia; try done.
      apply Forall_app. split; [done|]. constructor; [|constructor]. eapply Q; done.
    + injection Hs as <-. cbn. rewrite map_size_empty. split; [lia|done].
  - injection Hs as <-. done.
  - destruct Hok as (? & Hf). apply Forall_cons in Hf as [? ?]. destruct (_ !! p) as [b|] eqn:Hb; [|done]. cbn in Hs. injection Hs as <-. cbn in *.
    split; [|done]. destruct (_ && _); [|lia]. rewrite map_size_insert. destruct (result !! _); cbn; lia.
Qed.

Lemma rd_progress s ts cr t :
  mxinv N interval now0 upd all (Config s ts) cr -> rd_ok (bc_heap (bs_bc s)) (rd_pc t) ->
  ~ (rd_todo t = [] /\ rd_pc t = RIdle) -> exists t', rd_step s t = Some t'.
Proof.
  intros [B Q] Hok Hnd. cbn in *. pose proof (b_qlen _ _ _ _ _ _ _ _ B) as Hq.
  pose proof (b_interval _ _ _ _ _ _ _ _ B) as Hint. pose proof (b_clock _ _ _ _ _ _ _ _ B) as Hclk.
  unfold qinv in Q. rewrite Forall_lookup in Q.
  assert (Hlk : forall j, (j <= N)%nat -> exists p b, dq_queue (bc_buckets (bs_bc s)) !! j = Some p /\ bc_heap (bs_bc s) !! p = Some b).
  { intros j Hj. destruct (lookup_lt_is_Some_2 (dq_queue (bc_buckets (bs_bc s))) j) as [p Hp]; [lia|].
    destruct (lookup_lt_is_Some_2 (bc_heap (bs_bc s)) p) as [b Hb]; [by eapply Q|]. eauto. }
  unfold rd_step. rewrite Hq. replace (S N - 1)%nat with N by lia. cbv zeta.
  destruct (rd_pc t) as [|start|start cts|start cts pos|start cts pos j|start cts pos sts [|i] acc|start cts pos sts i acc|start cts [|p l] result] eqn:Hpc; cbn in Hok; try (eexists; reflexivity).
  - destruct (rd_todo t) eqn:Htd; [by destruct Hnd|]. eauto.
  - rewrite Hint, alignTimestamp_spec by done. eauto.
  - destruct (Hlk j) as (p & b & Hp & Hb); [lia|]. rewrite Hp. cbn. rewrite Hb. cbn. eauto.
  - destruct (_ <? _)%nat; [|eauto]. destruct (Hlk i) as (p & b & Hp & Hb); [lia|]. rewrite Hp. cbn. eauto.
  - destruct (_ <? _)%nat; [|eauto]. destruct (Hlk i) as (p & b & Hp & Hb); [lia|]. rewrite Hp. cbn. rewrite Hb. cbn. eauto.
  - destruct Hok as [_ Hf]. apply Forall_cons in Hf as [Hp _].
    destruct (lookup_lt_is_Some_2 (bc_heap (bs_bc s)) p Hp) as [b Hb]. rewrite Hb. cbn. eauto.
Qed.

Definition rd_rank_pc (pc : rdpc) : nat :=
  match pc with
  | RIdle => 0
  | RClock _ => 3 * N + 8
  | RCur _ _ => 3 * N + 7
  | RCur2 _ _ _ => 3 * N + 6
  | RTop _ _ _ _ => 3 * N + 5
  | RLoop1 _ _ _ _ i1 _ => i1 + 2 * N + 3
  | RLoop2 _ _ _ _ i _ => i + N + 2
  | RFill _ _ l _ => length l + 1
  end.
Definition rd_rank (t : rdthread) : nat := (3 * N + 9) * length (rd_todo t) + rd_rank_pc (rd_pc t).

Lemma rd_step_rank s ts cr t t' :
  mxinv N interval now0 upd all (Config s ts) cr -> rd_ok (bc_heap (bs_bc s)) (rd_pc t) -> rd_step s t = Some t' ->
  (rd_rank t' < rd_rank t)%nat.
Proof.
  intros M Hok Hs. pose proof (rd_step_ok _ _ _ _ _ M Hok Hs) as Hok'. destruct M as [B Q]. cbn in *.
  pose proof (b_qlen _ _ _ _ _ _ _ _ B) as Hq.
  unfold rd_step in Hs. rewrite Hq in Hs. replace (S N - 1)%nat with N in Hs by lia. cbv zeta in Hs. unfold rd_rank.
  destruct (rd_pc t) as [|start|start cts|start cts pos|start cts pos j|start cts pos sts [|i] acc|start cts pos sts i acc|start cts [|p l] result] eqn:Hpc; cbn [rd_ok rd_rank_pc] in Hok |- *.
  - destruct (rd_todo t); [done|]. injection Hs as <-. cbn. lia.
  - destruct (alignTimestamp _ _); [|done]. injection Hs as <-. cbn. lia.
  - injection Hs as <-. cbn. lia.
  - injection Hs as <-. cbn. lia.
  - destruct (_ !! j) as [p|] eqn:Hp; [|done]. cbn in Hs. destruct (_ !! p) as [b|] eqn:Hb; [|done]. cbn in Hs. injection Hs as <-. cbn in *. lia.
  - injection Hs as <-. cbn. lia.
  - destruct (Nat.ltb_spec (pos - i) N).
    + destruct (_ !! i) as [p|] eqn:Hp; [|done]. cbn in Hs. injection Hs as <-. cbn. lia.
    + injection Hs as <-. cbn. lia.
  - destruct (Nat.ltb_spec (pos + 1) i).
    + destruct (_ !! i) as [p|] eqn:Hp; [|done]. cbn in Hs. destruct (_ !! p) as [b|] eqn:Hb; [|done]. cbn in Hs. injection Hs as <-. cbn. lia.
    + injection Hs as <-. cbn. lia.
  - injection Hs as <-. cbn. lia.
  - destruct (_ !! p) as [b|] eqn:Hb; [|done]. cbn in Hs. injection Hs as <-. cbn. lia.
Qed.
End inv.

Lemma mx_heap_length s t s' t' : mx_tstep s t = Some (s', t') ->
  (length (bc_heap (bs_bc s)) <= length (bc_heap (bs_bc s')))%nat /\
  forall p b, bc_heap (bs_bc s) !! p = Some b -> exists b', bc_heap (bs_bc s') !! p = Some b' /\ bk_ts b' = bk_ts b.
Proof.
  intros Hs.
  assert (H : forall p b, bc_heap (bs_bc s) !! p = Some b -> exists b', bc_heap (bs_bc s') !! p = Some b' /\ bk_ts b' = bk_ts b).
  { intros p b Hp. destruct t as [t|t]; cbn in Hs.
    - destruct (bc_tstep s t) as [[s1 t1]|] eqn:Hst; [|done]. injection Hs as <- <-. by eapply tstep_heap.
    - destruct (rd_step s t) as [t1|] eqn:Hst; [|done]. injection Hs as <- <-. eauto. }
  split; [|done]. destruct (decide (length (bc_heap (bs_bc s)) = 0%nat)); [lia|].
  destruct (lookup_lt_is_Some_2 (bc_heap (bs_bc s)) (length (bc_heap (bs_bc s)) - 1)%nat ltac:(lia)) as [b Hb].
  destruct (H _ _ Hb) as (b' & Hb' & _). apply lookup_lt_Some in Hb'. lia.
Qed.

Lemma mx_crun_heap c sched p b :
  bc_heap (bs_bc (shared c)) !! p = Some b ->
  exists b', bc_heap (bs_bc (shared (crun mx_tstep bc_estep c sched))) !! p = Some b' /\ bk_ts b' = bk_ts b.
Proof.
  revert b. induction sched as [|ev sched IH] using rev_ind; intros b Hp; [eauto|].
  rewrite crun_snoc. destruct (IH b Hp) as (b1 & H1 & H2).
  destruct (crun mx_tstep bc_estep c sched) as [s ts]. destruct ev as [i|e]; [|eauto]. cbn in *.
  destruct (ts !! i) as [t|]; [|eauto]. destruct (mx_tstep s t) as [[s' t']|] eqn:Hs; [|eauto].
  destruct (proj2 (mx_heap_length _ _ _ _ Hs) _ _ H1) as (b2 & ? & ?). exists b2. split; [done|congruence].
Qed.

(** The start *)
Lemma mx_init interval N now0 upd progs : 0 <= N ->
  exists c0, newBucketCounterImpl interval N now0 upd = Ok c0 /\
    mxinv (Z.to_nat N) interval now0 upd (mjoin (amounts_of <$> progs)) (Config (BcShared c0 (wrap64 now0)) (mx_start <$> progs)) [].
Proof.
  intros HN. destruct (binv_init interval N now0 upd (amounts_of <$> progs) HN) as (c & E & B & Hh & Hd & Ht).
  unfold bc_cinit in E. destruct (newBucketCounterImpl interval N now0 upd) as [c0|]; [|done]. cbn in E. injection E as <-.
  exists c0. split; [done|]. cbn [shared threads bs_bc] in *. split; cbn [shared threads bs_bc].
  - assert (E : proj <$> (mx_start <$> progs) = (fun p => BThread p PIdle) <$> (amounts_of <$> progs)).
    { rewrite <- !list_fmap_compose. apply list_fmap_ext. by intros i [l|l] _. }
    by rewrite E.
  - unfold qinv. rewrite Hh, Hd, replicate_length. cbn [dq_queue]. apply Forall_seq. intros. lia.
Qed.

Lemma mx_run interval N now0 upd progs sched :
  Second <= interval -> in64 interval -> 0 <= N ->
  exists c cr, mx_crun interval N now0 upd progs sched = Ok c /\
    mxinv (Z.to_nat N) interval now0 upd (mjoin (amounts_of <$> progs)) c cr.
Proof.
  intros H1 H2 HN. destruct (mx_init interval N now0 upd progs HN) as (c0 & E & M).
  unfold mx_crun. rewrite E. cbn [mbind res_bind].
  destruct (mxinv_run _ _ _ _ _ (interval_seconds_pos _ H1 H2) _ _ sched M) as [ex Mx]. eauto.
Qed.

Lemma mx_crun_app interval N now0 upd progs s1 s2 c1 :
  mx_crun interval N now0 upd progs s1 = Ok c1 ->
  mx_crun interval N now0 upd progs (s1 ++ s2) = Ok (crun mx_tstep bc_estep c1 s2).
Proof.
  unfold mx_crun. destruct (newBucketCounterImpl interval N now0 upd) as [c0|]; [|done]. cbn.
  intros E. injection E as <-. by rewrite crun_app.
Qed.

(** Every reader is in a good state. *)
Definition readers_ok (N : nat) (c : config bc_shared mthread) : Prop :=
  forall i t, threads c !! i = Some (MRead t) -> rd_ok N (bc_heap (bs_bc (shared c))) (rd_pc t).

Lemma readers_ok_run N interval now0 upd all c cr sched : 1 <= interval_seconds interval ->
  mxinv N interval now0 upd all c cr -> readers_ok N c -> readers_ok N (crun mx_tstep bc_estep c sched).
Proof.
  intros HI M0 R0. induction sched as [|ev sched IH] using rev_ind; [done|]. rewrite crun_snoc.
  destruct (mxinv_run _ _ _ _ _ HI _ _ sched M0) as [ex M]. destruct (crun mx_tstep bc_estep c sched) as [s ts].
  destruct ev as [j|e]; [|done]. cbn. destruct (ts !! j) as [t|] eqn:Hj; [|done].
  destruct (mx_tstep s t) as [[s' t']|] eqn:Hs; [|done]. intros i u Hi. cbn in *.
  apply lookup_lt_Some in Hj as Hlt. destruct (mx_heap_length _ _ _ _ Hs) as [Hl _].
  destruct (decide (j = i)) as [->|Hne].
  - rewrite list_lookup_insert in Hi by done. injection Hi as ->. destruct t as [t|t]; cbn in Hs.
    + by destruct (bc_tstep s t) as [[]|].
    + destruct (rd_step s t) as [t1|] eqn:Hst; [|done]. injection Hs as <- <-.
      eapply rd_step_ok; [done|apply (IH i); done|done].
  - rewrite list_lookup_insert_ne in Hi by done. eapply rd_ok_mono; [exact Hl|]. by apply (IH i).
Qed.

Lemma readers_ok_init N c progs : readers_ok N (Config c (mx_start <$> progs)).
Proof.
  intros i t Hi. cbn in *. rewrite list_lookup_fmap in Hi. destruct (progs !! i) as [[l|l]|]; cbn in *; [done| |done].
  by injection Hi as <-.
Qed.

Lemma readers_ok_reach interval N now0 upd progs sched c :
  Second <= interval -> in64 interval -> 0 <= N -> mx_crun interval N now0 upd progs sched = Ok c -> readers_ok (Z.to_nat N) c.
Proof.
  intros H1 H2 HN E. destruct (mx_init interval N now0 upd progs HN) as (c0 & E0 & M).
  unfold mx_crun in E. rewrite E0 in E. cbn in E. injection E as <-.
  eapply readers_ok_run; [by apply interval_seconds_pos|done|apply readers_ok_init].
Qed.

(** ** Readers finish *)
Lemma reads_wait_free interval N now0 upd progs sched i starts :
  Second <= interval -> in64 interval -> 0 <= N -> progs !! i = Some (PRead starts) ->
  exists c t, mx_crun interval N now0 upd progs sched = Ok c /\ threads c !! i = Some (MRead t) /\
    ((rd_todo t = [] /\ rd_pc t = RIdle) \/ (Z.of_nat (runs i sched) < (3 * N + 9) * Z.of_nat (length starts))).
Proof.
  intros H1 H2 HN Hp. pose proof (interval_seconds_pos _ H1 H2) as HI.
  assert (G : exists c t, mx_crun interval N now0 upd progs sched = Ok c /\ threads c !! i = Some (MRead t) /\
     ((rd_todo t = [] /\ rd_pc t = RIdle) \/ (rd_rank (Z.to_nat N) t + runs i sched <= (3 * Z.to_nat N + 9) * length starts)%nat)).
  { induction sched as [|ev sched IH] using rev_ind.
    - destruct (mx_init interval N now0 upd progs HN) as (c0 & E0 & _). unfold mx_crun. rewrite E0. cbn.
      eexists _, _. split; [done|]. cbn. rewrite list_lookup_fmap, Hp. split; [done|]. right. unfold rd_rank, runs. cbn. lia.
    - destruct IH as (c & t & E & Hi & Hor).
      destruct (mx_run interval N now0 upd progs sched H1 H2 HN) as (c' & cr & E' & M). rewrite E in E'. injection E' as <-.
      pose proof (readers_ok_reach _ _ _ _ _ _ _ H1 H2 HN E _ _ Hi) as Hok.
      rewrite (mx_crun_app _ _ _ _ _ _ [ev] _ E). cbn [crun fold_left]. destruct c as [s ts].
      assert (Er : runs i (sched ++ [ev]) = ((if decide (ev = Run i) then 1 else 0) + runs i sched)%nat).
      { unfold runs. rewrite filter_app, app_length, filter_cons. destruct (decide (ev = Run i)); cbn; lia. }
      rewrite Er. destruct ev as [j|e]; cbn [cstep threads shared] in *.
      + destruct (decide (Run j = @Run Z i)) as [Hj|Hne].
        * injection Hj as ->. rewrite Hi. cbn [mx_tstep].
          destruct (rd_step s t) as [t1|] eqn:Hst.
          -- eexists _, t1. split; [done|]. cbn [threads]. rewrite list_lookup_insert by (by apply lookup_lt_Some in Hi). split; [done|].
             pose proof (rd_step_rank _ _ _ _ _ _ _ _ _ _ M Hok Hst). destruct Hor as [[Ht Hpc]|?]; [|right; lia].
             unfold rd_step in Hst. rewrite Hpc, Ht in Hst. done.
          -- eexists _, t. split; [done|]. split; [done|]. left.
             assert (Hdec : (rd_todo t = [] /\ rd_pc t = RIdle) \/ ~ (rd_todo t = [] /\ rd_pc t = RIdle)).
             { destruct (rd_todo t) as [|z l]; [|right; by intros [? _]]. destruct (rd_pc t); [by left|..]; right; by intros [_ ?]. }
             destruct Hdec as [?|Hnd]; [done|].
             destruct (rd_progress _ _ _ _ _ HI _ _ _ _ M Hok Hnd) as [t' Hst']. congruence.
        * assert (j <> i) by congruence. destruct (ts !! j) as [u|] eqn:Hj; [|eexists _, t; split; [done|]; split; [done|]; done].
          destruct (mx_tstep s u) as [[s' t']|] eqn:Hst; [|eexists _, t; split; [done|]; split; [done|]; done].
          eexists _, t. split; [done|]. cbn [threads]. rewrite list_lookup_insert_ne by done. done.
      + rewrite decide_False by done. eexists _, t. split; [done|]. split; [done|]. done. }
  destruct G as (c & t & E & Hi & Hor). exists c, t. split; [done|]. split; [done|]. destruct Hor as [?|Hr]; [by left|].
  destruct (decide (rd_rank (Z.to_nat N) t = 0%nat)) as [H0|H0]; [left|right; nia].
  unfold rd_rank in H0. destruct t as [[|] pc got]; [|cbn in H0; lia]. split; [done|]. destruct pc; cbn in H0; try lia; done.
Qed.
