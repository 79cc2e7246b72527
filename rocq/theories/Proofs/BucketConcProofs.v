From Verif.Go Require Import GoInt GoConc.
From Verif.Model Require Import Counter BucketQueue BucketCounter BucketCounterConc.
From Verif.Spec Require Import BucketSpec BucketConcSpec.
From Verif.Proofs Require Import BucketAbs BucketHist BucketMain.
Local Open Scope Z_scope.

(** The freshly published bucket a goroutine is going to credit. *)
Definition target (pc : bpc) : option nat :=
  match pc with
  | PCurLoad _ q | PCurStore _ q _ | PSlotLoad _ q | PSlotStore _ q _ | PAdd _ q => Some q
  | _ => None
  end.

Definition pc_ok (M : nat) (h : list bucket) (pc : bpc) : Prop :=
  match pc with
  | PIdle | PClock _ | PReload _ => True
  | PLoad _ ts => in64 (1000 * ts)
  | PCmp _ ts p => in64 (1000 * ts) /\ (p < length h)%nat
  | PCas _ ts p => in64 (1000 * ts) /\ exists b, h !! p = Some b /\ bk_ts b < ts
  | PCurLoad _ q | PSlotLoad _ q => (M <= q < length h)%nat
  | PCurStore _ q v | PSlotStore _ q v => (M <= q < length h)%nat /\ (v < M)%nat
  | PAdd _ p => (p < length h)%nat
  end.

Record binv (N : nat) (interval now0 : Z) (upd : bool) (all : list Z)
  (s : bc_shared) (ts : list bthread) (cr : list (nat * Z)) : Prop := {
  b_interval : bc_interval (bs_bc s) = interval;
  b_now0 : bc_initTimestamp (bs_bc s) = now0;
  b_upd : bc_updateTotalCount (bs_bc s) = upd;
  b_clock : in64 (bs_clock s);
  b_qlen : length (dq_queue (bc_buckets (bs_bc s))) = S N;
  b_cur : (dq_current (bc_buckets (bs_bc s)) < S N)%nat;
  b_hlen : (S N <= length (bc_heap (bs_bc s)))%nat;
  b_init : forall p b, (p < S N)%nat -> bc_heap (bs_bc s) !! p = Some b -> bk_ts b = -1;
  b_sorted : forall p q b b', (p < q)%nat -> (S N <= q)%nat -> bc_heap (bs_bc s) !! p = Some b ->
      bc_heap (bs_bc s) !! q = Some b' -> bk_ts b < bk_ts b';
  b_in64 : forall p b, bc_heap (bs_bc s) !! p = Some b -> in64 (1000 * bk_ts b);
  b_latest : bc_latestBucket (bs_bc s) =
      if decide (length (bc_heap (bs_bc s)) = S N) then 0%nat else (length (bc_heap (bs_bc s)) - 1)%nat;
  b_count : forall p b, bc_heap (bs_bc s) !! p = Some b -> bk_count b = wrap64 (credit p cr);
  b_crptr : forall p, p ∈ cr.*1 -> (p < length (bc_heap (bs_bc s)))%nat;
  b_amts : cr.*2 ++ mjoin (unfinished <$> ts) ≡ₚ all;
  b_total : if upd then wrap64 (c_count (bc_totalCount (bs_bc s)) + sumZ ((fun t => sumZ (bt_todo t)) <$> ts)) = wrap64 (sumZ all)
            else c_count (bc_totalCount (bs_bc s)) = 0;
  b_cin64 : in64 (c_count (bc_totalCount (bs_bc s)));
  b_pcs : forall i t, ts !! i = Some t -> pc_ok (S N) (bc_heap (bs_bc s)) (bt_pc t);
  b_cover : forall q, (S N <= q < length (bc_heap (bs_bc s)))%nat ->
      q ∈ cr.*1 \/ exists i t, ts !! i = Some t /\ target (bt_pc t) = Some q
}.

Lemma credit_snoc p cr q n :
  credit p (cr ++ [(q, n)]) = credit p cr + (if decide (q = p) then n else 0).
Proof.
  unfold credit. rewrite filter_app, fmap_app, sumZ_app. f_equal.
  rewrite filter_cons, filter_nil. cbn. destruct (decide (q = p)); cbn; lia.
Qed.

Lemma credit_notin p cr : p ∉ cr.*1 -> credit p cr = 0.
Proof.
  induction cr as [|[k' n] cr IH]; [reflexivity|]. intros Hn.
  rewrite fmap_cons, not_elem_of_cons in Hn. destruct Hn as [Hk Hn].
  unfold credit in *. rewrite filter_cons. cbn in *.
  destruct (decide (k' = p)) as [->|]; [done|]. apply IH. done.
Qed.

Lemma pc_ok_mono M h h' pc :
  (length h <= length h')%nat ->
  (forall p b, h !! p = Some b -> exists b', h' !! p = Some b' /\ bk_ts b' = bk_ts b) ->
  pc_ok M h pc -> pc_ok M h' pc.
Proof.
  intros Hl Hb. destruct pc; cbn; try tauto; try lia; intros [H1 H2]; (split; [done|]); [lia|].
  destruct H2 as (b & H2 & H3). destruct (Hb _ _ H2) as (b' & H4 & H5). exists b'. split; [done|lia].
Qed.

(** A step that only changes one goroutine's program counter. *)
Lemma binv_pc N interval now0 upd all c clk clk' ts i t pc' cr :
  binv N interval now0 upd all (BcShared c clk) ts cr -> ts !! i = Some t ->
  in64 clk' -> inflight pc' = inflight (bt_pc t) ->
  pc_ok (S N) (bc_heap c) pc' ->
  (forall q, target (bt_pc t) = Some q -> target pc' = Some q) ->
  binv N interval now0 upd all (BcShared c clk') (<[i := BThread (bt_todo t) pc']> ts) cr.
Proof.
  intros B Hi Hc Hin Hok Htg.
  assert (Hlt : (i < length ts)%nat) by (by apply lookup_lt_Some in Hi).
  destruct B; constructor; cbn in *; try done.
  - rewrite <- b_amts0. apply Permutation_app_head.
    assert (E : unfinished <$> <[i:=BThread (bt_todo t) pc']> ts = unfinished <$> ts).
    { rewrite list_fmap_insert. unfold unfinished at 1. cbn. rewrite Hin. apply list_insert_id.
      rewrite list_lookup_fmap, Hi. reflexivity. }
    by rewrite E.
  - destruct upd; [|done]. rewrite <- b_total0. f_equal. f_equal. rewrite (sumZ_insert _ _ _ t) by done. cbn [bt_todo]. ring.
  - intros j u Hj. destruct (decide (i = j)) as [<-|Hne].
    + rewrite list_lookup_insert in Hj by done. injection Hj as <-. done.
    + rewrite list_lookup_insert_ne in Hj by done. eauto.
  - intros q Hq. destruct (b_cover0 q Hq) as [?|(j & u & Hj & Hu)]; [by left|right].
    destruct (decide (i = j)) as [<-|Hne].
    + rewrite Hi in Hj. injection Hj as <-. exists i, (BThread (bt_todo t) pc').
      rewrite list_lookup_insert by done. auto.
    + exists j, u. by rewrite list_lookup_insert_ne by done.
Qed.

Lemma binv_buckets N interval now0 upd all c clk ts d cr :
  binv N interval now0 upd all (BcShared c clk) ts cr -> length (dq_queue d) = S N -> (dq_current d < S N)%nat ->
  binv N interval now0 upd all (BcShared (set_buckets c d) clk) ts cr.
Proof. intros B Hd Hd'. destruct B; constructor; cbn in *; done. Qed.

Lemma align_in64 interval clk x : 1 <= interval_seconds interval -> in64 clk ->
  alignTimestamp interval clk = Ok x -> in64 (1000 * x).
Proof.
  intros H1 H2 H. rewrite alignTimestamp_spec in H by done. injection H as <-.
  pose proof (trunc_key_in64 (interval_seconds interval) clk H1 H2) as H. unfold trunc_key in H.
  replace (1000 * (interval_seconds interval * (clk ÷ (1000 * interval_seconds interval))))
    with (1000 * interval_seconds interval * (clk ÷ (1000 * interval_seconds interval))) by ring. done.
Qed.

Lemma mjoin_unfinished_insert ts i t t' : ts !! i = Some t -> unfinished t' = unfinished t ->
  mjoin (unfinished <$> <[i:=t']> ts) = mjoin (unfinished <$> ts).
Proof.
  intros Hi Hp. f_equal. rewrite list_fmap_insert, Hp. apply list_insert_id.
  by rewrite list_lookup_fmap, Hi.
Qed.

Lemma binv_step N interval now0 upd all s ts i t s' t' cr :
  1 <= interval_seconds interval ->
  binv N interval now0 upd all s ts cr -> ts !! i = Some t -> bc_tstep s t = Some (s', t') ->
  exists cr', binv N interval now0 upd all s' (<[i := t']> ts) cr' /\
    (cr' = cr \/ exists n q, bt_pc t = PAdd n q /\ cr' = cr ++ [(q, n)]).
Proof.
  intros HI B Hi Hs. destruct s as [c clk]. unfold bc_tstep in Hs. cbn [bs_bc bs_clock] in Hs.
  assert (Hlt : (i < length ts)%nat) by (by apply lookup_lt_Some in Hi).
  pose proof (b_pcs _ _ _ _ _ _ _ _ B i t Hi) as Hok.
  pose proof (b_clock _ _ _ _ _ _ _ _ B) as Hclk. cbn in Hclk.
  destruct (bt_pc t) eqn:Hpc; cbn in Hok.
  - (* PIdle *)
    destruct (bt_todo t) as [|n todo] eqn:Htodo; [done|]. injection Hs as <- <-. exists cr. split; [|by left].
    assert (Hpend : unfinished (BThread todo (PClock n)) = unfinished t).
    { unfold unfinished. rewrite Hpc, Htodo. reflexivity. }
    destruct B; cbn in *. constructor; cbn [bs_bc bs_clock]; try (by destruct (bc_updateTotalCount c)).
    + subst upd. by destruct (bc_updateTotalCount c) eqn:?.
    + rewrite (mjoin_unfinished_insert ts i t (BThread todo (PClock n)) Hi Hpend). done.
    + subst upd. rewrite (sumZ_insert _ _ _ t) by done. cbn [bt_todo]. rewrite Htodo, sumZ_cons.
      destruct (bc_updateTotalCount c) eqn:Hupd; [|done].
      cbn [set_total bc_totalCount counter_IncN c_count]. rewrite wrap64_add_l, <- b_total0. f_equal. lia.
    + destruct (bc_updateTotalCount c); [|done]. cbn. apply wrap64_range.
    + intros j u Hj. destruct (decide (i = j)) as [<-|Hne].
      * rewrite list_lookup_insert in Hj by done. injection Hj as <-. done.
      * rewrite list_lookup_insert_ne in Hj by done.
        specialize (b_pcs0 j u Hj). by destruct (bc_updateTotalCount c).
    + intros q Hq. assert (Hq' : (S N <= q < length (bc_heap c))%nat) by (by destruct (bc_updateTotalCount c)).
      destruct (b_cover0 q Hq') as [?|(j & u & Hj & Hu)]; [by left|right].
      exists j, u. rewrite list_lookup_insert_ne; [done|]. intros <-. rewrite Hi in Hj. injection Hj as <-.
      rewrite Hpc in Hu. done.
  - (* PClock *)
    pose proof (b_interval _ _ _ _ _ _ _ _ B) as Hiv. cbn in Hiv. rewrite Hiv in Hs.
    destruct (alignTimestamp interval clk) as [x|] eqn:Ha; [|done]. injection Hs as <- <-. exists cr. split; [|by left].
    eapply binv_pc; try done; rewrite ?Hpc; try done. cbn. by eapply align_in64.
  - (* PLoad *)
    injection Hs as <- <-. exists cr. split; [|by left].
    eapply binv_pc; try done; rewrite ?Hpc; try done. cbn. split; [done|].
    pose proof (b_latest _ _ _ _ _ _ _ _ B) as Hl. cbn in Hl. rewrite Hl.
    pose proof (b_hlen _ _ _ _ _ _ _ _ B) as Hh. cbn in Hh. destruct (decide _); lia.
  - (* PCmp *)
    destruct (bc_heap c !! old) as [b|] eqn:Hb; [|done]. injection Hs as <- <-. exists cr. split; [|by left].
    eapply binv_pc; try done; rewrite ?Hpc; try done.
    + by destruct (bk_ts b <? ts0).
    + destruct (Z.ltb_spec (bk_ts b) ts0); cbn; [|tauto]. split; [tauto|]. eauto.
  - (* PCas *)
    destruct (decide (bc_latestBucket c = old)) as [Heq|Hne]; injection Hs as <- <-; exists cr; split; try by left.
    2:{ eapply binv_pc; try done; rewrite ?Hpc; try done. }
    destruct Hok as [Hts (b & Hb & Hbts)].
    assert (Hpend : unfinished (BThread (bt_todo t) (PCurLoad n (length (bc_heap c)))) = unfinished t).
    { unfold unfinished. by rewrite Hpc. }
    assert (Hmax : forall p b', bc_heap c !! p = Some b' -> bk_ts b' < ts0).
    { intros p b' Hp. assert (bk_ts b' <= bk_ts b); [|lia].
      pose proof (b_latest _ _ _ _ _ _ _ _ B) as Hl. cbn in Hl. rewrite Heq in Hl.
      destruct (decide (length (bc_heap c) = S N)) as [E|E].
      - apply lookup_lt_Some in Hp as Hplt. rewrite E in Hplt.
        rewrite (b_init _ _ _ _ _ _ _ _ B p b' Hplt Hp).
        rewrite (b_init _ _ _ _ _ _ _ _ B old b ltac:(lia) Hb). lia.
      - apply lookup_lt_Some in Hp as Hplt. pose proof (b_hlen _ _ _ _ _ _ _ _ B) as Hh. cbn in Hh.
        destruct (decide (p = old)) as [->|]; [rewrite Hb in Hp; injection Hp as <-; lia|].
        pose proof (b_sorted _ _ _ _ _ _ _ _ B p old b' b ltac:(lia) ltac:(lia) Hp Hb). lia. }
    assert (Hneg : -1 < ts0).
    { pose proof (b_hlen _ _ _ _ _ _ _ _ B) as Hh. cbn in Hh.
      destruct (lookup_lt_is_Some_2 (bc_heap c) 0%nat ltac:(lia)) as [b0 Hb0].
      pose proof (Hmax _ _ Hb0). rewrite (b_init _ _ _ _ _ _ _ _ B 0%nat b0 ltac:(lia) Hb0) in H. lia. }
    destruct B; cbn in *. constructor; cbn; try done.
    + rewrite app_length. cbn. lia.
    + intros p b' Hp Hpb. apply lookup_app_Some in Hpb as [Hpb|[Hge Hpb]]; [eauto|]. lia.
    + intros p q b1 b2 Hpq Hq H1 H2. apply lookup_app_Some in H2 as [H2|[Hge H2]].
      * apply lookup_lt_Some in H2 as Hlt2. rewrite lookup_app_l in H1 by lia. eauto.
      * destruct (q - length (bc_heap c))%nat eqn:E; [|done]. cbn in H2. injection H2 as <-. cbn.
        rewrite lookup_app_l in H1 by lia. eauto.
    + intros p b' Hp. apply lookup_app_Some in Hp as [Hp|[Hge Hp]]; [eauto|].
      destruct (p - length (bc_heap c))%nat eqn:E; [|done]. cbn in Hp. injection Hp as <-. done.
    + rewrite app_length. cbn. rewrite decide_False by lia. lia.
    + intros p b' Hp. apply lookup_app_Some in Hp as [Hp|[Hge Hp]]; [eauto|].
      destruct (p - length (bc_heap c))%nat eqn:E; [|done]. cbn in Hp. injection Hp as <-. cbn.
      rewrite credit_notin; [done|]. intros Hin. apply b_crptr0 in Hin. lia.
    + intros p Hp. rewrite app_length. cbn. apply b_crptr0 in Hp. lia.
    + rewrite (mjoin_unfinished_insert ts i t (BThread (bt_todo t) (PCurLoad n (length (bc_heap c)))) Hi Hpend). done.
    + destruct upd; [|done]. rewrite <- b_total0. f_equal. f_equal. rewrite (sumZ_insert _ _ _ t) by done. cbn [bt_todo]. ring.
    + intros j u Hj. destruct (decide (i = j)) as [<-|Hne].
      * rewrite list_lookup_insert in Hj by done. injection Hj as <-. cbn. rewrite app_length. cbn. lia.
      * rewrite list_lookup_insert_ne in Hj by done.
        eapply pc_ok_mono; [| |apply (b_pcs0 j u Hj)]; [rewrite app_length; lia|].
        intros p b' Hp. exists b'. split; [|done]. by apply lookup_app_l_Some.
    + intros q Hq. rewrite app_length in Hq. cbn in Hq.
      destruct (decide (q = length (bc_heap c))) as [->|Hneq].
      * right. exists i, (BThread (bt_todo t) (PCurLoad n (length (bc_heap c)))).
        by rewrite list_lookup_insert by done.
      * destruct (b_cover0 q ltac:(lia)) as [?|(j & u & Hj & Hu)]; [by left|right].
        exists j, u. rewrite list_lookup_insert_ne; [done|]. intros <-. rewrite Hi in Hj. injection Hj as <-.
        rewrite Hpc in Hu. done.
  - (* PCurLoad *)
    pose proof (b_qlen _ _ _ _ _ _ _ _ B) as Hq. cbn in Hq. rewrite Hq in Hs.
    injection Hs as <- <-. exists cr. split; [|by left].
    eapply binv_pc; try done; rewrite ?Hpc; try done. cbn [pc_ok]. split; [done|]. apply Nat.mod_upper_bound. lia.
  - (* PCurStore *)
    injection Hs as <- <-. exists cr. split; [|by left].
    apply binv_buckets; [|apply (b_qlen _ _ _ _ _ _ _ _ B)|cbn; tauto].
    eapply binv_pc; try done; rewrite ?Hpc; try done. cbn. tauto.
  - (* PSlotLoad *)
    injection Hs as <- <-. exists cr. split; [|by left].
    eapply binv_pc; try done; rewrite ?Hpc; try done. cbn. split; [done|]. apply (b_cur _ _ _ _ _ _ _ _ B).
  - (* PSlotStore *)
    destruct (Nat.ltb_spec i0 (length (dq_queue (bc_buckets c)))); [|done]. injection Hs as <- <-. exists cr. split; [|by left].
    apply binv_buckets; [|cbn; rewrite insert_length; apply (b_qlen _ _ _ _ _ _ _ _ B)|apply (b_cur _ _ _ _ _ _ _ _ B)].
    eapply binv_pc; try done; rewrite ?Hpc; try done. cbn. lia.
  - (* PReload *)
    injection Hs as <- <-. exists cr. split; [|by left].
    eapply binv_pc; try done; rewrite ?Hpc; try done. cbn.
    pose proof (b_latest _ _ _ _ _ _ _ _ B) as Hl. cbn in Hl. rewrite Hl.
    pose proof (b_hlen _ _ _ _ _ _ _ _ B) as Hh. cbn in Hh. destruct (decide _); lia.
  - (* PAdd *)
    destruct (lookup_lt_is_Some_2 (bc_heap c) bk Hok) as [b Hb].
    unfold heap_add in Hs. rewrite Hb in Hs. cbn [of_option mbind res_bind] in Hs.
    injection Hs as <- <-. exists (cr ++ [(bk, n)]). split; [|right; eauto].
    set (h' := <[bk:=Bucket (bk_ts b) (wrap64 (bk_count b + n))]> (bc_heap c)).
    assert (Hh' : forall p b', h' !! p = Some b' -> exists b0, bc_heap c !! p = Some b0 /\ bk_ts b' = bk_ts b0).
    { intros p b' Hp. unfold h' in Hp. destruct (decide (bk = p)) as [<-|Hne].
      - rewrite list_lookup_insert in Hp by done. injection Hp as <-. eauto.
      - rewrite list_lookup_insert_ne in Hp by done. eauto. }
    destruct B; cbn in *. constructor; cbn; fold h'; try done.
    + unfold h'. by rewrite insert_length.
    + intros p b' Hp Hpb. destruct (Hh' _ _ Hpb) as (b0 & H0 & ->). eauto.
    + intros p q b1 b2 Hpq Hq H1 H2. destruct (Hh' _ _ H1) as (b3 & H3 & ->). destruct (Hh' _ _ H2) as (b4 & H4 & ->). eauto.
    + intros p b' Hp. destruct (Hh' _ _ Hp) as (b0 & H0 & ->). eauto.
    + unfold h'. by rewrite insert_length.
    + intros p b' Hp. rewrite credit_snoc. unfold h' in Hp. destruct (decide (bk = p)) as [<-|Hne].
      * rewrite list_lookup_insert in Hp by done. injection Hp as <-. cbn. rewrite (b_count0 _ _ Hb).
        by rewrite wrap64_add_l.
      * rewrite list_lookup_insert_ne in Hp by done. rewrite Z.add_0_r. eauto.
    + intros p Hp. unfold h'. rewrite insert_length. rewrite fmap_app, elem_of_app in Hp.
      destruct Hp as [Hp|Hp]; [eauto|]. apply elem_of_list_singleton in Hp as ->. done.
    + rewrite fmap_app. cbn [fmap list_fmap snd]. rewrite <- b_amts0.
      pose proof (Permutation_insert_concat unfinished ts i t (BThread (bt_todo t) PIdle) Hi) as HP.
      assert (Hp1 : unfinished t = n :: bt_todo t) by (unfold unfinished; by rewrite Hpc).
      assert (Hp2 : unfinished (BThread (bt_todo t) PIdle) = bt_todo t) by reflexivity.
      rewrite Hp1, Hp2 in HP. rewrite <- app_assoc. apply Permutation_app_head. cbn [app].
      apply (Permutation_app_inv_r (bt_todo t)). rewrite <- HP.
      rewrite <- app_comm_cons. apply Permutation_middle.
    + destruct upd; [|done]. rewrite <- b_total0. f_equal. f_equal. rewrite (sumZ_insert _ _ _ t) by done. cbn [bt_todo]. ring.
    + intros j u Hj. destruct (decide (i = j)) as [<-|Hne].
      * rewrite list_lookup_insert in Hj by done. injection Hj as <-. done.
      * rewrite list_lookup_insert_ne in Hj by done.
        eapply pc_ok_mono; [| |apply (b_pcs0 j u Hj)]; [unfold h'; rewrite insert_length; lia|].
        intros p b' Hp. unfold h'. destruct (decide (bk = p)) as [<-|].
        -- rewrite list_lookup_insert by done. eexists. split; [done|]. cbn. congruence.
        -- rewrite list_lookup_insert_ne by done. eauto.
    + intros q Hq. unfold h' in Hq. rewrite insert_length in Hq. rewrite fmap_app, elem_of_app.
      destruct (b_cover0 q Hq) as [?|(j & u & Hj & Hu)]; [by left; left|].
      destruct (decide (i = j)) as [<-|Hne].
      * rewrite Hi in Hj. injection Hj as <-. rewrite Hpc in Hu. injection Hu as <-. left. right. cbn. left.
      * right. exists j, u. by rewrite list_lookup_insert_ne by done.
Qed.

Lemma binv_env N interval now0 upd all s ts cr e :
  binv N interval now0 upd all s ts cr -> binv N interval now0 upd all (bc_estep s e) ts cr.
Proof. intros B. destruct s. destruct B; constructor; cbn in *; try done. apply wrap64_range. Qed.

Lemma binv_init interval N now0 upd progs : 0 <= N ->
  exists c0, bc_cinit interval N now0 upd progs = Ok c0 /\
    binv (Z.to_nat N) interval now0 upd (mjoin progs) (shared c0) (threads c0) [] /\
    bc_heap (bs_bc (shared c0)) = replicate (S (Z.to_nat N)) newBucket /\
    bc_buckets (bs_bc (shared c0)) = Deque (seq 0 (S (Z.to_nat N))) 0 /\
    threads c0 = (fun p => BThread p PIdle) <$> progs.
Proof.
  intros HN. unfold bc_cinit, newBucketCounterImpl, newBucketDequeue.
  destruct (Z.ltb_spec (N + 1) 0); [lia|]. cbn [mbind res_bind].
  replace (Z.to_nat (N + 1)) with (S (Z.to_nat N)) by lia.
  eexists. split; [reflexivity|]. split; [|done].
  assert (Hrep : forall p b, replicate (S (Z.to_nat N)) newBucket !! p = Some b -> b = newBucket).
  { intros p b Hp. by apply lookup_replicate in Hp as [-> _]. }
  constructor; cbn [shared threads bs_bc bs_clock bc_interval bc_initTimestamp bc_updateTotalCount bc_buckets dq_queue bc_heap bc_latestBucket bc_totalCount fst snd]; try done.
  - apply wrap64_range.
  - by rewrite seq_length.
  - cbn. lia.
  - rewrite replicate_length. lia.
  - intros p b _ Hp. by rewrite (Hrep _ _ Hp).
  - intros p q b b' Hpq Hq _ Hq2. apply lookup_lt_Some in Hq2. rewrite replicate_length in Hq2. lia.
  - intros p b Hp. rewrite (Hrep _ _ Hp). unfold in64, two63. cbn. lia.
  - rewrite replicate_length, decide_True by done. done.
  - intros p b Hp. by rewrite (Hrep _ _ Hp).
  - intros p Hp. by apply elem_of_nil in Hp.
  - cbn. assert (E : unfinished <$> ((fun p => BThread p PIdle) <$> progs) = progs).
    { rewrite <- list_fmap_compose. clear. induction progs as [|p ps IH]; [done|]. cbn. by rewrite IH. }
    by rewrite E.
  - destruct upd; [|done]. cbn [c_count]. rewrite Z.add_0_l. f_equal. clear.
    induction progs as [|p ps IH]; [done|].
    cbn [fmap list_fmap mjoin list_join]. rewrite sumZ_cons, sumZ_app. cbn [bt_todo].
    cbn [fmap list_fmap] in IH. by rewrite IH.
  - intros i t Hi. rewrite list_lookup_fmap in Hi. destruct (progs !! i); [|done]. by injection Hi as <-.
  - intros q Hq. rewrite replicate_length in Hq. lia.
Qed.

Lemma binv_run interval N now0 upd progs sched :
  Second <= interval -> in64 interval -> 0 <= N ->
  exists c, bc_crun interval N now0 upd progs sched = Ok c /\
    exists cr, binv (Z.to_nat N) interval now0 upd (mjoin progs) (shared c) (threads c) cr.
Proof.
  intros H1 H2 HN. destruct (binv_init interval N now0 upd progs HN) as (c0 & E0 & B0 & _).
  unfold bc_crun. rewrite E0. cbn [mbind res_bind]. eexists. split; [reflexivity|].
  apply (crun_inv bc_tstep bc_estep (fun c => exists cr, binv (Z.to_nat N) interval now0 upd (mjoin progs) (shared c) (threads c) cr)).
  - eauto.
  - intros s ts i t s' t' [cr B] Hi Hs. cbn in *.
    destruct (binv_step _ _ _ _ _ _ _ _ _ _ _ _ (interval_seconds_pos _ H1 H2) B Hi Hs) as (cr' & B' & _). eauto.
  - intros s ts e [cr B]. exists cr. by apply binv_env.
Qed.

(** Nobody ever gets stuck: a goroutine that has work left can take its step. *)
Lemma binv_progress N interval now0 upd all s ts i t cr :
  1 <= interval_seconds interval -> binv N interval now0 upd all s ts cr ->
  ts !! i = Some t -> unfinished t <> [] -> exists s' t', bc_tstep s t = Some (s', t').
Proof.
  intros HI B Hi Hu. destruct s as [c clk]. unfold bc_tstep. cbn [bs_bc bs_clock].
  pose proof (b_pcs _ _ _ _ _ _ _ _ B i t Hi) as Hok. cbn [bs_bc] in Hok.
  pose proof (b_interval _ _ _ _ _ _ _ _ B) as Hiv. cbn in Hiv.
  pose proof (b_clock _ _ _ _ _ _ _ _ B) as Hclk. cbn in Hclk.
  pose proof (b_qlen _ _ _ _ _ _ _ _ B) as Hq. cbn in Hq.
  unfold unfinished in Hu. destruct (bt_pc t) eqn:Hpc; cbn in Hok; try by eauto.
  - destruct (bt_todo t); [done|eauto].
  - rewrite Hiv, alignTimestamp_spec by done. eauto.
  - destruct Hok as [_ Hok]. destruct (lookup_lt_is_Some_2 (bc_heap c) old Hok) as [b ->]. eauto.
  - destruct (decide _); eauto.
  - rewrite Hq. eauto.
  - rewrite Hq. destruct (Nat.ltb_spec i0 (S N)); [eauto|lia].
  - destruct (lookup_lt_is_Some_2 (bc_heap c) bk Hok) as [b Hb].
    unfold heap_add. rewrite Hb. cbn. eauto.
Qed.
