From Verif.Go Require Import GoInt GoConc.
From Verif.Model Require Import Counter BucketQueue BucketCounter BucketCounterConc.
From Verif.Spec Require Import BucketSpec BucketConcSpec.
From Verif.Proofs Require Import BucketAbs BucketHist BucketMain BucketConcProofs BucketConcRing.
Local Open Scope Z_scope.

Lemma conc_total interval N now0 upd progs sched :
  Second <= interval -> in64 interval -> 0 <= N ->
  exists c, bc_crun interval N now0 upd progs sched = Ok c /\
    (quiescent c -> bc_GetCount (bs_bc (shared c)) = if upd then wrap64 (sumZ (mjoin progs)) else 0).
Proof.
  intros H1 H2 HN. destruct (binv_run interval N now0 upd progs sched H1 H2 HN) as (c & E & cr & B).
  exists c. split; [done|]. intros Hq. unfold bc_GetCount, counter_GetCount.
  pose proof (b_total _ _ _ _ _ _ _ _ B) as Ht. destruct upd; [|done].
  assert (Hz : sumZ ((λ t : bthread, sumZ (bt_todo t)) <$> threads c) = 0).
  { clear -Hq. unfold quiescent in Hq. induction Hq as [|t ts Ht' _ IH]; [done|]. rewrite fmap_cons, sumZ_cons, IH.
    apply unfinished_nil in Ht'. by subst t. }
  rewrite Hz, Z.add_0_r in Ht. rewrite <- Ht. symmetry. apply wrap64_id, (b_cin64 _ _ _ _ _ _ _ _ B).
Qed.

Lemma conc_credits interval N now0 upd progs sched :
  Second <= interval -> in64 interval -> 0 <= N ->
  exists c cr, bc_crun interval N now0 upd progs sched = Ok c /\
    cr.*2 ++ mjoin (unfinished <$> threads c) ≡ₚ mjoin progs /\
    (forall p, p ∈ cr.*1 -> (p < length (bc_heap (bs_bc (shared c))))%nat) /\
    (forall p b, bc_heap (bs_bc (shared c)) !! p = Some b -> bk_count b = wrap64 (credit p cr)).
Proof.
  intros H1 H2 HN. destruct (binv_run interval N now0 upd progs sched H1 H2 HN) as (c & E & cr & B).
  exists c, cr. split_and!; [done|apply (b_amts _ _ _ _ _ _ _ _ B)|apply (b_crptr _ _ _ _ _ _ _ _ B)|
    apply (b_count _ _ _ _ _ _ _ _ B)].
Qed.

Lemma sum_credit (h : list bucket) cr :
  (forall p, p ∈ cr.*1 -> (p < length h)%nat) ->
  (forall p b, h !! p = Some b -> bk_count b = wrap64 (credit p cr)) ->
  wrap64 (sumZ (bk_count <$> h)) = wrap64 (sumZ cr.*2).
Proof.
  intros Hlt Hc.
  assert (E : bk_count <$> h = (fun p => wrap64 (credit p cr)) <$> seq 0 (length h)).
  { apply list_eq. intros i. rewrite !list_lookup_fmap. destruct (decide (i < length h)%nat) as [Hi|Hi].
    - rewrite lookup_seq_lt by done. destruct (lookup_lt_is_Some_2 h i Hi) as [b Hb]. rewrite Hb. cbn.
      by rewrite (Hc _ _ Hb).
    - rewrite (lookup_ge_None_2 h), (lookup_ge_None_2 (seq _ _)); rewrite ?seq_length; done || lia. }
  rewrite E. clear E Hc. generalize dependent (length h). clear h. intros L Hlt.
  transitivity (wrap64 (sumZ ((fun p => credit p cr) <$> seq 0 L))).
  { induction (seq 0 L) as [|p ps IH]; [done|]. rewrite !fmap_cons, !sumZ_cons, wrap64_add_l.
    rewrite <- wrap64_add_r, IH, wrap64_add_r. done. }
  f_equal. induction cr as [|[q n] cr IH].
  - clear. induction (seq 0 L) as [|p ps IH]; [done|]. by rewrite fmap_cons, sumZ_cons, IH.
  - rewrite fmap_cons, sumZ_cons, <- IH by (intros p Hp; apply Hlt; by right). cbn [snd].
    assert (Hq : (q < L)%nat) by (apply Hlt; left).
    clear IH Hlt. assert (G : forall a k, (a <= q)%nat -> 
      sumZ ((fun p => credit p ((q, n) :: cr)) <$> seq a k) =
      (if decide (q < a + k)%nat then n else 0) + sumZ ((fun p => credit p cr) <$> seq a k)).
    { intros a k Ha. induction k as [|k IH].
      - cbn. rewrite decide_False by lia. lia.
      - rewrite seq_S, !fmap_app, !sumZ_app, IH. cbn [fmap list_fmap]. rewrite !sumZ_cons.
        assert (Ec : credit (a + k)%nat ((q, n) :: cr) = (if decide (q = a + k)%nat then n else 0) + credit (a + k)%nat cr).
        { unfold credit. rewrite filter_cons. cbn [fst]. destruct (decide (q = a + k)%nat); [|done].
          by rewrite fmap_cons, sumZ_cons. }
        rewrite Ec. destruct (decide (q = a + k)%nat), (decide (q < a + k)%nat), (decide (q < a + S k)%nat); lia. }
    rewrite G by lia. by rewrite decide_True by lia.
Qed.

Lemma wrap64_in64_eq x y : in64 x -> wrap64 x = wrap64 y -> x = wrap64 y.
Proof. intros H E. by rewrite <- E, wrap64_id. Qed.

(** Created buckets and the latest timestamp. *)
Definition latest_ts (c : bucket_counter) : Z :=
  match bc_heap c !! bc_latestBucket c with Some b => bk_ts b | None => -1 end.

Lemma latest_ts_max N interval now0 upd all s ts cr :
  binv N interval now0 upd all s ts cr ->
  exists b, bc_heap (bs_bc s) !! bc_latestBucket (bs_bc s) = Some b /\
    (forall p b', bc_heap (bs_bc s) !! p = Some b' -> bk_ts b' <= bk_ts b).
Proof.
  intros B. pose proof (b_hlen _ _ _ _ _ _ _ _ B) as HL. pose proof (b_latest _ _ _ _ _ _ _ _ B) as Hl.
  destruct (lookup_lt_is_Some_2 (bc_heap (bs_bc s)) (bc_latestBucket (bs_bc s))) as [bl Hbl].
  { rewrite Hl. destruct (decide _); lia. }
  exists bl. split; [done|]. intros p b Hp. apply lookup_lt_Some in Hp as Hplt.
  destruct (decide (length (bc_heap (bs_bc s)) = S N)) as [E|E]; rewrite ?(decide_True _ _ E), ?(decide_False _ _ E) in Hl; rewrite Hl in Hbl.
  - rewrite (b_init _ _ _ _ _ _ _ _ B p b ltac:(lia) Hp).
    rewrite (b_init _ _ _ _ _ _ _ _ B 0%nat bl ltac:(lia) Hbl). lia.
  - destruct (decide (p = (length (bc_heap (bs_bc s)) - 1)%nat)) as [->|Hne].
    + rewrite Hbl in Hp. injection Hp as <-. lia.
    + pose proof (b_sorted _ _ _ _ _ _ _ _ B p (length (bc_heap (bs_bc s)) - 1)%nat b bl ltac:(lia) ltac:(lia) Hp Hbl). lia.
Qed.

(** Timestamps of buckets never change and buckets never disappear. *)
Lemma tstep_heap s t s' t' p b :
  bc_tstep s t = Some (s', t') -> bc_heap (bs_bc s) !! p = Some b ->
  exists b', bc_heap (bs_bc s') !! p = Some b' /\ bk_ts b' = bk_ts b.
Proof.
  destruct s as [c clk]. unfold bc_tstep. cbn [bs_bc bs_clock]. intros Hs Hp.
  destruct (bt_pc t).
  - destruct (bt_todo t); [done|]. injection Hs as <- <-. exists b. split; [|done]. cbn.
    by destruct (bc_updateTotalCount c).
  - destruct (alignTimestamp _ _); [|done]. injection Hs as <- <-. eauto.
  - injection Hs as <- <-. eauto.
  - destruct (bc_heap c !! old); [|done]. injection Hs as <- <-. eauto.
  - destruct (decide _); injection Hs as <- <-; [|eauto]. exists b. split; [|done]. cbn.
    by apply lookup_app_l_Some.
  - destruct (length (dq_queue (bc_buckets c))); [done|]. injection Hs as <- <-. eauto.
  - injection Hs as <- <-. eauto.
  - injection Hs as <- <-. eauto.
  - destruct (_ <? _)%nat; [|done]. injection Hs as <- <-. eauto.
  - injection Hs as <- <-. eauto.
  - unfold heap_add in Hs. destruct (bc_heap c !! bk) as [b0|] eqn:E; [|done]. injection Hs as <- <-. cbn.
    destruct (decide (bk = p)) as [->|Hne].
    + rewrite list_lookup_insert by (by apply lookup_lt_Some in E). eexists. split; [done|]. cbn. congruence.
    + rewrite list_lookup_insert_ne by done. eauto.
Qed.

Lemma crun_heap c sched p b :
  bc_heap (bs_bc (shared c)) !! p = Some b ->
  exists b', bc_heap (bs_bc (shared (crun bc_tstep bc_estep c sched))) !! p = Some b' /\ bk_ts b' = bk_ts b.
Proof.
  revert b. induction sched as [|ev sched IH] using rev_ind; intros b Hp; [eauto|].
  rewrite crun_snoc. destruct (IH b Hp) as (b1 & H1 & H2).
  destruct (crun bc_tstep bc_estep c sched) as [s ts]. destruct ev as [i|e]; [|eauto]. cbn in *.
  destruct (ts !! i) as [t|]; [|eauto]. destruct (bc_tstep s t) as [[s' t']|] eqn:Hs; [|eauto].
  destruct (tstep_heap _ _ _ _ _ _ Hs H1) as (b2 & ? & ?). exists b2. split; [done|lia].
Qed.

Lemma conc_buckets interval N now0 upd progs sched :
  Second <= interval -> in64 interval -> 0 <= N ->
  exists c, bc_crun interval N now0 upd progs sched = Ok c /\
    let h := bc_heap (bs_bc (shared c)) in
    (forall p b, h !! p = Some b -> (p < S (Z.to_nat N))%nat -> bk_ts b = -1) /\
    (forall p q b b', (p < q)%nat -> (S (Z.to_nat N) <= q)%nat -> h !! p = Some b -> h !! q = Some b' ->
       bk_ts b < bk_ts b') /\
    (exists b, h !! bc_latestBucket (bs_bc (shared c)) = Some b /\
       forall p b', h !! p = Some b' -> bk_ts b' <= bk_ts b).
Proof.
  intros H1 H2 HN. destruct (binv_run interval N now0 upd progs sched H1 H2 HN) as (c & E & cr & B).
  exists c. split; [done|]. cbn. split_and!.
  - intros p b Hp Hlt. by apply (b_init _ _ _ _ _ _ _ _ B p).
  - apply (b_sorted _ _ _ _ _ _ _ _ B).
  - eapply latest_ts_max; done.
Qed.

Lemma crun_more interval N now0 upd progs s1 s2 c1 :
  bc_crun interval N now0 upd progs s1 = Ok c1 ->
  bc_crun interval N now0 upd progs (s1 ++ s2) = Ok (crun bc_tstep bc_estep c1 s2).
Proof.
  unfold bc_crun. destruct (bc_cinit interval N now0 upd progs) as [c0|]; [|done]. cbn.
  intros E. injection E as <-. by rewrite crun_app.
Qed.

Lemma conc_latest_monotone interval N now0 upd progs s1 s2 :
  Second <= interval -> in64 interval -> 0 <= N ->
  exists c1 c2 b1 b2, bc_crun interval N now0 upd progs s1 = Ok c1 /\
    bc_crun interval N now0 upd progs (s1 ++ s2) = Ok c2 /\
    bc_heap (bs_bc (shared c1)) !! bc_latestBucket (bs_bc (shared c1)) = Some b1 /\
    bc_heap (bs_bc (shared c2)) !! bc_latestBucket (bs_bc (shared c2)) = Some b2 /\
    bk_ts b1 <= bk_ts b2.
Proof.
  intros H1 H2 HN. destruct (binv_run interval N now0 upd progs s1 H1 H2 HN) as (c1 & E1 & cr1 & B1).
  destruct (binv_run interval N now0 upd progs (s1 ++ s2) H1 H2 HN) as (c2 & E2 & cr2 & B2).
  destruct (latest_ts_max _ _ _ _ _ _ _ _ B1) as (b1 & Hb1 & _).
  destruct (latest_ts_max _ _ _ _ _ _ _ _ B2) as (b2 & Hb2 & Hmax).
  exists c1, c2, b1, b2. split_and!; try done.
  rewrite (crun_more _ _ _ _ _ _ s2 _ E1) in E2. injection E2 as <-.
  destruct (crun_heap c1 s2 _ _ Hb1) as (b' & Hb' & <-). by eapply Hmax.
Qed.

Lemma quiescent_counts N interval now0 upd all c cr :
  Second <= interval -> in64 interval ->
  binv N interval now0 upd all (shared c) (threads c) cr -> rinv N (bs_bc (shared c)) (threads c) ->
  quiescent c ->
  cr.*2 ≡ₚ all /\
  forall now start, in64 now -> -1000 < start ->
    exists m, bc_GetBucketCountsSince (bs_bc (shared c)) now start = Ok m /\
      forall k, m !! k =
        if decide (start <= k /\ k <= trunc_key (interval_seconds interval) now)
        then recent_sum N (by_bucket (bc_heap (bs_bc (shared c))) cr) k else None.
Proof.
  intros H1 H2 B R Hq. split.
  { rewrite <- (b_amts _ _ _ _ _ _ _ _ B). by rewrite quiescent_unfinished, app_nil_r by done. }
  intros now start Hnow Hst.
  destruct (quiescent_repr _ _ _ _ _ _ _ _ B R Hq) as (Hr & lo & C & Z0 & Hh).
  pose proof (b_interval _ _ _ _ _ _ _ _ B) as Hiv.
  destruct (bucket_counts_since _ _ _ _ _ _ _ now start Hr Hh) as (m & Em & _ & Hm); [|done|done|].
  { rewrite Hiv. by apply interval_seconds_pos. }
  exists m. split; [done|]. intros k. rewrite Hm, Hiv. done.
Qed.

Lemma conc_counts_exclusive interval N now0 upd progs sched :
  Second <= interval -> in64 interval -> 0 <= N ->
  (forall s1 s2 c, sched = s1 ++ s2 -> bc_crun interval N now0 upd progs s1 = Ok c -> exclusive c) ->
  exists c cr, bc_crun interval N now0 upd progs sched = Ok c /\
    (forall p, p ∈ cr.*1 -> (p < length (bc_heap (bs_bc (shared c))))%nat) /\
    (quiescent c -> cr.*2 ≡ₚ mjoin progs /\
      forall now start, in64 now -> -1000 < start ->
      exists m, bc_GetBucketCountsSince (bs_bc (shared c)) now start = Ok m /\
        forall k, m !! k =
          if decide (start <= k /\ k <= trunc_key (interval_seconds interval) now)
          then recent_sum (Z.to_nat N) (by_bucket (bc_heap (bs_bc (shared c))) cr) k else None).
Proof.
  intros H1 H2 HN Hex. destruct (binv_init interval N now0 upd progs HN) as (c0 & E0 & B0 & _).
  pose proof (rinv_init interval N now0 upd progs HN c0 E0) as R0.
  assert (HI : (exists cr, binv (Z.to_nat N) interval now0 upd (mjoin progs)
      (shared (crun bc_tstep bc_estep c0 sched)) (threads (crun bc_tstep bc_estep c0 sched)) cr) /\
    rinv (Z.to_nat N) (bs_bc (shared (crun bc_tstep bc_estep c0 sched))) (threads (crun bc_tstep bc_estep c0 sched))).
  { apply (crun_prefix_inv bc_tstep bc_estep exclusive (fun c =>
      (exists cr, binv (Z.to_nat N) interval now0 upd (mjoin progs) (shared c) (threads c) cr) /\
      rinv (Z.to_nat N) (bs_bc (shared c)) (threads c))).
    - eauto.
    - intros s ts i t s' t' [[cr B] R] G1 G2 Hi Hs. cbn in *.
      destruct (binv_step _ _ _ _ _ _ _ _ _ _ _ _ (interval_seconds_pos _ H1 H2) B Hi Hs) as (cr' & B' & _).
      split; [eauto|]. eapply rinv_step; done.
    - intros s ts e [[cr B] R]. cbn. split; [exists cr; by apply binv_env|done].
    - intros s1 s2 Hs. apply (Hex s1 s2); [done|]. unfold bc_crun. by rewrite E0. }
  destruct HI as [[cr B] R]. exists (crun bc_tstep bc_estep c0 sched), cr. split_and!.
  - unfold bc_crun. by rewrite E0.
  - apply (b_crptr _ _ _ _ _ _ _ _ B).
  - by eapply quiescent_counts.
Qed.

(** ** A burst inside one interval *)
Record sinv (N : nat) (interval K : Z) (s : bc_shared) (ts : list bthread) : Prop := {
  s_clock : alignTimestamp interval (bs_clock s) = Ok K;
  s_len : (length (bc_heap (bs_bc s)) <= S (S N))%nat;
  s_ts : forall b, bc_heap (bs_bc s) !! S N = Some b -> bk_ts b = K;
  s_pcs : forall i t, ts !! i = Some t ->
    match bt_pc t with
    | PLoad _ x => x = K
    | PCmp _ x old => x = K /\ (old = 0%nat \/ old = S N)
    | PCas _ x old => x = K /\ old = 0%nat
    | PReload _ => length (bc_heap (bs_bc s)) = S (S N)
    | PAdd _ p | PCurLoad _ p | PCurStore _ p _ | PSlotLoad _ p | PSlotStore _ p _ => p = S N
    | PIdle | PClock _ => True
    end;
  s_excl : exclusive (Config s ts)
}.

Lemma exclusive_out s s' ts i t t' : exclusive (Config s ts) -> ts !! i = Some t ->
  (in_addLast t' -> in_addLast t) -> exclusive (Config s' (<[i := t']> ts)).
Proof.
  intros Hex Hi Himp a b ta tb Ha Hb Hia Hib. cbn in *.
  assert (Hlt : (i < length ts)%nat) by (by apply lookup_lt_Some in Hi).
  destruct (decide (i = a)) as [<-|Hna], (decide (i = b)) as [<-|Hnb]; [done|..].
  - rewrite list_lookup_insert in Ha by done. injection Ha as <-. rewrite list_lookup_insert_ne in Hb by done.
    apply (Hex i b t tb); auto.
  - rewrite list_lookup_insert in Hb by done. injection Hb as <-. rewrite list_lookup_insert_ne in Ha by done.
    apply (Hex a i ta t); auto.
  - rewrite list_lookup_insert_ne in Ha by done. rewrite list_lookup_insert_ne in Hb by done. apply (Hex a b ta tb); auto.
Qed.

Lemma sinv_pc N interval K c c' clk ts i t t' :
  sinv N interval K (BcShared c clk) ts -> ts !! i = Some t ->
  bc_heap c' = bc_heap c ->
  match bt_pc t' with
  | PLoad _ x => x = K
  | PCmp _ x old => x = K /\ (old = 0%nat \/ old = S N)
  | PCas _ x old => x = K /\ old = 0%nat
  | PReload _ => length (bc_heap c) = S (S N)
  | PAdd _ p | PCurLoad _ p | PCurStore _ p _ | PSlotLoad _ p | PSlotStore _ p _ => p = S N
  | PIdle | PClock _ => True
  end ->
  (in_addLast t' -> in_addLast t) ->
  sinv N interval K (BcShared c' clk) (<[i := t']> ts).
Proof.
  intros S0 Hi Hh Hp Hw. destruct S0. cbn in *.
  assert (Hlt : (i < length ts)%nat) by (by apply lookup_lt_Some in Hi).
  constructor; cbn; rewrite ?Hh; try done.
  - intros j u Hj. destruct (decide (i = j)) as [<-|Hne].
    + rewrite list_lookup_insert in Hj by done. injection Hj as <-. done.
    + rewrite list_lookup_insert_ne in Hj by done. apply (s_pcs0 j u Hj).
  - by eapply exclusive_out.
Qed.

Lemma sinv_step N interval K now0 upd all s ts i t s' t' cr :
  0 <= K -> binv N interval now0 upd all s ts cr -> sinv N interval K s ts ->
  ts !! i = Some t -> bc_tstep s t = Some (s', t') ->
  sinv N interval K s' (<[i := t']> ts).
Proof.
  intros HK B SI Hi Hs. destruct s as [c clk]. unfold bc_tstep in Hs. cbn [bs_bc bs_clock] in *.
  assert (Hlt : (i < length ts)%nat) by (by apply lookup_lt_Some in Hi).
  pose proof (b_hlen _ _ _ _ _ _ _ _ B) as HL. cbn in HL.
  pose proof (b_latest _ _ _ _ _ _ _ _ B) as Hlat. cbn in Hlat.
  pose proof (b_pcs _ _ _ _ _ _ _ _ B i t Hi) as Hok. cbn [bs_bc] in Hok.
  pose proof (s_pcs _ _ _ _ _ SI i t Hi) as Ht. cbn [bs_bc] in Ht.
  pose proof (s_len _ _ _ _ _ SI) as HL2. cbn in HL2.
  destruct (bt_pc t) eqn:Hpc.
  - destruct (bt_todo t) as [|n todo]; [done|]. injection Hs as <- <-.
    eapply sinv_pc; try done. by destruct (bc_updateTotalCount c).
  - pose proof (b_interval _ _ _ _ _ _ _ _ B) as Hiv. cbn in Hiv. rewrite Hiv in Hs.
    pose proof (s_clock _ _ _ _ _ SI) as Hc. cbn [bs_clock] in Hc. rewrite Hc in Hs. injection Hs as <- <-.
    eapply sinv_pc; try done.
  - injection Hs as <- <-. eapply sinv_pc; try done. cbn. split; [done|].
    rewrite Hlat. destruct (decide _); [by left|]. right. lia.
  - destruct (bc_heap c !! old) as [b|] eqn:Hb; [|done]. injection Hs as <- <-. destruct Ht as [-> Hold].
    eapply sinv_pc; try done; cbn [bt_pc in_addLast]; [|by destruct (bk_ts b <? K)].
    destruct Hold as [-> | ->].
    + destruct (Z.ltb_spec (bk_ts b) K) as [?|Hge]; [done|].
      rewrite (b_init _ _ _ _ _ _ _ _ B 0%nat b ltac:(lia) Hb) in Hge. lia.
    + rewrite (s_ts _ _ _ _ _ SI b Hb), Z.ltb_irrefl. done.
  - destruct Ht as [-> ->]. destruct (decide (bc_latestBucket c = 0%nat)) as [Heq|Hne]; injection Hs as <- <-.
    2:{ eapply sinv_pc; try done. cbn. rewrite Hlat in Hne. destruct (decide _) in Hne; [done|]. lia. }
    assert (Hlen : length (bc_heap c) = S N).
    { rewrite Hlat in Heq. destruct (decide _) in Heq; [done|lia]. }
    constructor; cbn.
    + apply (s_clock _ _ _ _ _ SI).
    + rewrite app_length. cbn. lia.
    + intros b Hb. rewrite lookup_app_r in Hb by lia. rewrite Hlen, Nat.sub_diag in Hb. by injection Hb as <-.
    + intros j u Hj. destruct (decide (i = j)) as [<-|Hne].
      * rewrite list_lookup_insert in Hj by done. injection Hj as <-. done.
      * rewrite list_lookup_insert_ne in Hj by done. pose proof (s_pcs _ _ _ _ _ SI j u Hj) as Hu.
        cbn in Hu. destruct (bt_pc u); try done. lia.
    + intros a b ta tb Ha Hb Hia Hib. cbn in Ha, Hb.
      assert (G : forall a ta, <[i:=BThread (bt_todo t) (PCurLoad n (length (bc_heap c)))]> ts !! a = Some ta -> in_addLast ta -> a = i).
      { clear a b ta tb Ha Hb Hia Hib. intros a ta Ha Hia. destruct (decide (i = a)) as [|Hne]; [done|].
        rewrite list_lookup_insert_ne in Ha by done. pose proof (b_pcs _ _ _ _ _ _ _ _ B a ta Ha) as Hu.
        unfold in_addLast in Hia. destruct (bt_pc ta); try done; cbn in Hu; lia. }
      rewrite (G a ta Ha Hia), (G b tb Hb Hib). done.
  - destruct (length (dq_queue (bc_buckets c))); [done|]. injection Hs as <- <-. eapply sinv_pc; try done.
    unfold in_addLast. by rewrite Hpc.
  - injection Hs as <- <-. eapply sinv_pc; try done. unfold in_addLast. by rewrite Hpc.
  - injection Hs as <- <-. eapply sinv_pc; try done. unfold in_addLast. by rewrite Hpc.
  - destruct (_ <? _)%nat; [|done]. injection Hs as <- <-. eapply sinv_pc; try done.
  - injection Hs as <- <-. eapply sinv_pc; try done. cbn. rewrite Hlat, decide_False by lia. lia.
  - unfold heap_add in Hs. destruct (bc_heap c !! bk) as [b|] eqn:Hb; [|done]. injection Hs as <- <-.
    subst bk. assert (Hltk := lookup_lt_Some _ _ _ Hb).
    constructor; cbn; rewrite ?insert_length.
    + apply (s_clock _ _ _ _ _ SI).
    + done.
    + intros b' Hb'. rewrite list_lookup_insert in Hb' by done. injection Hb' as <-. cbn.
      apply (s_ts _ _ _ _ _ SI b Hb).
    + intros j u Hj. destruct (decide (i = j)) as [<-|Hne].
      * rewrite list_lookup_insert in Hj by done. injection Hj as <-. done.
      * rewrite list_lookup_insert_ne in Hj by done. apply (s_pcs _ _ _ _ _ SI j u Hj).
    + eapply exclusive_out; [apply (s_excl _ _ _ _ _ SI)|done|done].
Qed.

Lemma recent_sum_Permutation N l l' k : l ≡ₚ l' -> recent_sum N l k = recent_sum N l' k.
Proof.
  intros HP. unfold recent_sum, newer_keys.
  assert (E1 : sum_at k l = sum_at k l').
  { unfold sum_at. assert (G : forall x y : list Z, x ≡ₚ y -> sumZ x = sumZ y).
    { induction 1; rewrite ?sumZ_cons; try lia; done. }
    apply G. by rewrite HP. }
  rewrite E1. rewrite (list_to_set_perm_L _ _ (filter_Permutation (fun x => k < x) _ _ (fmap_Permutation fst _ _ HP))).
  apply decide_ext. by rewrite HP.
Qed.

Lemma key_div I q : 1000 * I * q / 1000 = I * q.
Proof. replace (1000 * I * q) with (I * q * 1000) by ring. apply Z.div_mul. lia. Qed.

Lemma align_of_key interval k t : Second <= interval -> in64 interval -> in64 t -> 0 <= t ->
  bucket_key (interval_seconds interval) t = k ->
  alignTimestamp interval t = Ok (k / 1000).
Proof.
  intros H1 H2 Ht H0 <-. pose proof (interval_seconds_pos _ H1 H2) as HI.
  rewrite alignTimestamp_spec by done. f_equal. unfold bucket_key.
  rewrite Z.quot_div_nonneg by lia. by rewrite key_div.
Qed.

Lemma conc_one_interval interval N now0 upd progs sched k :
  Second <= interval -> in64 interval -> 0 <= N ->
  Forall (in_interval (interval_seconds interval) k) (Env now0 :: sched) ->
  exists c, bc_crun interval N now0 upd progs sched = Ok c /\
    (quiescent c ->
      forall now start, in64 now -> -1000 < start ->
      exists m, bc_GetBucketCountsSince (bs_bc (shared c)) now start = Ok m /\
        forall k', m !! k' =
          if decide (start <= k' /\ k' <= trunc_key (interval_seconds interval) now)
          then recent_sum (Z.to_nat N) (pair k <$> mjoin progs) k' else None).
Proof.
  intros H1 H2 HN Hall. pose proof (interval_seconds_pos _ H1 H2) as HI.
  inversion Hall as [|? ? Hn Hs]; subst. cbn in Hn. destruct Hn as (Hn1 & Hn2 & <-).
  set (k := bucket_key (interval_seconds interval) now0) in *.
  assert (Hk0 : 0 <= k / 1000).
  { unfold k, bucket_key. rewrite key_div. apply Z.mul_nonneg_nonneg; [lia|]. apply Z.div_pos; lia. }
  assert (Hkk : 1000 * (k / 1000) = k).
  { unfold k, bucket_key. rewrite key_div. ring. }
  assert (Hinv : forall s1 s2, sched = s1 ++ s2 -> exists c cr,
     bc_crun interval N now0 upd progs s1 = Ok c /\
     binv (Z.to_nat N) interval now0 upd (mjoin progs) (shared c) (threads c) cr /\
     sinv (Z.to_nat N) interval (k / 1000) (shared c) (threads c) /\
     rinv (Z.to_nat N) (bs_bc (shared c)) (threads c) /\
     (forall p, p ∈ cr.*1 -> p = S (Z.to_nat N))).
  { intros s1. induction s1 as [|ev s1 IH] using rev_ind; intros s2 Es.
    - destruct (binv_init interval N now0 upd progs HN) as (c0 & E0 & B0 & Hh & Hd & Ht).
      exists c0, []. split; [unfold bc_crun; by rewrite E0|]. split; [done|].
      split; [|split; [by eapply rinv_init|intros p Hp; by apply elem_of_nil in Hp]].
      constructor.
      + unfold bc_cinit in E0. destruct (newBucketCounterImpl interval N now0 upd); [|done].
        injection E0 as <-. cbn [shared bs_clock]. rewrite wrap64_id by done. by apply (align_of_key _ k).
      + rewrite Hh, replicate_length. lia.
      + rewrite Hh. intros b Hb. apply lookup_lt_Some in Hb. rewrite replicate_length in Hb. lia.
      + rewrite Ht. intros i t Hi. rewrite list_lookup_fmap in Hi. destruct (progs !! i); [|done]. by injection Hi as <-.
      + intros i j ti tj Hi Hj Hti. cbn in Hi. rewrite Ht in Hi. rewrite list_lookup_fmap in Hi. destruct (progs !! i); [|done]. by injection Hi as <-.
    - destruct (IH (ev :: s2)) as (c & cr & E & B & SI & R & Hcr); [by rewrite Es, <- app_assoc|].
      destruct c as [s ts].
      assert (E' : bc_crun interval N now0 upd progs (s1 ++ [ev]) = Ok (cstep bc_tstep bc_estep (Config s ts) ev)).
      { rewrite (crun_more _ _ _ _ _ _ [ev] _ E). done. }
      rewrite E'. destruct ev as [i|e].
      + cbn [cstep threads shared]. destruct (ts !! i) as [t|] eqn:Hi; [|by exists (Config s ts), cr].
        destruct (bc_tstep s t) as [[s' t']|] eqn:Hst; [|by exists (Config s ts), cr].
        destruct (binv_step _ _ _ _ _ _ _ _ _ _ _ _ HI B Hi Hst) as (cr' & B' & Hor).
        pose proof (sinv_step _ _ _ _ _ _ _ _ _ _ _ _ _ Hk0 B SI Hi Hst) as SI'.
        exists (Config s' (<[i:=t']> ts)), cr'. split_and!; [done|done|done| |].
        * eapply rinv_step; try done; [apply (s_excl _ _ _ _ _ SI)|apply (s_excl _ _ _ _ _ SI')].
        * destruct Hor as [->|(n & q & Hpc & ->)]; [done|]. intros p Hp.
          rewrite fmap_app, elem_of_app in Hp. destruct Hp as [Hp|Hp]; [by apply Hcr|].
          apply elem_of_list_singleton in Hp as ->. cbn.
          pose proof (s_pcs _ _ _ _ _ SI i t Hi) as Hq. by rewrite Hpc in Hq.
      + cbn [cstep threads shared]. eexists _, cr. split_and!; [reflexivity|by apply binv_env| |done|done].
        assert (He : in_interval (interval_seconds interval) k (Env e)).
        { rewrite Forall_forall in Hs. apply Hs. rewrite Es. apply elem_of_app. left. apply elem_of_app. right. left. }
        cbn in He. destruct He as (He1 & He2 & He3). destruct SI. constructor; cbn [shared threads bc_estep bs_bc bs_clock]; try done.
        rewrite wrap64_id by done. by apply align_of_key. }
  destruct (Hinv sched [] ltac:(by rewrite app_nil_r)) as (c & cr & E & B & SI & R & Hcr).
  exists c. split; [done|]. intros Hq now start Hnow Hst.
  destruct (quiescent_counts _ _ _ _ _ _ _ H1 H2 B R Hq) as [Hamt Hres].
  destruct (Hres now start Hnow Hst) as (m & Em & Hm). exists m. split; [done|]. intros k'. rewrite Hm.
  destruct (decide _); [|done]. apply recent_sum_Permutation. rewrite <- Hamt.
  replace (by_bucket (bc_heap (bs_bc (shared c))) cr) with (pair k <$> cr.*2); [done|].
  unfold by_bucket. rewrite <- list_fmap_compose. apply list_fmap_ext. intros i [p n] Hi. cbn. f_equal.
  assert (Hp : p ∈ cr.*1). { apply elem_of_list_fmap. exists (p, n). split; [done|]. by eapply elem_of_list_lookup_2. }
  destruct (lookup_lt_is_Some_2 (bc_heap (bs_bc (shared c))) p) as [b Hb]; [by apply (b_crptr _ _ _ _ _ _ _ _ B)|].
  rewrite (key_of_lookup _ _ _ Hb). rewrite (Hcr p Hp) in Hb.
  unfold key. rewrite (s_ts _ _ _ _ _ SI b Hb). done.
Qed.

(** ** Every call finishes after at most ten of its own steps *)
Definition rank_pc (pc : bpc) : nat :=
  match pc with
  | PIdle => 0 | PClock _ => 9 | PLoad _ _ => 8 | PCmp _ _ _ => 7 | PCas _ _ _ => 6
  | PCurLoad _ _ => 5 | PCurStore _ _ _ => 4 | PSlotLoad _ _ => 3 | PSlotStore _ _ _ => 2
  | PReload _ => 2 | PAdd _ _ => 1
  end.
Definition rank (t : bthread) : nat := 10 * length (bt_todo t) + rank_pc (bt_pc t).

Lemma tstep_rank s t s' t' : bc_tstep s t = Some (s', t') -> (rank t' < rank t)%nat.
Proof.
  destruct s as [c clk]. unfold bc_tstep, rank. cbn [bs_bc bs_clock]. intros Hs.
  destruct (bt_pc t) eqn:Hpc.
  - destruct (bt_todo t); [done|]. injection Hs as <- <-. cbn. lia.
  - destruct (alignTimestamp _ _); [|done]. injection Hs as <- <-. cbn. lia.
  - injection Hs as <- <-. cbn. lia.
  - destruct (bc_heap c !! old); [|done]. injection Hs as <- <-. cbn. destruct (_ <? _); cbn; lia.
  - destruct (decide _); injection Hs as <- <-; cbn; lia.
  - destruct (length (dq_queue (bc_buckets c))); [done|]. injection Hs as <- <-. cbn. lia.
  - injection Hs as <- <-. cbn. lia.
  - injection Hs as <- <-. cbn. lia.
  - destruct (_ <? _)%nat; [|done]. injection Hs as <- <-. cbn. lia.
  - injection Hs as <- <-. cbn. lia.
  - unfold heap_add in Hs. destruct (bc_heap c !! bk) as [b0|] eqn:E; [|done]. injection Hs as <- <-. cbn. lia.
Qed.

Lemma rank_0 t : rank t = 0%nat -> unfinished t = [].
Proof. destruct t as [[|] []]; done. Qed.

Lemma conc_wait_free interval N now0 upd progs sched i prog :
  Second <= interval -> in64 interval -> 0 <= N -> progs !! i = Some prog ->
  exists c t, bc_crun interval N now0 upd progs sched = Ok c /\ threads c !! i = Some t /\
    (unfinished t = [] \/ (runs i sched < 10 * length prog)%nat).
Proof.
  intros H1 H2 HN Hp. pose proof (interval_seconds_pos _ H1 H2) as HI.
  assert (G : exists c cr t, bc_crun interval N now0 upd progs sched = Ok c /\
    binv (Z.to_nat N) interval now0 upd (mjoin progs) (shared c) (threads c) cr /\
    threads c !! i = Some t /\ (unfinished t = [] \/ (rank t + runs i sched <= 10 * length prog)%nat)).
  { induction sched as [|ev sched IH] using rev_ind.
    - destruct (binv_init interval N now0 upd progs HN) as (c0 & E0 & B0 & Hh & Hd & Ht).
      exists c0, [], (BThread prog PIdle). split_and!; [unfold bc_crun; by rewrite E0|done| |].
      + by rewrite Ht, list_lookup_fmap, Hp.
      + right. unfold rank, runs. cbn. lia.
    - destruct IH as (c & cr & t & E & B & Hi & Hor). destruct c as [s ts].
      rewrite (crun_more _ _ _ _ _ _ [ev] _ E). cbn [crun fold_left].
      destruct ev as [j|e].
      + cbn [cstep threads shared] in *. destruct (decide (j = i)) as [->|Hne].
        * rewrite Hi. destruct (bc_tstep s t) as [[s' t']|] eqn:Hst.
          -- destruct (binv_step _ _ _ _ _ _ _ _ _ _ _ _ HI B Hi Hst) as (cr' & B' & _).
             eexists _, cr', t'. split_and!; [done|done|cbn [threads]; by rewrite list_lookup_insert by (by apply lookup_lt_Some in Hi)|].
             pose proof (tstep_rank _ _ _ _ Hst). destruct Hor as [Hu|Hr].
             ++ apply unfinished_nil in Hu as ->. done.
             ++ right. assert (Er : runs i (sched ++ [Run i]) = S (runs i sched)).
                { unfold runs. rewrite filter_app, app_length, filter_cons, decide_True by done. cbn. lia. }
                lia.
          -- eexists _, cr, t. split_and!; [done|done|done|]. left.
             destruct (decide (unfinished t = [])) as [|Hne]; [done|].
             destruct (binv_progress _ _ _ _ _ _ _ _ _ _ HI B Hi Hne) as (s' & t' & Hst'). congruence.
        * assert (Er : runs i (sched ++ [Run j]) = runs i sched).
          { unfold runs. rewrite filter_app, app_length, filter_cons, decide_False by congruence. cbn. lia. }
          rewrite Er. destruct (ts !! j) as [u|] eqn:Hj; [|by exists (Config s ts), cr, t].
          destruct (bc_tstep s u) as [[s' t']|] eqn:Hst; [|by exists (Config s ts), cr, t].
          destruct (binv_step _ _ _ _ _ _ _ _ _ _ _ _ HI B Hj Hst) as (cr' & B' & _).
          eexists _, cr', t. split_and!; [done|done|cbn [threads]; by rewrite list_lookup_insert_ne by done|done].
      + assert (Er : runs i (sched ++ [Env e]) = runs i sched).
        { unfold runs. rewrite filter_app, app_length, filter_cons, decide_False by congruence. cbn. lia. }
        rewrite Er. eexists _, cr, t. split_and!; [done|by apply binv_env|done|done]. }
  destruct G as (c & cr & t & E & B & Hi & Hor). exists c, t. split_and!; [done|done|].
  destruct Hor as [?|Hr]; [by left|]. destruct (decide (rank t = 0%nat)) as [H0|H0]; [left; by apply rank_0|right; lia].
Qed.

Lemma crun_run0 s t s' t' l : bc_tstep s t = Some (s', t') ->
  crun bc_tstep bc_estep (Config s [t]) (Run 0%nat :: l) = crun bc_tstep bc_estep (Config s' [t']) l.
Proof. intros H. unfold crun. cbn [fold_left cstep threads shared lookup list_lookup]. by rewrite H. Qed.

Lemma crun_done s l : crun bc_tstep bc_estep (Config s [BThread [] PIdle]) (replicate l (Run 0%nat)) = Config s [BThread [] PIdle].
Proof. induction l as [|l IH]; [done|]. exact IH. Qed.

(** An uninterrupted goroutine does what the sequential model says. *)
Lemma conc_agrees c clk n c' :
  bc_UpdateN c clk n = Ok c' ->
  crun bc_tstep bc_estep (Config (BcShared c clk) [BThread [n] PIdle]) (replicate 10 (Run 0%nat)) =
  Config (BcShared c' clk) [BThread [] PIdle].
Proof.
  destruct c as [tot upd lat h [q cur] iv it]. intros H. unfold bc_UpdateN in H.
  cbn [bc_totalCount bc_updateTotalCount bc_latestBucket bc_heap bc_buckets bc_interval bc_initTimestamp] in H.
  destruct (alignTimestamp iv clk) as [ts|] eqn:Ha; [|done]. cbn [mbind res_bind] in H.
  destruct (h !! lat) as [b|] eqn:Hb; [|done]. cbn [of_option mbind res_bind] in H.
  set (tot' := if upd then counter_IncN tot n else tot) in *.
  set (cc := fun lat h q cur => BcShared (BucketCounterImpl tot' upd lat h (Deque q cur) iv it) clk).
  change (replicate 10 (Run 0%nat)) with (Run (E:=Z) 0%nat :: Run 0%nat :: Run 0%nat :: Run 0%nat :: replicate 6 (Run 0%nat)).
  rewrite (crun_run0 _ _ (cc lat h q cur) (BThread [] (PClock n))) by (unfold cc, tot'; by destruct upd).
  rewrite (crun_run0 _ _ (cc lat h q cur) (BThread [] (PLoad n ts))).
  2:{ unfold cc, bc_tstep. cbn [bt_pc bs_bc bc_interval bs_clock]. by rewrite Ha. }
  rewrite (crun_run0 _ _ (cc lat h q cur) (BThread [] (PCmp n ts lat))) by done.
  rewrite (crun_run0 _ _ (cc lat h q cur) (BThread [] (if bk_ts b <? ts then PCas n ts lat else PAdd n lat))).
  2:{ unfold cc, bc_tstep. cbn [bt_pc bs_bc bc_heap bs_clock]. by rewrite Hb. }
  destruct (Z.ltb_spec (bk_ts b) ts).
  - change (replicate 6 (Run 0%nat)) with (Run (E:=Z) 0%nat :: Run 0%nat :: Run 0%nat :: Run 0%nat :: Run 0%nat :: Run 0%nat :: []).
    rewrite (crun_run0 _ _ (cc (length h) (h ++ [Bucket ts 0]) q cur) (BThread [] (PCurLoad n (length h)))).
    2:{ unfold cc, bc_tstep. cbn [bt_pc bs_bc bc_latestBucket]. by rewrite decide_True. }
    destruct (dq_addLast (Deque q cur) (length h)) as [d|] eqn:Hd; cbn [mbind res_bind] in H; [|discriminate H].
    unfold dq_addLast in Hd. cbn [dq_queue dq_current] in Hd. destruct (length q) eqn:Hq; [done|].
    assert (Hm : ((cur + 1) `mod` S n0 < S n0)%nat) by (apply Nat.mod_upper_bound; lia).
    set (cur' := ((cur + 1) `mod` S n0)%nat) in *. injection Hd as <-.
    rewrite (crun_run0 _ _ (cc (length h) (h ++ [Bucket ts 0]) q cur) (BThread [] (PCurStore n (length h) cur'))).
    2:{ unfold cc, bc_tstep. cbn [bt_pc bs_bc bc_buckets dq_queue dq_current]. rewrite Hq. reflexivity. }
    rewrite (crun_run0 _ _ (cc (length h) (h ++ [Bucket ts 0]) q cur') (BThread [] (PSlotLoad n (length h)))) by reflexivity.
    rewrite (crun_run0 _ _ (cc (length h) (h ++ [Bucket ts 0]) q cur') (BThread [] (PSlotStore n (length h) cur'))) by reflexivity.
    rewrite (crun_run0 _ _ (cc (length h) (h ++ [Bucket ts 0]) (<[cur' := length h]> q) cur') (BThread [] (PAdd n (length h)))).
    2:{ unfold cc, bc_tstep. cbn [bt_pc bs_bc bc_buckets dq_queue]. rewrite Hq.
        destruct (Nat.ltb_spec cur' (S n0)); [reflexivity|lia]. }
    destruct (heap_add (h ++ [Bucket ts 0]) (length h) n) as [h'|] eqn:Hh; cbn [mbind res_bind] in H; [|discriminate H].
    rewrite (crun_run0 _ _ (cc (length h) h' (<[cur' := length h]> q) cur') (BThread [] PIdle)).
    2:{ unfold cc, bc_tstep. cbn [bt_pc bs_bc bc_heap]. by rewrite Hh. }
    injection H as <-. reflexivity.
  - destruct (heap_add h lat n) as [h'|] eqn:Hh; cbn [mbind res_bind] in H; [|discriminate H].
    change (replicate 6 (Run 0%nat)) with (Run (E:=Z) 0%nat :: replicate 5 (Run 0%nat)).
    rewrite (crun_run0 _ _ (cc lat h' q cur) (BThread [] PIdle)).
    2:{ unfold cc, bc_tstep. cbn [bt_pc bs_bc bc_heap]. by rewrite Hh. }
    rewrite crun_done. injection H as <-. reflexivity.
Qed.

Lemma sumZ_perm (x y : list Z) : x ≡ₚ y -> sumZ x = sumZ y.
Proof. induction 1; rewrite ?sumZ_cons; try lia; done. Qed.

Lemma conc_sum_over_buckets interval N now0 upd progs sched :
  Second <= interval -> in64 interval -> 0 <= N ->
  exists c, bc_crun interval N now0 upd progs sched = Ok c /\
    (quiescent c ->
       wrap64 (sumZ (bk_count <$> bc_heap (bs_bc (shared c)))) = wrap64 (sumZ (mjoin progs))).
Proof.
  intros H1 H2 HN. destruct (conc_credits interval N now0 upd progs sched H1 H2 HN) as (c & cr & E & Ha & Hp & Hc).
  exists c. split; [done|]. intros Hq. rewrite (sum_credit _ cr) by done. f_equal.
  rewrite quiescent_unfinished, app_nil_r in Ha by done. by apply sumZ_perm.
Qed.
