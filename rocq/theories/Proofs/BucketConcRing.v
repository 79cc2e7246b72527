From Verif.Go Require Import GoInt GoConc.
From Verif.Model Require Import Counter BucketQueue BucketCounter BucketCounterConc.
From Verif.Spec Require Import BucketSpec BucketConcSpec.
From Verif.Proofs Require Import BucketAbs BucketHist BucketMain BucketConcProofs.
Local Open Scope Z_scope.

(** All buckets, newest first. *)
Definition full (N L : nat) : list nat := reverse (seq (S N) (L - S N)) ++ ring (seq 0 (S N)) 0.

Lemma full_S N L : (S N <= L)%nat -> full N (S L) = L :: full N L.
Proof.
  intros H. unfold full. replace (S L - S N)%nat with (S (L - S N)) by lia.
  rewrite seq_S, reverse_app. cbn. f_equal. lia.
Qed.

Lemma full_0 N : full N (S N) = ring (seq 0 (S N)) 0.
Proof. unfold full. rewrite Nat.sub_diag. done. Qed.

Definition rok (N : nat) (c : bucket_counter) (L cur : nat) : Prop :=
  (cur < S N)%nat /\ ring (dq_queue (bc_buckets c)) cur = take (S N) (full N L).

Definition tring (N : nat) (c : bucket_counter) (pc : bpc) : Prop :=
  let cur := dq_current (bc_buckets c) in
  match pc with
  | PCurLoad _ q => S q = length (bc_heap c) /\ rok N c q cur
  | PCurStore _ q v => S q = length (bc_heap c) /\ rok N c q cur /\ v = ((cur + 1) mod S N)%nat
  | PSlotLoad _ q => S q = length (bc_heap c) /\ exists o, rok N c q o /\ cur = ((o + 1) mod S N)%nat
  | PSlotStore _ q i => S q = length (bc_heap c) /\ i = cur /\ exists o, rok N c q o /\ cur = ((o + 1) mod S N)%nat
  | _ => True
  end.

Definition rinv (N : nat) (c : bucket_counter) (ts : list bthread) : Prop :=
  ((forall i t, ts !! i = Some t -> ~ in_addLast t) -> rok N c (length (bc_heap c)) (dq_current (bc_buckets c))) /\
  (forall i t, ts !! i = Some t -> tring N c (bt_pc t)).

Definition window (pc : bpc) : bool :=
  match pc with
  | PCurLoad _ _ | PCurStore _ _ _ | PSlotLoad _ _ | PSlotStore _ _ _ => true
  | _ => false
  end.
Lemma in_addLast_window t : in_addLast t <-> window (bt_pc t) = true.
Proof. unfold in_addLast. destruct (bt_pc t); cbn; intuition done. Qed.

Lemma tring_other N c pc : window pc = false -> tring N c pc.
Proof. by destruct pc. Qed.

(** Steps outside the window that do not touch the ring nor create buckets. *)
Lemma rinv_pc N c c' ts i t t' :
  rinv N c ts -> ts !! i = Some t ->
  length (bc_heap c') = length (bc_heap c) -> bc_buckets c' = bc_buckets c ->
  window (bt_pc t) = false -> window (bt_pc t') = false ->
  rinv N c' (<[i := t']> ts).
Proof.
  intros [H1 H2] Hi Hh Hb Hw Hw'.
  assert (Hlt : (i < length ts)%nat) by (by apply lookup_lt_Some in Hi).
  split.
  - intros Hno. unfold rok. rewrite Hh, Hb. apply H1. intros j u Hj Hu.
    destruct (decide (i = j)) as [<-|Hne].
    + rewrite Hi in Hj. injection Hj as <-. apply in_addLast_window in Hu. congruence.
    + apply (Hno j u); [by rewrite list_lookup_insert_ne|done].
  - intros j u Hj. destruct (decide (i = j)) as [<-|Hne].
    + rewrite list_lookup_insert in Hj by done. injection Hj as <-. by apply tring_other.
    + rewrite list_lookup_insert_ne in Hj by done. specialize (H2 j u Hj).
      unfold tring, rok in *. by rewrite Hh, Hb.
Qed.

(** Steps of the goroutine in the window; nobody else is there. *)
Lemma rinv_window N c' ts i t' (ts0 := <[i := t']> ts) :
  (i < length ts)%nat ->
  (forall j u, ts0 !! j = Some u -> in_addLast u -> j = i) ->
  (if window (bt_pc t') then tring N c' (bt_pc t')
   else rok N c' (length (bc_heap c')) (dq_current (bc_buckets c'))) ->
  rinv N c' ts0.
Proof.
  intros Hlt Hex Hif. split.
  - intros Hno. destruct (window (bt_pc t')) eqn:Hw; [|done].
    destruct (Hno i t'); [by apply list_lookup_insert|]. by apply in_addLast_window.
  - intros j u Hj. destruct (window (bt_pc u)) eqn:Hu; [|by apply tring_other].
    assert (j = i) by (eapply Hex; [done|by apply in_addLast_window]). subst j.
    unfold ts0 in Hj. rewrite list_lookup_insert in Hj by done. injection Hj as <-. by rewrite Hu in Hif.
Qed.

Lemma rinv_step N interval now0 upd all s ts i t s' t' cr :
  binv N interval now0 upd all s ts cr -> rinv N (bs_bc s) ts ->
  exclusive (Config s ts) -> exclusive (Config s' (<[i := t']> ts)) ->
  ts !! i = Some t -> bc_tstep s t = Some (s', t') ->
  rinv N (bs_bc s') (<[i := t']> ts).
Proof.
  intros B R Hex Hex' Hi Hs. destruct s as [c clk]. unfold bc_tstep in Hs. cbn [bs_bc bs_clock] in *.
  assert (Hlt : (i < length ts)%nat) by (by apply lookup_lt_Some in Hi).
  pose proof (b_qlen _ _ _ _ _ _ _ _ B) as Hq. cbn in Hq.
  pose proof (b_hlen _ _ _ _ _ _ _ _ B) as HL. cbn in HL.
  pose proof (proj2 R i t Hi) as Ht.
  assert (Hexw : window (bt_pc t) = true -> forall j u, <[i := t']> ts !! j = Some u -> in_addLast u -> j = i).
  { intros Hw j u Hj Hu. destruct (decide (i = j)) as [<-|Hne]; [done|].
    rewrite list_lookup_insert_ne in Hj by done.
    symmetry. apply (Hex i j t u); [done|done|by apply in_addLast_window|done]. }
  assert (Hexw' : window (bt_pc t') = true -> forall j u, <[i := t']> ts !! j = Some u -> in_addLast u -> j = i).
  { intros Hw j u Hj Hu. apply (Hex' j i u t'); [done|by apply list_lookup_insert|done|by apply in_addLast_window]. }
  destruct (bt_pc t) eqn:Hpc; cbn [window tring] in *.
  - destruct (bt_todo t) as [|n todo] eqn:Htodo; [done|]. injection Hs as <- <-.
    eapply rinv_pc; try done; cbn; rewrite ?Hpc; try done; by destruct (bc_updateTotalCount c).
  - destruct (alignTimestamp (bc_interval c) clk); [|done]. injection Hs as <- <-.
    eapply rinv_pc; try done; cbn; rewrite ?Hpc; done.
  - injection Hs as <- <-. eapply rinv_pc; try done; cbn; rewrite ?Hpc; done.
  - destruct (bc_heap c !! old) as [b|]; [|done]. injection Hs as <- <-.
    eapply rinv_pc; try done; cbn; rewrite ?Hpc; try done. by destruct (bk_ts b <? ts0).
  - destruct (decide (bc_latestBucket c = old)) as [Heq|Hne]; injection Hs as <- <-.
    2:{ eapply rinv_pc; try done; cbn; rewrite ?Hpc; done. }
    apply rinv_window; [done|by apply Hexw'|]. cbn. rewrite app_length. cbn. split; [lia|].
    apply (proj1 R). intros j u Hj Hu. specialize (Hexw' eq_refl j u).
    destruct (decide (i = j)) as [<-|Hne]; [rewrite Hi in Hj; injection Hj as <-; apply in_addLast_window in Hu; by rewrite Hpc in Hu|].
    rewrite list_lookup_insert_ne in Hexw' by done. by specialize (Hexw' Hj Hu).
  - rewrite Hq in Hs. injection Hs as <- <-. destruct Ht as [Ht1 Ht2].
    apply rinv_window; [done|by apply Hexw|]. cbn [bt_pc window tring bs_bc]. rewrite ?Hq. done.
  - injection Hs as <- <-. destruct Ht as [Ht1 [Ht2 ->]].
    apply rinv_window; [done|by apply Hexw|]. cbn [bt_pc window tring set_buckets bc_buckets bc_heap dq_current bs_bc].
    split; [done|]. eauto.
  - injection Hs as <- <-. destruct Ht as [Ht1 Ht2].
    apply rinv_window; [done|by apply Hexw|]. cbn [bt_pc window tring bs_bc]. done.
  - destruct (Nat.ltb_spec i0 (length (dq_queue (bc_buckets c)))); [|done]. injection Hs as <- <-.
    destruct Ht as [Ht1 [-> (o & Ho & Hcur)]].
    apply rinv_window; [done|by apply Hexw|].
    cbn [bt_pc window tring set_buckets bc_buckets bc_heap dq_current bs_bc].
    unfold rok. cbn [bc_buckets dq_queue set_buckets]. destruct Ho as [Ho1 Ho2].
    split; [rewrite Hcur; apply Nat.mod_upper_bound; lia|].
    rewrite Hcur, <- Hq, ring_addLast by lia. rewrite Hq, Ho2, take_take, <- Ht1.
    assert (S N <= bk)%nat. { pose proof (b_pcs _ _ _ _ _ _ _ _ B i t Hi) as Hok. rewrite Hpc in Hok. cbn in Hok. lia. }
    rewrite full_S by done. cbn [take]. f_equal. f_equal. lia.
  - injection Hs as <- <-. eapply rinv_pc; try done; cbn; rewrite ?Hpc; done.
  - unfold heap_add in Hs. destruct (bc_heap c !! bk) as [b|]; [|done]. injection Hs as <- <-.
    eapply rinv_pc; try done; cbn; rewrite ?Hpc, ?insert_length; done.
Qed.

Lemma rinv_init interval N now0 upd progs : 0 <= N ->
  forall c0, bc_cinit interval N now0 upd progs = Ok c0 ->
  rinv (Z.to_nat N) (bs_bc (shared c0)) (threads c0).
Proof.
  intros HN c0 E. destruct (binv_init interval N now0 upd progs HN) as (c1 & E1 & _ & Hh & Hd & Ht).
  rewrite E1 in E. injection E as <-. split.
  - intros _. unfold rok. rewrite Hh, Hd, replicate_length. cbn [dq_current dq_queue]. split; [lia|].
    rewrite full_0, take_ge; [done|]. rewrite ring_length, seq_length. lia.
  - rewrite Ht. intros i t Hi. rewrite list_lookup_fmap in Hi. destruct (progs !! i); [|done]. by injection Hi as <-.
Qed.

(** Invariants that need a condition on every prefix of the schedule. *)
Lemma crun_prefix_inv {S T E} (tstep : S -> T -> option (S * T)) (estep : S -> E -> S)
  (G I : config S T -> Prop) c0 sched :
  I c0 ->
  (forall s ts i t s' t', I (Config s ts) -> G (Config s ts) -> G (Config s' (<[i := t']> ts)) ->
     ts !! i = Some t -> tstep s t = Some (s', t') -> I (Config s' (<[i := t']> ts))) ->
  (forall s ts e, I (Config s ts) -> I (Config (estep s e) ts)) ->
  (forall s1 s2, sched = s1 ++ s2 -> G (crun tstep estep c0 s1)) ->
  I (crun tstep estep c0 sched).
Proof.
  intros H0 Ht He. induction sched as [|ev sched IH] using rev_ind; intros HG; [done|].
  assert (I (crun tstep estep c0 sched)) as HI.
  { apply IH. intros s1 s2 ->. apply (HG s1 (s2 ++ [ev])). by rewrite app_assoc. }
  pose proof (HG sched [ev] eq_refl) as G1. pose proof (HG (sched ++ [ev]) [] ltac:(by rewrite app_nil_r)) as G2.
  rewrite crun_snoc in *. destruct (crun tstep estep c0 sched) as [s ts]. destruct ev as [i|e]; [|by apply He].
  cbn in *. destruct (ts !! i) as [t|] eqn:Hi; [|done].
  destruct (tstep s t) as [[s' t']|] eqn:Hs; [|done]. by eapply Ht.
Qed.

Lemma unfinished_nil t : unfinished t = [] -> t = BThread [] PIdle.
Proof. destruct t as [todo pc]. unfold unfinished. destruct pc; cbn; try done. by intros ->. Qed.

Lemma quiescent_unfinished c : quiescent c -> mjoin (unfinished <$> threads c) = [].
Proof. unfold quiescent. induction 1 as [|t ts Ht _ IH]; [done|]. cbn. by rewrite Ht. Qed.

Lemma key_of_lookup h p b : h !! p = Some b -> key_of h p = key b.
Proof. unfold key_of, key. by intros ->. Qed.

Lemma sum_at_by_bucket h cr p b :
  (forall p', p' ∈ cr.*1 -> (p' < length h)%nat) ->
  (forall p' b', p' <> p -> h !! p' = Some b' -> bk_ts b' <> bk_ts b) ->
  h !! p = Some b ->
  sum_at (key b) (by_bucket h cr) = credit p cr.
Proof.
  intros Hlt Hd Hp. induction cr as [|[q n] cr IH]; [done|].
  unfold sum_at, credit, by_bucket in *. rewrite fmap_cons, !filter_cons. cbn [fst snd].
  rewrite fmap_cons in Hlt. cbn [fst] in Hlt.
  destruct (lookup_lt_is_Some_2 h q) as [b' Hb']; [apply Hlt; left|].
  rewrite (key_of_lookup _ _ _ Hb').
  assert (IH' : sumZ (filter (λ u : Z * Z, u.1 = key b) ((λ u : nat * Z, (key_of h u.1, u.2)) <$> cr)).*2 =
      sumZ (filter (λ u : nat * Z, u.1 = p) cr).*2).
  { apply IH. intros p' Hp'. apply Hlt. by right. }
  destruct (decide (q = p)) as [->|Hne].
  - rewrite Hp in Hb'. injection Hb' as <-. rewrite decide_True by done. rewrite !fmap_cons, !sumZ_cons. cbn. by rewrite IH'.
  - rewrite decide_False; [done|]. intros Hk. apply (Hd q b' Hne Hb'). unfold key in Hk. lia.
Qed.

(** The buckets of the heap, newest first. *)
Definition bks (h : list bucket) (ps : list nat) : list bucket :=
  (fun p => default newBucket (h !! p)) <$> ps.

Lemma bks_Forall2 h ps : Forall (fun p => (p < length h)%nat) ps ->
  Forall2 (fun p b => h !! p = Some b) ps (bks h ps).
Proof.
  induction 1 as [|p ps Hp _ IH]; [constructor|]. cbn. constructor; [|exact IH].
  destruct (lookup_lt_is_Some_2 h p Hp) as [b ->]. done.
Qed.

Lemma full_lt N L : (S N <= L)%nat -> Forall (fun p => (p < L)%nat) (full N L).
Proof.
  intros H. apply Forall_forall. intros p Hp. unfold full in Hp. apply elem_of_app in Hp as [Hp|Hp].
  - apply elem_of_reverse, elem_of_seq in Hp. lia.
  - rewrite ring_Permutation in Hp. apply elem_of_seq in Hp. lia.
Qed.

Lemma full_NoDup N L : NoDup (full N L).
Proof.
  unfold full. apply NoDup_app. split_and!.
  - rewrite reverse_Permutation; apply NoDup_seq.
  - intros p Hp Hp'. apply elem_of_reverse, elem_of_seq in Hp.
    rewrite ring_Permutation in Hp'. apply elem_of_seq in Hp'. lia.
  - rewrite ring_Permutation. apply NoDup_seq.
Qed.

Lemma full_length N L : (S N <= L)%nat -> length (full N L) = L.
Proof. intros. unfold full. rewrite app_length, reverse_length, ring_length, !seq_length. lia. Qed.

Lemma elem_bks h ps b : Forall (fun p => (p < length h)%nat) ps -> b ∈ bks h ps ->
  exists p, p ∈ ps /\ h !! p = Some b.
Proof.
  intros Hps Hb. unfold bks in Hb. apply elem_of_list_fmap in Hb as (p & -> & Hp).
  rewrite Forall_forall in Hps. destruct (lookup_lt_is_Some_2 h p (Hps p Hp)) as [b Hb].
  exists p. by rewrite Hb.
Qed.

Lemma reverse_seq_sorted h a n :
  (forall p q b b', (p < q)%nat -> (a <= p)%nat -> h !! p = Some b -> h !! q = Some b' -> bk_ts b < bk_ts b') ->
  (a + n <= length h)%nat ->
  StronglySorted (fun x y => bk_ts y < bk_ts x) (bks h (reverse (seq a n))).
Proof.
  intros Hs. induction n as [|n IH]; intros Hl; [constructor|].
  rewrite seq_S, reverse_app. cbn. constructor; [apply IH; lia|].
  apply Forall_forall. intros b Hb. apply elem_bks in Hb as (p & Hp & Hpb).
  - apply elem_of_reverse, elem_of_seq in Hp.
    destruct (lookup_lt_is_Some_2 h (a + n)%nat ltac:(lia)) as [b' Hb']. rewrite Hb'. cbn.
    apply (Hs p (a + n)%nat); [lia|lia|done|done].
  - apply Forall_forall. intros p Hp. apply elem_of_reverse, elem_of_seq in Hp. lia.
Qed.

Lemma StronglySorted_app_le {A} (R : A -> A -> Prop) l1 l2 :
  StronglySorted R l1 -> StronglySorted R l2 -> (forall a b, a ∈ l1 -> b ∈ l2 -> R a b) ->
  StronglySorted R (l1 ++ l2).
Proof.
  intros H1 H2 H. induction H1 as [|x l1 H1 IH Hf]; [done|]. cbn. constructor.
  - apply IH. intros a b Ha Hb. apply H; [by right|done].
  - apply Forall_app. split; [done|]. apply Forall_forall. intros b Hb. apply H; [left|done].
Qed.

Lemma StronglySorted_impl {A} (R R' : A -> A -> Prop) l :
  (forall a b, R a b -> R' a b) -> StronglySorted R l -> StronglySorted R' l.
Proof.
  intros H. induction 1 as [|x l H1 IH Hf]; constructor; [done|].
  eapply Forall_impl; [exact Hf|]. apply H.
Qed.

Lemma quiescent_repr N interval now0 upd all s ts cr :
  binv N interval now0 upd all s ts cr -> rinv N (bs_bc s) ts -> Forall (fun t => unfinished t = []) ts ->
  let h := bc_heap (bs_bc s) in
  repr N (bs_bc s) (take (S N) (bks h (full N (length h)))) /\
  exists lo C Z0, hinv (S N) (bks h (full N (length h))) (by_bucket h cr) lo C Z0.
Proof.
  intros B R Hq h. destruct R as [R _].
  pose proof (b_qlen _ _ _ _ _ _ _ _ B) as Hql.
  pose proof (b_hlen _ _ _ _ _ _ _ _ B) as HL. fold h in HL.
  assert (Hidle : forall i t, ts !! i = Some t -> t = BThread [] PIdle).
  { intros i t Hi. apply unfinished_nil. rewrite Forall_forall in Hq. apply Hq. by eapply elem_of_list_lookup_2. }
  destruct R as [Hcur Hring]. { intros i t Hi. rewrite (Hidle _ _ Hi). cbn. auto. }
  fold h in Hring.
  assert (Hle : forall p q b b', (q <= p)%nat -> (S N <= p)%nat \/ (p < S N)%nat /\ (q < S N)%nat ->
     h !! p = Some b -> h !! q = Some b' -> bk_ts b' <= bk_ts b).
  { intros p q b b' Hqp Hor Hp Hq'. destruct (decide (p = q)) as [->|Hne]; [rewrite Hp in Hq'; injection Hq' as <-; lia|].
    destruct Hor as [Hge|[H1 H2]].
    - pose proof (b_sorted _ _ _ _ _ _ _ _ B q p b' b ltac:(lia) Hge Hq' Hp). lia.
    - rewrite (b_init _ _ _ _ _ _ _ _ B p b H1 Hp), (b_init _ _ _ _ _ _ _ _ B q b' H2 Hq'). lia. }
  assert (Hstrict : forall p q b b', (p < q)%nat -> (S N <= p)%nat -> h !! p = Some b -> h !! q = Some b' -> bk_ts b < bk_ts b').
  { intros p q b b' Hpq HN Hp Hq'. eapply (b_sorted _ _ _ _ _ _ _ _ B p q); try done. lia. }
  assert (Hneg : forall p b, (S N <= p)%nat -> h !! p = Some b -> -1 < bk_ts b).
  { intros p b Hp Hpb. destruct (lookup_lt_is_Some_2 h 0%nat ltac:(lia)) as [b0 Hb0].
    pose proof (b_sorted _ _ _ _ _ _ _ _ B 0%nat p b0 b ltac:(lia) Hp Hb0 Hpb).
    rewrite (b_init _ _ _ _ _ _ _ _ B 0%nat b0 ltac:(lia) Hb0) in H. done. }
  set (C := bks h (reverse (seq (S N) (length h - S N)))).
  set (Z0 := bks h (ring (seq 0 (S N)) 0)).
  assert (Hsplit : bks h (full N (length h)) = C ++ Z0) by (unfold bks, full, C, Z0; by rewrite fmap_app).
  assert (HCin : forall b, b ∈ C -> exists p, (S N <= p < length h)%nat /\ h !! p = Some b).
  { intros b Hb. apply elem_bks in Hb as (p & Hp & Hpb).
    - apply elem_of_reverse, elem_of_seq in Hp. exists p. split; [lia|done].
    - apply Forall_forall. intros p Hp. apply elem_of_reverse, elem_of_seq in Hp. lia. }
  assert (HinC : forall p b, (S N <= p)%nat -> h !! p = Some b -> b ∈ C).
  { intros p b Hp Hpb. apply lookup_lt_Some in Hpb as Hl. unfold C, bks. apply elem_of_list_fmap.
    exists p. rewrite Hpb. split; [done|]. apply elem_of_reverse, elem_of_seq. lia. }
  assert (HZin : Forall (fun b => bk_ts b = -1) Z0).
  { apply Forall_forall. intros b Hb. apply elem_bks in Hb as (p & Hp & Hpb).
    - rewrite ring_Permutation in Hp. apply elem_of_seq in Hp. apply (b_init _ _ _ _ _ _ _ _ B p b ltac:(lia) Hpb).
    - apply Forall_forall. intros p Hp. rewrite ring_Permutation in Hp. apply elem_of_seq in Hp. lia. }
  assert (HCs : StronglySorted (fun a b => bk_ts b < bk_ts a) C).
  { apply reverse_seq_sorted; [|lia]. intros p q b b' H1 H2. by apply Hstrict. }
  assert (Hlatest : head (full N (length h)) = Some (bc_latestBucket (bs_bc s))).
  { rewrite (b_latest _ _ _ _ _ _ _ _ B). fold h. destruct (decide (length h = S N)) as [E|E].
    - rewrite E, full_0. rewrite ring_hd by (rewrite seq_length; lia). done.
    - replace (length h) with (S (length h - 1)) at 1 by lia. by rewrite full_S by lia. }
  split.
  - constructor.
    + done.
    + done.
    + rewrite <- (ring_Permutation _ (dq_current (bc_buckets (bs_bc s)))), Hring. apply NoDup_take, full_NoDup.
    + rewrite Hring. unfold bks. rewrite <- fmap_take. apply bks_Forall2, Forall_take, full_lt. done.
    + rewrite <- ring_hd by lia. rewrite Hring. destruct (full N (length h)) eqn:E; done.
    + apply StronglySorted_take. rewrite Hsplit. apply StronglySorted_app_le.
      * eapply StronglySorted_impl; [|exact HCs]. cbn. intros x y Hxy. lia.
      * clearbody Z0. clear -HZin. induction HZin as [|b Z0 Hb HZ IH]; constructor; [done|].
        eapply Forall_impl; [exact HZ|]. cbn. intros x Hx. lia.
      * intros a b Ha Hb. destruct (HCin a Ha) as (p & Hp & Hpa). rewrite Forall_forall in HZin.
        rewrite (HZin b Hb). pose proof (Hneg p a ltac:(lia) Hpa). lia.
  - destruct (lookup_lt_is_Some_2 h (bc_latestBucket (bs_bc s))) as [bl Hbl].
    { rewrite (b_latest _ _ _ _ _ _ _ _ B). fold h. destruct (decide _); lia. }
    assert (Hmax : forall p b, h !! p = Some b -> bk_ts b <= bk_ts bl).
    { intros p b Hp. apply lookup_lt_Some in Hp as Hplt. pose proof (b_latest _ _ _ _ _ _ _ _ B) as Hl. fold h in Hl.
      destruct (decide (length h = S N)) as [E|E].
      - rewrite Hl in Hbl. rewrite (b_init _ _ _ _ _ _ _ _ B p b ltac:(lia) Hp).
        rewrite (b_init _ _ _ _ _ _ _ _ B 0%nat bl ltac:(lia) Hbl). lia.
      - apply (Hle (length h - 1)%nat p bl b); [lia|lia|by rewrite <- Hl|done]. }
    assert (Hkeys : forall k, k ∈ (by_bucket h cr).*1 -> exists p b, p ∈ cr.*1 /\ h !! p = Some b /\ k = key b).
    { intros k Hk. unfold by_bucket in Hk. rewrite <- list_fmap_compose in Hk.
      apply elem_of_list_fmap in Hk as ([p n] & -> & Hpn). cbn.
      assert (Hp : p ∈ cr.*1) by (apply elem_of_list_fmap; exists (p, n); done).
      destruct (lookup_lt_is_Some_2 h p) as [b Hb]; [by apply (b_crptr _ _ _ _ _ _ _ _ B)|].
      exists p, b. split_and!; [done|done|by apply key_of_lookup]. }
    exists (key bl), C, Z0. constructor.
    + done.
    + unfold Z0, bks. by rewrite fmap_length, ring_length, seq_length.
    + done.
    + unfold bks. destruct (full N (length h)) as [|p ps]; [done|]. cbn in Hlatest |- *. injection Hlatest as ->. by rewrite Hbl.
    + done.
    + apply Forall_forall. intros b Hb. destruct (HCin b Hb) as (p & Hp & Hpb). split; [eapply Hneg; [|done]; lia|].
      apply (b_in64 _ _ _ _ _ _ _ _ B p b Hpb).
    + apply Forall_forall. intros b Hb. destruct (HCin b Hb) as (p & Hp & Hpb). split.
      * destruct (b_cover _ _ _ _ _ _ _ _ B p Hp) as [Hin|(i & t & Hi & Ht)].
        2:{ rewrite (Hidle _ _ Hi) in Ht. done. }
        apply elem_of_list_fmap in Hin as ([p' n] & -> & Hin). cbn in *.
        unfold by_bucket. rewrite <- list_fmap_compose. apply elem_of_list_fmap. exists (p', n).
        split; [|done]. cbn. symmetry. by apply key_of_lookup.
      * rewrite (b_count _ _ _ _ _ _ _ _ B p b Hpb). f_equal. symmetry. apply sum_at_by_bucket; [..|done].
        -- apply (b_crptr _ _ _ _ _ _ _ _ B).
        -- intros p' b' Hne Hp' Heq. destruct (decide (p' < p)%nat).
           ++ pose proof (b_sorted _ _ _ _ _ _ _ _ B p' p b' b ltac:(lia) ltac:(lia) Hp' Hpb). lia.
           ++ pose proof (b_sorted _ _ _ _ _ _ _ _ B p p' b b' ltac:(lia) ltac:(lia) Hpb Hp'). lia.
    + intros k Hk. destruct (Hkeys k Hk) as (p & b & Hp & Hpb & ->).
      destruct (decide (p < S N)%nat) as [Hlt|Hge].
      * left. unfold key. rewrite (b_init _ _ _ _ _ _ _ _ B p b Hlt Hpb). lia.
      * right. exists b. split; [|done]. apply (HinC p); [lia|done].
    + intros k Hk. destruct (Hkeys k Hk) as (p & b & Hp & Hpb & ->). unfold key. pose proof (Hmax p b Hpb). lia.
Qed.
