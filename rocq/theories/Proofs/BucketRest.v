(** One UpdateN at a time on a bucket counter, step by step: what every bucket ever created
    holds, in the ring or not. *)
From Verif.Go Require Import GoInt GoConc.
From Verif.Model Require Import Counter BucketQueue BucketCounter BucketCounterConc BucketReadConc.
From Verif.Spec Require Import BucketSpec.
From Verif.Proofs Require Import BucketAbs BucketHist BucketMain BucketConcProofs BucketConcMain BucketReadProofs.
Local Open Scope Z_scope.

(** [cr]: the credited history; [lo]: the key (ms) of the latest bucket. *)
Record hok (N : nat) (interval : Z) (bc : bucket_counter) (cr : list (Z * Z)) (lo : Z) : Prop := {
  h_int : bc_interval bc = interval;
  h_upd : bc_updateTotalCount bc = false;
  h_qlen : length (dq_queue (bc_buckets bc)) = S N;
  h_cur : (dq_current (bc_buckets bc) < S N)%nat;
  h_q : qinv bc;
  h_latest : exists b, bc_heap bc !! bc_latestBucket bc = Some b /\ key b = lo;
  h_others : forall p b, bc_heap bc !! p = Some b -> p <> bc_latestBucket bc -> bk_ts b = -1 \/ key b < lo;
  h_lo : -1000 <= lo;
  h_cr : Forall (fun k => k <= lo) cr.*1;
  h_count : forall p b, bc_heap bc !! p = Some b -> bk_ts b = -1 \/ bk_count b = wrap64 (sum_at (key b) cr);
  h_in64 : forall p b, bc_heap bc !! p = Some b -> in64 (key b)
}.

(** The key of the latest bucket when nobody is updating. *)
Definition lo_of (cr : list (Z * Z)) : Z := default (-1000) (last cr.*1).

Section rest.
Context (N : nat) (interval : Z).
Context (HI : 1 <= interval_seconds interval).
Notation hok := (hok N interval).

Lemma hok_heap_lt bc cr lo : hok bc cr lo -> (bc_latestBucket bc < length (bc_heap bc))%nat.
Proof. intros H. destruct (h_latest _ _ _ _ _ H) as (b & Hb & _). by apply lookup_lt_Some in Hb. Qed.

Lemma hok_publish bc cr lo ts : hok bc cr lo -> lo < 1000 * ts -> in64 (1000 * ts) ->
  hok (publish bc ts) cr (1000 * ts).
Proof.
  intros H Hlt Hin. destruct H. unfold publish.
  assert (HL : forall p b, (bc_heap bc ++ [Bucket ts 0]) !! p = Some b ->
     (p = length (bc_heap bc) /\ b = Bucket ts 0) \/ (bc_heap bc !! p = Some b)).
  { intros p b Hp. apply lookup_app_Some in Hp as [?|[Hge Hp]]; [by right|].
    destruct (p - length (bc_heap bc))%nat eqn:E; [|done]. cbn in Hp. injection Hp as <-. left. split; [lia|done]. }
  constructor; cbn [bc_interval bc_updateTotalCount bc_buckets bc_heap bc_latestBucket]; try done.
  - unfold qinv in *. cbn. eapply Forall_impl; [exact h_q0|]. cbn. intros p Hp. rewrite app_length. cbn. lia.
  - exists (Bucket ts 0). split; [|done]. by rewrite lookup_app_r, Nat.sub_diag.
  - intros p b Hp Hne. destruct (HL p b Hp) as [[-> _]|Hp']; [done|]. destruct h_latest0 as (b0 & Hb0 & Hk0).
    destruct (decide (p = bc_latestBucket bc)) as [->|Hne'].
    + rewrite Hp' in Hb0. injection Hb0 as <-. right. lia.
    + destruct (h_others0 p b Hp' Hne'); [by left|right; lia].
  - lia.
  - eapply Forall_impl; [exact h_cr0|]. cbn. lia.
  - intros p b Hp. destruct (HL p b Hp) as [[-> ->]|Hp']; [|by eapply h_count0]. right. unfold key. cbn.
    rewrite sum_at_notin; [done|]. intros Hx. rewrite Forall_forall in h_cr0. specialize (h_cr0 _ Hx). cbn in h_cr0. lia.
  - intros p b Hp. destruct (HL p b Hp) as [[-> ->]|Hp']; [done|by eapply h_in65].
Qed.

Lemma hok_buckets bc cr lo d : hok bc cr lo -> length (dq_queue d) = S N -> (dq_current d < S N)%nat ->
  Forall (fun p => (p < length (bc_heap bc))%nat) (dq_queue d) -> hok (set_buckets bc d) cr lo.
Proof. intros H H1 H2 H3. destruct H. constructor; cbn; done. Qed.

Lemma hok_add bc cr lo n h : hok bc cr lo -> heap_add (bc_heap bc) (bc_latestBucket bc) n = Ok h ->
  hok (set_heap bc h) (cr ++ [(lo, n)]) lo.
Proof.
  intros H Hh. destruct H. unfold heap_add in Hh. destruct h_latest0 as (b0 & Hb0 & Hk0). rewrite Hb0 in Hh. cbn in Hh. injection Hh as <-.
  assert (Hlt : (bc_latestBucket bc < length (bc_heap bc))%nat) by (by apply lookup_lt_Some in Hb0).
  set (b1 := Bucket (bk_ts b0) (wrap64 (bk_count b0 + n))).
  assert (HL : forall p b, <[bc_latestBucket bc := b1]> (bc_heap bc) !! p = Some b ->
     (p = bc_latestBucket bc /\ b = b1) \/ (p <> bc_latestBucket bc /\ bc_heap bc !! p = Some b)).
  { intros p b Hp. apply list_lookup_insert_Some in Hp as [(<- & <- & _)|[? ?]]; [by left|by right]. }
  constructor; cbn [bc_interval bc_updateTotalCount bc_buckets bc_heap bc_latestBucket set_heap]; try done.
  - unfold qinv in *. cbn. by rewrite insert_length.
  - exists b1. split; [by apply list_lookup_insert|done].
  - intros p b Hp Hne. destruct (HL p b Hp) as [[-> _]|[_ Hp']]; [done|by eapply h_others0].
  - rewrite fmap_app, Forall_app. split; [done|]. apply Forall_singleton. cbn. lia.
  - intros p b Hp. destruct (HL p b Hp) as [[-> ->]|[Hne Hp']].
    + destruct (h_count0 _ _ Hb0) as [?|Hc]; [by left|]. right. cbn [bk_count b1]. rewrite sum_at_snoc.
      replace (key b1) with lo by done. rewrite decide_True by done. rewrite Hc, Hk0. by rewrite wrap64_add_l.
    + destruct (h_count0 _ _ Hp') as [?|Hc]; [by left|]. destruct (h_others0 _ _ Hp' Hne) as [?|Hl]; [by left|]. right.
      rewrite Hc, sum_at_snoc. rewrite decide_False by lia. by rewrite Z.add_0_r.
  - intros p b Hp. destruct (HL p b Hp) as [[-> ->]|[_ Hp']]; [|by eapply h_in65]. by eapply (h_in65 _ b0).
Qed.

(** Inside UpdateN(n), with the interval [k] (ms) of the clock reading. *)
Definition mid (bc : bucket_counter) (u : bthread) (cr : list (Z * Z)) (k n : Z) : Prop :=
  bt_todo u = [] /\ in64 k /\
  match bt_pc u with
  | PLoad n' ts => n' = n /\ 1000 * ts = k /\ hok bc cr (lo_of cr)
  | PCmp n' ts old => n' = n /\ 1000 * ts = k /\ hok bc cr (lo_of cr) /\ old = bc_latestBucket bc
  | PCas n' ts old => n' = n /\ 1000 * ts = k /\ hok bc cr (lo_of cr) /\ old = bc_latestBucket bc /\ lo_of cr < k
  | PCurLoad n' bk | PSlotLoad n' bk => n' = n /\ bk = bc_latestBucket bc /\ lo_of cr < k /\ hok bc cr k
  | PCurStore n' bk v => n' = n /\ bk = bc_latestBucket bc /\ lo_of cr < k /\ hok bc cr k /\ (v < S N)%nat
  | PSlotStore n' bk v => n' = n /\ bk = bc_latestBucket bc /\ lo_of cr < k /\ hok bc cr k /\ (v < S N)%nat
  | PAdd n' bk => n' = n /\ bk = bc_latestBucket bc /\ hok bc cr (Z.max (lo_of cr) k)
  | PIdle => hok bc (cr ++ [(Z.max (lo_of cr) k, n)]) (Z.max (lo_of cr) k)
  | PClock _ | PReload _ => False
  end.

Definition finished (u : bthread) : Prop := u = BThread [] PIdle.

Lemma mid_step bc u cr k n : mid bc u cr k n -> ~ finished u ->
  exists bc' u', (forall clk, bc_tstep (BcShared bc clk) u = Some (BcShared bc' clk, u')) /\ mid bc' u' cr k n /\
    ((forall n' bk, bt_pc u <> PAdd n' bk) -> ~ finished u') /\ ((exists n' bk, bt_pc u = PAdd n' bk) -> finished u').
Proof.
  destruct u as [todo pc]. intros (Htd & Hin & M) Hnf. cbn in Htd. subst todo. cbn [bt_pc] in *. unfold bc_tstep. cbn [bt_pc bt_todo bs_bc bs_clock].
  assert (Hnot : forall pc', pc' <> PIdle -> ~ finished (BThread [] pc')) by (intros pc' Hn Hf; injection Hf; done).
  destruct pc.
  - by destruct Hnf.
  - done.
  - destruct M as (-> & Hk & H). eexists bc, _. split; [reflexivity|]. cbn [bt_pc]. split; [|split].
    + split; [done|]. split; [done|]. cbn. done.
    + intros _. by apply Hnot.
    + intros (? & ? & ?). done.
  - destruct M as (-> & Hk & H & ->). destruct (h_latest _ _ _ _ _ H) as (b & Hb & Hkb). rewrite Hb.
    eexists bc, _. split; [reflexivity|]. split; [|split].
    + split; [done|]. split; [done|]. cbn. unfold key in Hkb. destruct (Z.ltb_spec (bk_ts b) ts).
      * split_and!; try done. lia.
      * split_and!; try done. by rewrite Z.max_l by lia.
    + intros _. destruct (_ <? _); by apply Hnot.
    + intros (? & ? & ?). done.
  - destruct M as (-> & Hk & H & -> & Hlt).
    eexists (publish bc ts), _. split; [intros clk; rewrite decide_True by done; reflexivity|]. split; [|split].
    + split; [done|]. split; [done|]. cbn. split_and!; try done. rewrite <- Hk. apply hok_publish with (lo_of cr); [done|lia|congruence].
    + intros _. by apply Hnot.
    + intros (? & ? & ?). done.
  - destruct M as (-> & -> & Hlt & H). rewrite (h_qlen _ _ _ _ _ H).
    eexists bc, _. split; [reflexivity|]. split; [|split].
    + split; [done|]. split; [done|]. cbn [bt_pc]. split_and!; try done. apply Nat.mod_upper_bound. done.
    + intros _. by apply Hnot.
    + intros (? & ? & ?). done.
  - destruct M as (-> & -> & Hlt & H & Hv). eexists _, _. split; [reflexivity|]. split; [|split].
    + split; [done|]. split; [done|]. cbn [bt_pc]. split_and!; try done. apply hok_buckets; [done|apply H|done|apply H].
    + intros _. by apply Hnot.
    + intros (? & ? & ?). done.
  - destruct M as (-> & -> & Hlt & H). eexists bc, _. split; [reflexivity|]. split; [|split].
    + split; [done|]. split; [done|]. cbn [bt_pc]. split_and!; try done. apply H.
    + intros _. by apply Hnot.
    + intros (? & ? & ?). done.
  - destruct M as (-> & -> & Hlt & H & Hv). rewrite (h_qlen _ _ _ _ _ H). rewrite (proj2 (Nat.ltb_lt _ _)) by done.
    eexists _, _. split; [reflexivity|]. split; [|split].
    + split; [done|]. split; [done|]. cbn [bt_pc]. split_and!; [done|done|]. rewrite Z.max_r by lia.
      apply hok_buckets; [done|cbn; rewrite insert_length; apply H|apply H|]. cbn. apply Forall_insert; [apply H|].
      by eapply hok_heap_lt.
    + intros _. by apply Hnot.
    + intros (? & ? & ?). done.
  - done.
  - destruct M as (-> & -> & H). destruct (h_latest _ _ _ _ _ H) as (b & Hb & Hkb).
    destruct (heap_add (bc_heap bc) (bc_latestBucket bc) n) as [h|] eqn:Hh; [|unfold heap_add in Hh; by rewrite Hb in Hh].
    eexists _, _. split; [reflexivity|]. split; [|split].
    + split; [done|]. split; [done|]. cbn [bt_pc]. by apply hok_add.
    + intros Hne. by destruct (Hne n (bc_latestBucket bc)).
    + intros _. done.
Qed.

(** ** The rest of an UpdateN call, with nobody else on this counter *)
Inductive finish : bucket_counter -> bthread -> bucket_counter -> Prop :=
| fin_done bc : finish bc (BThread [] PIdle) bc
| fin_step bc u bc1 u1 bc' : (forall clk, bc_tstep (BcShared bc clk) u = Some (BcShared bc1 clk, u1)) ->
    finish bc1 u1 bc' -> finish bc u bc'.

Lemma finish_done bc bc' : finish bc (BThread [] PIdle) bc' -> bc = bc'.
Proof. inversion 1 as [|? ? bc1 u1 ? Hs]; [done|]. specialize (Hs 0). cbn in Hs. done. Qed.

Lemma finish_step bc u bc' clk o u' : finish bc u bc' -> bc_tstep (BcShared bc clk) u = Some (o, u') ->
  bs_clock o = clk /\ finish (bs_bc o) u' bc'.
Proof.
  inversion 1 as [|? ? bc1 u1 ? Hs Hf]; subst; intros Hst.
  - by cbn in Hst.
  - rewrite Hs in Hst. injection Hst as <- <-. done.
Qed.

Lemma UpdateN_finish bc now n bc' ts : bc_updateTotalCount bc = false -> alignTimestamp (bc_interval bc) now = Ok ts ->
  bc_UpdateN bc now n = Ok bc' -> finish bc (BThread [] (PLoad n ts)) bc'.
Proof.
  intros Hu Ha. unfold bc_UpdateN. rewrite Ha, Hu. cbn [mbind res_bind].
  destruct (bc_heap bc !! bc_latestBucket bc) as [old|] eqn:Ho; [|done]. cbn [of_option mbind res_bind].
  intros E. eapply fin_step; [intros clk; cbn; reflexivity|]. destruct (bk_ts old <? ts) eqn:Hlt.
  - eapply fin_step. { intros clk. cbn. rewrite Ho, Hlt. reflexivity. }
    eapply fin_step. { intros clk. cbn. rewrite decide_True by done. reflexivity. }
    unfold dq_addLast in E. destruct (length (dq_queue (bc_buckets bc))) as [|len] eqn:Hlen; [done|]. cbn [mbind res_bind] in E.
    eapply fin_step. { intros clk. cbn. rewrite Hlen. reflexivity. }
    eapply fin_step. { intros clk. cbn. reflexivity. }
    eapply fin_step. { intros clk. cbn. reflexivity. }
    eapply fin_step. { intros clk. cbn [bc_tstep bt_pc bs_bc bc_buckets set_buckets dq_queue]. rewrite (proj2 (Nat.ltb_lt _ _)); [reflexivity|].
      rewrite Hlen. cbn [dq_current bc_buckets set_buckets]. by apply Nat.mod_upper_bound. }
    destruct (heap_add (bc_heap bc ++ [Bucket ts 0]) (length (bc_heap bc)) n) as [h|] eqn:Hh; [|done]. cbn [mbind res_bind] in E.
    injection E as <-.
    eapply fin_step. { intros clk. cbn. rewrite Hh. reflexivity. }
    cbn. destruct bc as [? ? ? ? [? ?] ? ?]. cbn in *. subst. apply fin_done.
  - eapply fin_step. { intros clk. cbn. rewrite Ho, Hlt. reflexivity. }
    destruct (heap_add (bc_heap bc) (bc_latestBucket bc) n) as [h|] eqn:Hh; [|done]. cbn [mbind res_bind] in E. injection E as <-.
    eapply fin_step. { intros clk. cbn. rewrite Hh. reflexivity. }
    cbn. destruct bc as [? ? ? ? [? ?] ? ?]. cbn in *. subst. apply fin_done.
Qed.

Lemma mid_start bc cr now n : hok bc cr (lo_of cr) -> in64 now ->
  alignTimestamp (bc_interval bc) now = Ok (sec_of (interval_seconds interval) now) /\
  mid bc (BThread [] (PLoad n (sec_of (interval_seconds interval) now))) cr (trunc_key (interval_seconds interval) now) n.
Proof.
  intros H Hn. split.
  - rewrite (h_int _ _ _ _ _ H). by apply alignTimestamp_spec.
  - split; [done|]. split; [by apply trunc_key_in64|]. cbn. split; [done|]. split; [|done]. apply sec_of_trunc_key.
Qed.

(** A whole call. *)
Lemma mid_end bc u cr k n bc' : finish bc u bc' -> mid bc u cr k n -> mid bc' (BThread [] PIdle) cr k n.
Proof.
  induction 1 as [|bc u bc1 u1 bc' Hs Hf IH]; [done|]. intros M. apply IH.
  assert (Hnf : ~ finished u) by (intros ->; specialize (Hs 0); done).
  destruct (mid_step _ _ _ _ _ M Hnf) as (bc2 & u2 & Hs2 & M2 & _). specialize (Hs2 0). rewrite Hs in Hs2.
  injection Hs2 as <- <-. done.
Qed.

Lemma lo_of_snoc cr k n : lo_of (cr ++ [(k, n)]) = k.
Proof. unfold lo_of. rewrite fmap_app. cbn. by rewrite last_snoc. Qed.

Lemma UpdateN_total bc cr lo now n : hok bc cr lo -> in64 now -> exists bc', bc_UpdateN bc now n = Ok bc'.
Proof.
  intros H Hn. unfold bc_UpdateN. rewrite (h_int _ _ _ _ _ H), alignTimestamp_spec by done. cbn [mbind res_bind].
  destruct (h_latest _ _ _ _ _ H) as (b & Hb & _). rewrite Hb. cbn [of_option mbind res_bind].
  destruct (_ <? _).
  - unfold dq_addLast. rewrite (h_qlen _ _ _ _ _ H). cbn [mbind res_bind]. unfold heap_add.
    rewrite lookup_app_r, Nat.sub_diag by done. cbn. eauto.
  - unfold heap_add. rewrite Hb. cbn. eauto.
Qed.

Lemma hok_UpdateN bc cr now n bc' : hok bc cr (lo_of cr) -> in64 now -> bc_UpdateN bc now n = Ok bc' ->
  let k := Z.max (lo_of cr) (trunc_key (interval_seconds interval) now) in
  hok bc' (cr ++ [(k, n)]) (lo_of (cr ++ [(k, n)])).
Proof.
  intros H Hn E k. destruct (mid_start bc cr now n H Hn) as [Ha M].
  pose proof (UpdateN_finish _ _ _ _ _ (h_upd _ _ _ _ _ H) Ha E) as Hf.
  pose proof (mid_end _ _ _ _ _ _ Hf M) as (_ & _ & Hx). cbn in Hx. rewrite lo_of_snoc. done.
Qed.

Lemma hok_new now0 bc : newBucketCounterImpl interval (Z.of_nat N) now0 false = Ok bc -> hok bc [] (lo_of []).
Proof.
  unfold newBucketCounterImpl, newBucketDequeue. destruct (Z.ltb_spec (Z.of_nat N + 1) 0); [lia|].
  replace (Z.to_nat (Z.of_nat N + 1)) with (S N) by lia. cbn [mbind res_bind fst snd].
  unfold dq_peek. cbn [dq_queue dq_current seq lookup list_lookup of_option mbind res_bind]. intros E. injection E as <-.
  assert (HL : forall p b, replicate (S N) newBucket !! p = Some b -> b = newBucket).
  { intros p b Hp. by apply lookup_replicate in Hp as [-> _]. }
  constructor; cbn [bc_interval bc_updateTotalCount bc_buckets bc_heap bc_latestBucket dq_queue dq_current]; try done.
  - change (0%nat :: seq 1 N) with (seq 0 (S N)). by rewrite seq_length.
  - lia.
  - unfold qinv. cbn [bc_heap bc_buckets dq_queue]. change (newBucket :: replicate N newBucket) with (replicate (S N) newBucket).
    rewrite replicate_length. change (0%nat :: seq 1 N) with (seq 0 (S N)). apply Forall_seq. intros. lia.
  - exists newBucket. done.
  - intros p b Hp _. left. by rewrite (HL p b Hp).
  - by apply Forall_nil.
  - intros p b Hp. left. by rewrite (HL p b Hp).
  - intros p b Hp. rewrite (HL p b Hp). done.
Qed.
End rest.
