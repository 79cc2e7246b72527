From Verif.Go Require Import GoInt GoFloat.
From Verif.Model Require Import Counter BucketQueue BucketCounter BucketReservoir.
From Verif.Spec Require Import BucketSpec CounterSpec BucketReservoirSpec.
From Verif.Proofs Require Import BucketAbs BucketHist BucketMain BucketProps.
Local Open Scope Z_scope.

Definition count_ops (evs : list br_event) : list (Z * bc_op) := (fun e => (be_countTime e, BUpdate)) <$> evs.
Definition value_ops (evs : list br_event) : list (Z * bc_op) := (fun e => (be_valueTime e, BUpdateN (be_value e))) <$> evs.

Lemma br_run_split evs : forall c v i c' v',
  bc_run c (count_ops evs) = Ok c' -> bc_run v (value_ops evs) = Ok v' ->
  run_ops br_step (c, BucketReservoir v i) evs = Ok (c', BucketReservoir v' i).
Proof.
  induction evs as [|e evs IH]; intros c v i c' v' H1 H2.
  - cbn in *. by injection H1 as <-; injection H2 as <-.
  - unfold bc_run in *. cbn [count_ops value_ops fmap list_fmap run_ops] in *. unfold bc_step at 1 in H1. unfold bc_step at 1 in H2.
    cbn [fst snd] in H1, H2. unfold br_step at 1, br_UpdateN. cbn [fst snd br_valuePerBucket br_interval].
    destruct (bc_UpdateN c (be_countTime e) 1) as [c1|]; [|done].
    destruct (bc_UpdateN v (be_valueTime e) (be_value e)) as [v1|]; [|done]. cbn [mbind res_bind]. by apply IH.
Qed.

Lemma br_exec_split interval N now0 now1 evs c v :
  bc_exec interval N now0 true (count_ops evs) = Ok c -> bc_exec interval N now1 true (value_ops evs) = Ok v ->
  br_exec interval N now0 now1 evs = Ok (c, BucketReservoir v interval).
Proof.
  unfold bc_exec, br_exec, NewBucketReservoir. intros H1 H2.
  destruct (newBucketCounterImpl interval N now0 true) as [c0|]; [|done].
  destruct (newBucketCounterImpl interval N now1 true) as [v0|]; [|done]. cbn [mbind res_bind] in *.
  by apply br_run_split.
Qed.

Lemma br_align b now : Second <= br_interval b -> in64 (br_interval b) -> 1000 <= now -> in64 now ->
  let I := br_interval b / Second in
  br_alignToBucketStartTimeInMs b now = Ok (Z.max 0 (bucket_key I now - 1000 * I)).
Proof.
  intros H1 H2 H3 H4. cbv zeta. unfold br_alignToBucketStartTimeInMs. rewrite interval_seconds_div by done.
  set (I := br_interval b / Second).
  assert (1 <= I <= 9223372037) as HI.
  { unfold I, Second in *. unfold in64, two63 in H2. split; [apply Z.div_le_lower_bound; lia|]. apply Z.div_le_upper_bound; lia. }
  unfold go_div, secondToMsRate. cbn [Z.eqb]. cbn [mbind res_bind]. rewrite (Z.quot_div_nonneg now 1000) by lia.
  unfold in64, two63 in H4.
  assert (1 <= now / 1000) by (apply Z.div_le_lower_bound; lia).
  assert (now / 1000 <= 9223372036854776) by (apply Z.div_le_upper_bound; lia).
  rewrite (wrap64_id (now / 1000)) by (unfold in64, two63; lia).
  rewrite (wrap64_id (now / 1000 - I)) by (unfold in64, two63; lia).
  destruct (Z.eqb_spec I 0); [lia|]. f_equal.
  assert (bucket_key I now = 1000 * I * (now / 1000 / I)) as Ek.
  { unfold bucket_key. rewrite Z.div_div by lia. done. }
  rewrite Ek. set (s := now / 1000) in *.
  pose proof (Z.div_mod s I ltac:(lia)) as D. pose proof (Z.mod_pos_bound s I ltac:(lia)) as M.
  destruct (Z_lt_ge_dec s I) as [C|C].
  - rewrite (Z.div_small s I) by lia.
    assert (Z.quot (s - I) I = 0) as -> by (apply Z.quot_small_iff; lia).
    cbn [mbind res_bind]. f_equal. change (wrap64 0) with 0. rewrite Z.mul_0_l. change (wrap64 (wrap64 0 * 1000)) with 0. change (wrap64 0) with 0. lia.
  - assert (Z.quot (s - I) I = s / I - 1) as ->.
    { rewrite Z.quot_div_nonneg by lia. replace (s - I) with (s + (-1) * I) by lia. rewrite Z.div_add by lia. lia. }
    assert (0 <= s / I) by (apply Z.div_pos; lia). assert (1 <= s / I) by (apply Z.div_le_lower_bound; lia).
    rewrite (wrap64_id (s / I - 1)) by (unfold in64, two63; nia).
    cbn [mbind res_bind]. f_equal.
    rewrite (wrap64_id ((s / I - 1) * I)) by (unfold in64, two63; nia).
    assert (0 <= (s / I - 1) * I <= s) by nia. rewrite wrap64_id by (unfold in64, two63; lia). lia.
Qed.

(** The two intervals a snapshot can see. *)
Lemma since_two interval N now0 ops now now' :
  Second <= interval -> in64 interval -> 2 <= N -> nondecreasing 0 ops.*1 now -> 1000 <= now <= now' -> in64 now' ->
  let I := interval / Second in
  let cur := bucket_key I now in
  let cr := by_time I (bc_hist ops) in
  exists c m, bc_exec interval N now0 true ops = Ok c /\
    bc_GetBucketCountsSince c now' (Z.max 0 (cur - 1000 * I)) = Ok m /\
    forall k, m !! k = if decide ((k = cur \/ k = cur - 1000 * I) /\ k ∈ cr.*1)
                       then Some (wrap64 (sum_at k cr)) else None.
Proof.
  intros H1 H2 HN Hnd Hnow H4. cbv zeta. set (I := interval / Second).
  assert (1 <= I) as HI by (unfold I, Second in *; apply Z.div_le_lower_bound; lia).
  destruct (nondecreasing_le _ _ _ Hnd) as [_ HF].
  assert (Forall (fun t => 0 <= t) ops.*1) as HF0.
  { clear -Hnd. revert Hnd. generalize 0 as lo, (ops.*1) as ts. intros lo ts. revert lo.
    assert (forall lo ts, nondecreasing lo ts now -> Forall (fun t => lo <= t) ts) as H.
    { intros lo ts'. revert lo. induction ts' as [|t ts' IH]; intros lo Hn; constructor; cbn in Hn; [lia|].
      eapply Forall_impl; [apply IH, Hn|]. cbv beta. lia. }
    intros lo Hn. by apply H. }
  assert (Forall (fun o : Z * bc_op => in64 o.1) ops) as H3.
  { rewrite Forall_forall in HF, HF0. apply Forall_forall. intros o Ho.
    specialize (HF o.1 ltac:(by apply elem_of_list_fmap_1)). specialize (HF0 o.1 ltac:(by apply elem_of_list_fmap_1)).
    unfold in64, two63 in *. lia. }
  set (cur := bucket_key I now).
  destruct (exec_since interval N now0 true ops now' (Z.max 0 (cur - 1000 * I)) H1 H2 ltac:(lia) H3 H4 ltac:(lia)) as (c & m & E & Em & Hm).
  exists c, m. do 2 (split; [done|]). intros k. rewrite Hm. fold I.
  assert ((bc_hist ops).*1 = ops.*1) as Eh.
  { unfold bc_hist. rewrite <- list_fmap_compose. done. }
  rewrite (by_latest_monotone I (bc_hist ops) HI (-1000) 0 now) by (try (rewrite Eh; done); try (unfold bucket_key; rewrite Z.div_0_l by lia); lia).
  set (cr := by_time I (bc_hist ops)).
  rewrite bucket_key_trunc by lia. fold cur.
  assert (cur <= bucket_key I now') as Hmono by (apply bucket_key_mono; lia).
  assert (forall x, x ∈ cr.*1 -> 0 <= x <= cur /\ exists q, x = 1000 * I * q) as Hcr.
  { intros x Hx. unfold cr, by_time in Hx. rewrite <- list_fmap_compose in Hx.
    apply elem_of_list_fmap in Hx as (u & -> & Hu). cbn.
    assert (u.1 ∈ ops.*1) as Hu1 by (rewrite <- Eh; by apply elem_of_list_fmap_1).
    rewrite Forall_forall in HF, HF0. specialize (HF _ Hu1). specialize (HF0 _ Hu1).
    split; [split|].
    - unfold bucket_key. assert (0 <= u.1 / (1000 * I)) by (apply Z.div_pos; lia). nia.
    - by apply bucket_key_mono.
    - unfold bucket_key. by eexists. }
  unfold recent_sum.
  assert (forall x, x ∈ cr.*1 -> cur - 1000 * I <= x -> x = cur \/ x = cur - 1000 * I) as Htwo.
  { intros x Hx Hge. destruct (Hcr x Hx) as [[_ Hle] (q & Eq)]. unfold cur, bucket_key in *.
    set (q0 := now / (1000 * I)) in *. assert (q = q0 \/ q = q0 - 1) as [-> | ->] by nia; [left|right]; lia. }
  destruct (decide (k ∈ cr.*1)) as [Hk|Hk].
  - destruct (Hcr k Hk) as [[Hk0 Hkc] _].
    destruct (decide (cur - 1000 * I <= k)) as [C|C].
    + rewrite decide_True by lia. pose proof (Htwo k Hk C) as Hc.
      rewrite decide_True.
      2:{ split; [done|]. unfold newer_keys.
          assert (size (list_to_set (filter (fun x => (k < x)%Z) cr.*1) : gset Z) <= size ({[cur]} : gset Z))%nat as Hsz.
          { apply subseteq_size. intros x Hx. apply elem_of_list_to_set, elem_of_list_filter in Hx as [Hx1 Hx2].
            apply elem_of_singleton. destruct (Htwo x Hx2 ltac:(lia)) as [?| ?]; [done|lia]. }
          rewrite size_singleton in Hsz. lia. }
      rewrite decide_True; [done|]. done.
    + rewrite decide_False by lia. rewrite decide_False; [done|]. intros [[?|?] _]; lia.
  - rewrite (decide_False (P := (k = cur ∨ k = cur - 1000 * I) ∧ k ∈ cr.*1)) by (intros [_ ?]; done).
    destruct (decide _); [|done]. rewrite decide_False; [done|]. intros [? _]; done.
Qed.

Lemma sum_at_counts I k evs : sum_at k (by_time I (bc_hist (count_ops evs))) = counted_in I k evs.
Proof.
  unfold sum_at, by_time, bc_hist, count_ops, counted_in. induction evs as [|e evs IH]; [done|].
  rewrite !fmap_cons, !filter_cons. cbn [fst snd bc_delta]. destruct (decide (bucket_key I (be_countTime e) = k)).
  - rewrite fmap_cons. cbn [sumZ foldr snd length]. unfold sumZ in IH. rewrite IH. lia.
  - exact IH.
Qed.
Lemma sum_at_values I k evs : sum_at k (by_time I (bc_hist (value_ops evs))) = sumZ (values_in I k evs).
Proof.
  unfold sum_at, by_time, bc_hist, value_ops, values_in. induction evs as [|e evs IH]; [done|].
  rewrite !fmap_cons, !filter_cons. cbn [fst snd bc_delta]. destruct (decide (bucket_key I (be_valueTime e) = k)).
  - rewrite !fmap_cons. cbn [sumZ foldr snd]. unfold sumZ in IH. rewrite IH. done.
  - exact IH.
Qed.
Lemma keys_counts I k evs : k ∈ (by_time I (bc_hist (count_ops evs))).*1 <-> counted_in I k evs <> 0.
Proof.
  unfold counted_in, by_time, bc_hist, count_ops. induction evs as [|e evs IH].
  - cbn. rewrite elem_of_nil. lia.
  - rewrite !fmap_cons, filter_cons, elem_of_cons. cbn [fst snd]. destruct (decide (bucket_key I (be_countTime e) = k)) as [->|N].
    + cbn [length]. split; [lia|by left].
    + rewrite <- IH. split; [intros [?|?]; [congruence|done]|by right].
Qed.
Lemma keys_values I k evs : k ∈ (by_time I (bc_hist (value_ops evs))).*1 <-> values_in I k evs <> [].
Proof.
  unfold values_in, by_time, bc_hist, value_ops. induction evs as [|e evs IH].
  - cbn. rewrite elem_of_nil. done.
  - rewrite !fmap_cons, filter_cons, elem_of_cons. cbn [fst snd]. destruct (decide (bucket_key I (be_valueTime e) = k)) as [->|N].
    + rewrite fmap_cons. split; [done|by left].
    + rewrite <- IH. split; [intros [?|?]; [congruence|done]|by right].
Qed.

(** Every snapshot pairs the value sum of one of the two intervals with the count
    of one of the two intervals. *)
Lemma br_snapshot interval N now0 now1 evs t1 t2 t3 :
  Second <= interval -> in64 interval -> 2 <= N -> 1000 <= t1 <= t2 -> t1 <= t3 -> in64 t2 -> in64 t3 ->
  nondecreasing 0 (be_countTime <$> evs) t1 -> nondecreasing 0 (be_valueTime <$> evs) t1 ->
  let I := interval / Second in
  let cur := bucket_key I t1 in
  let prev := cur - 1000 * I in
  exists c b, br_exec interval N now0 now1 evs = Ok (c, b) /\ (exists s, br_GetSnapshot b c t1 t2 t3 s) /\
    forall s, br_GetSnapshot b c t1 t2 t3 s ->
      (exists k, (k = cur \/ k = prev) /\ bs_value s = wrap64 (sumZ (values_in I k evs)) /\
         (values_in I k evs = [] -> values_in I cur evs = [] /\ values_in I prev evs = [])) /\
      (exists k, (k = cur \/ k = prev) /\ bs_count s = wrap64 (counted_in I k evs) /\
         (counted_in I k evs = 0 -> counted_in I cur evs = 0 /\ counted_in I prev evs = 0)).
Proof.
  intros H1 H2 HN Ht12 Ht13 I2 I3 Nc Nv. cbv zeta. set (I := interval / Second). set (cur := bucket_key I t1).
  assert ((count_ops evs).*1 = be_countTime <$> evs) as Ec by (unfold count_ops; by rewrite <- list_fmap_compose).
  assert ((value_ops evs).*1 = be_valueTime <$> evs) as Ev by (unfold value_ops; by rewrite <- list_fmap_compose).
  destruct (since_two interval N now0 (count_ops evs) t1 t3 H1 H2 HN ltac:(by rewrite Ec) ltac:(lia) I3) as (c & mc & E1 & M1 & K1).
  destruct (since_two interval N now1 (value_ops evs) t1 t2 H1 H2 HN ltac:(by rewrite Ev) ltac:(lia) I2) as (v & mv & E2 & M2 & K2).
  fold I in M1, K1, M2, K2. fold cur in M1, K1, M2, K2.
  exists c, (BucketReservoir v interval). split; [by apply br_exec_split|].
  assert (br_alignToBucketStartTimeInMs (BucketReservoir v interval) t1 = Ok (Z.max 0 (cur - 1000 * I))) as Ea.
  { apply (br_align (BucketReservoir v interval) t1 H1 H2); [lia|]. unfold in64, two63 in *. lia. }
  assert (forall m : gmap Z Z, exists x, fetchValueFromMap m x) as Hex.
  { intros m. destruct (decide (m = ∅)) as [->|N0]; [exists 0; by left|].
    apply map_choose in N0 as (k & x & Hx). exists x. right. by exists k. }
  split.
  { destruct (Hex mv) as [x Hx]. destruct (Hex mc) as [y Hy]. eexists. unfold br_GetSnapshot. cbn [br_valuePerBucket].
    exists (Z.max 0 (cur - 1000 * I)), mv, x, mc, y. split_and!; done. }
  intros s (st & vr & x & cnt & y & A1 & A2 & A3 & A4 & A5 & ->). cbn [br_valuePerBucket] in A2.
  rewrite Ea in A1. injection A1 as <-. rewrite M2 in A2. injection A2 as <-. rewrite M1 in A4. injection A4 as <-.
  cbn [NewBucketSnapshot bs_value bs_count]. split.
  - destruct A3 as [[Em ->]|[k Hk]].
    + assert (forall k, k = cur \/ k = cur - 1000 * I -> values_in I k evs = []) as Hno.
      { intros k Hk. pose proof (K2 k) as K. rewrite Em, lookup_empty in K.
        destruct (decide (values_in I k evs = [])) as [?|Nk]; [done|].
        rewrite decide_True in K; [done|]. split; [done|by apply keys_values]. }
      exists cur. split; [by left|]. split; [by rewrite (Hno cur) by (by left)|]. intros _. split; apply Hno; auto.
    + rewrite K2 in Hk. destruct (decide _) as [[Hk1 Hk2]|]; [|done]. injection Hk as <-. exists k. split; [done|].
      rewrite sum_at_values. split; [done|]. intros En. by apply keys_values in Hk2.
  - destruct A5 as [[Em ->]|[k Hk]].
    + assert (forall k, k = cur \/ k = cur - 1000 * I -> counted_in I k evs = 0) as Hno.
      { intros k Hk. pose proof (K1 k) as K. rewrite Em, lookup_empty in K.
        destruct (decide (counted_in I k evs = 0)) as [?|Nk]; [done|].
        rewrite decide_True in K; [done|]. split; [done|by apply keys_counts]. }
      exists cur. split; [by left|]. split; [by rewrite (Hno cur) by (by left)|]. intros _. split; apply Hno; auto.
    + rewrite K1 in Hk. destruct (decide _) as [[Hk1 Hk2]|]; [|done]. injection Hk as <-. exists k. split; [done|].
      rewrite sum_at_counts. split; [done|]. intros En. by apply keys_counts in Hk2.
Qed.
