(** The property-level lemmas about the sequential counters. *)
From Verif.Go Require Import GoInt.
From Verif.Model Require Import Counter BucketQueue BucketCounter.
From Verif.Spec Require Import BucketSpec CounterSpec.
From Verif.Proofs Require Import BucketAbs BucketHist.
Local Open Scope Z_scope.

(** ** Plain counter *)

Lemma counter_run_sum ops : forall c,
  in64 (c_count c) ->
  counter_GetCount (counter_run c ops) = wrap64 (c_count c + sumZ (counter_delta <$> ops)).
Proof.
  induction ops as [|o ops IH]; intros c Hc.
  - cbn. rewrite Z.add_0_r, wrap64_id by done. reflexivity.
  - change (counter_run c (o :: ops)) with (counter_run (counter_step c o) ops).
    rewrite IH.
    2:{ destruct o; apply wrap64_range. }
    rewrite fmap_cons, sumZ_cons.
    destruct o; cbn [counter_step counter_delta counter_Inc counter_IncN counter_Dec counter_DecN c_count];
      rewrite ?wrap64_add_r, wrap64_add_l; f_equal; lia.
Qed.

Lemma counter_value ops :
  counter_GetCount (counter_run newCounter ops) = wrap64 (sumZ (counter_delta <$> ops)).
Proof. rewrite counter_run_sum; [reflexivity|]. unfold in64, two63; cbn; lia. Qed.

(** ** Amounts are only relevant modulo 2^64 *)

Definition cong64 (x y : Z) : Prop := wrap64 x = wrap64 y.

Lemma sumZ_cong l1 l2 : Forall2 cong64 l1 l2 -> cong64 (sumZ l1) (sumZ l2).
Proof.
  unfold cong64. induction 1 as [|x y l1 l2 Hxy F IH]; [reflexivity|].
  rewrite !sumZ_cons. rewrite <- wrap64_add_l, Hxy, wrap64_add_l.
  rewrite <- wrap64_add_r, IH, wrap64_add_r. reflexivity.
Qed.

Lemma op_amount_delta o : cong64 (op_amount o) (bc_delta o).
Proof. destruct o; try reflexivity. apply wrap64_wrap64. Qed.

Definition hrel (h1 h2 : list (Z * Z)) : Prop :=
  Forall2 (fun a b => a.1 = b.1 /\ cong64 a.2 b.2) h1 h2.

Lemma hist_rel ops : hrel (hist_of ops) (bc_hist ops).
Proof.
  unfold hrel, hist_of, bc_hist. induction ops as [|o ops IH]; cbn; constructor; [|exact IH].
  cbn. split; [done|]. apply op_amount_delta.
Qed.

Lemma hrel_fst h1 h2 : hrel h1 h2 -> h1.*1 = h2.*1.
Proof. induction 1 as [|? ? ? ? [H _] _ IH]; [done|]. cbn. by rewrite H, IH. Qed.

Lemma hrel_snd h1 h2 : hrel h1 h2 -> Forall2 cong64 h1.*2 h2.*2.
Proof. induction 1 as [|? ? ? ? [_ H] _ IH]; cbn; by constructor. Qed.

Lemma hrel_by_latest I h1 h2 : hrel h1 h2 -> forall lo, hrel (by_latest lo I h1) (by_latest lo I h2).
Proof.
  induction 1 as [|[t n] [t' n'] ? ? [H1 H2] _ IH]; intros lo; cbn in *; [constructor|].
  subst t'. constructor; [done|]. apply IH.
Qed.

Lemma hrel_sum_at h1 h2 k : hrel h1 h2 -> cong64 (sum_at k h1) (sum_at k h2).
Proof.
  intros H. unfold sum_at. apply sumZ_cong.
  induction H as [|a b ? ? [H1 H2] _ IH]; [constructor|].
  rewrite !filter_cons. rewrite H1. destruct (decide (b.1 = k)); [|exact IH].
  cbn. constructor; [done|exact IH].
Qed.

Lemma hrel_recent_sum N h1 h2 k : hrel h1 h2 -> recent_sum N h1 k = recent_sum N h2 k.
Proof.
  intros H. unfold recent_sum, newer_keys. rewrite (hrel_fst _ _ H).
  destruct (decide _); [|done]. f_equal. by apply hrel_sum_at.
Qed.

(** ** Executions *)

Lemma exec_state interval N now0 upd ops :
  Second <= interval -> in64 interval -> 0 <= N -> Forall (fun o => in64 o.1) ops ->
  let I := interval_seconds interval in
  exists c, bc_exec interval N now0 upd ops = Ok c /\
    bc_interval c = interval /\ bc_initTimestamp c = now0 /\
    bc_GetCount c = (if upd then wrap64 (sumZ (bc_hist ops).*2) else 0) /\
    exists l lo C Z0, repr (Z.to_nat N) c (take (S (Z.to_nat N)) l) /\
      hinv (S (Z.to_nat N)) l (by_latest (-1000) I (hist_of ops)) lo C Z0.
Proof.
  intros H1 H2 H3 H4 I.
  destruct (bc_history interval N now0 upd ops H1 H2 H3 H4) as (c & E & A & B & _ & D & F).
  exists c. do 3 (split; [done|]). split; [|exact F].
  unfold bc_GetCount, counter_GetCount. rewrite D. destruct upd; [|done].
  apply sumZ_cong, hrel_snd, hist_rel.
Qed.

Lemma exec_total interval N now0 upd ops :
  Second <= interval -> in64 interval -> 0 <= N -> Forall (fun o => in64 o.1) ops ->
  exists c, bc_exec interval N now0 upd ops = Ok c /\
    bc_GetCount c = (if upd then wrap64 (sumZ (bc_delta <$> ops.*2)) else 0).
Proof.
  intros H1 H2 H3 H4. destruct (exec_state interval N now0 upd ops H1 H2 H3 H4) as (c & E & _ & _ & D & _).
  exists c. split; [done|]. rewrite D. unfold bc_hist. by rewrite <- !list_fmap_compose.
Qed.

Lemma interval_seconds_div d : Second <= d -> interval_seconds d = d / Second.
Proof. intros H. unfold interval_seconds, Second in *. by rewrite Z.quot_div_nonneg by lia. Qed.

(** Any start time > -1000, any clock. *)
Lemma exec_since interval N now0 upd ops now start :
  Second <= interval -> in64 interval -> 0 <= N -> Forall (fun o => in64 o.1) ops ->
  in64 now -> -1000 < start ->
  exists c m, bc_exec interval N now0 upd ops = Ok c /\ bc_GetBucketCountsSince c now start = Ok m /\
    forall k, m !! k =
      if decide (start <= k /\ k <= trunc_key (interval / Second) now)
      then recent_sum (Z.to_nat N) (by_latest (-1000) (interval / Second) (bc_hist ops)) k else None.
Proof.
  intros H1 H2 H3 H4 H5 H6. rewrite <- interval_seconds_div by done.
  destruct (exec_state interval N now0 upd ops H1 H2 H3 H4) as (c & E & Ei & _ & _ & l & lo & C & Z0 & R & Hh).
  pose proof (interval_seconds_pos _ H1 H2) as HI.
  destruct (bucket_counts_since _ _ _ _ _ _ _ now start R Hh ltac:(by rewrite Ei) H5 H6) as (m & Hm & _ & Hk).
  exists c, m. do 2 (split; [done|]). intros k. rewrite Hk, Ei.
  destruct (decide _); [|done]. apply hrel_recent_sum, hrel_by_latest, hist_rel.
Qed.

(** No restriction on the start time. *)
Lemma exec_since_size interval N now0 upd ops now start :
  Second <= interval -> in64 interval -> 0 <= N -> Forall (fun o => in64 o.1) ops -> in64 now ->
  exists c m, bc_exec interval N now0 upd ops = Ok c /\ bc_GetBucketCountsSince c now start = Ok m /\
    (Z.of_nat (size m) <= N) /\
    forall k v, m !! k = Some v -> k = -1000 \/ k ∈ (by_latest (-1000) (interval / Second) (bc_hist ops)).*1.
Proof.
  intros H1 H2 H3 H4 H5.
  destruct (exec_state interval N now0 upd ops H1 H2 H3 H4) as (c & E & Ei & _ & _ & l & lo & C & Z0 & R & H).
  pose proof (interval_seconds_pos _ H1 H2) as HI.
  exists c. unfold bc_GetBucketCountsSince. rewrite alignTimestamp_spec by (rewrite ?Ei; done).
  cbn [mbind res_bind]. rewrite (getBucketList_spec _ _ _ R). cbn [mbind res_bind].
  assert (Htake : take (Z.to_nat N) (take (S (Z.to_nat N)) l) = take (Z.to_nat N) l) by (rewrite take_take; f_equal; lia).
  pose proof (Forall2_take _ _ _ (Z.to_nat N) (r_ptrs _ _ _ R)) as F. rewrite Htake in F.
  assert (Hin64 : Forall (fun b => in64 (key b)) (take (Z.to_nat N) l)).
  { rewrite (h_split _ _ _ _ _ _ H). apply Forall_take, Forall_app. split.
    - eapply Forall_impl; [apply (h_pos _ _ _ _ _ _ H)|]. cbn; tauto.
    - eapply Forall_impl; [apply (h_init _ _ _ _ _ _ H)|]. cbn. intros b Hb. unfold key. rewrite Hb.
      unfold in64, two63. lia. }
  rewrite (gbc_loop_fold _ _ _ _ _ _ F Hin64).
  eexists. do 2 (split; [first [done|reflexivity]|]). split.
  { pose proof (fold_insert_size (sec_of (interval_seconds (bc_interval c)) now) start (take (Z.to_nat N) l)) as Hs.
    rewrite take_length in Hs. unfold sec_of in Hs. lia. }
  intros k v Hk.
  assert (Hex : exists b, b ∈ take (Z.to_nat N) l /\ key b = k).
  { clear -Hk. revert Hk. generalize (take (Z.to_nat N) l) as bs. intros bs.
    induction bs as [|b bs IH] using rev_ind; cbn; [by rewrite lookup_empty|].
    rewrite foldl_app. cbn. case_match.
    - intros Hk. destruct (decide (key b = k)) as [<-|Hne].
      + exists b. split; [|done]. apply elem_of_app. right. by apply elem_of_list_singleton.
      + rewrite lookup_insert_ne in Hk by done. destruct (IH Hk) as (b' & ? & ?).
        exists b'. split; [|done]. apply elem_of_app. by left.
    - intros Hk. destruct (IH Hk) as (b' & ? & ?).
      exists b'. split; [|done]. apply elem_of_app. by left. }
  destruct Hex as (b & Hb & <-).
  apply elem_of_take in Hb as (i & Hi & _). rewrite (h_split _ _ _ _ _ _ H) in Hi.
  apply lookup_app_Some in Hi as [Hi|[_ Hi]].
  - right. pose proof (h_sum _ _ _ _ _ _ H) as Hsum. rewrite Forall_forall in Hsum.
    destruct (Hsum b) as [Hkin _]; [eapply elem_of_list_lookup_2; eauto|].
    rewrite <- interval_seconds_div by done.
    by rewrite (hrel_fst _ _ (hrel_by_latest _ _ _ (hist_rel ops) _)) in Hkin.
  - left. pose proof (h_init _ _ _ _ _ _ H) as Hini. rewrite Forall_forall in Hini.
    assert (bk_ts b = -1) by (apply Hini; eapply elem_of_list_lookup_2; eauto). unfold key. lia.
Qed.

Lemma by_latest_key lo I hist k :
  k ∈ (by_latest lo I hist).*1 -> k = lo \/ exists t n, (t, n) ∈ hist /\ k = trunc_key I t.
Proof.
  revert lo. induction hist as [|[t n] hist IH]; intros lo Hk; cbn in Hk; [by apply elem_of_nil in Hk|].
  apply elem_of_cons in Hk as [->|Hk].
  - destruct (Z.max_spec lo (trunc_key I t)) as [[? ->]|[? ->]]; [|by left].
    right. exists t, n. split; [left|done].
  - apply IH in Hk as [->|(t' & n' & Hin & ->)].
    + destruct (Z.max_spec lo (trunc_key I t)) as [[? ->]|[? ->]]; [|by left].
      right. exists t, n. split; [left|done].
    + right. exists t', n'. split; [by right|done].
Qed.

Lemma by_latest_ge lo I hist k : k ∈ (by_latest lo I hist).*1 -> lo <= k.
Proof.
  revert lo. induction hist as [|[t n] hist IH]; intros lo Hk; cbn in Hk; [by apply elem_of_nil in Hk|].
  apply elem_of_cons in Hk as [->|Hk]; [lia|]. apply IH in Hk. lia.
Qed.

Lemma by_latest_sorted lo I hist : StronglySorted Z.le (by_latest lo I hist).*1.
Proof.
  revert lo. induction hist as [|[t n] hist IH]; intros lo; cbn; constructor; [apply IH|].
  rewrite Forall_forall. intros k Hk. by apply by_latest_ge in Hk.
Qed.

Lemma in_hist t n ops : (t, n) ∈ bc_hist ops -> exists o, (t, o) ∈ ops.
Proof.
  unfold bc_hist. intros H. apply elem_of_list_fmap in H as ([t' o] & [= -> _] & H). eauto.
Qed.

(** Non-decreasing clock *)
Lemma exec_counts_monotone interval N now0 upd ops now :
  Second <= interval -> in64 interval -> 0 <= N ->
  nondecreasing 0 ops.*1 now -> in64 now ->
  exists c m, bc_exec interval N now0 upd ops = Ok c /\ bc_GetBucketCounts c now = Ok m /\
    forall k, m !! k = recent_sum (Z.to_nat N) (by_time (interval / Second) (bc_hist ops)) k.
Proof.
  intros H1 H2 H3 Hnd Hnow.
  assert (HI : 1 <= interval / Second).
  { rewrite <- interval_seconds_div by done. by apply interval_seconds_pos. }
  assert (Hb : Forall (fun t => 0 <= t <= now) ops.*1).
  { clear -Hnd. revert Hnd. generalize 0 as t0. induction (ops.*1) as [|t ts IH]; intros t0 H; [constructor|].
    cbn in H. destruct H as [H1 H2]. pose proof (nondecreasing_le _ _ _ H2) as [? ?].
    constructor; [lia|]. eapply Forall_impl; [apply (IH _ H2)|]. cbn. lia. }
  assert (Ht : Forall (fun o => in64 o.1) ops).
  { apply Forall_fmap in Hb. eapply Forall_impl; [exact Hb|]. cbn. unfold in64, two63 in *. lia. }
  destruct (exec_since interval N now0 upd ops now 0 H1 H2 H3 Ht Hnow ltac:(lia)) as (c & m & E & Em & Hm).
  exists c, m. split; [done|]. split; [done|]. intros k. rewrite Hm.
  assert (Hh : nondecreasing 0 (bc_hist ops).*1 now).
  { unfold bc_hist. rewrite <- list_fmap_compose. exact Hnd. }
  rewrite (by_latest_monotone (interval / Second) (bc_hist ops) HI (-1000) 0 now) by
    (try done; unfold bucket_key; rewrite ?Z.div_0_l; lia).
  destruct (decide _) as [|Hn]; [done|]. unfold recent_sum. rewrite decide_False; [done|].
  intros [Hk _]. apply Hn. unfold by_time in Hk. rewrite <- list_fmap_compose in Hk.
  apply elem_of_list_fmap in Hk as (u & -> & Hu). unfold bc_hist in Hu.
  apply elem_of_list_fmap in Hu as (o & -> & Ho). cbn.
  rewrite Forall_fmap, Forall_forall in Hb. specialize (Hb _ Ho). cbn in Hb.
  rewrite bucket_key_trunc by (try done; destruct Hb; lia). split.
  - pose proof (bucket_key_mono (interval / Second) 0 o.1 HI ltac:(lia)). unfold bucket_key in * .
    rewrite Z.div_0_l in H; lia.
  - apply bucket_key_mono; lia.
Qed.

Lemma exec_filter interval N now0 upd ops now start :
  Second <= interval -> in64 interval -> 0 <= N -> Forall (fun o => in64 o.1) ops ->
  in64 now -> 0 <= start ->
  exists c m, bc_exec interval N now0 upd ops = Ok c /\ bc_GetBucketCounts c now = Ok m /\
    bc_GetBucketCountsSince c now start = Ok (filter (fun kv => start <= kv.1) m).
Proof.
  intros H1 H2 H3 H4 H5 H6.
  destruct (exec_since interval N now0 upd ops now 0 H1 H2 H3 H4 H5 ltac:(lia)) as (c & m & E & Em & Hm).
  destruct (exec_since interval N now0 upd ops now start H1 H2 H3 H4 H5 ltac:(lia)) as (c' & m' & E' & Em' & Hm').
  rewrite E in E'. injection E' as <-.
  exists c, m. do 2 (split; [done|]). rewrite Em'. f_equal. apply map_eq. intros k.
  rewrite Hm'. apply option_eq. intros v. rewrite map_filter_lookup_Some. rewrite Hm. cbn.
  repeat destruct (decide _); try (exfalso; lia); try tauto; intuition congruence.
Qed.

(** The latest bucket. *)
Lemma by_latest_snoc lo I hist t n :
  by_latest lo I (hist ++ [(t, n)]) =
  by_latest lo I hist ++ [(Z.max (default lo (last (by_latest lo I hist).*1)) (trunc_key I t), n)].
Proof.
  revert lo. induction hist as [|[t' n'] hist IH]; intros lo; [reflexivity|].
  cbn [app by_latest]. rewrite IH. cbn [fmap list_fmap fst]. rewrite last_cons.
  destruct (last (by_latest (lo `max` trunc_key I t') I hist).*1); reflexivity.
Qed.

Lemma hinv_lo M I hist l C Z0 lo :
  hinv M l (by_latest (-1000) I hist) lo C Z0 -> (0 < M)%nat ->
  lo = default (-1000) (last (by_latest (-1000) I hist).*1).
Proof.
  intros H HM. pose proof (h_head _ _ _ _ _ _ H) as Hh.
  rewrite (h_split _ _ _ _ _ _ H) in Hh.
  destruct C as [|b C].
  - (* no bucket yet: every credited key is -1000 *)
    destruct Z0 as [|z Z0]; [discriminate|]. cbn in Hh. injection Hh as Hlo.
    pose proof (h_init _ _ _ _ _ _ H) as Hi. inversion Hi as [|? ? Hz _]; subst.
    unfold key. rewrite Hz.
    destruct (last (by_latest (-1000) I hist).*1) as [k|] eqn:E; [|reflexivity].
    cbn. apply last_Some in E as [l' E].
    assert (Hk : k ∈ (by_latest (-1000) I hist).*1) by (rewrite E; apply elem_of_app; right; left).
    destruct (h_cov _ _ _ _ _ _ H k Hk) as [->|(c & Hc & _)]; [lia|by apply elem_of_nil in Hc].
  - cbn in Hh. injection Hh as Hlo.
    pose proof (h_sum _ _ _ _ _ _ H) as Hsum. rewrite Forall_forall in Hsum.
    destruct (Hsum b) as [Hkin _]; [left|]. rewrite Hlo in Hkin.
    pose proof (by_latest_sorted (-1000) I hist) as Hs.
    destruct (last (by_latest (-1000) I hist).*1) as [k|] eqn:E.
    2:{ apply last_None in E. rewrite E in Hkin. by apply elem_of_nil in Hkin. }
    cbn. apply last_Some in E as [l' E].
    assert (Hk : k ∈ (by_latest (-1000) I hist).*1) by (rewrite E; apply elem_of_app; right; left).
    assert (Hle : lo <= k).
    { rewrite E in Hs, Hkin. apply elem_of_app in Hkin as [Hin|Hin].
      - eapply elem_of_StronglySorted_app; [exact Hs|exact Hin|left].
      - apply elem_of_list_singleton in Hin. lia. }
    assert (k <= lo); [|lia].
    destruct (h_cov _ _ _ _ _ _ H k Hk) as [->|(c & Hc & <-)].
    { pose proof (h_pos _ _ _ _ _ _ H) as Hp. rewrite Forall_forall in Hp.
      destruct (Hp b) as [Hb _]; [left|]. rewrite <- Hlo. unfold key. lia. }
    pose proof (h_sorted _ _ _ _ _ _ H) as Hsrt. inversion Hsrt as [|? ? _ Hf]; subst.
    apply elem_of_cons in Hc as [->|Hc]; [lia|]. rewrite Forall_forall in Hf. specialize (Hf _ Hc). cbn in Hf.
    unfold key. lia.
Qed.

Lemma exec_LastUpdateTime interval N now0 upd ops :
  Second <= interval -> in64 interval -> 0 <= N -> Forall (fun o => in64 o.1) ops ->
  exists c, bc_exec interval N now0 upd ops = Ok c /\
    bc_LastUpdateTime c =
      Ok (match last (by_latest (-1000) (interval / Second) (bc_hist ops)).*1 with
          | Some k => if decide (0 < k) then k / 1000 else now0
          | None => now0
          end).
Proof.
  intros H1 H2 H3 H4.
  destruct (exec_state interval N now0 upd ops H1 H2 H3 H4) as (c & E & Ei & Eini & _ & l & lo & C & Z0 & R & H).
  exists c. split; [done|]. unfold bc_LastUpdateTime.
  destruct (repr_cons _ _ _ R) as (b & l' & El & Hb & _). rewrite Hb. cbn [mbind res_bind of_option].
  pose proof (h_head _ _ _ _ _ _ H) as Hh. destruct l as [|b' l'']; [discriminate|].
  cbn in El. injection El as <- _. cbn in Hh. injection Hh as Hh.
  pose proof (hinv_lo _ _ _ _ _ _ _ H ltac:(lia)) as Hlo.
  rewrite interval_seconds_div in Hlo by done.
  rewrite (hrel_fst _ _ (hrel_by_latest _ _ _ (hist_rel ops) _)) in Hlo.
  rewrite Eini. f_equal. unfold key in Hh.
  destruct (last _) as [k|]; cbn in Hlo; subst lo.
  - destruct (Z.leb_spec (bk_ts b') 0), (decide (0 < k)); try lia; try done.
    rewrite <- Hlo. rewrite Z.mul_comm, Z.div_mul; lia.
  - destruct (Z.leb_spec (bk_ts b') 0); [done|lia].
Qed.
