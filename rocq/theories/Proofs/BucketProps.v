(** Final lemmas behind Props/PBucket.v. *)
From Verif.Go Require Import GoInt.
From Verif.Model Require Import Counter BucketQueue BucketCounter.
From Verif.Spec Require Import BucketSpec CounterSpec.
From Verif.Proofs Require Import BucketAbs BucketHist BucketMain.
Local Open Scope Z_scope.

Lemma no_phantom interval N now0 upd ops now start :
  Second <= interval -> in64 interval -> 0 <= N -> Forall (fun o => in64 o.1) ops ->
  in64 now -> -1000 < start ->
  exists c m, bc_exec interval N now0 upd ops = Ok c /\ bc_GetBucketCountsSince c now start = Ok m /\
    forall k v, m !! k = Some v -> start <= k /\ exists t o, (t, o) ∈ ops /\ k = trunc_key (interval / Second) t.
Proof.
  intros H1 H2 H3 H4 H5 H6.
  destruct (exec_since interval N now0 upd ops now start H1 H2 H3 H4 H5 H6) as (c & m & E & Em & Hm).
  exists c, m. do 2 (split; [done|]). intros k v Hk. rewrite Hm in Hk.
  destruct (decide _) as [[Hs _]|]; [|done]. unfold recent_sum in Hk.
  destruct (decide _) as [[Hin _]|]; [|done]. split; [done|].
  apply by_latest_key in Hin as [->|(t & n & Hin & ->)]; [lia|].
  apply in_hist in Hin as [o Ho]. eauto.
Qed.

Lemma keys_aligned interval N now0 upd ops now start :
  Second <= interval -> in64 interval -> 0 <= N -> Forall (fun o => in64 o.1) ops ->
  in64 now -> -1000 < start ->
  exists c m, bc_exec interval N now0 upd ops = Ok c /\ bc_GetBucketCountsSince c now start = Ok m /\
    forall k v, m !! k = Some v -> k mod (1000 * (interval / Second)) = 0.
Proof.
  intros H1 H2 H3 H4 H5 H6.
  destruct (no_phantom interval N now0 upd ops now start H1 H2 H3 H4 H5 H6) as (c & m & E & Em & Hm).
  exists c, m. do 2 (split; [done|]). intros k v Hk.
  apply Hm in Hk as (_ & t & o & _ & ->). unfold trunc_key. rewrite Z.mul_comm. apply Z.mod_mul.
  assert (1 <= interval / Second).
  { rewrite <- interval_seconds_div by done. by apply interval_seconds_pos. }
  lia.
Qed.

Lemma nondecreasing_snoc lo ts t hi :
  nondecreasing lo (ts ++ [t]) hi -> nondecreasing lo ts t /\ t <= hi.
Proof.
  revert lo. induction ts as [|x ts IH]; intros lo H; cbn in *; [lia|].
  destruct H as [H1 H2]. apply IH in H2. tauto.
Qed.

Lemma update_bucket_contains interval N now0 upd ops t o :
  Second <= interval -> in64 interval -> 0 < N ->
  nondecreasing 0 (ops ++ [(t, o)]).*1 t -> in64 t ->
  exists c m k v, bc_exec interval N now0 upd (ops ++ [(t, o)]) = Ok c /\
    bc_GetBucketCounts c t = Ok m /\ m !! k = Some v /\
    k <= t < k + 1000 * (interval / Second).
Proof.
  intros H1 H2 H3 Hnd Ht.
  destruct (exec_counts_monotone interval N now0 upd _ t H1 H2 ltac:(lia) Hnd Ht) as (c & m & E & Em & Hm).
  assert (HI : 1 <= interval / Second).
  { rewrite <- interval_seconds_div by done. by apply interval_seconds_pos. }
  set (I := interval / Second) in *.
  exists c, m, (bucket_key I t). rewrite Hm. unfold recent_sum.
  set (h := by_time I (bc_hist (ops ++ [(t, o)]))).
  assert (Hle : forall k, k ∈ h.*1 -> k <= bucket_key I t).
  { intros k Hk. unfold h, by_time in Hk. rewrite <- list_fmap_compose in Hk.
    apply elem_of_list_fmap in Hk as (u & -> & Hu). unfold bc_hist in Hu.
    apply elem_of_list_fmap in Hu as (q & -> & Hq). cbn. apply bucket_key_mono; [done|].
    apply nondecreasing_le in Hnd as [_ Hf]. rewrite Forall_fmap, Forall_forall in Hf. by apply Hf. }
  rewrite decide_True.
  - eexists. do 3 (split; [done|]). unfold bucket_key.
    pose proof (Z.div_mod t (1000 * I) ltac:(lia)). pose proof (Z.mod_pos_bound t (1000 * I) ltac:(lia)). lia.
  - split.
    + unfold h, by_time, bc_hist. rewrite !fmap_app. apply elem_of_app. right. cbn. left.
    + assert (Hf : filter (λ x : Z, bucket_key I t < x) h.*1 = []).
      { destruct (filter _ _) as [|x l] eqn:Hx; [done|]. exfalso.
        assert (Hin : x ∈ filter (λ x : Z, bucket_key I t < x) h.*1) by (rewrite Hx; left).
        apply elem_of_list_filter in Hin as [? Hin]. apply Hle in Hin. lia. }
      unfold newer_keys. rewrite Hf. cbn. rewrite size_empty. lia.
Qed.

Lemma LastUpdateTime_monotone interval N now0 upd ops t o :
  Second <= interval -> in64 interval -> 0 <= N ->
  nondecreasing 0 (ops ++ [(t, o)]).*1 t -> in64 t ->
  exists c, bc_exec interval N now0 upd (ops ++ [(t, o)]) = Ok c /\
    bc_LastUpdateTime c = Ok (if decide (bucket_key (interval / Second) t = 0) then now0
                              else bucket_key (interval / Second) t / 1000).
Proof.
  intros H1 H2 H3 Hnd Ht.
  assert (HI : 1 <= interval / Second).
  { rewrite <- interval_seconds_div by done. by apply interval_seconds_pos. }
  assert (Hb : Forall (fun o => 0 <= o.1 <= t) (ops ++ [(t,o)])).
  { clear -Hnd. apply (Forall_fmap fst (fun x => 0 <= x <= t)). revert Hnd. generalize 0 as t0. induction ((ops ++ [(t,o)]).*1) as [|x ts IH]; intros t0 H; [constructor|].
    cbn in H. destruct H as [H1 H2]. pose proof (nondecreasing_le _ _ _ H2) as [? ?].
    constructor; [lia|]. eapply Forall_impl; [apply (IH _ H2)|]. cbn. lia. }
  assert (Hi : Forall (fun o => in64 o.1) (ops ++ [(t,o)])).
  { eapply Forall_impl; [exact Hb|]. cbn. unfold in64, two63 in *. lia. }
  destruct (exec_LastUpdateTime interval N now0 upd _ H1 H2 H3 Hi) as (c & E & EL).
  exists c. split; [done|]. rewrite EL.
  assert (Hh : nondecreasing 0 (bc_hist (ops ++ [(t,o)])).*1 t).
  { unfold bc_hist. rewrite <- list_fmap_compose. exact Hnd. }
  rewrite (by_latest_monotone (interval / Second) (bc_hist (ops ++ [(t,o)])) HI (-1000) 0 t) by
    (try done; unfold bucket_key; rewrite ?Z.div_0_l; lia).
  unfold by_time, bc_hist. rewrite !fmap_app. cbn. rewrite last_snoc. f_equal.
  apply Forall_app in Hb as [_ Hb]. inversion Hb as [|? ? Hb0 _]; subst. clear Hb. rename Hb0 into Hb. cbn in Hb.
  pose proof (bucket_key_mono (interval / Second) 0 t HI ltac:(lia)).
  assert (bucket_key (interval / Second) 0 = 0) by (unfold bucket_key; rewrite Z.div_0_l; lia).
  repeat destruct (decide _); try lia; done.
Qed.

Lemma subsecond_panics interval c now n start :
  - Second < interval < Second -> bc_interval c = interval ->
  bc_UpdateN c now n = Panic /\ bc_GetBucketCountsSince c now start = Panic.
Proof.
  intros H1 H2.
  assert (interval_seconds (bc_interval c) = 0).
  { rewrite H2. unfold interval_seconds. apply Z.quot_small_iff; unfold Second in *; lia. }
  unfold bc_UpdateN, bc_GetBucketCountsSince. rewrite !alignTimestamp_panic by done. done.
Qed.
