(** From newest-first bucket lists to sums over the credited history. *)
From Verif.Go Require Import GoInt.
From Verif.Model Require Import Counter BucketQueue BucketCounter.
From Verif.Spec Require Import BucketSpec.
From Verif.Proofs Require Import BucketAbs.
Local Open Scope Z_scope.

Definition key (b : bucket) : Z := 1000 * bk_ts b.

(** ** Sums *)

Lemma sumZ_cons x l : sumZ (x :: l) = x + sumZ l.
Proof. reflexivity. Qed.

Lemma sumZ_app l1 l2 : sumZ (l1 ++ l2) = sumZ l1 + sumZ l2.
Proof.
  induction l1 as [|x l1 IH]; [reflexivity|].
  rewrite <- app_comm_cons, !sumZ_cons, IH. lia.
Qed.

Lemma sum_at_snoc k cr k' n :
  sum_at k (cr ++ [(k', n)]) = sum_at k cr + (if decide (k' = k) then n else 0).
Proof.
  unfold sum_at. rewrite filter_app, fmap_app, sumZ_app. f_equal.
  rewrite filter_cons, filter_nil. cbn. destruct (decide (k' = k)); cbn; lia.
Qed.

Lemma sum_at_notin k cr : k ∉ cr.*1 -> sum_at k cr = 0.
Proof.
  induction cr as [|[k' n] cr IH]; [reflexivity|]. intros Hn.
  rewrite fmap_cons, not_elem_of_cons in Hn. destruct Hn as [Hk Hn].
  unfold sum_at in *. rewrite filter_cons. cbn in *.
  destruct (decide (k' = k)) as [->|]; [done|]. apply IH. done.
Qed.

(** ** Invariant of the untruncated newest-first list *)

Record hinv (M : nat) (l : list bucket) (cr : list (Z * Z)) (lo : Z)
  (C Z0 : list bucket) : Prop := {
  h_split : l = C ++ Z0;
  h_len : length Z0 = M;
  h_init : Forall (fun b => bk_ts b = -1) Z0;
  h_head : key <$> head l = Some lo;
  h_sorted : StronglySorted (fun a b => bk_ts b < bk_ts a) C;
  h_pos : Forall (fun b => -1 < bk_ts b /\ in64 (key b)) C;
  h_sum : Forall (fun b => key b ∈ cr.*1 /\ bk_count b = wrap64 (sum_at (key b) cr)) C;
  h_cov : forall k, k ∈ cr.*1 -> k = -1000 \/ exists b, b ∈ C /\ key b = k;
  h_max : forall k, k ∈ cr.*1 -> k <= lo
}.

Lemma hinv_init M : (0 < M)%nat -> hinv M (replicate M newBucket) [] (-1000) [] (replicate M newBucket).
Proof.
  intros HM. constructor; cbn; try done.
  - apply replicate_length.
  - apply Forall_replicate. reflexivity.
  - destruct M; [lia|]. reflexivity.
  - constructor.
  - intros k Hk. by apply elem_of_nil in Hk.
  - intros k Hk. by apply elem_of_nil in Hk.
Qed.

Lemma hinv_step M l cr lo C Z0 ts n :
  hinv M l cr lo C Z0 -> in64 (1000 * ts) ->
  exists C' Z0', hinv M (astep l (ts, n)) (cr ++ [(Z.max lo (1000 * ts), n)])
                   (Z.max lo (1000 * ts)) C' Z0'.
Proof.
  intros H Hts. pose proof (h_head _ _ _ _ _ _ H) as Hh.
  destruct l as [|b l]; [discriminate|]. cbn in Hh. injection Hh as Hlo.
  assert (Hlo' : lo = 1000 * bk_ts b) by (unfold key in Hlo; lia).
  cbn [astep fst snd]. destruct (Z.ltb_spec (bk_ts b) ts) as [Hlt|Hge].
  - replace (Z.max lo (1000 * ts)) with (1000 * ts) by lia.
    assert (Hfresh : 1000 * ts ∉ cr.*1).
    { intros Hin. pose proof (h_max _ _ _ _ _ _ H _ Hin). lia. }
    exists (Bucket ts (wrap64 n) :: C), Z0. constructor; cbn.
    + by rewrite (h_split _ _ _ _ _ _ H).
    + apply (h_len _ _ _ _ _ _ H).
    + apply (h_init _ _ _ _ _ _ H).
    + reflexivity.
    + constructor; [apply (h_sorted _ _ _ _ _ _ H)|].
      pose proof (h_split _ _ _ _ _ _ H) as Hs.
      pose proof (h_sorted _ _ _ _ _ _ H) as Hso.
      destruct C as [|c C]; [constructor|]. cbn in Hs. injection Hs as <- _.
      inversion Hso as [|? ? _ Hf]; subst. constructor; cbn; [lia|].
      eapply Forall_impl; [exact Hf|]. cbn. intros; lia.
    + constructor; [|apply (h_pos _ _ _ _ _ _ H)]. cbn. split; [|exact Hts].
      pose proof (h_split _ _ _ _ _ _ H) as Hs.
      destruct C as [|c C]; cbn in Hs.
      * pose proof (h_init _ _ _ _ _ _ H) as Hi. rewrite <- Hs in Hi. inversion Hi; subst. lia.
      * injection Hs as <- _. pose proof (h_pos _ _ _ _ _ _ H) as Hp. inversion Hp; subst. lia.
    + constructor.
      * cbn. unfold key; cbn. split.
        { rewrite fmap_app. apply elem_of_app. right. cbn. apply elem_of_list_singleton. reflexivity. }
        rewrite sum_at_snoc, decide_True by reflexivity. by rewrite sum_at_notin.
      * eapply Forall_impl; [apply (h_sum _ _ _ _ _ _ H)|]. cbn. intros c [Hin Hc]. split.
        { rewrite fmap_app. apply elem_of_app. by left. }
        rewrite sum_at_snoc, decide_False; [by rewrite Z.add_0_r|]. congruence.
    + intros k. rewrite fmap_app, elem_of_app. cbn. rewrite elem_of_list_singleton.
      intros [Hin| ->].
      * destruct (h_cov _ _ _ _ _ _ H _ Hin) as [?|(c & Hc & Hk)]; [by left|].
        right. exists c. split; [by constructor|done].
      * right. eexists. split; [constructor|]. reflexivity.
    + intros k. rewrite fmap_app, elem_of_app. cbn. rewrite elem_of_list_singleton.
      intros [Hin| ->]; [|lia]. pose proof (h_max _ _ _ _ _ _ H _ Hin). lia.
  - replace (Z.max lo (1000 * ts)) with lo by lia.
    assert (Hcov' : forall k, k ∈ (cr ++ [(lo, n)]).*1 -> k ∈ cr.*1 \/ k = lo).
    { intros k. rewrite fmap_app, elem_of_app. cbn. rewrite elem_of_list_singleton. done. }
    pose proof (h_split _ _ _ _ _ _ H) as Hs.
    destruct C as [|c C]; cbn in Hs.
    + exists [], (Bucket (bk_ts b) (wrap64 (bk_count b + n)) :: l).
      pose proof (h_init _ _ _ _ _ _ H) as Hi. pose proof (h_len _ _ _ _ _ _ H) as Hl.
      subst Z0. inversion Hi as [|? ? Hb1 Hi']; subst.
      constructor; cbn; try done.
      * by constructor.
      * constructor.
      * intros k Hk. destruct (Hcov' _ Hk) as [Hin| ->].
        -- apply (h_cov _ _ _ _ _ _ H _ Hin).
        -- left. lia.
      * intros k Hk. destruct (Hcov' _ Hk) as [Hin| ->]; [|lia]. apply (h_max _ _ _ _ _ _ H _ Hin).
    + injection Hs as <- Hl. subst l.
      exists (Bucket (bk_ts b) (wrap64 (bk_count b + n)) :: C), Z0.
      pose proof (h_sorted _ _ _ _ _ _ H) as Hso. inversion Hso as [|? ? Hso' Hf]; subst.
      pose proof (h_pos _ _ _ _ _ _ H) as Hp. inversion Hp as [|? ? Hpb Hp']; subst.
      pose proof (h_sum _ _ _ _ _ _ H) as Hsum. inversion Hsum as [|? ? [Hsi Hsb] Hsum']; subst.
      constructor; cbn; try done.
      * apply (h_len _ _ _ _ _ _ H).
      * apply (h_init _ _ _ _ _ _ H).
      * by constructor.
      * by constructor.
      * constructor.
        -- cbn. split.
           { rewrite fmap_app. apply elem_of_app. by left. }
           change (key {| bk_ts := bk_ts b; bk_count := wrap64 (bk_count b + n) |}) with (key b).
           rewrite sum_at_snoc, decide_True by reflexivity. by rewrite Hsb, wrap64_add_l.
        -- apply Forall_forall. intros c Hc. rewrite Forall_forall in Hsum', Hf.
           destruct (Hsum' c Hc) as [Hci Hcs]. split.
           { rewrite fmap_app. apply elem_of_app. by left. }
           rewrite sum_at_snoc, decide_False; [by rewrite Z.add_0_r|].
           specialize (Hf c Hc). unfold key. lia.
      * intros k Hk. destruct (Hcov' _ Hk) as [Hin| ->].
        -- destruct (h_cov _ _ _ _ _ _ H _ Hin) as [?|(c & Hc & Hkc)]; [by left|].
           right. apply elem_of_cons in Hc as [->|Hc].
           ++ eexists. split; [constructor|]. exact Hkc.
           ++ exists c. split; [by constructor|done].
        -- right. eexists. split; [constructor|]. reflexivity.
      * intros k Hk. destruct (Hcov' _ Hk) as [Hin| ->]; [|lia]. apply (h_max _ _ _ _ _ _ H _ Hin).
Qed.

(** ** Whole histories *)

Definition sec_of (I t : Z) : Z := I * Z.quot t (1000 * I).

Lemma sec_of_trunc_key I t : 1000 * sec_of I t = trunc_key I t.
Proof. unfold sec_of, trunc_key. lia. Qed.

Lemma trunc_key_in64 I t : 1 <= I -> in64 t -> in64 (trunc_key I t).
Proof.
  intros HI Ht. unfold trunc_key. rewrite Z.mul_comm. apply quot_mul_in64; [done|lia].
Qed.

Lemma hinv_run M I hist : 1 <= I -> Forall (fun u => in64 u.1) hist ->
  forall l cr lo C Z0, hinv M l cr lo C Z0 ->
  exists C' Z0' lo', hinv M (fold_left astep ((fun u => (sec_of I u.1, u.2)) <$> hist) l)
                   (cr ++ by_latest lo I hist) lo' C' Z0'.
Proof.
  intros HI Hh. induction hist as [|[t n] hist IH]; intros l cr lo C Z0 H.
  - cbn. rewrite app_nil_r. eauto.
  - inversion Hh as [|? ? Ht Hh']; subst. cbn in Ht.
    destruct (hinv_step M l cr lo C Z0 (sec_of I t) n H) as (C' & Z0' & H').
    { rewrite sec_of_trunc_key. by apply trunc_key_in64. }
    rewrite sec_of_trunc_key in H'.
    destruct (IH Hh' _ _ _ _ _ H') as (C2 & Z2 & lo2 & H2).
    exists C2, Z2, lo2. cbn. by rewrite <- app_assoc in H2.
Qed.

Lemma take_astep M l u : (0 < M)%nat -> take M (astep (take M l) u) = take M (astep l u).
Proof.
  intros HM. destruct M as [|M]; [lia|]. destruct l as [|b l]; [reflexivity|].
  cbn [take astep]. destruct (bk_ts b <? u.1); cbn [take].
  - f_equal. destruct M; [reflexivity|]. cbn. f_equal. rewrite take_take. f_equal. lia.
  - f_equal. rewrite take_take. f_equal. lia.
Qed.

Lemma take_fold_astep M us l : (0 < M)%nat ->
  take M (fold_left astep us l) = take M (fold_left astep us (take M l)).
Proof.
  intros HM. revert l. induction us as [|u us IH]; intros l; cbn [fold_left].
  - rewrite take_take. f_equal. lia.
  - rewrite IH, (IH (astep (take M l) u)). by rewrite take_astep.
Qed.

(** The amount an operation adds. *)
Definition op_amount (o : bc_op) : Z :=
  match o with
  | BUpdate => 1 | BUpdateN n => n | BInc => 1 | BIncN n => n
  | BDec => -1 | BDecN n => wrap64 (- n)
  end.

Lemma bc_step_UpdateN c t o : bc_step c (t, o) = bc_UpdateN c t (op_amount o).
Proof. by destruct o. Qed.

Definition hist_of (ops : list (Z * bc_op)) : list (Z * Z) :=
  (fun o => (o.1, op_amount o.2)) <$> ops.

Lemma bc_run_repr N ops : forall c l,
  repr N c l -> 1 <= interval_seconds (bc_interval c) -> Forall (fun o => in64 o.1) ops ->
  exists c', bc_run c ops = Ok c' /\
    repr N c' (take (S N) (fold_left astep
       ((fun u => (sec_of (interval_seconds (bc_interval c)) u.1, u.2)) <$> hist_of ops) l)) /\
    bc_interval c' = bc_interval c /\ bc_initTimestamp c' = bc_initTimestamp c /\
    bc_updateTotalCount c' = bc_updateTotalCount c /\
    c_count (bc_totalCount c') =
      (if bc_updateTotalCount c
       then (if decide (ops = []) then c_count (bc_totalCount c)
             else wrap64 (c_count (bc_totalCount c) + sumZ (hist_of ops).*2))
       else c_count (bc_totalCount c)).
Proof.
  induction ops as [|[t o] ops IH]; intros c l R HI Ht.
  - exists c. cbn. rewrite take_ge by (rewrite (repr_length _ _ _ R); lia).
    repeat split; auto; try apply R. by destruct (bc_updateTotalCount c).
  - inversion Ht as [|? ? Ht0 Ht']; subst. cbn in Ht0.
    destruct (bc_UpdateN_spec N c l t (op_amount o) R HI Ht0) as (c1 & H1 & R1 & E1 & E2 & E3 & E4).
    cbn zeta in R1. fold (sec_of (interval_seconds (bc_interval c)) t) in R1.
    rewrite <- E1 in HI.
    destruct (IH c1 _ R1 HI Ht') as (c2 & H2 & R2 & F1 & F2 & F3 & F4).
    exists c2. unfold bc_run in *. cbn [run_ops]. rewrite bc_step_UpdateN, H1.
    split; [exact H2|]. rewrite E1 in R2. split.
    + rewrite <- take_fold_astep in R2 by lia. exact R2.
    + rewrite F1, F2, F3, F4, E1, E2, E3, E4. repeat split; auto.
      destruct (bc_updateTotalCount c); [|done]. cbn [decide].
      destruct (decide ((t, o) :: ops = [])) as [|_]; [done|].
      destruct (decide (ops = [])) as [->|Hne]; cbn.
      * f_equal. unfold sumZ. cbn. lia.
      * rewrite wrap64_add_l. f_equal. unfold hist_of, sumZ. lia.
Qed.

Lemma newBucketCounterImpl_repr interval N now upd : (0 <= N) ->
  exists c, newBucketCounterImpl interval N now upd = Ok c /\
    repr (Z.to_nat N) c (replicate (S (Z.to_nat N)) newBucket) /\
    bc_interval c = interval /\ bc_initTimestamp c = now /\
    bc_updateTotalCount c = upd /\ c_count (bc_totalCount c) = 0.
Proof.
  intros HN. unfold newBucketCounterImpl, newBucketDequeue.
  destruct (Z.ltb_spec (N + 1) 0) as [|_]; [lia|].
  replace (Z.to_nat (N + 1)) with (S (Z.to_nat N)) by lia.
  eexists. split; [reflexivity|]. cbn. split; [|auto].
  constructor; cbn.
  - by rewrite seq_length.
  - lia.
  - constructor; [|apply NoDup_ListNoDup, seq_NoDup].
    rewrite elem_of_seq. lia.
  - assert (HF : forall l, Forall (fun p => (p < S (Z.to_nat N))%nat) l ->
      Forall2 (fun p b => replicate (S (Z.to_nat N)) newBucket !! p = Some b) l
        (replicate (length l) newBucket)).
    { induction l as [|p l IHl]; intros Hl; [constructor|]. inversion Hl; subst.
      change (replicate (length (p :: l)) newBucket) with (newBucket :: replicate (length l) newBucket). constructor; [|by apply IHl]. by apply (lookup_replicate_2 (S (Z.to_nat N))). }
    assert (HL : length (ring (0%nat :: seq 1 (Z.to_nat N)) 0) = S (Z.to_nat N)).
    { rewrite ring_length. cbn. by rewrite seq_length. }
    specialize (HF (ring (0%nat :: seq 1 (Z.to_nat N)) 0)). rewrite HL in HF. apply HF.
    apply Forall_forall. intros p. rewrite ring_Permutation.
    change (0%nat :: seq 1 (Z.to_nat N)) with (seq 0 (S (Z.to_nat N))).
    rewrite elem_of_seq. lia.
  - reflexivity.
  - change (newBucket :: replicate (Z.to_nat N) newBucket) with (replicate (S (Z.to_nat N)) newBucket).
    induction (S (Z.to_nat N)) as [|m IHm]; cbn; constructor; [done|].
    apply Forall_replicate. lia.
Qed.

(** ** The result map *)

Definition passb (cur start : Z) (b : bucket) : bool :=
  (start <=? key b) && (bk_ts b <=? cur).

Lemma gbc_loop_fold h cur start ps bs m :
  Forall2 (fun p b => h !! p = Some b) ps bs -> Forall (fun b => in64 (key b)) bs ->
  gbc_loop h cur start ps m =
    Ok (foldl (fun m b => if passb cur start b then <[key b := bk_count b]> m else m) m bs).
Proof.
  intros F. revert m. induction F as [|p b ps bs Hb F IH]; intros m Hin; [reflexivity|].
  inversion Hin as [|? ? Hkb Hin']; subst. cbn. rewrite Hb. cbn.
  unfold key in Hkb at 1. unfold secondToMsRate. rewrite wrap64_id by exact Hkb.
  rewrite IH by done. reflexivity.
Qed.

Lemma fold_insert_lookup cur start bs k v :
  (forall b1 b2, b1 ∈ bs -> b2 ∈ bs -> passb cur start b1 = true -> passb cur start b2 = true ->
     key b1 = key b2 -> b1 = b2) ->
  (foldl (fun m b => if passb cur start b then <[key b := bk_count b]> m else m) (∅ : gmap Z Z) bs) !! k
    = Some v <->
  exists b, b ∈ bs /\ passb cur start b = true /\ key b = k /\ bk_count b = v.
Proof.
  revert k v. induction bs as [|b bs IH] using rev_ind; intros k v Hd.
  - cbn. rewrite lookup_empty. split; [done|]. intros (b & Hb & _). by apply elem_of_nil in Hb.
  - rewrite foldl_app. cbn.
    assert (IH' := fun k v => IH k v (fun b1 b2 H1 H2 => Hd b1 b2 (proj2 (elem_of_app _ _ _) (or_introl H1))
                        (proj2 (elem_of_app _ _ _) (or_introl H2)))).
    destruct (passb cur start b) eqn:Hp.
    + destruct (decide (k = key b)) as [->|Hne].
      * rewrite lookup_insert. split.
        -- intros [= <-]. exists b. split; [|auto]. apply elem_of_app. right. apply elem_of_list_singleton. done.
        -- intros (b' & Hb' & Hp' & Hk & <-). f_equal. f_equal. symmetry. apply Hd; auto.
           apply elem_of_app. right. apply elem_of_list_singleton. done.
      * rewrite lookup_insert_ne by done. rewrite IH'. split.
        -- intros (b' & Hb' & ?). exists b'. split; [apply elem_of_app; by left|done].
        -- intros (b' & Hb' & Hp' & Hk & Hc). exists b'. split; [|done].
           apply elem_of_app in Hb' as [?|Hb']; [done|]. apply elem_of_list_singleton in Hb' as ->. done.
    + rewrite IH'. split.
      * intros (b' & Hb' & ?). exists b'. split; [apply elem_of_app; by left|done].
      * intros (b' & Hb' & Hp' & Hk & Hc). exists b'. split; [|done].
        apply elem_of_app in Hb' as [?|Hb']; [done|]. apply elem_of_list_singleton in Hb' as ->. congruence.
Qed.

Lemma fold_insert_size cur start bs :
  (size (foldl (fun m b => if passb cur start b then <[key b := bk_count b]> m else m) (∅ : gmap Z Z) bs)
   <= length bs)%nat.
Proof.
  induction bs as [|b bs IH] using rev_ind; [cbn; by rewrite map_size_empty|].
  rewrite foldl_app, app_length. cbn. destruct (passb cur start b); [|lia].
  rewrite map_size_insert. destruct (_ !! _); unfold id; lia.
Qed.

(** Position in the strictly descending list = number of newer keys. *)
Lemma newer_keys_index M l cr lo C Z0 i b :
  hinv M l cr lo C Z0 -> C !! i = Some b -> newer_keys (key b) cr = i.
Proof.
  intros H Hi. unfold newer_keys.
  pose proof (h_sorted _ _ _ _ _ _ H) as Hs.
  assert (Hmono : forall (j k : nat) a c, C !! j = Some a -> C !! k = Some c -> (j < k)%nat -> bk_ts c < bk_ts a).
  { clear -Hs. induction Hs as [|x C Hs IH Hf]; intros j k a c Hj Hk Hjk; [done|].
    destruct k as [|k]; [lia|]. destruct j as [|j]; cbn in *.
    - injection Hj as ->. rewrite Forall_forall in Hf. apply Hf. eapply elem_of_list_lookup_2; eauto.
    - eapply IH; eauto; lia. }
  assert (HND : NoDup (key <$> take i C)).
  { apply NoDup_alt. intros j k x Hj Hk.
    apply list_lookup_fmap_inv in Hj as (a & -> & Hj). apply list_lookup_fmap_inv in Hk as (c & Hac & Hk).
    apply lookup_take_Some in Hj as [Hj _]. apply lookup_take_Some in Hk as [Hk _].
    unfold key in Hac.
    destruct (lt_eq_lt_dec j k) as [[Hlt|]|Hlt]; [|done|].
    - pose proof (Hmono _ _ _ _ Hj Hk Hlt). lia.
    - pose proof (Hmono _ _ _ _ Hk Hj Hlt). lia. }
  transitivity (size (list_to_set (key <$> take i C) : gset Z)).
  - f_equal. apply set_eq. intros k. rewrite !elem_of_list_to_set, elem_of_list_filter.
    rewrite (elem_of_list_fmap key). split.
    + intros [Hlt Hin]. destruct (h_cov _ _ _ _ _ _ H k Hin) as [->|(c & Hc & <-)].
      * pose proof (h_pos _ _ _ _ _ _ H) as Hp. rewrite Forall_forall in Hp.
        destruct (Hp b) as [Hb _]; [eapply elem_of_list_lookup_2; eauto|]. unfold key in Hlt. lia.
      * exists c. split; [done|]. apply elem_of_list_lookup_1 in Hc as [j Hj].
        apply elem_of_take. exists j. split; [done|].
        destruct (decide (j < i)%nat) as [|Hge]; [done|].
        unfold key in Hlt. destruct (decide (j = i)) as [->|].
        { rewrite Hi in Hj. injection Hj as ->. lia. }
        pose proof (Hmono i j b c Hi Hj ltac:(lia)). lia.
    + intros (c & -> & Hc). apply elem_of_take in Hc as (j & Hj & Hji).
      pose proof (Hmono j i c b Hj Hi Hji). split; [unfold key; lia|].
      pose proof (h_sum _ _ _ _ _ _ H) as Hsum. rewrite Forall_forall in Hsum.
      apply Hsum. eapply elem_of_list_lookup_2; eauto.
  - rewrite size_list_to_set by done. rewrite fmap_length, take_length.
    apply lookup_lt_Some in Hi. lia.
Qed.

(** ** Main refinement: what GetBucketCountsSince returns *)

Lemma bucket_counts_since N c l cr lo C Z0 now start :
  repr N c (take (S N) l) -> hinv (S N) l cr lo C Z0 ->
  1 <= interval_seconds (bc_interval c) -> in64 now -> -1000 < start ->
  exists m, bc_GetBucketCountsSince c now start = Ok m /\ (size m <= N)%nat /\
    forall k, m !! k =
      if decide (start <= k /\ k <= trunc_key (interval_seconds (bc_interval c)) now)
      then recent_sum N cr k else None.
Proof.
  intros R H HI Hnow Hst. unfold bc_GetBucketCountsSince.
  rewrite alignTimestamp_spec by done. cbn [mbind res_bind].
  set (I := interval_seconds (bc_interval c)) in *. fold (sec_of I now).
  rewrite (getBucketList_spec _ _ _ R). cbn [mbind res_bind].
  assert (Htake : take N (take (S N) l) = take N l) by (rewrite take_take; f_equal; lia).
  pose proof (Forall2_take _ _ _ N (r_ptrs _ _ _ R)) as F. rewrite Htake in F.
  assert (Hin64 : Forall (fun b => in64 (key b)) (take N l)).
  { rewrite (h_split _ _ _ _ _ _ H). apply Forall_take, Forall_app. split.
    - eapply Forall_impl; [apply (h_pos _ _ _ _ _ _ H)|]. cbn; tauto.
    - eapply Forall_impl; [apply (h_init _ _ _ _ _ _ H)|]. cbn. intros b Hb. unfold key. rewrite Hb.
      unfold in64, two63. lia. }
  rewrite (gbc_loop_fold _ _ _ _ _ _ F Hin64).
  eexists. split; [reflexivity|]. split.
  { etransitivity; [apply fold_insert_size|]. rewrite take_length. lia. }
  intros k. apply option_eq. intros v.
  rewrite fold_insert_lookup.
  - split.
    + intros (b & Hb & Hp & <- & <-). unfold passb in Hp. apply andb_true_iff in Hp as [Hp1 Hp2].
      apply Z.leb_le in Hp1, Hp2.
      apply elem_of_take in Hb as (i & Hi & HiN). rewrite (h_split _ _ _ _ _ _ H) in Hi.
      apply lookup_app_Some in Hi as [Hi|[_ Hi]].
      * pose proof (h_sum _ _ _ _ _ _ H) as Hsum. rewrite Forall_forall in Hsum.
        destruct (Hsum b) as [Hkin Hc]; [eapply elem_of_list_lookup_2; eauto|].
        rewrite decide_True.
        2:{ split; [done|]. rewrite <- sec_of_trunc_key. unfold key. lia. }
        unfold recent_sum. rewrite decide_True; [by rewrite Hc|]. split; [done|].
        by rewrite (newer_keys_index _ _ _ _ _ _ _ _ H Hi).
      * pose proof (h_init _ _ _ _ _ _ H) as Hini. rewrite Forall_forall in Hini.
        assert (bk_ts b = -1) by (apply Hini; eapply elem_of_list_lookup_2; eauto).
        unfold key in Hp1. lia.
    + destruct (decide _) as [[Hs1 Hs2]|]; [|done]. unfold recent_sum.
      destruct (decide _) as [[Hin Hnew]|]; [|done]. intros [= <-].
      destruct (h_cov _ _ _ _ _ _ H k Hin) as [->|(b & Hb & <-)]; [lia|].
      exists b. apply elem_of_list_lookup_1 in Hb as [i Hi].
      rewrite (newer_keys_index _ _ _ _ _ _ _ _ H Hi) in Hnew.
      split; [|split; [|split; [done|]]].
      * apply elem_of_take. exists i. split; [|done]. rewrite (h_split _ _ _ _ _ _ H).
        by apply lookup_app_l_Some.
      * unfold passb. apply andb_true_iff. rewrite !Z.leb_le. split; [done|].
        rewrite <- sec_of_trunc_key in Hs2. unfold key in Hs2. lia.
      * pose proof (h_sum _ _ _ _ _ _ H) as Hsum. rewrite Forall_forall in Hsum.
        apply Hsum. eapply elem_of_list_lookup_2; eauto.
  - intros b1 b2 H1 H2 Hp1 Hp2 Hk.
    assert (HC : forall b, b ∈ take N l -> passb (sec_of I now) start b = true -> b ∈ C).
    { intros b Hb Hp. apply elem_of_take in Hb as (i & Hi & _). rewrite (h_split _ _ _ _ _ _ H) in Hi.
      apply lookup_app_Some in Hi as [Hi|[_ Hi]]; [by eapply elem_of_list_lookup_2|].
      pose proof (h_init _ _ _ _ _ _ H) as Hini. rewrite Forall_forall in Hini.
      assert (bk_ts b = -1) by (apply Hini; eapply elem_of_list_lookup_2; eauto).
      unfold passb in Hp. apply andb_true_iff in Hp as [Hp _]. apply Z.leb_le in Hp. unfold key in Hp. lia. }
    pose proof (HC _ H1 Hp1) as C1. pose proof (HC _ H2 Hp2) as C2.
    apply elem_of_list_lookup_1 in C1 as [i Hi]. apply elem_of_list_lookup_1 in C2 as [j Hj].
    assert (i = j).
    { rewrite <- (newer_keys_index _ _ _ _ _ _ _ _ H Hi), <- (newer_keys_index _ _ _ _ _ _ _ _ H Hj). by rewrite Hk. }
    subst j. congruence.
Qed.

(** Packaged: a fresh counter after any history. *)
Lemma bc_history interval N now0 upd ops :
  Second <= interval -> in64 interval -> 0 <= N -> Forall (fun o => in64 o.1) ops ->
  let I := interval_seconds interval in
  exists c, (newBucketCounterImpl interval N now0 upd ≫= fun c0 => bc_run c0 ops) = Ok c /\
    bc_interval c = interval /\ bc_initTimestamp c = now0 /\ bc_updateTotalCount c = upd /\
    c_count (bc_totalCount c) = (if upd then wrap64 (sumZ (hist_of ops).*2) else 0) /\
    exists l lo C Z0, repr (Z.to_nat N) c (take (S (Z.to_nat N)) l) /\
      hinv (S (Z.to_nat N)) l (by_latest (-1000) I (hist_of ops)) lo C Z0.
Proof.
  intros Hi Hi64 HN Ht I.
  destruct (newBucketCounterImpl_repr interval N now0 upd HN) as (c0 & H0 & R0 & E1 & E2 & E3 & E4).
  rewrite H0. cbn [mbind res_bind].
  pose proof (interval_seconds_pos _ Hi Hi64) as HI. fold I in HI.
  destruct (bc_run_repr (Z.to_nat N) ops c0 _ R0) as (c & H1 & R1 & F1 & F2 & F3 & F4); [by rewrite E1|done|].
  exists c. rewrite E1 in R1. rewrite E1 in F1. rewrite E2 in F2. rewrite E3 in F3. rewrite E3, E4 in F4.
  do 4 (split; [done|]). split.
  { rewrite F4. destruct upd; [|done]. destruct (decide (ops = [])) as [->|]; [done|]. done. }
  destruct (hinv_run (S (Z.to_nat N)) I (hist_of ops) HI) with
    (l := replicate (S (Z.to_nat N)) newBucket) (cr := @nil (Z*Z)) (lo := -1000) (C := @nil bucket)
    (Z0 := replicate (S (Z.to_nat N)) newBucket) as (C & Z0 & lo & Hh).
  - unfold hist_of. apply Forall_fmap. exact Ht.
  - apply hinv_init. lia.
  - eexists _, lo, C, Z0. split; [exact R1|exact Hh].
Qed.

(** ** Non-decreasing clocks *)

Lemma bucket_key_trunc I t : 1 <= I -> 0 <= t -> trunc_key I t = bucket_key I t.
Proof. intros. unfold trunc_key, bucket_key. rewrite Z.quot_div_nonneg by lia. reflexivity. Qed.

Lemma bucket_key_mono I t t' : 1 <= I -> t <= t' -> bucket_key I t <= bucket_key I t'.
Proof.
  intros HI H. unfold bucket_key. apply Z.mul_le_mono_nonneg_l; [lia|]. apply Z.div_le_mono; lia.
Qed.

Lemma by_latest_monotone I hist : 1 <= I -> forall lo t0 hi,
  0 <= t0 -> lo <= bucket_key I t0 -> nondecreasing t0 hist.*1 hi ->
  by_latest lo I hist = by_time I hist.
Proof.
  intros HI. induction hist as [|[t n] hist IH]; intros lo t0 hi Ht0 Hlo Hnd; [reflexivity|].
  cbn in Hnd. destruct Hnd as [H1 H2]. cbn.
  rewrite bucket_key_trunc by lia. rewrite Z.max_r.
  2:{ pose proof (bucket_key_mono I t0 t HI H1). lia. }
  f_equal. eapply (IH _ t); [lia| |exact H2]. lia.
Qed.

Lemma nondecreasing_le t0 ts hi : nondecreasing t0 ts hi -> t0 <= hi /\ Forall (fun t => t <= hi) ts.
Proof.
  revert t0. induction ts as [|t ts IH]; intros t0 H; cbn in H.
  - split; [lia|constructor].
  - destruct H as [H1 H2]. apply IH in H2 as [? ?]. split; [lia|]. constructor; [lia|done].
Qed.
