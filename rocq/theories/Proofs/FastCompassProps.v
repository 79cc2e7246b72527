From Verif.Go Require Import GoInt.
From Verif.Model Require Import Counter BucketQueue BucketCounter FastCompass.
From Verif.Spec Require Import BucketSpec CounterSpec FastCompassSpec.
From Verif.Proofs Require Import BucketAbs BucketHist BucketMain BucketProps FastCompassProofs.
Local Open Scope Z_scope.

Definition dec_count (count : Z) : Z := uint64_to_int64 (Z.shiftr (to_uint64 count) countOffset).
Definition dec_rt (count : Z) : Z := uint64_to_int64 (Z.land (to_uint64 count) rtBitwiseAndBase).

Lemma to_uint64_range x : 0 <= to_uint64 x < two64.
Proof. unfold to_uint64. apply Z.mod_pos_bound. reflexivity. Qed.

Lemma dec_count_div x : dec_count x = to_uint64 x / 2 ^ 38 /\ 0 <= dec_count x < 2 ^ 26.
Proof.
  unfold dec_count, uint64_to_int64, countOffset. rewrite Z.shiftr_div_pow2 by lia.
  pose proof (to_uint64_range x) as H.
  assert (0 <= to_uint64 x / 2 ^ 38 < 2 ^ 26).
  { split; [apply Z.div_pos; lia|]. apply Z.div_lt_upper_bound; [lia|]. unfold two64 in H. lia. }
  rewrite wrap64_id by (unfold in64, two63; lia). done.
Qed.

Lemma dec_rt_mod x : dec_rt x = to_uint64 x mod 2 ^ 38 /\ 0 <= dec_rt x < 2 ^ 38.
Proof.
  unfold dec_rt, uint64_to_int64.
  change rtBitwiseAndBase with (Z.ones 38). rewrite Z.land_ones by lia.
  pose proof (Z.mod_pos_bound (to_uint64 x) (2 ^ 38) ltac:(lia)).
  rewrite wrap64_id by (unfold in64, two63; lia). done.
Qed.

Lemma dec_decode x : x mod 2 ^ 64 = dec_count x * 2 ^ 38 + dec_rt x.
Proof.
  destruct (dec_count_div x) as [-> _]. destruct (dec_rt_mod x) as [-> _].
  unfold to_uint64. change two64 with (2 ^ 64).
  pose proof (Z.div_mod (x mod 2 ^ 64) (2 ^ 38) ltac:(lia)). lia.
Qed.

Lemma dec_of_sum c m S : wrap64 S = wrap64 (2 ^ 38 * c + m) ->
  dec_count (wrap64 S) = (c + m / 2 ^ 38) mod 2 ^ 26 /\ dec_rt (wrap64 S) = m mod 2 ^ 38.
Proof.
  intros ->. destruct (dec_count_div (wrap64 (2 ^ 38 * c + m))) as [-> _].
  destruct (dec_rt_mod (wrap64 (2 ^ 38 * c + m))) as [-> _].
  rewrite to_uint64_wrap. change two64 with (2 ^ 38 * 2 ^ 26).
  pose proof (Z.rem_mul_r (2 ^ 38 * c + m) (2 ^ 38) (2 ^ 26) ltac:(lia) ltac:(lia)) as H.
  rewrite H.
  assert (E1 : (2 ^ 38 * c + m) mod 2 ^ 38 = m mod 2 ^ 38).
  { rewrite Z.mul_comm, Z.add_comm, Z.mod_add; lia. }
  assert (E2 : (2 ^ 38 * c + m) / 2 ^ 38 = c + m / 2 ^ 38).
  { rewrite (Z.mul_comm _ c), Z.div_add_l; lia. }
  rewrite E1, E2. pose proof (Z.mod_pos_bound m (2 ^ 38) ltac:(lia)) as Hm.
  split.
  - rewrite (Z.mul_comm (2 ^ 38)), Z.div_add by lia. rewrite Z.div_small by lia. lia.
  - rewrite (Z.mul_comm (2 ^ 38)), Z.mod_add by lia. apply Z.mod_small. lia.
Qed.

(** The amounts added per record. *)
Definition triple (a : Z * Z) (b c : Z * Z) : Prop :=
  a.1 = b.1 /\ a.1 = c.1 /\ wrap64 a.2 = wrap64 (2 ^ 38 * b.2 + c.2).

Inductive Forall3' : list (Z * Z) -> list (Z * Z) -> list (Z * Z) -> Prop :=
| F3_nil : Forall3' [] [] []
| F3_cons a b c la lb lc : triple a b c -> Forall3' la lb lc -> Forall3' (a :: la) (b :: lb) (c :: lc).

Lemma record_amount_cong d : 0 <= d -> wrap64 (record_amount d) = wrap64 (2 ^ 38 * 1 + d / 1000000).
Proof.
  intros H. unfold record_amount. rewrite wrap64_wrap64, wrap64_add_r.
  rewrite Z.quot_div_nonneg by lia. reflexivity.
Qed.

Lemma F3_hist rs : Forall valid_record rs ->
  Forall3' (bc_hist (cat_ops rs)) (invocations rs) (durations_ms rs).
Proof.
  induction 1 as [|r rs [Hd _] Hf IH]; [constructor|]. cbn. constructor; [|exact IH].
  split; [done|]. split; [done|]. cbn. by apply record_amount_cong.
Qed.

Lemma F3_by_latest I a b c : Forall3' a b c -> forall lo,
  Forall3' (by_latest lo I a) (by_latest lo I b) (by_latest lo I c).
Proof.
  induction 1 as [|[t n] [t1 n1] [t2 n2] la lb lc (H1 & H2 & H3) Hf IH]; intros lo; [constructor|].
  cbn in *. subst. constructor; [split; done|]. apply IH.
Qed.

Lemma F3_keys a b c : Forall3' a b c -> a.*1 = b.*1 /\ a.*1 = c.*1.
Proof.
  induction 1 as [|a b c la lb lc (H1 & H2 & _) Hf [IH1 IH2]]; [done|]. cbn. split; congruence.
Qed.

Lemma F3_sum k a b c : Forall3' a b c -> wrap64 (sum_at k a) = wrap64 (2 ^ 38 * sum_at k b + sum_at k c).
Proof.
  induction 1 as [|x y z la lb lc (H1 & H2 & H3) Hf IH]; [reflexivity|].
  unfold sum_at in *. rewrite !filter_cons. rewrite <- H1, <- H2.
  destruct (decide (x.1 = k)); [|done]. cbn [fmap list_fmap]. rewrite !sumZ_cons.
  rewrite <- wrap64_add_r, IH, wrap64_add_r, <- wrap64_add_l, H3, wrap64_add_l. f_equal. lia.
Qed.

Lemma records_of_valid cat recs : Forall valid_record (records_of cat recs).
Proof. rewrite Forall_forall. intros x Hx. unfold records_of in Hx. by apply elem_of_list_filter in Hx as [[? _] _]. Qed.

Lemma decode_recent N I lo k rs : Forall valid_record rs ->
  let h := by_latest lo I (bc_hist (cat_ops rs)) in
  let hc := by_latest lo I (invocations rs) in
  let hm := by_latest lo I (durations_ms rs) in
  dec_count <$> recent_sum N h k =
    recent_value N hc k ((sum_at k hc + sum_at k hm / 2 ^ 38) mod 2 ^ 26) /\
  dec_rt <$> recent_sum N h k = recent_value N hm k (sum_at k hm mod 2 ^ 38).
Proof.
  intros Hv h hc hm.
  pose proof (F3_by_latest I _ _ _ (F3_hist rs Hv) lo) as F. fold h hc hm in F.
  destruct (F3_keys _ _ _ F) as [E1 E2].
  destruct (dec_of_sum _ _ _ (F3_sum k _ _ _ F)) as [D1 D2].
  unfold recent_sum, recent_value, newer_keys. rewrite <- E1, <- E2.
  destruct (decide _); cbn; [by rewrite D1, D2|done].
Qed.

(** ** C21: no capacity assumption, any clock *)
Lemma fc_mod_semantics max interval N recs order now start fc :
  Second <= interval -> in64 interval -> 0 <= N -> Forall (fun r => in64 (rc_time r)) recs ->
  (forall cat, in64 (now cat)) -> -1000 < start ->
  fc_exec max interval N recs = Ok fc -> is_order order (fc_subCategories fc) ->
  exists counts rts,
    fc_GetMethodCountPerCategorySince fc order now start = Ok counts /\
    fc_GetMethodRtPerCategorySince fc order now start = Ok rts /\
    (forall cat, is_Some (counts !! cat) <-> cat ∈ tracked max recs) /\
    (forall cat, is_Some (rts !! cat) <-> cat ∈ tracked max recs) /\
    forall cat k,
      let hc := by_latest (-1000) (interval / Second) (invocations (records_of cat recs)) in
      let hm := by_latest (-1000) (interval / Second) (durations_ms (records_of cat recs)) in
      let visible := start <= k /\ k <= trunc_key (interval / Second) (now cat) in
      (forall m, counts !! cat = Some m -> m !! k =
         if decide visible then recent_value (Z.to_nat N) hc k ((sum_at k hc + sum_at k hm / 2 ^ 38) mod 2 ^ 26)
         else None) /\
      (forall m, rts !! cat = Some m -> m !! k =
         if decide visible then recent_value (Z.to_nat N) hm k (sum_at k hm mod 2 ^ 38) else None).
Proof.
  intros H1 H2 H3 Hf Hn Hs E Ho.
  destruct (fc_getter max interval N recs dec_count order now start fc H1 H2 H3 Hf Hn Hs E Ho) as (rc & Ec & Dc & Rc).
  destruct (fc_getter max interval N recs dec_rt order now start fc H1 H2 H3 Hf Hn Hs E Ho) as (rr & Er & Dr & Rr).
  exists rc, rr. split; [exact Ec|]. split; [exact Er|]. split; [done|]. split; [done|].
  intros cat k. cbn zeta.
  destruct (decode_recent (Z.to_nat N) (interval / Second) (-1000) k (records_of cat recs) (records_of_valid cat recs)) as [D1 D2].
  split; intros m Hm.
  - rewrite (Rc _ _ k Hm), D1. done.
  - rewrite (Rr _ _ k Hm), D2. done.
Qed.

(** ** C16 *)
Lemma nondecreasing_weaken lo lo' ts hi : lo' <= lo -> nondecreasing lo ts hi -> nondecreasing lo' ts hi.
Proof. destruct ts; cbn; intuition lia. Qed.

Lemma nondecreasing_filter {A} (f : A -> Z) (P : A -> Prop) `{!forall x, Decision (P x)} l : forall lo hi,
  nondecreasing lo (f <$> l) hi -> nondecreasing lo (f <$> filter P l) hi.
Proof.
  induction l as [|x l IH]; intros lo hi Hn; [exact Hn|]. cbn in Hn. destruct Hn as [H1 H2].
  rewrite filter_cons. destruct (decide (P x)).
  - cbn. split; [done|]. by apply IH.
  - apply (nondecreasing_weaken (f x)); [done|]. by apply IH.
Qed.

Lemma nondecreasing_bounds lo ts hi : nondecreasing lo ts hi -> Forall (fun t => lo <= t <= hi) ts.
Proof.
  revert lo. induction ts as [|t ts IH]; intros lo H; [constructor|]. cbn in H. destruct H as [H1 H2].
  pose proof (nondecreasing_le _ _ _ H2) as [? _]. constructor; [lia|].
  eapply Forall_impl; [apply (IH _ H2)|]. cbn. lia.
Qed.

Lemma by_time_keys_bound I h t k : 1 <= I -> nondecreasing 0 h.*1 t -> k ∈ (by_time I h).*1 -> 0 <= k <= bucket_key I t.
Proof.
  intros HI Hnd Hk. unfold by_time in Hk. rewrite <- list_fmap_compose in Hk.
  apply elem_of_list_fmap in Hk as (u & -> & Hu). cbn.
  apply nondecreasing_bounds in Hnd. rewrite Forall_fmap, Forall_forall in Hnd. specialize (Hnd _ Hu). cbn in Hnd.
  split; [|by apply bucket_key_mono; lia].
  pose proof (bucket_key_mono I 0 u.1 HI ltac:(lia)) as H. unfold bucket_key in *. rewrite Z.div_0_l in H; lia.
Qed.

Lemma invocations_fst rs : (invocations rs).*1 = rc_time <$> rs.
Proof. unfold invocations. by rewrite <- list_fmap_compose. Qed.
Lemma durations_fst rs : (durations_ms rs).*1 = rc_time <$> rs.
Proof. unfold durations_ms. by rewrite <- list_fmap_compose. Qed.

Lemma sum_at_nonneg k l : Forall (fun u => 0 <= u.2) l -> 0 <= sum_at k l.
Proof.
  unfold sum_at. induction 1 as [|u l Hu Hf IH]; [done|]. rewrite filter_cons.
  destruct (decide _); [|done]. cbn [fmap list_fmap]. rewrite sumZ_cons. lia.
Qed.

Lemma fc_exact max interval N recs order now fc :
  Second <= interval -> in64 interval -> 0 <= N ->
  (forall cat, nondecreasing 0 (rc_time <$> recs) (now cat)) -> (forall cat, in64 (now cat)) ->
  (forall cat k, sum_at k (by_time (interval / Second) (invocations (records_of cat recs))) < 2 ^ 26) ->
  (forall cat k, sum_at k (by_time (interval / Second) (durations_ms (records_of cat recs))) < 2 ^ 38) ->
  fc_exec max interval N recs = Ok fc -> is_order order (fc_subCategories fc) ->
  exists counts rts,
    fc_GetMethodCountPerCategory fc order now = Ok counts /\
    fc_GetMethodRtPerCategory fc order now = Ok rts /\
    (forall cat, is_Some (counts !! cat) <-> cat ∈ tracked max recs) /\
    (forall cat, is_Some (rts !! cat) <-> cat ∈ tracked max recs) /\
    forall cat k,
      (forall m, counts !! cat = Some m -> m !! k =
         recent_total (Z.to_nat N) (by_time (interval / Second) (invocations (records_of cat recs))) k) /\
      (forall m, rts !! cat = Some m -> m !! k =
         recent_total (Z.to_nat N) (by_time (interval / Second) (durations_ms (records_of cat recs))) k).
Proof.
  intros H1 H2 H3 Hnd Hn Hc Hm E Ho.
  assert (HI : 1 <= interval / Second).
  { rewrite <- interval_seconds_div by done. by apply interval_seconds_pos. }
  set (I := interval / Second) in *.
  assert (Hf : Forall (fun r => in64 (rc_time r)) recs).
  { pose proof (nondecreasing_bounds _ _ _ (Hnd ""%string)) as Hb. rewrite Forall_fmap in Hb.
    eapply Forall_impl; [exact Hb|]. cbn. specialize (Hn ""%string). unfold in64, two63 in *. lia. }
  destruct (fc_mod_semantics max interval N recs order now 0 fc H1 H2 H3 Hf Hn ltac:(lia) E Ho)
    as (counts & rts & E1 & E2 & D1 & D2 & R).
  exists counts, rts. do 4 (split; [done|]). intros cat k.
  destruct (R cat k) as [R1 R2]. cbn zeta in R1, R2. fold I in R1, R2.
  assert (Hnd' : nondecreasing 0 (rc_time <$> records_of cat recs) (now cat)).
  { apply (nondecreasing_filter rc_time). apply Hnd. }
  assert (Hlo : -1000 <= bucket_key I 0) by (unfold bucket_key; rewrite Z.div_0_l; lia).
  assert (Ec : by_latest (-1000) I (invocations (records_of cat recs)) = by_time I (invocations (records_of cat recs))).
  { apply (by_latest_monotone I _ HI (-1000) 0 (now cat)); [lia|done|by rewrite invocations_fst]. }
  assert (Em : by_latest (-1000) I (durations_ms (records_of cat recs)) = by_time I (durations_ms (records_of cat recs))).
  { apply (by_latest_monotone I _ HI (-1000) 0 (now cat)); [lia|done|by rewrite durations_fst]. }
  rewrite Ec, Em in R1. rewrite Em in R2.
  assert (Hnow0 : 0 <= now cat) by (apply nondecreasing_le in Hnd' as [? _]; lia).
  rewrite bucket_key_trunc in R1, R2 by done.
  assert (Hm0 : 0 <= sum_at k (by_time I (durations_ms (records_of cat recs)))).
  { apply sum_at_nonneg. unfold by_time, durations_ms. rewrite <- list_fmap_compose. apply Forall_fmap.
    eapply Forall_impl; [apply (records_of_valid cat recs)|]. intros r [Hd _]. cbn. apply Z.div_pos; lia. }
  assert (Hc0 : 0 <= sum_at k (by_time I (invocations (records_of cat recs)))).
  { apply sum_at_nonneg. unfold by_time, invocations. rewrite <- list_fmap_compose. apply Forall_fmap.
    eapply Forall_impl; [apply (records_of_valid cat recs)|]. intros r [Hd _]. cbn. lia. }
  specialize (Hc cat k). specialize (Hm cat k).
  split; intros m Hmm.
  - rewrite (R1 _ Hmm). unfold recent_total, recent_value.
    destruct (decide (k ∈ _ /\ _)) as [[Hk Hw]|Hk]; [|by destruct (decide _)].
    rewrite decide_True.
    + f_equal. rewrite (Z.div_small (sum_at k (by_time I (durations_ms _)))) by lia.
      rewrite Z.add_0_r. apply Z.mod_small. lia.
    + apply by_time_keys_bound with (t := now cat) in Hk; [lia|done|by rewrite invocations_fst].
  - rewrite (R2 _ Hmm). unfold recent_total, recent_value.
    destruct (decide (k ∈ _ /\ _)) as [[Hk Hw]|Hk]; [|by destruct (decide _)].
    rewrite decide_True.
    + f_equal. apply Z.mod_small. lia.
    + apply by_time_keys_bound with (t := now cat) in Hk; [lia|done|by rewrite durations_fst].
Qed.

(** ** C17 *)
Lemma fc_combined max interval N recs order now start fc :
  Second <= interval -> in64 interval -> 0 <= N -> Forall (fun r => in64 (rc_time r)) recs ->
  (forall cat, in64 (now cat)) ->
  fc_exec max interval N recs = Ok fc -> is_order order (fc_subCategories fc) ->
  exists counts rts both,
    fc_GetMethodCountPerCategorySince fc order now start = Ok counts /\
    fc_GetMethodRtPerCategorySince fc order now start = Ok rts /\
    fc_GetCountAndRtPerCategorySince fc order now start = Ok both /\
    dom counts = (dom both : gset string) /\ dom rts = (dom both : gset string) /\
    forall cat mb, both !! cat = Some mb -> exists mc mr,
      counts !! cat = Some mc /\ rts !! cat = Some mr /\
      forall k, match mb !! k with
                | None => mc !! k = None /\ mr !! k = None
                | Some v => exists c t, mc !! k = Some c /\ mr !! k = Some t /\
                    v mod 2 ^ 64 = c * 2 ^ 38 + t /\ 0 <= t < 2 ^ 38 /\ 0 <= c < 2 ^ 26
                end.
Proof.
  intros H1 H2 H3 Hf Hn E Ho.
  destruct (fc_exec_inv max interval N recs H1 H2 H3 Hf) as (fc' & E' & I).
  rewrite E in E'. injection E' as <-.
  assert (Hex : forall cat, cat ∈ order -> exists c m, fc_subCategories fc !! cat = Some c /\
      bc_GetBucketCountsSince c (now cat) start = Ok m).
  { intros cat Hcat. apply (is_order_elem _ _ _ Ho) in Hcat as [c Hc].
    destruct (fi_counter _ _ _ _ _ I _ _ Hc) as (r & rs & Hrs & Hx).
    destruct (exec_since_size interval N (rc_createTime r) false (cat_ops (r :: rs)) (now cat) start H1 H2 H3)
      as (c' & m & Ec & Em & _); try done.
    - unfold cat_ops. apply Forall_fmap. rewrite <- Hrs. apply records_of_forall, Hf.
    - rewrite Hx in Ec. injection Ec as <-. eauto. }
  destruct (fc_collect_spec dec_count _ now start order Hex ∅) as (rc & Ec & C1 & C2).
  destruct (fc_collect_spec dec_rt _ now start order Hex ∅) as (rr & Er & R1 & R2).
  destruct (fc_collect_spec (fun x => x) _ now start order Hex ∅) as (rb & Eb & B1 & B2).
  exists rc, rr, rb. split; [exact Ec|]. split; [exact Er|]. split; [exact Eb|].
  assert (Hdom : forall (r : fc_result) (dec : Z -> Z),
    (forall cat, cat ∈ order -> exists c m, fc_subCategories fc !! cat = Some c /\
        bc_GetBucketCountsSince c (now cat) start = Ok m /\ r !! cat = Some (dec <$> m)) ->
    (forall cat, cat ∉ order -> r !! cat = (∅ : fc_result) !! cat) ->
    dom r = (list_to_set order : gset string)).
  { intros r dec Q1 Q2. apply set_eq. intros cat. rewrite elem_of_dom, elem_of_list_to_set. split.
    - intros [m Hm]. destruct (decide (cat ∈ order)); [done|]. rewrite Q2, lookup_empty in Hm by done. done.
    - intros Hcat. destruct (Q1 _ Hcat) as (? & ? & _ & _ & ->). eauto. }
  rewrite (Hdom _ _ C1 C2), (Hdom _ _ R1 R2), (Hdom _ _ B1 B2). split; [done|]. split; [done|].
  intros cat mb Hb. destruct (decide (cat ∈ order)) as [Hin|Hin].
  2:{ rewrite B2, lookup_empty in Hb by done. done. }
  destruct (C1 _ Hin) as (c & m & Hc & Hm & Hrc).
  destruct (R1 _ Hin) as (c' & m' & Hc' & Hm' & Hrr). rewrite Hc in Hc'. injection Hc' as <-.
  rewrite Hm in Hm'. injection Hm' as <-.
  destruct (B1 _ Hin) as (c' & m' & Hc' & Hm' & Hrb). rewrite Hc in Hc'. injection Hc' as <-.
  rewrite Hm in Hm'. injection Hm' as <-.
  rewrite Hb in Hrb. injection Hrb as ->. exists (dec_count <$> m), (dec_rt <$> m).
  do 2 (split; [done|]). intros k. rewrite !lookup_fmap. destruct (m !! k) as [v|]; cbn; [|done].
  exists (dec_count v), (dec_rt v). do 2 (split; [done|]). split; [apply dec_decode|].
  split; [apply dec_rt_mod|apply dec_count_div].
Qed.

(** ** C18, C19, C20 *)
Lemma fc_skip_invalid max interval N l1 r l2 : ~ valid_record r ->
  fc_exec max interval N (l1 ++ r :: l2) = fc_exec max interval N (l1 ++ l2).
Proof.
  intros H. unfold fc_exec. rewrite !run_ops_app. destruct (run_ops fc_Record _ l1); [|done].
  cbn [run_ops]. by rewrite fc_Record_invalid.
Qed.

Lemma fc_limit max interval N recs :
  Second <= interval -> in64 interval -> 0 <= N -> Forall (fun r => in64 (rc_time r)) recs ->
  exists fc, fc_exec max interval N recs = Ok fc /\
    (forall cat, is_Some (fc_subCategories fc !! cat) <-> cat ∈ tracked max recs) /\
    Z.of_nat (size (fc_subCategories fc)) <= Z.max 0 max.
Proof.
  intros H1 H2 H3 Hf. destruct (fc_exec_inv max interval N recs H1 H2 H3 Hf) as (fc & E & I).
  exists fc. split; [done|]. split; [apply I|]. rewrite (fi_size _ _ _ _ _ I).
  unfold tracked. rewrite take_length. lia.
Qed.

Lemma fc_excess_ignored max interval N recs r :
  Second <= interval -> in64 interval -> 0 <= N -> Forall (fun r => in64 (rc_time r)) (recs ++ [r]) ->
  rc_category r ∉ tracked max (recs ++ [r]) ->
  fc_exec max interval N (recs ++ [r]) = fc_exec max interval N recs.
Proof.
  intros H1 H2 H3 Hf Hn. pose proof (Forall_snoc_inv _ _ _ Hf) as [Hf' _].
  destruct (fc_exec_inv max interval N recs H1 H2 H3 Hf') as (fc & E & I).
  destruct (fc_inv_step max interval N recs fc r H1 H2 H3 Hf I) as (fc' & E' & _ & Hsame).
  rewrite (fc_exec_snoc _ _ _ _ _ _ E), E', E. by rewrite Hsame.
Qed.

Lemma fc_isolated max max' interval N recs recs' order order' now start cat fc fc' :
  Second <= interval -> in64 interval -> 0 <= N ->
  Forall (fun r => in64 (rc_time r)) recs -> Forall (fun r => in64 (rc_time r)) recs' ->
  in64 (now cat) -> (forall c, in64 (now c)) ->
  fc_exec max interval N recs = Ok fc -> fc_exec max' interval N recs' = Ok fc' ->
  is_order order (fc_subCategories fc) -> is_order order' (fc_subCategories fc') ->
  cat ∈ tracked max recs -> cat ∈ tracked max' recs' -> records_of cat recs = records_of cat recs' ->
  forall dec, exists r r' m, fc_collect dec (fc_subCategories fc) now start order ∅ = Ok r /\
    fc_collect dec (fc_subCategories fc') now start order' ∅ = Ok r' /\
    r !! cat = Some m /\ r' !! cat = Some m.
Proof.
  intros H1 H2 H3 Hf Hf' _ Hn E E' Ho Ho' Ht Ht' Hsame dec.
  destruct (fc_exec_inv max interval N recs H1 H2 H3 Hf) as (fc0 & E0 & I).
  rewrite E in E0. injection E0 as <-.
  destruct (fc_exec_inv max' interval N recs' H1 H2 H3 Hf') as (fc0 & E0 & I').
  rewrite E' in E0. injection E0 as <-.
  assert (G : forall mx rs f ord, Forall (fun r => in64 (rc_time r)) rs -> fc_inv mx interval N rs f ->
     is_order ord (fc_subCategories f) -> exists r, fc_collect dec (fc_subCategories f) now start ord ∅ = Ok r /\
     forall cat0, cat0 ∈ ord -> exists c m, fc_subCategories f !! cat0 = Some c /\
        bc_GetBucketCountsSince c (now cat0) start = Ok m /\ r !! cat0 = Some (dec <$> m)).
  { intros mx rs f ord Hfr If Hord.
    destruct (fc_collect_spec dec (fc_subCategories f) now start ord) with (r0 := ∅ : fc_result) as (r & Er & R1 & _).
    - intros cat0 Hcat. apply (is_order_elem _ _ _ Hord) in Hcat as [c Hc].
      destruct (fi_counter _ _ _ _ _ If _ _ Hc) as (r & rs0 & Hrs & Hx).
      destruct (exec_since_size interval N (rc_createTime r) false (cat_ops (r :: rs0)) (now cat0) start H1 H2 H3)
        as (c' & m & Ec & Em & _); try done.
      + unfold cat_ops. apply Forall_fmap. rewrite <- Hrs. apply records_of_forall, Hfr.
      + rewrite Hx in Ec. injection Ec as <-. eauto.
    - eauto. }
  destruct (G _ _ _ _ Hf I Ho) as (r & Er & R). destruct (G _ _ _ _ Hf' I' Ho') as (r' & Er' & R').
  apply (fi_dom _ _ _ _ _ I) in Ht. apply (fi_dom _ _ _ _ _ I') in Ht'.
  apply (is_order_elem _ _ _ Ho) in Ht. apply (is_order_elem _ _ _ Ho') in Ht'.
  destruct (R _ Ht) as (c & m & Hc & Hm & Hr). destruct (R' _ Ht') as (c' & m' & Hc' & Hm' & Hr').
  destruct (fi_counter _ _ _ _ _ I _ _ Hc) as (x & xs & Hx & Ex).
  destruct (fi_counter _ _ _ _ _ I' _ _ Hc') as (y & ys & Hy & Ey).
  rewrite Hsame, Hy in Hx. injection Hx as <- <-. rewrite Ey in Ex. injection Ex as <-.
  rewrite Hm in Hm'. injection Hm' as <-.
  exists r, r', (dec <$> m). done.
Qed.

(** ** C24 *)
Lemma lut_loop_spec sub order : (forall cat, cat ∈ order -> exists c t, sub !! cat = Some c /\ bc_LastUpdateTime c = Ok t) ->
  forall r0, exists r, fc_lut_loop sub order r0 = Ok r /\ r0 <= r /\
    (forall cat c t, cat ∈ order -> sub !! cat = Some c -> bc_LastUpdateTime c = Ok t -> t <= r) /\
    (r = r0 \/ exists cat c, cat ∈ order /\ sub !! cat = Some c /\ bc_LastUpdateTime c = Ok r).
Proof.
  induction order as [|k order IH]; intros Hex r0.
  - exists r0. split; [done|]. split; [lia|]. split; [|by left]. intros cat ? ? Hc. by apply elem_of_nil in Hc.
  - destruct (Hex k) as (c & t & Hc & Ht); [left|]. cbn [fc_lut_loop]. rewrite Hc. cbn [of_option mbind res_bind].
    rewrite Ht. cbn [mbind res_bind].
    destruct (IH (fun cat H => Hex cat (elem_of_list_further _ _ _ H)) (if r0 <? t then t else r0)) as (r & E & L & A & B).
    exists r. split; [done|]. split; [destruct (Z.ltb_spec r0 t); lia|]. split.
    + intros cat c' t' Hin Hc' Ht'. apply elem_of_cons in Hin as [->|Hin]; [|eauto].
      rewrite Hc in Hc'. injection Hc' as <-. rewrite Ht in Ht'. injection Ht' as <-.
      destruct (Z.ltb_spec r0 t); lia.
    + destruct B as [->|(cat & c' & Hin & ?)].
      * destruct (Z.ltb_spec r0 t); [|by left]. right. exists k, c. split; [left|done].
      * right. exists cat, c'. split; [by right|done].
Qed.

Lemma fc_lut max interval N recs order fc :
  Second <= interval -> in64 interval -> 0 <= N -> Forall (fun r => in64 (rc_time r)) recs ->
  fc_exec max interval N recs = Ok fc -> is_order order (fc_subCategories fc) ->
  exists r, fc_LastUpdateTime fc order = Ok r /\ 0 <= r /\
    (forall cat c t, fc_subCategories fc !! cat = Some c -> bc_LastUpdateTime c = Ok t -> t <= r) /\
    (r = 0 \/ exists cat c, fc_subCategories fc !! cat = Some c /\ bc_LastUpdateTime c = Ok r) /\
    (tracked max recs = [] -> r = 0).
Proof.
  intros H1 H2 H3 Hf E Ho.
  destruct (fc_exec_inv max interval N recs H1 H2 H3 Hf) as (fc' & E' & I).
  rewrite E in E'. injection E' as <-.
  destruct (lut_loop_spec (fc_subCategories fc) order) with (r0 := 0) as (r & Er & L & A & B).
  { intros cat Hcat. apply (is_order_elem _ _ _ Ho) in Hcat as [c Hc].
    destruct (fi_counter _ _ _ _ _ I _ _ Hc) as (r & rs0 & Hrs & Hx).
    destruct (exec_LastUpdateTime interval N (rc_createTime r) false (cat_ops (r :: rs0)) H1 H2 H3) as (c' & Ec & El).
    - unfold cat_ops. apply Forall_fmap. rewrite <- Hrs. apply records_of_forall, Hf.
    - rewrite Hx in Ec. injection Ec as <-. eauto. }
  exists r. split; [exact Er|]. split; [done|]. split.
  - intros cat c t Hc Ht. apply (A cat c t); try done. apply (is_order_elem _ _ _ Ho). eauto.
  - split.
    + destruct B as [->|(cat & c & _ & ? & ?)]; [by left|right; eauto].
    + intros Hnil. destruct B as [->|(cat & c & Hin & Hc & _)]; [done|].
      assert (cat ∈ tracked max recs) as Hx by (apply (fi_dom _ _ _ _ _ I); eauto).
      rewrite Hnil in Hx. by apply elem_of_nil in Hx.
Qed.

(** Only used to show that concrete histories satisfy the capacity hypotheses. *)
Lemma sumZ_filter_le {A} (f : A -> Z) (P : A -> Prop) `{!forall x, Decision (P x)} l :
  (forall x, x ∈ l -> 0 <= f x) -> sumZ (f <$> filter P l) <= sumZ (f <$> l).
Proof.
  induction l as [|x l IH]; intros Hf; [done|]. rewrite filter_cons.
  pose proof (IH (fun y Hy => Hf y (elem_of_list_further _ _ _ Hy))).
  pose proof (Hf x ltac:(left)).
  destruct (decide (P x)); cbn [fmap list_fmap]; rewrite !sumZ_cons; lia.
Qed.

Lemma capacity_bound I cat k recs (f : fc_record -> Z) : (forall r, 0 <= f r) ->
  sum_at k (by_time I ((fun r => (rc_time r, f r)) <$> records_of cat recs)) <= sumZ (f <$> recs).
Proof.
  intros Hf. unfold sum_at, by_time.
  etransitivity; [apply (sumZ_filter_le snd)|].
  - intros x Hx. rewrite <- list_fmap_compose in Hx. apply elem_of_list_fmap in Hx as (r & -> & _). cbn. apply Hf.
  - rewrite <- !list_fmap_compose. unfold records_of.
    apply (sumZ_filter_le f). intros; apply Hf.
Qed.
