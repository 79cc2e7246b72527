(** C62, C64, C65, C67 - C72, C79: registry and manager, one goroutine. *)
From Verif.Go Require Import GoInt GoFloat.
From Verif.Model Require Import Config Registry Nop.
From Verif.Spec Require Import ConfigSpec NameSpec RegistrySpec.
From Verif.Proofs Require Import RegistryProofs.
From Verif.Props Require Import PConfig.
Local Open Scope Z_scope.

(** C62.  In any history of lookups on any registry two lookups under the same
    hash key that return a metric return the identical one, and two lookups of
    the same kind have the same outcome. *)
Theorem C62_one_metric_per_name : forall r n ops i j k nm k' nm' x x',
  let xs := (reg_run r n ops).2 in
  ops !! i = Some (k, nm) -> ops !! j = Some (k', nm') -> nm_hash nm = nm_hash nm' ->
  xs !! i = Some x -> xs !! j = Some x' ->
  (forall m m', x = Ok m -> x' = Ok m' -> m = m') /\ (k = k' -> x = x').
Proof.
  intros r n ops i j k nm k' nm' x x'. cbv zeta. destruct (reg_run r n ops) as [[r' n'] xs] eqn:E. cbn [snd].
  intros Hi Hj Hh Hx Hx'. apply reg_run_spec in E as (_ & _ & _ & H).
  destruct (H i k nm x Hi Hx) as (e & He & ->). destruct (H j k' nm' x' Hj Hx') as (e' & He' & ->).
  rewrite Hh in He. rewrite He in He'. injection He' as <-. split; [|by intros ->].
  unfold assert_kind. intros m m' H1 H2. destruct (implements k _), (implements k' _); congruence.
Qed.
Print Assumptions C62_one_metric_per_name.

Definition n1 := NameRef "a" 0.
Definition n2 := NameRef "b" 4.
Definition n3 := NameRef "c" 2.
Example C62_case :
  (reg_run (NewMetricRegistry 2) 0 [(KCompass, n1); (KFastCompass, n2); (KCompass, n3); (KCompass, n1); (KFastCompass, n2)]).2
  = [Ok (MCompass 0 (CompassParams 0 10 (seconds 1) 20 20)); Ok (MFastCompass 1 (seconds 60) 10 20); Ok MNopCompass;
     Ok (MCompass 0 (CompassParams 0 10 (seconds 1) 20 20)); Ok (MFastCompass 1 (seconds 60) 10 20)].
Proof. vm_compute. reflexivity. Qed.

(** C64.  After any history (of fewer than 2^31 lookups: the counter is an
    int32) at most max metrics record; a name not seen before gets a recording
    metric as long as fewer than max names are registered and the no-op metric
    from then on. *)
Theorem C64_limit : forall max ops r' n' xs,
  reg_run (NewMetricRegistry max) 0 ops = (r', n', xs) -> Z.of_nat (length ops) < 2 ^ 31 ->
  recording_entries (reg_GetMetrics r') <= Z.max 0 max /\
  forall k nm r2 n2 x, reg_Get r' n' k nm = (r2, n2, x) -> reg_GetMetrics r' !! nm_hash nm = None ->
    (max <= Z.of_nat (size (reg_GetMetrics r')) -> x = Ok (nop k)) /\
    (Z.of_nat (size (reg_GetMetrics r')) < max -> exists m, x = Ok m /\ records m = true).
Proof.
  intros max ops r' n' xs H Hl. unfold reg_GetMetrics. split.
  - destruct (rinv_run _ _ _ _ _ H) as [(_ & _ & I) Hn]. apply I. lia.
  - intros k nm r2 n2 x Hg Hno. destruct (reg_full _ _ _ _ _ _ _ _ _ _ H Hl Hg Hno) as [A B].
    split; [done|]. intros Hs. eexists. split; [by apply B|]. apply records_create.
Qed.
Print Assumptions C64_limit.
Example C64_case :
  let '(r, _, _) := reg_run (NewMetricRegistry 2) 0 [(KCompass, n1); (KFastCompass, n2); (KCompass, n3)] in
  (recording_entries (reg_GetMetrics r), size (reg_GetMetrics r)) = (2, 3%nat).
Proof. vm_compute. reflexivity. Qed.

(** C65 is false: no-op entries are stored too. *)
Theorem C65_size_refuted :
  exists max ops, 0 < max /\ max < Z.of_nat (size (reg_GetMetrics (reg_run (NewMetricRegistry max) 0 ops).1.1)).
Proof. exists 1, [(KCompass, n1); (KCompass, n2)]. split; [done|]. vm_compute. reflexivity. Qed.
Print Assumptions C65_size_refuted.

(** What bounds it: one entry per distinct hash key looked up, no more, no less. *)
Theorem C65_size_partial : forall max ops r' n' xs,
  reg_run (NewMetricRegistry max) 0 ops = (r', n', xs) ->
  dom (reg_GetMetrics r') = hashes ops /\ size (reg_GetMetrics r') = size (hashes ops).
Proof.
  intros max ops r' n' xs H. apply reg_run_dom in H. cbn [NewMetricRegistry r_metricsMap] in H.
  rewrite dom_empty_L, (left_id_L ∅ (∪)) in H. unfold reg_GetMetrics. split; [done|]. by rewrite <- size_dom, H.
Qed.
Print Assumptions C65_size_partial.

(** C67 is false: a name registered as one kind makes the lookup as the other
    kind panic. *)
Theorem C67_no_panic_refuted :
  exists max ops, In Panic (reg_run (NewMetricRegistry max) 0 ops).2.
Proof. exists 10, [(KCompass, n1); (KFastCompass, n1)]. vm_compute. auto. Qed.
Print Assumptions C67_no_panic_refuted.

(** If every hash key is used with one kind only, every lookup returns a metric
    of its kind. *)
Theorem C67_no_panic_partial : forall (kind : string -> mkind) max ops i k nm x,
  Forall (fun o => o.1 = kind (nm_hash o.2)) ops ->
  ops !! i = Some (k, nm) -> (reg_run (NewMetricRegistry max) 0 ops).2 !! i = Some x ->
  exists m, x = Ok m /\ (shape m).1 = k.
Proof.
  intros kind max ops i k nm x HF Hi Hx.
  destruct (reg_run (NewMetricRegistry max) 0 ops) as [[r' n'] xs] eqn:E. cbn [snd] in Hx.
  pose proof (reg_run_spec _ _ _ _ _ _ E) as (_ & _ & _ & H). destruct (H i k nm x Hi Hx) as (e & He & ->).
  pose proof (kinds_run _ _ _ _ _ _ HF E _ _ He) as Hk.
  rewrite Forall_lookup in HF. pose proof (HF i _ Hi) as Hki. cbn in Hki. rewrite <- Hki in Hk.
  unfold assert_kind. rewrite Hk. exists (e_metric e). split; [done|]. destruct k, (e_metric e); done.
Qed.
Print Assumptions C67_no_panic_partial.

(** C68.  The two listings are disjoint, together make up GetMetrics, and any
    metric a lookup returned is listed under its hash key in the listing of its
    kind. *)
Theorem C68_listings : forall r,
  reg_GetCompasses r ∪ reg_GetFastCompasses r = reg_GetMetrics r /\
  (forall h, reg_GetCompasses r !! h = None \/ reg_GetFastCompasses r !! h = None).
Proof.
  intros r. unfold reg_GetCompasses, reg_GetFastCompasses, reg_getMetrics, reg_GetMetrics.
  assert (Hl : forall k h, filter (fun he : string * mentry => implements k (e_metric he.2) = true) (r_metricsMap r) !! h =
     e ← r_metricsMap r !! h; if implements k (e_metric e) then Some e else None).
  { intros k h. rewrite map_filter_lookup. destruct (r_metricsMap r !! h) as [e|]; cbn [option_bind mbind]; [|done].
    destruct (implements k (e_metric e)) eqn:E; [by rewrite option_guard_True|by rewrite option_guard_False by (cbn; congruence)]. }
  split.
  - apply map_eq. intros h. rewrite lookup_union, !Hl.
    destruct (r_metricsMap r !! h) as [e|]; cbn [option_bind mbind]; [|done].
    rewrite (implements_xor (e_metric e)). by destruct (implements KFastCompass (e_metric e)).
  - intros h. rewrite !Hl. destruct (r_metricsMap r !! h) as [e|]; cbn [option_bind mbind]; [|by left].
    rewrite (implements_xor (e_metric e)). destruct (implements KFastCompass (e_metric e)); [by left|by right].
Qed.
Print Assumptions C68_listings.

Theorem C68_lookups_listed : forall r n ops i k nm m,
  ops !! i = Some (k, nm) -> (reg_run r n ops).2 !! i = Some (Ok m) ->
  let r' := (reg_run r n ops).1.1 in
  exists e, (match k with KCompass => reg_GetCompasses r' | KFastCompass => reg_GetFastCompasses r' end) !! nm_hash nm = Some e /\
    e_metric e = m.
Proof.
  intros r n ops i k nm m Hi Hx. cbv zeta. destruct (reg_run r n ops) as [[r' n'] xs] eqn:E. cbn [fst snd] in *.
  apply reg_run_spec in E as (_ & _ & _ & H). destruct (H i k nm _ Hi Hx) as (e & He & Hm).
  exists e. unfold assert_kind in Hm. destruct (implements k (e_metric e)) eqn:Ei; [|done]. injection Hm as ->.
  split; [|done]. unfold reg_GetCompasses, reg_GetFastCompasses, reg_getMetrics.
  destruct k; rewrite map_filter_lookup, He; cbn [option_bind mbind]; by rewrite option_guard_True.
Qed.
Print Assumptions C68_lookups_listed.
Example C68_case :
  let '(r, _, _) := reg_run (NewMetricRegistry 2) 0 [(KCompass, n1); (KFastCompass, n2); (KCompass, n3)] in
  (elements (dom (reg_GetCompasses r)), elements (dom (reg_GetFastCompasses r))) = (["a"; "c"], ["b"]) \/
  (elements (dom (reg_GetCompasses r)), elements (dom (reg_GetFastCompasses r))) = (["c"; "a"], ["b"]).
Proof. vm_compute. auto. Qed.

(** C69.  Whatever the order of iteration the result is the largest
    LastUpdateTime of the registered metrics, or 0 when there is none (or all are
    negative). *)
Theorem C69_last_update_time : forall r lut order,
  iterates order (reg_GetMetrics r) ->
  let z := reg_LastUpdateTime lut order in
  0 <= z /\ (forall h e, reg_GetMetrics r !! h = Some e -> lut (e_metric e) <= z) /\
  (z = 0 \/ exists h e, reg_GetMetrics r !! h = Some e /\ z = lut (e_metric e)) /\
  (reg_GetMetrics r = ∅ -> z = 0).
Proof.
  intros r lut order Hit. cbv zeta. destruct (reg_lut_loop_spec lut order 0) as (A & B & C). unfold reg_LastUpdateTime.
  unfold iterates in Hit. split_and!.
  - done.
  - intros h e He. apply (B h). rewrite Hit. by apply elem_of_map_to_list.
  - destruct C as [C|(h & e & C1 & C2)]; [by left|]. right. exists h, e. split; [|done].
    apply elem_of_map_to_list. by rewrite <- Hit.
  - intros E. rewrite E, map_to_list_empty in Hit. apply Permutation_nil_r in Hit as ->. done.
Qed.
Print Assumptions C69_last_update_time.
Example C69_case : reg_LastUpdateTime (fun m => match m with MCompass _ _ => 17 | MFastCompass _ _ _ _ => 23 | _ => 0 end)
   [("b", MetricNameToMetricEntry (MFastCompass 1 1 1 1) n2); ("a", MetricNameToMetricEntry (MCompass 0 (CompassParams 0 10 1 20 20)) n1);
    ("c", MetricNameToMetricEntry MNopCompass n3)] = 23.
Proof. reflexivity. Qed.

(** C70.  While disabled every lookup returns the no-op metric of its kind and
    leaves the manager as it was; after enabling again everything behaves as if
    the disabled period had not been. *)
Theorem C70_disabled : forall d ops,
  m_enable d = false -> Forall is_get ops ->
  (mgr_run d ops).1 = d /\
  forall i k g nm, ops !! i = Some (OpGet k g nm) -> (mgr_run d ops).2 !! i = Some (Some (Ok (nop k))).
Proof.
  intros d ops Hd HF. rewrite mgr_run_disabled by done. cbn [fst snd]. split; [done|].
  intros i k g nm Hi. rewrite list_lookup_fmap, Hi. done.
Qed.
Print Assumptions C70_disabled.

Theorem C70_enabled_again : forall before during after d0 d1 xs1,
  Forall is_get during -> mgr_run d0 before = (d1, xs1) -> m_enable d1 = true ->
  (mgr_run d0 (before ++ [OpSetEnable false] ++ during ++ [OpSetEnable true] ++ after)).1 =
    (mgr_run d0 (before ++ after)).1 /\
  drop (length before + 1 + length during + 1)
    (mgr_run d0 (before ++ [OpSetEnable false] ++ during ++ [OpSetEnable true] ++ after)).2 =
  drop (length before) (mgr_run d0 (before ++ after)).2.
Proof.
  intros before during after d0 d1 xs1 HF H1 Hen.
  assert (length xs1 = length before) as Hl1.
  { clear -H1. revert d0 xs1 H1. induction before as [|o b IH]; intros d0 xs1 H1; cbn in H1; [by injection H1 as <- <-|].
    destruct (mgr_act d0 o) as [d2 y]. destruct (mgr_run d2 b) as [d3 ys] eqn:E. injection H1 as <- <-. cbn.
    f_equal. eauto. }
  rewrite !mgr_run_app, H1. cbn [app mgr_run mgr_act].
  set (dd := DefaultMetricManager (m_registries d1) false (m_next d1)).
  rewrite mgr_run_app, mgr_run_disabled by done. cbn [app mgr_run mgr_act m_registries m_next dd].
  assert (DefaultMetricManager (m_registries d1) true (m_next d1) = d1) as -> by (destruct d1; cbn in *; congruence).
  destruct (mgr_run d1 after) as [d2 xs2]. cbn [fst snd]. split; [done|].
  rewrite <- Hl1 at 2. rewrite drop_app.
  rewrite (app_comm_cons (nop_answer <$> during)), app_assoc.
  change (None :: xs2) with ([None] ++ xs2). rewrite app_assoc.
  apply drop_app_alt. rewrite !app_length. cbn. rewrite fmap_length. lia.
Qed.
Print Assumptions C70_enabled_again.
Example C70_case :
  (mgr_run newDefaultMetricManager [OpGet KFastCompass "g" n1; OpSetEnable false; OpGet KFastCompass "g" n1;
     OpGet KCompass "h" n2; OpSetEnable true; OpGet KFastCompass "g" n1]).2
  = [Some (Ok (MFastCompass 0 (seconds 1) 10 20)); None; Some (Ok MNopFastCompass); Some (Ok MNopCompass); None;
     Some (Ok (MFastCompass 0 (seconds 1) 10 20))].
Proof. vm_compute. reflexivity. Qed.

(** C71.  In a history in which the manager is never disabled: the same group
    and hash key give the identical metric; a recording metric is never returned
    for two different groups or hash keys (this also with disabling). *)
Theorem C71_same_group_same_metric : forall ops i j k k' g nm nm' m m',
  Forall (fun o => o <> OpSetEnable false) ops ->
  let xs := (mgr_run newDefaultMetricManager ops).2 in
  ops !! i = Some (OpGet k g nm) -> ops !! j = Some (OpGet k' g nm') -> nm_hash nm = nm_hash nm' ->
  xs !! i = Some (Some (Ok m)) -> xs !! j = Some (Some (Ok m')) -> m = m'.
Proof.
  intros ops i j k k' g nm nm' m m' HF. cbv zeta.
  destruct (mgr_run newDefaultMetricManager ops) as [d xs] eqn:E. cbn [snd]. intros Hi Hj Hh Hx Hx'.
  destruct (mgr_run_spec _ _ _ _ E mgr_refs_new) as (_ & _ & _ & H).
  destruct (H i k g nm _ Hi Hx) as [[_ C]|(e & He & Hm)]; [by destruct C|].
  destruct (H j k' g nm' _ Hj Hx') as [[_ C]|(e' & He' & Hm')]; [by destruct C|].
  rewrite Hh, He' in He. injection He as <-. unfold assert_kind in *.
  destruct (implements k _), (implements k' _); congruence.
Qed.
Print Assumptions C71_same_group_same_metric.

Theorem C71_no_sharing : forall ops i j k k' g g' nm nm' m,
  let xs := (mgr_run newDefaultMetricManager ops).2 in
  ops !! i = Some (OpGet k g nm) -> ops !! j = Some (OpGet k' g' nm') -> records m = true ->
  xs !! i = Some (Some (Ok m)) -> xs !! j = Some (Some (Ok m)) -> g = g' /\ nm_hash nm = nm_hash nm'.
Proof.
  intros ops i j k k' g g' nm nm' m. cbv zeta.
  destruct (mgr_run newDefaultMetricManager ops) as [d xs] eqn:E. cbn [snd]. intros Hi Hj Hr Hx Hx'.
  destruct (mgr_run_spec _ _ _ _ E mgr_refs_new) as ([_ R] & _ & _ & H).
  destruct (H i k g nm _ Hi Hx) as [[Hm _]|(e & He & Hm)].
  { injection Hm as ->. by rewrite records_nop in Hr. }
  destruct (H j k' g' nm' _ Hj Hx') as [[Hm' _]|(e' & He' & Hm')].
  { injection Hm' as ->. by rewrite records_nop in Hr. }
  unfold assert_kind in Hm, Hm'. destruct (implements k _); [|done]. destruct (implements k' _); [|done].
  injection Hm as ->. injection Hm' as Hm'.
  assert (exists ref, mref (e_metric e) = Some ref) as [ref Href] by (destruct (e_metric e); cbn in *; eauto; done).
  eapply R; [done|done|done|]. by rewrite <- Hm'.
Qed.
Print Assumptions C71_no_sharing.

(** Each group behaves as a registry of its own with limit 5000 used by that
    group's lookups alone (recording or no-op, kind, panic). *)
Theorem C71_groups_independent : forall g ops,
  Forall (fun o => o <> OpSetEnable false) ops ->
  res_shape <$> group_results g ops (mgr_run newDefaultMetricManager ops).2 =
  res_shape <$> (reg_run (NewMetricRegistry 5000) 0 (group_ops g ops)).2.
Proof.
  intros g ops HF. destruct (mgr_run newDefaultMetricManager ops) as [d xs] eqn:E1.
  destruct (reg_run (NewMetricRegistry 5000) 0 (group_ops g ops)) as [[r n] ys] eqn:E2. cbn [snd].
  refine (mgr_group g ops newDefaultMetricManager d xs (NewMetricRegistry 5000) 0 r n ys _ HF _ E1 E2); [done|].
  cbn [newDefaultMetricManager m_registries]. rewrite lookup_empty. done.
Qed.
Print Assumptions C71_groups_independent.
Example C71_case :
  (mgr_run newDefaultMetricManager [OpGet KFastCompass "g" n1; OpGet KFastCompass "h" n1; OpGet KFastCompass "g" n1]).2
  = [Some (Ok (MFastCompass 0 (seconds 1) 10 20)); Some (Ok (MFastCompass 1 (seconds 1) 10 20));
     Some (Ok (MFastCompass 0 (seconds 1) 10 20))].
Proof. vm_compute. reflexivity. Qed.

(** C72.  In every history of calls on a no-op metric every answer is zero or
    empty (the no-op fast compass reports a bucket interval of one second). *)
Definition zero_or_empty (a : answer) : Prop :=
  match a with
  | ANone | ANopCounter | ANopSnapshot => True
  | AInt z => z = 0 | AFloat f => f = f0 | ACounts m => m = ∅ | AResult m => m = ∅
  | AValues l => l = [] | ANopCounters m => m = ∅
  end.
Lemma answers_all {C} (act : unit -> C -> unit * answer) (P : C -> answer -> Prop) calls i c a :
  (forall s c, P c (act s c).2) ->
  calls !! i = Some c -> answers act tt calls !! i = Some a -> P c a.
Proof.
  intros HP. generalize tt. revert i. induction calls as [|c0 calls IH]; intros i s Hc Ha; [done|].
  cbn [answers] in Ha. destruct (act s c0) as [s' a0] eqn:E. destruct i as [|i]; cbn in Hc, Ha.
  - injection Hc as <-. injection Ha as <-. specialize (HP s c0). by rewrite E in HP.
  - eauto.
Qed.
Theorem C72_nop_metrics :
  (forall calls i c a, calls !! i = Some c -> answers nc_act tt calls !! i = Some a -> zero_or_empty a) /\
  (forall calls i c a, calls !! i = Some c -> answers nbc_act tt calls !! i = Some a -> zero_or_empty a) /\
  (forall calls i c a, calls !! i = Some c -> answers ns_act tt calls !! i = Some a -> zero_or_empty a) /\
  (forall calls i c a, calls !! i = Some c -> answers nfc_act tt calls !! i = Some a ->
     (c = NfGetBucketInterval /\ a = AInt (seconds 1)) \/ (c <> NfGetBucketInterval /\ zero_or_empty a)).
Proof.
  split_and!; intros calls i c a.
  - apply (answers_all nc_act (fun _ a => zero_or_empty a)). by intros s [].
  - apply (answers_all nbc_act (fun _ a => zero_or_empty a)). by intros s [].
  - apply (answers_all ns_act (fun _ a => zero_or_empty a)). by intros s [].
  - apply (answers_all nfc_act (fun c a => (c = NfGetBucketInterval /\ a = AInt (seconds 1)) \/
      (c <> NfGetBucketInterval /\ zero_or_empty a))). intros s []; cbn; first [by left|right; split; done].
Qed.
Print Assumptions C72_nop_metrics.
Example C72_case : answers nc_act tt [NcUpdate 5; NcUpdateWithError 7 true "e" "a"; NcGetCount; NcGetInstantCount; NcGetErrorCodeCounts]
  = [ANone; ANone; AInt 0; ACounts ∅; ANopCounters ∅].
Proof. reflexivity. Qed.

(** C79 is false: the limit for error codes is the one for addons. *)
Theorem C79_error_limit_refuted :
  exists nm, match reg_Get (NewMetricRegistry 10) 0 KCompass nm with
  | (_, _, Ok (MCompass _ p)) => cpp_maxErrorCodeCount p <> 100 /\ cpp_maxErrorCodeCount p <> GetMaxCompassErrorCodeCount GetMetricConfig
  | _ => False end.
Proof. exists n1. vm_compute. split; discriminate. Qed.
Print Assumptions C79_error_limit_refuted.

(** Everything else is as configured: ten buckets, 20 addons, the interval of
    the level; the interval is never below one second.  (Missing: 100 error
    codes.) *)
Theorem C79_compass_partial : forall r n nm r' n' ref p,
  reg_GetMetrics r !! nm_hash nm = None ->
  reg_Get r n KCompass nm = (r', n', Ok (MCompass ref p)) ->
  cpp_numOfBucket p = GetBucketCount GetMetricConfig /\ cpp_numOfBucket p = 10 /\
  cpp_maxAddonCount p = GetMaxCompassAddonCount GetMetricConfig /\ cpp_maxAddonCount p = 20 /\
  cpp_reservoirType p = GetReservoirType GetMetricConfig /\
  cpp_bucketInterval p = GetLevelInterval GetMetricConfig (nm_level nm) /\
  (0 <= nm_level nm <= 2 -> cpp_bucketInterval p = seconds 1) /\
  (~ 0 <= nm_level nm <= 2 -> cpp_bucketInterval p = seconds 60).
Proof.
  intros r n nm r' n' ref p Hn H. apply reg_Get_spec in H as (_ & _ & e & _ & Hx & [(H3 & _)|(_ & _ & _ & _ & _ & H6)]).
  { unfold reg_GetMetrics in Hn. congruence. }
  unfold assert_kind in Hx. destruct (implements KCompass (e_metric e)); [|done]. injection Hx as Hx.
  rewrite <- Hx in H6. destruct (_ <=? _) in H6; [discriminate H6|]. cbn [create] in H6. injection H6 as -> ->.
  cbn [cpp_numOfBucket cpp_maxAddonCount cpp_reservoirType cpp_bucketInterval].
  destruct (C74_level_interval_partial GetMetricConfig (nm_level nm)) as (A & B & C).
  split_and!; try done. intros Hl. destruct (decide (3 <= nm_level nm <= 4)); [by apply B|]. rewrite C by lia. done.
Qed.
Print Assumptions C79_compass_partial.
Example C79_case : (reg_Get (NewMetricRegistry 10) 0 KCompass n2).2 = Ok (MCompass 0 (CompassParams 0 10 (seconds 60) 20 20)).
Proof. vm_compute. reflexivity. Qed.

(** The no-op manager is never enabled and only hands out no-op metrics. *)
Theorem C72_nop_manager : forall k g nm, nopmgr_Get k g nm = nop k /\ nopmgr_IsEnable = false /\ records (nopmgr_Get k g nm) = false.
Proof. intros [] g nm; done. Qed.
Print Assumptions C72_nop_manager.
