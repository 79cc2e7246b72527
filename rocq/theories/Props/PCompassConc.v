(** C36, C90-C94: a compass used by any number of goroutines.
    [cp_crun I maxE maxA start clock progs sched] starts goroutines with the programs
    [progs] on a new compass (bucket interval [I], limits [maxE] and [maxA], created at
    time [start]) and runs them under the arbitrary schedule [sched], which also sets the
    clock.  Spec/CompassConcSpec.v defines what the programs ask for ([planned ...]) and
    what the goroutines have still to do ([all ...], [to_come ...]). *)
From Verif.Go Require Import GoInt GoFloat GoConc.
From Verif.Model Require Import BucketQueue BucketCounter EWMA Compass CompassConc.
From Verif.Spec Require Import BucketSpec CompassConcSpec.
From Verif.Proofs Require Import BucketHist BucketMain CompassConcProofs CompassConcTables CompassConcMore.
Local Open Scope Z_scope.

(** C36 at every moment: the pending count, the counts passed to the 1 minute average,
    the count somebody has just taken and the updates still to count themselves add up
    to the number of updates; what one average received the next one receives; and each
    average is the result of its ticks. *)
Theorem C36_concurrent : forall I maxE maxA start clock progs sched, let c := cp_crun I maxE maxA start clock progs sched in
  let s := shared c in let ts := threads c in let n := Z.of_nat (length (planned durations progs)) in n < 2 ^ 63 ->
  mt_uncounted (cs_meter s) + sumZ (cs_log1 s) + sumZ (all taken ts) + Z.of_nat (length (all uncounted_yet ts)) + Z.of_nat (length (to_come durations ts)) = n /\
  0 <= mt_uncounted (cs_meter s) /\ Forall (fun count => 0 <= count) (cs_log1 s) /\
  cs_log1 s ≡ₚ cs_log5 s ++ all not_yet5 ts /\ cs_log5 s ≡ₚ cs_log15 s ++ all not_yet15 ts /\
  mt_m1Rate (cs_meter s) = fold_left ew_TickN (cs_log1 s) zeroEWMA /\
  mt_m5Rate (cs_meter s) = fold_left ew_TickN (cs_log5 s) zeroEWMA /\
  mt_m15Rate (cs_meter s) = fold_left ew_TickN (cs_log15 s) zeroEWMA.
Proof.
  intros I maxE maxA start clock progs sched. cbv zeta. intros Hn. destruct (minv_run I maxE maxA start clock progs sched Hn) as [M1 M2 M3 M4 M5 M6 M7 M8 M9].
  split; [|done]. unfold all at 1. rewrite sum_join, len_all, len_to_come. rewrite <- M4. clear. generalize (threads (cp_crun I maxE maxA start clock progs sched)) as ts. intros ts.
  rewrite <- !Z.add_assoc. f_equal. f_equal. f_equal. induction ts as [|t ts IH]; [done|]. cbn [fmap list_fmap]. rewrite !sumZ_cons.
  change (list_fmap kthread Z) with (fmap (M := list) (A := kthread) (B := Z)). unfold left_count at 1. lia.
Qed.
Print Assumptions C36_concurrent.

Lemma done_all {A} (f : kpc -> list A) ts : Forall cp_done ts -> f PIdle = [] -> all f ts = [].
Proof. intros H E. unfold all. induction H as [|t ts [_ Hp] _ IH]; [done|]. cbn. rewrite Hp, E. exact IH. Qed.
Lemma done_to_come {A} (f : list kcall -> list A) ts : Forall cp_done ts -> f [] = [] -> to_come f ts = [].
Proof. intros H E. unfold to_come. induction H as [|t ts [Ht _] _ IH]; [done|]. cbn. rewrite Ht, E. exact IH. Qed.

(** C36 when all goroutines have finished: every update is either pending or was passed
    to each of the three averages, in the same portions. *)
Theorem C36_concurrent_final : forall I maxE maxA start clock progs sched, let c := cp_crun I maxE maxA start clock progs sched in
  let s := shared c in let n := Z.of_nat (length (planned durations progs)) in n < 2 ^ 63 -> Forall cp_done (threads c) ->
  exists counts1 counts5 counts15, counts1 ≡ₚ counts5 /\ counts5 ≡ₚ counts15 /\
    mt_m1Rate (cs_meter s) = fold_left ew_TickN counts1 zeroEWMA /\
    mt_m5Rate (cs_meter s) = fold_left ew_TickN counts5 zeroEWMA /\
    mt_m15Rate (cs_meter s) = fold_left ew_TickN counts15 zeroEWMA /\
    Forall (fun count => 0 <= count) counts1 /\ 0 <= mt_uncounted (cs_meter s) /\
    sumZ counts1 + mt_uncounted (cs_meter s) = n.
Proof.
  intros I maxE maxA start clock progs sched. cbv zeta. intros Hn Hd. destruct (C36_concurrent I maxE maxA start clock progs sched Hn) as (H1 & H2 & H3 & H4 & H5 & H6 & H7 & H8). set (s := shared (cp_crun I maxE maxA start clock progs sched)) in *.
  rewrite (done_all taken), (done_all uncounted_yet), (done_to_come durations) in H1 by done. rewrite (done_all not_yet5), app_nil_r in H4 by done. rewrite (done_all not_yet15), app_nil_r in H5 by done.
  exists (cs_log1 s), (cs_log5 s), (cs_log15 s). split_and!; try done. cbn in H1. lia.
Qed.
Print Assumptions C36_concurrent_final.

(** Two goroutines; both notice that a tick is due, the second one loses the race for
    it; the first one's round then competes with the second one's update. *)
Definition race : list (event Z) :=
  replicate 7 (Run 0%nat) ++ [Env (11 * Second)] ++ [Run 0; Run 1; Run 0; Run 1; Run 0; Run 1; Run 0; Run 1; Run 1; Run 1; Run 0; Run 0]%nat ++ replicate 30 (Run 0%nat) ++ replicate 30 (Run 1%nat).
Example C36_case :
  let c := cp_crun (5 * Second) 2 2 0 0 [[KUpdate 7 None; KUpdate 8 None; KUpdate 9 None]; [KUpdate 10 None; KRate]] race in
  forallb (fun t => match kt_todo t, kt_pc t with [], PIdle => true | _, _ => false end) (threads c) = true /\
  cs_log1 (shared c) = [2; 0] /\ cs_log5 (shared c) = [2; 0] /\ cs_log15 (shared c) = [2; 0] /\ mt_uncounted (cs_meter (shared c)) = 2 /\ cs_total (shared c) = 4.
Proof. vm_compute. repeat split. Qed.
Print Assumptions C36_case.

(** C90: at every moment the total count, the success count and the durations the
    reservoir received account for exactly the calls that have got that far, and the
    success count is never above the total. *)
Theorem C90_concurrent_counts : forall I maxE maxA start clock progs sched, let c := cp_crun I maxE maxA start clock progs sched in
  let s := shared c in let ts := threads c in
  cs_total s + Z.of_nat (length (all untotalled_yet ts ++ to_come durations ts)) = Z.of_nat (length (planned durations progs)) /\
  cs_success s + successes (all unjudged_yet ts ++ to_come results ts) = successes (planned results progs) /\
  cs_durations s ++ all unsampled_yet ts ++ to_come durations ts ≡ₚ planned durations progs /\
  0 <= cs_success s <= cs_total s.
Proof.
  intros I maxE maxA start clock progs sched. cbv zeta. split; [|split; [|split; [|exact (success_le_total I maxE maxA start clock progs sched)]]].
  - pose proof (conserved I maxE maxA cs_total left_total (fun _ => True) (cp_cinit start clock progs) (fun _ => Logic.I)) as H.
    specialize (H (fun s ts i t s' t' _ _ Hs => step_total I maxE maxA s t s' t' Hs) (fun _ _ => eq_refl) sched). cbv zeta in H. unfold cp_crun. set (c := crun _ _ _ _) in *.
    rewrite app_length, Nat2Z.inj_add, len_all, len_to_come.
    transitivity (cs_total (shared c) + sumZ (left_total <$> threads c)).
    { f_equal. clear. induction (threads c) as [|t ts IH]; [done|]. cbn [fmap list_fmap]. rewrite !sumZ_cons. change (list_fmap kthread Z) with (fmap (M := list) (A := kthread) (B := Z)). unfold left_total at 1. lia. }
    rewrite H. cbn [cp_cinit shared threads cs_total]. rewrite Z.add_0_l. unfold planned. clear. induction progs as [|p ps IH]; [done|]. cbn [fmap list_fmap mjoin list_join].
    rewrite sumZ_cons, app_length, Nat2Z.inj_add. f_equal. exact IH.
  - set (mu := fun t => successes (unjudged_yet (kt_pc t)) + successes (results (kt_todo t))).
    pose proof (conserved I maxE maxA cs_success mu (fun _ => True) (cp_cinit start clock progs) (fun _ => Logic.I)) as H.
    specialize (H (fun s ts i t s' t' _ _ Hs => step_success I maxE maxA s t s' t' Hs) (fun _ _ => eq_refl) sched). cbv zeta in H. unfold cp_crun. set (c := crun _ _ _ _) in *.
    rewrite successes_app. unfold all, to_come. rewrite !successes_join.
    transitivity (cs_success (shared c) + sumZ (mu <$> threads c)).
    { f_equal. clear. induction (threads c) as [|t ts IH]; [done|]. cbn [fmap list_fmap]. rewrite !sumZ_cons. change (list_fmap kthread Z) with (fmap (M := list) (A := kthread) (B := Z)). unfold mu at 1. lia. }
    rewrite H. cbn [cp_cinit shared threads cs_success]. rewrite Z.add_0_l. unfold planned. rewrite successes_join. clear. induction progs as [|p ps IH]; [done|]. cbn [fmap list_fmap].
    rewrite !sumZ_cons. f_equal. exact IH.
  - set (mu := fun t => unsampled_yet (kt_pc t) ++ durations (kt_todo t)).
    pose proof (conservedP I maxE maxA cs_durations mu (cp_cinit start clock progs) (fun s t s' t' Hs => step_durations I maxE maxA s t s' t' Hs) (fun _ _ => eq_refl) sched) as H.
    cbv zeta in H. unfold cp_crun. set (c := crun _ _ _ _) in *. unfold mu in H. rewrite join_app in H. unfold all, to_come. rewrite H.
    cbn [cp_cinit shared threads cs_durations]. cbn [app]. rewrite join_app, <- !list_fmap_compose. unfold planned.
    replace (mjoin (((λ x : kthread, unsampled_yet (kt_pc x)) ∘ (λ p, KThread p PIdle [])) <$> progs)) with (@nil Z); [done|]. clear. induction progs as [|p ps IH]; [done|]. exact IH.
Qed.
Print Assumptions C90_concurrent_counts.

(** C90 when all goroutines have finished. *)
Theorem C90_concurrent_counts_final : forall I maxE maxA start clock progs sched, let c := cp_crun I maxE maxA start clock progs sched in
  Forall cp_done (threads c) ->
  cs_total (shared c) = Z.of_nat (length (planned durations progs)) /\
  cs_success (shared c) = successes (planned results progs) /\ cs_durations (shared c) ≡ₚ planned durations progs.
Proof.
  intros I maxE maxA start clock progs sched c Hd. destruct (C90_concurrent_counts I maxE maxA start clock progs sched) as (H1 & H2 & H3 & _). fold c in H1, H2, H3.
  rewrite (done_all untotalled_yet), (done_to_come durations) in H1 by done. rewrite (done_all unjudged_yet), (done_to_come results) in H2 by done.
  rewrite (done_all unsampled_yet), (done_to_come durations) in H3 by done. cbn in H1, H2, H3. rewrite app_nil_r in H3. change (successes []) with 0 in H2. split; [lia|]. split; [lia|done].
Qed.
Print Assumptions C90_concurrent_counts_final.

(** C91 at every moment, for the codes and for the addons: no more keys than configured,
    only keys that were passed; and the Updates a key's counter has received, the calls
    that carry the key and have not got there, and those that panicked before, are all
    calls that carry the key.  Calls that panic carry a key without a counter. *)
Theorem C91_concurrent_keys : forall I maxE maxA start clock progs sched w, let c := cp_crun I maxE maxA start clock progs sched in
  let s := shared c in let ts := threads c in
  Z.of_nat (size (tracked w s)) <= Z.max 0 (limit maxE maxA w) /\ tracked w s ⊆ passed w (planned results progs) /\
  (forall key, key <> ""%string ->
     noted w s key + carrying w key (all (unnoted_yet w) ts ++ to_come results ts ++ lost w (panicked ts)) = carrying w key (planned results progs)) /\
  (forall r, (w, r) ∈ panicked ts -> asked w r ∉ tracked w s /\ limit maxE maxA w <= Z.of_nat (size (tracked w s))).
Proof.
  intros I maxE maxA start clock progs sched w. cbv zeta. pose proof (tinv_run I maxE maxA w start clock progs sched) as T. cbv zeta in T. set (c := cp_crun _ _ _ _ _ _ _) in *.
  unfold tracked. rewrite size_dom. destruct T. split; [done|]. split; [done|]. split; [intros key Hk; by apply run_noted|].
  intros r Hr. unfold panicked in Hr. apply elem_of_list_join in Hr as (l & Hl & Hr). apply elem_of_list_fmap in Hr as (t & -> & Ht). apply elem_of_list_lookup in Ht as [i Hi].
  destruct (t_ptr i t Hi) as [_ HF]. rewrite Forall_forall in HF. destruct (HF _ Hl eq_refl) as (P1 & P2 & _). split; [|done]. by apply not_elem_of_dom.
Qed.
Print Assumptions C91_concurrent_keys.

(** C91 within the limits: if no more different codes and addons are passed than
    configured, no call panics, and at the end exactly the passed keys are tracked, each
    with as many Updates as calls carry it. *)
Theorem C91_concurrent_keys_within : forall I maxE maxA start clock progs sched, let c := cp_crun I maxE maxA start clock progs sched in
  (forall w, Z.of_nat (size (passed w (planned results progs))) <= limit maxE maxA w) ->
  panicked (threads c) = [] /\
  (Forall cp_done (threads c) -> forall w, tracked w (shared c) = passed w (planned results progs) /\
     forall key, key <> ""%string -> noted w (shared c) key = carrying w key (planned results progs)).
Proof.
  intros I maxE maxA start clock progs sched c Hm. pose proof (fun w => C91_concurrent_keys I maxE maxA start clock progs sched w) as H. cbv zeta in H. fold c in H.
  assert (panicked (threads c) = []) as Hno.
  { destruct (panicked (threads c)) as [|[w r] l] eqn:E; [done|]. exfalso. pose proof (tinv_run I maxE maxA w start clock progs sched) as T. cbv zeta in T. fold c in T.
    assert ((w, r) ∈ panicked (threads c)) as Hp by (rewrite E; left). destruct (H w) as (_ & Hs & _ & HP). destruct (HP r) as [P1 P2]; [rewrite <- E; done|].
    unfold panicked in Hp. apply elem_of_list_join in Hp as (l' & Hl & Hp). apply elem_of_list_fmap in Hp as (t & -> & Ht). apply elem_of_list_lookup in Ht as [i Hi].
    assert (key_of w r ∈ passed w (planned results progs)) as Hk.
    { unfold passed. destruct (t_ptr _ _ _ _ _ _ T i t Hi) as [_ HF]. rewrite Forall_forall in HF. destruct (HF _ Hl eq_refl) as (_ & _ & Hne).
      apply elem_of_list_to_set, elem_of_list_filter. split; [done|]. apply elem_of_list_fmap. exists r. split; [done|]. eapply (t_known _ _ _ _ _ _ T); [exact Hi|].
      unfold known. do 3 (apply elem_of_app; right). apply elem_of_list_fmap. by exists (w, r). }
    assert (size ({[key_of w r]} ∪ tracked w (shared c)) <= size (passed w (planned results progs)))%nat as Hsz by (apply subseteq_size; set_solver).
    rewrite size_union, size_singleton in Hsz by set_solver. specialize (Hm w). lia. }
  split; [done|]. intros Hd w. destruct (H w) as (_ & Hs & Hn & _).
  assert (forall key, key <> ""%string -> noted w (shared c) key = carrying w key (planned results progs)) as Hq.
  { intros key Hk. specialize (Hn key Hk). rewrite (done_all (unnoted_yet w)), (done_to_come results), Hno in Hn by (try done; by destruct w). cbn [app] in Hn. change (lost w []) with (@nil result) in Hn. rewrite carrying_nil in Hn. lia. }
  split; [|done]. apply set_eq. intros key. split; [apply Hs|]. intros Hk. unfold passed in Hk. apply elem_of_list_to_set, elem_of_list_filter in Hk as [Hne Hk]. apply elem_of_list_fmap in Hk as (r & Ek & Hr).
  specialize (Hq key Hne). unfold noted in Hq. unfold tracked. apply elem_of_dom. destruct (tb_map _ !! key); [done|]. exfalso.
  unfold carrying in Hq. assert (r ∈ filter (fun r => key_of w r = key) (planned results progs)) as Hin by (by apply elem_of_list_filter). destruct (filter _ _); [by apply elem_of_nil in Hin|]. cbn in Hq. lia.
Qed.
Print Assumptions C91_concurrent_keys_within.

(** C91 beyond the limit: two goroutines pass three codes with room for two; the code
    that comes third panics, and its addon is not counted. *)
Example C91_case :
  let c := cp_crun (5 * Second) 2 1 0 0
    [[KUpdate 7 (Some (MkResult true "a" "x")); KUpdate 8 (Some (MkResult false "c" "x"))]; [KUpdate 9 (Some (MkResult true "b" "x")); KUpdate 10 (Some (MkResult true "a" "x"))]]
    (replicate 9 (Run 0%nat) ++ replicate 12 (Run 1%nat) ++ replicate 30 (Run 0%nat) ++ replicate 30 (Run 1%nat) ++ replicate 30 (Run 0%nat)) in
  forallb (fun t => match kt_todo t, kt_pc t with [], PIdle => true | _, _ => false end) (threads c) = true /\
  (noted Codes (shared c) "a", noted Codes (shared c) "b", noted Codes (shared c) "c", noted Addons (shared c) "x") = (2, 0, 1, 3) /\
  panicked (threads c) = [(Codes, MkResult true "b" "x")] /\ cs_total (shared c) = 4 /\ cs_success (shared c) = 3 /\ cs_durations (shared c) = [7; 9; 8; 10].
Proof. vm_compute. repeat split. Qed.

(** C92 is false: GetErrorCodeCounts iterates over the map without the mutex; next to an
    UpdateWithError with a new code it aborts the process. *)
Theorem C92_getters_safe_refuted : exists sched,
  cs_crashed (shared (cp_crun (5 * Second) 10 10 0 0 [[KUpdate 1 (Some (MkResult false "timeout" ""))]; [KGetter Codes 1]] sched)) = true.
Proof. exists (replicate 11 (Run 0%nat) ++ replicate 2 (Run 1%nat)). vm_compute. reflexivity. Qed.
Print Assumptions C92_getters_safe_refuted.
(** What does hold: without the two map getters nothing aborts. *)
Theorem C92_updates_safe_partial : forall I maxE maxA start clock progs sched, Forall (Forall no_getter) progs ->
  cs_crashed (shared (cp_crun I maxE maxA start clock progs sched)) = false.
Proof. exact cp_no_abort. Qed.
Print Assumptions C92_updates_safe_partial.

(** And from any moment on, if each of the two maps gets no new entries any more (every call
    that has still to update a counter finds one, or there is no room for more) or is not
    iterated over any more, nothing aborts. *)
Theorem C92_warm_maps_partial : forall I maxE maxA start clock progs sched1 sched2, let c := cp_crun I maxE maxA start clock progs sched1 in
  cs_crashed (shared c) = false -> (forall w, unread w (threads c) \/ warm maxE maxA w c) ->
  cs_crashed (shared (cp_crun I maxE maxA start clock progs (sched1 ++ sched2))) = false.
Proof. exact cp_warm_no_abort. Qed.
Print Assumptions C92_warm_maps_partial.
(** The first goroutine has made the counter of "timeout"; now two goroutines use it, the
    getter included, and addons are still new but not iterated over. *)
Definition warming : list (list kcall) :=
  [[KUpdate 1 (Some (MkResult false "timeout" "")); KUpdate 2 (Some (MkResult false "timeout" "x"))]; [KGetter Codes 1; KUpdate 3 (Some (MkResult true "timeout" "y"))]].
Example C92_warm_case : let c := cp_crun (5 * Second) 10 10 0 0 warming (replicate 14 (Run 0%nat)) in
  cs_crashed (shared c) = false /\ warm 10 10 Codes c /\ unread Addons (threads c) /\ ~ unread Codes (threads c) /\ elements (tracked Codes (shared c)) = ["timeout"%string].
Proof.
  cbv zeta. split; [by vm_compute|]. split.
  - intros t r Ht Hr. right. left. apply elem_of_list_lookup in Ht as [j Hj]. unfold tracked. apply elem_of_dom.
    assert (asked Codes r = "timeout"%string) as ->; [|vm_compute; by eexists].
    assert (E : forall l, (unnoted_yet Codes (kt_pc t) ++ results (kt_todo t)) = l -> r ∈ l) by (by intros l <-).
    destruct j as [|[|j]]; [..|by vm_compute in Hj]; vm_compute in Hj; injection Hj as <-; specialize (E _ eq_refl); cbn in E; apply elem_of_list_singleton in E; by subst.
  - split; [|split].
    + vm_compute. repeat constructor; done.
    + intros H. eapply (Forall_lookup_1 _ _ 1%nat) in H; [|vm_compute; reflexivity]. destruct H as [H _]. apply Forall_cons in H as [H _]. by apply H.
    + by vm_compute.
Qed.

(** C93: unless the process was aborted, somebody with an unfinished call can go on. *)
Theorem C93_no_deadlock : forall I maxE maxA start clock progs sched, I <> 0 -> let c := cp_crun I maxE maxA start clock progs sched in
  cs_crashed (shared c) = false -> ~ Forall cp_done (threads c) ->
  exists i t s' t', threads c !! i = Some t /\ cp_tstep I maxE maxA (shared c) t = Some (s', t').
Proof. exact cp_progress. Qed.
Print Assumptions C93_no_deadlock.

(** C94: however many goroutines notice that ticks are due, the averages are ticked at
    most once per full 5 s since the start; [due] are the ticks somebody has committed
    to.  Interval a divisor of 5 s. *)
Theorem C94_ticks_not_repeated : forall I maxE maxA start clock M progs sched, 0 < I -> (I | 5 * Second) ->
  0 <= start <= M -> 0 <= wrap64 clock <= M -> M < 2 ^ 63 -> Forall (clock_below M) sched ->
  let c := cp_crun I maxE maxA start clock progs sched in
  let ticks := Z.of_nat (length (cs_log1 (shared c))) + sumZ ((fun t => due (kt_pc t)) <$> threads c) in
  start + 5 * Second * ticks <= mt_lastTick (cs_meter (shared c)) <= M /\
  (I = 5 * Second -> mt_lastTick (cs_meter (shared c)) = start + 5 * Second * ticks).
Proof.
  intros I maxE maxA start clock M progs sched HI Hd Hs Hc HM HF. cbv zeta. destruct (kinv_run I maxE maxA start clock M progs sched HI Hd HM Hs Hc HF) as [K1 K2 K3 K4 K5].
  unfold tickInterval in *. split; [lia|]. intros E. specialize (K5 E). lia.
Qed.
Print Assumptions C94_ticks_not_repeated.
(** C36_case above is an instance: 11 s, two ticks, though both goroutines noticed. *)
Example C94_case : (5 * Second | 5 * Second) /\ 0 <= wrap64 0 <= 11 * Second /\ Forall (clock_below (11 * Second)) race.
Proof. split; [by exists 1|]. split; [vm_compute; split; discriminate|]. unfold race, replicate. repeat (apply Forall_app; split); repeat (apply Forall_cons; split); try done; vm_compute; split; discriminate. Qed.
