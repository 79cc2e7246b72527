(** C148: asking a fast compass through a handle, in the whole library, while others record.
    [sy_run] as in Props/PSystem.v.  [asks_fast c1 c2 i ref m call job] (Spec/SystemSpec.v):
    at [c1] the goroutine [i] is about to call a getter or LastUpdateTime of the fast compass
    [m] that some lookup has given it, at [c2] the call has returned [job]. *)
From Verif.Go Require Import GoInt GoFloat GoConc GoCompose.
From Verif.Model Require Import Config BucketCounter Registry RegistryConc FastCompass FastCompassConc FastCompassFine Compass CompassTypes CompassConc CompassFine CompassRead SystemConc.
From Verif.Spec Require Import ConfigSpec BucketSpec BucketReadSpec FastCompassSpec FastCompassConcSpec FastCompassFineSpec CompassFineSpec CompassReadSpec RegistrySpec RegistryConcSpec SystemSpec.
From Verif.Proofs Require Import BucketHist CompassFineParts FastCompassFineProofs FastCompassFineRead FastCompassFineMain FastCompassFineSafe FastCompassFineResults FastCompassCats FastCompassLatest FastCompassTotals SystemProofs SystemMain SystemUse SystemHistory SystemRead SystemProgress SystemReadFast.
From Verif.Props Require Import PDecaying.
Local Open Scope Z_scope.

Section system.
Context (math_Exp : f64 -> f64) (maxs : list Z) (e0 : cenv) (plans : list (list saction)).
Notation run := (sy_run math_Exp maxs e0 plans).

Lemma asked_setting s1 s2 i ref interval n mx call job : asks_fast (run s1) (run (s1 ++ s2)) i ref (MFastCompass ref interval n mx) call job ->
  Second <= interval /\ in64 interval /\ n = 10 /\ (interval = seconds 1 \/ interval = seconds 60).
Proof.
  intros (t1 & t2 & i' & j' & plan & got & _ & _ & _ & _ & _ & Hg & _). pose proof (given_fits plans _ _ _ _ (sinv_run math_Exp maxs e0 plans s1) Hg) as [[nm Hnm] _]. destruct (created_fast _ _ _ _ _ Hnm) as ([F1 F2] & F3 & F4 & _). done.
Qed.
Lemma shown_app {E} (s s' : list (event E)) : shown (s ++ s') = shown s ++ shown s'.
Proof. unfold shown. by rewrite omap_app. Qed.
Lemma begun_length s : length (threads (run s)) = length plans -> forall m, length (records_begun plans (run s) m) = length plans.
Proof. intros H m. unfold records_begun. rewrite zip_with_length. lia. Qed.

(** C148: what a getter returns.  There are two moments of the call - [log1] the Records that
    had taken effect at the first, [log2] those at the second: those that had returned when it
    was called are in [log1], those in [log2] had begun when it returns - such that every
    category tracked at the first is reported; every reported category is one of a Record
    begun, has at most 10 intervals, none before the one asked for, none after that of a time
    shown during the call; and each value is what had been recorded for the category in that
    interval at some moment in between. *)
Theorem C148_getter s1 s2 i ref interval n mx g st order job : let c1 := run s1 in let c2 := run (s1 ++ s2) in let m := MFastCompass ref interval n mx in
  asks_fast c1 c2 i ref m (QGet g st order) job -> not_aborted c2 ref -> -1000 < st ->
  exists result log1 log2, job = JMap g st result /\ log1 `prefix_of` log2 /\
    includes log1 (records_returned plans c1 m) /\ among log2 (records_begun plans c2 m) /\
    (forall e, e ∈ log2 -> rc_time e.2 ∈ clock_of <$> e0 :: shown (s1 ++ s2)) /\
    (forall cat, cat ∈ tracked mx log1.*2 -> is_Some (result !! cat)) /\
    forall cat values, result !! cat = Some values ->
      cat ∈ (mjoin (records_begun plans c2 m)).*2 /\ (size values <= 10)%nat /\
      exists now, now ∈ clock_of <$> showing e0 s1 :: shown s2 /\
      forall k v, values !! k = Some v -> st <= k <= trunc_key (interval `quot` Second) now /\
        exists log, log1 `prefix_of` log /\ log `prefix_of` log2 /\ v = reported g (interval `quot` Second) (records_of cat log.*2) k.
Proof.
  intros c1 c2 m Ha Hab Hst. destruct (asked_setting s1 s2 _ _ _ _ _ _ _ Ha) as (I1 & I2 & Hn & _). assert (I3 : 0 <= n) by lia.
  destruct (asked_through_handle math_Exp maxs e0 plans s1 s2 i ref interval n mx _ job I1 I2 I3 Ha Hab) as (before & e & es & progs & tr1 & tr2 & got & E1 & E2 & E3 & R2 & R1 & Hcr & T1 & T2 & Hlen & Hret & Hbeg). fold c1 c2 m in R1, R2, Hret, Hbeg.
  set (fc0 := newFastCompass mx interval n) in *. assert (Hf : Forall (fun r => in64 (rc_time r)) (@nil fc_record)) by constructor. assert (Ex : fc_exec mx interval n [] = Ok fc0) by reflexivity.
  assert (Hcr1 : fs_crashed (shared (ff_crun fc0 (ce_ms e) progs tr1)) = false) by (by eapply crashed_app).
  assert (Hj : exists result, job = JMap g st result).
  { assert (Hp : is_Some (progs !! i)) by (apply lookup_lt_is_Some; rewrite Hlen; destruct Ha as (t1 & _ & _ & _ & _ & _ & Ht1 & _); apply lookup_lt_Some in Ht1; pose proof (threads_length math_Exp maxs e0 plans s1) as Q; fold c1 in Q; lia).
    destruct Hp as [prog Hp]. destruct (ff_answers fc0 (ce_ms e) progs tr1 Hcr1 i prog Hp) as (u1 & Hu1 & A1). destruct (ff_answers fc0 (ce_ms e) progs (tr1 ++ tr2) Hcr i prog Hp) as (u2 & Hu2 & A2).
    rewrite T1 in Hu1. injection Hu1 as <-. rewrite T2 in Hu2. injection Hu2 as <-. rewrite A1 in A2. cbn [q_got q_pc q_todo asking omap list_omap asks app] in A2. rewrite fmap_app, app_nil_r in A2. apply app_inv_head in A2. cbn in A2. injection A2 as A2.
    destruct job as [g' st' result|]; [|done]. cbn in A2. injection A2 as <- <-. by exists result. }
  destruct Hj as [result ->]. destruct (ff_getter_content mx interval n [] fc0 (ce_ms e) progs I1 I2 I3 Hf Ex tr1 tr2 i g st order [] got result Hcr T1 T2 Hst) as [Hcov Hval].
  set (L := landed fc0 progs (ce_ms e)) in *.
  destruct (ff_linearizable mx interval n [] fc0 (ce_ms e) progs I1 I2 I3 Hf Ex (tr1 ++ tr2) Hcr) as (_ & Htimes & _). fold L in Htimes.
  pose proof (begun_length (s1 ++ s2) (threads_length math_Exp maxs e0 plans (s1 ++ s2)) m) as HBl. fold c2 in HBl.
  exists result, (L tr1), (L (tr1 ++ tr2)). split; [done|]. split; [apply landed_mono|]. split; [exact Hret|]. split; [|split; [|split]].
  - split; [intros x Hx; rewrite HBl, <- Hlen; by apply Htimes|]. intros k rs Hk. destruct (Hbeg k rs Hk) as (t & _ & ->). by eexists.
  - intros x Hx. destruct (Htimes x Hx) as (_ & Ht & _). rewrite (proj1 (ff_times _ _ _ _)) in Ht. rewrite shown_app, E2, E3 in Ht.
    apply elem_of_list_fmap in Ht as (ms & -> & Ht). rewrite shown_app, app_comm_cons, E1. apply elem_of_cons in Ht as [->|Ht]; [|rewrite <- fmap_app in Ht; apply elem_of_list_fmap in Ht as (y & -> & Ht)].
    + apply elem_of_list_fmap. exists e. split; [done|]. set_solver.
    + apply elem_of_list_fmap. exists y. split; [done|]. set_solver.
  - intros cat Hcat. apply Hcov. by apply (ff_dom mx interval n [] fc0 (ce_ms e) progs I1 I2 I3 Hf Ex tr1 cat Hcr1).
  - intros cat values Hcat. destruct (Hval cat values Hcat) as (Hd & Hsz & now & Hnow & Hkv). split; [|split; [rewrite Hn in Hsz; exact Hsz|]].
    + apply (ff_dom mx interval n [] fc0 (ce_ms e) progs I1 I2 I3 Hf Ex (tr1 ++ tr2) cat Hcr) in Hd. fold L in Hd.
      assert (Hin : forall k rs x, records_begun plans c2 m !! k = Some rs -> (x, cat) ∈ rs -> cat ∈ (mjoin (records_begun plans c2 m)).*2).
      { intros k rs x Hk Hx. apply elem_of_list_fmap. exists (x, cat). split; [done|]. apply elem_of_list_join. exists rs. split; [done|]. by eapply elem_of_list_lookup_2. }
      destruct Hd as [(r & Hr & Hrc)|(k & t & d & Hk & Hd)].
      * cbn [app] in Hr. apply elem_of_list_fmap in Hr as ([k r'] & -> & Hr). cbn [snd] in Hrc. destruct (Htimes _ Hr) as [Hlt _]. cbn [fst] in Hlt.
        destruct (lookup_lt_is_Some_2 (records_begun plans c2 m) k) as [rs Hrs]; [by rewrite HBl, <- Hlen|]. destruct (Hbeg k rs Hrs) as (t & _ & Ers). eapply (Hin k rs (rc_duration r')); [exact Hrs|]. rewrite Ers. apply elem_of_app. left.
        unfold log_of. apply elem_of_list_fmap. exists (k, r'). cbn. split; [by rewrite Hrc|]. apply elem_of_list_filter. done.
      * destruct (lookup_lt_is_Some_2 (records_begun plans c2 m) k) as [rs Hrs].
        { rewrite HBl. apply lookup_lt_Some in Hk. assert (Hl : length (threads (ff_crun fc0 (ce_ms e) progs (tr1 ++ tr2))) = length (threads c2)) by (unfold fast_at in R2; destruct (gs_objs (shared c2) !! ref) as [[|? ? ? ?]|]; try done; injection R2 as <-; cbn [threads]; by rewrite fmap_length).
          pose proof (threads_length math_Exp maxs e0 plans (s1 ++ s2)) as Q. fold c2 in Q. lia. }
        destruct (Hbeg k rs Hrs) as (t' & Ht' & Ers). rewrite Hk in Ht'. injection Ht' as <-. eapply (Hin k rs d); [exact Hrs|]. rewrite Ers. apply elem_of_app. right. apply elem_of_app. by left.
    + exists now. split.
      * rewrite clock_values_shown, E3 in Hnow. apply elem_of_list_fmap in Hnow as (ms & -> & Hms). pose proof (proj2 (ff_times fc0 (ce_ms e) progs tr1)) as Hck. rewrite E2 in Hck. apply elem_of_cons in Hms as [->|Hms].
        -- assert (Hlast : last (ce_ms e :: (ce_ms <$> es)) = Some (ce_ms (showing e0 s1))).
           { change (ce_ms e :: (ce_ms <$> es)) with (ce_ms <$> e :: es). rewrite fmap_last. assert (Hl : last (e0 :: shown s1) = last (e :: es)) by (rewrite E1, last_app, last_cons; by destruct (last es)).
             rewrite <- Hl, last_cons. unfold showing. by destruct (last (shown s1)). }
           rewrite Hlast in Hck. cbn in Hck. injection Hck as ->. rewrite wrap64_id by apply wrap64_range. apply elem_of_list_fmap. exists (showing e0 s1). split; [done|]. by left.
        -- apply elem_of_list_fmap in Hms as (y & -> & Hy). apply elem_of_list_fmap. exists y. split; [done|]. by right.
      * intros k v Hv. destruct (Hkv k v Hv) as (Hb & s' & Hs' & Ev). split; [exact Hb|]. exists (L (tr1 ++ s')). split; [apply landed_mono|]. split; [|exact Ev]. destruct Hs' as [x ->]. rewrite app_assoc. apply landed_mono.
Qed.

Lemma ms_of_shown (s : list (event cenv)) : ms_of s = ce_ms <$> shown s.
Proof. unfold ms_of, shown. induction s as [|[k|e] s IH]; cbn in *; [done|exact IH|by rewrite <- IH]. Qed.
Lemma valid_calls_valid l x : x ∈ valid_calls l -> 0 <= x.1 /\ x.2 <> ""%string.
Proof. unfold valid_calls. intros H. apply elem_of_list_In, in_flat_map in H as (call & _ & H). destruct call as [d cat| |]; [|done|done]. destruct (decide _) as [Hv|]; [|done]. destruct H as [<-|[]]. exact Hv. Qed.
(** The Records of a category in a log between the two moments. *)
Lemma between_moments c1 c2 m cat log1 log log2 : length (records_returned plans c1 m) = length (records_begun plans c2 m) ->
  includes log1 (records_returned plans c1 m) -> among log2 (records_begun plans c2 m) -> log1 `prefix_of` log -> log `prefix_of` log2 ->
  Forall valid_record log2.*2 /\
  of_category cat (mjoin (records_returned plans c1 m)) ⊆+ (fun r => (rc_duration r, rc_category r)) <$> records_of cat log.*2 /\
  (fun r => (rc_duration r, rc_category r)) <$> records_of cat log.*2 ⊆+ of_category cat (mjoin (records_begun plans c2 m)).
Proof.
  intros Hlen Hin [Hb1 Hb2] P1 P2. set (n := length (records_begun plans c2 m)) in *.
  assert (Hpar : forall x, (forall e, e ∈ x -> (e.1 < n)%nat) -> length ((fun k => log_of k x) <$> seq 0 n) = n) by (intros; by rewrite fmap_length, seq_length).
  assert (Hv : Forall valid_record log2.*2).
  { apply Forall_fmap, Forall_forall. intros [k r] He. destruct (lookup_lt_is_Some_2 (records_begun plans c2 m) k) as [rs Hrs]; [by apply (Hb1 (k, r))|].
    assert (Hx : (rc_duration r, rc_category r) ∈ log_of k log2) by (unfold log_of; apply elem_of_list_fmap; exists (k, r); split; [done|]; by apply elem_of_list_filter).
    destruct (Hb2 k rs Hrs) as [z Ez]. assert (Hx' : (rc_duration r, rc_category r) ∈ rs) by (rewrite Ez; apply elem_of_app; by left). unfold records_begun in Hrs. apply lookup_zip_with_Some in Hrs as (pl & t & -> & _). by apply valid_calls_valid in Hx'. }
  assert (Hv' : Forall valid_record log.*2) by (destruct P2 as [z ->]; rewrite fmap_app in Hv; by apply Forall_app in Hv as [? _]).
  split; [exact Hv|]. rewrite records_of_calls by exact Hv'. rewrite fmap_fmap. split; apply of_category_sub.
  - assert (Hb : forall e, e ∈ log1 -> (e.1 < n)%nat) by (intros e He; apply Hb1; destruct P1 as [z ->], P2 as [z' ->]; set_solver).
    assert (Q : as_call <$> log1 ⊆+ as_call <$> log) by (destruct P1 as [z ->]; rewrite fmap_app; by apply submseteq_inserts_r).
    etransitivity; [|exact Q]. etransitivity; [|apply (Permutation_submseteq _ _ (log_parts n log1 Hb))]. apply prefixes_sub. apply Forall2_same_length_lookup_2; [by rewrite Hpar|].
    intros k x y Hx Hy. rewrite list_lookup_fmap in Hy. destruct (seq 0 n !! k) as [k'|] eqn:Ek; [|done]. apply lookup_seq in Ek as [-> _]. injection Hy as <-. by apply Hin.
  - assert (Q : as_call <$> log ⊆+ as_call <$> log2) by (destruct P2 as [z ->]; rewrite fmap_app; by apply submseteq_inserts_r).
    etransitivity; [exact Q|]. etransitivity; [apply (Permutation_submseteq _ _ (symmetry (log_parts n log2 Hb1)))|]. apply prefixes_sub. apply Forall2_same_length_lookup_2; [by rewrite Hpar|].
    intros k x y Hx Hy. rewrite list_lookup_fmap in Hx. destruct (seq 0 n !! k) as [k'|] eqn:Ek; [|done]. apply lookup_seq in Ek as [-> _]. injection Hx as <-. by apply Hb2.
Qed.
Lemma records_prefix cat (l1 l2 : list (nat * fc_record)) : l1 `prefix_of` l2 -> exists z, records_of cat l2.*2 = records_of cat l1.*2 ++ records_of cat z.
Proof. intros [z ->]. exists z.*2. unfold records_of. by rewrite fmap_app, filter_app. Qed.
Lemma parts_length s1 s2 m : length (records_returned plans (run s1) m) = length (records_begun plans (run (s1 ++ s2)) m).
Proof. unfold records_returned, records_begun. rewrite !zip_with_length. pose proof (threads_length math_Exp maxs e0 plans s1). pose proof (threads_length math_Exp maxs e0 plans (s1 ++ s2)). lia. Qed.

(** C148: what LastUpdateTime returns, [r].  With [log1] the Records that had taken effect when
    it was called, among them all that had returned: [r] (seconds) is not before the interval
    of any of them whose category is tracked; and [r] is 0, the interval of a time the clock
    has shown - or such a time itself, in milliseconds, taken as seconds: the moment a
    category was created at, when nothing is recorded there after second 0. *)
Theorem C148_last_update s1 s2 i ref interval n mx order job : let c1 := run s1 in let c2 := run (s1 ++ s2) in let m := MFastCompass ref interval n mx in
  asks_fast c1 c2 i ref m (QLast order) job -> not_aborted c2 ref ->
  exists r log1, job = JLast r /\ 0 <= r /\
    includes log1 (records_returned plans c1 m) /\ among log1 (records_begun plans c2 m) /\
    (forall e, e ∈ log1 -> rc_time e.2 ∈ clock_of <$> e0 :: shown s1) /\
    (forall e, e ∈ log1 -> rc_category e.2 ∈ tracked mx log1.*2 -> trunc_key (interval `quot` Second) (rc_time e.2) <= 1000 * r) /\
    (r = 0 \/ (exists t, t ∈ clock_of <$> e0 :: shown (s1 ++ s2) /\ 1000 * r = trunc_key (interval `quot` Second) t) \/ r ∈ clock_of <$> e0 :: shown (s1 ++ s2)).
Proof.
  intros c1 c2 m Ha Hab. destruct (asked_setting s1 s2 _ _ _ _ _ _ _ Ha) as (I1 & I2 & Hn & _). assert (I3 : 0 <= n) by lia.
  destruct (asked_through_handle math_Exp maxs e0 plans s1 s2 i ref interval n mx _ job I1 I2 I3 Ha Hab) as (before & e & es & progs & tr1 & tr2 & got & E1 & E2 & E3 & R2 & R1 & Hcr & T1 & T2 & Hlen & Hret & Hbeg). fold c1 c2 m in R1, R2, Hret, Hbeg.
  set (fc0 := newFastCompass mx interval n) in *. assert (Hf : Forall (fun r => in64 (rc_time r)) (@nil fc_record)) by constructor. assert (Ex : fc_exec mx interval n [] = Ok fc0) by reflexivity.
  assert (Hcr1 : fs_crashed (shared (ff_crun fc0 (ce_ms e) progs tr1)) = false) by (by eapply crashed_app).
  assert (Hj : exists r, job = JLast r).
  { assert (Hp : is_Some (progs !! i)) by (apply lookup_lt_is_Some; rewrite Hlen; destruct Ha as (t1 & _ & _ & _ & _ & _ & Ht1 & _); apply lookup_lt_Some in Ht1; pose proof (threads_length math_Exp maxs e0 plans s1) as Q; fold c1 in Q; lia).
    destruct Hp as [prog Hp]. destruct (ff_answers fc0 (ce_ms e) progs tr1 Hcr1 i prog Hp) as (u1 & Hu1 & A1). destruct (ff_answers fc0 (ce_ms e) progs (tr1 ++ tr2) Hcr i prog Hp) as (u2 & Hu2 & A2).
    rewrite T1 in Hu1. injection Hu1 as <-. rewrite T2 in Hu2. injection Hu2 as <-. rewrite A1 in A2. cbn [q_got q_pc q_todo asking omap list_omap asks app] in A2. rewrite fmap_app, app_nil_r in A2. apply app_inv_head in A2. cbn in A2. injection A2 as A2.
    destruct job as [g' st' result|r]; [done|]. by exists r. }
  destruct Hj as [r ->]. destruct (ff_last_records mx interval n fc0 (ce_ms e) progs I1 I2 I3 Ex tr1 tr2 i order [] got r Hcr T1 T2) as (Hr0 & Hlow & Hup).
  set (L := landed fc0 progs (ce_ms e)) in *.
  destruct (ff_linearizable mx interval n [] fc0 (ce_ms e) progs I1 I2 I3 Hf Ex (tr1 ++ tr2) Hcr) as (_ & Htimes & _). fold L in Htimes.
  destruct (ff_linearizable mx interval n [] fc0 (ce_ms e) progs I1 I2 I3 Hf Ex tr1 Hcr1) as (_ & Htimes1 & _). fold L in Htimes1.
  pose proof (begun_length (s1 ++ s2) (threads_length math_Exp maxs e0 plans (s1 ++ s2)) m) as HBl. fold c2 in HBl.
  assert (Ham : among (L (tr1 ++ tr2)) (records_begun plans c2 m)) by (split; [intros x Hx; rewrite HBl, <- Hlen; by apply Htimes|]; intros k rs Hk; destruct (Hbeg k rs Hk) as (t & _ & ->); by eexists).
  assert (P12 : L tr1 `prefix_of` L (tr1 ++ tr2)) by apply landed_mono.
  pose proof (parts_length s1 s2 m) as Hpl. fold c1 c2 in Hpl.
  destruct (between_moments c1 c2 m "" (L tr1) (L tr1) (L (tr1 ++ tr2)) Hpl Hret Ham (reflexivity _) P12) as (Hv & _ & _).
  assert (Hv1 : forall x, x ∈ L tr1 -> valid_record x.2) by (intros x Hx; rewrite Forall_forall in Hv; apply Hv, elem_of_list_fmap_1; destruct P12 as [z ->]; apply elem_of_app; by left).
  assert (Hcl : forall t, t ∈ fs_times (shared (ff_crun fc0 (ce_ms e) progs tr1)) -> t ∈ clock_of <$> e0 :: shown s1).
  { intros t Ht. rewrite (proj1 (ff_times _ _ _ _)), E2 in Ht. rewrite E1. apply elem_of_list_fmap in Ht as (ms & -> & Ht). change (ce_ms e :: (ce_ms <$> es)) with (ce_ms <$> e :: es) in Ht. apply elem_of_list_fmap in Ht as (y & -> & Ht). apply elem_of_list_fmap. exists y. split; [done|]. apply elem_of_app. by right. }
  assert (Hcl2 : forall t, t ∈ fs_times (shared (ff_crun fc0 (ce_ms e) progs (tr1 ++ tr2))) -> t ∈ clock_of <$> e0 :: shown (s1 ++ s2)).
  { intros t Ht. rewrite (proj1 (ff_times _ _ _ _)), shown_app, E2, E3 in Ht. rewrite shown_app, app_comm_cons, E1. rewrite <- fmap_app in Ht. change (ce_ms e :: (ce_ms <$> es ++ shown s2)) with (ce_ms <$> e :: es ++ shown s2) in Ht. apply elem_of_list_fmap in Ht as (ms & -> & Ht). apply elem_of_list_fmap in Ht as (y & -> & Ht). apply elem_of_list_fmap. exists y. split; [done|]. rewrite <- app_assoc. apply elem_of_app. by right. }
  exists r, (L tr1). split; [done|]. split; [done|]. split; [exact Hret|]. split; [|split; [|split]].
  - destruct Ham as [A1 A2]. destruct P12 as [z Ez]. rewrite Ez in A1, A2. split; [intros x Hx; apply A1, elem_of_app; by left|]. intros k rs Hk. destruct (A2 k rs Hk) as [y ->]. unfold log_of. rewrite filter_app, fmap_app, <- app_assoc. by eexists.
  - intros x Hx. destruct (Htimes1 x Hx) as (_ & Ht & _). by apply Hcl.
  - intros x Hx Ht. apply Hlow; [exact Hx|by apply Hv1|exact Ht].
  - destruct Hup as [->|[(t & Ht & Ek)|Ht]]; [by left|right; left; eauto|right; right; eauto].
Qed.

Lemma within_bits c1 c2 m cat log1 log log2 : length (records_returned plans c1 m) = length (records_begun plans c2 m) ->
  includes log1 (records_returned plans c1 m) -> among log2 (records_begun plans c2 m) -> log1 `prefix_of` log -> log `prefix_of` log2 ->
  fits_bits (of_category cat (mjoin (records_begun plans c2 m))) ->
  forall J k, reported GCount J (records_of cat log.*2) k = sum_at k (by_latest (-1000) J (invocations (records_of cat log.*2))) /\
    reported GRt J (records_of cat log.*2) k = sum_at k (by_latest (-1000) J (durations_ms (records_of cat log.*2))) /\
    Z.of_nat (length (of_category cat (mjoin (records_returned plans c1 m)))) <= sumZ (invocations (records_of cat log.*2)).*2 <= Z.of_nat (length (of_category cat (mjoin (records_begun plans c2 m)))) /\
    milliseconds (of_category cat (mjoin (records_returned plans c1 m))) <= sumZ (durations_ms (records_of cat log.*2)).*2 <= milliseconds (of_category cat (mjoin (records_begun plans c2 m))).
Proof.
  intros Hlen Hin Ham P1 P2 [Hn Hms] J k. destruct (between_moments c1 c2 m cat log1 log log2 Hlen Hin Ham P1 P2) as (Hv & S1 & S2).
  assert (HvB : Forall (fun x : Z * string => 0 <= x.1) (of_category cat (mjoin (records_begun plans c2 m)))).
  { apply Forall_forall. intros x Hx. apply elem_of_list_filter in Hx as [_ Hx]. apply elem_of_list_join in Hx as (rs & Hx & Hrs). apply elem_of_list_lookup in Hrs as [q Hrs]. unfold records_begun in Hrs. apply lookup_zip_with_Some in Hrs as (pl & t & -> & _). by apply valid_calls_valid in Hx as [? _]. }
  assert (Hv' : Forall valid_record (records_of cat log.*2)) by (apply Forall_forall; intros r Hr; apply elem_of_list_filter in Hr as [[Hr _] _]; exact Hr).
  assert (HvR : Forall (fun x : Z * string => 0 <= x.1) ((fun r => (rc_duration r, rc_category r)) <$> records_of cat log.*2)) by (apply Forall_fmap; eapply Forall_impl; [exact Hv'|]; intros r [Hr _]; exact Hr).
  pose proof (submseteq_length _ _ S1) as L1. pose proof (submseteq_length _ _ S2) as L2. rewrite fmap_length in L1, L2.
  pose proof (ms_sub _ _ HvR S1) as M1. pose proof (ms_sub _ _ HvB S2) as M2. rewrite <- durations_total in M1, M2. unfold milliseconds in *.
  destruct (reported_exact J (records_of cat log.*2) k Hv') as [X1 X2]; [lia|lia|]. split; [exact X1|]. split; [exact X2|]. rewrite invocations_total. split; lia.
Qed.

(** C148: while the Records of a category fit the bits, the counts reported for it are not
    negative and together not more than its Records begun; the times not more than their
    milliseconds. *)
Theorem C148_totals s1 s2 i ref interval n mx g st order result cat values : let c1 := run s1 in let c2 := run (s1 ++ s2) in let m := MFastCompass ref interval n mx in
  asks_fast c1 c2 i ref m (QGet g st order) (JMap g st result) -> not_aborted c2 ref -> -1000 < st -> result !! cat = Some values ->
  let begun := of_category cat (mjoin (records_begun plans c2 m)) in fits_bits begun ->
  (g = GCount -> (forall k v, values !! k = Some v -> 0 <= v) /\ sumZ (map_to_list values).*2 <= Z.of_nat (length begun)) /\
  (g = GRt -> (forall k v, values !! k = Some v -> 0 <= v) /\ sumZ (map_to_list values).*2 <= milliseconds begun).
Proof.
  intros c1 c2 m Ha Hab Hst Hcat begun Hbits. destruct (C148_getter s1 s2 i ref interval n mx g st order _ Ha Hab Hst) as (result' & log1 & log2 & Hj & P12 & Hin & Ham & _ & _ & Hval). injection Hj as <-. fold c1 c2 m in Hin, Ham, Hval.
  destruct (Hval cat values Hcat) as (_ & _ & now & _ & Hkv). set (J := interval `quot` Second) in *. pose proof (parts_length s1 s2 m) as Hlen. fold c1 c2 in Hlen.
  pose proof (within_bits c1 c2 m cat log1 log2 log2 Hlen Hin Ham P12 (reflexivity _) Hbits J) as W2. fold begun in W2.
  assert (Hv2 : Forall valid_record (records_of cat log2.*2)) by (apply Forall_forall; intros r Hr; apply elem_of_list_filter in Hr as [[Hr _] _]; exact Hr).
  split; intros ->.
  - assert (Hle : forall k v, values !! k = Some v -> 0 <= v <= sum_at k (by_latest (-1000) J (invocations (records_of cat log2.*2)))).
    { intros k v Hv. destruct (Hkv k v Hv) as (_ & log & Q1 & Q2 & ->). destruct (within_bits c1 c2 m cat log1 log log2 Hlen Hin Ham Q1 Q2 Hbits J k) as (-> & _). destruct (records_prefix cat _ _ Q2) as [z ->].
      split; [apply FastCompassProps.sum_at_nonneg, by_latest_amounts, invocations_amounts|]. unfold invocations. rewrite fmap_app. apply sum_at_prefix. rewrite <- fmap_app. apply invocations_amounts. }
    split; [intros k v Hv; by apply Hle in Hv as [? _]|]. destruct (W2 0) as (_ & _ & [_ Hb] & _). etransitivity; [apply values_total; [apply by_latest_amounts, (invocations_amounts (records_of cat log2.*2))|intros x v Hv; apply Hle, Hv]|]. by rewrite by_latest_snd.
  - assert (Hle : forall k v, values !! k = Some v -> 0 <= v <= sum_at k (by_latest (-1000) J (durations_ms (records_of cat log2.*2)))).
    { intros k v Hv. destruct (Hkv k v Hv) as (_ & log & Q1 & Q2 & ->). destruct (within_bits c1 c2 m cat log1 log log2 Hlen Hin Ham Q1 Q2 Hbits J k) as (_ & -> & _). destruct (records_prefix cat _ _ Q2) as [z Ez]. rewrite Ez in Hv2 |- *.
      split; [apply FastCompassProps.sum_at_nonneg, by_latest_amounts, durations_amounts; by apply Forall_app in Hv2 as [? _]|]. unfold durations_ms. rewrite fmap_app. apply sum_at_prefix. rewrite <- fmap_app. by apply durations_amounts. }
    split; [intros k v Hv; by apply Hle in Hv as [? _]|]. destruct (W2 0) as (_ & _ & _ & [_ Hb]). etransitivity; [apply values_total; [apply by_latest_amounts, (durations_amounts (records_of cat log2.*2)), Hv2|intros x v Hv; apply Hle, Hv]|]. by rewrite by_latest_snd.
Qed.

(** C148: when the clock has stayed in the interval that starts at [K], the count (the
    milliseconds) reported for a category there is at least that of its Records that had
    returned when the getter was called, at most that of those begun when it returns. *)
Theorem C148_one_interval s1 s2 i ref interval n mx g st order result cat values K v : let c1 := run s1 in let c2 := run (s1 ++ s2) in let m := MFastCompass ref interval n mx in
  asks_fast c1 c2 i ref m (QGet g st order) (JMap g st result) -> not_aborted c2 ref -> -1000 < st -> within_interval interval K e0 (s1 ++ s2) ->
  result !! cat = Some values -> values !! K = Some v ->
  let returned := of_category cat (mjoin (records_returned plans c1 m)) in let begun := of_category cat (mjoin (records_begun plans c2 m)) in fits_bits begun ->
  (g = GCount -> Z.of_nat (length returned) <= v <= Z.of_nat (length begun)) /\ (g = GRt -> milliseconds returned <= v <= milliseconds begun).
Proof.
  intros c1 c2 m Ha Hab Hst HK Hcat Hv returned begun Hbits. destruct (asked_setting s1 s2 _ _ _ _ _ _ _ Ha) as (I1 & I2 & _ & Hint).
  destruct (C148_getter s1 s2 i ref interval n mx g st order _ Ha Hab Hst) as (result' & log1 & log2 & Hj & P12 & Hin & Ham & Htimes & _ & Hval). injection Hj as <-. fold c1 c2 m in Hin, Ham, Hval.
  destruct (Hval cat values Hcat) as (_ & _ & now & _ & Hkv). pose proof (parts_length s1 s2 m) as Hlen. fold c1 c2 in Hlen.
  destruct (Hkv K v Hv) as (_ & log & Q1 & Q2 & ->). set (J := interval `quot` Second) in *. destruct (within_bits c1 c2 m cat log1 log log2 Hlen Hin Ham Q1 Q2 Hbits J K) as (W1 & W2 & W3 & W4). fold returned begun in W3, W4.
  assert (HJ : 1 <= J) by (unfold J; destruct Hint as [->| ->]; by vm_compute).
  unfold within_interval in HK. rewrite Forall_forall in HK.
  assert (Htk : forall t, t ∈ clock_of <$> e0 :: shown (s1 ++ s2) -> 0 <= K /\ trunc_key J t = K).
  { intros t Ht. apply elem_of_list_fmap in Ht as (x & -> & Hx). assert (Hx' : ce_ms x ∈ ce_ms e0 :: ms_of (s1 ++ s2)).
    { rewrite ms_of_shown. change (ce_ms e0 :: (ce_ms <$> shown (s1 ++ s2))) with (ce_ms <$> e0 :: shown (s1 ++ s2)). by apply elem_of_list_fmap_1. }
    destruct (HK _ Hx') as (B1 & B2 & B3). unfold clock_of. rewrite wrap64_id by exact B1. rewrite bucket_key_trunc by (lia || exact B2). split; [|exact B3]. rewrite <- B3. unfold bucket_key. assert (0 <= ce_ms x / (1000 * interval_seconds interval)); [apply Z.div_pos; [exact B2|unfold J in HJ; unfold interval_seconds; lia]|]. unfold J in HJ. unfold interval_seconds in *. nia. }
  assert (HK0 : -1000 <= K) by (destruct (Htk (clock_of e0)) as [? _]; [by left|lia]).
  assert (Hone : Forall (fun r => trunc_key J (rc_time r) = K) (records_of cat log.*2)).
  { apply Forall_forall. intros r Hr. apply elem_of_list_filter in Hr as [_ Hr]. apply elem_of_list_fmap in Hr as (x & -> & Hx). apply Htk, Htimes. destruct Q2 as [z ->]. apply elem_of_app. by left. }
  split; intros ->.
  - rewrite W1. rewrite (by_latest_one J K _ HK0); [|unfold invocations; by apply Forall_fmap|lia]. rewrite sum_at_one. exact W3.
  - rewrite W2. rewrite (by_latest_one J K _ HK0); [|unfold durations_ms; by apply Forall_fmap|lia]. rewrite sum_at_one. exact W4.
Qed.
End system.
Print Assumptions C148_getter.
Print Assumptions C148_last_update.
Print Assumptions C148_totals.
Print Assumptions C148_one_interval.

(** The hypotheses are met: a goroutine looks the fast compass "b" of the group "app" up and
    records in it, another one does too, a third one asks it through the first one's handle
    while the second one records. *)
Definition fast_plans (asked : qcall) : list (list saction) :=
  [[SLookup (GLookup "app" KFastCompass (NameRef "b" 0)); SUse 0 0 (UFast (QRecord 5000000 "x")); SUse 0 0 (UFast (QRecord 1000000 "y"))];
   [SLookup (GLookup "app" KFastCompass (NameRef "b" 0)); SUse 1 0 (UFast (QRecord 7000000 "x")); SUse 1 0 (UFast (QRecord 9000000 "x"))];
   [SUse 0 0 (UFast asked)]].
Definition fast_before : list (event cenv) := replicate 90 (Run 0%nat) ++ replicate 8 (Run 1%nat) ++ [Env (CEnv 5000000000 5600 half [3])].
Definition fast_during : list (event cenv) := mjoin (replicate 6 [Run 1; Run 2]%nat) ++ mjoin (replicate 40 [Run 1; Run 2; Run 2; Run 2]%nat).
Definition fast_e0 : cenv := CEnv 5000000000 5000 half [3].
Definition fast_from (asked : qcall) : system := sy_run (fun x => x) [] fast_e0 (fast_plans asked) fast_before.
Definition fast_to (asked : qcall) : system := sy_run (fun x => x) [] fast_e0 (fast_plans asked) (fast_before ++ fast_during).
(** The metric of the first goroutine's handle and what the goroutine [i] was answered by the
    last thing it does. *)
Definition last_result (c1 c2 : system) (i ref : nat) (m : metric) : option (qcall * qjob) :=
  match threads c1 !! i, threads c2 !! i with
  | Some t1, Some t2 =>
      match gt_in t1, rt_pc (st_reg (gt_client t1)), st_plan (gt_client t1), gt_in t2, st_plan (gt_client t2), results_got c1 i ref, results_got c2 i ref with
      | None, RegistryConc.PIdle, [SUse i' j' (UFast call)], None, [], Some [], Some [job] => if bool_decide (given c1 i' j' = Some m) then Some (call, job) else None
      | _, _, _, _, _, _, _ => None
      end
  | _, _ => None
  end.
Lemma last_result_asks c1 c2 i ref m call job : last_result c1 c2 i ref m = Some (call, job) -> asks_fast c1 c2 i ref m call job.
Proof.
  unfold last_result. destruct (threads c1 !! i) as [t1|] eqn:E1; [|done]. destruct (threads c2 !! i) as [t2|] eqn:E2; [|done]. destruct (gt_in t1) eqn:E3; [done|]. destruct (rt_pc _) eqn:E4; try done.
  destruct (st_plan (gt_client t1)) as [|[op|i' j' [meth|cl]] [|x l]] eqn:E5; try done. destruct (gt_in t2) eqn:E6; [done|]. destruct (st_plan (gt_client t2)) eqn:E7; [|done].
  destruct (results_got c1 i ref) as [[|]|] eqn:E8; try done. destruct (results_got c2 i ref) as [[|b [|]]|] eqn:E9; try done. destruct (bool_decide _) eqn:E10; [|done]. apply bool_decide_eq_true in E10.
  intros H. injection H as -> ->. exists t1, t2, i', j', [], []. done.
Qed.
Definition shown_result (x : option (qcall * qjob)) : option (list (string * list (Z * Z))) :=
  match x with Some (_, JMap _ _ m) => Some (map_to_list (map_to_list <$> m)) | _ => None end.
Definition fast_metric : metric := MFastCompass 0 (seconds 1) 10 20.
(** 1 Record of "x" had returned, 3 had begun: 2 are reported, of 12 ms together; the last
    interval is that of second 5. *)
Definition counts : qcall := QGet GCount 0 ["x"; "y"].
Definition times : qcall := QGet GRt 0 ["x"; "y"].
Example C148_case :
  bool_decide (given (fast_from counts) 0 0 = Some fast_metric) = true /\
  shown_result (last_result (fast_from counts) (fast_to counts) 2 0 fast_metric) = Some [("x", [(5000, 2)]); ("y", [(5000, 1)])] /\
  shown_result (last_result (fast_from times) (fast_to times) 2 0 fast_metric) = Some [("x", [(5000, 12)]); ("y", [(5000, 1)])] /\
  match last_result (fast_from (QLast ["x"; "y"])) (fast_to (QLast ["x"; "y"])) 2 0 fast_metric with Some (_, JLast r) => r | _ => 0 end = 5 /\
  of_category "x" (mjoin (records_returned (fast_plans counts) (fast_from counts) fast_metric)) = [(5000000, "x")] /\
  of_category "x" (mjoin (records_begun (fast_plans counts) (fast_to counts) fast_metric)) = [(5000000, "x"); (7000000, "x"); (9000000, "x")] /\
  (fun cc => fs_crashed (shared cc)) <$> fast_at (fast_to counts) 0 = Some false /\
  forallb (fun ms => (0 <=? ms) && (ms <? 2 ^ 63) && (bucket_key (interval_seconds (seconds 1)) ms =? 5000)) (ce_ms fast_e0 :: ms_of (fast_before ++ fast_during)) = true.
Proof. refine (conj _ (conj _ (conj _ (conj _ (conj _ (conj _ (conj _ _))))))); vm_compute; reflexivity. Qed.
