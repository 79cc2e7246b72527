(** C143: reading a compass through a handle, in the whole library, while others update it.
    [sy_run] as in Props/PSystem.v.  [asks_compass c1 c2 i ref p method a]
    (Spec/SystemSpec.v): at [c1] the goroutine [i] is about to call [method] of the compass
    that some lookup has given it, at [c2] the call has returned [a]. *)
From Verif.Go Require Import GoInt GoFloat GoConc GoCompose.
From Verif.Model Require Import Config BucketCounter EWMA Registry RegistryConc FastCompass FastCompassConc FastCompassFine Compass CompassTypes CompassConc CompassFine CompassRead SystemConc.
From Verif.Spec Require Import ConfigSpec BucketSpec EWMASpec DecayingSpec CompassConcSpec CompassFineSpec CompassReadSpec RegistrySpec RegistryConcSpec SystemSpec.
From Verif.Proofs Require Import ComposeProofs FloatProofs BucketHist CompassFineParts CompassReadProofs CompassReadInv SystemProofs SystemMain SystemUse SystemHistory SystemRead SystemProgress.
From Verif.Props Require Import PDecaying PCompassFine PCompassRead PSystem.
From Coq Require Import Reals.
From Flocq Require Import Core.Core.
Local Open Scope Z_scope.

(** Ones added to intervals. *)
Lemma sum_at_cons k u l : sum_at k (u :: l) = (if decide (u.1 = k) then u.2 else 0) + sum_at k l.
Proof. unfold sum_at. rewrite filter_cons. destruct (decide (u.1 = k)); [rewrite fmap_cons, sumZ_cons; done|done]. Qed.
Lemma keys_cons (ks : list Z) (x : Z) l : NoDup ks -> sumZ ((fun k => sum_at k ((x, 1) :: l)) <$> ks) <= 1 + sumZ ((fun k => sum_at k l) <$> ks) /\ (x ∉ ks -> sumZ ((fun k => sum_at k ((x, 1) :: l)) <$> ks) = sumZ ((fun k => sum_at k l) <$> ks)).
Proof.
  induction 1 as [|k ks Hk _ [IH1 IH2]]; [split; [cbn; lia|done]|]. rewrite !fmap_cons, !sumZ_cons, sum_at_cons. cbn [fst snd]. destruct (decide (x = k)) as [->|Hne].
  - specialize (IH2 Hk). split; [lia|]. intros H. exfalso. apply H. by left.
  - split; [lia|]. intros H. rewrite IH2; [lia|]. intros H'. apply H. by right.
Qed.
Lemma keys_sum (ks : list Z) l : NoDup ks -> Forall (fun u : Z * Z => u.2 = 1) l -> sumZ ((fun k => sum_at k l) <$> ks) <= Z.of_nat (length l).
Proof.
  intros Hks. induction 1 as [|[x n] l Hn _ IH].
  - cbn [length]. induction ks as [|k ks IHk]; [cbn; lia|]. inversion Hks; subst. rewrite fmap_cons, sumZ_cons. change (sum_at k []) with 0. specialize (IHk ltac:(done)). lia.
  - cbn in Hn. subst n. destruct (keys_cons ks x l Hks) as [H _]. cbn [length]. lia.
Qed.
Lemma sum_at_ones k l : Forall (fun u : Z * Z => u.2 = 1) l -> 0 <= sum_at k l <= Z.of_nat (length l).
Proof. induction 1 as [|[x n] l Hn _ IH]; [by vm_compute|]. cbn in Hn. subst n. rewrite sum_at_cons. cbn [fst snd length]. destruct (decide (x = k)); lia. Qed.
Lemma values_sum (m : gmap Z Z) l : Forall (fun u : Z * Z => u.2 = 1) l -> (forall x v, m !! x = Some v -> v <= sum_at x l) -> sumZ (map_to_list m).*2 <= Z.of_nat (length l).
Proof.
  intros Hl H. etransitivity; [|apply (keys_sum (map_to_list m).*1 l); [apply NoDup_fst_map_to_list|done]].
  assert (G : forall kv, Forall (fun u => m !! u.1 = Some u.2) kv -> sumZ kv.*2 <= sumZ ((fun k => sum_at k l) <$> kv.*1)).
  { induction 1 as [|[x v] kv Hx _ IH]; [cbn; lia|]. rewrite !fmap_cons, !sumZ_cons. cbn [fst snd] in *. specialize (H x v Hx). lia. }
  apply G. apply Forall_forall. intros [x v] Hx. by apply elem_of_map_to_list in Hx.
Qed.

Section system.
Context (math_Exp : f64 -> f64) (maxs : list Z) (e0 : cenv) (plans : list (list saction)).
Notation run := (sy_run math_Exp maxs e0 plans).

(** C143: whatever is proved of the methods of a compass on its own (C134-C141: [gives])
    holds of a call through a handle: there is a run of one compass, created at a time the
    clock had shown, called by the goroutines that have it, in which this call takes place
    while the clock shows the same; the updates that had returned when the call began had
    returned there, and what had begun there when it ended had begun here. *)
Theorem C143_methods s1 s2 i ref p method a : let c1 := run s1 in let c2 := run (s1 ++ s2) in asks_compass c1 c2 i ref p method a ->
  exists before e es progs tr1 tr2 cc1 cc2, e0 :: shown s1 = before ++ e :: es /\ shown tr1 = es /\ shown tr2 = shown s2 /\
    counter_setting (cpp_bucketInterval p) 10 /\
    cr_run math_Exp RBucket (cpp_bucketInterval p) 10 20 20 e progs tr1 = Some cc1 /\ cr_run math_Exp RBucket (cpp_bucketInterval p) 10 20 20 e progs (tr1 ++ tr2) = Some cc2 /\
    gives cc1 cc2 i method a /\ (exists ts, reading_at c1 ref = Some (Config (shared cc1) ts)) /\ reading_at c2 ref = Some cc2 /\
    progressed compass_calls (is_given c2 (MCompass ref p)) plans c2 progs /\
    writes (calls_returned plans c1 (MCompass ref p)) ⊆+ CompassReadSpec.finished progs cc1 /\
    begun progs cc2 ⊆+ writes (calls_begun plans c2 (MCompass ref p)).
Proof.
  intros c1 c2 Ha. destruct (read_through_handle math_Exp maxs e0 plans s1 s2 i ref p method a Ha) as (before & e & es & progs & tr1 & tr2 & cc1 & cc2 & H1 & H2 & H3 & C1 & C2 & Hg & R1 & R2 & P & F & B).
  destruct Ha as (t1 & t2 & i' & j' & plan & got & call & _ & _ & _ & _ & _ & Hgiv & _). pose proof (given_fits plans c1 _ _ _ (sinv_run math_Exp maxs e0 plans s1) Hgiv) as [[nm Hnm] _].
  destruct (created_params _ _ _ Hnm) as (Q1 & HS & Q2 & Q3 & Q4 & _). rewrite Q1, Q2, Q3, Q4 in C1, C2. rewrite Q2 in HS.
  exists before, e, es, progs, tr1, tr2, cc1, cc2. done.
Qed.

Lemma durations_sub l1 l2 : l1 ⊆+ l2 -> (length (durations l1) <= length (durations l2))%nat.
Proof.
  intros H. apply submseteq_Permutation in H as [k E]. assert (E' : durations l2 ≡ₚ durations (l1 ++ k)) by (unfold durations; by rewrite E). rewrite E'. unfold durations. rewrite omap_app, app_length. lia.
Qed.
Lemma successes_sub l1 l2 : l1 ⊆+ l2 -> successes (results l1) <= successes (results l2).
Proof.
  intros H. apply submseteq_Permutation in H as [k E]. unfold successes. assert (E' : filter (fun r => rs_success r = true) (results l2) ≡ₚ filter (fun r => rs_success r = true) (results (l1 ++ k))) by (unfold results; by rewrite E). rewrite E'.
  unfold results. rewrite omap_app, filter_app, app_length. lia.
Qed.
Lemma uses_le sel plan : (length (durations (writes (compass_calls (uses sel plan)))) <= length (durations (writes (compass_calls (uses (fun _ _ => true) plan)))))%nat.
Proof.
  assert (H : forall l1 l2, (length (durations (writes l1)) <= length (durations (writes (l2 ++ l1))))%nat) by (intros l1 l2; unfold durations, writes; rewrite !omap_app, app_length; lia).
  induction plan as [|a plan IH]; [done|]. change (a :: plan) with ([a] ++ plan). rewrite !uses_app, !compass_calls_app. destruct a as [op|i j u]; [exact IH|]. unfold uses at 1 3. cbn [omap list_omap]. destruct (sel i j).
  - unfold writes, durations in *. rewrite !omap_app, !app_length. lia.
  - cbn [app]. change (compass_calls []) with (@nil dcall). cbn [app]. etransitivity; [exact IH|]. apply H.
Qed.
Lemma progress_le sel c progs : length (threads c) = length plans -> progressed compass_calls sel plans c progs ->
  (length (planned durations (writes <$> progs)) <= length (planned durations (compass_programs (fun _ _ => true) plans)))%nat.
Proof.
  intros Hlen [Hl H]. assert (H' : forall k plan prog, plans !! k = Some plan -> progs !! k = Some prog -> prog `prefix_of` compass_calls (uses sel plan)).
  { intros k plan prog Hp Hq. destruct (threads c !! k) as [t|] eqn:Et; [|apply lookup_lt_Some in Hp; apply lookup_ge_None in Et; lia]. by eapply H. }
  clear H Hlen. revert plans Hl H'. induction progs as [|prog progs IH]; intros pls Hl H; [cbn; lia|]. destruct pls as [|plan pls]; [done|]. unfold planned, compass_programs in *. rewrite !fmap_cons, !join_cons', !app_length.
  apply Nat.add_le_mono; [|apply IH; [by injection Hl|]; intros k pl pr; apply (H (S k))]. destruct (H 0%nat plan prog eq_refl eq_refl) as [z E].
  etransitivity; [|apply (uses_le sel)]. rewrite E. unfold durations, writes. rewrite !omap_app, app_length. lia.
Qed.
Notation few_updates := (Z.of_nat (length (planned durations (compass_programs (fun _ _ => true) plans))) < 2 ^ 63).

(** C143: GetCount returns at least the number of updates made through handles of this
    compass that had returned when it was called, at most the number of those begun when it
    returns; GetSuccessCount the same for the successful ones. *)
Theorem C143_GetCount s1 s2 i ref p a : let c1 := run s1 in let c2 := run (s1 ++ s2) in few_updates -> asks_compass c1 c2 i ref p GetCount a ->
  exists n, a = AInt n /\ Z.of_nat (length (durations (writes (calls_returned plans c1 (MCompass ref p))))) <= n <= Z.of_nat (length (durations (writes (calls_begun plans c2 (MCompass ref p))))).
Proof.
  intros c1 c2 Hn Ha. destruct (C143_methods s1 s2 i ref p GetCount a Ha) as (before & e & es & progs & tr1 & tr2 & cc1 & cc2 & _ & _ & _ & HS & C1 & C2 & Hg & _ & _ & P & F & B). fold c1 c2 in P, F, B.
  pose proof (progress_le _ _ _ (threads_length math_Exp maxs e0 plans (s1 ++ s2)) P) as Hle. assert (Hn' : Z.of_nat (length (planned durations (writes <$> progs))) < 2 ^ 63) by lia. destruct (C134_GetCount _ _ _ _ _ _ _ _ _ _ _ _ _ _ HS Hn' C1 C2 Hg) as (n & -> & Hb).
  exists n. split; [done|]. apply durations_sub in F, B. lia.
Qed.
Theorem C143_GetSuccessCount s1 s2 i ref p a : let c1 := run s1 in let c2 := run (s1 ++ s2) in few_updates -> asks_compass c1 c2 i ref p GetSuccessCount a ->
  exists n, a = AInt n /\ successes (results (writes (calls_returned plans c1 (MCompass ref p)))) <= n <= successes (results (writes (calls_begun plans c2 (MCompass ref p)))).
Proof.
  intros c1 c2 Hn Ha. destruct (C143_methods s1 s2 i ref p GetSuccessCount a Ha) as (before & e & es & progs & tr1 & tr2 & cc1 & cc2 & _ & _ & _ & HS & C1 & C2 & Hg & _ & _ & P & F & B). fold c1 c2 in P, F, B.
  pose proof (progress_le _ _ _ (threads_length math_Exp maxs e0 plans (s1 ++ s2)) P) as Hle. assert (Hn' : Z.of_nat (length (planned durations (writes <$> progs))) < 2 ^ 63) by lia. destruct (C134_GetSuccessCount _ _ _ _ _ _ _ _ _ _ _ _ _ _ HS Hn' C1 C2 Hg) as (n & -> & Hb).
  exists n. split; [done|]. apply successes_sub in F, B. lia.
Qed.

Lemma shown_prefix {E} (s s' : list (event E)) : s `prefix_of` s' -> shown s `prefix_of` shown s'.
Proof. intros [k ->]. unfold shown. rewrite omap_app. by eexists. Qed.
(** What the environment shows at a moment of the call. *)
Lemma shown_during s1 s2 before e es tr1 tr2 s' : e0 :: shown s1 = before ++ e :: es -> shown tr1 = es -> shown tr2 = shown s2 -> s' `prefix_of` tr2 ->
  showing e (tr1 ++ s') ∈ showing e0 s1 :: shown s2.
Proof.
  intros E1 E2 E3 Hp. apply shown_prefix in Hp. rewrite E3 in Hp. unfold showing. assert (Eapp : shown (tr1 ++ s') = shown tr1 ++ shown s') by (unfold shown; by rewrite omap_app). rewrite Eapp, E2.
  destruct Hp as [k E]. destruct (shown s') as [|x l _] using rev_ind.
  - rewrite app_nil_r. assert (Hl : last (e0 :: shown s1) = last (e :: es)) by (rewrite E1, last_app, last_cons; by destruct (last es)).
    rewrite !last_cons in Hl. apply elem_of_cons. left. destruct (last es), (last (shown s1)); cbn in *; congruence.
  - rewrite app_assoc, last_snoc. cbn. apply elem_of_cons. right. rewrite E. apply elem_of_app. left. apply elem_of_app. right. by left.
Qed.

(** C143: GetMeanRate divides such a count by the time from a moment the clock had shown
    before the call, when the compass was created, to a moment it showed during the call. *)
Theorem C143_GetMeanRate s1 s2 i ref p a : let c1 := run s1 in let c2 := run (s1 ++ s2) in few_updates -> asks_compass c1 c2 i ref p GetMeanRate a ->
  exists n r created during, a = AFloat r /\
    Z.of_nat (length (durations (writes (calls_returned plans c1 (MCompass ref p))))) <= n <= Z.of_nat (length (durations (writes (calls_begun plans c2 (MCompass ref p))))) /\
    created ∈ e0 :: shown s1 /\ during ∈ showing e0 s1 :: shown s2 /\
    let elapsed := wrap64 (wrap64 (ce_tick during) - ce_ms created) in
    (n = 0 \/ elapsed <= 0 -> r = f0) /\
    (n <> 0 /\ 0 < elapsed -> ffinite r = true /\ let exact := (IZR n / IZR elapsed * IZR Second)%R in (Rabs (RF r - exact) <= bpow radix2 (-50) * exact)%R).
Proof.
  intros c1 c2 Hn Ha. destruct (C143_methods s1 s2 i ref p GetMeanRate a Ha) as (before & e & es & progs & tr1 & tr2 & cc1 & cc2 & E1 & E2 & E3 & HS & C1 & C2 & Hg & _ & _ & P & F & B). fold c1 c2 in P, F, B.
  pose proof (progress_le _ _ _ (threads_length math_Exp maxs e0 plans (s1 ++ s2)) P) as Hle. assert (Hn' : Z.of_nat (length (planned durations (writes <$> progs))) < 2 ^ 63) by lia. destruct (C136_GetMeanRate _ _ _ _ _ _ _ _ _ _ _ _ _ _ HS Hn' C1 C2 Hg) as (n & r & s' & Er & Hb & Hs' & Hr).
  exists n, r, e, (showing e (tr1 ++ s')). split; [exact Er|]. split; [apply durations_sub in F, B; lia|]. split; [rewrite E1; set_solver|]. split; [by eapply shown_during|]. exact Hr.
Qed.
(** C143: the three rate getters never report a rate. *)
Theorem C143_rates s1 s2 i ref p method a : let c1 := run s1 in let c2 := run (s1 ++ s2) in few_updates -> method ∈ [GetOneMinuteRate; GetFiveMinuteRate; GetFifteenMinuteRate] -> asks_compass c1 c2 i ref p method a ->
  exists r, a = AFloat r /\ (r = f0 \/ ffinite r = false) /\ flt r f0 = false.
Proof.
  intros c1 c2 Hn Hm Ha. destruct (C143_methods s1 s2 i ref p method a Ha) as (before & e & es & progs & tr1 & tr2 & cc1 & cc2 & _ & _ & _ & HS & C1 & C2 & Hg & _ & _ & P & F & B). fold c1 c2 in P, F, B.
  pose proof (progress_le _ _ _ (threads_length math_Exp maxs e0 plans (s1 ++ s2)) P) as Hle. assert (Hn' : Z.of_nat (length (planned durations (writes <$> progs))) < 2 ^ 63) by lia. exact (C138_methods _ _ _ _ _ _ _ _ _ _ _ _ _ _ _ HS Hn' C1 C2 Hm Hg).
Qed.

Lemma times_wrap now (sched : list (event cenv)) : times now sched = wrap64 now :: ((fun x => wrap64 (ce_ms x)) <$> shown sched).
Proof. unfold times. f_equal. rewrite ms_shown, fmap_fmap. done. Qed.
(** C143: GetInstantCount (GetInstantCountSince) reports at most 10 intervals, none before the
    one asked for, none after that of a time shown during the call, each the interval of a
    time the clock has shown, with counts that together are not more than the updates begun. *)
Theorem C143_GetInstantCount s1 s2 i ref p a start method : let c1 := run s1 in let c2 := run (s1 ++ s2) in few_updates -> -1000 < start ->
  method = GetInstantCountSince start \/ (start = 0 /\ method = GetInstantCount) -> asks_compass c1 c2 i ref p method a ->
  let interval := interval_seconds (cpp_bucketInterval p) in
  exists m during, a = ACounts m /\ (size m <= 10)%nat /\ during ∈ showing e0 s1 :: shown s2 /\
    (forall x v, m !! x = Some v -> start <= x <= trunc_key interval (wrap64 (ce_ms during)) /\ 0 <= v /\ exists e, e ∈ e0 :: shown (s1 ++ s2) /\ x = trunc_key interval (wrap64 (ce_ms e))) /\
    sumZ (map_to_list m).*2 <= Z.of_nat (length (durations (writes (calls_begun plans c2 (MCompass ref p))))).
Proof.
  intros c1 c2 Hn Hst Hm Ha interval. destruct (C143_methods s1 s2 i ref p method a Ha) as (before & e & es & progs & tr1 & tr2 & cc1 & cc2 & E1 & E2 & E3 & HS & C1 & C2 & Hg & _ & _ & P & F & B). fold c1 c2 in P, F, B.
  pose proof (progress_le _ _ _ (threads_length math_Exp maxs e0 plans (s1 ++ s2)) P) as Hle.
  destruct (C135_GetInstantCount math_Exp RBucket (cpp_bucketInterval p) 10 20 20 e progs HS) as (L & Lp & Lb & La). fold interval in Lb, La.
  destruct (La tr1 tr2 cc1 cc2 i start a Hst C1 C2) as (m & -> & Hsize & now & Hnow & Hx); [destruct Hm as [->|[-> ->]]; auto|].
  pose proof (begun_le math_Exp RBucket (cpp_bucketInterval p) 10 20 20 e progs (tr1 ++ tr2) cc2 HS C2) as Hbl.
  destruct (Lb _ _ C2) as [[_ Hlen] Hones]. assert (Hone : forall s', s' `prefix_of` tr2 -> Forall (fun u : Z * Z => u.2 = 1) (L (tr1 ++ s'))).
  { intros s' [z Ez]. apply Forall_forall. intros [x n] Hu. apply (Hones x n). destruct (Lp (tr1 ++ s') z) as [y Ey]. rewrite <- app_assoc, <- Ez in Ey. rewrite Ey. apply elem_of_app. by left. }
  assert (Hv : forall x v, m !! x = Some v -> 0 <= v <= sum_at x (L (tr1 ++ tr2))).
  { intros x v Hxv. destruct (Hx x v Hxv) as (_ & _ & s' & Hp & ->). pose proof (sum_at_ones x _ (Hone s' Hp)) as Hs. pose proof Hp as [z Ez]. destruct (Lp (tr1 ++ s') z) as [y Ey]. rewrite <- app_assoc, <- Ez in Ey.
    assert (Hlen' : (length (L (tr1 ++ s')) <= length (L (tr1 ++ tr2)))%nat) by (rewrite Ey, app_length; lia). rewrite wrap64_id by (unfold in64, two63; lia). split; [lia|].
    rewrite Ey. unfold sum_at. rewrite filter_app, fmap_app, sumZ_app. fold (sum_at x y). enough (0 <= sum_at x y) by lia.
    assert (Fy : Forall (fun u : Z * Z => u.2 = 1) y) by (pose proof (Hone tr2 ltac:(done)) as Hf; rewrite Ey in Hf; by apply Forall_app in Hf as [_ Hf]). apply (sum_at_ones x y Fy). }
  assert (Hdur : exists during, during ∈ showing e0 s1 :: shown s2 /\ now = wrap64 (ce_ms during)).
  { rewrite times_wrap, E3 in Hnow. destruct (env_run _ _ _ _ _ _ _ _ _ _ C1) as [Henv _]. rewrite Henv in Hnow. pose proof (shown_during s1 s2 before e es tr1 tr2 [] E1 E2 E3 ltac:(apply prefix_nil)) as H0. rewrite app_nil_r in H0.
    apply elem_of_cons in Hnow as [->|Hnow]; [eexists; split; [exact H0|done]|]. apply elem_of_list_fmap in Hnow as (y & -> & Hy). exists y. split; [by right|done]. }
  destruct Hdur as (during & Hd1 & ->). exists m, during. split; [done|]. split; [exact Hsize|]. split; [done|]. split.
  - intros x v Hxv. destruct (Hx x v Hxv) as (H1 & (now' & Hn1 & Hn2) & _). split; [done|]. split; [by apply (Hv x v)|].
    rewrite times_wrap in Hn1. assert (Eapp : shown (tr1 ++ tr2) = es ++ shown s2) by (unfold shown at 1; rewrite omap_app; change (shown tr1 ++ shown tr2 = es ++ shown s2); by rewrite E2, E3). rewrite Eapp in Hn1.
    assert (Eapp2 : e0 :: shown (s1 ++ s2) = before ++ (e :: es ++ shown s2)) by (unfold shown at 1; rewrite omap_app; change (e0 :: shown s1 ++ shown s2 = before ++ (e :: es) ++ shown s2); rewrite app_assoc, <- E1; done). rewrite Eapp2.
    change (wrap64 (ce_ms e) :: ((fun x => wrap64 (ce_ms x)) <$> (es ++ shown s2))) with ((fun x => wrap64 (ce_ms x)) <$> (e :: es ++ shown s2)) in Hn1. apply elem_of_list_fmap in Hn1 as (y & -> & Hy). exists y. split; [apply elem_of_app; by right|done].
  - etransitivity; [apply (values_sum m (L (tr1 ++ tr2))); [by apply Hone|]; intros x v Hxv; by apply Hv|]. apply durations_sub in B. lia.
Qed.
End system.
Print Assumptions C143_methods.
Print Assumptions C143_GetCount.
Print Assumptions C143_GetSuccessCount.
Print Assumptions C143_GetMeanRate.
Print Assumptions C143_rates.
Print Assumptions C143_GetInstantCount.

(** The hypotheses are met: two goroutines look the compass "a" of the group "app" up and
    update it, a third one asks it through the first one's handle, in between. *)
Definition read_plans (method : list dcall) : list (list saction) :=
  [[SLookup (GLookup "app" KCompass (NameRef "a" 0)); SUse 0 0 (UCompass [DWrite (KUpdate 5 (Some (MkResult true "" "")))]); SUse 0 0 (UCompass [DWrite (KUpdate 7 (Some (MkResult false "E1" "")))])];
   [SLookup (GLookup "app" KCompass (NameRef "a" 0)); SUse 1 0 (UCompass [DWrite (KUpdate 9 (Some (MkResult true "" "")))])];
   [SUse 0 0 (UCompass method)]].
Definition read_before : list (event cenv) := replicate 60 (Run 0%nat) ++ replicate 8 (Run 1%nat) ++ [Env (CEnv 7000000000 6500 half [3])].
Definition read_during : list (event cenv) := mjoin (replicate 6 [Run 1; Run 2]%nat) ++ mjoin (replicate 20 [Run 1; Run 2; Run 2; Run 2]%nat).
Definition read_from (method : list dcall) : system := sy_run (fun x => x) [] (CEnv 5000000000 5000 half [3]) (read_plans method) read_before.
Definition read_to (method : list dcall) : system := sy_run (fun x => x) [] (CEnv 5000000000 5000 half [3]) (read_plans method) (read_before ++ read_during).
(** What the goroutine [i] was answered by the last thing it does. *)
Definition last_answer (c1 c2 : system) (i ref : nat) (p : compass_params) : option (list dcall * answer) :=
  match threads c1 !! i, threads c2 !! i with
  | Some t1, Some t2 =>
      match gt_in t1, rt_pc (st_reg (gt_client t1)), st_plan (gt_client t1), gt_in t2, st_plan (gt_client t2), answers_got c1 i ref, answers_got c2 i ref with
      | None, RegistryConc.PIdle, [SUse i' j' (UCompass method)], None, [], Some [], Some [(call, a)] => if bool_decide (given c1 i' j' = Some (MCompass ref p)) then Some (method, a) else None
      | _, _, _, _, _, _, _ => None
      end
  | _, _ => None
  end.
Lemma last_answer_asks c1 c2 i ref p method a : last_answer c1 c2 i ref p = Some (method, a) -> asks_compass c1 c2 i ref p method a.
Proof.
  unfold last_answer. destruct (threads c1 !! i) as [t1|] eqn:E1; [|done]. destruct (threads c2 !! i) as [t2|] eqn:E2; [|done]. destruct (gt_in t1) eqn:E3; [done|]. destruct (rt_pc _) eqn:E4; try done.
  destruct (st_plan (gt_client t1)) as [|[op|i' j' [meth|call]] [|x l]] eqn:E5; try done. destruct (gt_in t2) eqn:E6; [done|]. destruct (st_plan (gt_client t2)) eqn:E7; [|done].
  destruct (answers_got c1 i ref) as [[|]|] eqn:E8; try done. destruct (answers_got c2 i ref) as [[|[call b] [|]]|] eqn:E9; try done. destruct (bool_decide _) eqn:E10; [|done]. apply bool_decide_eq_true in E10.
  intros H. injection H as -> ->. exists t1, t2, i', j', [], [], call. done.
Qed.
Definition read_params : compass_params := CompassParams 0 10 (seconds 1) 20 20.
Definition shown_answer (x : option (list dcall * answer)) : option (option Z + list (Z * Z)) :=
  match x with Some (_, AInt n) => Some (inl (Some n)) | Some (_, ACounts m) => Some (inr (map_to_list m)) | Some (_, _) => Some (inl None) | None => None end.
Definition few (plans : list (list saction)) : bool := Z.of_nat (length (planned durations (compass_programs (fun _ _ => true) plans))) <? 2 ^ 63.
(** Each method is answered; for GetCount, where 1 update had returned and 3 had begun, with 2. *)
Example C143_case :
  forallb (fun method => few (read_plans method)) [GetCount; GetSuccessCount; GetMeanRate; GetOneMinuteRate; GetInstantCount] = true /\
  shown_answer (last_answer (read_from GetCount) (read_to GetCount) 2 0 read_params) = Some (inl (Some 2)) /\
  shown_answer (last_answer (read_from GetSuccessCount) (read_to GetSuccessCount) 2 0 read_params) = Some (inl (Some 1)) /\
  shown_answer (last_answer (read_from GetMeanRate) (read_to GetMeanRate) 2 0 read_params) = Some (inl None) /\
  shown_answer (last_answer (read_from GetOneMinuteRate) (read_to GetOneMinuteRate) 2 0 read_params) = Some (inl None) /\
  shown_answer (last_answer (read_from GetInstantCount) (read_to GetInstantCount) 2 0 read_params) = Some (inr [(5000, 1)]) /\
  durations (writes (calls_returned (read_plans GetCount) (read_from GetCount) (MCompass 0 read_params))) = [5] /\
  durations (writes (calls_begun (read_plans GetCount) (read_to GetCount) (MCompass 0 read_params))) = [5; 7; 9].
Proof. refine (conj _ (conj _ (conj _ (conj _ (conj _ (conj _ (conj _ _))))))); vm_compute; reflexivity. Qed.
