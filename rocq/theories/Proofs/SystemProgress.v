(** The whole library in use: no deadlock. *)
From Verif.Go Require Import GoInt GoFloat GoConc GoCompose.
From Verif.Model Require Import Config Registry RegistryConc BucketCounter FastCompass FastCompassConc FastCompassFine Compass CompassTypes CompassConc CompassFine CompassRead SystemConc.
From Verif.Spec Require Import ConfigSpec BucketSpec FastCompassSpec FastCompassConcSpec FastCompassFineSpec CompassConcSpec CompassFineSpec CompassReadSpec RegistrySpec RegistryConcSpec SystemSpec.
From Verif.Proofs Require Import ComposeProofs CompassConcProofs CompassFineProofs CompassFineParts CompassFineMain RegistryProofs RegistryConcProofs RegistryLimit RegistryConcMore RegistryKinds CompassReadProofs CompassReadProgress SystemProofs SystemMain SystemUse.
From Verif.Props Require Import PConfig PFastCompassFine PCompassFine.
Local Open Scope Z_scope.

(** The parameters of the metrics the registries create. *)
Lemma level_interval level : GetLevelInterval GetMetricConfig level = seconds 1 \/ GetLevelInterval GetMetricConfig level = seconds 60.
Proof.
  destruct (C74_level_interval_partial GetMetricConfig level) as (A & B & C). destruct (decide (0 <= level <= 2)); [left; by apply A|]. right. destruct (decide (3 <= level <= 4)); [by apply B|]. rewrite C by lia. done.
Qed.
Lemma interval_ok x : x = seconds 1 \/ x = seconds 60 -> Second <= x /\ in64 x.
Proof. by intros [-> | ->]. Qed.
Lemma created_params nm ref p : MCompass ref p = create KCompass nm ref -> reservoir_of (cpp_reservoirType p) = RBucket /\ counter_setting (cpp_bucketInterval p) (cpp_numOfBucket p) /\
  cpp_numOfBucket p = 10 /\ cpp_maxErrorCodeCount p = 20 /\ cpp_maxAddonCount p = 20 /\ (cpp_bucketInterval p = seconds 1 \/ cpp_bucketInterval p = seconds 60).
Proof.
  intros H. cbn [create] in H. injection H as ->. cbn [cpp_reservoirType cpp_bucketInterval cpp_numOfBucket cpp_maxErrorCodeCount cpp_maxAddonCount]. pose proof (level_interval (nm_level nm)) as HL.
  split; [done|]. split; [|done]. destruct (interval_ok _ HL) as [H1 H2]. by split.
Qed.
Lemma created_fast nm ref i n mx : MFastCompass ref i n mx = create KFastCompass nm ref -> (Second <= i /\ in64 i) /\ n = 10 /\ (i = seconds 1 \/ i = seconds 60) /\ mx = GetMaxSubCategoryCount GetMetricConfig.
Proof. intros H. cbn [create] in H. injection H as -> -> ->. pose proof (level_interval (nm_level nm)) as HL. split; [by apply interval_ok|done]. Qed.
Lemma new_metric_defined (math_Exp : f64 -> f64) k nm ref e : is_Some (new_metric (create k nm ref) e).
Proof.
  destruct k; [|by eexists]. cbn [create]. set (p := CompassParams _ _ _ _ _). destruct (created_params nm ref p eq_refl) as (H1 & H2 & _). cbn [new_metric]. rewrite H1.
  destruct (cf_defined math_Exp RBucket (cpp_bucketInterval p) (cpp_numOfBucket p) 0 0 e [] [] H2) as [c Hc]. unfold cf_run in Hc. destruct (cf_objs0 _ _ _ _); [by eexists|done].
Qed.

(** The parts of a goroutine in a metric that belong to the other kind of metric do not move. *)
Lemma compass_part_fast (math_Exp : f64 -> f64) c0 tr c : esteps (mobj_step math_Exp) mobj_estep c0 tr c -> forall p rk st s0 ts0, c0 = Config (OCompass p rk st s0) ts0 -> mi_fast <$> threads c = mi_fast <$> ts0.
Proof.
  intros Hst. induction Hst as [|tr s ts i t s' t' Hst IH Hi Hs|tr s ts e _ IH]; intros p rk st s0 ts0 Hc.
  - by subst.
  - specialize (IH _ _ _ _ _ Hc). destruct (compass_part math_Exp _ _ _ Hst _ _ _ _ _ Hc) as (b & Hb & _). cbn [shared threads] in *. subst s. cbn [mobj_step] in Hs. destruct (compass_step _ p rk st b (mi_compass t)) as [[b' l]|] eqn:E; [|done].
    injection Hs as <- <-. rewrite list_fmap_insert. cbn [mi_fast]. rewrite <- IH. apply list_insert_id. by rewrite list_lookup_fmap, Hi.
  - by eapply IH.
Qed.
Lemma fast_part_compass (math_Exp : f64 -> f64) c0 tr c : esteps (mobj_step math_Exp) mobj_estep c0 tr c -> forall i n mx s0 ts0, c0 = Config (OFast i n mx s0) ts0 -> mi_compass <$> threads c = mi_compass <$> ts0.
Proof.
  intros Hst. induction Hst as [|tr s ts k t s' t' Hst IH Hi Hs|tr s ts e _ IH]; intros i n mx s0 ts0 Hc.
  - by subst.
  - specialize (IH _ _ _ _ _ Hc). destruct (fast_part math_Exp _ _ _ Hst _ _ _ _ _ Hc) as (b & Hb & _). cbn [shared threads] in *. subst s. cbn [mobj_step] in Hs. destruct (ff_tstep b (mi_fast t)) as [[b' l]|] eqn:E; [|done].
    injection Hs as <- <-. rewrite list_fmap_insert. cbn [mi_compass]. rewrite <- IH. apply list_insert_id. by rewrite list_lookup_fmap, Hi.
  - by eapply IH.
Qed.

Section system.
Context (math_Exp : f64 -> f64) (maxs : list Z) (e0 : cenv) (plans : list (list saction)) (sched : list (event cenv)).
Let c := sy_run math_Exp maxs e0 plans sched.
Notation gs := (gstep sy_tstep (fun _ => false) sy_effect (mobj_step math_Exp) min_idle min_push min_returned).

(** A goroutine inside a metric was given it. *)
Lemma made_given k t ref u : threads c !! k = Some t -> u ∈ calls_of ref (gt_made t) -> (exists p call i j, given c i j = Some (MCompass ref p) /\ u = UCompass call) \/ (exists a b d call i j, given c i j = Some (MFastCompass ref a b d) /\ u = UFast call).
Proof.
  intros Hk Hu. pose proof (sinv_run math_Exp maxs e0 plans sched) as HI. fold c in HI. destruct (si_threads _ _ HI k t Hk) as [_ _ _ (before & _ & _ & T6)]. rewrite T6 in Hu.
  unfold calls_of in Hu. apply elem_of_list_omap in Hu as ([ref' u'] & Hin & Hd). cbn in Hd. destruct (decide (ref' = ref)) as [->|]; [|done]. injection Hd as ->.
  apply elem_of_list_omap in Hin as (a & _ & Ha). destruct a as [op|i j w]; [done|]. cbn [resolve] in Ha. destruct (handle_at _ i j) as [[[[r p|r x y z| |]|]|]|] eqn:Eh; try done; destruct w; try done; injection Ha as -> <-.
  - left. exists p, method, i, j. split; [by apply (given_handle plans c i j _ HI)|done].
  - right. exists x, y, z, call, i, j. split; [by apply (given_handle plans c i j _ HI)|done].
Qed.
Lemma given_ref_compass ref p a b d i j i' j' : given c i j = Some (MCompass ref p) -> given c i' j' = Some (MFastCompass ref a b d) -> False.
Proof.
  intros H1 H2. pose proof (sinv_run math_Exp maxs e0 plans sched) as HI. fold c in HI. apply (given_fits plans c _ _ _ HI) in H1, H2. cbn [fits] in *. destruct H1 as [_ (rk & st & s & _ & H1)]. destruct H2 as [_ (s' & H2)]. congruence.
Qed.
Lemma other_idle_compass ref p i j k t : given c i j = Some (MCompass ref p) -> threads c !! k = Some t -> mi_fast (inside_of min_idle ref t) = QThread [] (QAt FIdle) [].
Proof.
  intros Hg Hk. pose proof (sinv_run math_Exp maxs e0 plans sched) as HI. fold c in HI. pose proof (given_fits plans c _ _ _ HI Hg) as [_ (rk & st & s & _ & Ho)].
  pose proof (sy_seen math_Exp maxs e0 plans sched) as HS. fold c in HS. destruct (sn_some _ _ _ _ _ _ _ _ _ HS ref _ Ho) as (o0 & tr & _ & Hst).
  assert (Hk0 : exists s0, o0 = OCompass p rk st s0) by (by eapply began_compass).
  destruct Hk0 as [s0 ->]. pose proof (compass_part_fast math_Exp _ _ _ Hst _ _ _ _ _ eq_refl) as Hf. cbn [threads] in Hf. rewrite !fmap_fmap in Hf.
  pose proof (f_equal (fun l => l !! k) Hf) as Hl. cbn beta in Hl. rewrite !list_lookup_fmap, Hk in Hl. cbn in Hl. injection Hl as ->. rewrite with_calls_min. cbn [mi_fast]. f_equal.
  unfold fast_calls. destruct (omap _ _) as [|f l] eqn:E; [done|]. exfalso. assert (Hin : f ∈ f :: l) by left. rewrite <- E in Hin. apply elem_of_list_omap in Hin as (u & Hu & Hf'). destruct u as [|u]; [done|]. injection Hf' as ->.
  destruct (made_given k t ref _ Hk Hu) as [(p' & call & i' & j' & _ & Hx)|(a & b & d & call & i' & j' & Hg' & _)]; [done|]. by eapply given_ref_compass.
Qed.
Lemma other_idle_fast ref a b d i j k t : given c i j = Some (MFastCompass ref a b d) -> threads c !! k = Some t -> mi_compass (inside_of min_idle ref t) = mi_compass min_idle.
Proof.
  intros Hg Hk. pose proof (sinv_run math_Exp maxs e0 plans sched) as HI. fold c in HI. pose proof (given_fits plans c _ _ _ HI Hg) as [_ (s & Ho)].
  pose proof (sy_seen math_Exp maxs e0 plans sched) as HS. fold c in HS. destruct (sn_some _ _ _ _ _ _ _ _ _ HS ref _ Ho) as (o0 & tr & _ & Hst).
  assert (Hk0 : exists s0, o0 = OFast a b d s0).
  { destruct o0 as [p' rk' st' s0|a' b' d' s0].
    - destruct (compass_part math_Exp _ _ _ Hst _ _ _ _ _ eq_refl) as (s' & Hs' & _). discriminate Hs'.
    - destruct (fast_part math_Exp _ _ _ Hst _ _ _ _ _ eq_refl) as (s' & Hs' & _). injection Hs' as <- <- <- _. by exists s0. }
  destruct Hk0 as [s0 ->]. pose proof (fast_part_compass math_Exp _ _ _ Hst _ _ _ _ _ eq_refl) as Hf. cbn [threads] in Hf. rewrite !fmap_fmap in Hf.
  pose proof (f_equal (fun l => l !! k) Hf) as Hl. cbn beta in Hl. rewrite !list_lookup_fmap, Hk in Hl. cbn in Hl. injection Hl as ->. rewrite with_calls_min. cbn [mi_compass min_idle]. f_equal.
  unfold compass_calls. match goal with |- mjoin ?x = _ => destruct x as [|f l] eqn:E; [done|] end. exfalso. assert (Hin : f ∈ f :: l) by left. rewrite <- E in Hin. apply elem_of_list_omap in Hin as (u & Hu & Hf'). destruct u as [u|]; [|done]. injection Hf' as ->.
  destruct (made_given k t ref _ Hk Hu) as [(p' & call & i' & j' & Hg' & _)|(a' & b' & d' & call & i' & j' & _ & Hx)]; [|done]. by eapply given_ref_compass.
Qed.

(** The calls made of a metric are calls of the plans. *)
Lemma progressed_calls {A} (f : list ucall -> list A) sel progs (Q : A -> Prop) : progressed f sel plans c progs ->
  (forall plan x, plan ∈ plans -> x ∈ f (uses sel plan) -> Q x) -> forall prog x, prog ∈ progs -> x ∈ prog -> Q x.
Proof.
  intros [Hl H] HQ prog x Hp Hx. apply elem_of_list_lookup in Hp as [k Hk]. destruct (plans !! k) as [plan|] eqn:Ep; [|apply lookup_lt_Some in Hk; apply lookup_ge_None in Ep; lia].
  destruct (threads c !! k) as [t|] eqn:Et; [|apply lookup_lt_Some in Ep; apply lookup_ge_None in Et; unfold c in Et; rewrite threads_length in Et; lia].
  destruct (H k t plan prog Et Ep Hk) as [[more Hm] _]. eapply HQ; [by eapply elem_of_list_lookup_2|]. rewrite Hm. apply elem_of_app. by left.
Qed.
Lemma use_in sel plan u : u ∈ uses sel plan -> exists i j, SUse i j u ∈ plan.
Proof. unfold uses. intros (a & Ha & Hs)%elem_of_list_omap. destruct a as [|i j u']; [done|]. destruct (sel i j); [|done]. injection Hs as ->. by exists i, j. Qed.

Definition existing_methods : Prop := Forall (Forall existing_method) plans.
Definition metric_ref (m : metric) : option nat := match m with MCompass ref _ | MFastCompass ref _ _ _ => Some ref | _ => None end.
(** None of the metrics somebody was given has aborted the process. *)
Definition unaborted_given : Prop := forall i j m ref, given c i j = Some m -> metric_ref m = Some ref -> forall o, gs_objs (shared c) !! ref = Some o -> unaborted o = true.
(** Somebody inside a metric: somebody there can go on. *)
Lemma inside_progress k t ref : existing_methods -> unaborted_given -> threads c !! k = Some t -> gt_in t = Some ref ->
  exists i u s' t', threads c !! i = Some u /\ gs (shared c) u = Some (s', t').
Proof.
  intros HG HU Hk Hin. destruct (min_returned (inside_of min_idle ref t)) eqn:Er.
  { exists k, t. eexists _, _. split; [done|]. unfold gstep. rewrite Hin, Er. reflexivity. }
  pose proof (sy_seen math_Exp maxs e0 plans sched) as HS. fold c in HS. pose proof (sn_in _ _ _ _ _ _ _ _ _ HS k t ref Hk Hin) as Hne. destruct (calls_of ref (gt_made t)) as [|u0 rest] eqn:Ec; [done|].
  pose proof (sinv_run math_Exp maxs e0 plans sched) as HI. fold c in HI.
  assert (Haway : forall i u, threads c !! i = Some u -> gt_in u <> Some ref -> min_returned (inside_of min_idle ref u) = true) by (intros i u Hi; by apply (finished_outside math_Exp maxs e0 plans sched i u ref)).
  assert (HQ : forall plan a, plan ∈ plans -> a ∈ plan -> existing_method a) by (unfold existing_methods in HG; rewrite Forall_forall in HG; intros plan a Hp Ha; specialize (HG _ Hp); rewrite Forall_forall in HG; by apply HG).
  destruct (made_given k t ref u0 Hk) as [(p & call & i & j & Hg & _)|(a & b & d & call & i & j & Hg & _)]; [rewrite Ec; left|..].
  - pose proof (given_fits plans c _ _ _ HI Hg) as [[nm Hnm] (rk & st & s & Hrk & Ho)]. destruct (created_params _ _ _ Hnm) as (P1 & P2 & _).
    destruct (compass_alone_run math_Exp maxs e0 plans sched ref p) as (before & e & es & rk' & progs & tr & cc & _ & _ & Hrk' & [s9 Hs9] & Hat & Hrun & Hpr); [by exists i, j|]. fold c in Hs9, Hat, Hpr.
    rewrite P1 in Hrk'. subst rk'. rewrite P1 in Hrk. subst rk.
    assert (Hharm : forall prog x, prog ∈ progs -> x ∈ prog -> match x with DRead call => reading_call RBucket call | DWrite _ => True end).
    { eapply (progressed_calls compass_calls _ progs (fun x => match x with DRead call => reading_call RBucket call | DWrite _ => True end)); [exact Hpr|]. intros plan x Hp Hx. unfold compass_calls in Hx. apply elem_of_list_join in Hx as (method & Hx & Hm).
      apply elem_of_list_omap in Hm as (u & Hu & Hux). destruct u as [u|]; [|done]. injection Hux as ->. destruct (use_in _ _ _ Hu) as (i' & j' & Hin'). specialize (HQ _ _ Hp Hin'). cbn in HQ. rewrite Forall_forall in HQ. by apply HQ. }
    pose proof (HU _ _ _ _ Hg eq_refl _ Ho) as Hcr. cbn [unaborted] in Hcr. apply negb_true_iff in Hcr.
    destruct (reading_progress math_Exp RBucket (cpp_bucketInterval p) (cpp_numOfBucket p) (cpp_maxErrorCodeCount p) (cpp_maxAddonCount p) e progs tr P2) as (cc' & Hcc' & Hprog); [done| |].
    { apply Forall_forall. intros prog Hp. apply Forall_forall. intros d Hd. exact (Hharm _ _ Hp Hd). }
    rewrite Hrun in Hcc'. injection Hcc' as <-.
    assert (Hst : st = ce_ms e).
    { rewrite Ho in Hs9. injection Hs9 as -> _. done. }
    unfold reading_at in Hat. rewrite Ho in Hat. injection Hat as <-. cbn [threads shared] in Hprog, Hcr.
    destruct Hprog as (m & g & Hm & Hs); [exact Hcr| |].
    { intros Hall. apply (proj1 (Forall_lookup _ _)) with (i := k) (x := mi_compass (inside_of min_idle ref t)) in Hall; [|by rewrite list_lookup_fmap, Hk].
      pose proof (other_idle_compass ref p i j k t Hg Hk) as Hf. destruct Hall as (A1 & A2). rewrite parts_returned in Er; [done|done|done|by rewrite Hf|by rewrite Hf]. }
    rewrite list_lookup_fmap in Hm. destruct (threads c !! m) as [v|] eqn:Ev; [|done]. injection Hm as <-.
    destruct (cr_tstep _ _ _ _ _ _ _ s (mi_compass (inside_of min_idle ref v))) as [[s2 g2]|] eqn:Eg in Hs; [|done].
    assert (Hnr : min_returned (inside_of min_idle ref v) = false).
    { destruct (min_returned (inside_of min_idle ref v)) eqn:E; [|done]. exfalso. apply min_returned_parts in E as (A1 & A2 & _). unfold idle_thread in A2. unfold cr_tstep in Eg. rewrite Hcr in Eg. destruct (dt_read _); [done|]. rewrite A2, A1 in Eg. discriminate Eg. }
    destruct (decide (gt_in v = Some ref)) as [Hv|Hv]; [|by rewrite (Haway m v Ev Hv) in Hnr].
    exists m, v. eexists _, _. split; [done|]. unfold gstep at 1. rewrite Hv, Hnr, Ho. unfold mobj_step at 1, compass_step. subst st. rewrite Eg. reflexivity.
  - pose proof (given_fits plans c _ _ _ HI Hg) as [[nm Hnm] (s & Ho)]. destruct (created_fast _ _ _ _ _ Hnm) as ([F1 F2] & F3 & _).
    destruct (fast_alone_run math_Exp maxs e0 plans sched ref a b d) as (before & e & es & progs & tr & cc & _ & _ & Hat & Hrun & Hpr); [by exists i, j|]. fold c in Hat, Hpr.
    assert (HN : 0 <= b) by lia.
    pose proof (HU _ _ _ _ Hg eq_refl _ Ho) as Hcr. cbn [unaborted] in Hcr. apply negb_true_iff in Hcr.
    pose proof (C84_steps_no_deadlock d a b [] (newFastCompass d a b) (ce_ms e) progs tr F1 F2 HN (Forall_nil_2 _) eq_refl) as Hprog. cbv zeta in Hprog. rewrite Hrun in Hprog.
    unfold fast_at in Hat. rewrite Ho in Hat. injection Hat as <-. cbn [threads shared] in Hprog, Hcr.
    destruct Hprog as (m & g & s2 & g2 & Hm & Hs); [exact Hcr| |].
    { intros Hall. apply (proj1 (Forall_lookup _ _)) with (i := k) (x := mi_fast (inside_of min_idle ref t)) in Hall; [|by rewrite list_lookup_fmap, Hk].
      pose proof (other_idle_fast ref a b d i j k t Hg Hk) as Hf. destruct Hall as (A1 & A2). unfold min_returned in Er. rewrite Hf, A1, A2 in Er. discriminate Er. }
    rewrite list_lookup_fmap in Hm. destruct (threads c !! m) as [v|] eqn:Ev; [|done]. injection Hm as <-.
    assert (Hnr : min_returned (inside_of min_idle ref v) = false).
    { destruct (min_returned (inside_of min_idle ref v)) eqn:E; [|done]. exfalso. apply min_returned_parts in E as (_ & _ & A1 & A2). unfold ff_tstep in Hs. rewrite Hcr, A1, A2 in Hs. discriminate Hs. }
    destruct (decide (gt_in v = Some ref)) as [Hv|Hv]; [|by rewrite (Haway m v Ev Hv) in Hnr].
    exists m, v. eexists _, _. split; [done|]. unfold gstep. rewrite Hv, Hnr, Ho. unfold mobj_step. rewrite Hs. reflexivity.
Qed.

(** Without the getters that read maps unprotected nothing aborts. *)
Lemma getterless_methods : Forall (Forall no_map_getter) plans -> existing_methods.
Proof. intros HG. eapply Forall_impl; [exact HG|]. intros plan Hp. eapply Forall_impl; [exact Hp|]. intros [op|i j [method|call]]; cbn; try done. intros H. eapply Forall_impl; [exact H|]. by intros []. Qed.
Lemma getterless_unaborted : Forall (Forall no_map_getter) plans -> unaborted_given.
Proof.
  intros HG i j m ref' Hg Href o Hmo. pose proof (sinv_run math_Exp maxs e0 plans sched) as HI. fold c in HI.
  assert (HQ : forall plan a, plan ∈ plans -> a ∈ plan -> no_map_getter a) by (rewrite Forall_forall in HG; intros plan a Hp Ha; specialize (HG _ Hp); rewrite Forall_forall in HG; by apply HG).
  destruct m as [ref p|ref a b d| |]; cbn [metric_ref] in Href; [injection Href as <-..|done|done].
  - pose proof (given_fits plans c _ _ _ HI Hg) as [[nm Hnm] (rk & st & s & Hrk & Ho)]. rewrite Ho in Hmo. injection Hmo as <-.
    destruct (compass_alone_run math_Exp maxs e0 plans sched ref p) as (before & e & es & rk' & progs & tr & cc & _ & _ & _ & _ & Hat & Hrun & Hpr); [by exists i, j|]. fold c in Hat, Hpr.
    assert (Hharm : forall prog x, prog ∈ progs -> x ∈ prog -> harmless x).
    { eapply (progressed_calls compass_calls _ progs harmless); [exact Hpr|]. intros plan x Hp Hx. unfold compass_calls in Hx. apply elem_of_list_join in Hx as (method & Hx & Hm).
      apply elem_of_list_omap in Hm as (u & Hu & Hux). destruct u as [u|]; [|done]. injection Hux as ->. destruct (use_in _ _ _ Hu) as (i' & j' & Hin'). specialize (HQ _ _ Hp Hin'). cbn in HQ. rewrite Forall_forall in HQ. by apply HQ. }
    assert (Hcr : cs_crashed (gs_client (shared cc)) = false).
    { destruct (readers_disturb_nothing _ _ _ _ _ _ _ _ _ _ Hrun) as (tr' & _ & _ & Hrun'). change (cs_crashed (compass_of (without_reads cc)) = false).
      eapply C118_no_abort; [exact Hrun'|]. apply Forall_fmap, Forall_forall. intros prog Hp. apply Forall_forall. intros x Hx. unfold writes in Hx. apply elem_of_list_omap in Hx as (d & Hd & Hdx). destruct d as [call'|]; [|done]. injection Hdx as ->.
      exact (Hharm _ _ Hp Hd). }
    unfold reading_at in Hat. rewrite Ho in Hat. injection Hat as <-. cbn [shared] in Hcr. cbn. by rewrite Hcr.
  - pose proof (given_fits plans c _ _ _ HI Hg) as [[nm Hnm] (s & Ho)]. destruct (created_fast _ _ _ _ _ Hnm) as ([F1 F2] & F3 & _). rewrite Ho in Hmo. injection Hmo as <-.
    destruct (fast_alone_run math_Exp maxs e0 plans sched ref a b d) as (before & e & es & progs & tr & cc & _ & _ & Hat & Hrun & Hpr); [by exists i, j|]. fold c in Hat, Hpr.
    assert (HN : 0 <= b) by lia.
    assert (Hcr : fs_crashed (shared cc) = false).
    { rewrite <- Hrun. eapply (C23_steps_records_only_partial d a b []); [done|done|done|constructor|done|].
      intros prog x. eapply (progressed_calls fast_calls _ progs (fun call => exists d cat, call = QRecord d cat)); [exact Hpr|].
      intros plan x' Hp Hx. unfold fast_calls in Hx. apply elem_of_list_omap in Hx as (u & Hu & Hux). destruct u as [|u]; [done|]. injection Hux as ->. destruct (use_in _ _ _ Hu) as (i' & j' & Hin'). exact (HQ _ _ Hp Hin'). }
    unfold fast_at in Hat. rewrite Ho in Hat. injection Hat as <-. cbn [shared] in Hcr. cbn. by rewrite Hcr.
Qed.

(** The number of results a goroutine has. *)
Lemma well_planned_app i done before plan : well_planned plans i done (before ++ plan) -> well_planned plans i (done + length (lookups before)) plan.
Proof.
  revert done. induction before as [|a before IH]; intros done; cbn [app]; [by rewrite Nat.add_0_r|]. destruct a as [op|i' j' u]; cbn [well_planned].
  - intros H. apply IH in H. change (lookups (SLookup op :: before)) with (op :: lookups before). cbn [length]. by rewrite Nat.add_succ_r.
  - intros [_ H]. by apply IH in H.
Qed.

Lemma progress_unaborted : registries_exist maxs (lookups <$> plans) -> (forall i plan, plans !! i = Some plan -> well_planned plans i 0 plan) -> existing_methods -> unaborted_given ->
  ~ Forall finished (threads c) -> exists i u s' t', threads c !! i = Some u /\ gs (shared c) u = Some (s', t').
Proof.
  intros HR HW HG HU Hnot. pose proof (sinv_run math_Exp maxs e0 plans sched) as HI. fold c in HI.
  destruct (decide (Exists (fun t => is_Some (gt_in t)) (threads c))) as [Hex|Hno].
  { apply Exists_exists in Hex as (t & Ht & ref & Hin). apply elem_of_list_lookup in Ht as [k Hk]. by eapply inside_progress. }
  assert (Hout : forall k t, threads c !! k = Some t -> gt_in t = None).
  { intros k t Hk. destruct (gt_in t) eqn:E; [|done]. exfalso. apply Hno. apply Exists_exists. exists t. split; [by eapply elem_of_list_lookup_2|]. by rewrite E. }
  (* the unfinished goroutine with the smallest number *)
  assert (Hdec : forall t : gthread sthread min nat ucall, gt_in t = None -> finished t \/ (rt_pc (st_reg (gt_client t)) <> RegistryConc.PIdle \/ st_plan (gt_client t) <> [])).
  { intros t Ht. unfold finished. destruct (st_plan (gt_client t)); [|by right; right]. destruct (rt_pc (st_reg (gt_client t))) eqn:E; [by left|by right; left..]. }
  assert (Hleast : forall n, (forall k t, (k < n)%nat -> threads c !! k = Some t -> finished t) \/
    exists k t, threads c !! k = Some t /\ (rt_pc (st_reg (gt_client t)) <> RegistryConc.PIdle \/ st_plan (gt_client t) <> []) /\ forall k' t', (k' < k)%nat -> threads c !! k' = Some t' -> finished t').
  { induction n as [|n [IH|IH]]; [left; intros; lia| |by right]. destruct (threads c !! n) as [t|] eqn:En.
    - destruct (Hdec t (Hout _ _ En)) as [Hf|Hu]; [left|right; by exists n, t]. intros k t' Hlt Hk. destruct (decide (k = n)) as [->|]; [congruence|]. apply (IH k); [lia|done].
    - left. intros k t' Hlt Hk. destruct (decide (k = n)) as [->|]; [congruence|]. apply (IH k); [lia|done]. }
  destruct (Hleast (length (threads c))) as [Hall|(k & t & Hk & Hu & Hbelow)].
  { exfalso. apply Hnot, Forall_lookup. intros k t Hk. apply (Hall k t); [by eapply lookup_lt_Some|done]. }
  exists k, t. pose proof (si_threads _ _ HI k t Hk) as [T1 T2 T3 (before & T4 & T5 & T6)]. pose proof (Hout _ _ Hk) as Hin.
  destruct (registries_run math_Exp maxs e0 plans sched) as [sched' Hr]. fold c in Hr.
  assert (Hreg : rt_todo (st_reg (gt_client t)) <> [] -> exists r' reg', rstep (sy_reg (gs_client (shared c))) (st_reg (gt_client t)) = Some (r', reg')).
  { intros Hne. destruct (rstep_progress maxs (lookups <$> plans) sched' k (st_reg (gt_client t)) HR) as [[r' reg'] Hx]; [|done|].
    - rewrite <- Hr. unfold registries. cbn. by rewrite list_lookup_fmap, Hk.
    - rewrite <- Hr in Hx. eauto. }
  assert (Hgot : (rt_got (st_reg (gt_client t))).*1 ++ rt_todo (st_reg (gt_client t)) = lookups (before ++ st_plan (gt_client t))).
  { pose proof (todo_run maxs (lookups <$> plans) sched' k (st_reg (gt_client t))) as Ht. rewrite <- Hr in Ht. unfold registries in Ht. cbn [threads] in Ht. rewrite !list_lookup_fmap, Hk, T4 in Ht. specialize (Ht eq_refl). injection Ht as Ht. done. }
  assert (Heff : rt_pc (st_reg (gt_client t)) <> RegistryConc.PIdle \/ (exists op plan, st_plan (gt_client t) = SLookup op :: plan) -> exists ef, sy_effect (gs_client (shared c)) (gt_client t) (gs_env (shared c)) = Some ef).
  { intros Hx. unfold sy_effect. destruct (rt_pc _) as [| | | |r kk nm| | |] eqn:Epc; try by eexists.
    - destruct Hx as [Hx|(op & plan & ->)]; [done|]. by eexists.
    - destruct (new_metric_defined math_Exp kk nm (rs_next (sy_reg (gs_client (shared c)))) (gs_env (shared c))) as [o ->]. by eexists. }
  assert (Hfin : forall s1 c1, sy_tstep (gs_client (shared c)) (gt_client t) = Some (s1, c1) -> (exists ef, sy_effect (gs_client (shared c)) (gt_client t) (gs_env (shared c)) = Some ef) ->
    exists s' t', threads c !! k = Some t /\ gs (shared c) t = Some (s', t')).
  { intros s1 c1 Hs [ef He]. unfold gstep. rewrite Hin, Hs, He. destruct ef; by eexists _, _. }
  destruct (rt_pc (st_reg (gt_client t))) eqn:Epc.
  2-8: destruct T3 as [op T3]; destruct Hreg as (r' & reg' & Hx); [by rewrite T3|]; (eapply Hfin; [unfold sy_tstep; rewrite Epc; unfold sy_reg_step; rewrite Hx; reflexivity|apply Heff; by left]).
  destruct (st_plan (gt_client t)) as [|[op|i' j' u] plan] eqn:Epl; [destruct Hu; done|..].
  - destruct Hreg as (r' & reg' & Hx); [by rewrite T3|]. eapply Hfin; [unfold sy_tstep; rewrite Epc, Epl; unfold sy_reg_step; rewrite Hx; reflexivity|]. apply Heff. right. eauto.
  - (* the handle is there *)
    assert (Hh : is_Some (handle_at (gs_client (shared c)) i' j')).
    { pose proof (HW k _ T4) as Hw. apply well_planned_app in Hw. destruct Hw as [[[-> Hj]|(Hlt & plan' & Ep' & Hj)] _].
      - unfold handle_at. rewrite T2. apply lookup_lt_is_Some. rewrite fmap_length. rewrite T3 in Hgot. unfold lookups in Hgot at 2. rewrite omap_app in Hgot. apply app_inv_tail in Hgot. change (omap _ before) with (lookups before) in Hgot.
        rewrite <- Hgot, fmap_length in Hj. lia.
      - destruct (threads c !! i') as [t'|] eqn:Et; [|apply lookup_lt_Some in Ep'; apply lookup_ge_None in Et; unfold c in Et; rewrite threads_length in Et; lia].
        destruct (finished_got math_Exp maxs e0 plans sched i' t' Et (Hbelow _ _ Hlt Et)) as (plan2 & Ep2 & Hg2). rewrite Ep' in Ep2. injection Ep2 as <-.
        destruct (si_threads _ _ HI i' t' Et) as [_ T2' _ _]. unfold handle_at. rewrite T2'. apply lookup_lt_is_Some. rewrite fmap_length, <- (fmap_length fst). by rewrite Hg2. }
    destruct Hh as [x Hx]. eapply Hfin; [unfold sy_tstep; rewrite Epc, Epl, Hx; reflexivity|]. unfold sy_effect. rewrite Epc, Epl, Hx. destruct x as [[[]|]|], u; by eexists.
Qed.
Lemma progress : registries_exist maxs (lookups <$> plans) -> (forall i plan, plans !! i = Some plan -> well_planned plans i 0 plan) -> Forall (Forall no_map_getter) plans ->
  ~ Forall finished (threads c) -> exists i u s' t', threads c !! i = Some u /\ gs (shared c) u = Some (s', t').
Proof. intros HR HW HG. apply progress_unaborted; [done|done|by apply getterless_methods|by apply getterless_unaborted]. Qed.
End system.
