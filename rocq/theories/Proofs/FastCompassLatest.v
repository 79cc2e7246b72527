(** A fast compass used step by step: the latest buckets of its categories. *)
From Verif.Go Require Import GoInt GoConc GoCompose.
From Verif.Model Require Import Counter BucketQueue BucketCounter FastCompass BucketCounterConc BucketReadConc FastCompassConc FastCompassFine.
From Verif.Spec Require Import CounterSpec BucketSpec BucketReadSpec FastCompassSpec FastCompassConcSpec FastCompassFineSpec.
From Verif.Proofs Require Import BucketHist BucketMain BucketRest FastCompassProofs FastCompassConcProofs FastCompassFineProofs FastCompassFineRead FastCompassFineMain FastCompassFineSafe FastCompassCats.
Local Open Scope Z_scope.

Lemma by_latest_covers lo I hist t n : (t, n) ∈ hist -> exists k, k ∈ (by_latest lo I hist).*1 /\ trunc_key I t <= k.
Proof.
  revert lo. induction hist as [|[t' n'] hist IH]; intros lo H; [by apply elem_of_nil in H|]. cbn. apply elem_of_cons in H as [H|H].
  - injection H as <- <-. exists (Z.max lo (trunc_key I t)). split; [by left|lia].
  - destruct (IH (Z.max lo (trunc_key I t')) H) as (k & Hk & Hle). exists k. split; [by right|done].
Qed.
Lemma crs_covers I cat recs r : r ∈ recs -> valid_record r -> rc_category r = cat -> exists k, k ∈ (crs I cat recs).*1 /\ trunc_key I (rc_time r) <= k.
Proof.
  intros Hr Hv Hc. unfold crs, bc_hist, cat_ops. assert (Hin : r ∈ records_of cat recs) by (apply elem_of_list_filter; done).
  eapply by_latest_covers. apply elem_of_list_fmap. eexists. split; [|apply elem_of_list_fmap; exists r; split; [reflexivity|exact Hin]]. cbn. reflexivity.
Qed.
Lemma lo_of_time I cat recs : lo_of (crs I cat recs) = -1000 \/ exists r, r ∈ recs /\ lo_of (crs I cat recs) = trunc_key I (rc_time r).
Proof.
  unfold lo_of. destruct (last (crs I cat recs).*1) as [k|] eqn:El; [|by left]. cbn. assert (Hk : k ∈ (crs I cat recs).*1) by (apply last_Some in El as [l ->]; apply elem_of_app; right; by left).
  unfold crs in Hk. apply by_latest_key in Hk as [->|(t & n & Hin & ->)]; [by left|]. right. unfold bc_hist, cat_ops in Hin. apply elem_of_list_fmap in Hin as (o & Ho & Hin). apply elem_of_list_fmap in Hin as (r & -> & Hin). cbn in Ho. injection Ho as -> _. apply elem_of_list_filter in Hin as [_ Hin]. eauto.
Qed.
Lemma finish_init bc u bc' : finish bc u bc' -> bc_initTimestamp bc' = bc_initTimestamp bc.
Proof. induction 1 as [|bc u bc1 u1 bc' Hs _ IH]; [done|]. rewrite IH. specialize (Hs 0). by apply bc_tstep_init in Hs. Qed.
Lemma mid_lo N interval bc u cr k n : mid N interval bc u cr k n -> ~ finished u -> exists lo, hok N interval bc cr lo /\ (lo = lo_of cr \/ lo = k).
Proof.
  destruct u as [todo pc]. intros (Ht & _ & M) Hnf. cbn in Ht. subst todo. cbn in M.
  destruct pc; try done; try (exfalso; by apply Hnf); destruct_and?; eauto. eexists. split; [eassumption|]. lia.
Qed.

Section fine.
Context (max interval N : Z) (fc0 : fast_compass) (now0 : Z) (progs : list (list qcall)).
Context (I1 : Second <= interval) (I2 : in64 interval) (I3 : 0 <= N).
Context (E : fc_exec max interval N [] = Ok fc0).
Notation run := (ff_crun fc0 now0 progs).
Notation Isec := (interval `quot` Second).
Notation n := (Z.to_nat N).
Notation L := (landed fc0 progs now0).
Lemma Hf : Forall (fun r => in64 (rc_time r)) (@nil fc_record). Proof. constructor. Qed.

Lemma finv_latest s ts log cat bc : finv max interval N [] fc0 (crecords <$> progs) s (cview <$> ts) log -> fc_subCategories (fs_fc s) !! cat = Some bc ->
  bc_initTimestamp bc ∈ fs_times s /\ (lo_of (crs Isec cat log.*2) = -1000 \/ exists t, t ∈ fs_times s /\ lo_of (crs Isec cat log.*2) = trunc_key Isec t).
Proof.
  intros F Hb. split.
  - assert (Hseq : forall fcs, fc_inv max interval N log.*2 fcs -> fc_subCategories fcs !! cat = Some bc -> bc_initTimestamp bc ∈ fs_times s).
    { intros fcs HI Hc. destruct (fi_counter _ _ _ _ _ HI cat bc Hc) as (r & rs & Hr & Ex).
      assert (Hrin : forall r', r' ∈ r :: rs -> r' ∈ log.*2) by (intros r' Hr'; rewrite <- Hr in Hr'; by apply elem_of_list_filter in Hr' as [_ ?]).
      assert (Ht : forall r', r' ∈ log.*2 -> in64 (rc_time r') /\ rc_createTime r' ∈ fs_times s).
      { intros r' Hr'. apply elem_of_list_fmap in Hr' as (e & -> & He). pose proof (f_times _ _ _ _ _ _ _ _ _ F) as HT. rewrite Forall_forall in HT. destruct (HT e He) as (? & _ & ?). done. }
      destruct (exec_state interval N (rc_createTime r) false (cat_ops (r :: rs)) I1 I2 I3) as (c & Ec & _ & Hi & _).
      { unfold cat_ops. apply Forall_fmap, Forall_forall. intros r' Hr'. cbn. by apply Ht, Hrin. }
      rewrite Ex in Ec. injection Ec as <-. rewrite Hi. apply Ht, Hrin. by left. }
    destruct (f_log _ _ _ _ _ _ _ _ _ F) as (fcs & _ & HI & H1 & H2). cbn [app] in HI.
    destruct (fs_locked s) eqn:El; [|apply (Hseq fcs HI); by rewrite <- H1].
    destruct (f_holder _ _ _ _ _ _ _ _ _ F El) as (i & u & Hi & Hh). specialize (H2 i u Hi Hh).
    destruct (ft_pc u) as [| | | | | |d cat' [ct|]| |] eqn:Ep; cbn in H2; try (apply (Hseq fcs HI); destruct_and?; congruence).
    destruct H2 as (bc0 & Hs & _ & _ & Hn). rewrite Hs in Hb. cbn [set_sub fc_subCategories] in Hb. destruct (decide (cat' = cat)) as [->|Hne].
    + rewrite lookup_insert in Hb. injection Hb as ->. rewrite (fi_n _ _ _ _ _ HI), (fi_int _ _ _ _ _ HI) in Hn. destruct (newBucketCounterImpl_repr interval N ct false I3) as (c & Ec & _ & _ & Hi' & _). rewrite Ec in Hn. injection Hn as ->. rewrite Hi'. eapply (f_ct _ _ _ _ _ _ _ _ _ F); [exact Hi|left; exact Ep].
    + rewrite lookup_insert_ne in Hb by done. by apply (Hseq fcs HI).
  - destruct (lo_of_time Isec cat log.*2) as [?|(r & Hr & Eq)]; [by left|]. right. exists (rc_time r). split; [|done]. apply elem_of_list_fmap in Hr as (e & -> & He). pose proof (f_times _ _ _ _ _ _ _ _ _ F) as HT. rewrite Forall_forall in HT. by destruct (HT e He) as (_ & ? & _).
Qed.

(** The latest bucket of a category: not before any Record that has landed there, of a time the
    clock has shown or untouched; the counter was created at a time the clock has shown. *)
Lemma ff_latest s cat bc : fs_crashed (shared (run s)) = false -> fc_subCategories (fs_fc (shared (run s))) !! cat = Some bc ->
  bc_initTimestamp bc ∈ fs_times (shared (run s)) /\
  exists b, bc_heap bc !! bc_latestBucket bc = Some b /\
    (forall r, r ∈ (L s).*2 -> valid_record r -> rc_category r = cat -> trunc_key Isec (rc_time r) <= 1000 * bk_ts b) /\
    (1000 * bk_ts b = -1000 \/ exists t, t ∈ fs_times (shared (run s)) /\ 1000 * bk_ts b = trunc_key Isec t).
Proof.
  intros Hc Hb. pose proof (run_FI max interval N [] fc0 now0 progs I1 I2 I3 Hf E s Hc) as [_ HF]. unfold landed. destruct (grun fc0 progs now0 s).2 as [G P]. cbn [fst snd] in *.
  assert (Hdone : forall lo, hok n interval bc (crs Isec cat G.*2) lo -> lo = -1000 \/ (exists t, t ∈ fs_times (shared (run s)) /\ lo = trunc_key Isec t) ->
    exists b, bc_heap bc !! bc_latestBucket bc = Some b /\ (forall r, r ∈ G.*2 -> valid_record r -> rc_category r = cat -> trunc_key Isec (rc_time r) <= 1000 * bk_ts b) /\
    (1000 * bk_ts b = -1000 \/ exists t, t ∈ fs_times (shared (run s)) /\ 1000 * bk_ts b = trunc_key Isec t)).
  { intros lo H Hlo. destruct (h_latest _ _ _ _ _ H) as (b & Hlb & Hk). unfold key in Hk. exists b. split; [done|]. split; [|by rewrite Z.mul_comm, Hk || rewrite Hk].
    intros r Hr Hv Hcat. destruct (crs_covers Isec cat _ r Hr Hv Hcat) as (k & Hk1 & Hk2). pose proof (h_cr _ _ _ _ _ H) as Hcr. rewrite Forall_forall in Hcr. specialize (Hcr _ Hk1). cbn in Hcr. lia. }
  destruct P as [[i r]|].
  - destruct HF as (fc' & t & d & cat0 & ct & u & bc0 & bc' & F & Hi & Hpc & Ha & Hd & Hcat & Htm & Hv & Hs & Hl & Hfin & M). rewrite Hs in Hb. cbn [set_sub fc_subCategories] in Hb. destruct (decide (cat = cat0)) as [->|Hne].
    + rewrite lookup_insert in Hb. injection Hb as ->. destruct (finv_latest _ _ _ _ _ F Hl) as [Hin _]. rewrite (finish_init _ _ _ Hfin) in Hin. split; [exact Hin|].
      destruct (mid_lo _ _ _ _ _ _ _ M (addingb_not_finished _ Ha)) as (lo & H & Hlo). cbn [app] in H, Hlo. apply (Hdone lo H).
      assert (Htimes : forall e, e ∈ G ++ [(i, r)] -> rc_time e.2 ∈ fs_times (shared (run s))) by (intros e He; pose proof (f_times _ _ _ _ _ _ _ _ _ F) as HT; rewrite Forall_forall in HT; by destruct (HT e He) as (_ & ? & _)).
      destruct Hlo as [->| ->].
      * destruct (lo_of_time Isec (rc_category r) G.*2) as [Eq|(r' & Hr' & Eq)]; rewrite Hcat in Eq; [by left|]. right. exists (rc_time r'). split; [|done]. apply elem_of_list_fmap in Hr' as (e & -> & He). apply Htimes. apply elem_of_app. by left.
      * right. exists (rc_time r). split; [|done]. apply (Htimes (i, r)). apply elem_of_app. right. by left.
    + rewrite lookup_insert_ne in Hb by done. destruct (finv_latest _ _ _ _ _ F Hb) as [Hin Hlo]. split; [exact Hin|]. pose proof (finv_hok _ _ _ I1 I2 I3 _ _ _ _ _ _ _ _ F Hb) as H. cbn [app] in H. rewrite fmap_app in H, Hlo. cbn [fmap list_fmap snd] in H, Hlo. rewrite crs_other in H, Hlo by congruence. by apply (Hdone _ H).
  - destruct HF as [F _]. destruct (finv_latest _ _ _ _ _ F Hb) as [Hin Hlo]. split; [exact Hin|]. pose proof (finv_hok _ _ _ I1 I2 I3 _ _ _ _ _ _ _ _ F Hb) as H. by apply (Hdone _ H).
Qed.

(** What LastUpdateTime returns, in terms of the Records and the clock. *)
Lemma ff_last_records s1 s2 i order todo got r :
  fs_crashed (shared (run (s1 ++ s2))) = false ->
  threads (run s1) !! i = Some (QThread (QLast order :: todo) (QAt FIdle) got) ->
  threads (run (s1 ++ s2)) !! i = Some (QThread todo (QAt FIdle) (got ++ [JLast r])) ->
  0 <= r /\
  (forall e, e ∈ L s1 -> valid_record e.2 -> rc_category e.2 ∈ tracked max (L s1).*2 -> trunc_key Isec (rc_time e.2) <= 1000 * r) /\
  (r = 0 \/ (exists t, t ∈ fs_times (shared (run (s1 ++ s2))) /\ 1000 * r = trunc_key Isec t) \/ r ∈ fs_times (shared (run (s1 ++ s2)))).
Proof.
  intros Hc Hi Hi'. destruct (ff_last_content max interval N [] fc0 now0 progs I1 I2 I3 Hf E s1 s2 i order todo got r Hc Hi Hi') as (Hr & Hlow & Hor). split; [done|].
  assert (Hcp : forall s', s' `prefix_of` s2 -> fs_crashed (shared (run (s1 ++ s'))) = false) by (intros s' [z ->]; rewrite app_assoc in Hc; by eapply crashed_app).
  assert (Hc1 : fs_crashed (shared (run s1)) = false) by (rewrite <- (app_nil_r s1); apply Hcp, prefix_nil).
  assert (Htp : forall s' t, s' `prefix_of` s2 -> t ∈ fs_times (shared (run (s1 ++ s'))) -> t ∈ fs_times (shared (run (s1 ++ s2)))).
  { intros s' t [z ->] Ht. rewrite (proj1 (ff_times _ _ _ _)) in Ht. rewrite (proj1 (ff_times _ _ _ _)). apply elem_of_list_fmap in Ht as (x & -> & Hx). apply elem_of_list_fmap. exists x. split; [done|]. rewrite app_assoc. unfold shown in *. rewrite omap_app. set_solver. }
  split.
  - intros e He Hv Ht. destruct (proj1 (ff_dom max interval N [] fc0 now0 progs I1 I2 I3 Hf E s1 (rc_category e.2) Hc1) Ht) as [bc Hb].
    destruct (ff_latest s1 _ bc Hc1 Hb) as (_ & b & Hlb & Hge & _). specialize (Hlow _ _ _ Hb Hlb). specialize (Hge e.2). assert (Hin : e.2 ∈ (L s1).*2) by (by apply elem_of_list_fmap_1). specialize (Hge Hin Hv eq_refl). lia.
  - destruct Hor as [->|(s' & cat & bc & Hp & Hb & Hv)]; [by left|]. right. destruct (ff_latest _ _ bc (Hcp _ Hp) Hb) as (Hin & b & Hlb & _ & Hk). unfold bc_LastUpdateTime in Hv. rewrite Hlb in Hv. cbn in Hv. injection Hv as Hv.
    destruct (Z.leb_spec (bk_ts b) 0) as [Hz|Hpos]; [right; rewrite <- Hv; by eapply Htp|]. left. destruct Hk as [?|(t & Ht & Hk)]; [lia|]. exists t. split; [by eapply Htp|]. lia.
Qed.
End fine.
