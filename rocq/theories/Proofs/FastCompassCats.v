(** A fast compass used step by step: its clock readings and its categories. *)
From Verif.Go Require Import GoInt GoConc GoCompose.
From Verif.Model Require Import Counter BucketQueue BucketCounter FastCompass BucketCounterConc BucketReadConc FastCompassConc FastCompassFine.
From Verif.Spec Require Import BucketSpec BucketReadSpec FastCompassSpec FastCompassConcSpec FastCompassFineSpec.
From Verif.Proofs Require Import FastCompassProofs FastCompassConcProofs FastCompassFineProofs FastCompassFineRead FastCompassFineMain.
Local Open Scope Z_scope.

Lemma ff_times_step s t s' t' : ff_tstep s t = Some (s', t') -> fs_times s' = fs_times s /\ fs_clock s' = fs_clock s.
Proof.
  assert (Hat : forall pc, ff_at s t pc = Some (s', t') -> fs_times s' = fs_times s /\ fs_clock s' = fs_clock s).
  { intros pc. unfold ff_at. destruct (fc_tstep s (FThread [] pc)) as [[s1 u]|] eqn:E; [|done]. intros H. injection H as <- _.
    unfold fc_tstep in E. destruct (fs_crashed s); [done|]. destruct pc; cbn [ft_pc ft_todo] in E; repeat case_match; try done; injection E as <- _; done. }
  unfold ff_tstep. destruct (fs_crashed s); [done|]. destruct (q_pc t) as [pc|d cat ct u|job order'|job rest|g' start result cat r rest|result cat rest|result cat p rest].
  - destruct pc; try apply Hat; intros H; repeat case_match; try done; by injection H as <- _.
  - intros H; repeat case_match; try done; by injection H as <- _.
  - intros H; repeat case_match; try done; by injection H as <- _.
  - intros H; repeat case_match; try done; by injection H as <- _.
  - intros H; repeat case_match; try done; by injection H as <- _.
  - intros H; repeat case_match; try done; by injection H as <- _.
  - intros H; repeat case_match; try done; by injection H as <- _.
Qed.
Lemma ff_times fc0 now0 progs s : fs_times (shared (ff_crun fc0 now0 progs s)) = wrap64 <$> now0 :: shown s /\ Some (fs_clock (shared (ff_crun fc0 now0 progs s))) = wrap64 <$> last (now0 :: shown s).
Proof.
  induction s as [|ev s [IH1 IH2]] using rev_ind; [done|]. unfold ff_crun in *. rewrite crun_snoc. set (c := crun _ _ _ s) in *. clearbody c. destruct c as [x ts]. destruct ev as [k|e]; cbn [cstep threads shared] in *.
  - assert (Hsh : shown (s ++ [Run k]) = shown s) by (unfold shown; rewrite omap_app; cbn; by rewrite app_nil_r). rewrite Hsh. destruct (ts !! k) as [t|]; [|done]. destruct (ff_tstep x t) as [[x' t']|] eqn:E; [|done]. cbn [shared]. by destruct (ff_times_step _ _ _ _ E) as [-> ->].
  - assert (Hsh : shown (s ++ [Env e]) = shown s ++ [e]) by (unfold shown; by rewrite omap_app). rewrite Hsh. cbn [fc_estep fs_times fs_clock]. split.
    + rewrite IH1. change (now0 :: shown s ++ [e]) with ((now0 :: shown s) ++ [e]). by rewrite (fmap_app _ (now0 :: shown s)).
    + change (now0 :: shown s ++ [e]) with ((now0 :: shown s) ++ [e]). by rewrite last_snoc.
Qed.
Lemma clock_values_shown now (s : list (event Z)) : clock_values now s = wrap64 <$> now :: shown s.
Proof. unfold clock_values. rewrite fmap_cons. f_equal. unfold shown. induction s as [|[k|e] s IH]; cbn; [done|exact IH|]. by f_equal. Qed.

(** The categories a compass tracks grow with its records. *)
Lemma firsts_snoc l x : firsts (l ++ [x]) = firsts l ++ (if decide (x ∈ l) then [] else [x]).
Proof.
  induction l as [|y l IH]; [done|]. cbn [app firsts]. rewrite IH, filter_app. f_equal. destruct (decide (x ∈ l)) as [H|H].
  - rewrite decide_True by (by right). by rewrite filter_nil, app_nil_r.
  - rewrite filter_cons, filter_nil. destruct (decide (x = y)) as [->|Hne].
    + rewrite decide_False by auto. rewrite decide_True by (by left). by rewrite !app_nil_r.
    + rewrite decide_True by done. rewrite decide_False; [done|]. intros [?|?]%elem_of_cons; done.
Qed.
Lemma tracked_snoc max recs r : exists l, tracked max (recs ++ [r]) = tracked max recs ++ l.
Proof.
  unfold tracked. rewrite filter_app, fmap_app, filter_cons, filter_nil. destruct (decide (valid_record r)).
  - cbn [fmap list_fmap]. rewrite firsts_snoc, firstn_app. eauto.
  - cbn. rewrite app_nil_r. exists []. by rewrite app_nil_r.
Qed.
Lemma firsts_elem l x : x ∈ firsts l <-> x ∈ l.
Proof.
  induction l as [|y l IH] using rev_ind; [done|]. rewrite firsts_snoc, !elem_of_app, IH. destruct (decide (y ∈ l)); set_solver.
Qed.
Lemma tracked_elem max recs cat : cat ∈ tracked max recs -> exists r, r ∈ recs /\ valid_record r /\ rc_category r = cat.
Proof.
  unfold tracked. intros H. apply elem_of_take in H as (k & H & _). apply elem_of_list_lookup_2 in H. apply (proj1 (firsts_elem _ _)) in H. apply elem_of_list_fmap in H as (r & -> & H). apply elem_of_list_filter in H as [H1 H2]. eauto.
Qed.

Section fine.
Context (max interval N : Z) (recs0 : list fc_record) (fc0 : fast_compass) (now0 : Z) (progs : list (list qcall)).
Context (I1 : Second <= interval) (I2 : in64 interval) (I3 : 0 <= N).
Context (Hf : Forall (fun r => in64 (rc_time r)) recs0) (E : fc_exec max interval N recs0 = Ok fc0).
Notation L := (landed fc0 progs now0).
Notation run := (ff_crun fc0 now0 progs).

Lemma finv_dom s ts log cat : finv max interval N recs0 fc0 (crecords <$> progs) s (cview <$> ts) log ->
  (cat ∈ tracked max (recs0 ++ log.*2) -> is_Some (fc_subCategories (fs_fc s) !! cat)) /\
  (is_Some (fc_subCategories (fs_fc s) !! cat) -> cat ∈ tracked max (recs0 ++ log.*2) \/ exists (i : nat) t d, ts !! i = Some t /\ begun (cpc (q_pc t)) = [(d, cat)]).
Proof.
  intros F. destruct (f_log _ _ _ _ _ _ _ _ _ F) as (fcs & _ & HI & H1 & H2). destruct (fs_locked s) eqn:El.
  - destruct (f_holder _ _ _ _ _ _ _ _ _ F El) as (i & u & Hi & Hh). specialize (H2 i u Hi Hh). rewrite list_lookup_fmap in Hi. destruct (ts !! i) as [t|] eqn:Ht; [|done]. injection Hi as <-. cbn [ft_pc cview] in *.
    assert (Hs : fs_fc s = fcs \/ exists d cat' bc, fs_fc s = set_sub fcs (<[cat' := bc]> (fc_subCategories fcs)) /\ begun (cpc (q_pc t)) = [(d, cat')]).
    { destruct (cpc (q_pc t)) as [| | | | | |d cat' [ct|]| |] eqn:Ep; cbn in H2; try (left; by destruct H2); try (by left). right. destruct H2 as (bc & -> & _). exists d, cat', bc. done. }
    destruct Hs as [->|(d & cat' & bc & -> & Hb)].
    + split; [apply HI|]. intros H. left. by apply HI.
    + cbn [set_sub fc_subCategories]. split.
      * intros H. apply (fi_dom _ _ _ _ _ HI) in H. destruct (decide (cat' = cat)) as [->|]; [rewrite lookup_insert; eauto|by rewrite lookup_insert_ne].
      * intros H. destruct (decide (cat' = cat)) as [->|]; [right; eauto|]. rewrite lookup_insert_ne in H by done. left. by apply HI.
  - rewrite H1 by done. split; [apply HI|]. intros H. left. by apply HI.
Qed.
Lemma ff_dom s cat : fs_crashed (shared (run s)) = false ->
  (cat ∈ tracked max (recs0 ++ (L s).*2) -> is_Some (fc_subCategories (fs_fc (shared (run s))) !! cat)) /\
  (is_Some (fc_subCategories (fs_fc (shared (run s))) !! cat) ->
    (exists r, r ∈ recs0 ++ (L s).*2 /\ rc_category r = cat) \/ exists (i : nat) t d, threads (run s) !! i = Some t /\ (d, cat) ∈ recording (q_pc t)).
Proof.
  intros Hc. pose proof (run_FI max interval N recs0 fc0 now0 progs I1 I2 I3 Hf E s Hc) as [_ HF]. unfold landed. destruct (grun fc0 progs now0 s).2 as [G P]. cbn [fst snd] in *. destruct P as [[i r]|].
  - destruct HF as (fc' & t & d & c' & ct & u & bc & bc' & F & Hi & Hpc & Ha & Hd & Hcat & _ & Hv & Hs & Hb & _). destruct (finv_dom _ _ _ cat F) as [D1 D2]. cbn [with_fc fs_fc] in D1, D2.
    assert (Hdom : is_Some (fc_subCategories (fs_fc (shared (run s))) !! cat) <-> is_Some (fc_subCategories fc' !! cat)).
    { rewrite Hs. cbn [set_sub fc_subCategories]. destruct (decide (c' = cat)) as [->|]; [rewrite lookup_insert, Hb; split; eauto|by rewrite lookup_insert_ne]. }
    rewrite Hdom. clear Hdom. split.
    + intros H. apply D1. rewrite fmap_app, app_assoc. destruct (tracked_snoc max (recs0 ++ G.*2) r) as [l El]. cbn. rewrite El. apply elem_of_app. by left.
    + intros H. assert (Hrec : recording (q_pc t) = [(d, c')]) by (rewrite Hpc; apply (recording_adding d c' ct u Ha)). apply D2 in H as [H|(j & tj & dj & Hj & Hbj)].
      * apply tracked_elem in H as (r' & H & _ & Hc'). rewrite fmap_app, app_assoc in H. cbn in H. apply elem_of_app in H as [H|H]; [left; eauto|]. apply elem_of_list_singleton in H. subst r'. right. exists i, t, d. split; [done|]. rewrite Hrec. rewrite <- Hc', Hcat. by left.
      * destruct (decide (is_adding (q_pc tj) = true)) as [Haj|Haj]; [|right; exists j, tj, dj; split; [done|]; rewrite recording_begun by (by destruct (is_adding _)); rewrite Hbj; by left].
        assert (i = j) as ->.
        { eapply (f_excl _ _ _ _ _ _ _ _ _ F); [by rewrite list_lookup_fmap, Hi|by rewrite list_lookup_fmap, Hj|..]; cbn; apply adding_holds; [|done]. by rewrite Hpc. }
        rewrite Hi in Hj. injection Hj as <-. right. exists j, t, dj. split; [done|]. rewrite Hpc in Hbj |- *. destruct (recording_adding d c' ct u Ha) as [E1 E2]. rewrite E2 in Hbj. done.
  - destruct HF as [F HA]. destruct (finv_dom _ _ _ cat F) as [D1 D2]. split; [exact D1|]. intros H. apply D2 in H as [H|(j & tj & dj & Hj & Hbj)].
    + apply tracked_elem in H as (r' & H & _ & Hc'). left. eauto.
    + right. exists j, tj, dj. split; [done|]. rewrite recording_begun; [rewrite Hbj; by left|]. exact (proj1 (Forall_lookup _ _) HA j tj Hj).
Qed.
End fine.
