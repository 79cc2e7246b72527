From Verif.Go Require Import GoInt GoConc.
From Verif.Model Require Import Counter BucketQueue BucketCounter FastCompass BucketCounterConc BucketReadConc FastCompassConc FastCompassFine.
From Verif.Spec Require Import CounterSpec BucketSpec BucketConcSpec BucketReadSpec FastCompassSpec FastCompassConcSpec FastCompassFineSpec.
From Verif.Proofs Require Import BucketAbs BucketHist BucketMain BucketConcMain BucketReadProofs BucketReadMain BucketRest FastCompassProofs FastCompassProps FastCompassConcProofs FastCompassFineProofs FastCompassFineRead FastCompassFineMain.
Local Open Scope Z_scope.

(** ** Reading a counter that nobody changes *)
Section alone.
Context (bc : bucket_counter) (st : Z) (shows : Z -> Prop).
Notation h := (bc_heap bc).
Notation d := (bc_buckets bc).
Notation q := (dq_queue d).

Definition clk (cts : Z) : Prop := exists now, shows now /\ alignTimestamp (bc_interval bc) now = Ok cts.

Definition pc_view (pc : rdpc) : Prop :=
  match pc with
  | RIdle => False
  | RClock start => start = st
  | RCur start cts => start = st /\ clk cts
  | RCur2 start cts pos => start = st /\ clk cts /\ pos = dq_current d
  | RTop start cts pos j => start = st /\ clk cts /\ pos = dq_current d /\ j = dq_current d
  | RLoop1 start cts pos sts i1 acc => start = st /\ clk cts /\
      dq_getBucketList h d =
        (r1 ← gbl_loop1 q pos (length q - 1) i1; r2 ← gbl_loop2 h q pos sts (length q - 1); Ok (acc ++ r1 ++ r2))
  | RLoop2 start cts pos sts i acc => start = st /\ clk cts /\
      dq_getBucketList h d = (r2 ← gbl_loop2 h q pos sts i; Ok (acc ++ r2))
  | RFill start cts l m => start = st /\ clk cts /\
      (l0 ← dq_getBucketList h d; gbc_loop h cts st l0 ∅) = gbc_loop h cts st l m
  end.

Definition rview (r : rdthread) : Prop :=
  rd_todo r = [] /\
  ((rd_got r = [] /\ pc_view (rd_pc r)) \/
   exists m now, rd_got r = [m] /\ shows now /\ bc_GetBucketCountsSince bc now st = Ok m).

Lemma rview_step clock r r' : shows clock -> rview r -> rd_got r = [] -> rd_step (BcShared bc clock) r = Some r' -> rview r'.
Proof.
  intros Hclk (Ht & Hor) Hg Hs. destruct Hor as [[_ H]|(m & now & Hm & _)]; [|by rewrite Hg in Hm].
  unfold rd_step in Hs. cbv zeta in Hs. rewrite Ht, Hg in Hs. cbn [bs_bc bs_clock] in Hs. unfold rview.
  destruct (rd_pc r) as [|start|start cts|start cts pos|start cts pos j|start cts pos sts [|j] acc|start cts pos sts j acc|start cts [|p l] result]; cbn [pc_view] in H.
  - done.
  - destruct (alignTimestamp _ _) as [cts|] eqn:Ea; [|done]. injection Hs as <-. split; [done|]. left. split; [done|]. split; [done|]. by exists clock.
  - injection Hs as <-. split; [done|]. left. split; [done|]. cbn. tauto.
  - injection Hs as <-. split; [done|]. left. split; [done|]. cbn. tauto.
  - destruct H as (-> & Hc & -> & ->).
    destruct (q !! dq_current d) as [p|] eqn:Hp; [|done]. cbn [mbind option_bind] in Hs. destruct (_ !! p) as [b|] eqn:Hb; [|done]. cbn [mbind option_bind] in Hs. injection Hs as <-.
    split; [done|]. left. split; [done|]. split; [done|]. split; [done|].
    unfold dq_getBucketList. rewrite Hp. cbn [of_option mbind res_bind]. rewrite Hb. cbn [of_option mbind res_bind]. done.
  - injection Hs as <-. split; [done|]. left. split; [done|]. exact H.
  - destruct H as (-> & Hc & E). cbn [gbl_loop1] in E. destruct (_ <? _)%nat.
    + destruct (q !! j) as [p|] eqn:Hp; [|done]. cbn [mbind option_bind] in Hs. injection Hs as <-. split; [done|]. left. split; [done|].
      split; [done|]. split; [done|].
      rewrite E. cbn [of_option mbind res_bind]. destruct (gbl_loop1 q pos _ j); [|done]. cbn [mbind res_bind].
      destruct (gbl_loop2 h q pos sts _); [|done]. cbn [mbind res_bind]. by rewrite <- !app_assoc.
    + injection Hs as <-. split; [done|]. left. split; [done|]. split; [done|]. split; [done|]. exact E.
  - destruct H as (-> & Hc & E). destruct (pos + 1 <? j)%nat eqn:Hlt.
    + destruct (q !! j) as [p|] eqn:Hp; [|done]. cbn [mbind option_bind] in Hs. destruct (_ !! p) as [b|] eqn:Hb; [|done]. cbn [mbind option_bind] in Hs.
      injection Hs as <-. split; [done|]. left. split; [done|]. split; [done|]. split; [done|].
      rewrite E. destruct j as [|j]; [by rewrite Nat.ltb_lt in Hlt; lia|]. cbn [gbl_loop2]. rewrite Hlt, Hp. cbn [of_option mbind res_bind].
      rewrite Hb. cbn [of_option mbind res_bind]. replace (S j - 1)%nat with j by lia.
      destruct (gbl_loop2 h q pos sts j); [|done]. cbn [mbind res_bind]. destruct (_ <=? _); [by rewrite <- app_assoc|done].
    + injection Hs as <-. split; [done|]. left. split; [done|]. split; [done|]. split; [done|].
      rewrite E. destruct j; cbn [gbl_loop2]; rewrite Hlt; cbn [mbind res_bind]; by rewrite app_nil_r.
  - injection Hs as <-. split; [done|]. right. destruct H as (-> & (now & Hn & Ha) & E). exists result, now. split; [done|]. split; [done|].
    unfold bc_GetBucketCountsSince. rewrite Ha. cbn [mbind res_bind]. rewrite E. done.
  - destruct H as (-> & Hc & E). destruct (_ !! p) as [b|] eqn:Hb; [|done]. cbn [mbind option_bind] in Hs. injection Hs as <-.
    split; [done|]. left. split; [done|]. split; [done|]. split; [done|].
    rewrite E. cbn [gbc_loop]. rewrite Hb. cbn [of_option mbind res_bind]. done.
Qed.
End alone.

Lemma rview_mono bc st (P Q : Z -> Prop) r : (forall x, P x -> Q x) -> rview bc st P r -> rview bc st Q r.
Proof.
  intros HPQ [Ht [[Hg H]|(m & now & ? & ? & ?)]]; (split; [done|]); [left|right; exists m, now; auto].
  split; [done|].
  assert (Hc : forall cts, clk bc P cts -> clk bc Q cts) by (intros cts (now & ? & ?); exists now; auto).
  destruct (rd_pc r); cbn [pc_view] in *; try done; destruct_and?; split_and?; auto.
Qed.

Section quiet.
Context (max interval N : Z) (recs0 : list fc_record) (fc0 : fast_compass) (now0 : Z) (progs : list (list qcall)).
Context (I1 : Second <= interval) (I2 : in64 interval) (I3 : 0 <= N).
Context (Hf : Forall (fun r => in64 (rc_time r)) recs0) (E : fc_exec max interval N recs0 = Ok fc0).
Notation n := (Z.to_nat N).
Notation run := (ff_crun fc0 now0 progs).
Context (s1 : list (event Z)) (i : nat) (g : getter) (st : Z) (order : list string) (todo : list qcall) (got : list qjob).
Notation at_ s := (run (s1 ++ s)).
Notation before := (subs (shared (run s1))).
Notation quiet s := (compass_untouched fc0 now0 progs s1 s).
Notation shows s := (fun now => now ∈ clock_values (fs_clock (shared (run s1))) s).

Definition exact_res (s : list (event Z)) (res : gmap string (gmap Z Z)) : Prop :=
  forall cat m, res !! cat = Some m -> exists bc now m0, before !! cat = Some bc /\ shows s now /\
    bc_GetBucketCountsSince bc now st = Ok m0 /\ m = decode g <$> m0.

Definition ecover (res : gmap string (gmap Z Z)) (rest : list string) : Prop :=
  forall cat, is_Some (before !! cat) -> is_Some (res !! cat) \/ cat ∈ rest.

Definition estage (s : list (event Z)) (t : qthread) : Prop :=
  t = QThread (QGet g st order :: todo) (QAt FIdle) got \/
  (q_todo t = todo /\ q_got t = got /\
   match q_pc t with
   | QStart job o => job = JMap g st ∅ /\ o = order
   | QIter job rest => exists res, job = JMap g st res /\ exact_res s res /\ ecover res rest
   | QRead g' st' res cat r rest => g' = g /\ st' = st /\ exact_res s res /\ ecover res (cat :: rest) /\
       exists bc, before !! cat = Some bc /\ rview bc st (shows s) r
   | _ => False
   end) \/
  (exists res more, q_got t = got ++ JMap g st res :: more /\ exact_res s res /\ ecover res []).

Lemma exact_mono s ev res : exact_res s res -> exact_res (s ++ [ev]) res.
Proof.
  intros H cat m Hm. destruct (H cat m Hm) as (bc & now & m0 & ? & ? & ? & ?). exists bc, now, m0.
  split; [done|]. split; [by apply clock_values_prefix|done].
Qed.

Lemma estage_mono s ev t : estage s t -> estage (s ++ [ev]) t.
Proof.
  intros [?|[(Ht & Hg & H)|(res & more & ? & ? & ?)]]; [by left|right; left|right; right].
  - split; [done|]. split; [done|]. destruct (q_pc t); try done.
    + destruct H as (res & ? & ? & ?). exists res. split; [done|]. split; [by apply exact_mono|done].
    + destruct H as (? & ? & ? & ? & bc & ? & ?). split; [done|]. split; [done|]. split; [by apply exact_mono|]. split; [done|].
      exists bc. split; [done|]. eapply rview_mono; [|done]. intros x. apply clock_values_prefix.
  - exists res, more. split; [done|]. split; [by apply exact_mono|done].
Qed.

Lemma estage_next s t rest res : fs_fc (shared (at_ s)) = fs_fc (shared (run s1)) -> q_todo t = todo -> q_got t = got ->
  exact_res s res -> ecover res rest -> estage s (next_entry (shared (at_ s)) t (JMap g st res) rest).
Proof.
  intros Hq Ht Hg Hgood Hcov. unfold next_entry. rewrite Ht, Hg. destruct rest as [|cat rest].
  - right. right. exists res, []. done.
  - right. left. split; [done|]. split; [done|]. cbn [q_pc]. rewrite Hq. destruct (_ !! cat) as [bc|] eqn:Hb.
    + split; [done|]. split; [done|]. split; [done|]. split; [done|]. exists bc. split; [done|]. split; [done|]. left. done.
    + exists res. split; [done|]. split; [done|]. intros cat' [bc' Hb']. destruct (Hcov cat') as [?|Hin]; [eauto|by left|].
      apply elem_of_cons in Hin as [->|?]; [|by right]. unfold subs in Hb'. congruence.
Qed.

Lemma estage_step s t s' t' : fs_crashed (shared (at_ s)) = false -> fs_crashed s' = false -> threads (at_ s) !! i = Some t ->
  fs_fc (shared (at_ s)) = fs_fc (shared (run s1)) ->
  estage s t -> ff_tstep (shared (at_ s)) t = Some (s', t') -> estage s t'.
Proof.
  intros Hc Hc' Hi Hq Hg Hs. pose proof (run_rwf max interval N recs0 fc0 now0 progs I1 I2 I3 Hf E _ _ _ Hc Hi) as Hr.
  destruct Hg as [->|[(Ht & Hg & H)|(res & more & Hg & Hgood & Hcov)]].
  - unfold ff_tstep in Hs. rewrite Hc in Hs. cbn in Hs. injection Hs as <- <-. right. left. done.
  - unfold ff_tstep in Hs. rewrite Hc in Hs. unfold rwf in Hr. destruct (q_pc t) as [| |job o|job rest|g' st' res cat r rest| |] eqn:Hpc; try done.
    + destruct H as [-> ->]. destruct (fs_writing (shared (at_ s))). { injection Hs as <- <-. done. }
      injection Hs as <- <-. apply estage_next; try done.
      intros cat Hb. right. apply iteration_all. by rewrite Hq.
    + destruct H as (res & -> & Hgood & Hcov). destruct (fs_writing (shared (at_ s))). { injection Hs as <- <-. done. }
      injection Hs as <- <-. by apply estage_next.
    + destruct H as (-> & -> & Hgood & Hcov & bc & Hb & Hrv). rewrite Hq in Hs. unfold subs in Hb. rewrite Hb in Hs.
      destruct (rd_got r) as [|m got'] eqn:Eg.
      * destruct (rd_step _ r) as [r'|] eqn:Er; [|done]. injection Hs as <- <-.
        right. left. cbn. split; [done|]. split; [done|]. split; [done|]. split; [done|]. split; [done|]. split; [done|].
        exists bc. split; [done|]. eapply rview_step; [|done|done|exact Er]. apply ff_clock_shown.
        eapply (clock_in64 max interval N recs0 fc0 now0 progs I1 I2 I3 Hf E), crashed_app. exact Hc.
      * injection Hs as <- <-. destruct Hrv as [_ [[Hx _]|(m' & now & Hm & Hn & Hget)]]; [congruence|].
        rewrite Eg in Hm. injection Hm as -> ->.
        right. left. cbn. split; [done|]. split; [done|]. eexists. split; [done|]. split.
        -- intros cat' m1. rewrite lookup_insert_Some. intros [[<- <-]|[Hne Hm1]]; [|by apply Hgood].
           exists bc, now, m'. done.
        -- intros cat' Hin. rewrite lookup_insert_is_Some. destruct (decide (cat = cat')); [by left; left|].
           destruct (Hcov cat' Hin) as [?|Hin']; [left; by right|]. apply elem_of_cons in Hin' as [?|?]; [congruence|by right].
  - destruct (ff_got _ _ _ _ Hs) as (more' & Hm). right. right. exists res, (more ++ more'). split; [|done].
    by rewrite Hm, Hg, <- app_assoc.
Qed.

Lemma estage_run s : threads (run s1) !! i = Some (QThread (QGet g st order :: todo) (QAt FIdle) got) ->
  fs_crashed (shared (at_ s)) = false -> quiet s -> exists t, threads (at_ s) !! i = Some t /\ estage s t.
Proof.
  intros Hi. induction s as [|ev s IH] using rev_ind.
  { rewrite app_nil_r. intros _ _. eexists. split; [exact Hi|by left]. }
  intros Hc HQ. rewrite app_assoc in Hc. pose proof (crashed_app _ _ _ _ _ Hc) as Hc1.
  assert (HQ1 : quiet s). { intros s' Hp. apply HQ. by apply prefix_app_r. }
  destruct (IH Hc1 HQ1) as (t & Ht & Hg). specialize (HQ1 s (reflexivity _)).
  assert (Hm : forall t', estage s t' -> estage (s ++ [ev]) t') by (intros t'; by apply estage_mono).
  pose proof (fun s' t' => estage_step s t s' t' Hc1) as Hstep.
  rewrite app_assoc. clear HQ. unfold ff_crun in *. rewrite crun_snoc in Hc |- *. destruct (crun _ _ _ (s1 ++ s)) as [sh ts]. cbn [shared threads] in *.
  destruct ev as [j|e]; cbn [cstep shared threads] in Hc |- *.
  2:{ exists t. split; [done|]. by apply Hm. }
  destruct (ts !! j) as [u|] eqn:Hj; [|exists t; split; [done|by apply Hm]].
  destruct (ff_tstep sh u) as [[sh' u']|] eqn:Hs; [|exists t; split; [done|by apply Hm]].
  cbn [threads shared] in *. destruct (decide (j = i)) as [->|Hne].
  - rewrite Ht in Hj. injection Hj as <-. exists u'. rewrite list_lookup_insert by (by apply lookup_lt_Some in Ht). split; [done|].
    apply Hm. exact (Hstep sh' u' Hc Ht HQ1 Hg Hs).
  - exists t. rewrite list_lookup_insert_ne by done. split; [done|]. by apply Hm.
Qed.
End quiet.

Lemma choose_for {A B} `{EqDecision A} (P : A -> B -> Prop) (dflt : B) (l : list A) :
  (forall x, x ∈ l -> exists y, P x y) -> exists f, forall x, x ∈ l -> P x (f x).
Proof.
  induction l as [|x l IH]; intros H; [exists (fun _ => dflt); by intros x ?%elem_of_nil|].
  destruct IH as [f Hf]. { intros y Hy. apply H. by right. }
  destruct (H x) as [y Hy]; [by left|]. exists (fun z => if decide (z = x) then y else f z).
  intros z Hz. destruct (decide (z = x)) as [->|Hne]; [done|]. apply Hf. apply elem_of_cons in Hz as [?|?]; done.
Qed.

Lemma ff_getter_quiet max interval N recs0 fc0 now0 progs s1 s2 i g st order todo got res order' :
  Second <= interval -> in64 interval -> 0 <= N -> Forall (fun r => in64 (rc_time r)) recs0 ->
  fc_exec max interval N recs0 = Ok fc0 ->
  let c1 := ff_crun fc0 now0 progs s1 in let c2 := ff_crun fc0 now0 progs (s1 ++ s2) in
  fs_crashed (shared c2) = false ->
  threads c1 !! i = Some (QThread (QGet g st order :: todo) (QAt FIdle) got) ->
  threads c2 !! i = Some (QThread todo (QAt FIdle) (got ++ [JMap g st res])) ->
  compass_untouched fc0 now0 progs s1 s2 ->
  is_order order' (fc_subCategories (fs_fc (shared c1))) ->
  exists now, (forall cat, now cat ∈ clock_values (fs_clock (shared c1)) s2) /\
    getter_alone g (fs_fc (shared c1)) order' now st = Ok res.
Proof.
  intros I1 I2 I3 Hf E c1 c2 Hc Hi Hi' HQ Ho.
  destruct (estage_run max interval N recs0 fc0 now0 progs I1 I2 I3 Hf E s1 i g st order todo got s2 Hi Hc HQ) as (t & Ht & Hg).
  fold c2 in Ht. rewrite Hi' in Ht. injection Ht as <-.
  destruct Hg as [Hx|[(_ & Hg & _)|(res' & more & Hg & Hex & Hcov)]].
  - exfalso. injection Hx as Hx _. apply (f_equal length) in Hx. cbn in Hx. lia.
  - exfalso. cbn in Hg. apply (f_equal length) in Hg. rewrite app_length in Hg. cbn in Hg. lia.
  - cbn in Hg. apply app_inv_head in Hg. injection Hg as <- _. unfold exact_res, ecover in *. fold c1 in Hex, Hcov. unfold subs in *.
    set (sub := fc_subCategories (fs_fc (shared c1))) in *.
    assert (Hin : forall cat, cat ∈ order' <-> is_Some (sub !! cat)).
    { intros cat. rewrite (elem_of_Permutation_proper cat _ _ Ho), elem_of_list_fmap. split.
      - intros ([k v] & -> & Hkv). apply elem_of_map_to_list in Hkv. by exists v.
      - intros [v Hv]. exists (cat, v). split; [done|]. by apply elem_of_map_to_list. }
    set (vals := clock_values (fs_clock (shared c1)) s2) in *.
    assert (Hd : wrap64 (fs_clock (shared c1)) ∈ vals) by (by left).
    destruct (choose_for (fun cat now => now ∈ vals /\
       exists bc m0, sub !! cat = Some bc /\ bc_GetBucketCountsSince bc now st = Ok m0 /\ res !! cat = Some (decode g <$> m0)) (wrap64 (fs_clock (shared c1))) order') as [f Hff].
    { intros cat Hcat. apply Hin in Hcat. destruct (Hcov cat Hcat) as [[m Hm]|Hx]; [|by apply elem_of_nil in Hx].
      destruct (Hex cat m Hm) as (bc & now & m0 & ? & ? & ? & ->). exists now. split; [done|]. exists bc, m0. done. }
    exists (fun cat => if decide (cat ∈ order') then f cat else wrap64 (fs_clock (shared c1))).
    split. { intros cat. destruct (decide (cat ∈ order')) as [Hx|]; [apply (Hff cat Hx)|exact Hd]. }
    set (now := fun cat : string => if decide (cat ∈ order') then f cat else wrap64 (fs_clock (shared c1))).
    assert (Hcol : forall l r0, (forall x, x ∈ l -> x ∈ order') ->
       exists r, fc_collect (decode g) sub now st l r0 = Ok r /\
         forall cat, r !! cat = if decide (cat ∈ l) then res !! cat else r0 !! cat).
    { intros l. induction l as [|cat l IH]; intros r0 Hl.
      - exists r0. split; [done|]. intros cat. by rewrite decide_False by apply not_elem_of_nil.
      - assert (Hcat : cat ∈ order') by (apply Hl; by left).
        destruct (Hff cat Hcat) as (_ & bc & m0 & Hb & Hget & Hres). cbn [fc_collect]. rewrite Hb. cbn [of_option mbind res_bind].
        assert (Hnow : now cat = f cat) by (unfold now; by rewrite decide_True). rewrite Hnow, Hget. cbn [mbind res_bind].
        destruct (IH (<[cat := decode g <$> m0]> r0)) as (r & Hr & Hrl). { intros x Hx. apply Hl. by right. }
        exists r. split; [exact Hr|]. intros cat'. rewrite Hrl. destruct (decide (cat' ∈ l)).
        + by rewrite decide_True by (by right).
        + destruct (decide (cat' = cat)) as [->|Hne].
          * rewrite lookup_insert, decide_True by (by left). done.
          * rewrite lookup_insert_ne by done. rewrite decide_False; [done|]. intros Hx. apply elem_of_cons in Hx as [?|?]; done. }
    destruct (Hcol order' ∅) as (r & Hr & Hrl); [done|].
    assert (r = res) as ->.
    { apply map_eq. intros cat. rewrite Hrl. destruct (decide (cat ∈ order')) as [|Hn]; [done|]. rewrite lookup_empty.
      destruct (res !! cat) as [m|] eqn:Hm; [|done]. exfalso. apply Hn, Hin. destruct (Hex cat m Hm) as (bc & ? & ? & ? & _). eauto. }
    destruct g; exact Hr.
Qed.
