From Verif.Go Require Import GoInt GoConc.
From Verif.Model Require Import Counter BucketQueue BucketCounter BucketCounterConc BucketReadConc.
From Verif.Spec Require Import BucketSpec BucketConcSpec BucketReadSpec.
From Verif.Proofs Require Import BucketAbs BucketHist BucketMain BucketConcProofs BucketConcRing BucketConcMain BucketReadProofs BucketReadMain.
Local Open Scope Z_scope.

Section call.
Context (N : nat) (interval now0 : Z) (upd : bool) (all : list Z) (c1 : mcfg) (cr1 : list (nat * Z)).
Context (HI : 1 <= interval_seconds interval) (M1 : mxinv N interval now0 upd all c1 cr1).
Context (i : nat) (st : Z) (todo : list Z) (got : list (gmap Z Z)).
Notation d := (bc_buckets (bs_bc (shared c1))).
Notation q := (dq_queue d).
Notation h1 := (bc_heap (bs_bc (shared c1))).

Definition same_heap (s : list (event Z)) : Prop :=
  forall s', s' `prefix_of` s -> bc_heap (bs_bc (shared (mrun c1 s'))) = h1.

Definition clk (s : list (event Z)) (cts : Z) : Prop :=
  exists now, now ∈ clock_values (bs_clock (shared c1)) s /\ alignTimestamp interval now = Ok cts.
Notation inh := (Forall (fun p => (p < length h1)%nat)).

Definition map_view (s : list (event Z)) (cts : Z) (l : list nat) (m : gmap Z Z) : Prop :=
  exists m', dom m' = dom m /\ (same_heap s -> m' = m) /\
    (l0 ← dq_getBucketList h1 d; gbc_loop h1 cts st l0 ∅) = gbc_loop h1 cts st l m'.

Definition pc_view (s : list (event Z)) (pc : rdpc) : Prop :=
  match pc with
  | RIdle => False
  | RClock start => start = st
  | RCur start cts => start = st /\ clk s cts
  | RCur2 start cts pos => start = st /\ clk s cts /\ pos = dq_current d
  | RTop start cts pos j => start = st /\ clk s cts /\ pos = dq_current d /\ j = dq_current d
  | RLoop1 start cts pos sts i1 acc => start = st /\ clk s cts /\ inh acc /\
      dq_getBucketList h1 d =
        (r1 ← gbl_loop1 q pos (length q - 1) i1; r2 ← gbl_loop2 h1 q pos sts (length q - 1); Ok (acc ++ r1 ++ r2))
  | RLoop2 start cts pos sts i acc => start = st /\ clk s cts /\ inh acc /\
      dq_getBucketList h1 d = (r2 ← gbl_loop2 h1 q pos sts i; Ok (acc ++ r2))
  | RFill start cts l m => start = st /\ clk s cts /\ inh l /\ map_view s cts l m
  end.

Definition view (s : list (event Z)) (t : rdthread) : Prop :=
  t = RdThread (st :: todo) RIdle got \/
  (exists pc, t = RdThread todo pc got /\ pc_view s pc) \/
  (exists m rest cts, rd_got t = got ++ m :: rest /\ clk s cts /\ map_view s cts [] m).

Lemma clk_mono s ev cts : clk s cts -> clk (s ++ [ev]) cts.
Proof. intros (now & ? & ?). exists now. split; [by apply clock_values_prefix|done]. Qed.
Lemma map_view_mono s ev cts l m : map_view s cts l m -> map_view (s ++ [ev]) cts l m.
Proof.
  intros (m' & ? & H & ?). exists m'. split; [done|]. split; [|done]. intros Hs. apply H. intros s' Hp. apply Hs. by apply prefix_app_r.
Qed.
Lemma view_mono s ev t : view s t -> view (s ++ [ev]) t.
Proof.
  intros [?|[(pc & -> & H)|(m & rest & cts & ? & ? & ?)]]; [by left|right; left|right; right].
  - exists pc. split; [done|]. pose proof (clk_mono s ev) as Hc. pose proof (map_view_mono s ev) as Hm.
    destruct pc; cbn in *; intuition eauto.
  - exists m, rest, cts. split; [done|]. split; [by apply clk_mono|by apply map_view_mono].
Qed.

Lemma heap_back s p b : (p < length h1)%nat -> bc_heap (bs_bc (shared (mrun c1 s))) !! p = Some b ->
  exists b1, h1 !! p = Some b1 /\ bk_ts b1 = bk_ts b /\ (same_heap s -> b1 = b).
Proof.
  intros Hlt Hb. destruct (lookup_lt_is_Some_2 h1 p Hlt) as [b1 Hb1]. exists b1. split; [done|].
  destruct (mx_crun_heap c1 s p b1 Hb1) as (b' & Hb' & E). rewrite Hb in Hb'. injection Hb' as <-. split; [done|].
  intros Hs. rewrite (Hs s) in Hb by done. congruence.
Qed.

Lemma view_step s t t' : view s t -> bc_buckets (bs_bc (shared (mrun c1 s))) = d ->
  rd_ok N (bc_heap (bs_bc (shared (mrun c1 s)))) (rd_pc t) -> rd_step (shared (mrun c1 s)) t = Some t' -> view s t'.
Proof.
  intros Hst Hd Hok Hs. pose proof (mxinv_ledger _ _ _ _ _ HI _ _ s M1) as [B _].
  pose proof (b_interval _ _ _ _ _ _ _ _ B) as Hint. pose proof (b_clock _ _ _ _ _ _ _ _ B) as Hclk.
  assert (Q : forall j p, q !! j = Some p -> (p < length h1)%nat).
  { destruct M1 as [_ Q]. unfold qinv in Q. rewrite Forall_lookup in Q. exact Q. }
  destruct Hst as [->|[(pc & -> & H)|(m & rest & cts & Hg & Hc & Hf)]].
  - cbn in Hs. injection Hs as <-. right. left. by exists (RClock st).
  - unfold rd_step in Hs. cbn [rd_pc rd_todo rd_got] in *. cbv zeta in Hs. rewrite Hd in Hs.
    destruct pc as [|start|start cts|start cts pos|start cts pos j|start cts pos sts [|j] acc|start cts pos sts j acc|start cts [|p l] result]; cbn [pc_view] in H.
    + done.
    + rewrite Hint in Hs. destruct (alignTimestamp interval _) as [cts|] eqn:Ea; [|done]. injection Hs as <-. right. left. eexists. split; [done|].
      split; [done|]. eexists. split; [|exact Ea]. apply clock_shown. exact (b_clock _ _ _ _ _ _ _ _ (proj1 M1)).
    + injection Hs as <-. right. left. eexists. split; [done|]. cbn. tauto.
    + injection Hs as <-. right. left. eexists. split; [done|]. cbn. tauto.
    + destruct H as (-> & Hc & -> & ->).
      destruct (q !! dq_current d) as [p|] eqn:Hp; [|done]. cbn in Hs. destruct (_ !! p) as [b|] eqn:Hb; [|done]. cbn in Hs. injection Hs as <-.
      right. left. eexists. split; [done|]. split; [done|]. split; [done|]. split; [constructor|].
      destruct (heap_back s p b (Q _ _ Hp) Hb) as (b1 & Hb1 & <- & _).
      unfold dq_getBucketList. rewrite Hp. cbn [of_option mbind res_bind]. rewrite Hb1. cbn [of_option mbind res_bind]. done.
    + injection Hs as <-. right. left. eexists. split; [done|]. destruct H as (-> & ? & ? & E). split; [done|]. split; [done|]. split; [done|].
      exact E.
    + destruct H as (-> & Hc & Hi & E). cbn [gbl_loop1] in E. destruct (_ <? _)%nat.
      * destruct (q !! j) as [p|] eqn:Hp; [|done]. cbn [mbind option_bind] in Hs. injection Hs as <-. right. left. eexists. split; [done|].
        split; [done|]. split; [done|]. split; [apply Forall_app; split; [done|]; constructor; [by eapply Q|constructor]|].
        rewrite E. cbn [of_option mbind res_bind]. destruct (gbl_loop1 q pos _ j); [|done]. cbn [mbind res_bind].
        destruct (gbl_loop2 h1 q pos sts _); [|done]. cbn [mbind res_bind]. by rewrite <- !app_assoc.
      * injection Hs as <-. right. left. eexists. split; [done|]. split; [done|]. split; [done|]. split; [done|]. exact E.
    + destruct H as (-> & Hc & Hi & E). destruct (pos + 1 <? j)%nat eqn:Hlt.
      * destruct (q !! j) as [p|] eqn:Hp; [|done]. cbn [mbind option_bind] in Hs. destruct (_ !! p) as [b|] eqn:Hb; [|done]. cbn [mbind option_bind] in Hs.
        injection Hs as <-. right. left. eexists. split; [done|].
        split; [done|]. split; [done|]. destruct (heap_back s p b (Q _ _ Hp) Hb) as (b1 & Hb1 & Ets & _).
        split. { destruct (_ <=? _); [|done]. apply Forall_app; split; [done|]; constructor; [by eapply Q|constructor]. }
        rewrite E. destruct j as [|j]; [by rewrite Nat.ltb_lt in Hlt; lia|]. cbn [gbl_loop2]. rewrite Hlt, Hp. cbn [of_option mbind res_bind].
        rewrite Hb1. cbn [of_option mbind res_bind]. rewrite Ets. replace (S j - 1)%nat with j by lia.
        destruct (gbl_loop2 h1 q pos sts j); [|done]. cbn [mbind res_bind]. destruct (_ <=? _); [by rewrite <- app_assoc|done].
      * injection Hs as <-. right. left. eexists. split; [done|]. split; [done|]. split; [done|]. split; [done|].
        exists ∅. split; [done|]. split; [done|]. rewrite E. destruct j; cbn [gbl_loop2]; rewrite Hlt; cbn [mbind res_bind]; by rewrite app_nil_r.
    + injection Hs as <-. right. right. destruct H as (-> & ? & ? & ?). by exists result, [], cts.
    + destruct H as (-> & Hc & Hi & Hm). destruct (_ !! p) as [b|] eqn:Hb; [|done]. cbn [mbind option_bind] in Hs. injection Hs as <-.
      apply Forall_cons in Hi as [Hp Hi]. right. left. eexists. split; [done|].
      split; [done|]. split; [done|]. split; [done|].
      destruct (heap_back s p b Hp Hb) as (b1 & Hb1 & Ets & Eb). destruct Hm as (m' & Hdom & Heq & E).
      cbn [gbc_loop] in E. rewrite Hb1 in E. cbn [of_option mbind res_bind] in E. rewrite Ets in E.
      exists (if (st <=? wrap64 (secondToMsRate * bk_ts b)) && (bk_ts b <=? cts) then <[wrap64 (secondToMsRate * bk_ts b) := bk_count b1]> m' else m').
      split; [|split; [|done]].
      * destruct (_ && _); [|done]. by rewrite !dom_insert_L, Hdom.
      * intros Hs. rewrite (Eb Hs), (Heq Hs). done.
  - right. right. assert (exists more, rd_got t' = rd_got t ++ more) as [more Hmore].
    { assert (rd_got t' = rd_got t \/ exists m', rd_got t' = rd_got t ++ [m']) as [->|[m' ->]];
        [|exists []; by rewrite app_nil_r|by exists [m']].
      unfold rd_step in Hs. cbv zeta in Hs.
      destruct (rd_pc t) as [|start|start cts'|start cts' pos|start cts' pos j|start cts' pos sts [|j] acc|start cts' pos sts j acc|start cts' [|p l] result].
      - destruct (rd_todo t); [done|]. injection Hs as <-. by left.
      - destruct (alignTimestamp _ _); [|done]. injection Hs as <-. by left.
      - injection Hs as <-. by left.
      - injection Hs as <-. by left.
      - destruct (_ !! j) as [p|]; [|done]. cbn in Hs. destruct (_ !! p) as [b|]; [|done]. cbn in Hs. injection Hs as <-. by left.
      - injection Hs as <-. by left.
      - destruct (_ <? _)%nat.
        + destruct (_ !! j) as [p|]; [|done]. cbn in Hs. injection Hs as <-. by left.
        + injection Hs as <-. by left.
      - destruct (_ <? _)%nat.
        + destruct (_ !! j) as [p|]; [|done]. cbn in Hs. destruct (_ !! p) as [b|]; [|done]. cbn in Hs. injection Hs as <-. by left.
        + injection Hs as <-. by left.
      - injection Hs as <-. right. by eexists.
      - destruct (_ !! p) as [b|]; [|done]. cbn in Hs. injection Hs as <-. by left. }
    exists m, (rest ++ more), cts. split; [|done]. by rewrite Hmore, Hg, <- app_assoc.
Qed.

Lemma view_run s : readers_ok N c1 -> threads c1 !! i = Some (MRead (RdThread (st :: todo) RIdle got)) ->
  ring_untouched c1 s -> exists t, threads (mrun c1 s) !! i = Some (MRead t) /\ view s t.
Proof.
  intros R0 Hi. induction s as [|ev s IH] using rev_ind; intros HU; [eexists; split; [done|by left]|].
  destruct IH as (t & Ht & Hst). { intros s1 s2 ->. apply (HU s1 (s2 ++ [ev])). by rewrite app_assoc. }
  rewrite crun_snoc.
  pose proof (readers_ok_run _ _ _ _ _ _ _ s HI M1 R0 _ _ Ht) as Hok.
  pose proof (fun t' => view_step _ _ t' Hst (HU s [ev] eq_refl) Hok) as Hstep.
  destruct (mrun c1 s) as [sh ts] eqn:Ec. cbn [shared threads] in *.
  destruct ev as [j|e]; cbn [cstep shared threads].
  2:{ exists t. split; [done|]. by apply view_mono. }
  destruct (ts !! j) as [u|] eqn:Hj; [|exists t; split; [done|by apply view_mono]].
  destruct (mx_tstep sh u) as [[sh' u']|] eqn:Hs; [|exists t; split; [done|by apply view_mono]].
  cbn [threads]. destruct (decide (j = i)) as [->|Hne].
  - rewrite Ht in Hj. injection Hj as <-. cbn in Hs. destruct (rd_step sh t) as [t'|] eqn:Hr; [|done]. injection Hs as <- <-.
    exists t'. rewrite list_lookup_insert by (by apply lookup_lt_Some in Ht). split; [done|]. by apply view_mono, Hstep.
  - exists t. rewrite list_lookup_insert_ne by done. split; [done|by apply view_mono].
Qed.
End call.

Lemma reads_untouched interval N now0 upd progs s1 s2 c1 c2 i st todo got m :
  Second <= interval -> in64 interval -> 0 <= N ->
  mx_crun interval N now0 upd progs s1 = Ok c1 ->
  mx_crun interval N now0 upd progs (s1 ++ s2) = Ok c2 ->
  threads c1 !! i = Some (MRead (RdThread (st :: todo) RIdle got)) ->
  threads c2 !! i = Some (MRead (RdThread todo RIdle (got ++ [m]))) ->
  ring_untouched c1 s2 ->
  exists now m', now ∈ clock_values (bs_clock (shared c1)) s2 /\
    bc_GetBucketCountsSince (bs_bc (shared c1)) now st = Ok m' /\ dom m = dom m' /\
    (amounts_untouched c1 s2 -> m = m').
Proof.
  intros H1 H2 HN E1 E2 Hi1 Hi2 HU. pose proof (interval_seconds_pos _ H1 H2) as HI.
  pose proof (mx_crun_app _ _ _ _ _ _ s2 _ E1) as E2'. rewrite E2 in E2'. injection E2' as ->.
  destruct (mx_run interval N now0 upd progs s1 H1 H2 HN) as (c & cr & Ec & M). rewrite E1 in Ec. injection Ec as <-.
  pose proof (readers_ok_reach _ _ _ _ _ _ _ H1 H2 HN E1) as R.
  destruct (view_run _ _ _ _ _ _ _ HI M i st todo got s2 R Hi1 HU) as (t & Ht & Hv).
  rewrite Hi2 in Ht. injection Ht as <-.
  destruct Hv as [E|[(pc & E & H)|(m0 & rest & cts & Hg & (now & Hn & Ha) & (m' & Hdom & Heq & E))]].
  { injection E as E _. apply (f_equal length) in E. cbn in E. lia. }
  { injection E as <- E. apply (f_equal length) in E. rewrite app_length in E. cbn in E. lia. }
  cbn [rd_got] in Hg. apply app_inv_head in Hg. injection Hg as <- <-.
  exists now, m'. split; [done|]. split; [|split; [done|]].
  - unfold bc_GetBucketCountsSince. rewrite (b_interval _ _ _ _ _ _ _ _ (proj1 M)), Ha. exact E.
  - intros HA. symmetry. apply Heq. intros s' [z Hz]. exact (HA s' z Hz).
Qed.
