From Verif.Go Require Import GoInt GoConc.
From Verif.Model Require Import Counter BucketQueue BucketCounter BucketCounterConc BucketReadConc.
From Verif.Spec Require Import BucketSpec BucketConcSpec BucketReadSpec.
From Verif.Proofs Require Import BucketAbs BucketHist BucketMain BucketConcProofs BucketConcRing BucketConcMain BucketReadProofs.
Local Open Scope Z_scope.

Notation mcfg := (config bc_shared mthread).
Notation mrun := (crun mx_tstep bc_estep).

(** ** The order in which amounts are added *)
Definition adds (c : mcfg) (ev : event Z) : list (nat * Z) :=
  match ev with
  | Run i => match threads c !! i with Some (MUpd (BThread _ (PAdd n q))) => [(q, n)] | _ => [] end
  | Env _ => []
  end.

Fixpoint pledger (c : mcfg) (sched : list (event Z)) : list (nat * Z) :=
  match sched with [] => [] | ev :: sched => adds c ev ++ pledger (cstep mx_tstep bc_estep c ev) sched end.

Lemma pledger_app c s1 s2 : pledger c (s1 ++ s2) = pledger c s1 ++ pledger (mrun c s1) s2.
Proof. revert c. induction s1 as [|ev s1 IH]; intros c; [done|]. cbn. rewrite IH. by rewrite app_assoc. Qed.

Section inv.
Context (N : nat) (interval now0 : Z) (upd : bool) (all : list Z).
Context (HI : 1 <= interval_seconds interval).
Notation INV := (mxinv N interval now0 upd all).

Lemma mxinv_cstep c cr ev : INV c cr -> INV (cstep mx_tstep bc_estep c ev) (cr ++ adds c ev).
Proof.
  intros M. destruct c as [s ts]. destruct ev as [i|e]; cbn [cstep adds threads shared].
  2:{ rewrite app_nil_r. destruct M as [B Q]. split; [by apply binv_env|done]. }
  destruct (ts !! i) as [t|] eqn:Hi; [|by rewrite app_nil_r].
  destruct t as [t|t].
  - assert (Hi' : (proj <$> ts) !! i = Some t) by (by rewrite list_lookup_fmap, Hi).
    destruct M as [B Q]. cbn [mx_tstep shared threads] in *.
    destruct (bc_tstep s t) as [[s' t']|] eqn:Hs.
    + destruct (binv_step _ _ _ _ _ _ _ _ _ _ _ _ HI B Hi' Hs) as (cr' & B' & Hcr).
      assert (cr' = cr ++ match t with BThread _ (PAdd n q) => [(q, n)] | _ => [] end) as <-.
      { destruct Hcr as [->|(n & q & Hpc & ->)]; [|destruct t as [td pc]; cbn in Hpc; by rewrite Hpc].
        destruct t as [td pc]. destruct pc; try by rewrite app_nil_r. exfalso.
        pose proof (b_amts _ _ _ _ _ _ _ _ B) as P1. pose proof (b_amts _ _ _ _ _ _ _ _ B') as P2.
        apply Permutation_length in P1. apply Permutation_length in P2. rewrite app_length in P1, P2.
        pose proof (Permutation_length (Permutation_insert_concat unfinished _ _ _ t' Hi')) as P3.
        rewrite !app_length in P3.
        unfold bc_tstep in Hs. cbn in Hs. destruct (heap_add _ _ _); [|done]. injection Hs as <- <-. cbn in P3. lia. }
      split; cbn [shared threads].
      * by rewrite list_fmap_insert.
      * eapply qinv_step; [done| |done]. by apply (b_pcs _ _ _ _ _ _ _ _ B i).
    + destruct (decide (unfinished t = [])) as [Hu|Hu].
      * apply unfinished_nil in Hu as ->. by rewrite app_nil_r.
      * destruct (binv_progress _ _ _ _ _ _ _ _ _ _ HI B Hi' Hu) as (? & ? & ?). congruence.
  - rewrite app_nil_r. cbn [mx_tstep]. destruct (rd_step s t) as [t1|] eqn:Hst; [|done].
    destruct M as [B Q]. split; cbn [shared threads] in *; [|done].
    rewrite list_fmap_insert, list_insert_id; [done|]. by rewrite list_lookup_fmap, Hi.
Qed.

Lemma mxinv_ledger c cr sched : INV c cr -> INV (mrun c sched) (cr ++ pledger c sched).
Proof.
  revert c cr. induction sched as [|ev sched IH]; intros c cr M; [by cbn; rewrite app_nil_r|].
  cbn. rewrite app_assoc. by apply IH, mxinv_cstep.
Qed.
End inv.

(** Keys of credited buckets do not change. *)
Lemma by_bucket_stable (h h' : list bucket) cr :
  (forall p, p ∈ cr.*1 -> (p < length h)%nat) ->
  (forall p b, h !! p = Some b -> exists b', h' !! p = Some b' /\ bk_ts b' = bk_ts b) ->
  by_bucket h' cr = by_bucket h cr.
Proof.
  intros Hlt Hh. unfold by_bucket. apply list_fmap_ext. intros j [p n] Hj. cbn. f_equal.
  assert (p ∈ cr.*1) as Hp. { apply elem_of_list_fmap. exists (p, n). split; [done|]. by apply elem_of_list_lookup_2 in Hj. }
  destruct (lookup_lt_is_Some_2 h p (Hlt _ Hp)) as [b Hb]. destruct (Hh _ _ Hb) as (b' & Hb' & E).
  rewrite (key_of_lookup _ _ _ Hb), (key_of_lookup _ _ _ Hb'). unfold key. by rewrite E.
Qed.

(** ** Timestamps are clock readings *)
Definition tsok (I : Z) (vals : list Z) (x : Z) : Prop := exists v, v ∈ vals /\ x = I * Z.quot v (1000 * I).
Definition pc_ts (pc : bpc) : option Z :=
  match pc with PLoad _ ts | PCmp _ ts _ | PCas _ ts _ => Some ts | _ => None end.
Record tsinv (I : Z) (vals : list Z) (c : mcfg) : Prop := {
  t_clock : bs_clock (shared c) ∈ vals;
  t_heap : forall p b, bc_heap (bs_bc (shared c)) !! p = Some b -> bk_ts b = -1 \/ tsok I vals (bk_ts b);
  t_pcs : forall i t x, threads c !! i = Some (MUpd t) -> pc_ts (bt_pc t) = Some x -> tsok I vals x
}.

Lemma tsok_mono I v1 v2 x : v1 ⊆ v2 -> tsok I v1 x -> tsok I v2 x.
Proof. intros H (v & ? & ?). exists v. split; [by apply H|done]. Qed.

Lemma tsinv_tstep I vals s ts i t s' t' : 1 <= I -> in64 (bs_clock s) -> interval_seconds (bc_interval (bs_bc s)) = I ->
  tsinv I vals (Config s ts) -> ts !! i = Some t -> mx_tstep s t = Some (s', t') ->
  tsinv I vals (Config s' (<[i := t']> ts)).
Proof.
  intros HI Hclk Hint [T1 T2 T3] Hi Hs. cbn [shared threads] in *. apply lookup_lt_Some in Hi as Hlt.
  destruct t as [t|t]; cbn [mx_tstep] in Hs.
  2:{ destruct (rd_step s t) as [t1|]; [|done]. injection Hs as <- <-. constructor; cbn [shared threads]; [done|done|].
      intros j u x Hj. apply list_lookup_insert_Some in Hj as [(-> & ? & _)|[_ Hj]]; [done|]. by apply (T3 j). }
  destruct (bc_tstep s t) as [[s1 t1]|] eqn:Hst; [|done]. injection Hs as <- <-.
  assert (G : bs_clock s1 = bs_clock s /\
     (forall p b, bc_heap (bs_bc s1) !! p = Some b -> bk_ts b = -1 \/ tsok I vals (bk_ts b)) /\
     (forall x, pc_ts (bt_pc t1) = Some x -> tsok I vals x)).
  { pose proof (fun x => T3 i t x Hi) as T3i. destruct s as [c clk]. unfold bc_tstep in Hst. cbn [bs_bc bs_clock] in *.
    destruct (bt_pc t) eqn:Hpc; cbn [pc_ts] in T3i.
    - destruct (bt_todo t); [done|]. injection Hst as <- <-. cbn. split; [done|]. split; [|done]. by destruct (bc_updateTotalCount c).
    - rewrite alignTimestamp_spec in Hst by (rewrite ?Hint; done). injection Hst as <- <-. split; [done|]. split; [done|].
      cbn. intros x Hx. injection Hx as <-. rewrite Hint. exists clk. done.
    - injection Hst as <- <-. cbn. split; [done|]. split; [done|]. intros x Hx. by apply T3i.
    - destruct (bc_heap c !! old); [|done]. injection Hst as <- <-. split; [done|]. split; [done|]. cbn.
      destruct (_ <? _); [|done]. intros x Hx. by apply T3i.
    - destruct (decide _); injection Hst as <- <-; (split; [done|]); [|done]. split; [|done]. cbn.
      intros p b Hp. apply lookup_app_Some in Hp as [Hp|[_ Hp]]; [by apply (T2 p)|].
      apply list_lookup_singleton_Some in Hp as [_ <-]. right. by apply T3i.
    - destruct (length (dq_queue (bc_buckets c))); [done|]. by injection Hst as <- <-.
    - by injection Hst as <- <-.
    - by injection Hst as <- <-.
    - destruct (_ <? _)%nat; [|done]. by injection Hst as <- <-.
    - by injection Hst as <- <-.
    - unfold heap_add in Hst. destruct (bc_heap c !! bk) as [b0|] eqn:E; [|done]. injection Hst as <- <-. split; [done|]. split; [|done].
      cbn. intros p b Hp. apply list_lookup_insert_Some in Hp as [(<- & <- & _)|[_ Hp]]; [|by apply (T2 p)]. cbn. by apply (T2 bk). }
  destruct G as (G1 & G2 & G3). constructor; cbn [shared threads]; [by rewrite G1|done|].
  intros j u x Hj. apply list_lookup_insert_Some in Hj as [(-> & E & _)|[_ Hj]]; [|by apply (T3 j)].
  injection E as ->. apply G3.
Qed.

Lemma clock_values_app now s1 s2 : clock_values now (s1 ++ s2) = clock_values now s1 ++ omap (fun ev => match ev with Run _ => None | Env t => Some (wrap64 t) end) s2.
Proof. unfold clock_values. by rewrite omap_app. Qed.

Lemma tsinv_run N interval now0 upd all c cr sched now (I := interval_seconds interval) :
  1 <= I -> mxinv N interval now0 upd all c cr -> bs_clock (shared c) = wrap64 now -> 
  (forall v0, tsinv I (v0 ++ [wrap64 now]) c -> tsinv I (v0 ++ clock_values now sched) (mrun c sched)).
Proof.
  intros HI M Hc v0 T0. induction sched as [|ev sched IH] using rev_ind; [exact T0|].
  rewrite crun_snoc, clock_values_app.
  pose proof (mxinv_ledger _ _ _ _ _ HI _ _ sched M) as Ms.
  destruct (mrun c sched) as [s ts].
  assert (forall l, tsinv I (v0 ++ (clock_values now sched ++ l)) (Config s ts)) as IH'.
  { intros l. destruct IH as [T1 T2 T3].
    assert (Hsub : v0 ++ clock_values now sched ⊆ v0 ++ (clock_values now sched ++ l)).
    { intros x. rewrite !elem_of_app. tauto. }
    constructor; [by apply Hsub|..].
    - intros p b Hp. destruct (T2 p b Hp); [by left|right]. by eapply tsok_mono.
    - intros i t x Hi Hx. eapply tsok_mono; [exact Hsub|]. by eapply T3. }
  destruct Ms as [B _]. cbn [shared threads] in B.
  destruct ev as [i|e]; cbn [cstep shared threads omap list_omap].
  - specialize (IH' []). destruct (ts !! i) as [t|] eqn:Hi; [|done]. destruct (mx_tstep s t) as [[s' t']|] eqn:Hs; [|done].
    eapply tsinv_tstep; [done| | |done|done|done]; [exact (b_clock _ _ _ _ _ _ _ _ B)|].
    by rewrite (b_interval _ _ _ _ _ _ _ _ B).
  - destruct (IH' [wrap64 e]) as [T1 T2 T3]. constructor; [|exact T2|exact T3]. cbn [bs_clock bc_estep shared].
    rewrite !elem_of_app. right. right. apply elem_of_list_singleton. done.
Qed.

Lemma clock_shown c sched : in64 (bs_clock (shared c)) -> bs_clock (shared (mrun c sched)) ∈ clock_values (bs_clock (shared c)) sched.
Proof.
  intros Hc. induction sched as [|ev sched IH] using rev_ind; [unfold clock_values; rewrite wrap64_id by done; by left|].
  rewrite crun_snoc, clock_values_app. destruct (mrun c sched) as [s ts].
  destruct ev as [i|e]; cbn [cstep shared threads omap list_omap].
  - rewrite app_nil_r. destruct (ts !! i) as [t|]; [|done]. destruct (mx_tstep s t) as [[s' t']|] eqn:Hs; [|done].
    cbn [shared] in *. assert (bs_clock s' = bs_clock s) as ->; [|done].
    destruct t as [t|t]; cbn in Hs.
    + destruct (bc_tstep s t) as [[s1 t1]|] eqn:Hst; [|done]. injection Hs as <- <-. unfold bc_tstep in Hst.
      destruct (bt_pc t).
      * destruct (bt_todo t); [done|]. by injection Hst as <- <-.
      * destruct (alignTimestamp _ _); [|done]. by injection Hst as <- <-.
      * by injection Hst as <- <-.
      * destruct (bc_heap (bs_bc s) !! old); [|done]. by injection Hst as <- <-.
      * destruct (decide _); by injection Hst as <- <-.
      * destruct (length (dq_queue (bc_buckets (bs_bc s)))); [done|]. by injection Hst as <- <-.
      * by injection Hst as <- <-.
      * by injection Hst as <- <-.
      * destruct (_ <? _)%nat; [|done]. by injection Hst as <- <-.
      * by injection Hst as <- <-.
      * destruct (heap_add _ _ _); [|done]. by injection Hst as <- <-.
    + destruct (rd_step s t); [|done]. by injection Hs as <- <-.
  - apply elem_of_app. right. by left.
Qed.

Lemma clock_values_prefix now s1 s2 : clock_values now s1 ⊆ clock_values now (s1 ++ s2).
Proof. intros x. rewrite clock_values_app, elem_of_app. tauto. Qed.

(** ** One call of a reader *)
Section call.
Context (N : nat) (interval now0 : Z) (upd : bool) (all : list Z) (c1 : mcfg) (cr1 : list (nat * Z)).
Context (HI : 1 <= interval_seconds interval) (M1 : mxinv N interval now0 upd all c1 cr1).
Context (i : nat) (st : Z) (todo : list Z) (got : list (gmap Z Z)).
Notation I := (interval_seconds interval).

(** Every entry is the content of a bucket at a moment of the call. *)
Definition fine (s : list (event Z)) (cts : Z) (m : gmap Z Z) : Prop :=
  (exists now, now ∈ clock_values (bs_clock (shared c1)) s /\ cts = I * Z.quot now (1000 * I)) /\
  forall k v, m !! k = Some v -> st <= k <= 1000 * cts /\
    exists s' p b, s' `prefix_of` s /\ bc_heap (bs_bc (shared (mrun c1 s'))) !! p = Some b /\ key b = k /\ bk_count b = v.

Lemma fine_mono s ev cts m : fine s cts m -> fine (s ++ [ev]) cts m.
Proof.
  intros [(now & Hn & ->) H]. split; [exists now; split; [by apply clock_values_prefix|done]|].
  intros k v Hk. destruct (H k v Hk) as (? & s' & p & b & ? & ? & ? & ?). split; [done|].
  exists s', p, b. split; [by apply prefix_app_r|done].
Qed.

Definition pc_fine (s : list (event Z)) (pc : rdpc) : Prop :=
  match pc with
  | RIdle => False
  | RClock start => start = st
  | RCur start cts | RCur2 start cts _ | RTop start cts _ _ | RLoop1 start cts _ _ _ _ | RLoop2 start cts _ _ _ _ =>
      start = st /\ fine s cts ∅
  | RFill start cts _ m => start = st /\ fine s cts m
  end.

Definition stage (s : list (event Z)) (t : rdthread) : Prop :=
  t = RdThread (st :: todo) RIdle got \/
  (exists pc, t = RdThread todo pc got /\ pc_fine s pc) \/
  (exists m rest cts, rd_got t = got ++ m :: rest /\ (size m <= N)%nat /\ fine s cts m).

Lemma stage_mono s ev t : stage s t -> stage (s ++ [ev]) t.
Proof.
  intros [?|[(pc & -> & H)|(m & rest & cts & ? & ? & ?)]]; [by left|right; left|right; right].
  - exists pc. split; [done|]. destruct pc; cbn in *; try done; destruct H; (split; [done|by apply fine_mono]).
  - exists m, rest, cts. split; [done|]. split; [done|]. by apply fine_mono.
Qed.

Lemma stage_step s t t' : stage s t ->
  rd_ok N (bc_heap (bs_bc (shared (mrun c1 s)))) (rd_pc t) -> rd_step (shared (mrun c1 s)) t = Some t' -> stage s t'.
Proof.
  intros Hst Hok Hs. pose proof (mxinv_ledger _ _ _ _ _ HI _ _ s M1) as [B _].
  pose proof (b_interval _ _ _ _ _ _ _ _ B) as Hint. pose proof (b_clock _ _ _ _ _ _ _ _ B) as Hclk.
  destruct Hst as [->|[(pc & -> & H)|(m & rest & cts & Hg & Hsz & Hf)]].
  - cbn in Hs. injection Hs as <-. right. left. by exists (RClock st).
  - unfold rd_step in Hs. cbn [rd_pc rd_todo rd_got] in *. cbv zeta in Hs.
    destruct pc as [|start|start cts|start cts pos|start cts pos j|start cts pos sts [|j] acc|start cts pos sts j acc|start cts [|p l] result]; cbn [pc_fine] in H.
    + done.
    + rewrite Hint, alignTimestamp_spec in Hs by done. injection Hs as <-. right. left. eexists. split; [done|].
      split; [done|]. split; [|by intros k v Hk]. eexists. split; [|done]. apply clock_shown.
      exact (b_clock _ _ _ _ _ _ _ _ (proj1 M1)).
    + injection Hs as <-. right. left. by eexists.
    + injection Hs as <-. right. left. by eexists.
    + destruct (_ !! j) as [p|]; [|done]. cbn in Hs. destruct (_ !! p) as [b|]; [|done]. cbn in Hs. injection Hs as <-. right. left. by eexists.
    + injection Hs as <-. right. left. by eexists.
    + destruct (_ <? _)%nat.
      * destruct (_ !! j) as [p|]; [|done]. cbn in Hs. injection Hs as <-. right. left. by eexists.
      * injection Hs as <-. right. left. by eexists.
    + destruct (_ <? _)%nat.
      * destruct (_ !! j) as [p|]; [|done]. cbn in Hs. destruct (_ !! p) as [b|]; [|done]. cbn in Hs. injection Hs as <-. right. left. by eexists.
      * injection Hs as <-. right. left. by eexists.
    + injection Hs as <-. right. right. destruct H as [_ H]. exists result, [], cts. split; [done|]. split; [|done]. cbn in Hok. lia.
    + destruct (_ !! p) as [b|] eqn:Hb; [|done]. cbn [mbind option_bind] in Hs. injection Hs as <-. right. left. eexists. split; [done|].
      destruct H as [-> [Hc Hf]]. split; [done|]. split; [done|]. intros k v.
      assert (Hms : wrap64 (secondToMsRate * bk_ts b) = key b).
      { unfold secondToMsRate. rewrite wrap64_id; [done|]. exact (b_in64 _ _ _ _ _ _ _ _ B _ _ Hb). }
      rewrite Hms. destruct (Z.leb_spec st (key b)); cbn [andb]; [|apply Hf]. destruct (Z.leb_spec (bk_ts b) cts); [|apply Hf].
      rewrite lookup_insert_Some. intros [[<- <-]|[_ Hk]]; [|by apply Hf].
      split; [unfold key in *; lia|]. exists s, p, b. done.
  - right. right. assert (exists more, rd_got t' = rd_got t ++ more) as [more Hmore].
    { assert (rd_got t' = rd_got t \/ exists m', rd_got t' = rd_got t ++ [m']) as [->|[m' ->]];
        [|exists []; by rewrite app_nil_r|by exists [m']].
      unfold rd_step in Hs. cbv zeta in Hs.
      destruct (rd_pc t) as [|start|start cts'|start cts' pos|start cts' pos j|start cts' pos sts [|j] acc|start cts' pos sts j acc|start cts' [|p l] result].
      - destruct (rd_todo t); [done|]. injection Hs as <-. by left.
      - destruct (alignTimestamp _ _); [|done]. injection Hs as <-. by left.
      - injection Hs as <-. by left.
      - injection Hs as <-. by left.
      - destruct (_ !! j) as [p|]; [|done]. cbn in Hs. destruct (_ !! p) as [b|]; [|done]. cbn in Hs. injection Hs as <-. by left.
      - injection Hs as <-. by left.
      - destruct (_ <? _)%nat.
        + destruct (_ !! j) as [p|]; [|done]. cbn in Hs. injection Hs as <-. by left.
        + injection Hs as <-. by left.
      - destruct (_ <? _)%nat.
        + destruct (_ !! j) as [p|]; [|done]. cbn in Hs. destruct (_ !! p) as [b|]; [|done]. cbn in Hs. injection Hs as <-. by left.
        + injection Hs as <-. by left.
      - injection Hs as <-. right. by eexists.
      - destruct (_ !! p) as [b|]; [|done]. cbn in Hs. injection Hs as <-. by left. }
    exists m, (rest ++ more), cts. split; [|done]. by rewrite Hmore, Hg, <- app_assoc.
Qed.

Lemma stage_run s : readers_ok N c1 -> threads c1 !! i = Some (MRead (RdThread (st :: todo) RIdle got)) ->
  exists t, threads (mrun c1 s) !! i = Some (MRead t) /\ stage s t.
Proof.
  intros R0 Hi. induction s as [|ev s IH] using rev_ind; [eexists; split; [done|by left]|].
  destruct IH as (t & Ht & Hst). rewrite crun_snoc.
  pose proof (readers_ok_run _ _ _ _ _ _ _ s HI M1 R0 _ _ Ht) as Hok.
  pose proof (fun t' => stage_step _ _ t' Hst Hok) as Hstep.
  destruct (mrun c1 s) as [sh ts] eqn:Ec. cbn [shared threads] in *.
  destruct ev as [j|e]; cbn [cstep shared threads].
  2:{ exists t. split; [done|]. by apply stage_mono. }
  destruct (ts !! j) as [u|] eqn:Hj; [|exists t; split; [done|by apply stage_mono]].
  destruct (mx_tstep sh u) as [[sh' u']|] eqn:Hs; [|exists t; split; [done|by apply stage_mono]].
  cbn [threads]. destruct (decide (j = i)) as [->|Hne].
  - rewrite Ht in Hj. injection Hj as <-. cbn in Hs. destruct (rd_step sh t) as [t'|] eqn:Hr; [|done]. injection Hs as <- <-.
    exists t'. rewrite list_lookup_insert by (by apply lookup_lt_Some in Ht). split; [done|]. by apply stage_mono, Hstep.
  - exists t. rewrite list_lookup_insert_ne by done. split; [done|by apply stage_mono].
Qed.
End call.
