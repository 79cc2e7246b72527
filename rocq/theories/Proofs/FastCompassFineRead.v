From Verif.Go Require Import GoInt GoConc.
From Verif.Model Require Import Counter BucketQueue BucketCounter FastCompass BucketCounterConc BucketReadConc FastCompassConc FastCompassFine.
From Verif.Spec Require Import CounterSpec BucketSpec BucketReadSpec FastCompassSpec FastCompassConcSpec FastCompassFineSpec.
From Verif.Proofs Require Import BucketAbs BucketHist BucketMain BucketConcMain BucketReadProofs BucketReadMain BucketRest FastCompassProofs FastCompassProps FastCompassConcProofs FastCompassFineProofs.
Local Open Scope Z_scope.

(** ** Readers of one counter *)
Section rd.
Context (N : nat) (interval : Z) (HI : 1 <= interval_seconds interval).
Notation hok := (hok N interval).

Lemma hok_rd_step_ok s cr lo t t' :
  hok (bs_bc s) cr lo -> rd_ok N (bc_heap (bs_bc s)) (rd_pc t) -> rd_step s t = Some t' ->
  rd_ok N (bc_heap (bs_bc s)) (rd_pc t').
Proof.
  intros H Hok Hs. pose proof (h_qlen _ _ _ _ _ H) as Hq. pose proof (h_cur _ _ _ _ _ H) as Hc.
  pose proof (h_q _ _ _ _ _ H) as Q. unfold qinv in Q. rewrite Forall_lookup in Q.
  unfold rd_step in Hs. rewrite Hq in Hs. replace (S N - 1)%nat with N in Hs by lia. cbv zeta in Hs.
  destruct (rd_pc t) as [|start|start cts|start cts pos|start cts pos j|start cts pos sts [|i] acc|start cts pos sts i acc|start cts [|p l] result]; cbn in Hok.
  - destruct (rd_todo t); [done|]. injection Hs as <-. done.
  - destruct (alignTimestamp _ _); [|done]. injection Hs as <-. done.
  - injection Hs as <-. cbn. lia.
  - injection Hs as <-. cbn. lia.
  - destruct (_ !! j) as [p|] eqn:Hp; [|done]. cbn in Hs. destruct (_ !! p) as [b|] eqn:Hb; [|done]. cbn in Hs. injection Hs as <-. cbn.
    split_and!; try lia. done.
  - injection Hs as <-. cbn. destruct Hok as (? & ? & ? & ?). split_and!; try lia; done.
  - destruct Hok as (? & ? & ? & ?). destruct (Nat.ltb_spec (pos - i) N).
    + destruct (_ !! i) as [p|] eqn:Hp; [|done]. cbn in Hs. injection Hs as <-. cbn. rewrite app_length. cbn. split_and!; try lia.
      apply Forall_app. split; [done|]. constructor; [|constructor]. eapply Q; done.
    + injection Hs as <-. cbn. split_and!; try lia; done.
  - destruct Hok as (? & ? & ?). destruct (Nat.ltb_spec (pos + 1) i).
    + destruct (_ !! i) as [p|] eqn:Hp; [|done]. cbn in Hs. destruct (_ !! p) as [b|] eqn:Hb; [|done]. cbn in Hs. injection Hs as <-. cbn.
      destruct (bk_ts b <=? sts); [rewrite app_length; cbn|]; split_and!; try lia; try done.
      apply Forall_app. split; [done|]. constructor; [|constructor]. eapply Q; done.
    + injection Hs as <-. cbn. rewrite map_size_empty. split; [lia|done].
  - injection Hs as <-. done.
  - destruct Hok as (? & Hf). apply Forall_cons in Hf as [? ?]. destruct (_ !! p) as [b|] eqn:Hb; [|done]. cbn in Hs. injection Hs as <-. cbn in *.
    split; [|done]. destruct (_ && _); [|lia]. rewrite map_size_insert. destruct (result !! _); cbn; lia.
Qed.

Lemma hok_rd_progress s cr lo t :
  hok (bs_bc s) cr lo -> in64 (bs_clock s) -> rd_ok N (bc_heap (bs_bc s)) (rd_pc t) ->
  rd_pc t <> RIdle -> exists t', rd_step s t = Some t'.
Proof.
  intros H Hclk Hok Hnd. pose proof (h_qlen _ _ _ _ _ H) as Hq. pose proof (h_int _ _ _ _ _ H) as Hint.
  pose proof (h_q _ _ _ _ _ H) as Q. unfold qinv in Q. rewrite Forall_lookup in Q.
  assert (Hlk : forall j, (j <= N)%nat -> exists p b, dq_queue (bc_buckets (bs_bc s)) !! j = Some p /\ bc_heap (bs_bc s) !! p = Some b).
  { intros j Hj. destruct (lookup_lt_is_Some_2 (dq_queue (bc_buckets (bs_bc s))) j) as [p Hp]; [lia|].
    destruct (lookup_lt_is_Some_2 (bc_heap (bs_bc s)) p) as [b Hb]; [by eapply Q|]. eauto. }
  unfold rd_step. rewrite Hq. replace (S N - 1)%nat with N by lia. cbv zeta.
  destruct (rd_pc t) as [|start|start cts|start cts pos|start cts pos j|start cts pos sts [|i] acc|start cts pos sts i acc|start cts [|p l] result] eqn:Hpc; cbn in Hok; try (eexists; reflexivity).
  - done.
  - rewrite Hint, alignTimestamp_spec by done. eauto.
  - destruct (Hlk j) as (p & b & Hp & Hb); [lia|]. rewrite Hp. cbn. rewrite Hb. cbn. eauto.
  - destruct (_ <? _)%nat; [|eauto]. destruct (Hlk i) as (p & b & Hp & Hb); [lia|]. rewrite Hp. cbn. eauto.
  - destruct (_ <? _)%nat; [|eauto]. destruct (Hlk i) as (p & b & Hp & Hb); [lia|]. rewrite Hp. cbn. rewrite Hb. cbn. eauto.
  - destruct Hok as [_ Hf]. apply Forall_cons in Hf as [Hp _].
    destruct (lookup_lt_is_Some_2 (bc_heap (bs_bc s)) p Hp) as [b Hb]. rewrite Hb. cbn. eauto.
Qed.
End rd.

Lemma bc_tstep_init s t s' t' : bc_tstep s t = Some (s', t') -> bc_initTimestamp (bs_bc s') = bc_initTimestamp (bs_bc s).
Proof.
  destruct s as [c clk]. unfold bc_tstep. cbn [bs_bc bs_clock]. intros Hst. destruct (bt_pc t).
  - destruct (bt_todo t); [done|]. injection Hst as <- <-. cbn. by destruct (bc_updateTotalCount c).
  - destruct (alignTimestamp _ _); [|done]. by injection Hst as <- <-.
  - by injection Hst as <- <-.
  - destruct (bc_heap c !! old); [|done]. by injection Hst as <- <-.
  - destruct (decide _); by injection Hst as <- <-.
  - destruct (length (dq_queue (bc_buckets c))); [done|]. by injection Hst as <- <-.
  - by injection Hst as <- <-.
  - by injection Hst as <- <-.
  - destruct (_ <? _)%nat; [|done]. by injection Hst as <- <-.
  - by injection Hst as <- <-.
  - destruct (heap_add _ _ _); [|done]. by injection Hst as <- <-.
Qed.

(** ** The map only grows *)
Definition subs (s : fc_shared) : gmap string bucket_counter := fc_subCategories (fs_fc s).
Definition ext (s s' : fc_shared) : Prop := forall cat bc, subs s !! cat = Some bc ->
  exists bc', subs s' !! cat = Some bc' /\ (length (bc_heap bc) <= length (bc_heap bc'))%nat /\
    (forall p b, bc_heap bc !! p = Some b -> exists b', bc_heap bc' !! p = Some b' /\ bk_ts b' = bk_ts b) /\
    bc_initTimestamp bc' = bc_initTimestamp bc.

Lemma ext_same s s' : fs_fc s' = fs_fc s -> ext s s'.
Proof. intros E cat bc Hb. exists bc. unfold subs in *. rewrite E. split; [done|]. split; [done|]. split; [intros; eauto|done]. Qed.

Lemma ext_trans s1 s2 s3 : ext s1 s2 -> ext s2 s3 -> ext s1 s3.
Proof.
  intros H1 H2 cat bc Hb. destruct (H1 cat bc Hb) as (bc1 & Hb1 & Hl1 & Hp1 & He1). destruct (H2 cat bc1 Hb1) as (bc2 & Hb2 & Hl2 & Hp2 & He2).
  exists bc2. split; [done|]. split; [lia|]. split; [|congruence]. intros p b Hp. destruct (Hp1 p b Hp) as (b1 & Hq & Ht). destruct (Hp2 p b1 Hq) as (b2 & Hr & Ht').
  exists b2. split; [done|congruence].
Qed.

(** ** What a getter has in its hands *)
Definition rwf (n : nat) (s : fc_shared) (t : qthread) : Prop :=
  match q_pc t with
  | QRead g st res cat r rest => exists bc, subs s !! cat = Some bc /\ rd_todo r = [] /\
      ((rd_got r = [] /\ rd_pc r <> RIdle /\ rd_ok n (bc_heap bc) (rd_pc r)) \/ exists m, rd_got r = [m])
  | QLoad _ cat _ => is_Some (subs s !! cat)
  | QStamp _ cat p _ => exists bc, subs s !! cat = Some bc /\ (p < length (bc_heap bc))%nat
  | _ => True
  end.

Lemma rwf_ext n s s' t : ext s s' -> rwf n s t -> rwf n s' t.
Proof.
  intros Hx. unfold rwf. destruct (q_pc t) as [| | | |g st res cat r rest|result cat rest|result cat p rest]; try done.
  - intros (bc & Hb & Ht & Hor). destruct (Hx cat bc Hb) as (bc' & Hb' & Hl & _). exists bc'. split; [done|]. split; [done|].
    destruct Hor as [(? & ? & Hok)|?]; [left|by right]. split_and!; try done. by eapply rd_ok_mono.
  - intros [bc Hb]. destruct (Hx cat bc Hb) as (bc' & Hb' & _). eauto.
  - intros (bc & Hb & Hp). destruct (Hx cat bc Hb) as (bc' & Hb' & Hl & _). exists bc'. split; [done|]. lia.
Qed.

Section fine.
Context (max interval N : Z) (recs0 : list fc_record) (fc0 : fast_compass) (progs : list (list qcall)).
Context (I1 : Second <= interval) (I2 : in64 interval) (I3 : 0 <= N).
Notation Isec := (interval_seconds interval).
Notation n := (Z.to_nat N).
Notation FI := (FI max interval N recs0 fc0 progs).

Lemma FI_ext s ts G i t s' t' : FI s ts G -> ts !! i = Some t -> ff_tstep s t = Some (s', t') -> ext s s'.
Proof.
  intros HF Hi Hs. pose proof (FI_crash _ _ _ _ _ _ _ _ _ HF) as Hc.
  unfold ff_tstep in Hs. rewrite Hc in Hs.
  destruct t as [todo pc got]. cbn [q_pc q_todo q_got] in Hs.
  destruct pc as [pc|d cat ct u|job order|job rest|g start result cat r rest|result cat rest|result cat p rest].
  - assert (Hdec : pc = FIdle \/ pc <> FIdle) by (destruct pc; (by left) || by right).
    destruct Hdec as [->|Hni].
    { destruct todo as [|[d cat|g st o|o] todo]; [done| |by injection Hs as <- <-; apply ext_same|by injection Hs as <- <-; apply ext_same].
      destruct (_ || _); injection Hs as <- <-; by apply ext_same. }
    destruct (match pc with FUpdate _ _ _ => true | _ => false end) eqn:Hup.
    { destruct pc; try done. injection Hs as <- <-. by apply ext_same. }
    assert (Hs' : ff_at s (QThread todo (QAt pc) got) pc = Some (s', t')) by (by destruct pc).
    unfold ff_at in Hs'. destruct (fc_tstep s (FThread [] pc)) as [[s1 u1]|] eqn:Hst; [|done].
    cbn [q_todo q_got] in Hs'. injection Hs' as <- <-. unfold fc_tstep in Hst. rewrite Hc in Hst. cbn [ft_pc ft_todo] in Hst.
    destruct (match pc with FAssigning _ _ _ _ => true | _ => false end) eqn:Has.
    { destruct pc as [| | | | |d cat ct bc| | | ]; try done. injection Hst as <- <-.
      assert (Hn : subs s !! cat = None).
      { destruct HF as [_ F]. destruct G as [L [[j r]|]]; cbn in F.
        - exfalso. destruct F as (fc' & t & d0 & cat0 & ct0 & u0 & bc0 & bc' & F & Hj & Hpc & Ha & _).
          assert (j = i) as ->.
          { eapply (f_excl _ _ _ _ _ _ _ _ _ F); [by rewrite list_lookup_fmap, Hj|by rewrite list_lookup_fmap, Hi|..].
            - cbn. rewrite Hpc. cbn. unfold addingb in Ha. by destruct (waitingb u0).
            - done. }
          rewrite Hi in Hj. injection Hj as <-. done.
        - destruct F as [F _]. destruct (f_log _ _ _ _ _ _ _ _ _ F) as (fcs & E & I & H1 & H2).
          specialize (H2 i (cview (QThread todo (QAt (FAssigning d cat ct bc)) got))). rewrite list_lookup_fmap, Hi in H2.
          destruct (H2 eq_refl eq_refl) as (E1 & E2 & _). unfold subs. by rewrite E1. }
      intros cat' bc' Hb'. unfold subs in *. cbn. rewrite lookup_insert_ne by congruence. exists bc'. split; [done|]. split; [done|]. split; [intros; eauto|done]. }
    apply ext_same. clear -Hst Has Hup. destruct pc; try done;
        repeat match type of Hst with context [if ?b then _ else _] => destruct b | context [match ?x with _ => _ end] => destruct x end; try done; injection Hst as <- <-; done.
  - destruct (finishedb u) eqn:Hfin.
    { assert (u = BThread [] PIdle) as ->. { destruct u as [[|] []]; done. }
      injection Hs as <- <-. by apply ext_same. }
    assert (Hs2 : match fc_subCategories (fs_fc s) !! cat with
      | Some bc =>
          match bc_tstep (BcShared bc (fs_clock s)) u with
          | Some (o, u') => Some (with_fc s (set_sub (fs_fc s) (<[cat := bs_bc o]> (fc_subCategories (fs_fc s)))), QThread todo (QUpdate d cat ct u') got)
          | None => None
          end
      | None => None
      end = Some (s', t')).
    { destruct u as [[|? ?] []]; done. }
    clear Hs. destruct (fc_subCategories (fs_fc s) !! cat) as [bc|] eqn:Hb; [|done].
    destruct (bc_tstep (BcShared bc (fs_clock s)) u) as [[o u']|] eqn:Hu; [|done]. injection Hs2 as <- <-.
    intros cat' bc' Hb'. unfold subs in *. cbn. destruct (decide (cat = cat')) as [->|Hne].
    + rewrite lookup_insert. rewrite Hb in Hb'. injection Hb' as <-. exists (bs_bc o). split; [done|].
      assert (Hm : mx_tstep (BcShared bc (fs_clock s)) (MUpd u) = Some (o, MUpd u')) by (cbn; by rewrite Hu).
      destruct (mx_heap_length _ _ _ _ Hm) as [? ?]. split; [done|]. split; [done|]. apply (bc_tstep_init _ _ _ _ Hu).
    + rewrite lookup_insert_ne by done. exists bc'. split; [done|]. split; [done|]. split; [intros; eauto|done].
  - destruct (fs_writing s); injection Hs as <- <-; by apply ext_same.
  - destruct (fs_writing s); injection Hs as <- <-; by apply ext_same.
  - destruct (rd_got r) as [|m got']; cycle 1. { injection Hs as <- <-. by apply ext_same. }
    destruct (_ !! cat); [|done]. destruct (rd_step _ _); [|done]. injection Hs as <- <-. by apply ext_same.
  - destruct (_ !! cat); [|done]. injection Hs as <- <-. by apply ext_same.
  - destruct (_ !! cat); [|done]. destruct (_ !! p); [|done]. injection Hs as <- <-. by apply ext_same.
Qed.

Lemma rwf_next s t job rest : rwf n s (next_entry s t job rest).
Proof.
  unfold next_entry. destruct rest as [|cat rest]; [done|]. destruct (fc_subCategories (fs_fc s) !! cat) as [bc|] eqn:Hb; [|done].
  destruct job; cbn; unfold rwf; cbn; unfold subs; rewrite Hb; [|eauto]. exists bc. split; [done|]. split; [done|]. left. split_and!; done.
Qed.

(** A goroutine's own step. *)
Lemma rwf_step s ts G i t s' t' : FI s ts G -> ts !! i = Some t -> rwf n s t -> ff_tstep s t = Some (s', t') -> rwf n s' t'.
Proof.
  intros HF Hi Hr Hs. pose proof (FI_crash _ _ _ _ _ _ _ _ _ HF) as Hc.
  unfold ff_tstep in Hs. rewrite Hc in Hs.
  destruct t as [todo pc got]. cbn [q_pc q_todo q_got] in Hs. unfold rwf in Hr. cbn [q_pc] in Hr.
  destruct pc as [pc|d cat ct u|job order|job rest|g start result cat r rest|result cat rest|result cat p rest].
  - assert (Hdec : pc = FIdle \/ pc <> FIdle) by (destruct pc; (by left) || by right).
    destruct Hdec as [->|Hni].
    { destruct todo as [|[d cat|g st o|o] todo]; [done| |by injection Hs as <- <-|by injection Hs as <- <-].
      by destruct (_ || _); injection Hs as <- <-. }
    destruct (match pc with FUpdate _ _ _ => true | _ => false end) eqn:Hup.
    { destruct pc; try done. by injection Hs as <- <-. }
    assert (Hs' : ff_at s (QThread todo (QAt pc) got) pc = Some (s', t')) by (by destruct pc).
    unfold ff_at in Hs'. destruct (fc_tstep s (FThread [] pc)) as [[s1 u1]|] eqn:Hst; [|done].
    cbn [q_todo q_got] in Hs'. by injection Hs' as <- <-.
  - assert (Hs2 : exists pc', q_pc t' = QAt FUnlock \/ q_pc t' = QUpdate d cat ct pc').
    { destruct (finishedb u) eqn:Hfin.
      { assert (u = BThread [] PIdle) as ->. { destruct u as [[|] []]; done. }
        injection Hs as <- <-. exists (BThread [] PIdle). by left. }
      assert (Hs2 : match fc_subCategories (fs_fc s) !! cat with
        | Some bc =>
            match bc_tstep (BcShared bc (fs_clock s)) u with
            | Some (o, u') => Some (with_fc s (set_sub (fs_fc s) (<[cat := bs_bc o]> (fc_subCategories (fs_fc s)))), QThread todo (QUpdate d cat ct u') got)
            | None => None
            end
        | None => None
        end = Some (s', t')).
      { destruct u as [[|? ?] []]; done. }
      destruct (_ !! cat); [|done]. destruct (bc_tstep _ _) as [[o u']|]; [|done]. injection Hs2 as <- <-. exists u'. by right. }
    destruct Hs2 as [pc' [E|E]]; unfold rwf; by rewrite E.
  - destruct (fs_writing s); injection Hs as <- <-; [done|]. apply rwf_next.
  - destruct (fs_writing s); injection Hs as <- <-; [done|]. apply rwf_next.
  - destruct Hr as (bc & Hb & Ht & Hor). destruct (rd_got r) as [|m got'] eqn:Eg; cycle 1. { by injection Hs as <- <-. }
    unfold subs in Hb. rewrite Hb in Hs. destruct (rd_step (BcShared bc (fs_clock s)) r) as [r'|] eqn:Er; [|done]. injection Hs as <- <-.
    destruct Hor as [(_ & Hni & Hok)|[m Hm]]; [|done].
    destruct (FI_hok _ _ _ _ _ _ I1 I2 I3 _ _ _ _ _ HF Hb) as [lo Hhok].
    pose proof (hok_rd_step_ok n interval (BcShared bc (fs_clock s)) _ _ _ _ Hhok Hok Er) as Hok'.
    exists bc. split; [done|].
    unfold rd_step in Er. cbv zeta in Er. rewrite Ht, Eg in Er. clear -Er Hni Hok'. cbn [bs_bc] in *.
    destruct (rd_pc r) as [|start1|start1 cts|start1 cts pos|start1 cts pos j|start1 cts pos sts [|k] acc|start1 cts pos sts k acc|start1 cts [|p l] result1]; [done|..];
      repeat match type of Er with
        | (if ?b then _ else _) = _ => destruct b
        | context [alignTimestamp ?a ?b] => destruct (alignTimestamp a b)
        | context [_ !! ?j ≫= _] => destruct (_ !! j); cbn [mbind option_bind] in Er
        end; try done; injection Er as <-; cbn [rd_pc rd_got rd_todo] in *; (split; [done|]);
      first [right; by eexists | left; split; [reflexivity|split; [discriminate|exact Hok']]].
  - destruct (fc_subCategories (fs_fc s) !! cat) as [bc|] eqn:Hb; [|done]. injection Hs as <- <-. unfold rwf. cbn. exists bc. split; [done|].
    destruct (FI_hok _ _ _ _ _ _ I1 I2 I3 _ _ _ _ _ HF Hb) as [lo Hhok]. by eapply hok_heap_lt.
  - destruct (_ !! cat); [|done]. destruct (_ !! p); [|done]. by injection Hs as <- <-.
Qed.

Definition RI (s : fc_shared) (ts : list qthread) : Prop := Forall (rwf n s) ts.

Lemma grun_RI now0 sched : Forall (fun r => in64 (rc_time r)) recs0 -> fc_exec max interval N recs0 = Ok fc0 ->
  let c := ff_crun fc0 now0 progs sched in
  fs_crashed (shared c) = true \/ RI (shared c) (threads c).
Proof.
  intros Hf E. cbv zeta. induction sched as [|ev sched IH] using rev_ind.
  - right. cbn. apply Forall_fmap, Forall_forall. done.
  - destruct (grun_inv max interval N recs0 fc0 progs I1 I2 I3 now0 sched Hf E) as [HF|HF].
    + left. unfold ff_crun in *. rewrite crun_snoc. destruct (crun ff_tstep fc_estep _ sched) as [s ts]. destruct ev as [i|e]; [|done]. cbn in *.
      destruct (ts !! i) as [t|]; [|done]. unfold ff_tstep. rewrite HF. done.
    + unfold ff_crun in *. rewrite crun_snoc. destruct (crun ff_tstep fc_estep _ sched) as [s ts]. cbn [shared threads] in *.
      destruct ev as [i|e]; cbn [cstep shared threads].
      * destruct (ts !! i) as [t|] eqn:Hi; [|done]. destruct (ff_tstep s t) as [[s' t']|] eqn:Hs; [|done]. cbn [shared threads].
        destruct IH as [IH|IH]; [unfold ff_tstep in Hs; by rewrite IH in Hs|]. right.
        apply Forall_insert.
        -- eapply Forall_impl; [exact IH|]. intros u. apply rwf_ext. by eapply FI_ext.
        -- eapply rwf_step; try done. by apply (proj1 (Forall_lookup _ _) IH i).
      * destruct IH as [IH|IH]; [by left|right]. exact IH.
Qed.

Lemma crashed_mono c ev : fs_crashed (shared c) = true -> fs_crashed (shared (cstep ff_tstep fc_estep c ev)) = true.
Proof.
  intros H. destruct c as [s ts], ev as [i|e]; [|done]. cbn in *. destruct (ts !! i) as [t|]; [|done]. unfold ff_tstep. by rewrite H.
Qed.

Lemma crashed_app now0 s1 s2 : fs_crashed (shared (ff_crun fc0 now0 progs (s1 ++ s2))) = false -> fs_crashed (shared (ff_crun fc0 now0 progs s1)) = false.
Proof.
  intros H. destruct (fs_crashed (shared (ff_crun fc0 now0 progs s1))) eqn:E; [|done]. exfalso. unfold ff_crun in *. rewrite crun_app in H.
  assert (Hm : fs_crashed (shared (crun ff_tstep fc_estep (crun ff_tstep fc_estep (ff_cinit fc0 now0 progs) s1) s2)) = true).
  { clear H. induction s2 as [|ev s2 IH] using rev_ind; [done|]. rewrite crun_snoc. by apply crashed_mono. }
  congruence.
Qed.

(** ** Nobody gets stuck *)
Lemma ff_reader_step now0 sched i t : Forall (fun r => in64 (rc_time r)) recs0 -> fc_exec max interval N recs0 = Ok fc0 ->
  let c := ff_crun fc0 now0 progs sched in
  fs_crashed (shared c) = false -> threads c !! i = Some t -> (forall pc, q_pc t <> QAt pc) -> (forall d cat ct u, q_pc t <> QUpdate d cat ct u) ->
  exists s' t', ff_tstep (shared c) t = Some (s', t').
Proof.
  intros Hf E c Hc Hi Hq Hu. destruct (grun_inv max interval N recs0 fc0 progs I1 I2 I3 now0 sched Hf E) as [HF|HF]; [fold c in HF; congruence|].
  destruct (grun_RI now0 sched Hf E) as [HR|HR]; [fold c in HR; congruence|]. fold c in HF, HR.
  assert (Hr : rwf n (shared c) t) by (by apply (proj1 (Forall_lookup _ _) HR i)).
  unfold ff_tstep. rewrite Hc. unfold rwf in Hr. cbv zeta.
  assert (Hclk : in64 (fs_clock (shared c))).
  { destruct HF as [_ F]. destruct (grun fc0 progs now0 sched).2.2 as [[j r]|].
    - destruct F as (fc' & t0 & d & cat & ct & u & bc & bc' & F & _). apply (f_clock _ _ _ _ _ _ _ _ _ F).
    - apply (f_clock _ _ _ _ _ _ _ _ _ (proj1 F)). }
  destruct (q_pc t) as [pc|d cat ct u|job order|job rest|g start result cat r rest|result cat rest|result cat p rest].
  - by destruct (Hq pc).
  - by destruct (Hu d cat ct u).
  - destruct (fs_writing (shared c)); eauto.
  - destruct (fs_writing (shared c)); eauto.
  - destruct Hr as (bc & Hb & Ht & Hor). unfold subs in Hb. rewrite Hb. destruct Hor as [(Eg & Hni & Hok)|[m Hm]].
    + rewrite Eg. destruct (FI_hok _ _ _ _ _ _ I1 I2 I3 _ _ _ _ _ HF Hb) as [lo Hhok].
      destruct (hok_rd_progress n interval (interval_seconds_pos _ I1 I2) (BcShared bc (fs_clock (shared c))) _ _ r Hhok Hclk Hok Hni) as [r' ->]. eauto.
    + rewrite Hm. eauto.
  - destruct Hr as [bc Hb]. unfold subs in Hb. rewrite Hb. eauto.
  - destruct Hr as (bc & Hb & Hp). unfold subs in Hb. rewrite Hb. destruct (lookup_lt_is_Some_2 _ _ Hp) as [b ->]. eauto.
Qed.

Lemma ff_progress now0 sched : Forall (fun r => in64 (rc_time r)) recs0 -> fc_exec max interval N recs0 = Ok fc0 ->
  let c := ff_crun fc0 now0 progs sched in
  fs_crashed (shared c) = false -> ~ Forall q_done (threads c) ->
  exists i t s' t', threads c !! i = Some t /\ ff_tstep (shared c) t = Some (s', t').
Proof.
  intros Hf E c Hc Hd. destruct (grun_inv max interval N recs0 fc0 progs I1 I2 I3 now0 sched Hf E) as [HF|HF]; [fold c in HF; congruence|].
  fold c in HF. set (G := (grun fc0 progs now0 sched).2) in *. clearbody G.
  assert (Hfi : exists fc' log, finv max interval N recs0 fc0 (crecords <$> progs) (with_fc (shared c) fc') (cview <$> threads c) log /\ (G.2 = None -> fs_fc (shared c) = fc')).
  { destruct HF as [_ F]. destruct G as [L [[j r]|]]; cbn in F.
    - destruct F as (fc' & t0 & d & cat & ct & u & bc & bc' & F & _). exists fc', (L ++ [(j, r)]). split; [done|]. done.
    - exists (fs_fc (shared c)), L. rewrite with_fc_same. split; [apply F|done]. }
  destruct Hfi as (fc' & log & F & HGN).
  assert (Hrun : exists i t, threads c !! i = Some t /\ ~ q_done t /\
     (fs_locked (shared c) = true -> holds_lock (cpc (q_pc t)) = true)).
  { destruct (fs_locked (shared c)) eqn:Hl.
    - destruct (f_holder _ _ _ _ _ _ _ _ _ F Hl) as (i & t & Hi & Hh). rewrite list_lookup_fmap in Hi.
      destruct (threads c !! i) as [t0|] eqn:Hi0; [|done]. injection Hi as <-. exists i, t0. split_and!; try done.
      intros [_ Hp]. cbn in Hh. by rewrite Hp in Hh.
    - clear -Hd. induction (threads c) as [|t ts IH]; [by destruct Hd|].
      assert (Hdec : q_done t \/ ~ q_done t).
      { unfold q_done. destruct (q_todo t); [|right; by intros [??]]. destruct (q_pc t) as [[]| | | | | | ]; (by left) || (right; intros [??]; done). }
      destruct Hdec as [Hy|Hn]; [|by exists 0%nat, t].
      destruct IH as (i & u & Hi & Hu); [|by exists (S i), u]. intros Hx. apply Hd. by constructor. }
  destruct Hrun as (i & t & Hi & Hnd & Hlk). exists i, t.
  cut (exists s' t', ff_tstep (shared c) t = Some (s', t')). { intros (s' & t' & ?). eauto. }
  destruct (match q_pc t with QAt _ => Some true | QUpdate _ _ _ _ => Some false | _ => None end) as [[|]|] eqn:Hk.
  - destruct t as [todo pc got]. cbn [q_pc] in *. destruct pc as [pc| | | | | | ]; try done.
    assert (Hi' : (cview <$> threads c) !! i = Some (cview (QThread todo (QAt pc) got))) by (by rewrite list_lookup_fmap, Hi).
    unfold ff_tstep. rewrite Hc. cbn [q_pc q_todo q_got].
    assert (HP : holds_lock pc = true -> fs_fc (shared c) = fc').
    { intros Hh. apply HGN. destruct G as [L [[j r]|]]; [exfalso|done]. destruct HF as [_ F0]. cbn in F0.
      destruct F0 as (fc1 & t & d0 & cat0 & ct0 & u0 & bc0 & bc' & F0 & Hj & Hpc & Ha & _).
      assert (j = i) as ->.
      { eapply (f_excl _ _ _ _ _ _ _ _ _ F0); [by rewrite list_lookup_fmap, Hj|by rewrite list_lookup_fmap, Hi|..].
        - cbn. rewrite Hpc. cbn. unfold addingb in Ha. by destruct (waitingb u0).
        - done. }
      rewrite Hi in Hj. injection Hj as <-. done. }
    destruct pc.
    + destruct todo as [|[d cat|g st o|o] todo]; [by destruct Hnd| |eauto|eauto]. destruct (_ || _); eauto.
    + unfold ff_at, fc_tstep. rewrite Hc. cbn [ft_pc]. cbn in Hlk. destruct (fs_locked (shared c)); [by specialize (Hlk eq_refl)|]. eauto.
    + unfold ff_at, fc_tstep. rewrite Hc. cbn [ft_pc]. destruct (fs_writing (shared c)); [eauto|].
      destruct (_ !! cat); [eauto|]. destruct (_ <=? _); eauto.
    + unfold ff_at, fc_tstep. rewrite Hc. cbn [ft_pc].
      destruct (f_log _ _ _ _ _ _ _ _ _ F) as (fcs & E' & I & H1 & H2).
      specialize (H2 i _ Hi' eq_refl). cbn in H2. destruct H2 as (Hx & _ & _). rewrite (HP eq_refl), Hx.
      rewrite (fi_int _ _ _ _ _ I), (fi_n _ _ _ _ _ I).
      destruct (newBucketCounterImpl_repr interval N (fs_clock (shared c)) false I3) as (bc & -> & _). eauto.
    + unfold ff_at, fc_tstep. rewrite Hc. cbn [ft_pc]. destruct (fs_writing (shared c)); eauto.
    + unfold ff_at, fc_tstep. rewrite Hc. cbn [ft_pc]. eauto.
    + eauto.
    + unfold ff_at, fc_tstep. rewrite Hc. cbn [ft_pc]. eauto.
    + exfalso. assert (Hw : qwf (QThread todo (QAt (FIter k)) got)). { eapply (proj1 (Forall_lookup _ _) (proj1 HF)); exact Hi. } done.
  - destruct t as [todo pc got]. cbn [q_pc] in *. destruct pc as [|d cat ct u| | | | | ]; try done. clear Hk.
    unfold ff_tstep. rewrite Hc. cbn [q_pc q_todo q_got].
    destruct (finishedb u) eqn:Hfin.
    { assert (u = BThread [] PIdle) as ->. { destruct u as [[|] []]; done. } eauto. }
    cut (exists bc o u', fc_subCategories (fs_fc (shared c)) !! cat = Some bc /\ bc_tstep (BcShared bc (fs_clock (shared c))) u = Some (o, u')).
    { intros (bc & o & u' & Hb & Hu). rewrite Hb, Hu. destruct u as [[|] []]; try done; eauto. }
    assert (Hw : qwf (QThread todo (QUpdate d cat ct u) got)). { eapply (proj1 (Forall_lookup _ _) (proj1 HF)); exact Hi. }
    cbn in Hw. destruct (waitingb u) eqn:Hwt.
    + assert (HP : G.2 = None).
      { destruct G as [L [[j r]|]]; [exfalso|done]. destruct HF as [_ F0]. cbn in F0.
        destruct F0 as (fc1 & t & d0 & cat0 & ct0 & u0 & bc0 & bc' & F0 & Hj & Hpc & Ha & _).
        assert (j = i) as ->.
        { eapply (f_excl _ _ _ _ _ _ _ _ _ F0); [by rewrite list_lookup_fmap, Hj|by rewrite list_lookup_fmap, Hi|..].
          - cbn. rewrite Hpc. cbn. unfold addingb in Ha. by destruct (waitingb u0).
          - cbn. by rewrite Hwt. }
        rewrite Hi in Hj. injection Hj as <-. cbn in Hpc. injection Hpc as <- <- <- <-. unfold addingb in Ha. by rewrite Hwt in Ha. }
      specialize (HGN HP).
      assert (Hi' : (cview <$> threads c) !! i = Some (cview (QThread todo (QUpdate d cat ct u) got))) by (by rewrite list_lookup_fmap, Hi).
      destruct (f_log _ _ _ _ _ _ _ _ _ F) as (fcs & E' & I & H1 & H2). specialize (H2 i _ Hi').
      cbn in H2. rewrite Hwt in H2. specialize (H2 eq_refl).
      assert (Hb : exists bc, fc_subCategories (fs_fc (shared c)) !! cat = Some bc).
      { rewrite HGN. destruct ct as [ct|]; cbn in H2.
        - destruct H2 as (bc & -> & _). cbn. rewrite lookup_insert. eauto.
        - destruct H2 as [-> [bc Hb]]. eauto. }
      destruct Hb as [bc Hb]. exists bc. destruct (Hw eq_refl) as [-> | ->].
      * eexists _, _. split; [done|]. cbn. reflexivity.
      * destruct (FI_hok _ _ _ _ _ _ I1 I2 I3 _ _ _ _ _ HF Hb) as [lo Hhok].
        unfold bc_tstep. cbn [bt_pc bs_bc bs_clock]. rewrite (h_int _ _ _ _ _ Hhok), alignTimestamp_spec; [|by apply interval_seconds_pos|apply (f_clock _ _ _ _ _ _ _ _ _ F)].
        eauto.
    + assert (Had : addingb u = true) by (unfold addingb; by rewrite Hwt, Hfin).
      destruct G as [L [[j r]|]]; cycle 1.
      { exfalso. destruct HF as [_ [_ HA]]. apply (proj1 (Forall_lookup _ _) HA) in Hi. cbn in Hi. congruence. }
      destruct HF as [W F0]. cbn [fst snd] in F0.
      destruct F0 as (fc1 & t & d0 & cat0 & ct0 & u0 & bc0 & bc' & F0 & Hj & Hpc & Ha & Hd0 & Hcat & Hin & Hval & Hfc & Hfc' & Hfi & M).
      assert (j = i) as ->.
      { eapply (f_excl _ _ _ _ _ _ _ _ _ F0); [by rewrite list_lookup_fmap, Hj|by rewrite list_lookup_fmap, Hi|..].
        - cbn. rewrite Hpc. cbn. unfold addingb in Ha. by destruct (waitingb u0).
        - cbn. by rewrite Hwt. }
      rewrite Hi in Hj. injection Hj as <-. cbn in Hpc. injection Hpc as <- <- <- <-.
      destruct (mid_step n interval _ _ _ _ _ M (addingb_not_finished _ Ha)) as (bc2 & u2 & Hst2 & _).
      exists bc0. rewrite Hfc. cbn. rewrite lookup_insert. rewrite Hst2. eauto.
  - apply (ff_reader_step now0 sched i t Hf E Hc Hi); intros; intros Hx; by rewrite Hx in Hk.
Qed.
End fine.
