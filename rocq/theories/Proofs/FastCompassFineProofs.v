From Verif.Go Require Import GoInt GoConc.
From Verif.Model Require Import Counter BucketQueue BucketCounter FastCompass BucketCounterConc BucketReadConc FastCompassConc FastCompassFine.
From Verif.Spec Require Import CounterSpec BucketSpec FastCompassSpec FastCompassConcSpec FastCompassFineSpec.
From Verif.Proofs Require Import BucketAbs BucketHist BucketMain BucketReadProofs BucketRest FastCompassProofs FastCompassProps FastCompassConcProofs.
Local Open Scope Z_scope.

(** ** The coarse view of a goroutine *)
Definition crecords (calls : list qcall) : list fc_call :=
  omap (fun call => match call with QRecord d cat => Some (CRecord d cat) | _ => None end) calls.

Lemma accepted_crecords calls : accepted (crecords calls) = valid_calls calls.
Proof.
  induction calls as [|[d cat|g st o|o] calls IH]; [done|..]; try exact IH.
  unfold accepted, valid_calls, crecords in *. cbn. by f_equal.
Qed.

(** UpdateN has been called but has not read the clock yet. *)
Definition waitingb (u : bthread) : bool :=
  match u with BThread (_ :: _) _ | BThread [] (PClock _) => true | _ => false end.
Definition finishedb (u : bthread) : bool := match u with BThread [] PIdle => true | _ => false end.
(** It has read the clock and has not added the amount yet. *)
Definition addingb (u : bthread) : bool := negb (waitingb u) && negb (finishedb u).
Definition is_adding (pc : qpc) : bool := match pc with QUpdate _ _ _ u => addingb u | _ => false end.

Definition cpc (pc : qpc) : fpc :=
  match pc with
  | QAt pc => pc
  | QUpdate d cat ct u => if waitingb u then FUpdate d cat ct else FUnlock
  | _ => FIdle
  end.
Definition cview (t : qthread) : fthread := FThread (crecords (q_todo t)) (cpc (q_pc t)).

(** ** Sequential facts *)
Definition crs (I : Z) (cat : string) (recs : list fc_record) : list (Z * Z) :=
  by_latest (-1000) I (bc_hist (cat_ops (records_of cat recs))).

Lemma crs_snoc I cat recs r : valid_record r -> rc_category r = cat ->
  crs I cat (recs ++ [r]) = crs I cat recs ++ [(Z.max (lo_of (crs I cat recs)) (trunc_key I (rc_time r)), record_amount (rc_duration r))].
Proof.
  intros Hv Hc. unfold crs. rewrite records_of_snoc, decide_True by done. unfold cat_ops, bc_hist. rewrite !fmap_app.
  cbn [fmap list_fmap fst snd bc_delta]. by rewrite by_latest_snoc.
Qed.

Lemma crs_other I cat recs r : rc_category r <> cat -> crs I cat (recs ++ [r]) = crs I cat recs.
Proof. intros Hc. unfold crs. rewrite records_of_snoc, decide_False by naive_solver. by rewrite app_nil_r. Qed.

Section seq.
Context (max interval N : Z).
Context (I1 : Second <= interval) (I2 : in64 interval) (I3 : 0 <= N).
Notation Isec := (interval_seconds interval).
Notation n := (Z.to_nat N).

Lemma exec_hok now0 ops bc : Forall (fun o => in64 o.1) ops -> Forall (fun o => exists n, o.2 = BUpdateN n) ops ->
  bc_exec interval N now0 false ops = Ok bc ->
  hok n interval bc (by_latest (-1000) Isec (bc_hist ops)) (lo_of (by_latest (-1000) Isec (bc_hist ops))).
Proof.
  revert bc. induction ops as [|[t o] ops IH] using rev_ind; intros bc Hf Ho E.
  - unfold bc_exec in E. destruct (newBucketCounterImpl interval N now0 false) as [c|] eqn:En; [|done]. cbn in E. injection E as ->.
    apply (hok_new n interval now0). by rewrite Z2Nat.id.
  - apply Forall_app in Hf as [Hf Ht]. apply Forall_inv in Ht. cbn in Ht.
    apply Forall_app in Ho as [Ho Hot]. apply Forall_inv in Hot. cbn in Hot. destruct Hot as (k & ->).
    destruct (bc_exec interval N now0 false ops) as [c|] eqn:Ec.
    + rewrite (bc_exec_snoc _ _ _ _ _ _ _ Ec) in E. unfold bc_step in E. cbn [fst snd] in E.
      unfold bc_hist. rewrite fmap_app. cbn [fmap list_fmap fst snd bc_delta]. rewrite by_latest_snoc.
      apply (hok_UpdateN n interval (interval_seconds_pos _ I1 I2) _ _ _ _ _ (IH _ Hf Ho eq_refl) Ht E).
    + unfold bc_exec in *. destruct (newBucketCounterImpl interval N now0 false) as [c|]; [|done]. cbn in *.
      unfold bc_run in *. rewrite run_ops_app, Ec in E. done.
Qed.

Lemma seq_hok recs fc cat bc : fc_inv max interval N recs fc -> Forall (fun r => in64 (rc_time r)) recs ->
  fc_subCategories fc !! cat = Some bc -> hok n interval bc (crs Isec cat recs) (lo_of (crs Isec cat recs)).
Proof.
  intros F Hf Hb. destruct (fi_counter _ _ _ _ _ F cat bc Hb) as (r & rs & Hr & Eb). unfold crs. rewrite Hr.
  eapply exec_hok; [| |exact Eb].
  - unfold cat_ops. rewrite <- Hr. apply Forall_fmap. by apply records_of_forall.
  - unfold cat_ops. apply Forall_fmap, Forall_forall. intros x _. cbn. eauto.
Qed.

Lemma elem_firsts x l : x ∈ l -> x ∈ firsts l.
Proof.
  induction l as [|y l IH]; [by intros ?%elem_of_nil|]. intros H. cbn. apply elem_of_cons.
  destruct (decide (x = y)); [by left|]. right. apply elem_of_list_filter. split; [done|]. apply IH.
  apply elem_of_cons in H as [?|?]; done.
Qed.

Lemma seq_new recs fc cat : fc_inv max interval N recs fc -> fc_subCategories fc !! cat = None ->
  Z.of_nat (size (fc_subCategories fc)) < fc_maxSubCategoryCount fc -> records_of cat recs = [].
Proof.
  intros F Hn Hs. rewrite (fi_max _ _ _ _ _ F), (fi_size _ _ _ _ _ F) in Hs.
  destruct (records_of cat recs) as [|r rs] eqn:E; [done|]. exfalso.
  assert (Hr : r ∈ records_of cat recs) by (rewrite E; left). unfold records_of in Hr.
  apply elem_of_list_filter in Hr as [[Hv Hc] Hr].
  assert (Hin : cat ∈ tracked max recs).
  { unfold tracked in *. rewrite take_ge.
    - apply elem_firsts, elem_of_list_fmap. exists r. split; [done|]. by apply elem_of_list_filter.
    - rewrite take_length in Hs. lia. }
  apply (fi_dom _ _ _ _ _ F) in Hin as [bc Hbc]. congruence.
Qed.

(** Whatever the holder of the lock is doing (with UpdateN one step). *)
Lemma finv_hok recs0 fc0 progs s cts log cat bc :
  finv max interval N recs0 fc0 progs s cts log -> fc_subCategories (fs_fc s) !! cat = Some bc ->
  hok n interval bc (crs Isec cat (recs0 ++ log.*2)) (lo_of (crs Isec cat (recs0 ++ log.*2))).
Proof.
  intros F Hb. destruct (f_log _ _ _ _ _ _ _ _ _ F) as (fcs & E & I & H1 & H2).
  assert (Hf : Forall (fun r => in64 (rc_time r)) (recs0 ++ log.*2)).
  { apply Forall_app. split; [apply F|]. apply Forall_fmap. eapply Forall_impl; [apply F|]. cbn. tauto. }
  assert (Hs : fs_fc s = fcs -> hok n interval bc (crs Isec cat (recs0 ++ log.*2)) (lo_of (crs Isec cat (recs0 ++ log.*2)))).
  { intros Hx. rewrite Hx in Hb. by eapply seq_hok. }
  destruct (fs_locked s) eqn:Hl; [|by apply Hs, H1].
  destruct (f_holder _ _ _ _ _ _ _ _ _ F Hl) as (j & u & Hj & Hh). specialize (H2 j u Hj Hh).
  destruct (ft_pc u); cbn in H2; try (apply Hs; tauto).
  destruct ct as [ct|]; [|apply Hs; tauto]. destruct H2 as (bc0 & Hx & Hy & Hz & Hw).
  rewrite Hx in Hb. cbn in Hb. destruct (decide (cat = cat0)) as [->|Hne].
  - rewrite lookup_insert in Hb. injection Hb as ->. unfold crs. rewrite (seq_new _ _ _ I Hy Hz). cbn.
    rewrite (fi_int _ _ _ _ _ I), (fi_n _ _ _ _ _ I) in Hw. apply (hok_new n interval ct). by rewrite Z2Nat.id.
  - rewrite lookup_insert_ne in Hb by done. by eapply seq_hok.
Qed.
End seq.

Lemma mid_hok N interval bc u cr k n : mid N interval bc u cr k n -> ~ finished u -> exists lo, hok N interval bc cr lo.
Proof.
  destruct u as [todo pc]. intros (Ht & _ & M) Hnf. cbn in Ht. subst todo. cbn in M.
  destruct pc; try done; try (exfalso; by apply Hnf); destruct_and?; eauto.
Qed.

(** ** The invariant *)
Definition pend (P : option (nat * fc_record)) : list (nat * fc_record) := match P with Some x => [x] | None => [] end.

(** What has landed, and the record that is landing. *)
Definition ghost_step (i : nat) (s : fc_shared) (t : qthread) (G : list (nat * fc_record) * option (nat * fc_record))
  : list (nat * fc_record) * option (nat * fc_record) :=
  match q_pc t with
  | QAt (FUpdate _ _ _) => G
  | QAt pc => (G.1 ++ logged i s (FThread [] pc), G.2)
  | QUpdate d cat ct (BThread [] (PClock _)) => (G.1, Some (i, FcRecord (default (fs_clock s) ct) (fs_clock s) d cat))
  | QUpdate d cat ct (BThread [] (BucketCounterConc.PAdd _ _)) => (G.1 ++ pend G.2, None)
  | _ => G
  end.

Definition qwf (t : qthread) : Prop :=
  match q_pc t with
  | QAt (FIter _) => False
  | QUpdate d cat ct u => waitingb u = true -> u = BThread [record_amount d] PIdle \/ u = BThread [] (PClock (record_amount d))
  | _ => True
  end.

Lemma next_entry_view s t job rest : cview (next_entry s t job rest) = FThread (crecords (q_todo t)) FIdle /\
  qwf (next_entry s t job rest) /\ is_adding (q_pc (next_entry s t job rest)) = false.
Proof.
  unfold next_entry. destruct rest as [|cat rest]; [done|].
  destruct (fc_subCategories (fs_fc s) !! cat); [|done]. by destruct job.
Qed.

Section fine.
Context (max interval N : Z) (recs0 : list fc_record) (fc0 : fast_compass) (progs : list (list qcall)).
Context (I1 : Second <= interval) (I2 : in64 interval) (I3 : 0 <= N).
Notation Isec := (interval_seconds interval).
Notation n := (Z.to_nat N).
Notation finv := (finv max interval N recs0 fc0 (crecords <$> progs)).

Definition FI (s : fc_shared) (ts : list qthread) (G : list (nat * fc_record) * option (nat * fc_record)) : Prop :=
  Forall qwf ts /\
  match G.2 with
  | None => finv s (cview <$> ts) G.1 /\ Forall (fun t => is_adding (q_pc t) = false) ts
  | Some (i, r) => exists fc' t d cat ct u bc bc',
      finv (with_fc s fc') (cview <$> ts) (G.1 ++ [(i, r)]) /\
      ts !! i = Some t /\ q_pc t = QUpdate d cat ct u /\ addingb u = true /\
      rc_duration r = d /\ rc_category r = cat /\ in64 (rc_time r) /\ valid_record r /\
      fs_fc s = set_sub fc' (<[cat := bc]> (fc_subCategories fc')) /\
      fc_subCategories fc' !! cat = Some bc' /\ finish bc u bc' /\
      mid n interval bc u (crs Isec cat (recs0 ++ G.1.*2)) (trunc_key Isec (rc_time r)) (record_amount d)
  end.

Lemma addingb_not_finished u : addingb u = true -> ~ finished u.
Proof. intros H ->. done. Qed.

Lemma FI_hok s ts G cat bc : FI s ts G -> fc_subCategories (fs_fc s) !! cat = Some bc ->
  exists lo, hok n interval bc (crs Isec cat (recs0 ++ G.1.*2)) lo.
Proof.
  intros [_ F] Hb. destruct G as [L [[i r]|]]; cbn in F |- *.
  - destruct F as (fc' & t & d & cat0 & ct & u & bc0 & bc' & F & Hi & Hpc & Ha & Hd & Hc & Ht & Hv & Hs & Hl & Hf & M).
    rewrite Hs in Hb. cbn in Hb. destruct (decide (cat = cat0)) as [->|Hne].
    + rewrite lookup_insert in Hb. injection Hb as ->. eapply mid_hok; [exact M|]. by apply addingb_not_finished.
    + rewrite lookup_insert_ne in Hb by done. eexists.
      pose proof (finv_hok _ _ _ I1 I2 I3 _ _ _ _ _ _ _ _ F Hb) as Hx. rewrite fmap_app in Hx. cbn [fmap list_fmap snd] in Hx.
      rewrite app_assoc, crs_other in Hx by congruence. exact Hx.
  - destruct F as [F _]. eexists. by eapply finv_hok.
Qed.

Lemma FI_crash s ts G : FI s ts G -> fs_crashed s = false.
Proof.
  intros [_ F]. destruct G as [L [[i r]|]]; cbn in F.
  - destruct F as (fc' & t & d & cat0 & ct & u & bc0 & bc' & F & _). apply (f_crash _ _ _ _ _ _ _ _ _ F).
  - apply (f_crash _ _ _ _ _ _ _ _ _ (proj1 F)).
Qed.

(** Steps that the coarse model does not see. *)
Lemma FI_stutter s ts G i t t' : FI s ts G -> ts !! i = Some t -> cview t' = cview t -> qwf t' ->
  is_adding (q_pc t') = false -> is_adding (q_pc t) = false -> FI s (<[i := t']> ts) G.
Proof.
  intros [W F] Hi Hv Hw Ha' Ha. split; [by apply Forall_insert|].
  assert (Ev : cview <$> <[i := t']> ts = cview <$> ts).
  { rewrite list_fmap_insert, Hv. apply list_insert_id. by rewrite list_lookup_fmap, Hi. }
  destruct G as [L [[j r]|]]; cbn in F |- *.
  - destruct F as (fc' & u & d & cat & ct & bt & bc & bc' & F & Hj & Hpc & Hrest).
    exists fc', u, d, cat, ct, bt, bc, bc'. rewrite Ev. split; [done|].
    rewrite list_lookup_insert_ne; [done|]. intros ->. rewrite Hi in Hj. injection Hj as <-. rewrite Hpc in Ha. cbn in Ha.
    destruct Hrest as [Hx _]. congruence.
  - rewrite Ev. destruct F. split; [done|]. by apply Forall_insert.
Qed.

Lemma with_fc_same s : with_fc s (fs_fc s) = s.
Proof. by destruct s. Qed.

(** Steps that are one step of the coarse model. *)
Lemma FI_coarse s ts G i t s' t' : FI s ts G -> ts !! i = Some t ->
  fc_tstep s (cview t) = Some (s', cview t') ->
  (holds_lock (cpc (q_pc t)) = false -> fs_locked s = true -> s' = s) ->
  (holds_lock (cpc (q_pc t)) = false -> logged i s (cview t) = []) ->
  (cpc (q_pc t) = FIdle -> forall fc', fc_tstep (with_fc s fc') (cview t) = Some (with_fc s' fc', cview t')) ->
  (forall d cat, cpc (q_pc t) = FLock d cat -> fs_locked s = false) ->
  (forall k, cpc (q_pc t) <> FIter k) ->
  qwf t' -> is_adding (q_pc t') = false -> is_adding (q_pc t) = false ->
  fs_crashed s' = true \/ FI s' (<[i := t']> ts) (G.1 ++ logged i s (cview t), G.2).
Proof.
  intros [W F] Hi Hs Hsame Hlog Hidle Hlk Hit Hw Ha' Ha.
  assert (Hi' : (cview <$> ts) !! i = Some (cview t)) by (by rewrite list_lookup_fmap, Hi).
  destruct G as [L [[j r]|]]; cbn in F |- *.
  - destruct F as (fc' & u & d & cat & ct & bt & bc & bc' & F & Hj & Hpc & Hrest).
    assert (Hne : j <> i). { intros ->. rewrite Hi in Hj. injection Hj as <-. rewrite Hpc in Ha. cbn in Ha. destruct Hrest as [Hx _]. congruence. }
    assert (Hj' : (cview <$> ts) !! j = Some (cview u)) by (by rewrite list_lookup_fmap, Hj).
    assert (Hhj : holds_lock (ft_pc (cview u)) = true).
    { cbn. rewrite Hpc. cbn. destruct Hrest as [Hx _]. unfold addingb in Hx. by destruct (waitingb bt). }
    assert (Hnh : holds_lock (cpc (q_pc t)) = false).
    { destruct (holds_lock (cpc (q_pc t))) eqn:E; [|done]. exfalso. apply Hne.
      by eapply (f_excl _ _ _ _ _ _ _ _ _ F j i _ _ Hj' Hi'). }
    assert (Hl : fs_locked s = true).
    { destruct (fs_locked s) eqn:E; [done|]. pose proof (f_lock _ _ _ _ _ _ _ _ _ F E j _ Hj'). congruence. }
    assert (Hid : cpc (q_pc t) = FIdle).
    { destruct (cpc (q_pc t)) eqn:E; try done; [by rewrite (Hlk _ _ eq_refl) in Hl|by destruct (Hit k)]. }
    rewrite (Hlog Hnh), app_nil_r. pose proof (Hsame Hnh Hl) as ->.
    destruct (finv_step_log _ _ _ _ _ _ _ _ _ _ _ _ _ I1 I2 I3 F Hi' (Hidle Hid fc')) as [Hc|(log' & El & F')].
    { left. exact Hc. }
    right. split; [by apply Forall_insert|]. cbn. exists fc', u, d, cat, ct, bt, bc, bc'. rewrite list_fmap_insert, list_lookup_insert_ne by done.
    split; [|done]. assert (El' : logged i (with_fc s fc') (cview t) = []) by (unfold logged; cbn [cview ft_pc]; by rewrite Hid).
    rewrite El', app_nil_r in El. by subst log'.
  - destruct F as [F HA]. destruct (finv_step_log _ _ _ _ _ _ _ _ _ _ _ _ _ I1 I2 I3 F Hi' Hs) as [Hc|(log' & El & F')]; [by left|].
    right. split; [by apply Forall_insert|]. cbn. subst log'. rewrite list_fmap_insert. split; [done|]. by apply Forall_insert.
Qed.

Lemma FI_step s ts G i t s' t' : FI s ts G -> ts !! i = Some t -> ff_tstep s t = Some (s', t') ->
  fs_crashed s' = true \/ FI s' (<[i := t']> ts) (ghost_step i s t G).
Proof.
  intros HF Hi Hs. pose proof (FI_crash _ _ _ HF) as Hc. unfold ff_tstep in Hs. rewrite Hc in Hs.
  assert (Hw : qwf t) by (eapply (proj1 (Forall_lookup _ _) (proj1 HF)); exact Hi).
  destruct t as [todo pc got]. cbn [q_pc q_todo q_got] in Hs. unfold qwf in Hw. cbn [q_pc] in Hw.
  unfold ghost_step. cbn [q_pc].
  destruct pc as [pc|d cat ct u|job order|job rest|g start result cat r rest|result cat rest|result cat p rest].
  - (* QAt *)
    assert (Hdec : pc = FIdle \/ pc <> FIdle) by (destruct pc; (by left) || by right).
    destruct Hdec as [->|Hni].
    { cbn [logged ft_pc]. rewrite app_nil_r. assert (EG : (G.1, G.2) = G) by (by destruct G). rewrite EG.
      destruct todo as [|[d cat|g st o|o] todo]; [done|..].
      - assert (Hst : forall s, fs_crashed s = false -> fc_tstep s (cview (QThread (QRecord d cat :: todo) (QAt FIdle) got)) =
           Some (s, if (d <? 0) || (Z.of_nat (String.length cat) <=? 0) then cview (QThread todo (QAt FIdle) got) else cview (QThread todo (QAt (FLock d cat)) got))).
        { intros s0 Hc0. unfold fc_tstep. rewrite Hc0. cbn. by destruct ((d <? 0) || (Z.of_nat (String.length cat) <=? 0)). }
        assert (Hs' : s' = s /\ t' = (if (d <? 0) || (Z.of_nat (String.length cat) <=? 0) then QThread todo (QAt FIdle) got else QThread todo (QAt (FLock d cat)) got)).
        { by destruct ((d <? 0) || (Z.of_nat (String.length cat) <=? 0)); injection Hs as <- <-. }
        destruct Hs' as [-> ->]. clear Hs.
        set (t1 := if (d <? 0) || (Z.of_nat (String.length cat) <=? 0) then QThread todo (QAt FIdle) got else QThread todo (QAt (FLock d cat)) got).
        assert (Et : (if (d <? 0) || (Z.of_nat (String.length cat) <=? 0) then cview (QThread todo (QAt FIdle) got) else cview (QThread todo (QAt (FLock d cat)) got)) = cview t1) by (subst t1; by destruct (_ || _)).
        rewrite Et in Hst.
        destruct (FI_coarse s ts G i _ s t1 HF Hi) as [?|H]; try done.
        + by apply Hst.
        + intros _ fc'. rewrite Hst by done. done.
        + subst t1. by destruct (_ || _).
        + subst t1. by destruct (_ || _).
        + by left.
        + right. cbn [logged cview ft_pc cpc q_pc] in H. rewrite app_nil_r, EG in H. exact H.
      - injection Hs as <- <-. right. by eapply FI_stutter.
      - injection Hs as <- <-. right. by eapply FI_stutter. }
    destruct (match pc with FUpdate _ _ _ => true | _ => false end) eqn:Hup.
    { destruct pc; try done. injection Hs as <- <-. right. eapply FI_stutter; try done. cbn. eauto. }
    assert (Hs' : ff_at s (QThread todo (QAt pc) got) pc = Some (s', t')) by (by destruct pc).
    assert (EG : forall A (x y : A), match pc with FUpdate _ _ _ => x | _ => y end = y) by (intros; by destruct pc). rewrite EG.
    clear Hs EG. unfold ff_at in Hs'. destruct (fc_tstep s (FThread [] pc)) as [[s1 u1]|] eqn:Hst; [|done].
    cbn [q_todo q_got] in Hs'. injection Hs' as <- <-.
    assert (Hst' : forall s s1 u1, fc_tstep s (FThread [] pc) = Some (s1, u1) -> fc_tstep s (FThread (crecords todo) pc) = Some (s1, FThread (crecords todo) (ft_pc u1))).
    { clear -Hni. intros s s1 u1. unfold fc_tstep. destruct (fs_crashed s); [done|]. cbn [ft_pc ft_todo].
      destruct pc; try done;
        repeat match goal with |- context [if ?b then _ else _] => destruct b | |- context [match ?x with _ => _ end] => destruct x end; intros E; try done; injection E as <- <-; done. }
    assert (Elog : logged i s (FThread [] pc) = logged i s (cview (QThread todo (QAt pc) got))) by done.
    rewrite Elog. eapply FI_coarse; try done.
    + cbn [cview q_todo q_pc cpc]. by apply Hst'.
    + cbn. intros Hnh Hlk. destruct pc; try done. unfold fc_tstep in Hst. rewrite Hc, Hlk in Hst. done.
    + cbn. intros Hnh. by destruct pc.
    + cbn. intros d cat ->. unfold fc_tstep in Hst. rewrite Hc in Hst. cbn in Hst. by destruct (fs_locked s).
    + cbn. intros k ->. done.
    + cbn. unfold fc_tstep in Hst. rewrite Hc in Hst. cbn [ft_pc ft_todo] in Hst. clear -Hst Hw.
      destruct pc; try done;
        repeat match type of Hst with context [if ?b then _ else _] => destruct b | context [match ?x with _ => _ end] => destruct x end; try done; injection Hst as <- <-; done.
  - (* QUpdate *)
    destruct (finishedb u) eqn:Hfin.
    { assert (u = BThread [] PIdle) as ->. { destruct u as [[|] []]; done. }
      injection Hs as <- <-. right. eapply FI_stutter; try done. }
    assert (Hs2 : match fc_subCategories (fs_fc s) !! cat with
      | Some bc =>
          match bc_tstep (BcShared bc (fs_clock s)) u with
          | Some (o, u') => Some (with_fc s (set_sub (fs_fc s) (<[cat := bs_bc o]> (fc_subCategories (fs_fc s)))), QThread todo (QUpdate d cat ct u') got)
          | None => None
          end
      | None => None
      end = Some (s', t')).
    { destruct u as [[|? ?] []]; done. }
    clear Hs. destruct (fc_subCategories (fs_fc s) !! cat) as [bc|] eqn:Hb; [|done].
    destruct (bc_tstep (BcShared bc (fs_clock s)) u) as [[o u']|] eqn:Hu; [|done]. injection Hs2 as <- <-.
    assert (Eset : set_sub (fs_fc s) (<[cat := bc]> (fc_subCategories (fs_fc s))) = fs_fc s).
    { rewrite insert_id by done. by destruct (fs_fc s). }
    destruct (waitingb u) eqn:Hwt.
    + (* waiting *)
      assert (HP : G.2 = None).
      { destruct G as [L [[j r]|]]; [exfalso|done]. destruct HF as [_ F]. cbn in F.
        destruct F as (fc' & t & d0 & cat0 & ct0 & u0 & bc0 & bc' & F & Hj & Hpc & Ha & _).
        assert (j = i) as ->.
        { eapply (f_excl _ _ _ _ _ _ _ _ _ F); [by rewrite list_lookup_fmap, Hj|by rewrite list_lookup_fmap, Hi|..].
          - cbn. rewrite Hpc. cbn. unfold addingb in Ha. by destruct (waitingb u0).
          - cbn. by rewrite Hwt. }
        rewrite Hi in Hj. injection Hj as <-. cbn in Hpc. injection Hpc as <- <- <- <-. unfold addingb in Ha. by rewrite Hwt in Ha. }
      destruct G as [L P]. cbn in HP. subst P.
      destruct (Hw eq_refl) as [->| ->].
      * cbn in Hu. destruct (FI_hok _ _ _ _ _ HF Hb) as [lo Hok]. rewrite (h_upd _ _ _ _ _ Hok) in Hu. injection Hu as <- <-. cbn [bs_bc].
        rewrite Eset, with_fc_same. right. eapply FI_stutter; try done. cbn. eauto.
      * destruct HF as [W [F HA]]. cbn [fst snd] in F.
        pose proof (finv_hok _ _ _ I1 I2 I3 _ _ _ _ _ _ _ _ F Hb) as Hok.
        pose proof (f_clock _ _ _ _ _ _ _ _ _ F) as Hclk.
        pose proof (interval_seconds_pos _ I1 I2) as HI.
        destruct (mid_start n interval HI _ _ (fs_clock s) (record_amount d) Hok Hclk) as [Eal M].
        unfold bc_tstep in Hu. cbn [bt_pc bs_bc bs_clock bt_todo] in Hu. rewrite Eal in Hu. injection Hu as <- <-. cbn [bs_bc].
        rewrite Eset, with_fc_same.
        destruct (UpdateN_total n interval HI _ _ _ (fs_clock s) (record_amount d) Hok Hclk) as [bc' Eu].
        pose proof (UpdateN_finish _ _ _ _ _ (h_upd _ _ _ _ _ Hok) Eal Eu) as Hfi.
        set (fc' := set_sub (fs_fc s) (<[cat := bc']> (fc_subCategories (fs_fc s)))).
        set (t' := QThread todo (QUpdate d cat ct (BThread [] (PLoad (record_amount d) (sec_of Isec (fs_clock s))))) got).
        assert (Hi' : (cview <$> ts) !! i = Some (cview (QThread todo (QUpdate d cat ct (BThread [] (PClock (record_amount d)))) got))) by (by rewrite list_lookup_fmap, Hi).
        assert (Hst : fc_tstep s (cview (QThread todo (QUpdate d cat ct (BThread [] (PClock (record_amount d)))) got)) = Some (with_fc s fc', cview t')).
        { unfold fc_tstep. rewrite Hc. cbn [cview q_pc q_todo cpc waitingb ft_pc ft_todo]. rewrite Hb, Eu. done. }
        pose proof (f_valid _ _ _ _ _ _ _ _ _ F i _ Hi') as Hval. unfold pc_valid in Hval. cbn in Hval. rewrite Forall_singleton in Hval. cbn in Hval.
        destruct (finv_step_log _ _ _ _ _ _ _ _ _ _ _ _ _ I1 I2 I3 F Hi' Hst) as [Hx|(log' & El & F')]; [left; done|].
        right. split.
        { apply Forall_insert; [done|]. cbn. done. }
        cbn [fst snd]. subst log'.
        exists fc', t', d, cat, ct, (BThread [] (PLoad (record_amount d) (sec_of Isec (fs_clock s)))), bc, bc'.
        split; [by rewrite list_fmap_insert|].
        rewrite list_lookup_insert by (by apply lookup_lt_Some in Hi).
        split_and!; try done.
        -- subst fc'. cbn [set_sub fc_subCategories]. rewrite insert_insert. symmetry. exact Eset.
        -- cbn. by rewrite lookup_insert.
    + (* adding *)
      assert (Had : addingb u = true) by (unfold addingb; by rewrite Hwt, Hfin).
      destruct G as [L [[j r]|]]; cycle 1.
      { exfalso. destruct HF as [_ [_ HA]]. apply (proj1 (Forall_lookup _ _) HA) in Hi. cbn in Hi. congruence. }
      destruct HF as [W F]. cbn [fst snd] in F.
      destruct F as (fc' & t & d0 & cat0 & ct0 & u0 & bc0 & bc' & F & Hj & Hpc & Ha & Hd & Hcat & Hin & Hval & Hfc & Hfc' & Hfi & M).
      assert (j = i) as ->.
      { eapply (f_excl _ _ _ _ _ _ _ _ _ F); [by rewrite list_lookup_fmap, Hj|by rewrite list_lookup_fmap, Hi|..].
        - cbn. rewrite Hpc. cbn. unfold addingb in Ha. by destruct (waitingb u0).
        - cbn. by rewrite Hwt. }
      rewrite Hi in Hj. injection Hj as <-. cbn in Hpc. injection Hpc as <- <- <- <-.
      rewrite Hfc in Hb. cbn in Hb. rewrite lookup_insert in Hb. injection Hb as ->.
      destruct (finish_step _ _ _ _ _ _ Hfi Hu) as [_ Hfi'].
      destruct (mid_step n interval _ _ _ _ _ M (addingb_not_finished _ Ha)) as (bc2 & u2 & Hst2 & M2 & Hn2 & Hy2).
      rewrite Hst2 in Hu. injection Hu as <- <-. cbn [bs_bc] in *.
      set (s' := with_fc s (set_sub (fs_fc s) (<[cat := bc2]> (fc_subCategories (fs_fc s))))).
      assert (Hs' : fs_fc s' = set_sub fc' (<[cat := bc2]> (fc_subCategories fc'))).
      { subst s'. cbn. rewrite Hfc. cbn. by rewrite insert_insert. }
      assert (Hw2 : waitingb u2 = false).
      { destruct M2 as (Ht2 & _ & M2). destruct u2 as [todo2 pc2]. cbn in Ht2. subst. by destruct pc2. }
      assert (Ev : cview <$> <[i := QThread todo (QUpdate d cat ct u2) got]> ts = cview <$> ts).
      { rewrite list_fmap_insert. apply list_insert_id. rewrite list_lookup_fmap, Hi. cbn [fmap option_fmap option_map]. unfold cview. cbn [q_todo q_pc cpc]. by rewrite Hwt, Hw2. }
      assert (HW : Forall qwf (<[i := QThread todo (QUpdate d cat ct u2) got]> ts)).
      { apply Forall_insert; [done|]. cbn. congruence. }
      assert (HA0 : forall k v, ts !! k = Some v -> k <> i -> is_adding (q_pc v) = false).
      { intros k v Hk Hne. destruct (is_adding (q_pc v)) eqn:E; [|done]. exfalso. apply Hne.
        eapply (f_excl _ _ _ _ _ _ _ _ _ F); [by rewrite list_lookup_fmap, Hk|by rewrite list_lookup_fmap, Hi|..].
        - cbn. destruct (q_pc v); try done. cbn in E |- *. unfold addingb in E. by destruct (waitingb u0).
        - cbn. by rewrite Hwt. }
      right.
      assert (Hdec : (exists n' bk, u = BThread [] (BucketCounterConc.PAdd n' bk)) \/ ~ (exists n' bk, u = BThread [] (BucketCounterConc.PAdd n' bk))).
      { clear. destruct u as [[|x l] []]; try (right; intros (? & ? & ?); done). left. eauto. }
      destruct Hdec as [(n' & bk & Eu)|Hne].
      { assert (Hf2 : finished u2). { apply Hy2. subst u. cbn. eauto. }
        rewrite Eu. split; [done|]. cbn [fst snd pend]. rewrite Hf2 in *. apply finish_done in Hfi'. subst bc2.
        assert (Es : s' = with_fc s fc').
        { assert (E : fs_fc s' = fc').
          { rewrite Hs'. rewrite insert_id by done. by destruct fc'. }
          subst s'. cbn in E. by rewrite E. }
        rewrite Es, Ev. split; [done|]. apply Forall_lookup. intros k v Hk. apply list_lookup_insert_Some in Hk as [(<- & <- & _)|[Hk1 Hk2]]; [done|].
        by eapply HA0. }
      assert (EG : match u with
         | BThread [] (PClock _) => (L, Some (i, FcRecord (default (fs_clock s) ct) (fs_clock s) d cat))
         | BThread [] (BucketCounterConc.PAdd _ _) => (L ++ [(i, r)], None)
         | _ => (L, Some (i, r)) end = (L, Some (i, r))).
      { destruct u as [[|] []]; try done. destruct Hne. eauto. }
      cbn [fst snd pend]. rewrite EG. split; [done|]. cbn [fst snd].
      assert (Hnf2 : ~ finished u2).
      { apply Hn2. intros n' bk E. apply Hne. destruct u as [todo' pc']. cbn in E. subst pc'. destruct M as [Ht _]. cbn in Ht. subst todo'. eauto. }
      exists fc', (QThread todo (QUpdate d cat ct u2) got), d, cat, ct, u2, bc2, bc'.
      rewrite Ev, list_lookup_insert by (by apply lookup_lt_Some in Hi).
      split_and!; try done.
      unfold addingb. rewrite Hw2. cbn. by destruct u2 as [[|] []].
  - destruct (fs_writing s); injection Hs as <- <-; [by left|]. right. destruct (next_entry_view s (QThread todo (QStart job order) got) job (iteration order (fc_subCategories (fs_fc s)))) as (? & ? & ?).
    by eapply FI_stutter.
  - destruct (fs_writing s); injection Hs as <- <-; [by left|]. right. destruct (next_entry_view s (QThread todo (QIter job rest) got) job rest) as (? & ? & ?).
    by eapply FI_stutter.
  - destruct (rd_got r) as [|m got']; cycle 1. { injection Hs as <- <-. right. by eapply FI_stutter. }
    destruct (_ !! cat); [|done]. destruct (rd_step _ _); [|done]. injection Hs as <- <-. right. by eapply FI_stutter.
  - destruct (_ !! cat); [|done]. injection Hs as <- <-. right. by eapply FI_stutter.
  - destruct (_ !! cat); [|done]. destruct (_ !! p); [|done]. injection Hs as <- <-. right. by eapply FI_stutter.
Qed.

Lemma FI_env s ts G e : FI s ts G -> FI (fc_estep s e) ts G.
Proof.
  intros [W F]. split; [done|]. destruct (G.2) as [[i r]|].
  - destruct F as (fc' & t & d & cat & ct & u & bc & bc' & F & Hrest).
    exists fc', t, d, cat, ct, u, bc, bc'. split; [|done].
    pose proof (finv_env _ _ _ _ _ _ _ _ _ e F) as F'. done.
  - destruct F as [F HA]. split; [|done]. by apply finv_env.
Qed.

Lemma FI_init now0 : Forall (fun r => in64 (rc_time r)) recs0 -> fc_exec max interval N recs0 = Ok fc0 ->
  FI (shared (ff_cinit fc0 now0 progs)) (threads (ff_cinit fc0 now0 progs)) ([], None).
Proof.
  intros Hf E. cbn. assert (Ev : cview <$> ((fun p => QThread p (QAt FIdle) []) <$> progs) = (fun p => FThread p FIdle) <$> (crecords <$> progs)).
  { rewrite <- !list_fmap_compose. apply list_fmap_ext. done. }
  split; [|split]; cbn [fst snd].
  - apply Forall_fmap, Forall_forall. done.
  - rewrite Ev. by apply (finv_init max interval N recs0 fc0 now0 (crecords <$> progs)).
  - apply Forall_fmap, Forall_forall. done.
Qed.

(** ** Runs with what has landed *)
Definition gstep (cg : config fc_shared qthread * (list (nat * fc_record) * option (nat * fc_record))) (ev : event Z) :=
  (cstep ff_tstep fc_estep cg.1 ev,
   match ev with
   | Run i => match threads cg.1 !! i with
              | Some t => match ff_tstep (shared cg.1) t with Some _ => ghost_step i (shared cg.1) t cg.2 | None => cg.2 end
              | None => cg.2
              end
   | Env _ => cg.2
   end).
Definition grun now0 (sched : list (event Z)) := fold_left gstep sched (ff_cinit fc0 now0 progs, ([], None)).
Definition landed now0 (sched : list (event Z)) : list (nat * fc_record) := (grun now0 sched).2.1.

Lemma grun_snoc now0 sched ev : grun now0 (sched ++ [ev]) = gstep (grun now0 sched) ev.
Proof. unfold grun. by rewrite fold_left_app. Qed.

Lemma grun_fst now0 sched : (grun now0 sched).1 = ff_crun fc0 now0 progs sched.
Proof.
  induction sched as [|ev sched IH] using rev_ind; [done|]. rewrite grun_snoc. unfold ff_crun. rewrite crun_snoc.
  cbn [gstep fst]. by rewrite IH.
Qed.

Lemma ghost_prefix i s t G : G.1 `prefix_of` (ghost_step i s t G).1.
Proof.
  unfold ghost_step. destruct (q_pc t) as [pc|d cat ct u| | | | | ]; try done.
  - destruct pc; try done; cbn; by apply prefix_app_r.
  - destruct u as [[|] []]; try done; cbn; by apply prefix_app_r.
Qed.

Lemma gstep_prefix cg ev : cg.2.1 `prefix_of` (gstep cg ev).2.1.
Proof.
  destruct ev as [i|e]; [|done]. cbn. destruct (threads cg.1 !! i) as [t|]; [|done].
  destruct (ff_tstep _ _); [|done]. apply ghost_prefix.
Qed.

Lemma landed_mono now0 s s' : landed now0 s `prefix_of` landed now0 (s ++ s').
Proof.
  induction s' as [|ev s' IH] using rev_ind; [by rewrite app_nil_r|]. etransitivity; [exact IH|].
  unfold landed. rewrite app_assoc, grun_snoc. apply gstep_prefix.
Qed.

Lemma grun_inv now0 sched : Forall (fun r => in64 (rc_time r)) recs0 -> fc_exec max interval N recs0 = Ok fc0 ->
  let c := ff_crun fc0 now0 progs sched in
  fs_crashed (shared c) = true \/ FI (shared c) (threads c) (grun now0 sched).2.
Proof.
  intros Hf E. cbv zeta. induction sched as [|ev sched IH] using rev_ind.
  - right. by apply FI_init.
  - rewrite <- grun_fst in IH |- *. rewrite grun_snoc. destruct (grun now0 sched) as [[s ts] G]. cbn [fst snd shared threads] in IH.
    destruct ev as [i|e]; cbn [gstep cstep fst snd shared threads].
    + destruct (ts !! i) as [t|] eqn:Hi; [|done]. destruct (ff_tstep s t) as [[s' t']|] eqn:Hs; [|done]. cbn [shared threads].
      destruct IH as [IH|IH]; [unfold ff_tstep in Hs; by rewrite IH in Hs|]. by eapply FI_step.
    + destruct IH as [IH|IH]; [by left|right]. by apply FI_env.
Qed.
End fine.
