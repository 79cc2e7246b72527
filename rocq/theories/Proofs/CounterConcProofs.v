From Verif.Go Require Import GoInt GoConc.
From Verif.Model Require Import Counter CounterConc.
From Verif.Spec Require Import BucketSpec CounterSpec CounterConcSpec.
From Verif.Proofs Require Import BucketHist BucketMain.
Local Open Scope Z_scope.

Record clin (progs : list (list counter_call)) (c : config counter counter_thread) (log : list log_entry) : Prop := {
  cl_threads : forall i prog, progs !! i = Some prog -> exists t, threads c !! i = Some t /\
      prog = calls_of i log ++ ct_todo t /\ ct_got t = reads_of i log;
  cl_len : length (threads c) = length progs;
  cl_tids : forall e, e ∈ log -> (e.1.1 < length progs)%nat;
  cl_reads : forall p i v, log !! p = Some (i, CGet, v) -> v = wrap64 (sum_before p log);
  cl_value : c_count (shared c) = wrap64 (sum_before (length log) log);
}.

Lemma calls_of_snoc i log e :
  calls_of i (log ++ [e]) = calls_of i log ++ (if decide (e.1.1 = i) then [e.1.2] else []).
Proof. unfold calls_of. rewrite filter_app, fmap_app. f_equal. rewrite filter_cons, filter_nil. by destruct (decide _). Qed.

Lemma reads_of_snoc i log e :
  reads_of i (log ++ [e]) = reads_of i log ++ (if decide (e.1.1 = i /\ e.1.2 = CGet) then [e.2] else []).
Proof. unfold reads_of. rewrite filter_app, fmap_app. f_equal. rewrite filter_cons, filter_nil. by destruct (decide _). Qed.

Lemma sum_before_all log e :
  sum_before (length (log ++ [e])) (log ++ [e]) = sum_before (length log) log + call_delta e.1.2.
Proof.
  unfold sum_before. rewrite !firstn_all. rewrite fmap_app, sumZ_app. cbn. lia.
Qed.

Lemma sum_before_app p log e : (p <= length log)%nat -> sum_before p (log ++ [e]) = sum_before p log.
Proof. intros H. unfold sum_before. by rewrite take_app_le by lia. Qed.

Lemma counter_step_value c o : c_count (counter_step c o) = wrap64 (c_count c + counter_delta o).
Proof. destruct o; cbn; rewrite ?wrap64_add_r; reflexivity. Qed.

Lemma counter_linearizable progs sched : exists log, clin progs (counter_crun progs sched) log.
Proof.
  unfold counter_crun.
  apply (crun_inv counter_tstep (fun s _ => s) (fun c => exists log, clin progs c log)).
  - exists []. constructor.
    + intros i prog Hi. cbn. rewrite list_lookup_fmap, Hi. eexists. split; [reflexivity|done].
    + cbn. by rewrite fmap_length.
    + intros e He. by apply elem_of_nil in He.
    + intros p i v H. by rewrite lookup_nil in H.
    + reflexivity.
  - intros s ts i t s' t' [log L] Hi Hs. unfold counter_tstep in Hs.
    destruct (ct_todo t) as [|call todo] eqn:Htodo; [done|].
    set (v := match call with CUpd _ => 0 | CGet => counter_GetCount s end).
    exists (log ++ [(i, call, v)]).
    assert (Hs' : c_count s' = wrap64 (c_count s + call_delta call) /\ ct_todo t' = todo /\
        ct_got t' = ct_got t ++ (if decide (call = CGet) then [v] else [])).
    { destruct call; injection Hs as <- <-; cbn -[wrap64].
      - rewrite app_nil_r. split; [apply counter_step_value|done].
      - rewrite Z.add_0_r. split; [|done]. pose proof (cl_value _ _ _ L) as V. cbn in V. rewrite V.
        by rewrite wrap64_wrap64. }
    destruct Hs' as (Hv & Ht1 & Ht2).
    constructor; cbn [shared threads].
    + intros j prog Hj. destruct (cl_threads _ _ _ L j prog Hj) as (u & Hu & Hp & Hg). cbn in Hu.
      rewrite calls_of_snoc, reads_of_snoc. cbn [fst snd].
      destruct (decide (i = j)) as [<-|Hne].
      * rewrite Hi in Hu. injection Hu as <-. exists t'. split; [apply list_lookup_insert; by apply lookup_lt_Some in Hi|].
        rewrite Ht1, Ht2, Hp, Hg, Htodo. split; [by rewrite <- app_assoc|].
        f_equal. repeat destruct (decide _); try done; naive_solver.
      * rewrite list_lookup_insert_ne by done. exists u. split; [done|].
        rewrite (decide_False (P := i = j /\ _)) by tauto. rewrite !app_nil_r. done.
    + rewrite insert_length. apply (cl_len _ _ _ L).
    + intros e He. apply elem_of_app in He as [He|He]; [by apply (cl_tids _ _ _ L)|].
      apply elem_of_list_singleton in He as ->. cbn.
      apply lookup_lt_Some in Hi. pose proof (cl_len _ _ _ L) as Hl. cbn in Hl. lia.
    + intros p j w Hw. destruct (decide (p < length log)%nat).
      * rewrite lookup_app_l in Hw by done. rewrite sum_before_app by lia. by apply (cl_reads _ _ _ L p j).
      * rewrite lookup_app_r in Hw by lia. destruct (p - length log)%nat eqn:Hpl; [|done].
        cbn in Hw. injection Hw as -> -> <-.
        assert (p = length log) as -> by lia. rewrite sum_before_app by lia.
        pose proof (cl_value _ _ _ L) as V. cbn in V. rewrite <- V. reflexivity.
    + rewrite sum_before_all. cbn [fst snd]. pose proof (cl_value _ _ _ L) as V. cbn in V.
      rewrite Hv, V. by rewrite wrap64_add_l.
  - intros s ts [].
Qed.

(** Sum over a log, grouped by goroutine. *)
Lemma sum_by_tid (n : nat) log : (forall e, e ∈ log -> (e.1.1 < n)%nat) ->
  sumZ ((fun e : log_entry => call_delta e.1.2) <$> log) =
  sumZ ((fun i => sumZ (call_delta <$> calls_of i log)) <$> seq 0 n).
Proof.
  induction log as [|e log IH] using rev_ind; intros Ht.
  - cbn. clear Ht. generalize 0%nat. induction n as [|n IH]; intros k; cbn; [done|]. unfold sumZ in *. rewrite <- IH. cbn. done.
  - rewrite fmap_app, sumZ_app, IH.
    2:{ intros e' He'. apply Ht. apply elem_of_app. by left. }
    specialize (Ht e ltac:(apply elem_of_app; right; left)).
    assert (G : forall a k, sumZ ((fun i => sumZ (call_delta <$> calls_of i (log ++ [e]))) <$> seq k a) =
      sumZ ((fun i => sumZ (call_delta <$> calls_of i log)) <$> seq k a) +
      (if decide (k <= e.1.1 < k + a)%nat then call_delta e.1.2 else 0)).
    { induction a as [|a IHa]; intros k.
      - cbn. destruct (decide _); lia.
      - cbn [seq fmap list_fmap]. rewrite !sumZ_cons. fold (fmap (M := list) (A := nat) (B := Z)).
        rewrite IHa. rewrite calls_of_snoc, fmap_app, sumZ_app.
        destruct (decide (e.1.1 = k)).
        + rewrite decide_False by lia. rewrite decide_True by lia. cbn. lia.
        + cbn. destruct (decide _), (decide _); lia. }
    rewrite G. rewrite decide_True by lia. cbn. lia.
Qed.

Lemma counter_final progs sched :
  Forall (fun t => ct_todo t = []) (threads (counter_crun progs sched)) ->
  counter_GetCount (shared (counter_crun progs sched)) = wrap64 (sumZ (call_delta <$> mjoin progs)).
Proof.
  intros Hdone. destruct (counter_linearizable progs sched) as [log L].
  unfold counter_GetCount. rewrite (cl_value _ _ _ L). f_equal. unfold sum_before. rewrite firstn_all.
  rewrite (sum_by_tid (length progs) log (cl_tids _ _ _ L)).
  assert (Hc : forall i prog, progs !! i = Some prog -> calls_of i log = prog).
  { intros i prog Hi. destruct (cl_threads _ _ _ L i prog Hi) as (t & Ht & Hp & _).
    rewrite Forall_forall in Hdone. rewrite (Hdone t) in Hp by (by eapply elem_of_list_lookup_2).
    by rewrite app_nil_r in Hp. }
  clear -Hc. assert (G : forall ps k, (forall i prog, ps !! i = Some prog -> calls_of (k + i)%nat log = prog) ->
    sumZ ((fun i => sumZ (call_delta <$> calls_of i log)) <$> seq k (length ps)) = sumZ (call_delta <$> mjoin ps)).
  { induction ps as [|p ps IH]; intros k H; [done|]. cbn [length seq fmap list_fmap mjoin list_join].
    rewrite sumZ_cons, fmap_app, sumZ_app. f_equal.
    - specialize (H 0%nat p eq_refl). rewrite Nat.add_0_r in H. by rewrite H.
    - apply IH. intros i prog Hi. specialize (H (S i) prog Hi). by rewrite Nat.add_succ_r in H. }
  by apply G.
Qed.
