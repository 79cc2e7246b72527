(** Every call of a fast compass returns. *)
From Verif.Go Require Import GoInt GoConc.
From Verif.Model Require Import Counter BucketQueue BucketCounter BucketCounterConc BucketReadConc FastCompass FastCompassConc FastCompassFine.
From Verif.Spec Require Import BucketSpec FastCompassSpec FastCompassConcSpec FastCompassFineSpec ProgressSpec.
From Verif.Proofs Require Import BucketHist ProgressLemmas FastCompassFineProofs FastCompassFineSafe FastCompassFineMain FastCompassFineRead CompassBound CompassReturn FastCompassBound.
Local Open Scope Z_scope.

(** The clock enables and disables nothing. *)
Lemma new_bc_env I N c c' u : match newBucketCounterImpl I N c u, newBucketCounterImpl I N c' u with Ok _, Ok _ | Panic, Panic => True | _, _ => False end.
Proof. unfold newBucketCounterImpl. destruct (newBucketDequeue N) as [hd|]; [|done]. cbn [mbind res_bind]. by destruct (dq_peek _). Qed.
Lemma fc_env s t now : ft_todo t = [] -> (forall d cat ct, ft_pc t <> FUpdate d cat ct) -> fc_tstep s t <> None -> fc_tstep (fc_estep s now) t <> None.
Proof.
  destruct t as [todo pc]. cbn [ft_todo ft_pc]. intros -> Hu. unfold fc_tstep. cbn [fc_estep fs_fc fs_locked fs_writing fs_crashed fs_clock ft_todo ft_pc]. destruct (fs_crashed s); [done|].
  destruct pc as [|d cat|d cat|d cat|d cat ct bc|d cat ct bc|d cat ct| |k]; try done.
  - by destruct (fs_locked s).
  - destruct (fs_writing s); [done|]. destruct (_ !! cat); [done|]. by destruct (_ <=? _).
  - pose proof (new_bc_env (fc_bucketInterval (fs_fc s)) (fc_numberOfBuckets (fs_fc s)) (fs_clock s) (wrap64 now) false). by destruct (newBucketCounterImpl _ _ (fs_clock s) _), (newBucketCounterImpl _ _ (wrap64 now) _).
  - by destruct (fs_writing s).
  - by destruct (Hu d cat ct).
  - by destruct (fs_writing s).
Qed.
Lemma ff_env s t now : ff_tstep s t <> None -> ff_tstep (fc_estep s now) t <> None.
Proof.
  unfold ff_tstep. change (fs_crashed (fc_estep s now)) with (fs_crashed s). change (fs_fc (fc_estep s now)) with (fs_fc s). change (fs_writing (fc_estep s now)) with (fs_writing s). change (fs_clock (fc_estep s now)) with (wrap64 now).
  destruct (fs_crashed s) eqn:Ec; [done|]. destruct t as [todo pc got]. cbn [q_pc q_todo q_got].
  destruct pc as [pc|d cat ct u|job order|job rest|g start result cat r rest|result cat rest|result cat p rest].
  - assert (Hat : (forall d cat ct, pc <> FUpdate d cat ct) -> ff_at s (QThread todo (QAt pc) got) pc <> None -> ff_at (fc_estep s now) (QThread todo (QAt pc) got) pc <> None).
    { intros Hn. unfold ff_at. pose proof (fc_env s (FThread [] pc) now eq_refl Hn) as Hx. destruct (fc_tstep s (FThread [] pc)) as [[]|]; [|done]. intros _. specialize (Hx ltac:(done)). by destruct (fc_tstep (fc_estep s now) _) as [[]|]. }
    destruct pc as [|d cat|d cat|d cat|d cat ct bc|d cat ct bc|d cat ct| |k]; try (apply Hat; done); [|done].
    destruct todo as [|[d cat|g start order|order] todo]; try done. by destruct (_ || _).
  - destruct u as [utodo upc]. pose proof (fun bc => bc_env (BcShared bc (fs_clock s)) (BThread utodo upc) now) as Hx. unfold bc_estep in Hx. cbn [bs_bc] in Hx.
    destruct (fc_subCategories (fs_fc s) !! cat) as [bc|]; [|by destruct utodo, upc].
    specialize (Hx bc). destruct utodo as [|x utodo], upc; try done;
      match type of Hx with context [bc_tstep ?a ?b] => destruct (bc_tstep a b) as [[]|] end; try done; intros _; specialize (Hx ltac:(done));
      match goal with |- context [bc_tstep ?a ?b] => destruct (bc_tstep a b) as [[]|] end; done.
  - by destruct (fs_writing s).
  - by destruct (fs_writing s).
  - destruct (rd_got r); [|done]. destruct (_ !! cat) as [bc|]; [|done]. pose proof (rd_env (BcShared bc (fs_clock s)) r now) as Hx. unfold bc_estep in Hx. cbn [bs_bc] in Hx.
    destruct (rd_step (BcShared bc (fs_clock s)) r); [|done]. intros _. specialize (Hx ltac:(done)). by destruct (rd_step _ _).
  - by destruct (_ !! cat).
  - destruct (_ !! cat) as [bc|]; [|done]. by destruct (_ !! p).
Qed.

Section run.
Context (max interval N now0 : Z) (progs : list (list qcall)) (I1 : Second <= interval) (I2 : in64 interval) (I3 : 0 <= N).
Notation fc0 := (newFastCompass max interval N).
Notation c0 := (ff_cinit fc0 now0 progs).
Notation run := (ff_crun fc0 now0 progs).
Notation L := (Z.of_nat (Z.to_nat (N + 1))).
Notation M := (Z.of_nat (Z.to_nat max)).
Definition Psi (c : config fc_shared qthread) : Z := if fs_crashed (shared c) then 0 else sumZ (q_pot L M <$> threads c).
Lemma size_run s : fs_crashed (shared (run s)) = false -> Z.of_nat (size (fc_subCategories (fs_fc (shared (run s))))) <= M.
Proof using I1 I2 I3.
  intros Hc. pose proof (run_FI max interval N [] fc0 now0 progs I1 I2 I3 (Forall_nil_2 _) eq_refl s Hc) as HF. apply FI_size in HF. unfold subs in HF. lia.
Qed.
Lemma alive_step s t : ff_tstep s t <> None -> fs_crashed s = false.
Proof using. unfold ff_tstep. by destruct (fs_crashed s). Qed.
Lemma ok_run s : fast_ok L (shared (run s)) /\ Forall (q_ok L) (threads (run s)).
Proof using I1 I2 I3.
  induction s as [|ev s [A B]] using rev_ind.
  - split; [split; [cbn; lia|by intros ? ?]|]. apply Forall_fmap. by apply Forall_forall.
  - unfold ff_crun. rewrite crun_snoc. fold (run s). destruct ev as [i|e]; cbn [cstep]; [|split; [exact A|exact B]].
    destruct (threads (run s) !! i) as [t|] eqn:Ei; [|by split]. destruct (ff_tstep (shared (run s)) t) as [[s' t']|] eqn:Et; [|by split].
    assert (Hc : fs_crashed (shared (run s)) = false) by (apply (alive_step _ t); congruence). pose proof (size_run s Hc) as Hsz.
    assert (Hok : q_ok L t) by (by apply (proj1 (Forall_lookup _ _) B _ _ Ei)).
    apply (q_step L M) in Et as (C & D & _); [|lia|lia|done|done|done]. split; [done|]. by apply Forall_insert.
Qed.
Lemma Psi_start : Psi c0 = sumZ ((fun p => sumZ (q_cost L M <$> p)) <$> progs).
Proof using.
  unfold Psi. cbn [ff_cinit shared threads fs_crashed]. induction progs as [|p l IH]; [done|]. rewrite !fmap_cons, !sumZ_cons, IH. unfold q_pot. cbn [q_todo q_pc q_rank fpc_rank]. lia.
Qed.
Lemma ff_bound sched : Z.of_nat (steps_made ff_tstep fc_estep c0 sched) <= sumZ ((fun p => sumZ (q_cost L M <$> p)) <$> progs).
Proof using I1 I2 I3.
  rewrite <- Psi_start. apply made_bound.
  - intros s. unfold Psi. destruct (fs_crashed _); [lia|]. apply sum_nonneg. intros t _. apply q_pot_nonneg; lia.
  - intros s i t s' t' c Hi Hs. destruct (ok_run s) as [A B]. unfold ff_crun in A, B. fold c in A, B. pose proof (proj1 (Forall_lookup _ _) B _ _ Hi) as Ht.
    assert (Hc : fs_crashed (shared c) = false) by (apply (alive_step _ t); congruence). pose proof (size_run s Hc) as Hsz.
    apply (q_step L M) in Hs as (_ & _ & _ & D & E); [|lia|lia|done|exact Hsz|done]. unfold Psi. cbn [shared threads]. rewrite Hc.
    destruct E as [E|[E1 E2]]; [rewrite E|rewrite E1].
    + rewrite <- (take_drop_middle _ _ _ Hi), fmap_app, fmap_cons, sumZ_app, sumZ_cons.
      assert (forall l, 0 <= sumZ (q_pot L M <$> l)) as Hnn by (intros l; apply sum_nonneg; intros x _; apply q_pot_nonneg; lia).
      pose proof (Hnn (take i (threads c))). pose proof (Hnn (drop (S i) (threads c))). lia.
    + eapply (sum_bound _ _ _ i t t' 0 (length (threads c))); [done|lia|done| |lia]. intros j u _ _. lia.
  - intros s e. cbv zeta. unfold Psi. cbn [shared threads fc_estep fs_crashed]. lia.
Qed.
Lemma done_stuck s t : q_done t -> ff_tstep s t = None.
Proof using. intros [A B]. unfold ff_tstep. destruct (fs_crashed s); [done|]. by rewrite B, A. Qed.
Global Instance q_done_dec t : Decision (q_done t).
Proof. unfold q_done. destruct (q_todo t); [|right; by intros [??]]. destruct (q_pc t) as [[]| | | | | |]; (by left) || (right; intros [??]; done). Defined.
Lemma ff_all_return rounds : Forall (round (length progs)) rounds -> sumZ ((fun p => sumZ (q_cost L M <$> p)) <$> progs) < Z.of_nat (length rounds) ->
  fs_crashed (shared (run (mjoin rounds))) = true \/ Forall q_done (threads (run (mjoin rounds))).
Proof using I1 I2 I3.
  intros Hround Hlen.
  refine (fair_finish ff_tstep fc_estep (fun c => fs_crashed (shared c) = true \/ Forall q_done (threads c)) _ c0 (Z.to_nat (sumZ ((fun p => sumZ (q_cost L M <$> p)) <$> progs))) rounds _ _ _ _ _ _).
  - intros s. pose proof (ff_bound s). lia.
  - intros s1 s2 _. destruct (fs_crashed (shared (crun ff_tstep fc_estep c0 s1))) eqn:Ec; [by left; left|].
    destruct (decide (Forall q_done (threads (crun ff_tstep fc_estep c0 s1)))) as [Hd|Hd]; [by left; right|]. right.
    destruct (ff_progress max interval N [] fc0 progs I1 I2 I3 now0 s1 (Forall_nil_2 _) eq_refl Ec Hd) as (i & t & s' & t' & Hi & Ht). exists i, t. split; [exact Hi|]. unfold ff_crun in Ht. congruence.
  - intros s ev Hd. rewrite crun_snoc. destruct ev as [i|e]; cbn [cstep]; [|exact Hd].
    destruct (threads (crun ff_tstep fc_estep c0 s) !! i) as [t|] eqn:Ei; [|done]. destruct (ff_tstep _ t) as [[s' t']|] eqn:Et; [|done]. destruct Hd as [Hd|Hd].
    + assert (Hc : fs_crashed (shared (crun ff_tstep fc_estep c0 s)) = false) by (apply (alive_step _ t); congruence). congruence.
    + rewrite done_stuck in Et; [done|]. by apply (proj1 (Forall_lookup _ _) Hd _ _ Ei).
  - intros c e i (t & Hi & Ht). exists t. split; [done|]. cbn [cstep shared]. by apply ff_env.
  - cbn [ff_cinit threads]. rewrite fmap_length. exact Hround.
  - pose proof (ff_bound []). lia.
Qed.
End run.
