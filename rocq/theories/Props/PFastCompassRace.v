(** Data races on a fast compass (C111). *)
From Verif.Go Require Import GoInt GoConc.
From Verif.Model Require Import BucketQueue BucketCounter FastCompass FastCompassConc.
From Verif.Spec Require Import FastCompassConcSpec RaceSpec FastCompassRaceSpec.
From Verif.Proofs Require Import RaceLemmas.
Local Open Scope Z_scope.

(** The table of accesses is complete. *)
Theorem C111_table : lists_writes fc_next fc_tstep fc_same /\ lists_reads fc_next fc_tstep fc_same fc_rest.
Proof.
  split.
  - intros s [todo pc] s' t' l Hs Hl. unfold fc_tstep in Hs. cbn -[newBucketCounterImpl bc_UpdateN] in Hs.
    destruct (fs_crashed s); [done|]. unfold fc_next in Hl. cbn in Hl.
    assert (Hw : ~ (Access VCategories true false ∈ fc_next s (FThread todo pc))).
    { intros Hin. destruct l. specialize (Hl _ Hin eq_refl). done. }
    unfold fc_next in Hw. cbn in Hw.
    destruct pc as [|d cat|d cat|d cat|d cat ct bc|d cat ct bc|d cat ct| |k].
    + destruct todo as [|[d cat|k] todo]; [done|..]; [destruct (_ || _)|]; by injection Hs as <- <-.
    + destruct (fs_locked s); [done|]. by injection Hs as <- <-.
    + destruct (fs_writing s) eqn:E; [by injection Hs as <- <-|].
      destruct (_ !! cat); [by injection Hs as <- <-|]. destruct (_ <=? _); by injection Hs as <- <-.
    + destruct (newBucketCounterImpl _ _ _ _); [|done]. by injection Hs as <- <-.
    + destruct Hw. right. left.
    + destruct Hw. right. left.
    + destruct Hw. right. left.
    + by injection Hs as <- <-.
    + destruct (fs_writing s) eqn:E; by injection Hs as <- <-.
  - intros s1 s2 [todo pc] HR Hs. destruct HR as (R1 & R2 & R3 & R4 & R5 & R6).
    destruct s1 as [[mx1 iv1 nb1 m1] lk1 wr1 cr1 ck1 en1 tm1], s2 as [[mx2 iv2 nb2 m2] lk2 wr2 cr2 ck2 en2 tm2].
    cbn in R1, R2, R3, R4, R5, R6. subst lk2 cr2 ck2 mx2 iv2 nb2.
    assert (HE : (exists b, Access VCategories b false ∈ fc_next (FcShared (FastCompassImpl mx1 iv1 nb1 m1) lk1 wr1 cr1 ck1 en1 tm1) (FThread todo pc)) -> m1 = m2 /\ wr1 = wr2).
    { intros [b Hb]. exact (Hs _ Hb). }
    assert (Hnil : forall (P : access fc_var -> Prop), forall x, x ∈ [] -> P x) by (intros P x []%elem_of_nil).
    unfold fc_tstep. cbn -[newBucketCounterImpl bc_UpdateN]. destruct cr1; [done|]. clear Hs. unfold fc_next in HE |- *. cbn -[newBucketCounterImpl bc_UpdateN] in HE |- *.
    destruct pc as [|d cat|d cat|d cat|d cat ct bc|d cat ct bc|d cat ct| |k].
    + destruct todo as [|[d cat|k] todo]; [done|..]; [destruct (_ || _)|]; (split; [done|]; split; [done|]; refine (Hnil _)).
    + destruct lk1; [done|]. split; [done|]. split; [done|]. refine (Hnil _).
    + destruct HE as [<- <-]; [eexists; left|]. destruct wr1; [split; [done|]; by split|].
      destruct (_ !! cat); [split; [done|]; by split|]. destruct (_ <=? _); (split; [done|]; by split).
    + destruct (newBucketCounterImpl _ _ _ _); [|done]. split; [done|]. split; [done|]. refine (Hnil _).
    + destruct HE as [<- <-]; [eexists; left|]. destruct wr1; (split; [done|]; by split).
    + destruct HE as [<- <-]; [eexists; left|]. split; [done|]; by split.
    + destruct HE as [<- <-]; [eexists; left|]. destruct (m1 !! cat); [|done]. destruct (bc_UpdateN _ _ _); [|done]. split; [done|]; by split.
    + split; [done|]. split; [done|]. refine (Hnil _).
    + destruct HE as [<- <-]; [eexists; left|]. destruct wr1; (split; [done|]; by split).
Qed.
Print Assumptions C111_table.

(** Record holds the lock from line 88 to line 89, also while it makes the accesses of the table. *)
Lemma fc_lock_excl fc0 now0 progs sched i j ti tj :
  threads (fc_crun fc0 now0 progs sched) !! i = Some ti -> threads (fc_crun fc0 now0 progs sched) !! j = Some tj ->
  holds_lock (ft_pc ti) = true -> holds_lock (ft_pc tj) = true -> i = j.
Proof.
  apply (mutex_excl fc_tstep fc_estep fs_locked (fun t => holds_lock (ft_pc t))); [done| |done|].
  - clear. intros s [todo pc] s' t' Hs. unfold fc_tstep in Hs. cbn -[newBucketCounterImpl bc_UpdateN] in Hs. destruct (fs_crashed s); [done|].
    destruct pc as [|d cat|d cat|d cat|d cat ct bc|d cat ct bc|d cat ct| |k].
    + destruct todo as [|[d cat|k] todo]; [done|..]; [destruct (_ || _)|]; injection Hs as <- <-; by left.
    + destruct (fs_locked s) eqn:E; [done|]. injection Hs as <- <-. right. by left.
    + destruct (fs_writing s); [injection Hs as <- <-; by left|].
      destruct (_ !! cat); [injection Hs as <- <-; by left|]. destruct (_ <=? _); injection Hs as <- <-; by left.
    + destruct (newBucketCounterImpl _ _ _ _); [|done]. injection Hs as <- <-. by left.
    + destruct (fs_writing s); injection Hs as <- <-; by left.
    + injection Hs as <- <-. by left.
    + destruct (_ !! cat); [|done]. destruct (bc_UpdateN _ _ _); [|done]. injection Hs as <- <-. by left.
    + injection Hs as <- <-. right. by right.
    + destruct (fs_writing s); [injection Hs as <- <-; by left|]. destruct k; injection Hs as <- <-; by left.
  - intros k t Hk. cbn in Hk. rewrite list_lookup_fmap in Hk. destruct (progs !! k); [|done]. cbn in Hk. by injection Hk as <-.
Qed.

(** What a goroutine is doing comes from its program. *)
Definition fc_from (p : list fc_call) (t : fthread) : Prop :=
  (forall x, x ∈ ft_todo t -> x ∈ p) /\
  match ft_pc t with
  | FIdle | FUnlock => True
  | FLock d cat | FLookup d cat | FCreate d cat | FAssign d cat _ _ | FAssigning d cat _ _ | FUpdate d cat _ => CRecord d cat ∈ p
  | FIter _ => exists k, CGetter k ∈ p
  end.

Lemma fc_program fc0 now0 progs sched i t : threads (fc_crun fc0 now0 progs sched) !! i = Some t ->
  exists p, progs !! i = Some p /\ fc_from p t.
Proof.
  apply (program_inv fc_tstep fc_estep fc_from).
  - intros p. by split.
  - intros p s [todo pc] s' t' [F1 F2] Hs. unfold fc_tstep in Hs. cbn -[newBucketCounterImpl bc_UpdateN] in Hs, F1, F2. destruct (fs_crashed s); [done|].
    destruct pc as [|d cat|d cat|d cat|d cat ct bc|d cat ct bc|d cat ct| |k].
    + destruct todo as [|[d cat|k] todo]; [done|..].
      * assert (H1 : CRecord d cat ∈ p) by (apply F1; left). assert (H2 : forall x, x ∈ todo -> x ∈ p) by (intros; apply F1; by right).
        destruct (_ || _); injection Hs as <- <-; by split.
      * assert (H1 : CGetter k ∈ p) by (apply F1; left). assert (H2 : forall x, x ∈ todo -> x ∈ p) by (intros; apply F1; by right).
        injection Hs as <- <-. split; [done|]. by exists k.
    + destruct (fs_locked s) eqn:E; [done|]. injection Hs as <- <-. by split.
    + destruct (fs_writing s); [injection Hs as <- <-; by split|].
      destruct (_ !! cat); [injection Hs as <- <-; by split|]. destruct (_ <=? _); injection Hs as <- <-; by split.
    + destruct (newBucketCounterImpl _ _ _ _); [|done]. injection Hs as <- <-. by split.
    + destruct (fs_writing s); injection Hs as <- <-; by split.
    + injection Hs as <- <-. by split.
    + destruct (_ !! cat); [|done]. destruct (bc_UpdateN _ _ _); [|done]. injection Hs as <- <-. by split.
    + injection Hs as <- <-. by split.
    + destruct (fs_writing s); [injection Hs as <- <-; by split|]. destruct k; injection Hs as <- <-; by split.
Qed.

(** What is missing: the getters read the map without the lock, so a getter called
    while another goroutine records is a data race ([C111_refuted]).  Every data race is
    one of a getter with a Record. *)
Theorem C111_partial fc0 now0 progs sched l :
  data_race_on fc_next l (fc_crun fc0 now0 progs sched) ->
  exists i j, i <> j /\ calls_getter progs i /\ calls_record progs j.
Proof.
  intros (i & j & ti & tj & a & b & Hne & Hi & Hj & Ha & Hb & _ & _ & Hw & _)%race_sym.
  pose proof (fc_lock_excl _ _ _ _ _ _ _ _ Hi Hj) as Hex.
  destruct (fc_program _ _ _ _ _ _ Hi) as (p & Hp & _ & Fi).
  destruct (fc_program _ _ _ _ _ _ Hj) as (q & Hq & _ & Fj).
  assert (Wi : holds_lock (ft_pc ti) = true /\ calls_record progs i).
  { unfold fc_next in Ha. destruct (ft_pc ti); cbn in Ha; repeat (apply elem_of_cons in Ha as [->|Ha]); try by apply elem_of_nil in Ha.
    all: try (by cbn in Hw). all: (split; [reflexivity|]; unfold calls_record; eauto). }
  destruct Wi as [Wi Ri]. specialize (Hex Wi).
  assert (Gj : calls_getter progs j).
  { unfold fc_next in Hb. destruct (ft_pc tj) eqn:E; try (by apply elem_of_nil in Hb); try (destruct (Hne (Hex eq_refl))).
    destruct Fj as [k' Fj]. by exists q, k'. }
  exists j, i. auto.
Qed.
Print Assumptions C111_partial.

(** Goroutines that only record have no data race, nor have goroutines that only read. *)
Theorem C111_record_only_partial fc0 now0 progs sched :
  (forall i, ~ calls_getter progs i) \/ (forall i, ~ calls_record progs i) ->
  race_free fc_next (fc_crun fc0 now0 progs sched).
Proof.
  intros H l (i & j & _ & Hg & Hr)%C111_partial. destruct H as [H|H]; by eapply H.
Qed.
Print Assumptions C111_record_only_partial.

Definition fc_race_compass : fast_compass := FastCompassImpl 20 1 10 ∅.
Definition fc_race_progs : list (list fc_call) := [[CRecord 5 "hit"]; [CGetter 3]].

(** A getter about to look at the map while a Record is about to insert a category. *)
Theorem C111_refuted :
  ~ (forall fc0 now0 progs sched, race_free fc_next (fc_crun fc0 now0 progs sched)).
Proof.
  intros H. specialize (H fc_race_compass 1000 fc_race_progs (Run <$> [0; 0; 0; 0; 1]%nat) VCategories).
  apply H. destruct (threads (fc_crun fc_race_compass 1000 fc_race_progs (Run <$> [0; 0; 0; 0; 1]%nat))) as [|t0 [|t1 ts]] eqn:E.
  1,2: by vm_compute in E.
  assert (E0 : match ft_pc t0 with FAssign _ _ _ _ => true | _ => false end = true).
  { assert (Hb : match threads (fc_crun fc_race_compass 1000 fc_race_progs (Run <$> [0; 0; 0; 0; 1]%nat)) with t :: _ => match ft_pc t with FAssign _ _ _ _ => true | _ => false end | _ => false end = true) by (vm_compute; reflexivity).
    by rewrite E in Hb. }
  assert (E1 : match ft_pc t1 with FIter _ => true | _ => false end = true).
  { assert (Hb : match threads (fc_crun fc_race_compass 1000 fc_race_progs (Run <$> [0; 0; 0; 0; 1]%nat)) with _ :: t :: _ => match ft_pc t with FIter _ => true | _ => false end | _ => false end = true) by (vm_compute; reflexivity).
    by rewrite E in Hb. }
  apply (race_intro fc_next _ 0%nat 1%nat t0 t1 (stores VCategories) (loads VCategories)); try done.
  - by rewrite E.
  - by rewrite E.
  - unfold fc_next. destruct (ft_pc t0); try done. right. left.
  - unfold fc_next. destruct (ft_pc t1); try done. left.
Qed.
Print Assumptions C111_refuted.

(** A case of C111_record_only_partial: three goroutines recording two categories. *)
Example C111_witness : let progs := [[CRecord 5 "hit"; CRecord 7 "miss"]; [CRecord 9 "hit"]; [CRecord 3 "miss"]] in
  (forall i, ~ calls_getter progs i) /\ race_free fc_next (fc_crun fc_race_compass 1000 progs (Run <$> [0; 0; 1; 0; 0; 2; 0; 0; 1; 0]%nat)).
Proof.
  intros progs. assert (H : forall i, ~ calls_getter progs i).
  { intros i (p & k & Hp & Hk). destruct i as [|[|[|i]]]; cbn in Hp; try done; injection Hp as <-;
      repeat (apply elem_of_cons in Hk as [Hk|Hk]; [done|]); by apply elem_of_nil in Hk. }
  split; [exact H|]. apply C111_record_only_partial. by left.
Qed.
