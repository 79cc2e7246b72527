(** C101-C103: the uniform reservoir (impl/uniform_reservoir.go), any number of goroutines
    and any schedule. *)
From Verif.Go Require Import GoInt GoConc.
From Verif.Model Require Import UniformSnapshot UniformReservoir ReservoirConc.
From Verif.Spec Require Import BucketSpec SnapshotSpec ReservoirSpec ReservoirConcSpec.
From Verif.Proofs Require Import UniformSnapshotProofs UniformReservoirProofs DecayingConcProofs DecayingConcMore ReservoirConcProofs.
Local Open Scope Z_scope.

(** C101: the calls that have returned, in the order of their returns, do and answer what
    they would when made one after the other on a fresh reservoir; each goroutine's calls
    are among them in its own order and it got those answers; nobody panics; and when no
    update is under way, the reservoir is the one they lead to. *)
Theorem C101_linearizable cap progs sched : rx_ok cap progs ->
  let c := rx_run cap progs sched in
  let log := rs_log (shared c) in
  exists u0 u, NewUniformReservoir cap = Ok u0 /\
    rx_sequence u0 (log_calls log) = Ok (u, log_answers log) /\
    ((forall i t, threads c !! i = Some t -> rx_updating t = false) -> rs_rsv (shared c) = u) /\
    forall i t, threads c !! i = Some t ->
      rx_pc t <> RPanic /\
      progs !! i = Some ((by_goroutine i log).*1 ++ rx_current t ++ rx_todo t) /\
      rx_got t = (by_goroutine i log).*2.
Proof.
  intros H c log. pose proof (rxinv_run cap progs H sched) as D. fold c in D.
  pose proof (r_u _ _ _ _ D) as (u & U1 & U2 & U3 & U4 & U5). exists (UniformReservoir 0 (replicate (Z.to_nat cap) 0)), u.
  split; [unfold NewUniformReservoir; destruct (Z.ltb_spec cap 0); [destruct H; lia|done]|]. split; [done|]. split.
  - intros Hn. apply U4. destruct (rs_writer (shared c)) eqn:Hw; [|done]. exfalso.
    destruct (sum_flags_pos rx_updating (threads c)) as (i & t & Hi & Ht); [rewrite (r_w _ _ _ _ D), Hw; cbn; lia|].
    by rewrite (Hn i t Hi) in Ht.
  - intros i t Hi. destruct (r_t _ _ _ _ D i t Hi) as (_ & E1 & E2). split; [|done].
    intros Hp. specialize (U5 i t Hi). by rewrite Hp in U5.
Qed.
Print Assumptions C101_linearizable.

(** The order is final: what has returned stays before what returns later. *)
Theorem C101_real_time cap progs sched later :
  rs_log (shared (rx_run cap progs sched)) `prefix_of` rs_log (shared (rx_run cap progs (sched ++ later))).
Proof. unfold rx_run. rewrite crun_app. apply rx_log_grows. Qed.
Print Assumptions C101_real_time.

(** So what C38-C41 say of histories holds of every moment at which no update is under
    way: the reservoir is the one of some history of the values recorded so far, with
    positions drawn in range. *)
Theorem C101_history cap progs sched : rx_ok cap progs ->
  let c := rx_run cap progs sched in
  (forall i t, threads c !! i = Some t -> rx_updating t = false) ->
  exists ups, picks_in_range ups /\ ups.*1 = recorded_by (log_calls (rs_log (shared c))) /\
    ur_exec cap ups = Ok (rs_rsv (shared c)) /\
    ur_Size (rs_rsv (shared c)) = Z.min (Z.of_nat (length ups)) cap.
Proof.
  intros H c Hn. pose proof (rxinv_run cap progs H sched) as D. fold c in D.
  pose proof (r_u _ _ _ _ D) as (u & U1 & U2 & U3 & U4 & U5).
  assert (E : rs_rsv (shared c) = u).
  { apply U4. destruct (rs_writer (shared c)) eqn:Hw; [|done]. exfalso.
    destruct (sum_flags_pos rx_updating (threads c)) as (i & t & Hi & Ht); [rewrite (r_w _ _ _ _ D), Hw; cbn; lia|].
    by rewrite (Hn i t Hi) in Ht. }
  rewrite E. destruct H as (Hcap & HF & HN).
  assert (L : forall ks, length (recorded_by ks) = length (filter (fun k => is_update k = true) ks)).
  { induction ks as [|[] ks IH]; [done|..]; unfold recorded_by; cbn [omap list_omap]; fold (recorded_by ks); rewrite filter_cons; cbn [is_update];
      [rewrite decide_True by done; cbn [length]; f_equal; exact IH|rewrite decide_False by done; exact IH..]. }
  assert (N : Z.of_nat (length (recorded_by (log_calls (rs_log (shared c))))) < 2 ^ 63).
  { rewrite L. rewrite <- (r_p _ _ _ _ D), filter_app, app_length in HN. lia. }
  destruct (rx_history cap (log_calls (rs_log (shared c))) u (log_answers (rs_log (shared c)))) as (ups & P & V & X); [lia| |done|done|].
  { apply Forall_forall. intros k Hk. assert (Hk' : k ∈ mjoin progs) by (rewrite <- (r_p _ _ _ _ D); apply elem_of_app; by left).
    apply elem_of_list_join in Hk' as (p & Hk' & Hp). rewrite Forall_forall in HF. specialize (HF p Hp). rewrite Forall_forall in HF. by apply HF. }
  exists ups. split; [done|]. split; [done|]. split; [done|]. unfold ur_Size. rewrite U2, U3, <- L, <- V, fmap_length, Z2Nat.id by lia.
  destruct (Z.ltb_spec cap (Z.of_nat (length ups))); lia.
Qed.
Print Assumptions C101_history.

(** C102: no deadlock: whoever holds the lock can go on, and when nobody holds it,
    whoever has not finished can (so in whatever order the lock is granted, somebody can). *)
Theorem C102_progress cap progs sched : rx_ok cap progs ->
  let c := rx_run cap progs sched in
  let holds t := rx_updating t || rx_reading t in
  (forall i t, threads c !! i = Some t -> holds t = true -> rx_tstep (shared c) t <> None) /\
  ((forall i t, threads c !! i = Some t -> holds t = false) ->
   forall i t, threads c !! i = Some t -> ~ rx_finished t -> rx_tstep (shared c) t <> None).
Proof.
  intros H c holds. pose proof (rxinv_run cap progs H sched) as D. fold c in D. split.
  - intros i t Hi Ht. by apply (holder_steps cap progs H _ _ i t D Hi).
  - intros Hn i t Hi Hf.
    assert (Hw : rs_writer (shared c) = false).
    { destruct (rs_writer (shared c)) eqn:Hw; [|done]. exfalso.
      destruct (sum_flags_pos rx_updating (threads c)) as (j & t' & Hj & Ht'); [rewrite (r_w _ _ _ _ D), Hw; cbn; lia|].
      specialize (Hn j t' Hj). unfold holds in Hn. by rewrite Ht' in Hn. }
    assert (Hr : rs_readers (shared c) = 0%nat).
    { destruct (rs_readers (shared c)) eqn:Hr; [done|]. exfalso.
      destruct (sum_flags_pos rx_reading (threads c)) as (j & t' & Hj & Ht'); [rewrite (r_r _ _ _ _ D), Hr; lia|].
      specialize (Hn j t' Hj). unfold holds in Hn. rewrite Ht', orb_true_r in Hn. done. }
    pose proof (r_u _ _ _ _ D) as (u & _ & _ & _ & _ & U5). specialize (U5 i t Hi). specialize (Hn i t Hi).
    destruct t as [id todo pc got]. unfold rx_finished in Hf. cbn [rx_todo rx_pc] in Hf, U5.
    unfold holds, rx_updating, rx_reading in Hn. cbn [rx_pc] in Hn.
    unfold rx_tstep. cbn [rx_pc rx_todo rx_id rx_got]. cbv zeta. rewrite Hw, Hr.
    destruct pc; try done. destruct todo as [|k todo]; [|done]. by destruct Hf.
Qed.
Print Assumptions C102_progress.

(** And no schedule makes the goroutines take more steps than their calls have: with
    C102_progress, every call returns as long as somebody who can go on does. *)
Theorem C102_steps cap progs sched : rx_ok cap progs ->
  (steps_taken (rx_init cap progs) sched <= sum_list_with (call_steps cap) (mjoin progs))%nat.
Proof.
  intros H. etrans; [apply (steps_bound cap progs H); apply rxinv_init|]. by rewrite steps_init.
Qed.
Print Assumptions C102_steps.

(** C103: no data race. *)
Theorem C103_no_race cap progs sched i j t t' : rx_ok cap progs ->
  let c := rx_run cap progs sched in
  threads c !! i = Some t -> threads c !! j = Some t' -> i <> j -> ~ race t t'.
Proof.
  intros H c Hi Hj Hij (x & w & w' & A & A' & Hw). pose proof (rxinv_run cap progs H sched) as D. fold c in D.
  assert (W : forall t x, next_access t = Some (x, true) -> rx_updating t = true) by (intros t0 y; unfold next_access, rx_updating; by destruct (rx_pc t0)).
  assert (R : forall t x w, next_access t = Some (x, w) -> rx_updating t || rx_reading t = true)
    by (intros t0 y z; unfold next_access, rx_updating, rx_reading; by destruct (rx_pc t0)).
  destruct w.
  - destruct (writer_alone _ _ _ _ i t j t' D Hi (W _ _ A) Hj ltac:(congruence)) as [B1 B2]. specialize (R _ _ _ A'). by rewrite B1, B2 in R.
  - destruct w'; [|done]. destruct (writer_alone _ _ _ _ j t' i t D Hj (W _ _ A') Hi Hij) as [B1 B2]. specialize (R _ _ _ A). by rewrite B1, B2 in R.
Qed.
Print Assumptions C103_no_race.

(** A run: capacity 2, three goroutines.  Goroutine 1 records 7 and 9 while goroutine 0
    records 5; goroutine 2 asks for the size, and starts its snapshot's turn while an
    update has the lock. *)
Definition demo : list (list rx_call) := [[RUpdate 5 [4]]; [RUpdate 7 [3]; RUpdate 9 [9223372036854775807; 4]]; [RSize; RSnapshot]].
Definition demo_sched : list (event Empty_set) :=
  (Run <$> [0; 1; 1; 0; 2; 2; 1; 1; 1; 2; 1; 1; 1; 2; 2; 0; 2; 2; 0; 0; 2; 2; 0; 0; 0; 0; 0; 0])%nat ++ (Run <$> replicate 12 2%nat) ++ (Run <$> replicate 12 1%nat).
Example C101_witness :
  rx_ok 2 demo /\
  rs_log (shared (rx_run 2 demo demo_sched)) =
    [(1%nat, RUpdate 7 [3], ADone); (2%nat, RSize, ASize 1); (0%nat, RUpdate 5 [4], ADone);
     (2%nat, RSnapshot, ASnapshot (UniformSnapshot [5; 7])); (1%nat, RUpdate 9 [9223372036854775807; 4], ADone)] /\
  ur_values (rs_rsv (shared (rx_run 2 demo demo_sched))) = [7; 9] /\
  steps_taken (rx_init 2 demo) demo_sched = 35%nat.
Proof.
  split.
  - split; [lia|]. split; [|vm_compute; done].
    repeat (apply Forall_cons; split); try apply Forall_nil; try done.
    all: (split; [repeat (apply Forall_cons; split); try apply Forall_nil; try done; lia|]).
    + exists 4. split; [apply elem_of_list_here|lia].
    + exists 3. split; [apply elem_of_list_here|lia].
    + exists 4. split; [apply elem_of_list_further, elem_of_list_here|lia].
  - split; [|split]; vm_compute; reflexivity.
Qed.
(** In the middle of it goroutine 1 is about to store an element while the others wait. *)
Example C103_witness :
  (next_access <$> threads (rx_run 2 demo (take 11 demo_sched))) = [None; Some (VElem 0, true); None].
Proof. vm_compute. reflexivity. Qed.
