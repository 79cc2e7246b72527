(** C95-C97: reading a bucket counter while it is being updated.

    [mx_crun interval N now0 upd progs sched] creates the counter, starts one goroutine per
    element of [progs] (UpdateN calls, or GetBucketCountsSince calls) and runs the arbitrary
    schedule [sched], one memory access per [Run i]; [Env t] sets the clock to [t].
    Vocabulary: Spec/BucketReadSpec.v. *)
From Verif.Go Require Import GoInt GoConc.
From Verif.Model Require Import Counter BucketQueue BucketCounter BucketCounterConc BucketReadConc.
From Verif.Spec Require Import BucketSpec BucketConcSpec BucketReadSpec.
From Verif.Proofs Require Import BucketReadProofs BucketReadMain BucketReadSum BucketReadDom.
Local Open Scope Z_scope.

(** C95: a goroutine that reads never panics and never waits: after 3 N + 9 steps per call
    it has finished, whatever the others and the clock do. *)
Theorem C95_reads_wait_free : forall interval N now0 upd progs sched i starts,
  Second <= interval -> in64 interval -> 0 <= N -> progs !! i = Some (PRead starts) ->
  exists c t, mx_crun interval N now0 upd progs sched = Ok c /\ threads c !! i = Some (MRead t) /\
    ((rd_todo t = [] /\ rd_pc t = RIdle) \/ Z.of_nat (runs i sched) < (3 * N + 9) * Z.of_nat (length starts)).
Proof. exact reads_wait_free. Qed.
Print Assumptions C95_reads_wait_free.

(** C95: readers do not disturb updates. *)
Theorem C95_reads_change_nothing : forall s t s' t', mx_tstep s (MRead t) = Some (s', t') -> s' = s.
Proof. intros s t s' t'. cbn. destruct (rd_step s t); [|done]. by intros [= -> _]. Qed.
Print Assumptions C95_reads_change_nothing.

(** C96: there is an order [L] in which amounts are added to intervals (every amount exactly
    once, every interval one the clock showed) such that a call of GetBucketCountsSince(st)
    that takes place between [c1] and [c2] returns at most N intervals, none before [st] or
    after the interval of a clock value shown during the call, and for each of them exactly
    the sum of what had been added to it at some moment of the call.
    (The key -1000 stands for amounts recorded before any interval was opened.) *)
Theorem C96_read_content : forall interval N now0 upd progs (Isec := interval_seconds interval),
  Second <= interval -> in64 interval -> 0 <= N ->
  exists L : list (event Z) -> list (Z * Z),
    (forall s s', L s `prefix_of` L (s ++ s')) /\
    (forall s, exists c, mx_crun interval N now0 upd progs s = Ok c /\ accounts progs c (L s) /\
      forall k n, (k, n) ∈ L s -> k = -1000 \/ exists now, now ∈ clock_values now0 s /\ k = trunc_key Isec now) /\
    (forall s1 s2 c1 c2 i st todo got m,
      mx_crun interval N now0 upd progs s1 = Ok c1 ->
      mx_crun interval N now0 upd progs (s1 ++ s2) = Ok c2 ->
      threads c1 !! i = Some (MRead (RdThread (st :: todo) RIdle got)) ->
      threads c2 !! i = Some (MRead (RdThread todo RIdle (got ++ [m]))) ->
      -1000 < st ->
      (size m <= Z.to_nat N)%nat /\
      exists now, now ∈ clock_values (bs_clock (shared c1)) s2 /\
      forall k v, m !! k = Some v ->
        st <= k <= trunc_key Isec now /\
        (exists now', now' ∈ clock_values now0 (s1 ++ s2) /\ k = trunc_key Isec now') /\
        exists s', s' `prefix_of` s2 /\ v = wrap64 (sum_at k (L (s1 ++ s')))).
Proof. exact reads_content. Qed.
Print Assumptions C96_read_content.

(** C97 is violated: one updating goroutine has recorded 1 in each of the seconds 1 to 4 of
    a counter that keeps 3 and is entering second 5 into the ring: it has moved [current]
    but not yet stored the bucket.  A complete GetBucketCountsSince(0) at that moment
    reports the seconds 1 and 4: second 3, which is among the newest three before, during
    and after, is missing, and the long expired second 1 is back. *)
Notation steps i n := (replicate n (Run (E:=Z) i%nat)).
Definition upto_five : list (event Z) :=
  [Env 1000] ++ steps 0 10 ++ [Env 2000] ++ steps 0 10 ++ [Env 3000] ++ steps 0 10 ++ [Env 4000] ++ steps 0 10 ++
  [Env 5000] ++ steps 0 7.
Definition five_seconds : list mprog := [PUpd [1; 1; 1; 1; 1]; PRead [0]].
Definition shown (c : config bc_shared mthread) (now : Z) : res (list (Z * Z)) :=
  m ← bc_GetBucketCounts (bs_bc (shared c)) now; Ok (map_to_list m).

Theorem C97_read_complete_refuted : exists c0 c1 c2 c3 m,
  mx_crun Second 3 0 true five_seconds (take 44 upto_five) = Ok c0 /\
  shown c0 4000 = Ok [(4000, 1); (2000, 1); (3000, 1)] /\
  mx_crun Second 3 0 true five_seconds upto_five = Ok c1 /\
  threads c1 !! 1%nat = Some (MRead (RdThread [0] RIdle [])) /\
  mx_crun Second 3 0 true five_seconds (upto_five ++ steps 1 18) = Ok c2 /\
  threads c2 !! 1%nat = Some (MRead (RdThread [] RIdle [m])) /\
  map_to_list m = [(4000, 1); (1000, 1)] /\
  mx_crun Second 3 0 true five_seconds (upto_five ++ steps 1 18 ++ steps 0 3) = Ok c3 /\
  shown c3 5000 = Ok [(4000, 1); (5000, 1); (3000, 1)].
Proof.
  do 5 eexists. split; [vm_compute; reflexivity|]. split; [vm_compute; reflexivity|]. split; [vm_compute; reflexivity|].
  split; [vm_compute; reflexivity|]. split; [vm_compute; reflexivity|]. split; [vm_compute; reflexivity|].
  split; [vm_compute; reflexivity|]. split; [vm_compute; reflexivity|]. vm_compute; reflexivity.
Qed.
Print Assumptions C97_read_complete_refuted.

(** C97 for a call during which no interval is entered into the ring: it reports the same
    intervals as a read with nobody else running, at a clock value shown during the call,
    and if nobody adds anything during the call, also the same sums (C04, C05 and C15 say
    which intervals and sums these are).  Missing: calls that overlap the entering of an
    interval, see the refutation. *)
Theorem C97_read_complete_partial : forall interval N now0 upd progs s1 s2 c1 c2 i st todo got m,
  Second <= interval -> in64 interval -> 0 <= N ->
  mx_crun interval N now0 upd progs s1 = Ok c1 ->
  mx_crun interval N now0 upd progs (s1 ++ s2) = Ok c2 ->
  threads c1 !! i = Some (MRead (RdThread (st :: todo) RIdle got)) ->
  threads c2 !! i = Some (MRead (RdThread todo RIdle (got ++ [m]))) ->
  ring_untouched c1 s2 ->
  exists now m', now ∈ clock_values (bs_clock (shared c1)) s2 /\
    bc_GetBucketCountsSince (bs_bc (shared c1)) now st = Ok m' /\ dom m = dom m' /\
    (amounts_untouched c1 s2 -> m = m').
Proof. exact reads_untouched. Qed.
Print Assumptions C97_read_complete_partial.

(** A case for C95-C97: the reader starts in second 2, the other goroutine adds 5 to that
    second while the reader is walking the ring, and the clock goes on to second 3. *)
Definition during : list (event Z) := steps 1 9 ++ steps 0 3 ++ [Env 3000] ++ steps 0 2 ++ steps 1 30.
Definition before_read : list (event Z) := [Env 1000] ++ steps 0 10 ++ [Env 2000] ++ steps 0 12.
Example C96_case :
  (c1 ← mx_crun Second 3 0 true [PUpd [1; 2; 5; 7]; PRead [0]] before_read;
   c2 ← mx_crun Second 3 0 true [PUpd [1; 2; 5; 7]; PRead [0]] (before_read ++ during);
   Ok (threads c1 !! 1%nat,
       match threads c2 !! 1%nat with
       | Some (MRead t) => Some (rd_todo t, map_to_list <$> rd_got t)
       | _ => None
       end)) =
  Ok (Some (MRead (RdThread [0] RIdle [])), Some ([], [[(2000, 7); (1000, 1)]])).
Proof. vm_compute. reflexivity. Qed.

(** In that case the ring is untouched, so C97_read_complete_partial applies. *)
Example C97_case : exists c1, mx_crun Second 3 0 true [PUpd [1; 2; 5; 7]; PRead [0]] before_read = Ok c1 /\
  ring_untouched c1 during.
Proof.
  eexists. split; [vm_compute; reflexivity|].
  match goal with |- ring_untouched ?c _ => set (c0 := c) end.
  assert (HF : (fun n => bc_buckets (bs_bc (shared (crun mx_tstep bc_estep c0 (take n during))))) <$> seq 0 (S (length during)) =
               replicate (S (length during)) (bc_buckets (bs_bc (shared c0)))) by (vm_compute; reflexivity).
  intros s1 s2 E. assert (Hl : (length s1 < S (length during))%nat) by (rewrite E, app_length; lia).
  apply (f_equal (fun l => l !! length s1)) in HF. rewrite lookup_replicate_2 in HF by done.
  rewrite list_lookup_fmap, lookup_seq_lt in HF by done. cbn [fmap option_fmap option_map Nat.add] in HF.
  rewrite E, take_app in HF. by injection HF.
Qed.
