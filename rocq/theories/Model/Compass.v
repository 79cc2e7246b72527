(** impl/default_compass.go, as executed by one goroutine at a time.  (The moving
    averages under concurrent callers are in Model/CompassConc.v.)

    The reservoir is an interface (reservoir.go): [R] are its states, [RR] whatever a
    call reads from the outside (clock, random numbers), and [rsv_UpdateN] and
    [rsv_GetSnapshot] what the calls do to it.  The clock is not stored: every call carries
    the readings it sees. *)
From Verif.Go Require Import GoInt GoFloat.
From Verif.Model Require Import Counter BucketQueue BucketCounter EWMA.
Local Open Scope Z_scope.

(** impl/default_compass.go:30 *)
Definition tickInterval : Z := 5 * Second.

(** The fields of impl/default_compass.go:45-59 that tickIfNecessary uses.  The three
    moving averages are of some type [E] with an operation TickN; the compass has
    [E] = EWMA. *)
Record meter (E : Type) := Meter { mt_m1Rate : E; mt_m5Rate : E; mt_m15Rate : E; mt_lastTick : Z; mt_uncounted : Z }.
Arguments Meter {E} _ _ _ _ _.
Arguments mt_m1Rate {E} _.
Arguments mt_m5Rate {E} _.
Arguments mt_m15Rate {E} _.
Arguments mt_lastTick {E} _.
Arguments mt_uncounted {E} _.

Section meter.
  Context {E : Type} (TickN : E -> Z -> E).

  (** impl/default_compass.go:199-208: one round of the loop.  With one goroutine the
      compare-and-swap succeeds at once. *)
  Definition mt_round (m : meter E) : meter E :=
    let count := mt_uncounted m in
    Meter (TickN (mt_m1Rate m) count) (TickN (mt_m5Rate m) count) (TickN (mt_m15Rate m) count) (mt_lastTick m) 0.

  (** impl/default_compass.go:190-211 [tickIfNecessary]; [newTick] is the reading of
      clock.GetTick(). *)
  Definition mt_tickIfNecessary (bucketInterval : Z) (m : meter E) (newTick : Z) : res (meter E) :=
    let age := wrap64 (newTick - mt_lastTick m) in
    if tickInterval <? age then
      r ← go_mod age bucketInterval;
      let newIntervalStartTick := wrap64 (newTick - r) in
      requiredTicks ← go_div age tickInterval;
      Ok (Nat.iter (Z.to_nat requiredTicks) mt_round
            (Meter (mt_m1Rate m) (mt_m5Rate m) (mt_m15Rate m) newIntervalStartTick (mt_uncounted m)))
    else Ok m.

  (** impl/default_compass.go:181 *)
  Definition mt_count (m : meter E) : meter E :=
    Meter (mt_m1Rate m) (mt_m5Rate m) (mt_m15Rate m) (mt_lastTick m) (wrap64 (mt_uncounted m + 1)).

  (** impl/default_compass.go:213-266: a new compass whose clock shows the time [now] *)
  Definition newMeter (zero : E) (now : Z) : meter E := Meter zero zero zero now 0.
End meter.

Section compass.
  Context {R RR : Type} (rsv_UpdateN : R -> RR -> Z -> res R) (rsv_GetSnapshot : R -> RR -> R).

  (** impl/default_compass.go:32-78 *)
  Record compass := DefaultCompass {
    cp_totalCount : bucket_counter;
    cp_successCount : bucket_counter;
    cp_errorCodes : gmap string bucket_counter;
    cp_addons : gmap string bucket_counter;
    cp_meter : meter ewma;
    cp_startTime : Z;
    cp_maxErrorCodeCount : Z;
    cp_maxAddonCount : Z;
    cp_bucketInterval : Z;
    cp_numberOfBucket : Z;
    cp_reservoir : R }.

  (** impl/default_compass.go:247-266 [NewCompass]; the three readings of
      clock.GetTime(): by the two bucket counters and for startTime. *)
  Definition NewCompass (reservoir : R) (numOfBucket bucketInterval maxErrorCodeCount maxAddonCount : Z)
      (nowTotal now nowSuccess : Z) : res compass :=
    totalCount ← newBucketCounterImpl bucketInterval numOfBucket nowTotal true;
    successCount ← newBucketCounterImpl bucketInterval numOfBucket nowSuccess true;
    Ok (DefaultCompass totalCount successCount ∅ ∅ (newMeter zeroEWMA now) now
          maxErrorCodeCount maxAddonCount bucketInterval numOfBucket reservoir).

  (** The readings of one call of Update. *)
  Record update := MkUpdate { up_tick : Z; up_time : Z; up_reads : RR; up_duration : Z }.

  (** impl/default_compass.go:179-184 [Update] *)
  Definition cp_Update (cp : compass) (u : update) : res compass :=
    m ← mt_tickIfNecessary ew_TickN (cp_bucketInterval cp) (cp_meter cp) (up_tick u);
    let m := mt_count m in
    total ← bc_UpdateN (cp_totalCount cp) (up_time u) 1;
    rsv ← rsv_UpdateN (cp_reservoir cp) (up_reads u) (up_duration u);
    Ok (DefaultCompass total (cp_successCount cp) (cp_errorCodes cp) (cp_addons cp) m (cp_startTime cp)
          (cp_maxErrorCodeCount cp) (cp_maxAddonCount cp) (cp_bucketInterval cp) (cp_numberOfBucket cp) rsv).

  (** impl/default_compass.go:170-177 [findOrNewCounter]; the result may be a nil
      counter.  [tnew]: the clock reading if a counter is created. *)
  Definition findOrNewCounter (bucketInterval numberOfBucket : Z) (counters : gmap string bucket_counter) (key : string) (maxCount tnew : Z)
      : res (gmap string bucket_counter * option bucket_counter) :=
    match counters !! key with
    | Some c => Ok (counters, Some c)
    | None =>
        if Z.of_nat (size counters) <? maxCount then
          c ← newBucketCounterImpl bucketInterval numberOfBucket tnew true;
          Ok (<[key := c]> counters, Some c)
        else Ok (counters, None)
    end.

  (** impl/default_compass.go:154-160 and 162-167: find the counter and update it.
      The map holds pointers, so the counter in the map is the one updated.  Calling
      Update on a nil interface panics. *)
  Definition cp_note (bucketInterval numberOfBucket : Z) (counters : gmap string bucket_counter) (key : string) (maxCount tnew t : Z)
      : res (gmap string bucket_counter) :=
    if (0 <? Z.of_nat (String.length key)) then
      found ← findOrNewCounter bucketInterval numberOfBucket counters key maxCount tnew;
      match snd found with
      | None => Panic
      | Some c => c' ← bc_UpdateN c t 1; Ok (<[key := c']> (fst found))
      end
    else Ok counters.

  (** What one call of UpdateWithError gets and reads beyond [update]. *)
  Record outcome := MkOutcome { oc_success : bool; oc_code : string; oc_addon : string;
    oc_timeSuccess : Z; oc_timeNewCode : Z; oc_timeCode : Z; oc_timeNewAddon : Z; oc_timeAddon : Z }.

  (** impl/default_compass.go:148-168 [UpdateWithError] *)
  Definition cp_UpdateWithError (cp : compass) (u : update) (o : outcome) : res compass :=
    cp ← cp_Update cp u;
    success ← (if oc_success o then bc_UpdateN (cp_successCount cp) (oc_timeSuccess o) 1 else Ok (cp_successCount cp));
    codes ← cp_note (cp_bucketInterval cp) (cp_numberOfBucket cp) (cp_errorCodes cp) (oc_code o) (cp_maxErrorCodeCount cp) (oc_timeNewCode o) (oc_timeCode o);
    addons ← cp_note (cp_bucketInterval cp) (cp_numberOfBucket cp) (cp_addons cp) (oc_addon o) (cp_maxAddonCount cp) (oc_timeNewAddon o) (oc_timeAddon o);
    Ok (DefaultCompass (cp_totalCount cp) success codes addons (cp_meter cp) (cp_startTime cp)
          (cp_maxErrorCodeCount cp) (cp_maxAddonCount cp) (cp_bucketInterval cp) (cp_numberOfBucket cp) (cp_reservoir cp)).

  (** impl/default_compass.go:84-92, 103-106: the three moving averages; the tick
      they read. *)
  Definition cp_tick (cp : compass) (tick : Z) : res compass :=
    m ← mt_tickIfNecessary ew_TickN (cp_bucketInterval cp) (cp_meter cp) tick;
    Ok (DefaultCompass (cp_totalCount cp) (cp_successCount cp) (cp_errorCodes cp) (cp_addons cp) m (cp_startTime cp)
          (cp_maxErrorCodeCount cp) (cp_maxAddonCount cp) (cp_bucketInterval cp) (cp_numberOfBucket cp) (cp_reservoir cp)).
  Definition cp_GetOneMinuteRate (cp : compass) (tick : Z) : res f64 :=
    cp ← cp_tick cp tick; Ok (ew_GetRate (mt_m1Rate (cp_meter cp)) Second).
  Definition cp_GetFiveMinuteRate (cp : compass) (tick : Z) : res f64 :=
    cp ← cp_tick cp tick; Ok (ew_GetRate (mt_m5Rate (cp_meter cp)) Second).
  Definition cp_GetFifteenMinuteRate (cp : compass) (tick : Z) : res f64 :=
    cp ← cp_tick cp tick; Ok (ew_GetRate (mt_m15Rate (cp_meter cp)) Second).

  (** impl/default_compass.go:128-130, 132-134, 136-138, 140-142, 144-146, 108-110, 80-82 *)
  Definition cp_GetSuccessCount (cp : compass) : Z := bc_GetCount (cp_successCount cp).
  Definition cp_GetInstantCount (cp : compass) (now : Z) : res (gmap Z Z) := bc_GetBucketCounts (cp_totalCount cp) now.
  Definition cp_GetInstantCountSince (cp : compass) (now start : Z) : res (gmap Z Z) := bc_GetBucketCountsSince (cp_totalCount cp) now start.
  Definition cp_LastUpdateTime (cp : compass) : res Z := bc_LastUpdateTime (cp_totalCount cp).
  Definition cp_GetCount (cp : compass) : Z := bc_GetCount (cp_totalCount cp).
  Definition cp_GetBucketSuccessCount (cp : compass) : bucket_counter := cp_successCount cp.
  Definition cp_GetInstantCountInterval (cp : compass) : Z := cp_bucketInterval cp.

  (** impl/default_compass.go:112-126: copies of the maps *)
  Definition cp_GetAddonCounts (cp : compass) : gmap string bucket_counter := cp_addons cp.
  Definition cp_GetErrorCodeCounts (cp : compass) : gmap string bucket_counter := cp_errorCodes cp.

  (** impl/default_compass.go:94-101 [GetMeanRate] *)
  Definition cp_GetMeanRate (cp : compass) (tick : Z) : f64 :=
    let count := cp_GetCount cp in
    let elapsed := wrap64 (tick - cp_startTime cp) in
    if (count =? 0) || (elapsed <=? 0) then f0
    else fmul (fdiv (f_of_int count) (f_of_int elapsed)) (f_of_int Second).

  (** impl/default_compass.go:186-188 [GetSnapshot]: its effect *)
  Definition cp_snapshot (cp : compass) (reads : RR) : compass :=
    DefaultCompass (cp_totalCount cp) (cp_successCount cp) (cp_errorCodes cp) (cp_addons cp) (cp_meter cp) (cp_startTime cp)
      (cp_maxErrorCodeCount cp) (cp_maxAddonCount cp) (cp_bucketInterval cp) (cp_numberOfBucket cp) (rsv_GetSnapshot (cp_reservoir cp) reads).

  (** A history: updates, reads of a moving average (any of the three) and snapshots.
      The other getters change nothing. *)
  Inductive cp_call := CpUpdate (u : update) | CpUpdateWithError (u : update) (o : outcome) | CpRate (tick : Z) | CpSnapshot (reads : RR).
  Definition cp_step (cp : compass) (c : cp_call) : res compass :=
    match c with
    | CpUpdate u => cp_Update cp u
    | CpUpdateWithError u o => cp_UpdateWithError cp u o
    | CpRate tick => cp_tick cp tick
    | CpSnapshot reads => Ok (cp_snapshot cp reads)
    end.
  Definition cp_run (cp : compass) (calls : list cp_call) : res compass := run_ops cp_step cp calls.
End compass.
Arguments compass : clear implicits.
Arguments update : clear implicits.
Arguments cp_call : clear implicits.
