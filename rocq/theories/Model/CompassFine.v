(** impl/default_compass.go together with the objects it is made of, every access of a
    shared variable a step: the compass itself (Model/CompassConc.v), its bucket counters
    (Model/BucketCounterConc.v), its three moving averages (Model/EWMAConc.v) and its
    exponentially decaying reservoir (Model/DecayingConc.v), uniform reservoir
    (Model/ReservoirConc.v) or bucket reservoir (whose UpdateN is an UpdateN of a bucket
    counter, impl/bucket_reservoir.go:38-40).  Where Model/CompassConc.v
    lets an Update of a counter, a TickN of an average or an UpdateN of the reservoir
    happen in one step and only keeps count of them, here the goroutine executes the steps
    of that method, interleaved with everybody else's.  (What Model/CompassConc.v keeps
    count of is a ghost here: the calls begun.)

    Simplifications, besides those of the five models: a counter for a new code or addon
    is created at the end of the map assignment (line 174) instead of just before it; the
    random number of the decaying reservoir's UpdateN is drawn when the method is called,
    and the numbers the uniform reservoir's source will yield are fixed then. *)
From Verif.Go Require Import GoInt GoFloat GoConc GoCompose.
From Verif.Model Require Import Counter BucketQueue BucketCounter BucketCounterConc EWMA EWMAConc WeightedSnapshot DecayingReservoir DecayingConc UniformReservoir ReservoirConc Compass CompassConc.
Local Open Scope Z_scope.

(** The objects of a compass (default_compass.go:33-52, 77): the total and success counters, the three
    averages, the decaying reservoir, the bucket reservoir's counter of values, the uniform
    reservoir, and the counter at address [p] of one of the maps. *)
Inductive ckey := KTotal | KSuccess | KOne | KFive | KFifteen | KReservoir | KValues | KUniform | KCounter (w : which) (p : nat).
Global Instance ckey_eq_dec : EqDecision ckey.
Proof. solve_decision. Defined.
Definition ckey_code (k : ckey) : nat * nat :=
  match k with
  | KTotal => (0, 0) | KSuccess => (0, 1) | KOne => (0, 2) | KFive => (0, 3) | KFifteen => (0, 4) | KReservoir => (0, 5) | KValues => (0, 6) | KUniform => (0, 7)
  | KCounter Codes p => (1, p) | KCounter Addons p => (2, p)
  end%nat.
Definition ckey_decode (c : nat * nat) : option ckey :=
  match c with
  | (0, 0) => Some KTotal | (0, 1) => Some KSuccess | (0, 2) => Some KOne | (0, 3) => Some KFive | (0, 4) => Some KFifteen | (0, 5) => Some KReservoir | (0, 6) => Some KValues | (0, 7) => Some KUniform
  | (1, p) => Some (KCounter Codes p) | (2, p) => Some (KCounter Addons p)
  | _ => None
  end%nat.
Global Instance ckey_countable : Countable ckey.
Proof. apply (inj_countable ckey_code ckey_decode). by intros [| | | | | | | |[] p]. Defined.

(** The calls: Update of a counter (UpdateN(1)), TickN of an average, UpdateN of the
    decaying reservoir with the random number it draws, UpdateN of the uniform reservoir
    with the numbers its source yields. *)
Inductive cop := CUpdate (n : Z) | CTickN (count : Z) | CRecord (value : Z) (random : f64) | CDraw (value : Z) (draws : list Z).
Inductive cobj := OCounter (s : bc_shared) | OAverage (s : ewma_shared) | OReservoir (s : dx_shared) | OUniform (s : rx_shared).
(** Where a goroutine is inside an object (of whichever kind it is). *)
Record cin := CIn { ci_bc : bthread; ci_ew : ethread; ci_dx : dxthread; ci_rx : rxthread }.
Definition cin_idle : cin := CIn (BThread [] BucketCounterConc.PIdle) (EThread [] EIdle []) (DxThread [] XIdle []) (RxThread 0 [] RIdle []).
(** The goroutine calls a method. *)
Definition cin_push (t : cin) (a : cop) : cin :=
  match a with
  | CUpdate n => CIn (BThread (bt_todo (ci_bc t) ++ [n]) (bt_pc (ci_bc t))) (ci_ew t) (ci_dx t) (ci_rx t)
  | CTickN c => CIn (ci_bc t) (EThread (et_todo (ci_ew t) ++ [ETickN c]) (et_pc (ci_ew t)) (et_got (ci_ew t))) (ci_dx t) (ci_rx t)
  | CRecord v r => CIn (ci_bc t) (ci_ew t) (DxThread (dx_todo (ci_dx t) ++ [DecayingConc.KUpdate v r]) (dx_pc (ci_dx t)) (dx_got (ci_dx t))) (ci_rx t)
  | CDraw v ds => CIn (ci_bc t) (ci_ew t) (ci_dx t) (RxThread (rx_id (ci_rx t)) (rx_todo (ci_rx t) ++ [RUpdate v ds]) (rx_pc (ci_rx t)) (rx_got (ci_rx t)))
  end.
Definition cin_returned (t : cin) : bool :=
  match t with
  | CIn (BThread [] BucketCounterConc.PIdle) (EThread [] EIdle []) (DxThread [] XIdle []) (RxThread 0 [] RIdle []) => true
  | _ => false
  end.

(** What the environment shows: clock.GetTick(), clock.GetTime(), the next random number, the
    numbers a new source would yield. *)
Record cenv := CEnv { ce_tick : Z; ce_ms : Z; ce_random : f64; ce_draws : list Z }.

Definition cobj_step (math_Exp : f64 -> f64) (o : cobj) (t : cin) : option (cobj * cin) :=
  match o with
  | OCounter s => match bc_tstep s (ci_bc t) with Some (s', b) => Some (OCounter s', CIn b (ci_ew t) (ci_dx t) (ci_rx t)) | None => None end
  | OAverage s => match ewma_tstep s (ci_ew t) with Some (s', e) => Some (OAverage s', CIn (ci_bc t) e (ci_dx t) (ci_rx t)) | None => None end
  | OReservoir s => match dx_tstep math_Exp s (ci_dx t) with Some (s', d) => Some (OReservoir s', CIn (ci_bc t) (ci_ew t) d (ci_rx t)) | None => None end
  | OUniform s => (* UpdateN returns nothing, so nothing of it is kept *)
      match rx_tstep s (ci_rx t) with Some (s', r) => Some (OUniform s', CIn (ci_bc t) (ci_ew t) (ci_dx t) (RxThread (rx_id r) (rx_todo r) (rx_pc r) [])) | None => None end
  end.
Definition cobj_estep (o : cobj) (e : cenv) : cobj :=
  match o with
  | OCounter s => OCounter (bc_estep s (ce_ms e))
  | OAverage s => OAverage s
  | OReservoir s => OReservoir (dx_estep s (ce_ms e, ce_tick e))
  | OUniform s => OUniform s
  end.

(** default_compass.go:219-228: the reservoir of the compass. *)
Inductive reservoir_kind := RDecaying (size : Z) (alpha : f64) | RBucket | RUniform (cap : Z).
Definition reservoir_key (rk : reservoir_kind) : ckey := match rk with RDecaying _ _ => KReservoir | RBucket => KValues | RUniform _ => KUniform end.
Definition reservoir_op (rk : reservoir_kind) (d : Z) (random : f64) (draws : list Z) : cop :=
  match rk with RDecaying _ _ => CRecord d random | RBucket => CUpdate d | RUniform _ => CDraw d draws end.

Section compass.
  Context (math_Exp : f64 -> f64) (rk : reservoir_kind). (* the reservoir *)
  Context (I N maxE maxA : Z). (* bucketInterval, numberOfBucket, maxErrorCodeCount, maxAddonCount *)

  (** default_bucket_counter.go:155-169 *)
  Definition new_counter (ms : Z) : option cobj :=
    match newBucketCounterImpl I N ms true with Ok c => Some (OCounter (BcShared c (wrap64 ms))) | Panic => None end.

  (** The calls of the compass. *)
  Definition cf_effect (s : cp_shared) (t : kthread) (e : cenv) : option (effect ckey cop cobj) :=
    match kt_pc t with
    | PM1 _ count _ => Some (Invoke KOne (CTickN count))           (* line 205 *)
    | PM5 _ count _ => Some (Invoke KFive (CTickN count))          (* line 206 *)
    | PM15 _ count _ => Some (Invoke KFifteen (CTickN count))      (* line 207 *)
    | PTotal _ _ => Some (Invoke KTotal (CUpdate 1))               (* line 182 *)
    | PReservoir d _ => Some (Invoke (reservoir_key rk) (reservoir_op rk d (ce_random e) (ce_draws e))) (* line 183 *)
    | PSuccess r => Some (if rs_success r then Invoke KSuccess (CUpdate 1) else Silent) (* lines 150-152 *)
    | PAssigning w _ =>                                            (* lines 173-174 *)
        match new_counter (ce_ms e) with Some o => Some (Create (KCounter w (length (tb_heap (tb_of w s)))) o) | None => None end
    | PCount w (Some p) _ => Some (Invoke (KCounter w p) (CUpdate 1)) (* lines 159, 166 *)
    | _ => Some Silent
    end.

  (** default_compass.go:213-266 *)
  Definition cf_objs0 (e : cenv) : option (gmap ckey cobj) :=
    match new_counter (ce_ms e) with
    | Some counter => Some (list_to_map [(KTotal, counter); (KSuccess, counter);
        (KOne, OAverage (EwmaShared zeroEWMA false [])); (KFive, OAverage (EwmaShared zeroEWMA false [])); (KFifteen, OAverage (EwmaShared zeroEWMA false []));
        (reservoir_key rk, match rk with
                           | RDecaying size alpha => OReservoir (DxShared (NewEDR size alpha (ce_ms e) (ce_tick e)) false 0 (ce_ms e) (ce_tick e) [])
                           | RBucket => counter
                           | RUniform cap => OUniform (RxShared (UniformReservoir 0 (replicate (Z.to_nat cap) 0)) false 0 [])
                           end)])
    | None => None
    end.

  Definition cf_estep (s : cp_shared) (e : cenv) : cp_shared := cp_estep s (ce_tick e).

  (** A new compass created when the environment shows [e0], used by goroutines with the
      programs [progs] under the schedule [sched]; [None]: the constructor panics.
      (startTime and lastTick are clock.GetTime(), lines 247, 256-257.) *)
  Definition cf_run (e0 : cenv) (progs : list (list kcall)) (sched : list (event cenv))
    : option (config (gshared cp_shared cenv ckey cobj) (gthread kthread cin ckey cop)) :=
    match cf_objs0 e0 with
    | Some objs0 =>
        let c0 := cp_cinit (ce_ms e0) (ce_tick e0) progs in
        Some (grun (cp_tstep I maxE maxA) cf_estep cs_crashed cf_effect (cobj_step math_Exp) cobj_estep cin_idle cin_push cin_returned
                (shared c0) objs0 e0 (threads c0) sched)
    | None => None
    end.
End compass.
