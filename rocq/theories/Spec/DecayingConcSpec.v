(** Vocabulary for the decaying reservoir under concurrency. *)
From Verif.Go Require Import GoInt GoFloat GoConc.
From Verif.Model Require Import WeightedSnapshot DecayingReservoir DecayingConc.
From Verif.Spec Require Import DecayingSpec.
From Coq Require Import Reals.
Local Open Scope Z_scope.

(** The milliseconds never go back and stay in the next hundred million years (the ticks
    are arbitrary). *)
Fixpoint clock_ok (last : Z) (sched : list (event (Z * Z))) : Prop :=
  match sched with
  | [] => True
  | Run _ :: sched => clock_ok last sched
  | Env (ms, _) :: sched => last <= ms < 2 ^ 62 /\ clock_ok ms sched
  end.

(** Random numbers in (0,1).  (rand.Float64 gives 0 with probability 2^-53; with a weight
    that has underflowed to 0 the priority would be NaN.) *)
Definition call_ok (k : dx_call) : Prop :=
  match k with KUpdate _ r => random_ok r /\ (0 < RF r)%R | KSnapshot => True end.

(** The value a call records. *)
Definition call_value (k : dx_call) : list Z := match k with KUpdate v _ => [v] | KSnapshot => [] end.

(** The values a goroutine still has to record. *)
Definition to_record (t : dxthread) : list Z :=
  match dx_pc t with
  | XTick k | XCmp k _ | XNext k _ | XCas k _ _ | XLock k | XClock k | XStart k _ _ | XScale k _ => call_value k
  | XMs v _ | XLand v _ _ | XULock v _ _ _ | XInsert v _ _ _ => [v]
  | XIdle | XRLock | XRead | XPanic => []
  end ++ mjoin (call_value <$> dx_todo t).

(** The goroutine has returned from all its calls. *)
Definition dx_finished (t : dxthread) : Prop := dx_todo t = [] /\ dx_pc t = XIdle.

(** [c] holds what is in the reservoir after the critical sections [es], one after the
    other, of a fresh reservoir. *)
Definition holds_after (size : Z) (alpha : f64) (ms0 tick0 : Z) (es : list ed_event) (c : edr) : Prop :=
  exists r, ed_events (NewEDR size alpha ms0 tick0) es = Ok r /\
    ed_values c = ed_values r /\ ed_count c = ed_count r /\ ed_size c = size.

(** The landmark from which the goroutine has computed its weight, if it is about to use
    the weight, is still the reservoir's. *)
Definition landmark_current (c : config dx_shared dxthread) : Prop :=
  forall i t, threads c !! i = Some t ->
    match dx_pc t with
    | XULock _ _ _ land | XInsert _ _ _ land => land = ed_startTime (ds_rsv (shared c))
    | _ => True
    end.

(** Recording and rescaling, one after the other, with the landmark of that moment. *)
Inductive dec_action := ARescale (ms : Z) | ARecord (ms : Z) (random : f64) (value : Z).
Definition dec_act (math_Exp : f64 -> f64) (rsv : edr) (a : dec_action) : res edr :=
  match a with
  | ARescale ms => Ok (ed_rescale_locked math_Exp rsv ms)
  | ARecord ms r v => let w := ed_itemWeight math_Exp rsv ms in ed_insert rsv (ed_priority w r) v w
  end.
Fixpoint dec_acts (math_Exp : f64 -> f64) (rsv : edr) (acts : list dec_action) : res edr :=
  match acts with
  | [] => Ok rsv
  | a :: acts => rsv' ← dec_act math_Exp rsv a; dec_acts math_Exp rsv' acts
  end.
Definition action_ms (a : dec_action) : Z := match a with ARecord ms _ _ => ms | ARescale ms => ms end.
Definition action_update (a : dec_action) : list dx_call := match a with ARecord _ r v => [KUpdate v r] | ARescale _ => [] end.
Definition rescale_times (acts : list dec_action) : list Z :=
  omap (fun a => match a with ARescale ms => Some ms | ARecord _ _ _ => None end) acts.

(** The reservoir [c] is what the [updates] lead to when they are made one at a time, at
    milliseconds the clock has [shown], with rescales in between, at milliseconds the
    clock has shown, in ascending order. *)
Definition one_at_a_time (math_Exp : f64 -> f64) (size : Z) (alpha : f64) (ms0 tick0 : Z) (shown : list Z)
  (updates : list dx_call) (c : edr) : Prop :=
  exists acts r, dec_acts math_Exp (NewEDR size alpha ms0 tick0) acts = Ok r /\
    Forall (fun a => action_ms a ∈ shown) acts /\ StronglySorted Z.le (rescale_times acts) /\
    mjoin (action_update <$> acts) ≡ₚ updates /\
    ed_values c = ed_values r /\ ed_count c = ed_count r /\ ed_startTime c = ed_startTime r.

(** The update calls among [calls], and those a goroutine still has to record. *)
Definition call_update (k : dx_call) : list dx_call := match k with KUpdate _ _ => [k] | KSnapshot => [] end.
Definition updates_of (calls : list dx_call) : list dx_call := mjoin (call_update <$> calls).
Definition updates_left (t : dxthread) : list dx_call :=
  match dx_pc t with
  | XTick k | XCmp k _ | XNext k _ | XCas k _ _ | XLock k | XClock k | XStart k _ _ | XScale k _ => call_update k
  | XMs v r | XLand v r _ | XULock v r _ _ | XInsert v r _ _ => [KUpdate v r]
  | XIdle | XRLock | XRead | XPanic => []
  end ++ updates_of (dx_todo t).

(** The milliseconds shown. *)
Definition ms_shown (ms0 : Z) (sched : list (event (Z * Z))) : list Z :=
  ms0 :: omap (fun ev => match ev with Run _ => None | Env (ms, _) => Some ms end) sched.
Definition ticks_shown (tick0 : Z) (sched : list (event (Z * Z))) : list Z :=
  tick0 :: omap (fun ev => match ev with Run _ => None | Env (_, tick) => Some tick end) sched.

(** How often the samples have been rescaled. *)
Definition rescales (s : dx_shared) : nat :=
  length (omap (fun e => match e with Rescale f => Some f | _ => None end) (ds_log s)).

(** Whoever is about to start a rescale has seen, in both loads, that it is due. *)
Definition due_when_claimed (c : config dx_shared dxthread) : Prop :=
  forall i t, threads c !! i = Some t -> match dx_pc t with XCas _ now next => next <= now | _ => True end.

(** The setting: capacity, decay rate, clock, random numbers, fewer than 2^63 values. *)
Definition conc_ok (math_Exp : f64 -> f64) (size : Z) (alpha : f64) (ms0 : Z) (progs : list (list dx_call))
  (sched : list (event (Z * Z))) : Prop :=
  exp_ok math_Exp /\ 1 <= size < 2 ^ 63 /\ decay_ok alpha /\ 0 <= ms0 < 2 ^ 62 /\ clock_ok ms0 sched /\
  Forall (Forall call_ok) progs /\ Z.of_nat (length (mjoin (call_value <$> mjoin progs))) < 2 ^ 63.

(** Ticks within 146 years of 0 (nanoseconds in an int64). *)
Definition tick_ok (t : Z) : Prop := - 2 ^ 62 <= t < 2 ^ 62.
