(** Vocabulary for the compass. *)
From Verif.Go Require Import GoInt GoFloat.
From Verif.Model Require Import Counter BucketQueue BucketCounter EWMA Compass.
From Verif.Spec Require Import BucketSpec.
Local Open Scope Z_scope.

Section hist.
Context {RR : Type}.

(** The update calls (Update and UpdateWithError) of a history. *)
Definition updates (calls : list (cp_call RR)) : list (update RR) :=
  omap (fun c => match c with CpUpdate u => Some u | CpUpdateWithError u _ => Some u | _ => None end) calls.
(** The outcomes of the UpdateWithError calls. *)
Definition outcomes (calls : list (cp_call RR)) : list outcome :=
  omap (fun c => match c with CpUpdateWithError _ o => Some o | _ => None end) calls.
Definition successes (calls : list (cp_call RR)) : list outcome := filter (fun o => oc_success o = true) (outcomes calls).
Definition with_code (code : string) (calls : list (cp_call RR)) : list outcome := filter (fun o => oc_code o = code) (outcomes calls).
Definition with_addon (addon : string) (calls : list (cp_call RR)) : list outcome := filter (fun o => oc_addon o = addon) (outcomes calls).
(** The different non-empty error codes (addons). *)
Definition codes (calls : list (cp_call RR)) : gset string := list_to_set (oc_code <$> outcomes calls) ∖ {[""%string]}.
Definition addons (calls : list (cp_call RR)) : gset string := list_to_set (oc_addon <$> outcomes calls) ∖ {[""%string]}.

(** All clock readings in milliseconds are int64 values. *)
Definition outcome_in64 (o : outcome) : Prop :=
  in64 (oc_timeSuccess o) /\ in64 (oc_timeNewCode o) /\ in64 (oc_timeCode o) /\ in64 (oc_timeNewAddon o) /\ in64 (oc_timeAddon o).
Definition readings_in64 (calls : list (cp_call RR)) : Prop :=
  Forall (fun u => in64 (up_time u)) (updates calls) /\ Forall outcome_in64 (outcomes calls).

(** The different codes and addons do not exceed the configured numbers. *)
Definition fits_in (maxE maxA : Z) (calls : list (cp_call RR)) : Prop :=
  Z.of_nat (size (codes calls)) <= Z.max 0 maxE /\ Z.of_nat (size (addons calls)) <= Z.max 0 maxA.

(** In each UpdateWithError the success is counted in the interval (of [I] seconds)
    in which the call is counted. *)
Definition same_interval (I : Z) (calls : list (cp_call RR)) : Prop :=
  forall u o, CpUpdateWithError u o ∈ calls -> bucket_key I (oc_timeSuccess o) = bucket_key I (up_time u).

(** The ticks the calls read. *)
Definition ticks (calls : list (cp_call RR)) : list Z :=
  omap (fun c => match c with CpUpdate u => Some (up_tick u) | CpUpdateWithError u _ => Some (up_tick u) | CpRate t => Some t | CpSnapshot _ => None end) calls.

(** What the reservoir is asked: record a duration, or take a snapshot. *)
Inductive rsv_call := RUpdate (reads : RR) (duration : Z) | RSnapshot (reads : RR).
Definition rsv_calls (calls : list (cp_call RR)) : list rsv_call :=
  omap (fun c => match c with
    | CpUpdate u => Some (RUpdate (up_reads u) (up_duration u))
    | CpUpdateWithError u _ => Some (RUpdate (up_reads u) (up_duration u))
    | CpRate _ => None
    | CpSnapshot reads => Some (RSnapshot reads) end) calls.
End hist.
Arguments rsv_call : clear implicits.

(** A new compass, then the calls. *)
Definition cp_exec {R RR} (rsv_UpdateN : R -> RR -> Z -> res R) (rsv_GetSnapshot : R -> RR -> R)
    (r0 : R) (N I maxE maxA nowTotal now nowSuccess : Z) (calls : list (cp_call RR)) : res (compass R) :=
  cp ← NewCompass r0 N I maxE maxA nowTotal now nowSuccess; cp_run rsv_UpdateN rsv_GetSnapshot cp calls.

(** The reservoir by itself. *)
Definition rsv_step {R RR} (rsv_UpdateN : R -> RR -> Z -> res R) (rsv_GetSnapshot : R -> RR -> R) (r : R) (c : rsv_call RR) : res R :=
  match c with RUpdate reads d => rsv_UpdateN r reads d | RSnapshot reads => Ok (rsv_GetSnapshot r reads) end.
Definition rsv_run {R RR} (rsv_UpdateN : R -> RR -> Z -> res R) (rsv_GetSnapshot : R -> RR -> R) (r : R) (cs : list (rsv_call RR)) : res R :=
  run_ops (rsv_step rsv_UpdateN rsv_GetSnapshot) r cs.

(** The meter by itself: each call reads a tick, and is an update ([true]) or not. *)
Section meter.
  Context {E : Type} (TickN : E -> Z -> E) (bucketInterval : Z).
  Definition mt_step (m : meter E) (c : Z * bool) : res (meter E) :=
    m ← mt_tickIfNecessary TickN bucketInterval m c.1; Ok (if c.2 then mt_count m else m).
  Definition mt_run (m : meter E) (cs : list (Z * bool)) : res (meter E) := run_ops mt_step m cs.
End meter.
Definition meter_calls {RR} (calls : list (cp_call RR)) : list (Z * bool) :=
  omap (fun c => match c with CpUpdate u => Some (up_tick u, true) | CpUpdateWithError u _ => Some (up_tick u, true) | CpRate t => Some (t, false)
    | CpSnapshot _ => None end) calls.

(** A moving average that just remembers what TickN was called with. *)
Definition log_TickN (l : list Z) (count : Z) : list Z := l ++ [count].

(** The latest tick, not before [now]. *)
Definition latest (now : Z) (ts : list Z) : Z := fold_left Z.max ts now.
