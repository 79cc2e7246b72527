(** Vocabulary for a compass with all its objects (Model/CompassFine.v). *)
From Verif.Go Require Import GoInt GoFloat GoConc GoCompose.
From Verif.Model Require Import BucketQueue BucketCounter BucketCounterConc BucketReservoir EWMA EWMAConc WeightedSnapshot DecayingReservoir DecayingConc UniformReservoir ReservoirConc Compass CompassConc CompassFine.
From Verif.Spec Require Import BucketSpec DecayingSpec DecayingConcSpec ReservoirConcSpec CompassConcSpec.
From Coq Require Import Reals.
Local Open Scope Z_scope.

Notation fine := (config (gshared cp_shared cenv ckey cobj) (gthread kthread cin ckey cop)).

(** The counter, the moving average, the reservoir called [k]. *)
Definition counter_at (c : fine) (k : ckey) : option bucket_counter :=
  match gs_objs (shared c) !! k with Some (OCounter s) => Some (bs_bc s) | _ => None end.
Definition average_at (c : fine) (k : ckey) : option ewma_shared :=
  match gs_objs (shared c) !! k with Some (OAverage s) => Some s | _ => None end.
Definition reservoir_at (c : fine) (k : ckey) : option dx_shared :=
  match gs_objs (shared c) !! k with Some (OReservoir s) => Some s | _ => None end.

Definition uniform_at (c : fine) (k : ckey) : option rx_shared :=
  match gs_objs (shared c) !! k with Some (OUniform s) => Some s | _ => None end.

(** The compass's own variables. *)
Definition compass_of (c : fine) : cp_shared := gs_client (shared c).

(** The goroutine has returned from all its calls. *)
Definition returned_all (t : gthread kthread cin ckey cop) : Prop :=
  kt_todo (gt_client t) = [] /\ kt_pc (gt_client t) = PIdle /\ gt_in t = None.
(** The calls that panicked. *)
Definition fine_panics (c : fine) : list (which * result) := mjoin ((fun t => kt_panics (gt_client t)) <$> threads c).

(** What the clock showed, in milliseconds, during a schedule. *)
Definition ms_of (sched : list (event cenv)) : list Z :=
  omap (fun ev => match ev with Env e => Some (ce_ms e) | Run _ => None end) sched.

(** What the environment shows at creation and during a schedule. *)
Definition shows (e0 : cenv) (sched : list (event cenv)) (e : cenv) : Prop := e = e0 \/ Env e ∈ sched.
(** The milliseconds never go back and stay in the next hundred million years. *)
Fixpoint ms_ok (last : Z) (l : list Z) : Prop :=
  match l with [] => True | ms :: l => last <= ms < 2 ^ 62 /\ ms_ok ms l end.
(** The setting of a decaying reservoir: math.Exp, capacity, decay rate, clock, random
    numbers in (0,1), fewer than 2^63 updates. *)
Definition decaying_setting (math_Exp : f64 -> f64) (size : Z) (alpha : f64) (e0 : cenv) (progs : list (list kcall)) (sched : list (event cenv)) : Prop :=
  exp_ok math_Exp /\ 1 <= size < 2 ^ 63 /\ decay_ok alpha /\ 0 <= ce_ms e0 < 2 ^ 62 /\ ms_ok (ce_ms e0) (ms_of sched) /\
  (forall e, shows e0 sched e -> random_ok (ce_random e) /\ (0 < RF (ce_random e))%R) /\
  Z.of_nat (length (planned durations progs)) < 2 ^ 63.
(** The setting of a uniform reservoir: its capacity, a source that yields 63-bit numbers
    and sooner or later one that is accepted, fewer than 2^63 updates. *)
Definition uniform_setting (cap : Z) (e0 : cenv) (progs : list (list kcall)) (sched : list (event cenv)) : Prop :=
  0 <= cap < 2 ^ 63 /\
  (forall e, shows e0 sched e -> Forall (fun r => 0 <= r < 2 ^ 63) (ce_draws e) /\ exists r, r ∈ ce_draws e /\ r < 2 ^ 62) /\
  Z.of_nat (length (planned durations progs)) < 2 ^ 63.
(** The bucket reservoir needs nothing. *)
Definition reservoir_setting (math_Exp : f64 -> f64) (rk : reservoir_kind) (e0 : cenv) (progs : list (list kcall)) (sched : list (event cenv)) : Prop :=
  match rk with RDecaying size alpha => decaying_setting math_Exp size alpha e0 progs sched | RBucket => True | RUniform cap => uniform_setting cap e0 progs sched end.
(** The setting of the counters: an interval of at least a second. *)
Definition counter_setting (I N : Z) : Prop := Second <= I /\ in64 I /\ 0 <= N.
(** The counter of a code (addon). *)
Definition key_counter (c : fine) (w : which) (key : string) : option bucket_counter :=
  match tb_map (counters w (compass_of c)) !! key with Some p => counter_at c (KCounter w p) | None => None end.
(** The compass without its objects: its own variables, and where the goroutines are. *)
Definition compass_alone (c : fine) : config cp_shared kthread := Config (compass_of c) (gt_client <$> threads c).
(** The clock shows only times of the interval [k], at creation and later. *)
Definition within_interval (I k : Z) (e0 : cenv) (sched : list (event cenv)) : Prop :=
  Forall (fun ms => in64 ms /\ 0 <= ms /\ bucket_key (interval_seconds I) ms = k) (ce_ms e0 :: ms_of sched).
(** Every snapshot of the bucket reservoir (and there is one) has the number of updates as
    its count and the sum of their durations as its value. *)
Definition snapshot_total (I : Z) (progs : list (list kcall)) (values total : bucket_counter) (now1 now2 now3 : Z) : Prop :=
  (exists s, br_GetSnapshot (BucketReservoir values I) total now1 now2 now3 s) /\
  forall s, br_GetSnapshot (BucketReservoir values I) total now1 now2 now3 s ->
    bs_count s = wrap64 (Z.of_nat (length (planned durations progs))) /\ bs_value s = wrap64 (sumZ (planned durations progs)).
