(** Vocabulary for a compass that is read while it is updated (Model/CompassRead.v). *)
From Verif.Go Require Import GoInt GoFloat GoConc GoCompose.
From Verif.Model Require Import BucketQueue BucketCounter BucketCounterConc BucketReservoir EWMA EWMAConc Compass CompassConc CompassFine CompassRead.
From Verif.Spec Require Import BucketSpec CompassConcSpec CompassFineSpec.
Local Open Scope Z_scope.

Notation reading := (config (gshared cp_shared cenv ckey cobj) dthread).

(** The calls of a program that do not only read. *)
Definition writes (l : list dcall) : list kcall := omap (fun d => match d with DWrite call => Some call | DRead _ => None end) l.
(** What is left when the reading calls are taken out. *)
Definition without_reads (c : reading) : fine := Config (shared c) ((fun t => g_push (dt_g t) (writes (dt_todo t))) <$> threads c).

(** The calls of its program a goroutine has begun; the ones it has returned from (while it
    is in a call, that is the last one begun). *)
Definition begun_calls (prog : list dcall) (t : dthread) : list dcall := take (length prog - length (dt_todo t)) prog.
Definition idle_thread (t : dthread) : bool := match dt_read t with None => at_rest (dt_g t) | Some _ => false end.
Definition finished_calls (prog : list dcall) (t : dthread) : list dcall :=
  if idle_thread t then begun_calls prog t else take (pred (length (begun_calls prog t))) prog.
(** All goroutines together. *)
Definition begun (progs : list (list dcall)) (c : reading) : list kcall := writes (mjoin (zip_with begun_calls progs (threads c))).
Definition finished (progs : list (list dcall)) (c : reading) : list kcall := writes (mjoin (zip_with finished_calls progs (threads c))).

(** The amounts that calls add to a counter: 1 for every Update and UpdateWithError to the
    total counter, 1 for every successful UpdateWithError to the success counter, and the
    durations to the bucket reservoir's counter of values. *)
Definition amounts (k : ckey) (call : kcall) : list Z :=
  match k, call with
  | KTotal, KUpdate _ _ => [1]
  | KSuccess, KUpdate _ (Some r) => if rs_success r then [1] else []
  | KValues, KUpdate d _ => [d]
  | _, _ => []
  end.
Definition all_amounts (k : ckey) (calls : list kcall) : list Z := mjoin (amounts k <$> calls).
(** The counters a compass with the reservoir [rk] has from the start. *)
Definition main_counter (rk : reservoir_kind) (k : ckey) : Prop :=
  match k, rk with KTotal, _ | KSuccess, _ | KValues, RBucket => True | _, _ => False end.

(** The goroutine [i] makes the call [call] between [c1], where it is about to begin it, and
    [c2], where it has returned [a]. *)
Definition reads (c1 c2 : reading) (i : nat) (call : rcall) (a : answer) : Prop :=
  exists t1 t2 todo more, threads c1 !! i = Some t1 /\ threads c2 !! i = Some t2 /\
    idle_thread t1 = true /\ dt_todo t1 = DRead call :: todo /\ dt_got t2 = dt_got t1 ++ (call, a) :: more.

(** What the environment shows at the end of a schedule. *)
Definition showing (e0 : cenv) (sched : list (event cenv)) : cenv := default e0 (last (shown sched)).
(** The milliseconds the clock shows at some moment of a schedule that starts when it shows [now]. *)
Definition times (now : Z) (sched : list (event cenv)) : list Z := wrap64 now :: (wrap64 <$> ms_of sched).

(** How often a schedule lets the goroutine [i] run. *)
Definition turns (i : nat) (sched : list (event cenv)) : nat := length (omap (fun ev => match ev with Run j => if (j =? i)%nat then Some j else None | Env _ => None end) sched).
(** The reading calls of a compass with the reservoir [rk]. *)
Definition reading_call (rk : reservoir_kind) (call : rcall) : Prop :=
  match call with
  | RCount k | RSince k _ | RLast k => main_counter rk k
  | RMean => True
  | RRate k => k ∈ [KOne; KFive; KFifteen]
  | RSnapshot _ _ => rk = RBucket
  end.
(** How many steps such a call takes, the one that begins it included. *)
Definition cost (N : Z) (call : rcall) : Z :=
  match call with
  | RCount _ | RLast _ | RRate _ => 2
  | RMean => 3
  | RSince _ _ => 3 * N + 10
  | RSnapshot _ _ => 6 * N + 18
  end.

(** The goroutine [i] calls a method (Model/CompassRead.v: GetCount and so on) between [c1],
    where it is about to begin it, and [c2], where it has returned [a]. *)
Definition gives (c1 c2 : reading) (i : nat) (method : list dcall) (a : answer) : Prop :=
  exists t1 t2 todo call more, threads c1 !! i = Some t1 /\ threads c2 !! i = Some t2 /\
    idle_thread t1 = true /\ dt_todo t1 = method ++ todo /\ dt_got t2 = dt_got t1 ++ (call, a) :: more.
