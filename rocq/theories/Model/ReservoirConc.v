(** impl/uniform_reservoir.go used by any number of goroutines: one mutex operation or one
    access of [count] or of one element of [values] per step.  The sequential model of the
    same code is Model/UniformReservoir.v.

    Simplifications: len(values) never changes, so reading it is not a step.  The loop of
    nextRandomPos (lines 71-84) touches no shared memory (the source is local), so it
    runs together with the step before it; the numbers its source yields come with the
    call, and a goroutine whose numbers are all rejected stays in the loop.  The RWMutex
    grants the lock in any admissible order. *)
From Verif.Go Require Import GoInt GoConc.
From Verif.Model Require Import UniformSnapshot UniformReservoir.
Local Open Scope Z_scope.

(** The calls of a goroutine, and what they return. *)
Inductive rx_call := RUpdate (value : Z) (draws : list Z) | RSize | RSnapshot.
Inductive rx_answer := ADone | ASize (n : Z) | ASnapshot (s : uniform_snapshot).

(** Where a goroutine is, with its local variables. *)
Inductive rxpc :=
| RIdle
| RLock (v : Z) (ds : list Z)            (* line 56: waiting for the lock *)
| RLoad (v : Z) (ds : list Z)            (* line 59: about to load count *)
| RStore (v : Z) (ds : list Z) (old : Z) (* line 59: about to store count *)
| RCmp (v : Z) (ds : list Z)             (* line 61: about to load count *)
| RIndex (v : Z) (ds : list Z)           (* line 62: about to load count *)
| RRandom (v : Z) (ds : list Z)          (* line 64: about to load count, and the loop *)
| RPut (v : Z) (ds : list Z) (i : Z)     (* lines 62, 66: about to store values[i] *)
| RUnlock (v : Z) (ds : list Z)          (* line 57 *)
| RSizeLock                              (* line 46: waiting for the lock *)
| RSizeCmp                               (* line 49: about to load count *)
| RSizeLoad                              (* line 52: about to load count *)
| RSizeUnlock (n : Z)                    (* line 47 *)
| RSnapLock                              (* line 87: waiting for the lock *)
| RSnapCopy (copied : list Z)            (* uniform_snapshot.go:155: about to copy one more *)
| RSnapUnlock (copied : list Z)          (* line 88; uniform_snapshot.go:156-159 *)
| RPanic.

Record rxthread := RxThread { rx_id : nat; rx_todo : list rx_call; rx_pc : rxpc; rx_got : list rx_answer }.

(** [rs_log] is a ghost: who has returned from which call with what; no step reads it. *)
Record rx_shared := RxShared {
  rs_rsv : uniform_reservoir; rs_writer : bool; rs_readers : nat; rs_log : list (nat * rx_call * rx_answer) }.

(** One step; [None]: nothing to do, waiting for the lock, in the loop, or panicked. *)
Definition rx_tstep (s : rx_shared) (t : rxthread) : option (rx_shared * rxthread) :=
  let u := rs_rsv s in
  let count := ur_count u in
  let size := Z.of_nat (length (ur_values u)) in
  let goto s' pc := Some (s', RxThread (rx_id t) (rx_todo t) pc (rx_got t)) in
  let set_rsv u' := RxShared u' (rs_writer s) (rs_readers s) (rs_log s) in
  let set_lock w n := RxShared u w n (rs_log s) in
  let return_ w n k a :=
    Some (RxShared u w n (rs_log s ++ [(rx_id t, k, a)]), RxThread (rx_id t) (rx_todo t) RIdle (rx_got t ++ [a])) in
  match rx_pc t with
  | RIdle =>
      match rx_todo t with
      | [] => None
      | k :: todo => Some (s, RxThread (rx_id t) todo
          match k with RUpdate v ds => RLock v ds | RSize => RSizeLock | RSnapshot => RSnapLock end (rx_got t))
      end
  | RLock v ds => if rs_writer s || (0 <? rs_readers s)%nat then None else goto (set_lock true 0%nat) (RLoad v ds)
  | RLoad v ds => goto s (RStore v ds count)
  | RStore v ds old => goto (set_rsv (UniformReservoir (wrap64 (old + 1)) (ur_values u))) (RCmp v ds)
  | RCmp v ds => goto s (if count <=? size then RIndex v ds else RRandom v ds)
  | RIndex v ds => goto s (RPut v ds (wrap64 (count - 1)))
  | RRandom v ds =>
      match nextRandomPos count ds with
      | Some i => goto s (if i <? size then RPut v ds i else RUnlock v ds)
      | None => None
      end
  | RPut v ds i =>
      match set_at (ur_values u) i v with
      | Ok values => goto (set_rsv (UniformReservoir count values)) (RUnlock v ds)
      | Panic => goto (set_lock false 0%nat) RPanic
      end
  | RUnlock v ds => return_ false 0%nat (RUpdate v ds) ADone
  | RSizeLock => if rs_writer s then None else goto (set_lock false (S (rs_readers s))) RSizeCmp
  | RSizeCmp => goto s (if size <? count then RSizeUnlock size else RSizeLoad)
  | RSizeLoad => goto s (RSizeUnlock count)
  | RSizeUnlock n => return_ (rs_writer s) (rs_readers s - 1)%nat RSize (ASize n)
  | RSnapLock => if rs_writer s then None else goto (set_lock false (S (rs_readers s))) (RSnapCopy [])
  | RSnapCopy copied =>
      match ur_values u !! length copied with
      | Some x => goto s (RSnapCopy (copied ++ [x]))
      | None => goto s (RSnapUnlock copied)
      end
  | RSnapUnlock copied =>
      return_ (rs_writer s) (rs_readers s - 1)%nat RSnapshot (ASnapshot (UniformSnapshot (sort_int64 copied)))
  | RPanic => None
  end.

(** There is no environment. *)
Definition rx_estep (s : rx_shared) (e : Empty_set) : rx_shared := s.

(** A fresh reservoir, with one goroutine per list of calls. *)
Definition rx_init (cap : Z) (progs : list (list rx_call)) : config rx_shared rxthread :=
  Config (RxShared (UniformReservoir 0 (replicate (Z.to_nat cap) 0)) false 0 [])
    (imap (fun i p => RxThread i p RIdle []) progs).
Definition rx_run (cap : Z) (progs : list (list rx_call)) (sched : list (event Empty_set)) : config rx_shared rxthread :=
  crun rx_tstep rx_estep (rx_init cap progs) sched.
