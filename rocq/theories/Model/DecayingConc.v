(** impl/exponentially_decaying_reservoir.go used by any number of goroutines, one access
    of a shared field (or one mutex operation, or one clock reading) per step.  The
    sequential model of the same code is Model/DecayingReservoir.v.

    Simplifications: what a critical section does to [values] and [count] is one step,
    together with the deferred unlocking (these fields are only touched under the mutex;
    [Size] alone reads [count] without it: it sees the value before or after).  [startTime]
    is written under the mutex but read without it by UpdateN, so it has steps of its own.
    The RWMutex grants the lock in any admissible order. *)
From Verif.Go Require Import GoInt GoFloat GoConc.
From Verif.Model Require Import WeightedSnapshot DecayingReservoir.
From Verif.Spec Require Import DecayingSpec.
From Flocq Require Import IEEE754.BinarySingleNaN.
Local Open Scope Z_scope.

(** The calls of a goroutine; the random number is the one rand.Float64 returns. *)
Inductive dx_call := KUpdate (value : Z) (random : f64) | KSnapshot.

(** Where a goroutine is, with its local variables ([k]: the call that rescales). *)
Inductive dxpc :=
| XIdle
| XTick (k : dx_call)                     (* line 132: about to read the clock's tick *)
| XCmp (k : dx_call) (now : Z)            (* line 133: about to load nextScaleTime *)
| XNext (k : dx_call) (now : Z)           (* line 134: about to load nextScaleTime again *)
| XCas (k : dx_call) (now next : Z)       (* line 158: about to CompareAndSwap *)
| XLock (k : dx_call)                     (* line 160: waiting for the lock *)
| XClock (k : dx_call)                    (* lines 162-163: about to load startTime and the clock *)
| XStart (k : dx_call) (old ms : Z)       (* line 163: about to store startTime *)
| XScale (k : dx_call) (f : f64)          (* lines 167-180, 161 *)
| XMs (v : Z) (r : f64)                   (* line 79: about to read the clock *)
| XLand (v : Z) (r : f64) (ms : Z)        (* line 81: about to load startTime *)
| XULock (v : Z) (r : f64) (ms land : Z)  (* line 86: waiting for the lock *)
| XInsert (v : Z) (r : f64) (ms land : Z) (* lines 89-124, 87 *)
| XRLock                                  (* line 198: waiting for the lock *)
| XRead                                   (* lines 199-200 *)
| XPanic.                                 (* the goroutine has panicked *)

Record dxthread := DxThread { dx_todo : list dx_call; dx_pc : dxpc; dx_got : list (list sample) }.

(** [ds_log] is a ghost: the critical sections so far; no step reads it. *)
Record dx_shared := DxShared {
  ds_rsv : edr; ds_writer : bool; ds_readers : nat; ds_ms : Z; ds_tick : Z; ds_log : list ed_event }.

Definition set_rsv (s : dx_shared) (r : edr) : dx_shared :=
  DxShared r (ds_writer s) (ds_readers s) (ds_ms s) (ds_tick s) (ds_log s).
Definition set_lock (s : dx_shared) (w : bool) (n : nat) : dx_shared :=
  DxShared (ds_rsv s) w n (ds_ms s) (ds_tick s) (ds_log s).
Definition logged (s : dx_shared) (e : ed_event) : dx_shared :=
  DxShared (ds_rsv s) (ds_writer s) (ds_readers s) (ds_ms s) (ds_tick s) (ds_log s ++ [e]).

Section exp.
  Context (math_Exp : f64 -> f64).

  (** After rescaleIfNeeded. *)
  Definition dx_after (k : dx_call) : dxpc := match k with KUpdate v r => XMs v r | KSnapshot => XRLock end.

  (** lines 81-84: the weight for the landmark [land] *)
  Definition dx_weight (rsv : edr) (land ms : Z) : f64 := ed_itemWeight math_Exp (set_startTime rsv land) ms.

  (** One step; [None]: nothing to do, waiting for the lock, or panicked. *)
  Definition dx_tstep (s : dx_shared) (t : dxthread) : option (dx_shared * dxthread) :=
    let rsv := ds_rsv s in
    let goto s' pc := Some (s', DxThread (dx_todo t) pc (dx_got t)) in
    match dx_pc t with
    | XIdle =>
        match dx_todo t with
        | [] => None
        | k :: todo => Some (s, DxThread todo (XTick k) (dx_got t))
        end
    | XTick k => goto s (XCmp k (ds_tick s))
    | XCmp k now => goto s (if ed_nextScaleTime rsv <=? now then XNext k now else dx_after k)
    | XNext k now => goto s (XCas k now (ed_nextScaleTime rsv))
    | XCas k now next =>
        if ed_nextScaleTime rsv =? next
        then goto (set_rsv s (set_nextScaleTime rsv (wrap64 (now + edrRescaleThreshold)))) (XLock k)
        else goto s (dx_after k)
    | XLock k => if ds_writer s || (0 <? ds_readers s)%nat then None else goto (set_lock s true 0) (XClock k)
    | XClock k => goto s (XStart k (ed_startTime rsv) (ds_ms s))
    | XStart k old ms =>
        let rsv' := set_startTime rsv (currentTimeInSecond ms) in
        goto (set_rsv s rsv') (XScale k (ed_scalingFactor math_Exp rsv' old))
    | XScale k f =>
        goto (logged (set_lock (set_rsv s (ed_rescale_body rsv f)) false 0) (Rescale f)) (dx_after k)
    | XMs v r => goto s (XLand v r (ds_ms s))
    | XLand v r ms => goto s (XULock v r ms (ed_startTime rsv))
    | XULock v r ms land =>
        if ds_writer s || (0 <? ds_readers s)%nat then None else goto (set_lock s true 0) (XInsert v r ms land)
    | XInsert v r ms land =>
        let w := dx_weight rsv land ms in
        let p := ed_priority w r in
        match ed_insert rsv p v w with
        | Ok rsv' => goto (logged (set_lock (set_rsv s rsv') false 0) (Offer p v w)) XIdle
        | Panic => goto (set_lock s false 0) XPanic
        end
    | XRLock => if ds_writer s then None else goto (set_lock s false (S (ds_readers s))) XRead
    | XRead =>
        Some (set_lock s (ds_writer s) (ds_readers s - 1),
              DxThread (dx_todo t) XIdle (dx_got t ++ [ed_GetValues rsv]))
    | XPanic => None
    end.
End exp.

(** The clock shows other milliseconds and another tick. *)
Definition dx_estep (s : dx_shared) (e : Z * Z) : dx_shared :=
  DxShared (ds_rsv s) (ds_writer s) (ds_readers s) e.1 e.2 (ds_log s).

(** A fresh reservoir, with one goroutine per list of calls. *)
Definition dx_init (size : Z) (alpha : f64) (ms0 tick0 : Z) (progs : list (list dx_call)) : config dx_shared dxthread :=
  Config (DxShared (NewEDR size alpha ms0 tick0) false 0 ms0 tick0 []) ((fun p => DxThread p XIdle []) <$> progs).

Definition dx_crun (math_Exp : f64 -> f64) (size : Z) (alpha : f64) (ms0 tick0 : Z) (progs : list (list dx_call))
  (sched : list (event (Z * Z))) : config dx_shared dxthread :=
  crun (dx_tstep math_Exp) dx_estep (dx_init size alpha ms0 tick0 progs) sched.
