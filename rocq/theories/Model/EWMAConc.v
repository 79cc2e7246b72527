(** ewma.go used by any number of goroutines; every step is one access of the
    shared fields (sequentially consistent; the plain loads and stores of int64,
    bool and float64 words are atomic, as on 64-bit hardware). *)
From Verif.Go Require Import GoInt GoFloat GoConc.
From Verif.Model Require Import EWMA.
Local Open Scope Z_scope.

(** [es_ticked] is a history variable: the counts TickN was carried out with, in
    the order of its critical sections. *)
Record ewma_shared := EwmaShared { es_ewma : ewma; es_locked : bool; es_ticked : list Z }.

Inductive ewma_call := EUpdate (n : Z) | ETick | ETickN (count : Z) | EGetRate (unit : Z).

Inductive epc :=
| EIdle
| ELoad                        (* ewma.go:83, 86: old = uncounted *)
| ECas (old : Z)               (* ewma.go:85, 87: CompareAndSwap(old, 0) *)
| ELock (count : Z)            (* ewma.go:67-68: waiting for the mutex *)
| ERead (count : Z)            (* ewma.go:71-72, 77: reading initialized and rate *)
| EWrite (count : Z) (r : f64) (* ewma.go:73, 77-78: storing rate and initialized *)
| EUnlock.                     (* ewma.go:69 *)

(** [et_got]: what the GetRate calls returned. *)
Record ethread := EThread { et_todo : list ewma_call; et_pc : epc; et_got : list (Z * f64) }.

Definition set_uncounted (e : ewma) (n : Z) : ewma :=
  EWMA (ew_initialized e) (ew_rate e) n (ew_alpha e) (ew_interval e).

Definition ewma_tstep (s : ewma_shared) (t : ethread) : option (ewma_shared * ethread) :=
  let e := es_ewma s in
  let goto s' pc := Some (s', EThread (et_todo t) pc (et_got t)) in
  match et_pc t with
  | EIdle =>
      match et_todo t with
      | [] => None
      | EUpdate n :: todo => (* ewma.go:63 *)
          Some (EwmaShared (ew_Update e n) (es_locked s) (es_ticked s), EThread todo EIdle (et_got t))
      | ETick :: todo => Some (s, EThread todo ELoad (et_got t))
      | ETickN c :: todo => Some (s, EThread todo (ELock c) (et_got t))
      | EGetRate unit :: todo => (* ewma.go:97 *)
          Some (s, EThread todo EIdle (et_got t ++ [(unit, ew_GetRate e unit)]))
      end
  | ELoad => goto s (ECas (ew_uncounted e))
  | ECas old =>
      if ew_uncounted e =? old
      then goto (EwmaShared (set_uncounted e 0) (es_locked s) (es_ticked s)) (ELock old)
      else goto s ELoad
  | ELock c =>
      if es_locked s then None else goto (EwmaShared e true (es_ticked s)) (ERead c)
  | ERead c =>
      let instant := instantRate (ew_interval e) c in
      goto s (EWrite c (if ew_initialized e
        then fadd (ew_rate e) (fmul (ew_alpha e) (fsub instant (ew_rate e)))
        else instant))
  | EWrite c r =>
      goto (EwmaShared (EWMA true r (ew_uncounted e) (ew_alpha e) (ew_interval e)) (es_locked s) (es_ticked s ++ [c]))
        EUnlock
  | EUnlock => goto (EwmaShared e false (es_ticked s)) EIdle
  end.

(** There are no environment events. *)
Definition ewma_crun (alpha : f64) (interval : Z) (progs : list (list ewma_call)) (sched : list (event Empty_set))
  : config ewma_shared ethread :=
  crun ewma_tstep (fun s _ => s)
    (Config (EwmaShared (newEWMA alpha interval) false []) ((fun p => EThread p EIdle []) <$> progs)) sched.
