(** Vocabulary for concurrent use of a fast compass. *)
From Verif.Go Require Import GoInt GoConc.
From Verif.Model Require Import BucketQueue BucketCounter FastCompass FastCompassConc.
From Verif.Spec Require Import FastCompassSpec.
Local Open Scope Z_scope.

(** The (duration, category) of the Record calls of a program that are valid. *)
Definition accepted (calls : list fc_call) : list (Z * string) :=
  flat_map (fun call => match call with
    | CRecord d cat => if decide (0 <= d /\ cat <> ""%string) then [(d, cat)] else []
    | CGetter _ => []
    end) calls.

(** A log: which goroutine made which Record call (with the clock readings). *)
Definition log_of (i : nat) (log : list (nat * fc_record)) : list (Z * string) :=
  (fun e => (rc_duration e.2, rc_category e.2)) <$> filter (fun e => e.1 = i) log.

(** The Record call a goroutine has begun but not carried out yet. *)
Definition begun (pc : fpc) : list (Z * string) :=
  match pc with
  | FLock d cat | FLookup d cat | FCreate d cat | FAssign d cat _ _ | FAssigning d cat _ _
  | FUpdate d cat _ => [(d, cat)]
  | FIdle | FUnlock | FIter _ => []
  end.

(** The goroutine holds the lock. *)
Definition holds_lock (pc : fpc) : bool :=
  match pc with
  | FLookup _ _ | FCreate _ _ | FAssign _ _ _ _ | FAssigning _ _ _ _ | FUpdate _ _ _ | FUnlock => true
  | FIdle | FLock _ _ | FIter _ => false
  end.

Definition fc_done (t : fthread) : Prop := ft_todo t = [] /\ ft_pc t = FIdle.
