(** Vocabulary for the uniform reservoir under concurrency. *)
From Verif.Go Require Import GoInt GoConc.
From Verif.Model Require Import UniformSnapshot UniformReservoir ReservoirConc.
From Verif.Spec Require Import BucketSpec.
Local Open Scope Z_scope.

(** What one call does and returns when nothing else is going on. *)
Definition rx_alone (u : uniform_reservoir) (k : rx_call) : res (uniform_reservoir * rx_answer) :=
  match k with
  | RUpdate v ds =>
      u' ← ur_UpdateN u v (default 0 (nextRandomPos (wrap64 (ur_count u + 1)) ds)); Ok (u', ADone)
  | RSize => Ok (u, ASize (ur_Size u))
  | RSnapshot => Ok (u, ASnapshot (ur_GetSnapshot u))
  end.
(** Calls one after the other, with what each returns. *)
Fixpoint rx_sequence (u : uniform_reservoir) (ks : list rx_call) : res (uniform_reservoir * list rx_answer) :=
  match ks with
  | [] => Ok (u, [])
  | k :: ks => ua ← rx_alone u k; us ← rx_sequence ua.1 ks; Ok (us.1, ua.2 :: us.2)
  end.

(** The source yields 63-bit numbers, and at least one that is accepted whatever the bound. *)
Definition rx_call_ok (k : rx_call) : Prop :=
  match k with
  | RUpdate _ ds => Forall (fun r => 0 <= r < 2 ^ 63) ds /\ exists r, r ∈ ds /\ r < 2 ^ 62
  | _ => True
  end.

(** The call a goroutine is executing, if any. *)
Definition rx_current (t : rxthread) : list rx_call :=
  match rx_pc t with
  | RIdle | RPanic => []
  | RLock v ds | RLoad v ds | RStore v ds _ | RCmp v ds | RIndex v ds | RRandom v ds | RPut v ds _ | RUnlock v ds => [RUpdate v ds]
  | RSizeLock | RSizeCmp | RSizeLoad | RSizeUnlock _ => [RSize]
  | RSnapLock | RSnapCopy _ | RSnapUnlock _ => [RSnapshot]
  end.
Definition rx_finished (t : rxthread) : Prop := rx_todo t = [] /\ rx_pc t = RIdle.

(** The entries of the log that are goroutine [i]'s. *)
Definition by_goroutine (i : nat) (log : list (nat * rx_call * rx_answer)) : list (rx_call * rx_answer) :=
  omap (fun e => if decide (e.1.1 = i) then Some (e.1.2, e.2) else None) log.
Definition log_calls (log : list (nat * rx_call * rx_answer)) : list rx_call := (fun e => e.1.2) <$> log.
Definition log_answers (log : list (nat * rx_call * rx_answer)) : list rx_answer := snd <$> log.

(** Somebody holds the lock for writing. *)
Definition rx_updating (t : rxthread) : bool :=
  match rx_pc t with
  | RLoad _ _ | RStore _ _ _ | RCmp _ _ | RIndex _ _ | RRandom _ _ | RPut _ _ _ | RUnlock _ _ => true
  | _ => false
  end.
(** ... or for reading. *)
Definition rx_reading (t : rxthread) : bool :=
  match rx_pc t with
  | RSizeCmp | RSizeLoad | RSizeUnlock _ | RSnapCopy _ | RSnapUnlock _ => true
  | _ => false
  end.

(** The setting. *)
Definition is_update (k : rx_call) : bool := match k with RUpdate _ _ => true | _ => false end.
Definition rx_ok (cap : Z) (progs : list (list rx_call)) : Prop :=
  0 <= cap < 2 ^ 63 /\ Forall (Forall rx_call_ok) progs /\
  Z.of_nat (length (filter (fun k => is_update k = true) (mjoin progs))) < 2 ^ 63.

(** How many events of the schedule make a goroutine take a step. *)
Fixpoint steps_taken (c : config rx_shared rxthread) (sched : list (event Empty_set)) : nat :=
  match sched with
  | [] => 0
  | ev :: sched =>
      (match ev with
       | Run i => match threads c !! i with
                  | Some t => match rx_tstep (shared c) t with Some _ => 1 | None => 0 end
                  | None => 0 end
       | Env _ => 0 end + steps_taken (cstep rx_tstep rx_estep c ev) sched)%nat
  end.
(** Steps of one call: at most eight, and for a snapshot one per element besides. *)
Definition call_steps (cap : Z) (k : rx_call) : nat :=
  match k with RUpdate _ _ => 8 | RSize => 5 | RSnapshot => Z.to_nat cap + 4 end.

(** The values recorded by the calls [ks]. *)
Definition recorded_by (ks : list rx_call) : list Z :=
  omap (fun k => match k with RUpdate v _ => Some v | _ => None end) ks.

(** The shared variable the goroutine's next step reads ([false]) or writes ([true]). *)
Inductive rx_var := VCount | VElem (i : nat).
Definition next_access (t : rxthread) : option (rx_var * bool) :=
  match rx_pc t with
  | RLoad _ _ | RCmp _ _ | RIndex _ _ | RRandom _ _ | RSizeCmp | RSizeLoad => Some (VCount, false)
  | RStore _ _ _ => Some (VCount, true)
  | RPut _ _ i => Some (VElem (Z.to_nat i), true)
  | RSnapCopy l => Some (VElem (length l), false)
  | _ => None
  end.
(** Two goroutines about to access the same variable, one of them for writing. *)
Definition race (t t' : rxthread) : Prop :=
  exists x w w', next_access t = Some (x, w) /\ next_access t' = Some (x, w') /\ (w || w') = true.
