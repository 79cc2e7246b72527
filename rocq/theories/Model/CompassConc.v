(** impl/default_compass.go: any number of goroutines calling Update, UpdateWithError,
    the rate getters and the two map getters of one compass.  Every step is one access
    of a shared field; the clock may change at any moment.

    Simplifications: memory is sequentially consistent (lastTick is read without atomic
    at line 191; a 64-bit load is one access).  A bucket counter is reduced to the number
    of Update calls it has received, and one Update is one step (interleaved Updates
    within a bucket counter: Model/BucketCounterConc.v); TickN of an average is one step
    (interleaved TickN: Model/EWMAConc.v, where it is shown to be linearizable); of the
    reservoir only the UpdateN calls it receives are kept.  The map getters are modelled
    as far as their iteration over the map, as a number of iteration steps.

    Go's runtime aborts the process when a map is accessed while an assignment is in
    progress ([cs_writing], [cs_crashed], as in Model/FastCompassConc.v).  A panic
    (call on a nil counter) ends the call; the goroutine goes on with its next call, as
    if it had recovered.  A program that does not recover stops at its first panic,
    that is, it shows a prefix of one of these executions. *)
From Verif.Go Require Import GoInt GoFloat GoConc.
From Verif.Model Require Import EWMA Compass.
Local Open Scope Z_scope.

(** The two maps of impl/default_compass.go:38-43. *)
Inductive which := Codes | Addons.
Global Instance which_eq_dec : EqDecision which.
Proof. solve_decision. Defined.

(** One map with its mutex.  Counters are pointers: indices into [tb_heap], which holds
    for every counter ever created the number of Updates it received. *)
Record table := Table { tb_map : gmap string nat; tb_heap : list Z; tb_locked : bool; tb_writing : bool }.
Definition tb_empty : table := Table ∅ [] false false.

(** What a call was given: UpdateWithError's isSuccess, errorCode, addon. *)
Record result := MkResult { rs_success : bool; rs_code : string; rs_addon : string }.

(** [KUpdate d None]: Update(d); [KUpdate d (Some r)]: UpdateWithError; [KRate]: one of
    the three rate getters; [KGetter w n]: GetErrorCodeCounts or GetAddonCounts making
    [n] iteration steps. *)
Inductive kcall := KUpdate (d : Z) (r : option result) | KRate | KGetter (w : which) (n : nat).

(** What follows tickIfNecessary. *)
Notation kont := (option (Z * option result)).

Inductive kpc :=
| PIdle
| PTick (k : kont)                              (* line 191: read lastTick *)
| PClock (old : Z) (k : kont)                   (* lines 192-194 *)
| PCas (old new : Z) (k : kont)                 (* lines 195-197 *)
| PLoop (n : nat) (k : kont)                    (* lines 198, 201: [n] rounds to go, load uncounted *)
| PTake (n : nat) (count : Z) (k : kont)        (* line 202: compare and swap *)
| PM1 (n : nat) (count : Z) (k : kont)          (* line 205 *)
| PM5 (n : nat) (count : Z) (k : kont)          (* line 206 *)
| PM15 (n : nat) (count : Z) (k : kont)         (* line 207 *)
| PAdd (d : Z) (r : option result)              (* line 181 *)
| PTotal (d : Z) (r : option result)            (* line 182 *)
| PReservoir (d : Z) (r : option result)        (* line 183 *)
| PSuccess (r : result)                         (* lines 150-152 *)
| PKey (w : which) (r : result)                 (* lines 154, 162 *)
| PLock (w : which) (r : result)                (* lines 156, 163 *)
| PFind (w : which) (r : result)                (* lines 171-172 *)
| PAssign (w : which) (r : result)              (* line 174: assignment starts *)
| PAssigning (w : which) (r : result)           (* line 174: assignment ends *)
| PUnlock (w : which) (p : option nat) (r : result) (* lines 158, 165; [p]: the counter or nil *)
| PCount (w : which) (p : option nat) (r : result)  (* lines 159, 166 *)
| PIter (w : which) (n : nat).                  (* lines 114, 122 *)

(** [cs_log1], [cs_log5], [cs_log15]: the counts the averages were ticked with;
    [cs_durations]: the calls the reservoir received. *)
Record cp_shared := CpShared {
  cs_meter : meter ewma;
  cs_log1 : list Z; cs_log5 : list Z; cs_log15 : list Z;
  cs_total : Z; cs_success : Z;
  cs_durations : list Z;
  cs_codes : table; cs_addons : table;
  cs_crashed : bool;
  cs_clock : Z }.

(** [kt_panics]: the calls that panicked. *)
Record kthread := KThread { kt_todo : list kcall; kt_pc : kpc; kt_panics : list (which * result) }.

Definition key_of (w : which) (r : result) : string := match w with Codes => rs_code r | Addons => rs_addon r end.
Definition tb_of (w : which) (s : cp_shared) : table := match w with Codes => cs_codes s | Addons => cs_addons s end.

Definition set_meter (s : cp_shared) (m : meter ewma) : cp_shared :=
  CpShared m (cs_log1 s) (cs_log5 s) (cs_log15 s) (cs_total s) (cs_success s) (cs_durations s) (cs_codes s) (cs_addons s) (cs_crashed s) (cs_clock s).
Definition set_logs (s : cp_shared) (l1 l5 l15 : list Z) : cp_shared :=
  CpShared (cs_meter s) l1 l5 l15 (cs_total s) (cs_success s) (cs_durations s) (cs_codes s) (cs_addons s) (cs_crashed s) (cs_clock s).
Definition set_counts (s : cp_shared) (total success : Z) : cp_shared :=
  CpShared (cs_meter s) (cs_log1 s) (cs_log5 s) (cs_log15 s) total success (cs_durations s) (cs_codes s) (cs_addons s) (cs_crashed s) (cs_clock s).
Definition set_durations (s : cp_shared) (l : list Z) : cp_shared :=
  CpShared (cs_meter s) (cs_log1 s) (cs_log5 s) (cs_log15 s) (cs_total s) (cs_success s) l (cs_codes s) (cs_addons s) (cs_crashed s) (cs_clock s).
Definition set_table (s : cp_shared) (w : which) (tb : table) : cp_shared :=
  CpShared (cs_meter s) (cs_log1 s) (cs_log5 s) (cs_log15 s) (cs_total s) (cs_success s) (cs_durations s)
    (match w with Codes => tb | Addons => cs_codes s end) (match w with Codes => cs_addons s | Addons => tb end) (cs_crashed s) (cs_clock s).
Definition abort (s : cp_shared) : cp_shared :=
  CpShared (cs_meter s) (cs_log1 s) (cs_log5 s) (cs_log15 s) (cs_total s) (cs_success s) (cs_durations s) (cs_codes s) (cs_addons s) true (cs_clock s).

Definition set_lastTick (m : meter ewma) (t : Z) : meter ewma := Meter (mt_m1Rate m) (mt_m5Rate m) (mt_m15Rate m) t (mt_uncounted m).
Definition set_pending (m : meter ewma) (n : Z) : meter ewma := Meter (mt_m1Rate m) (mt_m5Rate m) (mt_m15Rate m) (mt_lastTick m) n.

(** After tickIfNecessary: line 181, or the return of a rate getter. *)
Definition after_tick (k : kont) : kpc := match k with Some (d, r) => PAdd d r | None => PIdle end.
(** After lines 154-160 (codes) come lines 162-167 (addons). *)
Definition after_key (w : which) (r : result) : kpc := match w with Codes => PKey Addons r | Addons => PIdle end.

Section step.
  Context (I maxE maxA : Z). (* bucketInterval, maxErrorCodeCount, maxAddonCount *)
  Definition max_of (w : which) : Z := match w with Codes => maxE | Addons => maxA end.

  (** One step; [None]: nothing to do, waiting for a mutex, or the process was aborted. *)
  Definition cp_tstep (s : cp_shared) (t : kthread) : option (cp_shared * kthread) :=
    let m := cs_meter s in
    let goto s' pc := Some (s', KThread (kt_todo t) pc (kt_panics t)) in
    if cs_crashed s then None else
    match kt_pc t with
    | PIdle =>
        match kt_todo t with
        | [] => None
        | KUpdate d r :: todo => Some (s, KThread todo (PTick (Some (d, r))) (kt_panics t))
        | KRate :: todo => Some (s, KThread todo (PTick None) (kt_panics t))
        | KGetter w n :: todo => Some (s, KThread todo (PIter w n) (kt_panics t))
        end
    | PTick k => goto s (PClock (mt_lastTick m) k)
    | PClock old k =>
        let age := wrap64 (cs_clock s - old) in
        if tickInterval <? age then goto s (PCas old (cs_clock s) k) else goto s (after_tick k)
    | PCas old new k =>
        let age := wrap64 (new - old) in
        match go_mod age I, go_div age tickInterval with
        | Ok r, Ok requiredTicks =>
            if mt_lastTick m =? old
            then goto (set_meter s (set_lastTick m (wrap64 (new - r)))) (PLoop (Z.to_nat requiredTicks) k)
            else goto s (after_tick k)
        | _, _ => None
        end
    | PLoop O k => goto s (after_tick k)
    | PLoop (S n) k => goto s (PTake n (mt_uncounted m) k)
    | PTake n count k =>
        if mt_uncounted m =? count then goto (set_meter s (set_pending m 0)) (PM1 n count k)
        else goto s (PLoop (S n) k)
    | PM1 n count k =>
        goto (set_logs (set_meter s (Meter (ew_TickN (mt_m1Rate m) count) (mt_m5Rate m) (mt_m15Rate m) (mt_lastTick m) (mt_uncounted m)))
                (cs_log1 s ++ [count]) (cs_log5 s) (cs_log15 s)) (PM5 n count k)
    | PM5 n count k =>
        goto (set_logs (set_meter s (Meter (mt_m1Rate m) (ew_TickN (mt_m5Rate m) count) (mt_m15Rate m) (mt_lastTick m) (mt_uncounted m)))
                (cs_log1 s) (cs_log5 s ++ [count]) (cs_log15 s)) (PM15 n count k)
    | PM15 n count k =>
        goto (set_logs (set_meter s (Meter (mt_m1Rate m) (mt_m5Rate m) (ew_TickN (mt_m15Rate m) count) (mt_lastTick m) (mt_uncounted m)))
                (cs_log1 s) (cs_log5 s) (cs_log15 s ++ [count])) (PLoop n k)
    | PAdd d r => goto (set_meter s (set_pending m (wrap64 (mt_uncounted m + 1)))) (PTotal d r)
    | PTotal d r => goto (set_counts s (cs_total s + 1) (cs_success s)) (PReservoir d r)
    | PReservoir d r =>
        goto (set_durations s (cs_durations s ++ [d])) (match r with Some r => PSuccess r | None => PIdle end)
    | PSuccess r =>
        goto (if rs_success r then set_counts s (cs_total s) (cs_success s + 1) else s) (PKey Codes r)
    | PKey w r =>
        if 0 <? Z.of_nat (String.length (key_of w r)) then goto s (PLock w r) else goto s (after_key w r)
    | PLock w r =>
        let tb := tb_of w s in
        if tb_locked tb then None
        else goto (set_table s w (Table (tb_map tb) (tb_heap tb) true (tb_writing tb))) (PFind w r)
    | PFind w r =>
        let tb := tb_of w s in
        if tb_writing tb then goto (abort s) (kt_pc t)
        else
        match tb_map tb !! key_of w r with
        | Some p => goto s (PUnlock w (Some p) r)
        | None =>
            if Z.of_nat (size (tb_map tb)) <? max_of w then goto s (PAssign w r) else goto s (PUnlock w None r)
        end
    | PAssign w r =>
        let tb := tb_of w s in
        if tb_writing tb then goto (abort s) (kt_pc t)
        else goto (set_table s w (Table (tb_map tb) (tb_heap tb) (tb_locked tb) true)) (PAssigning w r)
    | PAssigning w r =>
        let tb := tb_of w s in let p := length (tb_heap tb) in
        goto (set_table s w (Table (<[key_of w r := p]> (tb_map tb)) (tb_heap tb ++ [0]) (tb_locked tb) false)) (PUnlock w (Some p) r)
    | PUnlock w p r =>
        let tb := tb_of w s in
        goto (set_table s w (Table (tb_map tb) (tb_heap tb) false (tb_writing tb))) (PCount w p r)
    | PCount w (Some p) r =>
        let tb := tb_of w s in
        goto (set_table s w (Table (tb_map tb) (alter (fun n => n + 1) p (tb_heap tb)) (tb_locked tb) (tb_writing tb))) (after_key w r)
    | PCount w None r => Some (s, KThread (kt_todo t) PIdle (kt_panics t ++ [(w, r)]))
    | PIter w n =>
        if tb_writing (tb_of w s) then goto (abort s) (kt_pc t)
        else goto s (match n with O => PIdle | S n' => PIter w n' end)
    end.

  (** The clock may be set to any int64 value at any moment. *)
  Definition cp_estep (s : cp_shared) (now : Z) : cp_shared :=
    CpShared (cs_meter s) (cs_log1 s) (cs_log5 s) (cs_log15 s) (cs_total s) (cs_success s) (cs_durations s) (cs_codes s) (cs_addons s) (cs_crashed s) (wrap64 now).

  (** impl/default_compass.go:247-266: a new compass whose clock showed the time [start],
      and the goroutines that use it. *)
  Definition cp_cinit (start clock : Z) (progs : list (list kcall)) : config cp_shared kthread :=
    Config (CpShared (newMeter zeroEWMA start) [] [] [] 0 0 [] tb_empty tb_empty false (wrap64 clock))
      ((fun p => KThread p PIdle []) <$> progs).
  Definition cp_crun (start clock : Z) (progs : list (list kcall)) (sched : list (event Z)) : config cp_shared kthread :=
    crun cp_tstep cp_estep (cp_cinit start clock progs) sched.
End step.
