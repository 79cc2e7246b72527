(** The accesses of impl/default_compass.go to the fields of a compass. *)
From Verif.Go Require Import GoInt GoFloat GoConc.
From Verif.Model Require Import EWMA Compass CompassConc.
From Verif.Spec Require Import RaceSpec CompassConcSpec.
Local Open Scope Z_scope.

(** The variables of a compass that change: [lastTick], [uncounted], and the two maps.
    The counters, averages and the reservoir are objects of their own, with variables of
    their own (C106, C107, C109). *)
Inductive cp_var := VLastTick | VUncounted | VMap (w : which).

Definition cp_next (_ : cp_shared) (t : kthread) : list (access cp_var) :=
  match kt_pc t with
  | PTick _ => [loads VLastTick]                              (* line 191, a plain load *)
  | PCas _ _ _ => [atomic_op VLastTick]                       (* line 196, CompareAndSwapInt64 *)
  | PLoop (S _) _ => [atomic_load VUncounted]                 (* lines 201, 203, LoadInt64 *)
  | PTake _ _ _ => [atomic_op VUncounted]                     (* line 202, CompareAndSwapInt64 *)
  | PAdd _ _ => [atomic_op VUncounted]                        (* line 181, AddInt64 *)
  | PFind w _ => [loads (VMap w)]                             (* lines 171-172, under the map's mutex *)
  | PAssign w _ => [loads (VMap w); stores (VMap w)]          (* line 174, under the map's mutex *)
  | PAssigning w _ => [loads (VMap w); stores (VMap w)]       (* line 174, under the map's mutex *)
  | PIter w _ => [loads (VMap w)]                             (* lines 114, 122, no lock *)
  | _ => []
  end.

Definition cp_same (l : cp_var) (s1 s2 : cp_shared) : Prop :=
  match l with
  | VLastTick => mt_lastTick (cs_meter s1) = mt_lastTick (cs_meter s2)
  | VUncounted => mt_uncounted (cs_meter s1) = mt_uncounted (cs_meter s2)
  | VMap w => tb_map (tb_of w s1) = tb_map (tb_of w s2) /\ tb_writing (tb_of w s1) = tb_writing (tb_of w s2)
  end.
(** Mutexes, clock, and the other objects. *)
Definition cp_rest (s1 s2 : cp_shared) : Prop :=
  cs_crashed s1 = cs_crashed s2 /\ cs_clock s1 = cs_clock s2 /\
  mt_m1Rate (cs_meter s1) = mt_m1Rate (cs_meter s2) /\ mt_m5Rate (cs_meter s1) = mt_m5Rate (cs_meter s2) /\
  mt_m15Rate (cs_meter s1) = mt_m15Rate (cs_meter s2) /\
  cs_log1 s1 = cs_log1 s2 /\ cs_log5 s1 = cs_log5 s2 /\ cs_log15 s1 = cs_log15 s2 /\
  cs_total s1 = cs_total s2 /\ cs_success s1 = cs_success s2 /\ cs_durations s1 = cs_durations s2 /\
  (forall w, tb_heap (tb_of w s1) = tb_heap (tb_of w s2) /\ tb_locked (tb_of w s1) = tb_locked (tb_of w s2)).

(** Program [i] has a call of GetErrorCodeCounts ([Codes]) or GetAddonCounts ([Addons]). *)
Definition asks_counts (progs : list (list kcall)) (w : which) (i : nat) : Prop :=
  exists p n, progs !! i = Some p /\ KGetter w n ∈ p.
(** ... an UpdateWithError whose code (addon) is not empty. *)
Definition gives_key (progs : list (list kcall)) (w : which) (i : nat) : Prop :=
  exists p d r, progs !! i = Some p /\ KUpdate d (Some r) ∈ p /\ asked w r <> ""%string.
(** ... an Update, an UpdateWithError or a rate getter. *)
Definition ticks (progs : list (list kcall)) (i : nat) : Prop :=
  exists p c, progs !! i = Some p /\ c ∈ p /\ match c with KUpdate _ _ | KRate => True | KGetter _ _ => False end.
(** The clock never gets more than a tick interval (5 s) ahead of the start time. *)
Definition within_tick (start : Z) (ev : event Z) : Prop :=
  match ev with Env e => wrap64 (wrap64 e - start) <= tickInterval | Run _ => True end.
