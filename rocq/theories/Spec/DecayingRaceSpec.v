(** The accesses of exponentially_decaying_reservoir.go to the fields of a reservoir. *)
From Verif.Go Require Import GoInt GoFloat GoConc.
From Verif.Model Require Import WeightedSnapshot DecayingReservoir DecayingConc.
From Verif.Spec Require Import RaceSpec.
Local Open Scope Z_scope.

(** [VSamples]: the skip list with its samples and [count]. *)
Inductive dx_var := VNextScale | VStartTime | VSamples.

Definition dx_next (_ : dx_shared) (t : dxthread) : list (access dx_var) :=
  match dx_pc t with
  | XCmp _ _ | XNext _ _ => [loads VNextScale]             (* lines 133, 134 *)
  | XCas _ _ _ => [atomic_op VNextScale]                   (* line 158 *)
  | XClock _ => [loads VStartTime]                         (* line 162, under the lock *)
  | XStart _ _ _ => [stores VStartTime]                    (* lines 163-165, under the lock *)
  | XScale _ _ => [loads VSamples; stores VSamples]        (* lines 167-180, under the lock *)
  | XLand _ _ _ => [loads VStartTime]                      (* line 81, no lock *)
  | XInsert _ _ _ _ => [loads VSamples; stores VSamples]   (* lines 89-124, under the lock *)
  | XRead => [loads VSamples]                              (* line 200, under the read lock *)
  | XIdle | XTick _ | XLock _ | XMs _ _ | XULock _ _ _ _ | XRLock | XPanic => []
  end.

Definition dx_same (l : dx_var) (s1 s2 : dx_shared) : Prop :=
  match l with
  | VNextScale => ed_nextScaleTime (ds_rsv s1) = ed_nextScaleTime (ds_rsv s2)
  | VStartTime => ed_startTime (ds_rsv s1) = ed_startTime (ds_rsv s2)
  | VSamples => ed_values (ds_rsv s1) = ed_values (ds_rsv s2) /\ ed_count (ds_rsv s1) = ed_count (ds_rsv s2)
  end.
Definition dx_rest (s1 s2 : dx_shared) : Prop :=
  ds_writer s1 = ds_writer s2 /\ ds_readers s1 = ds_readers s2 /\ ds_ms s1 = ds_ms s2 /\ ds_tick s1 = ds_tick s2 /\
  ed_alpha (ds_rsv s1) = ed_alpha (ds_rsv s2) /\ ed_size (ds_rsv s1) = ed_size (ds_rsv s2).
