(** The accesses of default_fast_compass.go to the map of categories and the counters in it. *)
From Verif.Go Require Import GoInt GoConc.
From Verif.Model Require Import BucketQueue BucketCounter FastCompass FastCompassConc.
From Verif.Spec Require Import RaceSpec.
Local Open Scope Z_scope.

(** One variable: the map with the counters it leads to. *)
Inductive fc_var := VCategories.

Definition fc_next (_ : fc_shared) (t : fthread) : list (access fc_var) :=
  match ft_pc t with
  | FLookup _ _ => [loads VCategories]                              (* lines 90-95, under the lock *)
  | FAssign _ _ _ _ => [loads VCategories; stores VCategories]      (* line 101, under the lock *)
  | FAssigning _ _ _ _ => [loads VCategories; stores VCategories]   (* line 101, under the lock *)
  | FUpdate _ _ _ => [loads VCategories; stores VCategories]        (* line 104, under the lock *)
  | FIter _ => [loads VCategories]                                  (* lines 74, 113, 131, 149, no lock *)
  | FIdle | FLock _ _ | FCreate _ _ | FUnlock => []
  end.

Definition fc_same (l : fc_var) (s1 s2 : fc_shared) : Prop :=
  fc_subCategories (fs_fc s1) = fc_subCategories (fs_fc s2) /\ fs_writing s1 = fs_writing s2.
Definition fc_rest (s1 s2 : fc_shared) : Prop :=
  fs_locked s1 = fs_locked s2 /\ fs_crashed s1 = fs_crashed s2 /\ fs_clock s1 = fs_clock s2 /\
  fc_maxSubCategoryCount (fs_fc s1) = fc_maxSubCategoryCount (fs_fc s2) /\
  fc_bucketInterval (fs_fc s1) = fc_bucketInterval (fs_fc s2) /\
  fc_numberOfBuckets (fs_fc s1) = fc_numberOfBuckets (fs_fc s2).

Definition calls_getter (progs : list (list fc_call)) (i : nat) : Prop := exists p k, progs !! i = Some p /\ CGetter k ∈ p.
Definition calls_record (progs : list (list fc_call)) (i : nat) : Prop := exists p d cat, progs !! i = Some p /\ CRecord d cat ∈ p.
