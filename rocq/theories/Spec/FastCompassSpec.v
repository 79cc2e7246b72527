(** Vocabulary for what a fast compass should report. *)
From Verif.Go Require Import GoInt.
From Verif.Model Require Import Counter BucketQueue BucketCounter FastCompass.
From Verif.Spec Require Import BucketSpec.
Local Open Scope Z_scope.

(** Records that count. *)
Definition valid_record (r : fc_record) : Prop := 0 <= rc_duration r /\ rc_category r <> ""%string.

Global Instance valid_record_dec r : Decision (valid_record r).
Proof. unfold valid_record. apply _. Defined.

(** The different elements of a list in order of first occurrence. *)
Fixpoint firsts (l : list string) : list string :=
  match l with
  | [] => []
  | x :: l' => x :: filter (fun y => y <> x) (firsts l')
  end.

(** The categories that should be tracked: the first [max] different valid ones. *)
Definition tracked (max : Z) (recs : list fc_record) : list string :=
  take (Z.to_nat max) (firsts (rc_category <$> filter valid_record recs)).

(** The valid records of one category. *)
Definition records_of (cat : string) (recs : list fc_record) : list fc_record :=
  filter (fun r => valid_record r /\ rc_category r = cat) recs.

(** (time, 1) and (time, whole milliseconds) histories. *)
Definition invocations (recs : list fc_record) : list (Z * Z) := (fun r => (rc_time r, 1)) <$> recs.
Definition durations_ms (recs : list fc_record) : list (Z * Z) :=
  (fun r => (rc_time r, rc_duration r / 1000000)) <$> recs.

(** [v] if key [k] is among the [N] most recent keys of the history, else nothing. *)
Definition recent_value (N : nat) (l : list (Z * Z)) (k v : Z) : option Z :=
  if decide (k ∈ (fst <$> l) /\ (newer_keys k l < N)%nat) then Some v else None.

(** Its (unwrapped) total. *)
Definition recent_total (N : nat) (l : list (Z * Z)) (k : Z) : option Z :=
  recent_value N l k (sum_at k l).

(** [order] is one of the orders in which Go may iterate over the map. *)
Definition is_order {A} (order : list string) (m : gmap string A) : Prop :=
  order ≡ₚ (map_to_list m).*1.
