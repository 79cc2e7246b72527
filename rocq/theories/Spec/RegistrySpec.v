(** Vocabulary for the registry statements. *)
From Verif.Go Require Import GoInt.
From Verif.Model Require Import Registry.
Local Open Scope Z_scope.

(** A metric that records (as opposed to the no-op metrics). *)
Definition records (m : metric) : bool :=
  match m with MCompass _ _ | MFastCompass _ _ _ _ => true | _ => false end.

(** The number of different metrics listed that record. *)
Definition recording_entries (entries : gmap string mentry) : Z :=
  Z.of_nat (size (filter (fun ke => records (e_metric ke.2) = true) entries)).

(** The hash keys looked up, each once. *)
Definition hashes (ops : list (mkind * nameref)) : gset string := list_to_set ((fun o => nm_hash o.2) <$> ops).

(** What a metric is apart from its identity. *)
Definition shape (m : metric) : mkind * bool :=
  match m with
  | MCompass _ _ => (KCompass, true) | MNopCompass => (KCompass, false)
  | MFastCompass _ _ _ _ => (KFastCompass, true) | MNopFastCompass => (KFastCompass, false)
  end.
Definition res_shape (x : res metric) : option (mkind * bool) :=
  match x with Ok m => Some (shape m) | Panic => None end.

(** The lookups of one group. *)
Fixpoint group_ops (g : string) (ops : list mgr_op) : list (mkind * nameref) :=
  match ops with
  | [] => []
  | OpGet k g' name :: ops' => if decide (g' = g) then (k, name) :: group_ops g ops' else group_ops g ops'
  | OpSetEnable _ :: ops' => group_ops g ops'
  end.

(** The answers to them. *)
Fixpoint group_results (g : string) (ops : list mgr_op) (rs : list (option (res metric))) : list (res metric) :=
  match ops, rs with
  | OpGet k g' name :: ops', Some x :: rs' =>
      if decide (g' = g) then x :: group_results g ops' rs' else group_results g ops' rs'
  | _ :: ops', _ :: rs' => group_results g ops' rs'
  | _, _ => []
  end.
