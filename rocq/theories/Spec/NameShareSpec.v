(** What it means that names are independent of each other (C155), and the accesses HashKey
    makes to a name (C154). *)
From Verif.Go Require Import GoInt GoConc.
From Verif.Model Require Import MetricName NameHeap.
From Verif.Spec Require Import RaceSpec BucketSpec.
Local Open Scope Z_scope.

(** Nothing is done to any name but number [n], except that it is made. *)
Definition on_name (n : nat) (op : nh_op) : bool :=
  match op with
  | HMap _ | HNew _ _ _ => true
  | HPut i _ _ | HDel i _ | HSetKey i _ | HSetLevel i _ | HHash i _ => (i =? n)%nat
  end.
Definition leave_others_alone (n : nat) (ops : list nh_op) : list nh_op :=
  List.filter (on_name n) ops.

(** What the calls of HashKey on name number [n] return, one after the other. *)
Definition hash_keys (n : nat) (ops : list nh_op) : list (option string) :=
  omap (fun '(op, r) => match op with HHash i _ => if (i =? n)%nat then Some r else None | _ => None end)
       (nh_run nheap0 ops).2.

(** The maps given to the names at their creation, in order; nil counts as one map (0). *)
Definition maps_given (ops : list nh_op) : list nat :=
  omap (fun op => match op with HNew _ tags _ => Some (default 0%nat tags) | _ => None end) ops.

(** The writes to tag maps: through which name. *)
Definition writes_tags_of (i : nat) (op : nh_op) : Prop :=
  match op with HPut j _ _ | HDel j _ => j = i | _ => False end.

(** The variables of a name that HashKey uses beside the key and the tags, which nobody
    writes here: the flag of the Once, the hash key.  The step's other accesses are to the
    Once's mutex. *)
Inductive name_var := VDone | VHashKey.
Definition once_next (s : once_shared) (t : once_thread) : list (access name_var) :=
  match ot_pc t with
  | OLoad => [atomic_load VDone]
  | OLock | OUnlock | OTags [] | ORet _ => []
  | OCheck => [loads VDone]
  | OKey => [stores VHashKey]
  | OSep | OTags (_ :: _) => [loads VHashKey; stores VHashKey]
  | OSetDone => [atomic_op VDone]
  | ORead => [loads VHashKey]
  end.
Definition once_same (v : name_var) (s1 s2 : once_shared) : Prop :=
  match v with VDone => os_done s1 = os_done s2 | VHashKey => os_hashKey s1 = os_hashKey s2 end.
Definition once_rest (s1 s2 : once_shared) : Prop := os_locked s1 = os_locked s2.

(** The accesses of a goroutine that makes several calls: those of the call it is in or begins. *)
Fixpoint calls_next (s : once_shared) (calls : list once_thread) : list (access name_var) :=
  match calls with
  | [] => []
  | t :: calls' => match ot_pc t with ORet _ => calls_next s calls' | _ => once_next s t end
  end.

(** What HashKey calls may cost: nine steps each, and one per tag. *)
Definition hash_call_cost (order : list (string * string)) : Z := 9 + Z.of_nat (length order).
Definition hash_cost (progs : list (list (list (string * string)))) : Z := sumZ (hash_call_cost <$> mjoin progs).
(** All calls of the goroutine have returned. *)
Definition calls_returned (calls : list once_thread) : Prop := forall t, t ∈ calls -> exists h, ot_pc t = ORet h.
