(** metric_name.go.  The order in which Go ranges over the tag map is an input
    ([order]: some permutation of the map's entries). *)
From Verif.Go Require Import GoInt GoConc.
Local Open Scope Z_scope.

(** metric_name.go:24-27 *)
Definition keyTagsSeparator : string := "-".
Definition keyValueSeparator : string := ":".

(** metric_name.go:33-39; [mn_done] is the flag of the sync.Once. *)
Record MetricName := mkMetricName {
  mn_Key : string;
  mn_Tags : gmap string string;
  mn_Level : Z;
  mn_done : bool;
  mn_hashKey : string
}.

(** metric_name.go:66-75; a nil tag map (None) is replaced by an empty one. *)
Definition NewMetricName (key : string) (tags : option (gmap string string)) (level : Z) : MetricName :=
  mkMetricName key (default ∅ tags) level false "".

(** metric_name.go:56-58  the loop over the tags *)
Fixpoint hash_tags (h : string) (order : list (string * string)) : string :=
  match order with
  | [] => h
  | (key, value) :: order' => hash_tags (h +:+ (key +:+ keyValueSeparator +:+ value)) order'
  end.

(** metric_name.go:49-59  the function run once *)
Definition hash_of (key : string) (tags : gmap string string) (order : list (string * string)) : string :=
  if (size tags <=? 0)%nat then key else hash_tags (key +:+ keyTagsSeparator) order.

(** metric_name.go:48-61 *)
Definition HashKey (mn : MetricName) (order : list (string * string)) : MetricName * string :=
  if mn_done mn then (mn, mn_hashKey mn)
  else let h := hash_of (mn_Key mn) (mn_Tags mn) order in
       (mkMetricName (mn_Key mn) (mn_Tags mn) (mn_Level mn) true h, h).

(** What may happen to a MetricName: HashKey, and the caller writing its
    exported fields. *)
Inductive name_op :=
| NHash (order : list (string * string))
| NSetKey (k : string)
| NSetTags (t : gmap string string)
| NSetLevel (l : Z).

Definition name_act (mn : MetricName) (op : name_op) : MetricName * option string :=
  match op with
  | NHash order => let '(mn', h) := HashKey mn order in (mn', Some h)
  | NSetKey k => (mkMetricName k (mn_Tags mn) (mn_Level mn) (mn_done mn) (mn_hashKey mn), None)
  | NSetTags t => (mkMetricName (mn_Key mn) t (mn_Level mn) (mn_done mn) (mn_hashKey mn), None)
  | NSetLevel l => (mkMetricName (mn_Key mn) (mn_Tags mn) l (mn_done mn) (mn_hashKey mn), None)
  end.

Fixpoint name_run (mn : MetricName) (ops : list name_op) : MetricName * list (option string) :=
  match ops with
  | [] => (mn, [])
  | op :: ops' =>
      let '(mn1, r) := name_act mn op in
      let '(mn2, rs) := name_run mn1 ops' in
      (mn2, r :: rs)
  end.

(** ** Several goroutines calling HashKey on one name.
    sync.Once.Do: an atomic load of the flag (fast path); else lock the mutex,
    look at the flag again, run the function, set the flag, unlock.  The function
    appends to [hashKey] one tag at a time.  Each goroutine makes one call with
    its own iteration order. *)
Inductive once_pc :=
| OLoad                                      (* fast path: load done *)
| OLock                                      (* m.Lock() *)
| OCheck                                     (* done == 0 ? *)
| OKey                                       (* mn.hashKey = mn.Key; len(Tags) <= 0 *)
| OSep                                       (* mn.hashKey += "-" *)
| OTags (rest : list (string * string))      (* range mn.Tags *)
| OSetDone                                   (* deferred store of done *)
| OUnlock                                    (* deferred m.Unlock() *)
| ORead                                      (* return mn.hashKey *)
| ORet (h : string).

Record once_shared := OnceShared { os_done : bool; os_locked : bool; os_hashKey : string }.
Record once_thread := OnceThread { ot_order : list (string * string); ot_pc : once_pc }.

Definition once_step (key : string) (tags : gmap string string) (s : once_shared) (t : once_thread) :
  option (once_shared * once_thread) :=
  let goto pc := OnceThread (ot_order t) pc in
  match ot_pc t with
  | OLoad => Some (s, goto (if os_done s then ORead else OLock))
  | OLock => if os_locked s then None else Some (OnceShared (os_done s) true (os_hashKey s), goto OCheck)
  | OCheck => Some (s, goto (if os_done s then OUnlock else OKey))
  | OKey => Some (OnceShared (os_done s) (os_locked s) key,
                  goto (if (size tags <=? 0)%nat then OSetDone else OSep))
  | OSep => Some (OnceShared (os_done s) (os_locked s) (os_hashKey s +:+ keyTagsSeparator), goto (OTags (ot_order t)))
  | OTags [] => Some (s, goto OSetDone)
  | OTags ((k, v) :: rest) =>
      Some (OnceShared (os_done s) (os_locked s) (os_hashKey s +:+ (k +:+ keyValueSeparator +:+ v)), goto (OTags rest))
  | OSetDone => Some (OnceShared true (os_locked s) (os_hashKey s), goto OUnlock)
  | OUnlock => Some (OnceShared (os_done s) false (os_hashKey s), goto ORead)
  | ORead => Some (s, goto (ORet (os_hashKey s)))
  | ORet _ => None
  end.

Definition once_crun (key : string) (tags : gmap string string) (orders : list (list (string * string)))
  (sched : list (event Empty_set)) : config once_shared once_thread :=
  crun (once_step key tags) (fun s _ => s)
    (Config (OnceShared false false "") ((fun o => OnceThread o OLoad) <$> orders)) sched.

(** ** Goroutines that make several calls each, one after the other: the calls that have
    returned, the one it is in, the ones to come. *)
Fixpoint calls_step (key : string) (tags : gmap string string) (s : once_shared) (calls : list once_thread) :
  option (once_shared * list once_thread) :=
  match calls with
  | [] => None
  | t :: calls' =>
      match ot_pc t with
      | ORet _ => match calls_step key tags s calls' with Some (s', calls'') => Some (s', t :: calls'') | None => None end
      | _ => match once_step key tags s t with Some (s', t') => Some (s', t' :: calls') | None => None end
      end
  end.
Definition calls_crun (key : string) (tags : gmap string string) (progs : list (list (list (string * string))))
  (sched : list (event Empty_set)) : config once_shared (list once_thread) :=
  crun (calls_step key tags) (fun s _ => s)
    (Config (OnceShared false false "") (map (map (fun o => OnceThread o OLoad)) progs)) sched.
