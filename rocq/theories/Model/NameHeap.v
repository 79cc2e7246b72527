(** metric_name.go with its tag maps on the heap: a Go map is a reference, so names that were
    given the same map share it.  [nh_maps]: the maps; number 0 is the package variable
    [emptyTags] (metric_name.go:29-31), 1, 2, ... are the ones the callers made. *)
From Verif.Go Require Import GoInt GoConc.
From Verif.Model Require Import MetricName.
Local Open Scope Z_scope.

(** metric_name.go:33-39; the tags are the number of a map. *)
Record hname := HName {
  hn_Key : string;
  hn_Tags : nat;
  hn_Level : Z;
  hn_done : bool;
  hn_hashKey : string
}.

Record nheap := NHeap { nh_maps : list (gmap string string); nh_names : list hname }.
Definition nheap0 : nheap := NHeap [∅] [].

(** What a program may do with names: make a map; metric_name.go:66-75 NewMetricName; write to
    the map of name number [i] ([mn.Tags[k] = v], [delete(mn.Tags, k)]); assign to its fields;
    metric_name.go:48-61 HashKey.  Programs only use names and maps that they have made;
    what the model does with others (nothing, or an empty map) is of no account. *)
Inductive nh_op :=
| HMap (t : gmap string string)
| HNew (key : string) (tags : option nat) (level : Z)
| HPut (i : nat) (k v : string)
| HDel (i : nat) (k : string)
| HSetKey (i : nat) (k : string)
| HSetLevel (i : nat) (l : Z)
| HHash (i : nat) (order : list (string * string)).

(** The name with the tags its map has now, and back; HashKey leaves the map alone. *)
Definition name_view (maps : list (gmap string string)) (n : hname) : MetricName :=
  mkMetricName (hn_Key n) (default ∅ (maps !! hn_Tags n)) (hn_Level n) (hn_done n) (hn_hashKey n).
Definition name_back (n : hname) (mn : MetricName) : hname :=
  HName (mn_Key mn) (hn_Tags n) (mn_Level mn) (mn_done mn) (mn_hashKey mn).

Definition put_map (h : nheap) (i : nat) (f : gmap string string -> gmap string string) : nheap :=
  match nh_names h !! i with
  | Some n => NHeap (alter f (hn_Tags n) (nh_maps h)) (nh_names h)
  | None => h
  end.
Definition put_name (h : nheap) (i : nat) (f : hname -> hname) : nheap :=
  NHeap (nh_maps h) (alter f i (nh_names h)).

Definition nh_act (h : nheap) (op : nh_op) : nheap * option string :=
  match op with
  | HMap t => (NHeap (nh_maps h ++ [t]) (nh_names h), None)
  | HNew key tags level =>
      (* metric_name.go:67-69  if tags == nil { tags = emptyTags } *)
      (NHeap (nh_maps h) (nh_names h ++ [HName key (default 0%nat tags) level false ""]), None)
  | HPut i k v => (put_map h i (<[k := v]>), None)
  | HDel i k => (put_map h i (delete k), None)
  | HSetKey i k => (put_name h i (fun n => HName k (hn_Tags n) (hn_Level n) (hn_done n) (hn_hashKey n)), None)
  | HSetLevel i l => (put_name h i (fun n => HName (hn_Key n) (hn_Tags n) l (hn_done n) (hn_hashKey n)), None)
  | HHash i order =>
      match nh_names h !! i with
      | Some n => let '(mn', r) := HashKey (name_view (nh_maps h) n) order in
                  (put_name h i (fun _ => name_back n mn'), Some r)
      | None => (h, None)
      end
  end.

Fixpoint nh_run (h : nheap) (ops : list nh_op) : nheap * list (nh_op * option string) :=
  match ops with
  | [] => (h, [])
  | op :: ops' =>
      let '(h1, r) := nh_act h op in
      let '(h2, rs) := nh_run h1 ops' in
      (h2, (op, r) :: rs)
  end.
