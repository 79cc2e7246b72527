(** impl/default_fast_compass.go: Record and the getters called by any number of
    goroutines.  Record runs under [subCategoriesMutex]; the getters take no
    lock and iterate over the same map.

    Go's runtime marks a map while an assignment is in progress and aborts the
    whole process ("concurrent map iteration and map write") when an iteration
    step finds the mark.  This is modelled by [fs_writing] and [fs_crashed];
    once the process is aborted nobody runs.

    Simplifications: memory is sequentially consistent; UpdateN runs in one step
    here, which is justified because only the lock holder updates the counter
    (interleaved UpdateN calls are the subject of Model/BucketCounterConc.v, and
    conc_agrees_with_sequential there relates the two); a getter is only modelled
    as far as its iteration over the map, as the number of its iteration steps. *)
From Verif.Go Require Import GoInt GoConc.
From Verif.Model Require Import BucketQueue BucketCounter FastCompass.
Local Open Scope Z_scope.

(** [fs_entered] and [fs_times] are history variables: the (duration, category)
    of the Record calls in the order in which they got the lock, and all values
    the clock has had. *)
Record fc_shared := FcShared {
  fs_fc : fast_compass;
  fs_locked : bool;
  fs_writing : bool;
  fs_crashed : bool;
  fs_clock : Z;
  fs_entered : list (Z * string);
  fs_times : list Z
}.

(** fast_compass.go:38-60.  [CGetter k]: a getter that makes [k] iteration steps. *)
Inductive fc_call := CRecord (d : Z) (cat : string) | CGetter (k : nat).

Inductive fpc :=
| FIdle                                      (* between calls *)
| FLock (d : Z) (cat : string)               (* line 88: waiting for the lock *)
| FLookup (d : Z) (cat : string)             (* lines 90-95 *)
| FCreate (d : Z) (cat : string)             (* lines 96-100: about to read the clock *)
| FAssign (d : Z) (cat : string) (ct : Z) (bc : bucket_counter)    (* line 101: assignment starts *)
| FAssigning (d : Z) (cat : string) (ct : Z) (bc : bucket_counter) (* line 101: assignment ends *)
| FUpdate (d : Z) (cat : string) (ct : option Z) (* line 104; [ct]: creation time if just created *)
| FUnlock                                    (* line 89: deferred Unlock *)
| FIter (k : nat).                           (* lines 74, 113, 131, 149: next iteration step *)

Record fthread := FThread { ft_todo : list fc_call; ft_pc : fpc }.

Definition with_fc (s : fc_shared) (fc : fast_compass) : fc_shared :=
  FcShared fc (fs_locked s) (fs_writing s) (fs_crashed s) (fs_clock s) (fs_entered s) (fs_times s).
Definition with_lock (s : fc_shared) (b : bool) : fc_shared :=
  FcShared (fs_fc s) b (fs_writing s) (fs_crashed s) (fs_clock s) (fs_entered s) (fs_times s).
Definition with_writing (s : fc_shared) (b : bool) : fc_shared :=
  FcShared (fs_fc s) (fs_locked s) b (fs_crashed s) (fs_clock s) (fs_entered s) (fs_times s).
Definition crash (s : fc_shared) : fc_shared :=
  FcShared (fs_fc s) (fs_locked s) (fs_writing s) true (fs_clock s) (fs_entered s) (fs_times s).
Definition enter (s : fc_shared) (d : Z) (cat : string) : fc_shared :=
  FcShared (fs_fc s) true (fs_writing s) (fs_crashed s) (fs_clock s) (fs_entered s ++ [(d, cat)]) (fs_times s).

Definition set_sub (fc : fast_compass) (m : gmap string bucket_counter) : fast_compass :=
  FastCompassImpl (fc_maxSubCategoryCount fc) (fc_bucketInterval fc) (fc_numberOfBuckets fc) m.

(** One step; [None]: nothing to do, waiting for the lock, aborted, or panicking. *)
Definition fc_tstep (s : fc_shared) (t : fthread) : option (fc_shared * fthread) :=
  let fc := fs_fc s in
  let goto s' pc := Some (s', FThread (ft_todo t) pc) in
  if fs_crashed s then None
  else
  match ft_pc t with
  | FIdle =>
      match ft_todo t with
      | [] => None
      | CRecord d cat :: todo => (* lines 84-86 *)
          if (d <? 0) || (Z.of_nat (String.length cat) <=? 0)
          then Some (s, FThread todo FIdle)
          else Some (s, FThread todo (FLock d cat))
      | CGetter k :: todo => Some (s, FThread todo (FIter k))
      end
  | FLock d cat => (* line 88 *)
      if fs_locked s then None else goto (enter s d cat) (FLookup d cat)
  | FLookup d cat => (* lines 90-95 *)
      if fs_writing s then goto (crash s) FIdle
      else
      match fc_subCategories fc !! cat with
      | Some _ => goto s (FUpdate d cat None)
      | None =>
          if fc_maxSubCategoryCount fc <=? Z.of_nat (size (fc_subCategories fc))
          then goto s FUnlock
          else goto s (FCreate d cat)
      end
  | FCreate d cat => (* lines 96-100 *)
      match newBucketCounterImpl (fc_bucketInterval fc) (fc_numberOfBuckets fc) (fs_clock s) false with
      | Ok bc => goto s (FAssign d cat (fs_clock s) bc)
      | Panic => None
      end
  | FAssign d cat ct bc => (* line 101 *)
      if fs_writing s then goto (crash s) FIdle
      else goto (with_writing s true) (FAssigning d cat ct bc)
  | FAssigning d cat ct bc => (* line 101 *)
      goto (with_writing (with_fc s (set_sub fc (<[cat := bc]> (fc_subCategories fc)))) false)
        (FUpdate d cat (Some ct))
  | FUpdate d cat ct => (* line 104 *)
      match fc_subCategories fc !! cat with
      | Some bc =>
          match bc_UpdateN bc (fs_clock s) (record_amount d) with
          | Ok bc' => goto (with_fc s (set_sub fc (<[cat := bc']> (fc_subCategories fc)))) FUnlock
          | Panic => None
          end
      | None => None
      end
  | FUnlock => goto (with_lock s false) FIdle (* line 89 *)
  | FIter k =>
      if fs_writing s then goto (crash s) FIdle
      else goto s (match k with O => FIdle | S k' => FIter k' end)
  end.

(** The clock may be set to any int64 value at any moment. *)
Definition fc_estep (s : fc_shared) (now : Z) : fc_shared :=
  FcShared (fs_fc s) (fs_locked s) (fs_writing s) (fs_crashed s) (wrap64 now) (fs_entered s)
    (fs_times s ++ [wrap64 now]).

(** Goroutines started on a compass in state [fc0]. *)
Definition fc_cinit (fc0 : fast_compass) (now0 : Z) (progs : list (list fc_call)) : config fc_shared fthread :=
  Config (FcShared fc0 false false false (wrap64 now0) [] [wrap64 now0]) ((fun p => FThread p FIdle) <$> progs).

Definition fc_crun (fc0 : fast_compass) (now0 : Z) (progs : list (list fc_call)) (sched : list (event Z))
  : config fc_shared fthread :=
  crun fc_tstep fc_estep (fc_cinit fc0 now0 progs) sched.
