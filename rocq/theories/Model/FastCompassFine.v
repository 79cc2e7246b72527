(** impl/default_fast_compass.go with every access of a shared variable a step: Record, the
    map getters and LastUpdateTime called by any number of goroutines.  Up to and including
    the map assignment Record takes the steps of Model/FastCompassConc.v; its UpdateN takes
    the steps of Model/BucketCounterConc.v, and the GetBucketCountsSince of each counter in
    a getter takes those of Model/BucketReadConc.v.

    Simplifications: those of the three models, but no longer that UpdateN is one step and
    a getter only its iteration.  A counter is identified with the category it was entered
    under (it is entered once and never removed or replaced; before it is entered only the
    goroutine that created it has it).  Line 112 (130, 148) reads the length of the map only
    to size the result: left out.

    Go's iteration over a map visits every entry that is there when it starts exactly once,
    in an unspecified order; an entry added in the meantime may be visited or not.  Here a
    getter is called with a list [order] of keys: it visits the different ones of them that
    are in the map when their turn comes, and after them the others that were there at the
    start. *)
From Verif.Go Require Import GoInt GoConc.
From Verif.Model Require Import Counter BucketQueue BucketCounter FastCompass BucketCounterConc BucketReadConc FastCompassConc.
Local Open Scope Z_scope.

(** default_fast_compass.go:111-159: which of the three getters. *)
Inductive getter := GCount | GRt | GBoth.
(** Lines 117-118, 135-136, 153-154. *)
Definition decode (g : getter) (count : Z) : Z :=
  match g with
  | GCount => uint64_to_int64 (Z.shiftr (to_uint64 count) countOffset)
  | GRt => uint64_to_int64 (Z.land (to_uint64 count) rtBitwiseAndBase)
  | GBoth => count
  end.

(** fast_compass.go:38-60 *)
Inductive qcall := QRecord (d : Z) (cat : string) | QGet (g : getter) (start : Z) (order : list string) | QLast (order : list string).
(** What a getter has computed so far, or returned. *)
Inductive qjob := JMap (g : getter) (start : Z) (result : gmap string (gmap Z Z)) | JLast (result : Z).

Inductive qpc :=
| QAt (pc : fpc)                                           (* lines 84-101, 89: as in FastCompassConc *)
| QUpdate (d : Z) (cat : string) (ct : option Z) (u : bthread) (* line 104: inside UpdateN *)
| QStart (job : qjob) (order : list string)                (* lines 113, 131, 149, 74: the iteration starts *)
| QIter (job : qjob) (rest : list string)                  (* its next step *)
| QRead (g : getter) (start : Z) (result : gmap string (gmap Z Z)) (cat : string) (r : rdthread) (rest : list string)
                                                           (* lines 114, 132, 150: inside GetBucketCountsSince *)
| QLoad (result : Z) (cat : string) (rest : list string)   (* line 75, default_bucket_counter.go:70: load latestBucket *)
| QStamp (result : Z) (cat : string) (p : ptr) (rest : list string). (* ... and read its timestamp *)

(** [q_got]: what the finished getter calls have returned. *)
Record qthread := QThread { q_todo : list qcall; q_pc : qpc; q_got : list qjob }.

(** The keys an iteration that starts on the map [m] will try. *)
Definition iteration {A} (order : list string) (m : gmap string A) : list string :=
  remove_dups order ++ filter (fun cat => cat ∉ order) (map_to_list m).*1.

(** The steps that are those of Model/FastCompassConc.v. *)
Definition ff_at (s : fc_shared) (t : qthread) (pc : fpc) : option (fc_shared * qthread) :=
  match fc_tstep s (FThread [] pc) with
  | Some (s', u) => Some (s', QThread (q_todo t) (QAt (ft_pc u)) (q_got t))
  | None => None
  end.

(** The iteration goes to the next entry: [rest] are the keys it will try. *)
Definition next_entry (s : fc_shared) (t : qthread) (job : qjob) (rest : list string) : qthread :=
  match rest with
  | [] => QThread (q_todo t) (QAt FIdle) (q_got t ++ [job])
  | cat :: rest =>
      QThread (q_todo t)
        match fc_subCategories (fs_fc s) !! cat with
        | Some _ =>
            match job with
            | JMap g start result => QRead g start result cat (RdThread [] (RClock start) []) rest
            | JLast result => QLoad result cat rest
            end
        | None => QIter job rest
        end (q_got t)
  end.

(** One step; [None]: nothing to do, waiting for the lock, aborted, or panicking. *)
Definition ff_tstep (s : fc_shared) (t : qthread) : option (fc_shared * qthread) :=
  let fc := fs_fc s in
  let goto s' pc := Some (s', QThread (q_todo t) pc (q_got t)) in
  if fs_crashed s then None
  else
  match q_pc t with
  | QAt FIdle =>
      match q_todo t with
      | [] => None
      | QRecord d cat :: todo => (* lines 84-86 *)
          if (d <? 0) || (Z.of_nat (String.length cat) <=? 0)
          then Some (s, QThread todo (QAt FIdle) (q_got t))
          else Some (s, QThread todo (QAt (FLock d cat)) (q_got t))
      | QGet g start order :: todo => Some (s, QThread todo (QStart (JMap g start ∅) order) (q_got t)) (* line 112 *)
      | QLast order :: todo => Some (s, QThread todo (QStart (JLast 0) order) (q_got t)) (* line 73 *)
      end
  | QAt (FUpdate d cat ct) => goto s (QUpdate d cat ct (BThread [record_amount d] PIdle)) (* line 104: the call *)
  | QAt pc => ff_at s t pc
  | QUpdate d cat ct (BThread [] PIdle) => goto s (QAt FUnlock) (* UpdateN has returned *)
  | QUpdate d cat ct u =>
      match fc_subCategories fc !! cat with
      | Some bc =>
          match bc_tstep (BcShared bc (fs_clock s)) u with
          | Some (o, u') => goto (with_fc s (set_sub fc (<[cat := bs_bc o]> (fc_subCategories fc)))) (QUpdate d cat ct u')
          | None => None
          end
      | None => None
      end
  | QStart job order =>
      if fs_writing s then goto (crash s) (QAt FIdle)
      else Some (s, next_entry s t job (iteration order (fc_subCategories fc)))
  | QIter job rest =>
      if fs_writing s then goto (crash s) (QAt FIdle)
      else Some (s, next_entry s t job rest)
  | QRead g start result cat r rest =>
      match rd_got r with
      | m :: _ => goto s (QIter (JMap g start (<[cat := decode g <$> m]> result)) rest) (* lines 115-120 *)
      | [] =>
          match fc_subCategories fc !! cat with
          | Some bc => match rd_step (BcShared bc (fs_clock s)) r with Some r' => goto s (QRead g start result cat r' rest) | None => None end
          | None => None
          end
      end
  | QLoad result cat rest =>
      match fc_subCategories fc !! cat with
      | Some bc => goto s (QStamp result cat (bc_latestBucket bc) rest)
      | None => None
      end
  | QStamp result cat p rest => (* default_bucket_counter.go:70-74, default_fast_compass.go:76-78 *)
      match fc_subCategories fc !! cat with
      | Some bc =>
          match bc_heap bc !! p with
          | Some b =>
              let updatedTime := if bk_ts b <=? 0 then bc_initTimestamp bc else bk_ts b in
              goto s (QIter (JLast (if result <? updatedTime then updatedTime else result)) rest)
          | None => None
          end
      | None => None
      end
  end.

(** Goroutines started on a compass in state [fc0]. *)
Definition ff_cinit (fc0 : fast_compass) (now0 : Z) (progs : list (list qcall)) : config fc_shared qthread :=
  Config (FcShared fc0 false false false (wrap64 now0) [] [wrap64 now0]) ((fun p => QThread p (QAt FIdle) []) <$> progs).

Definition ff_crun (fc0 : fast_compass) (now0 : Z) (progs : list (list qcall)) (sched : list (event Z)) : config fc_shared qthread :=
  crun ff_tstep fc_estep (ff_cinit fc0 now0 progs) sched.
