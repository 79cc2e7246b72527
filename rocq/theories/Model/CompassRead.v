(** impl/default_compass.go with its reading methods, every access of a shared variable a
    step: goroutines that call GetCount, GetSuccessCount, GetInstantCount,
    GetInstantCountSince, LastUpdateTime, GetMeanRate, the rate getters and (of a compass
    with a bucket reservoir, impl/bucket_reservoir.go) GetSnapshot, and the reading methods
    of the bucket counters a compass hands out, while they and others call Update and
    UpdateWithError (Model/CompassFine.v).  The reading methods take no lock.

    Simplifications, besides those of Model/CompassFine.v and Model/BucketReadConc.v: a
    bucket's timestamp is read together with the pointer that leads to it (it never changes
    once the bucket is published).  GetSnapshot of the decaying reservoir takes its mutex
    and is not composed here (Model/DecayingConc.v has it). *)
From Verif.Go Require Import GoInt GoFloat GoConc GoCompose.
From Verif.Model Require Import Counter BucketQueue BucketCounter BucketCounterConc BucketReadConc BucketReservoir EWMA EWMAConc Compass CompassConc CompassFine.
Local Open Scope Z_scope.

(** The calls that only read: GetCount, GetBucketCountsSince and LastUpdateTime of the
    bucket counter [k]; GetMeanRate; GetRate of the average [k]; GetSnapshot of the bucket
    reservoir.  The last one takes the first element of an iteration over a map twice
    (bucket_reservoir.go:53-60), which may be any: [i], [j] say which. *)
Inductive rcall :=
| RCount (k : ckey)
| RSince (k : ckey) (start : Z)
| RLast (k : ckey)
| RMean
| RRate (k : ckey)
| RSnapshot (i j : nat).

(** What they return. *)
Inductive answer := AInt (n : Z) | ACounts (m : gmap Z Z) | AFloat (x : f64) | ASnapshot (s : bucket_snapshot).

(** The calls of a goroutine: those of Model/CompassFine.v and those that only read. *)
Inductive dcall := DWrite (call : kcall) | DRead (call : rcall).

(** default_compass.go:128-130, 144-146, 132-134, 136-138, 140-142, 94-101, 180-182 *)
Definition GetSuccessCount : list dcall := [DRead (RCount KSuccess)].
Definition GetCount : list dcall := [DRead (RCount KTotal)].
Definition GetInstantCount : list dcall := [DRead (RSince KTotal 0)].
Definition GetInstantCountSince (start : Z) : list dcall := [DRead (RSince KTotal start)].
Definition LastUpdateTime : list dcall := [DRead (RLast KTotal)].
Definition GetMeanRate : list dcall := [DRead RMean].
Definition GetSnapshot (i j : nat) : list dcall := [DRead (RSnapshot i j)].
(** default_compass.go:103-106, 89-92, 84-87: tickIfNecessary, then GetRate. *)
Definition GetOneMinuteRate : list dcall := [DWrite KRate; DRead (RRate KOne)].
Definition GetFiveMinuteRate : list dcall := [DWrite KRate; DRead (RRate KFive)].
Definition GetFifteenMinuteRate : list dcall := [DWrite KRate; DRead (RRate KFifteen)].

(** Where a goroutine is inside a call that only reads. *)
Inductive dpc :=
| DAt (call : rcall)                       (* before the first access *)
| DSince (k : ckey) (t : rdthread)         (* inside GetBucketCountsSince of the counter [k] *)
| DMean (count : Z)                        (* default_compass.go:96 *)
| DValue (start : Z) (i j : nat) (t : rdthread)     (* bucket_reservoir.go:44, inside GetBucketCountsSince *)
| DTotal (start value : Z) (j : nat) (t : rdthread). (* bucket_reservoir.go:47 *)

(** A call of GetBucketCountsSince (Model/BucketReadConc.v). *)
Definition since (start : Z) : rdthread := RdThread [] (RClock start) [].

(** bucket_reservoir.go:53-60: the element the iteration begins with. *)
Definition pick (m : gmap Z Z) (i : nat) : Z :=
  match map_to_list m with
  | [] => 0
  | l => match l !! (i mod length l)%nat with Some (_, v) => v | None => 0 end
  end.

(** A goroutine: its calls to come; where it is in the compass (Model/CompassFine.v); the
    reading call it is in; what its reading calls returned. *)
Record dthread := DThread { dt_todo : list dcall; dt_g : gthread kthread cin ckey cop; dt_read : option (rcall * dpc); dt_got : list (rcall * answer) }.

(** It is between two calls. *)
Definition at_rest (g : gthread kthread cin ckey cop) : bool :=
  match kt_todo (gt_client g), kt_pc (gt_client g), gt_in g with [], PIdle, None => true | _, _, _ => false end.
(** It begins a call. *)
Definition g_push (g : gthread kthread cin ckey cop) (l : list kcall) : gthread kthread cin ckey cop :=
  GThread (KThread (kt_todo (gt_client g) ++ l) (kt_pc (gt_client g)) (kt_panics (gt_client g))) (gt_in g) (gt_local g) (gt_made g).

Section compass.
  Context (math_Exp : f64 -> f64) (rk : reservoir_kind).
  Context (I N maxE maxA : Z).
  Context (startTime : Z). (* default_compass.go:53, set once *)

  Notation gsh := (gshared cp_shared cenv ckey cobj).

  Definition counter_of (s : gsh) (k : ckey) : option bc_shared :=
    match gs_objs s !! k with Some (OCounter b) => Some b | _ => None end.
  Definition average_of (s : gsh) (k : ckey) : option ewma_shared :=
    match gs_objs s !! k with Some (OAverage b) => Some b | _ => None end.

  (** default_compass.go:95-100 *)
  Definition mean_rate (count tick : Z) : f64 :=
    let elapsed := wrap64 (tick - startTime) in
    if (count =? 0) || (elapsed <=? 0) then f0
    else fmul (fdiv (f_of_int count) (f_of_int elapsed)) (f_of_int Second).

  (** One step of a reading call: it goes on, or returns. *)
  Definition read_step (s : gsh) (pc : dpc) : option (dpc + answer) :=
    match pc with
    | DAt (RCount k) => b ← counter_of s k; Some (inr (AInt (bc_GetCount (bs_bc b))))   (* default_bucket_counter.go:78-80 *)
    | DAt (RLast k) =>                                                                  (* default_bucket_counter.go:69-75 *)
        b ← counter_of s k;
        match bc_LastUpdateTime (bs_bc b) with Ok t => Some (inr (AInt t)) | Panic => None end
    | DAt (RSince k start) => Some (inl (DSince k (since start)))
    | DAt RMean => b ← counter_of s KTotal; Some (inl (DMean (bc_GetCount (bs_bc b))))  (* default_compass.go:95 *)
    | DAt (RRate k) => a ← average_of s k; Some (inr (AFloat (ew_GetRate (es_ewma a) Second))) (* ewma.go:96-98 *)
    | DAt (RSnapshot i j) =>                                                            (* bucket_reservoir.go:43, 62-70 *)
        b ← counter_of s KValues;
        match br_alignToBucketStartTimeInMs (BucketReservoir (bs_bc b) I) (wrap64 (ce_ms (gs_env s))) with
        | Ok start => Some (inl (DValue start i j (since start)))
        | Panic => None
        end
    | DSince k t =>
        b ← counter_of s k;
        match rd_step b t with
        | Some (RdThread [] RIdle [m]) => Some (inr (ACounts m))
        | Some t' => Some (inl (DSince k t'))
        | None => None
        end
    | DMean count => Some (inr (AFloat (mean_rate count (cs_clock (gs_client s)))))     (* default_compass.go:96-100 *)
    | DValue start i j t =>                                                             (* bucket_reservoir.go:44-45 *)
        b ← counter_of s KValues;
        match rd_step b t with
        | Some (RdThread [] RIdle [m]) => Some (inl (DTotal start (pick m i) j (since start)))
        | Some t' => Some (inl (DValue start i j t'))
        | None => None
        end
    | DTotal start value j t =>                                                         (* bucket_reservoir.go:47-50 *)
        b ← counter_of s KTotal;
        match rd_step b t with
        | Some (RdThread [] RIdle [m]) => Some (inr (ASnapshot (NewBucketSnapshot (pick m j) value)))
        | Some t' => Some (inl (DTotal start value j t'))
        | None => None
        end
    end.

  Definition cf_gstep := gstep (cp_tstep I maxE maxA) cs_crashed (cf_effect rk I N) (cobj_step math_Exp) cin_idle cin_push cin_returned.

  (** One step of a goroutine. *)
  Definition cr_tstep (s : gsh) (t : dthread) : option (gsh * dthread) :=
    if cs_crashed (gs_client s) then None else
    match dt_read t with
    | Some (call, pc) =>
        match read_step s pc with
        | Some (inl pc') => Some (s, DThread (dt_todo t) (dt_g t) (Some (call, pc')) (dt_got t))
        | Some (inr a) => Some (s, DThread (dt_todo t) (dt_g t) None (dt_got t ++ [(call, a)]))
        | None => None
        end
    | None =>
        if at_rest (dt_g t) then
          match dt_todo t with
          | [] => None
          | DWrite call :: todo => Some (s, DThread todo (g_push (dt_g t) [call]) None (dt_got t))
          | DRead call :: todo => Some (s, DThread todo (dt_g t) (Some (call, DAt call)) (dt_got t))
          end
        else
          match cf_gstep s (dt_g t) with
          | Some (s', g') => Some (s', DThread (dt_todo t) g' None (dt_got t))
          | None => None
          end
    end.
End compass.

(** A new compass created when the environment shows [e0], used by goroutines with the
    programs [progs]; [None]: the constructor panics. *)
Definition cr_run (math_Exp : f64 -> f64) (rk : reservoir_kind) (I N maxE maxA : Z) (e0 : cenv) (progs : list (list dcall)) (sched : list (event cenv))
  : option (config (gshared cp_shared cenv ckey cobj) dthread) :=
  match cf_objs0 rk I N e0 with
  | Some objs0 =>
      Some (crun (cr_tstep math_Exp rk I N maxE maxA (ce_ms e0)) (gestep cf_estep cobj_estep)
        (Config (GShared (shared (cp_cinit (ce_ms e0) (ce_tick e0) [])) objs0 e0)
           ((fun p => DThread p (GThread (KThread [] PIdle []) None ∅ []) None []) <$> progs)) sched)
  | None => None
  end.
