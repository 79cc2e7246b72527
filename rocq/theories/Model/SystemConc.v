(** The whole library in use: a manager and registries (Model/RegistryConc.v), the
    compasses they create with all the objects those are made of (Model/CompassFine.v), read
    while they are updated (Model/CompassRead.v), and
    the fast compasses they create (Model/FastCompassFine.v), any number of goroutines,
    every access of a shared variable a step.  A goroutine looks metrics up and calls
    methods of the metrics it, or another goroutine, was given.

    Simplifications, besides those of the models named: a metric is created (its
    constructor reads the clock) in one step, that of impl/default_registry.go:125; a
    goroutine that uses another goroutine's metric waits until it has been returned (it has
    got it through some synchronisation).  When the runtime aborts the process
    because of concurrent accesses of a map of one metric, only the goroutines inside that
    metric stop here: the executions of a program that is aborted are prefixes of these. *)
From Verif.Go Require Import GoInt GoFloat GoConc GoCompose.
From Verif.Model Require Import Config Registry RegistryConc BucketCounter UniformReservoir FastCompass FastCompassConc FastCompassFine Compass CompassTypes CompassConc CompassFine CompassRead.
Local Open Scope Z_scope.

(** A call of a method of a compass (compass.go:20-70; Model/CompassRead.v says which calls a
    method consists of: GetCount, GetSnapshot, ...; Update and UpdateWithError are one) or
    fast compass (fast_compass.go:38-60). *)
Inductive ucall := UCompass (method : list dcall) | UFast (call : qcall).
(** What a goroutine does: a call of a registry or the manager; a call of a method of the
    metric goroutine [i] was given by its [j]-th such call. *)
Inductive saction := SLookup (op : rop) | SUse (i j : nat) (u : ucall).

(** Its calls of registries and the manager. *)
Definition lookups (plan : list saction) : list rop := omap (fun a => match a with SLookup op => Some op | SUse _ _ _ => None end) plan.

(** The registries and the manager, and what each goroutine's lookups have returned. *)
Record sy_shared := SyShared { sy_reg : rshared; sy_handles : gmap nat (list (option (res metric))) }.
(** A goroutine: its number, where it is in the registry, what it has still to do. *)
Record sthread := SThread { st_id : nat; st_reg : rthread; st_plan : list saction }.

Definition handle_at (s : sy_shared) (i j : nat) : option (option (res metric)) := default [] (sy_handles s !! i) !! j.

Definition sy_reg_step (s : sy_shared) (t : sthread) (plan : list saction) : option (sy_shared * sthread) :=
  match rstep (sy_reg s) (st_reg t) with
  | Some (r', reg') => Some (SyShared r' (<[st_id t := (rt_got reg').*2]> (sy_handles s)), SThread (st_id t) reg' plan)
  | None => None
  end.
Definition sy_tstep (s : sy_shared) (t : sthread) : option (sy_shared * sthread) :=
  match rt_pc (st_reg t) with
  | RegistryConc.PIdle =>
      match st_plan t with
      | [] => None
      | SLookup _ :: plan => sy_reg_step s t plan
      | SUse i j _ :: plan => match handle_at s i j with Some _ => Some (s, SThread (st_id t) (st_reg t) plan) | None => None end
      end
  | _ => sy_reg_step s t (st_plan t)
  end.

(** The metrics: a compass with its parameters, the kind of its reservoir and its start time
    (default_compass.go:53), or a fast
    compass with its parameters (bucketInterval, numberOfBuckets, maxSubCategoryCount). *)
Inductive mobj :=
| OCompass (p : compass_params) (rk : reservoir_kind) (start : Z) (s : gshared cp_shared cenv ckey cobj)
| OFast (interval bucketCount maxSub : Z) (s : fc_shared).

(** default_compass.go:219-228 *)
Definition reservoir_of (reservoirType : Z) : reservoir_kind :=
  if reservoirType =? BucketReservoirType then RBucket
  else if reservoirType =? UniformReservoirType then RUniform defaultUniformReservoirSize
  else RDecaying EdrDefaultSize EdrDefaultAlpha.

(** default_registry.go:92-100, 108-110; default_compass.go:213-245; default_fast_compass.go:165-174 *)
Definition new_metric (m : metric) (e : cenv) : option mobj :=
  match m with
  | MCompass _ p =>
      let rk := reservoir_of (cpp_reservoirType p) in
      match cf_objs0 rk (cpp_bucketInterval p) (cpp_numOfBucket p) e with
      | Some objs0 => Some (OCompass p rk (ce_ms e) (GShared (shared (cp_cinit (ce_ms e) (ce_tick e) [])) objs0 e))
      | None => None
      end
  | MFastCompass _ interval n maxSub => Some (OFast interval n maxSub (shared (fc_cinit (newFastCompass maxSub interval n) (ce_ms e) [])))
  | _ => None
  end.

(** The objects are known by their addresses.  A method of a no-op metric
    (impl/nop_compass.go, impl/nop_fast_compass.go) does nothing; a method of a metric of
    the other kind cannot be called. *)
Definition sy_effect (s : sy_shared) (t : sthread) (e : cenv) : option (effect nat ucall mobj) :=
  match rt_pc (st_reg t) with
  | PCreate r k name =>
      match new_metric (create k name (rs_next (sy_reg s))) e with
      | Some o => Some (Create (rs_next (sy_reg s)) o)
      | None => None
      end
  | RegistryConc.PIdle =>
      match st_plan t with
      | SUse i j u :: _ =>
          match handle_at s i j, u with
          | Some (Some (Ok (MCompass ref _))), UCompass _ => Some (Invoke ref u)
          | Some (Some (Ok (MFastCompass ref _ _ _))), UFast _ => Some (Invoke ref u)
          | _, _ => Some Silent
          end
      | _ => Some Silent
      end
  | _ => Some Silent
  end.

(** Where a goroutine is inside a metric (of whichever kind it is). *)
Record min := MIn { mi_compass : dthread; mi_fast : qthread }.
Definition min_idle : min := MIn (DThread [] (GThread (KThread [] CompassConc.PIdle []) None ∅ []) None []) (QThread [] (QAt FIdle) []).
Definition d_push (t : dthread) (method : list dcall) : dthread := DThread (dt_todo t ++ method) (dt_g t) (dt_read t) (dt_got t).
Definition min_push (t : min) (u : ucall) : min :=
  match u with
  | UCompass method => MIn (d_push (mi_compass t) method) (mi_fast t)
  | UFast call => MIn (mi_compass t) (QThread (q_todo (mi_fast t) ++ [call]) (q_pc (mi_fast t)) (q_got (mi_fast t)))
  end.
Definition min_returned (t : min) : bool :=
  match dt_todo (mi_compass t), dt_read (mi_compass t), at_rest (dt_g (mi_compass t)), q_todo (mi_fast t), q_pc (mi_fast t) with
  | [], None, true, [], QAt FIdle => true
  | _, _, _, _, _ => false
  end.

Section system.
  Context (math_Exp : f64 -> f64).

  Definition compass_step (p : compass_params) (rk : reservoir_kind) (start : Z) :=
    cr_tstep math_Exp rk (cpp_bucketInterval p) (cpp_numOfBucket p) (cpp_maxErrorCodeCount p) (cpp_maxAddonCount p) start.
  Definition mobj_step (o : mobj) (t : min) : option (mobj * min) :=
    match o with
    | OCompass p rk start s => match compass_step p rk start s (mi_compass t) with Some (s', g) => Some (OCompass p rk start s', MIn g (mi_fast t)) | None => None end
    | OFast i n m s => match ff_tstep s (mi_fast t) with Some (s', f) => Some (OFast i n m s', MIn (mi_compass t) f) | None => None end
    end.
  Definition mobj_estep (o : mobj) (e : cenv) : mobj :=
    match o with
    | OCompass p rk start s => OCompass p rk start (gestep cf_estep cobj_estep s e)
    | OFast i n m s => OFast i n m (fc_estep s (ce_ms e))
    end.

  (** Fresh registries with the limits [maxs], a fresh enabled manager, no metrics; the
      environment shows [e0]; the goroutines do what the [plans] say. *)
  Definition sy_run (maxs : list Z) (e0 : cenv) (plans : list (list saction)) (sched : list (event cenv))
    : config (gshared sy_shared cenv nat mobj) (gthread sthread min nat ucall) :=
    grun sy_tstep (fun s _ => s) (fun _ => false) sy_effect mobj_step mobj_estep min_idle min_push min_returned
      (SyShared (shared (r_init maxs [])) ∅) ∅ e0 (imap (fun i plan => SThread i (RThread RegistryConc.PIdle (lookups plan) []) plan) plans) sched.
End system.
