(** impl/default_registry.go and impl/default_metric_manager.go used by any
    number of goroutines.  Every access to a sync.Map, every read and the atomic
    add of metricsCount, and every read and write of [enable] is one step
    (metricsCount and enable are read without synchronisation; memory is
    sequentially consistent here).  Registries live in a heap so that a manager's
    groups and directly used registries are treated alike. *)
From Verif.Go Require Import GoInt GoConc.
From Verif.Model Require Import Config Registry.
Local Open Scope Z_scope.

Record rshared := RShared {
  rs_regs : list registry;            (* the registries, by address *)
  rs_groups : gmap string nat;        (* metricRegistryMap: group -> registry *)
  rs_enable : bool;
  rs_next : nat                       (* next free address for metrics *)
}.

Inductive rop :=
| RLookup (r : nat) (k : mkind) (name : nameref)         (* registry.GetCompass / GetFastCompass *)
| GLookup (g : string) (k : mkind) (name : nameref)      (* manager.GetCompass / GetFastCompass *)
| GSetEnable (b : bool).

Inductive rpc :=
| PIdle
| PGroup (g : string) (k : mkind) (name : nameref)                     (* default_metric_manager.go:67 *)
| PGroupStore (g : string) (k : mkind) (name : nameref)                (* default_metric_manager.go:73 *)
| PLoad (r : nat) (k : mkind) (name : nameref)                         (* default_registry.go:118 *)
| PCreate (r : nat) (k : mkind) (name : nameref)                       (* default_registry.go:125 *)
| PCount (r : nat) (k : mkind) (name : nameref) (m : metric)           (* default_registry.go:128 *)
| PStore (r : nat) (k : mkind) (name : nameref) (m : metric)           (* default_registry.go:133 *)
| PAdd (r : nat) (k : mkind) (name : nameref) (m : metric).            (* default_registry.go:139 *)

Record rthread := RThread {
  rt_pc : rpc;
  rt_todo : list rop;                     (* the first one is being executed unless PIdle *)
  rt_got : list (rop * option (res metric))
}.

(** Return from the call [rt_todo] starts with. *)
Definition r_return (t : rthread) (x : option (res metric)) : rthread :=
  match rt_todo t with
  | op :: todo => RThread PIdle todo (rt_got t ++ [(op, x)])
  | [] => t
  end.
Definition r_goto (t : rthread) (pc : rpc) : rthread := RThread pc (rt_todo t) (rt_got t).

Definition rstep (s : rshared) (t : rthread) : option (rshared * rthread) :=
  match rt_pc t with
  | PIdle =>
      match rt_todo t with
      | [] => None
      | RLookup r k name :: _ => Some (s, r_goto t (PLoad r k name))
      | GLookup g k name :: _ =>
          (* default_metric_manager.go:42, 58: read enable *)
          Some (s, if rs_enable s then r_goto t (PGroup g k name) else r_return t (Some (Ok (nop k))))
      | GSetEnable b :: _ =>
          (* default_metric_manager.go:54 *)
          Some (RShared (rs_regs s) (rs_groups s) b (rs_next s), r_return t None)
      end
  | PGroup g k name =>
      match rs_groups s !! g with
      | Some r => Some (s, r_goto t (PLoad r k name))
      | None => Some (s, r_goto t (PGroupStore g k name))
      end
  | PGroupStore g k name =>
      (* a registry built for nothing is garbage and not kept in the heap *)
      match rs_groups s !! g with
      | Some r => Some (s, r_goto t (PLoad r k name))
      | None =>
          let r := length (rs_regs s) in
          Some (RShared (rs_regs s ++ [NewMetricRegistry 5000]) (<[g := r]> (rs_groups s)) (rs_enable s) (rs_next s),
                r_goto t (PLoad r k name))
      end
  | PLoad r k name =>
      reg ← rs_regs s !! r;
      match r_metricsMap reg !! nm_hash name with
      | Some e => Some (s, r_return t (Some (assert_kind k (e_metric e))))
      | None => Some (s, r_goto t (PCreate r k name))
      end
  | PCreate r k name =>
      Some (RShared (rs_regs s) (rs_groups s) (rs_enable s) (S (rs_next s)),
            r_goto t (PCount r k name (create k name (rs_next s))))
  | PCount r k name m =>
      reg ← rs_regs s !! r;
      Some (s, r_goto t (PStore r k name (if r_maxMetricCount reg <=? r_metricsCount reg then nop k else m)))
  | PStore r k name m =>
      reg ← rs_regs s !! r;
      match r_metricsMap reg !! nm_hash name with
      | Some e => Some (s, r_return t (Some (assert_kind k (e_metric e))))
      | None =>
          let reg' := DefaultMetricRegistry
                        (<[nm_hash name := MetricNameToMetricEntry m name]> (r_metricsMap reg))
                        (r_metricsCount reg) (r_maxMetricCount reg) in
          Some (RShared (<[r := reg']> (rs_regs s)) (rs_groups s) (rs_enable s) (rs_next s),
                r_goto t (PAdd r k name m))
      end
  | PAdd r k name m =>
      reg ← rs_regs s !! r;
      let reg' := DefaultMetricRegistry (r_metricsMap reg) (wrap32 (r_metricsCount reg + 1)) (r_maxMetricCount reg) in
      Some (RShared (<[r := reg']> (rs_regs s)) (rs_groups s) (rs_enable s) (rs_next s),
            r_return t (Some (assert_kind k m)))
  end.

(** Fresh registries with the given limits, a fresh enabled manager, one program
    per goroutine. *)
Definition r_init (maxs : list Z) (progs : list (list rop)) : config rshared rthread :=
  Config (RShared (NewMetricRegistry <$> maxs) ∅ true 0) ((fun p => RThread PIdle p []) <$> progs).

Definition r_crun (maxs : list Z) (progs : list (list rop)) (sched : list (event Empty_set)) : config rshared rthread :=
  crun rstep (fun s _ => s) (r_init maxs progs) sched.
