(** The accesses of default_registry.go and default_metric_manager.go to the fields that are
    not sync.Maps (the operations of a sync.Map synchronise). *)
From Verif.Go Require Import GoInt GoConc.
From Verif.Model Require Import Config Registry RegistryConc.
From Verif.Spec Require Import RaceSpec.
Local Open Scope Z_scope.

(** [VMetricsCount r]: metricsCount of the registry at address [r]. *)
Inductive r_var := VMetricsCount (r : nat) | VEnable.

Definition r_next (_ : rshared) (t : rthread) : list (access r_var) :=
  match rt_pc t with
  | PIdle =>
      match rt_todo t with
      | GLookup _ _ _ :: _ => [loads VEnable]             (* default_metric_manager.go:42, 58 *)
      | GSetEnable _ :: _ => [stores VEnable]             (* default_metric_manager.go:54 *)
      | RLookup _ _ _ :: _ | [] => []
      end
  | PCount r _ _ _ => [loads (VMetricsCount r)]           (* default_registry.go:128 *)
  | PAdd r _ _ _ => [atomic_op (VMetricsCount r)]         (* default_registry.go:139 *)
  | PGroup _ _ _ | PGroupStore _ _ _ | PLoad _ _ _ | PCreate _ _ _ | PStore _ _ _ _ => []
  end.

Definition r_same (l : r_var) (s1 s2 : rshared) : Prop :=
  match l with
  | VMetricsCount r => forall g1 g2, rs_regs s1 !! r = Some g1 -> rs_regs s2 !! r = Some g2 -> r_metricsCount g1 = r_metricsCount g2
  | VEnable => rs_enable s1 = rs_enable s2
  end.
Definition r_rest (s1 s2 : rshared) : Prop :=
  rs_groups s1 = rs_groups s2 /\ rs_next s1 = rs_next s2 /\
  Forall2 (fun g1 g2 => r_metricsMap g1 = r_metricsMap g2 /\ r_maxMetricCount g1 = r_maxMetricCount g2) (rs_regs s1) (rs_regs s2).

(** Everything the program looks up is there already. *)
Definition known (s : rshared) (op : rop) : Prop :=
  match op with
  | RLookup r _ name => exists g, rs_regs s !! r = Some g /\ is_Some (r_metricsMap g !! nm_hash name)
  | GLookup grp _ name => exists r g, rs_groups s !! grp = Some r /\ rs_regs s !! r = Some g /\ is_Some (r_metricsMap g !! nm_hash name)
  | GSetEnable _ => True
  end.
Definition sets_enable (op : rop) : bool := match op with GSetEnable _ => true | _ => false end.
Definition uses_manager (op : rop) : bool := match op with RLookup _ _ _ => false | _ => true end.
Definition op_in (progs : list (list rop)) (i : nat) (f : rop -> bool) : Prop :=
  exists p op, progs !! i = Some p /\ op ∈ p /\ f op = true.

(** Goroutines started in the state [s0]. *)
Definition r_from (s0 : rshared) (progs : list (list rop)) (sched : list (event Empty_set)) : config rshared rthread :=
  crun rstep (fun s _ => s) (Config s0 ((fun p => RThread PIdle p []) <$> progs)) sched.
