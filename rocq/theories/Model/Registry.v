(** impl/default_registry.go, impl/default_metric_manager.go,
    impl/nop_metric_manager.go, one goroutine at a time.  A metric is known by
    its identity (the address of the object the creator allocated) and the
    parameters it was built with; what a compass or fast compass does is
    modelled in Compass.v and FastCompass.v.  A name is given by its HashKey
    (see MetricName.v: fixed at the first call) and its level. *)
From Verif.Go Require Import GoInt.
From Verif.Model Require Import Config.
Local Open Scope Z_scope.

(** int32 arithmetic of metricsCount *)
Definition wrap32 (x : Z) : Z := (x + 2147483648) mod 4294967296 - 2147483648.

Record nameref := NameRef { nm_hash : string; nm_level : Z }.

(** The arguments of NewCompassWithType (impl/default_compass.go:213-215). *)
Record compass_params := CompassParams {
  cpp_reservoirType : Z; cpp_numOfBucket : Z; cpp_bucketInterval : Z;
  cpp_maxErrorCodeCount : Z; cpp_maxAddonCount : Z }.

(** The metrics.Metric values a registry can hold.  nopCompass and
    nopFastCompass are package variables, hence one object each. *)
Inductive metric :=
| MCompass (ref : nat) (p : compass_params)
| MFastCompass (ref : nat) (interval bucketCount maxSubCategoryCount : Z)
| MNopCompass
| MNopFastCompass.

Inductive mkind := KCompass | KFastCompass.
Global Instance mkind_eq_dec : EqDecision mkind.
Proof. solve_decision. Defined.
Global Instance nameref_eq_dec : EqDecision nameref.
Proof. solve_decision. Defined.
Global Instance compass_params_eq_dec : EqDecision compass_params.
Proof. solve_decision. Defined.
Global Instance metric_eq_dec : EqDecision metric.
Proof. solve_decision. Defined.

(** [m.(metrics.Compass)] / [m.(metrics.FastCompass)] succeeds: DefaultCompass and
    NopCompass implement Compass, FastCompassImpl and NopFastCompass FastCompass,
    none both. *)
Definition implements (k : mkind) (m : metric) : bool :=
  match k, m with
  | KCompass, (MCompass _ _ | MNopCompass) => true
  | KFastCompass, (MFastCompass _ _ _ _ | MNopFastCompass) => true
  | _, _ => false
  end.

(** metric_set.go:31-34 *)
Record mentry := MetricNameToMetricEntry { e_metric : metric; e_name : nameref }.

(** impl/default_registry.go:30-37 *)
Record registry := DefaultMetricRegistry {
  r_metricsMap : gmap string mentry; r_metricsCount : Z; r_maxMetricCount : Z }.

(** impl/default_registry.go:144-149 *)
Definition NewMetricRegistry (maxMetricCount : Z) : registry := DefaultMetricRegistry ∅ 0 maxMetricCount.

(** impl/default_registry.go:92-100 and 108-110: the creators; [ref] is the new
    object. impl/default_fast_compass.go:165-174 takes the category limit from the
    configuration. *)
Definition create (k : mkind) (name : nameref) (ref : nat) : metric :=
  let mc := GetMetricConfig in
  match k with
  | KCompass => MCompass ref (CompassParams (GetReservoirType mc) (GetBucketCount mc)
                  (GetLevelInterval mc (nm_level name)) (GetMaxCompassAddonCount mc) (GetMaxCompassAddonCount mc))
  | KFastCompass => MFastCompass ref (GetLevelInterval mc (nm_level name)) (GetBucketCount mc) (GetMaxSubCategoryCount mc)
  end.

(** impl/default_registry.go:101, 111 *)
Definition nop (k : mkind) : metric :=
  match k with KCompass => MNopCompass | KFastCompass => MNopFastCompass end.

(** impl/default_registry.go:114-142  [getMetric]; [next] is the next free
    address. *)
Definition getMetric (r : registry) (next : nat) (k : mkind) (name : nameref) : registry * nat * metric :=
  match r_metricsMap r !! nm_hash name with
  | Some result => (r, next, e_metric result)
  | None =>
      let newMetric := create k name next in
      let newMetric := if r_maxMetricCount r <=? r_metricsCount r then nop k else newMetric in
      (DefaultMetricRegistry
         (<[nm_hash name := MetricNameToMetricEntry newMetric name]> (r_metricsMap r))
         (wrap32 (r_metricsCount r + 1)) (r_maxMetricCount r),
       S next, newMetric)
  end.

(** The type assertion closing GetCompass / GetFastCompass
    (impl/default_registry.go:101, 111). *)
Definition assert_kind (k : mkind) (m : metric) : res metric :=
  if implements k m then Ok m else Panic.

(** impl/default_registry.go:88-112  [GetCompass], [GetFastCompass] *)
Definition reg_Get (r : registry) (next : nat) (k : mkind) (name : nameref) : registry * nat * res metric :=
  let '(r', next', m) := getMetric r next k name in (r', next', assert_kind k m).

(** impl/default_registry.go:67-74 *)
Definition reg_GetMetrics (r : registry) : gmap string mentry := r_metricsMap r.

(** impl/default_registry.go:53-65, 39-51 *)
Definition reg_getMetrics (r : registry) (matchType : mentry -> bool) : gmap string mentry :=
  filter (fun ke => matchType ke.2 = true) (r_metricsMap r).
Definition reg_GetCompasses (r : registry) := reg_getMetrics r (fun e => implements KCompass (e_metric e)).
Definition reg_GetFastCompasses (r : registry) := reg_getMetrics r (fun e => implements KFastCompass (e_metric e)).

(** impl/default_registry.go:76-86; [lut] gives each metric's LastUpdateTime()
    at this moment, [order] the order in which sync.Map ranges. *)
Fixpoint reg_lut_loop (lut : metric -> Z) (order : list (string * mentry)) (result : Z) : Z :=
  match order with
  | [] => result
  | (_, entry) :: order' =>
      reg_lut_loop lut order' (if result <? lut (e_metric entry) then lut (e_metric entry) else result)
  end.
Definition reg_LastUpdateTime (lut : metric -> Z) (order : list (string * mentry)) : Z := reg_lut_loop lut order 0.

(** A history of lookups on one registry. *)
Fixpoint reg_run (r : registry) (next : nat) (ops : list (mkind * nameref)) : registry * nat * list (res metric) :=
  match ops with
  | [] => (r, next, [])
  | (k, name) :: ops' =>
      let '(r1, n1, m) := reg_Get r next k name in
      let '(r2, n2, ms) := reg_run r1 n1 ops' in
      (r2, n2, m :: ms)
  end.

(** ** impl/default_metric_manager.go:35-39 *)
Record manager := DefaultMetricManager { m_registries : gmap string registry; m_enable : bool; m_next : nat }.

(** impl/default_metric_manager.go:78-82 *)
Definition newDefaultMetricManager : manager := DefaultMetricManager ∅ true 0.

(** impl/default_metric_manager.go:65-76 *)
Definition getMetricRegistry (d : manager) (group : string) : manager * registry :=
  match m_registries d !! group with
  | Some result => (d, result)
  | None => let result := NewMetricRegistry 5000 in
            (DefaultMetricManager (<[group := result]> (m_registries d)) (m_enable d) (m_next d), result)
  end.

(** impl/default_metric_manager.go:41-47, 57-63 *)
Definition mgr_Get (d : manager) (k : mkind) (group : string) (name : nameref) : manager * res metric :=
  if negb (m_enable d) then (d, Ok (nop k))
  else
    let '(d1, r) := getMetricRegistry d group in
    let '(r', next', m) := reg_Get r (m_next d1) k name in
    (DefaultMetricManager (<[group := r']> (m_registries d1)) (m_enable d1) next', m).

Inductive mgr_op :=
| OpGet (k : mkind) (group : string) (name : nameref)
| OpSetEnable (b : bool).

(** impl/default_metric_manager.go:53-55 for SetEnable *)
Definition mgr_act (d : manager) (op : mgr_op) : manager * option (res metric) :=
  match op with
  | OpGet k g name => let '(d', m) := mgr_Get d k g name in (d', Some m)
  | OpSetEnable b => (DefaultMetricManager (m_registries d) b (m_next d), None)
  end.

Fixpoint mgr_run (d : manager) (ops : list mgr_op) : manager * list (option (res metric)) :=
  match ops with
  | [] => (d, [])
  | op :: ops' =>
      let '(d1, x) := mgr_act d op in
      let '(d2, xs) := mgr_run d1 ops' in
      (d2, x :: xs)
  end.

(** impl/nop_metric_manager.go:28-41 *)
Definition nopmgr_Get (k : mkind) (group : string) (name : nameref) : metric := nop k.
Definition nopmgr_IsEnable : bool := false.
