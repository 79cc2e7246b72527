(** Vocabulary for the whole library in use (Model/SystemConc.v). *)
From Verif.Go Require Import GoInt GoFloat GoConc GoCompose.
From Verif.Model Require Import BucketCounter EWMA EWMAConc Registry RegistryConc FastCompass FastCompassConc FastCompassFine Compass CompassConc CompassFine CompassRead SystemConc.
From Verif.Spec Require Import BucketSpec EWMASpec FastCompassSpec FastCompassConcSpec FastCompassFineSpec RegistryConcSpec CompassConcSpec CompassFineSpec CompassReadSpec.
Local Open Scope Z_scope.

Notation system := (config (gshared sy_shared cenv nat mobj) (gthread sthread min nat ucall)).

(** The registries and the manager, seen without the metrics. *)
Definition registries (c : system) : config rshared rthread :=
  Config (sy_reg (gs_client (shared c))) ((fun t => st_reg (gt_client t)) <$> threads c).

(** The metric goroutine [i] was given by its [j]-th lookup. *)
Definition given (c : system) (i j : nat) : option metric :=
  match threads (registries c) !! i with
  | Some t => match rt_got t !! j with Some (_, Some (Ok m)) => Some m | _ => None end
  | None => None
  end.

(** The goroutine has done all it had to do. *)
Definition finished (t : gthread sthread min nat ucall) : Prop :=
  st_plan (gt_client t) = [] /\ rt_pc (st_reg (gt_client t)) = RegistryConc.PIdle /\ gt_in t = None.

(** The compass (fast compass) at address [ref]: its variables, and where the goroutines
    are in its methods; [compass_at]: without the reading methods. *)
Definition reading_at (c : system) (ref : nat) : option reading :=
  match gs_objs (shared c) !! ref with
  | Some (OCompass _ _ _ s) => Some (Config s ((fun t => mi_compass (inside_of min_idle ref t)) <$> threads c))
  | _ => None
  end.
Definition compass_at (c : system) (ref : nat) : option fine := without_reads <$> reading_at c ref.
Definition fast_at (c : system) (ref : nat) : option (config fc_shared qthread) :=
  match gs_objs (shared c) !! ref with
  | Some (OFast _ _ _ s) => Some (Config s ((fun t => mi_fast (inside_of min_idle ref t)) <$> threads c))
  | _ => None
  end.

(** The calls in a plan through handles [sel] selects. *)
Definition uses (sel : nat -> nat -> bool) (plan : list saction) : list ucall :=
  omap (fun a => match a with SUse i j u => if sel i j then Some u else None | SLookup _ => None end) plan.
Definition compass_calls (l : list ucall) : list dcall := mjoin (omap (fun u => match u with UCompass method => Some method | UFast _ => None end) l).
Definition fast_calls (l : list ucall) : list qcall := omap (fun u => match u with UFast f => Some f | UCompass _ => None end) l.
(** Handles that are the metric [m]. *)
Definition is_given (c : system) (m : metric) (i j : nat) : bool := bool_decide (given c i j = Some m).
(** [progs] are calls of a metric the goroutines have made so far: of each plan the calls
    through handles [sel] selects, all of them when the goroutine has finished. *)
Definition progressed {A} (f : list ucall -> list A) (sel : nat -> nat -> bool) (plans : list (list saction)) (c : system) (progs : list (list A)) : Prop :=
  length progs = length plans /\
  forall k t plan prog, threads c !! k = Some t -> plans !! k = Some plan -> progs !! k = Some prog ->
    prog `prefix_of` f (uses sel plan) /\ (finished t -> prog = f (uses sel plan)).
(** The [j]-th lookup of goroutine [i] asks a registry or group for the hash key [h]. *)
Definition asked_at (plans : list (list saction)) (pl : nat + string) (h : string) (i j : nat) : bool :=
  match plans !! i with
  | Some plan => match lookups plan !! j with Some op => bool_decide (place op = (Some pl, h)) | None => false end
  | None => false
  end.
(** Everyone who asks there for that key asks for a metric of the kind [k], and somebody does. *)
Definition all_ask (plans : list (list saction)) (pl : nat + string) (h : string) (k : mkind) : Prop :=
  (exists i j, asked_at plans pl h i j = true) /\
  forall op, op ∈ mjoin (lookups <$> plans) -> place op = (Some pl, h) -> exists nm, op = lookup_at pl k nm.
(** No more different keys are asked for there than its limit, and nobody disables the manager. *)
Definition room_for (maxs : list Z) (plans : list (list saction)) (pl : nat + string) : Prop :=
  registries_exist maxs (lookups <$> plans) /\ stays_enabled pl (lookups <$> plans) /\
  exists max, limit_at pl maxs = Some max /\ Z.of_nat (size (keys_at pl (lookups <$> plans))) <= max < 2 ^ 31.
(** The uses in a plan are of metrics the goroutine itself has looked up before, or of
    results of goroutines with smaller numbers: nobody waits in a circle. *)
Fixpoint well_planned (plans : list (list saction)) (i done : nat) (plan : list saction) : Prop :=
  match plan with
  | [] => True
  | SLookup _ :: plan => well_planned plans i (S done) plan
  | SUse i' j _ :: plan =>
      ((i' = i /\ (j < done)%nat) \/ ((i' < i)%nat /\ exists plan', plans !! i' = Some plan' /\ (j < length (lookups plan'))%nat)) /\ well_planned plans i done plan
  end.
(** Calls that cannot abort the process: all but the four getters that read maps unprotected. *)
Definition harmless (d : dcall) : Prop := match d with DWrite call => no_getter call | DRead call => reading_call RBucket call end.
Definition no_map_getter (a : saction) : Prop :=
  match a with SUse _ _ (UCompass method) => Forall harmless method | SUse _ _ (UFast call) => exists d category, call = QRecord d category | SLookup _ => True end.
(** Calls of the methods that looked up metrics have (their compasses have bucket reservoirs). *)
Definition existing_method (a : saction) : Prop :=
  match a with SUse _ _ (UCompass method) => Forall (fun d => match d with DRead call => reading_call RBucket call | DWrite _ => True end) method | _ => True end.
(** No metric has made the runtime abort the process (by an assignment to a map while one of
    those getters iterates over it). *)
Definition unaborted (o : mobj) : bool := match o with OCompass _ _ _ s => negb (cs_crashed (gs_client s)) | OFast _ _ _ s => negb (fs_crashed s) end.
Definition nothing_aborted (c : system) : Prop := map_Forall (fun _ o => unaborted o = true) (gs_objs (shared c)).
(** The calls of a compass (fast compass) in the plans through handles [sel] selects; of a
    compass those that do not only read. *)
Definition compass_programs (sel : nat -> nat -> bool) (plans : list (list saction)) : list (list kcall) := (fun plan => writes (compass_calls (uses sel plan))) <$> plans.
Definition fast_programs (sel : nat -> nat -> bool) (plans : list (list saction)) : list (list qcall) := (fun plan => fast_calls (uses sel plan)) <$> plans.
(** The counters of a compass count the calls [progs]: the total all updates, the success
    counter the successful ones, at most 20 codes (addons) have counters, each that of the
    calls that carried it (and did not panic before).  Modulo 2^64. *)
Definition counted (cc : fine) (progs : list (list kcall)) : Prop :=
  (exists b, counter_at cc KTotal = Some b /\ bc_GetCount b = wrap64 (Z.of_nat (length (planned durations progs)))) /\
  (exists b, counter_at cc KSuccess = Some b /\ bc_GetCount b = wrap64 (successes (planned results progs))) /\
  forall w, Z.of_nat (size (tracked w (compass_of cc))) <= 20 /\ tracked w (compass_of cc) ⊆ passed w (planned results progs) /\
    forall key, key ∈ tracked w (compass_of cc) -> exists b, key_counter cc w key = Some b /\
      bc_GetCount b = wrap64 (carrying w key (planned results progs) - carrying w key (lost w (fine_panics cc))).
(** ... with all codes and addons. *)
Definition all_counted (cc : fine) (progs : list (list kcall)) : Prop :=
  fine_panics cc = [] /\ forall w, tracked w (compass_of cc) = passed w (planned results progs) /\
    forall key, key ∈ passed w (planned results progs) -> exists b, key_counter cc w key = Some b /\ bc_GetCount b = wrap64 (carrying w key (planned results progs)).
(** The moving averages have received the same counts, which add up to the number of
    updates, but for those pending. *)
Definition averaged (cc : fine) (progs : list (list kcall)) : Prop :=
  exists a1 a5 a15 counts1 counts5 counts15, average_at cc KOne = Some a1 /\ average_at cc KFive = Some a5 /\ average_at cc KFifteen = Some a15 /\
    counts1 ≡ₚ counts5 /\ counts5 ≡ₚ counts15 /\
    ew_rate (es_ewma a1) = ew_rate (fold_left ew_TickN counts1 zeroEWMA) /\
    ew_rate (es_ewma a5) = ew_rate (fold_left ew_TickN counts5 zeroEWMA) /\
    ew_rate (es_ewma a15) = ew_rate (fold_left ew_TickN counts15 zeroEWMA) /\
    Forall (fun count => 0 <= count) counts1 /\ 0 <= mt_uncounted (cs_meter (compass_of cc)) /\
    sumZ counts1 + mt_uncounted (cs_meter (compass_of cc)) = Z.of_nat (length (planned durations progs)).
(** The snapshot, when the clock has stayed in the interval [k]: taken in that interval or
    the next, it has the number of updates and the sum of their durations. *)
Definition sampled (cc : fine) (interval : Z) (progs : list (list kcall)) (e0 : cenv) (sched : list (event cenv)) : Prop :=
  exists values total, counter_at cc KValues = Some values /\ counter_at cc KTotal = Some total /\
    bc_GetCount values = wrap64 (sumZ (planned durations progs)) /\
    forall k, within_interval interval k e0 sched ->
    forall now1 now2 now3, 1000 <= now1 <= now2 -> now1 <= now3 -> in64 now2 -> in64 now3 ->
    bucket_key (interval_seconds interval) now1 = k \/ bucket_key (interval_seconds interval) now1 = k + 1000 * interval_seconds interval ->
    snapshot_total interval progs values total now1 now2 now3.
(** A fast compass is in the state that its Records [progs], one after the other in some
    order, each goroutine's in its order, at times the clock showed, lead to. *)
Definition recorded (interval bucketCount maxSub : Z) (fc : config fc_shared qthread) (progs : list (list qcall)) : Prop :=
  exists log, (forall i prog, progs !! i = Some prog -> valid_calls prog = log_of i log) /\
    (forall e, e ∈ log -> (e.1 < length progs)%nat /\ rc_time e.2 ∈ fs_times (shared fc) /\ rc_createTime e.2 ∈ fs_times (shared fc)) /\
    fc_exec maxSub interval bucketCount log.*2 = Ok (fs_fc (shared fc)).
(** ... and all results of its getters are real: one order of its Records leads to its state
    and explains the values in all of them. *)
Definition answered (interval bucketCount maxSub : Z) (fc : config fc_shared qthread) (progs : list (list qcall)) : Prop :=
  exists log, fc_exec maxSub interval bucketCount log.*2 = Ok (fs_fc (shared fc)) /\
    forall i prog, progs !! i = Some prog -> exists t, threads fc !! i = Some t /\
      valid_calls prog = log_of i log /\ answers <$> q_got t = omap asks prog /\
      real_results interval bucketCount [] log i prog (q_got t).
(** The reservoirs among the objects of a metric. *)
Definition reservoirs (o : mobj) : option (list (ckey * cobj)) :=
  match o with OCompass _ _ _ s => Some (omap (fun k => pair k <$> (gs_objs s !! k)) [KValues; KUniform; KReservoir]) | OFast _ _ _ _ => None end.

(** Of its plan: what the goroutine has begun; what it has done (inside a metric, the last
    action begun is the call it is in). *)
Definition begun_plan (plan : list saction) (t : gthread sthread min nat ucall) : list saction := take (length plan - length (st_plan (gt_client t))) plan.
Definition done_plan (plan : list saction) (t : gthread sthread min nat ucall) : list saction :=
  match gt_in t with None => begun_plan plan t | Some _ => take (pred (length (begun_plan plan t))) plan end.
(** The calls of the compass [m] that the goroutines have begun (returned from), through
    handles that are [m]. *)
Definition calls_begun (plans : list (list saction)) (c : system) (m : metric) : list dcall :=
  mjoin (zip_with (fun plan t => compass_calls (uses (is_given c m) (begun_plan plan t))) plans (threads c)).
Definition calls_returned (plans : list (list saction)) (c : system) (m : metric) : list dcall :=
  mjoin (zip_with (fun plan t => compass_calls (uses (is_given c m) (done_plan plan t))) plans (threads c)).
(** The answers the goroutine [i] has got from the compass at [ref]. *)
Definition answers_got (c : system) (i ref : nat) : option (list (rcall * answer)) :=
  match reading_at c ref with Some cc => dt_got <$> (threads cc !! i) | None => None end.
(** Between [c1] and [c2] the goroutine [i] calls a reading method of the compass [ref],
    which it or another goroutine has looked up, and is answered [a]. *)
Definition asks_compass (c1 c2 : system) (i ref : nat) (p : compass_params) (method : list dcall) (a : answer) : Prop :=
  exists t1 t2 i' j' plan got call, threads c1 !! i = Some t1 /\ threads c2 !! i = Some t2 /\
    gt_in t1 = None /\ rt_pc (st_reg (gt_client t1)) = RegistryConc.PIdle /\ st_plan (gt_client t1) = SUse i' j' (UCompass method) :: plan /\
    given c1 i' j' = Some (MCompass ref p) /\
    gt_in t2 = None /\ st_plan (gt_client t2) = plan /\
    answers_got c1 i ref = Some got /\ answers_got c2 i ref = Some (got ++ [(call, a)]).

(** The results the goroutine [i] has got from the fast compass at [ref]. *)
Definition results_got (c : system) (i ref : nat) : option (list qjob) :=
  match fast_at c ref with Some cc => q_got <$> (threads cc !! i) | None => None end.
(** Between [c1] and [c2] the goroutine [i] calls a getter or LastUpdateTime of the fast
    compass [m], at the address [ref], which it or another goroutine has looked up; it
    returns [job]. *)
Definition asks_fast (c1 c2 : system) (i ref : nat) (m : metric) (call : qcall) (job : qjob) : Prop :=
  exists t1 t2 i' j' plan got, threads c1 !! i = Some t1 /\ threads c2 !! i = Some t2 /\
    gt_in t1 = None /\ rt_pc (st_reg (gt_client t1)) = RegistryConc.PIdle /\ st_plan (gt_client t1) = SUse i' j' (UFast call) :: plan /\
    given c1 i' j' = Some m /\
    gt_in t2 = None /\ st_plan (gt_client t2) = plan /\
    results_got c1 i ref = Some got /\ results_got c2 i ref = Some (got ++ [job]).
(** For each goroutine the valid Records of the fast compass [m] that it has begun (returned
    from), through handles that are [m]. *)
Definition records_begun (plans : list (list saction)) (c : system) (m : metric) : list (list (Z * string)) :=
  zip_with (fun plan t => valid_calls (fast_calls (uses (is_given c m) (begun_plan plan t)))) plans (threads c).
Definition records_returned (plans : list (list saction)) (c : system) (m : metric) : list (list (Z * string)) :=
  zip_with (fun plan t => valid_calls (fast_calls (uses (is_given c m) (done_plan plan t)))) plans (threads c).
(** The process has not been aborted by the fast compass at [ref] (its map has not been
    written by a Record while a getter was iterating over it). *)
Definition not_aborted (c : system) (ref : nat) : Prop :=
  forall cc, fast_at c ref = Some cc -> fs_crashed (shared cc) = false.
(** The Records of the category [cat] among [l], and the whole milliseconds of their durations. *)
Definition of_category (cat : string) (l : list (Z * string)) : list (Z * string) := filter (fun x => x.2 = cat) l.
Definition milliseconds (l : list (Z * string)) : Z := sumZ ((fun x => x.1 / 1000000) <$> l).
(** [log]: Records in the order in which they took effect, with the goroutines that made
    them.  They include [rss] (for each goroutine some Records, in its order); they are among [rss]. *)
Definition includes (log : list (nat * fc_record)) (rss : list (list (Z * string))) : Prop :=
  forall k rs, rss !! k = Some rs -> rs `prefix_of` log_of k log.
Definition among (log : list (nat * fc_record)) (rss : list (list (Z * string))) : Prop :=
  (forall e, e ∈ log -> (e.1 < length rss)%nat) /\ forall k rs, rss !! k = Some rs -> log_of k log `prefix_of` rs.
(** What the clock shows, in milliseconds. *)
Definition clock_of (e : cenv) : Z := wrap64 (ce_ms e).
(** The Records [l] fit the 26 bits for their number and the 38 bits for their milliseconds. *)
Definition fits_bits (l : list (Z * string)) : Prop := Z.of_nat (length l) < 2 ^ 26 /\ milliseconds l < 2 ^ 38.
