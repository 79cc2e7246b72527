(** config/metric_config.go, interval.go, metric_level.go, reservoir.go (the
    constants).  time.Duration is an int64 number of nanoseconds. *)
From Verif.Go Require Import GoInt.
Local Open Scope Z_scope.

(** time.Second *)
Definition Second : Z := 1000000000.

(** metric_level.go:25-35  [iota] *)
Definition Trivial : Z := 0.
Definition Minor : Z := 1.
Definition Normal : Z := 2.
Definition Major : Z := 3.
Definition Critical : Z := 4.

(** reservoir.go:32-36  [iota] *)
Definition BucketReservoirType : Z := 0.
Definition UniformReservoirType : Z := 1.
Definition ExponentiallyDecayingReservoirType : Z := 2.

(** interval.go:34-40 *)
Definition Sec_1 : Z := 1 * Second.
Definition Sec_5 : Z := 5 * Second.
Definition Sec_10 : Z := 5 * Second.
Definition Sec_30 : Z := 5 * Second.
Definition Sec_60 : Z := 5 * Second.

(** config/metric_config.go:26-35 *)
Definition defaultMaxSubCategoryCount : Z := 20.
Definition defaultGlobalInterval : Z := 60 * Second.
Definition defaultMaxMetricCountPerRegistry : Z := 5000.
Definition defaultMaxCompassErrorCodeCount : Z := 100.
Definition defaultMaxCompassAddonCount : Z := 20.
Definition allStr : string := "all".
Definition defaultReservoirType : Z := ExponentiallyDecayingReservoirType.
Definition defaultBucketCount : Z := 10.

(** config/metric_config.go:39-42 *)
Definition allMetrics : list string := ["compass"; "fastCompass"].

(** config/metric_config.go:45-51; nothing ever assigns the variable. *)
Definition defaultLevelInterval : option (gmap Z Z) :=
  Some (<[Trivial := 1 * Second]> (<[Minor := 1 * Second]> (<[Normal := 1 * Second]>
        (<[Major := 60 * Second]> (<[Critical := 60 * Second]> ∅))))).

(** config/metric_config.go:54-102; a nil map is [None].  The yaml/json tags
    are the subject of Model/ConfigTags.v. *)
Record MetricConfig := mkMetricConfig {
  Manager : string;
  Enables : list string;
  MaxSubCategoryCount : Z;
  GlobalInterval : Z;
  LevelInterval : option (gmap Z Z);
  MaxMetricCountPerRegistry : Z;
  MaxCompassErrorCodeCount : Z;
  MaxCompassAddonCount : Z;
  ReservoirType : Z;
  BucketCount : Z
}.

(** config/metric_config.go:104-109 *)
Definition GetBucketCount (mc : MetricConfig) : Z :=
  if BucketCount mc <=? 0 then defaultBucketCount else BucketCount mc.

(** config/metric_config.go:111-116 *)
Definition GetReservoirType (mc : MetricConfig) : Z :=
  if ReservoirType mc <? 0 then defaultReservoirType else ReservoirType mc.

(** strings.EqualFold restricted to what [EqualFold("all", v)] can see: Unicode
    simple folding of 'a' and 'l' only relates them to 'A' and 'L', so folding
    A-Z to a-z byte-wise decides it. *)
Definition fold_ascii (c : Ascii.ascii) : Ascii.ascii :=
  let n := Ascii.nat_of_ascii c in
  if ((65 <=? n) && (n <=? 90))%nat then Ascii.ascii_of_nat (n + 32) else c.
Fixpoint EqualFold (s t : string) : bool :=
  match s, t with
  | EmptyString, EmptyString => true
  | String c s', String d t' => Ascii.eqb (fold_ascii c) (fold_ascii d) && EqualFold s' t'
  | _, _ => false
  end.

(** The loop of config/metric_config.go:123-127. *)
Fixpoint enables_loop (l : list string) (otherwise : list string) : list string :=
  match l with
  | [] => otherwise
  | value :: l' => if EqualFold allStr value then allMetrics else enables_loop l' otherwise
  end.

(** config/metric_config.go:118-129 *)
Definition GetEnableMetrics (mc : MetricConfig) : list string :=
  if (length (Enables mc) =? 0)%nat then [] else enables_loop (Enables mc) (Enables mc).

(** config/metric_config.go:131-136 *)
Definition GetMaxCompassAddonCount (mc : MetricConfig) : Z :=
  if MaxCompassAddonCount mc <=? 0 then defaultMaxCompassAddonCount else MaxCompassAddonCount mc.

(** config/metric_config.go:138-143 *)
Definition GetMaxCompassErrorCodeCount (mc : MetricConfig) : Z :=
  if MaxCompassErrorCodeCount mc <=? 0 then defaultMaxCompassErrorCodeCount else MaxCompassErrorCodeCount mc.

(** config/metric_config.go:145-150 *)
Definition GetMaxMetricCountPerRegistry (mc : MetricConfig) : Z :=
  if MaxMetricCountPerRegistry mc <=? 0 then defaultMaxMetricCountPerRegistry else MaxMetricCountPerRegistry mc.

(** config/metric_config.go:172-177 *)
Definition GetGlobalInterval (mc : MetricConfig) : Z :=
  if GlobalInterval mc <=? Second then defaultGlobalInterval else GlobalInterval mc.

(** Reading a possibly nil map. *)
Definition map_get (m : option (gmap Z Z)) (k : Z) : option Z :=
  match m with Some m' => m' !! k | None => None end.

(** config/metric_config.go:153-170 *)
Definition GetLevelInterval (mc : MetricConfig) (metricLevel : Z) : Z :=
  match LevelInterval mc, defaultLevelInterval with
  | None, None => GetGlobalInterval mc
  | _, _ =>
      let tmpMap := match defaultLevelInterval with
                    | Some d => Some d
                    | None => LevelInterval mc
                    end in
      match map_get tmpMap metricLevel with
      | Some result => if Second <=? result then result else GetGlobalInterval mc
      | None => GetGlobalInterval mc
      end
  end.

(** config/metric_config.go:179-184 *)
Definition GetMetricManagerName (mc : MetricConfig) : string :=
  if (String.length (Manager mc) <=? 0)%nat then "default" else Manager mc.

(** config/metric_config.go:186-191 *)
Definition GetMaxSubCategoryCount (mc : MetricConfig) : Z :=
  if MaxSubCategoryCount mc <=? 0 then defaultMaxSubCategoryCount else MaxSubCategoryCount mc.

(** config/metric_config.go:198-200: the zero value, whatever the application
    configured. *)
Definition GetMetricConfig : MetricConfig := mkMetricConfig "" [] 0 0 None 0 0 0 0 0.
