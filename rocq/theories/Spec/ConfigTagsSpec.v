(** What it means that a setting can be configured. *)
From Verif.Go Require Import GoInt.
From Verif.Model Require Import Config ConfigTags.
Local Open Scope Z_scope.

(** The value of a setting in a configuration. *)
Definition setting_is (mc : MetricConfig) (f : setting) (v : jvalue) : Prop :=
  match f, v with
  | SManager, JStr s => Manager mc = s
  | SEnables, JStrs l => Enables mc = l
  | SMaxSubCategoryCount, JInt n => MaxSubCategoryCount mc = n
  | SGlobalInterval, JInt n => GlobalInterval mc = n
  | SLevelInterval, JLevels l => exists m, LevelInterval mc = Some m /\ forall k v, (k, v) ∈ l -> (forall v', (k, v') ∈ l -> v' = v) -> m !! k = Some v
  | SMaxMetricCountPerRegistry, JInt n => MaxMetricCountPerRegistry mc = n
  | SMaxCompassErrorCodeCount, JInt n => MaxCompassErrorCodeCount mc = n
  | SMaxCompassAddonCount, JInt n => MaxCompassAddonCount mc = n
  | SReservoirType, JInt n => ReservoirType mc = n
  | SBucketCount, JInt n => BucketCount mc = n
  | _, _ => False
  end.

(** Two configurations agree on a setting. *)
Definition same_setting (mc mc' : MetricConfig) (f : setting) : Prop :=
  match f with
  | SManager => Manager mc = Manager mc'
  | SEnables => Enables mc = Enables mc'
  | SMaxSubCategoryCount => MaxSubCategoryCount mc = MaxSubCategoryCount mc'
  | SGlobalInterval => GlobalInterval mc = GlobalInterval mc'
  | SLevelInterval => LevelInterval mc = LevelInterval mc'
  | SMaxMetricCountPerRegistry => MaxMetricCountPerRegistry mc = MaxMetricCountPerRegistry mc'
  | SMaxCompassErrorCodeCount => MaxCompassErrorCodeCount mc = MaxCompassErrorCodeCount mc'
  | SMaxCompassAddonCount => MaxCompassAddonCount mc = MaxCompassAddonCount mc'
  | SReservoirType => ReservoirType mc = ReservoirType mc'
  | SBucketCount => BucketCount mc = BucketCount mc'
  end.

(** The type of a setting's values (int64 numbers). *)
Definition fits_setting (f : setting) (v : jvalue) : Prop :=
  match f, v with
  | SManager, JStr _ | SEnables, JStrs _ => True
  | SLevelInterval, JLevels l => forall k v, (k, v) ∈ l -> in64 k /\ in64 v
  | (SManager | SEnables | SLevelInterval), _ => False
  | _, JInt n => in64 n
  | _, _ => False
  end.

(** [key] names the setting, up to letter case. *)
Definition names (key : string) (f : setting) : Prop := EqualFold (tag f) key = true.
Definition shared_tag (f : setting) : Prop := f = SMaxMetricCountPerRegistry \/ f = SMaxCompassAddonCount.
