(** config/metric_config.go:54-102: reading a MetricConfig from a JSON or YAML document by
    the tags of its fields.

    The library's rules are modelled as far as they concern this struct:
    - encoding/json (typeFields, dominantField): of the fields with the same tag, all at
      the same depth and all tagged, none is used; a key of the document goes to the field
      with that name or, failing that, to the first one whose name equals it up to letter
      case (ASCII here); other keys are ignored.  A value of the wrong type makes Unmarshal
      return an error; what it fills in besides is not modelled.
    - gopkg.in/yaml (getStructInfo): a struct with two fields of the same name cannot be
      decoded at all ("Duplicated key"). *)
From Verif.Go Require Import GoInt.
From Verif.Model Require Import Config.
Local Open Scope Z_scope.

Inductive setting :=
| SManager | SEnables | SMaxSubCategoryCount | SGlobalInterval | SLevelInterval
| SMaxMetricCountPerRegistry | SMaxCompassErrorCodeCount | SMaxCompassAddonCount | SReservoirType | SBucketCount.
Global Instance setting_eq_dec : EqDecision setting.
Proof. solve_decision. Defined.

(** The fields in the order of the struct. *)
Definition settings : list setting :=
  [SManager; SEnables; SMaxSubCategoryCount; SGlobalInterval; SLevelInterval;
   SMaxMetricCountPerRegistry; SMaxCompassErrorCodeCount; SMaxCompassAddonCount; SReservoirType; SBucketCount].

(** The tags (the yaml and the json name are the same for every field). *)
Definition tag (f : setting) : string :=
  match f with
  | SManager => "manager"                                        (* line 58 *)
  | SEnables => "enables"                                        (* line 62 *)
  | SMaxSubCategoryCount => "max_subcategory_count"              (* line 66 *)
  | SGlobalInterval => "global_interval"                         (* line 75 *)
  | SLevelInterval => "level_interval"                           (* line 82 *)
  | SMaxMetricCountPerRegistry => "max_metric_count_per_registry" (* line 89 *)
  | SMaxCompassErrorCodeCount => "max_compass_error_code_count"  (* line 94 *)
  | SMaxCompassAddonCount => "max_metric_count_per_registry"     (* line 95 *)
  | SReservoirType => "reservoir_type"                           (* line 98 *)
  | SBucketCount => "bucket_count"                               (* line 101 *)
  end.

(** JSON values, as far as some field can hold them: integers, strings, arrays of strings,
    objects with integer keys and values, null. *)
Inductive jvalue := JInt (n : Z) | JStr (s : string) | JStrs (l : list string) | JLevels (l : list (Z * Z)) | JNull.
Definition document := list (string * jvalue).

(** encoding/json: the fields that can be reached *)
Definition reachable (f : setting) : bool := (length (filter (fun g => tag g = tag f) settings) =? 1)%nat.
Definition json_fields : list setting := filter (fun f => reachable f = true) settings.
Definition find_field (p : setting -> bool) : option setting := head (filter (fun f => p f = true) json_fields).
Definition json_field (key : string) : option setting :=
  match find_field (fun f => String.eqb (tag f) key) with
  | Some f => Some f
  | None => find_field (fun f => EqualFold (tag f) key)
  end.

(** Setting a field; [None]: the value has the wrong type.  null leaves numbers and strings
    alone and sets slices and maps to nil; an object is merged into a map. *)
Definition set_setting (f : setting) (v : jvalue) (mc : MetricConfig) : option MetricConfig :=
  let '(mkMetricConfig m e sc gi li mr ec ad rt bc) := mc in
  match f, v with
  | SEnables, JNull => Some (mkMetricConfig m [] sc gi li mr ec ad rt bc)
  | SLevelInterval, JNull => Some (mkMetricConfig m e sc gi None mr ec ad rt bc)
  | _, JNull => Some mc
  | SManager, JStr s => Some (mkMetricConfig s e sc gi li mr ec ad rt bc)
  | SEnables, JStrs l => Some (mkMetricConfig m l sc gi li mr ec ad rt bc)
  | SLevelInterval, JLevels l =>
      if forallb (fun x => (wrap64 x.1 =? x.1) && (wrap64 x.2 =? x.2)) l
      then Some (mkMetricConfig m e sc gi (Some (foldl (fun acc x => <[x.1 := x.2]> acc) (default ∅ li) l)) mr ec ad rt bc)
      else None
  | _, JInt n =>
      if wrap64 n =? n then
        match f with
        | SMaxSubCategoryCount => Some (mkMetricConfig m e n gi li mr ec ad rt bc)
        | SGlobalInterval => Some (mkMetricConfig m e sc n li mr ec ad rt bc)
        | SMaxMetricCountPerRegistry => Some (mkMetricConfig m e sc gi li n ec ad rt bc)
        | SMaxCompassErrorCodeCount => Some (mkMetricConfig m e sc gi li mr n ad rt bc)
        | SMaxCompassAddonCount => Some (mkMetricConfig m e sc gi li mr ec n rt bc)
        | SReservoirType => Some (mkMetricConfig m e sc gi li mr ec ad n bc)
        | SBucketCount => Some (mkMetricConfig m e sc gi li mr ec ad rt n)
        | _ => None
        end
      else None
  | _, _ => None
  end.

(** json.Unmarshal into a zero MetricConfig *)
Fixpoint decode_into (mc : MetricConfig) (doc : document) : option MetricConfig :=
  match doc with
  | [] => Some mc
  | (key, v) :: doc =>
      match json_field key with
      | Some f => match set_setting f v mc with Some mc' => decode_into mc' doc | None => None end
      | None => decode_into mc doc
      end
  end.
Definition json_decode (doc : document) : option MetricConfig := decode_into GetMetricConfig doc.

(** yaml.Unmarshal: whether the struct can be decoded at all *)
Definition yaml_decodable : bool := bool_decide (NoDup (tag <$> settings)).
