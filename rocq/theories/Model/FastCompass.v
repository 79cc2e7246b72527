(** impl/default_fast_compass.go, one goroutine at a time.  (Model/FastCompassConc.v
    adds the mutex and the unlocked readers.) *)
From Verif.Go Require Import GoInt.
From Verif.Model Require Import Counter BucketQueue BucketCounter.
Local Open Scope Z_scope.

(** impl/default_fast_compass.go:37 *)
Definition countOffset : Z := 38.
(** impl/default_fast_compass.go:42  [1 << 38] *)
Definition countBase : Z := 274877906944.
(** impl/default_fast_compass.go:48  [(1 << 38) - 1] *)
Definition rtBitwiseAndBase : Z := 274877906943.

(** impl/default_fast_compass.go:62-70  [type FastCompassImpl struct]; the
    clock is an input of each call, the mutex is not needed here. *)
Record fast_compass := FastCompassImpl {
  fc_maxSubCategoryCount : Z;
  fc_bucketInterval : Z;
  fc_numberOfBuckets : Z;
  fc_subCategories : gmap string bucket_counter
}.

(** impl/default_fast_compass.go:165-174  [newFastCompass]; [maxSub] is
    [config.GetMetricConfig().GetMaxSubCategoryCount()]. *)
Definition newFastCompass (maxSub duration bucketCount : Z) : fast_compass :=
  FastCompassImpl maxSub duration bucketCount ∅.

(** [countBase + duration.Nanoseconds()/1e6], impl/default_fast_compass.go:104 *)
Definition record_amount (duration : Z) : Z :=
  wrap64 (countBase + wrap64 (Z.quot duration 1000000)).

(** One call of Record: the clock reading taken if a counter is created
    (default_bucket_counter.go:167), the clock reading taken by UpdateN
    (default_bucket_counter.go:107), the duration in ns and the category. *)
Record fc_record := FcRecord {
  rc_createTime : Z; rc_time : Z; rc_duration : Z; rc_category : string }.

(** impl/default_fast_compass.go:83-105  [Record]. *)
Definition fc_Record (fc : fast_compass) (r : fc_record) : res fast_compass :=
  if (rc_duration r <? 0) || (Z.of_nat (String.length (rc_category r)) <=? 0) then Ok fc
  else
    match fc_subCategories fc !! rc_category r with
    | Some bucketCounter =>
        bc ← bc_UpdateN bucketCounter (rc_time r) (record_amount (rc_duration r));
        Ok (FastCompassImpl (fc_maxSubCategoryCount fc) (fc_bucketInterval fc) (fc_numberOfBuckets fc)
              (<[rc_category r := bc]> (fc_subCategories fc)))
    | None =>
        if fc_maxSubCategoryCount fc <=? Z.of_nat (size (fc_subCategories fc)) then Ok fc
        else
          bucketCounter ← newBucketCounterImpl (fc_bucketInterval fc) (fc_numberOfBuckets fc)
                            (rc_createTime r) false;
          bc ← bc_UpdateN bucketCounter (rc_time r) (record_amount (rc_duration r));
          Ok (FastCompassImpl (fc_maxSubCategoryCount fc) (fc_bucketInterval fc) (fc_numberOfBuckets fc)
                (<[rc_category r := bc]> (fc_subCategories fc)))
    end.

Definition fc_exec (maxSub duration bucketCount : Z) (recs : list fc_record) : res fast_compass :=
  run_ops fc_Record (newFastCompass maxSub duration bucketCount) recs.

(** The result type map[string]map[int64]int64, fast_compass.go:24. *)
Notation fc_result := (gmap string (gmap Z Z)).

(** The loop shared by the three getters
    (impl/default_fast_compass.go:113-121, 131-139, 149-157), [decode] being
    what is done to each count.  [order] is the order in which Go iterates over
    the map; [now key] the clock reading taken for that category's counter. *)
Fixpoint fc_collect (decode : Z -> Z) (sub : gmap string bucket_counter) (now : string -> Z)
  (startTime : Z) (order : list string) (result : fc_result) : res fc_result :=
  match order with
  | [] => Ok result
  | key :: order' =>
      value ← of_option (sub !! key);
      bkCnt ← bc_GetBucketCountsSince value (now key) startTime;
      fc_collect decode sub now startTime order' (<[key := decode <$> bkCnt]> result)
  end.

(** impl/default_fast_compass.go:111-123: [int64(uint64(count) >> countOffset)] *)
Definition fc_GetMethodCountPerCategorySince (fc : fast_compass) (order : list string)
  (now : string -> Z) (startTime : Z) : res fc_result :=
  fc_collect (fun count => uint64_to_int64 (Z.shiftr (to_uint64 count) countOffset))
    (fc_subCategories fc) now startTime order ∅.

(** impl/default_fast_compass.go:129-141: [int64(uint64(count) & rtBitwiseAndBase)] *)
Definition fc_GetMethodRtPerCategorySince (fc : fast_compass) (order : list string)
  (now : string -> Z) (startTime : Z) : res fc_result :=
  fc_collect (fun count => uint64_to_int64 (Z.land (to_uint64 count) rtBitwiseAndBase))
    (fc_subCategories fc) now startTime order ∅.

(** impl/default_fast_compass.go:147-159 *)
Definition fc_GetCountAndRtPerCategorySince (fc : fast_compass) (order : list string)
  (now : string -> Z) (startTime : Z) : res fc_result :=
  fc_collect (fun count => count) (fc_subCategories fc) now startTime order ∅.

(** impl/default_fast_compass.go:107-109, 125-127, 143-145 *)
Definition fc_GetMethodCountPerCategory fc order now := fc_GetMethodCountPerCategorySince fc order now 0.
Definition fc_GetMethodRtPerCategory fc order now := fc_GetMethodRtPerCategorySince fc order now 0.
Definition fc_GetCountAndRtPerCategory fc order now := fc_GetCountAndRtPerCategorySince fc order now 0.

(** impl/default_fast_compass.go:72-81  [LastUpdateTime] *)
Fixpoint fc_lut_loop (sub : gmap string bucket_counter) (order : list string) (result : Z) : res Z :=
  match order with
  | [] => Ok result
  | key :: order' =>
      value ← of_option (sub !! key);
      updatedTime ← bc_LastUpdateTime value;
      fc_lut_loop sub order' (if result <? updatedTime then updatedTime else result)
  end.

Definition fc_LastUpdateTime (fc : fast_compass) (order : list string) : res Z :=
  fc_lut_loop (fc_subCategories fc) order 0.
