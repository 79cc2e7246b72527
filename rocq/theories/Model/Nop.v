(** impl/nop_compass.go, impl/nop_fast_compass.go, impl/nop_bucket_counter.go,
    impl/nop_snapshot.go: the types have no fields, so an object has exactly one
    state.  An answer lists what a call returns. *)
From Verif.Go Require Import GoInt GoFloat.
Local Open Scope Z_scope.

Inductive answer :=
| ANone                                    (* no result *)
| AInt (z : Z)                             (* int64, int, time.Duration, (_, nil) *)
| AFloat (f : f64)                         (* float64, (_, nil) *)
| ACounts (m : gmap Z Z)                   (* map[int64]int64 *)
| AResult (m : gmap string (gmap Z Z))     (* FastCompassResult *)
| AValues (l : list Z)                     (* []int64 *)
| ANopCounters (m : gmap string unit)      (* map[string]BucketCounter *)
| ANopCounter                              (* the no-op bucket counter *)
| ANopSnapshot.                            (* the no-op snapshot *)

(** impl/nop_bucket_counter.go:27-64 *)
Inductive nbc_call :=
| NbLastUpdateTime | NbGetCount | NbInc | NbIncN (n : Z) | NbDec | NbDecN (n : Z) | NbUpdate | NbUpdateN (n : Z)
| NbGetBucketCounts | NbGetBucketCountsSince (t : Z) | NbGetBucketInterval.
Definition nbc_act (s : unit) (c : nbc_call) : unit * answer :=
  match c with
  | NbLastUpdateTime => (tt, AInt 0)
  | NbGetCount => (tt, AInt 0)
  | NbInc | NbIncN _ | NbDec | NbDecN _ | NbUpdate | NbUpdateN _ => (tt, ANone)
  | NbGetBucketCounts => (tt, ACounts ∅)
  | NbGetBucketCountsSince _ => (tt, ACounts ∅)
  | NbGetBucketInterval => (tt, AInt 0)
  end.

(** impl/nop_compass.go:30-90 *)
Inductive nc_call :=
| NcLastUpdateTime | NcGetCount | NcGetInstantCount | NcGetInstantCountSince (t : Z) | NcGetInstantCountInterval
| NcGetFifteenMinuteRate | NcGetFiveMinuteRate | NcGetMeanRate | NcGetOneMinuteRate | NcGetSnapshot
| NcUpdate (d : Z) | NcUpdateWithError (d : Z) (ok : bool) (errorCode addon : string)
| NcGetSuccessCount | NcGetErrorCodeCounts | NcGetAddonCounts | NcGetBucketSuccessCount.
Definition nc_act (s : unit) (c : nc_call) : unit * answer :=
  match c with
  | NcLastUpdateTime | NcGetCount => (tt, AInt 0)
  | NcGetInstantCount | NcGetInstantCountSince _ => (tt, ACounts ∅)
  | NcGetInstantCountInterval => (tt, AInt 0)
  | NcGetFifteenMinuteRate | NcGetFiveMinuteRate | NcGetMeanRate | NcGetOneMinuteRate => (tt, AFloat f0)
  | NcGetSnapshot => (tt, ANopSnapshot)
  | NcUpdate _ | NcUpdateWithError _ _ _ _ => (tt, ANone)
  | NcGetSuccessCount => (tt, AInt 0)
  | NcGetErrorCodeCounts | NcGetAddonCounts => (tt, ANopCounters ∅)
  | NcGetBucketSuccessCount => (tt, ANopCounter)
  end.

(** impl/nop_fast_compass.go:31-64 *)
Inductive nfc_call :=
| NfLastUpdateTime | NfRecord (d : Z) (subCategory : string)
| NfGetMethodCountPerCategory | NfGetMethodCountPerCategorySince (t : Z)
| NfGetMethodRtPerCategory | NfGetMethodRtPerCategorySince (t : Z)
| NfGetCountAndRtPerCategory | NfGetCountAndRtPerCategorySince (t : Z)
| NfGetBucketInterval.
Definition nfc_act (s : unit) (c : nfc_call) : unit * answer :=
  match c with
  | NfLastUpdateTime => (tt, AInt 0)
  | NfRecord _ _ => (tt, ANone)
  | NfGetMethodCountPerCategory | NfGetMethodCountPerCategorySince _ => (tt, AResult ∅)
  | NfGetMethodRtPerCategory | NfGetMethodRtPerCategorySince _ => (tt, AResult ∅)
  | NfGetCountAndRtPerCategory | NfGetCountAndRtPerCategorySince _ => (tt, AResult ∅)
  | NfGetBucketInterval => (tt, AInt 1000000000)
  end.

(** impl/nop_snapshot.go:22-72 *)
Inductive ns_call :=
| NsGetValue (q : f64) | NsGetValues | NsSize | NsGetMedian | NsGet75thPercentile | NsGet95thPercentile
| NsGet98thPercentile | NsGet99thPercentile | NsGet999thPercentile | NsGetMax | NsGetMean | NsGetMin | NsGetStdDev.
Definition ns_act (s : unit) (c : ns_call) : unit * answer :=
  match c with
  | NsGetValue _ => (tt, AFloat f0)
  | NsGetValues => (tt, AValues [])
  | NsSize => (tt, AInt 0)
  | NsGetMedian | NsGet75thPercentile | NsGet95thPercentile | NsGet98thPercentile | NsGet99thPercentile
  | NsGet999thPercentile => (tt, AFloat f0)
  | NsGetMax => (tt, AInt 0)
  | NsGetMean => (tt, AFloat f0)
  | NsGetMin => (tt, AInt 0)
  | NsGetStdDev => (tt, AFloat f0)
  end.

(** A history of calls on one object. *)
Fixpoint answers {C} (act : unit -> C -> unit * answer) (s : unit) (calls : list C) : list answer :=
  match calls with [] => [] | c :: cs => let '(s', a) := act s c in a :: answers act s' cs end.
