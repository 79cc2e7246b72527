(** C82 and facts about Duration.Seconds(). *)
From Verif.Go Require Import GoInt GoFloat.
From Verif.Model Require Import BucketCounter FloatUtil.
From Verif.Proofs Require Import FloatProofs.
From Coq Require Import Reals.
From Flocq Require Import Core BinarySingleNaN.

(** C82: symmetric for all doubles, infinities and NaN included; ... *)
Theorem C82_delta_symmetric : forall e a d : f64, deltaCompareFloat64 e a d = deltaCompareFloat64 a e d.
Proof. exact delta_sym. Qed.
Print Assumptions C82_delta_symmetric.

(** ... for finite doubles true exactly when the distance of the two numbers,
    rounded to double (without overflow), is at most delta; ... *)
Theorem C82_delta_meaning : forall e a d : f64, ffinite e = true -> ffinite a = true -> ffinite d = true ->
  deltaCompareFloat64 e a d = true <->
  (Rabs (rnd (RF e - RF a)) < bpow radix2 1024 /\ rnd (Rabs (RF e - RF a)) <= RF d)%R.
Proof. exact delta_iff. Qed.
Print Assumptions C82_delta_meaning.

(** ... and false whenever an argument is NaN. *)
Theorem C82_delta_nan : forall e a d : f64,
  fisnan e = true \/ fisnan a = true \/ fisnan d = true -> deltaCompareFloat64 e a d = false.
Proof. exact delta_nan. Qed.
Print Assumptions C82_delta_nan.

Example C82_case :
  deltaCompareFloat64 (f_of_int 7) (f_of_int 5) (f_of_int 2) = true /\
  deltaCompareFloat64 (f_of_int 5) (f_of_int 8) (f_of_int 2) = false /\
  ffinite (f_of_int 7) = true /\ deltaCompareFloat64 B754_nan f0 (f_of_int 2) = false.
Proof. vm_compute. auto. Qed.

(** int64(d.Seconds()) is the whole number of seconds (used by the bucket
    counter model), for all non-negative durations below 2^22 s (48 days). *)
Theorem seconds_float_exact : forall d, (0 <= d < 2 ^ 22 * Second)%Z ->
  int_of_f (duration_Seconds d) = interval_seconds d.
Proof. exact seconds_nonneg. Qed.
Print Assumptions seconds_float_exact.
Example seconds_case : int_of_f (duration_Seconds 4999999999) = 4%Z.
Proof. vm_compute. reflexivity. Qed.

(** Beyond that it can be off by one: 2^25 s minus one nanosecond counts as 2^25 s. *)
Theorem seconds_float_inexact : int_of_f (duration_Seconds (2 ^ 25 * Second - 1)) = (interval_seconds (2 ^ 25 * Second - 1) + 1)%Z.
Proof. vm_compute. reflexivity. Qed.
Print Assumptions seconds_float_inexact.
