(** Vocabulary for the weighted snapshot statements. *)
From Verif.Go Require Import GoInt GoFloat.
From Verif.Model Require Import WeightedSnapshot.
From Coq Require Import Reals.
Local Open Scope Z_scope.

(** The samples have finite positive weights. *)
Definition good_weights (samples : list sample) : Prop :=
  Forall (fun s => ffinite (sm_weight s) = true /\ (0 < RF (sm_weight s))%R) samples.

(** The double obtained by adding up, from the left, the normalised weights of the
    first [i] samples of [cp] (the cumulative weight before sample [i]). *)
Definition cumulative_before (total : f64) (cp : list sample) (i : nat) : f64 :=
  fold_left (fun acc s => fadd acc (fdiv (sm_weight s) total)) (take i cp) f0.

(** The real weighted mean and variance of the samples. *)
Definition sumR (l : list R) : R := foldr Rplus 0%R l.
Definition total_weight (samples : list sample) : R := sumR ((fun s => RF (sm_weight s)) <$> samples).
Definition weighted_mean (samples : list sample) : R :=
  (sumR ((fun s => RF (sm_weight s) * IZR (sm_value s))%R <$> samples) / total_weight samples)%R.
Definition weighted_variance (samples : list sample) : R :=
  (sumR ((fun s => RF (sm_weight s) * ((IZR (sm_value s) - weighted_mean samples) * (IZR (sm_value s) - weighted_mean samples)))%R <$> samples)
   / total_weight samples)%R.

(** The weights have an exponent that is not extreme. *)
Definition moderate_weights (samples : list sample) : Prop :=
  Forall (fun s => ffinite (sm_weight s) = true /\ (/ 2 ^ 400 <= RF (sm_weight s) <= 2 ^ 400)%R) samples.

(** The positions a binary search over [lo, hi) probes while every answer sends it
    to the right. *)
Fixpoint right_spine (fuel lo hi : nat) : list nat :=
  match fuel with
  | O => []
  | S fuel => if (lo <? hi)%nat then ((lo + hi) / 2)%nat :: right_spine fuel ((lo + hi) / 2 + 1) hi else []
  end.
