(** C152: the mean of a snapshot of any 64-bit values.  [mean_of values] (Spec/QuantileSpec.v)
    is the sum divided by the number, in the reals; [RF x] the real number the double [x]
    stands for. *)
From Verif.Go Require Import GoInt GoFloat.
From Verif.Model Require Import UniformSnapshot BucketReservoir.
From Verif.Spec Require Import BucketSpec SnapshotSpec QuantileSpec.
From Verif.Proofs Require Import FloatProofs FloatSum UniformSnapshotProofs BucketHist MeanInt.
From Coq Require Import Reals Lra.
From Flocq Require Import Core.Core IEEE754.BinarySingleNaN.
Local Open Scope Z_scope.

Lemma wrapping_sum l acc : fold_left (fun sum value => wrap64 (sum + value)) l (wrap64 acc) = wrap64 (acc + sumZ l).
Proof.
  revert acc. induction l as [|v l IH]; intros acc; [cbn; by rewrite Z.add_0_r|]. cbn [fold_left].
  rewrite wrap64_add_l, IH, sumZ_cons. f_equal. lia.
Qed.
Lemma sum_real l : foldr Rplus 0%R (IZR <$> l) = IZR (sumZ l).
Proof. induction l as [|v l IH]; [done|]. rewrite fmap_cons, sumZ_cons, plus_IZR, <- IH. done. Qed.

Lemma pow50 : bpow radix2 (-50) = (/ 2 ^ 50)%R.
Proof. change (-50) with (- (50)). rewrite bpow_opp. f_equal. rewrite <- (IZR_Zpower radix2) by lia. rewrite pow_IZR. done. Qed.

(** What GetMean computes, for any values: the sum, wrapped to 64 bits, divided by the number,
    up to a relative error of 2^-50. *)
Theorem C152_wrapped : forall values, values <> [] -> Z.of_nat (length values) < 2 ^ 63 ->
  exists x, us_GetMean (NewUniformSnapshot values) = (x, false) /\ ffinite x = true /\
    let computed := (IZR (wrap64 (sumZ values)) / INR (length values))%R in
    (Rabs (RF x - computed) <= / 2 ^ 50 * Rabs computed)%R.
Proof.
  intros values Hne Hn. pose proof (sort_perm values) as P. unfold us_GetMean, us_Size. cbn [fst NewUniformSnapshot us_values].
  assert (Z.of_nat (length (sort_int64 values)) = Z.of_nat (length values)) as -> by (by rewrite P).
  assert (0 < Z.of_nat (length values)) by (destruct values; [done|cbn; lia]).
  rewrite (proj2 (Z.eqb_neq _ 0)) by lia. change (fold_left _ (sort_int64 values) 0) with (fold_left (fun sum value => wrap64 (sum + value)) (sort_int64 values) (wrap64 0)). rewrite wrapping_sum, Z.add_0_l.
  assert (sumZ (sort_int64 values) = sumZ values) as ->.
  { clear -P. revert P. generalize (sort_int64 values). intros l P. unfold sumZ. induction P; cbn; lia. }
  eexists. split; [reflexivity|]. rewrite INR_IZR_INZ.
  destruct (quot_error (wrap64 (sumZ values)) (Z.of_nat (length values)) (wrap64_range _) ltac:(lia) ltac:(unfold in64, two63; lia)) as [F E].
  split; [exact F|]. cbv zeta in *. rewrite <- pow50. exact E.
Qed.
Print Assumptions C152_wrapped.

(** C152 (what is missing: sums that do not fit into 64 bits): the mean up to a relative error
    of 2^-50. *)
Theorem C152_partial : forall values, values <> [] -> Z.of_nat (length values) < 2 ^ 63 -> in64 (sumZ values) ->
  exists x, us_GetMean (NewUniformSnapshot values) = (x, false) /\ ffinite x = true /\
    (Rabs (RF x - mean_of values) <= / 2 ^ 50 * Rabs (mean_of values))%R.
Proof.
  intros values Hne Hn Hs. destruct (C152_wrapped values Hne Hn) as (x & E & F & B). rewrite wrap64_id in B by done.
  exists x. unfold mean_of. rewrite sum_real. done.
Qed.
Print Assumptions C152_partial.

(** C152 is false: the sum wraps (uniform_snapshot.go:89-91).  The mean of two values of
    2^62 (as nanoseconds: 146 years) is reported as -2^62. *)
Theorem C152_refuted : Forall (fun v => in64 v) [2 ^ 62; 2 ^ 62] /\ mean_of [2 ^ 62; 2 ^ 62] = IZR (2 ^ 62) /\
  (match us_GetMean (NewUniformSnapshot [2 ^ 62; 2 ^ 62]) with (x, e) => feq x (f_of_int (- 2 ^ 62)) && negb e end) = true.
Proof.
  split; [repeat constructor; unfold in64, two63; lia|]. split; [|vm_compute; reflexivity].
  unfold mean_of. rewrite sum_real. change (sumZ [2 ^ 62; 2 ^ 62]) with (2 * 2 ^ 62). rewrite mult_IZR. change (INR (length [2 ^ 62; 2 ^ 62])) with (1 + 1)%R. field.
Qed.
Print Assumptions C152_refuted.

(** A case beyond C45's limit of 2^53. *)
Example C152_case : in64 (sumZ [2 ^ 53 + 1; 2 ^ 60; 7]) /\ (2 ^ 53 <? sum_abs [2 ^ 53 + 1; 2 ^ 60; 7]) = true.
Proof. split; [vm_compute; split; [discriminate|reflexivity]|vm_compute; reflexivity]. Qed.

(** The same for a bucket reservoir's snapshot: GetMean is the sum over the number, for every
    sum and positive number. *)
Theorem C152_bucket : forall count value, in64 count -> 0 < count -> in64 value ->
  exists x, bs_GetMean (NewBucketSnapshot count value) = (x, false) /\ ffinite x = true /\
    let exact := (IZR value / IZR count)%R in (Rabs (RF x - exact) <= / 2 ^ 50 * Rabs exact)%R.
Proof.
  intros count value Hc H0 Hv. unfold bs_GetMean, NewBucketSnapshot. cbn [bs_count bs_value]. rewrite (proj2 (Z.eqb_neq _ 0)) by lia.
  eexists. split; [reflexivity|]. destruct (quot_error value count Hv H0 Hc) as [F E]. split; [exact F|]. cbv zeta in *. rewrite <- pow50. exact E.
Qed.
Print Assumptions C152_bucket.

(** The standard deviation of any 64-bit values (even if their sum wraps) is a finite number,
    not negative: no NaN, no infinity, no error. *)
Theorem C153_stddev_defined : forall values, Forall in64 values -> Z.of_nat (length values) <= 2 ^ 53 ->
  exists x, us_GetStdDev (NewUniformSnapshot values) = (x, false) /\ ffinite x = true /\ (0 <= RF x)%R.
Proof.
  intros values Hv Hn. apply GetStdDev_any; cbn [NewUniformSnapshot us_values].
  - by rewrite (sort_perm values).
  - by rewrite (sort_perm values).
Qed.
Print Assumptions C153_stddev_defined.
Theorem C153_mean_defined : forall values, Z.of_nat (length values) < 2 ^ 63 ->
  exists x, us_GetMean (NewUniformSnapshot values) = (x, false) /\ ffinite x = true.
Proof.
  intros [|v l] Hn; [exists f0; split; [reflexivity|reflexivity]|]. destruct (C152_wrapped (v :: l) ltac:(done) Hn) as (x & E & F & _). eauto.
Qed.
Print Assumptions C153_mean_defined.
(** With the largest values there are: *)
Example C153_case : Forall in64 [2 ^ 63 - 1; 2 ^ 63 - 1; - 2 ^ 63] /\ (match us_GetStdDev (NewUniformSnapshot [2 ^ 63 - 1; 2 ^ 63 - 1; - 2 ^ 63]) with (x, e) => fle (f_of_int (2 ^ 63)) x && negb e end) = true.
Proof. split; [repeat constructor; unfold in64, two63; lia|vm_compute; reflexivity]. Qed.
