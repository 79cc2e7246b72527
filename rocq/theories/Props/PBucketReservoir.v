(** C51, C58: bucket snapshot and bucket reservoir. *)
From Verif.Go Require Import GoInt GoFloat.
From Verif.Model Require Import Counter BucketQueue BucketCounter BucketReservoir.
From Verif.Spec Require Import BucketSpec CounterSpec BucketReservoirSpec.
From Verif.Proofs Require Import BucketReservoirProofs.
From Coq Require Import Reals Lra.
From Flocq Require Import Core.Core IEEE754.BinarySingleNaN.
Local Open Scope Z_scope.

(** C51.  For all int64 count and value: the mean is 0 for count 0 and otherwise
    the rounded quotient of the two (converted) numbers, finite; exact operands up to 2^53. *)
Theorem C51_mean : forall count value, in64 count -> in64 value ->
  let s := NewBucketSnapshot count value in
  bs_Size s = (count, false) /\
  (count = 0 -> bs_GetMean s = (f0, false)) /\
  (count <> 0 -> exists x, bs_GetMean s = (x, false) /\ ffinite x = true /\
     RF x = rnd (rnd (IZR value) / rnd (IZR count)) /\
     (Z.abs value <= 2 ^ 53 -> Z.abs count <= 2 ^ 53 -> RF x = rnd (IZR value / IZR count))).
Proof.
  intros count value Hc Hv. cbv zeta. split; [done|]. split.
  - intros ->. done.
  - intros Hne. unfold bs_GetMean. cbn [NewBucketSnapshot bs_count bs_value]. rewrite (proj2 (Z.eqb_neq count 0) Hne).
    assert (forall z, in64 z -> RF (f_of_int z) = rnd (IZR z)) as HRF.
    { intros z Hz. apply f_of_int_RF. assert (2 ^ 63 <= 2 ^ 1023) by (apply Z.pow_le_mono_r; lia). unfold in64, two63 in Hz. lia. }
    assert (1 <= Rabs (rnd (IZR count)))%R as H1.
    { destruct (Z_lt_ge_dec 0 count) as [C|C].
      - assert (1 <= rnd (IZR count))%R by (apply rnd_ge_l; [apply (fmt_IZR 1); lia|apply (IZR_le 1); lia]).
        rewrite Rabs_pos_eq; lra.
      - assert (rnd (IZR count) <= -1)%R by (apply rnd_le_r; [apply (fmt_IZR (-1)); lia|apply (IZR_le _ (-1)); lia]).
        rewrite Rabs_left; lra. }
    assert (Rabs (rnd (IZR value)) <= bpow radix2 63)%R as H2.
    { apply abs_round_le_generic; try typeclasses eauto; [apply fmt_bpow; lia|].
      rewrite <- IZR_pow2, <- abs_IZR by lia. apply IZR_le. unfold in64, two63 in Hv. lia. }
    assert (rnd (IZR count) <> 0)%R as Hn0 by (intros E; rewrite E, Rabs_R0 in H1; lra).
    destruct (fdiv_spec (f_of_int value) (f_of_int count)) as [D1 D2].
    + by apply f_of_int_finite64.
    + by rewrite HRF.
    + rewrite !HRF by done. apply fits_bound. unfold Rdiv. rewrite Rabs_mult, Rabs_inv.
      apply Rle_trans with (bpow radix2 63 * 1)%R.
      * apply Rmult_le_compat; [apply Rabs_pos| |done|].
        -- apply Rlt_le, Rinv_0_lt_compat. lra.
        -- rewrite <- Rinv_1. apply Rinv_le; lra.
      * rewrite Rmult_1_r. apply bpow_le. lia.
    + rewrite !HRF in D1 by done. eexists. split; [done|]. split; [done|]. split; [done|]. intros A B.
      rewrite D1. by rewrite (rnd_fmt (IZR value)), (rnd_fmt (IZR count)) by (by apply fmt_IZR).
Qed.
Print Assumptions C51_mean.

Theorem C51_not_available : forall s q,
  let na := (f_of_int (-10001), true) in
  bs_GetValue s q = na /\ bs_GetMedian s = na /\ bs_Get75thPercentile s = na /\ bs_Get95thPercentile s = na /\
  bs_Get98thPercentile s = na /\ bs_Get99thPercentile s = na /\ bs_Get999thPercentile s = na /\ bs_GetStdDev s = na /\
  bs_GetMin s = (-10001, true) /\ bs_GetMax s = (-10001, true) /\ snd (bs_GetValues s) = true.
Proof. intros. split_and!; reflexivity. Qed.
Print Assumptions C51_not_available.

Example C51_case : (match bs_GetMean (NewBucketSnapshot 4 10) with (x, e) => feq (fmul x (f_of_int 2)) (f_of_int 5) && negb e end) = true.
Proof. vm_compute. reflexivity. Qed.

(** C58 is false: when both the previous and the current interval have events, the
    value sum of one may be divided by the count of the other.  Two events of value
    10 in one interval and one of value 100 in the next: a mean of 20 is possible. *)
Theorem C58_refuted : exists c b s,
  let evs := [BrEvent 5000 5000 10; BrEvent 6000 6000 10; BrEvent 10000 10000 100] in
  br_exec (5 * Second) 10 0 0 evs = Ok (c, b) /\ br_GetSnapshot b c 10000 10000 10000 s /\
  bs_count s = 1 /\ bs_value s = 20 /\
  values_in 5 5000 evs = [10; 10] /\ values_in 5 10000 evs = [100].
Proof.
  cbv zeta. destruct (br_exec (5 * Second) 10 0 0 [BrEvent 5000 5000 10; BrEvent 6000 6000 10; BrEvent 10000 10000 100]) as [[c b]|] eqn:E;
    [|vm_compute in E; discriminate].
  exists c, b, (NewBucketSnapshot 1 20). split; [done|]. split; [|split_and!; reflexivity].
  vm_compute in E. injection E as <- <-.
  do 5 eexists. split; [vm_compute; reflexivity|]. split; [vm_compute; reflexivity|].
  split; [right; exists 5000; vm_compute; reflexivity|]. split; [vm_compute; reflexivity|].
  split; [right; exists 10000; vm_compute; reflexivity|]. reflexivity.
Qed.
Print Assumptions C58_refuted.

(** C58, what holds.  A snapshot taken at t1 always exists; it combines the value
    sum and the event count of the current or the previous interval (never an empty
    one if the other is not), and it is the correctly rounded mean of the values of
    an interval if only that one of the two has events.  Missing: both have. *)
Theorem C58_partial : forall interval N now0 now1 evs t1 t2 t3,
  Second <= interval -> in64 interval -> 2 <= N -> 1000 <= t1 <= t2 -> t1 <= t3 -> in64 t2 -> in64 t3 ->
  nondecreasing 0 (be_countTime <$> evs) t1 -> nondecreasing 0 (be_valueTime <$> evs) t1 ->
  let I := interval / Second in
  let cur := bucket_key I t1 in
  let prev := cur - 1000 * I in
  exists c b, br_exec interval N now0 now1 evs = Ok (c, b) /\ (exists s, br_GetSnapshot b c t1 t2 t3 s) /\
    forall s, br_GetSnapshot b c t1 t2 t3 s ->
      (exists k, (k = cur \/ k = prev) /\ bs_value s = wrap64 (sumZ (values_in I k evs)) /\
         (values_in I k evs = [] -> values_in I cur evs = [] /\ values_in I prev evs = [])) /\
      (exists k, (k = cur \/ k = prev) /\ bs_count s = wrap64 (counted_in I k evs) /\
         (counted_in I k evs = 0 -> counted_in I cur evs = 0 /\ counted_in I prev evs = 0)) /\
      (* one interval only, both clock readings of each event in the same interval *)
      (forall k other, (k = cur /\ other = prev \/ k = prev /\ other = cur) ->
         (forall e, e ∈ evs -> bucket_key I (be_countTime e) = bucket_key I (be_valueTime e)) ->
         values_in I k evs <> [] -> values_in I other evs = [] ->
         Z.abs (sumZ (values_in I k evs)) <= 2 ^ 53 -> Z.of_nat (length evs) <= 2 ^ 53 ->
         exists x, bs_GetMean s = (x, false) /\ ffinite x = true /\
           RF x = rnd (IZR (sumZ (values_in I k evs)) / IZR (Z.of_nat (length (values_in I k evs))))).
Proof.
  intros interval N now0 now1 evs t1 t2 t3 H1 H2 H3 H4 H5 H6 H7 H8 H9. cbv zeta.
  destruct (br_snapshot interval N now0 now1 evs t1 t2 t3 H1 H2 H3 H4 H5 H6 H7 H8 H9) as (c & b & E & Ex & Hall).
  exists c, b. split; [done|]. split; [done|]. intros s Hs. destruct (Hall s Hs) as [Hv Hc]. split; [done|]. split; [done|].
  intros k other Hko Hsame Hne Hoth Hsum Hlen.
  set (I := interval / Second) in *. set (cur := bucket_key I t1) in *.
  assert (forall k', counted_in I k' evs = Z.of_nat (length (values_in I k' evs))) as Hcv.
  { intros k'. unfold counted_in, values_in. rewrite fmap_length. do 2 f_equal. clear -Hsame.
    induction evs as [|e evs IH]; [done|]. rewrite !filter_cons, (Hsame e) by left.
    destruct (decide _); rewrite IH; try done; intros e' He'; apply Hsame; by right. }
  assert (bs_value s = sumZ (values_in I k evs)) as Ev.
  { destruct Hv as (k' & Hk' & -> & He). assert (k' = k) as ->.
    { destruct Hko as [[-> ->]|[-> ->]], Hk' as [-> | ->]; try done; exfalso; apply Hne; by apply He. }
    apply wrap64_id. unfold in64, two63. lia. }
  assert (0 < Z.of_nat (length (values_in I k evs)) <= Z.of_nat (length evs)) as Hl.
  { split; [destruct (values_in I k evs); [done|cbn; lia]|]. unfold values_in. rewrite fmap_length.
    apply inj_le. apply filter_length. }
  assert (bs_count s = Z.of_nat (length (values_in I k evs))) as Ec.
  { destruct Hc as (k' & Hk' & -> & He). rewrite Hcv in *. assert (k' = k) as ->.
    { rewrite !Hcv in He.
      destruct Hko as [[-> ->]|[-> ->]], Hk' as [-> | ->]; try done; exfalso; rewrite Hoth in He; destruct (He eq_refl); lia. }
    apply wrap64_id. unfold in64, two63. lia. }
  destruct (C51_mean (bs_count s) (bs_value s)) as (_ & _ & M).
  - rewrite Ec. unfold in64, two63. lia.
  - rewrite Ev. unfold in64, two63. lia.
  - destruct M as (x & M1 & M2 & _ & M3); [lia|]. exists x. destruct s as [cn vl]. cbn in *. split; [done|]. split; [done|].
    rewrite M3, Ec, Ev by lia. done.
Qed.
Print Assumptions C58_partial.

(** The hypotheses of the last clause: two events, one interval. *)
Example C58_case :
  let evs := [BrEvent 5000 5000 10; BrEvent 6000 6000 20] in
  values_in 5 5000 evs = [10; 20] /\ values_in 5 10000 evs = [] /\ counted_in 5 5000 evs = 2 /\ bucket_key 5 12000 = 10000.
Proof. vm_compute. split_and!; reflexivity. Qed.
