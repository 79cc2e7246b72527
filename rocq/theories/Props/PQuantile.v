(** C46 (accuracy), C104, C105: what the quantiles and the standard deviation of a
    snapshot are, up to the rounding of doubles. *)
From Verif.Go Require Import GoInt GoFloat.
From Verif.Model Require Import UniformSnapshot WeightedSnapshot.
From Verif.Spec Require Import BucketSpec SnapshotSpec QuantileSpec WeightedSpec.
From Verif.Proofs Require Import UniformSnapshotProofs UniformQuantile UniformVar.
From Verif.Props Require Import PUniformSnapshot PWeighted.
From Coq Require Import Reals Lra.
From Flocq Require Import Core.Core IEEE754.BinarySingleNaN.
Local Open Scope Z_scope.

Lemma inv_pow2 k : (/ 2 ^ k)%R = bpow radix2 (- Z.of_nat k).
Proof. rewrite bpow_opp. f_equal. rewrite <- IZR_pow2 by lia. apply pow_IZR. Qed.

(** C104.  Position q(n+1) in the sorted values, with linear interpolation. *)
Theorem C104_interpolates : forall values sorted q M,
  Permutation sorted values -> ascending sorted ->
  valid_quantile q -> values <> [] -> Z.of_nat (length values) <= 2 ^ 52 ->
  small (2 ^ 52) values -> small M values ->
  let n := Z.of_nat (length values) in
  let p := (RF q * IZR (n + 1))%R in
  exists x, us_GetValue (NewUniformSnapshot values) q = Ok (x, false) /\ ffinite x = true /\
    (Rabs (RF x - value_at sorted p) <= (2 * IZR n + 5) * IZR M * / 2 ^ 53)%R /\
    (Zfloor p <= 0 -> RF x = IZR (nth_value sorted 1)) /\
    (n <= Zfloor p -> RF x = IZR (nth_value sorted n)) /\
    (1 <= Zfloor p < n -> (IZR (nth_value sorted (Zfloor p)) <= RF x <= IZR (nth_value sorted (Zfloor p + 1)))%R) /\
    (forall k, 1 <= k <= n -> p = IZR k -> RF x = IZR (nth_value sorted k)).
Proof.
  intros values sorted q M P S Hq Hne Hn Hs HM. cbv zeta.
  assert (sorted = sort_int64 values) as ->.
  { apply (StronglySorted_unique Z.le); [exact S|apply sort_ascending|]. by rewrite sort_perm. }
  clear S. pose proof (sort_perm values) as P'. pose proof (sort_ascending values) as S.
  assert (length (sort_int64 values) = length values) as L by (by rewrite P').
  assert (0 < Z.of_nat (length values)) by (destruct values; [done|cbn; lia]).
  destruct (GetValue_ideal (NewUniformSnapshot values) q M) as (x & E & F & X); cbn [NewUniformSnapshot us_values] in *.
  - exact Hq.
  - exact S.
  - unfold small. rewrite P'. exact Hs.
  - unfold small. rewrite P'. exact HM.
  - lia.
  - rewrite L in X. exists x. split; [exact E|]. split; [exact F|].
    rewrite (inv_pow2 53). exact X.
Qed.
Print Assumptions C104_interpolates.

Example C104_case :
  (* position 0.3 * 4 = 1.2: a fifth of the way from the first to the second *)
  (match us_GetValue (NewUniformSnapshot [40; 10; 20]) (fdiv (f_of_int 3) (f_of_int 10)) with
   | Ok (x, false) => feq x (f_of_int 12) | _ => false end) = true /\
  small 40 [40; 10; 20] /\ small (2 ^ 52) [40; 10; 20] /\ Permutation [10; 20; 40] [40; 10; 20] /\ ascending [10; 20; 40].
Proof.
  split; [vm_compute; reflexivity|]. split; [repeat constructor; cbn; lia|]. split; [repeat constructor; cbn; lia|].
  split; [|repeat constructor; cbn; lia]. apply (Permutation_app_comm [10; 20] [40]).
Qed.

(** C46.  The standard deviation squared, against the sample variance. *)
Theorem C46_accuracy : forall values,
  sum_abs values <= 2 ^ 53 -> 2 <= Z.of_nat (length values) <= 2 ^ 50 ->
  exists x, us_GetStdDev (NewUniformSnapshot values) = (x, false) /\ ffinite x = true /\ (0 <= RF x)%R /\
    (Rabs (RF x * RF x - sample_variance values) <=
       (2 * INR (length values) + 12) * / 2 ^ 53 * sample_variance values + / 2 ^ 104 * (mean_of values * mean_of values))%R.
Proof.
  intros values Hs Hn. pose proof (sort_perm values) as P.
  assert (forall l l' : list R, Permutation l l' -> foldr Rplus 0%R l = foldr Rplus 0%R l') as Hsum.
  { clear. intros l l' Hp. induction Hp; cbn; lra. }
  assert (length (sort_int64 values) = length values) as L by (by rewrite P).
  assert (mean_of (sort_int64 values) = mean_of values) as Em.
  { unfold mean_of. rewrite L. f_equal. apply Hsum. by rewrite P. }
  assert (sample_variance (sort_int64 values) = sample_variance values) as Ev.
  { unfold sample_variance. rewrite L, Em. f_equal. apply Hsum. by rewrite P. }
  assert (sum_abs (sort_int64 values) = sum_abs values) as Ea.
  { unfold sum_abs, sumZ. clear -P. induction P; cbn; try lia. }
  destruct (GetStdDev_accuracy (NewUniformSnapshot values)) as (x & E & F & H0 & X); cbn [NewUniformSnapshot us_values] in *.
  - lia.
  - lia.
  - rewrite L, Em, Ev in X. exists x. split; [exact E|]. split; [exact F|]. split; [exact H0|].
    rewrite (inv_pow2 53), (inv_pow2 104). exact X.
Qed.
Print Assumptions C46_accuracy.
Example C46_accuracy_case : sum_abs demo_values <= 2 ^ 53 /\ 2 <= Z.of_nat (length demo_values) <= 2 ^ 50 /\
  (match us_GetStdDev (NewUniformSnapshot [5; 1; 3]) with (x, e) => feq x (f_of_int 2) && negb e end) = true.
Proof. split; [vm_compute; discriminate|]. split; [vm_compute; split; discriminate|]. vm_compute. reflexivity. Qed.

(** C105.  The named percentiles. *)
Definition uniform_percentiles :=
  [ (us_GetMedian, (1, 2)); (us_Get75thPercentile, (75, 100)); (us_Get95thPercentile, (95, 100));
    (us_Get98thPercentile, (98, 100)); (us_Get99thPercentile, (99, 100)); (us_Get999thPercentile, (999, 1000)) ].
Definition weighted_percentiles :=
  [ (ws_GetMedian, (1, 2)); (ws_Get75thPercentile, (75, 100)); (ws_Get95thPercentile, (95, 100));
    (ws_Get98thPercentile, (98, 100)); (ws_Get99thPercentile, (99, 100)); (ws_Get999thPercentile, (999, 1000)) ].

Theorem C105_uniform : forall values sorted M,
  Permutation sorted values -> ascending sorted -> values <> [] -> Z.of_nat (length values) <= 2 ^ 52 - 1 ->
  small (2 ^ 52) values -> small M values ->
  let n := Z.of_nat (length values) in
  Forall (fun '(get, (a, b)) => exists x, get (NewUniformSnapshot values) = Ok (x, false) /\ ffinite x = true /\
    (Rabs (RF x - value_at sorted (IZR a / IZR b * IZR (n + 1))) <= (4 * IZR n + 7) * IZR M * / 2 ^ 53)%R) uniform_percentiles.
Proof.
  intros values sorted M P S Hne Hn Hs HM. cbv zeta.
  assert (sorted = sort_int64 values) as ->.
  { apply (StronglySorted_unique Z.le); [exact S|apply sort_ascending|]. by rewrite sort_perm. }
  clear S. pose proof (sort_perm values) as P'. pose proof (sort_ascending values) as S.
  assert (length (sort_int64 values) = length values) as L by (by rewrite P').
  assert (0 < Z.of_nat (length values)) by (destruct values; [done|cbn; lia]).
  assert (forall a b, 0 < a <= b -> b <= 2 ^ 53 ->
    exists x, us_GetValue (NewUniformSnapshot values) (fdiv (f_of_int a) (f_of_int b)) = Ok (x, false) /\ ffinite x = true /\
    (Rabs (RF x - value_at (sort_int64 values) (IZR a / IZR b * IZR (Z.of_nat (length values) + 1))) <= (4 * IZR (Z.of_nat (length values)) + 7) * IZR M * / 2 ^ 53)%R) as G.
  { intros a b Ha Hb. destruct (GetValue_const (NewUniformSnapshot values) M a b Ha Hb) as (x & E & F & X); cbn [NewUniformSnapshot us_values] in *.
    - exact S.
    - unfold small. rewrite P'. exact Hs.
    - unfold small. rewrite P'. exact HM.
    - lia.
    - rewrite L in X. exists x. split; [exact E|]. split; [exact F|].
      rewrite (inv_pow2 53). exact X. }
  unfold uniform_percentiles. apply Forall_cons. split.
  { cbv beta iota. replace (1 / 2)%R with (IZR 5 / IZR 10)%R by lra. apply (G 5 10); lia. }
  apply Forall_cons. split; [apply (G 75 100); lia|]. apply Forall_cons. split; [apply (G 95 100); lia|].
  apply Forall_cons. split; [apply (G 98 100); lia|]. apply Forall_cons. split; [apply (G 99 100); lia|].
  apply Forall_cons. split; [apply (G 999 1000); lia|]. constructor.
Qed.
Print Assumptions C105_uniform.

Theorem C105_ordered : forall values a b get get' c d,
  small (2 ^ 52) values -> Z.of_nat (length values) <= 2 ^ 52 ->
  (get, (a, b)) ∈ uniform_percentiles -> (get', (c, d)) ∈ uniform_percentiles -> (IZR a / IZR b <= IZR c / IZR d)%R ->
  exists x y, get (NewUniformSnapshot values) = Ok (x, false) /\ get' (NewUniformSnapshot values) = Ok (y, false) /\ (RF x <= RF y)%R.
Proof.
  intros values a b get get' c d Hs Hn H1 H2 Hle.
  assert (forall g e f, (g, (e, f)) ∈ uniform_percentiles -> exists q, valid_quantile q /\ RF q = rnd (IZR e / IZR f) /\
    g (NewUniformSnapshot values) = us_GetValue (NewUniformSnapshot values) q) as G.
  { clear. intros g e f H. unfold uniform_percentiles in H.
    repeat (apply elem_of_cons in H as [H|H]; [injection H as -> -> ->|]); [| | | | | |by apply elem_of_nil in H].
    - destruct (frac_const 5 10 ltac:(lia) ltac:(lia)) as (V & R & _). replace (IZR 1 / IZR 2)%R with (IZR 5 / IZR 10)%R by (simpl; lra).
      eexists. split; [exact V|]. split; [exact R|reflexivity].
    - destruct (frac_const 75 100 ltac:(lia) ltac:(lia)) as (V & R & _). eexists. split; [exact V|]. split; [exact R|reflexivity].
    - destruct (frac_const 95 100 ltac:(lia) ltac:(lia)) as (V & R & _). eexists. split; [exact V|]. split; [exact R|reflexivity].
    - destruct (frac_const 98 100 ltac:(lia) ltac:(lia)) as (V & R & _). eexists. split; [exact V|]. split; [exact R|reflexivity].
    - destruct (frac_const 99 100 ltac:(lia) ltac:(lia)) as (V & R & _). eexists. split; [exact V|]. split; [exact R|reflexivity].
    - destruct (frac_const 999 1000 ltac:(lia) ltac:(lia)) as (V & R & _). eexists. split; [exact V|]. split; [exact R|reflexivity]. }
  destruct (G _ _ _ H1) as (q & V1 & R1 & ->). destruct (G _ _ _ H2) as (q' & V2 & R2 & ->).
  apply (C44_monotone values q q'); try assumption. rewrite R1, R2. by apply rnd_le.
Qed.
Print Assumptions C105_ordered.

Theorem C105_weighted : forall samples w,
  NewWeightedSnapshot samples w -> good_weights samples -> Z.of_nat (length samples) <= 2 ^ 53 ->
  Forall (fun '(get, (a, b)) => exists q, valid_quantile q /\ RF q = rnd (IZR a / IZR b) /\ get w = ws_GetValue w q) weighted_percentiles /\
  (forall get get' a b c d, samples <> [] ->
     (get, (a, b)) ∈ weighted_percentiles -> (get', (c, d)) ∈ weighted_percentiles -> (IZR a / IZR b <= IZR c / IZR d)%R ->
     exists v v', get w = Ok (f_of_int v, false) /\ get' w = Ok (f_of_int v', false) /\ v <= v').
Proof.
  intros samples w HN HW Hn.
  assert (Forall (fun '(get, (a, b)) => exists q, valid_quantile q /\ RF q = rnd (IZR a / IZR b) /\ get w = ws_GetValue w q) weighted_percentiles) as G.
  { clear. unfold weighted_percentiles. apply Forall_cons. split.
    { destruct (frac_const 5 10 ltac:(lia) ltac:(lia)) as (V & R & _). replace (IZR 1 / IZR 2)%R with (IZR 5 / IZR 10)%R by (simpl; lra).
      eexists. split; [exact V|]. split; [exact R|reflexivity]. }
    apply Forall_cons. split; [|apply Forall_cons; split; [|apply Forall_cons; split; [|apply Forall_cons; split; [|apply Forall_cons; split; [|constructor]]]]].
    - destruct (frac_const 75 100 ltac:(lia) ltac:(lia)) as (V & R & _). eexists. split; [exact V|]. split; [exact R|reflexivity].
    - destruct (frac_const 95 100 ltac:(lia) ltac:(lia)) as (V & R & _). eexists. split; [exact V|]. split; [exact R|reflexivity].
    - destruct (frac_const 98 100 ltac:(lia) ltac:(lia)) as (V & R & _). eexists. split; [exact V|]. split; [exact R|reflexivity].
    - destruct (frac_const 99 100 ltac:(lia) ltac:(lia)) as (V & R & _). eexists. split; [exact V|]. split; [exact R|reflexivity].
    - destruct (frac_const 999 1000 ltac:(lia) ltac:(lia)) as (V & R & _). eexists. split; [exact V|]. split; [exact R|reflexivity]. }
  split; [exact G|]. intros get get' a b c d Hne H1 H2 Hle. rewrite Forall_forall in G.
  destruct (G _ H1) as (q & V1 & R1 & ->). destruct (G _ H2) as (q' & V2 & R2 & ->).
  apply (C48_monotone samples w q q'); try assumption. rewrite R1, R2. by apply rnd_le.
Qed.
Print Assumptions C105_weighted.

Example C105_case :
  (match us_Get95thPercentile (NewUniformSnapshot [1; 2; 3; 4; 5; 6; 7; 8; 9; 10; 11; 12; 13; 14; 15; 16; 17; 18; 19]) with
   | Ok (x, false) => feq x (f_of_int 19) | _ => false end) = true /\
  (match us_Get75thPercentile (NewUniformSnapshot [10; 20; 30]) with
   | Ok (x, false) => feq x (f_of_int 30) | _ => false end) = true /\
  small (2 ^ 52) [10; 20; 30].
Proof. split; [vm_compute; reflexivity|]. split; [vm_compute; reflexivity|]. repeat constructor; cbn; lia. Qed.
