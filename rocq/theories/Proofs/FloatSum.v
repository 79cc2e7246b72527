(** Relative error of chains of float operations and of left-to-right sums. *)
From Verif.Go Require Import GoInt GoFloat.
From Verif.Spec Require Import WeightedSpec.
From Verif.Proofs Require Import UniformSnapshotProofs.
From Coq Require Import Reals Lra.
From Flocq Require Import Core.Core IEEE754.BinarySingleNaN.
From Flocq Require Import Plus_error Relative.
Local Open Scope R_scope.

Notation uro := (bpow radix2 (-53)).
Lemma uro_bounds : 0 < uro <= / 1024.
Proof. split; [apply bpow_gt_0|]. change (/1024) with (bpow radix2 (-10)). apply bpow_le. lia. Qed.

Lemma uro_half : uro = / 2 * bpow radix2 (-52).
Proof. exact (bpow_plus radix2 (-1) (-52)). Qed.

(** ** Factors that are a product of at most [k] rounding factors *)
Definition near (k : nat) (t : R) : Prop := (1 - uro) ^ k <= t <= / (1 - uro) ^ k.

Lemma near_base k : 0 < (1 - uro) ^ k <= 1.
Proof.
  pose proof uro_bounds as U. induction k as [|k IH]; cbn [pow]; [lra|]. split.
  - apply Rmult_lt_0_compat; lra.
  - apply Rle_trans with (1 * 1); [apply Rmult_le_compat; lra|lra].
Qed.
Lemma near_inv_base k : 1 <= / (1 - uro) ^ k.
Proof. pose proof (near_base k). rewrite <- Rinv_1 at 1. apply Rinv_le_contravar; lra. Qed.
Lemma near_pos k t : near k t -> 0 < t.
Proof. intros [H _]. pose proof (near_base k). lra. Qed.
Lemma near_1 : near 0 1.
Proof. split; cbn [pow]; lra. Qed.
Lemma near_le k l t : (k <= l)%nat -> near k t -> near l t.
Proof.
  intros Hkl [H1 H2]. pose proof (near_base k) as B1. pose proof (near_base (l - k)) as B2.
  replace l with (k + (l - k))%nat by lia. unfold near. rewrite pow_add. split.
  - apply Rle_trans with ((1 - uro) ^ k * 1); [apply Rmult_le_compat_l; lra|lra].
  - eapply Rle_trans; [exact H2|]. apply Rinv_le_contravar; [apply Rmult_lt_0_compat; lra|].
    apply Rle_trans with ((1 - uro) ^ k * 1); [apply Rmult_le_compat_l; lra|lra].
Qed.
Lemma near_mult k l t s : near k t -> near l s -> near (k + l) (t * s).
Proof.
  intros Ht Hs. pose proof (near_pos _ _ Ht). pose proof (near_pos _ _ Hs). destruct Ht as [H1 H2], Hs as [H3 H4].
  pose proof (near_base k) as B1. pose proof (near_base l) as B2. unfold near. rewrite pow_add. split.
  - apply Rmult_le_compat; lra.
  - rewrite Rinv_mult. apply Rmult_le_compat; lra.
Qed.
Lemma near_inv k t : near k t -> near k (/ t).
Proof.
  intros Ht. pose proof (near_pos _ _ Ht). destruct Ht as [H1 H2]. pose proof (near_base k) as B. split.
  - rewrite <- (Rinv_inv ((1 - uro) ^ k)). apply Rinv_le_contravar; lra.
  - apply Rinv_le_contravar; lra.
Qed.
Lemma near_rel e : Rabs e <= uro -> near 1 (1 + e).
Proof.
  intros He. apply Rabs_le_inv in He. pose proof uro_bounds as U. split.
  - cbn [pow]. lra.
  - apply Rmult_le_reg_r with ((1 - uro) ^ 1); [apply near_base|]. rewrite Rinv_l by (pose proof (near_base 1); lra).
    cbn [pow]. rewrite Rmult_1_r. apply Rle_trans with ((1 + uro) * (1 - uro)); [apply Rmult_le_compat_r; lra|]. nra.
Qed.
Lemma bernoulli k : 1 - INR k * uro <= (1 - uro) ^ k.
Proof.
  pose proof uro_bounds as U. induction k as [|k IH]; [cbn [pow INR]; lra|]. rewrite S_INR. cbn [pow].
  pose proof (near_base k) as B.
  apply Rle_trans with ((1 - uro) ^ k - uro * 1); [lra|].
  replace ((1 - uro) * (1 - uro) ^ k) with ((1 - uro) ^ k - uro * (1 - uro) ^ k) by ring.
  apply Rplus_le_compat_l, Ropp_le_contravar. apply Rmult_le_compat_l; lra.
Qed.
Lemma near_dist k t : near k t -> INR k * uro <= 1 / 2 -> Rabs (t - 1) <= 2 * INR k * uro.
Proof.
  intros [H1 H2] Hk. pose proof (bernoulli k) as B. pose proof (pos_INR k). pose proof uro_bounds as U.
  assert (0 <= INR k * uro) by (apply Rmult_le_pos; lra). set (x := INR k * uro) in *.
  replace (2 * INR k * uro) with (2 * x) by (unfold x; ring).
  apply Rabs_le. split; [lra|]. assert (/ (1 - uro) ^ k <= 1 + 2 * x); [|lra].
  pose proof (near_base k). apply Rmult_le_reg_r with ((1 - uro) ^ k); [lra|]. rewrite Rinv_l by lra.
  apply Rle_trans with ((1 + 2 * x) * (1 - x)); [nra|]. apply Rmult_le_compat_l; lra.
Qed.
Lemma near_2 k t : near k t -> INR k * uro <= 1 / 2 -> 0 < t <= 2.
Proof.
  intros H Hk. split; [by eapply near_pos|]. pose proof (near_dist k t H Hk) as D. apply Rabs_le_inv in D. lra.
Qed.

(** ** One rounding *)
Lemma rnd_rel x : x = 0 \/ bpow radix2 (-1022) <= Rabs x -> exists t, near 1 t /\ rnd x = x * t.
Proof.
  intros [->|Hx].
  - exists 1. split; [apply (near_le 0); [lia|apply near_1]|]. rewrite rnd_0. ring.
  - destruct (relative_error_N_FLT_ex radix2 (-1074) 53 ltac:(lia) (fun n => negb (Z.even n)) x Hx) as (e & He & E).
    exists (1 + e). split.
    + apply near_rel. rewrite uro_half. exact He.
    + unfold rnd. rewrite fexp64_FLT. exact E.
Qed.
Lemma rnd_rel_plus x y : fmt x -> fmt y -> exists t, near 1 t /\ rnd (x + y) = (x + y) * t.
Proof.
  intros Hx Hy. unfold fmt in Hx, Hy. rewrite fexp64_FLT in Hx, Hy.
  destruct (FLT_plus_error_N_ex radix2 (-1074) 53 (fun n => negb (Z.even n)) x y Hx Hy) as (e & He & E).
  exists (1 + e). split.
  - apply near_rel. eapply Rle_trans; [exact He|].
    assert (u_ro radix2 53 = uro) as ->.
    { rewrite uro_half. done. }
    pose proof uro_bounds as U. apply Rmult_le_reg_r with (1 + uro); [lra|]. unfold Rdiv. rewrite Rmult_assoc, Rinv_l by lra. nra.
  - unfold rnd. rewrite fexp64_FLT. exact E.
Qed.
Lemma rnd_rel_int z : exists t, near 1 t /\ rnd (IZR z) = IZR z * t.
Proof.
  apply rnd_rel. destruct (Z.eq_dec z 0) as [->|N]; [by left|]. right.
  apply Rle_trans with 1; [apply (bpow_le radix2 _ 0); lia|]. rewrite <- abs_IZR. apply IZR_le. lia.
Qed.

(** ** Sums of reals *)
Lemma sumR_cons x l : sumR (x :: l) = x + sumR l.
Proof. done. Qed.
Lemma sumR_perm l l' : Permutation l l' -> sumR l = sumR l'.
Proof. unfold sumR. induction 1; cbn; lra. Qed.
Lemma sumR_scal {A} (f : A -> R) c l : sumR ((fun x => c * f x) <$> l) = c * sumR (f <$> l).
Proof. induction l as [|x l IH]; [cbn; ring|]. rewrite !fmap_cons, !sumR_cons, IH. ring. Qed.
Lemma sumR_nonneg {A} (f : A -> R) l : Forall (fun x => 0 <= f x) l -> 0 <= sumR (f <$> l).
Proof. induction 1 as [|x l H HF IH]; [cbn; lra|]. rewrite fmap_cons, sumR_cons. lra. Qed.
Lemma sumR_le {A} (f g : A -> R) l : Forall (fun x => f x <= g x) l -> sumR (f <$> l) <= sumR (g <$> l).
Proof. induction 1 as [|x l H HF IH]; [cbn; lra|]. rewrite !fmap_cons, !sumR_cons. lra. Qed.
Lemma sumR_minus {A} (f g : A -> R) l : sumR (f <$> l) - sumR (g <$> l) = sumR ((fun x => f x - g x) <$> l).
Proof. induction l as [|x l IH]; [cbn; ring|]. rewrite !fmap_cons, !sumR_cons, <- IH. ring. Qed.
Lemma sumR_abs {A} (f : A -> R) l : Rabs (sumR (f <$> l)) <= sumR ((fun x => Rabs (f x)) <$> l).
Proof.
  induction l as [|x l IH]; [cbn; rewrite Rabs_R0; lra|]. rewrite !fmap_cons, !sumR_cons.
  eapply Rle_trans; [apply Rabs_triang|]. lra.
Qed.
Lemma sumR_const {A} c (l : list A) : sumR ((fun _ => c) <$> l) = INR (length l) * c.
Proof. induction l as [|x l IH]; [cbn; ring|]. rewrite fmap_cons, sumR_cons, IH. cbn [length]. rewrite S_INR. ring. Qed.

(** ** Sums of doubles, from the left: the result is the sum with every term off by
    at most as many rounding factors as there are terms *)
Lemma fsum_spec e ps : (-1074 <= e <= 970)%Z ->
  forall acc k, ffinite acc = true -> Rabs (RF acc) <= IZR k * bpow radix2 e -> (0 <= k)%Z -> (k + Z.of_nat (length ps) <= 2 ^ 53)%Z ->
  Forall (fun p => ffinite p = true /\ Rabs (RF p) <= bpow radix2 e) ps ->
  let r := fold_left fadd ps acc in
  ffinite r = true /\
  exists t0 ts, near (length ps) t0 /\ Forall (near (length ps)) ts /\ length ts = length ps /\
    RF r = RF acc * t0 + sumR (zip_with Rmult (RF <$> ps) ts).
Proof.
  intros He. induction ps as [|p ps IH]; intros acc k Fa Ha Hk Hn HF; cbv zeta.
  - cbn. split; [done|]. exists 1, []. split; [apply near_1|]. split; [constructor|]. split; [done|]. ring.
  - apply Forall_cons in HF as [[Fp Hp] HF]. cbn [length] in Hn. cbn [fold_left].
    assert (Rabs (RF acc + RF p) <= IZR (k + 1) * bpow radix2 e) as Hb.
    { rewrite plus_IZR. eapply Rle_trans; [apply Rabs_triang|]. lra. }
    assert (fmt (IZR (k + 1) * bpow radix2 e)) as Fk by (apply fmt_scaled; lia).
    assert (IZR (k + 1) * bpow radix2 e <= bpow radix2 1023) as Hfit.
    { replace 1023%Z with (53 + 970)%Z by lia. rewrite bpow_plus. apply Rmult_le_compat; [apply IZR_le; lia|apply bpow_ge_0| |apply bpow_le; lia].
      rewrite <- IZR_pow2 by lia. apply IZR_le. lia. }
    destruct (fadd_spec acc p Fa Fp) as [R F]; [apply fits_bound; lra|].
    destruct (rnd_rel_plus (RF acc) (RF p) (fmt_RF _) (fmt_RF _)) as (t & Ht & Et).
    destruct (IH (fadd acc p) (k + 1)%Z F) as (F' & t0 & ts & N0 & NF & L & E); [|lia|lia|done|].
    { rewrite R. apply Rabs_le_inv in Hb. apply Rabs_le. split.
      - apply rnd_ge_l; [by apply fmt_opp|lra].
      - apply rnd_le_r; [done|lra]. }
    split; [done|]. cbn [length]. exists (t * t0), (t * t0 :: ts). split; [|split; [|split]].
    + apply (near_mult 1 _ t t0 Ht N0).
    + constructor; [apply (near_mult 1 _ t t0 Ht N0)|]. eapply Forall_impl; [exact NF|]. intros x Hx. eapply near_le; [|exact Hx]. lia.
    + cbn. by rewrite L.
    + rewrite E, R, Et. rewrite fmap_cons. cbn [zip_with]. rewrite sumR_cons. ring.
Qed.

(** Non-negative terms: one common factor. *)
Lemma near_common k ps ts : Forall (fun p => 0 <= p) ps -> Forall (near k) ts -> length ts = length ps ->
  exists t, near k t /\ sumR (zip_with Rmult ps ts) = sumR ps * t.
Proof.
  intros HP HT L.
  assert (sumR ps * (1 - uro) ^ k <= sumR (zip_with Rmult ps ts) <= sumR ps * / (1 - uro) ^ k) as [B1 B2].
  { clear -HP HT L. revert ts HT L. induction HP as [|p ps Hp HP IH]; intros ts HT L.
    - destruct ts; [|done]. cbn. lra.
    - destruct ts as [|t ts]; [done|]. apply Forall_cons in HT as [[T1 T2] HT]. cbn in L. destruct (IH ts HT) as [I1 I2]; [lia|].
      cbn [zip_with]. rewrite !sumR_cons. split.
      + assert (p * (1 - uro) ^ k <= p * t) by (by apply Rmult_le_compat_l). lra.
      + assert (p * t <= p * / (1 - uro) ^ k) by (by apply Rmult_le_compat_l). lra. }
  assert (0 <= sumR ps) as H0. { clear -HP. induction HP; [cbn; lra|]. rewrite sumR_cons. lra. }
  destruct (Req_dec (sumR ps) 0) as [E|N].
  - exists 1. split; [apply (near_le 0); [lia|apply near_1]|]. rewrite E in *. lra.
  - exists (sumR (zip_with Rmult ps ts) / sumR ps). split; [|field; done]. split.
    + apply Rmult_le_reg_r with (sumR ps); [lra|]. unfold Rdiv. rewrite Rmult_assoc, Rinv_l by done. lra.
    + apply Rmult_le_reg_r with (sumR ps); [lra|]. unfold Rdiv. rewrite Rmult_assoc, Rinv_l by done. lra.
Qed.
