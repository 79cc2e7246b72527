(** An int64 divided by a positive int64 in doubles. *)
From Verif.Go Require Import GoInt GoFloat.
From Verif.Proofs Require Import FloatProofs FloatSum DecayingCalls.
From Coq Require Import Reals Lra.
From Flocq Require Import Core.Core IEEE754.BinarySingleNaN.
Local Open Scope Z_scope.

Lemma quot_error c e : in64 c -> 0 < e -> in64 e ->
  let r := fdiv (f_of_int c) (f_of_int e) in
  ffinite r = true /\ let exact := (IZR c / IZR e)%R in (Rabs (RF r - exact) <= bpow radix2 (-50) * Rabs exact)%R.
Proof.
    intros Hc He0 Ht. cbv zeta. assert (0 < IZR e)%R as Pe by (apply IZR_lt; lia).
    assert (2 ^ 63 <= 2 ^ 1023)%Z as P63 by (apply Z.pow_le_mono_r; lia).
    assert (Z.abs c <= 2 ^ 1023 /\ Z.abs e <= 2 ^ 1023) as [Ac Ae] by (unfold in64, two63 in *; lia). clear P63.
    pose proof (f_of_int_RF c Ac) as Rc. pose proof (f_of_int_RF e Ae) as Re.
    pose proof (f_of_int_finite64 c Hc) as Fc. pose proof (f_of_int_finite64 e Ht) as Fe.
    assert (1 <= RF (f_of_int e) <= bpow radix2 63)%R as Be.
    { split; [rewrite <- (f_of_int_exact 1) by lia; apply f_of_int_mono; [done|done|lia]|]. pose proof (f_of_int_bound64 e Ht) as B. apply Rabs_le_inv in B. lra. }
    pose proof (f_of_int_bound64 c Hc) as Bc.
    destruct (rnd_rel_int c) as (t1 & N1 & E1). destruct (rnd_rel_int e) as (t2 & N2 & E2). rewrite <- Rc in E1. rewrite <- Re in E2.
    assert (Hbig : c <> 0 -> (1 <= Rabs (RF (f_of_int c)))%R).
    { intros Hne. assert (in64 1 /\ in64 (-1)) as [I1 I2] by (unfold in64, two63; lia). destruct (Z_lt_le_dec 0 c) as [C|C].
      - assert (1 <= RF (f_of_int c))%R by (rewrite <- (f_of_int_exact 1) by lia; apply f_of_int_mono; [done|done|lia]). rewrite Rabs_pos_eq; lra.
      - assert (RF (f_of_int c) <= -1)%R by (rewrite <- (f_of_int_exact (-1)) by lia; apply f_of_int_mono; [done|done|lia]). rewrite Rabs_left1; lra. }
    set (fc := f_of_int c) in *. set (fe := f_of_int e) in *.
    assert (0 < bpow radix2 63)%R as Bp by apply bpow_gt_0.
    assert (Rabs (RF fc / RF fe) = Rabs (RF fc) / RF fe)%R as Ea.
    { unfold Rdiv. rewrite Rabs_mult, (Rabs_pos_eq (/ RF fe)); [done|]. left. apply Rinv_0_lt_compat. lra. }
    assert (Rabs (RF fc / RF fe) <= bpow radix2 63)%R as Bq.
    { rewrite Ea. unfold Rdiv. apply Rle_trans with (bpow radix2 63 * / 1)%R; [|rewrite Rinv_1; lra].
      apply Rmult_le_compat; [apply Rabs_pos|left; apply Rinv_0_lt_compat; lra|lra|apply Rinv_le_contravar; lra]. }
    destruct (fdiv_spec fc fe Fc) as [Rd Fd]; [lra| |].
    { apply fits_bound. apply Rle_trans with (bpow radix2 63); [lra|apply bpow_le; lia]. }
    split; [exact Fd|]. destruct (Z.eq_dec c 0) as [->|Hne].
    { rewrite Rd. assert (RF fc = 0)%R as -> by (unfold fc; apply (f_of_int_exact 0); lia). unfold Rdiv. rewrite !Rmult_0_l. unfold rnd. rewrite round_0 by apply valid_rnd_N. rewrite Rminus_0_r, Rabs_R0. lra. }
    specialize (Hbig Hne). destruct (rnd_rel (RF fc / RF fe)) as (t3 & N3 & E3).
    { right. rewrite Ea. apply Rle_trans with (bpow radix2 (-63)); [apply bpow_le; lia|].
      apply Rle_trans with (1 * / bpow radix2 63)%R; [rewrite Rmult_1_l; right; apply (bpow_opp radix2 63)|].
      unfold Rdiv. apply Rmult_le_compat; [lra|left; apply Rinv_0_lt_compat; lra|lra|apply Rinv_le_contravar; lra]. }
    rewrite <- Rd in E3. rewrite E3, E1, E2. pose proof (near_pos _ _ N2) as P2.
    replace (IZR c * t1 / (IZR e * t2) * t3)%R with (IZR c / IZR e * (t1 * / t2 * t3))%R by (field; lra).
    set (x := (IZR c / IZR e)%R).
    pose proof (near_mult _ _ _ _ (near_mult _ _ _ _ N1 (near_inv _ _ N2)) N3) as N5. set (t := (t1 * / t2 * t3)%R) in *.
    cbn [Nat.add] in N5. pose proof (near_dist 3 t N5) as D.
    replace (x * t - x)%R with (x * (t - 1))%R by ring. rewrite Rabs_mult, Rmult_comm. apply Rmult_le_compat_r; [apply Rabs_pos|].
    assert (bpow radix2 (-50) = 8 * uro)%R as -> by exact (bpow_plus radix2 3 (-53)).
    eapply Rle_trans; [apply D|]; cbn [INR]; pose proof uro_bounds; lra.
Qed.

(** ** The standard deviation of any 64-bit values is a number. *)
From Verif.Model Require Import UniformSnapshot.
From Verif.Spec Require Import BucketSpec.
From Verif.Proofs Require Import UniformSnapshotProofs.
Section stddev.
Local Open Scope R_scope.

Lemma quot_bound c e : in64 c -> (0 < e)%Z -> in64 e -> ffinite (fdiv (f_of_int c) (f_of_int e)) = true /\ Rabs (RF (fdiv (f_of_int c) (f_of_int e))) <= bpow radix2 64.
Proof.
  intros Hc He Ht. destruct (quot_error c e Hc He Ht) as [F E]. split; [exact F|]. cbv zeta in E. set (x := fdiv _ _) in *.
  assert (Rabs (IZR c / IZR e) <= bpow radix2 63) as B.
  { unfold Rdiv. rewrite Rabs_mult. apply Rle_trans with (bpow radix2 63 * 1); [|lra]. apply Rmult_le_compat; try apply Rabs_pos.
    - rewrite <- abs_IZR, <- (IZR_Zpower radix2) by lia. apply IZR_le. unfold in64, two63 in Hc. change (radix_val radix2 ^ 63)%Z with (2 ^ 63)%Z. lia.
    - rewrite Rabs_pos_eq by (left; apply Rinv_0_lt_compat; apply (IZR_lt 0); lia). rewrite <- Rinv_1. apply Rinv_le; [lra|]. apply (IZR_le 1). lia. }
  assert (bpow radix2 (-50) <= 1) as B1 by (change 1 with (bpow radix2 0); apply bpow_le; lia).
  assert (bpow radix2 (-50) * Rabs (IZR c / IZR e) <= 1 * bpow radix2 63) as B2.
  { apply Rmult_le_compat; [apply bpow_ge_0|apply Rabs_pos|done|done]. }
  change (bpow radix2 64) with (bpow radix2 (1 + 63)). rewrite bpow_plus. change (bpow radix2 1) with 2.
  replace (RF x) with ((RF x - IZR c / IZR e) + IZR c / IZR e) by ring. eapply Rle_trans; [apply Rabs_triang|]. lra.
Qed.
Lemma sq_term_any v mean : in64 v -> ffinite mean = true -> Rabs (RF mean) <= bpow radix2 64 ->
  let diff := fsub (f_of_int v) mean in
  ffinite (fmul diff diff) = true /\ 0 <= RF (fmul diff diff) <= bpow radix2 130.
Proof.
  intros Hv F Hm. cbv zeta. pose proof (f_of_int_bound64 v Hv) as Bv. pose proof (f_of_int_finite64 v Hv) as Fv.
  assert (Rabs (RF (f_of_int v) - RF mean) <= bpow radix2 65) as Hd.
  { eapply Rle_trans; [apply Rabs_triang|]. rewrite Rabs_Ropp. change (bpow radix2 65) with (bpow radix2 (1 + 64)). rewrite bpow_plus. change (bpow radix2 1) with 2.
    assert (bpow radix2 63 <= bpow radix2 64) by (apply bpow_le; lia). lra. }
  destruct (fsub_spec (f_of_int v) mean) as [D1 D2]; [done|done|apply fits_bound; eapply Rle_trans; [exact Hd|]; apply bpow_le; lia|].
  assert (Rabs (RF (fsub (f_of_int v) mean)) <= bpow radix2 65) as Hd'.
  { rewrite D1. apply abs_round_le_generic; try typeclasses eauto; [apply fmt_bpow; lia|done]. }
  set (d := fsub (f_of_int v) mean) in *.
  assert (0 <= RF d * RF d <= bpow radix2 130) as Hsq.
  { split; [apply Rle_0_sqr|]. change (bpow radix2 130) with (bpow radix2 (65 + 65)). rewrite bpow_plus.
    rewrite <- (Rabs_pos_eq (RF d * RF d)) by apply Rle_0_sqr. rewrite Rabs_mult. apply Rmult_le_compat; try apply Rabs_pos; done. }
  destruct (fmul_spec d d) as [M1 M2]; [done|done| |].
  - apply fits_bound. rewrite Rabs_pos_eq by lra. eapply Rle_trans; [apply Hsq|]. apply bpow_le. lia.
  - split; [done|]. rewrite M1. split; [apply rnd_ge_l; [apply fmt_0|lra]|apply rnd_le_r; [apply fmt_bpow; lia|lra]].
Qed.
Lemma sq_sum_any mean l acc (k : Z) :
  ffinite mean = true -> Rabs (RF mean) <= bpow radix2 64 -> Forall in64 l ->
  ffinite acc = true -> 0 <= RF acc <= IZR k * bpow radix2 130 -> (0 <= k)%Z -> (k + Z.of_nat (length l) <= 2 ^ 53)%Z ->
  ffinite (sq_sum mean acc l) = true /\ 0 <= RF (sq_sum mean acc l) <= IZR (k + Z.of_nat (length l)) * bpow radix2 130.
Proof.
  intros Fm Hm. revert acc k. induction l as [|v l IH]; intros acc k Hs Fa Ha Hk Hl.
  - unfold sq_sum. cbn [fold_left length Z.of_nat]. rewrite Z.add_0_r. split_and!; try done; try lra.
  - apply Forall_cons in Hs as [Hv Hs]. cbn [length] in Hl. cbn [sq_sum fold_left].
    destruct (sq_term_any v mean Hv Fm Hm) as (T1 & T2).
    set (t := fmul (fsub (f_of_int v) mean) (fsub (f_of_int v) mean)) in *.
    assert (0 < bpow radix2 130) as Hb by apply bpow_gt_0.
    assert (IZR (k + 1) * bpow radix2 130 = IZR k * bpow radix2 130 + bpow radix2 130) as Ek by (rewrite plus_IZR; ring).
    assert (fmt (IZR (k + 1) * bpow radix2 130)) as Hf by (apply fmt_scaled; lia).
    destruct (fadd_spec acc t) as [S1 S2]; [done|done| |].
    { apply fits_bound. rewrite Rabs_pos_eq by lra. apply Rle_trans with (bpow radix2 53 * bpow radix2 130).
      - apply Rle_trans with (IZR (k + 1) * bpow radix2 130); [lra|]. apply Rmult_le_compat_r; [lra|].
        rewrite <- IZR_pow2 by lia. apply IZR_le. lia.
      - rewrite <- bpow_plus. apply bpow_le. lia. }
    destruct (IH (fadd acc t) (k + 1)%Z) as (I1 & I2); [done|done| |lia|lia|].
    { rewrite S1. split; [apply rnd_ge_l; [apply fmt_0|lra]|apply rnd_le_r; [done|lra]]. }
    fold (sq_sum mean (fadd acc t) l). split; [done|].
    replace (k + Z.of_nat (length (v :: l)))%Z with (k + 1 + Z.of_nat (length l))%Z by (cbn [length]; lia). apply I2.
Qed.
Lemma GetStdDev_any u : Forall in64 (us_values u) -> (Z.of_nat (length (us_values u)) <= 2 ^ 53)%Z ->
  exists x, us_GetStdDev u = (x, false) /\ ffinite x = true /\ 0 <= RF x.
Proof.
  intros Hs Hn. unfold us_GetStdDev, us_GetMean, us_Size. cbn [fst]. set (n := Z.of_nat (length (us_values u))) in *.
  destruct (Z.leb_spec n 1) as [C|C]; [exists f0; rewrite RF_f0; split_and!; try done; lra|].
  rewrite (proj2 (Z.eqb_neq n 0)) by lia. cbn [fst].
  set (sum := fold_left (fun sum value => wrap64 (sum + value)) (us_values u) 0%Z).
  assert (Hsum : in64 sum).
  { unfold sum. destruct (us_values u) as [|v l _] using rev_ind; [cbn; unfold in64, two63; lia|]. rewrite fold_left_app. cbn. apply wrap64_range. }
  assert (Hn64 : in64 n) by (unfold in64, two63; lia).
  destruct (quot_bound sum n Hsum ltac:(lia) Hn64) as [Fm Hm]. set (mean := fdiv (f_of_int sum) (f_of_int n)) in *.
  fold (sq_sum mean f0 (us_values u)).
  destruct (sq_sum_any mean (us_values u) f0 0) as (S1 & S2); [done|done|done|done|rewrite RF_f0; lra|lia|lia|].
  fold n in S2. set (ds := sq_sum mean f0 (us_values u)) in *.
  assert (0 < IZR (n - 1)) as Hn1 by (apply (IZR_lt 0); lia).
  assert (0 <= RF ds / IZR (n - 1) <= bpow radix2 183) as Hv.
  { assert (0 <= / IZR (n - 1) <= 1) as Hi.
    { split; [apply Rlt_le, Rinv_0_lt_compat; lra|]. rewrite <- Rinv_1. apply Rinv_le; [lra|]. apply (IZR_le 1). lia. }
    unfold Rdiv. split; [apply Rmult_le_pos; lra|]. apply Rle_trans with (RF ds * 1); [apply Rmult_le_compat_l; lra|].
    rewrite Rmult_1_r. eapply Rle_trans; [apply S2|]. change 183%Z with (53 + 130)%Z. rewrite bpow_plus.
    apply Rmult_le_compat_r; [apply bpow_ge_0|]. rewrite <- IZR_pow2 by lia. apply IZR_le. lia. }
  destruct (fdiv_spec ds (f_of_int (n - 1))) as [D1 D2]; [done|rewrite f_of_int_exact by lia; lra| |].
  { rewrite f_of_int_exact by lia. apply fits_bound. rewrite Rabs_pos_eq by lra. eapply Rle_trans; [apply Hv|]. apply bpow_le; lia. }
  rewrite f_of_int_exact in D1 by lia.
  assert (0 <= RF (fdiv ds (f_of_int (n - 1)))) as Hd by (rewrite D1; apply rnd_ge_l; [apply fmt_0|lra]).
  destruct (fsqrt_spec _ D2 Hd) as [Q1 Q2]. eexists. split; [done|]. split; [done|]. rewrite Q1. apply rnd_ge_l; [apply fmt_0|apply sqrt_pos].
Qed.
End stddev.
