(** GetMeanRate's arithmetic (default_compass.go:100). *)
From Verif.Go Require Import GoInt GoFloat.
From Verif.Model Require Import BucketCounter EWMA.
From Verif.Proofs Require Import FloatProofs FloatSum DecayingCalls.
From Coq Require Import Reals Lra.
From Flocq Require Import Core.Core IEEE754.BinarySingleNaN.
Local Open Scope Z_scope.

Lemma mean_rate_error c e : 0 < c -> in64 c -> 0 < e -> in64 e ->
  let r := fmul (fdiv (f_of_int c) (f_of_int e)) (f_of_int Second) in
  ffinite r = true /\ let exact := (IZR c / IZR e * IZR Second)%R in (Rabs (RF r - exact) <= bpow radix2 (-50) * exact)%R.
Proof.
    intros Hc0 Hc He0 Ht. cbv zeta.
    assert (0 < c) by lia. assert (2 ^ 63 <= 2 ^ 1023)%Z as P63 by (apply Z.pow_le_mono_r; lia).
    assert (Z.abs c <= 2 ^ 1023 /\ Z.abs e <= 2 ^ 1023) as [Ac Ae] by (unfold in64, two63 in *; lia). clear P63.
    pose proof (f_of_int_RF c Ac) as Rc. pose proof (f_of_int_RF e Ae) as Re.
    pose proof (f_of_int_finite64 c Hc) as Fc. pose proof (f_of_int_finite64 e Ht) as Fe.
    assert (1 <= RF (f_of_int c) <= bpow radix2 63)%R as Bc.
    { split; [rewrite <- (f_of_int_exact 1) by lia; apply f_of_int_mono; [done|done|lia]|]. pose proof (f_of_int_bound64 c Hc) as B. apply Rabs_le_inv in B. lra. }
    assert (1 <= RF (f_of_int e) <= bpow radix2 63)%R as Be.
    { split; [rewrite <- (f_of_int_exact 1) by lia; apply f_of_int_mono; [done|done|lia]|]. pose proof (f_of_int_bound64 e Ht) as B. apply Rabs_le_inv in B. lra. }
    destruct (rnd_rel_int c) as (t1 & N1 & E1). destruct (rnd_rel_int e) as (t2 & N2 & E2). rewrite <- Rc in E1. rewrite <- Re in E2.
    set (fc := f_of_int c) in *. set (fe := f_of_int e) in *.
    assert (0 < bpow radix2 63)%R as Bp by apply bpow_gt_0.
    assert (bpow radix2 (-63) <= RF fc / RF fe <= bpow radix2 63)%R as Bq.
    { unfold Rdiv. split.
      - apply Rle_trans with (1 * / bpow radix2 63)%R; [rewrite Rmult_1_l; right; apply (bpow_opp radix2 63)|].
        apply Rmult_le_compat; [lra|left; apply Rinv_0_lt_compat; lra|lra|apply Rinv_le_contravar; lra].
      - apply Rle_trans with (bpow radix2 63 * / 1)%R; [|rewrite Rinv_1; lra].
        apply Rmult_le_compat; [lra|left; apply Rinv_0_lt_compat; lra|lra|apply Rinv_le_contravar; lra]. }
    assert (0 < RF fc / RF fe)%R as Pq by (pose proof (bpow_gt_0 radix2 (-63)); lra).
    destruct (fdiv_spec fc fe Fc) as [Rd Fd]; [lra| |].
    { apply fits_bound. rewrite Rabs_pos_eq by lra. apply Rle_trans with (bpow radix2 63); [lra|apply bpow_le; lia]. }
    destruct (rnd_rel (RF fc / RF fe)) as (t3 & N3 & E3).
    { right. rewrite Rabs_pos_eq by lra. apply Rle_trans with (bpow radix2 (-63)); [apply bpow_le; lia|lra]. }
    rewrite <- Rd in E3. set (d := fdiv fc fe) in *.
    assert (bpow radix2 (-63) <= RF d <= bpow radix2 63)%R as Bd.
    { rewrite Rd. split; [apply rnd_ge_l; [apply fmt_bpow; lia|lra]|apply rnd_le_r; [apply fmt_bpow; lia|lra]]. }
    assert (RF (f_of_int Second) = IZR Second) as RS by (apply f_of_int_exact; unfold Second; lia).
    assert (ffinite (f_of_int Second) = true) as FS by (apply f_of_int_finite64; unfold in64, two63, Second; lia).
    assert (1 <= IZR Second <= bpow radix2 63)%R as BS.
    { split; [apply IZR_le; unfold Second; lia|]. rewrite <- (IZR_Zpower radix2) by lia. apply IZR_le. unfold Second. cbn. lia. }
    assert (bpow radix2 (-63) <= RF d * IZR Second <= bpow radix2 126)%R as Bm.
    { split.
      - apply Rle_trans with (bpow radix2 (-63) * 1)%R; [lra|]. apply Rmult_le_compat; try lra. left. apply bpow_gt_0.
      - replace (bpow radix2 126) with (bpow radix2 63 * bpow radix2 63)%R by (symmetry; apply (bpow_plus radix2 63 63)).
        apply Rmult_le_compat; try lra. pose proof (bpow_gt_0 radix2 (-63)). lra. }
    assert (0 < RF d * IZR Second)%R as Pm by (pose proof (bpow_gt_0 radix2 (-63)); lra).
    destruct (fmul_spec d (f_of_int Second) Fd FS) as [Rm Fm].
    { rewrite RS. apply fits_bound. rewrite Rabs_pos_eq by lra. apply Rle_trans with (bpow radix2 126); [lra|apply bpow_le; lia]. }
    rewrite RS in Rm. destruct (rnd_rel (RF d * IZR Second)) as (t4 & N4 & E4).
    { right. rewrite Rabs_pos_eq by lra. apply Rle_trans with (bpow radix2 (-63)); [apply bpow_le; lia|lra]. }
    rewrite <- Rm in E4. split; [exact Fm|]. cbv zeta. rewrite E4, E3, E1, E2.
    assert (0 < IZR e)%R as Pe by (apply IZR_lt; lia). assert (0 < IZR c)%R as Pc by (apply IZR_lt; lia).
    pose proof (near_pos _ _ N2) as P2.
    replace (IZR c * t1 / (IZR e * t2) * t3 * IZR Second * t4)%R with (IZR c / IZR e * IZR Second * (t1 * / t2 * t3 * t4))%R by (field; lra).
    set (x := (IZR c / IZR e * IZR Second)%R). assert (0 < x)%R as Px.
    { unfold x. apply Rmult_lt_0_compat; [|lra]. apply Rdiv_lt_0_compat; lra. }
    pose proof (near_mult _ _ _ _ (near_mult _ _ _ _ (near_mult _ _ _ _ N1 (near_inv _ _ N2)) N3) N4) as N5. set (t := (t1 * / t2 * t3 * t4)%R) in *.
    cbn [Nat.add] in N5. pose proof (near_dist 4 t N5) as D.
    replace (x * t - x)%R with (x * (t - 1))%R by ring. rewrite Rabs_mult, (Rabs_pos_eq x) by lra. rewrite Rmult_comm. apply Rmult_le_compat_r; [lra|].
    assert (bpow radix2 (-50) = 8 * uro)%R as -> by exact (bpow_plus radix2 3 (-53)).
    eapply Rle_trans; [apply D|]; cbn [INR]; pose proof uro_bounds; lra.
Qed.
