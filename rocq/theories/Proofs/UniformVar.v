From Verif.Go Require Import GoInt GoFloat.
From Verif.Model Require Import BucketCounter FloatUtil UniformSnapshot WeightedSnapshot.
From Verif.Spec Require Import BucketSpec SnapshotSpec QuantileSpec WeightedSpec.
From Verif.Proofs Require Import FloatProofs UniformSnapshotProofs FloatSum UniformQuantile.
From Coq Require Import Reals Lra.
From Flocq Require Import Core.Core IEEE754.BinarySingleNaN Relative.
Local Open Scope R_scope.

(** A double that is not below 2^e is a multiple of 2^(e-52). *)
Lemma fmt_multiple x e : fmt x -> (-1000 <= e)%Z -> bpow radix2 e <= Rabs x -> exists m : Z, x = IZR m * bpow radix2 (e - 52).
Proof.
  intros F He Hx. unfold fmt, generic_format, F2R in F. cbn [Fnum Fexp] in F. set (c := cexp radix2 fexp64 x) in *.
  assert (e - 52 <= c)%Z as Hc.
  { unfold c, cexp. rewrite fexp64_FLT. unfold FLT_exp. assert (e + 1 <= mag radix2 x)%Z; [|lia].
    apply mag_ge_bpow. replace (e + 1 - 1)%Z with e by lia. exact Hx. }
  exists (Ztrunc (scaled_mantissa radix2 fexp64 x) * 2 ^ (c - (e - 52)))%Z. rewrite mult_IZR, IZR_pow2 by lia.
  rewrite Rmult_assoc, <- bpow_plus. replace (c - (e - 52) + (e - 52))%Z with c by lia. exact F.
Qed.

Lemma sumR_IZR l : sumR (IZR <$> l) = IZR (sumZ l).
Proof. induction l as [|x l IH]; [done|]. rewrite fmap_cons, sumR_cons, IH. unfold sumZ. cbn [foldr]. by rewrite plus_IZR. Qed.

(** The squared distances from any other point. *)
Lemma sumR_shift (l : list Z) m c :
  sumR ((fun v => (IZR v - c) * (IZR v - c)) <$> l) =
  sumR ((fun v => (IZR v - m) * (IZR v - m)) <$> l) + 2 * (m - c) * (sumR (IZR <$> l) - INR (length l) * m) + INR (length l) * ((m - c) * (m - c)).
Proof.
  induction l as [|x l IH]; [cbn; ring|]. rewrite !fmap_cons, !sumR_cons, IH. cbn [length]. rewrite S_INR. ring.
Qed.

(** One squared distance. *)
Lemma sq_term_rel v mean : (Z.abs v <= 2 ^ 53)%Z -> ffinite mean = true -> Rabs (RF mean) <= bpow radix2 53 ->
  RF mean = 0 \/ bpow radix2 (-51) <= Rabs (RF mean) ->
  exists t, near 3 t /\
    RF (fmul (fsub (f_of_int v) mean) (fsub (f_of_int v) mean)) = (IZR v - RF mean) * (IZR v - RF mean) * t /\
    ((IZR v - RF mean) * (IZR v - RF mean) = 0 \/ bpow radix2 (-206) <= (IZR v - RF mean) * (IZR v - RF mean)).
Proof.
  intros Hv F Hm Hm0.
  assert (Rabs (IZR v) <= bpow radix2 53) as Hv' by (apply abs_IZR_bound; lia).
  assert (Rabs (IZR v - RF mean) <= bpow radix2 54) as Hd.
  { eapply Rle_trans; [apply Rabs_triang|]. rewrite Rabs_Ropp. change (bpow radix2 54) with (bpow radix2 (1 + 53)).
    rewrite bpow_plus. change (bpow radix2 1) with 2. lra. }
  assert (IZR v - RF mean = 0 \/ bpow radix2 (-103) <= Rabs (IZR v - RF mean)) as Hlow.
  { destruct Hm0 as [E|Hm0].
    - rewrite E, Rminus_0_r. destruct (Z.eq_dec v 0) as [->|N]; [by left|]. right.
      apply Rle_trans with 1; [change 1 with (bpow radix2 0); apply bpow_le; lia|]. rewrite <- abs_IZR. apply (IZR_le 1). lia.
    - destruct (fmt_multiple (RF mean) (-51) (fmt_RF _)) as [m Em]; [lia|done|]. change (-51 - 52)%Z with (-103)%Z in Em.
      assert (IZR v - RF mean = IZR (v * 2 ^ 103 - m) * bpow radix2 (-103)) as ->.
      { rewrite Em, minus_IZR, mult_IZR, IZR_pow2, Rmult_minus_distr_r, Rmult_assoc, <- bpow_plus by lia. cbn [Z.add Z.opp Z.pos_sub]. rewrite Rmult_1_r. done. }
      destruct (Z.eq_dec (v * 2 ^ 103 - m) 0) as [->|N]; [left; ring|]. right.
      rewrite Rabs_mult, (Rabs_pos_eq (bpow _ _)) by apply bpow_ge_0. rewrite <- (Rmult_1_l (bpow radix2 (-103))) at 1.
      apply Rmult_le_compat_r; [apply bpow_ge_0|]. rewrite <- abs_IZR. apply (IZR_le 1). lia. }
  destruct (fsub_spec (f_of_int v) mean) as [D1 D2].
  { apply f_of_int_finite64. unfold in64, two63; lia. } { done. }
  { rewrite f_of_int_exact by done. apply fits_bound. eapply Rle_trans; [done|]. apply bpow_le. lia. }
  rewrite f_of_int_exact in D1 by done.
  set (d := fsub (f_of_int v) mean) in *. set (e := IZR v - RF mean) in *.
  assert (Rabs (RF d) <= bpow radix2 54) as Hd'.
  { rewrite D1. apply abs_round_le_generic; try typeclasses eauto; [apply fmt_bpow; lia|done]. }
  assert (0 <= RF d * RF d <= bpow radix2 108) as Hsq.
  { split; [apply Rle_0_sqr|]. change (bpow radix2 108) with (bpow radix2 (54 + 54)). rewrite bpow_plus.
    rewrite <- (Rabs_pos_eq (RF d * RF d)) by apply Rle_0_sqr. rewrite Rabs_mult.
    apply Rmult_le_compat; try apply Rabs_pos; done. }
  destruct (fmul_spec d d) as [M1 M2]; [done|done| |].
  { apply fits_bound. rewrite Rabs_pos_eq by lra. eapply Rle_trans; [apply Hsq|]. apply bpow_le. lia. }
  clear -Hlow D1 M1.
  destruct (rnd_rel e) as (t1 & N1 & E1).
  { destruct Hlow as [H|H]; [by left|]. right. eapply Rle_trans; [|exact H]. apply bpow_le. lia. }
  destruct (rnd_rel (RF d * RF d)) as (t2 & N2 & E2).
  { rewrite D1. destruct Hlow as [H|H]; [left; rewrite H, rnd_0; ring|]. right. rewrite Rabs_mult.
    assert (bpow radix2 (-103) <= Rabs (rnd e)) as Hr.
    { apply abs_round_ge_generic; try typeclasses eauto; [apply fmt_bpow; lia|done]. }
    apply Rle_trans with (bpow radix2 (-103) * bpow radix2 (-103)); [rewrite <- bpow_plus; apply bpow_le; lia|].
    apply Rmult_le_compat; try apply bpow_ge_0; done. }
  exists (t1 * t1 * t2). split; [|split].
  - change 3%nat with (1 + 1 + 1)%nat. apply near_mult; [by apply near_mult|done].
  - rewrite M1, E2, D1, E1. ring.
  - destruct Hlow as [H|H]; [left; rewrite H; ring|]. right.
    replace (e * e) with (Rabs e * Rabs e) by (rewrite <- Rabs_mult; apply Rabs_pos_eq, Rle_0_sqr).
    change (-206)%Z with (-103 + -103)%Z. rewrite bpow_plus. apply Rmult_le_compat; try apply bpow_ge_0; done.
Qed.

Lemma GetStdDev_accuracy u : (sum_abs (us_values u) <= 2 ^ 53)%Z -> (2 <= Z.of_nat (length (us_values u)) <= 2 ^ 50)%Z ->
  exists x, us_GetStdDev u = (x, false) /\ ffinite x = true /\ 0 <= RF x /\
    Rabs (RF x * RF x - sample_variance (us_values u)) <=
      (2 * INR (length (us_values u)) + 12) * ulp53 * sample_variance (us_values u)
      + bpow radix2 (-104) * (mean_of (us_values u) * mean_of (us_values u)).
Proof.
  intros Hs Hn. unfold us_GetStdDev, us_Size. cbn [fst]. set (n := Z.of_nat (length (us_values u))) in *.
  destruct (Z.leb_spec n 1) as [C|C]; [lia|].
  assert (us_values u <> []) as Hne by (intros E; unfold n in C; rewrite E in C; cbn in C; lia).
  destruct (GetMean_spec u Hne Hs) as (mean & Em & Fm & Rm & Bm); [lia|]. rewrite Em. cbn [fst]. clear Bm Em.
  fold (sq_sum mean f0 (us_values u)). fold n in Rm.
  assert (2 <= IZR n) as Hn0 by (apply (IZR_le 2); lia).
  pose proof (sum_abs_ge (us_values u)) as Hge.
  assert (mean_of (us_values u) = IZR (sumZ (us_values u)) / IZR n) as Emean.
  { unfold mean_of. change (foldr Rplus 0) with sumR. rewrite sumR_IZR. unfold n. by rewrite INR_IZR_INZ. }
  set (m := mean_of (us_values u)) in *. rewrite <- Emean in Rm.
  assert (Rabs m <= bpow radix2 53) as Hmb.
  { rewrite Emean. unfold Rdiv. rewrite Rabs_mult, (Rabs_pos_eq (/ IZR n)) by (apply Rlt_le, Rinv_0_lt_compat; lra).
    apply Rle_trans with (Rabs (IZR (sumZ (us_values u))) * 1).
    - apply Rmult_le_compat_l; [apply Rabs_pos|]. rewrite <- Rinv_1. apply Rinv_le; lra.
    - rewrite Rmult_1_r, <- IZR_pow2, <- abs_IZR by lia. apply IZR_le. lia. }
  assert (m = 0 \/ bpow radix2 (-51) <= Rabs m) as Hml.
  { rewrite Emean. destruct (Z.eq_dec (sumZ (us_values u)) 0) as [->|N]; [left; unfold Rdiv; ring|]. right.
    unfold Rdiv. rewrite Rabs_mult, (Rabs_pos_eq (/ IZR n)) by (apply Rlt_le, Rinv_0_lt_compat; lra).
    apply Rle_trans with (1 * / bpow radix2 51); [rewrite Rmult_1_l, <- bpow_opp; apply Rle_refl|].
    apply Rmult_le_compat; [lra|apply Rlt_le, Rinv_0_lt_compat, bpow_gt_0|rewrite <- abs_IZR; apply (IZR_le 1); lia|].
    apply Rinv_le; [lra|]. rewrite <- IZR_pow2 by lia. apply IZR_le. lia. }
  assert (Rabs (RF mean) <= bpow radix2 53) as Hm.
  { rewrite Rm. apply abs_round_le_generic; try typeclasses eauto; [apply fmt_bpow; lia|done]. }
  assert (RF mean = 0 \/ bpow radix2 (-51) <= Rabs (RF mean)) as Hm0.
  { rewrite Rm. destruct Hml as [->|H]; [left; apply rnd_0|right].
    apply abs_round_ge_generic; try typeclasses eauto; [apply fmt_bpow; lia|done]. }
  assert (Rabs (RF mean - m) <= ulp53 * Rabs m) as Herr.
  { rewrite Rm. apply rnd_err_rel. destruct Hml as [H|H]; [by left|]. right. eapply Rle_trans; [|exact H]. apply bpow_le. lia. }
  set (c := RF mean) in *. set (V := us_values u) in *.
  set (sq := fun v => fmul (fsub (f_of_int v) mean) (fsub (f_of_int v) mean)).
  set (r := fun v => (IZR v - c) * (IZR v - c)).
  assert (small (2 ^ 53) V) as Hsm by (by apply small_of_sum).
  (* the terms *)
  assert (exists ts, length ts = length V /\ Forall (near 3) ts /\ RF <$> (sq <$> V) = zip_with Rmult (r <$> V) ts) as (ts & Lt & Nt & Et).
  { clear -Hsm Fm Hm Hm0. induction Hsm as [|v V Hv Hsm IH]; [by exists []|]. destruct IH as (ts & L & N & E).
    destruct (sq_term_rel v mean Hv Fm Hm Hm0) as (t & Ht & E1 & _). exists (t :: ts). split; [cbn; by rewrite L|].
    split; [by constructor|]. rewrite !fmap_cons. cbn [zip_with]. f_equal; [exact E1|exact E]. }
  assert (Forall (fun p => 0 <= p) (r <$> V)) as Hr0.
  { apply Forall_fmap. apply Forall_forall. intros v _. apply Rle_0_sqr. }
  assert (0 <= sumR (r <$> V)) as HS0 by (apply sumR_nonneg; apply Forall_forall; intros v _; apply Rle_0_sqr).
  destruct (near_common 3 _ ts Hr0 Nt) as (t3 & N3 & E3); [by rewrite fmap_length|].
  assert (sq_sum mean f0 V = fold_left fadd (sq <$> V) f0) as Efold.
  { unfold sq_sum. clear. generalize f0. induction V as [|v V IH]; intros acc; [done|]. cbn. apply IH. }
  destruct (fsum_spec 108 (sq <$> V) ltac:(lia) f0 0) as (Fd & t0 & ts' & N0 & N4 & L4 & E4).
  { done. } { rewrite RF_f0, Rabs_R0. lra. } { lia. } { rewrite fmap_length. fold n. lia. }
  { apply Forall_fmap. eapply Forall_impl; [exact Hsm|]. intros v Hv. destruct (sq_term v mean Hv Fm Hm) as (T1 & T2 & _).
    split; [exact T1|]. fold (sq v) in T2. rewrite Rabs_pos_eq by apply T2. apply T2. }
  rewrite <- Efold in Fd, E4. rewrite RF_f0, Rmult_0_l, Rplus_0_l in E4.
  rewrite fmap_length in N4, L4.
  destruct (near_common (length V) (RF <$> (sq <$> V)) ts') as (t5 & N5 & E5).
  { apply Forall_fmap, Forall_fmap. eapply Forall_impl; [exact Hsm|]. intros v Hv. destruct (sq_term v mean Hv Fm Hm) as (T1 & T2 & _). apply T2. }
  { exact N4. } { rewrite !fmap_length. exact L4. }
  rewrite E5, Et, E3 in E4. set (ds := sq_sum mean f0 V) in *. clearbody ds.
  assert (0 < IZR (n - 1)) as Hn1 by (apply (IZR_lt 0); lia).
  assert (IZR (n - 1) = IZR n - 1) as En1 by (rewrite minus_IZR; ring).
  assert (IZR (n - 1) <= bpow radix2 50) as Hnb by (rewrite <- IZR_pow2 by lia; apply IZR_le; lia).
  set (S := sumR (r <$> V)) in *.
  assert (S = 0 \/ bpow radix2 (-206) <= S) as HSl.
  { unfold S. clear -Hsm Fm Hm Hm0 Hr0. induction Hsm as [|v V Hv Hsm IH]; [left; done|].
    rewrite fmap_cons in Hr0 |- *. rewrite sumR_cons. apply Forall_cons in Hr0 as [Q1 Q2].
    destruct (sq_term_rel v mean Hv Fm Hm Hm0) as (_ & _ & _ & Hlow).
    assert (0 <= sumR (r <$> V)) by (apply sumR_nonneg; apply Forall_forall; intros w _; apply Rle_0_sqr).
    change ((IZR v - RF mean) * (IZR v - RF mean)) with (r v) in Hlow.
    destruct Hlow as [H1|H1]; [|right; lra]. destruct (IH Q2) as [H2|H2]; [left; lra|right; lra]. }
  set (tt := t3 * t5) in *. assert (near (3 + length V) tt) as Ntt by (by apply near_mult).
  assert (RF ds = S * tt) as Eds by (rewrite E4; unfold tt; ring). clear E4 E5 E3 Et.
  assert (INR (length V) = IZR n) as EINR by (unfold n; by rewrite INR_IZR_INZ).
  assert (IZR n * uro <= / 8) as Hnu.
  { apply Rle_trans with (bpow radix2 50 * bpow radix2 (-53)).
    - apply Rmult_le_compat_r; [apply bpow_ge_0|]. rewrite <- IZR_pow2 by lia. apply IZR_le. lia.
    - rewrite <- bpow_plus. right. reflexivity. }
  assert (6 * uro <= / 8) as H6.
  { apply Rle_trans with (bpow radix2 3 * bpow radix2 (-53)).
    - apply Rmult_le_compat_r; [apply bpow_ge_0|]. change (bpow radix2 3) with 8. lra.
    - rewrite <- bpow_plus. apply Rle_trans with (bpow radix2 (-3)); [apply bpow_le; lia|right; reflexivity]. }
  assert (/ 2 <= tt <= 2) as Htt.
  { assert (INR (3 + length V) * uro <= / 4) as HH.
    { rewrite plus_INR, EINR. cbn [INR]. pose proof uro_bounds. lra. }
    pose proof (near_dist _ _ Ntt ltac:(lra)) as D. apply Rabs_le_inv in D. pose proof (near_2 _ _ Ntt ltac:(lra)). split; [|lra].
    assert (2 * INR (3 + length V) * uro <= 1 / 2) by lra. lra. }
  assert (S * tt = 0 \/ bpow radix2 (-207) <= S * tt) as Hdsl.
  { destruct HSl as [->|H]; [left; ring|]. right. change (-207)%Z with (-206 + -1)%Z. rewrite bpow_plus. change (bpow radix2 (-1)) with (/ 2).
    apply Rmult_le_compat; [apply bpow_ge_0|lra|done|lra]. }
  assert (0 <= S * tt) as Hds0 by (apply Rmult_le_pos; lra).
  assert (S <= bpow radix2 160) as HSb.
  { apply Rle_trans with (sumR ((fun _ => bpow radix2 110) <$> V)).
    - apply sumR_le. eapply Forall_impl; [exact Hsm|]. intros v Hv. cbv beta in Hv |- *.
      assert (Rabs (IZR v - c) <= bpow radix2 55) as HA.
      { eapply Rle_trans; [apply Rabs_triang|]. rewrite Rabs_Ropp. apply Rle_trans with (bpow radix2 53 + bpow radix2 53).
        - apply Rplus_le_compat; [apply abs_IZR_bound; lia|done].
        - replace (bpow radix2 53 + bpow radix2 53) with (bpow radix2 (1 + 53)) by (rewrite bpow_plus; change (bpow radix2 1) with 2; ring). apply bpow_le; lia. }
      unfold r. replace ((IZR v - c) * (IZR v - c)) with (Rabs (IZR v - c) * Rabs (IZR v - c)) by (rewrite <- Rabs_mult; apply Rabs_pos_eq, Rle_0_sqr).
      change 110%Z with (55 + 55)%Z. rewrite bpow_plus. apply Rmult_le_compat; try apply Rabs_pos; done.
    - rewrite sumR_const, EINR. change 160%Z with (50 + 110)%Z. rewrite bpow_plus. apply Rmult_le_compat_r; [apply bpow_ge_0|].
      rewrite <- IZR_pow2 by lia. apply IZR_le. lia. }
  assert (0 < / IZR (n - 1) <= 1) as Hi.
  { split; [apply Rinv_0_lt_compat; lra|]. rewrite <- Rinv_1. apply Rinv_le; lra. }
  destruct (fdiv_spec ds (f_of_int (n - 1))) as [D1 D2]; [done|rewrite f_of_int_exact by lia; lra| |].
  { rewrite f_of_int_exact by lia. rewrite Eds. apply fits_bound. unfold Rdiv. rewrite Rabs_pos_eq by (apply Rmult_le_pos; lra).
    apply Rle_trans with (bpow radix2 160 * 2 * 1).
    - apply Rmult_le_compat; [lra|lra| |lra]. apply Rmult_le_compat; lra.
    - rewrite Rmult_1_r. change 2 with (bpow radix2 1). rewrite <- bpow_plus. apply bpow_le; lia. }
  rewrite f_of_int_exact, Eds in D1 by lia.
  set (q := S * tt / IZR (n - 1)) in *.
  assert (q = 0 \/ bpow radix2 (-257) <= q) as Hql.
  { unfold q, Rdiv. destruct Hdsl as [->|H]; [left; ring|]. right. change (-257)%Z with (-207 + -50)%Z. rewrite bpow_plus.
    apply Rmult_le_compat; [apply bpow_ge_0|apply bpow_ge_0|done|]. change (-50)%Z with (Z.opp 50). rewrite (bpow_opp radix2 50). apply Rinv_le; lra. }
  assert (0 <= q) as Hq0 by (unfold q, Rdiv; apply Rmult_le_pos; lra).
  destruct (rnd_rel q) as (t6 & N6 & E6).
  { destruct Hql as [H|H]; [by left|right]. rewrite Rabs_pos_eq by done. eapply Rle_trans; [|exact H]. apply bpow_le; lia. }
  set (variance := fdiv ds (f_of_int (n - 1))) in *. clearbody variance.
  assert (0 <= RF variance) as Hv0 by (rewrite D1; apply rnd_ge_l; [apply fmt_0|lra]).
  destruct (fsqrt_spec variance D2 Hv0) as [Q1 Q2].
  destruct (rnd_rel (sqrt (RF variance))) as (t7 & N7 & E7).
  { destruct Hql as [H|H].
    - left. rewrite D1, H, rnd_0. apply sqrt_0.
    - right. rewrite Rabs_pos_eq by apply sqrt_pos.
      assert (bpow radix2 (-258) <= RF variance) as Hlow.
      { rewrite D1. apply rnd_ge_l; [apply fmt_bpow; lia|]. eapply Rle_trans; [|exact H]. apply bpow_le; lia. }
      apply Rle_trans with (sqrt (bpow radix2 (-129) * bpow radix2 (-129))).
      + rewrite sqrt_square by apply bpow_ge_0. apply bpow_le; lia.
      + apply sqrt_le_1_alt. rewrite <- bpow_plus. exact Hlow. }
  exists (fsqrt variance). split; [reflexivity|]. split; [exact Q2|]. split; [rewrite Q1; apply rnd_ge_l; [apply fmt_0|apply sqrt_pos]|].
  (* the square of the result *)
  set (T := tt * t6 * (t7 * t7)).
  assert (near (3 + length V + 1 + (1 + 1)) T) as NT by (unfold T; apply near_mult; [by apply near_mult|by apply near_mult]).
  assert (RF (fsqrt variance) * RF (fsqrt variance) = S / IZR (n - 1) * T) as Esq.
  { rewrite Q1, E7. replace (sqrt (RF variance) * t7 * (sqrt (RF variance) * t7)) with ((sqrt (RF variance) * sqrt (RF variance)) * (t7 * t7)) by ring.
    rewrite sqrt_sqrt, D1, E6 by done. unfold q, T. field. lra. }
  rewrite Esq.
  (* from the rounded mean to the mean *)
  assert (S / IZR (n - 1) = sample_variance V + IZR n / IZR (n - 1) * ((m - c) * (m - c))) as Eshift.
  { unfold sample_variance. change (foldr Rplus 0) with sumR. fold m. rewrite EINR, <- En1. unfold S, r. rewrite (sumR_shift V m c), EINR, sumR_IZR, Emean. field. lra. }
  set (var := sample_variance V) in *.
  assert (0 <= var) as Hvar.
  { unfold var, sample_variance. change (foldr Rplus 0) with sumR. rewrite EINR, <- En1. unfold Rdiv. apply Rmult_le_pos; [|lra].
    apply sumR_nonneg. apply Forall_forall. intros v _. apply Rle_0_sqr. }
  set (dd := IZR n / IZR (n - 1) * ((m - c) * (m - c))) in *.
  assert (0 <= dd <= 2 * (ulp53 * ulp53 * (m * m))) as Hdd.
  { assert (0 <= IZR n / IZR (n - 1) <= 2) as Hq.
    { unfold Rdiv. split; [apply Rmult_le_pos; lra|]. apply Rmult_le_reg_r with (IZR (n - 1)); [lra|]. rewrite Rmult_assoc, Rinv_l by lra. lra. }
    assert (0 <= (m - c) * (m - c) <= ulp53 * ulp53 * (m * m)) as Hm2.
    { split; [apply Rle_0_sqr|]. replace ((m - c) * (m - c)) with (Rabs (c - m) * Rabs (c - m)).
      2:{ rewrite <- Rabs_mult, Rabs_pos_eq by apply Rle_0_sqr. ring. }
      replace (ulp53 * ulp53 * (m * m)) with ((ulp53 * Rabs m) * (ulp53 * Rabs m)).
      2:{ replace (m * m) with (Rabs m * Rabs m); [ring|]. rewrite <- Rabs_mult. apply Rabs_pos_eq, Rle_0_sqr. }
      apply Rmult_le_compat; try apply Rabs_pos; done. }
    unfold dd. split; [apply Rmult_le_pos; lra|]. apply Rmult_le_compat; lra. }
  assert (INR (3 + length V + 1 + (1 + 1)) * uro <= / 4) as HNu.
  { rewrite !plus_INR, EINR. cbn [INR]. lra. }
  pose proof (near_dist _ _ NT ltac:(lra)) as DT.
  assert (2 * INR (3 + length V + 1 + (1 + 1)) * uro = (2 * IZR n + 12) * ulp53) as Ecoef.
  { rewrite !plus_INR, EINR. cbn [INR]. change uro with ulp53. ring. }
  rewrite Ecoef in DT. change uro with ulp53 in *.
  rewrite Eshift, EINR. set (K := (2 * IZR n + 12) * ulp53) in *.
  assert (0 <= K <= / 2) as HK by (split; [unfold K; apply Rmult_le_pos; [lra|apply bpow_ge_0]|lra]).
  replace ((var + dd) * T - var) with ((var + dd) * (T - 1) + dd) by ring.
  eapply Rle_trans; [apply Rabs_triang|]. rewrite Rabs_mult, (Rabs_pos_eq (var + dd)), (Rabs_pos_eq dd) by lra.
  assert ((var + dd) * Rabs (T - 1) <= (var + dd) * K) as H1 by (apply Rmult_le_compat_l; lra).
  assert (dd * K <= dd * / 2) as H2 by (apply Rmult_le_compat_l; lra).
  assert (bpow radix2 (-104) = 4 * (ulp53 * ulp53)) as H4.
  { rewrite <- bpow_plus. change 4 with (bpow radix2 2). rewrite <- bpow_plus. reflexivity. }
  rewrite H4. set (w := ulp53 * ulp53 * (m * m)) in *. replace (4 * (ulp53 * ulp53) * (m * m)) with (4 * w) by (unfold w; ring).
  lra.
Qed.
