(** Duration.Seconds() and compare.go in IEEE arithmetic. *)
From Verif.Go Require Import GoInt GoFloat.
From Verif.Model Require Import BucketCounter FloatUtil.
From Coq Require Import Reals Lra.
From Flocq Require Import Core BinarySingleNaN.
Local Open Scope R_scope.

Lemma round_FIX0 rndf x : round radix2 (FIX_exp 0) rndf x = IZR (rndf x).
Proof.
  unfold round, scaled_mantissa, F2R, cexp, FIX_exp. cbn. rewrite !Rmult_1_r. done.
Qed.

Lemma int_of_f_spec x : int_of_f x = Ztrunc (RF x).
Proof. apply eq_IZR. unfold int_of_f. rewrite Btrunc_correct by done. apply round_FIX0. Qed.

(** k 2^-30 is a float for |k| <= 2^53 *)
Lemma fmt_frac k : (Z.abs k < 2 ^ 53)%Z -> fmt (IZR k * bpow radix2 (-30)).
Proof.
  intros H. unfold fmt. rewrite fexp64_FLT. apply generic_format_FLT.
  exists (Float radix2 k (-30)); [done|cbn; lia|cbn; lia].
Qed.

Lemma seconds_nonneg d : (0 <= d < 2 ^ 22 * Second)%Z -> int_of_f (duration_Seconds d) = interval_seconds d.
Proof.
  intros H. unfold duration_Seconds, interval_seconds.
  set (s := Z.quot d Second). set (n := Z.rem d Second).
  assert (Hs : (0 <= s < 2 ^ 22)%Z).
  { subst s. unfold Second in *. split; [apply Z.quot_pos; lia|]. apply Z.quot_lt_upper_bound; lia. }
  assert (Hn : (0 <= n < Second)%Z).
  { subst n. unfold Second in *. apply Z.rem_bound_pos; lia. }
  unfold Second in Hn.
  assert (Rn : 0 <= IZR n / IZR 1000000000 <= 1 - bpow radix2 (-30)).
  { assert (E : bpow radix2 (-30) = / 1073741824) by reflexivity. rewrite E.
    assert (0 <= IZR n) by (apply IZR_le; lia). assert (IZR n <= 999999999) by (apply IZR_le; lia). lra. }
  assert (F1 : fmt (1 - bpow radix2 (-30))).
  { replace (1 - bpow radix2 (-30)) with (IZR (2 ^ 30 - 1) * bpow radix2 (-30)).
    - apply fmt_frac. lia.
    - rewrite minus_IZR, (IZR_pow2 30) by lia. rewrite Rmult_minus_distr_r, <- bpow_plus, Rmult_1_l. reflexivity. }
  assert (B1 : bpow radix2 (-30) < 1) by (change 1 with (bpow radix2 0); apply bpow_lt; lia).
  assert (B0 : 0 < bpow radix2 (-30)) by apply bpow_gt_0.
  assert (B22 : IZR s + 1 <= bpow radix2 22).
  { rewrite <- IZR_pow2 by lia. rewrite <- plus_IZR. apply IZR_le. lia. }
  assert (B1023 : bpow radix2 22 <= bpow radix2 1023) by (apply bpow_le; lia).
  assert (B1' : 1 <= bpow radix2 1023) by (change 1 with (bpow radix2 0) at 1; apply bpow_le; lia).
  assert (HR : 0 <= IZR s) by (apply IZR_le; lia).
  destruct (fdiv_spec (f_of_int n) (f_of_int 1000000000)) as [E1 G1].
  { apply f_of_int_finite64. unfold in64, two63. lia. }
  { rewrite f_of_int_exact by lia. lra. }
  { rewrite !f_of_int_exact by lia. apply fits_bound. rewrite Rabs_pos_eq by lra. lra. }
  rewrite !f_of_int_exact in E1 by lia.
  set (q := fdiv (f_of_int n) (f_of_int 1000000000)) in *.
  assert (Q : 0 <= RF q <= 1 - bpow radix2 (-30)).
  { rewrite E1. split; [apply rnd_ge_l; [apply fmt_0|lra]|apply rnd_le_r; [done|lra]]. }
  assert (Es : RF (f_of_int s) = IZR s) by (apply f_of_int_exact; lia).
  destruct (fadd_spec (f_of_int s) q) as [E2 G2]; try done.
  { apply f_of_int_finite64. unfold in64, two63. lia. }
  { rewrite Es. apply fits_bound. rewrite Rabs_pos_eq by lra. lra. }
  rewrite Es in E2. rewrite int_of_f_spec, E2.
  assert (P : IZR s <= rnd (IZR s + RF q) <= IZR s + (1 - bpow radix2 (-30))).
  { split; [apply rnd_ge_l; [apply fmt_IZR; lia|lra]|]. apply rnd_le_r; [|lra].
    replace (IZR s + (1 - bpow radix2 (-30))) with (IZR ((s + 1) * 2 ^ 30 - 1) * bpow radix2 (-30)).
    - apply fmt_frac. lia.
    - rewrite minus_IZR, mult_IZR, plus_IZR, (IZR_pow2 30) by lia. rewrite Rmult_minus_distr_r, Rmult_assoc, <- bpow_plus, Rmult_1_l.
      cbn [Z.add Z.pos_sub]. replace (bpow radix2 (30 + -30)) with 1 by reflexivity. lra. }
  rewrite Ztrunc_floor by lra. apply Zfloor_imp. rewrite plus_IZR. lra.
Qed.

(** ** DeltaCompareFloat64 *)
Lemma feq_cmp_nan x y : fisnan x = true \/ fisnan y = true -> flt x y = false /\ fle x y = false.
Proof. intros [H|H]; destruct x, y; try done; cbn; by destruct s. Qed.
Lemma fsub_nan x y : fisnan x = true \/ fisnan y = true -> fisnan (fsub x y) = true.
Proof. intros [H|H]; destruct x, y; done. Qed.

Lemma delta_nan e a d : fisnan e = true \/ fisnan a = true \/ fisnan d = true -> deltaCompareFloat64 e a d = false.
Proof.
  intros H. unfold deltaCompareFloat64. destruct H as [H|[H|H]].
  - destruct (flt a e); apply feq_cmp_nan; left; apply fsub_nan; auto.
  - destruct (flt a e); apply feq_cmp_nan; left; apply fsub_nan; auto.
  - destruct (flt a e); apply feq_cmp_nan; by right.
Qed.

Lemma flt_asym x y : flt x y = true -> flt y x = false.
Proof.
  unfold flt, Bltb, SpecFloat.SFltb. change (SpecFloat.SFcompare (B2SF x) (B2SF y)) with (Bcompare x y).
  change (SpecFloat.SFcompare (B2SF y) (B2SF x)) with (Bcompare y x). rewrite (Bcompare_swap _ _ x y).
  by destruct (Bcompare x y) as [[]|].
Qed.

(** When neither is smaller they are equal numbers, and the differences agree up to the sign of zero. *)
Lemma fle_zero_sign s s' d : fle (B754_zero s) d = fle (B754_zero s') d.
Proof. destruct d as [?|[|]| |[|]]; done. Qed.

Lemma fsub_eq_zero x y : flt x y = false -> flt y x = false ->
  (fisnan (fsub x y) = true /\ fisnan (fsub y x) = true) \/
  (exists s s', fsub x y = B754_zero s /\ fsub y x = B754_zero s').
Proof.
  intros H1 H2. destruct (fisnan x) eqn:Nx. { left. split; apply fsub_nan; auto. }
  destruct (fisnan y) eqn:Ny. { left. split; apply fsub_nan; auto. }
  destruct (ffinite x) eqn:Fx; destruct (ffinite y) eqn:Fy.
  - right.
    assert (E : RF x = RF y).
    { destruct (Rtotal_order (RF x) (RF y)) as [H|[H|H]]; [|done|].
      - apply (flt_spec x y) in H; try done. congruence.
      - apply (flt_spec y x) in H; try done. congruence. }
    assert (G : forall a b, ffinite a = true -> ffinite b = true -> RF a = RF b -> exists s, fsub a b = B754_zero s).
    { intros a b Fa Fb Eab. destruct (fsub_spec a b Fa Fb) as [E0 F0].
      - unfold fits. rewrite Rminus_diag_eq, rnd_0, Rabs_R0 by done. apply bpow_gt_0.
      - rewrite Rminus_diag_eq, rnd_0 in E0 by done. unfold RF in E0.
        destruct (fsub a b) as [s|s| |s m e Hb]; [by exists s|done|done|].
        exfalso. cbn in E0. apply eq_0_F2R in E0. cbn in E0. by destruct s. }
    destruct (G x y Fx Fy E) as [s Hs]. destruct (G y x Fy Fx (eq_sym E)) as [s' Hs']. eauto.
  - destruct x as [?|[|]| |[|]], y as [?|[|]| |[|]]; done.
  - destruct x as [?|[|]| |[|]], y as [?|[|]| |[|]]; done.
  - left. destruct x as [?|[|]| |[|]], y as [?|[|]| |[|]]; done.
Qed.

Lemma delta_sym e a d : deltaCompareFloat64 e a d = deltaCompareFloat64 a e d.
Proof.
  unfold deltaCompareFloat64. destruct (flt a e) eqn:H1.
  - by rewrite (flt_asym _ _ H1).
  - destruct (flt e a) eqn:H2; [done|].
    destruct (fsub_eq_zero a e H1 H2) as [[N1 N2]|(s & s' & -> & ->)]; [|apply fle_zero_sign].
    destruct (feq_cmp_nan (fsub a e) d) as [_ ->]; [by left|].
    by destruct (feq_cmp_nan (fsub e a) d) as [_ ->]; [left|].
Qed.

Lemma delta_meaning e a d : ffinite e = true -> ffinite a = true -> ffinite d = true -> fits (RF e - RF a) ->
  deltaCompareFloat64 e a d = true <-> rnd (Rabs (RF e - RF a)) <= RF d.
Proof.
  intros Fe Fa Fd Hf. unfold deltaCompareFloat64. destruct (flt a e) eqn:H1.
  - apply flt_spec in H1; try done. destruct (fsub_spec e a Fe Fa Hf) as [E F].
    rewrite fle_spec by done. rewrite E, Rabs_pos_eq by lra. done.
  - assert (RF e <= RF a).
    { apply Rnot_lt_le. intros H. apply flt_spec in H; try done. congruence. }
    assert (Hf' : fits (RF a - RF e)).
    { unfold fits in *. replace (RF a - RF e) with (- (RF e - RF a)) by lra. by rewrite rnd_opp, Rabs_Ropp. }
    destruct (fsub_spec a e Fa Fe Hf') as [E F].
    rewrite fle_spec by done. rewrite E, Rabs_left1 by lra. by replace (- (RF e - RF a)) with (RF a - RF e) by lra.
Qed.

Lemma Bsign_RF x : ffinite x = true -> (Bsign x = true -> RF x <= 0) /\ (Bsign x = false -> 0 <= RF x).
Proof.
  destruct x as [s|s| |s m e Hb]; try done; intros _; cbn.
  - split; intros _; lra.
  - split; intros ->; cbn; unfold F2R; cbn.
    + rewrite <- (Rmult_0_l (bpow radix2 e)). apply Rmult_le_compat_r; [apply bpow_ge_0|]. by apply IZR_le.
    + rewrite <- (Rmult_0_l (bpow radix2 e)). apply Rmult_le_compat_r; [apply bpow_ge_0|]. by apply IZR_le.
Qed.

Lemma fsub_overflow x y d : ffinite x = true -> ffinite y = true -> ffinite d = true ->
  RF y <= RF x -> ~ fits (RF x - RF y) -> fle (fsub x y) d = false.
Proof.
  intros Fx Fy Fd Hle Hf. pose proof (Bminus_correct 53 1024 _ _ mode_NE x y Fx Fy) as C.
  rewrite Rlt_bool_false in C by (apply Rnot_lt_le; exact Hf). destruct C as [C S].
  assert (Hs : Bsign x = false).
  { destruct (Bsign x) eqn:E; [|done]. exfalso. apply Hf.
    destruct (Bsign_RF x Fx) as [H1 _]. destruct (Bsign_RF y Fy) as [_ H2].
    specialize (H1 E). assert (Bsign y = false) as E' by (by destruct (Bsign y)). specialize (H2 E').
    replace (RF x - RF y) with 0 by lra. unfold fits. rewrite rnd_0, Rabs_R0. apply bpow_gt_0. }
  rewrite Hs in C. unfold fle, Bleb, fsub, SpecFloat.SFleb. rewrite C. cbn. by destruct d as [?|?| |[|]].
Qed.

Lemma delta_iff e a d : ffinite e = true -> ffinite a = true -> ffinite d = true ->
  deltaCompareFloat64 e a d = true <-> Rabs (rnd (RF e - RF a)) < bpow radix2 1024 /\ rnd (Rabs (RF e - RF a)) <= RF d.
Proof.
  intros Fe Fa Fd. destruct (Rlt_or_le (Rabs (rnd (RF e - RF a))) (bpow radix2 1024)) as [Hf|Hf].
  - rewrite delta_meaning by done. tauto.
  - split; [|intros [H _]; lra]. intros H. exfalso. unfold deltaCompareFloat64 in H.
    destruct (flt a e) eqn:H1.
    + apply flt_spec in H1; try done. rewrite fsub_overflow in H; try done; [lra|]. unfold fits. lra.
    + assert (RF e <= RF a).
      { apply Rnot_lt_le. intros H'. apply flt_spec in H'; try done. congruence. }
      rewrite fsub_overflow in H; try done. unfold fits.
      replace (RF a - RF e) with (- (RF e - RF a)) by lra. rewrite rnd_opp, Rabs_Ropp. lra.
Qed.
