From Verif.Go Require Import GoInt GoFloat.
From Verif.Model Require Import EWMA.
From Coq Require Import Reals Lra.
From Flocq Require Import Core BinarySingleNaN.
Local Open Scope R_scope.

(** ** One step in the reals with rounding *)
Lemma fmt_diff_small x y : fmt x -> fmt y -> Rabs (x - y) < bpow radix2 (-1021) -> fmt (x - y).
Proof.
  intros Hx Hy Hs. unfold fmt in *. rewrite fexp64_FLT in *.
  apply generic_format_FIX_FLT in Hx, Hy.
  apply FIX_format_generic in Hx, Hy. destruct Hx as [[mx ex] -> Ex]. destruct Hy as [[my ey] -> Ey].
  cbn in Ex, Ey. subst. unfold F2R in *. cbn [Fnum Fexp] in *.
  rewrite <- Rmult_minus_distr_r, <- minus_IZR in *.
  apply generic_format_FLT. exists (Float radix2 (mx - my) (-1074)); [done| |done].
  cbn. rewrite Rabs_mult, (Rabs_pos_eq (bpow _ _)) in Hs by apply bpow_ge_0.
  replace (-1021)%Z with (53 + -1074)%Z in Hs by lia. rewrite bpow_plus in Hs.
  apply Rmult_lt_reg_r in Hs; [|apply bpow_gt_0].
  rewrite <- abs_IZR, <- (IZR_pow2 53) in Hs by lia. by apply lt_IZR in Hs.
Qed.

Lemma fmt_half d : fmt d -> bpow radix2 (-1021) <= Rabs d -> fmt (d / 2).
Proof.
  intros Hd Hs. unfold fmt in *. rewrite fexp64_FLT in *.
  apply FLT_format_generic in Hd; [|done]. destruct Hd as [[m e] -> Hm He]. cbn in Hm, He.
  unfold F2R in *. cbn [Fnum Fexp] in *.
  assert (e <> -1074)%Z.
  { intros ->. rewrite Rabs_mult, (Rabs_pos_eq (bpow _ _)) in Hs by apply bpow_ge_0.
    replace (-1021)%Z with (53 + -1074)%Z in Hs by lia. rewrite bpow_plus in Hs.
    apply Rmult_le_reg_r in Hs; [|apply bpow_gt_0].
    rewrite <- abs_IZR, <- (IZR_pow2 53) in Hs by lia. apply le_IZR in Hs. lia. }
  apply generic_format_FLT. exists (Float radix2 m (e - 1)); [|done|cbn; lia].
  unfold F2R. cbn [Fnum Fexp]. unfold Z.sub. rewrite bpow_plus. change (bpow radix2 (-(1))) with (/2). lra.
Qed.

Lemma step_up a r x : 0 <= a <= 1 / 2 -> fmt r -> fmt x -> r <= x ->
  let p := rnd (a * rnd (x - r)) in 0 <= p <= x - r.
Proof.
  intros Ha Hr Hx Hrx p. set (d := rnd (x - r)) in *.
  assert (Hd0 : 0 <= d) by (apply rnd_ge_l; [apply fmt_0|lra]).
  assert (Hd2 : d <= 2 * (x - r)).
  { pose proof (rnd_nearest (x - r) 0 fmt_0) as H. fold d in H.
    rewrite (Rabs_left1 (0 - _)) in H by lra. apply Rabs_le_inv in H. lra. }
  assert (Hda : 0 <= a * d) by (apply Rmult_le_pos; lra).
  assert (Hda2 : a * d <= d / 2) by (assert (a * d <= 1/2 * d) by (apply Rmult_le_compat_r; lra); lra).
  split. { apply rnd_ge_l; [apply fmt_0|done]. }
  unfold p. destruct (Rle_or_lt (bpow radix2 (-1021)) d) as [Hb|Hb].
  - apply Rle_trans with (d / 2); [|lra]. apply rnd_le_r; [|done]. apply fmt_half; [apply fmt_rnd|].
    by rewrite Rabs_pos_eq.
  - assert (Hs : x - r < bpow radix2 (-1021)).
    { destruct (Rle_or_lt (bpow radix2 (-1021)) (x - r)) as [H|H]; [|done].
      pose proof (rnd_ge_l (bpow radix2 (-1021)) (x - r)) as G. fold d in G.
      assert (bpow radix2 (-1021) <= d) by (apply G; [apply fmt_bpow; lia|done]). lra. }
    assert (Hf : fmt (x - r)). { apply fmt_diff_small; try done. rewrite Rabs_pos_eq; lra. }
    assert (d = x - r) as E by (by apply rnd_fmt). rewrite E in *. apply rnd_le_r; [done|]. lra.
Qed.

(** The rate moves towards [x] and does not overshoot. *)
Lemma step_between a r x : 0 <= a <= 1 / 2 -> fmt r -> fmt x ->
  let p := rnd (a * rnd (x - r)) in
  (r <= x -> r <= r + p <= x) /\ (x <= r -> x <= r + p <= r).
Proof.
  intros Ha Hr Hx p. split; intros H.
  - pose proof (step_up a r x Ha Hr Hx H) as G. cbv zeta in G. fold p in G. lra.
  - pose proof (step_up a (- r) (- x) Ha (fmt_opp _ Hr) (fmt_opp _ Hx)) as G. cbv zeta in G.
    replace (- x - - r) with (- (x - r)) in G by lra. rewrite rnd_opp in G.
    replace (a * - rnd (x - r)) with (- (a * rnd (x - r))) in G by lra. rewrite rnd_opp in G. fold p in G. lra.
Qed.

(** ** The float operations of a tick *)
Definition alpha_ok (a : f64) : Prop := ffinite a = true /\ 0 <= RF a <= 1 / 2.

Lemma instant_spec interval c : in64 interval -> (0 < interval)%Z -> in64 c ->
  RF (instantRate interval c) = rnd (RF (f_of_int c) / RF (f_of_int interval)) /\
  ffinite (instantRate interval c) = true /\ Rabs (RF (instantRate interval c)) <= bpow radix2 63.
Proof.
  intros Hi Hp Hc.
  assert (H1 : 1 <= RF (f_of_int interval)).
  { rewrite <- RF_f1. apply f_of_int_mono; [by vm_compute|done|lia]. }
  assert (Hb : Rabs (RF (f_of_int c) / RF (f_of_int interval)) <= bpow radix2 63).
  { unfold Rdiv. rewrite Rabs_mult, Rabs_inv, (Rabs_pos_eq (RF (f_of_int interval))) by lra.
    pose proof (f_of_int_bound64 c Hc).
    apply Rle_trans with (Rabs (RF (f_of_int c)) * / 1); [|lra].
    apply Rmult_le_compat_l; [apply Rabs_pos|]. apply Rinv_le; lra. }
  destruct (fdiv_spec (f_of_int c) (f_of_int interval)) as [E F].
  - by apply f_of_int_finite64.
  - lra.
  - apply fits_bound. eapply Rle_trans; [exact Hb|]. apply bpow_le. lia.
  - split; [exact E|]. split; [exact F|]. unfold instantRate. rewrite E.
    apply abs_round_le_generic; try typeclasses eauto; [apply fmt_bpow; lia|done].
Qed.

Definition rate_ok (r : f64) : Prop := ffinite r = true /\ Rabs (RF r) <= bpow radix2 63.

Lemma tick_step a r x : alpha_ok a -> rate_ok r -> rate_ok x ->
  let r' := fadd r (fmul a (fsub x r)) in
  rate_ok r' /\ RF r' = rnd (RF r + rnd (RF a * rnd (RF x - RF r))) /\
  (RF r <= RF x -> RF r <= RF r' <= RF x) /\ (RF x <= RF r -> RF x <= RF r' <= RF r).
Proof.
  intros [Fa Ha] [Fr Br] [Fx Bx] r'.
  pose proof (Rabs_le_inv _ _ Br) as Br'. pose proof (Rabs_le_inv _ _ Bx) as Bx'.
  assert (B64 : bpow radix2 64 = 2 * bpow radix2 63).
  { change 64%Z with (1 + 63)%Z. rewrite bpow_plus. reflexivity. }
  assert (B1023 : bpow radix2 64 <= bpow radix2 1023) by (apply bpow_le; lia).
  pose proof (bpow_gt_0 radix2 63).
  destruct (fsub_spec x r) as [E1 F1]; try done.
  { apply fits_bound. apply Rabs_le. lra. }
  set (d := fsub x r) in *.
  assert (Bd : Rabs (RF d) <= bpow radix2 64).
  { rewrite E1. apply abs_round_le_generic; try typeclasses eauto; [apply fmt_bpow; lia|]. apply Rabs_le. lra. }
  assert (Bp : Rabs (RF a * RF d) <= bpow radix2 64).
  { rewrite Rabs_mult, (Rabs_pos_eq (RF a)) by lra.
    apply Rle_trans with (1 * Rabs (RF d)); [|lra]. apply Rmult_le_compat_r; [apply Rabs_pos|lra]. }
  destruct (fmul_spec a d) as [E2 F2]; try done.
  { apply fits_bound. lra. }
  set (p := fmul a d) in *.
  pose proof (step_between (RF a) (RF r) (RF x) Ha (fmt_RF r) (fmt_RF x)) as [S1 S2].
  rewrite <- E1, <- E2 in S1, S2.
  assert (Bs : Rabs (RF r + RF p) <= bpow radix2 63).
  { apply Rabs_le. destruct (Rle_or_lt (RF r) (RF x)) as [H'|H']; [specialize (S1 H'); lra|].
    specialize (S2 (Rlt_le _ _ H')). lra. }
  destruct (fadd_spec r p) as [E3 F3]; try done.
  { apply fits_bound. lra. }
  fold r' in E3, F3.
  split; [split; [done|]|].
  { rewrite E3. apply abs_round_le_generic; try typeclasses eauto; [apply fmt_bpow; lia|done]. }
  split. { rewrite E3, E2, E1. done. }
  rewrite E3. split; intros Hle; [specialize (S1 Hle)|specialize (S2 Hle)]; split;
    (apply rnd_ge_l || apply rnd_le_r); try apply fmt_RF; lra.
Qed.

(** ** Sequences of ticks *)
Definition ticks (e : ewma) (counts : list Z) : ewma := fold_left ew_TickN counts e.

Lemma ticks_snoc e cs c : ticks e (cs ++ [c]) = ew_TickN (ticks e cs) c.
Proof. unfold ticks. by rewrite fold_left_app. Qed.

Lemma ticks_params a i cs : ew_alpha (ticks (newEWMA a i) cs) = a /\ ew_interval (ticks (newEWMA a i) cs) = i /\
  ew_initialized (ticks (newEWMA a i) cs) = negb (bool_decide (cs = [])).
Proof.
  induction cs as [|c cs IH] using rev_ind; [done|].
  rewrite ticks_snoc. destruct IH as (IH1 & IH2 & _). unfold ew_TickN.
  rewrite (bool_decide_eq_false_2 (cs ++ [c] = [])) by (by destruct cs).
  destruct (ew_initialized _); cbn; auto.
Qed.

Lemma ticks_rate a i cs c : cs <> [] ->
  ew_rate (ticks (newEWMA a i) (cs ++ [c])) =
  fadd (ew_rate (ticks (newEWMA a i) cs)) (fmul a (fsub (instantRate i c) (ew_rate (ticks (newEWMA a i) cs)))).
Proof.
  intros H. rewrite ticks_snoc. destruct (ticks_params a i cs) as (H1 & H2 & H3).
  unfold ew_TickN. rewrite H3, bool_decide_eq_false_2 by done. cbn. by rewrite H1, H2.
Qed.

Lemma ticks_first a i c : ew_rate (ticks (newEWMA a i) [c]) = instantRate i c.
Proof. reflexivity. Qed.

Lemma ticks_rate_ok a i cs : alpha_ok a -> in64 i -> (0 < i)%Z -> Forall in64 cs -> cs <> [] ->
  rate_ok (ew_rate (ticks (newEWMA a i) cs)).
Proof.
  intros Ha Hi Hp. induction cs as [|c cs IH] using rev_ind; [done|]. intros Hc _.
  apply Forall_app in Hc as [Hcs Hc]. rewrite Forall_singleton in Hc.
  destruct (instant_spec i c Hi Hp Hc) as (_ & F & B).
  destruct (decide (cs = [])) as [->|Hne]; [by split|].
  rewrite ticks_rate by done. apply tick_step; [done|by apply IH|by split].
Qed.

Lemma ticks_within a i cs lo hi : alpha_ok a -> in64 i -> (0 < i)%Z -> Forall in64 cs -> cs <> [] ->
  Forall (fun c => lo <= RF (instantRate i c) <= hi) cs ->
  ffinite (ew_rate (ticks (newEWMA a i) cs)) = true /\ lo <= RF (ew_rate (ticks (newEWMA a i) cs)) <= hi.
Proof.
  intros Ha Hi Hp Hc Hne Hb. split. { by apply ticks_rate_ok. }
  induction cs as [|c cs IH] using rev_ind; [done|].
  apply Forall_app in Hc as [Hcs Hc]. apply Forall_app in Hb as [Hbs Hb].
  rewrite Forall_singleton in Hc, Hb. destruct (decide (cs = [])) as [->|Hn]; [done|].
  specialize (IH Hcs Hn Hbs). rewrite ticks_rate by done.
  destruct (instant_spec i c Hi Hp Hc) as (_ & F & B).
  destruct (tick_step a (ew_rate (ticks (newEWMA a i) cs)) (instantRate i c)) as (_ & _ & S1 & S2); [done|by apply ticks_rate_ok|by split|].
  destruct (Rle_or_lt (RF (ew_rate (ticks (newEWMA a i) cs))) (RF (instantRate i c))) as [H|H].
  - specialize (S1 H). lra.
  - specialize (S2 (Rlt_le _ _ H)). lra.
Qed.

Lemma tick_moves a i cs c : alpha_ok a -> in64 i -> (0 < i)%Z -> Forall in64 cs -> in64 c -> cs <> [] ->
  let r := RF (ew_rate (ticks (newEWMA a i) cs)) in
  let r' := RF (ew_rate (ticks (newEWMA a i) (cs ++ [c]))) in
  let x := RF (instantRate i c) in
  (r <= x -> r <= r' <= x) /\ (x <= r -> x <= r' <= r).
Proof.
  intros Ha Hi Hp Hcs Hc Hn. cbv zeta. rewrite ticks_rate by done.
  destruct (instant_spec i c Hi Hp Hc) as (_ & F & B).
  destruct (tick_step a (ew_rate (ticks (newEWMA a i) cs)) (instantRate i c)) as (_ & _ & S); [done|by apply ticks_rate_ok|by split|done].
Qed.

(** ** The same count again *)
Lemma fsub_self x : ffinite x = true -> fsub x x = f0.
Proof.
  intros Hx.
  assert (Hfit : fits (RF x - RF x)).
  { unfold fits. rewrite Rminus_diag_eq, rnd_0, Rabs_R0 by done. apply bpow_gt_0. }
  destruct (fsub_spec x x Hx Hx Hfit) as [E F]. rewrite Rminus_diag_eq, rnd_0 in E by done.
  apply f64_inj; try done. rewrite (fsub_sign x x Hx Hx Hfit).
  rewrite Rminus_diag_eq by done. rewrite Rcompare_Eq by done. by destruct (Bsign x).
Qed.

Lemma fmul_f0 a : ffinite a = true -> exists s, fmul a f0 = B754_zero s.
Proof. intros H. destruct a; try done; cbn; eauto. Qed.

Lemma fadd_zero r s : ffinite r = true -> r <> B754_zero true -> fadd r (B754_zero s) = r.
Proof. intros H Hn. destruct r as [[|]| | |]; try done. cbn. by destruct s. Qed.

Lemma instant_not_negzero i c : in64 i -> (0 < i)%Z -> in64 c -> instantRate i c <> B754_zero true.
Proof.
  intros Hi Hp Hc E. destruct (Z.eq_dec c 0) as [->|Hnz].
  - unfold instantRate in E. assert (H1 : 1 <= RF (f_of_int i)).
    { rewrite <- RF_f1. apply f_of_int_mono; [by vm_compute|done|lia]. }
    assert (Hf := f_of_int_finite64 i Hi).
    pose proof (binary_normalize_correct 53 1024 prec53 prec53_lt mode_NE i 0 false) as C. cbv zeta in C.
    assert (EF : F2R (Float radix2 i 0) = IZR i) by (unfold F2R; cbn; lra).
    assert (2 ^ 63 <= 2 ^ 1023)%Z by (apply Z.pow_le_mono_r; lia).
    rewrite EF, Rlt_bool_true in C.
    2:{ apply fits_bound. apply abs_IZR_bound; unfold in64, two63 in Hi; lia. }
    destruct C as (_ & _ & C). rewrite Rcompare_Gt in C by (by apply IZR_lt).
    fold (f_of_int i) in C. change (f_of_int 0) with f0 in E.
    destruct (f_of_int i) as [s|s| |s m e' Hb]; try done; cbn in *; try lra.
    + subst s. done.
  - destruct (instant_spec i c Hi Hp Hc) as (E1 & _ & _). rewrite E in E1. cbn in E1.
    assert (Hb : bpow radix2 (-63) <= Rabs (RF (f_of_int c) / RF (f_of_int i))).
    { assert (H1 : 1 <= RF (f_of_int i)).
      { rewrite <- RF_f1. apply f_of_int_mono; [by vm_compute|done|lia]. }
      pose proof (f_of_int_bound64 i Hi) as H2. rewrite Rabs_pos_eq in H2 by lra.
      assert (H3 : 1 <= Rabs (RF (f_of_int c))).
      { destruct (Z.lt_trichotomy c 0) as [H|[H|H]]; [|done|].
        - assert (RF (f_of_int c) <= RF (f_of_int (-1))) by (apply f_of_int_mono; [done|by vm_compute|lia]).
          rewrite (f_of_int_exact (-1)) in H0 by lia. rewrite Rabs_left1 by lra. lra.
        - assert (RF f1 <= RF (f_of_int c)) by (apply f_of_int_mono; [by vm_compute|done|lia]).
          rewrite RF_f1 in H0. rewrite Rabs_pos_eq by lra. lra. }
      unfold Rdiv. rewrite Rabs_mult, Rabs_inv, (Rabs_pos_eq (RF (f_of_int i))) by lra.
      change (-63)%Z with (Z.opp 63). rewrite bpow_opp.
      apply Rle_trans with (1 * / RF (f_of_int i)).
      - rewrite Rmult_1_l. apply Rinv_le; lra.
      - apply Rmult_le_compat_r; [|done]. apply Rlt_le, Rinv_0_lt_compat. lra. }
    assert (bpow radix2 (-63) <= Rabs (rnd (RF (f_of_int c) / RF (f_of_int i)))).
    { apply abs_round_ge_generic; try typeclasses eauto; [apply fmt_bpow; lia|done]. }
    rewrite <- E1, Rabs_R0 in H. pose proof (bpow_gt_0 radix2 (-63)). lra.
Qed.

Lemma tick_same a i c n : ffinite a = true -> in64 i -> (0 < i)%Z -> in64 c ->
  ew_rate (ticks (newEWMA a i) (replicate (S n) c)) = instantRate i c.
Proof.
  intros Ha Hi Hp Hc. induction n as [|n IH]; [done|].
  rewrite replicate_S_end, ticks_rate by done. rewrite IH.
  destruct (instant_spec i c Hi Hp Hc) as (_ & F & _).
  rewrite fsub_self by done. destruct (fmul_f0 a Ha) as [s ->].
  apply fadd_zero; [done|]. by apply instant_not_negzero.
Qed.

Lemma instant_once i c : (0 < i <= 2 ^ 53)%Z -> (Z.abs c <= 2 ^ 53)%Z ->
  RF (instantRate i c) = rnd (IZR c / IZR i).
Proof.
  intros Hi Hc. destruct (instant_spec i c) as (E & _); try (unfold in64, two63 in *; lia).
  rewrite E, !f_of_int_exact by lia. done.
Qed.

(** ** Idle ticks *)
Lemma tick_idle e : ew_initialized e = true -> ffinite (ew_rate e) = true -> 0 <= RF (ew_rate e) ->
  ffinite (ew_alpha e) = true -> 0 <= RF (ew_alpha e) <= 1 -> in64 (ew_interval e) -> (0 < ew_interval e)%Z ->
  ffinite (ew_rate (ew_TickN e 0)) = true /\ 0 <= RF (ew_rate (ew_TickN e 0)) <= RF (ew_rate e).
Proof.
  intros Hini Fr Hr Fa Ha Hi Hp. unfold ew_TickN. rewrite Hini. cbn [ew_rate].
  destruct (instant_spec (ew_interval e) 0 Hi Hp) as (E0 & F0 & _); [by vm_compute|].
  rewrite (f_of_int_exact 0) in E0 by lia. unfold Rdiv in E0. rewrite Rmult_0_l, rnd_0 in E0.
  set (x := instantRate (ew_interval e) 0) in *. set (r := ew_rate e) in *.
  pose proof (RF_abs_lt r) as Br.
  destruct (fsub_spec x r) as [E1 F1]; try done.
  { rewrite E0. replace (0 - RF r) with (- RF r) by lra. unfold fits. rewrite rnd_opp, Rabs_Ropp.
    rewrite rnd_fmt by apply fmt_RF. done. }
  rewrite E0 in E1. replace (0 - RF r) with (- RF r) in E1 by lra.
  rewrite rnd_fmt in E1 by apply fmt_opp, fmt_RF. set (d := fsub x r) in *.
  assert (Hm : - RF r <= RF (ew_alpha e) * RF d <= 0).
  { rewrite E1. assert (0 <= RF (ew_alpha e) * RF r) by (apply Rmult_le_pos; lra).
    assert (RF (ew_alpha e) * RF r <= 1 * RF r) by (apply Rmult_le_compat_r; lra). lra. }
  destruct (fmul_spec (ew_alpha e) d) as [E2 F2]; try done.
  { eapply (fits_between (- RF r) 0); [apply fmt_opp, fmt_RF|apply fmt_0|done| |].
    - by rewrite Rabs_Ropp.
    - rewrite Rabs_R0. apply bpow_gt_0. }
  set (p := fmul (ew_alpha e) d) in *.
  assert (Hp' : - RF r <= RF p <= 0).
  { rewrite E2. split; [apply rnd_ge_l|apply rnd_le_r]; try lra; [apply fmt_opp, fmt_RF|apply fmt_0]. }
  destruct (fadd_spec r p) as [E3 F3]; try done.
  { eapply (fits_between 0 (RF r)); [apply fmt_0|apply fmt_RF|lra| |done].
    rewrite Rabs_R0. apply bpow_gt_0. }
  split; [done|]. rewrite E3. split; [apply rnd_ge_l|apply rnd_le_r]; try lra; [apply fmt_0|apply fmt_RF].
Qed.
