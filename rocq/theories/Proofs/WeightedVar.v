(** Accuracy of the weighted standard deviation. *)
From Verif.Go Require Import GoInt GoFloat.
From Verif.Model Require Import WeightedSnapshot.
From Verif.Spec Require Import BucketSpec SnapshotSpec WeightedSpec.
From Verif.Proofs Require Import FloatProofs UniformSnapshotProofs WeightedProofs FloatSum WeightedMean.
From Coq Require Import Reals Lra.
From Flocq Require Import Core.Core IEEE754.BinarySingleNaN.
Local Open Scope R_scope.

Lemma rnd_abs_bound x e : (-1074 <= e)%Z -> Rabs x <= bpow radix2 e -> Rabs (rnd x) <= bpow radix2 e.
Proof.
  intros He H. apply Rabs_le_inv in H. apply Rabs_le. split.
  - apply rnd_ge_l; [apply fmt_opp, fmt_bpow; lia|lra].
  - apply rnd_le_r; [apply fmt_bpow; lia|lra].
Qed.
Lemma near_1_dist t : near 1 t -> Rabs (t - 1) <= 2 * uro.
Proof.
  intros H. pose proof uro_bounds. replace (2 * uro) with (2 * INR 1 * uro) by (cbn [INR]; ring). apply near_dist; [done|]. cbn [INR]. lra.
Qed.
Lemma near_2_dist t : near 2 t -> Rabs (t - 1) <= 4 * uro.
Proof.
  intros H. pose proof uro_bounds. replace (4 * uro) with (2 * INR 2 * uro) by (cbn [INR]; ring). apply near_dist; [done|]. cbn [INR]. lra.
Qed.

Section var.
Context (samples : list sample) (M : Z).
Hypothesis HM : moderate_weights samples.
Hypothesis Hn : (Z.of_nat (length samples) <= 2 ^ 50)%Z.
Hypothesis HV : Forall (fun s => in64 (sm_value s) /\ (Z.abs (sm_value s) <= M)%Z) samples.
Hypothesis HM1 : (1 <= M <= 2 ^ 63)%Z.
Let n := length samples.
Let m := weighted_mean samples.
Let delta := 2 * INR (2 * n + 3) * uro * IZR M.
Context (mf : f64).
Hypothesis Fm : ffinite mf = true.
Hypothesis Em : Rabs (RF mf - m) <= delta.

Lemma M_bounds : 1 <= IZR M <= bpow radix2 63.
Proof. split; [apply (IZR_le 1); lia|]. rewrite <- IZR_pow2 by lia. apply IZR_le. lia. Qed.

Lemma weighted_bound (x : sample -> R) B l : Forall (fun s => 0 < RF (sm_weight s)) l -> 0 < total_weight l ->
  Forall (fun s => Rabs (x s) <= B) l -> Rabs (sumR ((fun s => RF (sm_weight s) * x s) <$> l) / total_weight l) <= B.
Proof.
  intros HW HT HF. pose proof (weighted_off l x B 1 (replicate (length l) 0) HW HT) as H.
  rewrite Rmult_1_l in H.
  assert (sumR (zip_with (fun s t => RF (sm_weight s) / total_weight l * x s * t) l (replicate (length l) 0)) = 0) as Z0.
  { generalize (total_weight l). intros T. clear. induction l as [|s l IH]; [done|]. cbn [length replicate zip_with]. rewrite sumR_cons, IH. ring. }
  rewrite Z0 in H. unfold Rminus in H. rewrite Rplus_0_l, Rabs_Ropp in H. apply H.
  clear -HF. induction HF as [|s l Hs HF IH]; [constructor|]. cbn [length replicate]. constructor; [|done]. split; [done|].
  rewrite Rplus_0_l, Rabs_Ropp, Rabs_R1. lra.
Qed.

Lemma weights_pos : Forall (fun s => 0 < RF (sm_weight s)) samples.
Proof.
  pose proof (moderate_bpow _ HM) as H. eapply Forall_impl; [exact H|]. intros s [_ [W _]]. pose proof (bpow_gt_0 radix2 (-400)). cbv beta. lra.
Qed.

Lemma mean_abs : samples <> [] -> Rabs m <= IZR M.
Proof.
  intros Hne. apply weighted_bound; [apply weights_pos|by apply total_near|].
  eapply Forall_impl; [exact HV|]. intros s [_ B]. cbv beta. rewrite <- abs_IZR. by apply IZR_le.
Qed.
Lemma delta_le : 0 <= delta <= IZR M.
Proof.
  unfold delta. pose proof (count_half n Hn) as C. pose proof M_bounds. pose proof (pos_INR (2 * n + 3)). pose proof uro_bounds.
  assert (0 <= INR (2 * n + 3) * uro) by (apply Rmult_le_pos; lra). split.
  - apply Rmult_le_pos; lra.
  - rewrite <- (Rmult_1_l (IZR M)) at 2. apply Rmult_le_compat_r; lra.
Qed.

Definition dev (s : sample) : R := RF (fsub (f_of_int (sm_value s)) mf).

Lemma dev_spec s : s ∈ samples ->
  ffinite (fsub (f_of_int (sm_value s)) mf) = true /\ Rabs (dev s) <= 5 * IZR M /\
  Rabs (dev s - (IZR (sm_value s) - m)) <= 10 * uro * IZR M + delta /\ Rabs (IZR (sm_value s) - m) <= 2 * IZR M.
Proof.
  intros Hs. unfold dev. assert (samples <> []) as Hne by (intros E; rewrite E in Hs; by apply elem_of_nil in Hs).
  pose proof HV as HV'. rewrite Forall_forall in HV'. destruct (HV' s Hs) as [Hv Bv]. set (v := sm_value s) in *.
  pose proof (mean_abs Hne) as Hm. pose proof delta_le as Hd. pose proof M_bounds as HMb. pose proof uro_bounds as U.
  assert (Rabs (IZR v) <= IZR M) as Bv' by (rewrite <- abs_IZR; by apply IZR_le).
  assert (RF (f_of_int v) = rnd (IZR v)) as Rv.
  { apply f_of_int_RF. assert (2 ^ 63 <= 2 ^ 1023)%Z by (apply Z.pow_le_mono_r; lia). unfold in64, two63 in Hv. lia. }
  destruct (rnd_rel_int v) as (tv & Nv & Ev). rewrite <- Rv in Ev. apply near_1_dist in Nv.
  assert (0 <= uro * IZR M) as HuM by (apply Rmult_le_pos; lra).
  assert (uro * IZR M <= / 1024 * IZR M) as HuM' by (apply Rmult_le_compat_r; lra).
  assert (Rabs (RF (f_of_int v) - IZR v) <= 2 * (uro * IZR M)) as E1.
  { replace (RF (f_of_int v) - IZR v) with ((tv - 1) * IZR v) by (rewrite Ev; ring). rewrite Rabs_mult, <- Rmult_assoc.
    apply Rmult_le_compat; try apply Rabs_pos; lra. }
  assert (Rabs (RF (f_of_int v) - RF mf) <= 4 * IZR M) as B1.
  { apply Rabs_le_inv in E1, Em, Hm, Bv'. apply Rabs_le. lra. }
  destruct (fsub_spec (f_of_int v) mf) as [S1 S2]; [by apply f_of_int_finite64|done| |].
  { apply fits_bound. eapply Rle_trans; [exact B1|]. apply Rle_trans with (4 * bpow radix2 63); [lra|].
    change 4 with (bpow radix2 2). rewrite <- bpow_plus. apply bpow_le. lia. }
  split; [done|]. destruct (rnd_rel_plus (RF (f_of_int v)) (- RF mf)) as (t & Nt & Et); [apply fmt_RF|apply fmt_opp, fmt_RF|].
  apply near_1_dist in Nt. fold (RF (f_of_int v) - RF mf) in Et.
  assert (Rabs (RF (fsub (f_of_int v) mf) - (RF (f_of_int v) - RF mf)) <= 8 * (uro * IZR M)) as E2.
  { rewrite S1, Et. replace ((RF (f_of_int v) - RF mf) * t - (RF (f_of_int v) - RF mf)) with ((t - 1) * (RF (f_of_int v) - RF mf)) by ring.
    rewrite Rabs_mult. replace (8 * (uro * IZR M)) with (2 * uro * (4 * IZR M)) by ring. apply Rmult_le_compat; try apply Rabs_pos; lra. }
  apply Rabs_le_inv in E1, E2, Em, Hm, Bv', B1. split; [|split]; apply Rabs_le; lra.
Qed.

Definition var_term (s : sample) : f64 :=
  let diff := fsub (f_of_int (sm_value s)) mf in
  fmul (fmul (fdiv (sm_weight s) (ws_totalWeight samples)) diff) diff.

Lemma var_term_spec s : s ∈ samples ->
  ffinite (var_term s) = true /\ 0 <= RF (var_term s) <= bpow radix2 134 /\
  exists t z, near (n + 3) t /\ Rabs z <= 11 * IZR M * bpow radix2 (-1075) /\
    RF (var_term s) = RF (sm_weight s) / total_weight samples * (dev s * dev s) * t + z.
Proof.
  intros Hs. destruct (dev_spec s Hs) as (Fd & Bd & _ & _). unfold var_term. cbv zeta.
  destruct (nw_near samples s HM Hn Hs) as (Fn & [N1 N2] & tw & Nw & Ew). fold n in Nw.
  unfold dev in *. set (diff := fsub (f_of_int (sm_value s)) mf) in *. set (nw := fdiv (sm_weight s) (ws_totalWeight samples)) in *.
  set (d := RF diff) in *. pose proof M_bounds as HMb. pose proof uro_bounds as U.
  assert (0 < RF nw) as Hnw by (pose proof (bpow_gt_0 radix2 (-860)); lra).
  assert (Rabs d <= bpow radix2 66) as Bd'.
  { eapply Rle_trans; [exact Bd|]. apply Rle_trans with (8 * bpow radix2 63); [lra|]. change 8 with (bpow radix2 3). rewrite <- bpow_plus. apply bpow_le. lia. }
  assert (Rabs (RF nw * d) <= bpow radix2 66) as B1.
  { rewrite Rabs_mult, (Rabs_pos_eq (RF nw)) by lra. rewrite <- (Rmult_1_l (bpow radix2 66)). apply Rmult_le_compat; [lra|apply Rabs_pos|lra|lra]. }
  destruct (fmul_spec nw diff Fn Fd) as [P1 F1].
  { apply fits_bound. eapply Rle_trans; [exact B1|]. apply bpow_le. lia. }
  fold d in P1. set (p1 := fmul nw diff) in *.
  assert (Rabs (RF p1) <= bpow radix2 66) as B2 by (rewrite P1; apply rnd_abs_bound; [lia|done]).
  assert (Rabs (RF p1 * d) <= bpow radix2 134) as B3.
  { rewrite Rabs_mult. apply Rle_trans with (bpow radix2 66 * bpow radix2 66); [apply Rmult_le_compat; try apply Rabs_pos; done|].
    rewrite <- bpow_plus. apply bpow_le. lia. }
  destruct (fmul_spec p1 diff F1 Fd) as [P2 F2].
  { fold d. apply fits_bound. eapply Rle_trans; [exact B3|]. apply bpow_le. lia. }
  fold d in P2. split; [done|].
  assert (0 <= RF p1 * d) as Hpos.
  { rewrite P1. destruct (Rle_or_lt 0 d) as [C|C].
    - apply Rmult_le_pos; [|done]. apply rnd_ge_l; [apply fmt_0|]. apply Rmult_le_pos; lra.
    - replace (rnd (RF nw * d) * d) with ((- rnd (RF nw * d)) * (- d)) by ring. apply Rmult_le_pos; [|lra].
      assert (rnd (RF nw * d) <= 0); [|lra]. apply rnd_le_r; [apply fmt_0|].
      assert (0 <= RF nw * - d) by (apply Rmult_le_pos; lra). lra. }
  split.
  { rewrite P2. split; [apply rnd_ge_l; [apply fmt_0|done]|]. apply Rle_trans with (Rabs (rnd (RF p1 * d))); [apply RRle_abs|].
    apply rnd_abs_bound; [lia|done]. }
  destruct (rnd_error (RF nw * d)) as (e1 & n1 & He1 & Hn1 & Ee1). rewrite <- P1 in Ee1.
  destruct (rnd_error (RF p1 * d)) as (e2 & n2 & He2 & Hn2 & Ee2). rewrite <- P2 in Ee2.
  exists (tw * (1 + e1) * (1 + e2)), (n1 * d * (1 + e2) + n2). split; [|split].
  - replace (n + 3)%nat with (n + 1 + 1 + 1)%nat by lia. apply near_mult; [apply near_mult|]; [done|by apply near_rel|by apply near_rel].
  - set (eta := bpow radix2 (-1075)) in *. assert (0 < eta) by apply bpow_gt_0.
    assert (Rabs (1 + e2) <= 2) as H2 by (apply Rabs_le_inv in He2; apply Rabs_le; lra).
    assert (Rabs (n1 * d * (1 + e2)) <= eta * (5 * IZR M) * 2) as H3.
    { rewrite !Rabs_mult. apply Rmult_le_compat; [|apply Rabs_pos| |done].
      - apply Rmult_le_pos; apply Rabs_pos.
      - apply Rmult_le_compat; try apply Rabs_pos; done. }
    eapply Rle_trans; [apply Rabs_triang|]. assert (eta * 1 <= eta * IZR M) by (apply Rmult_le_compat_l; lra). lra.
  - rewrite Ee2, Ee1, Ew. ring.
Qed.

Definition var_sum (cp : list sample) : f64 := fold_left fadd (var_term <$> cp) f0.

Lemma var_error cp : samples <> [] -> Permutation cp samples ->
  ffinite (var_sum cp) = true /\ 0 <= RF (var_sum cp) /\
  Rabs (RF (var_sum cp) - weighted_variance samples) <= INR (128 * n + 263) * uro * (IZR M * IZR M).
Proof.
  intros Hne P. pose proof M_bounds as HMb. pose proof uro_bounds as U.
  destruct (total_near samples HM Hn Hne) as (HT & _).
  assert (length cp = n) as Lc by (by apply Permutation_length).
  assert (Forall (fun s => s ∈ samples) cp) as HC by (apply Forall_forall; intros s Hs; by rewrite <- P).
  destruct (fsum_spec 134 (var_term <$> cp) ltac:(lia) f0 0) as (F & t0 & ts & _ & NF & L & E).
  { done. } { rewrite RF_f0, Rabs_R0. lra. } { lia. } { rewrite fmap_length, Lc. unfold n in *. lia. }
  { apply Forall_fmap. eapply Forall_impl; [exact HC|]. intros s Hs. cbn.
    destruct (var_term_spec s Hs) as (F & [B1 B2] & _). split; [done|]. by rewrite Rabs_pos_eq. }
  fold (var_sum cp) in F, E. split; [done|]. rewrite RF_f0, Rmult_0_l, Rplus_0_l in E.
  rewrite fmap_length, Lc in L, NF.
  split.
  { rewrite E. clear -HC NF L Lc HM Hn HV HM1 Fm Em. rewrite <- Lc in L. clear Lc.
    revert ts L NF. induction HC as [|s l Hs HC IH]; intros ts L NF; [cbn; lra|].
    destruct ts as [|t ts]; [done|]. apply Forall_cons in NF as [Nt NF]. rewrite !fmap_cons. cbn [zip_with]. rewrite sumR_cons.
    destruct (var_term_spec s Hs) as (_ & [B1 _] & _). specialize (IH ts). assert (0 <= RF (var_term s) * t) by (apply Rmult_le_pos; [done|apply Rlt_le; by eapply near_pos]).
    assert (length ts = length l) by (cbn in L; lia). specialize (IH ltac:(done) NF). lra. }
  (* exact terms plus dust *)
  pose proof (count_half n Hn) as CH.
  assert (INR n * uro <= 1 / 2) as CHn.
  { eapply Rle_trans; [|exact CH]. apply Rmult_le_compat_r; [lra|]. apply le_INR. lia. }
  set (eta := bpow radix2 (-1075)).
  assert (exists us, length us = length cp /\ Forall2 (fun s t => near (2 * n + 3) t) cp us /\
    Rabs (sumR (zip_with Rmult (RF <$> (var_term <$> cp)) ts) -
      sumR (zip_with (fun s t => RF (sm_weight s) / total_weight samples * (dev s * dev s) * t) cp us)) <=
      INR (length cp) * (22 * IZR M * eta)) as (us & Lu & HU & HD).
  { rewrite <- Lc in L. clear -HC NF L HM Hn HV HM1 Fm Em CHn. revert ts L NF.
    induction HC as [|s l Hs HC IH]; intros ts L NF.
    - exists []. split; [done|]. split; [constructor|]. cbn. rewrite Rminus_0_r, Rabs_R0. lra.
    - destruct ts as [|t ts]; [done|]. apply Forall_cons in NF as [Nt NF]. cbn in L. destruct (IH ts) as (us & Lu & HU & HD); [lia|done|].
      destruct (var_term_spec s Hs) as (_ & _ & tt & z & Ntt & Hz & Ez). exists (tt * t :: us).
      split; [cbn; by rewrite Lu|]. split.
      + constructor; [|done]. eapply near_le; [|apply near_mult; [exact Ntt|exact Nt]]. lia.
      + rewrite !fmap_cons. cbn [zip_with]. rewrite !sumR_cons. cbn [length]. rewrite S_INR, Ez.
        set (A := sumR _) in *. set (B := sumR _) in HD. fold B.
        match goal with |- Rabs ?x <= _ => replace x with (z * t + (A - B)) by ring end.
        eapply Rle_trans; [apply Rabs_triang|].
        assert (Rabs (z * t) <= 11 * IZR M * eta * 2).
        { rewrite Rabs_mult. apply Rmult_le_compat; [apply Rabs_pos|apply Rabs_pos|done|].
          destruct (near_2 n t Nt CHn). rewrite Rabs_pos_eq; lra. }
        lra. }
  rewrite E.
  destruct (weighted_mean_perm cp samples P) as [_ ET]. rewrite <- ET in HD. rewrite <- ET in HT.
  assert (Forall (fun s => 0 < RF (sm_weight s)) cp) as HW.
  { apply Forall_forall. intros s Hs. pose proof weights_pos as W. rewrite Forall_forall in W. apply W. by rewrite <- P. }
  pose proof (weighted_off cp (fun s => dev s * dev s) (25 * (IZR M * IZR M)) (2 * INR (2 * n + 3) * uro) us HW HT) as H1.
  lapply H1; clear H1; [intros H1|].
  2:{ clear -HC HU HM Hn HV HM1 Fm Em CH. induction HU as [|s t l us Ht HU IH]; [constructor|].
      apply Forall_cons in HC as [Hs HC]. constructor; [|by apply IH]. split; [|by apply near_dist].
      destruct (dev_spec s Hs) as (_ & B & _). rewrite Rabs_mult.
      replace (25 * (IZR M * IZR M)) with ((5 * IZR M) * (5 * IZR M)) by ring. apply Rmult_le_compat; try apply Rabs_pos; done. }
  pose proof (weighted_bound (fun s => dev s * dev s - (IZR (sm_value s) - m) * (IZR (sm_value s) - m))
    (7 * IZR M * (10 * uro * IZR M + delta)) cp HW HT) as H2.
  lapply H2; clear H2; [intros H2|].
  2:{ eapply Forall_impl; [exact HC|]. intros s Hs. cbv beta. destruct (dev_spec s Hs) as (_ & B1 & B2 & B3).
      set (a := dev s) in *. set (b := IZR (sm_value s) - m) in *. replace (a * a - b * b) with ((a + b) * (a - b)) by ring.
      rewrite Rabs_mult. apply Rmult_le_compat; try apply Rabs_pos; [|done]. eapply Rle_trans; [apply Rabs_triang|]. lra. }
  assert (sumR ((fun s => RF (sm_weight s) * (dev s * dev s - (IZR (sm_value s) - m) * (IZR (sm_value s) - m))) <$> cp) =
    sumR ((fun s => RF (sm_weight s) * (dev s * dev s)) <$> cp) -
    sumR ((fun s => RF (sm_weight s) * ((IZR (sm_value s) - m) * (IZR (sm_value s) - m))) <$> cp)) as ES.
  { rewrite sumR_minus. f_equal. apply list_fmap_ext. intros _ s _. ring. }
  rewrite ES in H2. clear ES.
  assert (weighted_variance samples = sumR ((fun s => RF (sm_weight s) * ((IZR (sm_value s) - m) * (IZR (sm_value s) - m))) <$> cp) / total_weight cp) as EV.
  { rewrite <- (weighted_variance_perm cp samples P). unfold weighted_variance. by rewrite (proj1 (weighted_mean_perm cp samples P)). }
  rewrite EV.
  set (A := sumR (zip_with Rmult _ ts)) in *. set (B := sumR (zip_with _ cp us)) in *.
  set (C := sumR ((fun s => RF (sm_weight s) * (dev s * dev s)) <$> cp)) in *.
  set (D := sumR ((fun s => RF (sm_weight s) * ((IZR (sm_value s) - m) * (IZR (sm_value s) - m))) <$> cp)) in *.
  replace (A - D / total_weight cp) with ((A - B) + ((B - C / total_weight cp) + (C - D) / total_weight cp)) by (field; lra).
  eapply Rle_trans; [apply Rabs_triang|].
  pose proof (Rabs_triang (B - C / total_weight cp) ((C - D) / total_weight cp)) as H3.
  assert (INR (length cp) * (22 * IZR M * eta) <= uro * (IZR M * IZR M)) as H4.
  { assert (INR (length cp) <= bpow radix2 50) as HL.
    { rewrite Lc, INR_IZR_INZ, <- IZR_pow2 by lia. by apply IZR_le. }
    apply Rle_trans with (bpow radix2 50 * (bpow radix2 5 * IZR M * eta)).
    - apply Rmult_le_compat; [apply pos_INR| |done|].
      + apply Rmult_le_pos; [lra|apply bpow_ge_0].
      + apply Rmult_le_compat_r; [apply bpow_ge_0|]. apply Rmult_le_compat_r; [lra|]. change (bpow radix2 5) with 32. lra.
    - replace (bpow radix2 50 * (bpow radix2 5 * IZR M * eta)) with ((bpow radix2 50 * bpow radix2 5 * eta) * (IZR M * 1)) by ring.
      unfold eta. rewrite <- !bpow_plus. apply Rmult_le_compat; [apply bpow_ge_0|lra|apply bpow_le; lia|]. apply Rmult_le_compat_l; lra. }
  assert (delta = 2 * INR (2 * n + 3) * uro * IZR M) as Ed by done. rewrite Ed in H2.
  replace (INR (128 * n + 263)) with (128 * INR n + 263).
  2:{ rewrite plus_INR, mult_INR. rewrite (INR_IZR_INZ 128), (INR_IZR_INZ 263). done. }
  assert (INR (2 * n + 3) = 2 * INR n + 3) as EI.
  { rewrite plus_INR, mult_INR. rewrite (INR_IZR_INZ 2), (INR_IZR_INZ 3). done. }
  rewrite EI in H1, H2.
  replace (7 * IZR M * (10 * uro * IZR M + 2 * (2 * INR n + 3) * uro * IZR M)) with
    ((28 * INR n + 112) * (uro * (IZR M * IZR M))) in H2 by ring.
  replace (2 * (2 * INR n + 3) * uro * (25 * (IZR M * IZR M))) with ((100 * INR n + 150) * (uro * (IZR M * IZR M))) in H1 by ring.
  replace ((128 * INR n + 263) * uro * (IZR M * IZR M)) with ((128 * INR n + 263) * (uro * (IZR M * IZR M))) by ring.
  lra.
Qed.
End var.

Lemma stddev_build samples cp :
  ws_GetStdDev (ws_build (ws_totalWeight samples) cp) =
  if (Z.of_nat (length cp) <=? 1)%Z then (f0, false)
  else (fsqrt (var_sum samples (ws_GetMean (ws_build (ws_totalWeight samples) cp)).1 cp), false).
Proof.
  unfold ws_GetStdDev. set (mf := (ws_GetMean (ws_build (ws_totalWeight samples) cp)).1). clearbody mf.
  cbn [ws_build ws_values ws_normalizedWeights]. rewrite fmap_length.
  destruct (Z.of_nat (length cp) <=? 1)%Z; [done|]. f_equal. f_equal. unfold var_sum, var_term. generalize f0.
  induction cp as [|s l IH]; intros a; [done|].
  rewrite !fmap_cons. cbn [zip zip_with fold_left fst snd]. apply IH.
Qed.
