(** Accuracy of the weighted mean and standard deviation. *)
From Verif.Go Require Import GoInt GoFloat.
From Verif.Model Require Import WeightedSnapshot.
From Verif.Spec Require Import BucketSpec SnapshotSpec WeightedSpec.
From Verif.Proofs Require Import FloatProofs UniformSnapshotProofs WeightedProofs FloatSum.
From Coq Require Import Reals Lra.
From Flocq Require Import Core.Core IEEE754.BinarySingleNaN.
Local Open Scope R_scope.

Lemma pow2_bpow n : 2 ^ n = bpow radix2 (Z.of_nat n).
Proof. rewrite <- IZR_pow2 by lia. rewrite <- pow_IZR. done. Qed.
Lemma moderate_bpow samples : moderate_weights samples ->
  Forall (fun s => ffinite (sm_weight s) = true /\ bpow radix2 (-400) <= RF (sm_weight s) <= bpow radix2 400) samples.
Proof.
  intros H. eapply Forall_impl; [exact H|]. intros s [F W]. split; [done|]. rewrite (pow2_bpow 400) in W.
  change (Z.of_nat 400) with 400%Z in W. by rewrite <- bpow_opp in W.
Qed.

(** ** The total *)
Lemma total_near samples : moderate_weights samples -> (Z.of_nat (length samples) <= 2 ^ 50)%Z -> samples <> [] ->
  0 < total_weight samples /\
  ffinite (ws_totalWeight samples) = true /\
  bpow radix2 (-400) <= RF (ws_totalWeight samples) <= bpow radix2 460 /\
  (forall s, s ∈ samples -> RF (sm_weight s) <= RF (ws_totalWeight samples)) /\
  exists t, near (length samples) t /\ RF (ws_totalWeight samples) = total_weight samples * t.
Proof.
  intros HM Hn Hne. pose proof (moderate_bpow _ HM) as HM'.
  assert (good_weights samples) as HG.
  { eapply Forall_impl; [exact HM'|]. intros s [F W]. split; [done|]. pose proof (bpow_gt_0 radix2 (-400)). lra. }
  assert (ws_totalWeight samples = fold_left fadd (sm_weight <$> samples) f0) as ET.
  { unfold ws_totalWeight. generalize f0. clear. induction samples as [|s l IH]; intros a; [done|]. cbn. apply IH. }
  destruct (fsum_spec 400 (sm_weight <$> samples) ltac:(lia) f0 0) as (F & t0 & ts & _ & NF & L & E).
  { done. } { rewrite RF_f0, Rabs_R0. lra. } { lia. } { rewrite fmap_length. lia. }
  { apply Forall_fmap. eapply Forall_impl; [exact HM'|]. intros s [F W]. split; [done|].
    pose proof (bpow_gt_0 radix2 (-400)). rewrite Rabs_pos_eq; lra. }
  rewrite <- ET in F, E. rewrite RF_f0, Rmult_0_l, Rplus_0_l in E. rewrite fmap_length in L, NF.
  destruct (near_common (length samples) (RF <$> (sm_weight <$> samples)) ts) as (t & Nt & Et).
  { apply Forall_fmap, Forall_fmap. eapply Forall_impl; [exact HG|]. intros s [_ W]. cbn. lra. }
  { done. } { by rewrite !fmap_length. }
  rewrite Et, <- list_fmap_compose in E.
  assert (sumR ((RF ∘ sm_weight) <$> samples) = total_weight samples) as E' by done. rewrite E' in E.
  assert (forall s, s ∈ samples -> RF (sm_weight s) <= RF (ws_totalWeight samples)) as Hin.
  { destruct (total_spec samples HG) as [X|[_ X]]; [rewrite X in F; done|done]. }
  assert (bpow radix2 (-400) <= RF (ws_totalWeight samples)) as Hlow.
  { destruct samples as [|s l]; [done|]. specialize (Hin s ltac:(left)). apply Forall_cons in HM' as [[_ W] _]. lra. }
  assert (0 < total_weight samples) as Hpos.
  { apply Rmult_lt_reg_r with t; [by eapply near_pos|]. rewrite Rmult_0_l, <- E. pose proof (bpow_gt_0 radix2 (-400)). lra. }
  split; [done|]. split; [done|]. split; [split; [done|]|].
  2:{ split; [done|]. exists t. done. }
  (* at most n * 2^400 times a factor of at most 2 *)
  assert (total_weight samples <= INR (length samples) * bpow radix2 400) as Hup.
  { unfold total_weight. rewrite <- (sumR_const (bpow radix2 400) samples). apply sumR_le.
    eapply Forall_impl; [exact HM'|]. intros s [_ W]. cbv beta. lra. }
  rewrite E.
  assert (INR (length samples) <= bpow radix2 50) as Hn'.
  { rewrite INR_IZR_INZ, <- IZR_pow2 by lia. by apply IZR_le. }
  destruct (near_2 (length samples) t Nt) as [_ T2].
  { apply Rle_trans with (bpow radix2 50 * uro); [apply Rmult_le_compat_r; [apply bpow_ge_0|done]|].
    rewrite <- bpow_plus. apply Rle_trans with (bpow radix2 (-1)); [apply bpow_le; lia|]. change (bpow radix2 (-1)) with (/ 2). lra. }
  apply Rle_trans with (bpow radix2 50 * bpow radix2 400 * 2).
  - pose proof (near_pos _ _ Nt). apply Rmult_le_compat; [lra|lra| |done]. eapply Rle_trans; [exact Hup|].
    apply Rmult_le_compat_r; [apply bpow_ge_0|done].
  - rewrite <- bpow_plus. change 2 with (bpow radix2 1). rewrite <- bpow_plus. apply bpow_le. lia.
Qed.

Lemma count_half n : (Z.of_nat n <= 2 ^ 50)%Z -> INR (2 * n + 3) * uro <= 1 / 2.
Proof.
  intros Hn. apply Rle_trans with (bpow radix2 52 * uro).
  - apply Rmult_le_compat_r; [apply bpow_ge_0|]. rewrite INR_IZR_INZ, <- IZR_pow2 by lia. apply IZR_le. lia.
  - rewrite <- bpow_plus. change (bpow radix2 (52 + -53)) with (/ 2). lra.
Qed.

(** ** Normalised weights *)
Lemma nw_near samples s : moderate_weights samples -> (Z.of_nat (length samples) <= 2 ^ 50)%Z -> s ∈ samples ->
  let nw := fdiv (sm_weight s) (ws_totalWeight samples) in
  ffinite nw = true /\ bpow radix2 (-860) <= RF nw <= 1 /\
  exists t, near (length samples + 1) t /\ RF nw = RF (sm_weight s) / total_weight samples * t.
Proof.
  intros HM Hn Hin. cbv zeta. assert (samples <> []) as Hne by (intros ->; by apply elem_of_nil in Hin).
  destruct (total_near samples HM Hn Hne) as (HT & FT & [T1 T2] & HB & t & Nt & Et).
  pose proof (moderate_bpow _ HM) as HM'. rewrite Forall_forall in HM'. destruct (HM' s Hin) as [Fs [W1 W2]]. specialize (HB s Hin).
  pose proof (bpow_gt_0 radix2 (-400)) as B0. set (w := RF (sm_weight s)) in *. set (T := RF (ws_totalWeight samples)) in *.
  assert (bpow radix2 (-860) <= w / T <= 1) as Hb.
  { split.
    - replace (-860)%Z with (-400 + Z.opp 460)%Z by reflexivity. rewrite bpow_plus, (bpow_opp radix2 460). unfold Rdiv.
      apply Rmult_le_compat; [apply bpow_ge_0| |lra|apply Rinv_le_contravar; lra]. apply Rlt_le, Rinv_0_lt_compat, bpow_gt_0.
    - apply Rmult_le_reg_r with T; [lra|]. unfold Rdiv. rewrite Rmult_assoc, Rinv_l by lra. lra. }
  pose proof (bpow_gt_0 radix2 (-860)) as B1.
  destruct (fdiv_spec (sm_weight s) (ws_totalWeight samples)) as [D1 D2]; [done|fold T; lra| |].
  { fold w T. apply fits_bound. rewrite Rabs_pos_eq by lra. apply Rle_trans with 1; [lra|]. apply (bpow_le radix2 0). lia. }
  fold w T in D1. split; [done|].
  split; [rewrite D1; split; [apply rnd_ge_l; [apply fmt_bpow; lia|lra]|apply rnd_le_r; [apply (fmt_IZR 1); lia|lra]]|].
  destruct (rnd_rel (w / T)) as (e & Ne & Ee).
  { right. rewrite Rabs_pos_eq by lra. apply Rle_trans with (bpow radix2 (-860)); [apply bpow_le; lia|lra]. }
  exists (/ t * e). split; [by apply near_mult; [apply near_inv|]|].
  rewrite D1, Ee, Et. pose proof (near_pos _ _ Nt). field. lra.
Qed.

(** ** The mean *)
Lemma mean_term samples s : moderate_weights samples -> (Z.of_nat (length samples) <= 2 ^ 50)%Z -> s ∈ samples -> in64 (sm_value s) ->
  let p := fmul (f_of_int (sm_value s)) (fdiv (sm_weight s) (ws_totalWeight samples)) in
  ffinite p = true /\ Rabs (RF p) <= bpow radix2 63 /\
  exists t, near (length samples + 3) t /\ RF p = RF (sm_weight s) / total_weight samples * IZR (sm_value s) * t.
Proof.
  intros HM Hn Hin Hv. cbv zeta. destruct (nw_near samples s HM Hn Hin) as (Fn & [N1 N2] & t & Nt & Et).
  set (nw := fdiv (sm_weight s) (ws_totalWeight samples)) in *. set (v := sm_value s) in *.
  pose proof (f_of_int_finite64 v Hv) as Fv. pose proof (f_of_int_bound64 v Hv) as Bv.
  pose proof (bpow_gt_0 radix2 (-860)) as B1.
  assert (Rabs (RF (f_of_int v) * RF nw) <= bpow radix2 63) as Hb.
  { rewrite Rabs_mult, (Rabs_pos_eq (RF nw)) by lra. rewrite <- (Rmult_1_r (bpow radix2 63)).
    apply Rmult_le_compat; [apply Rabs_pos|lra|done|done]. }
  destruct (fmul_spec (f_of_int v) nw Fv Fn) as [M1 M2].
  { apply fits_bound. eapply Rle_trans; [exact Hb|]. apply bpow_le. lia. }
  split; [done|]. split.
  { rewrite M1. apply Rabs_le_inv in Hb. apply Rabs_le. split.
    - apply rnd_ge_l; [apply fmt_opp, fmt_bpow; lia|lra].
    - apply rnd_le_r; [apply fmt_bpow; lia|lra]. }
  assert (RF (f_of_int v) = rnd (IZR v)) as Rv .
  { apply f_of_int_RF. assert (2 ^ 63 <= 2 ^ 1023)%Z by (apply Z.pow_le_mono_r; lia). unfold in64, two63 in Hv. lia. }
  destruct (rnd_rel_int v) as (tv & Nv & Ev). rewrite <- Rv in Ev.
  destruct (rnd_rel (RF (f_of_int v) * RF nw)) as (tm & Nm & Em).
  { destruct (Z.eq_dec v 0) as [Z0|NZ]; [left; rewrite Ev, Z0; ring|]. right.
    rewrite Rabs_mult, (Rabs_pos_eq (RF nw)) by lra.
    assert (1 <= Rabs (RF (f_of_int v))) as H1.
    { rewrite Rv. destruct (Z_lt_le_dec v 0) as [C|C].
      - apply Rle_trans with (- rnd (IZR v)); [|rewrite <- Rabs_Ropp; apply RRle_abs].
        assert (rnd (IZR v) <= IZR (-1)) as X; [|lra]. apply rnd_le_r; [apply (fmt_IZR (-1)); lia|]. apply IZR_le. lia.
      - eapply Rle_trans; [|apply RRle_abs]. apply rnd_ge_l; [apply (fmt_IZR 1); lia|]. apply IZR_le. lia. }
    apply Rle_trans with (1 * bpow radix2 (-860)); [rewrite Rmult_1_l; apply bpow_le; lia|].
    apply Rmult_le_compat; [lra|lra|done|done]. }
  exists (t * tv * tm). split.
  - eapply near_le; [|apply near_mult; [apply near_mult|]; [exact Nt|exact Nv|exact Nm]]. lia.
  - rewrite M1, Em, Ev, Et. ring.
Qed.

Definition mean_sum (total : f64) (cp : list sample) : f64 :=
  fold_left fadd ((fun s => fmul (f_of_int (sm_value s)) (fdiv (sm_weight s) total)) <$> cp) f0.
Lemma mean_build total cp : cp <> [] -> ws_GetMean (ws_build total cp) = (mean_sum total cp, false).
Proof.
  intros Hne. unfold ws_GetMean, mean_sum. cbn [ws_build ws_values ws_normalizedWeights]. rewrite fmap_length.
  destruct (Z.eqb_spec (Z.of_nat (length cp)) 0) as [E|_]; [destruct cp; [done|cbn in E; lia]|]. f_equal.
  generalize f0. clear. induction cp as [|s l IH]; intros a; [done|]. cbn. apply IH.
Qed.

Lemma choice_factors {A} (l : list A) (P : A -> R -> Prop) : (forall x, x ∈ l -> exists t, P x t) ->
  exists ts, length ts = length l /\ Forall2 P l ts.
Proof.
  induction l as [|x l IH]; intros H; [exists []; split; [done|constructor]|].
  destruct (H x) as [t Ht]; [left|]. destruct IH as (ts & L & F); [intros y Hy; apply H; by right|].
  exists (t :: ts). split; [cbn; by rewrite L|by constructor].
Qed.

(** A weighted sum whose terms are off by small factors. *)
Lemma weighted_off samples (x : sample -> R) (M d : R) (ts : list R) :
  Forall (fun s => 0 < RF (sm_weight s)) samples -> 0 < total_weight samples ->
  Forall2 (fun s t => Rabs (x s) <= M /\ Rabs (t - 1) <= d) samples ts ->
  Rabs (sumR (zip_with (fun s t => RF (sm_weight s) / total_weight samples * x s * t) samples ts) -
        sumR ((fun s => RF (sm_weight s) * x s) <$> samples) / total_weight samples) <= d * M.
Proof.
  intros HW HT HF. set (T := total_weight samples) in *.
  assert (Rabs (sumR (zip_with (fun s t => RF (sm_weight s) / T * x s * t) samples ts) -
        sumR ((fun s => RF (sm_weight s) * x s) <$> samples) / T) <= sumR ((fun s => RF (sm_weight s)) <$> samples) / T * (d * M)) as H.
  { clearbody T. revert HW. induction HF as [|s t l ts [Hx Ht] HF IH]; intros HW.
    - cbn. unfold Rdiv. rewrite !Rmult_0_l, Rminus_0_r, Rabs_R0. lra.
    - apply Forall_cons in HW as [Hw HW]. specialize (IH HW). cbn [zip_with]. rewrite !fmap_cons, !sumR_cons.
      set (A := sumR (zip_with _ l ts)) in *. set (B := sumR ((fun s => RF (sm_weight s) * x s) <$> l)) in *.
      set (W := sumR ((fun s => RF (sm_weight s)) <$> l)) in *.
      replace (RF (sm_weight s) / T * x s * t + A - (RF (sm_weight s) * x s + B) / T) with
        (RF (sm_weight s) / T * (x s * (t - 1)) + (A - B / T)) by (field; lra).
      eapply Rle_trans; [apply Rabs_triang|].
      replace ((RF (sm_weight s) + W) / T * (d * M)) with (RF (sm_weight s) / T * (d * M) + W / T * (d * M)) by (field; lra).
      apply Rplus_le_compat; [|done]. assert (0 < RF (sm_weight s) / T) by (apply Rdiv_lt_0_compat; lra).
      rewrite Rabs_mult, (Rabs_pos_eq (RF (sm_weight s) / T)) by lra. apply Rmult_le_compat_l; [lra|].
      rewrite Rabs_mult, Rmult_comm. apply Rmult_le_compat; try apply Rabs_pos; done. }
  replace (d * M) with (sumR ((fun s => RF (sm_weight s)) <$> samples) / T * (d * M)); [done|].
  change (sumR ((fun s => RF (sm_weight s)) <$> samples)) with T. field. lra.
Qed.

Lemma weighted_mean_perm l l' : Permutation l l' -> weighted_mean l = weighted_mean l' /\ total_weight l = total_weight l'.
Proof.
  intros P. assert (total_weight l = total_weight l') as E by (unfold total_weight; apply sumR_perm; by rewrite P).
  split; [|done]. unfold weighted_mean. rewrite E. f_equal. apply sumR_perm. by rewrite P.
Qed.
Lemma weighted_variance_perm l l' : Permutation l l' -> weighted_variance l = weighted_variance l'.
Proof.
  intros P. destruct (weighted_mean_perm l l' P) as [E1 E2]. unfold weighted_variance. rewrite E1, E2. f_equal. apply sumR_perm. by rewrite P.
Qed.

Lemma mean_error samples cp M : moderate_weights samples -> (Z.of_nat (length samples) <= 2 ^ 50)%Z -> samples <> [] ->
  Permutation cp samples -> Forall (fun s => in64 (sm_value s) /\ (Z.abs (sm_value s) <= M)%Z) samples ->
  let m := mean_sum (ws_totalWeight samples) cp in
  ffinite m = true /\ Rabs (RF m - weighted_mean samples) <= 2 * INR (2 * length samples + 3) * uro * IZR M.
Proof.
  intros HM Hn Hne P HV. cbv zeta. set (n := length samples) in *.
  destruct (total_near samples HM Hn Hne) as (HT & _).
  assert (length cp = n) as Lc by (by apply Permutation_length).
  rewrite Forall_forall in HV.
  destruct (fsum_spec 63 ((fun s => fmul (f_of_int (sm_value s)) (fdiv (sm_weight s) (ws_totalWeight samples))) <$> cp) ltac:(lia) f0 0)
    as (F & t0 & ts & _ & NF & L & E).
  { done. } { rewrite RF_f0, Rabs_R0. lra. } { lia. } { rewrite fmap_length, Lc. lia. }
  { apply Forall_fmap, Forall_forall. intros s Hs. rewrite P in Hs. cbn.
    destruct (mean_term samples s HM Hn Hs) as (F & B & _); [by apply HV|]. done. }
  fold (mean_sum (ws_totalWeight samples) cp) in F, E. split; [done|]. rewrite RF_f0, Rmult_0_l, Rplus_0_l in E.
  rewrite fmap_length, Lc in L, NF.
  (* factors of the terms *)
  destruct (choice_factors cp (fun s t => near (n + 3) t /\
     RF (fmul (f_of_int (sm_value s)) (fdiv (sm_weight s) (ws_totalWeight samples))) =
       RF (sm_weight s) / total_weight samples * IZR (sm_value s) * t)) as (us & Lu & HU).
  { intros s Hs. rewrite P in Hs. destruct (mean_term samples s HM Hn Hs) as (_ & _ & t & H1 & H2); [by apply HV|]. by exists t. }
  assert (sumR (zip_with Rmult (RF <$> ((fun s => fmul (f_of_int (sm_value s)) (fdiv (sm_weight s) (ws_totalWeight samples))) <$> cp)) ts) =
    sumR (zip_with (fun s t => RF (sm_weight s) / total_weight cp * IZR (sm_value s) * t) cp (zip_with Rmult us ts))) as E2.
  { destruct (weighted_mean_perm cp samples P) as [_ ->]. clear E NF. rewrite <- Lc in L. clear Lc P Lu F.
    revert ts L. induction HU as [|s u l us [_ Hu] HU IH]; intros ts L.
    - done.
    - destruct ts as [|t ts]; [done|]. rewrite !fmap_cons. cbn [zip_with]. rewrite !sumR_cons, IH by (cbn in L; lia).
      rewrite Hu. ring. }
  rewrite E, E2. destruct (weighted_mean_perm cp samples P) as [<- ET].
  apply (weighted_off cp (fun s => IZR (sm_value s)) (IZR M) (2 * INR (2 * n + 3) * uro)).
  - apply Forall_forall. intros s Hs. rewrite P in Hs. pose proof (moderate_bpow _ HM) as HM'. rewrite Forall_forall in HM'.
    destruct (HM' s Hs) as [_ [W _]]. pose proof (bpow_gt_0 radix2 (-400)). lra.
  - by rewrite ET.
  - clear E E2. assert (Forall (fun s => Rabs (IZR (sm_value s)) <= IZR M) cp) as HB.
    { apply Forall_forall. intros s Hs. rewrite P in Hs. destruct (HV s Hs) as [_ B]. rewrite <- abs_IZR. by apply IZR_le. }
    rewrite <- Lc in L. clear P Lc Lu ET F. pose proof (count_half n Hn) as CH. revert ts L NF HB. induction HU as [|s u l us [Nu Hu] HU IH]; intros ts L NF HB.
    + constructor.
    + destruct ts as [|t ts]; [done|]. apply Forall_cons in NF as [Nt NF]. apply Forall_cons in HB as [HB1 HB].
      cbn [zip_with]. constructor.
      * split; [done|]. apply near_dist; [|done]. eapply near_le; [|apply near_mult; [exact Nu|exact Nt]]. lia.
      * apply IH; [cbn in L; lia|done|done].
Qed.
