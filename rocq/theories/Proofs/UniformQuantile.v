From Verif.Go Require Import GoInt GoFloat.
From Verif.Model Require Import BucketCounter FloatUtil UniformSnapshot.
From Verif.Spec Require Import BucketSpec SnapshotSpec QuantileSpec.
From Verif.Proofs Require Import FloatProofs UniformSnapshotProofs.
From Coq Require Import Reals Lra.
From Flocq Require Import Core.Core IEEE754.BinarySingleNaN Relative.
Local Open Scope R_scope.

Notation ulp53 := (bpow radix2 (-53)).

Lemma rnd_err_rel x : x = 0 \/ bpow radix2 (-1022) <= Rabs x -> Rabs (rnd x - x) <= ulp53 * Rabs x.
Proof.
  intros [->|Hx].
  - rewrite rnd_0, Rminus_0_r, Rabs_R0. lra.
  - pose proof (relative_error_N_FLT radix2 (-1074) 53 ltac:(lia) (fun n => negb (Z.even n)) x Hx) as E.
    unfold rnd. rewrite fexp64_FLT. eapply Rle_trans; [exact E|]. apply Rmult_le_compat_r; [apply Rabs_pos|].
    rewrite bpow_plus. change (bpow radix2 1) with 2. change (bpow radix2 (- (53))) with ulp53. lra.
Qed.

(** Rounding a position keeps its integer part, or reaches the next integer exactly. *)
Lemma rnd_floor p : 0 <= p -> (Zfloor p < 2 ^ 53)%Z ->
  Zfloor (rnd p) = Zfloor p \/ rnd p = IZR (Zfloor p + 1).
Proof.
  intros Hp Hk. set (k := Zfloor p) in *. assert (0 <= k)%Z as K0 by (by apply Zfloor_lub).
  pose proof (Zfloor_lb p) as L. pose proof (Zfloor_ub p) as U. fold k in L, U.
  assert (IZR k <= rnd p) as A by (apply rnd_ge_l; [apply fmt_IZR; lia|done]).
  assert (rnd p <= IZR (k + 1)) as B by (apply rnd_le_r; [apply fmt_IZR; lia|rewrite plus_IZR; lra]).
  destruct (Req_dec (rnd p) (IZR (k + 1))) as [E|N]; [by right|]. left. apply Zfloor_imp. split; [done|]. lra.
Qed.

(** A position between 1 and 2^53 has a fractional part that is 0 or not tiny. *)
Lemma frac_not_tiny x : fmt x -> 1 <= x -> x - IZR (Zfloor x) = 0 \/ bpow radix2 (-52) <= x - IZR (Zfloor x).
Proof.
  intros F Hx. pose proof (Zfloor_lb x) as L. destruct (Req_dec (x - IZR (Zfloor x)) 0) as [E|N]; [by left|]. right.
  (* x is a multiple of 2^-52 *)
  assert (exists m : Z, x = IZR m * bpow radix2 (-52)) as [m Em].
  { unfold fmt, generic_format, F2R in F. cbn [Fnum Fexp] in F. set (c := cexp radix2 fexp64 x) in *.
    assert (-52 <= c)%Z as Hc.
    { unfold c, cexp. rewrite fexp64_FLT. unfold FLT_exp. assert (1 <= mag radix2 x)%Z; [|lia].
      apply mag_ge_bpow. change (bpow radix2 (1 - 1)) with 1. rewrite Rabs_pos_eq by lra. lra. }
    exists (Ztrunc (scaled_mantissa radix2 fexp64 x) * 2 ^ (c + 52))%Z. rewrite mult_IZR, IZR_pow2 by lia.
    rewrite Rmult_assoc, <- bpow_plus. replace (c + 52 + -52)%Z with c by lia. exact F. }
  assert (IZR (Zfloor x) = IZR (Zfloor x * 2 ^ 52) * bpow radix2 (-52)) as Ek.
  { rewrite mult_IZR, IZR_pow2, Rmult_assoc, <- bpow_plus by lia. cbn [Z.add Z.opp Z.pos_sub]. rewrite Rmult_1_r. done. }
  set (k := Zfloor x) in *. rewrite Ek in N, L |- *. rewrite Em in N, L |- *.
  rewrite <- Rmult_minus_distr_r, <- minus_IZR in N |- *.
  rewrite <- (Rmult_1_l (bpow radix2 (-52))) at 1. apply Rmult_le_compat_r; [apply bpow_ge_0|]. apply IZR_le.
  apply Rmult_le_reg_r in L; [|apply bpow_gt_0]. apply le_IZR in L.
  assert (m - k * 2 ^ 52 <> 0)%Z; [|lia]. intros Z0. apply N. rewrite Z0. ring.
Qed.

Lemma interp_error l h t M : (Z.abs l <= 2 ^ 52)%Z -> (Z.abs h <= 2 ^ 52)%Z -> (l <= h)%Z ->
  Rabs (IZR l) <= M -> Rabs (IZR h) <= M -> 0 <= t <= 1 -> t = 0 \/ bpow radix2 (-52) <= t ->
  Rabs (interp l h t - (IZR l + t * (IZR h - IZR l))) <= 3 * M * ulp53.
Proof.
  intros Sl Sh Hlh Ml Mh Ht Htiny. unfold interp. rewrite <- minus_IZR.
  assert (0 <= IZR (h - l) <= 2 * M) as Hd.
  { split; [apply (IZR_le 0); lia|]. rewrite minus_IZR. apply Rabs_le_inv in Ml, Mh. lra. }
  assert (0 <= M) as HM by (pose proof (Rabs_pos (IZR l)); lra).
  set (g := t * IZR (h - l)) in *.
  assert (0 <= g <= 2 * M) as Hg. { unfold g. split; [apply Rmult_le_pos; lra|]. apply Rle_trans with (1 * IZR (h - l)); [apply Rmult_le_compat_r; lra|lra]. }
  assert (Rabs (rnd g - g) <= ulp53 * (2 * M)) as E1.
  { eapply Rle_trans.
    - apply rnd_err_rel. destruct Htiny as [->|Ht']; [left; unfold g; ring|].
      destruct (Z.eq_dec (h - l) 0) as [Z0|N]; [left; unfold g; rewrite Z0; ring|]. right. rewrite Rabs_pos_eq by lra.
      apply Rle_trans with (bpow radix2 (-52)); [apply bpow_le; lia|]. unfold g. rewrite <- (Rmult_1_r (bpow radix2 (-52))).
      apply Rmult_le_compat; [apply bpow_ge_0|lra|done|]. apply (IZR_le 1). lia.
    - apply Rmult_le_compat_l; [apply bpow_ge_0|]. rewrite Rabs_pos_eq; lra. }
  destruct (interp_bounds l h t Sl Sh Hlh Ht) as [B1 B2]. fold g in B1.
  set (s := IZR l + rnd g) in *.
  assert (Rabs s <= M) as Hs.
  { unfold s. rewrite minus_IZR in B1. apply Rabs_le_inv in Ml, Mh. apply Rabs_le. lra. }
  assert (Rabs (rnd s - s) <= ulp53 * M) as E2.
  { eapply Rle_trans; [|apply Rmult_le_compat_l; [apply bpow_ge_0|exact Hs]].
    (* a sum of two doubles: no underflow *)
    apply rnd_err_rel.
    destruct (Req_dec s 0) as [Z0|N]; [by left|]. right.
    destruct (Req_dec (rnd g) 0) as [G0|G0].
    - unfold s. rewrite G0, Rplus_0_r. unfold s in N. rewrite G0, Rplus_0_r in N.
      apply Rle_trans with 1; [change 1 with (bpow radix2 0); apply bpow_le; lia|]. rewrite <- abs_IZR. apply (IZR_le 1).
      assert (l <> 0)%Z by (intros ->; done). lia.
    - destruct Htiny as [T0|T0]; [exfalso; apply G0; unfold g; rewrite T0, Rmult_0_l; apply rnd_0|].
      assert (h - l <> 0)%Z as Nd by (intros Z0; apply G0; unfold g; rewrite Z0, Rmult_0_r; apply rnd_0).
      assert (bpow radix2 (-52) <= g) as Hg'.
      { unfold g. rewrite <- (Rmult_1_r (bpow radix2 (-52))). apply Rmult_le_compat; [apply bpow_ge_0|lra|done|]. apply (IZR_le 1). lia. }
      assert (bpow radix2 (-52) <= rnd g) as Hr by (apply rnd_ge_l; [apply fmt_bpow; lia|done]).
      (* both l and rnd g are multiples of 2^-104 *)
      assert (exists m : Z, rnd g = IZR m * bpow radix2 (-104)) as [m Em].
      { pose proof (fmt_rnd g) as F. set (r := rnd g) in *. unfold fmt, generic_format, F2R in F. cbn [Fnum Fexp] in F. set (c := cexp radix2 fexp64 r) in *.
        assert (-104 <= c)%Z as Hc.
        { unfold c, cexp. rewrite fexp64_FLT. unfold FLT_exp. assert (-51 <= mag radix2 r)%Z; [|lia].
          apply mag_ge_bpow. rewrite Rabs_pos_eq by lra. exact Hr. }
        exists (Ztrunc (scaled_mantissa radix2 fexp64 r) * 2 ^ (c + 104))%Z. rewrite mult_IZR, IZR_pow2 by lia.
        rewrite Rmult_assoc, <- bpow_plus. replace (c + 104 + -104)%Z with c by lia. exact F. }
      assert (s = IZR (l * 2 ^ 104 + m) * bpow radix2 (-104)) as Es.
      { unfold s. rewrite Em, plus_IZR, mult_IZR, IZR_pow2, Rmult_plus_distr_r, Rmult_assoc, <- bpow_plus by lia. cbn [Z.add Z.opp Z.pos_sub]. rewrite Rmult_1_r. done. }
      rewrite Es in N |- *. rewrite Rabs_mult, (Rabs_pos_eq (bpow _ _)) by apply bpow_ge_0.
      apply Rle_trans with (1 * bpow radix2 (-104)); [rewrite Rmult_1_l; apply bpow_le; lia|].
      apply Rmult_le_compat_r; [apply bpow_ge_0|]. rewrite <- abs_IZR. apply (IZR_le 1).
      assert (l * 2 ^ 104 + m <> 0)%Z; [|lia]. intros Z0. apply N. rewrite Z0. ring. }
  replace (rnd s - (IZR l + g)) with ((rnd s - s) + (rnd g - g)) by (unfold s; ring).
  eapply Rle_trans; [apply Rabs_triang|]. lra.
Qed.

Lemma nth_lookup l i x : (1 <= i)%Z -> l !! Z.to_nat (i - 1) = Some x -> nth_value l i = x.
Proof. intros _ H. unfold nth_value. rewrite H. done. Qed.

(** The double GetValue returns, against the straight line through the neighbours. *)
Lemma GetValue_ideal u q M :
  valid_quantile q -> ascending (us_values u) -> small (2 ^ 52) (us_values u) -> small M (us_values u) ->
  (0 < Z.of_nat (length (us_values u)) <= 2 ^ 52)%Z ->
  let n := Z.of_nat (length (us_values u)) in
  let p := RF q * IZR (n + 1) in
  exists x, us_GetValue u q = Ok (x, false) /\ ffinite x = true /\
    Rabs (RF x - value_at (us_values u) p) <= (2 * IZR n + 5) * IZR M * ulp53 /\
    ((Zfloor p <= 0)%Z -> RF x = IZR (nth_value (us_values u) 1)) /\
    ((n <= Zfloor p)%Z -> RF x = IZR (nth_value (us_values u) n)) /\
    ((1 <= Zfloor p < n)%Z -> IZR (nth_value (us_values u) (Zfloor p)) <= RF x <= IZR (nth_value (us_values u) (Zfloor p + 1))) /\
    (forall k, (1 <= k <= n)%Z -> p = IZR k -> RF x = IZR (nth_value (us_values u) k)).
Proof.
  intros Hq HS Hsm HM Hn. cbv zeta. set (n := Z.of_nat (length (us_values u))) in *. set (p := RF q * IZR (n + 1)).
  destruct (pos_spec q n Hq) as (F & Ep & P1 & P2); [lia|]. destruct (us_index_spec q n Hq) as [I1 I2]; [lia|].
  destruct (GetValue_cases u q Hq HS Hsm Hn) as (x & E & Fx & C). fold n in C. exists x. split; [exact E|]. split; [exact Fx|]. clear E Fx.
  set (p' := RF (fmul q (f_of_int (n + 1)))) in *. fold p in Ep.
  assert (fmt p') as Fp' by apply fmt_RF. clearbody p'.
  assert (0 <= IZR (n + 1)) as Hn1 by (apply (IZR_le 0); lia).
  assert (0 <= p <= IZR (n + 1)) as Hp by (destruct Hq as [_ ?]; unfold p; split; nra).
  assert (Zfloor p <= n + 1)%Z as Hpk by (apply le_IZR; eapply Rle_trans; [apply Zfloor_lb|lra]).
  assert (0 <= Zfloor p)%Z as Hpk0 by (apply Zfloor_lub; simpl; lra).
  assert (forall i, (1 <= i <= n)%Z -> Rabs (IZR (nth_value (us_values u) i)) <= IZR M) as HMi.
  { intros i Hi. unfold nth_value. destruct (us_values u !! Z.to_nat (i - 1)) as [v|] eqn:Ev; [|apply lookup_ge_None in Ev; lia].
    simpl. unfold small in HM. rewrite Forall_lookup in HM. rewrite <- abs_IZR. apply IZR_le. by eapply HM. }
  assert (0 <= IZR M) as HM0 by (eapply Rle_trans; [apply Rabs_pos|apply (HMi 1%Z); lia]).
  assert (0 < ulp53) as Hu by apply bpow_gt_0.
  assert (0 <= IZR n) as Hn0 by (apply (IZR_le 0); lia).
  assert (0 <= (2 * IZR n + 5) * IZR M * ulp53) as Hpos by (apply Rmult_le_pos; [apply Rmult_le_pos; lra|lra]).
  set (V := us_values u) in *. set (k := us_index n q) in *.
  assert (us_values u = V) as EV by reflexivity. clearbody V.
  assert (Rabs (p' - p) <= ulp53 * p \/ Zfloor p = 0%Z) as Herr.
  { destruct (Z.eq_dec (Zfloor p) 0) as [Z0|N]; [by right|]. left. rewrite Ep.
    assert (1 <= p) by (apply Rle_trans with (IZR (Zfloor p)); [apply (IZR_le 1); lia|apply Zfloor_lb]).
    rewrite <- (Rabs_pos_eq p) at 3 by lra. apply rnd_err_rel. right. rewrite Rabs_pos_eq by lra. apply Rle_trans with 1; [|lra].
    change 1 with (bpow radix2 0). apply bpow_le. lia. }
  (* the value read: at position p' *)
  assert (Rabs (RF x - value_at V p') <= 3 * IZR M * ulp53 /\
    ((k <= 0)%Z -> RF x = IZR (nth_value V 1)) /\ ((n <= k)%Z -> RF x = IZR (nth_value V n)) /\
    ((1 <= k < n)%Z -> IZR (nth_value V k) <= RF x <= IZR (nth_value V (k + 1))) /\
    ((1 <= k < n)%Z -> p' = IZR k -> RF x = IZR (nth_value V k))) as (X1 & X2 & X3 & X4 & X5).
  { assert (0 <= 3 * IZR M * ulp53) as H3 by (apply Rmult_le_pos; lra).
    unfold value_at. fold n. rewrite <- I1.
    destruct C as [(C1 & m & Hm & ->)|[(C1 & m & Hm & ->)|(C1 & l & h & Hl & Hh & Hlh & Sl & Sh & ->)]].
    - rewrite (proj2 (Z.ltb_lt k 1)) by lia. assert (nth_value V 1 = m) as -> by (apply nth_lookup; [lia|exact Hm]).
      unfold Rminus. rewrite Rplus_opp_r, Rabs_R0. split; [done|]. split; [done|]. split; [intros; lia|]. split; intros; lia.
    - rewrite (proj2 (Z.ltb_ge k 1)) by lia. rewrite (proj2 (Z.leb_le n k)) by lia.
      assert (nth_value V n = m) as -> by (apply nth_lookup; [lia|exact Hm]).
      unfold Rminus. rewrite Rplus_opp_r, Rabs_R0. split; [done|]. split; [intros; lia|]. split; [done|]. split; intros; lia.
    - rewrite (proj2 (Z.ltb_ge k 1)) by lia. rewrite (proj2 (Z.leb_gt n k)) by lia.
      assert (nth_value V k = l) as El by (apply nth_lookup; [lia|exact Hl]).
      assert (nth_value V (k + 1) = h) as Eh by (apply nth_lookup; [lia|]; replace (k + 1 - 1)%Z with k by lia; exact Hh).
      rewrite El, Eh.
      assert (1 <= p') as H1 by (apply Rle_trans with (IZR k); [apply (IZR_le 1); lia|rewrite I1; apply Zfloor_lb]).
      assert (0 <= p' - IZR k <= 1) as Ht.
      { rewrite I1. pose proof (Zfloor_lb p'). pose proof (Zfloor_ub p'). lra. }
      split; [|split; [|split; [|split]]].
      + apply interp_error; [done|done|done|rewrite <- El; apply HMi; lia|rewrite <- Eh; apply HMi; lia|done|]. rewrite I1. by apply frac_not_tiny.
      + intros; lia.
      + intros; lia.
      + intros _. apply interp_bounds; done.
      + intros _ E0. rewrite E0. unfold interp. rewrite Rminus_diag_eq, Rmult_0_l, rnd_0, Rplus_0_r by done. apply rnd_fmt, fmt_IZR. lia. }
  clear C. set (j := Zfloor p) in *. clearbody k.
  assert (j < 2 ^ 53)%Z as Hj by lia.
  destruct (rnd_floor p (proj1 Hp) Hj) as [Hfl|Hfl]; rewrite <- Ep in Hfl; fold j in Hfl.
  - (* same integer part *)
    assert (k = j) as -> by lia. split; [|split; [|split; [|split]]].
    + assert (Rabs (value_at V p' - value_at V p) <= (2 * IZR n + 2) * IZR M * ulp53) as HL.
      { unfold value_at. fold n. rewrite Hfl. fold j. destruct (Z.ltb_spec j 1) as [J1|J1].
        - unfold Rminus. rewrite Rplus_opp_r, Rabs_R0. apply Rmult_le_pos; [apply Rmult_le_pos; lra|lra].
        - destruct (Z.leb_spec n j) as [J2|J2].
          + unfold Rminus. rewrite Rplus_opp_r, Rabs_R0. apply Rmult_le_pos; [apply Rmult_le_pos; lra|lra].
          + pose proof (HMi j ltac:(lia)) as A. pose proof (HMi (j + 1)%Z ltac:(lia)) as B. apply Rabs_le_inv in A, B.
            destruct Herr as [Herr|Herr]; [|lia].
            replace (_ - _) with ((p' - p) * (IZR (nth_value V (j + 1)) - IZR (nth_value V j))) by ring.
            rewrite Rabs_mult. apply Rle_trans with (ulp53 * IZR (n + 1) * (2 * IZR M)).
            * apply Rmult_le_compat; [apply Rabs_pos|apply Rabs_pos| |apply Rabs_le; lra]. eapply Rle_trans; [exact Herr|]. apply Rmult_le_compat_l; lra.
            * rewrite plus_IZR. right. ring. }
      replace (RF x - value_at V p) with ((RF x - value_at V p') + (value_at V p' - value_at V p)) by ring.
      eapply Rle_trans; [apply Rabs_triang|]. lra.
    + exact X2.
    + exact X3.
    + exact X4.
    + intros i Hi Ei. assert (j = i) as Hji by (unfold j; rewrite Ei; apply Zfloor_IZR). rewrite Hji in *.
      destruct (Z.eq_dec i n) as [->|N]; [apply X3; lia|]. apply X5; [lia|].
      rewrite Ep, Ei. apply rnd_fmt, fmt_IZR. lia.
  - (* rounded up to the next integer *)
    assert (k = j + 1)%Z as -> by (rewrite I1, Hfl; apply Zfloor_IZR).
    assert ((1 <= j < n)%Z -> RF x = IZR (nth_value V (j + 1))) as Hup.
    { intros Hr. destruct (Z.eq_dec (j + 1) n) as [E|N]; [rewrite E; apply X3; lia|]. apply X5; [lia|done]. }
    assert (forall i, p = IZR i -> False) as Hnint.
    { intros i Ei. assert (j = i) as Hji by (unfold j; rewrite Ei; apply Zfloor_IZR). rewrite Ep, Ei, rnd_fmt in Hfl.
      - apply eq_IZR in Hfl. lia.
      - apply fmt_IZR. lia. }
    assert (j = 0%Z -> RF x = IZR (nth_value V 1)) as Hz.
    { intros J0. rewrite J0 in *. destruct (Z.eq_dec n 1) as [->|N]; [apply X3; lia|]. apply (X5 ltac:(lia)). exact Hfl. }
    split; [|split; [|split; [|split]]].
    + unfold value_at. fold n j. destruct (Z.ltb_spec j 1) as [J1|J1].
      { rewrite Hz by lia. unfold Rminus. rewrite Rplus_opp_r, Rabs_R0. done. }
      destruct (Z.leb_spec n j) as [J2|J2].
      { rewrite X3 by lia. unfold Rminus. rewrite Rplus_opp_r, Rabs_R0. done. }
      rewrite Hup by lia. destruct Herr as [Herr|Herr]; [|lia].
      pose proof (HMi j ltac:(lia)) as A. pose proof (HMi (j + 1)%Z ltac:(lia)) as B. apply Rabs_le_inv in A, B.
      rewrite Hfl in Herr. rewrite plus_IZR in Herr.
      replace (_ - _) with ((IZR j + 1 - p) * (IZR (nth_value V (j + 1)) - IZR (nth_value V j))) by ring.
      rewrite Rabs_mult. apply Rle_trans with (ulp53 * IZR (n + 1) * (2 * IZR M)).
      * apply Rmult_le_compat; [apply Rabs_pos|apply Rabs_pos| |apply Rabs_le; lra]. eapply Rle_trans; [exact Herr|]. apply Rmult_le_compat_l; lra.
      * rewrite plus_IZR. assert (0 <= IZR M * ulp53) by (apply Rmult_le_pos; lra). nra.
    + intros J0. apply Hz. lia.
    + intros J0. apply X3. lia.
    + intros J0. rewrite Hup by lia. split; [|lra]. apply IZR_le.
      unfold nth_value. destruct (V !! Z.to_nat (j - 1)) as [a|] eqn:Ea; [|apply lookup_ge_None in Ea; lia].
      destruct (V !! Z.to_nat (j + 1 - 1)) as [b|] eqn:Eb; [|apply lookup_ge_None in Eb; lia]. simpl.
      eapply (ascending_lookup V); [exact HS| |exact Ea|exact Eb]. lia.
    + intros i _ Ei. destruct (Hnint i Ei).
Qed.

(** Moving the position by less than one step moves the value by at most 2M per step. *)
Lemma value_at_lip_lt V M p p' :
  (0 < length V)%nat -> small M V -> p <= p' -> p' - p < 1 ->
  Rabs (value_at V p' - value_at V p) <= 2 * IZR M * (p' - p).
Proof.
  intros Hn HM Hle Hlt. set (n := Z.of_nat (length V)).
  assert (forall i, (1 <= i <= n)%Z -> Rabs (IZR (nth_value V i)) <= IZR M) as HMi.
  { intros i Hi. unfold nth_value. destruct (V !! Z.to_nat (i - 1)) as [v|] eqn:Ev; [|apply lookup_ge_None in Ev; lia].
    simpl. unfold small in HM. rewrite Forall_lookup in HM. rewrite <- abs_IZR. apply IZR_le. by eapply HM. }
  assert (0 <= IZR M) as HM0 by (eapply Rle_trans; [apply Rabs_pos|apply (HMi 1%Z); lia]).
  assert (0 <= 2 * IZR M * (p' - p)) as Hpos by (apply Rmult_le_pos; lra).
  assert (forall x, Rabs (x - x) <= 2 * IZR M * (p' - p)) as Hsame by (intros x; unfold Rminus at 1; rewrite Rplus_opp_r, Rabs_R0; done).
  (* two positions on the same piece *)
  assert (forall i a b, (1 <= i < n)%Z -> a <= b ->
    Rabs ((IZR (nth_value V i) + (b - IZR i) * (IZR (nth_value V (i + 1)) - IZR (nth_value V i))) -
          (IZR (nth_value V i) + (a - IZR i) * (IZR (nth_value V (i + 1)) - IZR (nth_value V i)))) <= 2 * IZR M * (b - a)) as Hpiece.
  { intros i a b Hi Hab. replace (_ - _) with ((b - a) * (IZR (nth_value V (i + 1)) - IZR (nth_value V i))) by ring.
    pose proof (HMi i ltac:(lia)) as A. pose proof (HMi (i + 1)%Z ltac:(lia)) as B. apply Rabs_le_inv in A, B.
    rewrite Rabs_mult, (Rabs_pos_eq (b - a)), Rmult_comm by lra. apply Rmult_le_compat_r; [lra|]. apply Rabs_le. lra. }
  unfold value_at. fold n. set (k := Zfloor p). set (k' := Zfloor p').
  assert (k <= k')%Z as Hkk by (by apply Zfloor_le).
  pose proof (Zfloor_lb p) as L. pose proof (Zfloor_ub p) as U. pose proof (Zfloor_lb p') as L'. pose proof (Zfloor_ub p') as U'. fold k in L, U. fold k' in L', U'.
  assert (k' <= k + 1)%Z as Hk1. { assert (k' < k + 2)%Z; [|lia]. apply lt_IZR. rewrite plus_IZR. lra. }
  destruct (Z.eq_dec k' k) as [E|N].
  - rewrite E. destruct (Z.ltb_spec k 1); [apply Hsame|]. destruct (Z.leb_spec n k); [apply Hsame|]. apply Hpiece; [lia|done].
  - assert (k' = k + 1)%Z as E by lia. rewrite E in *. rewrite plus_IZR in L', U'. destruct (Z.ltb_spec k 1) as [K1|K1].
    + destruct (Z.ltb_spec (k + 1) 1) as [K2|K2]; [apply Hsame|]. assert (k = 0)%Z as K0 by lia. rewrite K0 in *. change (0 + 1)%Z with 1%Z in *.
      destruct (Z.leb_spec n 1) as [K3|K3]; [replace n with 1%Z by lia; apply Hsame|].
      pose proof (Hpiece 1%Z 1 p' ltac:(lia) ltac:(lra)) as HP.
      replace (IZR (nth_value V 1) + (1 - 1) * (IZR (nth_value V (1 + 1)) - IZR (nth_value V 1))) with (IZR (nth_value V 1)) in HP by ring.
      eapply Rle_trans; [exact HP|]. apply Rmult_le_compat_l; lra.
    + rewrite (proj2 (Z.ltb_ge (k + 1) 1)) by lia. destruct (Z.leb_spec n k) as [K2|K2].
      { rewrite (proj2 (Z.leb_le n (k + 1))) by lia. apply Hsame. }
      destruct (Z.leb_spec n (k + 1)) as [K3|K3].
      * replace n with (k + 1)%Z by lia.
        pose proof (Hpiece k p (IZR (k + 1)) ltac:(lia) ltac:(rewrite plus_IZR; lra)) as HP. rewrite plus_IZR in HP.
        replace (IZR (nth_value V k) + (IZR k + 1 - IZR k) * (IZR (nth_value V (k + 1)) - IZR (nth_value V k))) with (IZR (nth_value V (k + 1))) in HP by ring.
        eapply Rle_trans; [exact HP|]. apply Rmult_le_compat_l; lra.
      * set (A := IZR (nth_value V k)) in *. set (B := IZR (nth_value V (k + 1))) in *. set (D := IZR (nth_value V (k + 1 + 1))) in *.
        replace (_ - _) with (((B + (p' - IZR (k + 1)) * (D - B)) - (B + (IZR (k + 1) - IZR (k + 1)) * (D - B))) +
                              ((A + (IZR (k + 1) - IZR k) * (B - A)) - (A + (p - IZR k) * (B - A)))) by (rewrite plus_IZR; ring).
        eapply Rle_trans; [apply Rabs_triang|]. replace (2 * IZR M * (p' - p)) with (2 * IZR M * (p' - IZR (k + 1)) + 2 * IZR M * (IZR (k + 1) - p)) by ring.
        apply Rplus_le_compat; [apply (Hpiece (k + 1)%Z); [lia|rewrite plus_IZR; lra]|apply (Hpiece k); [lia|rewrite plus_IZR; lra]].
Qed.
Lemma value_at_lip V M p p' : (0 < length V)%nat -> small M V -> Rabs (p' - p) < 1 ->
  Rabs (value_at V p' - value_at V p) <= 2 * IZR M * Rabs (p' - p).
Proof.
  intros Hn HM Hlt. destruct (Rle_dec p p') as [H|H].
  - rewrite (Rabs_pos_eq (p' - p)) in * by lra. by apply value_at_lip_lt.
  - rewrite (Rabs_minus_sym p' p), (Rabs_pos_eq (p - p')) in * by lra. rewrite Rabs_minus_sym. apply value_at_lip_lt; [done|done|lra|done].
Qed.

(** The double nearest to a/b. *)
Lemma frac_const a b : (0 < a <= b)%Z -> (b <= 2 ^ 53)%Z ->
  let q := fdiv (f_of_int a) (f_of_int b) in
  valid_quantile q /\ RF q = rnd (IZR a / IZR b) /\ Rabs (RF q - IZR a / IZR b) <= ulp53 * (IZR a / IZR b).
Proof.
  intros Ha Hb. cbv zeta. assert (0 < IZR b) as B0 by (apply (IZR_lt 0); lia). assert (1 <= IZR a) as A1 by (apply (IZR_le 1); lia).
  assert (IZR a <= IZR b) as AB by (apply IZR_le; lia).
  assert (bpow radix2 (-53) <= IZR a / IZR b <= 1) as Hq.
  { unfold Rdiv. split.
    - rewrite <- (Rmult_1_l (bpow radix2 (-53))). apply Rmult_le_compat; [lra|apply bpow_ge_0|done|]. change (-53)%Z with (Z.opp 53). rewrite bpow_opp.
      apply Rinv_le; [done|]. rewrite <- IZR_pow2 by lia. apply IZR_le. lia.
    - apply Rmult_le_reg_r with (IZR b); [done|]. rewrite Rmult_assoc, Rinv_l by lra. lra. }
  pose proof (bpow_gt_0 radix2 (-53)) as Hu.
  destruct (fdiv_spec (f_of_int a) (f_of_int b)) as [D1 D2].
  - apply f_of_int_finite64. unfold in64, two63; lia.
  - rewrite f_of_int_exact by lia. lra.
  - rewrite !f_of_int_exact by lia. apply fits_bound. rewrite Rabs_pos_eq by lra. apply Rle_trans with 1; [lra|]. change 1 with (bpow radix2 0). apply bpow_le; lia.
  - rewrite !f_of_int_exact in D1 by lia. split; [split; [done|]|split; [done|]]; rewrite D1.
    + split; [apply rnd_ge_l; [apply fmt_0|lra]|apply rnd_le_r; [change 1 with (bpow radix2 0); apply fmt_bpow; lia|lra]].
    + rewrite <- (Rabs_pos_eq (IZR a / IZR b)) at 3 by lra. apply rnd_err_rel. right. rewrite Rabs_pos_eq by lra.
      apply Rle_trans with (bpow radix2 (-53)); [apply bpow_le; lia|lra].
Qed.

Lemma GetValue_const u M a b :
  (0 < a <= b)%Z -> (b <= 2 ^ 53)%Z -> ascending (us_values u) -> small (2 ^ 52) (us_values u) -> small M (us_values u) ->
  (0 < Z.of_nat (length (us_values u)) <= 2 ^ 52 - 1)%Z ->
  let n := Z.of_nat (length (us_values u)) in
  exists x, us_GetValue u (fdiv (f_of_int a) (f_of_int b)) = Ok (x, false) /\ ffinite x = true /\
    Rabs (RF x - value_at (us_values u) (IZR a / IZR b * IZR (n + 1))) <= (4 * IZR n + 7) * IZR M * ulp53.
Proof.
  intros Ha Hb HS Hsm HM Hn. cbv zeta. set (n := Z.of_nat (length (us_values u))) in *.
  destruct (frac_const a b Ha Hb) as (Vq & Rq & Eq). set (q := fdiv (f_of_int a) (f_of_int b)) in *.
  destruct (GetValue_ideal u q M Vq HS Hsm HM) as (x & E & F & Ex & _); [lia|]. exists x. split; [exact E|]. split; [exact F|]. fold n in Ex. clear E F.
  assert (0 <= IZR M) as HM0.
  { destruct (us_values u) as [|v l] eqn:El; [cbn in n; lia|]. apply Forall_cons in HM as [Hv _]. apply (IZR_le 0). lia. }
  assert (0 < IZR b) as B0 by (apply (IZR_lt 0); lia). assert (1 <= IZR a) as A1 by (apply (IZR_le 1); lia).
  assert (IZR a <= IZR b) as AB by (apply IZR_le; lia).
  assert (0 <= IZR a / IZR b <= 1) as Hq.
  { unfold Rdiv. split; [apply Rmult_le_pos; [lra|left; by apply Rinv_0_lt_compat]|]. apply Rmult_le_reg_r with (IZR b); [done|]. rewrite Rmult_assoc, Rinv_l by lra. lra. }
  assert (0 <= IZR (n + 1)) as Hn1 by (apply (IZR_le 0); lia). pose proof (bpow_gt_0 radix2 (-53)) as Hu.
  assert (Rabs (RF q * IZR (n + 1) - IZR a / IZR b * IZR (n + 1)) <= ulp53 * IZR (n + 1)) as Hp.
  { rewrite <- Rmult_minus_distr_r, Rabs_mult, (Rabs_pos_eq (IZR (n + 1))) by done. apply Rmult_le_compat_r; [done|].
    eapply Rle_trans; [exact Eq|]. rewrite <- (Rmult_1_r ulp53) at 2. apply Rmult_le_compat_l; lra. }
  assert (ulp53 * IZR (n + 1) < 1) as Hsmall.
  { apply Rle_lt_trans with (ulp53 * bpow radix2 52).
    - apply Rmult_le_compat_l; [lra|]. rewrite <- IZR_pow2 by lia. apply IZR_le. lia.
    - rewrite <- bpow_plus. change (-53 + 52)%Z with (-1)%Z. change (bpow radix2 (-1)) with (/ 2). lra. }
  pose proof (value_at_lip (us_values u) M (IZR a / IZR b * IZR (n + 1)) (RF q * IZR (n + 1)) ltac:(lia) HM ltac:(lra)) as HL.
  set (P := IZR a / IZR b * IZR (n + 1)) in *. set (P' := RF q * IZR (n + 1)) in *.
  replace (RF x - value_at (us_values u) P) with ((RF x - value_at (us_values u) P') + (value_at (us_values u) P' - value_at (us_values u) P)) by ring.
  eapply Rle_trans; [apply Rabs_triang|].
  assert (2 * IZR M * Rabs (P' - P) <= 2 * IZR M * (ulp53 * IZR (n + 1))) by (apply Rmult_le_compat_l; lra).
  rewrite plus_IZR in H. replace ((4 * IZR n + 7) * IZR M * ulp53) with ((2 * IZR n + 5) * IZR M * ulp53 + 2 * IZR M * (ulp53 * (IZR n + 1))) by ring. lra.
Qed.
