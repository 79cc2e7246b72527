From Verif.Go Require Import GoInt GoFloat.
From Verif.Model Require Import BucketCounter FloatUtil UniformSnapshot.
From Verif.Spec Require Import BucketSpec SnapshotSpec.
From Verif.Proofs Require Import FloatProofs.
From Coq Require Import Reals Lra.
From Flocq Require Import Core.Core IEEE754.BinarySingleNaN.
From Flocq Require Import Sterbenz.
Local Open Scope Z_scope.

(** ** Sorting *)
Lemma sort_perm l : Permutation (sort_int64 l) l.
Proof. apply merge_sort_Permutation. Qed.
Lemma sort_ascending l : ascending (sort_int64 l).
Proof. apply (StronglySorted_merge_sort Z.le). Qed.

Lemma ascending_lookup l i j x y : ascending l -> (i <= j)%nat -> l !! i = Some x -> l !! j = Some y -> x <= y.
Proof.
  unfold ascending. intros S. revert i j. induction S as [|a l S IH HF]; intros i j Hij Hi Hj; [done|].
  rewrite Forall_forall in HF. destruct i as [|i], j as [|j]; cbn in Hi, Hj; try lia.
  - simplify_eq. lia.
  - injection Hi as <-. apply HF. by eapply elem_of_list_lookup_2.
  - eapply (IH i j); [lia|done|done].
Qed.

Lemma us_at_lookup u i x : 0 <= i -> us_values u !! Z.to_nat i = Some x -> us_at u i = Ok x.
Proof. intros Hi H. unfold us_at. destruct (Z.ltb_spec i 0); [lia|]. by rewrite H. Qed.

Lemma us_at_some u i : 0 <= i < Z.of_nat (length (us_values u)) ->
  exists x, us_at u i = Ok x /\ us_values u !! Z.to_nat i = Some x.
Proof.
  intros H. destruct (lookup_lt_is_Some_2 (us_values u) (Z.to_nat i)) as [x Hx]; [lia|].
  exists x. split; [|done]. apply us_at_lookup; [lia|done].
Qed.

(** ** Positions *)
Section pos.
Local Open Scope R_scope.

Lemma valid_cases q : valid_quantile q <-> (flt q f0 || flt f1 q || fisnan q)%bool = false.
Proof.
  unfold valid_quantile. split.
  - intros [F [H0 H1]]. destruct (flt q f0) eqn:E1.
    { apply flt_spec in E1; [|done|done]. rewrite RF_f0 in E1. lra. }
    destruct (flt f1 q) eqn:E2.
    { apply flt_spec in E2; [|done|done]. rewrite RF_f1 in E2. lra. }
    by destruct q.
  - intros H. apply orb_false_iff in H as [H Hn]. apply orb_false_iff in H as [H0 H1].
    assert (ffinite q = true) as F.
    { destruct q as [s|s| |s m e]; try done. destruct s; [by cbn in H0|by cbn in H1]. }
    split; [done|]. split.
    + apply Rnot_lt_le. intros C. assert (flt q f0 = true) as E by (apply flt_spec; done). congruence.
    + apply Rnot_lt_le. intros C. rewrite <- RF_f1 in C.
      assert (flt f1 q = true) as E by (apply flt_spec; done). congruence.
Qed.

(** pos = quantile * float64(size+1) *)
Lemma pos_spec q n : valid_quantile q -> (0 <= n <= 2 ^ 52)%Z ->
  let pos := fmul q (f_of_int (n + 1)) in
  ffinite pos = true /\ RF pos = rnd (RF q * IZR (n + 1)) /\ 0 <= RF pos <= IZR (n + 1).
Proof.
  intros [F [H0 H1]] Hn. cbv zeta.
  assert (0 <= IZR (n + 1)) as Hp by (apply (IZR_le 0); lia).
  assert (fmt (IZR (n + 1))) as Hf by (apply fmt_IZR; lia).
  assert (0 <= RF q * IZR (n + 1) <= IZR (n + 1)) as Hb by nra.
  destruct (fmul_spec q (f_of_int (n + 1))) as [E1 E2].
  - done.
  - apply f_of_int_finite64. unfold in64, two63. lia.
  - rewrite f_of_int_exact by lia. eapply (fits_between 0 (IZR (n + 1))); [apply fmt_0|done|done| |].
    + rewrite Rabs_R0. apply bpow_gt_0.
    + rewrite <- (f_of_int_exact (n + 1)) by lia. apply RF_abs_lt.
  - rewrite f_of_int_exact in E1 by lia. split; [done|]. split; [done|]. rewrite E1. split.
    + apply rnd_ge_l; [apply fmt_0|lra].
    + apply rnd_le_r; [done|lra].
Qed.

Lemma floor_spec x : RF (ffloor x) = IZR (Zfloor (RF x)) /\ ffinite (ffloor x) = ffinite x.
Proof.
  unfold ffloor. destruct (Bnearbyint_correct 53 1024 prec53_lt mode_DN x) as (E1 & E2 & _). split.
  - unfold RF. rewrite E1. apply round_FIX0.
  - exact E2.
Qed.

(** the fractional part of a position is exact *)
Lemma frac_exact x : ffinite x = true -> 1 <= RF x <= bpow radix2 53 ->
  RF (fsub x (ffloor x)) = RF x - IZR (Zfloor (RF x)) /\ ffinite (fsub x (ffloor x)) = true.
Proof.
  intros F [H1 H2]. destruct (floor_spec x) as [E1 E2].
  pose proof (Zfloor_lb (RF x)) as L. pose proof (Zfloor_ub (RF x)) as U.
  assert (1 <= Zfloor (RF x))%Z as Z1 by (apply Zfloor_lub; done).
  assert (IZR 1 <= IZR (Zfloor (RF x))) as Z1' by by apply IZR_le.
  assert (fmt (RF x - IZR (Zfloor (RF x)))) as Hfmt.
  { apply sterbenz; try typeclasses eauto.
    - apply fmt_RF.
    - rewrite <- E1. apply fmt_RF.
    - split; lra. }
  destruct (fsub_spec x (ffloor x)) as [S1 S2].
  - done.
  - by rewrite E2.
  - rewrite E1. apply fits_bound. rewrite Rabs_pos_eq by lra. apply Rle_trans with 1; [lra|].
    change 1 with (bpow radix2 0). apply bpow_le. lia.
  - rewrite E1 in S1. rewrite S1. split; [by apply rnd_fmt|done].
Qed.

(** lower + frac * (upper - lower), rounded twice *)
Definition interp (lower upper : Z) (frac : R) : R := rnd (IZR lower + rnd (frac * IZR (upper - lower))).

Lemma interp_bounds l u t : (Z.abs l <= 2 ^ 52)%Z -> (Z.abs u <= 2 ^ 52)%Z -> (l <= u)%Z -> 0 <= t <= 1 ->
  0 <= rnd (t * IZR (u - l)) <= IZR (u - l) /\ IZR l <= interp l u t <= IZR u.
Proof.
  intros Hl Hu Hlu Ht. assert (0 <= IZR (u - l)) as Hd by (apply (IZR_le 0); lia).
  assert (0 <= rnd (t * IZR (u - l)) <= IZR (u - l)) as Hr.
  { split.
    - apply rnd_ge_l; [apply fmt_0|]. apply Rmult_le_pos; lra.
    - apply rnd_le_r; [apply fmt_IZR; lia|]. rewrite <- (Rmult_1_l (IZR (u - l))) at 2. apply Rmult_le_compat_r; lra. }
  split; [done|]. unfold interp. split.
  - apply rnd_ge_l; [apply fmt_IZR; lia|]. lra.
  - apply rnd_le_r; [apply fmt_IZR; lia|]. pose proof (minus_IZR u l). lra.
Qed.
Lemma interp_mono l u t t' : (l <= u)%Z -> t <= t' -> interp l u t <= interp l u t'.
Proof.
  intros Hlu Ht. unfold interp. apply rnd_le. apply Rplus_le_compat_l. apply rnd_le.
  assert (0 <= IZR (u - l)) as Hd by (apply (IZR_le 0); lia). apply Rmult_le_compat_r; lra.
Qed.

Lemma interp_float pos l u : ffinite pos = true -> 1 <= RF pos <= bpow radix2 53 ->
  (Z.abs l <= 2 ^ 52)%Z -> (Z.abs u <= 2 ^ 52)%Z -> (l <= u)%Z ->
  let x := fadd (f_of_int l) (fmul (fsub pos (ffloor pos)) (f_of_int (wrap64 (u - l)))) in
  RF x = interp l u (RF pos - IZR (Zfloor (RF pos))) /\ ffinite x = true.
Proof.
  intros F Hp Hl Hu Hlu. cbv zeta. rewrite wrap64_id by (unfold in64, two63; lia).
  destruct (frac_exact pos F Hp) as [E1 E2].
  set (t := RF pos - IZR (Zfloor (RF pos))) in *.
  assert (0 <= t <= 1) as Ht.
  { unfold t. pose proof (Zfloor_lb (RF pos)). pose proof (Zfloor_ub (RF pos)). lra. }
  destruct (interp_bounds l u t Hl Hu Hlu Ht) as [B1 B2].
  assert (Rabs (IZR (u - l)) < bpow radix2 1024) as A1.
  { rewrite <- (f_of_int_exact (u - l)) by lia. apply RF_abs_lt. }
  assert (Rabs (IZR l) < bpow radix2 1024) as A2 by (rewrite <- (f_of_int_exact l) by lia; apply RF_abs_lt).
  assert (Rabs (IZR u) < bpow radix2 1024) as A3 by (rewrite <- (f_of_int_exact u) by lia; apply RF_abs_lt).
  destruct (fmul_spec (fsub pos (ffloor pos)) (f_of_int (u - l))) as [M1 M2].
  - done.
  - apply f_of_int_finite64. unfold in64, two63; lia.
  - rewrite E1, f_of_int_exact by lia. eapply (fits_between 0 (IZR (u - l))); [apply fmt_0|apply fmt_IZR; lia| | |done].
    + assert (0 <= IZR (u - l)) by (apply (IZR_le 0); lia). split; [apply Rmult_le_pos; lra|].
      rewrite <- (Rmult_1_l (IZR (u - l))) at 2. apply Rmult_le_compat_r; lra.
    + rewrite Rabs_R0. apply bpow_gt_0.
  - rewrite E1, f_of_int_exact in M1 by lia.
    destruct (fadd_spec (f_of_int l) (fmul (fsub pos (ffloor pos)) (f_of_int (u - l)))) as [S1 S2].
    + apply f_of_int_finite64. unfold in64, two63; lia.
    + done.
    + rewrite M1, f_of_int_exact by lia. eapply (fits_between (IZR l) (IZR u)); [apply fmt_IZR; lia|apply fmt_IZR; lia| |done|done].
      pose proof (minus_IZR u l). lra.
    + rewrite M1, f_of_int_exact in S1 by lia. done.
Qed.
End pos.

(** ** GetValue *)
Definition us_index (n : Z) (q : f64) : Z := int_of_f (fmul q (f_of_int (n + 1))).

Lemma us_index_spec q n : valid_quantile q -> 0 <= n <= 2 ^ 52 ->
  us_index n q = Zfloor (RF (fmul q (f_of_int (n + 1)))) /\ 0 <= us_index n q <= n + 1.
Proof.
  intros Hq Hn. destruct (pos_spec q n Hq Hn) as (F & _ & P1 & P2). unfold us_index.
  rewrite int_of_f_spec, Ztrunc_floor by done. split; [done|]. split.
  - apply Zfloor_lub. done.
  - apply le_IZR. eapply Rle_trans; [apply Zfloor_lb|done].
Qed.

(** What GetValue returns, by cases *)
Lemma GetValue_cases u q :
  valid_quantile q -> ascending (us_values u) -> small (2 ^ 52) (us_values u) ->
  0 < Z.of_nat (length (us_values u)) <= 2 ^ 52 ->
  let n := Z.of_nat (length (us_values u)) in
  exists x, us_GetValue u q = Ok (x, false) /\ ffinite x = true /\
    ((us_index n q < 1 /\ exists m, us_values u !! 0%nat = Some m /\ RF x = IZR m) \/
     (n <= us_index n q /\ exists m, us_values u !! Z.to_nat (n - 1) = Some m /\ RF x = IZR m) \/
     (1 <= us_index n q < n /\ exists l h, us_values u !! Z.to_nat (us_index n q - 1) = Some l /\
        us_values u !! Z.to_nat (us_index n q) = Some h /\ l <= h /\ Z.abs l <= 2 ^ 52 /\ Z.abs h <= 2 ^ 52 /\
        RF x = interp l h (RF (fmul q (f_of_int (n + 1))) - IZR (us_index n q))%R)).
Proof.
  intros Hq HS Hsm Hn. cbv zeta. set (n := Z.of_nat (length (us_values u))) in *.
  destruct (pos_spec q n Hq) as (F & _ & P1 & P2); [lia|].
  destruct (us_index_spec q n Hq) as [I1 I2]; [lia|].
  unfold us_GetValue. rewrite (proj1 (valid_cases q) Hq). cbn [us_Size fst]. fold n.
  rewrite (proj2 (Z.eqb_neq n 0)) by lia. cbv zeta. fold (us_index n q).
  assert (forall i m, us_values u !! i = Some m -> Z.abs m <= 2 ^ 52) as Hsmall.
  { intros i m Hm. unfold small in Hsm. rewrite Forall_lookup in Hsm. by apply (Hsm i). }
  destruct (Z.ltb_spec (us_index n q) 1) as [C1|C1].
  { destruct (us_at_some u 0) as (m & Hm & Hm'); [lia|]. rewrite Hm. cbn [mbind res_bind].
    pose proof (Hsmall _ _ Hm') as Hs. eexists. split; [done|]. split.
    - apply f_of_int_finite64. unfold in64, two63. lia.
    - left. split; [done|]. exists m. split; [done|]. apply f_of_int_exact. lia. }
  destruct (Z.leb_spec n (us_index n q)) as [C2|C2].
  { destruct (us_at_some u (n - 1)) as (m & Hm & Hm'); [lia|]. rewrite Hm. cbn [mbind res_bind].
    pose proof (Hsmall _ _ Hm') as Hs. eexists. split; [done|]. split.
    - apply f_of_int_finite64. unfold in64, two63. lia.
    - right. left. split; [done|]. exists m. split; [done|]. apply f_of_int_exact. lia. }
  destruct (us_at_some u (us_index n q - 1)) as (l & Hl & Hl'); [lia|].
  destruct (us_at_some u (us_index n q)) as (h & Hh & Hh'); [lia|].
  rewrite Hl, Hh. cbn [mbind res_bind].
  pose proof (Hsmall _ _ Hl') as Sl. pose proof (Hsmall _ _ Hh') as Sh.
  assert (l <= h) as Hlh by (eapply (ascending_lookup (us_values u)); [done| |exact Hl'|exact Hh']; lia).
  destruct (interp_float (fmul q (f_of_int (n + 1))) l h) as [E1 E2]; [done| |done|done|done|].
  { split.
    - assert (IZR 1 <= IZR (us_index n q))%R by (apply IZR_le; lia). rewrite I1 in H.
      eapply Rle_trans; [exact H|apply Zfloor_lb].
    - eapply Rle_trans; [exact P2|]. rewrite <- IZR_pow2 by lia. apply IZR_le. lia. }
  eexists. split; [done|]. split; [done|]. right. right. split; [lia|]. exists l, h. rewrite E1, <- I1.
  split_and!; done.
Qed.

Lemma GetValue_bounds u q mn mx :
  valid_quantile q -> ascending (us_values u) -> small (2 ^ 52) (us_values u) ->
  Z.of_nat (length (us_values u)) <= 2 ^ 52 -> is_min mn (us_values u) -> is_max mx (us_values u) ->
  exists x, us_GetValue u q = Ok (x, false) /\ ffinite x = true /\ (IZR mn <= RF x <= IZR mx)%R.
Proof.
  intros Hq HS Hsm Hn [M1 M2] [X1 X2].
  assert (0 < Z.of_nat (length (us_values u))) by (destruct (us_values u); [by apply elem_of_nil in M1|cbn; lia]).
  assert (forall i m, us_values u !! i = Some m -> (IZR mn <= IZR m <= IZR mx)%R) as Hb.
  { intros i m Hi. apply elem_of_list_lookup_2 in Hi. split; apply IZR_le; auto. }
  destruct (GetValue_cases u q Hq HS Hsm) as (x & E & F & C); [lia|]. exists x. split; [done|]. split; [done|].
  destruct C as [(_ & m & Hm & ->)|[(_ & m & Hm & ->)|(Hi & l & h & Hl & Hh & Hlh & Sl & Sh & ->)]].
  - by eapply Hb.
  - by eapply Hb.
  - set (n := Z.of_nat (length (us_values u))) in *.
    destruct (us_index_spec q n Hq) as [I1 I2]; [lia|].
    destruct (interp_bounds l h (RF (fmul q (f_of_int (n + 1))) - IZR (us_index n q))%R Sl Sh Hlh) as [_ B].
    { rewrite I1. pose proof (Zfloor_lb (RF (fmul q (f_of_int (n + 1))))). pose proof (Zfloor_ub (RF (fmul q (f_of_int (n + 1))))). lra. }
    pose proof (Hb _ _ Hl). pose proof (Hb _ _ Hh). lra.
Qed.

Lemma GetValue_mono u q1 q2 :
  valid_quantile q1 -> valid_quantile q2 -> (RF q1 <= RF q2)%R ->
  ascending (us_values u) -> small (2 ^ 52) (us_values u) -> Z.of_nat (length (us_values u)) <= 2 ^ 52 ->
  exists x1 x2, us_GetValue u q1 = Ok (x1, false) /\ us_GetValue u q2 = Ok (x2, false) /\ (RF x1 <= RF x2)%R.
Proof.
  intros Hq1 Hq2 Hle HS Hsm Hn.
  destruct (decide (length (us_values u) = 0%nat)) as [E0|E0].
  { exists f0, f0. unfold us_GetValue. rewrite !(proj1 (valid_cases _)) by done. unfold us_Size. cbn [fst].
    rewrite E0. cbn. split_and!; try done. lra. }
  set (n := Z.of_nat (length (us_values u))) in *.
  destruct (GetValue_cases u q1 Hq1 HS Hsm) as (x1 & E1 & F1 & C1); [lia|].
  destruct (GetValue_cases u q2 Hq2 HS Hsm) as (x2 & E2 & F2 & C2); [lia|].
  fold n in C1, C2. exists x1, x2. split; [done|]. split; [done|].
  destruct (pos_spec q1 n Hq1) as (PF1 & PR1 & _); [lia|]. destruct (pos_spec q2 n Hq2) as (PF2 & PR2 & _); [lia|].
  destruct (us_index_spec q1 n Hq1) as [I1 I1']; [lia|]. destruct (us_index_spec q2 n Hq2) as [I2 I2']; [lia|].
  set (p1 := RF (fmul q1 (f_of_int (n + 1)))) in *. set (p2 := RF (fmul q2 (f_of_int (n + 1)))) in *.
  assert (p1 <= p2)%R as Hp.
  { rewrite PR1, PR2. apply rnd_le. assert (0 <= IZR (n + 1))%R by (apply (IZR_le 0); lia). nra. }
  assert (us_index n q1 <= us_index n q2) as Hi by (rewrite I1, I2; by apply Zfloor_le).
  assert (forall i j a b, us_values u !! i = Some a -> us_values u !! j = Some b -> (i <= j)%nat -> (IZR a <= IZR b)%R) as Ho.
  { intros i j a b Ha Hb Hij. apply IZR_le. by eapply (ascending_lookup _ i j). }
  assert (forall q, valid_quantile q -> 1 <= us_index n q < n -> forall l h, l <= h -> Z.abs l <= 2 ^ 52 -> Z.abs h <= 2 ^ 52 ->
    (IZR l <= interp l h (RF (fmul q (f_of_int (n + 1))) - IZR (us_index n q)) <= IZR h)%R) as Hint.
  { intros q Hq Hr l h H1 H2 H3. apply interp_bounds; [done|done|done|]. destruct (us_index_spec q n Hq) as [-> _]; [lia|].
    pose proof (Zfloor_lb (RF (fmul q (f_of_int (n + 1))))). pose proof (Zfloor_ub (RF (fmul q (f_of_int (n + 1))))). lra. }
  destruct C1 as [(A1 & m1 & V1 & R1)|[(A1 & m1 & V1 & R1)|(A1 & l1 & h1 & V1 & V1' & L1 & Sl1 & Sh1 & R1)]];
  destruct C2 as [(A2 & m2 & V2 & R2)|[(A2 & m2 & V2 & R2)|(A2 & l2 & h2 & V2 & V2' & L2 & Sl2 & Sh2 & R2)]];
  rewrite R1, R2; try lia.
  - eapply Ho; [done|done|lia].
  - eapply Ho; [done|done|lia].
  - eapply Rle_trans; [|apply Hint; done]. eapply Ho; [done|done|lia].
  - eapply Ho; [done|done|lia].
  - eapply Rle_trans; [apply Hint; done|]. eapply Ho; [done|done|lia].
  - destruct (decide (us_index n q1 = us_index n q2)) as [Ei|Ni].
    + fold p1 p2. rewrite Ei in V1, V1' |- *. rewrite V1 in V2. rewrite V1' in V2'. injection V2 as ->. injection V2' as ->.
      apply interp_mono; [done|lra].
    + eapply Rle_trans; [apply Hint; done|]. eapply Rle_trans; [|apply Hint; done]. eapply Ho; [done|done|lia].
Qed.

(** GetValue(0) and GetValue(1) *)
Lemma GetValue_0 u q m : RF q = 0%R -> ffinite q = true -> us_values u !! 0%nat = Some m ->
  Z.of_nat (length (us_values u)) <= 2 ^ 52 -> us_GetValue u q = Ok (f_of_int m, false).
Proof.
  intros Hq F Hm Hn. assert (valid_quantile q) as V by (split; [done|rewrite Hq; lra]).
  pose proof (lookup_lt_Some _ _ _ Hm).
  set (n := Z.of_nat (length (us_values u))) in *.
  destruct (us_index_spec q n V) as [I1 I2]; [lia|]. destruct (pos_spec q n V) as (_ & PR & _); [lia|].
  rewrite PR, Hq, Rmult_0_l, rnd_0 in I1. rewrite (Zfloor_IZR 0) in I1.
  unfold us_GetValue. rewrite (proj1 (valid_cases q) V). cbn [us_Size fst]. fold n.
  rewrite (proj2 (Z.eqb_neq n 0)) by lia. cbv zeta. fold (us_index n q). rewrite I1.
  cbn [Z.ltb Z.compare]. rewrite (us_at_lookup u 0 m); [done|lia|done].
Qed.
Lemma GetValue_1 u q m : RF q = 1%R -> ffinite q = true -> us_values u !! (length (us_values u) - 1)%nat = Some m ->
  Z.of_nat (length (us_values u)) <= 2 ^ 52 -> us_GetValue u q = Ok (f_of_int m, false).
Proof.
  intros Hq F Hm Hn. assert (valid_quantile q) as V by (split; [done|rewrite Hq; lra]).
  pose proof (lookup_lt_Some _ _ _ Hm).
  set (n := Z.of_nat (length (us_values u))) in *.
  destruct (us_index_spec q n V) as [I1 I2]; [lia|]. destruct (pos_spec q n V) as (_ & PR & _); [lia|].
  rewrite PR, Hq, Rmult_1_l, rnd_fmt, Zfloor_IZR in I1 by (apply fmt_IZR; lia).
  unfold us_GetValue. rewrite (proj1 (valid_cases q) V). cbn [us_Size fst]. fold n.
  rewrite (proj2 (Z.eqb_neq n 0)) by lia. cbv zeta. fold (us_index n q). rewrite I1.
  destruct (Z.ltb_spec (n + 1) 1); [lia|]. destruct (Z.leb_spec n (n + 1)); [|lia].
  rewrite (us_at_lookup u (n - 1) m); [done|lia|]. replace (Z.to_nat (n - 1)) with (length (us_values u) - 1)%nat by lia. done.
Qed.

(** ** Mean *)
Lemma wrap_sum_exact l acc : Z.abs acc + sum_abs l <= 2 ^ 53 ->
  fold_left (fun sum value => wrap64 (sum + value)) l acc = acc + sumZ l.
Proof.
  unfold sum_abs. revert acc. induction l as [|v l IH]; intros acc H; [cbn; lia|].
  cbn [fold_left fmap list_fmap sumZ foldr] in *. unfold sumZ in *. cbn [foldr] in *.
  assert (0 <= foldr Z.add 0 (Z.abs <$> l)).
  { clear. induction l as [|v l IH]; cbn; lia. }
  rewrite wrap64_id by (unfold in64, two63; lia). rewrite IH by lia. lia.
Qed.
Lemma sum_abs_ge l : Z.abs (sumZ l) <= sum_abs l.
Proof. unfold sum_abs, sumZ. induction l as [|v l IH]; cbn in *; lia. Qed.
Lemma sum_abs_elem l x : x ∈ l -> Z.abs x <= sum_abs l.
Proof.
  assert (forall l, 0 <= sum_abs l) as Hp by (clear; intros l; unfold sum_abs, sumZ; induction l; cbn in *; lia).
  unfold sum_abs, sumZ in *. induction l as [|v l IH]; intros H; [by apply elem_of_nil in H|].
  cbn. specialize (Hp l). apply elem_of_cons in H as [->|H]; [lia|]. specialize (IH H). lia.
Qed.
Lemma sum_bounds l mn mx : Forall (fun x => mn <= x <= mx) l ->
  Z.of_nat (length l) * mn <= sumZ l <= Z.of_nat (length l) * mx.
Proof. intros HF. induction HF as [|x l Hx HF IH]; cbn; unfold sumZ in *; lia. Qed.

Lemma GetMean_spec u : us_values u <> [] -> sum_abs (us_values u) <= 2 ^ 53 -> Z.of_nat (length (us_values u)) <= 2 ^ 53 ->
  exists x, us_GetMean u = (x, false) /\ ffinite x = true /\
    RF x = rnd (IZR (sumZ (us_values u)) / IZR (Z.of_nat (length (us_values u)))) /\
    (forall mn mx, is_min mn (us_values u) -> is_max mx (us_values u) -> (IZR mn <= RF x <= IZR mx)%R).
Proof.
  intros Hne Hs Hn. unfold us_GetMean, us_Size. cbn [fst]. set (n := Z.of_nat (length (us_values u))) in *.
  assert (0 < n) by (unfold n; destruct (us_values u); [done|cbn; lia]).
  rewrite (proj2 (Z.eqb_neq n 0)) by lia. rewrite wrap_sum_exact by lia. rewrite Z.add_0_l.
  pose proof (sum_abs_ge (us_values u)) as Ha.
  assert (0 < IZR n)%R as Hn0 by (apply (IZR_lt 0); lia).
  assert (exists v, v ∈ us_values u) as [v Hv] by (destruct (us_values u) as [|v ?]; [done|exists v; left]).
  assert (forall l : list Z, l <> [] -> exists mn mx, is_min mn l /\ is_max mx l) as Hmm.
  { clear. induction l as [|a l IH]; intros Hne; [done|]. destruct l as [|b l].
    - exists a, a. split; (split; [left|]); intros x Hx; apply elem_of_list_singleton in Hx as ->; lia.
    - destruct IH as (mn & mx & [A1 A2] & [B1 B2]); [done|]. exists (Z.min a mn), (Z.max a mx). split; split.
      + destruct (Z.min_spec a mn) as [[_ ->]|[_ ->]]; [left|by right].
      + intros x Hx. apply elem_of_cons in Hx as [->|Hx]; [lia|]. specialize (A2 _ Hx). lia.
      + destruct (Z.max_spec a mx) as [[_ ->]|[_ ->]]; [by right|left].
      + intros x Hx. apply elem_of_cons in Hx as [->|Hx]; [lia|]. specialize (B2 _ Hx). lia. }
  assert (forall mn mx, is_min mn (us_values u) -> is_max mx (us_values u) ->
     (IZR mn <= IZR (sumZ (us_values u)) / IZR n <= IZR mx)%R) as Hbd.
  { intros mn mx [M1 M2] [X1 X2]. pose proof (sum_bounds (us_values u) mn mx) as B. fold n in B.
    destruct B as [B1 B2]; [by apply Forall_forall; intros x Hx; split; auto|].
    apply IZR_le in B1, B2. rewrite mult_IZR in B1, B2. split.
    - apply Rmult_le_reg_r with (IZR n); [done|]. field_simplify; [|lra]. lra.
    - apply Rmult_le_reg_r with (IZR n); [done|]. field_simplify; [|lra]. lra. }
  assert (forall x, x ∈ us_values u -> Z.abs x <= 2 ^ 53) as Hel by (intros x Hx; pose proof (sum_abs_elem _ _ Hx); lia).
  destruct (Hmm _ Hne) as (mn0 & mx0 & Hmn & Hmx).
  destruct (fdiv_spec (f_of_int (sumZ (us_values u))) (f_of_int n)) as [D1 D2].
  - apply f_of_int_finite64. unfold in64, two63; lia.
  - rewrite f_of_int_exact by lia. lra.
  - rewrite !f_of_int_exact by lia. pose proof (Hel _ (proj1 Hmn)). pose proof (Hel _ (proj1 Hmx)).
    eapply (fits_between (IZR mn0) (IZR mx0)); [by apply fmt_IZR|by apply fmt_IZR|by apply Hbd| |].
    + rewrite <- (f_of_int_exact mn0) by done. apply RF_abs_lt.
    + rewrite <- (f_of_int_exact mx0) by done. apply RF_abs_lt.
  - rewrite !f_of_int_exact in D1 by lia. eexists. split; [done|]. split; [done|]. split; [done|].
    intros mn mx Hmn' Hmx'. rewrite D1. pose proof (Hbd _ _ Hmn' Hmx'). pose proof (Hel _ (proj1 Hmn')). pose proof (Hel _ (proj1 Hmx')).
    split; [apply rnd_ge_l; [by apply fmt_IZR|lra]|apply rnd_le_r; [by apply fmt_IZR|lra]].
Qed.

(** ** Standard deviation *)
Section stddev.
Local Open Scope R_scope.

Lemma fsqrt_spec x : ffinite x = true -> 0 <= RF x ->
  RF (fsqrt x) = rnd (sqrt (RF x)) /\ ffinite (fsqrt x) = true.
Proof.
  intros F H. destruct (Bsqrt_correct 53 1024 prec53 prec53_lt mode_NE x) as (E1 & E2 & _). split; [exact E1|].
  unfold ffinite, fsqrt. rewrite E2. destruct x as [s|s| |s m e Hb]; try done. destruct s; [|done].
  exfalso. cbn in H. apply (Rle_not_lt _ _ H). apply F2R_lt_0. cbn. lia.
Qed.

Lemma fmt_scaled k e : (Z.abs k <= 2 ^ 53)%Z -> (-1074 <= e)%Z -> fmt (IZR k * bpow radix2 e).
Proof.
  intros Hk He. destruct (Z.eq_dec (Z.abs k) (2 ^ 53)) as [E|E].
  - assert (IZR (2 ^ 53) * bpow radix2 e = bpow radix2 (53 + e)) as Hb.
    { rewrite IZR_pow2 by lia. by rewrite bpow_plus. }
    destruct (Z.abs_eq_or_opp k) as [Hz|Hz]; rewrite Hz in E.
    + rewrite E, Hb. apply fmt_bpow. lia.
    + replace k with (- 2 ^ 53)%Z by lia. rewrite opp_IZR, Ropp_mult_distr_l_reverse, Hb. apply fmt_opp, fmt_bpow. lia.
  - unfold fmt. rewrite fexp64_FLT. apply generic_format_FLT. exists (Float radix2 k e); [done|cbn; lia|cbn; lia].
Qed.

Lemma sq_term v mean : (Z.abs v <= 2 ^ 53)%Z -> ffinite mean = true -> Rabs (RF mean) <= bpow radix2 53 ->
  let diff := fsub (f_of_int v) mean in
  ffinite (fmul diff diff) = true /\ 0 <= RF (fmul diff diff) <= bpow radix2 108 /\
  (RF mean = IZR v -> RF (fmul diff diff) = 0).
Proof.
  intros Hv F Hm. cbv zeta.
  assert (Rabs (IZR v) <= bpow radix2 53) as Hv' by (apply abs_IZR_bound; lia).
  assert (Rabs (IZR v - RF mean) <= bpow radix2 54) as Hd.
  { eapply Rle_trans; [apply Rabs_triang|]. rewrite Rabs_Ropp. change (bpow radix2 54) with (bpow radix2 (1 + 53)).
    rewrite bpow_plus. change (bpow radix2 1) with 2. lra. }
  destruct (fsub_spec (f_of_int v) mean) as [D1 D2].
  - apply f_of_int_finite64. unfold in64, two63; lia.
  - done.
  - rewrite f_of_int_exact by done. apply fits_bound. eapply Rle_trans; [done|]. apply bpow_le. lia.
  - rewrite f_of_int_exact in D1 by done.
    assert (Rabs (RF (fsub (f_of_int v) mean)) <= bpow radix2 54) as Hd'.
    { rewrite D1. apply abs_round_le_generic; try typeclasses eauto; [apply fmt_bpow; lia|done]. }
    set (d := fsub (f_of_int v) mean) in *.
    assert (0 <= RF d * RF d <= bpow radix2 108) as Hsq.
    { split; [apply Rle_0_sqr|]. change (bpow radix2 108) with (bpow radix2 (54 + 54)). rewrite bpow_plus.
      rewrite <- (Rabs_pos_eq (RF d * RF d)) by apply Rle_0_sqr. rewrite Rabs_mult.
      apply Rmult_le_compat; try apply Rabs_pos; done. }
    destruct (fmul_spec d d) as [M1 M2]; [done|done| |].
    + apply fits_bound. rewrite Rabs_pos_eq by lra. eapply Rle_trans; [apply Hsq|]. apply bpow_le. lia.
    + split; [done|]. rewrite M1. split; [split|].
      * apply rnd_ge_l; [apply fmt_0|lra].
      * apply rnd_le_r; [apply fmt_bpow; lia|lra].
      * intros E. rewrite D1, E. replace (IZR v - IZR v) with 0 by lra. rewrite rnd_0, Rmult_0_l, rnd_0. done.
Qed.

Definition sq_sum (mean acc : f64) (l : list Z) : f64 :=
  fold_left (fun diffSum value => let diff := fsub (f_of_int value) mean in fadd diffSum (fmul diff diff)) l acc.

Lemma sq_sum_spec mean l acc (k : Z) :
  ffinite mean = true -> Rabs (RF mean) <= bpow radix2 53 -> small (2 ^ 53) l ->
  ffinite acc = true -> 0 <= RF acc <= IZR k * bpow radix2 108 -> (0 <= k)%Z -> (k + Z.of_nat (length l) <= 2 ^ 53)%Z ->
  ffinite (sq_sum mean acc l) = true /\
  0 <= RF (sq_sum mean acc l) <= IZR (k + Z.of_nat (length l)) * bpow radix2 108 /\
  RF acc <= RF (sq_sum mean acc l) /\
  (RF acc = 0 -> Forall (fun v => RF mean = IZR v) l -> RF (sq_sum mean acc l) = 0).
Proof.
  intros Fm Hm. revert acc k. induction l as [|v l IH]; intros acc k Hs Fa Ha Hk Hl.
  - unfold sq_sum. cbn [fold_left length Z.of_nat]. rewrite Z.add_0_r. split_and!; try done; try lra.
  - apply Forall_cons in Hs as [Hv Hs]. cbn [length] in Hl. cbn [sq_sum fold_left].
    destruct (sq_term v mean Hv Fm Hm) as (T1 & T2 & T3).
    set (t := fmul (fsub (f_of_int v) mean) (fsub (f_of_int v) mean)) in *.
    assert (0 < bpow radix2 108) as Hb by apply bpow_gt_0.
    assert (IZR (k + 1) * bpow radix2 108 = IZR k * bpow radix2 108 + bpow radix2 108) as Ek by (rewrite plus_IZR; ring).
    assert (fmt (IZR (k + 1) * bpow radix2 108)) as Hf by (apply fmt_scaled; lia).
    destruct (fadd_spec acc t) as [S1 S2]; [done|done| |].
    { apply fits_bound. rewrite Rabs_pos_eq by lra. apply Rle_trans with (bpow radix2 53 * bpow radix2 108).
      - apply Rle_trans with (IZR (k + 1) * bpow radix2 108); [lra|]. apply Rmult_le_compat_r; [lra|].
        rewrite <- IZR_pow2 by lia. apply IZR_le. lia.
      - rewrite <- bpow_plus. apply bpow_le. lia. }
    destruct (IH (fadd acc t) (k + 1)%Z) as (I1 & I2 & I3 & I4); [done|done| |lia|lia|].
    { rewrite S1. split; [apply rnd_ge_l; [apply fmt_0|lra]|apply rnd_le_r; [done|lra]]. }
    fold (sq_sum mean (fadd acc t) l). split_and!.
    + done.
    + apply I2.
    + replace (k + Z.of_nat (length (v :: l)))%Z with (k + 1 + Z.of_nat (length l))%Z by (cbn [length]; lia). apply I2.
    + eapply Rle_trans; [|exact I3]. rewrite S1. apply rnd_ge_l; [apply fmt_RF|lra].
    + intros A0 HF. apply Forall_cons in HF as [HF1 HF2]. apply I4; [|done]. rewrite S1, A0, (T3 HF1), Rplus_0_l. apply rnd_0.
Qed.

Lemma small_of_sum l : (sum_abs l <= 2 ^ 53)%Z -> small (2 ^ 53) l.
Proof. intros H. apply Forall_forall. intros x Hx. pose proof (sum_abs_elem _ _ Hx). lia. Qed.

Lemma GetStdDev_spec u : (sum_abs (us_values u) <= 2 ^ 53)%Z -> (Z.of_nat (length (us_values u)) <= 2 ^ 53)%Z ->
  exists x, us_GetStdDev u = (x, false) /\ ffinite x = true /\ 0 <= RF x /\
    ((length (us_values u) <= 1)%nat -> RF x = 0) /\
    (forall v, Forall (fun x => x = v) (us_values u) -> RF x = 0).
Proof.
  intros Hs Hn. unfold us_GetStdDev, us_Size. cbn [fst]. set (n := Z.of_nat (length (us_values u))) in *.
  destruct (Z.leb_spec n 1) as [C|C].
  { exists f0. rewrite RF_f0. split_and!; try done; try lra. }
  assert (us_values u <> []) as Hne by (intros E; unfold n in C; rewrite E in C; cbn in C; lia).
  destruct (GetMean_spec u Hne Hs Hn) as (mean & Em & Fm & Rm & Bm). rewrite Em. cbn [fst].
  fold (sq_sum mean f0 (us_values u)). fold n in Rm.
  assert (0 < IZR n) as Hn0 by (apply (IZR_lt 0); lia).
  pose proof (sum_abs_ge (us_values u)) as Hge.
  assert (Rabs (RF mean) <= bpow radix2 53) as Hm.
  { rewrite Rm. apply abs_round_le_generic; try typeclasses eauto; [apply fmt_bpow; lia|].
    unfold Rdiv. rewrite Rabs_mult, (Rabs_pos_eq (/ IZR n)) by (apply Rlt_le, Rinv_0_lt_compat; lra).
    apply Rle_trans with (Rabs (IZR (sumZ (us_values u))) * 1).
    - apply Rmult_le_compat_l; [apply Rabs_pos|]. rewrite <- Rinv_1. apply Rinv_le; [lra|]. apply (IZR_le 1). lia.
    - rewrite Rmult_1_r, <- IZR_pow2, <- abs_IZR by lia. apply IZR_le. lia. }
  destruct (sq_sum_spec mean (us_values u) f0 0) as (S1 & S2 & _ & S4);
    [done|done|by apply small_of_sum|done|rewrite RF_f0; lra|lia|lia|].
  fold n in S2. set (ds := sq_sum mean f0 (us_values u)) in *.
  assert (0 < IZR (n - 1)) as Hn1 by (apply (IZR_lt 0); lia).
  assert (0 <= RF ds / IZR (n - 1) <= bpow radix2 161) as Hv.
  { assert (0 <= / IZR (n - 1) <= 1) as Hi.
    { split; [apply Rlt_le, Rinv_0_lt_compat; lra|]. rewrite <- Rinv_1. apply Rinv_le; [lra|]. apply (IZR_le 1). lia. }
    unfold Rdiv. split; [apply Rmult_le_pos; lra|]. apply Rle_trans with (RF ds * 1).
    - apply Rmult_le_compat_l; lra.
    - rewrite Rmult_1_r. eapply Rle_trans; [apply S2|]. change 161%Z with (53 + 108)%Z. rewrite bpow_plus.
      apply Rmult_le_compat_r; [apply bpow_ge_0|]. rewrite <- IZR_pow2 by lia. apply IZR_le. lia. }
  destruct (fdiv_spec ds (f_of_int (n - 1))) as [D1 D2]; [done|rewrite f_of_int_exact by lia; lra| |].
  { rewrite f_of_int_exact by lia. apply fits_bound. rewrite Rabs_pos_eq by lra. eapply Rle_trans; [apply Hv|]. apply bpow_le; lia. }
  rewrite f_of_int_exact in D1 by lia.
  assert (0 <= RF (fdiv ds (f_of_int (n - 1)))) as Hd by (rewrite D1; apply rnd_ge_l; [apply fmt_0|lra]).
  destruct (fsqrt_spec _ D2 Hd) as [Q1 Q2].
  eexists. split; [done|]. split; [done|]. split_and!.
  - rewrite Q1. apply rnd_ge_l; [apply fmt_0|apply sqrt_pos].
  - intros; lia.
  - intros v HF.
    assert (RF mean = IZR v) as Emean.
    { assert (sumZ (us_values u) = n * v)%Z as Esum.
      { unfold n. clear -HF. induction HF as [|x l -> HF IH]; cbn; unfold sumZ in *; lia. }
      rewrite Rm, Esum, mult_IZR. replace (IZR n * IZR v / IZR n) with (IZR v) by (field; lra).
      apply rnd_fmt, fmt_IZR. destruct (us_values u) as [|w l] eqn:El; [done|]. apply Forall_cons in HF as [-> _].
      pose proof (sum_abs_elem (v :: l) v). specialize (H ltac:(left)). lia. }
    rewrite Q1, D1, S4; [unfold Rdiv; rewrite Rmult_0_l, rnd_0, sqrt_0; apply rnd_0|done|].
    eapply Forall_impl; [done|]. intros x ->. done.
Qed.
End stddev.

(** ** Min and max *)
Lemma GetMin_spec u : ascending (us_values u) -> us_values u <> [] ->
  exists m, us_GetMin u = Ok (m, false) /\ is_min m (us_values u) /\ us_values u !! 0%nat = Some m.
Proof.
  intros HS Hne. destruct (us_values u) as [|m l] eqn:E; [done|]. exists m. unfold us_GetMin, us_Size. cbn [fst].
  rewrite (proj2 (Z.eqb_neq _ 0)) by (rewrite E; cbn; lia).
  rewrite (us_at_lookup u 0 m); [|lia|by rewrite E]. split; [done|]. split; [|done]. split; [left|].
  intros x Hx. apply elem_of_list_lookup in Hx as [i Hi]. eapply (ascending_lookup _ 0 i); [done|lia|done|done].
Qed.
Lemma GetMax_spec u : ascending (us_values u) -> us_values u <> [] ->
  exists m, us_GetMax u = Ok (m, false) /\ is_max m (us_values u) /\ us_values u !! (length (us_values u) - 1)%nat = Some m.
Proof.
  intros HS Hne. destruct (lookup_lt_is_Some_2 (us_values u) (length (us_values u) - 1)) as [m Hm].
  { destruct (us_values u); [done|cbn; lia]. }
  exists m. unfold us_GetMax, us_Size. cbn [fst]. pose proof (lookup_lt_Some _ _ _ Hm).
  rewrite (proj2 (Z.eqb_neq _ 0)) by lia.
  rewrite (us_at_lookup u _ m); [|lia|by replace (Z.to_nat (Z.of_nat (length (us_values u)) - 1)) with (length (us_values u) - 1)%nat by lia].
  split; [done|]. split; [|done]. split; [by eapply elem_of_list_lookup_2|].
  intros x Hx. apply elem_of_list_lookup in Hx as [i Hi]. pose proof (lookup_lt_Some _ _ _ Hi).
  eapply (ascending_lookup _ i (length (us_values u) - 1)); [done|lia|done|done].
Qed.
