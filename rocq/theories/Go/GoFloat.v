(** Go's float64: IEEE 754 binary64, round to nearest even, from Flocq.
    All NaNs are identified (no code here looks at a NaN's payload).  Each
    operation is rounded separately: Go fuses x*y+z only on architectures other
    than amd64. *)
From Verif.Go Require Import GoInt.
From Coq Require Import Reals Lra.
From Flocq Require Import Core BinarySingleNaN Relative.
Local Open Scope Z_scope.

Global Instance prec53 : Prec_gt_0 53 := eq_refl.
Global Instance prec53_lt : Prec_lt_emax 53 1024 := eq_refl.

Definition f64 := binary_float 53 1024.

Definition fadd (x y : f64) : f64 := Bplus mode_NE x y.
Definition fsub (x y : f64) : f64 := Bminus mode_NE x y.
Definition fmul (x y : f64) : f64 := Bmult mode_NE x y.
Definition fdiv (x y : f64) : f64 := Bdiv mode_NE x y.
Definition fsqrt (x : f64) : f64 := Bsqrt mode_NE x. (* math.Sqrt *)
Definition ffloor (x : f64) : f64 := Bnearbyint mode_DN x. (* math.Floor *)
Definition flt (x y : f64) : bool := Bltb x y.
Definition fle (x y : f64) : bool := Bleb x y.
Definition feq (x y : f64) : bool := Beqb x y.
Definition fisnan (x : f64) : bool := is_nan x. (* math.IsNaN *)
Definition ffinite (x : f64) : bool := is_finite x.

(** float64(z) for an integer z. *)
Definition f_of_int (z : Z) : f64 := binary_normalize 53 1024 prec53 prec53_lt mode_NE z 0 false.
(** int64(x): truncation; only used for values in the int64 range. *)
Definition int_of_f (x : f64) : Z := Btrunc x.

Definition f0 : f64 := B754_zero false.
Definition f1 : f64 := f_of_int 1.

(** The real number a finite float denotes. *)
Definition RF (x : f64) : R := B2R x.

Notation fexp64 := (SpecFloat.fexp 53 1024).
(** Rounding a real number to the nearest float (ties to even, no overflow). *)
Definition rnd (x : R) : R := round radix2 fexp64 ZnearestE x.
(** Representable as a float (exponent unbounded above). *)
Definition fmt (x : R) : Prop := generic_format radix2 fexp64 x.

Section facts.
Local Open Scope R_scope.

Global Instance vexp64 : Valid_exp fexp64.
Proof. exact (fexp_correct 53 1024 prec53). Qed.
Global Instance mexp64 : Monotone_exp fexp64.
Proof. exact (fexp_monotone 53 1024). Qed.

Lemma fmt_RF x : fmt (RF x).
Proof. apply generic_format_B2R. Qed.
Lemma fmt_0 : fmt 0.
Proof. apply generic_format_0. Qed.
Lemma rnd_fmt x : fmt x -> rnd x = x.
Proof. intros. apply round_generic; [typeclasses eauto|done]. Qed.
Lemma fmt_rnd x : fmt (rnd x).
Proof. apply generic_format_round; typeclasses eauto. Qed.
Lemma rnd_le x y : x <= y -> rnd x <= rnd y.
Proof. apply round_le; typeclasses eauto. Qed.
Lemma rnd_0 : rnd 0 = 0.
Proof. apply rnd_fmt, fmt_0. Qed.
Lemma rnd_le_r x y : fmt y -> x <= y -> rnd x <= y.
Proof. intros H Hx. rewrite <- (rnd_fmt y H). by apply rnd_le. Qed.
Lemma rnd_ge_l x y : fmt x -> x <= y -> x <= rnd y.
Proof. intros H Hx. rewrite <- (rnd_fmt x H). by apply rnd_le. Qed.
Lemma rnd_opp x : rnd (- x) = - rnd x.
Proof. apply round_NE_opp. Qed.
Lemma fmt_opp x : fmt x -> fmt (- x).
Proof. apply generic_format_opp. Qed.

Lemma fexp64_FLT : fexp64 = FLT_exp (-1074) 53.
Proof. reflexivity. Qed.

Lemma fmt_bpow e : (-1074 <= e)%Z -> fmt (bpow radix2 e).
Proof. intros. apply generic_format_bpow. rewrite fexp64_FLT. unfold FLT_exp. lia. Qed.

(** Integers up to 2^53 are floats. *)
Lemma fmt_IZR z : (Z.abs z <= 2 ^ 53)%Z -> fmt (IZR z).
Proof.
  intros H. destruct (Z.eq_dec (Z.abs z) (2 ^ 53)) as [E|E].
  - assert (Hb : IZR (2 ^ 53) = bpow radix2 53) by (rewrite (IZR_Zpower radix2); [reflexivity|lia]).
    destruct (Z.abs_eq_or_opp z) as [Hz|Hz]; rewrite Hz in E.
    + rewrite E, Hb. apply fmt_bpow. lia.
    + replace z with (- 2 ^ 53)%Z by lia. rewrite opp_IZR, Hb. apply fmt_opp, fmt_bpow. lia.
  - unfold fmt. rewrite fexp64_FLT. apply generic_format_FLT. exists (Float radix2 z 0).
    + unfold F2R. cbn. lra.
    + cbn. lia.
    + cbn. lia.
Qed.

Definition fits (x : R) : Prop := Rabs (rnd x) < bpow radix2 1024.

Lemma fits_bound x : Rabs x <= bpow radix2 1023 -> fits x.
Proof.
  intros H. unfold fits. apply Rle_lt_trans with (bpow radix2 1023); [|apply bpow_lt; lia].
  apply abs_round_le_generic; try typeclasses eauto; [|done].
  apply generic_format_bpow. rewrite fexp64_FLT. unfold FLT_exp. lia.
Qed.

Lemma fits_between lo hi x : fmt lo -> fmt hi -> lo <= x <= hi ->
  Rabs lo < bpow radix2 1024 -> Rabs hi < bpow radix2 1024 -> fits x.
Proof.
  intros Hlo Hhi [H1 H2] A1 A2. unfold fits. apply Rabs_lt.
  apply Rabs_lt_inv in A1, A2.
  pose proof (rnd_ge_l lo x Hlo H1). pose proof (rnd_le_r x hi Hhi H2). lra.
Qed.

Lemma RF_abs_lt x : Rabs (RF x) < bpow radix2 1024.
Proof. apply abs_B2R_lt_emax. Qed.

Lemma fadd_spec x y : ffinite x = true -> ffinite y = true -> fits (RF x + RF y) ->
  RF (fadd x y) = rnd (RF x + RF y) /\ ffinite (fadd x y) = true.
Proof.
  intros Hx Hy Hf. pose proof (Bplus_correct 53 1024 _ _ mode_NE x y Hx Hy) as C.
  rewrite Rlt_bool_true in C by exact Hf. tauto.
Qed.
Lemma fsub_spec x y : ffinite x = true -> ffinite y = true -> fits (RF x - RF y) ->
  RF (fsub x y) = rnd (RF x - RF y) /\ ffinite (fsub x y) = true.
Proof.
  intros Hx Hy Hf. pose proof (Bminus_correct 53 1024 _ _ mode_NE x y Hx Hy) as C.
  rewrite Rlt_bool_true in C by exact Hf. tauto.
Qed.
Lemma fmul_spec x y : ffinite x = true -> ffinite y = true -> fits (RF x * RF y) ->
  RF (fmul x y) = rnd (RF x * RF y) /\ ffinite (fmul x y) = true.
Proof.
  intros Hx Hy Hf. pose proof (Bmult_correct 53 1024 _ _ mode_NE x y) as C.
  rewrite Rlt_bool_true in C by exact Hf. destruct C as (C1 & C2 & _). split; [exact C1|].
  unfold ffinite in *. unfold fmul. rewrite C2, Hx, Hy. done.
Qed.
Lemma fdiv_spec x y : ffinite x = true -> RF y <> 0 -> fits (RF x / RF y) ->
  RF (fdiv x y) = rnd (RF x / RF y) /\ ffinite (fdiv x y) = true.
Proof.
  intros Hx Hy Hf. pose proof (Bdiv_correct 53 1024 _ _ mode_NE x y Hy) as C.
  rewrite Rlt_bool_true in C by exact Hf. destruct C as (C1 & C2 & _). split; [exact C1|].
  unfold ffinite in *. unfold fdiv. by rewrite C2.
Qed.

Lemma fadd_sign x y : ffinite x = true -> ffinite y = true -> fits (RF x + RF y) ->
  Bsign (fadd x y) = match Rcompare (RF x + RF y) 0 with Eq => andb (Bsign x) (Bsign y) | Lt => true | Gt => false end.
Proof.
  intros Hx Hy Hf. pose proof (Bplus_correct 53 1024 _ _ mode_NE x y Hx Hy) as C.
  rewrite Rlt_bool_true in C by exact Hf. tauto.
Qed.
Lemma fsub_sign x y : ffinite x = true -> ffinite y = true -> fits (RF x - RF y) ->
  Bsign (fsub x y) = match Rcompare (RF x - RF y) 0 with Eq => andb (Bsign x) (negb (Bsign y)) | Lt => true | Gt => false end.
Proof.
  intros Hx Hy Hf. pose proof (Bminus_correct 53 1024 _ _ mode_NE x y Hx Hy) as C.
  rewrite Rlt_bool_true in C by exact Hf. tauto.
Qed.

Lemma f_of_int_spec z : Rabs (IZR z) <= bpow radix2 1023 ->
  RF (f_of_int z) = rnd (IZR z) /\ ffinite (f_of_int z) = true.
Proof.
  intros H. pose proof (binary_normalize_correct 53 1024 prec53 prec53_lt mode_NE z 0 false) as C. cbv zeta in C.
  assert (E : F2R (Float radix2 z 0) = IZR z) by (unfold F2R; cbn; lra).
  rewrite E in C. rewrite Rlt_bool_true in C by (by apply fits_bound). unfold RF, ffinite, f_of_int. tauto.
Qed.

Lemma IZR_pow2 n : (0 <= n)%Z -> IZR (2 ^ n) = bpow radix2 n.
Proof. intros H. rewrite (IZR_Zpower radix2); [reflexivity|done]. Qed.

Lemma abs_IZR_bound z n : (0 <= n)%Z -> (Z.abs z <= 2 ^ n)%Z -> Rabs (IZR z) <= bpow radix2 n.
Proof. intros Hn H. rewrite <- abs_IZR, <- IZR_pow2 by done. by apply IZR_le. Qed.

Lemma f_of_int_finite z : (Z.abs z <= 2 ^ 1023)%Z -> ffinite (f_of_int z) = true.
Proof. intros H. apply f_of_int_spec. by apply abs_IZR_bound. Qed.

Lemma f_of_int_RF z : (Z.abs z <= 2 ^ 1023)%Z -> RF (f_of_int z) = rnd (IZR z).
Proof. intros H. apply f_of_int_spec. by apply abs_IZR_bound. Qed.

Lemma f_of_int_exact z : (Z.abs z <= 2 ^ 53)%Z -> RF (f_of_int z) = IZR z.
Proof.
  intros H. rewrite f_of_int_RF by (assert (2 ^ 53 <= 2 ^ 1023)%Z by (apply Z.pow_le_mono_r; lia); lia).
  by apply rnd_fmt, fmt_IZR.
Qed.

Lemma f_of_int_finite64 z : in64 z -> ffinite (f_of_int z) = true.
Proof. intros H. apply f_of_int_finite. assert (2 ^ 63 <= 2 ^ 1023)%Z by (apply Z.pow_le_mono_r; lia). unfold in64, two63 in H. lia. Qed.

Lemma f_of_int_mono a b : in64 a -> in64 b -> (a <= b)%Z -> RF (f_of_int a) <= RF (f_of_int b).
Proof.
  intros Ha Hb H. assert (2 ^ 63 <= 2 ^ 1023)%Z by (apply Z.pow_le_mono_r; lia). unfold in64, two63 in *.
  rewrite !f_of_int_RF by lia. apply rnd_le. by apply IZR_le.
Qed.

Lemma f_of_int_bound64 z : in64 z -> Rabs (RF (f_of_int z)) <= bpow radix2 63.
Proof.
  intros H. assert (2 ^ 63 <= 2 ^ 1023)%Z by (apply Z.pow_le_mono_r; lia). unfold in64, two63 in *.
  rewrite f_of_int_RF by lia. apply abs_round_le_generic; try typeclasses eauto; [apply fmt_bpow; lia|].
  apply abs_IZR_bound; lia.
Qed.

Lemma RF_f0 : RF f0 = 0.
Proof. reflexivity. Qed.
Lemma RF_f1 : RF f1 = 1.
Proof. unfold f1. rewrite f_of_int_exact by lia. reflexivity. Qed.
Lemma ffinite_f1 : ffinite f1 = true.
Proof. reflexivity. Qed.

Lemma flt_spec x y : ffinite x = true -> ffinite y = true -> (flt x y = true <-> RF x < RF y).
Proof.
  intros Hx Hy. unfold flt. rewrite Bltb_correct by done. unfold RF. split.
  - case Rlt_bool_spec; done.
  - intros H. by apply Rlt_bool_true.
Qed.
Lemma fle_spec x y : ffinite x = true -> ffinite y = true -> (fle x y = true <-> RF x <= RF y).
Proof.
  intros Hx Hy. unfold fle. rewrite Bleb_correct by done. unfold RF. split.
  - case Rle_bool_spec; done.
  - intros H. by apply Rle_bool_true.
Qed.
Lemma feq_spec x y : ffinite x = true -> ffinite y = true -> (feq x y = true <-> RF x = RF y).
Proof.
  intros Hx Hy. unfold feq. rewrite Beqb_correct by done. unfold RF. split.
  - case Req_bool_spec; done.
  - intros H. by apply Req_bool_true.
Qed.

(** Finite floats that denote the same real number and have the same sign are equal. *)
Lemma f64_inj x y : ffinite x = true -> ffinite y = true -> RF x = RF y -> Bsign x = Bsign y -> x = y.
Proof. intros. by apply B2R_Bsign_inj. Qed.

(** The nearest float is at most as far away as any other float. *)
Lemma rnd_nearest x y : fmt y -> Rabs (rnd x - x) <= Rabs (y - x).
Proof.
  intros Hy. destruct (round_N_pt radix2 fexp64 (fun n => negb (Z.even n)) x) as [_ H].
  by apply H.
Qed.

(** Error of one rounding: relative 2^-53 plus 2^-1075 for underflow. *)
Lemma rnd_error x : exists e n, Rabs e <= bpow radix2 (-53) /\ Rabs n <= bpow radix2 (-1075) /\
  rnd x = x * (1 + e) + n.
Proof.
  destruct (error_N_FLT radix2 (-1074) 53 eq_refl (fun n => negb (Z.even n)) x) as (e & n & H1 & H2 & _ & H3).
  exists e, n. split_and!; [| |].
  - refine (Rle_trans _ _ _ H1 _). change (/2) with (bpow radix2 (-1)). rewrite <- bpow_plus. apply Req_le. f_equal.
  - refine (Rle_trans _ _ _ H2 _). change (/2) with (bpow radix2 (-1)). rewrite <- bpow_plus. apply Req_le. f_equal.
  - exact H3.
Qed.
End facts.
