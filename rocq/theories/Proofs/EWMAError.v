(** Distance between the float rate and the real-number average. *)
From Verif.Go Require Import GoInt GoFloat.
From Verif.Model Require Import EWMA.
From Verif.Spec Require Import EWMASpec.
From Verif.Proofs Require Import EWMAProofs.
From Coq Require Import Reals Lra.
From Flocq Require Import Core BinarySingleNaN.
Local Open Scope R_scope.

Lemma ema_closed a x ys : ema a (x :: ys) = (1 - a) ^ length ys * x + ema_sum a ys.
Proof.
  cbn [ema]. revert x. induction ys as [|y ys IH]; intros x; cbn; [lra|].
  rewrite IH. unfold ema_step. ring.
Qed.

Lemma ema_snoc a xs x : xs <> [] -> ema a (xs ++ [x]) = ema_step a (ema a xs) x.
Proof. destruct xs as [|y ys]; [done|]. intros _. cbn. by rewrite fold_left_app. Qed.

(** The error one tick adds, for rates of magnitude at most [M]. *)
Definition tick_eps (M : R) : R := 4 * bpow radix2 (-53) * M + bpow radix2 (-1073).

Lemma tick_error a r x M : 0 <= a <= 1 / 2 -> fmt r -> fmt x -> Rabs r <= M -> Rabs x <= M ->
  Rabs (rnd (r + rnd (a * rnd (x - r))) - ema_step a r x) <= tick_eps M.
Proof.
  intros Ha Fr Fx Hr Hx. unfold ema_step, tick_eps.
  set (u := bpow radix2 (-53)). set (n := bpow radix2 (-1075)).
  assert (Hu : 0 < u <= / 1024).
  { split; [apply bpow_gt_0|]. unfold u. change (/1024) with (bpow radix2 (-10)). apply bpow_le. lia. }
  assert (Hn : 0 < n) by apply bpow_gt_0.
  assert (En : bpow radix2 (-1073) = 4 * n).
  { unfold n. change (-1073)%Z with (2 + -1075)%Z. rewrite bpow_plus. reflexivity. }
  rewrite En.
  assert (HM : 0 <= M) by (pose proof (Rabs_pos r); lra).
  set (t := x - r) in *.
  assert (Ht : Rabs t <= 2 * M).
  { unfold t. apply Rabs_le. apply Rabs_le_inv in Hr, Hx. lra. }
  destruct (rnd_error t) as (e1 & n1 & He1 & Hn1 & E1).
  set (d := rnd t) in *.
  destruct (rnd_error (a * d)) as (e2 & n2 & He2 & Hn2 & E2).
  pose proof (step_between a r x Ha Fr Fx) as S. cbv zeta in S. fold t in S. fold d in S.
  set (p := rnd (a * d)) in *.
  assert (Hs : Rabs (r + p) <= M).
  { apply Rabs_le_inv in Hr, Hx. apply Rabs_le. destruct S as [S1 S2].
    destruct (Rle_or_lt r x) as [H|H]; [specialize (S1 H); lra|]. specialize (S2 (Rlt_le _ _ H)). lra. }
  destruct (rnd_error (r + p)) as (e3 & n3 & He3 & Hn3 & E3). rewrite E3.
  fold u in He1, He2, He3. fold n in Hn1, Hn2, Hn3.
  assert (P1 : Rabs (t * e1) <= 2 * M * u).
  { rewrite Rabs_mult. apply Rmult_le_compat; try apply Rabs_pos; done. }
  assert (P3 : Rabs ((r + p) * e3) <= M * u).
  { rewrite Rabs_mult. apply Rmult_le_compat; try apply Rabs_pos; done. }
  assert (Hd : Rabs (d - t) <= 2 * M * u + n).
  { replace (d - t) with (t * e1 + n1) by lra. eapply Rle_trans; [apply Rabs_triang|]. lra. }
  assert (Hdb : Rabs d <= 2 * M + 2 * M * u + n).
  { replace d with (t + (d - t)) by lra. eapply Rle_trans; [apply Rabs_triang|]. lra. }
  assert (P2 : Rabs (a * d * e2) <= (M + M * u + n / 2) * u).
  { rewrite !Rabs_mult, (Rabs_pos_eq a) by lra.
    apply Rmult_le_compat; [|apply Rabs_pos| |done].
    - apply Rmult_le_pos; [lra|apply Rabs_pos].
    - apply Rle_trans with (1 / 2 * Rabs d); [apply Rmult_le_compat_r; [apply Rabs_pos|lra]|lra]. }
  assert (P4 : Rabs (a * (d - t)) <= M * u + n / 2).
  { rewrite Rabs_mult, (Rabs_pos_eq a) by lra.
    apply Rle_trans with (1 / 2 * Rabs (d - t)); [apply Rmult_le_compat_r; [apply Rabs_pos|lra]|lra]. }
  replace ((r + p) * (1 + e3) + n3 - (r + a * t)) with ((r + p) * e3 + (n3 + (a * (d - t) + (a * d * e2 + n2)))) by (rewrite E2; ring).
  eapply Rle_trans; [apply Rabs_triang|].
  assert (Q1 : Rabs (n3 + (a * (d - t) + (a * d * e2 + n2))) <= Rabs n3 + (Rabs (a * (d - t)) + (Rabs (a * d * e2) + Rabs n2))).
  { eapply Rle_trans; [apply Rabs_triang|]. apply Rplus_le_compat_l.
    eapply Rle_trans; [apply Rabs_triang|]. apply Rplus_le_compat_l. apply Rabs_triang. }
  assert (Q2 : M * u * u <= M * u * / 1024).
  { apply Rmult_le_compat_l; [|lra]. apply Rmult_le_pos; lra. }
  assert (Q3 : n / 2 * u <= n / 2 * / 1024) by (apply Rmult_le_compat_l; lra).
  assert (0 <= M * u) by (apply Rmult_le_pos; lra).
  replace ((M + M * u + n / 2) * u) with (M * u + M * u * u + n / 2 * u) in P2 by ring.
  replace (4 * u * M) with (4 * (M * u)) by ring. lra.
Qed.

Lemma ema_diff a r r' x : 0 <= a <= 1 -> Rabs (ema_step a r x - ema_step a r' x) <= Rabs (r - r').
Proof.
  intros Ha. unfold ema_step. replace (r + a * (x - r) - (r' + a * (x - r'))) with ((1 - a) * (r - r')) by ring.
  rewrite Rabs_mult, (Rabs_pos_eq (1 - a)) by lra.
  apply Rle_trans with (1 * Rabs (r - r')); [apply Rmult_le_compat_r; [apply Rabs_pos|lra]|lra].
Qed.

Lemma ticks_error a i cs M : alpha_ok a -> in64 i -> (0 < i)%Z -> Forall in64 cs -> cs <> [] ->
  Forall (fun c => Rabs (RF (instantRate i c)) <= M) cs ->
  Rabs (RF (ew_rate (ticks (newEWMA a i) cs)) - ema (RF a) ((fun c => RF (instantRate i c)) <$> cs)) <=
  INR (length cs - 1) * tick_eps M.
Proof.
  intros Ha Hi Hp. induction cs as [|c cs IH] using rev_ind; [done|]. intros Hc _ Hb.
  apply Forall_app in Hc as [Hcs Hc]. apply Forall_app in Hb as [Hbs Hb].
  rewrite Forall_singleton in Hc, Hb.
  destruct (decide (cs = [])) as [->|Hn].
  { cbn. rewrite Rminus_diag_eq, Rabs_R0 by done. lra. }
  specialize (IH Hcs Hn Hbs). rewrite fmap_app. cbn [fmap list_fmap].
  rewrite ema_snoc by (by destruct cs).
  rewrite ticks_rate by done.
  destruct (instant_spec i c Hi Hp Hc) as (_ & F & B).
  set (r := ew_rate (ticks (newEWMA a i) cs)) in *. set (x := instantRate i c) in *.
  set (m := ema (RF a) ((fun c => RF (instantRate i c)) <$> cs)) in *.
  assert (Hr : rate_ok r) by (by apply ticks_rate_ok).
  destruct (tick_step a r x Ha Hr (conj F B)) as (_ & E & _). rewrite E.
  assert (HrM : Rabs (RF r) <= M).
  { apply Rabs_le. apply (ticks_within a i cs (- M) M); try done.
    eapply Forall_impl; [exact Hbs|]. cbn. intros c' H. by apply Rabs_le_inv. }
  pose proof (tick_error (RF a) (RF r) (RF x) M (proj2 Ha) (fmt_RF r) (fmt_RF x) HrM Hb) as T1.
  pose proof (ema_diff (RF a) (RF r) m (RF x)) as T2.
  assert (T3 : INR (length (cs ++ [c]) - 1) = INR (length cs - 1) + 1).
  { rewrite app_length. cbn [length]. replace (length cs + 1 - 1)%nat with (S (length cs - 1)).
    - by rewrite S_INR.
    - destruct cs; [done|cbn; lia]. }
  rewrite T3. destruct Ha as [_ Ha].
  match goal with |- Rabs (?A - ?B) <= _ => replace (A - B) with ((A - ema_step (RF a) (RF r) (RF x)) + (ema_step (RF a) (RF r) (RF x) - B)) by ring end.
  eapply Rle_trans; [apply Rabs_triang|]. specialize (T2 ltac:(lra)). lra.
Qed.
