From Verif.Go Require Import GoInt GoFloat GoConc.
From Verif.Model Require Import WeightedSnapshot DecayingReservoir DecayingConc.
From Verif.Spec Require Import BucketSpec DecayingSpec DecayingConcSpec.
From Verif.Proofs Require Import FloatProofs DecayingProofs DecayingCalls DecayingTop DecayingConcProofs FloatSum.
From Coq Require Import Reals Lra.
From Flocq Require Import Core.Core IEEE754.BinarySingleNaN.
Local Open Scope Z_scope.

(** What an insertion can put into the reservoir. *)
Lemma sk_Insert_in l c s : s ∈ sk_Insert l c -> s = c \/ s ∈ l.
Proof.
  induction l as [|e l IH]; cbn [sk_Insert]; [intros H; left; by apply elem_of_list_singleton in H|].
  destruct (_ <? 0); [|destruct (_ =? 0)]; rewrite !elem_of_cons; intuition.
Qed.
Lemma sk_Delete_in l c s : s ∈ sk_Delete l c -> s ∈ l.
Proof. induction l as [|e l IH]; cbn [sk_Delete]; [done|]. destruct (_ <? 0); [|destruct (_ =? 0)]; rewrite !elem_of_cons; intuition. Qed.
Lemma sk_Overwrite_in l c s : s ∈ sk_Overwrite l c -> sm_weight s = sm_weight c \/ s ∈ l.
Proof.
  induction l as [|e l IH]; cbn [sk_Overwrite]; [by right|]. destruct (_ <? 0); [|destruct (_ =? 0)]; rewrite !elem_of_cons; try by intuition.
  intros [->|?]; [by left|intuition].
Qed.
Lemma ed_insert_in rsv p v w x s : ed_insert rsv p v w = Ok x -> s ∈ ed_values x -> sm_weight s = w \/ s ∈ ed_values rsv.
Proof.
  unfold ed_insert. cbv zeta. cbn [set_count ed_count ed_size ed_values]. destruct (_ <=? _).
  { intros [= <-]. cbn [set_values set_count ed_values]. intros [->|?]%sk_Insert_in; [by left|by right]. }
  destruct (ed_GetValues _) as [|first rest]; [done|]. destruct (fle _ _); [intros [= <-]; by right|].
  destruct (sk_Get _ _); intros [= <-]; cbn [set_values set_count ed_values].
  - intros [->|?]%sk_Overwrite_in; [by left|by right].
  - intros [->|?%sk_Delete_in]%sk_Insert_in; [by left|by right].
Qed.

Section skew.
Context (mexp : f64 -> f64) (HE : exp_ok mexp) (alpha : f64) (Halpha : decay_ok alpha).
Notation W := (mexp (fmul alpha (f_of_int 3600))).
Notation G := (mexp (fmul (Bopp alpha) (f_of_int 3600))).
Context (FW : ffinite W = true) (HW : (2 <= RF W)%R) (HG : (RF G <= 1 / 2)%R).

Definition wmax (start : Z) : R := if start =? 0 then RF W else (3 / 4 * RF W)%R.
Record sinv (r : edr) : Prop := {
  s_alpha : ed_alpha r = alpha;
  s_start : ed_startTime r = 0 \/ ed_startTime r = 3600;
  s_weights : forall s, s ∈ ed_values r -> ffinite (sm_weight s) = true /\ (0 <= RF (sm_weight s) <= wmax (ed_startTime r))%R }.

Lemma small_weight t : - 2 ^ 62 < t <= 0 -> ffinite (mexp (fmul alpha (f_of_int t))) = true /\ (0 <= RF (mexp (fmul alpha (f_of_int t))) <= 1)%R.
Proof. intros Ht. destruct (alpha_time_neg alpha t Halpha Ht) as [F R]. destruct (HE _ F) as [H _]. by apply H. Qed.

Lemma factor_le_one t : 0 <= t < 2 ^ 62 -> ffinite (mexp (fmul (Bopp alpha) (f_of_int t))) = true /\ (0 <= RF (mexp (fmul (Bopp alpha) (f_of_int t))) <= 1)%R.
Proof. intros Ht. destruct (alpha_time alpha t Halpha Ht) as (_ & _ & F & R). destruct (HE _ F) as [H _]. by apply H. Qed.

(** Scaling by at most 1 makes no weight bigger. *)
Lemma scaled_weight w f b : ffinite w = true -> (0 <= RF w <= b)%R -> ffinite f = true -> (0 <= RF f <= 1)%R ->
  ffinite (fmul w f) = true /\ (0 <= RF (fmul w f) <= b)%R.
Proof.
  intros Fw Rw Ff Rf.
  assert (0 <= rnd (RF w * RF f) <= RF w)%R as B.
  { split; [apply rnd_ge_l; [apply fmt_0|nra]|]. apply rnd_le_r; [apply generic_format_B2R|nra]. }
  destruct (fmul_spec w f Fw Ff) as [R F].
  { unfold fits. rewrite Rabs_pos_eq by lra. eapply Rle_lt_trans; [apply B|]. pose proof (abs_B2R_lt_emax 53 1024 w) as L. rewrite Rabs_pos_eq in L by apply Rw. exact L. }
  split; [done|]. rewrite R. lra.
Qed.

Lemma halved_weight w f : ffinite w = true -> (0 <= RF w <= RF W)%R -> ffinite f = true -> (0 <= RF f <= 1 / 2)%R ->
  ffinite (fmul w f) = true /\ (0 <= RF (fmul w f) <= 3 / 4 * RF W)%R.
Proof.
  intros Fw Rw Ff Rf. destruct (scaled_weight w f (RF W) Fw Rw Ff ltac:(lra)) as [F _]. split; [done|].
  assert (B : (0 <= rnd (RF w * RF f) <= RF w)%R).
  { split; [apply rnd_ge_l; [apply fmt_0|nra]|]. apply rnd_le_r; [apply generic_format_B2R|nra]. }
  destruct (fmul_spec w f Fw Ff) as [R _].
  { unfold fits. rewrite Rabs_pos_eq by lra. eapply Rle_lt_trans; [apply B|]. pose proof (abs_B2R_lt_emax 53 1024 w) as L. rewrite Rabs_pos_eq in L by apply Rw. exact L. }
  rewrite R. split; [apply B|].
  apply Rle_trans with (rnd (RF W / 2))%R; [apply round_le; try typeclasses eauto; nra|].
  destruct (rnd_rel (RF W / 2)) as (t & Ht & ->).
  { right. rewrite Rabs_pos_eq by lra. apply Rle_trans with 1%R; [apply (bpow_le radix2 _ 0); lia|lra]. }
  pose proof uro_bounds as U. pose proof (near_dist 1 t Ht) as D. cbn [INR] in D. specialize (D ltac:(lra)).
  apply Rabs_le_inv in D. nra.
Qed.

Lemma sinv_insert r ms rd v y : sinv r -> ms = 0 \/ ms = 3600000 ->
  dec_act mexp r (ARecord ms rd v) = Ok y -> sinv y.
Proof.
  intros [A B C] Hm E. cbn [dec_act] in E. cbv zeta in E.
  pose proof (insert_frame r r (ed_priority (ed_itemWeight mexp r ms) rd) v (ed_itemWeight mexp r ms) eq_refl eq_refl eq_refl) as FR.
  rewrite E in FR. destruct FR as (z & _ & _ & _ & _ & Ea & Es).
  constructor; rewrite ?Ea, ?Es; try done. intros s Hs. destruct (ed_insert_in _ _ _ _ _ _ E Hs) as [->|Hin]; [|by apply C].
  unfold ed_itemWeight, ed_weight. rewrite A.
  assert (Hone : forall w, ffinite w = true -> (0 <= RF w <= 1)%R -> ffinite w = true /\ (0 <= RF w <= wmax (ed_startTime r))%R).
  { intros w F R. split; [done|]. unfold wmax. destruct (_ =? _); lra. }
  destruct B as [->| ->], Hm as [->| ->].
  - change (wrap64 (currentTimeInSecond 0 - 0)) with 0. destruct (small_weight 0 ltac:(lia)) as [F R]. split; [done|]. change (wmax 0) with (RF W). lra.
  - change (wrap64 (currentTimeInSecond 3600000 - 0)) with 3600. change (wmax 0) with (RF W). split; [done|lra].
  - change (wrap64 (currentTimeInSecond 0 - 3600)) with (-3600). destruct (small_weight (-3600) ltac:(lia)) as [F R]. split; [done|]. change (wmax 3600) with (3 / 4 * RF W)%R. lra.
  - change (wrap64 (currentTimeInSecond 3600000 - 3600)) with 0. destruct (small_weight 0 ltac:(lia)) as [F R]. split; [done|]. change (wmax 3600) with (3 / 4 * RF W)%R. lra.
Qed.

Lemma sinv_rescale r vals n ms : sinv r -> ed_inv r vals n -> ms = 0 \/ ms = 3600000 -> (ed_startTime r = 3600 -> ms = 3600000) ->
  sinv (ed_rescale_locked mexp r ms) /\ ed_inv (ed_rescale_locked mexp r ms) vals n /\
  ed_startTime (ed_rescale_locked mexp r ms) = currentTimeInSecond ms.
Proof.
  intros [A B C] I Hm Hlate. unfold ed_rescale_locked. set (r1 := set_startTime r (currentTimeInSecond ms)).
  set (f := ed_scalingFactor mexp r1 (ed_startTime r)).
  assert (I1 : ed_inv r1 vals n) by (eapply ed_inv_frame; [exact I|done|done|done]).
  assert (Hf : ffinite f = true /\ (0 <= RF f <= 1)%R /\ (ed_startTime r = 0 -> ms = 3600000 -> (RF f <= 1 / 2)%R)).
  { unfold f, ed_scalingFactor, r1. cbn [set_startTime ed_alpha ed_startTime]. rewrite A.
    destruct B as [Es|Es]; rewrite Es in *.
    - destruct Hm as [->| ->].
      + change (wrap64 (currentTimeInSecond 0 - 0)) with 0. destruct (factor_le_one 0 ltac:(lia)). done.
      + change (wrap64 (currentTimeInSecond 3600000 - 0)) with 3600. destruct (factor_le_one 3600 ltac:(lia)). split_and!; try done; lra.
    - rewrite (Hlate eq_refl). change (wrap64 (currentTimeInSecond 3600000 - 3600)) with 0. destruct (factor_le_one 0 ltac:(lia)). done. }
  destruct Hf as (Ff & Rf & Rh). assert (factor_ok f) as Hfo by (split; [done|lra]).
  destruct (ed_rescale_inv r1 vals n f I1 Hfo) as [I2 _].
  assert (Es : ed_startTime (ed_rescale_body r1 f) = currentTimeInSecond ms) by (unfold ed_rescale_body; by destruct (feq f f0)).
  split; [|split; [|done]].
  2:{ eapply ed_inv_weaken; [exact I2| |lia]. intros v Hv. destruct (feq f f0); [by apply elem_of_nil in Hv|done]. }
  constructor; rewrite ?Es.
  - unfold ed_rescale_body. by destruct (feq f f0).
  - destruct Hm as [->| ->]; [by left|by right].
  - intros s Hs. destruct (feq f f0) eqn:Hz.
    { unfold ed_rescale_body in Hs. rewrite Hz in Hs. by apply elem_of_nil in Hs. }
    destruct (rescale_scaled r1 f (ei_asc _ _ _ I1) (ei_ok _ _ _ I1) Hfo Hz ltac:(lra)) as (E1 & _). rewrite E1 in Hs.
    apply scaled_in in Hs as (s0 & Hs0 & ->). cbn [ed_scale sm_weight]. destruct (C s0 Hs0) as [Fs Rs].
    destruct B as [E0|E0]; rewrite E0 in *.
    + destruct Hm as [->| ->].
      * change (currentTimeInSecond 0) with 0. by apply scaled_weight.
      * change (currentTimeInSecond 3600000) with 3600. change (wmax 0) with (RF W) in Rs. change (wmax 3600) with (3 / 4 * RF W)%R. apply halved_weight; try done. split; [lra|by apply Rh].
    + rewrite (Hlate eq_refl). change (currentTimeInSecond 3600000) with 3600. by apply scaled_weight.
Qed.

Lemma sinv_acts acts : forall r r' vals n, sinv r -> ed_inv r vals n -> Forall (fun a => action_ms a = 0 \/ action_ms a = 3600000) acts ->
  StronglySorted Z.le (rescale_times acts) -> (ed_startTime r = 3600 -> Forall (fun m => m = 3600000) (rescale_times acts)) ->
  Forall call_ok (mjoin (action_update <$> acts)) -> n + Z.of_nat (length (mjoin (action_update <$> acts))) < 2 ^ 63 ->
  dec_acts mexp r acts = Ok r' -> sinv r'.
Proof.
  induction acts as [|a acts IH]; intros r r' vals n S I Hm Hs Hl Hc Hn E.
  { cbn in E. by injection E as <-. }
  apply Forall_cons in Hm as [Ha Hm]. cbn [dec_acts] in E.
  destruct (dec_act mexp r a) as [y|] eqn:Ey; [|done]. cbn [mbind res_bind] in E.
  destruct a as [ms|ms rd v].
  - cbn [dec_act] in Ey. injection Ey as <-. cbn [action_ms] in Ha.
    change (rescale_times (ARescale ms :: acts)) with (ms :: rescale_times acts) in *.
    apply StronglySorted_inv in Hs as [Hs Hms].
    destruct (sinv_rescale r vals n ms S I Ha) as (S2 & I2 & E2).
    { intros H. specialize (Hl H). by apply Forall_cons in Hl as [? _]. }
    eapply (IH _ r' vals n S2 I2); try done. rewrite E2. intros H. destruct Ha as [->| ->]; [done|].
    clear -Hms Hm. induction acts as [|b acts IH]; [constructor|]. apply Forall_cons in Hm as [Hb Hm].
    destruct b as [m|m rd v]; [|by apply IH].
    change (rescale_times (ARescale m :: acts)) with (m :: rescale_times acts) in *. apply Forall_cons in Hms as [? Hms].
    constructor; [|by apply IH]. cbn [action_ms] in Hb. lia.
  - change (rescale_times (ARecord ms rd v :: acts)) with (rescale_times acts) in *.
    change (mjoin (action_update <$> ARecord ms rd v :: acts)) with (KUpdate v rd :: mjoin (action_update <$> acts)) in Hc, Hn. cbn [length] in Hn. apply Forall_cons in Hc as [[Hr Hr0] Hc].
    pose proof (sinv_insert r ms rd v y S Ha Ey) as S2. cbn [action_ms] in Ha.
    cbn [dec_act] in Ey. cbv zeta in Ey.
    assert (Hp : key_ok (ed_priority (ed_itemWeight mexp r ms) rd)).
    { pose proof (weight_key_ok mexp HE alpha [] Halpha r ms (ed_startTime r) rd (s_alpha _ S) ltac:(lia)) as H. apply H; [|done|done]. destruct (s_start _ S); lia. }
    destruct (ed_insert_inv r vals n _ v (ed_itemWeight mexp r ms) I Hp ltac:(lia)) as (y' & Ey' & I2 & _ & Est & _).
    rewrite Ey in Ey'. injection Ey' as <-.
    eapply (IH y r' _ _ S2 I2); try done; [by rewrite Est|]. lia.
Qed.
End skew.
