From Verif.Go Require Import GoInt GoFloat.
From Verif.Model Require Import WeightedSnapshot DecayingReservoir.
From Verif.Spec Require Import BucketSpec DecayingSpec.
From Verif.Proofs Require Import FloatProofs DecayingProofs.
From Coq Require Import Reals Lra.
From Flocq Require Import Core.Core IEEE754.BinarySingleNaN.
Local Open Scope R_scope.

(** ** Event lists *)
Lemma offers_length es : (length (offers es) <= length es)%nat.
Proof. induction es as [|[p v w|f] es IH]; [done| |]; unfold offers in *; cbn [omap list_omap length]; lia. Qed.
Lemma events_inv es : Forall event_ok es -> forall rsv vals (n : Z), ed_inv rsv vals n -> (n + Z.of_nat (length (offers es)) < 2 ^ 63)%Z ->
  exists rsv', ed_events rsv es = Ok rsv' /\ ed_inv rsv' (offered_from vals es) (n + Z.of_nat (length (offers es))) /\ ed_size rsv' = ed_size rsv.
Proof.
  intros HF. induction HF as [|e es He HF IH]; intros rsv vals n I Hn.
  - exists rsv. split; [done|]. cbn. rewrite Z.add_0_r. done.
  - destruct e as [p v w|f]; cbn [event_ok] in He; cbn [ed_events ed_apply offered_from].
    + change (offers (Offer p v w :: es)) with (v :: offers es) in *. cbn [length] in Hn.
      destruct (ed_insert_inv rsv vals n p v w I He) as (r1 & E1 & I1 & S1 & _); [lia|]. rewrite E1. cbn [mbind res_bind].
      destruct (IH r1 (vals ++ [v]) (n + 1)%Z I1) as (r2 & E2 & I2 & S2); [lia|]. exists r2. split; [done|]. split; [|congruence].
      cbn [length]. replace (n + Z.of_nat (S (length (offers es))))%Z with (n + 1 + Z.of_nat (length (offers es)))%Z by lia. done.
    + change (offers (Rescale f :: es)) with (offers es) in *. destruct (ed_rescale_inv rsv vals n f I He) as [I1 S1]. cbn [mbind res_bind].
      destruct (IH _ _ n I1) as (r2 & E2 & I2 & S2); [lia|]. exists r2. split; [done|]. split; [done|congruence].
Qed.
Lemma offered_offers es : forall acc v, v ∈ offered_from acc es -> v ∈ acc ++ offers es.
Proof.
  induction es as [|e es IH]; intros acc v H; cbn in *; [by rewrite app_nil_r|]. destruct e as [p u w|f].
  - apply IH in H. rewrite <- app_assoc in H. done.
  - apply IH in H. change (offers (Rescale f :: es)) with (offers es). destruct (feq f f0); [|done]. apply elem_of_app. right. done.
Qed.

(** ** Weights and priorities *)
Lemma fle_f1_cases w : fle f1 w = true -> (ffinite w = true /\ 1 <= RF w) \/ w = B754_infinity false.
Proof.
  intros H. destruct (ffinite w) eqn:F.
  - left. split; [done|]. apply fle_spec in H; [|done|done]. by rewrite RF_f1 in H.
  - right. destruct w as [s|s| |s m e Hb]; try done. by destruct s.
Qed.
Lemma pos_sign x : ffinite x = true -> 0 < RF x -> Bsign x = false.
Proof.
  intros F H. destruct x as [s|s| |s m e Hb]; try done; cbn in H; try lra. destruct s; [|done].
  exfalso. apply (Rlt_not_le _ _ H). apply Rlt_le, F2R_lt_0. cbn. lia.
Qed.
Lemma div_key_ok w r : (ffinite w = true /\ 0 < RF w) \/ w = B754_infinity false -> random_ok r -> key_ok (fdiv w r).
Proof.
  intros Hw (Fr & Sr & Rr). destruct Hw as [[Fw Rw]| ->].
  - pose proof (pos_sign w Fw Rw) as Sw.
    destruct (Req_dec (RF r) 0) as [Z0|NZ].
    + assert (r = B754_zero false) as ->.
      { destruct r as [s|s| |s m e Hb]; try done; cbn in Sr; [by rewrite Sr|]. rewrite Sr in Z0. exfalso. cbn in Z0.
        pose proof (F2R_gt_0 radix2 (Float radix2 (Z.pos m) e) ltac:(cbn; lia)). lra. }
      destruct w as [s|s| |s m e Hb]; try done; [cbn in Rw; lra|]. cbn in Sw. rewrite Sw. done.
    + destruct (Rlt_le_dec (Rabs (rnd (RF w / RF r))) (bpow radix2 1024)) as [H|H].
      * destruct (fdiv_spec w r Fw NZ H) as [R F]. apply key_ok_finite; [done|]. rewrite R. apply rnd_ge_l; [apply fmt_0|].
        apply Rlt_le, Rdiv_lt_0_compat; lra.
      * pose proof (Bdiv_correct 53 1024 _ _ mode_NE w r NZ) as C. rewrite Rlt_bool_false in C by exact H.
        unfold binary_overflow in C. rewrite Sw, Sr in C. cbn in C. unfold fdiv.
        destruct (Bdiv mode_NE w r) as [?|[|]| |?]; try done.
  - destruct r as [s|s| |s m e Hb]; try done; cbn in Sr; rewrite Sr; done.
Qed.

Section calls.
Context (mexp : f64 -> f64).
Hypothesis HE : exp_ok mexp.

Lemma seconds_mono a b : (0 <= a <= b)%Z -> (0 <= currentTimeInSecond a <= currentTimeInSecond b)%Z.
Proof. intros H. unfold currentTimeInSecond. split; [apply Z.quot_pos; lia|apply Z.quot_le_mono; lia]. Qed.
Lemma seconds_bound a : (0 <= a < 2 ^ 62)%Z -> (currentTimeInSecond a < 2 ^ 62)%Z.
Proof. intros H. unfold currentTimeInSecond. apply Z.quot_lt_upper_bound; lia. Qed.

Lemma alpha_time alpha t : decay_ok alpha -> (0 <= t < 2 ^ 62)%Z ->
  ffinite (fmul alpha (f_of_int t)) = true /\ 0 <= RF (fmul alpha (f_of_int t)) /\
  ffinite (fmul (Bopp alpha) (f_of_int t)) = true /\ RF (fmul (Bopp alpha) (f_of_int t)) <= 0.
Proof.
  intros [Fa [A1 A2]] Ht. assert (in64 t) as Hin by (unfold in64, two63; lia).
  pose proof (f_of_int_finite64 t Hin) as Ft. pose proof (f_of_int_bound64 t Hin) as Bt.
  assert (0 <= RF (f_of_int t)) as Pt.
  { pose proof (f_of_int_mono 0 t ltac:(unfold in64, two63; lia) Hin ltac:(lia)) as M. rewrite (f_of_int_exact 0) in M by lia. done. }
  rewrite Rabs_pos_eq in Bt by done.
  assert (0 <= RF alpha * RF (f_of_int t) <= bpow radix2 73) as Hb.
  { split; [by apply Rmult_le_pos|]. replace 73%Z with (10 + 63)%Z by lia. rewrite bpow_plus. apply Rmult_le_compat; try lra.
    change (bpow radix2 10) with 1024. lra. }
  assert (forall x, Rabs x <= bpow radix2 73 -> fits x) as Hfit.
  { intros x Hx. apply fits_bound. eapply Rle_trans; [exact Hx|]. apply bpow_le. lia. }
  destruct (fmul_spec alpha (f_of_int t) Fa Ft) as [R F]; [apply Hfit; rewrite Rabs_pos_eq; lra|].
  assert (RF (Bopp alpha) = - RF alpha) as Ro by apply B2R_Bopp.
  assert (ffinite (Bopp alpha) = true) as Fo by (by destruct alpha).
  destruct (fmul_spec (Bopp alpha) (f_of_int t) Fo Ft) as [R' F'].
  { apply Hfit. rewrite Ro. replace (- RF alpha * RF (f_of_int t)) with (- (RF alpha * RF (f_of_int t))) by ring.
    rewrite Rabs_Ropp, Rabs_pos_eq; lra. }
  split; [done|]. split; [rewrite R; apply rnd_ge_l; [apply fmt_0|lra]|]. split; [done|].
  rewrite R', Ro. apply rnd_le_r; [apply fmt_0|]. lra.
Qed.

Record call_inv (rsv : edr) (last : Z) : Prop := {
  ci_alpha : decay_ok (ed_alpha rsv);
  ci_start : (0 <= ed_startTime rsv <= currentTimeInSecond last)%Z;
  ci_last : (0 <= last)%Z }.

Lemma factor_call rsv last ms : call_inv rsv last -> (last <= ms < 2 ^ 62)%Z ->
  factor_ok (ed_scalingFactor mexp (set_startTime rsv (currentTimeInSecond ms)) (ed_startTime rsv)) /\
  RF (ed_scalingFactor mexp (set_startTime rsv (currentTimeInSecond ms)) (ed_startTime rsv)) <= 1.
Proof.
  intros [Ha Hs Hl] Hm. pose proof (seconds_mono last ms ltac:(lia)) as Hsec. pose proof (seconds_bound ms ltac:(lia)) as Hsb.
  unfold ed_scalingFactor. cbn [set_startTime ed_alpha ed_startTime].
  rewrite wrap64_id by (unfold in64, two63; lia).
  destruct (alpha_time (ed_alpha rsv) (currentTimeInSecond ms - ed_startTime rsv) Ha) as (_ & _ & F & R); [lia|].
  destruct (HE _ F) as [H _]. destruct (H R) as (H1 & H2 & H3). split; [split; [done|lra]|done].
Qed.

Lemma rescaleIfNeeded_events rsv last tick ms : call_inv rsv last -> (last <= ms < 2 ^ 62)%Z ->
  call_inv (ed_rescaleIfNeeded mexp rsv tick ms) ms /\
  exists es, Forall event_ok es /\ Forall (fun e => exists f, e = Rescale f /\ RF f <= 1) es /\ (length es <= 1)%nat /\
   forall r, ed_values r = ed_values rsv -> ed_size r = ed_size rsv -> ed_count r = ed_count rsv ->
     exists r', ed_events r es = Ok r' /\ ed_values r' = ed_values (ed_rescaleIfNeeded mexp rsv tick ms) /\
     ed_size r' = ed_size (ed_rescaleIfNeeded mexp rsv tick ms) /\ ed_count r' = ed_count (ed_rescaleIfNeeded mexp rsv tick ms).
Proof.
  intros C Hm. pose proof C as [Ha Hs Hl]. pose proof (seconds_mono last ms ltac:(lia)) as Hsec. unfold ed_rescaleIfNeeded.
  destruct (Z.leb_spec (ed_nextScaleTime rsv) tick) as [L|L].
  - set (rsv1 := set_nextScaleTime rsv _). assert (call_inv rsv1 last) as C1 by (by constructor).
    destruct (factor_call rsv1 last ms C1 Hm) as [Hf Hf1]. unfold ed_rescale_locked.
    set (f := ed_scalingFactor mexp _ _) in *. set (rsv2 := set_startTime rsv1 _).
    split.
    + constructor; [| |lia].
      * unfold ed_rescale_body. destruct (feq f f0); done.
      * unfold ed_rescale_body. destruct (feq f f0); cbn [set_count set_values ed_startTime rsv2 set_startTime]; lia.
    + exists [Rescale f]. split; [by constructor|]. split; [constructor; [by exists f|done]|]. split; [done|].
      intros r E1 E2 E3. eexists. split; [done|]. unfold ed_rescale_body, ed_GetValues. destruct (feq f f0); cbn; rewrite ?E1, ?E2; done.
  - split; [constructor; [done| |lia]; lia|]. exists []. split; [done|]. split; [done|]. split; [cbn; lia|]. intros r E1 E2 E3. by exists r.
Qed.

(** Every history amounts to a list of events with usable priorities and factors at
    most 1, which offer the recorded values in order. *)

Lemma insert_frame r rsv p v w : ed_values r = ed_values rsv -> ed_size r = ed_size rsv -> ed_count r = ed_count rsv ->
  match ed_insert rsv p v w with
  | Ok x => exists y, ed_insert r p v w = Ok y /\ ed_values y = ed_values x /\ ed_size y = ed_size x /\ ed_count y = ed_count x /\
      ed_alpha x = ed_alpha rsv /\ ed_startTime x = ed_startTime rsv
  | Panic => ed_insert r p v w = Panic
  end.
Proof.
  intros E1 E2 E3. unfold ed_insert, ed_GetValues. cbn [set_count ed_values ed_size ed_count]. rewrite E1, E2, E3.
  destruct (_ <=? _)%Z; [eexists; split; [done|done]|]. destruct (sk_Iter _ _) as [|first l]; [done|].
  destruct (fle _ _); [eexists; split; [done|done]|]. destruct (sk_Get _ _); eexists; (split; [done|done]).
Qed.

Lemma run_events calls : forall rsv last, call_inv rsv last -> times_ok last calls ->
  exists es, Forall event_ok es /\ Forall (fun e => match e with Rescale f => RF f <= 1 | _ => True end) es /\
   offers es = updated_values calls /\ (length es <= 2 * length calls)%nat /\
   forall r, ed_values r = ed_values rsv -> ed_size r = ed_size rsv -> ed_count r = ed_count rsv ->
     match ed_run mexp rsv calls with
     | Ok x => exists y, ed_events r es = Ok y /\ ed_values y = ed_values x /\ ed_size y = ed_size x /\ ed_count y = ed_count x
     | Panic => ed_events r es = Panic
     end.
Proof.
  induction calls as [|c calls IH]; intros rsv last C Ht.
  { exists []. split; [done|]. split; [done|]. split; [done|]. split; [done|]. intros r E1 E2 E3. by exists r. }
  assert (forall a b r, ed_events r (a ++ b) = (x ← ed_events r a; ed_events x b)) as Happ.
  { clear. induction a as [|e a IH]; intros b r; [done|]. cbn [ed_events app]. destruct (ed_apply r e); cbn [mbind res_bind]; [apply IH|done]. }
  destruct c as [tick ms0 ms rnd_ v|tick ms0].
  - cbn [times_ok] in Ht. destruct Ht as (T1 & T2 & T3 & T4 & Ht). pose proof (ci_last _ _ C) as Hl.
    destruct (rescaleIfNeeded_events rsv last tick ms0 C ltac:(lia)) as (C1 & es1 & O1 & F1 & L1 & H1).
    cbn [ed_run ed_step]. unfold ed_UpdateN. set (rsv1 := ed_rescaleIfNeeded mexp rsv tick ms0) in *.
    set (w := ed_itemWeight mexp rsv1 ms). set (p := ed_priority w rnd_).
    assert (key_ok p) as Hp.
    { destruct C1 as [Ha Hs Hl1]. pose proof (seconds_mono ms0 ms ltac:(lia)) as Hsec. pose proof (seconds_bound ms ltac:(lia)) as Hsb.
      unfold p, ed_priority, w, ed_itemWeight, ed_weight. rewrite wrap64_id by (unfold in64, two63; lia).
      destruct (alpha_time (ed_alpha rsv1) (currentTimeInSecond ms - ed_startTime rsv1) Ha) as (F & R & _ & _); [lia|].
      destruct (HE _ F) as [_ H]. apply div_key_ok; [|done]. destruct (fle_f1_cases _ (H R)) as [[? ?]|?]; [left; split; [done|lra]|by right]. }
    destruct (ed_insert rsv1 p v w) as [rsv2|] eqn:E2.
    + assert (call_inv rsv2 ms) as C2.
      { pose proof (insert_frame rsv1 rsv1 p v w eq_refl eq_refl eq_refl) as FR. rewrite E2 in FR. destruct FR as (y & _ & _ & _ & _ & A & B).
        destruct C1 as [Ha Hs Hl1]. pose proof (seconds_mono ms0 ms ltac:(lia)). constructor; [by rewrite A|rewrite B; lia|lia]. }
      destruct (IH rsv2 ms C2 Ht) as (es2 & O2 & F2 & V2 & L2 & H2).
      exists (es1 ++ Offer p v w :: es2). split; [apply Forall_app; split; [done|by constructor]|].
      split; [apply Forall_app; split; [eapply Forall_impl; [exact F1|]; by intros e (f & -> & Hf)|by constructor]|].
      split.
      { unfold offers. rewrite omap_app. assert (omap (fun e => match e with Offer _ v _ => Some v | _ => None end) es1 = []) as ->.
        { clear -F1. induction F1 as [|e es (f & -> & _) F IH]; done. }
        cbn. f_equal. done. }
      split; [rewrite app_length; cbn; lia|].
      intros r Q1 Q2 Q3. destruct (H1 r Q1 Q2 Q3) as (r1 & X1 & X2 & X3 & X4). rewrite Happ, X1. cbn [mbind res_bind ed_events ed_apply].
      pose proof (insert_frame r1 rsv1 p v w X2 X3 X4) as FR. rewrite E2 in FR. destruct FR as (y & -> & Y1 & Y2 & Y3 & _). cbn [mbind res_bind].
      apply H2; done.
    + (* cannot go on *)
      exists (es1 ++ Offer p v w :: ((fun v => Offer f1 v f1) <$> updated_values calls)).
      split; [apply Forall_app; split; [done|constructor; [done|]]; apply Forall_fmap, Forall_forall; done|].
      split; [apply Forall_app; split; [eapply Forall_impl; [exact F1|]; by intros e (f & -> & Hf)|constructor; [done|]]; apply Forall_fmap, Forall_forall; done|].
      split.
      { unfold offers. rewrite omap_app. assert (omap (fun e => match e with Offer _ v _ => Some v | _ => None end) es1 = []) as ->.
        { clear -F1. induction F1 as [|e es (f & -> & _) F IH]; done. }
        cbn. f_equal. unfold updated_values. generalize (omap (fun c => match c with DUpdate _ _ _ _ v => Some v | _ => None end) calls). intros l. induction l as [|x l IHl]; [done|]. cbn in *. f_equal. done. }
      split.
      { rewrite app_length. cbn. rewrite fmap_length. assert (length (updated_values calls) <= length calls)%nat; [|lia].
        clear. unfold updated_values. induction calls as [|c l IH]; [done|]. cbn. destruct c; cbn; lia. }
      intros r Q1 Q2 Q3. destruct (H1 r Q1 Q2 Q3) as (r1 & X1 & X2 & X3 & X4). rewrite Happ, X1. cbn [mbind res_bind ed_events ed_apply].
      pose proof (insert_frame r1 rsv1 p v w X2 X3 X4) as FR. rewrite E2 in FR. rewrite FR. done.
  - cbn [times_ok] in Ht. destruct Ht as (T1 & T2 & Ht). pose proof (ci_last _ _ C) as Hl.
    destruct (rescaleIfNeeded_events rsv last tick ms0 C ltac:(lia)) as (C1 & es1 & O1 & F1 & L1 & H1).
    cbn [ed_run ed_step ed_GetSnapshot fst]. unfold ed_GetSnapshot. cbn [fst]. set (rsv1 := ed_rescaleIfNeeded mexp rsv tick ms0) in *.
    destruct (IH rsv1 ms0 C1 Ht) as (es2 & O2 & F2 & V2 & L2 & H2).
    exists (es1 ++ es2). split; [apply Forall_app; done|].
    split; [apply Forall_app; split; [eapply Forall_impl; [exact F1|]; by intros e (f & -> & Hf)|done]|].
    split.
    { unfold offers. rewrite omap_app. assert (omap (fun e => match e with Offer _ v _ => Some v | _ => None end) es1 = []) as ->.
      { clear -F1. induction F1 as [|e es (f & -> & _) F IH]; done. }
      done. }
    split; [rewrite app_length; cbn; lia|].
    intros r Q1 Q2 Q3. destruct (H1 r Q1 Q2 Q3) as (r1 & X1 & X2 & X3 & X4). rewrite Happ, X1. cbn [mbind res_bind].
    apply H2; done.
Qed.

(** From a state reached by some history on, any further history. *)
Lemma call_main calls rsv vals n last : call_inv rsv last -> ed_inv rsv vals n -> times_ok last calls ->
  (n + Z.of_nat (length calls) < 2 ^ 63)%Z ->
  exists rsv', ed_run mexp rsv calls = Ok rsv' /\ ed_inv rsv' (vals ++ updated_values calls) (n + Z.of_nat (length (updated_values calls))) /\
    ed_size rsv' = ed_size rsv.
Proof.
  intros C I Ht Hn. destruct (run_events calls rsv last C Ht) as (es & O & _ & V & L & H). specialize (H rsv eq_refl eq_refl eq_refl).
  assert (length (updated_values calls) <= length calls)%nat as Lu.
  { clear. unfold updated_values. induction calls as [|c l IH]; [done|]. cbn. destruct c; cbn; lia. }
  destruct (events_inv es O rsv vals n I) as (r & E & I' & S); [rewrite V; lia|]. rewrite E in H.
  destruct (ed_run mexp rsv calls) as [x|]; [|done]. destruct H as (y & Ey & H1 & H2 & H3). injection Ey as <-.
  exists x. split; [done|]. rewrite V in I'. split; [|congruence].
  eapply ed_inv_weaken; [eapply ed_inv_frame; [exact I'|done|done|done]| |lia].
  intros v Hv. apply offered_offers in Hv. by rewrite V in Hv.
Qed.

Lemma times_app a b last : times_ok last (a ++ b) -> times_ok last a /\ exists last', times_ok last' b /\
  forall rsv x, call_inv rsv last -> ed_run mexp rsv a = Ok x -> call_inv x last'.
Proof.
  revert last. induction a as [|c a IH]; intros last H.
  { split; [done|]. exists last. split; [done|]. intros rsv x C E. cbn in E. by injection E as <-. }
  destruct c as [tick ms0 ms r v|tick ms0]; cbn [app times_ok] in H.
  - destruct H as (T1 & T2 & T3 & T4 & H). destruct (IH ms H) as (Ha & last' & Hb & HC). split; [done|]. exists last'. split; [done|].
    intros rsv x C E. cbn [ed_run ed_step] in E. unfold ed_UpdateN in E. pose proof (ci_last _ _ C) as Hl.
    destruct (rescaleIfNeeded_events rsv last tick ms0 C ltac:(lia)) as (C1 & _). set (rsv1 := ed_rescaleIfNeeded mexp rsv tick ms0) in *.
    set (w := ed_itemWeight mexp rsv1 ms) in *. set (p := ed_priority w r) in *. destruct (ed_insert rsv1 p v w) as [rsv2|] eqn:E2; [|done].
    cbn [mbind res_bind] in E. apply (HC rsv2); [|done].
    pose proof (insert_frame rsv1 rsv1 p v w eq_refl eq_refl eq_refl) as FR. rewrite E2 in FR. destruct FR as (y & _ & _ & _ & _ & A & B).
    destruct C1 as [Ha' Hs Hl1]. pose proof (seconds_mono ms0 ms ltac:(lia)). constructor; [by rewrite A|rewrite B; lia|lia].
  - destruct H as (T1 & T2 & H). destruct (IH ms0 H) as (Ha & last' & Hb & HC). split; [done|]. exists last'. split; [done|].
    intros rsv x C E. cbn [ed_run ed_step] in E. unfold ed_GetSnapshot in E. cbn [fst mbind res_bind] in E. pose proof (ci_last _ _ C) as Hl.
    destruct (rescaleIfNeeded_events rsv last tick ms0 C ltac:(lia)) as (C1 & _). by apply (HC _ _ C1 E).
Qed.
Lemma run_app a b : forall rsv, ed_run mexp rsv (a ++ b) = (x ← ed_run mexp rsv a; ed_run mexp x b).
Proof. induction a as [|c a IH]; intros rsv; [done|]. cbn [app ed_run]. destruct (ed_step mexp rsv c); cbn [mbind res_bind]; [apply IH|done]. Qed.
Lemma call_inv_new size alpha ms tick : decay_ok alpha -> (0 <= ms < 2 ^ 62)%Z -> call_inv (NewEDR size alpha ms tick) ms.
Proof. intros Ha Hm. pose proof (seconds_mono 0 ms ltac:(lia)). constructor; [done|cbn; lia|lia]. Qed.

(** ** Updates while no rescale is due *)
Lemma run_offers calls : forall rsv, no_rescale_due (ed_nextScaleTime rsv) calls ->
  ed_run mexp rsv calls = ed_events rsv (omap (fun c => match c with
    | DUpdate _ _ ms r v => let w := ed_itemWeight mexp rsv ms in Some (Offer (ed_priority w r) v w) | _ => None end) calls).
Proof.
  induction calls as [|c calls IH]; intros rsv H; [done|]. apply Forall_cons in H as [H1 H].
  destruct c as [tick ms0 ms r v|tick ms0].
  - cbn [ed_run ed_step]. unfold ed_UpdateN, ed_rescaleIfNeeded. destruct (Z.leb_spec (ed_nextScaleTime rsv) tick) as [L|L]; [lia|].
    cbn [omap list_omap]. cbn [ed_events ed_apply]. destruct (ed_insert rsv _ _ _) as [x|] eqn:E; [|done]. cbn [mbind res_bind].
    assert (ed_nextScaleTime x = ed_nextScaleTime rsv /\ ed_alpha x = ed_alpha rsv /\ ed_startTime x = ed_startTime rsv) as (F1 & F2 & F3).
    { clear -E. unfold ed_insert in E. repeat case_match; try discriminate; injection E as <-; done. }
    rewrite IH by (by rewrite F1). f_equal.
    clear -F1 F2 F3. induction calls as [|c calls IH]; [done|]. cbn [omap list_omap]. destruct c as [a b d e g|a b]; [|exact IH].
    unfold ed_itemWeight, ed_weight. rewrite F2, F3. by f_equal.
  - cbn [ed_run ed_step]. unfold ed_GetSnapshot, ed_rescaleIfNeeded. destruct (Z.leb_spec (ed_nextScaleTime rsv) tick) as [L|L]; [lia|].
    cbn [fst mbind res_bind]. by rewrite IH.
Qed.
End calls.
