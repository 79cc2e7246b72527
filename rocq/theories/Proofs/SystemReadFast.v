(** The whole library in use: a fast compass read through a handle while others record. *)
From Verif.Go Require Import GoInt GoFloat GoConc GoCompose.
From Verif.Model Require Import Config Registry RegistryConc BucketCounter FastCompass FastCompassConc FastCompassFine Compass CompassTypes CompassConc CompassFine CompassRead SystemConc.
From Verif.Spec Require Import BucketSpec BucketReadSpec FastCompassSpec FastCompassConcSpec FastCompassFineSpec RegistrySpec RegistryConcSpec SystemSpec.
From Verif.Proofs Require Import ComposeProofs ComposeHistory CompassFineParts RegistryProofs RegistryConcProofs FastCompassFineProofs FastCompassFineRead FastCompassFineMain FastCompassFineSafe FastCompassCats SystemProofs SystemMain SystemUse SystemHistory SystemRead.
Local Open Scope Z_scope.

Definition q_push (t : qthread) (l : list qcall) : qthread := QThread (q_todo t ++ l) (q_pc t) (q_got t).
Lemma min_fast_pushes l t : mi_fast (fold_left min_push l t) = q_push (mi_fast t) (fast_calls l).
Proof.
  revert t. induction l as [|u l IH]; intros t; [cbn; unfold q_push; rewrite app_nil_r; by destruct (mi_fast t)|].
  cbn [fold_left]. rewrite IH. change (u :: l) with ([u] ++ l). rewrite fast_calls_app. destruct u as [method|call]; cbn [min_push mi_fast].
  - done.
  - unfold q_push. cbn [q_todo q_pc q_got]. by rewrite <- app_assoc.
Qed.
Lemma began_fast math_Exp tr o0 ts0 i n mx s ts : esteps (mobj_step math_Exp) mobj_estep (Config o0 ts0) tr (Config (OFast i n mx s) ts) -> exists s0, o0 = OFast i n mx s0.
Proof.
  intros Hst. destruct o0 as [p' rk' st' s0|a b d s0].
  - destruct (compass_part math_Exp _ _ _ Hst _ _ _ _ _ eq_refl) as (s' & Hs' & _). discriminate Hs'.
  - destruct (fast_part math_Exp _ _ _ Hst _ _ _ _ _ eq_refl) as (s' & Hs' & _). injection Hs' as <- <- <- _. by exists s0.
Qed.
Lemma valid_calls_app l1 l2 : valid_calls (l1 ++ l2) = valid_calls l1 ++ valid_calls l2.
Proof. unfold valid_calls. apply flat_map_app. Qed.
Lemma valid_prefix l1 l2 : l1 `prefix_of` l2 -> valid_calls l1 `prefix_of` valid_calls l2.
Proof. intros [k ->]. rewrite valid_calls_app. by eexists. Qed.

Section system.
Context (math_Exp : f64 -> f64) (maxs : list Z) (e0 : cenv) (plans : list (list saction)).
Notation mstep := (mobj_step math_Exp).
Notation run := (sy_run math_Exp maxs e0 plans).
Notation at_ ref t := (mi_fast (inside_of min_idle ref t)).
Notation made ref t := (fast_calls (calls_of ref (gt_made t))).

(** Two moments of a run as two moments of a run of a fast compass. *)
Lemma fast_between s1 s2 ref interval n mx : let c1 := run s1 in let c2 := run (s1 ++ s2) in (exists i j, given c1 i j = Some (MFastCompass ref interval n mx)) ->
  exists before e es tr1 tr2 s cc2 later, e0 :: shown s1 = before ++ e :: es /\ shown tr1 = ce_ms <$> es /\ shown tr2 = ce_ms <$> shown s2 /\
    fast_at c1 ref = Some (Config s ((fun t => at_ ref t) <$> threads c1)) /\ fast_at c2 ref = Some cc2 /\
    threads cc2 = (fun t => at_ ref t) <$> threads c2 /\
    length later = length (threads c1) /\
    (fun t => calls_of ref (gt_made t)) <$> threads c2 = zip_with (++) ((fun t => calls_of ref (gt_made t)) <$> threads c1) later /\
    let r := ff_crun (newFastCompass mx interval n) (ce_ms e) ((fun t => made ref t) <$> threads c2) in
    r tr1 = Config s (zip_with (fun l t => q_push (at_ ref t) (fast_calls l)) later (threads c1)) /\ r (tr1 ++ tr2) = cc2.
Proof.
  intros c1 c2 (i0 & j0 & Hg). pose proof (sinv_run math_Exp maxs e0 plans s1) as HI. fold c1 in HI. pose proof (given_fits _ _ _ _ _ HI Hg) as [_ (s & Ho)].
  destruct (seen_between sy_tstep (fun s _ => s) (fun _ => false) sy_effect mstep mobj_estep min_idle min_push min_returned (mobj_push math_Exp) _ ∅ e0 _ s1 s2 ref _ (sy_proper_run math_Exp maxs e0 plans) Ho)
    as (o0 & o2 & tr1 & tr2 & later & Ho2 & Hor & Hsh & Hlen & Hcalls & Hst1 & Hst2).
  change (GoCompose.grun sy_tstep _ _ sy_effect _ _ _ _ _ _ _ e0 _ s1) with c1 in *. change (GoCompose.grun sy_tstep _ _ sy_effect _ _ _ _ _ _ _ e0 _ (s1 ++ s2)) with c2 in *.
  destruct (origin_new _ _ _ _ _ Hor) as (k & nm & e & before & Hnew & Hb). destruct (began_fast math_Exp _ _ _ _ _ _ _ _ Hst1) as [s0 ->].
  destruct (fast_part math_Exp _ _ _ Hst1 _ _ _ _ _ eq_refl) as (s' & Hs' & Hcp1). cbn [shared threads] in Hs', Hcp1. injection Hs' as <-.
  destruct (fast_part math_Exp _ _ _ Hst2 _ _ _ _ _ eq_refl) as (sb & Hsb & Hcp2). cbn [shared threads] in Hsb, Hcp2. subst o2.
  destruct (esteps_map ff_tstep fc_estep ce_ms _ _ _ Hcp1) as (tr1' & Hcp1' & Htr1). destruct (esteps_map ff_tstep fc_estep ce_ms _ _ _ Hcp2) as (tr2' & Hcp2' & Htr2). clear Hcp1 Hcp2.
  pose proof (new_fast_inv _ _ _ _ _ _ Hnew) as ->.
  exists before, e, (shown tr1), tr1', tr2', s, (Config sb ((fun t => at_ ref t) <$> threads c2)), later.
  split; [done|]. split; [done|]. split; [by rewrite Htr2, Hsh|]. split; [unfold fast_at; by rewrite Ho|]. split; [unfold fast_at; by rewrite Ho2|]. split; [done|]. split; [done|]. split; [done|].
  assert (Hlater : mi_fast <$> with_later min_push later (inside_of min_idle ref <$> threads c1) = zip_with (fun l t => q_push (at_ ref t) (fast_calls l)) later (threads c1)).
  { unfold with_later. clear. generalize (threads c1). intros l. revert later. induction l as [|t l IH]; intros later; [by destruct later|]. destruct later as [|x later]; [done|]. cbn. f_equal; [apply min_fast_pushes|apply IH]. }
  rewrite Hlater in Hcp1', Hcp2'. rewrite fmap_fmap in Hcp2'.
  assert (Hinit : mi_fast <$> ((fun t => with_calls min_idle min_push (calls_of ref (gt_made t))) <$> threads c2) = (fun q => QThread q (QAt FIdle) []) <$> ((fun t => made ref t) <$> threads c2)).
  { rewrite !fmap_fmap. apply list_fmap_ext. intros x t _. by rewrite with_calls_min. }
  rewrite Hinit in Hcp1'. pose proof (esteps_app _ _ _ _ _ _ _ Hcp1' Hcp2') as Hcp12. apply esteps_crun in Hcp1', Hcp12. cbv zeta. unfold ff_crun, ff_cinit. rewrite <- Hcp1', <- Hcp12. split; reflexivity.
Qed.

(** One more call. *)
Lemma one_more_fast s1 s2 i t1 t2 i' j' call plan ref a b d : threads (run s1) !! i = Some t1 -> threads (run (s1 ++ s2)) !! i = Some t2 ->
  st_plan (gt_client t1) = SUse i' j' (UFast call) :: plan -> st_plan (gt_client t2) = plan -> given (run s1) i' j' = Some (MFastCompass ref a b d) ->
  calls_of ref (gt_made t2) = calls_of ref (gt_made t1) ++ [UFast call].
Proof.
  intros H1 H2 P1 P2 Hg. destruct (plan_of math_Exp maxs e0 plans s1 i t1 H1) as [pl Hpl].
  destruct (begun_before math_Exp maxs e0 plans s1 i t1 pl H1 Hpl) as (A1 & A2 & A3). destruct (begun_before math_Exp maxs e0 plans (s1 ++ s2) i t2 pl H2 Hpl) as (B1 & _ & B3).
  assert (E : begun_plan pl t2 = begun_plan pl t1 ++ [SUse i' j' (UFast call)]).
  { rewrite P1 in A1. rewrite P2 in B1. assert (E : begun_plan pl t2 ++ plan = (begun_plan pl t1 ++ [SUse i' j' (UFast call)]) ++ plan) by (rewrite <- B1, <- app_assoc; exact A1). by apply app_inv_tail in E. }
  rewrite B3, E, omap_app, calls_of_app, A3. pose proof (handles_run math_Exp maxs e0 plans s1 s2) as HL. f_equal.
  - f_equal. clear -A2 HL. induction A2 as [|x l Ha _ IH]; [done|]. cbn [omap list_omap]. by rewrite IH, (resolve_le _ _ x HL Ha).
  - apply (given_later math_Exp maxs e0 plans _ s2) in Hg. apply (given_handle plans _ _ _ _ (sinv_run math_Exp maxs e0 plans (s1 ++ s2))) in Hg. cbn [omap list_omap resolve]. rewrite Hg. cbn. by rewrite decide_True.
Qed.

Lemma prefix_fast_calls sel p1 p2 : p1 `prefix_of` p2 -> fast_calls (uses sel p1) `prefix_of` fast_calls (uses sel p2).
Proof. intros [k ->]. rewrite uses_app, fast_calls_app. by eexists. Qed.

(** What a goroutine has returned from has been recorded. *)
Lemma returned_recorded s1 ref a b d k t plan L log : (exists i j, given (run s1) i j = Some (MFastCompass ref a b d)) -> threads (run s1) !! k = Some t -> plans !! k = Some plan ->
  valid_calls (made ref t ++ L) = log ++ recording (q_pc (at_ ref t)) ++ valid_calls (q_todo (at_ ref t) ++ L) ->
  valid_calls (fast_calls (uses (is_given (run s1) (MFastCompass ref a b d)) (done_plan plan t))) `prefix_of` log.
Proof.
  set (c1 := run s1). intros Hg Hk Hp Hv. pose proof (sinv_run math_Exp maxs e0 plans s1) as HI. fold c1 in HI. destruct (begun_before math_Exp maxs e0 plans s1 k t plan Hk Hp) as (B1 & _ & B3). fold c1 in B3.
  rewrite !valid_calls_app in Hv. rewrite !app_assoc in Hv. apply app_inv_tail in Hv. rewrite <- app_assoc in Hv.
  assert (HP : made ref t = fast_calls (uses (is_given c1 (MFastCompass ref a b d)) (begun_plan plan t))) by (rewrite B3; by apply (made_fast plans)).
  destruct (decide (gt_in t = Some ref)) as [Hin|Hin].
  - destruct (in_call_run math_Exp maxs e0 plans s1 k t ref Hk Hin) as (bf & i & j & u & H1 & H2 & H3). fold c1 in H2. rewrite Hp in H1. injection H1 as H1.
    assert (Hb : begun_plan plan t = bf ++ [SUse i j u]).
    { assert (B1' : begun_plan plan t ++ st_plan (gt_client t) = (bf ++ [SUse i j u]) ++ st_plan (gt_client t)) by (rewrite <- B1, <- app_assoc; exact H1). by apply app_inv_tail in B1'. }
    destruct u as [method|call].
    { exfalso. cbn in H2. destruct (handle_at (gs_client (shared c1)) i j) as [[[[r q|r a' b' d'| |]|]|]|] eqn:Eh; try done. injection H2 as ->.
      apply (given_handle plans _ i j _ HI) in Eh. apply (given_fits plans _ _ _ _ HI) in Eh. destruct Hg as (i0 & j0 & Hg). apply (given_fits plans _ _ _ _ HI) in Hg.
      destruct Hg as [_ (x & Ex)]. destruct Eh as [_ (rk & st & y & _ & Ey)]. rewrite Ex in Ey. discriminate Ey. }
    assert (Hmade : made ref t = fast_calls (uses (is_given c1 (MFastCompass ref a b d)) bf) ++ [call]).
    { rewrite B3, Hb, omap_app, calls_of_app, fast_calls_app. rewrite (made_fast plans c1 bf ref a b d HI Hg). f_equal. cbn [omap list_omap]. rewrite H2. cbn. by rewrite decide_True by done. }
    assert (Hd : done_plan plan t = bf).
    { unfold done_plan. rewrite Hin, Hb, app_length. cbn [length]. replace (pred (length bf + 1)) with (length bf) by lia. rewrite H1. by rewrite take_app. }
    rewrite Hd. rewrite Hmade, valid_calls_app in Hv. set (V := valid_calls (fast_calls _)) in *. destruct H3 as [[F1 F2]|[F1 [F2|F2]]].
    + rewrite F1, F2 in Hv. change (recording (QAt FIdle)) with (@nil (Z * string)) in Hv. cbn [app] in Hv. apply app_inv_tail in Hv. by rewrite Hv.
    + rewrite F1, F2 in Hv. change (valid_calls []) with (@nil (Z * string)) in Hv. rewrite !app_nil_r in Hv. rewrite <- Hv. by eexists.
    + rewrite F1, F2 in Hv. change (valid_calls []) with (@nil (Z * string)) in Hv. rewrite app_nil_r in Hv. apply app_inv_tail in Hv. by rewrite Hv.
  - assert (Hr : min_returned (inside_of min_idle ref t) = true) by (by eapply (finished_outside math_Exp maxs e0 plans s1)). apply min_returned_parts in Hr as (_ & _ & A1 & A2).
    rewrite A1, A2 in Hv. cbn in Hv. rewrite app_nil_r in Hv. rewrite <- Hv, HP. apply valid_prefix, prefix_fast_calls.
    unfold done_plan. destruct (gt_in t); [|done]. rewrite B1 at 2. destruct (begun_plan plan t) as [|x l] eqn:Eb; [done|]. cbn [length pred].
    exists (drop (length l) (x :: l)). rewrite take_app_le by (cbn; lia). by rewrite take_drop.
Qed.

(** A call of a getter or LastUpdateTime as a call in a run of one fast compass. *)
Theorem asked_through_handle s1 s2 i ref interval n mx call job : Second <= interval -> in64 interval -> 0 <= n ->
  let c1 := run s1 in let c2 := run (s1 ++ s2) in let m := MFastCompass ref interval n mx in asks_fast c1 c2 i ref m call job -> not_aborted c2 ref ->
  exists before e es progs tr1 tr2 got, e0 :: shown s1 = before ++ e :: es /\ shown tr1 = ce_ms <$> es /\ shown tr2 = ce_ms <$> shown s2 /\
    let fc0 := newFastCompass mx interval n in let r := ff_crun fc0 (ce_ms e) progs in
    fast_at c2 ref = Some (r (tr1 ++ tr2)) /\ (exists ts, fast_at c1 ref = Some (Config (shared (r tr1)) ts)) /\
    fs_crashed (shared (r (tr1 ++ tr2))) = false /\
    threads (r tr1) !! i = Some (QThread [call] (QAt FIdle) got) /\ threads (r (tr1 ++ tr2)) !! i = Some (QThread [] (QAt FIdle) (got ++ [job])) /\
    length progs = length plans /\
    (forall k rs, records_returned plans c1 m !! k = Some rs -> rs `prefix_of` log_of k (landed fc0 progs (ce_ms e) tr1)) /\
    (forall k rs, records_begun plans c2 m !! k = Some rs -> exists t, threads (r (tr1 ++ tr2)) !! k = Some t /\ rs = log_of k (landed fc0 progs (ce_ms e) (tr1 ++ tr2)) ++ recording (q_pc t) ++ valid_calls (q_todo t)).
Proof.
  intros I1 I2 I3 c1 c2 m (t1 & t2 & i' & j' & plan & got & H1 & H2 & Hin1 & Hpc & P1 & Hg & Hin2 & P2 & G1 & G2) Hab.
  assert (Hex : exists i j, given c1 i j = Some m) by eauto.
  destruct (fast_between s1 s2 ref interval n mx Hex) as (before & e & es & tr1 & tr2 & s & cc2 & later & E1 & E2 & E3 & R1 & R2 & T2 & Hlen & Hcalls & C1 & C2). fold c1 c2 in R1, R2, T2, Hlen, Hcalls, C1, C2.
  pose proof (threads_length math_Exp maxs e0 plans s1) as L1. fold c1 in L1. pose proof (threads_length math_Exp maxs e0 plans (s1 ++ s2)) as L2. fold c2 in L2.
  pose proof (sinv_run math_Exp maxs e0 plans (s1 ++ s2)) as HI2. fold c2 in HI2.
  assert (Hex2 : exists i j, given c2 i j = Some m) by (exists i', j'; by apply given_later).
  assert (Hl : forall k t t' l, threads c1 !! k = Some t -> threads c2 !! k = Some t' -> later !! k = Some l -> calls_of ref (gt_made t') = calls_of ref (gt_made t) ++ l).
  { intros k t t' l Ht Ht' Hk. assert (E : ((fun t => calls_of ref (gt_made t)) <$> threads c2) !! k = zip_with (++) ((fun t => calls_of ref (gt_made t)) <$> threads c1) later !! k) by (by rewrite Hcalls).
    rewrite lookup_zip_with, !list_lookup_fmap, Ht, Ht', Hk in E. by injection E. }
  set (progs := (fun t => made ref t) <$> threads c2) in *.
  assert (Hcr : fs_crashed (shared (ff_crun (newFastCompass mx interval n) (ce_ms e) progs (tr1 ++ tr2))) = false) by (rewrite C2; by apply Hab).
  assert (Hcr1 : fs_crashed (shared (ff_crun (newFastCompass mx interval n) (ce_ms e) progs tr1)) = false) by (by eapply crashed_app).
  assert (Hf : Forall (fun r => in64 (rc_time r)) (@nil fc_record)) by constructor.
  assert (Ex : fc_exec mx interval n [] = Ok (newFastCompass mx interval n)) by reflexivity.
  pose proof (fun s H => proj1 (ff_linearizable mx interval n [] _ (ce_ms e) progs I1 I2 I3 Hf Ex s H)) as HL.
  exists before, e, es, progs, tr1, tr2, got. split; [done|]. split; [done|]. split; [done|]. cbv zeta. split; [by rewrite C2|]. split; [rewrite C1; by eexists|]. split; [done|].
  assert (Hi2 : at_ ref t2 = QThread [] (QAt FIdle) (got ++ [job])).
  { assert (Hr : min_returned (inside_of min_idle ref t2) = true) by (eapply (finished_outside math_Exp maxs e0 plans (s1 ++ s2)); [exact H2|by rewrite Hin2]). apply min_returned_parts in Hr as (_ & _ & A1 & A2).
    unfold results_got in G2. rewrite R2, T2, list_lookup_fmap, H2 in G2. cbn in G2. injection G2 as G2. destruct (at_ ref t2). cbn in *. by subst. }
  split; [|split; [|split; [|split]]].
  - rewrite C1. cbn [threads]. destruct (later !! i) as [l|] eqn:El; [|apply lookup_ge_None in El; apply lookup_lt_Some in H1; lia].
    pose proof (Hl _ _ _ _ H1 H2 El) as Hc. rewrite (one_more_fast s1 s2 i t1 t2 i' j' call plan ref interval n mx H1 H2 P1 P2 Hg) in Hc. apply app_inv_head in Hc. subst l.
    assert (Hr : min_returned (inside_of min_idle ref t1) = true) by (eapply (finished_outside math_Exp maxs e0 plans s1); [exact H1|by rewrite Hin1]). apply min_returned_parts in Hr as (_ & _ & A1 & A2).
    rewrite lookup_zip_with, El. cbn [option_bind mbind]. rewrite H1. cbn. unfold q_push. rewrite A1, A2. unfold results_got in G1. rewrite R1 in G1. cbn [threads] in G1. rewrite list_lookup_fmap, H1 in G1. cbn in G1. injection G1 as <-. done.
  - by rewrite C2, T2, list_lookup_fmap, H2, <- Hi2.
  - subst progs. by rewrite fmap_length.
  - intros k rs Hrs. unfold records_returned in Hrs. apply lookup_zip_with_Some in Hrs as (pl & t & -> & Hpl & Ht).
    destruct (threads c2 !! k) as [t'|] eqn:Ht'; [|apply lookup_ge_None in Ht'; apply lookup_lt_Some in Ht; lia]. destruct (later !! k) as [l|] eqn:El; [|apply lookup_ge_None in El; apply lookup_lt_Some in Ht; lia].
    assert (Hpr : progs !! k = Some (made ref t')) by (subst progs; by rewrite list_lookup_fmap, Ht'). destruct (HL tr1 Hcr1 k _ Hpr) as (x & Hx & Hv).
    rewrite C1 in Hx. cbn [threads] in Hx. rewrite lookup_zip_with, El in Hx. cbn in Hx. rewrite Ht in Hx. cbn in Hx. injection Hx as <-. cbn [q_push q_pc q_todo] in Hv.
    rewrite (Hl _ _ _ _ Ht Ht' El), fast_calls_app in Hv. eapply returned_recorded; [exact Hex|exact Ht|exact Hpl|exact Hv].
  - intros k rs Hrs. unfold records_begun in Hrs. apply lookup_zip_with_Some in Hrs as (pl & t & -> & Hpl & Ht).
    assert (Hpr : progs !! k = Some (made ref t)) by (subst progs; by rewrite list_lookup_fmap, Ht). destruct (HL (tr1 ++ tr2) Hcr k _ Hpr) as (x & Hx & Hv). exists x. split; [done|]. rewrite <- Hv.
    destruct (begun_before math_Exp maxs e0 plans (s1 ++ s2) k t pl Ht Hpl) as (_ & _ & B3). fold c2 in B3. rewrite B3. by rewrite (made_fast plans c2 _ ref interval n mx HI2 Hex2).
Qed.
End system.
