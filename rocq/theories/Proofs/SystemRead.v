(** The whole library in use: a compass read through a handle while others update it. *)
From Verif.Go Require Import GoInt GoFloat GoConc GoCompose.
From Verif.Model Require Import Config Registry RegistryConc BucketCounter FastCompass FastCompassConc FastCompassFine Compass CompassTypes CompassConc CompassFine CompassRead SystemConc.
From Verif.Spec Require Import BucketSpec CompassConcSpec CompassFineSpec CompassReadSpec RegistrySpec RegistryConcSpec SystemSpec.
From Verif.Proofs Require Import ComposeProofs ComposeHistory CompassConcProofs CompassFineProofs CompassFineParts CompassFineMain RegistryProofs RegistryConcProofs RegistryLimit RegistryConcMore CompassReadProofs CompassReadInv SystemProofs SystemMain SystemUse SystemHistory.
Local Open Scope Z_scope.

Lemma min_pushes l t : mi_compass (fold_left min_push l t) = d_push (mi_compass t) (compass_calls l).
Proof.
  revert t. induction l as [|u l IH]; intros t; [cbn; unfold d_push; rewrite app_nil_r; by destruct (mi_compass t)|].
  cbn [fold_left]. rewrite IH. change (u :: l) with ([u] ++ l). rewrite compass_calls_app. destruct u as [method|call]; cbn [min_push mi_compass].
  - unfold d_push. cbn [dt_todo dt_g dt_read dt_got]. rewrite <- app_assoc. do 3 f_equal. unfold compass_calls. cbn. by rewrite app_nil_r.
  - done.
Qed.
Lemma writes_app l1 l2 : writes (l1 ++ l2) = writes l1 ++ writes l2.
Proof. unfold writes. by rewrite omap_app. Qed.
Lemma writes_prefix l1 l2 : l1 `prefix_of` l2 -> writes l1 `prefix_of` writes l2.
Proof. intros [k ->]. rewrite writes_app. by eexists. Qed.
Lemma writes_join ls : writes (mjoin ls) = mjoin (writes <$> ls).
Proof. induction ls as [|l ls IH]; [done|]. rewrite fmap_cons, !join_cons', writes_app, IH. done. Qed.
Lemma join_prefixes {A} (xs ys : list (list A)) : Forall2 prefix xs ys -> mjoin xs ⊆+ mjoin ys.
Proof.
  induction 1 as [|x y xs ys [k ->] _ IH]; [done|]. rewrite !join_cons'. rewrite <- app_assoc. apply submseteq_app; [done|]. by apply submseteq_inserts_l.
Qed.
Lemma writes_prefixes xs ys : Forall2 prefix xs ys -> writes (mjoin xs) ⊆+ writes (mjoin ys).
Proof. intros H. rewrite !writes_join. apply join_prefixes. apply Forall2_fmap. eapply Forall2_impl; [exact H|]. intros x y. apply writes_prefix. Qed.
Lemma Forall2_zip_with {A B C D X} (f : A -> B -> X) (g : C -> D -> X) (R : X -> X -> Prop) (la : list A) (lb : list B) (lc : list C) (ld : list D) :
  length la = length lb -> length lc = length ld -> length la = length lc ->
  (forall k a b c d, la !! k = Some a -> lb !! k = Some b -> lc !! k = Some c -> ld !! k = Some d -> R (f a b) (g c d)) -> Forall2 R (zip_with f la lb) (zip_with g lc ld).
Proof.
  intros H1 H2 H3 H. apply Forall2_same_length_lookup_2; [rewrite !zip_with_length; lia|]. intros k x y Hx Hy.
  apply lookup_zip_with_Some in Hx as (a & b & -> & Ha & Hb). apply lookup_zip_with_Some in Hy as (c & d & -> & Hc & Hd). by eapply H.
Qed.
Lemma begun_later P L t : (length (dt_todo t) <= length P)%nat -> begun_calls (P ++ L) (d_push t L) = take (length P - length (dt_todo t)) P.
Proof.
  intros Hl. unfold begun_calls, d_push. cbn [dt_todo]. rewrite !app_length. replace (length P + length L - (length (dt_todo t) + length L))%nat with (length P - length (dt_todo t))%nat by lia.
  rewrite take_app_le by lia. done.
Qed.
Lemma prefix_take_app {A} (l1 l2 : list A) n : (length l1 <= n)%nat -> l1 `prefix_of` take n (l1 ++ l2).
Proof. intros H. rewrite take_app_ge by done. by eexists. Qed.

Section system.
Context (math_Exp : f64 -> f64) (maxs : list Z) (e0 : cenv) (plans : list (list saction)).
Notation mstep := (mobj_step math_Exp).
Notation run := (sy_run math_Exp maxs e0 plans).
Context (s1 s2 : list (event cenv)).
Let c1 := run s1.
Let c2 := run (s1 ++ s2).
Notation at_ ref t := (mi_compass (inside_of min_idle ref t)).
Notation made ref t := (compass_calls (calls_of ref (gt_made t))).

(** Two moments of a run as two moments of a run of a compass. *)
Lemma compass_between ref p : (exists i j, given c1 i j = Some (MCompass ref p)) ->
  exists before e es tr1 tr2 cc1 cc2 s later, e0 :: shown s1 = before ++ e :: es /\ shown tr1 = es /\ shown tr2 = shown s2 /\
    let progs := (fun t => made ref t) <$> threads c2 in
    reading_at c1 ref = Some (Config s ((fun t => at_ ref t) <$> threads c1)) /\ reading_at c2 ref = Some cc2 /\
    length later = length (threads c1) /\
    (fun t => calls_of ref (gt_made t)) <$> threads c2 = zip_with (++) ((fun t => calls_of ref (gt_made t)) <$> threads c1) later /\
    cc1 = Config s (zip_with (fun l t => d_push (at_ ref t) (compass_calls l)) later (threads c1)) /\
    cr_run math_Exp (reservoir_of (cpp_reservoirType p)) (cpp_bucketInterval p) (cpp_numOfBucket p) (cpp_maxErrorCodeCount p) (cpp_maxAddonCount p) e progs tr1 = Some cc1 /\
    cr_run math_Exp (reservoir_of (cpp_reservoirType p)) (cpp_bucketInterval p) (cpp_numOfBucket p) (cpp_maxErrorCodeCount p) (cpp_maxAddonCount p) e progs (tr1 ++ tr2) = Some cc2.
Proof.
  intros (i0 & j0 & Hg). pose proof (sinv_run math_Exp maxs e0 plans s1) as HI. fold c1 in HI. pose proof (given_fits _ _ _ _ _ HI Hg) as [_ (rk & st & s & Hrk & Ho)].
  destruct (seen_between sy_tstep (fun s _ => s) (fun _ => false) sy_effect mstep mobj_estep min_idle min_push min_returned (mobj_push math_Exp) _ ∅ e0 _ s1 s2 ref _ (sy_proper_run math_Exp maxs e0 plans) Ho)
    as (o0 & o2 & tr1 & tr2 & later & Ho2 & Hor & Hsh & Hlen & Hcalls & Hst1 & Hst2).
  change (grun sy_tstep _ _ sy_effect _ _ _ _ _ _ _ e0 _ s1) with c1 in *. change (grun sy_tstep _ _ sy_effect _ _ _ _ _ _ _ e0 _ (s1 ++ s2)) with c2 in *.
  destruct (origin_new _ _ _ _ _ Hor) as (k & nm & e & before & Hnew & Hb). destruct (began_compass math_Exp _ _ _ _ _ _ _ _ Hst1) as [s0 ->].
  destruct (compass_part math_Exp _ _ _ Hst1 _ _ _ _ _ eq_refl) as (s' & Hs' & Hcp1). cbn [shared threads] in Hs', Hcp1. injection Hs' as <-.
  destruct (compass_part math_Exp _ _ _ Hst2 _ _ _ _ _ eq_refl) as (sb & Hsb & Hcp2). cbn [shared threads] in Hsb, Hcp2. subst o2.
  destruct (new_compass_inv _ _ _ _ _ _ Hnew) as (objs0 & Eo & -> & ->).
  exists before, e, (shown tr1), tr1, tr2, (Config s (zip_with (fun l t => d_push (at_ ref t) (compass_calls l)) later (threads c1))), (Config sb ((fun t => at_ ref t) <$> threads c2)), s, later.
  split; [done|]. split; [done|]. split; [done|]. cbv zeta. split; [unfold reading_at; by rewrite Ho|]. split; [unfold reading_at; by rewrite Ho2|]. split; [done|]. split; [done|]. split; [done|].
  assert (Hlater : mi_compass <$> with_later min_push later (inside_of min_idle ref <$> threads c1) = zip_with (fun l t => d_push (at_ ref t) (compass_calls l)) later (threads c1)).
  { unfold with_later. clear. generalize (threads c1). intros l. revert later. induction l as [|t l IH]; intros later; [by destruct later|]. destruct later as [|x later]; [done|]. cbn. f_equal; [apply min_pushes|apply IH]. }
  rewrite Hlater in Hcp1, Hcp2. rewrite fmap_fmap in Hcp2.
  assert (Hinit : mi_compass <$> ((fun t => with_calls min_idle min_push (calls_of ref (gt_made t))) <$> threads c2) =
    (fun q => DThread q (GThread (KThread [] CompassConc.PIdle []) None ∅ []) None []) <$> ((fun t => made ref t) <$> threads c2)).
  { rewrite !fmap_fmap. apply list_fmap_ext. intros x t _. by rewrite with_calls_min. }
  rewrite Hinit in Hcp1. subst rk. pose proof (esteps_app _ _ _ _ _ _ _ Hcp1 Hcp2) as Hcp12. apply esteps_crun in Hcp1, Hcp12. unfold compass_step in Hcp1, Hcp12.
  unfold cr_run. rewrite Eo, <- Hcp1, <- Hcp12. split; reflexivity.
Qed.

(** What a goroutine has begun of its plan. *)
Lemma begun_before k t plan : threads (run s1) !! k = Some t -> plans !! k = Some plan ->
  plan = begun_plan plan t ++ st_plan (gt_client t) /\ Forall (available (gs_client (shared c1))) (begun_plan plan t) /\ gt_made t = omap (resolve (gs_client (shared c1))) (begun_plan plan t).
Proof.
  intros Hk Hp. destruct (si_threads _ _ (sinv_run math_Exp maxs e0 plans s1) k t Hk) as [_ _ _ (before & T4 & T5 & T6)]. rewrite Hp in T4. injection T4 as ->.
  assert (E : begun_plan (before ++ st_plan (gt_client t)) t = before).
  { unfold begun_plan. rewrite app_length. replace (length before + _ - _)%nat with (length before) by lia. apply take_app. }
  rewrite E. done.
Qed.
Lemma prefix_calls sel p1 p2 : p1 `prefix_of` p2 -> compass_calls (uses sel p1) `prefix_of` compass_calls (uses sel p2).
Proof. intros [k ->]. rewrite uses_app, compass_calls_app. by eexists. Qed.

(** The calls it has returned from are over. *)
Lemma returned_finished ref p k t plan L : (exists i j, given c1 i j = Some (MCompass ref p)) -> threads c1 !! k = Some t -> plans !! k = Some plan ->
  compass_calls (uses (is_given c1 (MCompass ref p)) (done_plan plan t)) `prefix_of` finished_calls (made ref t ++ L) (d_push (at_ ref t) L).
Proof.
  intros Hg Hk Hp. pose proof (sinv_run math_Exp maxs e0 plans s1) as HI. fold c1 in HI. destruct (begun_before k t plan Hk Hp) as (B1 & _ & B3).
  assert (HP : made ref t = compass_calls (uses (is_given c1 (MCompass ref p)) (begun_plan plan t))) by (rewrite B3; by apply (made_compass plans)).
  assert (Hid : idle_thread (d_push (at_ ref t) L) = idle_thread (at_ ref t)) by reflexivity.
  destruct (decide (gt_in t = Some ref)) as [Hin|Hin].
  - destruct (in_call_run math_Exp maxs e0 plans s1 k t ref Hk Hin) as (b & i & j & u & H1 & H2 & H3). fold c1 in H2. rewrite Hp in H1. injection H1 as H1.
    assert (Hb : begun_plan plan t = b ++ [SUse i j u]).
    { assert (B1' : begun_plan plan t ++ st_plan (gt_client t) = (b ++ [SUse i j u]) ++ st_plan (gt_client t)) by (rewrite <- B1, <- app_assoc; exact H1). by apply app_inv_tail in B1'. }
    destruct u as [method|call].
    2: { exfalso. cbn in H2. destruct (handle_at (gs_client (shared c1)) i j) as [[[[r q|r a b' d| |]|]|]|] eqn:Eh; try done. injection H2 as ->.
         apply (given_handle plans _ i j _ HI) in Eh. apply (given_fits plans _ _ _ _ HI) in Eh. destruct Hg as (i0 & j0 & Hg). apply (given_fits plans _ _ _ _ HI) in Hg.
         destruct Eh as [_ (x & Ex)]. destruct Hg as [_ (rk & st & y & _ & Ey)]. rewrite Ex in Ey. discriminate Ey. }
    destruct H3 as (past & Hm & Hpast).
    assert (Hmade : made ref t = compass_calls (uses (is_given c1 (MCompass ref p)) b) ++ method).
    { rewrite B3, Hb, omap_app, calls_of_app, compass_calls_app. rewrite (made_compass plans c1 b ref p HI Hg). f_equal. cbn [omap list_omap]. rewrite H2. cbn. rewrite decide_True by done. unfold compass_calls. cbn. by rewrite app_nil_r. }
    assert (Hd : done_plan plan t = b).
    { unfold done_plan. rewrite Hin, Hb, app_length. cbn [length]. replace (pred (length b + 1)) with (length b) by lia. rewrite H1. by rewrite take_app. }
    rewrite Hd. unfold finished_calls. rewrite Hid. rewrite begun_later by (rewrite Hmade, Hm, !app_length; lia). rewrite Hmade.
    set (Pb := compass_calls (uses _ b)) in *. assert (Hml : length method = (length past + length (dt_todo (at_ ref t)))%nat) by (rewrite Hm at 1; apply app_length). destruct (idle_thread _) eqn:Ei.
    + apply prefix_take_app. rewrite app_length. lia.
    + assert (Hne : (0 < length past)%nat) by (destruct past; [specialize (Hpast eq_refl); congruence|cbn; lia]).
      rewrite <- app_assoc. apply prefix_take_app. rewrite take_length, app_length. lia.
  - assert (Hr : min_returned (inside_of min_idle ref t) = true) by (by eapply (finished_outside math_Exp maxs e0 plans s1)). apply min_returned_parts in Hr as (A1 & A2 & _).
    unfold finished_calls. rewrite Hid, A2, begun_later by (rewrite A1; cbn; lia). rewrite A1. cbn [length]. rewrite Nat.sub_0_r, firstn_all. rewrite HP. apply prefix_calls.
    unfold done_plan. destruct (gt_in t); [|done]. rewrite B1 at 2. destruct (begun_plan plan t) as [|x l] eqn:Eb; [done|]. cbn [length pred].
    exists (drop (length l) (x :: l)). rewrite take_app_le by (cbn; lia). by rewrite take_drop.
Qed.
End system.

Section system.
Context (math_Exp : f64 -> f64) (maxs : list Z) (e0 : cenv) (plans : list (list saction)).
Notation run := (sy_run math_Exp maxs e0 plans).
Notation at_ ref t := (mi_compass (inside_of min_idle ref t)).
Notation made ref t := (compass_calls (calls_of ref (gt_made t))).
Notation compass p e := (cr_run math_Exp (reservoir_of (cpp_reservoirType p)) (cpp_bucketInterval p) (cpp_numOfBucket p) (cpp_maxErrorCodeCount p) (cpp_maxAddonCount p) e).

Lemma given_later s1 s2 i j m : given (run s1) i j = Some m -> given (run (s1 ++ s2)) i j = Some m.
Proof.
  intros H. apply (given_handle plans _ i j _ (sinv_run math_Exp maxs e0 plans s1)) in H. apply (given_handle plans _ i j _ (sinv_run math_Exp maxs e0 plans (s1 ++ s2))). by apply handles_run.
Qed.
(** One more call. *)
Lemma one_more_call s1 s2 i t1 t2 i' j' method plan ref p : threads (run s1) !! i = Some t1 -> threads (run (s1 ++ s2)) !! i = Some t2 ->
  st_plan (gt_client t1) = SUse i' j' (UCompass method) :: plan -> st_plan (gt_client t2) = plan -> given (run s1) i' j' = Some (MCompass ref p) ->
  calls_of ref (gt_made t2) = calls_of ref (gt_made t1) ++ [UCompass method].
Proof.
  intros H1 H2 P1 P2 Hg. destruct (plan_of math_Exp maxs e0 plans s1 i t1 H1) as [pl Hpl].
  destruct (begun_before math_Exp maxs e0 plans s1 i t1 pl H1 Hpl) as (A1 & A2 & A3). destruct (begun_before math_Exp maxs e0 plans (s1 ++ s2) i t2 pl H2 Hpl) as (B1 & _ & B3).
  assert (E : begun_plan pl t2 = begun_plan pl t1 ++ [SUse i' j' (UCompass method)]).
  { rewrite P1 in A1. rewrite P2 in B1. assert (E : begun_plan pl t2 ++ plan = (begun_plan pl t1 ++ [SUse i' j' (UCompass method)]) ++ plan) by (rewrite <- B1, <- app_assoc; exact A1). by apply app_inv_tail in E. }
  rewrite B3, E, omap_app, calls_of_app, A3. pose proof (handles_run math_Exp maxs e0 plans s1 s2) as HL. f_equal.
  - f_equal. clear -A2 HL. induction A2 as [|a l Ha _ IH]; [done|]. cbn [omap list_omap]. by rewrite IH, (resolve_le _ _ a HL Ha).
  - apply (given_later _ s2) in Hg. apply (given_handle plans _ _ _ _ (sinv_run math_Exp maxs e0 plans (s1 ++ s2))) in Hg. cbn [omap list_omap resolve]. rewrite Hg. cbn. by rewrite decide_True.
Qed.

Theorem read_through_handle s1 s2 i ref p method a : let c1 := run s1 in let c2 := run (s1 ++ s2) in asks_compass c1 c2 i ref p method a ->
  exists before e es progs tr1 tr2 cc1 cc2, e0 :: shown s1 = before ++ e :: es /\ shown tr1 = es /\ shown tr2 = shown s2 /\
    compass p e progs tr1 = Some cc1 /\ compass p e progs (tr1 ++ tr2) = Some cc2 /\ gives cc1 cc2 i method a /\
    (exists ts, reading_at c1 ref = Some (Config (shared cc1) ts)) /\ reading_at c2 ref = Some cc2 /\
    progressed compass_calls (is_given c2 (MCompass ref p)) plans c2 progs /\
    writes (calls_returned plans c1 (MCompass ref p)) ⊆+ CompassReadSpec.finished progs cc1 /\
    begun progs cc2 ⊆+ writes (calls_begun plans c2 (MCompass ref p)).
Proof.
  intros c1 c2 (t1 & t2 & i' & j' & plan & got & call & H1 & H2 & Hin1 & Hpc & P1 & Hg & Hin2 & P2 & G1 & G2).
  assert (Hex : exists i j, given c1 i j = Some (MCompass ref p)) by eauto.
  destruct (compass_between math_Exp maxs e0 plans s1 s2 ref p Hex) as (before & e & es & tr1 & tr2 & cc1 & cc2 & s & later & E1 & E2 & E3 & R1 & R2 & Hlen & Hcalls & Ecc1 & C1 & C2). fold c1 c2 in R1, R2, Hlen, Hcalls, Ecc1, C1, C2.
  pose proof (threads_length math_Exp maxs e0 plans s1) as L1. fold c1 in L1. pose proof (threads_length math_Exp maxs e0 plans (s1 ++ s2)) as L2. fold c2 in L2.
  pose proof (sinv_run math_Exp maxs e0 plans (s1 ++ s2)) as HI2. fold c2 in HI2.
  assert (Hex2 : exists i j, given c2 i j = Some (MCompass ref p)) by (exists i', j'; by apply given_later).
  assert (Hl : forall k t t' l, threads c1 !! k = Some t -> threads c2 !! k = Some t' -> later !! k = Some l -> calls_of ref (gt_made t') = calls_of ref (gt_made t) ++ l).
  { intros k t t' l Ht Ht' Hk. assert (E : ((fun t => calls_of ref (gt_made t)) <$> threads c2) !! k = zip_with (++) ((fun t => calls_of ref (gt_made t)) <$> threads c1) later !! k) by (by rewrite Hcalls).
    rewrite lookup_zip_with, !list_lookup_fmap, Ht, Ht', Hk in E. by injection E. }
  exists before, e, es, ((fun t => made ref t) <$> threads c2), tr1, tr2, cc1, cc2. split; [done|]. split; [done|]. split; [done|]. split; [done|]. split; [done|]. split; [|split; [|split; [done|split; [|split]]]].
  - destruct (later !! i) as [l|] eqn:El; [|apply lookup_ge_None in El; apply lookup_lt_Some in H1; lia].
    pose proof (Hl _ _ _ _ H1 H2 El) as Hc. rewrite (one_more_call s1 s2 i t1 t2 i' j' method plan ref p H1 H2 P1 P2 Hg) in Hc. apply app_inv_head in Hc. subst l.
    assert (Hr : min_returned (inside_of min_idle ref t1) = true) by (eapply (finished_outside math_Exp maxs e0 plans s1); [exact H1|by rewrite Hin1]). apply min_returned_parts in Hr as (A1 & A2 & _).
    exists (d_push (at_ ref t1) method), (at_ ref t2), [], call, []. split; [|split; [|split; [|split]]].
    + rewrite Ecc1. cbn [threads]. rewrite lookup_zip_with, El. cbn. rewrite H1. cbn. do 2 f_equal. unfold compass_calls. cbn. by rewrite app_nil_r.
    + unfold reading_at in R2. destruct (gs_objs (shared c2) !! ref) as [[p' rk st x|]|]; try done. injection R2 as <-. cbn [threads]. by rewrite list_lookup_fmap, H2.
    + exact A2.
    + unfold d_push. cbn [dt_todo]. by rewrite A1, app_nil_r.
    + unfold answers_got in G1, G2. rewrite R1 in G1. unfold reading_at in G2. destruct (gs_objs (shared c2) !! ref) as [[p' rk st x|]|]; try done. cbn [threads] in G1, G2. rewrite list_lookup_fmap, H1 in G1. rewrite list_lookup_fmap, H2 in G2.
      cbn in G1, G2. injection G1 as <-. injection G2 as ->. done.
  - rewrite Ecc1. cbn [shared]. by eexists.
  - split; [rewrite fmap_length; exact L2|]. intros q t pl prog Hq Hpl Hpr. rewrite list_lookup_fmap, Hq in Hpr. injection Hpr as <-.
    destruct (si_threads _ _ HI2 q t Hq) as [_ _ _ (bef & T4 & _ & T6)]. rewrite T6. rewrite (made_compass plans c2 bef ref p HI2 Hex2). rewrite T4 in Hpl. injection Hpl as <-. split.
    + rewrite uses_app, compass_calls_app. by eexists.
    + intros (F1 & _ & _). by rewrite F1, app_nil_r.
  - unfold calls_returned, CompassReadSpec.finished. apply writes_prefixes. rewrite Ecc1. cbn [threads]. apply Forall2_zip_with; [lia|rewrite fmap_length, zip_with_length; lia|rewrite fmap_length; lia|].
    intros k pl t prog x Hpl Ht Hprog Hx. apply lookup_zip_with_Some in Hx as (l & t' & -> & Hk & Ht'). rewrite Ht in Ht'. injection Ht' as <-. rewrite list_lookup_fmap in Hprog. destruct (threads c2 !! k) as [tb|] eqn:Hb; [|done]. injection Hprog as <-.
    rewrite (Hl _ _ _ _ Ht Hb Hk), compass_calls_app. by eapply returned_finished.
  - unfold calls_begun, begun. apply writes_prefixes. unfold reading_at in R2. destruct (gs_objs (shared c2) !! ref) as [[p' rk st x|]|]; try done. injection R2 as <-. cbn [threads]. apply Forall2_zip_with; [by rewrite !fmap_length|lia|rewrite fmap_length; lia|].
    intros k prog t' pl t Hprog Ht' Hpl Ht. rewrite list_lookup_fmap, Ht in Hprog. injection Hprog as <-. rewrite list_lookup_fmap, Ht in Ht'. injection Ht' as <-.
    destruct (begun_before math_Exp maxs e0 plans (s1 ++ s2) k t pl Ht Hpl) as (_ & _ & B3). rewrite B3. rewrite (made_compass plans c2 _ ref p HI2 Hex2). unfold begun_calls. eexists. symmetry. apply take_drop.
Qed.
End system.
