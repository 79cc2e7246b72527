From Verif.Go Require Import GoInt GoFloat GoConc.
From Verif.Model Require Import WeightedSnapshot DecayingReservoir DecayingConc.
From Verif.Spec Require Import BucketSpec DecayingSpec DecayingConcSpec.
From Verif.Proofs Require Import BucketHist EWMAConcProofs DecayingConcProofs DecayingConcMore.
Local Open Scope Z_scope.

Notation HR := edrRescaleThreshold.

Section ticks.
Context (mexp : f64 -> f64) (tick0 : Z) (strict : bool).

(** Claimed a rescale, and not finished it. *)
Definition claimed (pc : dxpc) : bool := match pc with XLock _ | XClock _ | XStart _ _ _ | XScale _ _ => true | _ => false end.
Definition claims (s : dx_shared) (ts : list dxthread) : Z :=
  Z.of_nat (rescales s) + sumZ ((fun t => b2Z (claimed (dx_pc t))) <$> ts).

Definition tpc_ok (shown : list Z) (pc : dxpc) : Prop :=
  match pc with
  | XCmp _ now => now ∈ shown
  | XNext _ now | XCas _ now _ => now ∈ shown /\ tick0 + HR <= now
  | _ => True
  end.

Record tinv (shown : list Z) (s : dx_shared) (ts : list dxthread) : Prop := {
  t_tick : ds_tick s ∈ shown;
  t_next : exists m, m ∈ shown /\ ed_nextScaleTime (ds_rsv s) = m + HR /\ tick0 <= m;
  t_early : 0 < claims s ts -> exists m, m ∈ shown /\ tick0 + HR <= m;
  t_cnt : strict = true -> claims s ts * HR + tick0 + HR <= ed_nextScaleTime (ds_rsv s);
  t_pcs : forall i t, ts !! i = Some t -> tpc_ok shown (dx_pc t) }.

Lemma tinv_local shown s s' ts i t t' : tinv shown s ts -> ts !! i = Some t ->
  ds_tick s' = ds_tick s -> ed_nextScaleTime (ds_rsv s') = ed_nextScaleTime (ds_rsv s) ->
  Z.of_nat (rescales s') + b2Z (claimed (dx_pc t')) = Z.of_nat (rescales s) + b2Z (claimed (dx_pc t)) ->
  tpc_ok shown (dx_pc t') -> tinv shown s' (<[i := t']> ts).
Proof.
  intros [T1 T2 T3 T4 T5] Hi E1 E2 E3 E4.
  assert (claims s' (<[i := t']> ts) = claims s ts) as EC.
  { unfold claims. rewrite (sumZ_insert _ _ _ _ _ Hi). lia. }
  constructor; rewrite ?E1, ?E2, ?EC; try done.
  intros j u Hj. apply list_lookup_insert_Some in Hj as [(<- & <- & _)|[_ Hj]]; [done|by eapply T5].
Qed.

Lemma rescales_log s e : rescales (logged s e) = (rescales s + match e with Rescale _ => 1 | _ => 0 end)%nat.
Proof. unfold rescales. cbn [logged ds_log]. rewrite omap_app, app_length. by destruct e. Qed.

Lemma tinv_step shown s ts i t s' t' : tinv shown s ts -> (strict = true -> due_when_claimed (Config s ts)) ->
  Forall tick_ok shown -> ts !! i = Some t -> dx_tstep mexp s t = Some (s', t') -> tinv shown s' (<[i := t']> ts).
Proof.
  intros T HD HF Hi Hs. pose proof T as [T1 T2 T3 T4 T5]. pose proof (T5 i t Hi) as Hpc.
  destruct t as [todo pc got]. unfold dx_tstep in Hs. cbn [dx_pc dx_todo dx_got] in *. cbv zeta in Hs.
  assert (FR : forall k, claimed (dx_after k) = false) by (by intros []).
  assert (FO : forall k, tpc_ok shown (dx_after k)) by (by intros []).
  destruct pc as [|k|k now|k now|k now next|k|k|k old ms|k f|v r|v r ms|v r ms land|v r ms land| | |]; cbn [tpc_ok] in Hpc.
  - destruct todo as [|k todo]; [done|]. injection Hs as <- <-. eapply tinv_local; try done.
  - injection Hs as <- <-. eapply tinv_local; try done.
  - injection Hs as <- <-. destruct (Z.leb_spec (ed_nextScaleTime (ds_rsv s)) now) as [Hle|_].
    + eapply tinv_local; try done. cbn [dx_pc tpc_ok]. split; [done|]. destruct T2 as (m & _ & E & ?). lia.
    + eapply tinv_local; try done; cbn [dx_pc]; first [by rewrite FR|apply FO].
  - injection Hs as <- <-. eapply tinv_local; try done.
  - destruct Hpc as [Hp1 Hp2]. destruct (Z.eqb_spec (ed_nextScaleTime (ds_rsv s)) next) as [En|_]; injection Hs as <- <-.
    2:{ eapply tinv_local; try done; cbn [dx_pc]; first [by rewrite FR|apply FO]. }
    assert (Hn : tick_ok now) by (rewrite Forall_forall in HF; by apply HF).
    assert (HRv : HR = 3600000000000) by done.
    assert (Hw : wrap64 (now + HR) = now + HR) by (apply wrap64_id; unfold in64, two63, tick_ok in *; lia).
    assert (EC : claims (set_rsv s (set_nextScaleTime (ds_rsv s) (wrap64 (now + HR)))) (<[i := DxThread todo (XLock k) got]> ts) = claims s ts + 1).
    { unfold claims. rewrite (sumZ_insert _ _ _ _ _ Hi). cbn [dx_pc claimed b2Z]. change (rescales (set_rsv s _)) with (rescales s). lia. }
    constructor; cbn [set_rsv set_nextScaleTime ds_rsv ds_tick ed_nextScaleTime]; rewrite ?Hw in *; rewrite ?EC; try done.
    + exists now. split; [done|]. split; [done|]. lia.
    + intros _. by exists now.
    + intros Hst. specialize (HD Hst i _ Hi). cbn [shared threads dx_pc] in HD. specialize (T4 Hst). lia.
    + intros j u Hj. apply list_lookup_insert_Some in Hj as [(<- & <- & _)|[_ Hj]]; [done|by eapply T5].
  - destruct (_ || _); [done|]. injection Hs as <- <-. eapply tinv_local; try done.
  - injection Hs as <- <-. eapply tinv_local; try done.
  - injection Hs as <- <-. eapply tinv_local; try done.
  - injection Hs as <- <-. eapply tinv_local; try done.
    + unfold ed_rescale_body. cbn [logged set_lock set_rsv ds_rsv]. by destruct (feq f f0).
    + rewrite rescales_log. cbn [dx_pc]. rewrite FR. change (rescales (set_lock _ _ _)) with (rescales s). cbn [claimed b2Z]. lia.
    + apply FO.
  - injection Hs as <- <-. eapply tinv_local; try done.
  - injection Hs as <- <-. eapply tinv_local; try done.
  - destruct (_ || _); [done|]. injection Hs as <- <-. eapply tinv_local; try done.
  - destruct (ed_insert _ _ _ _) as [x|] eqn:Ex; injection Hs as <- <-; eapply tinv_local; try done.
    + cbn [logged set_lock set_rsv ds_rsv]. clear -Ex. unfold ed_insert in Ex. cbv zeta in Ex.
      repeat match type of Ex with context [if ?b then _ else _] => destruct b | context [match ?b with _ => _ end] => destruct b end;
      try done; by injection Ex as <-.
    + rewrite rescales_log. cbn [dx_pc claimed b2Z]. change (rescales (set_lock _ _ _)) with (rescales s). lia.
  - destruct (ds_writer s); [done|]. injection Hs as <- <-. eapply tinv_local; try done.
  - injection Hs as <- <-. eapply tinv_local; try done.
  - done.
Qed.

Lemma tinv_env shown s ts ms tick : tinv shown s ts -> tinv (shown ++ [tick]) (dx_estep s (ms, tick)) ts.
Proof.
  assert (L : forall x, x ∈ shown -> x ∈ shown ++ [tick]) by (intros; apply elem_of_app; by left).
  intros [T1 T2 T3 T4 T5]. constructor; cbn [dx_estep ds_rsv ds_tick snd].
  - apply elem_of_app. right. by apply elem_of_list_singleton.
  - destruct T2 as (m & ? & ?). exists m. auto.
  - intros H. destruct (T3 H) as (m & ? & ?). exists m. auto.
  - done.
  - intros i t Hi. specialize (T5 i t Hi). destruct (dx_pc t); cbn [tpc_ok] in *; try done; intuition auto.
Qed.

Lemma ticks_shown_snoc sched ev : ticks_shown tick0 (sched ++ [ev]) =
  ticks_shown tick0 sched ++ match ev with Env (_, tick) => [tick] | Run _ => [] end.
Proof. unfold ticks_shown. rewrite omap_app. cbn. destruct ev as [|[ms tick]]; done. Qed.

Lemma tinv_run c sched : Forall tick_ok (ticks_shown tick0 sched) -> tinv [tick0] (shared c) (threads c) ->
  (strict = true -> forall n, due_when_claimed (crun (dx_tstep mexp) dx_estep c (take n sched))) ->
  tinv (ticks_shown tick0 sched) (shared (crun (dx_tstep mexp) dx_estep c sched)) (threads (crun (dx_tstep mexp) dx_estep c sched)).
Proof.
  intros HF T HD. induction sched as [|ev sched IH] using rev_ind; [done|].
  rewrite ticks_shown_snoc in *. apply Forall_app in HF as [HF _].
  assert (T' : tinv (ticks_shown tick0 sched) (shared (crun (dx_tstep mexp) dx_estep c sched)) (threads (crun (dx_tstep mexp) dx_estep c sched))).
  { apply IH; [done|]. intros Hs n. specialize (HD Hs). destruct (decide (n <= length sched)%nat).
    - specialize (HD n). by rewrite take_app_le in HD by lia.
    - specialize (HD (length sched)). rewrite take_app in HD. by rewrite take_ge by lia. }
  assert (HD' : strict = true -> due_when_claimed (crun (dx_tstep mexp) dx_estep c sched)).
  { intros Hs. specialize (HD Hs (length sched)). by rewrite take_app in HD. }
  rewrite crun_snoc. destruct (crun (dx_tstep mexp) dx_estep c sched) as [s ts] eqn:Er. cbn [shared threads] in *.
  destruct ev as [i|[ms tick]]; cbn [cstep shared threads].
  - rewrite app_nil_r. destruct (ts !! i) as [t|] eqn:Hi; [|done].
    destruct (dx_tstep mexp s t) as [[s' t']|] eqn:Hs; [|done]. by eapply tinv_step.
  - by apply tinv_env.
Qed.

Lemma tinv_init size alpha ms0 progs : tick_ok tick0 ->
  tinv [tick0] (shared (dx_init size alpha ms0 tick0 progs)) (threads (dx_init size alpha ms0 tick0 progs)).
Proof.
  intros Ht. assert (HRv : HR = 3600000000000) by done.
  assert (Hw : wrap64 (tick0 + HR) = tick0 + HR) by (apply wrap64_id; unfold in64, two63, tick_ok in *; lia).
  assert (EC : claims (shared (dx_init size alpha ms0 tick0 progs)) (threads (dx_init size alpha ms0 tick0 progs)) = 0).
  { unfold claims, dx_init. cbn [shared threads]. change (Z.of_nat (rescales _)) with 0. induction progs as [|p progs IH]; [done|]. rewrite !fmap_cons, sumZ_cons. cbn [dx_pc claimed b2Z]. lia. }
  constructor; rewrite ?EC; cbn [dx_init shared threads ds_tick ds_rsv NewEDR ed_nextScaleTime]; rewrite ?Hw; try lia.
  - by apply elem_of_list_singleton.
  - exists tick0. split; [by apply elem_of_list_singleton|]. lia.
  - intros i t Hi. apply list_lookup_fmap_inv in Hi as (p & -> & _). done.
Qed.

Lemma claims_ge s ts : Z.of_nat (rescales s) <= claims s ts.
Proof. unfold claims. pose proof (sum_flags_nonneg (fun t => claimed (dx_pc t)) ts). cbv beta in *. lia. Qed.
End ticks.
