(** The exponentially decaying reservoir (impl/exponentially_decaying_reservoir.go),
    one goroutine at a time.

    [math_Exp] stands for math.Exp and is arbitrary but for [exp_ok]; the random
    numbers and the ticks are arbitrary; the wall clock does not go back. *)
From Verif.Go Require Import GoInt GoFloat.
From Verif.Model Require Import WeightedSnapshot DecayingReservoir.
From Verif.Spec Require Import BucketSpec DecayingSpec.
From Verif.Proofs Require Import FloatProofs DecayingProofs DecayingCalls DecayingTop.
From Coq Require Import Reals Lra.
From Flocq Require Import Core.Core IEEE754.BinarySingleNaN.
Local Open Scope Z_scope.

Section histories.
Context (math_Exp : f64 -> f64) (size : Z) (alpha : f64) (ms0 tick0 : Z).

Definition setting_ok : Prop := exp_ok math_Exp /\ 1 <= size < 2 ^ 63 /\ decay_ok alpha /\ 0 <= ms0 < 2 ^ 62.

Lemma reach calls rsv : setting_ok -> times_ok ms0 calls -> Z.of_nat (length calls) < 2 ^ 63 ->
  ed_run math_Exp (NewEDR size alpha ms0 tick0) calls = Ok rsv ->
  ed_inv rsv (updated_values calls) (Z.of_nat (length (updated_values calls))) /\ ed_size rsv = size.
Proof.
  intros (HE & Hs & Ha & Hm) Ht Hl E. destruct (call_main math_Exp HE calls (NewEDR size alpha ms0 tick0) [] 0 ms0) as (r & Er & I & S).
  - by apply call_inv_new.
  - apply ed_inv_new. lia.
  - done.
  - lia.
  - rewrite E in Er. injection Er as <-. cbn [app] in I. done.
Qed.

(** C57: with capacity >= 1 no history panics. *)
Theorem C57_decaying_no_panic calls : setting_ok -> times_ok ms0 calls -> Z.of_nat (length calls) < 2 ^ 63 ->
  exists rsv, ed_run math_Exp (NewEDR size alpha ms0 tick0) calls = Ok rsv.
Proof.
  intros (HE & Hs & Ha & Hm) Ht Hl. destruct (call_main math_Exp HE calls (NewEDR size alpha ms0 tick0) [] 0 ms0) as (r & Er & I & S).
  - by apply call_inv_new.
  - apply ed_inv_new. lia.
  - done.
  - lia.
  - by exists r.
Qed.

(** C52: Size is at most the capacity and at most the number of recorded values; a
    snapshot taken then holds at most as many values as Size reports, before and
    after the snapshot. *)
Theorem C52_decaying_size calls rsv tick ms : setting_ok -> times_ok ms0 (calls ++ [DSnapshot tick ms]) -> Z.of_nat (length calls) < 2 ^ 63 - 1 ->
  ed_run math_Exp (NewEDR size alpha ms0 tick0) calls = Ok rsv ->
  let '(rsv', values) := ed_GetSnapshot math_Exp rsv tick ms in
  0 <= ed_Size rsv <= size /\ ed_Size rsv <= Z.of_nat (length (updated_values calls)) /\
  Z.of_nat (length values) <= ed_Size rsv /\ Z.of_nat (length values) <= ed_Size rsv' <= size.
Proof.
  intros HS Ht Hl E. pose proof HS as (HE & Hs & Ha & Hm).
  destruct (times_app math_Exp HE calls _ ms0 Ht) as (Ht1 & last & Ht2 & HC).
  destruct (reach calls rsv HS Ht1 ltac:(lia) E) as [I S].
  pose proof (HC _ _ (call_inv_new size alpha ms0 tick0 Ha Hm) E) as C.
  destruct Ht2 as (T1 & T2 & _). unfold ed_GetSnapshot.
  assert (Forall ok (ed_values rsv)) as Ok1 by apply I.
  assert (ed_inv (ed_rescaleIfNeeded math_Exp rsv tick ms) (updated_values calls) (Z.of_nat (length (updated_values calls))) /\
    ed_size (ed_rescaleIfNeeded math_Exp rsv tick ms) = size /\
    (length (ed_values (ed_rescaleIfNeeded math_Exp rsv tick ms)) <= length (ed_values rsv))%nat) as (I' & S' & L').
  { unfold ed_rescaleIfNeeded. destruct (ed_nextScaleTime rsv <=? tick); [|done]. unfold ed_rescale_locked.
    set (rsv1 := set_nextScaleTime rsv _). assert (call_inv rsv1 last) as C1 by (by destruct C).
    destruct (factor_call math_Exp HE rsv1 last ms C1 ltac:(lia)) as [Hf Hf1]. set (f := ed_scalingFactor _ _ _) in *.
    assert (ed_inv (set_startTime rsv1 (currentTimeInSecond ms)) (updated_values calls) (Z.of_nat (length (updated_values calls)))) as I1
      by (eapply ed_inv_frame; [exact I|done|done|done]).
    destruct (ed_rescale_inv _ _ _ f I1 Hf) as [I2 S2].
    split; [eapply ed_inv_weaken; [exact I2| |lia]; intros v Hv; destruct (feq f f0); [by apply elem_of_nil in Hv|done]|].
    split; [rewrite S2; exact S|]. unfold ed_rescale_body. destruct (feq f f0) eqn:Hz; [cbn; lia|]. cbn [set_count set_values ed_values].
    unfold ed_GetValues. cbn [set_startTime ed_values rsv1 set_nextScaleTime]. rewrite iter_all by done.
    destruct (loop_inv f (ed_values rsv) Hf Hz (ed_values rsv)) as (_ & _ & A3 & _); try apply I; [|done]. intros s Hs'. by exists s. }
  unfold ed_GetValues. rewrite iter_all by apply I'.
  pose proof (ei_len _ _ _ I). pose proof (ei_len _ _ _ I'). pose proof (ei_count _ _ _ I). rewrite S, S' in *.
  unfold ed_Size. rewrite S, S'.
  destruct (Z.ltb_spec (ed_count rsv) size); destruct (Z.ltb_spec (ed_count (ed_rescaleIfNeeded math_Exp rsv tick ms)) size); lia.
Qed.

(** C54: a snapshot's values were all recorded, and after the reservoir has become
    empty (total decay) only later records show up. *)
Theorem C54_decaying_recorded_only calls1 calls2 rsv1 rsv2 : setting_ok -> times_ok ms0 (calls1 ++ calls2) ->
  Z.of_nat (length (calls1 ++ calls2)) < 2 ^ 63 ->
  ed_run math_Exp (NewEDR size alpha ms0 tick0) calls1 = Ok rsv1 ->
  ed_run math_Exp rsv1 calls2 = Ok rsv2 ->
  (forall s, s ∈ ed_GetValues rsv2 -> sm_value s ∈ updated_values (calls1 ++ calls2)) /\
  (ed_GetValues rsv1 = [] -> forall s, s ∈ ed_GetValues rsv2 -> sm_value s ∈ updated_values calls2).
Proof.
  intros HS Ht Hl E1 E2. pose proof HS as (HE & Hs & Ha & Hm).
  destruct (times_app math_Exp HE calls1 calls2 ms0 Ht) as (Ht1 & last & Ht2 & HC).
  assert (length (updated_values calls1) <= length calls1)%nat as Lu.
  { clear. unfold updated_values. induction calls1 as [|c l IH]; [done|]. cbn. destruct c; cbn; lia. }
  rewrite app_length in Hl. destruct (reach calls1 rsv1 HS Ht1 ltac:(lia) E1) as [I S].
  pose proof (HC _ _ (call_inv_new size alpha ms0 tick0 Ha Hm) E1) as C.
  destruct (call_main math_Exp HE calls2 rsv1 _ _ last C I Ht2 ltac:(lia)) as (r & Er & I2 & _). rewrite E2 in Er. injection Er as <-.
  unfold ed_GetValues. rewrite !iter_all by (apply I2 || apply I). split.
  - intros s Hs'. apply (ei_vals _ _ _ I2) in Hs'. unfold updated_values in *. by rewrite omap_app.
  - intros Hnil. assert (ed_inv rsv1 [] (Z.of_nat (length (updated_values calls1)))) as I0.
    { destruct I. constructor; try done. intros e He. rewrite Hnil in He. by apply elem_of_nil in He. }
    destruct (call_main math_Exp HE calls2 rsv1 _ _ last C I0 Ht2 ltac:(lia)) as (r & Er & I3 & _). rewrite E2 in Er. injection Er as <-.
    intros s Hs'. by apply (ei_vals _ _ _ I3) in Hs'.
Qed.

(** C53 is false: when two updates get the same priority (the generator is seeded
    with the time in nanoseconds, so two updates within one nanosecond do, at the
    same decay second) one of the values is lost, but counted. *)
Theorem C53_decaying_size_is_snapshot_size_refuted tick ms r v1 v2 : 2 <= size -> tick < ed_nextScaleTime (NewEDR size alpha ms0 tick0) ->
  exists rsv, ed_run math_Exp (NewEDR size alpha ms0 tick0) [DUpdate tick ms ms r v1; DUpdate tick ms ms r v2] = Ok rsv /\
    ed_Size rsv = 2 /\ (length (ed_GetValues rsv) <= 1)%nat.
Proof.
  intros Hs Ht. set (rsv0 := NewEDR size alpha ms0 tick0) in *.
  rewrite run_offers by (constructor; [done|constructor; done]). cbn [omap list_omap]. set (w := ed_itemWeight math_Exp rsv0 ms).
  set (p := ed_priority w r). cbn [ed_events ed_apply]. unfold ed_insert. cbn zeta.
  change (wrap64 (ed_count rsv0 + 1)) with 1. cbn [set_count ed_count ed_size ed_values rsv0 NewEDR].
  destruct (Z.leb_spec 1 size) as [_|?]; [|lia]. cbn [mbind res_bind set_values set_count ed_count ed_size ed_values].
  change (wrap64 (1 + 1)) with 2. change (ed_size rsv0) with size. destruct (Z.leb_spec 2 size) as [_|?]; [|lia]. cbn [mbind res_bind].
  eexists. split; [reflexivity|]. split.
  { unfold ed_Size. cbn [set_values set_count ed_count ed_size rsv0 NewEDR]. destruct (Z.ltb_spec 2 size); lia. }
  unfold ed_GetValues. cbn [set_values set_count ed_values].
  assert (forall x, flt x x = false) as Hirr.
  { intros x. destruct x as [s|s| |s m e Hb]; try done; [by destruct s|]. unfold flt, Bltb, SpecFloat.SFltb. cbn.
    destruct s; rewrite Z.compare_refl, Pos.compare_cont_refl; done. }
  set (c1 := WeightedSample p v1 w). set (c2 := WeightedSample p v2 w).
  assert (sm_Compare c1 c2 = 0) as Hc by (unfold sm_Compare; cbn [c1 c2 sm_key]; by rewrite Hirr).
  assert (sk_Insert (sk_Insert [] c1) c2 = [c2]) as -> by (cbn [sk_Insert]; by rewrite Hc).
  cbn [sk_Iter]. destruct (sm_Compare c2 _ <? 0); cbn [length]; lia.
Qed.
End histories.

(** ** One critical section after the other *)

(** What is true of every reservoir reached from an empty one by offers and rescales. *)
Lemma reach_events size alpha ms0 tick0 es rsv : 1 <= size -> Forall event_ok es -> Z.of_nat (length es) < 2 ^ 63 ->
  ed_events (NewEDR size alpha ms0 tick0) es = Ok rsv ->
  ed_inv rsv (offered es) (Z.of_nat (length (offers es))) /\ ed_size rsv = size.
Proof.
  intros Hs HF Hl E. assert (length (offers es) <= length es)%nat by apply offers_length.
  destruct (events_inv es HF (NewEDR size alpha ms0 tick0) [] 0 (ed_inv_new _ _ _ _ Hs)) as (r & Er & I & S); [lia|].
  rewrite E in Er. injection Er as <-. done.
Qed.

(** C52, C54, C57 for all lists of offers and rescales with any finite factors
    (also factors above 1, as when the wall clock goes back). *)
Theorem C52_C54_C57_decaying_events size alpha ms0 tick0 es : 1 <= size -> Forall event_ok es -> Z.of_nat (length es) < 2 ^ 63 ->
  exists rsv, ed_events (NewEDR size alpha ms0 tick0) es = Ok rsv /\
    0 <= ed_Size rsv <= size /\ ed_Size rsv <= Z.of_nat (length (offers es)) /\
    Z.of_nat (length (ed_GetValues rsv)) <= ed_Size rsv /\
    keys_ascending (ed_GetValues rsv) /\
    forall s, s ∈ ed_GetValues rsv -> sm_value s ∈ offered es.
Proof.
  intros Hs HF Hl. assert (length (offers es) <= length es)%nat by apply offers_length.
  destruct (events_inv es HF (NewEDR size alpha ms0 tick0) [] 0 (ed_inv_new _ _ _ _ Hs)) as (r & Er & I & S); [lia|].
  exists r. split; [done|]. destruct I. cbn in S. unfold ed_GetValues. rewrite iter_all by done. unfold ed_Size. rewrite S in *.
  split; [destruct (Z.ltb_spec (ed_count r) size); lia|]. split; [destruct (Z.ltb_spec (ed_count r) size); lia|].
  split; [destruct (Z.ltb_spec (ed_count r) size); lia|]. split; [by apply asc_keys|done].
Qed.

(** C53, as far as it goes: the snapshot holds exactly Size values as long as no
    offered priority is equal to one in the reservoir at that moment (since the last
    rescale). *)
Fixpoint fresh_offers (rsv : edr) (es : list ed_event) : Prop :=
  match es with
  | [] => True
  | e :: es =>
      match e with Offer p _ _ => forall s, s ∈ ed_GetValues rsv -> feq (sm_key s) p = false | Rescale _ => True end /\
      forall rsv', ed_apply rsv e = Ok rsv' -> fresh_offers rsv' es
  end.
Theorem C53_decaying_size_is_snapshot_size_partial size alpha ms0 tick0 es1 es2 rsv1 rsv2 :
  1 <= size -> Forall event_ok (es1 ++ es2) -> Z.of_nat (length (es1 ++ es2)) < 2 ^ 63 ->
  es1 = [] \/ (exists es f, es1 = es ++ [Rescale f]) ->
  ed_events (NewEDR size alpha ms0 tick0) es1 = Ok rsv1 -> ed_events rsv1 es2 = Ok rsv2 -> fresh_offers rsv1 es2 ->
  Z.of_nat (length (ed_GetValues rsv2)) = ed_Size rsv2.
Proof.
  intros Hs HF Hl He E1 E2 Hfr. apply Forall_app in HF as [HF1 HF2]. rewrite app_length in Hl.
  destruct (reach_events size alpha ms0 tick0 es1 rsv1 Hs HF1 ltac:(lia) E1) as [I S].
  assert (ed_count rsv1 = Z.of_nat (length (ed_values rsv1))) as EC.
  { destruct He as [->|(es & f & ->)]; [cbn in E1; by injection E1 as <-|].
    assert (exists x, rsv1 = ed_rescale_body x f) as (x & ->).
    { clear -E1. revert E1. generalize (NewEDR size alpha ms0 tick0). induction es as [|e es IH]; intros r E.
      - cbn in E. injection E as <-. by exists r.
      - cbn [app ed_events] in E. destruct (ed_apply r e) as [y|]; [|done]. by apply (IH y). }
    unfold ed_rescale_body. by destruct (feq f f0). }
  assert (length (offers es1) <= length es1)%nat as Lo by apply offers_length.
  assert (Z.of_nat (length (ed_values rsv1)) = Z.min (ed_size rsv1) (ed_count rsv1)) as EL by (pose proof (ei_len _ _ _ I); lia).
  assert (Z.of_nat (length (offers es1)) + Z.of_nat (length es2) < 2 ^ 63) as Hn by lia.
  clear -I EL HF2 E2 Hfr Hn. revert I Hn. generalize (offered es1) (Z.of_nat (length (offers es1))). intros vals n I Hn.
  revert rsv1 vals n I Hn EL E2 Hfr. induction HF2 as [|e es He HF IH]; intros rsv vals n I Hn EL E Hfr.
  { cbn in E. injection E as <-. unfold ed_GetValues. rewrite iter_all by apply I. unfold ed_Size. destruct (Z.ltb_spec (ed_count rsv) (ed_size rsv)); lia. }
  cbn [fresh_offers] in Hfr. destruct Hfr as [Hf Hfr]. cbn [ed_events] in E. cbn [length] in Hn. destruct (ed_apply rsv e) as [r|] eqn:Ea; [|done]. cbn [mbind res_bind] in E.
  destruct e as [p v w|f]; cbn [event_ok] in He; cbn [ed_apply] in Ea.
  - destruct (ed_insert_inv rsv vals n p v w I He ltac:(lia)) as (r' & Er & I' & S' & _). rewrite Ea in Er. injection Er as <-.
    apply (IH r _ _ I'); [lia| |done|by apply Hfr]. clear IH Hfr.
    set (c := WeightedSample p v w). assert (ok c) as Oc by done. destruct I as [ei_size0 ei_asc0 ei_ok0 ei_len0 ei_count0 ei_some0 ei_vals0].
    unfold ed_GetValues in Hf. rewrite iter_all in Hf by done.
    assert (forall s, s ∈ ed_values rsv -> sk s <> sk c) as Hne.
    { intros s Hs HH. specialize (Hf s Hs). rewrite Forall_forall in ei_ok0. rewrite (proj2 (feq_rank _ _ (ei_ok0 s Hs) He)) in Hf; [done|exact HH]. }
    unfold ed_insert in Ea. cbn zeta in Ea. rewrite wrap64_id in Ea by (unfold in64, two63; lia). cbn [set_count ed_count ed_size ed_values] in Ea. fold c in Ea.
    destruct (Z.leb_spec (ed_count rsv + 1) (ed_size rsv)) as [C|C].
    + injection Ea as <-. cbn [set_values set_count ed_values ed_size ed_count]. rewrite (insert_new _ c ei_asc0 ei_ok0 Oc Hne). cbn [length]. lia.
    + unfold ed_GetValues in Ea. cbn [set_count ed_values] in Ea. rewrite iter_all in Ea by done.
      destruct (ed_values rsv) as [|first l] eqn:El; [done|]. destruct (fle p (sm_key first)).
      { injection Ea as <-. cbn [set_values set_count ed_values ed_size ed_count]. rewrite El. cbn [length] in *. lia. }
      pose proof (get_spec (first :: l) c ei_asc0 ei_ok0 Oc) as G. destruct (sk_Get (first :: l) c) as [x|]; [exfalso; destruct G as [G1 G2]; by apply (Hne x)|].
      injection Ea as <-. cbn [set_values set_count ed_values ed_size ed_count].
      apply Forall_cons in ei_ok0 as [Of Ol]. pose proof (delete_head first l Of) as HD. cbn [sk_Delete] in HD. rewrite HD. clear HD. apply StronglySorted_inv in ei_asc0 as [Sl _].
      rewrite (insert_new l c Sl Ol Oc ltac:(intros s Hs; apply Hne; by right)). cbn [length] in *. lia.
  - injection Ea as <-. destruct (ed_rescale_inv rsv vals n f I He) as [I' S'].
    apply (IH _ _ _ I'); [lia| |done|by apply Hfr]. pose proof (ei_len _ _ _ I') as HL.
    assert (ed_count (ed_rescale_body rsv f) = Z.of_nat (length (ed_values (ed_rescale_body rsv f)))) as EC by (unfold ed_rescale_body; by destruct (feq f f0)).
    lia.
Qed.

(** C55: from a new reservoir, or one just rescaled, on: offers whose priorities are
    all different (and different from the ones present) leave the samples with the
    highest priorities, as many as the capacity allows. *)
Definition different_keys (l : list sample) : Prop := ForallOrdPairs (fun a b => feq (sm_key a) (sm_key b) = false) l.
Definition offers_of (l : list sample) : list ed_event := (fun s => Offer (sm_key s) (sm_value s) (sm_weight s)) <$> l.
Theorem C55_decaying_keeps_top size alpha ms0 tick0 es rsv1 samples :
  1 <= size -> Forall event_ok es -> Forall (fun s => key_ok (sm_key s)) samples -> Z.of_nat (length es + length samples) < 2 ^ 63 - 1 ->
  es = [] \/ (exists es' f, es = es' ++ [Rescale f]) ->
  ed_events (NewEDR size alpha ms0 tick0) es = Ok rsv1 ->
  different_keys (ed_GetValues rsv1 ++ samples) ->
  exists rsv2, ed_events rsv1 (offers_of samples) = Ok rsv2 /\
    keeps_top size (ed_GetValues rsv1 ++ samples) (ed_GetValues rsv2) /\ keys_ascending (ed_GetValues rsv2).
Proof.
  intros Hs HF HS Hl He E1 HD.
  destruct (reach_events size alpha ms0 tick0 es rsv1 Hs HF ltac:(lia) E1) as [I S].
  assert (ed_count rsv1 = Z.of_nat (length (ed_values rsv1))) as EC.
  { destruct He as [->|(es' & f & ->)]; [cbn in E1; by injection E1 as <-|].
    assert (exists x, rsv1 = ed_rescale_body x f) as (x & ->).
    { clear -E1. revert E1. generalize (NewEDR size alpha ms0 tick0). induction es' as [|e es IH]; intros r E.
      - cbn in E. injection E as <-. by exists r.
      - cbn [app ed_events] in E. destruct (ed_apply r e) as [y|]; [|done]. by apply (IH y). }
    unfold ed_rescale_body. by destruct (feq f f0). }
  assert (length (offers es) <= length es)%nat as Lo by apply offers_length.
  assert (top_state rsv1 (ed_values rsv1)) as T.
  { destruct I. split; [lia|]. split; [done|]. split; [done|]. split; [done|]. exists []. rewrite app_nil_r. split; [done|]. split; [lia|].
    intros a b _ Hb. by apply elem_of_nil in Hb. }
  assert (Z.of_nat (length (ed_values rsv1) + length samples) < 2 ^ 63 - 1) as Hn.
  { destruct I. lia. }
  unfold ed_GetValues in *. rewrite (iter_all (ed_values rsv1)) in * by apply I. rewrite <- S. clear E1 He HF Hl Lo EC I Hs S. revert T Hn HD.
  set (all := ed_values rsv1). clearbody all.
  enough (forall samples rsv all, Forall (fun s => key_ok (sm_key s)) samples -> top_state rsv all -> Z.of_nat (length all + length samples) < 2 ^ 63 - 1 ->
    different_keys (all ++ samples) -> exists rsv2, ed_events rsv (offers_of samples) = Ok rsv2 /\ ed_size rsv2 = ed_size rsv /\ top_state rsv2 (all ++ samples)) as HH.
  { intros T Hn HD. destruct (HH samples rsv1 all HS T Hn HD) as (r & Er & Sr & Tr). exists r. split; [done|].
    destruct Tr as (_ & Ta & Tok & _ & rest & P & L & Top).
    assert (Forall ok (ed_values r)) as Or. { rewrite Forall_forall in *. intros e He. apply Tok. rewrite P. apply elem_of_app. by left. }
    rewrite iter_all by done. split; [|by apply asc_keys].
    exists rest. split; [done|]. rewrite <- Sr. split; [done|]. intros a b Ha Hb. rewrite Forall_forall in *.
    apply flt_rank; [apply Tok; rewrite P; apply elem_of_app; by right|by apply Or|by apply Top]. }
  clear. induction samples as [|s samples IH]; intros rsv all HS T Hn HD.
  - exists rsv. rewrite app_nil_r. done.
  - apply Forall_cons in HS as [Hs HS]. cbn [length] in Hn.
    destruct (top_insert rsv all (sm_key s) (sm_value s) (sm_weight s) T Hs) as (r & Er & Sr & Tr); [|lia|].
    + intros e He HH. destruct T as (_ & _ & Tok & _). rewrite Forall_forall in Tok.
      enough (feq (sm_key e) (sm_key s) = false) as Hq.
      { rewrite (proj2 (feq_rank _ _ (Tok e He) Hs)) in Hq; [done|exact HH]. }
      clear -HD He. induction all as [|a all IHa]; [by apply elem_of_nil in He|]. cbn [app] in HD. inversion HD as [|x y H1 H2]; subst.
      apply elem_of_cons in He as [->|He]; [|by apply IHa]. rewrite Forall_forall in H1. apply H1. apply elem_of_app. right. left.
    + replace (WeightedSample (sm_key s) (sm_value s) (sm_weight s)) with s in Tr by (by destruct s).
      destruct (IH r (all ++ [s]) HS Tr) as (r2 & E2 & S2 & T2); [rewrite app_length; cbn; lia|by rewrite <- app_assoc|].
      exists r2. cbn [offers_of fmap list_fmap ed_events ed_apply]. rewrite Er. cbn [mbind res_bind]. split; [done|]. split; [congruence|].
      by rewrite <- app_assoc in T2.
Qed.

(** C55 at the level of calls: the priority of a recorded value is
    exp(alpha * (seconds since the start time)) / random. *)
Definition sample_of (math_Exp : f64 -> f64) (alpha : f64) (start : Z) (c : ed_call) : option sample :=
  match c with
  | DUpdate _ _ ms r v =>
      let w := math_Exp (fmul alpha (f_of_int (wrap64 (Z.quot ms 1000 - start)))) in Some (WeightedSample (fdiv w r) v w)
  | DSnapshot _ _ => None
  end.
Theorem C55_decaying_keeps_top_calls math_Exp size alpha ms0 tick0 calls :
  exp_ok math_Exp -> 1 <= size -> decay_ok alpha -> 0 <= ms0 < 2 ^ 62 -> times_ok ms0 calls -> Z.of_nat (length calls) < 2 ^ 63 - 1 ->
  no_rescale_due (wrap64 (tick0 + 3600 * 1000000000)) calls ->
  let samples := omap (sample_of math_Exp alpha (Z.quot ms0 1000)) calls in
  different_keys samples ->
  exists rsv, ed_run math_Exp (NewEDR size alpha ms0 tick0) calls = Ok rsv /\
    keeps_top size samples (ed_GetValues rsv) /\ keys_ascending (ed_GetValues rsv).
Proof.
  intros HE Hs Ha Hm Ht Hl Hd samples HD. rewrite run_offers by exact Hd.
  assert (omap (fun c => match c with
    | DUpdate _ _ ms r v => let w := ed_itemWeight math_Exp (NewEDR size alpha ms0 tick0) ms in Some (Offer (ed_priority w r) v w) | _ => None end) calls
    = offers_of samples) as ->.
  { unfold samples. clear. induction calls as [|c calls IH]; [done|]. destruct c as [a b ms r v|a b]; cbn [omap list_omap sample_of]; [|exact IH].
    cbn [offers_of fmap list_fmap]. f_equal. exact IH. }
  apply (C55_decaying_keeps_top size alpha ms0 tick0 [] (NewEDR size alpha ms0 tick0) samples); [done|done| | |by left|done|done].
  - unfold samples. assert (forall last, ms0 <= last -> times_ok last calls -> Forall (fun s => key_ok (sm_key s)) (omap (sample_of math_Exp alpha (Z.quot ms0 1000)) calls)) as HH; [|apply (HH ms0); [lia|done]].
    clear Ht Hl Hd samples HD. induction calls as [|c calls IH]; intros last Hlast Ht; [constructor|].
    destruct c as [a b ms r v|a b]; cbn [times_ok] in Ht; cbn [omap list_omap sample_of].
    + destruct Ht as (T1 & T2 & T3 & T4 & Ht). constructor; [|apply (IH ms); [lia|done]]. cbn [sm_key].
      pose proof (seconds_mono ms0 ms ltac:(lia)) as Hsec. pose proof (seconds_bound ms ltac:(lia)) as Hsb. unfold currentTimeInSecond in *.
      rewrite wrap64_id by (unfold in64, two63; lia).
      destruct (alpha_time alpha (Z.quot ms 1000 - Z.quot ms0 1000) Ha) as (F & R & _ & _); [lia|].
      destruct (HE _ F) as [_ H]. apply div_key_ok; [|done]. destruct (fle_f1_cases _ (H R)) as [[? ?]|?]; [left; split; [done|lra]|by right].
    + destruct Ht as (T1 & T2 & Ht). apply (IH b); [lia|done].
  - assert (length samples <= length calls)%nat; [|cbn [length]; lia]. unfold samples. clear. induction calls as [|c calls IH]; [done|].
    destruct c as [a b ms r v|a b]; cbn [omap list_omap sample_of length]; cbn in IH |- *; lia.
Qed.

(** C56: a rescale by a factor in (0,1]: priorities and weights are multiplied, the
    order is kept, a sample disappears only because of another one with a higher
    priority whose scaled priority is the same; Size and snapshot agree afterwards.
    Factor 0 empties the reservoir. *)
Theorem C56_decaying_rescale size alpha ms0 tick0 es rsv f :
  1 <= size -> Forall event_ok es -> Z.of_nat (length es) < 2 ^ 63 -> ed_events (NewEDR size alpha ms0 tick0) es = Ok rsv ->
  let old := ed_GetValues rsv in
  let new := ed_GetValues (ed_rescale_body rsv f) in
  let scale s := WeightedSample (fmul (sm_key s) f) (sm_value s) (fmul (sm_weight s) f) in
  (ffinite f = true -> (0 < RF f <= 1)%R ->
     keys_ascending new /\
     (forall s', s' ∈ new -> exists s, s ∈ old /\ s' = scale s /\
        forall t, t ∈ old -> feq (sm_key (scale t)) (sm_key s') = true -> fle (sm_key t) (sm_key s) = true) /\
     (forall s, s ∈ old -> exists s', s' ∈ new /\ feq (sm_key s') (sm_key (scale s)) = true) /\
     (different_keys (scale <$> old) -> new = scale <$> old) /\
     ed_Size (ed_rescale_body rsv f) = Z.of_nat (length new)) /\
  (feq f f0 = true -> new = [] /\ ed_Size (ed_rescale_body rsv f) = 0).
Proof.
  intros Hs HF Hl E old new scale. destruct (reach_events size alpha ms0 tick0 es rsv Hs HF Hl E) as [I S].
  unfold old, new. split.
  - intros Ff [Rf H1]. assert (factor_ok f) as Hf by (split; [done|lra]).
    assert (feq f f0 = false) as Hz. { destruct (feq f f0) eqn:Q; [|done]. rewrite feq_spec in Q by done. rewrite RF_f0 in Q. lra. }
    pose proof (ei_asc _ _ _ I) as Sa. pose proof (ei_ok _ _ _ I) as Oa.
    destruct (rescale_scaled rsv f Sa Oa Hf Hz H1) as (E1 & E2 & E3 & E4).
    destruct (ed_rescale_inv rsv _ _ f I Hf) as [I' S'].
    unfold ed_GetValues. rewrite !iter_all by (apply I || apply I'). rewrite E1.
    split; [by apply asc_keys|]. pose proof Oa as Oa'. rewrite Forall_forall in Oa'. split; [|split; [|split]].
    + intros s' Hs'. destruct (scaled_highest f _ Oa Sa Hf Hz s' Hs') as (s & Hs1 & -> & Hmax). exists s. split; [done|]. split; [done|].
      intros t Ht Q. apply fle_rank; [by apply Oa'|by apply Oa'|]. apply (Hmax t Ht).
      apply (feq_rank (sm_key (ed_scale f t)) (sm_key (ed_scale f s))); [by apply (scale_sample_ok f t), Oa'|by apply (scale_sample_ok f s), Oa'|done].
    + intros s Hs1. destruct (scaled_key f _ Oa Hf Hz s Hs1) as (e & He & Ee). exists e. split; [done|].
      apply feq_rank; [by rewrite Forall_forall in E4; apply E4|by apply (scale_sample_ok f s), Oa'|done].
    + intros HD. apply scaled_map; [done|done|done|]. clear -Oa Sa Hf Hz HD. change scale with (ed_scale f) in HD.
      induction Sa as [|a l Sa IH HA]; [constructor|]. apply Forall_cons in Oa as [Oa1 Oa]. rewrite fmap_cons in *. inversion HD as [|x y D1 D2]; subst.
      constructor; [by apply IH|]. rewrite Forall_forall in *. intros x Hx. specialize (D1 x Hx). apply elem_of_list_fmap in Hx as (t & -> & Ht).
      pose proof (HA t Ht) as Hlt. cbv beta in Hlt. pose proof (scale_rank_mono f a t Hf Hz Oa1 (Oa t Ht) ltac:(lra)) as Hm.
      assert (sk (ed_scale f a) <> sk (ed_scale f t)); [|lra]. intros HH.
      rewrite (proj2 (feq_rank _ _ (scale_sample_ok f a Hf Hz Oa1) (scale_sample_ok f t Hf Hz (Oa t Ht)))) in D1; [done|exact HH].
    + unfold ed_Size. rewrite E2, S', S. pose proof (ei_len _ _ _ I') as HL. rewrite E1, E2, S', S in HL. destruct (Z.ltb_spec (Z.of_nat (length (scaled f (ed_values rsv)))) size); lia.
  - intros Hz. unfold ed_rescale_body. rewrite Hz. split; [done|]. unfold ed_Size. cbn [set_count set_values ed_count ed_size]. rewrite S. destruct (Z.ltb_spec 0 size); lia.
Qed.

(** [exp_ok] holds of the correctly rounded exponential function. *)
Theorem exp_ok_rounded (m : f64 -> f64) :
  (forall x, ffinite x = true ->
     (Rabs (rnd (exp (RF x))) < bpow radix2 1024 -> ffinite (m x) = true /\ RF (m x) = rnd (exp (RF x)))%R /\
     (bpow radix2 1024 <= Rabs (rnd (exp (RF x))) -> m x = B754_infinity false)%R) -> exp_ok m.
Proof.
  intros H x F. destruct (H x F) as [H1 H2]. clear H. pose proof (exp_pos (RF x)) as P.
  assert (forall y, y <= 0 -> exp y <= 1)%R as E1.
  { intros y [Hy| ->]; [|rewrite exp_0; lra]. rewrite <- exp_0. apply Rlt_le. by apply exp_increasing. }
  split; intros Hx.
  - assert (0 <= rnd (exp (RF x)) <= 1)%R as B.
    { split; [apply rnd_ge_l; [apply fmt_0|lra]|]. apply rnd_le_r; [apply (fmt_IZR 1); lia|by apply E1]. }
    destruct H1 as [H3 H4]; [|by rewrite H4].
    rewrite Rabs_pos_eq by lra. eapply Rle_lt_trans; [apply B|]. change 1%R with (bpow radix2 0). apply bpow_lt. lia.
  - assert (1 <= rnd (exp (RF x)))%R as B.
    { apply rnd_ge_l; [apply (fmt_IZR 1); lia|]. destruct Hx as [Hx|Hx]; [|rewrite <- Hx, exp_0; lra]. rewrite <- exp_0. apply Rlt_le. by apply exp_increasing. }
    destruct (Rlt_le_dec (Rabs (rnd (exp (RF x)))) (bpow radix2 1024)) as [L|L].
    + destruct (H1 L) as [H3 H4]. apply fle_spec; [done|done|]. rewrite H4, RF_f1. done.
    + by rewrite (H2 L).
Qed.

Lemma fmt_half : fmt (1 / 2)%R.
Proof. assert (1 / 2 = bpow radix2 (-1))%R as -> by (change (bpow radix2 (-1)) with (/ 2)%R; lra). apply fmt_bpow. lia. Qed.

(** Concrete cases.  [toy_exp] is a crude exponential function that computes. *)
Definition half : f64 := fdiv f1 (f_of_int 2).
Definition toy_exp (x : f64) : f64 := if flt x f0 then half else f1.
Example toy_exp_ok : exp_ok toy_exp.
Proof.
  intros x F. unfold toy_exp. assert (RF half = 1 / 2 /\ ffinite half = true)%R as [Rh Fh].
  { assert (RF (f_of_int 2) = 2)%R as R2 by (apply (f_of_int_exact 2); lia).
    pose proof fmt_half as Ft.
    destruct (fdiv_spec f1 (f_of_int 2)) as [R F2]; [done|lra| |].
    - unfold fits. rewrite RF_f1, R2, rnd_fmt by done. rewrite Rabs_pos_eq by lra. apply Rlt_trans with 1%R; [lra|].
      change 1%R with (bpow radix2 0). apply bpow_lt. lia.
    - fold half in R, F2. rewrite R, RF_f1, R2, rnd_fmt by done. done. }
  split; intros H; destruct (flt x f0) eqn:L.
  - rewrite Fh, Rh. split; [done|lra].
  - rewrite RF_f1. split; [done|lra].
  - rewrite flt_spec in L by done. rewrite RF_f0 in L. lra.
  - done.
Qed.

Definition d0 : f64 := fdiv f1 (f_of_int 3).
Definition day : list ed_call :=
  [DUpdate 0 1000 1000 d0 5; DUpdate 1 2000 2000 half 6; DUpdate 2 2500 2500 (fdiv f1 (f_of_int 7)) 7;
   DSnapshot 4000000000000 9000; DUpdate 4000000000001 9000 9001 (fdiv f1 (f_of_int 9)) 8].
Example decaying_case :
  match ed_run toy_exp (NewEDR 2 half 1000 0) day with
  | Ok r => (sm_value <$> ed_GetValues r, ed_Size r, ed_startTime r) = ([7; 8], 2, 9)
  | Panic => False
  end.
Proof. vm_compute. reflexivity. Qed.
Example decaying_case_setting : setting_ok toy_exp 2 half 1000 /\ Z.of_nat (length day) < 2 ^ 63.
Proof.
  split; [|done]. split; [apply toy_exp_ok|]. split; [lia|]. split; [|lia].
  assert (RF (f_of_int 2) = 2)%R as R2 by (apply (f_of_int_exact 2); lia).
  pose proof fmt_half as Ft.
  destruct (fdiv_spec f1 (f_of_int 2)) as [R F2]; [done|lra| |].
  - unfold fits. rewrite RF_f1, R2, rnd_fmt by done. rewrite Rabs_pos_eq by lra. apply Rlt_trans with 1%R; [lra|].
    change 1%R with (bpow radix2 0). apply bpow_lt. lia.
  - fold half in R, F2. rewrite RF_f1, R2, rnd_fmt in R by done. split; [done|]. rewrite R. lra.
Qed.
Lemma random_reciprocal n : 1 < n < 2 ^ 53 -> random_ok (fdiv f1 (f_of_int n)).
Proof.
  intros Hn. assert (RF (f_of_int n) = IZR n)%R as Rn by (apply f_of_int_exact; lia). assert (1 < IZR n)%R as H1 by (apply IZR_lt; lia).
  assert (2 <= IZR n)%R as H2 by (apply IZR_le; lia).
  assert (0 < 1 / IZR n <= 1 / 2)%R as B.
  { split; [apply Rdiv_lt_0_compat; lra|]. unfold Rdiv. apply Rmult_le_compat_l; [lra|]. by apply Rinv_le_contravar; lra. }
  pose proof fmt_half as Ft.
  assert (0 <= rnd (1 / IZR n) <= 1 / 2)%R as Br by (split; [apply rnd_ge_l; [apply fmt_0|lra]|apply rnd_le_r; [done|lra]]).
  destruct (fdiv_spec f1 (f_of_int n)) as [R F2]; [done|lra| |].
  - unfold fits. rewrite RF_f1, Rn, Rabs_pos_eq by lra. apply Rlt_trans with 1%R; [lra|]. change 1%R with (bpow radix2 0). apply bpow_lt. lia.
  - rewrite RF_f1, Rn in R. split; [done|]. split; [|rewrite R; lra].
    assert (0 < rnd (1 / IZR n))%R as Hp.
    { apply Rlt_le_trans with (bpow radix2 (-53)); [apply bpow_gt_0|]. apply rnd_ge_l; [apply fmt_bpow; lia|].
      change (-53) with (- (53)). rewrite bpow_opp, <- (IZR_pow2 53) by lia. unfold Rdiv. rewrite Rmult_1_l. apply Rinv_le_contravar; [lra|]. apply IZR_le. lia. }
    apply pos_sign; [done|]. by rewrite R.
Qed.
Example decaying_case_times : times_ok 1000 (day ++ [DSnapshot 8000000000000 9500]).
Proof.
  cbn [app day times_ok]. unfold d0, half.
  repeat match goal with |- random_ok _ => apply random_reciprocal; lia | |- _ /\ _ => split | |- True => exact I | |- _ => lia end.
Qed.

Print Assumptions C52_decaying_size.
Print Assumptions C53_decaying_size_is_snapshot_size_refuted.
Print Assumptions C53_decaying_size_is_snapshot_size_partial.
Print Assumptions C54_decaying_recorded_only.
Print Assumptions C55_decaying_keeps_top_calls.
Print Assumptions C56_decaying_rescale.
Print Assumptions C57_decaying_no_panic.
Print Assumptions exp_ok_rounded.
