From Verif.Go Require Import GoInt GoFloat GoConc.
From Verif.Model Require Import WeightedSnapshot DecayingReservoir DecayingConc.
From Verif.Spec Require Import BucketSpec DecayingSpec DecayingConcSpec.
From Verif.Proofs Require Import FloatProofs DecayingProofs DecayingCalls EWMAConcProofs CompassConcProofs.
From Coq Require Import Reals Lra.
From Flocq Require Import Core.Core IEEE754.BinarySingleNaN.
Local Open Scope Z_scope.

Lemma ed_events_app r a b : ed_events r (a ++ b) = (x ← ed_events r a; ed_events x b).
Proof. revert r. induction a as [|e a IH]; intros r; [done|]. cbn [ed_events app]. destruct (ed_apply r e); cbn [mbind res_bind]; [apply IH|done]. Qed.

Lemma ed_events_snoc r a e x : ed_events r a = Ok x -> ed_events r (a ++ [e]) = ed_apply x e.
Proof. intros E. rewrite ed_events_app, E. cbn [mbind res_bind ed_events]. by destruct (ed_apply x e). Qed.

Lemma offers_app a b : offers (a ++ b) = offers a ++ offers b.
Proof. unfold offers. by rewrite omap_app. Qed.

(** ** Priorities, also when the landmark is later than the update *)
Lemma alpha_time_neg alpha t : decay_ok alpha -> - 2 ^ 62 < t <= 0 ->
  ffinite (fmul alpha (f_of_int t)) = true /\ (RF (fmul alpha (f_of_int t)) <= 0)%R.
Proof.
  intros [Fa [A1 A2]] Ht. assert (in64 t) as Hin by (unfold in64, two63; lia).
  pose proof (f_of_int_finite64 t Hin) as Ft. pose proof (f_of_int_bound64 t Hin) as Bt.
  assert (RF (f_of_int t) <= 0)%R as Pt.
  { pose proof (f_of_int_mono t 0 Hin ltac:(unfold in64, two63; lia) ltac:(lia)) as M. rewrite (f_of_int_exact 0) in M by lia. done. }
  rewrite Rabs_left1 in Bt by done.
  assert (- bpow radix2 73 <= RF alpha * RF (f_of_int t) <= 0)%R as Hb.
  { split; [|nra]. replace (RF alpha * RF (f_of_int t))%R with (- (RF alpha * - RF (f_of_int t)))%R by ring. apply Ropp_le_contravar.
    replace 73 with (10 + 63) by lia. rewrite bpow_plus. apply Rmult_le_compat; try lra. change (bpow radix2 10) with 1024%R. lra. }
  destruct (fmul_spec alpha (f_of_int t) Fa Ft) as [R F].
  { apply fits_bound. apply Rle_trans with (bpow radix2 73); [|apply bpow_le; lia]. rewrite Rabs_left1; lra. }
  split; [done|]. rewrite R. apply rnd_le_r; [apply fmt_0|lra].
Qed.

Lemma div_zero_key_ok w r : ffinite w = true -> RF w = 0%R -> random_ok r -> (0 < RF r)%R -> key_ok (fdiv w r).
Proof.
  intros Fw Rw (Fr & Sr & Rr) Hr.
  assert (exists s, w = B754_zero s) as [s ->].
  { destruct w as [s|s| |s m e Hb]; try done; [by exists s|]. exfalso. destruct s.
    - pose proof (F2R_lt_0 radix2 (Float radix2 (Z.neg m) e) ltac:(cbn; lia)) as H. change (F2R (Float radix2 (Z.neg m) e) = 0%R) in Rw. lra.
    - pose proof (F2R_gt_0 radix2 (Float radix2 (Z.pos m) e) ltac:(cbn; lia)) as H. change (F2R (Float radix2 (Z.pos m) e) = 0%R) in Rw. lra. }
  destruct r as [s'|s'| |s' m e Hb]; try (exfalso; cbn in Hr; lra); try done.
Qed.

Section inv.
Context (mexp : f64 -> f64) (HE : exp_ok mexp).
Context (size : Z) (alpha : f64) (ms0 tick0 : Z) (all : list Z).
Context (Hsize : 1 <= size) (Halpha : decay_ok alpha) (Hall : Z.of_nat (length all) < 2 ^ 63).
Notation new := (NewEDR size alpha ms0 tick0).

Definition in_write (pc : dxpc) : bool :=
  match pc with XClock _ | XStart _ _ _ | XScale _ _ | XInsert _ _ _ _ => true | _ => false end.
Definition in_read (pc : dxpc) : bool := match pc with XRead => true | _ => false end.
Definition b2Z (b : bool) : Z := if b then 1 else 0.
Notation writers ts := (sumZ ((fun t => b2Z (in_write (dx_pc t))) <$> ts)).
Notation readers ts := (sumZ ((fun t => b2Z (in_read (dx_pc t))) <$> ts)).

Definition dpc_ok (ms : Z) (pc : dxpc) : Prop :=
  match pc with
  | XTick k | XCmp k _ | XNext k _ | XCas k _ _ | XLock k | XClock k => call_ok k
  | XStart k old ms' => call_ok k /\ 0 <= old <= currentTimeInSecond ms' /\ 0 <= ms' <= ms
  | XScale k f => call_ok k /\ factor_ok f
  | XMs v r => call_ok (KUpdate v r)
  | XLand v r ms' => call_ok (KUpdate v r) /\ 0 <= ms' <= ms
  | XULock v r ms' land | XInsert v r ms' land => call_ok (KUpdate v r) /\ 0 <= ms' <= ms /\ 0 <= land < 2 ^ 62
  | XIdle | XRLock | XRead => True
  | XPanic => False
  end.

Record dxinv (s : dx_shared) (ts : list dxthread) : Prop := {
  d_rsv : exists r, ed_events new (ds_log s) = Ok r /\ ed_values (ds_rsv s) = ed_values r /\
     ed_count (ds_rsv s) = ed_count r /\ ed_size (ds_rsv s) = ed_size r;
  d_log : Forall event_ok (ds_log s);
  d_alpha : ed_alpha (ds_rsv s) = alpha;
  d_start : 0 <= ed_startTime (ds_rsv s) <= currentTimeInSecond (ds_ms s);
  d_ms : 0 <= ds_ms s < 2 ^ 62;
  d_w : writers ts = b2Z (ds_writer s);
  d_r : readers ts = Z.of_nat (ds_readers s);
  d_wr : ds_writer s = true -> ds_readers s = 0%nat;
  d_acct : offers (ds_log s) ++ mjoin (to_record <$> ts) ≡ₚ all;
  d_pcs : forall i t, ts !! i = Some t -> dpc_ok (ds_ms s) (dx_pc t) /\ Forall call_ok (dx_todo t);
  d_got : forall i t x, ts !! i = Some t -> x ∈ dx_got t ->
     exists es r, es `prefix_of` ds_log s /\ ed_events new es = Ok r /\ x = ed_GetValues r }.

Lemma dpc_ok_mono ms ms' pc : ms <= ms' -> dpc_ok ms pc -> dpc_ok ms' pc.
Proof. intros Hm. destruct pc; cbn; try done; intuition lia. Qed.

(** The reservoir's own invariant. *)
Lemma dxinv_ed s ts : dxinv s ts -> ed_inv (ds_rsv s) (offered (ds_log s)) (Z.of_nat (length (offers (ds_log s)))).
Proof.
  intros [D1 D2 _ _ _ _ _ _ D9 _ _]. destruct D1 as (r & E & V & C & S).
  apply Permutation_length in D9. rewrite app_length in D9.
  destruct (events_inv (ds_log s) D2 new [] 0 (ed_inv_new _ _ _ _ Hsize)) as (r' & E' & I & _); [lia|].
  rewrite E in E'. injection E' as <-. rewrite Z.add_0_l in I. eapply ed_inv_frame; [exact I|done|done|done].
Qed.

Lemma weight_key_ok rsv ms land r : ed_alpha rsv = alpha -> 0 <= ms < 2 ^ 62 -> 0 <= land < 2 ^ 62 ->
  random_ok r -> (0 < RF r)%R -> key_ok (ed_priority (dx_weight mexp rsv land ms) r).
Proof.
  intros Ha Hm Hl Hr Hr0. pose proof (seconds_bound ms Hm) as Hb. pose proof (seconds_mono ms ms ltac:(lia)) as Hp.
  unfold dx_weight, ed_priority, ed_itemWeight, ed_weight. cbn [set_startTime ed_alpha ed_startTime]. rewrite Ha.
  rewrite wrap64_id by (unfold in64, two63; lia).
  destruct (Z.le_gt_cases land (currentTimeInSecond ms)) as [Hle|Hgt].
  - destruct (alpha_time alpha (currentTimeInSecond ms - land) Halpha) as (F & R & _ & _); [lia|].
    destruct (HE _ F) as [_ H]. apply div_key_ok; [|done]. destruct (fle_f1_cases _ (H R)) as [[? ?]|?]; [left; split; [done|lra]|by right].
  - destruct (alpha_time_neg alpha (currentTimeInSecond ms - land) Halpha) as (F & R); [lia|].
    destruct (HE _ F) as [H _]. destruct (H R) as (H1 & H2 & H3).
    destruct (Req_dec (RF (mexp (fmul alpha (f_of_int (currentTimeInSecond ms - land))))) 0) as [Z0|NZ].
    + by apply div_zero_key_ok.
    + apply div_key_ok; [left; split; [done|lra]|done].
Qed.

Lemma start_factor_ok rsv old ms : ed_alpha rsv = alpha -> 0 <= old <= currentTimeInSecond ms -> 0 <= ms < 2 ^ 62 ->
  factor_ok (ed_scalingFactor mexp (set_startTime rsv (currentTimeInSecond ms)) old).
Proof.
  intros Ha Ho Hm. pose proof (seconds_bound ms Hm) as Hb.
  unfold ed_scalingFactor. cbn [set_startTime ed_alpha ed_startTime]. rewrite Ha.
  rewrite wrap64_id by (unfold in64, two63; lia).
  destruct (alpha_time alpha (currentTimeInSecond ms - old) Halpha) as (_ & _ & F & R); [lia|].
  destruct (HE _ F) as [H _]. destruct (H R) as (H1 & H2 & H3). split; [done|lra].
Qed.

(** A step that changes neither the reservoir's samples nor the log. *)
Lemma dxinv_local s s' ts i t t' : dxinv s ts -> ts !! i = Some t ->
  ed_values (ds_rsv s') = ed_values (ds_rsv s) -> ed_count (ds_rsv s') = ed_count (ds_rsv s) ->
  ed_size (ds_rsv s') = ed_size (ds_rsv s) -> ed_alpha (ds_rsv s') = ed_alpha (ds_rsv s) ->
  0 <= ed_startTime (ds_rsv s') <= currentTimeInSecond (ds_ms s) ->
  ds_ms s' = ds_ms s -> ds_log s' = ds_log s ->
  b2Z (ds_writer s') = b2Z (ds_writer s) - b2Z (in_write (dx_pc t)) + b2Z (in_write (dx_pc t')) ->
  Z.of_nat (ds_readers s') = Z.of_nat (ds_readers s) - b2Z (in_read (dx_pc t)) + b2Z (in_read (dx_pc t')) ->
  (ds_writer s' = true -> ds_readers s' = 0%nat) ->
  to_record t' = to_record t -> dpc_ok (ds_ms s) (dx_pc t') -> Forall call_ok (dx_todo t') ->
  (forall x, x ∈ dx_got t' -> x ∈ dx_got t \/ x = ed_GetValues (ds_rsv s)) ->
  dxinv s' (<[i := t']> ts).
Proof.
  intros [D1 D2 D3 D4 D5 D6 D7 D8 D9 D10 D11] Hi E1 E2 E3 E4 E5 E6 E7 E8 E9 E10 E11 E12 E13 E14.
  constructor; rewrite ?E4, ?E6, ?E7; try done.
  - destruct D1 as (r & ? & ? & ? & ?). exists r. split; [done|]. split; [congruence|]. split; congruence.
  - rewrite (sumZ_insert _ _ _ _ _ Hi), D6. lia.
  - rewrite (sumZ_insert _ _ _ _ _ Hi), D7. lia.
  - rewrite list_fmap_insert, E11, list_insert_id; [done|]. by rewrite list_lookup_fmap, Hi.
  - intros j u Hj. apply list_lookup_insert_Some in Hj as [(-> & <- & _)|[_ Hj]]; [done|]. by apply (D10 j).
  - intros j u x Hj Hx. apply list_lookup_insert_Some in Hj as [(-> & <- & _)|[_ Hj]]; [|by eapply (D11 j)].
    destruct (E14 x Hx) as [?| ->]; [by eapply (D11 j)|]. destruct D1 as (r & Er & V & _).
    exists (ds_log s), r. split; [done|]. split; [done|]. unfold ed_GetValues. by rewrite V.
Qed.

Lemma dx_after_ok ms k : call_ok k -> dpc_ok ms (dx_after k).
Proof. by destruct k. Qed.
Lemma dx_after_write k : in_write (dx_after k) = false /\ in_read (dx_after k) = false.
Proof. by destruct k. Qed.
Lemma dx_after_record todo k got : to_record (DxThread todo (dx_after k) got) = call_value k ++ mjoin (call_value <$> todo).
Proof. by destruct k. Qed.

Lemma dxinv_step s ts i t s' t' : dxinv s ts -> ts !! i = Some t -> dx_tstep mexp s t = Some (s', t') ->
  dxinv s' (<[i := t']> ts) /\ ds_ms s' = ds_ms s.
Proof.
  intros D Hi Hs. pose proof D as [D1 D2 D3 D4 D5 D6 D7 D8 D9 D10 D11].
  destruct (D10 i t Hi) as [Hpc Htodo]. destruct t as [todo pc got]. cbn [dx_pc dx_todo dx_got] in *.
  unfold dx_tstep in Hs. cbn [dx_pc dx_todo dx_got] in Hs. cbv zeta in Hs.
  assert (G : forall s2 pc2 got2 todo2, s' = s2 -> t' = DxThread todo2 pc2 got2 ->
    (dxinv s2 (<[i := DxThread todo2 pc2 got2]> ts) /\ ds_ms s2 = ds_ms s) -> dxinv s' (<[i := t']> ts) /\ ds_ms s' = ds_ms s)
    by (by intros ? ? ? ? -> ->).
  destruct pc as [|k|k now|k now|k now next|k|k|k old ms|k f|v r|v r ms|v r ms land|v r ms land| | |]; cbn [dpc_ok] in Hpc.
  - destruct todo as [|k todo]; [done|]. injection Hs as <- <-. apply Forall_cons in Htodo as [Hk Htodo]. split; [|done].
    eapply dxinv_local; try done; cbn; try lia; auto.
  - injection Hs as <- <-. split; [|done]. eapply dxinv_local; try done; cbn; try lia; auto.
  - injection Hs as <- <-. split; [|done]. destruct (_ <=? _).
    + eapply dxinv_local; try done; cbn; try lia; auto.
    + destruct (dx_after_write k) as [A B]. eapply dxinv_local; try done; cbn [dx_pc dx_got dx_todo in_write in_read]; rewrite ?A, ?B; cbn [b2Z]; try lia; auto.
      * by rewrite dx_after_record.
      * by apply dx_after_ok.
  - injection Hs as <- <-. split; [|done]. eapply dxinv_local; try done; cbn; try lia; auto.
  - destruct (_ =? _); injection Hs as <- <-; (split; [|done]).
    + eapply dxinv_local; try done; cbn; try lia; auto.
    + destruct (dx_after_write k) as [A B]. eapply dxinv_local; try done; cbn [dx_pc dx_got dx_todo in_write in_read]; rewrite ?A, ?B; cbn [b2Z]; try lia; auto.
      * by rewrite dx_after_record.
      * by apply dx_after_ok.
  - destruct (ds_writer s) eqn:Hw; [done|]. destruct (ds_readers s) eqn:Hr; [|done]. cbn in Hs. injection Hs as <- <-. split; [|done].
    eapply dxinv_local; try done; cbn; rewrite ?Hw, ?Hr; try (cbn; lia); auto.
  - injection Hs as <- <-. split; [|done]. eapply dxinv_local; try done; cbn; try lia; auto. split_and!; try done; lia.
  - injection Hs as <- <-. destruct Hpc as (Hk & Ho & Hm). split; [|done].
    pose proof (seconds_mono ms (ds_ms s) ltac:(lia)).
    eapply dxinv_local; try done; cbn [set_rsv ds_rsv ds_ms ds_writer ds_readers ds_log set_startTime ed_startTime dx_pc dx_todo dx_got in_write in_read b2Z]; try lia; auto.
    split; [done|]. apply start_factor_ok; [done|done|lia].
  - injection Hs as <- <-. destruct Hpc as (Hk & Hf). split; [|done].
    destruct (dx_after_write k) as [A B].
    assert (Hw : writers ts = b2Z true).
    { rewrite D6. destruct (ds_writer s); [done|]. exfalso. assert (1 <= 0); [|lia].
      transitivity (writers ts); [|by rewrite D6]. etrans; [|eapply (sumZ_member (fun t => b2Z (in_write (dx_pc t))))]; [| |exact Hi]; [done|].
      apply Forall_forall. intros x _. cbv beta. destruct (in_write (dx_pc x)); cbn; lia. }
    assert (Hrd : ds_readers s = 0%nat) by (apply D8; rewrite D6 in Hw; by destruct (ds_writer s)).
    destruct D1 as (r & Er & V & C & S).
    assert (F : ed_values (ed_rescale_body (ds_rsv s) f) = ed_values (ed_rescale_body r f) /\
      ed_count (ed_rescale_body (ds_rsv s) f) = ed_count (ed_rescale_body r f) /\
      ed_size (ed_rescale_body (ds_rsv s) f) = ed_size (ed_rescale_body r f) /\
      ed_alpha (ed_rescale_body (ds_rsv s) f) = ed_alpha (ds_rsv s) /\
      ed_startTime (ed_rescale_body (ds_rsv s) f) = ed_startTime (ds_rsv s)).
    { unfold ed_rescale_body, ed_GetValues. destruct (feq f f0); cbn; rewrite ?V, ?S; done. }
    destruct F as (F1 & F2 & F3 & F4 & F5).
    constructor; cbn [logged set_lock set_rsv ds_rsv ds_log ds_ms ds_writer ds_readers].
    + exists (ed_rescale_body r f). split; [by rewrite (ed_events_snoc _ _ _ _ Er)|done].
    + apply Forall_app. split; [done|]. by constructor.
    + by rewrite F4.
    + by rewrite F5.
    + done.
    + rewrite (sumZ_insert _ _ _ _ _ Hi), Hw. cbn [dx_pc]. rewrite A. cbn. lia.
    + rewrite (sumZ_insert _ _ _ _ _ Hi), D7, Hrd. cbn [dx_pc]. rewrite B. cbn. lia.
    + done.
    + rewrite offers_app. change (offers [Rescale f]) with (@nil Z). rewrite app_nil_r.
      rewrite list_fmap_insert, dx_after_record, list_insert_id; [done|]. by rewrite list_lookup_fmap, Hi.
    + intros j u Hj. apply list_lookup_insert_Some in Hj as [(-> & <- & _)|[_ Hj]]; [|by apply (D10 j)].
      split; [by apply dx_after_ok|done].
    + intros j u x Hj Hx. assert (exists t0, ts !! j = Some t0 /\ x ∈ dx_got t0) as (t0 & Ht0 & Hx0).
      { apply list_lookup_insert_Some in Hj as [(-> & <- & _)|[_ Hj]]; [|by exists u]. eexists. split; [exact Hi|done]. }
      destruct (D11 j t0 x Ht0 Hx0) as (es & r0 & P & ? & ?). exists es, r0. split; [by apply prefix_app_r|done].
  - injection Hs as <- <-. split; [|done]. eapply dxinv_local; try done; cbn; try lia; auto. split; [done|lia].
  - injection Hs as <- <-. destruct Hpc as (Hk & Hm). split; [|done].
    pose proof (seconds_bound (ds_ms s) ltac:(lia)).
    eapply dxinv_local; try done; cbn; try lia; auto. split_and!; try apply Hk; lia.
  - destruct (ds_writer s) eqn:Hw; [done|]. destruct (ds_readers s) eqn:Hr; [|done]. cbn in Hs. injection Hs as <- <-. split; [|done].
    eapply dxinv_local; try done; cbn; rewrite ?Hw, ?Hr; try (cbn; lia); auto.
  - destruct Hpc as (Hk & Hm & Hl). destruct Hk as [Hr Hr0].
    set (w := dx_weight mexp (ds_rsv s) land ms) in *. set (p := ed_priority w r) in *.
    assert (Hp : key_ok p) by (apply weight_key_ok; [done|lia|lia|done|done]).
    assert (Hlen : (length (offers (ds_log s)) + 1 <= length all)%nat).
    { apply Permutation_length in D9. rewrite app_length in D9.
      pose proof (Permutation_length (Permutation_insert_concat to_record _ _ _ (DxThread todo XIdle got) Hi)) as P.
      rewrite !app_length in P. cbn [to_record dx_pc dx_todo app length] in P. lia. }
    destruct (ed_insert_inv (ds_rsv s) _ _ p v w (dxinv_ed s ts D) Hp ltac:(lia)) as (r2 & E2 & _ & _ & Est & Eal).
    rewrite E2 in Hs. injection Hs as <- <-. split; [|done].
    assert (Hw : writers ts = b2Z true).
    { rewrite D6. destruct (ds_writer s); [done|]. exfalso. assert (1 <= 0); [|lia].
      transitivity (writers ts); [|by rewrite D6]. etrans; [|eapply (sumZ_member (fun t => b2Z (in_write (dx_pc t))))]; [| |exact Hi]; [done|].
      apply Forall_forall. intros x _. cbv beta. destruct (in_write (dx_pc x)); cbn; lia. }
    assert (Hrd : ds_readers s = 0%nat) by (apply D8; rewrite D6 in Hw; by destruct (ds_writer s)).
    destruct D1 as (r1 & Er & V & C & S).
    pose proof (insert_frame r1 (ds_rsv s) p v w (eq_sym V) (eq_sym S) (eq_sym C)) as FR. rewrite E2 in FR. destruct FR as (y & Ey & Y1 & Y2 & Y3 & _).
    constructor; cbn [logged set_lock set_rsv ds_rsv ds_log ds_ms ds_writer ds_readers].
    + exists y. split; [rewrite (ed_events_snoc _ _ _ _ Er); exact Ey|]. split; [done|]. split; done.
    + apply Forall_app. split; [done|]. by constructor.
    + by rewrite Eal.
    + by rewrite Est.
    + done.
    + rewrite (sumZ_insert _ _ _ _ _ Hi), Hw. cbn. lia.
    + rewrite (sumZ_insert _ _ _ _ _ Hi), D7, Hrd. cbn. lia.
    + done.
    + rewrite offers_app. change (offers [Offer p v w]) with [v]. rewrite <- app_assoc.
      pose proof (Permutation_insert_concat to_record _ _ _ (DxThread todo XIdle got) Hi) as P.
      cbn [to_record dx_pc dx_todo app] in P. rewrite <- D9. apply Permutation_app_head.
      change (v :: mjoin (call_value <$> todo)) with ([v] ++ mjoin (call_value <$> todo)) in P.
      rewrite !app_assoc in P. apply Permutation_app_inv_r in P. rewrite <- P. apply Permutation_app_comm.
    + intros j u Hj. apply list_lookup_insert_Some in Hj as [(-> & <- & _)|[_ Hj]]; [|by apply (D10 j)]. done.
    + intros j u x Hj Hx. assert (exists t0, ts !! j = Some t0 /\ x ∈ dx_got t0) as (t0 & Ht0 & Hx0).
      { apply list_lookup_insert_Some in Hj as [(-> & <- & _)|[_ Hj]]; [|by exists u]. eexists. split; [exact Hi|done]. }
      destruct (D11 j t0 x Ht0 Hx0) as (es & r0 & P & ? & ?). exists es, r0. split; [by apply prefix_app_r|done].
  - destruct (ds_writer s) eqn:Hw; [done|]. injection Hs as <- <-. split; [|done].
    eapply dxinv_local; try done; cbn; rewrite ?Hw; try (cbn; lia); auto.
  - injection Hs as <- <-. split; [|done].
    assert (Hrd : 1 <= Z.of_nat (ds_readers s)).
    { rewrite <- D7. etrans; [|eapply (sumZ_member (fun t => b2Z (in_read (dx_pc t))))]; [| |exact Hi]; [done|].
      apply Forall_forall. intros x _. cbv beta. destruct (in_read (dx_pc x)); cbn; lia. }
    eapply dxinv_local; try done; cbn [set_lock ds_rsv ds_ms ds_writer ds_readers dx_pc in_write in_read b2Z dx_todo dx_got]; try lia; auto.
    + intros Hwr. rewrite D8 by done. done.
    + intros x Hx. apply elem_of_app in Hx as [?|Hx]; [by left|right]. by apply elem_of_list_singleton in Hx.
  - done.
Qed.

Lemma dxinv_env s ts e : dxinv s ts -> ds_ms s <= e.1 < 2 ^ 62 -> dxinv (dx_estep s e) ts.
Proof.
  intros [D1 D2 D3 D4 D5 D6 D7 D8 D9 D10 D11] He. constructor; cbn [dx_estep ds_rsv ds_log ds_ms ds_writer ds_readers]; try done; try lia.
  - pose proof (seconds_mono (ds_ms s) e.1 ltac:(lia)). lia.
  - intros i t Hi. destruct (D10 i t Hi). split; [|done]. eapply dpc_ok_mono; [|done]. lia.
Qed.

Lemma dxinv_run c sched : dxinv (shared c) (threads c) -> clock_ok (ds_ms (shared c)) sched ->
  dxinv (shared (crun (dx_tstep mexp) dx_estep c sched)) (threads (crun (dx_tstep mexp) dx_estep c sched)).
Proof.
  revert c. induction sched as [|ev sched IH]; intros c D Hc; [done|]. cbn [crun fold_left]. apply IH.
  - destruct c as [s ts]. destruct ev as [i|[ms tick]]; cbn [cstep shared threads clock_ok] in *.
    + destruct (ts !! i) as [t|] eqn:Hi; [|done]. destruct (dx_tstep mexp s t) as [[s' t']|] eqn:Hs; [|done].
      by apply (dxinv_step _ _ _ _ _ _ D Hi Hs).
    + apply dxinv_env; [done|]. by destruct Hc.
  - destruct c as [s ts]. destruct ev as [i|[ms tick]]; cbn [cstep shared threads clock_ok] in *; [|by destruct Hc].
    destruct (ts !! i) as [t|] eqn:Hi; [|done]. destruct (dx_tstep mexp s t) as [[s' t']|] eqn:Hs; [|done]. cbn [shared].
    by rewrite (proj2 (dxinv_step _ _ _ _ _ _ D Hi Hs)).
Qed.
End inv.
