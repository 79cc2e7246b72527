From Verif.Go Require Import GoInt GoConc.
From Verif.Model Require Import UniformSnapshot UniformReservoir ReservoirConc.
From Verif.Spec Require Import BucketSpec ReservoirSpec ReservoirConcSpec.
From Verif.Proofs Require Import BucketHist UniformReservoirProofs DecayingConcProofs CompassConcProofs DecayingConcMore.
Local Open Scope Z_scope.

Lemma rx_sequence_snoc u ks k u1 as1 : rx_sequence u ks = Ok (u1, as1) ->
  rx_sequence u (ks ++ [k]) = (ua ← rx_alone u1 k; Ok (ua.1, as1 ++ [ua.2])).
Proof.
  revert u as1. induction ks as [|k0 ks IH]; intros u as1 H; cbn in H |- *.
  - injection H as <- <-. cbn. by destruct (rx_alone u k).
  - destruct (rx_alone u k0) as [[u2 a2]|]; [|done]. cbn in H |- *.
    destruct (rx_sequence u2 ks) as [[u3 a3]|] eqn:E; [|done]. cbn in H. injection H as <- <-.
    rewrite (IH _ _ E). by destruct (rx_alone u3 k).
Qed.

Lemma pick_exists n ds : 1 <= n < 2 ^ 63 -> Forall (fun r => 0 <= r < 2 ^ 63) ds -> (exists r, r ∈ ds /\ r < 2 ^ 62) ->
  exists i, nextRandomPos n ds = Some i /\ 0 <= i < n.
Proof.
  intros Hn HF (r & Hr & Hlt). destruct (nextRandomPos_some n ds r Hn HF Hr) as (x & Hx).
  - pose proof (Z.div_mod (2 ^ 63) n ltac:(lia)) as D. pose proof (Z.mod_pos_bound (2 ^ 63) n ltac:(lia)) as M.
    assert (1 <= 2 ^ 63 / n) by (apply Z.div_le_lower_bound; lia). set (q := 2 ^ 63 / n) in *. nia.
  - exists x. split; [done|]. by eapply nextRandomPos_spec.
Qed.

Definition bump (u : uniform_reservoir) : uniform_reservoir := UniformReservoir (ur_count u + 1) (ur_values u).

(** Where a goroutine is, against the reservoir [u] the finished calls lead to. *)
Definition pc_rel (u rsv : uniform_reservoir) (pc : rxpc) : Prop :=
  let size := Z.of_nat (length (ur_values u)) in
  match pc with
  | RIdle | RLock _ _ | RSizeLock | RSnapLock => True
  | RLoad v ds => rsv = u
  | RStore v ds old => rsv = u /\ old = ur_count u
  | RCmp v ds => rsv = bump u
  | RIndex v ds => rsv = bump u /\ ur_count u + 1 <= size
  | RRandom v ds => rsv = bump u /\ size < ur_count u + 1
  | RPut v ds i => rsv = bump u /\ 0 <= i < size /\
      rx_alone u (RUpdate v ds) = Ok (UniformReservoir (ur_count u + 1) (<[Z.to_nat i := v]> (ur_values u)), ADone)
  | RUnlock v ds => rx_alone u (RUpdate v ds) = Ok (rsv, ADone)
  | RSizeCmp => rsv = u
  | RSizeLoad => rsv = u /\ ur_Size u = ur_count u
  | RSizeUnlock n => rsv = u /\ n = ur_Size u
  | RSnapCopy l => rsv = u /\ l = take (length l) (ur_values u) /\ (length l <= length (ur_values u))%nat
  | RSnapUnlock l => rsv = u /\ l = ur_values u
  | RPanic => False
  end.

Section inv.
Context (cap : Z) (progs : list (list rx_call)) (Hok : rx_ok cap progs).
Notation new := (UniformReservoir 0 (replicate (Z.to_nat cap) 0)).
Notation upds l := (length (filter (fun k => is_update k = true) l)).

Definition pending (t : rxthread) : list rx_call := rx_current t ++ rx_todo t.

Record rxinv (s : rx_shared) (ts : list rxthread) : Prop := {
  r_w : sumZ ((fun t => b2Z (rx_updating t)) <$> ts) = b2Z (rs_writer s);
  r_r : sumZ ((fun t => b2Z (rx_reading t)) <$> ts) = Z.of_nat (rs_readers s);
  r_x : rs_writer s = true -> rs_readers s = 0%nat;
  r_u : exists u, rx_sequence new (log_calls (rs_log s)) = Ok (u, log_answers (rs_log s)) /\
    ur_count u = Z.of_nat (upds (log_calls (rs_log s))) /\ length (ur_values u) = Z.to_nat cap /\
    (rs_writer s = false -> rs_rsv s = u) /\
    forall i t, ts !! i = Some t -> pc_rel u (rs_rsv s) (rx_pc t);
  r_t : forall i t, ts !! i = Some t -> rx_id t = i /\ (by_goroutine i (rs_log s)).*2 = rx_got t /\
    progs !! i = Some ((by_goroutine i (rs_log s)).*1 ++ pending t);
  r_p : log_calls (rs_log s) ++ mjoin (pending <$> ts) ≡ₚ mjoin progs }.

Lemma pc_free u rsv u' rsv' t : rx_updating t = false -> rx_reading t = false -> pc_rel u rsv (rx_pc t) -> pc_rel u' rsv' (rx_pc t).
Proof. unfold rx_updating, rx_reading. by destruct (rx_pc t). Qed.

Lemma writer_alone s ts i t j t' : rxinv s ts -> ts !! i = Some t -> rx_updating t = true -> ts !! j = Some t' -> j <> i ->
  rx_updating t' = false /\ rx_reading t' = false.
Proof.
  intros D Hi Ht Hj Hij. pose proof (sum_flags_one rx_updating ts i t Hi Ht) as S. rewrite (r_w _ _ D) in S.
  destruct (rs_writer s) eqn:Hw; [|cbn in S; lia]. pose proof (r_x _ _ D Hw) as Hr. split.
  - destruct (rx_updating t') eqn:E; [|done]. pose proof (sum_flags_two rx_updating ts i j t t' ltac:(congruence) Hi Hj Ht E) as S2.
    rewrite (r_w _ _ D), Hw in S2. cbn in S2. lia.
  - destruct (rx_reading t') eqn:E; [|done]. pose proof (sum_flags_one rx_reading ts j t' Hj E) as S2.
    rewrite (r_r _ _ D), Hr in S2. lia.
Qed.
Lemma writer_flag s ts i t : rxinv s ts -> ts !! i = Some t -> rx_updating t = true -> rs_writer s = true /\ rs_readers s = 0%nat.
Proof.
  intros D Hi Ht. pose proof (sum_flags_one rx_updating ts i t Hi Ht) as S. rewrite (r_w _ _ D) in S.
  destruct (rs_writer s) eqn:Hw; [|cbn in S; lia]. split; [done|]. by apply (r_x _ _ D).
Qed.
Lemma reader_flag s ts i t : rxinv s ts -> ts !! i = Some t -> rx_reading t = true -> rs_writer s = false /\ (0 < rs_readers s)%nat.
Proof.
  intros D Hi Ht. pose proof (sum_flags_one rx_reading ts i t Hi Ht) as S. rewrite (r_r _ _ D) in S.
  split; [|lia]. destruct (rs_writer s) eqn:Hw; [|done]. rewrite (r_x _ _ D Hw) in S. lia.
Qed.

Lemma upds_app a b : upds (a ++ b) = (upds a + upds b)%nat.
Proof. by rewrite filter_app, app_length. Qed.

(** A goroutine in an update: one more fits. *)
Lemma room s ts i t v ds : rxinv s ts -> ts !! i = Some t -> rx_current t = [RUpdate v ds] ->
  Z.of_nat (upds (log_calls (rs_log s))) + 1 < 2 ^ 63 /\ rx_call_ok (RUpdate v ds).
Proof.
  intros D Hi Hc. destruct Hok as (_ & HF & HN). split.
  - pose proof (r_p _ _ D) as P. rewrite <- P, upds_app in HN.
    pose proof (Permutation_insert_concat pending _ _ _ (RxThread (rx_id t) (rx_todo t) RIdle (rx_got t)) Hi) as Q.
    unfold pending at 2 in Q. rewrite Hc in Q. unfold pending at 3 in Q. cbn [rx_current rx_pc rx_todo app] in Q.
    assert (upds (mjoin (pending <$> ts)) >= 1)%nat; [|lia].
    pose proof (f_equal (fun n => n) (eq_refl (upds (mjoin (pending <$> ts) ++ rx_todo t)))) as E.
    rewrite <- Q in E at 1. rewrite !upds_app in E. rewrite filter_cons in E. cbn [is_update] in E.
    rewrite decide_True in E by done. cbn [length] in E. lia.
  - destruct (r_t _ _ D i t Hi) as (_ & _ & E). rewrite Forall_lookup in HF. specialize (HF _ _ E).
    rewrite Forall_forall in HF. apply HF. unfold pending. rewrite Hc. rewrite !elem_of_app. right. left. by apply elem_of_list_singleton.
Qed.

(** A step in the middle of a call (or its start). *)
Lemma rxinv_local s s' ts i t t' : rxinv s ts -> ts !! i = Some t ->
  rs_log s' = rs_log s -> rx_id t' = rx_id t -> rx_got t' = rx_got t -> pending t' = pending t ->
  b2Z (rs_writer s') = b2Z (rs_writer s) - b2Z (rx_updating t) + b2Z (rx_updating t') ->
  Z.of_nat (rs_readers s') = Z.of_nat (rs_readers s) - b2Z (rx_reading t) + b2Z (rx_reading t') ->
  (rs_writer s' = true -> rs_readers s' = 0%nat) ->
  (rs_rsv s' = rs_rsv s \/ rx_updating t = true) ->
  (forall u, pc_rel u (rs_rsv s) (rx_pc t) -> (rs_writer s = false -> rs_rsv s = u) ->
     ur_count u = Z.of_nat (upds (log_calls (rs_log s))) -> length (ur_values u) = Z.to_nat cap ->
     (rs_writer s' = false -> rs_rsv s' = u) /\ pc_rel u (rs_rsv s') (rx_pc t')) ->
  rxinv s' (<[i := t']> ts).
Proof.
  intros D Hi E1 E2 E3 E4 Ew Er Ex Eo Ep. pose proof D as [D1 D2 D3 (u & U1 & U2 & U3 & U4 & U5) D5 D6].
  constructor; rewrite ?E1.
  - rewrite (sumZ_insert _ _ _ _ _ Hi), D1. lia.
  - rewrite (sumZ_insert _ _ _ _ _ Hi), D2. lia.
  - done.
  - exists u. destruct (Ep u (U5 i t Hi) U4 U2 U3) as [P1 P2]. split; [done|]. split; [done|]. split; [done|]. split; [done|].
    intros j v Hj. apply list_lookup_insert_Some in Hj as [(<- & <- & _)|[Hne Hj]]; [done|].
    destruct Eo as [->|Ht]; [by apply (U5 j)|]. destruct (writer_alone _ _ _ _ _ _ D Hi Ht Hj ltac:(congruence)).
    eapply pc_free; [done|done|by apply (U5 j)].
  - intros j v Hj. apply list_lookup_insert_Some in Hj as [(<- & <- & _)|[Hne Hj]]; [|by apply D5].
    rewrite E2, E3, E4. by apply D5.
  - rewrite list_fmap_insert, E4, list_insert_id; [done|]. by rewrite list_lookup_fmap, Hi.
Qed.

Lemma by_goroutine_snoc i log e : by_goroutine i (log ++ [e]) = by_goroutine i log ++ (if decide (e.1.1 = i) then [(e.1.2, e.2)] else []).
Proof. unfold by_goroutine. rewrite omap_app. cbn. by destruct (decide (e.1.1 = i)). Qed.

(** A return. *)
Lemma rxinv_return s ts i id todo pc got k a w n : rxinv s ts -> ts !! i = Some (RxThread id todo pc got) ->
  let t := RxThread id todo pc got in
  rx_current t = [k] ->
  b2Z w = b2Z (rs_writer s) - b2Z (rx_updating t) ->
  Z.of_nat n = Z.of_nat (rs_readers s) - b2Z (rx_reading t) ->
  (w = true -> n = 0%nat) -> 
  (forall u, pc_rel u (rs_rsv s) pc -> length (ur_values u) = Z.to_nat cap ->
     ur_count u = Z.of_nat (upds (log_calls (rs_log s))) ->
     exists u', rx_alone u k = Ok (u', a) /\ length (ur_values u') = Z.to_nat cap /\
       ur_count u' = Z.of_nat (upds (log_calls (rs_log s) ++ [k])) /\
       rs_rsv s = u' /\ (u' = u \/ rx_updating t = true)) ->
  rxinv (RxShared (rs_rsv s) w n (rs_log s ++ [(id, k, a)])) (<[i := RxThread id todo RIdle (got ++ [a])]> ts).
Proof.
  intros D Hi t Hk Ew En Ex Ea. pose proof D as [D1 D2 D3 (u & U1 & U2 & U3 & U4 & U5) D5 D6].
  destruct (Ea u (U5 i _ Hi) U3 U2) as (u' & A1 & A2 & A3 & A4 & A5).
  destruct (D5 i _ Hi) as (B1 & B2 & B3). cbn [rx_id rx_got] in B1, B2. subst id.
  constructor; cbn [rs_writer rs_readers rs_log rs_rsv].
  - rewrite (sumZ_insert _ _ _ _ _ Hi), D1. fold t. cbn. lia.
  - rewrite (sumZ_insert _ _ _ _ _ Hi), D2. fold t. cbn. lia.
  - done.
  - exists u'. unfold log_calls, log_answers. rewrite !fmap_app. cbn [fmap list_fmap fst snd].
    split; [|split; [done|split; [done|split; [done|]]]].
    + rewrite (rx_sequence_snoc _ _ _ _ _ U1), A1. done.
    + intros j v Hj. apply list_lookup_insert_Some in Hj as [(<- & <- & _)|[Hne Hj]]; [done|].
      destruct A5 as [->|Ht]; [by apply (U5 j)|]. destruct (writer_alone _ _ _ _ _ _ D Hi Ht Hj ltac:(congruence)).
      eapply pc_free; [done|done|by apply (U5 j)].
  - intros j v Hj. rewrite by_goroutine_snoc. cbn [fst snd].
    apply list_lookup_insert_Some in Hj as [(<- & <- & _)|[Hne Hj]].
    + rewrite decide_True by done. cbn [rx_id rx_got]. rewrite !fmap_app, B2. cbn [fmap list_fmap fst snd]. split; [done|]. split; [done|].
      rewrite B3. unfold pending. fold t. rewrite Hk. cbn [rx_current rx_pc rx_todo app]. by rewrite <- app_assoc.
    + rewrite decide_False by done. rewrite app_nil_r. by apply D5.
  - unfold log_calls. rewrite fmap_app. cbn [fmap list_fmap fst snd]. rewrite <- D6. unfold log_calls. rewrite <- app_assoc.
    apply Permutation_app_head. pose proof (Permutation_insert_concat pending _ _ _ (RxThread i todo RIdle (got ++ [a])) Hi) as Q.
    unfold pending at 2 4 in Q. fold t in Q. rewrite Hk in Q. cbn [rx_current rx_pc rx_todo app t] in Q.
    change (k :: todo) with ([k] ++ todo) in Q. rewrite !app_assoc in Q. apply Permutation_app_inv_r in Q. rewrite <- Q. apply Permutation_app_comm.
Qed.

Ltac here D Hi := eapply (rxinv_local _ _ _ _ _ _ D Hi); cbn [rs_writer rs_readers rs_log rs_rsv rx_id rx_got rx_updating rx_reading rx_pc b2Z]; try done; try lia; auto.

Lemma rxinv_step s ts i t s' t' : rxinv s ts -> ts !! i = Some t -> rx_tstep s t = Some (s', t') -> rxinv s' (<[i := t']> ts).
Proof.
  intros D Hi Hs. destruct t as [id todo pc got]. unfold rx_tstep in Hs. cbn [rx_pc rx_todo rx_got rx_id] in Hs. cbv zeta in Hs.
  destruct pc as [|v ds|v ds|v ds old|v ds|v ds|v ds|v ds j|v ds| | | |n| |l|l|].
  - destruct todo as [|k todo]; [done|]. injection Hs as <- <-. destruct k; here D Hi; exact (r_x _ _ D).
  - destruct (rs_writer s) eqn:Hw; [done|]. destruct (rs_readers s) eqn:Hr; [|done]. cbn in Hs. injection Hs as <- <-.
    here D Hi; rewrite ?Hw, ?Hr; cbn; auto; lia.
  - destruct (writer_flag _ _ _ _ D Hi eq_refl) as [Hw Hr]. injection Hs as <- <-.
    here D Hi. intros u U _ _ _. cbn in U |- *. subst u. by rewrite Hw.
  - destruct (writer_flag _ _ _ _ D Hi eq_refl) as [Hw Hr]. injection Hs as <- <-.
    here D Hi. intros u [U ->] _ Hc _. rewrite Hw. split; [done|]. cbn. unfold bump. rewrite U.
    destruct (room _ _ _ _ v ds D Hi eq_refl) as [Hroom _]. by rewrite wrap64_id by (unfold in64, two63; lia).
  - destruct (writer_flag _ _ _ _ D Hi eq_refl) as [Hw Hr]. injection Hs as <- <-.
    destruct (Z.leb_spec (ur_count (rs_rsv s)) (Z.of_nat (length (ur_values (rs_rsv s))))) as [Hle|Hgt]; here D Hi;
      intros u U _ Hc _; cbn in U; rewrite Hw; (split; [done|]); cbn; rewrite U in *; cbn in *; (split; [done|lia]).
  - destruct (writer_flag _ _ _ _ D Hi eq_refl) as [Hw Hr]. injection Hs as <- <-.
    here D Hi. intros u [U Hle] _ Hc Hlen. rewrite Hw. split; [done|]. cbn [rs_rsv rx_pc]. rewrite U. cbn [pc_rel bump ur_count].
    destruct (room _ _ _ _ v ds D Hi eq_refl) as [Hroom Hcall].
    replace (ur_count u + 1 - 1) with (ur_count u) by lia. rewrite wrap64_id by (unfold in64, two63; lia).
    split; [done|]. split; [lia|]. cbn [rx_alone]. rewrite (wrap64_id (ur_count u + 1)) by (unfold in64, two63; lia).
    destruct (pick_exists (ur_count u + 1) ds ltac:(lia) (proj1 Hcall) (proj2 Hcall)) as (x & -> & Hx). cbn [from_option].
    rewrite ur_UpdateN_spec by (unfold default in *; simpl; lia). cbv zeta. destruct (Z.ltb_spec (ur_count u) (Z.of_nat (length (ur_values u)))); [done|lia].
  - destruct (writer_flag _ _ _ _ D Hi eq_refl) as [Hw Hr]. destruct (nextRandomPos (ur_count (rs_rsv s)) ds) as [x|] eqn:Hx; [|done].
    injection Hs as <- <-.
    destruct (room _ _ _ _ v ds D Hi eq_refl) as [Hroom Hcall].
    assert (AL : forall u, rs_rsv s = bump u -> Z.of_nat (length (ur_values u)) < ur_count u + 1 ->
      ur_count u = Z.of_nat (upds (log_calls (rs_log s))) ->
      0 <= x /\ rx_alone u (RUpdate v ds) = Ok (UniformReservoir (ur_count u + 1) (<[Z.to_nat x := v]> (ur_values u)), ADone)).
    { intros u U Hgt Hc. rewrite U in Hx. cbn in Hx.
      destruct (pick_exists (ur_count u + 1) ds ltac:(lia) (proj1 Hcall) (proj2 Hcall)) as (y & Hy & Hy').
      rewrite Hx in Hy. injection Hy as <-. split; [lia|]. cbn [rx_alone]. rewrite wrap64_id by (unfold in64, two63; lia). rewrite Hx.
      rewrite ur_UpdateN_spec by (unfold default in *; simpl; lia). cbv zeta. destruct (Z.ltb_spec (ur_count u) (Z.of_nat (length (ur_values u)))); [lia|done]. }
    destruct (Z.ltb_spec x (Z.of_nat (length (ur_values (rs_rsv s))))) as [Hlt|Hge]; here D Hi;
      intros u [U Hgt] _ Hc Hlen; rewrite Hw; (split; [done|]); destruct (AL u U Hgt Hc) as [X0 XA]; cbn [rx_pc pc_rel].
    + split; [done|]. split; [|done]. rewrite U in Hlt. cbn in Hlt. lia.
    + rewrite XA. rewrite U in Hge |- *. cbn in Hge. rewrite list_insert_ge by lia. done.
  - destruct (writer_flag _ _ _ _ D Hi eq_refl) as [Hw Hr].
    assert (HJ : 0 <= j < Z.of_nat (length (ur_values (rs_rsv s)))).
    { destruct (r_u _ _ D) as (u & _ & _ & _ & _ & HU). specialize (HU _ _ Hi). cbn in HU. destruct HU as (-> & HJ & _). exact HJ. }
    rewrite set_at_ok in Hs by done. injection Hs as <- <-.
    here D Hi. intros u (U & _ & UA) _ _ _. rewrite Hw. split; [done|]. cbn [rx_pc pc_rel]. rewrite U. exact UA.
  - destruct (writer_flag _ _ _ _ D Hi eq_refl) as [Hw Hr]. injection Hs as <- <-.
    destruct (room _ _ _ _ v ds D Hi eq_refl) as [Hroom Hcall].
    eapply rxinv_return; [done|done|done|rewrite Hw; cbn; lia|rewrite Hr; cbn; lia|done|].
    intros u U Hlen Hc. cbn [pc_rel] in U. exists (rs_rsv s). split; [done|].
    revert U. cbn [rx_alone]. rewrite wrap64_id by (unfold in64, two63; lia).
    destruct (pick_exists (ur_count u + 1) ds ltac:(lia) (proj1 Hcall) (proj2 Hcall)) as (x & -> & Hx).
    rewrite ur_UpdateN_spec by (unfold default in *; simpl; lia). intros U. injection U as <-. cbn [ur_values ur_count].
    rewrite insert_length, upds_app. split; [done|]. split; [|split; [done|by right]]. change (upds [RUpdate v ds]) with 1%nat. lia.
  - destruct (rs_writer s) eqn:Hw; [done|]. injection Hs as <- <-. here D Hi.
    + rewrite Hw. done.
    + intros u _ HU _ _. cbn [pc_rel]. split; auto.
  - destruct (reader_flag _ _ _ _ D Hi eq_refl) as [Hw Hr]. injection Hs as <- <-.
    assert (Hd : forall u, ur_Size u = if Z.of_nat (length (ur_values u)) <? ur_count u then Z.of_nat (length (ur_values u)) else ur_count u) by done.
    destruct (Z.of_nat (length (ur_values (rs_rsv s))) <? ur_count (rs_rsv s)) eqn:E; here D Hi; rewrite ?Hw; try done;
      intros u U _ _ _; cbn in U; subst u; cbn [pc_rel]; rewrite Hd, E; auto.
  - destruct (reader_flag _ _ _ _ D Hi eq_refl) as [Hw Hr]. injection Hs as <- <-.
    here D Hi; rewrite ?Hw; try done. intros u [U1 U2] _ _ _. cbn [pc_rel]. rewrite U2, U1. auto.
  - destruct (reader_flag _ _ _ _ D Hi eq_refl) as [Hw Hr]. injection Hs as <- <-.
    eapply rxinv_return; [done|done|done|rewrite Hw; cbn; lia|cbn; lia|by rewrite Hw|].
    intros u [U ->] Hlen Hc. exists u. split; [done|]. split; [done|]. split; [|split; [done|by left]].
    rewrite upds_app. change (upds [RSize]) with 0%nat. lia.
  - destruct (rs_writer s) eqn:Hw; [done|]. injection Hs as <- <-. here D Hi.
    + rewrite Hw. done.
    + intros u _ HU _ _. cbn [pc_rel]. split; [auto|]. split; [by auto|]. split; [done|]. cbn. lia.
  - destruct (reader_flag _ _ _ _ D Hi eq_refl) as [Hw Hr].
    destruct (ur_values (rs_rsv s) !! length l) as [x|] eqn:Hx; injection Hs as <- <-; here D Hi; rewrite ?Hw; try done;
      intros u (U & Ul & Ul2) _ _ _; cbn [rs_rsv rx_pc pc_rel]; (split; [done|]); (split; [done|]); rewrite U in Hx.
    + rewrite app_length. cbn [length]. rewrite Nat.add_1_r. split; [|by apply lookup_lt_Some in Hx].
      rewrite (take_S_r _ _ _ Hx). by rewrite <- Ul.
    + apply lookup_ge_None in Hx. rewrite take_ge in Ul by done. done.
  - destruct (reader_flag _ _ _ _ D Hi eq_refl) as [Hw Hr]. injection Hs as <- <-.
    eapply rxinv_return; [done|done|done|rewrite Hw; cbn; lia|cbn; lia|by rewrite Hw|].
    intros u [U ->] Hlen Hc. exists u. split; [done|]. split; [done|]. split; [|split; [done|by left]].
    rewrite upds_app. change (upds [RSnapshot]) with 0%nat. lia.
  - done.
Qed.

Lemma rxinv_init : rxinv (shared (rx_init cap progs)) (threads (rx_init cap progs)).
Proof.
  unfold rx_init. cbn [shared threads].
  assert (L : forall i t, imap (fun i p => RxThread i p RIdle []) progs !! i = Some t -> exists p, progs !! i = Some p /\ t = RxThread i p RIdle []).
  { intros i t Hi. rewrite list_lookup_imap in Hi. destruct (progs !! i) as [p|]; [|done]. injection Hi as <-. by exists p. }
  assert (Z0 : forall f : rxthread -> bool, (forall i p, f (RxThread i p RIdle []) = false) ->
    sumZ ((fun t => b2Z (f t)) <$> imap (fun i p => RxThread i p RIdle []) progs) = 0).
  { intros f Hf. enough (E : forall h : nat -> nat, sumZ ((fun t => b2Z (f t)) <$> imap (fun i p => RxThread (h i) p RIdle []) progs) = 0) by apply (E id).
    clear L Hok. induction progs as [|p l IH]; intros h; [done|]. cbn [imap]. rewrite fmap_cons, sumZ_cons, Hf. cbn [b2Z].
    unfold compose. rewrite (IH (fun i => h (S i))). done. }
  constructor; cbn [rs_writer rs_readers rs_log rs_rsv].
  - by apply Z0.
  - by apply Z0.
  - done.
  - exists new. split; [done|]. split; [done|]. split; [cbn [ur_values]; by rewrite replicate_length|]. split; [done|].
    intros i t Hi. apply L in Hi as (p & _ & ->). done.
  - intros i t Hi. apply L in Hi as (p & Hp & ->). done.
  - change (log_calls []) with (@nil rx_call). cbn [app]. apply reflexive_eq. f_equal.
    apply list_eq. intros i. rewrite list_lookup_fmap, list_lookup_imap. by destruct (progs !! i).
Qed.

Lemma rxinv_run sched : rxinv (shared (rx_run cap progs sched)) (threads (rx_run cap progs sched)).
Proof.
  unfold rx_run. apply (crun_inv _ _ (fun c => rxinv (shared c) (threads c))).
  - apply rxinv_init.
  - intros s ts i t s' t' D Hi Hs. cbn in *. by eapply rxinv_step.
  - intros s ts [].
Qed.

(** Whoever does not wait for a lock can go on. *)
Lemma holder_steps s ts i t : rxinv s ts -> ts !! i = Some t -> rx_updating t || rx_reading t = true -> rx_tstep s t <> None.
Proof.
  intros D Hi Ht. pose proof (r_u _ _ D) as (u & _ & U2 & U3 & _ & HU). specialize (HU i t Hi).
  destruct t as [id todo pc got]. unfold rx_tstep. cbn [rx_pc rx_todo rx_got rx_id] in *. cbv zeta.
  destruct pc as [|v ds|v ds|v ds old|v ds|v ds|v ds|v ds j|v ds| | | |n| |l|l|]; try done.
  - destruct HU as [E _]. rewrite E. cbn [bump ur_count]. destruct (room _ _ _ _ v ds D Hi eq_refl) as [Hroom Hcall].
    by destruct (pick_exists (ur_count u + 1) ds ltac:(lia) (proj1 Hcall) (proj2 Hcall)) as (x & -> & _).
  - by destruct (set_at _ _ _).
  - by case_match.
Qed.

(** ** How many steps *)
Definition pc_left (pc : rxpc) : nat :=
  match pc with
  | RIdle | RPanic => 0
  | RLock _ _ => 7 | RLoad _ _ => 6 | RStore _ _ _ => 5 | RCmp _ _ => 4 | RIndex _ _ => 3 | RRandom _ _ => 3
  | RPut _ _ _ => 2 | RUnlock _ _ => 1
  | RSizeLock => 4 | RSizeCmp => 3 | RSizeLoad => 2 | RSizeUnlock _ => 1
  | RSnapLock => Z.to_nat cap + 3
  | RSnapCopy l => Z.to_nat cap - length l + 2
  | RSnapUnlock _ => 1
  end.
Definition steps_of (ks : list rx_call) : nat := sum_list_with (call_steps cap) ks.
Definition steps_left (t : rxthread) : nat := (pc_left (rx_pc t) + steps_of (rx_todo t))%nat.

Lemma step_measure s ts i t s' t' : rxinv s ts -> ts !! i = Some t -> rx_tstep s t = Some (s', t') -> (steps_left t' < steps_left t)%nat.
Proof.
  intros D Hi Hs. pose proof (r_u _ _ D) as (u & _ & _ & U3 & _ & HU). specialize (HU i t Hi).
  destruct t as [id todo pc got]. unfold rx_tstep in Hs. cbn [rx_pc rx_todo rx_got rx_id] in Hs, HU. cbv zeta in Hs.
  unfold steps_left. cbn [rx_pc rx_todo].
  destruct pc as [|v ds|v ds|v ds old|v ds|v ds|v ds|v ds j|v ds| | | |n| |l|l|];
    try (repeat case_match; simplify_eq/=; unfold steps_of; cbn; lia).
  - destruct (ur_values (rs_rsv s) !! length l) eqn:Hx; injection Hs as <- <-; cbn [pc_left rx_pc rx_todo]; [|lia].
    destruct HU as (E & _). rewrite E in Hx. apply lookup_lt_Some in Hx. rewrite app_length. cbn [length]. lia.
Qed.

Lemma sum_with_insert {A} (f : A -> nat) (l : list A) i x y : l !! i = Some x ->
  (sum_list_with f (<[i := y]> l) + f x = sum_list_with f l + f y)%nat.
Proof.
  revert i. induction l as [|a l IH]; intros i Hi; [done|]. destruct i as [|i].
  - injection Hi as ->. cbn [insert list_insert sum_list_with]. lia.
  - specialize (IH i Hi). change (<[S i := y]> (a :: l)) with (a :: <[i := y]> l). cbn [sum_list_with]. lia.
Qed.

Lemma steps_bound c sched : rxinv (shared c) (threads c) -> (steps_taken c sched <= sum_list_with steps_left (threads c))%nat.
Proof.
  revert c. induction sched as [|ev sched IH]; intros c D; [cbn; lia|]. cbn [steps_taken].
  destruct ev as [i|[]]. destruct c as [s ts]. cbn [cstep threads shared] in *.
  destruct (ts !! i) as [t|] eqn:Hi; [|specialize (IH (Config s ts) D); cbn in IH; lia].
  destruct (rx_tstep s t) as [[s' t']|] eqn:Hs; [|specialize (IH (Config s ts) D); cbn in IH; lia].
  pose proof (step_measure _ _ _ _ _ _ D Hi Hs) as M. specialize (IH (Config s' (<[i:=t']> ts)) (rxinv_step _ _ _ _ _ _ D Hi Hs)).
  cbn [threads] in IH. pose proof (sum_with_insert steps_left _ _ _ t' Hi). lia.
Qed.

Lemma steps_init : sum_list_with steps_left (threads (rx_init cap progs)) = steps_of (mjoin progs).
Proof.
  unfold rx_init. cbn [threads].
  enough (E : forall h : nat -> nat, sum_list_with steps_left (imap (fun i p => RxThread (h i) p RIdle []) progs) = steps_of (mjoin progs)) by apply (E id).
  clear Hok. induction progs as [|p l IH]; intros h; [done|]. cbn [imap sum_list_with]. unfold compose. rewrite (IH (fun i => h (S i))).
  change (mjoin (p :: l)) with (p ++ mjoin l). unfold steps_of at 2. rewrite sum_list_with_app. done.
Qed.
End inv.

(** The log only grows. *)
Lemma rx_log_grows c sched : rs_log (shared c) `prefix_of` rs_log (shared (crun rx_tstep rx_estep c sched)).
Proof.
  induction sched as [|ev sched IH] using rev_ind; [done|]. rewrite crun_snoc. etrans; [exact IH|]. clear IH.
  destruct (crun rx_tstep rx_estep c sched) as [s ts]. destruct ev as [i|[]]. cbn [cstep shared threads].
  destruct (ts !! i) as [t|]; [|done]. destruct (rx_tstep s t) as [[s' t']|] eqn:Hs; [|done]. cbn [shared].
  unfold rx_tstep in Hs. cbv zeta in Hs. repeat case_match; simplify_eq/=; try done; by apply prefix_app_r.
Qed.

(** The finished calls as a history of the sequential model. *)
Lemma rx_history cap ks u ans : 0 <= cap -> Forall rx_call_ok ks -> Z.of_nat (length (recorded_by ks)) < 2 ^ 63 ->
  rx_sequence (UniformReservoir 0 (replicate (Z.to_nat cap) 0)) ks = Ok (u, ans) ->
  exists ups, picks_in_range ups /\ ups.*1 = recorded_by ks /\ ur_exec cap ups = Ok u.
Proof.
  intros Hcap. revert u ans. induction ks as [|k ks IH] using rev_ind; intros u ans HF HN HS.
  - injection HS as <- <-. exists []. split; [by intros i v p H|]. split; [done|]. unfold ur_exec, NewUniformReservoir.
    destruct (Z.ltb_spec cap 0); [lia|done].
  - apply Forall_app in HF as [HF Hk]. unfold recorded_by in HN. rewrite omap_app, app_length in HN.
    assert (exists u1 a1, rx_sequence (UniformReservoir 0 (replicate (Z.to_nat cap) 0)) ks = Ok (u1, a1)) as (u1 & a1 & E1).
    { clear -HS. revert HS. generalize (UniformReservoir 0 (replicate (Z.to_nat cap) 0)). intros u0. revert u ans u0.
      induction ks as [|k0 ks IH]; intros u ans u0 H; [by eexists _, _|]. cbn in H |- *.
      destruct (rx_alone u0 k0) as [[u2 a2]|]; [|done]. cbn in H |- *.
      destruct (rx_sequence u2 (ks ++ [k])) as [[u3 a3]|] eqn:E; [|done]. destruct (IH _ _ _ E) as (? & ? & ->). by eexists _, _. }
    destruct (IH u1 a1) as (ups & P & V & X); [done|unfold recorded_by; lia|done|].
    rewrite (rx_sequence_snoc _ _ _ _ _ E1) in HS.
    destruct (ur_exec_spec cap ups) as (u1' & X' & C & _); [done| |done|].
    { fold (recorded_by ks) in HN. rewrite <- V, fmap_length in HN. lia. }
    rewrite X in X'. injection X' as <-.
    unfold recorded_by. rewrite omap_app. fold (recorded_by ks). rewrite <- V.
    destruct k as [v ds| |].
    + cbn [rx_alone] in HS. assert (Hc : ur_count u1 + 1 < 2 ^ 63).
      { rewrite C. cbn in HN. fold (recorded_by ks) in HN. rewrite <- V, fmap_length in HN. lia. }
      rewrite wrap64_id in HS by (unfold in64, two63; lia).
      apply Forall_cons in Hk as [[K1 K2] _].
      destruct (pick_exists (ur_count u1 + 1) ds ltac:(lia) K1 K2) as (x & Hx & Hx'). rewrite Hx in HS. cbn in HS.
      exists (ups ++ [(v, x)]). split; [|split].
      * intros i v' p Hi. apply lookup_app_Some in Hi as [Hi|[Hge Hi]]; [by apply (P i v')|].
        destruct (i - length ups)%nat as [|m] eqn:Em; [|done]. injection Hi as <- <-. lia.
      * rewrite fmap_app. done.
      * unfold ur_exec in X |- *. destruct (NewUniformReservoir cap) as [un|]; [|done]. cbn in X |- *. unfold ur_run in *.
        rewrite run_ops_app, X. cbn. destruct (ur_UpdateN u1 v x); [|done]. cbn in HS. by injection HS as <- _.
    + cbn in HS. injection HS as <- _. exists ups. split; [done|]. split; [|done]. cbn. by rewrite app_nil_r.
    + cbn in HS. injection HS as <- _. exists ups. split; [done|]. split; [|done]. cbn. by rewrite app_nil_r.
Qed.
