From Verif.Go Require Import GoInt GoFloat GoConc.
From Verif.Model Require Import WeightedSnapshot DecayingReservoir DecayingConc.
From Verif.Spec Require Import BucketSpec DecayingSpec DecayingConcSpec.
From Verif.Proofs Require Import BucketHist FloatProofs DecayingProofs DecayingCalls EWMAConcProofs CompassConcProofs DecayingConcProofs.
From Coq Require Import Reals Lra.
From Flocq Require Import Core.Core IEEE754.BinarySingleNaN.
Local Open Scope Z_scope.

(** ** Sums of 0s and 1s *)
Lemma sum_flags_nonneg {A} (f : A -> bool) (l : list A) : 0 <= sumZ ((fun x => b2Z (f x)) <$> l).
Proof. induction l as [|x l IH]; [done|]. rewrite fmap_cons, sumZ_cons. destruct (f x); cbn [b2Z]; lia. Qed.
Lemma sum_flags_pos {A} (f : A -> bool) (l : list A) : 0 < sumZ ((fun x => b2Z (f x)) <$> l) -> exists i x, l !! i = Some x /\ f x = true.
Proof.
  induction l as [|x l IH]; [done|]. rewrite fmap_cons, sumZ_cons. destruct (f x) eqn:E; cbn [b2Z]; intros H.
  - by exists 0%nat, x.
  - destruct IH as (i & y & Hi & Hy); [lia|]. by exists (S i), y.
Qed.
Lemma sum_flags_one {A} (f : A -> bool) (l : list A) k u : l !! k = Some u -> f u = true -> 1 <= sumZ ((fun x => b2Z (f x)) <$> l).
Proof.
  revert k. induction l as [|z l IH]; intros k Hk Hu; [done|]. rewrite fmap_cons, sumZ_cons. destruct k as [|k]; cbn in Hk.
  - injection Hk as ->. rewrite Hu. cbn [b2Z]. pose proof (sum_flags_nonneg f l). lia.
  - specialize (IH k Hk Hu). destruct (f z); cbn [b2Z]; lia.
Qed.
Lemma sum_flags_two {A} (f : A -> bool) (l : list A) i j x y : i <> j -> l !! i = Some x -> l !! j = Some y -> f x = true -> f y = true ->
  2 <= sumZ ((fun x => b2Z (f x)) <$> l).
Proof.
  intros Hij Hi Hj Hx Hy. revert i j Hij Hi Hj. induction l as [|z l IH]; intros i j Hij Hi Hj; [done|]. rewrite fmap_cons, sumZ_cons.
  pose proof (sum_flags_one f l) as One.
  destruct i as [|i], j as [|j]; cbn in Hi, Hj; [done| | |].
  - injection Hi as ->. rewrite Hx. specialize (One j y Hj Hy). cbn [b2Z]. lia.
  - injection Hj as ->. rewrite Hy. specialize (One i x Hi Hx). cbn [b2Z]. lia.
  - specialize (IH i j ltac:(congruence) Hi Hj). destruct (f z); cbn [b2Z]; lia.
Qed.

Section more.
Context (mexp : f64 -> f64) (HE : exp_ok mexp).
Context (size : Z) (alpha : f64) (ms0 tick0 : Z) (all : list Z).
Context (Hsize : 1 <= size) (Halpha : decay_ok alpha) (Hall : Z.of_nat (length all) < 2 ^ 63).
Notation new := (NewEDR size alpha ms0 tick0).
Notation dxinv := (dxinv size alpha ms0 tick0 all).

(** One goroutine at a time has the write lock. *)
Lemma exclusive s ts i j t u : dxinv s ts -> ts !! i = Some t -> ts !! j = Some u ->
  in_write (dx_pc t) = true -> in_write (dx_pc u) = true -> i = j.
Proof.
  intros D Hi Hj Ht Hu. destruct (decide (i = j)) as [|Hij]; [done|exfalso].
  pose proof (sum_flags_two (fun t => in_write (dx_pc t)) ts i j t u Hij Hi Hj Ht Hu) as S. cbv beta in S. rewrite (d_w _ _ _ _ _ _ _ D) in S.
  destruct (ds_writer s); cbn in S; lia.
Qed.

(** Some goroutine can go on. *)
Lemma progress s ts i t : dxinv s ts -> ts !! i = Some t -> ~ dx_finished t ->
  exists j u, ts !! j = Some u /\ dx_tstep mexp s u <> None.
Proof.
  intros D Hi Hf. destruct (ds_writer s) eqn:Hw.
  - destruct (sum_flags_pos (fun t => in_write (dx_pc t)) ts) as (j & u & Hj & Hu).
    { cbv beta. rewrite (d_w _ _ _ _ _ _ _ D), Hw. cbn. lia. }
    exists j, u. split; [done|]. destruct u as [todo pc got]. cbn [dx_pc] in Hu. unfold dx_tstep. cbn [dx_pc dx_todo dx_got]. cbv zeta.
    destruct pc; try done. by destruct (ed_insert _ _ _ _).
  - destruct (ds_readers s) as [|n] eqn:Hr.
    + exists i, t. split; [done|]. destruct (d_pcs _ _ _ _ _ _ _ D i t Hi) as [Hpc _].
      destruct t as [todo pc got]. cbn [dx_pc] in Hpc. unfold dx_tstep, dx_finished in *. cbn [dx_pc dx_todo dx_got] in *. cbv zeta. rewrite Hw, Hr.
      destruct pc; try done.
      * destruct todo; [|done]. by destruct Hf.
      * by destruct (_ =? _).
      * by destruct (ed_insert _ _ _ _).
    + destruct (sum_flags_pos (fun t => in_read (dx_pc t)) ts) as (j & u & Hj & Hu).
      { cbv beta. rewrite (d_r _ _ _ _ _ _ _ D), Hr. lia. }
      exists j, u. split; [done|]. destruct u as [todo pc got]. cbn [dx_pc] in Hu. unfold dx_tstep. cbn [dx_pc dx_todo dx_got]. cbv zeta.
      by destruct pc.
Qed.

(** ** One at a time, while landmarks are current *)
Context (upd : list dx_call).
Definition is_scale (pc : dxpc) : bool := match pc with XScale _ _ => true | _ => false end.

Definition apc_ok (shown : list Z) (s : dx_shared) (acts : list dec_action) (rA : edr) (pc : dxpc) : Prop :=
  match pc with
  | XStart _ old ms => old = ed_startTime (ds_rsv s) /\ ms ∈ shown /\ ms <= ds_ms s /\ Forall (fun x => x <= ms) (rescale_times acts)
  | XScale _ f => exists ms, ed_startTime (ds_rsv s) = currentTimeInSecond ms /\ f = ed_scalingFactor mexp (ds_rsv s) (ed_startTime rA) /\
      ms ∈ shown /\ ms <= ds_ms s /\ Forall (fun x => x <= ms) (rescale_times acts)
  | XLand _ _ ms | XULock _ _ ms _ | XInsert _ _ ms _ => ms ∈ shown
  | _ => True
  end.

Record ainv (shown : list Z) (s : dx_shared) (ts : list dxthread) (acts : list dec_action) (rA : edr) : Prop := {
  a_run : dec_acts mexp new acts = Ok rA;
  a_rsv : ed_values (ds_rsv s) = ed_values rA /\ ed_count (ds_rsv s) = ed_count rA /\ ed_size (ds_rsv s) = ed_size rA /\ ed_alpha (ds_rsv s) = ed_alpha rA;
  a_shown : Forall (fun a => action_ms a ∈ shown) acts;
  a_sorted : StronglySorted Z.le (rescale_times acts);
  a_past : Forall (fun x => x <= ds_ms s) (rescale_times acts);
  a_now : ds_ms s ∈ shown;
  a_acct : mjoin (action_update <$> acts) ++ mjoin (updates_left <$> ts) ≡ₚ upd;
  a_start : (forall i t, ts !! i = Some t -> is_scale (dx_pc t) = false) -> ed_startTime (ds_rsv s) = ed_startTime rA;
  a_pcs : forall i t, ts !! i = Some t -> apc_ok shown s acts rA (dx_pc t) }.

Lemma apc_frame shown shown' s s' acts rA pc : apc_ok shown s acts rA pc ->
  ed_startTime (ds_rsv s') = ed_startTime (ds_rsv s) -> ed_alpha (ds_rsv s') = ed_alpha (ds_rsv s) -> ds_ms s <= ds_ms s' ->
  (forall x, x ∈ shown -> x ∈ shown') -> apc_ok shown' s' acts rA pc.
Proof.
  intros H E1 E2 E3 E4. destruct pc; cbn [apc_ok] in *; auto.
  - destruct H as (-> & H2 & H3 & H4). rewrite E1. split_and!; auto. lia.
  - destruct H as (ms & H1 & -> & H2 & H3 & H4). exists ms. unfold ed_scalingFactor. rewrite E1, E2. split_and!; auto. lia.
Qed.

Lemma ainv_local shown s s' ts i t t' acts rA : ainv shown s ts acts rA -> ts !! i = Some t ->
  ed_values (ds_rsv s') = ed_values (ds_rsv s) -> ed_count (ds_rsv s') = ed_count (ds_rsv s) ->
  ed_size (ds_rsv s') = ed_size (ds_rsv s) -> ed_alpha (ds_rsv s') = ed_alpha (ds_rsv s) ->
  ed_startTime (ds_rsv s') = ed_startTime (ds_rsv s) -> ds_ms s' = ds_ms s ->
  is_scale (dx_pc t) = false -> is_scale (dx_pc t') = false -> updates_left t' = updates_left t ->
  apc_ok shown s acts rA (dx_pc t') ->
  ainv shown s' (<[i := t']> ts) acts rA.
Proof.
  intros [A1 A2 A3 A4 A5 A6 A7 A8 A9] Hi E1 E2 E3 E4 E5 E6 E7 E8 E9 E10.
  constructor; rewrite ?E1, ?E2, ?E3, ?E4, ?E5, ?E6; try done.
  - rewrite list_fmap_insert, E9, list_insert_id; [done|]. by rewrite list_lookup_fmap, Hi.
  - intros H. apply A8. intros j u Hj. destruct (decide (j = i)) as [->|Hji].
    + rewrite Hi in Hj. by injection Hj as <-.
    + apply (H j). by rewrite list_lookup_insert_ne.
  - intros j u Hj. apply list_lookup_insert_Some in Hj as [(-> & <- & _)|[_ Hj]].
    + eapply apc_frame; [exact E10|done|done|lia|done].
    + eapply apc_frame; [by eapply A9|done|done|lia|done].
Qed.

Lemma dx_after_left todo k got : updates_left (DxThread todo (dx_after k) got) = call_update k ++ updates_of todo.
Proof. by destruct k. Qed.

Lemma dec_acts_snoc r acts a x : dec_acts mexp r acts = Ok x -> dec_acts mexp r (acts ++ [a]) = dec_act mexp x a.
Proof.
  revert r. induction acts as [|b acts IH]; intros r; cbn [dec_acts app].
  - intros [= ->]. by destruct (dec_act mexp x a).
  - destruct (dec_act mexp r b) as [y|]; cbn [mbind res_bind]; [apply IH|done].
Qed.

Lemma sorted_snoc (l : list Z) x : StronglySorted Z.le l -> Forall (fun y => y <= x) l -> StronglySorted Z.le (l ++ [x]).
Proof.
  induction 1 as [|y l Hs IH Hy]; intros Hx; cbn [app]; [by repeat constructor|].
  apply Forall_cons in Hx as [? Hx]. constructor; [by apply IH|]. apply Forall_app. split; [done|]. by repeat constructor.
Qed.

Lemma mjoin_snoc {A B} (f : A -> list B) l x : mjoin (f <$> (l ++ [x])) = mjoin (f <$> l) ++ f x.
Proof. induction l as [|y l IH]; cbn [fmap list_fmap mjoin list_join app]; [by rewrite app_nil_r|]. rewrite <- app_assoc. by f_equal. Qed.

Lemma ainv_step shown s ts i t s' t' acts rA : dxinv s ts -> ainv shown s ts acts rA -> landmark_current (Config s ts) ->
  ts !! i = Some t -> dx_tstep mexp s t = Some (s', t') ->
  exists acts' rA', ainv shown s' (<[i := t']> ts) acts' rA'.
Proof.
  intros D A LC Hi Hs. pose proof A as [A1 A2 A3 A4 A5 A6 A7 A8 A9].
  pose proof (A9 i t Hi) as Hpc. pose proof (LC i t Hi) as Hlc. cbn [shared threads] in Hlc.
  assert (Hex : in_write (dx_pc t) = true -> forall j u, j <> i -> ts !! j = Some u -> in_write (dx_pc u) = false).
  { intros Ht j u Hji Hj. destruct (in_write (dx_pc u)) eqn:Hu; [|done]. exfalso. apply Hji. by eapply exclusive. }
  destruct t as [todo pc got]. unfold dx_tstep in Hs. cbn [dx_pc dx_todo dx_got] in *. cbv zeta in Hs.
  destruct pc as [|k|k now|k now|k now next|k|k|k old ms|k f|v r|v r ms|v r ms land|v r ms land| | |]; cbn [apc_ok] in Hpc.
  - destruct todo as [|k todo]; [done|]. injection Hs as <- <-. exists acts, rA. eapply ainv_local; try done.
  - injection Hs as <- <-. exists acts, rA. eapply ainv_local; try done.
  - injection Hs as <- <-. exists acts, rA. destruct (_ <=? _); [eapply ainv_local; try done|].
    destruct k; eapply ainv_local; try done.
  - injection Hs as <- <-. exists acts, rA. eapply ainv_local; try done.
  - destruct (_ =? _); injection Hs as <- <-; exists acts, rA; [eapply ainv_local; try done|]. destruct k; eapply ainv_local; try done.
  - destruct (_ || _); [done|]. injection Hs as <- <-. exists acts, rA. eapply ainv_local; try done.
  - injection Hs as <- <-. exists acts, rA. eapply ainv_local; try done.
  - destruct Hpc as (-> & H2 & H3 & H4). injection Hs as <- <-. exists acts, rA.
    assert (Hns : forall j u, ts !! j = Some u -> is_scale (dx_pc u) = false).
    { intros j u Hj. destruct (decide (j = i)) as [->|Hji]; [rewrite Hi in Hj; by injection Hj as <-|].
      specialize (Hex eq_refl j u Hji Hj). by destruct (dx_pc u). }
    constructor; cbn [set_rsv ds_rsv ds_ms set_startTime ed_values ed_count ed_size ed_alpha ed_startTime]; try done.
    + rewrite list_fmap_insert, list_insert_id; [done|]. by rewrite list_lookup_fmap, Hi.
    + intros H. exfalso. specialize (H i _ (list_lookup_insert ts i _ (lookup_lt_Some _ _ _ Hi))). done.
    + intros j u Hj. apply list_lookup_insert_Some in Hj as [(<- & <- & _)|[Hji Hj]].
      * cbn [dx_pc apc_ok set_rsv ds_rsv ds_ms]. exists ms. split_and!; try done. by rewrite A8.
      * specialize (Hex eq_refl j u ltac:(congruence) Hj). specialize (A9 j u Hj). by destruct (dx_pc u).
  - destruct Hpc as (ms & H0 & -> & H2 & H3 & H4). injection Hs as <- <-.
    destruct A2 as (V & C & S & Al).
    assert (EQ : dec_act mexp rA (ARescale ms) = Ok (ed_rescale_locked mexp rA ms)) by done.
    exists (acts ++ [ARescale ms]), (ed_rescale_locked mexp rA ms).
    assert (EF : ed_scalingFactor mexp (set_startTime rA (currentTimeInSecond ms)) (ed_startTime rA) = ed_scalingFactor mexp (ds_rsv s) (ed_startTime rA)).
    { unfold ed_scalingFactor. cbn [set_startTime ed_alpha ed_startTime]. by rewrite H0, Al. }
    assert (RT : rescale_times (acts ++ [ARescale ms]) = rescale_times acts ++ [ms]) by (unfold rescale_times; by rewrite omap_app).
    set (f := ed_scalingFactor mexp (ds_rsv s) (ed_startTime rA)) in *.
    assert (F : ed_values (ed_rescale_body (ds_rsv s) f) = ed_values (ed_rescale_locked mexp rA ms) /\
      ed_count (ed_rescale_body (ds_rsv s) f) = ed_count (ed_rescale_locked mexp rA ms) /\
      ed_size (ed_rescale_body (ds_rsv s) f) = ed_size (ed_rescale_locked mexp rA ms) /\
      ed_alpha (ed_rescale_body (ds_rsv s) f) = ed_alpha (ed_rescale_locked mexp rA ms) /\
      ed_startTime (ed_rescale_body (ds_rsv s) f) = ed_startTime (ed_rescale_locked mexp rA ms)).
    { unfold ed_rescale_locked. rewrite EF. unfold ed_rescale_body, ed_GetValues. destruct (feq f f0); cbn; rewrite ?V, ?S; done. }
    destruct F as (F1 & F2 & F3 & F4 & F5).
    constructor; cbn [logged set_lock set_rsv ds_rsv ds_ms]; rewrite ?RT; try done.
    + by rewrite (dec_acts_snoc _ _ _ _ A1).
    + apply Forall_app. split; [done|]. by repeat constructor.
    + by apply sorted_snoc.
    + apply Forall_app. split; [done|]. by repeat constructor.
    + rewrite mjoin_snoc. cbn [action_update]. rewrite app_nil_r.
      rewrite list_fmap_insert, dx_after_left, list_insert_id; [done|]. by rewrite list_lookup_fmap, Hi.
    + intros j u Hj. apply list_lookup_insert_Some in Hj as [(<- & <- & _)|[Hji Hj]].
      * cbn [dx_pc]. by destruct k.
      * specialize (Hex eq_refl j u ltac:(congruence) Hj). specialize (A9 j u Hj). by destruct (dx_pc u).
  - injection Hs as <- <-. exists acts, rA. eapply ainv_local; try done.
  - injection Hs as <- <-. exists acts, rA. eapply ainv_local; try done.
  - destruct (_ || _); [done|]. injection Hs as <- <-. exists acts, rA. eapply ainv_local; try done.
  - assert (Hns : forall j u, ts !! j = Some u -> is_scale (dx_pc u) = false).
    { intros j u Hj. destruct (decide (j = i)) as [->|Hji]; [rewrite Hi in Hj; by injection Hj as <-|].
      specialize (Hex eq_refl j u Hji Hj). by destruct (dx_pc u). }
    specialize (A8 Hns). destruct A2 as (V & C & S & Al).
    assert (EW : dx_weight mexp (ds_rsv s) land ms = ed_itemWeight mexp rA ms).
    { unfold dx_weight, ed_itemWeight, ed_weight. cbn [set_startTime ed_alpha ed_startTime]. by rewrite Hlc, A8, Al. }
    rewrite EW in Hs. set (w := ed_itemWeight mexp rA ms) in *. set (p := ed_priority w r) in *.
    pose proof (insert_frame rA (ds_rsv s) p v w (eq_sym V) (eq_sym S) (eq_sym C)) as FR.
    destruct (ed_insert (ds_rsv s) p v w) as [x|] eqn:Ex.
    2:{ exfalso. destruct (d_pcs _ _ _ _ _ _ _ D i _ Hi) as [Hd _]. cbn [dx_pc dpc_ok] in Hd.
        injection Hs as <- <-.
        destruct (dxinv_step mexp HE size alpha ms0 tick0 all Hsize Halpha Hall s ts i (DxThread todo (XInsert v r ms land) got) (set_lock s false 0) (DxThread todo XPanic got) D Hi) as [D' _].
        { unfold dx_tstep. cbn [dx_pc dx_todo dx_got]. cbv zeta. rewrite EW. fold w p. by rewrite Ex. }
        destruct (d_pcs _ _ _ _ _ _ _ D' i _ (list_lookup_insert ts i _ (lookup_lt_Some _ _ _ Hi))) as [Bad _]. done. }
    injection Hs as <- <-. destruct FR as (y & Ey & Y1 & Y2 & Y3 & Y4 & Y5).
    assert (EQ : dec_act mexp rA (ARecord ms r v) = Ok y) by exact Ey.
    assert (Hy : ed_alpha y = ed_alpha rA /\ ed_startTime y = ed_startTime rA).
    { pose proof (insert_frame rA rA p v w eq_refl eq_refl eq_refl) as FR. rewrite Ey in FR. by destruct FR as (z & _ & _ & _ & _ & ? & ?). }
    destruct Hy as [Hy1 Hy2].
    exists (acts ++ [ARecord ms r v]), y.
    assert (RT : rescale_times (acts ++ [ARecord ms r v]) = rescale_times acts) by (unfold rescale_times; rewrite omap_app; apply app_nil_r).
    constructor; cbn [logged set_lock set_rsv ds_rsv ds_ms]; rewrite ?RT; try done.
    + by rewrite (dec_acts_snoc _ _ _ _ A1).
    + split_and!; congruence.
    + apply Forall_app. split; [done|]. by repeat constructor.
    + rewrite mjoin_snoc. cbn [action_update]. rewrite <- app_assoc.
      pose proof (Permutation_insert_concat updates_left _ _ _ (DxThread todo XIdle got) Hi) as P.
      cbn [updates_left dx_pc dx_todo app] in P. rewrite <- A7. apply Permutation_app_head.
      change (KUpdate v r :: updates_of todo) with ([KUpdate v r] ++ updates_of todo) in P.
      rewrite !app_assoc in P. apply Permutation_app_inv_r in P. rewrite <- P. apply Permutation_app_comm.
    + intros _. congruence.
    + intros j u Hj. apply list_lookup_insert_Some in Hj as [(<- & <- & _)|[Hji Hj]]; [done|].
      specialize (Hex eq_refl j u ltac:(congruence) Hj). specialize (A9 j u Hj). by destruct (dx_pc u).
  - destruct (ds_writer s); [done|]. injection Hs as <- <-. exists acts, rA. eapply ainv_local; try done.
  - injection Hs as <- <-. exists acts, rA. eapply ainv_local; try done.
  - done.
Qed.

Lemma ainv_env shown s ts ms tick acts rA : ainv shown s ts acts rA -> ds_ms s <= ms -> ainv (shown ++ [ms]) (dx_estep s (ms, tick)) ts acts rA.
Proof.
  intros [A1 A2 A3 A4 A5 A6 A7 A8 A9] Hm. constructor; cbn [dx_estep ds_rsv ds_ms fst]; try done.
  - eapply Forall_impl; [exact A3|]. intros a Ha. cbv beta in *. apply elem_of_app. by left.
  - eapply Forall_impl; [exact A5|]. intros a Ha. cbv beta in *. lia.
  - apply elem_of_app. right. by apply elem_of_list_singleton.
  - intros i t Hi. eapply apc_frame; [by eapply A9|done|done|done|]. intros x Hx. apply elem_of_app. by left.
Qed.

Lemma ms_shown_snoc sched ev : ms_shown ms0 (sched ++ [ev]) =
  ms_shown ms0 sched ++ match ev with Env (ms, _) => [ms] | Run _ => [] end.
Proof. unfold ms_shown. rewrite omap_app. cbn. destruct ev as [|[ms tick]]; done. Qed.

Lemma clock_ok_last c sched ms tick : clock_ok (ds_ms (shared c)) (sched ++ [Env (ms, tick)]) ->
  ds_ms (shared (crun (dx_tstep mexp) dx_estep c sched)) <= ms.
Proof.
  revert c. induction sched as [|ev sched IH]; intros c H.
  - cbn in *. lia.
  - cbn [crun fold_left]. apply IH. destruct ev as [i|[m tk]]; cbn [app clock_ok] in H.
    + destruct c as [s ts]. cbn [cstep shared threads] in *. destruct (ts !! i) as [t|]; [|done].
      destruct (dx_tstep mexp s t) as [[s' t']|] eqn:E; [|done]. cbn [shared].
      assert (ds_ms s' = ds_ms s) as ->; [|done]. clear -E. destruct t as [todo pc got]. unfold dx_tstep in E. cbn [dx_pc dx_todo dx_got] in E. cbv zeta in E.
      destruct pc; repeat match type of E with context [match ?x with _ => _ end] => destruct x end; try done; by injection E as <- <-.
    + by destruct H.
Qed.

Lemma clock_ok_app last a b : clock_ok last (a ++ b) -> clock_ok last a.
Proof. revert last. induction a as [|[i|[ms tick]] a IH]; intros last; cbn [app clock_ok]; [done|apply IH|]. intros [? ?]. split; [done|by apply IH]. Qed.

Lemma ainv_run c sched : dxinv (shared c) (threads c) -> clock_ok (ds_ms (shared c)) sched -> ds_ms (shared c) = ms0 ->
  (forall n, landmark_current (crun (dx_tstep mexp) dx_estep c (take n sched))) ->
  (exists acts rA, ainv [ms0] (shared c) (threads c) acts rA) ->
  exists acts rA, ainv (ms_shown ms0 sched) (shared (crun (dx_tstep mexp) dx_estep c sched)) (threads (crun (dx_tstep mexp) dx_estep c sched)) acts rA.
Proof.
  intros D Hc Hm HL H0. induction sched as [|ev sched IH] using rev_ind; [done|].
  pose proof (clock_ok_app _ _ _ Hc) as Hc1.
  destruct IH as (acts & rA & A); [done| |].
  { intros n. destruct (decide (n <= length sched)%nat).
    - specialize (HL n). by rewrite take_app_le in HL by lia.
    - specialize (HL (length sched)). rewrite take_app in HL. by rewrite take_ge by lia. }
  pose proof (dxinv_run mexp HE size alpha ms0 tick0 all Hsize Halpha Hall c sched D Hc1) as D1.
  specialize (HL (length sched)). rewrite take_app in HL.
  pose proof (fun ms tick => clock_ok_last c sched ms tick) as HLast.
  rewrite crun_snoc, ms_shown_snoc. destruct (crun (dx_tstep mexp) dx_estep c sched) as [s ts] eqn:Er. cbn [shared threads] in *.
  destruct ev as [i|[ms tick]]; cbn [cstep shared threads].
  - rewrite app_nil_r. destruct (ts !! i) as [t|] eqn:Hi; [|by exists acts, rA].
    destruct (dx_tstep mexp s t) as [[s' t']|] eqn:Hs; [|by exists acts, rA]. by eapply ainv_step.
  - exists acts, rA. apply ainv_env; [done|]. by eapply HLast.
Qed.
End more.
