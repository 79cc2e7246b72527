From Verif.Go Require Import GoInt GoFloat GoConc.
From Verif.Model Require Import WeightedSnapshot DecayingReservoir DecayingConc.
From Verif.Spec Require Import BucketSpec DecayingSpec DecayingConcSpec.
From Verif.Proofs Require Import BucketHist FloatProofs DecayingProofs DecayingCalls DecayingConcProofs DecayingConcMore DecayingConcTicks.
From Coq Require Import Reals Lra.
From Flocq Require Import Core.Core IEEE754.BinarySingleNaN.
Local Open Scope Z_scope.

Lemma mjoin_app {A} (a b : list (list A)) : mjoin (a ++ b) = mjoin a ++ mjoin b.
Proof. induction a as [|x a IH]; [done|]. cbn [app]. change (mjoin (x :: a ++ b)) with (x ++ mjoin (a ++ b)). rewrite IH. apply app_assoc. Qed.

Lemma mjoin_mjoin {A B} (f : A -> list B) (ls : list (list A)) : mjoin ((fun l => mjoin (f <$> l)) <$> ls) = mjoin (f <$> mjoin ls).
Proof.
  induction ls as [|l ls IH]; [done|]. rewrite fmap_cons. change (mjoin (l :: ls)) with (l ++ mjoin ls). rewrite fmap_app, mjoin_app, <- IH. done.
Qed.

Section main.
Context (mexp : f64 -> f64) (size : Z) (alpha : f64) (ms0 tick0 : Z) (progs : list (list dx_call)).
Notation vals := (mjoin (call_value <$> mjoin progs)).
Notation dxinv := (dxinv size alpha ms0 tick0 vals).
Notation run sched := (dx_crun mexp size alpha ms0 tick0 progs sched).

Lemma dxinv_init : exp_ok mexp -> decay_ok alpha -> 0 <= ms0 < 2 ^ 62 -> Forall (Forall call_ok) progs ->
  dxinv (shared (dx_init size alpha ms0 tick0 progs)) (threads (dx_init size alpha ms0 tick0 progs)).
Proof.
  intros HE Ha Hm Hp. constructor; cbn [dx_init shared threads ds_rsv ds_log ds_ms ds_writer ds_readers NewEDR ed_startTime ed_alpha].
  - by exists (NewEDR size alpha ms0 tick0).
  - done.
  - done.
  - pose proof (seconds_mono ms0 ms0 ltac:(lia)). lia.
  - done.
  - clear. induction progs as [|p l IH]; [done|]. rewrite !fmap_cons, sumZ_cons. cbn [dx_pc in_write b2Z]. rewrite Z.add_0_l. exact IH.
  - clear. induction progs as [|p l IH]; [done|]. rewrite !fmap_cons, sumZ_cons. cbn [dx_pc in_read b2Z]. rewrite Z.add_0_l. exact IH.
  - done.
  - cbn [offers omap list_omap app]. change (offers []) with (@nil Z). cbn [app]. rewrite <- mjoin_mjoin, <- list_fmap_compose. done.
  - intros i t Hi. apply list_lookup_fmap_inv in Hi as (p & -> & Hi). split; [done|]. cbn [dx_todo]. rewrite Forall_lookup in Hp. by eapply Hp.
  - intros i t x Hi Hx. apply list_lookup_fmap_inv in Hi as (p & -> & Hi). by apply elem_of_nil in Hx.
Qed.

Lemma dxinv_main sched : conc_ok mexp size alpha ms0 progs sched -> dxinv (shared (run sched)) (threads (run sched)).
Proof.
  intros (HE & Hs & Ha & Hm & Hc & Hp & Hn). apply dxinv_run; try done; [lia|]. by apply dxinv_init.
Qed.

Lemma conc_ok_prefix s1 s2 : conc_ok mexp size alpha ms0 progs (s1 ++ s2) -> conc_ok mexp size alpha ms0 progs s1.
Proof. intros (HE & Hs & Ha & Hm & Hc & Hp & Hn). split_and!; try done; try apply Ha; try lia. by eapply clock_ok_app. Qed.

(** What a goroutine gets from now on, it reads from now on. *)
Lemma fresh s1 s2 i t1 : conc_ok mexp size alpha ms0 progs (s1 ++ s2) -> threads (run s1) !! i = Some t1 ->
  ds_log (shared (run s1)) `prefix_of` ds_log (shared (run (s1 ++ s2))) /\
  exists t more, threads (run (s1 ++ s2)) !! i = Some t /\ dx_got t = dx_got t1 ++ more /\
    forall x, x ∈ more -> exists es r, ds_log (shared (run s1)) `prefix_of` es /\ es `prefix_of` ds_log (shared (run (s1 ++ s2))) /\
      ed_events (NewEDR size alpha ms0 tick0) es = Ok r /\ x = ed_GetValues r.
Proof.
  intros Hc Hi. induction s2 as [|ev s2 IH] using rev_ind.
  { rewrite app_nil_r in *. split; [done|]. exists t1, []. split; [done|]. split; [by rewrite app_nil_r|]. intros x Hx. by apply elem_of_nil in Hx. }
  rewrite app_assoc in *. destruct IH as (Pre & t & more & Ht & Hg & Hm); [by eapply conc_ok_prefix|].
  pose proof (dxinv_main _ (conc_ok_prefix _ _ Hc)) as D.
  set (c1 := run s1) in *. assert (run ((s1 ++ s2) ++ [ev]) = cstep (dx_tstep mexp) dx_estep (run (s1 ++ s2)) ev) as -> by (unfold dx_crun; by rewrite crun_snoc).
  destruct (run (s1 ++ s2)) as [s ts]. cbn [shared threads] in *.
  destruct ev as [j|e]; cbn [cstep shared threads].
  2:{ split; [done|]. by exists t, more. }
  destruct (ts !! j) as [u|] eqn:Hj; [|split; [done|]; by exists t, more].
  destruct (dx_tstep mexp s u) as [[s' u']|] eqn:Hs; [|split; [done|]; by exists t, more]. cbn [shared threads].
  assert (Hstep : ds_log s `prefix_of` ds_log s' /\ (dx_got u' = dx_got u \/ dx_got u' = dx_got u ++ [ed_GetValues (ds_rsv s)])).
  { clear -Hs. destruct u as [todo pc got]. unfold dx_tstep in Hs. cbn [dx_pc dx_todo dx_got] in Hs. cbv zeta in Hs.
    destruct pc; repeat match type of Hs with context [match ?x with _ => _ end] => destruct x end; try done;
      injection Hs as <- <-; (split; [first [done|by eexists]|first [by left|by right]]). }
  destruct Hstep as [Hl Hgot].
  split; [by etrans|].
  assert (Hlift : forall x, x ∈ more -> exists es r, ds_log (shared c1) `prefix_of` es /\ es `prefix_of` ds_log s' /\
      ed_events (NewEDR size alpha ms0 tick0) es = Ok r /\ x = ed_GetValues r).
  { intros x Hx. destruct (Hm x Hx) as (es & r & ? & ? & ? & ?). exists es, r. split; [done|]. split; [by etrans|done]. }
  destruct (decide (j = i)) as [->|Hji].
  - rewrite Ht in Hj. injection Hj as <-. exists u'. rewrite list_lookup_insert by (by eapply lookup_lt_Some).
    destruct Hgot as [E|E]; rewrite E.
    + exists more. done.
    + exists (more ++ [ed_GetValues (ds_rsv s)]). split; [done|]. split; [by rewrite Hg, app_assoc|].
      intros x [Hx|Hx]%elem_of_app; [by apply Hlift|]. apply elem_of_list_singleton in Hx as ->.
      destruct (d_rsv _ _ _ _ _ _ _ D) as (r & Er & V & _). exists (ds_log s), r. split; [done|]. split; [done|]. split; [done|]. unfold ed_GetValues. by rewrite V.
  - exists t, more. rewrite list_lookup_insert_ne by done. done.
Qed.

(** ** Landmarks *)
Lemma ainv_init : ainv mexp size alpha ms0 tick0 (updates_of (mjoin progs)) [ms0] (shared (dx_init size alpha ms0 tick0 progs))
  (threads (dx_init size alpha ms0 tick0 progs)) [] (NewEDR size alpha ms0 tick0).
Proof.
  constructor; cbn [dx_init shared threads ds_rsv ds_ms]; try done.
  - constructor.
  - constructor.
  - by apply elem_of_list_singleton.
  - change (mjoin (action_update <$> [])) with (@nil dx_call). cbn [app]. unfold updates_of. rewrite <- mjoin_mjoin, <- list_fmap_compose. done.
  - intros i t Hi. apply list_lookup_fmap_inv in Hi as (p & -> & Hi). done.
Qed.

Lemma Forall_take_ticks P sched n : Forall P (ticks_shown tick0 sched) -> Forall P (ticks_shown tick0 (take n sched)).
Proof.
  unfold ticks_shown. intros [H0 H]%Forall_cons. constructor; [done|]. rewrite <- (take_drop n sched), omap_app in H. by apply Forall_app in H as [? _].
Qed.

(** While no rescale is due, every landmark is current. *)
Lemma no_rescale_landmark sched : Forall tick_ok (ticks_shown tick0 sched) ->
  Forall (fun t => t < tick0 + edrRescaleThreshold) (ticks_shown tick0 sched) -> landmark_current (run sched).
Proof.
  intros Hok Hlt. set (S0 := ed_startTime (NewEDR size alpha ms0 tick0)).
  assert (H : ed_startTime (ds_rsv (shared (run sched))) = S0 /\ forall i t, threads (run sched) !! i = Some t ->
      match dx_pc t with XULock _ _ _ land | XInsert _ _ _ land => land = S0 | _ => True end).
  { induction sched as [|ev sched IH] using rev_ind.
    { split; [done|]. intros i t Hi. unfold dx_crun, dx_init in Hi. cbn [crun fold_left threads] in Hi. apply list_lookup_fmap_inv in Hi as (p & -> & Hi). done. }
    rewrite ticks_shown_snoc in Hok, Hlt. apply Forall_app in Hok as [Hok _]. apply Forall_app in Hlt as [Hlt _].
    destruct (IH Hok Hlt) as [IH1 IH2]. clear IH.
    assert (T : tinv tick0 false (ticks_shown tick0 sched) (shared (run sched)) (threads (run sched))).
    { apply tinv_run; [done| |done]. apply tinv_init. unfold ticks_shown in Hok. by apply Forall_cons in Hok as [? _]. }
    assert (run (sched ++ [ev]) = cstep (dx_tstep mexp) dx_estep (run sched) ev) as -> by (unfold dx_crun; by rewrite crun_snoc).
    destruct (run sched) as [s ts]. cbn [shared threads] in *. destruct ev as [j|e]; cbn [cstep shared threads]; [|done].
    destruct (ts !! j) as [u|] eqn:Hj; [|done]. destruct (dx_tstep mexp s u) as [[s' u']|] eqn:Hs; [|done]. cbn [shared threads].
    assert (Hcl : claimed (dx_pc u) = false).
    { destruct (claimed (dx_pc u)) eqn:E; [|done]. exfalso. destruct (t_early _ _ _ _ _ T) as (m & Hm & Hge).
      - unfold claims. pose proof (sum_flags_one (fun t => claimed (dx_pc t)) ts j u Hj E). cbv beta in *. lia.
      - rewrite Forall_forall in Hlt. specialize (Hlt m Hm). lia. }
    specialize (IH2 j u Hj) as Hu.
    assert (Hstep : ed_startTime (ds_rsv s') = S0 /\ match dx_pc u' with XULock _ _ _ land | XInsert _ _ _ land => land = S0 | _ => True end).
    { clear -Hs Hcl Hu IH1. destruct u as [todo pc got]. unfold dx_tstep in Hs. cbn [dx_pc dx_todo dx_got] in *. cbv zeta in Hs.
      destruct pc as [|k|k now|k now|k now next|k|k|k old ms|k f|v r|v r ms|v r ms land|v r ms land| | |]; try done.
      - destruct todo; [done|]. by injection Hs as <- <-.
      - by injection Hs as <- <-.
      - injection Hs as <- <-. split; [done|]. cbn [dx_pc]. destruct (_ <=? _); [done|]. by destruct k.
      - by injection Hs as <- <-.
      - destruct (_ =? _); injection Hs as <- <-; (split; [done|]); [done|]. cbn [dx_pc]. by destruct k.
      - by injection Hs as <- <-.
      - by injection Hs as <- <-.
      - destruct (_ || _); [done|]. by injection Hs as <- <-.
      - pose proof (insert_frame (ds_rsv s) (ds_rsv s) (ed_priority (dx_weight mexp (ds_rsv s) land ms) r) v (dx_weight mexp (ds_rsv s) land ms) eq_refl eq_refl eq_refl) as FR.
        destruct (ed_insert _ _ _ _); injection Hs as <- <-; [|done]. destruct FR as (y & _ & _ & _ & _ & _ & E5). split; [|done].
        cbn [logged set_lock set_rsv ds_rsv]. by rewrite E5.
      - destruct (ds_writer s); [done|]. by injection Hs as <- <-.
      - by injection Hs as <- <-. }
    split; [apply Hstep|]. intros i t Hi. apply list_lookup_insert_Some in Hi as [(<- & <- & _)|[_ Hi]]; [apply Hstep|by eapply IH2]. }
  destruct H as [H1 H2]. intros i t Hi. specialize (H2 i t Hi). destruct (dx_pc t); try done; by rewrite H1.
Qed.
End main.
