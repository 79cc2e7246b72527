From Verif.Go Require Import GoInt GoFloat.
From Verif.Model Require Import Counter BucketQueue BucketCounter EWMA Compass.
From Verif.Spec Require Import BucketSpec CounterSpec CompassSpec.
From Verif.Proofs Require Import BucketMain BucketProps.
Local Open Scope Z_scope.

Lemma exec_snoc I N t0 upd ops o c c' : bc_exec I N t0 upd ops = Ok c -> bc_step c o = Ok c' -> bc_exec I N t0 upd (ops ++ [o]) = Ok c'.
Proof.
  unfold bc_exec, bc_run. destruct (newBucketCounterImpl I N t0 upd) as [c0|]; [|done]. cbn [mbind res_bind]. intros E1 E2.
  rewrite run_ops_app, E1. cbn. by rewrite E2.
Qed.
Lemma exec_unsnoc I N t0 upd ops o c' : bc_exec I N t0 upd (ops ++ [o]) = Ok c' -> exists c, bc_exec I N t0 upd ops = Ok c /\ bc_step c o = Ok c'.
Proof.
  unfold bc_exec, bc_run. destruct (newBucketCounterImpl I N t0 upd) as [c0|]; [|done]. cbn [mbind res_bind].
  rewrite run_ops_app. destruct (run_ops bc_step c0 ops) as [c|]; [|done]. cbn. intros H. exists c. split; [done|].
  destruct (bc_step c o); [done|done].
Qed.

(** ** Codes and addons *)
Notation note := (string * Z * Z)%type.
Definition note_hist (key : string) (l : list note) : list (Z * bc_op) := (fun n => (n.2, BUpdate)) <$> filter (fun n => n.1.1 = key) l.
Definition note_keys (l : list note) : gset string := list_to_set ((fun n => n.1.1) <$> l) ∖ {[""%string]}.
Record notes_inv (I N max : Z) (l : list note) (m : gmap string bucket_counter) : Prop := {
  ni_dom : dom m = note_keys l;
  ni_size : Z.of_nat (size m) <= Z.max 0 max;
  ni_counter : forall key c, m !! key = Some c -> exists t0, in64 t0 /\ bc_exec I N t0 true (note_hist key l) = Ok c }.

Lemma note_keys_snoc l n : note_keys (l ++ [n]) = note_keys l ∪ ({[n.1.1]} ∖ {[""%string]}).
Proof. unfold note_keys. rewrite fmap_app, list_to_set_app_L. cbn. set_solver. Qed.
Lemma note_hist_snoc key l n : note_hist key (l ++ [n]) = note_hist key l ++ (if decide (n.1.1 = key) then [(n.2, BUpdate)] else []).
Proof. unfold note_hist. rewrite filter_app, fmap_app. f_equal. rewrite filter_cons. destruct (decide (n.1.1 = key)); done. Qed.
Lemma note_hist_none key l : key ∉ note_keys l -> key <> ""%string -> note_hist key l = [].
Proof.
  intros H Hne. unfold note_hist. assert (filter (fun n => n.1.1 = key) l = []) as ->; [|done].
  induction l as [|n l IH]; [done|]. rewrite filter_cons. unfold note_keys in *. cbn in H.
  rewrite decide_False; [apply IH|]; set_solver.
Qed.

Lemma notes_new I N max : notes_inv I N max [] ∅.
Proof. constructor; [unfold note_keys; cbn; set_solver|rewrite map_size_empty; cbn; lia|done]. Qed.

Lemma bool_nonempty key : (0 <? Z.of_nat (String.length key)) = negb (bool_decide (key = ""%string)).
Proof. destruct key; [done|]. cbn [String.length]. rewrite bool_decide_eq_false_2 by done. apply Z.ltb_lt. lia. Qed.

Lemma notes_snoc I N max l m key tnew t : notes_inv I N max l m -> Second <= I -> in64 I -> 0 <= N -> Forall (fun n => in64 n.2) l -> in64 tnew -> in64 t ->
  (key = ""%string \/ key ∈ note_keys l \/ Z.of_nat (size m) < max ->
     exists m', cp_note I N m key max tnew t = Ok m' /\ notes_inv I N max (l ++ [(key, tnew, t)]) m') /\
  (~ (key = ""%string \/ key ∈ note_keys l \/ Z.of_nat (size m) < max) -> cp_note I N m key max tnew t = Panic).
Proof.
  intros [Hd Hs Hc] HI HI64 HN HF Htn Ht. unfold cp_note. rewrite bool_nonempty.
  assert (note_keys (l ++ [(key, tnew, t)]) = note_keys l ∪ ({[key]} ∖ {[""%string]})) as Hk by apply note_keys_snoc.
  destruct (bool_decide_reflect (key = ""%string)) as [->|Hne]; cbn [negb].
  { split; [|intros []; by left]. intros _. exists m. split; [done|]. constructor.
    - rewrite Hk, Hd. set_solver.
    - done.
    - intros k c Hkc. destruct (Hc k c Hkc) as (t0 & H0 & E). exists t0. split; [done|]. rewrite note_hist_snoc. cbn.
      rewrite decide_False; [by rewrite app_nil_r|]. intros <-. apply elem_of_dom_2 in Hkc. rewrite Hd in Hkc. unfold note_keys in Hkc. set_solver. }
  unfold findOrNewCounter. destruct (m !! key) as [c|] eqn:Em.
  { assert (key ∈ note_keys l) as Hin by (rewrite <- Hd; by eapply elem_of_dom_2).
    split; [intros _|intros []; by right; left]. cbn [mbind res_bind snd fst].
    destruct (Hc key c Em) as (t0 & H0 & E).
    destruct (exec_total I N t0 true (note_hist key l ++ [(t, BUpdate)]) HI HI64 HN) as (c' & E' & _).
    { apply Forall_app. split; [|constructor; [done|constructor]]. unfold note_hist. apply Forall_fmap, Forall_forall. intros n Hn. apply elem_of_list_filter in Hn as [_ Hn].
      rewrite Forall_forall in HF. by apply HF. }
    destruct (exec_unsnoc _ _ _ _ _ _ _ E') as (c1 & E1 & E2). rewrite E in E1. injection E1 as <-. unfold bc_step in E2. cbn [fst snd] in E2. rewrite E2. cbn [mbind res_bind].
    eexists. split; [done|]. constructor.
    - rewrite dom_insert_L, Hd, Hk. set_solver.
    - rewrite map_size_insert_Some by done. done.
    - intros k x Hx. rewrite note_hist_snoc. cbn [fst snd]. destruct (decide (key = k)) as [<-|Hkk].
      + rewrite lookup_insert in Hx. injection Hx as <-. exists t0. split; [done|]. exact E'.
      + rewrite lookup_insert_ne in Hx by done. rewrite app_nil_r. by apply Hc. }
  assert (key ∉ note_keys l) as Hnin by (rewrite <- Hd; by apply not_elem_of_dom).
  destruct (Z.ltb_spec (Z.of_nat (size m)) max) as [L|L].
  - split; [intros _|intros []; right; right; done].
    destruct (exec_total I N tnew true [(t, BUpdate)] HI HI64 HN ltac:(constructor; [done|constructor])) as (c' & E' & _).
    assert (exists c0, newBucketCounterImpl I N tnew true = Ok c0 /\ bc_UpdateN c0 t 1 = Ok c') as (c0 & E0 & E1).
    { destruct (exec_unsnoc I N tnew true [] (t, BUpdate) c' E') as (c0 & E0 & E1). exists c0. split; [|exact E1].
      unfold bc_exec, bc_run in E0. destruct (newBucketCounterImpl I N tnew true) as [c1|]; [|done]. exact E0. }
    rewrite E0. cbn [mbind res_bind snd fst]. rewrite E1. cbn [mbind res_bind]. rewrite insert_insert. eexists. split; [done|]. constructor.
    + rewrite dom_insert_L, Hd, Hk. set_solver.
    + rewrite map_size_insert_None by done. lia.
    + intros k x Hx. rewrite note_hist_snoc. cbn [fst snd]. destruct (decide (key = k)) as [<-|Hkk].
      * rewrite lookup_insert in Hx. injection Hx as <-. exists tnew. split; [done|]. rewrite note_hist_none by done. exact E'.
      * rewrite lookup_insert_ne in Hx by done. rewrite app_nil_r. by apply Hc.
  - split; [|done]. intros [?|[?|?]]; [done|done|lia].
Qed.

(** ** The whole compass *)
Section compass.
Context {R RR : Type} (rsv_UpdateN : R -> RR -> Z -> res R) (rsv_GetSnapshot : R -> RR -> R).
Definition code_notes (calls : list (cp_call RR)) : list note := (fun o => (oc_code o, oc_timeNewCode o, oc_timeCode o)) <$> outcomes calls.
Definition addon_notes (calls : list (cp_call RR)) : list note := (fun o => (oc_addon o, oc_timeNewAddon o, oc_timeAddon o)) <$> outcomes calls.
Definition total_ops (calls : list (cp_call RR)) : list (Z * bc_op) := (fun u => (up_time u, BUpdate)) <$> updates calls.
Definition success_ops (calls : list (cp_call RR)) : list (Z * bc_op) := (fun o => (oc_timeSuccess o, BUpdate)) <$> successes calls.

Record cp_inv (r0 : R) (N I maxE maxA nowT now nowS : Z) (calls : list (cp_call RR)) (cp : compass R) : Prop := {
  pi_total : bc_exec I N nowT true (total_ops calls) = Ok (cp_totalCount cp);
  pi_success : bc_exec I N nowS true (success_ops calls) = Ok (cp_successCount cp);
  pi_codes : notes_inv I N maxE (code_notes calls) (cp_errorCodes cp);
  pi_addons : notes_inv I N maxA (addon_notes calls) (cp_addons cp);
  pi_meter : mt_run ew_TickN I (newMeter zeroEWMA now) (meter_calls calls) = Ok (cp_meter cp);
  pi_rsv : rsv_run rsv_UpdateN rsv_GetSnapshot r0 (rsv_calls calls) = Ok (cp_reservoir cp);
  pi_const : cp_startTime cp = now /\ cp_maxErrorCodeCount cp = maxE /\ cp_maxAddonCount cp = maxA /\ cp_bucketInterval cp = I /\ cp_numberOfBucket cp = N }.

Lemma cp_inv_new r0 N I maxE maxA nowT now nowS cp : NewCompass r0 N I maxE maxA nowT now nowS = Ok cp -> cp_inv r0 N I maxE maxA nowT now nowS [] cp.
Proof.
  unfold NewCompass. destruct (newBucketCounterImpl I N nowT true) as [c1|] eqn:E1; [|done]. cbn [mbind res_bind].
  destruct (newBucketCounterImpl I N nowS true) as [c2|] eqn:E2; [|done]. cbn [mbind res_bind]. intros H. injection H as <-.
  constructor; cbn; try done; try apply notes_new; unfold bc_exec; rewrite ?E1, ?E2; done.
Qed.

Lemma updates_snoc calls c : updates (calls ++ [c]) = updates calls ++ updates (RR := RR) [c].
Proof. unfold updates. apply omap_app. Qed.
Lemma outcomes_snoc calls c : outcomes (calls ++ [c]) = outcomes calls ++ outcomes (RR := RR) [c].
Proof. unfold outcomes. apply omap_app. Qed.
Lemma mt_snoc {E} (T : E -> Z -> E) I m cs c m1 : mt_run T I m cs = Ok m1 -> mt_run T I m (cs ++ [c]) = mt_step T I m1 c.
Proof. unfold mt_run. intros H. rewrite run_ops_app, H. cbn. by destruct (mt_step T I m1 c). Qed.
Lemma meter_snoc calls c : meter_calls (calls ++ [c]) = meter_calls calls ++ meter_calls (RR := RR) [c].
Proof. unfold meter_calls. apply omap_app. Qed.
Lemma rsv_calls_snoc calls c : rsv_calls (calls ++ [c]) = rsv_calls calls ++ rsv_calls (RR := RR) [c].
Proof. unfold rsv_calls. apply omap_app. Qed.
Lemma rsv_snoc r0 us u r1 : rsv_run rsv_UpdateN rsv_GetSnapshot r0 us = Ok r1 -> rsv_run rsv_UpdateN rsv_GetSnapshot r0 (us ++ [u]) = rsv_step rsv_UpdateN rsv_GetSnapshot r1 u.
Proof. unfold rsv_run. intros H. rewrite run_ops_app, H. cbn [run_ops]. by destruct (rsv_step _ _ r1 _). Qed.
Lemma mt_tick_ok {E} (T : E -> Z -> E) I m t : I <> 0 -> exists m', mt_tickIfNecessary T I m t = Ok m'.
Proof.
  intros HI. unfold mt_tickIfNecessary. destruct (_ <? _); [|by eexists]. unfold go_mod, go_div.
  destruct (Z.eqb_spec I 0); [done|]. cbn [mbind res_bind]. by eexists.
Qed.

Definition step_in64 (c : cp_call RR) : Prop :=
  match c with CpUpdate u => in64 (up_time u) | CpUpdateWithError u o => in64 (up_time u) /\ outcome_in64 o | CpRate _ => True | CpSnapshot _ => True end.

(** One update call. *)
Lemma update_inv r0 N I maxE maxA nowT now nowS calls cp u r' :
  cp_inv r0 N I maxE maxA nowT now nowS calls cp -> Second <= I -> in64 I -> 0 <= N -> readings_in64 calls -> in64 (up_time u) ->
  rsv_UpdateN (cp_reservoir cp) (up_reads u) (up_duration u) = Ok r' ->
  exists cp', cp_Update rsv_UpdateN cp u = Ok cp' /\ cp_inv r0 N I maxE maxA nowT now nowS (calls ++ [CpUpdate u]) cp'.
Proof.
  intros [P1 P2 P3 P4 P5 P6 (P7 & P8 & P9 & P10 & P11)] HI HI64 HN [HF1 HF2] Hu Hr. unfold cp_Update. rewrite P10.
  destruct (mt_tick_ok ew_TickN I (cp_meter cp) (up_tick u)) as (m' & Em); [unfold Second in *; lia|]. rewrite Em. cbn [mbind res_bind].
  destruct (exec_total I N nowT true (total_ops calls ++ [(up_time u, BUpdate)]) HI HI64 HN) as (c' & E' & _).
  { apply Forall_app. split; [|constructor; [done|constructor]]. unfold total_ops. by apply Forall_fmap. }
  destruct (exec_unsnoc _ _ _ _ _ _ _ E') as (c1 & E1 & E2). rewrite P1 in E1. injection E1 as <-. unfold bc_step in E2. cbn [fst snd] in E2. rewrite E2.
  cbn [mbind res_bind]. rewrite Hr. cbn [mbind res_bind]. eexists. split; [done|].
  constructor; cbn [cp_totalCount cp_successCount cp_errorCodes cp_addons cp_meter cp_reservoir cp_startTime cp_maxErrorCodeCount cp_maxAddonCount cp_bucketInterval cp_numberOfBucket].
  - unfold total_ops. rewrite updates_snoc, fmap_app. exact E'.
  - unfold success_ops, successes. rewrite outcomes_snoc. cbn. rewrite app_nil_r. exact P2.
  - unfold code_notes. rewrite outcomes_snoc. cbn. rewrite app_nil_r. exact P3.
  - unfold addon_notes. rewrite outcomes_snoc. cbn. rewrite app_nil_r. exact P4.
  - rewrite meter_snoc. cbn [meter_calls omap list_omap]. rewrite (mt_snoc _ _ _ _ _ _ P5). unfold mt_step. cbn [fst snd]. rewrite Em. done.
  - rewrite rsv_calls_snoc. cbn [rsv_calls omap list_omap]. rewrite (rsv_snoc _ _ _ _ P6). done.
  - done.
Qed.

(** When UpdateWithError has room for its code and addon. *)
Definition has_room (maxE maxA : Z) (calls : list (cp_call RR)) (o : outcome) : Prop :=
  (oc_code o = ""%string \/ oc_code o ∈ codes calls \/ Z.of_nat (size (codes calls)) < maxE) /\
  (oc_addon o = ""%string \/ oc_addon o ∈ addons calls \/ Z.of_nat (size (addons calls)) < maxA).

Lemma codes_notes calls : codes calls = note_keys (code_notes calls).
Proof. unfold codes, note_keys, code_notes. by rewrite <- list_fmap_compose. Qed.
Lemma addons_notes calls : addons calls = note_keys (addon_notes calls).
Proof. unfold addons, note_keys, addon_notes. by rewrite <- list_fmap_compose. Qed.
Lemma room_code I N max l m key : notes_inv I N max l m -> (key = ""%string \/ key ∈ note_keys l \/ Z.of_nat (size (note_keys l)) < max) <->
  (key = ""%string \/ key ∈ note_keys l \/ Z.of_nat (size m) < max).
Proof. intros [Hd _ _]. rewrite <- Hd. by rewrite size_dom. Qed.

Lemma step_inv r0 N I maxE maxA nowT now nowS calls cp c :
  cp_inv r0 N I maxE maxA nowT now nowS calls cp -> Second <= I -> in64 I -> 0 <= N -> readings_in64 calls -> step_in64 c ->
  (forall u, u ∈ updates [c] -> exists r', rsv_UpdateN (cp_reservoir cp) (up_reads u) (up_duration u) = Ok r') ->
  (Forall (has_room maxE maxA calls) (outcomes [c]) -> exists cp', cp_step rsv_UpdateN rsv_GetSnapshot cp c = Ok cp' /\ cp_inv r0 N I maxE maxA nowT now nowS (calls ++ [c]) cp') /\
  (~ Forall (has_room maxE maxA calls) (outcomes [c]) -> cp_step rsv_UpdateN rsv_GetSnapshot cp c = Panic).
Proof.
  intros P HI HI64 HN HF Hc Hr. destruct c as [u|u o|t|sr]; cbn [cp_step].
  - split; [|intros []; constructor]. intros _. destruct (Hr u) as (r' & Er); [cbn; set_solver|]. by apply (update_inv r0 N I maxE maxA nowT now nowS calls cp u r').
  - destruct Hc as [Hu (O1 & O2 & O3 & O4 & O5)]. destruct (Hr u) as (r' & Er); [cbn; set_solver|].
    destruct (update_inv r0 N I maxE maxA nowT now nowS calls cp u r' P HI HI64 HN HF Hu Er) as (cp1 & E1 & P1).
    unfold cp_UpdateWithError. rewrite E1. cbn [mbind res_bind]. destruct P1 as [P1 P2 P3 P4 P5 P6 (P7 & P8 & P9 & P10 & P11)].
    rewrite P8, P9, P10, P11. destruct HF as [HF1 HF2].
    assert (outcomes (calls ++ [CpUpdate u]) = outcomes calls) as Eo by (rewrite outcomes_snoc; cbn; by rewrite app_nil_r).
    unfold success_ops, successes, code_notes, addon_notes in P2, P3, P4. rewrite Eo in P2, P3, P4. fold (successes calls) in P2. fold (success_ops calls) in P2.
    fold (code_notes calls) in P3. fold (addon_notes calls) in P4.
    assert (Forall (fun n => in64 n.2) (code_notes calls)) as F3.
    { unfold code_notes. apply Forall_fmap. eapply Forall_impl; [exact HF2|]. by intros x (_ & _ & ? & _). }
    assert (Forall (fun n => in64 n.2) (addon_notes calls)) as F4.
    { unfold addon_notes. apply Forall_fmap. eapply Forall_impl; [exact HF2|]. by intros x (_ & _ & _ & _ & ?). }
    assert (exists s', (if oc_success o then bc_UpdateN (cp_successCount cp1) (oc_timeSuccess o) 1 else Ok (cp_successCount cp1)) = Ok s' /\
      bc_exec I N nowS true (success_ops (calls ++ [CpUpdateWithError u o])) = Ok s') as (s' & Es & Ps).
    { unfold success_ops, successes. rewrite outcomes_snoc. cbn [outcomes omap list_omap]. rewrite filter_app, fmap_app. fold (successes calls). fold (success_ops calls).
      rewrite filter_cons. destruct (oc_success o) eqn:Eos; [|exists (cp_successCount cp1); split; [done|]; rewrite decide_False by done; by rewrite app_nil_r].
      rewrite decide_True by done.
      destruct (exec_total I N nowS true (success_ops calls ++ [(oc_timeSuccess o, BUpdate)]) HI HI64 HN) as (c' & E' & _).
      { apply Forall_app. split; [|constructor; [done|constructor]]. unfold success_ops, successes. apply Forall_fmap, Forall_forall. intros x Hx. apply elem_of_list_filter in Hx as [_ Hx].
        rewrite Forall_forall in HF2. by apply (HF2 x Hx). }
      destruct (exec_unsnoc _ _ _ _ _ _ _ E') as (c1 & Ec1 & Ec2). rewrite P2 in Ec1. injection Ec1 as <-. unfold bc_step in Ec2. cbn [fst snd] in Ec2. by exists c'. }
    rewrite Es. cbn [mbind res_bind].
    destruct (notes_snoc I N maxE _ _ (oc_code o) (oc_timeNewCode o) (oc_timeCode o) P3 HI HI64 HN F3 O2 O3) as [NC1 NC2].
    destruct (notes_snoc I N maxA _ _ (oc_addon o) (oc_timeNewAddon o) (oc_timeAddon o) P4 HI HI64 HN F4 O4 O5) as [NA1 NA2].
    rewrite <- (room_code I N maxE _ _ (oc_code o) P3), <- codes_notes in NC1, NC2.
    rewrite <- (room_code I N maxA _ _ (oc_addon o) P4), <- addons_notes in NA1, NA2.
    cbn [outcomes omap list_omap]. split.
    + intros HRm. apply Forall_cons in HRm as [[R1 R2] _]. destruct (NC1 R1) as (mc & Emc & Imc). destruct (NA1 R2) as (ma & Ema & Ima).
      rewrite Emc. cbn [mbind res_bind]. rewrite Ema. cbn [mbind res_bind]. eexists. split; [done|].
      constructor; cbn [cp_totalCount cp_successCount cp_errorCodes cp_addons cp_meter cp_reservoir cp_startTime cp_maxErrorCodeCount cp_maxAddonCount cp_bucketInterval cp_numberOfBucket].
      * unfold total_ops in *. rewrite updates_snoc in *. exact P1.
      * exact Ps.
      * unfold code_notes. rewrite outcomes_snoc, fmap_app. exact Imc.
      * unfold addon_notes. rewrite outcomes_snoc, fmap_app. exact Ima.
      * rewrite meter_snoc in *. exact P5.
      * rewrite rsv_calls_snoc in *. exact P6.
      * done.
    + intros HRm.
      destruct (decide (oc_code o = ""%string \/ oc_code o ∈ codes calls \/ Z.of_nat (size (codes calls)) < maxE)) as [R1|R1].
      * destruct (NC1 R1) as (mc & Emc & Imc). rewrite Emc. cbn [mbind res_bind].
        rewrite NA2; [done|]. intros R2. apply HRm. constructor; [by split|constructor].
      * by rewrite (NC2 R1).
  - split; [|intros []; constructor]. intros _. destruct P as [P1 P2 P3 P4 P5 P6 (P7 & P8 & P9 & P10 & P11)]. unfold cp_tick. rewrite P10.
    destruct (mt_tick_ok ew_TickN I (cp_meter cp) t) as (m' & Em); [unfold Second in *; lia|]. rewrite Em. cbn [mbind res_bind]. eexists. split; [done|].
    constructor; cbn [cp_totalCount cp_successCount cp_errorCodes cp_addons cp_meter cp_reservoir cp_startTime cp_maxErrorCodeCount cp_maxAddonCount cp_bucketInterval cp_numberOfBucket].
    + unfold total_ops. rewrite updates_snoc. cbn. rewrite app_nil_r. exact P1.
    + unfold success_ops, successes. rewrite outcomes_snoc. cbn. rewrite app_nil_r. exact P2.
    + unfold code_notes. rewrite outcomes_snoc. cbn. rewrite app_nil_r. exact P3.
    + unfold addon_notes. rewrite outcomes_snoc. cbn. rewrite app_nil_r. exact P4.
    + rewrite meter_snoc. cbn [meter_calls omap list_omap]. rewrite (mt_snoc _ _ _ _ _ _ P5). unfold mt_step. cbn [fst snd]. rewrite Em. done.
    + rewrite rsv_calls_snoc. cbn. rewrite app_nil_r. exact P6.
    + done.
  - split; [|intros []; constructor]. intros _. destruct P as [P1 P2 P3 P4 P5 P6 P7]. eexists. split; [done|]. unfold cp_snapshot.
    constructor; cbn [cp_totalCount cp_successCount cp_errorCodes cp_addons cp_meter cp_reservoir cp_startTime cp_maxErrorCodeCount cp_maxAddonCount cp_bucketInterval cp_numberOfBucket].
    + unfold total_ops. rewrite updates_snoc. cbn. rewrite app_nil_r. exact P1.
    + unfold success_ops, successes. rewrite outcomes_snoc. cbn. rewrite app_nil_r. exact P2.
    + unfold code_notes. rewrite outcomes_snoc. cbn. rewrite app_nil_r. exact P3.
    + unfold addon_notes. rewrite outcomes_snoc. cbn. rewrite app_nil_r. exact P4.
    + rewrite meter_snoc. cbn [meter_calls omap list_omap]. rewrite app_nil_r. exact P5.
    + rewrite rsv_calls_snoc. cbn [rsv_calls omap list_omap]. rewrite (rsv_snoc _ _ _ _ P6). done.
    + done.
Qed.

Lemma step_in64_snoc calls c : readings_in64 (calls ++ [c]) <-> readings_in64 calls /\ step_in64 c.
Proof.
  unfold readings_in64. rewrite updates_snoc, outcomes_snoc, !Forall_app. destruct c as [u|u o|t|sr]; cbn [updates outcomes omap list_omap step_in64].
  - rewrite Forall_singleton. split; [intros [[? ?] [? _]]; split; [split|]; done|intros [[? ?] ?]; split; split; try done; constructor].
  - rewrite !Forall_singleton. tauto.
  - split; [intros [[? ?] [? _]]; split; [split|]; done|intros [[? ?] ?]; split; split; try done; constructor].
  - split; [intros [[? ?] [? _]]; split; [split|]; done|intros [[? ?] ?]; split; split; try done; constructor].
Qed.
Lemma step_rsv cp c cp' : cp_step rsv_UpdateN rsv_GetSnapshot cp c = Ok cp' -> forall u, u ∈ updates [c] -> exists r', rsv_UpdateN (cp_reservoir cp) (up_reads u) (up_duration u) = Ok r'.
Proof.
  assert (forall u x, cp_Update rsv_UpdateN cp u = Ok x -> exists r', rsv_UpdateN (cp_reservoir cp) (up_reads u) (up_duration u) = Ok r') as HU.
  { intros u x. unfold cp_Update. destruct (mt_tickIfNecessary _ _ _ _); [|done]. cbn [mbind res_bind]. destruct (bc_UpdateN _ _ _); [|done]. cbn [mbind res_bind].
    destruct (rsv_UpdateN _ _ _) as [r'|]; [|done]. by exists r'. }
  destruct c as [u|u o|t|sr]; cbn [cp_step updates omap list_omap]; intros E v Hv; [..|by apply elem_of_nil in Hv|by apply elem_of_nil in Hv]; apply elem_of_list_singleton in Hv as ->.
  - by apply (HU u cp').
  - unfold cp_UpdateWithError in E. destruct (cp_Update rsv_UpdateN cp u) as [x|] eqn:Ex; [|done]. by apply (HU u x).
Qed.
Lemma run_unsnoc cp0 calls c cp : cp_run rsv_UpdateN rsv_GetSnapshot cp0 (calls ++ [c]) = Ok cp -> exists cp1, cp_run rsv_UpdateN rsv_GetSnapshot cp0 calls = Ok cp1 /\ cp_step rsv_UpdateN rsv_GetSnapshot cp1 c = Ok cp.
Proof.
  unfold cp_run. rewrite run_ops_app. destruct (run_ops _ cp0 calls) as [x|]; [|done]. cbn. intros H. exists x. split; [done|]. by destruct (cp_step rsv_UpdateN rsv_GetSnapshot x c).
Qed.
Lemma run_snoc cp0 calls c cp1 : cp_run rsv_UpdateN rsv_GetSnapshot cp0 calls = Ok cp1 -> cp_run rsv_UpdateN rsv_GetSnapshot cp0 (calls ++ [c]) = cp_step rsv_UpdateN rsv_GetSnapshot cp1 c.
Proof. unfold cp_run. intros H. rewrite run_ops_app, H. cbn. by destruct (cp_step rsv_UpdateN rsv_GetSnapshot cp1 c). Qed.

Lemma run_inv r0 N I maxE maxA nowT now nowS cp0 calls : NewCompass r0 N I maxE maxA nowT now nowS = Ok cp0 ->
  Second <= I -> in64 I -> 0 <= N -> readings_in64 calls -> forall cp, cp_run rsv_UpdateN rsv_GetSnapshot cp0 calls = Ok cp ->
  cp_inv r0 N I maxE maxA nowT now nowS calls cp.
Proof.
  intros E0 HI HI64 HN. induction calls as [|c calls IH] using rev_ind; intros HR cp E.
  - cbn in E. injection E as <-. by apply cp_inv_new.
  - apply step_in64_snoc in HR as [HR Hc]. destruct (run_unsnoc _ _ _ _ E) as (cp1 & E1 & E2). specialize (IH HR cp1 E1).
    destruct (step_inv r0 N I maxE maxA nowT now nowS calls cp1 c IH HI HI64 HN HR Hc (step_rsv cp1 c cp E2)) as [S1 S2].
    destruct (decide (Forall (has_room maxE maxA calls) (outcomes [c]))) as [D|D].
    + destruct (S1 D) as (cp' & E' & P). rewrite E2 in E'. by injection E' as <-.
    + rewrite (S2 D) in E2. done.
Qed.

Lemma codes_snoc_sub (calls : list (cp_call RR)) (c : cp_call RR) : codes calls ⊆ codes (calls ++ [c]) /\ addons calls ⊆ addons (calls ++ [c]).
Proof. unfold codes, addons. rewrite !outcomes_snoc, !fmap_app, !list_to_set_app_L. set_solver. Qed.
Lemma room_iff max (K : gset string) key : Z.of_nat (size K) <= Z.max 0 max -> ""%string ∉ K ->
  (key = ""%string \/ key ∈ K \/ Z.of_nat (size K) < max) <-> Z.of_nat (size (K ∪ ({[key]} ∖ {[""%string]}))) <= Z.max 0 max.
Proof.
  intros HK Hn. destruct (decide (key = ""%string)) as [->|Hne].
  { split; [intros _|by left]. replace (K ∪ {[""%string]} ∖ {[""%string]}) with K by set_solver. done. }
  destruct (decide (key ∈ K)) as [Hin|Hnin].
  { split; [intros _|by right; left]. replace (K ∪ {[key]} ∖ {[""%string]}) with K by set_solver. done. }
  replace (K ∪ {[key]} ∖ {[""%string]}) with ({[key]} ∪ K) by set_solver.
  rewrite size_union, size_singleton by set_solver. split; [intros [?|[?|?]]; [done|done|lia]|intros; right; right; lia].
Qed.
Lemma codes_snoc (calls : list (cp_call RR)) (u : update RR) o : codes (calls ++ [CpUpdateWithError u o]) = codes calls ∪ ({[oc_code o]} ∖ {[""%string]}).
Proof. unfold codes. rewrite outcomes_snoc, fmap_app, list_to_set_app_L. cbn. set_solver. Qed.
Lemma addons_snoc (calls : list (cp_call RR)) (u : update RR) o : addons (calls ++ [CpUpdateWithError u o]) = addons calls ∪ ({[oc_addon o]} ∖ {[""%string]}).
Proof. unfold addons. rewrite outcomes_snoc, fmap_app, list_to_set_app_L. cbn. set_solver. Qed.
Lemma codes_other (calls : list (cp_call RR)) (c : cp_call RR) : outcomes [c] = [] -> codes (calls ++ [c]) = codes calls /\ addons (calls ++ [c]) = addons calls.
Proof. intros H. unfold codes, addons. rewrite outcomes_snoc, H, app_nil_r. done. Qed.

(** The run succeeds exactly when the codes and addons fit. *)
Lemma run_iff r0 N I maxE maxA nowT now nowS cp0 calls : NewCompass r0 N I maxE maxA nowT now nowS = Ok cp0 ->
  Second <= I -> in64 I -> 0 <= N -> readings_in64 calls -> (exists r, rsv_run rsv_UpdateN rsv_GetSnapshot r0 (rsv_calls calls) = Ok r) ->
  (fits_in maxE maxA calls -> exists cp, cp_run rsv_UpdateN rsv_GetSnapshot cp0 calls = Ok cp) /\
  (~ fits_in maxE maxA calls -> cp_run rsv_UpdateN rsv_GetSnapshot cp0 calls = Panic).
Proof.
  intros E0 HI HI64 HN. induction calls as [|c calls IH] using rev_ind; intros HR HQ.
  { split; [intros _; by eexists|]. intros []. unfold fits_in. replace (codes (RR := RR) []) with (∅ : gset string) by (unfold codes; cbn; set_solver).
    replace (addons (RR := RR) []) with (∅ : gset string) by (unfold addons; cbn; set_solver). rewrite size_empty. split; lia. }
  apply step_in64_snoc in HR as [HR Hc]. pose proof (codes_snoc_sub calls c) as [SB1 SB2]. apply subseteq_size in SB1, SB2.
  assert (exists r, rsv_run rsv_UpdateN rsv_GetSnapshot r0 (rsv_calls calls) = Ok r) as HQ1.
  { destruct HQ as (r & Er). rewrite rsv_calls_snoc in Er. unfold rsv_run in Er. rewrite run_ops_app in Er. unfold rsv_run.
    destruct (run_ops _ r0 (rsv_calls calls)) as [x|]; [by exists x|done]. }
  specialize (IH HR HQ1) as [IH1 IH2].
  destruct (decide (fits_in maxE maxA calls)) as [D|D].
  2:{ split.
      - intros [F1 F2]. exfalso. apply D. split; lia.
      - intros _. unfold cp_run. rewrite run_ops_app. fold (cp_run rsv_UpdateN rsv_GetSnapshot cp0 calls). rewrite (IH2 D). done. }
  destruct (IH1 D) as (cp1 & E1). pose proof (run_inv r0 N I maxE maxA nowT now nowS cp0 calls E0 HI HI64 HN HR cp1 E1) as P.
  rewrite (run_snoc _ _ _ _ E1).
  destruct (step_inv r0 N I maxE maxA nowT now nowS calls cp1 c P HI HI64 HN HR Hc) as [S1 S2].
  { intros u Hu. destruct HQ as (r & Er). rewrite rsv_calls_snoc in Er. pose proof (pi_rsv _ _ _ _ _ _ _ _ _ _ P) as PR.
    destruct c as [v|v o|t|sr]; cbn in Hu; [..|by apply elem_of_nil in Hu|by apply elem_of_nil in Hu]; apply elem_of_list_singleton in Hu as ->; cbn in Er; rewrite (rsv_snoc _ _ _ _ PR) in Er; by exists r. }
  assert (Forall (has_room maxE maxA calls) (outcomes [c]) <-> fits_in maxE maxA (calls ++ [c])) as HRm.
  { destruct D as [D1 D2]. destruct c as [v|v o|t|sr].
    - unfold fits_in. destruct (codes_other calls (CpUpdate v) eq_refl) as [-> ->]. split; [done|]. intros _. constructor.
    - unfold fits_in. rewrite codes_snoc, addons_snoc. rewrite <- (room_iff maxE (codes calls)), <- (room_iff maxA (addons calls)) by (done || (unfold codes, addons; set_solver)).
      change (outcomes [CpUpdateWithError v o]) with [o]. rewrite Forall_singleton. done.
    - unfold fits_in. destruct (codes_other calls (CpRate t) eq_refl) as [-> ->]. split; [done|]. intros _. constructor.
    - unfold fits_in. destruct (codes_other calls (CpSnapshot sr) eq_refl) as [-> ->]. split; [done|]. intros _. constructor. }
  split.
  - intros F. destruct (S1 (proj2 HRm F)) as (cp' & E' & _). by exists cp'.
  - intros F. apply S2. intros H. by apply F, HRm.
Qed.
End compass.

Section exec.
Context {R RR : Type} (rsv_UpdateN : R -> RR -> Z -> res R) (rsv_GetSnapshot : R -> RR -> R) (r0 : R) (N I maxE maxA nowT now nowS : Z).
Lemma exec_inv calls cp : Second <= I -> in64 I -> 0 <= N -> readings_in64 calls ->
  cp_exec rsv_UpdateN rsv_GetSnapshot r0 N I maxE maxA nowT now nowS calls = Ok cp -> cp_inv rsv_UpdateN rsv_GetSnapshot r0 N I maxE maxA nowT now nowS calls cp.
Proof.
  intros H1 H2 H3 H4. unfold cp_exec. destruct (NewCompass _ _ _ _ _ _ _ _) as [cp0|] eqn:E0; [|done]. cbn [mbind res_bind]. intros E.
  exact (run_inv rsv_UpdateN rsv_GetSnapshot r0 N I maxE maxA nowT now nowS cp0 calls E0 H1 H2 H3 H4 cp E).
Qed.
Lemma new_ok : Second <= I -> in64 I -> 0 <= N -> exists cp0, NewCompass r0 N I maxE maxA nowT now nowS = Ok cp0.
Proof.
  intros H1 H2 H3. destruct (exec_total I N nowT true [] H1 H2 H3 ltac:(constructor)) as (c1 & E1 & _).
  destruct (exec_total I N nowS true [] H1 H2 H3 ltac:(constructor)) as (c2 & E2 & _). unfold bc_exec, NewCompass in *.
  destruct (newBucketCounterImpl I N nowT true); [|done]. destruct (newBucketCounterImpl I N nowS true); [|done]. by eexists.
Qed.
Lemma exec_iff calls : Second <= I -> in64 I -> 0 <= N -> readings_in64 calls -> (exists r, rsv_run rsv_UpdateN rsv_GetSnapshot r0 (rsv_calls calls) = Ok r) ->
  (fits_in maxE maxA calls -> exists cp, cp_exec rsv_UpdateN rsv_GetSnapshot r0 N I maxE maxA nowT now nowS calls = Ok cp) /\
  (~ fits_in maxE maxA calls -> cp_exec rsv_UpdateN rsv_GetSnapshot r0 N I maxE maxA nowT now nowS calls = Panic).
Proof.
  intros H1 H2 H3 H4 H5. destruct (new_ok H1 H2 H3) as (cp0 & E0). unfold cp_exec. rewrite E0. cbn [mbind res_bind].
  exact (run_iff rsv_UpdateN rsv_GetSnapshot r0 N I maxE maxA nowT now nowS cp0 calls E0 H1 H2 H3 H4 H5).
Qed.
End exec.

Lemma sum_updates {A} (f : A -> Z) (l : list A) : sumZ (bc_delta <$> ((fun x => (f x, BUpdate)) <$> l).*2) = Z.of_nat (length l).
Proof. unfold sumZ. induction l as [|a l IH]; [done|]. cbn [fmap list_fmap foldr snd bc_delta length]. cbn [fmap list_fmap] in IH. lia. Qed.
Lemma hist_updates {A} (f : A -> Z) I (l : list A) k :
  sum_at k (by_time I (bc_hist ((fun x => (f x, BUpdate)) <$> l))) = Z.of_nat (length (filter (fun x => bucket_key I (f x) = k) l)).
Proof.
  unfold sum_at, by_time, bc_hist, sumZ. induction l as [|a l IH]; [done|].
  cbn [fmap list_fmap]. rewrite !filter_cons. cbn [fst snd bc_delta]. destruct (decide (bucket_key I (f a) = k)).
  - cbn [fmap list_fmap foldr snd length]. cbn [fmap list_fmap] in IH. lia.
  - exact IH.
Qed.
Lemma updates_length {RR} (calls : list (cp_call RR)) : (length (updates calls) <= length calls)%nat.
Proof.
  induction calls as [|[u|u o|t|sr] calls IH]; [done|..].
  - change (updates (CpUpdate u :: calls)) with (u :: updates calls). cbn [length]. lia.
  - change (updates (CpUpdateWithError u o :: calls)) with (u :: updates calls). cbn [length]. lia.
  - change (updates (CpRate t :: calls)) with (updates calls). cbn [length]. lia.
  - change (updates (CpSnapshot sr :: calls)) with (updates calls). cbn [length]. lia.
Qed.
Lemma outcomes_length {RR} (calls : list (cp_call RR)) : (length (outcomes calls) <= length (updates calls))%nat.
Proof.
  induction calls as [|[u|u o|t|sr] calls IH]; [done|..].
  - change (updates (CpUpdate u :: calls)) with (u :: updates calls). change (outcomes (CpUpdate u :: calls)) with (outcomes calls). cbn [length]. lia.
  - change (updates (CpUpdateWithError u o :: calls)) with (u :: updates calls). change (outcomes (CpUpdateWithError u o :: calls)) with (o :: outcomes calls). cbn [length]. lia.
  - exact IH.
  - exact IH.
Qed.
