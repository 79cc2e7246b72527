(** A compass with all its objects: what the objects hold. *)
From Verif.Go Require Import GoInt GoFloat GoConc GoCompose.
From Verif.Model Require Import Counter BucketQueue BucketCounter BucketCounterConc EWMA EWMAConc WeightedSnapshot DecayingReservoir DecayingConc UniformReservoir ReservoirConc Compass CompassConc CompassFine.
From Verif.Spec Require Import BucketSpec BucketConcSpec EWMASpec EWMAConcSpec DecayingSpec DecayingConcSpec ReservoirConcSpec CompassConcSpec CompassFineSpec.
From Verif.Proofs Require Import BucketAbs BucketHist BucketConcProofs BucketConcMain EWMAConcProofs DecayingConcProofs DecayingConcMain DecayingConcMore ReservoirConcProofs ComposeProofs CompassConcProofs CompassConcTables CompassConcMore CompassFineProofs CompassFineParts CompassFineUniform.
From Coq Require Import Reals.
Local Open Scope Z_scope.

Lemma join_app' {A} (l1 l2 : list (list A)) : mjoin (l1 ++ l2) = mjoin l1 ++ mjoin l2.
Proof. induction l1 as [|x l1 IH]; [done|]. cbn. rewrite <- app_assoc. f_equal. exact IH. Qed.

(** TickN calls only: the ticks carried out are the ones asked for. *)
Definition tickn_arg (k : ewma_call) : list Z := match k with ETickN c => [c] | _ => [] end.
Definition tick_owed (t : ethread) : list Z :=
  match et_pc t with ELock c | ERead c | EWrite c _ => [c] | _ => [] end ++ mjoin (tickn_arg <$> et_todo t).
Definition only_tickn (t : ethread) : Prop :=
  Forall (fun k => exists c, k = ETickN c) (et_todo t) /\ match et_pc t with ELoad | ECas _ => False | _ => True end.

Lemma tickn_step s t s' t' : only_tickn t -> ewma_tstep s t = Some (s', t') ->
  only_tickn t' /\ es_ticked s' ++ tick_owed t' ≡ₚ es_ticked s ++ tick_owed t.
Proof.
  intros [H1 H2] Hs. destruct t as [todo pc got]. unfold ewma_tstep in Hs. unfold only_tickn, tick_owed. cbn [et_todo et_pc et_got] in *. destruct pc; try done.
  - destruct todo as [|k todo]; [done|]. apply Forall_cons in H1 as [[c ->] H1]. injection Hs as <- <-. cbn. by split.
  - destruct (es_locked s); [done|]. injection Hs as <- <-. cbn. by split.
  - injection Hs as <- <-. cbn. by split.
  - injection Hs as <- <-. cbn [es_ticked et_pc et_todo]. split; [done|]. rewrite <- app_assoc. done.
  - injection Hs as <- <-. cbn. by split.
Qed.

Lemma tickn_run a iv progs sched : Forall (Forall (fun k => exists c, k = ETickN c)) progs ->
  let c := ewma_crun a iv progs sched in
  Forall only_tickn (threads c) /\ es_ticked (shared c) ++ mjoin (tick_owed <$> threads c) ≡ₚ mjoin (tickn_arg <$> mjoin progs).
Proof.
  intros HP. cbv zeta. unfold ewma_crun.
  apply (crun_inv ewma_tstep (fun s (_ : Empty_set) => s) (fun c => Forall only_tickn (threads c) /\ es_ticked (shared c) ++ mjoin (tick_owed <$> threads c) ≡ₚ mjoin (tickn_arg <$> mjoin progs))).
  - cbn [shared threads es_ticked app]. split.
    + apply Forall_fmap. eapply Forall_impl; [exact HP|]. intros p Hp. by split.
    + clear HP. induction progs as [|p ps IH]; [done|]. cbn [fmap list_fmap mjoin list_join]. rewrite fmap_app, join_app'. apply Permutation_app; [done|exact IH].
  - intros s ts i t s' t' [J1 J2] Hi Hs. cbn [shared threads] in *. rewrite Forall_lookup in J1. destruct (tickn_step _ _ _ _ (J1 i t Hi) Hs) as [K1 K2]. split.
    + apply Forall_insert; [by rewrite Forall_lookup|done].
    + rewrite <- J2. clear J1 J2. 
      assert (G : forall i, ts !! i = Some t -> exists l, mjoin (tick_owed <$> ts) ≡ₚ tick_owed t ++ l /\ mjoin (tick_owed <$> <[i := t']> ts) ≡ₚ tick_owed t' ++ l).
      { clear. induction ts as [|u ts IH]; intros [|i] Hi; try done; cbn in Hi.
        - injection Hi as ->. exists (mjoin (tick_owed <$> ts)). done.
        - destruct (IH i Hi) as (l & L1 & L2). exists (tick_owed u ++ l). cbn [fmap list_fmap mjoin list_join insert list_insert]. split.
          + etransitivity; [apply Permutation_app_head, L1|]. rewrite !app_assoc. apply Permutation_app_tail, Permutation_app_comm.
          + etransitivity; [apply Permutation_app_head, L2|]. rewrite !app_assoc. apply Permutation_app_tail, Permutation_app_comm. }
      destruct (G i Hi) as (l & -> & ->). rewrite !app_assoc. by apply Permutation_app_tail.
  - done.
Qed.

(** Nothing is returned by TickN and UpdateN. *)
Lemma tickn_got a iv progs sched : Forall (Forall (fun k => exists c, k = ETickN c)) progs ->
  Forall (fun t => et_got t = []) (threads (ewma_crun a iv progs sched)).
Proof.
  intros HP. enough (G : Forall (fun t => Forall (fun k => exists c, k = ETickN c) (et_todo t) /\ et_got t = []) (threads (ewma_crun a iv progs sched))).
  { eapply Forall_impl; [exact G|]. by intros t [_ ?]. }
  unfold ewma_crun. apply (crun_inv ewma_tstep (fun s (_ : Empty_set) => s) (fun c => Forall (fun t => Forall (fun k => exists c, k = ETickN c) (et_todo t) /\ et_got t = []) (threads c))); [| |done].
  - apply Forall_fmap. eapply Forall_impl; [exact HP|]. intros p Hp. by split.
  - intros s ts i t s' t' J Hi Hs. cbn [threads] in *. apply Forall_insert; [done|]. rewrite Forall_lookup in J. destruct (J i t Hi) as [J1 J2]. clear J.
    destruct t as [todo pc got]. cbn [et_todo et_got] in *. subst got. unfold ewma_tstep in Hs. cbn [et_todo et_pc et_got] in Hs. destruct pc.
    + destruct todo as [|k todo]; [done|]. apply Forall_cons in J1 as [[x ->] J1]. by injection Hs as <- <-.
    + by injection Hs as <- <-.
    + destruct (_ =? _); by injection Hs as <- <-.
    + destruct (es_locked s); [done|]. by injection Hs as <- <-.
    + by injection Hs as <- <-.
    + by injection Hs as <- <-.
    + by injection Hs as <- <-.
Qed.
Definition is_dx_update (k : dx_call) : Prop := match k with DecayingConc.KUpdate _ _ => True | KSnapshot => False end.
Definition only_updates (t : dxthread) : Prop :=
  Forall is_dx_update (dx_todo t) /\ dx_got t = [] /\
  match dx_pc t with
  | XTick k | XCmp k _ | XNext k _ | XCas k _ _ | XLock k | XClock k | XStart k _ _ | XScale k _ => is_dx_update k
  | XRLock | XRead => False
  | _ => True
  end.
Lemma update_got math_Exp size alpha ms0 tick0 progs sched : Forall (Forall is_dx_update) progs ->
  Forall only_updates (threads (dx_crun math_Exp size alpha ms0 tick0 progs sched)).
Proof.
  intros HP. unfold dx_crun. apply (crun_inv (dx_tstep math_Exp) dx_estep (fun c => Forall only_updates (threads c))); [| |done].
  - apply Forall_fmap. eapply Forall_impl; [exact HP|]. intros p Hp. by split.
  - intros s ts i t s' t' J Hi Hs. cbn [threads] in *. apply Forall_insert; [done|]. rewrite Forall_lookup in J. destruct (J i t Hi) as (J1 & J2 & J3). clear J.
    destruct t as [todo pc got]. cbn [dx_todo dx_got dx_pc] in *. subst got. unfold dx_tstep in Hs. cbn [dx_todo dx_pc dx_got] in Hs. unfold only_updates.
    assert (Ha : forall k, is_dx_update k -> exists v r, dx_after k = XMs v r) by (intros [v r|]; [by exists v, r|done]).
    destruct pc as [|k|k now|k now|k now next|k|k|k old ms|k f|v r|v r ms|v r ms land|v r ms land| | |]; try done.
    + destruct todo as [|k todo]; [done|]. apply Forall_cons in J1 as [K J1]. by injection Hs as <- <-.
    + by injection Hs as <- <-.
    + injection Hs as <- <-. destruct (Ha k J3) as (v & r & E). cbn [dx_todo dx_pc dx_got]. rewrite E. by destruct (_ <=? _).
    + by injection Hs as <- <-.
    + destruct (Ha k J3) as (v & r & E). rewrite E in Hs. destruct (_ =? _); by injection Hs as <- <-.
    + destruct (_ || _); [done|]. by injection Hs as <- <-.
    + by injection Hs as <- <-.
    + by injection Hs as <- <-.
    + destruct (Ha k J3) as (v & r & E). rewrite E in Hs. by injection Hs as <- <-.
    + by injection Hs as <- <-.
    + by injection Hs as <- <-.
    + destruct (_ || _); [done|]. by injection Hs as <- <-.
    + destruct (ed_insert _ _ _ _); by injection Hs as <- <-.
Qed.

(** Programs of the objects. *)
Lemma updates_args l : Forall (fun a => exists n, a = CUpdate n) l -> updates l = arg <$> l.
Proof. induction 1 as [|a l [n ->] _ IH]; [done|]. unfold updates in *. cbn. f_equal; done. Qed.
Lemma updates_ones l : Forall (fun a => a = CUpdate 1) l -> arg <$> l = replicate (length l) 1.
Proof. induction 1 as [|a l -> _ IH]; [done|]. cbn. f_equal; done. Qed.
Lemma tickns_args l : Forall (fun a => exists c, a = CTickN c) l -> tickns l = ETickN <$> (arg <$> l).
Proof. induction 1 as [|a l [c ->] _ IH]; [done|]. unfold tickns in *. cbn. f_equal. done. Qed.
Lemma records_args l : Forall (fun a => exists v r, a = CRecord v r) l -> mjoin (call_value <$> records l) = arg <$> l.
Proof. induction 1 as [|a l (v & r & ->) _ IH]; [done|]. unfold records in *. cbn. f_equal. done. Qed.

Section fine.
Context (math_Exp : f64 -> f64) (rk : reservoir_kind) (I N maxE maxA : Z).
Notation effect_of := (cf_effect rk I N).
Notation gs := (gstep (cp_tstep I maxE maxA) cs_crashed effect_of (cobj_step math_Exp) cin_idle cin_push cin_returned).
Notation cf := (cf_run math_Exp rk I N maxE maxA).

Lemma new_counter_ok ms : counter_setting I N -> exists bc, newBucketCounterImpl I N ms true = Ok bc.
Proof.
  intros (H1 & H2 & H3). destruct (conc_total I N ms true [] [] H1 H2 H3) as (c & Hc & _). unfold bc_crun, bc_cinit in Hc.
  destruct (newBucketCounterImpl I N ms true) as [bc|]; [by exists bc|done].
Qed.
Lemma cf_defined e0 progs sched : counter_setting I N -> exists c, cf e0 progs sched = Some c.
Proof.
  intros H. unfold cf_run, cf_objs0, new_counter. destruct (new_counter_ok (ce_ms e0) H) as [bc ->]. eexists. reflexivity.
Qed.

Context (e0 : cenv) (progs : list (list kcall)) (sched : list (event cenv)) (c : fine).
Context (Hc : cf e0 progs sched = Some c).

Lemma kinds i t k : threads c !! i = Some t -> Forall (kind_ok k) (calls k t).
Proof using Hc. intros Hi. apply Forall_forall. intros a Ha. by eapply (md_kind _ _ (made_run _ _ _ _ _ _ _ _ _ _ Hc)). Qed.

Lemma join_received (f : list cop -> list Z) k : (forall l, Forall (kind_ok k) l -> f l = arg <$> l) ->
  mjoin ((fun t => f (calls k t)) <$> threads c) = received k (threads c).
Proof using Hc.
  intros Hf. unfold received. f_equal. apply list_fmap_ext. intros i t Hi. unfold args_of. apply Hf. by eapply kinds.
Qed.

Lemma counter_kind k l : is_counter k = true -> Forall (kind_ok k) l -> Forall (fun a => exists n, a = CUpdate n) l.
Proof. intros Hk Hl. eapply Forall_impl; [exact Hl|]. intros a. destruct k; try done; destruct a; try done; eauto. Qed.
Lemma tally_kind k l : is_tally k = true -> Forall (kind_ok k) l -> Forall (fun a => a = CUpdate 1) l.
Proof. intros Hk Hl. eapply Forall_impl; [exact Hl|]. intros a. destruct k; try done; destruct a; try done; by intros ->. Qed.
Lemma tally_counter k : is_tally k = true -> is_counter k = true.
Proof. by destruct k. Qed.
Lemma counter_received k : is_counter k = true -> mjoin ((fun t => updates (calls k t)) <$> threads c) = received k (threads c).
Proof using Hc. intros Hk. apply (join_received updates). intros l Hl. apply updates_args. by eapply counter_kind. Qed.
Lemma counter_ones k : is_tally k = true -> received k (threads c) = replicate (length (received k (threads c))) 1.
Proof using Hc.
  intros Hk. unfold received. generalize kinds. clear Hc. induction (threads c) as [|t ts IH]; intros HK; [done|]. cbn [fmap list_fmap mjoin list_join].
  rewrite app_length, replicate_add. f_equal.
  - unfold args_of. rewrite fmap_length. apply updates_ones. eapply tally_kind; [done|by eapply (HK 0%nat)].
  - apply IH. intros i u k' Hi. by eapply (HK (S i)).
Qed.
Lemma counter_length k : is_tally k = true -> Z.of_nat (length (received k (threads c))) = tally (compass_of c) k.
Proof using Hc.
  intros Hk. unfold compass_of. rewrite <- (md_tally _ _ (made_run _ _ _ _ _ _ _ _ _ _ Hc) k Hk). rewrite (counter_ones k Hk) at 2.
  generalize (length (received k (threads c))). clear. intros n. induction n as [|n IH]; [done|]. cbn [replicate]. rewrite sumZ_cons, <- IH. lia.
Qed.

(** Everybody outside. *)
Definition outside (t : gthread kthread cin ckey cop) : Prop := gt_in t = None.
Lemma at_in_away i t k : threads c !! i = Some t -> gt_in t <> Some k -> at_in k t = cin_idle.
Proof using Hc.
  intros Hi Hk. apply cin_returned_idle. revert Hc. unfold cf_run. destruct (cf_objs0 _ _ _ e0) as [objs0|]; [|done]. intros [= <-]. by eapply away_run.
Qed.
Lemma all_outside k : Forall outside (threads c) -> Forall (fun t => at_in k t = cin_idle) (threads c).
Proof using Hc. intros H. apply Forall_lookup. intros i t Hi. eapply at_in_away; [done|]. rewrite (proj1 (Forall_lookup _ _) H i t Hi). done. Qed.

Lemma counter_final k o : is_counter k = true -> counter_setting I N -> Forall outside (threads c) -> gs_objs (shared c) !! k = Some o ->
  exists s, o = OCounter s /\ bc_GetCount (bs_bc s) = wrap64 (sumZ (received k (threads c))).
Proof using Hc.
  intros Hk (H1 & H2 & H3) Hout Ho. destruct (counter_run _ _ _ _ _ _ _ _ _ _ _ _ Hc Hk Ho) as (s & before & e & es & tr & -> & _ & _ & Hr).
  exists s. split; [done|]. destruct (conc_total I N (ce_ms e) true ((fun t => updates (calls k t)) <$> threads c) tr H1 H2 H3) as (c' & Hc' & Hq).
  rewrite Hr in Hc'. injection Hc' as <-. cbn [shared] in Hq. rewrite Hq.
  - by rewrite counter_received by done.
  - unfold quiescent. cbn [threads]. apply Forall_fmap. eapply Forall_impl; [exact (all_outside k Hout)|]. intros t Ht. cbv beta in Ht. cbn. by rewrite Ht.
Qed.

Lemma counter_one_interval k o i : is_counter k = true -> counter_setting I N -> Forall outside (threads c) -> gs_objs (shared c) !! k = Some o ->
  Forall (fun ms => in64 ms /\ 0 <= ms /\ bucket_key (interval_seconds I) ms = i) (ce_ms e0 :: ms_of sched) ->
  exists s, o = OCounter s /\
    forall now start, in64 now -> -1000 < start -> exists m, bc_GetBucketCountsSince (bs_bc s) now start = Ok m /\
      forall k', m !! k' = if decide (start <= k' /\ k' <= trunc_key (interval_seconds I) now)
        then recent_sum (Z.to_nat N) (pair i <$> received k (threads c)) k' else None.
Proof using Hc.
  intros Hk (H1 & H2 & H3) Hout Ho Hms. destruct (counter_run _ _ _ _ _ _ _ _ _ _ _ _ Hc Hk Ho) as (s & before & e & es & tr & -> & Hb & Htr & Hr).
  assert (Hall : Forall (fun ms => in64 ms /\ 0 <= ms /\ bucket_key (interval_seconds I) ms = i) (ce_ms <$> e :: es)).
  { assert (Hm : ce_ms e0 :: ms_of sched = ce_ms <$> (e0 :: shown sched)).
    { cbn. f_equal. unfold ms_of, shown. clear. induction sched as [|[j|x] l IH]; [done|exact IH|]. cbn. f_equal. exact IH. }
    rewrite Hm, Hb, fmap_app in Hms. by apply Forall_app in Hms as [_ Hms]. }
  exists s. split; [done|]. destruct (conc_one_interval I N (ce_ms e) true ((fun t => updates (calls k t)) <$> threads c) tr i H1 H2 H3) as (c' & Hc' & Hq).
  - cbn in Hall. apply Forall_cons in Hall as [A1 A2]. apply Forall_cons. split; [exact A1|]. rewrite <- Htr in A2. clear -A2. induction tr as [|[j|x] tr IH]; [done|..].
    + apply Forall_cons. split; [done|]. by apply IH.
    + cbn in A2. apply Forall_cons in A2 as [A1 A2]. apply Forall_cons. split; [exact A1|]. by apply IH.
  - rewrite Hr in Hc'. injection Hc' as <-. cbn [shared] in Hq. intros now start Hn Hs.
    destruct (Hq) with (now := now) (start := start) as (m & Hm & Hmk); [|done|done|].
    { unfold quiescent. cbn [threads]. apply Forall_fmap. eapply Forall_impl; [exact (all_outside k Hout)|]. intros t Ht. cbv beta in Ht. cbn. by rewrite Ht. }
    exists m. split; [done|]. intros k'. rewrite Hmk. by rewrite counter_received by done.
Qed.

Lemma average_final k o : k ∈ [KOne; KFive; KFifteen] -> Forall outside (threads c) -> gs_objs (shared c) !! k = Some o ->
  exists s, o = OAverage s /\ es_ticked s ≡ₚ logs rk (compass_of c) k /\ ew_rate (es_ewma s) = ew_rate (fold_left ew_TickN (es_ticked s) zeroEWMA).
Proof using Hc.
  intros Hk Hout Ho. destruct (average_run _ _ _ _ _ _ _ _ _ _ _ _ Hc Hk Ho) as (s & tr & -> & Hr).
  assert (Hk' : is_tally k = false) by (destruct k; try done; set_solver).
  assert (HP : Forall (Forall (fun x => exists n, x = ETickN n)) ((fun t => tickns (calls k t)) <$> threads c)).
  { apply Forall_fmap, Forall_lookup. intros i t Hi. cbn. unfold tickns. apply Forall_forall. intros x Hx. apply elem_of_list_omap in Hx as (a & _ & Ha). destruct a; try done. injection Ha as <-. eauto. }
  exists s. split; [done|]. pose proof (tickn_run f0 0 _ tr HP) as [T1 T2]. pose proof (ewma_final f0 0 ((fun t => tickns (calls k t)) <$> threads c) tr) as F. cbv zeta in *.
  rewrite Hr in T1, T2, F. cbn [shared threads] in *.
  assert (Hd : Forall (fun t => t = EThread [] EIdle []) ((λ t, ci_ew (at_in k t)) <$> threads c)).
  { apply Forall_fmap. eapply Forall_impl; [exact (all_outside k Hout)|]. intros t Ht. cbv beta in Ht. cbn. by rewrite Ht. }
  split.
  - assert (Ej : mjoin (tick_owed <$> ((λ t, ci_ew (at_in k t)) <$> threads c)) = []).
    { clear -Hd. induction Hd as [|t ts -> _ IH]; [done|]. cbn. exact IH. }
    rewrite Ej, app_nil_r in T2. rewrite T2. unfold compass_of. rewrite <- (md_logs _ _ (made_run _ _ _ _ _ _ _ _ _ _ Hc) k Hk').
    rewrite <- (join_received (fun l => mjoin (tickn_arg <$> tickns l)) k).
    + clear. induction (threads c) as [|t ts IH]; [done|]. cbn [fmap list_fmap mjoin list_join]. rewrite fmap_app, join_app'. apply Permutation_app; [done|exact IH].
    + intros l Hl. rewrite tickns_args.
      * generalize (arg <$> l). clear. intros l. induction l as [|x l IH]; [done|]. cbn. f_equal. exact IH.
      * eapply Forall_impl; [exact Hl|]. intros a. destruct k; try (by destruct a; eauto); set_solver.
  - destruct F as (_ & _ & F). { eapply Forall_impl; [exact Hd|]. intros t ->. done. } exact F.
Qed.

(** The reservoir. *)
Lemma made_env key (P : cop -> cenv -> Prop) : (forall s t e a, cf_effect rk I N s t e = Some (Invoke key a) -> P a e) ->
  forall i t a, threads c !! i = Some t -> a ∈ calls key t -> exists e, shows e0 sched e /\ P a e.
Proof using Hc.
  intros HP.
  enough (G : shows e0 sched (gs_env (shared c)) /\ forall i t a, threads c !! i = Some t -> a ∈ calls key t -> exists e, shows e0 sched e /\ P a e) by apply G.
  revert Hc. generalize c. clear -HP. revert sched. 
  apply (cf_run_ind math_Exp I N maxE maxA rk (fun sched c => shows e0 sched (gs_env (shared c)) /\ forall i t a, threads c !! i = Some t -> a ∈ calls key t -> exists e, shows e0 sched e /\ P a e)).
  - intros objs0 _. cbv zeta. split; [by left|]. intros i t v Hi Hr. cbn in Hi. rewrite !list_lookup_fmap in Hi. destruct (progs !! i); [|done]. injection Hi as <-. by apply elem_of_nil in Hr.
  - intros sched s ts i t s' t' _ [J1 J2] Hi Hs. cbn [shared threads] in *.
    assert (Hmono : forall e, shows e0 sched e -> shows e0 (sched ++ [Run i]) e) by (intros e [->|He]; [by left|right; apply elem_of_app; by left]).
    assert (Henv : gs_env s' = gs_env s).
    { clear -Hs. unfold gstep in Hs. destruct (cs_crashed _); [done|]. destruct (gt_in t) as [k|].
      - destruct (cin_returned _); [by injection Hs as <- <-|]. destruct (gs_objs s !! k); [|done]. destruct (cobj_step _ _ _) as [[? ?]|]; [|done]. by injection Hs as <- <-.
      - destruct (cp_tstep _ _ _ _ _) as [[s1 t1]|]; [|done]. destruct (cf_effect _ _ _ _ _ _) as [[|k o|k a]|]; [..|done]; by injection Hs as <- <-. }
    split; [rewrite Henv; by apply Hmono|]. intros j u v Hj Hr.
    enough (exists e, shows e0 sched e /\ P v e) as (e & He & Hv) by (exists e; split; [by apply Hmono|done]).
    apply list_lookup_insert_Some in Hj as [(-> & <- & _)|[_ Hj]]; [|by eapply J2].
    destruct (gs_cases _ _ _ _ _ _ _ _ _ _ Hs) as [[_ E2]|[_ E2]]; [unfold calls in Hr; rewrite E2 in Hr; by eapply J2|].
    unfold calls in Hr. rewrite E2, calls_of_app in Hr. apply elem_of_app in Hr as [Hr|Hr]; [by eapply J2|].
    destruct (cf_effect _ _ _ _ _ _) as [[|k o|k a]|] eqn:Ee; cbn in Hr; try (by apply elem_of_nil in Hr).
    destruct (decide (k = key)) as [->|]; [|by apply elem_of_nil in Hr]. apply elem_of_list_singleton in Hr as <-.
    exists (gs_env s). split; [done|]. by eapply HP.
  - intros sched s ts e _ [J1 J2]. cbn [shared threads] in *. 
    assert (Hmono : forall e', shows e0 sched e' -> shows e0 (sched ++ [Env e]) e') by (intros e' [->|He]; [by left|right; apply elem_of_app; by left]).
    split; [right; apply elem_of_app; right; left|]. intros i t v Hi Hr. destruct (J2 i t v Hi Hr) as (e' & He & Hv). exists e'. split; [by apply Hmono|done].
  - intros sched i c [J1 J2].
    assert (Hmono : forall e', shows e0 sched e' -> shows e0 (sched ++ [Run i]) e') by (intros e' [->|He]; [by left|right; apply elem_of_app; by left]).
    split; [by apply Hmono|]. intros j t v Hi Hr. destruct (J2 j t v Hi Hr) as (e' & He & Hv). exists e'. split; [by apply Hmono|done].
Qed.
Lemma made_random i t v r : threads c !! i = Some t -> CRecord v r ∈ calls KReservoir t -> exists e, shows e0 sched e /\ r = ce_random e.
Proof using Hc.
  intros Hi Hr. destruct (made_env KReservoir (fun a e => forall v r, a = CRecord v r -> r = ce_random e)) with (i := i) (t := t) (a := CRecord v r) as (e & He & H); [|done|done|].
  - intros s u e a Ha v' r' ->. by eapply step_random.
  - exists e. split; [done|]. by eapply H.
Qed.
Lemma made_draws i t v ds : threads c !! i = Some t -> CDraw v ds ∈ calls KUniform t -> exists e, shows e0 sched e /\ ds = ce_draws e.
Proof using Hc.
  intros Hi Hr. destruct (made_env KUniform (fun a e => forall v r, a = CDraw v r -> r = ce_draws e)) with (i := i) (t := t) (a := CDraw v ds) as (e & He & H); [|done|done|].
  - intros s u e a Ha v' r' ->. by eapply step_draws.
  - exists e. split; [done|]. by eapply H.
Qed.

(** The uniform reservoir. *)
Lemma draws_args l : Forall (kind_ok KUniform) l -> recorded_by (draws_of l) = arg <$> l.
Proof. induction 1 as [|a l Ha _ IH]; [done|]. destruct a; try done. unfold recorded_by, draws_of in *. cbn. f_equal. done. Qed.
Lemma draws_updates l : filter (fun k => ReservoirConcSpec.is_update k = true) (draws_of l) = draws_of l.
Proof. induction l as [|[] l IH]; try done. unfold draws_of in *. cbn [omap list_omap]. rewrite filter_cons, decide_True by done. by rewrite IH. Qed.
Lemma recorded_app l1 l2 : recorded_by (l1 ++ l2) = recorded_by l1 ++ recorded_by l2.
Proof. apply omap_app. Qed.
Lemma uniform_received : recorded_by (mjoin ((fun t => draws_of (calls KUniform t)) <$> threads c)) = received KUniform (threads c).
Proof using Hc.
  rewrite <- (join_received (fun l => recorded_by (draws_of l)) KUniform); [|intros l Hl; by apply draws_args].
  clear. induction (threads c) as [|t ts IH]; [done|]. cbn [fmap list_fmap mjoin list_join]. rewrite recorded_app. f_equal. exact IH.
Qed.
Lemma uniform_rx_ok cap : rk = RUniform cap -> uniform_setting cap e0 progs sched ->
  (length (cs_durations (compass_of c)) <= length (planned durations progs))%nat ->
  rx_ok cap ((fun t => draws_of (calls KUniform t)) <$> threads c).
Proof using Hc.
  intros Hrk (S1 & S2 & S3) Hlen. split; [done|]. split.
  - apply Forall_fmap, Forall_lookup. intros i t Hi. cbn. apply Forall_forall. intros k Hk. unfold draws_of in Hk. apply elem_of_list_omap in Hk as (a & Ha & Hk).
    destruct a as [| | |v ds]; try done. injection Hk as <-. destruct (made_draws i t v ds Hi Ha) as (e & He & ->). by apply S2.
  - assert (E : length (received KUniform (threads c)) = length (cs_durations (compass_of c))).
    { rewrite (Permutation_length (md_logs _ _ (made_run _ _ _ _ _ _ _ _ _ _ Hc) KUniform eq_refl)). unfold logs. by rewrite Hrk. }
    rewrite <- uniform_received in E.
    enough (G : length (filter (fun k => ReservoirConcSpec.is_update k = true) (mjoin ((fun t => draws_of (calls KUniform t)) <$> threads c))) =
                length (recorded_by (mjoin ((fun t => draws_of (calls KUniform t)) <$> threads c)))) by (rewrite G, E; lia).
    clear. induction (threads c) as [|t ts IH]; [done|]. cbn [fmap list_fmap mjoin list_join]. rewrite filter_app, recorded_app, !app_length. f_equal; [|exact IH].
    generalize (calls KUniform t). intros l. rewrite draws_updates. clear. induction l as [|[] l IH]; try done. unfold draws_of, recorded_by in *. cbn. f_equal. exact IH.
Qed.

Lemma clock_ok_shown tr last : clock_ok last tr <-> ms_ok last (fst <$> shown tr).
Proof. revert last. induction tr as [|[i|[ms tick]] tr IH]; intros last; [done|exact (IH last)|]. cbn. by rewrite <- (IH ms). Qed.

Lemma reservoir_received : mjoin (call_value <$> mjoin ((fun t => records (calls KReservoir t)) <$> threads c)) = received KReservoir (threads c).
Proof using Hc.
  rewrite <- (join_received (fun l => mjoin (call_value <$> records l)) KReservoir).
  - clear. induction (threads c) as [|t ts IH]; [done|]. cbn [fmap list_fmap mjoin list_join]. rewrite fmap_app, join_app'. f_equal. exact IH.
  - intros l Hl. apply records_args. eapply Forall_impl; [exact Hl|]. intros []; try done. eauto.
Qed.

Lemma reservoir_conc_ok tr size alpha : rk = RDecaying size alpha -> decaying_setting math_Exp size alpha e0 progs sched -> shown tr = (fun e => (ce_ms e, ce_tick e)) <$> shown sched ->
  (length (cs_durations (compass_of c)) <= length (planned durations progs))%nat ->
  conc_ok math_Exp size alpha (ce_ms e0) ((fun t => records (calls KReservoir t)) <$> threads c) tr.
Proof using Hc.
  intros Hrk (S1 & S2 & S3 & S4 & S5 & S6 & S7) Htr Hlen. split; [done|]. split; [done|]. split; [exact S3|]. split; [done|]. split; [|split].
  - apply clock_ok_shown. rewrite Htr, <- list_fmap_compose. cbn. replace (compose fst (fun e => (ce_ms e, ce_tick e)) <$> shown sched) with (ms_of sched); [done|].
    unfold ms_of, shown. clear. induction sched as [|[j|x] l IH]; [done|exact IH|]. cbn. f_equal. exact IH.
  - apply Forall_fmap, Forall_lookup. intros i t Hi. cbn. apply Forall_forall. intros k Hk. unfold records in Hk. apply elem_of_list_omap in Hk as (a & Ha & Hk).
    destruct a as [| |v r|]; try done. injection Hk as <-. destruct (made_random i t v r Hi Ha) as (e & He & ->). by apply S6.
  - rewrite reservoir_received. rewrite (Permutation_length (md_logs _ _ (made_run _ _ _ _ _ _ _ _ _ _ Hc) KReservoir eq_refl)). unfold logs. rewrite Hrk. unfold compass_of in Hlen. lia.
Qed.

(** Progress. *)
Lemma idle_stuck o : cobj_step math_Exp o cin_idle = None.
Proof. by destruct o. Qed.
Lemma inside_steps i t k o r : cs_crashed (compass_of c) = false -> threads c !! i = Some t -> gs_objs (shared c) !! k = Some o -> cobj_step math_Exp o (at_in k t) = Some r ->
  gs (shared c) t <> None.
Proof using Hc.
  intros Hcr Hi Ho Hs. destruct (decide (gt_in t = Some k)) as [Hin|Hin].
  - unfold gstep. unfold compass_of in Hcr. rewrite Hcr, Hin. destruct (cin_returned _); [done|]. rewrite Ho. unfold at_in in Hs. rewrite Hs. by destruct r.
  - by rewrite (at_in_away i t k Hi Hin), idle_stuck in Hs.
Qed.

Lemma outside_or (ts : list (gthread kthread cin ckey cop)) : Forall outside ts \/ exists i t k, ts !! i = Some t /\ gt_in t = Some k.
Proof.
  induction ts as [|t ts IH]; [by left|]. destruct (gt_in t) as [k|] eqn:E; [right; by exists 0%nat, t, k|].
  destruct IH as [IH|(i & u & k & Hi & Hk)]; [left; by constructor|right; by exists (S i), u, k].
Qed.

(** The parts of a goroutine's state that do not belong to the object. *)
Lemma rest_part c0 tr c1 : esteps (cobj_step math_Exp) cobj_estep c0 tr c1 ->
  match shared c0 with
  | OCounter _ => (exists s, shared c1 = OCounter s) /\ (fun t => (ci_ew t, ci_dx t, ci_rx t)) <$> threads c1 = (fun t => (ci_ew t, ci_dx t, ci_rx t)) <$> threads c0
  | OAverage _ => (exists s, shared c1 = OAverage s) /\ (fun t => (ci_bc t, ci_dx t, ci_rx t)) <$> threads c1 = (fun t => (ci_bc t, ci_dx t, ci_rx t)) <$> threads c0
  | OReservoir _ => (exists s, shared c1 = OReservoir s) /\ (fun t => (ci_bc t, ci_ew t, ci_rx t)) <$> threads c1 = (fun t => (ci_bc t, ci_ew t, ci_rx t)) <$> threads c0
  | OUniform _ => (exists s, shared c1 = OUniform s) /\ (fun t => (ci_bc t, ci_ew t, ci_dx t)) <$> threads c1 = (fun t => (ci_bc t, ci_ew t, ci_dx t)) <$> threads c0
  end.
Proof.
  induction 1 as [|tr s ts i t s' t' _ IH Hi Hs|tr s ts e _ IH].
  - destruct (shared c0); split; eauto.
  - destruct (shared c0); destruct IH as [[x Hx] IH]; cbn [shared threads] in *; subst s; cbn [cobj_step] in Hs.
    + destruct (bc_tstep x (ci_bc t)) as [[? ?]|]; [|done]. injection Hs as <- <-. split; [eauto|]. rewrite list_fmap_insert. rewrite list_insert_id; [done|]. by rewrite list_lookup_fmap, Hi.
    + destruct (ewma_tstep x (ci_ew t)) as [[? ?]|]; [|done]. injection Hs as <- <-. split; [eauto|]. rewrite list_fmap_insert. rewrite list_insert_id; [done|]. by rewrite list_lookup_fmap, Hi.
    + destruct (dx_tstep math_Exp x (ci_dx t)) as [[? ?]|]; [|done]. injection Hs as <- <-. split; [eauto|]. rewrite list_fmap_insert. rewrite list_insert_id; [done|]. by rewrite list_lookup_fmap, Hi.
    + destruct (rx_tstep x (ci_rx t)) as [[? ?]|]; [|done]. injection Hs as <- <-. split; [eauto|]. rewrite list_fmap_insert. rewrite list_insert_id; [done|]. by rewrite list_lookup_fmap, Hi.
  - destruct (shared c0); destruct IH as [[x Hx] IH]; cbn [shared threads] in *; subst s; cbn [cobj_estep]; split; eauto.
Qed.

Lemma object_steps k o : gs_objs (shared c) !! k = Some o -> exists o0 tr,
  esteps (cobj_step math_Exp) cobj_estep (Config o0 ((fun t => with_calls cin_idle cin_push (calls k t)) <$> threads c)) tr (Config o (at_in k <$> threads c)) /\
  if is_counter k then exists s, o0 = OCounter s else match k, rk with KReservoir, RDecaying _ _ => exists s, o0 = OReservoir s | KReservoir, _ => False | KUniform, RUniform _ => exists s, o0 = OUniform s | KUniform, _ => False | _, _ => exists s, o0 = OAverage s end.
Proof using Hc.
  intros Ho. destruct (cf_started _ _ _ _ _ _ _ _ _ _ Hc) as [objs0 H0]. pose proof (cf_seen _ _ _ _ _ _ _ _ _ _ _ H0 Hc) as Sn.
  destruct (sn_some _ _ _ _ _ _ _ _ _ Sn k o Ho) as (o0 & tr & Hor & Hst). exists o0, tr. split; [exact Hst|]. destruct (is_counter k) eqn:Hk.
  - destruct (origin_counter _ _ _ _ _ _ _ _ _ H0 Hk Hor) as (before & e & Hb & Hn). apply new_counter_counter in Hn as (bc & _ & ->). eauto.
  - destruct (origin_other _ _ _ _ _ _ _ _ _ H0 Hk Hor) as [_ Eo]. destruct k, rk; try done; eauto.
Qed.

Definition bc_rest (t : cin) : Prop := ci_bc t = BThread [] BucketCounterConc.PIdle.
Definition ew_rest (t : cin) : Prop := ci_ew t = EThread [] EIdle [].
Definition dx_rest (t : cin) : Prop := ci_dx t = DxThread [] XIdle [].
Definition rx_rest (t : cin) : Prop := ci_rx t = RxThread 0 [] RIdle [].
Lemma parts_idle k i t o : threads c !! i = Some t -> gs_objs (shared c) !! k = Some o ->
  if is_counter k then ew_rest (at_in k t) /\ dx_rest (at_in k t) /\ rx_rest (at_in k t)
  else match k with
       | KReservoir => bc_rest (at_in k t) /\ ew_rest (at_in k t) /\ rx_rest (at_in k t)
       | KUniform => bc_rest (at_in k t) /\ ew_rest (at_in k t) /\ dx_rest (at_in k t)
       | _ => bc_rest (at_in k t) /\ dx_rest (at_in k t) /\ rx_rest (at_in k t)
       end.
Proof using Hc.
  intros Hi Ho. destruct (object_steps k o Ho) as (o0 & tr & Hst & Hk0). apply rest_part in Hst. cbn [shared threads] in Hst.
  pose proof (kinds i t k Hi) as HK.
  assert (Hsame : forall (X : Type) (f : cin -> X), f <$> (at_in k <$> threads c) = f <$> ((fun t => with_calls cin_idle cin_push (calls k t)) <$> threads c) -> f (at_in k t) = f (with_calls cin_idle cin_push (calls k t))).
  { intros X f Hf. apply (f_equal (fun l => l !! i)) in Hf. rewrite !list_lookup_fmap, Hi in Hf. cbn in Hf. congruence. }
  assert (Hn1 : (forall a, kind_ok k a -> forall n, a <> CUpdate n) -> updates (calls k t) = []).
  { intros H. clear -HK H. unfold updates. induction HK as [|a l Ha _ IH]; [done|]. destruct a; [..|]; try (exact IH). exfalso. by eapply H. }
  assert (Hn2 : (forall a, kind_ok k a -> forall n, a <> CTickN n) -> tickns (calls k t) = []).
  { intros H. clear -HK H. unfold tickns. induction HK as [|a l Ha _ IH]; [done|]. destruct a; [..|]; try (exact IH). exfalso. by eapply H. }
  assert (Hn3 : (forall a, kind_ok k a -> forall v r, a <> CRecord v r) -> records (calls k t) = []).
  { intros H. clear -HK H. unfold records. induction HK as [|a l Ha _ IH]; [done|]. destruct a; [..|]; try (exact IH). exfalso. by eapply H. }
  assert (Hn4 : (forall a, kind_ok k a -> forall v r, a <> CDraw v r) -> draws_of (calls k t) = []).
  { intros H. clear -HK H. unfold draws_of. induction HK as [|a l Ha _ IH]; [done|]. destruct a; [..|]; try (exact IH). exfalso. by eapply H. }
  unfold bc_rest, ew_rest, dx_rest, rx_rest. destruct (is_counter k) eqn:Ek.
  - destruct Hk0 as [s ->]. destruct Hst as [_ Hf]. apply (Hsame _ (fun t => (ci_ew t, ci_dx t, ci_rx t))) in Hf. rewrite with_calls_parts in Hf. cbn [ci_ew ci_dx ci_rx] in Hf.
    rewrite Hn2, Hn3, Hn4 in Hf; [by injection Hf as -> -> ->|..]; intros a Ha; destruct k; try discriminate Ek; by destruct a.
  - assert (HA : k <> KReservoir -> k <> KUniform -> (exists s, o0 = OAverage s) -> bc_rest (at_in k t) /\ dx_rest (at_in k t) /\ rx_rest (at_in k t)).
    { unfold bc_rest, dx_rest, rx_rest. intros Hk Hk' [s ->]. destruct Hst as [_ Hf]. apply (Hsame _ (fun t => (ci_bc t, ci_dx t, ci_rx t))) in Hf. rewrite with_calls_parts in Hf. cbn [ci_bc ci_dx ci_rx] in Hf.
      rewrite Hn1, Hn3, Hn4 in Hf; [by injection Hf as -> -> ->|..]; intros a Ha; destruct k; try discriminate Ek; try done; by destruct a. }
    destruct k; try discriminate Ek; try (by apply HA).
    + assert (Hk1 : exists s, o0 = OReservoir s) by (by destruct rk). destruct Hk1 as [s ->]. destruct Hst as [_ Hf]. apply (Hsame _ (fun t => (ci_bc t, ci_ew t, ci_rx t))) in Hf. rewrite with_calls_parts in Hf. cbn [ci_bc ci_ew ci_rx] in Hf.
      rewrite Hn1, Hn2, Hn4 in Hf; [by injection Hf as -> -> ->|..]; intros a Ha; by destruct a.
    + assert (Hk1 : exists s, o0 = OUniform s) by (by destruct rk). destruct Hk1 as [s ->]. destruct Hst as [_ Hf]. apply (Hsame _ (fun t => (ci_bc t, ci_ew t, ci_dx t))) in Hf. rewrite with_calls_parts in Hf. cbn [ci_bc ci_ew ci_dx] in Hf.
      rewrite Hn1, Hn2, Hn3 in Hf; [by injection Hf as -> -> ->|..]; intros a Ha; by destruct a.
Qed.

Lemma some_step (x : option (gshared cp_shared cenv ckey cobj * gthread kthread cin ckey cop)) : x <> None -> exists s' t', x = Some (s', t').
Proof. destruct x as [[s' t']|]; [by exists s', t'|done]. Qed.

Lemma fine_progress : counter_setting I N -> reservoir_setting math_Exp rk e0 progs sched ->
  (length (cs_durations (compass_of c)) <= length (planned durations progs))%nat ->
  cs_crashed (compass_of c) = false -> ~ Forall returned_all (threads c) ->
  exists i t s' t', threads c !! i = Some t /\ gs (shared c) t = Some (s', t').
Proof using Hc.
  intros HC HR HL Hcr Hnot. enough (G : exists i t, threads c !! i = Some t /\ gs (shared c) t <> None).
  { destruct G as (i & t & Hi & Hs). destruct (some_step _ Hs) as (s' & t' & Hst). by exists i, t, s', t'. }
  destruct (outside_or (threads c)) as [Hout|(i & t & k & Hi & Hin)].
  - (* everybody is in the client *)
    destruct (cf_client _ _ _ _ _ _ _ _ _ _ Hc) as [sched' Hcl].
    destruct (cp_progress I maxE maxA (ce_ms e0) (ce_tick e0) progs sched') as (i & t & s' & t' & Hi & Hs).
    + destruct HC as (H1 & _). unfold Second in H1. lia.
    + rewrite <- Hcl. exact Hcr.
    + rewrite <- Hcl. intros Hd. apply Hnot. apply Forall_lookup. intros i t Hi. pose proof (proj1 (Forall_lookup _ _) Hd i (gt_client t)) as Hd'. clear Hd. rename Hd' into Hd. pose proof (proj1 (Forall_lookup _ _) Hout) as Hout'.
      unfold client in Hd. cbn [threads] in Hd. rewrite list_lookup_fmap, Hi in Hd. destruct (Hd eq_refl) as [D1 D2]. split; [done|]. split; [done|]. by eapply Hout'.
    + rewrite <- Hcl in Hi, Hs. unfold client in Hi, Hs. cbn [threads shared] in Hi, Hs. rewrite list_lookup_fmap in Hi. destruct (threads c !! i) as [u|] eqn:Eu; [|done]. injection Hi as <-.
      exists i, u. split; [done|]. pose proof (proj1 (Forall_lookup _ _) Hout i u Eu) as Hout'. unfold gstep. unfold compass_of in Hcr. rewrite Hcr. unfold outside in Hout'. rewrite Hout', Hs.
      assert (He : cf_effect rk I N (gs_client (shared c)) (gt_client u) (gs_env (shared c)) <> None).
      { unfold cf_effect. destruct (kt_pc (gt_client u)) as [|k0|old k0|old new k0|n k0|n count k0|n count k0|n count k0|n count k0|d r0|d r0|d r0|r0|w r0|w r0|w r0|w r0|w r0|w p r0|w [p|] r0|w n]; try done.
        unfold new_counter. destruct (new_counter_ok (ce_ms (gs_env (shared c))) HC) as [bc ->]. done. }
      destruct (cf_effect _ _ _ _ _ _) as [[|k o|k a]|]; done.
  - (* somebody is inside an object *)
    destruct (cin_returned (at_in k t)) eqn:Er.
    { exists i, t. split; [done|]. unfold gstep. unfold compass_of in Hcr. rewrite Hcr, Hin. unfold at_in in Er. by rewrite Er. }
    destruct (cf_started _ _ _ _ _ _ _ _ _ _ Hc) as [objs0 H0]. pose proof (cf_seen _ _ _ _ _ _ _ _ _ _ _ H0 Hc) as Sn.
    destruct (gs_objs (shared c) !! k) as [o|] eqn:Ho.
    2: { exfalso. eapply (sn_in _ _ _ _ _ _ _ _ _ Sn); [exact Hi|exact Hin|]. by eapply (sn_none _ _ _ _ _ _ _ _ _ Sn). }
    set (ot := at_in k t) in *. assert (Hat : at_in k t = ot) by done. clearbody ot.
    pose proof (parts_idle k i t o Hi Ho) as Hparts. rewrite Hat in Hparts. destruct (is_counter k) eqn:Ek.
    + (* a counter *)
      destruct (counter_run _ _ _ _ _ _ _ _ _ _ _ _ Hc Ek Ho) as (s & before & e & es & tr & -> & _ & _ & Hr). destruct HC as (H1 & H2 & H3).
      destruct (binv_run I N (ce_ms e) true ((fun t => updates (calls k t)) <$> threads c) tr H1 H2 H3) as (c' & Hc' & cr & B). rewrite Hr in Hc'. injection Hc' as <-. cbn [shared threads] in B.
      destruct (binv_progress _ _ _ _ _ _ _ i (ci_bc ot) _ (interval_seconds_pos _ H1 H2) B) as (s' & t' & Hs).
      * by rewrite list_lookup_fmap, Hi, <- Hat.
      * destruct Hparts as (P1 & P2 & P3). unfold ew_rest, dx_rest, rx_rest in P1, P2, P3. destruct ot as [[todo pc] e1 d1 r1]. cbn in P1, P2, P3. subst e1 d1 r1. intros Hu. unfold unfinished in Hu. apply app_eq_nil in Hu as [Hu1 Hu2]. cbn in Hu1, Hu2. subst todo. by destruct pc.
      * exists i, t. split; [done|]. eapply inside_steps; [done|done|exact Ho|]. rewrite Hat. cbn [cobj_step]. rewrite Hs. reflexivity.
    + destruct (decide (k = KReservoir)) as [->|Hk].
      * assert (Hrk : exists rsize alpha, rk = RDecaying rsize alpha).
        { destruct (object_steps KReservoir o Ho) as (o0 & tr & _ & Hk0). cbn [is_counter] in Hk0. destruct rk; [eauto|done..]. }
        destruct Hrk as (rsize & alpha & Erk). rewrite Erk in HR. cbn [reservoir_setting] in HR.
        destruct (reservoir_run _ _ _ _ _ _ _ _ _ _ _ _ _ Erk Hc Ho) as (s & tr & -> & Htr & Hr). pose proof (reservoir_conc_ok tr _ _ Erk HR Htr HL) as Hok.
        pose proof (dxinv_main math_Exp rsize alpha (ce_ms e0) (ce_tick e0) _ tr Hok) as D. rewrite Hr in D. cbn [shared threads] in D.
        destruct (progress math_Exp rsize alpha (ce_ms e0) (ce_tick e0) _ _ _ i (ci_dx ot) D) as (j & u & Hj & Hu).
        -- by rewrite list_lookup_fmap, Hi, <- Hat.
        -- intros [F1 F2]. destruct Hparts as (P1 & P2 & P3). unfold bc_rest, ew_rest, rx_rest in P1, P2, P3. assert (HG : only_updates (ci_dx ot)).
           { assert (HP : Forall (Forall is_dx_update) ((fun t => records (calls KReservoir t)) <$> threads c)).
             { apply Forall_fmap, Forall_lookup. intros j u _. cbn. apply Forall_forall. intros x Hx. unfold records in Hx. apply elem_of_list_omap in Hx as (a & _ & Ha). destruct a; try done. by injection Ha as <-. }
             pose proof (update_got math_Exp rsize alpha (ce_ms e0) (ce_tick e0) _ tr HP) as G. rewrite Hr in G. cbn [threads] in G. rewrite Forall_lookup in G. apply (G i). by rewrite list_lookup_fmap, Hi, <- Hat. }
           destruct HG as (_ & G & _). destruct ot as [b1 e1 [todo pc got] r1]. cbn in *. subst. done.
        -- rewrite list_lookup_fmap in Hj. destruct (threads c !! j) as [v|] eqn:Ev; [|done]. injection Hj as <-. exists j, v. split; [done|].
           destruct (dx_tstep math_Exp s (ci_dx (at_in KReservoir v))) as [[s' t']|] eqn:Hs; [|done]. eapply inside_steps; [done|done|exact Ho|]. cbn [cobj_step]. rewrite Hs. reflexivity.
      * destruct (decide (k = KUniform)) as [->|Hku].
        { assert (Hrk : exists cap, rk = RUniform cap).
          { destruct (object_steps KUniform o Ho) as (o0 & tr & _ & Hk0). cbn [is_counter] in Hk0. destruct rk; [done..|eauto]. }
          destruct Hrk as (cap & Erk). rewrite Erk in HR. cbn [reservoir_setting] in HR. pose proof (uniform_rx_ok cap Erk HR HL) as Hok.
          destruct (uniform_run _ _ _ _ _ _ _ _ _ _ _ _ Erk Hc Ho) as (tr & Eo & Eth). set (c' := rx_run _ _ tr) in *.
          pose proof (rxinv_run _ _ Hok tr) as D. fold c' in D.
          assert (Hti : exists u, threads c' !! i = Some u /\ bare u = ci_rx ot).
          { apply (f_equal (fun l => l !! i)) in Eth. rewrite !list_lookup_fmap, Hi in Eth. destruct (threads c' !! i) as [u|]; [|done]. exists u. split; [done|]. injection Eth as Eth. by rewrite <- Hat, <- Eth. }
          destruct Hti as (u & Hu & Eu).
          assert (Hnf : ~ rx_finished u).
          { intros [F1 F2]. destruct Hparts as (P1 & P2 & P3). unfold bc_rest, ew_rest, dx_rest in P1, P2, P3. destruct ot as [b1 e1 d1 r1]. cbn in *. subst b1 e1 d1. rewrite <- Eu in Er. unfold bare in Er. rewrite F1, F2 in Er. discriminate Er. }
          assert (Hst : exists j v, threads c' !! j = Some v /\ rx_tstep (shared c') v <> None).
          { destruct (rx_updating u || rx_reading u) eqn:Eh; [exists i, u; split; [done|]; by eapply (holder_steps _ _ Hok)|].
            destruct (rx_tstep (shared c') u) as [r|] eqn:Es; [exists i, u; split; [done|by rewrite Es]|].
            assert (Hw : rs_writer (shared c') = true \/ (0 < rs_readers (shared c'))%nat).
            { pose proof (r_u _ _ _ _ D) as (x & _ & _ & _ & _ & U5). specialize (U5 i u Hu). clear -Es Hnf U5 Eh. destruct u as [id todo pc got]. unfold rx_tstep in Es. unfold rx_finished in Hnf. cbn [rx_pc rx_todo rx_id rx_got] in *. cbv zeta in Es.
              unfold rx_updating, rx_reading in Eh. cbn [rx_pc] in Eh. destruct pc; try discriminate Eh; try done.
              - destruct todo; [by destruct Hnf|done].
              - destruct (rs_writer (shared c')); [by left|]. right. destruct (rs_readers (shared c')); [done|lia].
              - destruct (rs_writer (shared c')); [by left|done].
              - destruct (rs_writer (shared c')); [by left|done]. }
            destruct Hw as [Hw|Hr].
            - destruct (sum_flags_pos rx_updating (threads c')) as (j & v & Hj & Hv); [rewrite (r_w _ _ _ _ D), Hw; cbn; lia|]. exists j, v. split; [done|]. eapply (holder_steps _ _ Hok); [done|done|]. by rewrite Hv.
            - destruct (sum_flags_pos rx_reading (threads c')) as (j & v & Hj & Hv); [rewrite (r_r _ _ _ _ D); lia|]. exists j, v. split; [done|]. eapply (holder_steps _ _ Hok); [done|done|]. by rewrite Hv, orb_true_r. }
          destruct Hst as (j & v & Hj & Hv). destruct (rx_tstep (shared c') v) as [[s' v']|] eqn:Es; [|done].
          assert (Htj : exists w, threads c !! j = Some w /\ ci_rx (at_in KUniform w) = bare v).
          { apply (f_equal (fun l => l !! j)) in Eth. rewrite !list_lookup_fmap, Hj in Eth. destruct (threads c !! j) as [w|]; [|done]. exists w. split; [done|]. by injection Eth as Eth. }
          destruct Htj as (w & Hw & Ew). exists j, w. split; [done|]. rewrite Eo in Ho. pose proof (bare_sim (shared c') v) as B. rewrite Es in B. unfold rx_bare_step in B.
          destruct (rx_tstep (bare_shared (shared c')) (bare v)) as [[s2 v2]|] eqn:E2; [|done].
          eapply inside_steps; [done|done|exact Ho|]. cbn [cobj_step]. rewrite Ew, E2. reflexivity. }
        assert (Hka : k ∈ [KOne; KFive; KFifteen]) by (destruct k; try discriminate Ek; try done; set_solver).
        destruct (average_run _ _ _ _ _ _ _ _ _ _ _ _ Hc Hka Ho) as (s & tr & -> & Hr).
        assert (Hparts' : bc_rest ot /\ dx_rest ot /\ rx_rest ot) by (destruct k; try discriminate Ek; done).
        assert (HP : Forall (Forall (fun x => exists n, x = ETickN n)) ((fun t => tickns (calls k t)) <$> threads c)).
        { apply Forall_fmap, Forall_lookup. intros j u _. cbn. unfold tickns. apply Forall_forall. intros x Hx. apply elem_of_list_omap in Hx as (a & _ & Ha). destruct a; try done. injection Ha as <-. eauto. }
        pose proof (tickn_got f0 0 _ tr HP) as G. pose proof (ewma_conc_progress f0 0 ((fun t => tickns (calls k t)) <$> threads c) tr) as P. cbv zeta in P. rewrite Hr in P, G. cbn [shared threads] in P, G.
        destruct P as (j & u & s' & t' & Hj & Hs).
        -- intros Hd. rewrite Forall_lookup in Hd, G. assert (Hl : ((fun t => ci_ew (at_in k t)) <$> threads c) !! i = Some (ci_ew ot)) by (by rewrite list_lookup_fmap, Hi, <- Hat).
           specialize (Hd i _ Hl). specialize (G i _ Hl). destruct Hd as [F1 F2]. destruct Hparts' as (P1 & P2 & P3). unfold bc_rest, dx_rest, rx_rest in P1, P2, P3. destruct ot as [b1 [todo pc got] d1 r1]. cbn in *. subst. done.
        -- rewrite list_lookup_fmap in Hj. destruct (threads c !! j) as [v|] eqn:Ev; [|done]. injection Hj as <-. exists j, v. split; [done|].
           eapply inside_steps; [done|done|exact Ho|]. cbn [cobj_step]. rewrite Hs. reflexivity.
Qed.
End fine.
