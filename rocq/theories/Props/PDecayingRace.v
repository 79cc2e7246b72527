(** Data races on an exponentially decaying reservoir (C107). *)
From Verif.Go Require Import GoInt GoFloat GoConc.
From Verif.Model Require Import WeightedSnapshot DecayingReservoir DecayingConc.
From Verif.Spec Require Import BucketSpec DecayingSpec DecayingConcSpec RaceSpec DecayingRaceSpec.
From Verif.Proofs Require Import BucketHist DecayingConcProofs DecayingConcMore RaceLemmas.
Local Open Scope Z_scope.

Section table.
Context (math_Exp : f64 -> f64).

Lemma insert_frame rsv p v w rsv' : ed_insert rsv p v w = Ok rsv' ->
  ed_nextScaleTime rsv' = ed_nextScaleTime rsv /\ ed_startTime rsv' = ed_startTime rsv /\
  ed_alpha rsv' = ed_alpha rsv /\ ed_size rsv' = ed_size rsv.
Proof.
  unfold ed_insert. cbv zeta. destruct (_ <=? _); [intros [= <-]; done|].
  destruct (ed_GetValues _) as [|f l]; [done|]. destruct (fle _ _); [intros [= <-]; done|].
  destruct (sk_Get _ _); intros [= <-]; done.
Qed.

Lemma rescale_frame rsv f :
  ed_nextScaleTime (ed_rescale_body rsv f) = ed_nextScaleTime rsv /\
  ed_startTime (ed_rescale_body rsv f) = ed_startTime rsv /\
  ed_alpha (ed_rescale_body rsv f) = ed_alpha rsv /\ ed_size (ed_rescale_body rsv f) = ed_size rsv.
Proof. unfold ed_rescale_body. cbv zeta. by destruct (feq f f0). Qed.

Lemma insert_same r1 r2 p v w :
  ed_values r1 = ed_values r2 -> ed_count r1 = ed_count r2 -> ed_size r1 = ed_size r2 ->
  match ed_insert r1 p v w, ed_insert r2 p v w with
  | Ok x, Ok y => ed_values x = ed_values y /\ ed_count x = ed_count y
  | Panic, Panic => True
  | _, _ => False
  end.
Proof.
  intros H1 H2 H3. unfold ed_insert. cbv zeta. unfold ed_GetValues. cbn. rewrite H1, H2, H3.
  destruct (_ <=? _); [done|]. destruct (sk_Iter _ _) as [|f l]; [done|]. destruct (fle _ _); [by cbn; rewrite ?H1|].
  destruct (sk_Get _ _); by cbn.
Qed.

(** The table of accesses is complete. *)
Theorem C107_table :
  lists_writes dx_next (dx_tstep math_Exp) dx_same /\ lists_reads dx_next (dx_tstep math_Exp) dx_same dx_rest.
Proof.
  split.
  - intros s [todo pc got] s' t' l Hs Hl. unfold dx_tstep, dx_next in *. cbn in Hs, Hl. cbv zeta in Hs.
    assert (Hst : forall l', stores l' ∈ dx_next s (DxThread todo pc got) -> l <> l').
    { intros l' Hin ->. specialize (Hl _ Hin eq_refl). done. }
    assert (Hop : forall l', atomic_op l' ∈ dx_next s (DxThread todo pc got) -> l <> l').
    { intros l' Hin ->. specialize (Hl _ Hin eq_refl). done. }
    clear Hl. unfold dx_next in Hst, Hop. cbn in Hst, Hop.
    destruct pc as [|k|k now|k now|k now nx|k|k|k old ms|k f|v r|v r ms|v r ms land|v r ms land| | |]; try done.
    + destruct todo; [done|]. injection Hs as <- <-. by destruct l.
    + injection Hs as <- <-. by destruct l.
    + injection Hs as <- <-. by destruct l.
    + injection Hs as <- <-. by destruct l.
    + specialize (Hop VNextScale ltac:(left)). destruct (_ =? _); injection Hs as <- <-; by destruct l.
    + destruct (_ || _); [done|]. injection Hs as <- <-. by destruct l.
    + injection Hs as <- <-. by destruct l.
    + specialize (Hst VStartTime ltac:(left)). injection Hs as <- <-. by destruct l.
    + specialize (Hst VSamples ltac:(right; left)). injection Hs as <- <-.
      destruct (rescale_frame (ds_rsv s) f) as (R1 & R2 & _). destruct l; [unfold dx_same; cbn; congruence..|done].
    + injection Hs as <- <-. by destruct l.
    + injection Hs as <- <-. by destruct l.
    + destruct (_ || _); [done|]. injection Hs as <- <-. by destruct l.
    + specialize (Hst VSamples ltac:(right; left)). destruct (ed_insert _ _ _ _) as [rsv'|] eqn:E; injection Hs as <- <-.
      * destruct (insert_frame _ _ _ _ _ E) as (R1 & R2 & _). destruct l; [unfold dx_same; cbn; congruence..|done].
      * by destruct l.
    + destruct (ds_writer s); [done|]. injection Hs as <- <-. by destruct l.
    + injection Hs as <- <-. by destruct l.
  - intros [[vs1 al1 sz1 ct1 st1 nx1] w1 rd1 ms1 tk1 lg1] [[vs2 al2 sz2 ct2 st2 nx2] w2 rd2 ms2 tk2 lg2] [todo pc got] HR Hs.
    destruct HR as (R1 & R2 & R3 & R4 & R5 & R6). cbn in R1, R2, R3, R4, R5, R6. subst w2 rd2 ms2 tk2 al2 sz2.
    unfold dx_next in Hs |- *. cbn in Hs |- *.
    assert (Hone : forall (P : access dx_var -> Prop) a, P a -> forall x, x ∈ [a] -> P x) by (intros P a Ha x ->%elem_of_list_singleton; done).
    assert (Htwo : forall (P : access dx_var -> Prop) a b, P a -> P b -> forall x, x ∈ [a; b] -> P x).
    { intros P a b Ha Hb x Hx. apply elem_of_cons in Hx as [->| ->%elem_of_list_singleton]; done. }
    assert (Hnil : forall (P : access dx_var -> Prop), forall x, x ∈ [] -> P x) by (intros P x []%elem_of_nil).
    unfold dx_tstep. cbn. cbv zeta.
    destruct pc as [|k|k now|k now|k now nx|k|k|k old ms|k f|v r|v r ms|v r ms land|v r ms land| | |].
    all: try (pose proof (Hs _ (elem_of_list_here _ _)) as H1; cbn in H1).
    1: destruct todo; [done|].
    all: try subst nx2; try subst st2.
    all: try (destruct H1 as [<- <-]).
    all: try (destruct (_ =? _)); try (destruct (_ || _)); try (destruct (feq f f0) eqn:Ef; unfold ed_rescale_body; rewrite Ef; cbn); try (destruct w1; [done|]; cbn).
    all: cbn; try (split_and!; try done; first [refine (Hnil _) | refine (Hone _ _ _); done | refine (Htwo _ _ _ _ _); done]).
    all: try done.
    change (dx_weight math_Exp (EDR vs1 al1 sz1 ct1 st2 nx2) land ms) with (dx_weight math_Exp (EDR vs1 al1 sz1 ct1 st1 nx1) land ms).
    set (w := dx_weight math_Exp _ land ms).
    pose proof (insert_same (EDR vs1 al1 sz1 ct1 st1 nx1) (EDR vs1 al1 sz1 ct1 st2 nx2) (ed_priority w r) v w eq_refl eq_refl eq_refl) as Hi.
    destruct (ed_insert (EDR vs1 al1 sz1 ct1 st1 nx1) _ _ _) as [x|] eqn:E1, (ed_insert (EDR vs1 al1 sz1 ct1 st2 nx2) _ _ _) as [y|] eqn:E2; try done.
    + apply insert_frame in E1 as (_ & _ & A1 & B1). apply insert_frame in E2 as (_ & _ & A2 & B2). cbn in A1, B1, A2, B2.
      split; [done|]. split; [unfold dx_rest; cbn; split_and!; congruence|]. (refine (Htwo _ _ _ _ _); done).
Qed.
End table.
Print Assumptions C107_table.

(** The lock: at most one goroutine inside for writing, and then none for reading. *)
Record dlock (c : config dx_shared dxthread) : Prop := {
  dl_w : sumZ ((fun t => b2Z (in_write (dx_pc t))) <$> threads c) = b2Z (ds_writer (shared c));
  dl_r : sumZ ((fun t => b2Z (in_read (dx_pc t))) <$> threads c) = Z.of_nat (ds_readers (shared c));
  dl_x : ds_writer (shared c) = true -> ds_readers (shared c) = 0%nat }.

Ltac ff := cbn [in_write in_read b2Z ds_writer ds_readers set_lock set_rsv logged ds_rsv dx_pc] in *.
Lemma after_flags k : in_write (dx_after k) = false /\ in_read (dx_after k) = false.
Proof. by destruct k. Qed.

Lemma dlock_run math_Exp size alpha ms0 tick0 progs sched : dlock (dx_crun math_Exp size alpha ms0 tick0 progs sched).
Proof.
  apply (crun_inv (dx_tstep math_Exp) dx_estep dlock).
  - assert (Hz : forall f : dxthread -> Z, (forall p, f (DxThread p XIdle []) = 0) -> sumZ (f <$> ((fun p => DxThread p XIdle []) <$> progs)) = 0).
    { intros f Hf. induction progs as [|p ps IH]; [done|]. rewrite !fmap_cons, sumZ_cons, Hf, IH. done. }
    constructor; cbn; [by rewrite Hz|by rewrite Hz|done].
  - intros s ts i [todo pc got] s' t' [W R X] Hi Hs. cbn [shared threads] in W, R, X. unfold dx_tstep in Hs. cbn in Hs. cbv zeta in Hs.
    assert (Hsum : forall pc' s', sumZ ((fun t => b2Z (in_write (dx_pc t))) <$> ts) - b2Z (in_write pc) + b2Z (in_write pc') = b2Z (ds_writer s') ->
        sumZ ((fun t => b2Z (in_read (dx_pc t))) <$> ts) - b2Z (in_read pc) + b2Z (in_read pc') = Z.of_nat (ds_readers s') ->
        (ds_writer s' = true -> ds_readers s' = 0%nat) ->
        forall td gt, dlock (Config s' (<[i := DxThread td pc' gt]> ts))).
    { intros pc' s'' H1 H2 H3 td gt. constructor; cbn [shared threads]; [| |done].
      - rewrite (sumZ_insert (fun t => b2Z (in_write (dx_pc t))) _ _ _ _ Hi). done.
      - rewrite (sumZ_insert (fun t => b2Z (in_read (dx_pc t))) _ _ _ _ Hi). done. }
    pose proof (sum_flags_nonneg (fun t => in_write (dx_pc t)) ts) as NW. cbv beta in NW.
    pose proof (sum_flags_nonneg (fun t => in_read (dx_pc t)) ts) as NR. cbv beta in NR.
    assert (Hon : in_write pc = true -> ds_writer s = true).
    { intros Hp. pose proof (sum_flags_one (fun t => in_write (dx_pc t)) ts i _ Hi Hp) as H. cbv beta in H. rewrite W in H.
      destruct (ds_writer s); [done|cbn in H; lia]. }
    assert (Hrd : in_read pc = true -> (1 <= ds_readers s)%nat).
    { intros Hp. pose proof (sum_flags_one (fun t => in_read (dx_pc t)) ts i _ Hi Hp) as H. cbv beta in H. rewrite R in H. lia. }
    destruct pc as [|k|k now|k now|k now nx|k|k|k old ms|k f|v r|v r ms|v r ms land|v r ms land| | |]; try done; ff.
    + destruct todo; [done|]. injection Hs as <- <-. apply Hsum; ff; [lia..|done].
    + injection Hs as <- <-. apply Hsum; ff; [lia..|done].
    + injection Hs as <- <-. destruct (after_flags k) as [F1 F2]. destruct (_ <=? _); apply Hsum; rewrite ?F1, ?F2; ff; try lia; done.
    + injection Hs as <- <-. apply Hsum; ff; [lia..|done].
    + destruct (after_flags k) as [F1 F2]. destruct (_ =? _); injection Hs as <- <-; apply Hsum; rewrite ?F1, ?F2; ff; try lia; done.
    + destruct (ds_writer s) eqn:Ew; [done|]. destruct (ds_readers s) eqn:Er; [|done]. injection Hs as <- <-.
      apply Hsum; ff; [lia..|done].
    + injection Hs as <- <-. apply Hsum; ff; [lia..|done].
    + injection Hs as <- <-. apply Hsum; ff; [lia..|done].
    + injection Hs as <- <-. destruct (after_flags k) as [F1 F2]. specialize (Hon eq_refl). specialize (X Hon). rewrite Hon in W.
      apply Hsum; rewrite ?F1, ?F2; ff; try lia; done.
    + injection Hs as <- <-. apply Hsum; ff; [lia..|done].
    + injection Hs as <- <-. apply Hsum; ff; [lia..|done].
    + destruct (ds_writer s) eqn:Ew; [done|]. destruct (ds_readers s) eqn:Er; [|done]. injection Hs as <- <-.
      apply Hsum; ff; [lia..|done].
    + specialize (Hon eq_refl). specialize (X Hon). rewrite Hon in W.
      destruct (ed_insert _ _ _ _); injection Hs as <- <-; apply Hsum; ff; try lia; done.
    + destruct (ds_writer s) eqn:Ew; [done|]. injection Hs as <- <-. apply Hsum; ff; [lia..|done].
    + injection Hs as <- <-. specialize (Hrd eq_refl). apply Hsum; cbn [in_write in_read b2Z set_lock ds_writer ds_readers]; [lia..|].
      intros Hw. rewrite (X Hw) in Hrd. lia.
  - intros s ts e [W R X]. by constructor.
Qed.

Lemma dlock_excl c i j t u : dlock c -> i <> j -> threads c !! i = Some t -> threads c !! j = Some u ->
  in_write (dx_pc t) = true -> in_write (dx_pc u) = false /\ in_read (dx_pc u) = false.
Proof.
  intros [W R X] Hne Hi Hj Ht.
  assert (Hw : ds_writer (shared c) = true).
  { pose proof (sum_flags_one (fun t => in_write (dx_pc t)) _ i _ Hi Ht) as H. cbv beta in H. rewrite W in H.
    destruct (ds_writer (shared c)); [done|cbn in H; lia]. }
  split; apply not_true_is_false; intros Hu.
  - pose proof (sum_flags_two (fun t => in_write (dx_pc t)) _ i j _ _ Hne Hi Hj Ht Hu) as H. cbv beta in H.
    rewrite W, Hw in H. cbn in H. lia.
  - pose proof (sum_flags_one (fun t => in_read (dx_pc t)) _ j _ Hj Hu) as H. cbv beta in H. rewrite R, (X Hw) in H. lia.
Qed.

(** C107 (what is missing: nextScaleTime and startTime, see [C107_refuted]): the samples are
    never raced on, whatever the clock does; and as long as no rescale is due, nothing is. *)
Theorem C107_samples_partial math_Exp size alpha ms0 tick0 progs sched :
  ~ data_race_on dx_next VSamples (dx_crun math_Exp size alpha ms0 tick0 progs sched).
Proof.
  intros (i & j & ti & tj & a & b & Hne & Hi & Hj & Ha & Hb & La & Lb & Hw & _)%race_sym.
  pose proof (dlock_run math_Exp size alpha ms0 tick0 progs sched) as D.
  assert (Ht : in_write (dx_pc ti) = true).
  { unfold dx_next in Ha. destruct (dx_pc ti); try (by apply elem_of_nil in Ha); try done;
      apply elem_of_list_singleton in Ha as ->; done. }
  destruct (dlock_excl _ _ _ _ _ D Hne Hi Hj Ht) as [E1 E2].
  unfold dx_next in Hb. destruct (dx_pc tj); try (by apply elem_of_nil in Hb); try done;
      apply elem_of_list_singleton in Hb as ->; done.
Qed.
Print Assumptions C107_samples_partial.

(** Before a rescale is due nobody gets past the comparison. *)
Definition dx_quiet (pc : dxpc) : bool :=
  match pc with XNext _ _ | XCas _ _ _ | XLock _ | XClock _ | XStart _ _ _ | XScale _ _ => false | _ => true end.

Lemma quiet_run math_Exp size alpha ms0 tick0 progs sched :
  Forall (fun t => t < wrap64 (tick0 + edrRescaleThreshold)) (ticks_shown tick0 sched) ->
  let c := dx_crun math_Exp size alpha ms0 tick0 progs sched in
  ed_nextScaleTime (ds_rsv (shared c)) = wrap64 (tick0 + edrRescaleThreshold) /\
  ds_tick (shared c) < wrap64 (tick0 + edrRescaleThreshold) /\
  forall i t, threads c !! i = Some t -> dx_quiet (dx_pc t) = true /\
    match dx_pc t with XCmp _ now => now < wrap64 (tick0 + edrRescaleThreshold) | _ => True end.
Proof.
  set (T := wrap64 (tick0 + edrRescaleThreshold)). unfold dx_crun.
  induction sched as [|ev sched IH] using rev_ind; intros HT.
  - cbn. unfold ticks_shown in HT. apply Forall_cons in HT as [HT _]. split_and!; [done|done|].
    intros i t Hi. rewrite list_lookup_fmap in Hi. destruct (progs !! i); [|done]. cbn in Hi. injection Hi as <-. done.
  - unfold ticks_shown in HT. rewrite omap_app in HT. apply Forall_cons in HT as [HT0 HT]. apply Forall_app in HT as [HT1 HT2].
    destruct IH as (I1 & I2 & I3); [by constructor|]. cbv zeta. rewrite crun_snoc.
    set (c := crun (dx_tstep math_Exp) dx_estep (dx_init size alpha ms0 tick0 progs) sched) in *.
    destruct ev as [i|[ms tk]]; cbn [cstep].
    2:{ cbn. split_and!; [done| |done]. apply Forall_cons in HT2 as [H _]. done. }
    destruct (threads c !! i) as [[todo pc got]|] eqn:Hi; [|done]. destruct (I3 _ _ Hi) as [Q1 Q2]. cbn in Q1, Q2.
    destruct (dx_tstep math_Exp (shared c) _) as [[s' t']|] eqn:Hs; [|done]. cbn [shared threads].
    assert (Hgoal : ed_nextScaleTime (ds_rsv s') = T /\ ds_tick s' = ds_tick (shared c) /\ dx_quiet (dx_pc t') = true /\
        match dx_pc t' with XCmp _ now => now < T | _ => True end).
    2:{ destruct Hgoal as (G1 & G2 & G3 & G4). split_and!; [done|congruence|]. intros j u Hj.
        apply list_lookup_insert_Some in Hj as [(-> & <- & _)|[_ Hj]]; [done|by eapply I3]. }
    assert (HA : forall k, dx_quiet (dx_after k) = true /\ match dx_after k with XCmp _ now => now < T | _ => True end) by (by intros []).
    unfold dx_tstep in Hs. cbn in Hs. cbv zeta in Hs.
    destruct pc as [|k|k now|k now|k now nx|k|k|k old ms|k f|v r|v r ms|v r ms land|v r ms land| | |]; try done.
    + destruct todo; [done|]. injection Hs as <- <-. done.
    + injection Hs as <- <-. done.
    + rewrite I1 in Hs. destruct (Z.leb_spec T now); [lia|]. injection Hs as <- <-. cbn. split_and!; try done; apply HA.
    + injection Hs as <- <-. done.
    + injection Hs as <- <-. done.
    + destruct (_ || _); [done|]. injection Hs as <- <-. done.
    + destruct (ed_insert _ _ _ _) as [x|] eqn:E; injection Hs as <- <-; [|done].
      apply insert_frame in E as (E & _). cbn. split_and!; try done. congruence.
    + destruct (ds_writer _); [done|]. injection Hs as <- <-. done.
    + injection Hs as <- <-. done.
Qed.

Theorem C107_first_hour_partial math_Exp size alpha ms0 tick0 progs sched :
  Forall (fun t => t < wrap64 (tick0 + edrRescaleThreshold)) (ticks_shown tick0 sched) ->
  race_free dx_next (dx_crun math_Exp size alpha ms0 tick0 progs sched).
Proof.
  intros HT l Hr. destruct l; [| |by apply C107_samples_partial in Hr].
  all: apply race_sym in Hr as (i & j & ti & tj & a & b & Hne & Hi & Hj & Ha & Hb & La & Lb & Hw & _).
  all: destruct (quiet_run math_Exp size alpha ms0 tick0 progs sched HT) as (_ & _ & Q); destruct (Q _ _ Hi) as [Qi _].
  all: unfold dx_next in Ha; destruct (dx_pc ti); try (by apply elem_of_nil in Ha); try done.
  all: repeat (apply elem_of_cons in Ha as [->|Ha]; [done|]); by apply elem_of_nil in Ha.
Qed.
Print Assumptions C107_first_hour_partial.

(** C107 is false once a rescale is due: nextScaleTime is loaded without sync/atomic
    (lines 133, 134 against 158) and startTime is loaded without the lock (line 81 against
    line 163). *)
Theorem C107_refuted math_Exp size alpha :
  data_race_on dx_next VNextScale (dx_crun math_Exp size alpha 0 0 [[KSnapshot]; [KSnapshot]]
    [Env (3600000, 3600000000000); Run 0%nat; Run 0%nat; Run 0%nat; Run 0%nat; Run 1%nat; Run 1%nat]) /\
  data_race_on dx_next VStartTime (dx_crun math_Exp size alpha 0 0 [[KUpdate 7 f1]; [KSnapshot]]
    [Run 0%nat; Run 0%nat; Run 0%nat; Run 0%nat; Env (3600000, 3600000000000); Run 1%nat; Run 1%nat; Run 1%nat; Run 1%nat; Run 1%nat; Run 1%nat; Run 1%nat]).
Proof.
  split.
  - apply (race_intro dx_next _ 0 1 (DxThread [] (XCas KSnapshot 3600000000000 3600000000000) [])
      (DxThread [] (XCmp KSnapshot 3600000000000) []) (atomic_op VNextScale) (loads VNextScale));
      try reflexivity; [done|by left|by left].
  - apply (race_intro dx_next _ 1 0 (DxThread [] (XStart KSnapshot 0 3600000) []) (DxThread [] (XLand 7 f1 0) [])
      (stores VStartTime) (loads VStartTime)); try reflexivity; [done|by left|by left].
Qed.
Print Assumptions C107_refuted.

(** The hypothesis of C107_first_hour_partial holds of a run in which the clock moves. *)
Example C107_witness :
  Forall (fun t => t < wrap64 (0 + edrRescaleThreshold)) (ticks_shown 0 [Run 0%nat; Env (3599000, 3599000000000); Run 1%nat; Env (3599999, 3599999999999)]).
Proof. repeat constructor. Qed.
