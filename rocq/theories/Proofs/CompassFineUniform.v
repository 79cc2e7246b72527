(** A compass with all its objects: its uniform reservoir as a run of its own model. *)
From Verif.Go Require Import GoInt GoFloat GoConc GoCompose.
From Verif.Model Require Import Counter BucketQueue BucketCounter BucketCounterConc EWMA EWMAConc WeightedSnapshot DecayingReservoir DecayingConc UniformReservoir ReservoirConc Compass CompassConc CompassFine.
From Verif.Spec Require Import BucketSpec ReservoirSpec ReservoirConcSpec CompassConcSpec CompassFineSpec.
From Verif.Proofs Require Import BucketHist DecayingConcProofs DecayingConcMore ReservoirConcProofs ComposeProofs CompassConcProofs CompassFineProofs CompassFineParts.
Local Open Scope Z_scope.

Definition bare_shared (s : rx_shared) : rx_shared :=
  RxShared (rs_rsv s) (rs_writer s) (rs_readers s) ((fun e => (0%nat, e.1.2, e.2)) <$> rs_log s).

Lemma bare_sim s t : rx_bare_step (bare_shared s) (bare t) = match rx_tstep s t with Some (s', t') => Some (bare_shared s', bare t') | None => None end.
Proof.
  destruct s as [u w n log]. destruct t as [id todo pc got]. unfold rx_bare_step, rx_tstep, bare_shared, bare. cbn [rx_id rx_todo rx_pc rx_got rs_rsv rs_writer rs_readers rs_log]. cbv zeta.
  destruct pc; try reflexivity.
  all: try (rewrite ?fmap_app; reflexivity).
  all: repeat (match goal with |- context [match ?x with _ => _ end] => lazymatch x with context [match _ with _ => _ end] => fail | _ => destruct x end end; try reflexivity).
  all: cbn [rs_log rs_rsv rs_writer rs_readers]; rewrite fmap_app; reflexivity.
Qed.

Lemma bare_run cap progs (tr : list (event cenv)) c0 c : esteps rx_bare_step (fun s (_ : cenv) => s) c0 tr c ->
  c0 = Config (RxShared (UniformReservoir 0 (replicate (Z.to_nat cap) 0)) false 0 []) ((fun p => RxThread 0 p RIdle []) <$> progs) ->
  exists tr', bare_shared (shared (rx_run cap progs tr')) = shared c /\ bare <$> threads (rx_run cap progs tr') = threads c.
Proof.
  induction 1 as [|tr s ts i t s' t' _ IH Hi Hs|tr s ts e _ IH]; intros Hc.
  - subst. exists []. split; [reflexivity|]. unfold rx_run, rx_init. cbn [crun fold_left threads]. apply list_eq. intros i. rewrite !list_lookup_fmap, list_lookup_imap. by destruct (progs !! i).
  - destruct (IH Hc) as (tr' & E1 & E2). cbn [shared threads] in E1, E2. exists (tr' ++ [Run i]). unfold rx_run in *. rewrite crun_snoc. destruct (crun _ _ _ tr') as [s1 ts1]. cbn [shared threads cstep] in *.
    subst s ts. rewrite list_lookup_fmap in Hi. destruct (ts1 !! i) as [t1|] eqn:Et; [|done]. injection Hi as <-. rewrite bare_sim in Hs. destruct (rx_tstep s1 t1) as [[s2 t2]|]; [|done]. injection Hs as <- <-.
    cbn [shared threads]. split; [done|]. by rewrite list_fmap_insert.
  - exact (IH Hc).
Qed.

Section fine.
Context (math_Exp : f64 -> f64) (I N maxE maxA : Z) (rk : reservoir_kind).
Notation effect_of := (cf_effect rk I N).
Notation gs := (gstep (cp_tstep I maxE maxA) cs_crashed effect_of (cobj_step math_Exp) cin_idle cin_push cin_returned).
Notation cf := (cf_run math_Exp rk I N maxE maxA).

Lemma step_draws s t e v ds : cf_effect rk I N s t e = Some (Invoke KUniform (CDraw v ds)) -> ds = ce_draws e.
Proof.
  unfold cf_effect. destruct (kt_pc t) as [|k0|old k0|old new k0|n k0|n count k0|n count k0|n count k0|n count k0|d r0|d r0|d r0|r0|w r0|w r0|w r0|w r0|w r0|w p r0|w [p|] r0|w n]; try done.
  - destruct rk; [done..|]. by intros [= -> ->]. - by destruct (rs_success r0). - by destruct (new_counter _ _ _).
Qed.

Lemma uniform_run cap e0 progs sched c o : rk = RUniform cap -> cf e0 progs sched = Some c -> gs_objs (shared c) !! KUniform = Some o ->
  exists tr, let c' := rx_run cap ((fun t => draws_of (calls KUniform t)) <$> threads c) tr in
    o = OUniform (bare_shared (shared c')) /\ bare <$> threads c' = (fun t => ci_rx (at_in KUniform t)) <$> threads c.
Proof.
  intros Hrk Hc Ho. destruct (cf_started _ _ _ _ _ _ _ _ _ _ Hc) as [objs0 H0]. pose proof (cf_seen _ _ _ _ _ _ _ _ _ _ _ H0 Hc) as Sn.
  destruct (sn_some _ _ _ _ _ _ _ _ _ Sn KUniform o Ho) as (o0 & tr & Hor & Hst). destruct (origin_other _ _ _ _ _ _ KUniform _ _ H0 eq_refl Hor) as [Esh Eo]. rewrite Hrk in Eo. subst o0.
  destruct (uniform_part _ _ _ _ Hst _ _ eq_refl) as (s & Es & Hs). cbn [shared threads] in Es, Hs.
  destruct (bare_run cap ((fun t => draws_of (calls KUniform t)) <$> threads c) _ _ _ Hs) as (tr' & E1 & E2).
  - f_equal. rewrite !fmap_fmap. apply list_fmap_ext. intros i t _. cbn. by rewrite with_calls_parts.
  - exists tr'. cbv zeta. cbn [shared threads] in E1, E2. rewrite E1, E2. split; [done|]. by rewrite fmap_fmap.
Qed.
End fine.
