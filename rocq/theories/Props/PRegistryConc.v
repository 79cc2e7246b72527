(** C63, C66, C86: registry and manager used by any number of goroutines. *)
From Verif.Go Require Import GoInt GoConc.
From Verif.Model Require Import Config Registry RegistryConc.
From Verif.Spec Require Import NameSpec RegistrySpec RegistryConcSpec.
From Verif.Proofs Require Import RegistryProofs RegistryConcProofs RegistryLimit RegistryConcMore.
Local Open Scope Z_scope.

Lemma got_found (strict : Prop) maxs progs sched op x :
  (strict -> Forall (Forall (fun o => o <> GSetEnable false)) progs) ->
  completed (r_crun maxs progs sched) op x -> got_ok strict (shared (r_crun maxs progs sched)) (op, x).
Proof.
  intros Hs (i & t & Hi & Hin). destruct (cinv_run maxs progs sched strict Hs) as [I _].
  destruct (I i t Hi) as (_ & HF & _). rewrite Forall_forall in HF. by apply HF.
Qed.
Lemma found_entry c r k nm m : found (shared c) r k nm (Some (Ok m)) ->
  listed c r (nm_hash nm) m.
Proof.
  intros (e & He & Hx). unfold assert_kind in Hx. destruct (implements k (e_metric e)); [|done].
  injection Hx as ->. unfold entry_at in He. destruct (rs_regs (shared c) !! r) as [reg|] eqn:E; [|done].
  exists reg, e. done.
Qed.

(** C63.  At any moment of any execution, all lookups of one registry under one
    hash key that have returned a metric returned the same one, and it is the one
    GetMetrics lists under that key; it stays listed for ever. *)
Theorem C63_one_metric : forall maxs progs sched r k k' nm nm' m m',
  let c := r_crun maxs progs sched in
  completed c (RLookup r k nm) (Some (Ok m)) -> completed c (RLookup r k' nm') (Some (Ok m')) ->
  nm_hash nm = nm_hash nm' -> m = m'.
Proof.
  intros maxs progs sched r k k' nm nm' m m'. cbv zeta. intros H1 H2 Hh.
  apply (got_found False) in H1; [|done]. apply (got_found False) in H2; [|done]. cbn [got_ok] in H1, H2.
  apply found_entry in H1 as (reg & e & R1 & E1 & <-). apply found_entry in H2 as (reg' & e' & R2 & E2 & <-).
  rewrite Hh in E1. congruence.
Qed.
Print Assumptions C63_one_metric.

Theorem C63_listed_forever : forall maxs progs sched later r k nm m,
  completed (r_crun maxs progs sched) (RLookup r k nm) (Some (Ok m)) ->
  listed (r_crun maxs progs (sched ++ later)) r (nm_hash nm) m.
Proof.
  intros maxs progs sched later r k nm m H. apply (got_found False) in H; [|done]. cbn [got_ok] in H.
  apply (found_entry (r_crun maxs progs (sched ++ later)) r k). unfold r_crun in *. rewrite crun_app.
  eapply found_mono; [apply crun_le|done].
Qed.
Print Assumptions C63_listed_forever.

(** Every started lookup can always take its next step: nobody waits. *)
Theorem C63_never_waits : forall maxs progs sched i t,
  Forall (Forall (fun o => match o with RLookup r _ _ => (r < length maxs)%nat | _ => True end)) progs ->
  let c := r_crun maxs progs sched in
  threads c !! i = Some t -> rt_todo t <> [] -> exists x, rstep (shared c) t = Some x.
Proof. exact rstep_progress. Qed.
Print Assumptions C63_never_waits.

Definition sch (l : list nat) : list (event Empty_set) := Run <$> l.
Definition na := NameRef "a" 0.
Definition nb := NameRef "b" 0.
Definition nc := NameRef "c" 0.
(* both goroutines miss, create, and race to store *)
Example C63_case :
  rt_got <$> threads (r_crun [10] [[RLookup 0 KFastCompass na]; [RLookup 0 KFastCompass na]]
    (sch [0; 1; 0; 1; 0; 1; 0; 1; 1; 0; 1; 0]%nat)) =
  [[(RLookup 0 KFastCompass na, Some (Ok (MFastCompass 1 1000000000 10 20)))];
   [(RLookup 0 KFastCompass na, Some (Ok (MFastCompass 1 1000000000 10 20)))]].
Proof. vm_compute. reflexivity. Qed.

(** C66 is false: two goroutines can pass a limit of one. *)
Definition C66_two : list (event Empty_set) :=
  [Run 0; Run 1; Run 0; Run 1; Run 0; Run 1; Run 0; Run 1; Run 0; Run 1; Run 0; Run 1]%nat.
Theorem C66_limit_refuted : exists maxs progs sched max reg,
  maxs !! 0%nat = Some max /\ rs_regs (shared (r_crun maxs progs sched)) !! 0%nat = Some reg /\
  max < recording_entries (reg_GetMetrics reg).
Proof.
  exists [1], [[RLookup 0 KFastCompass na]; [RLookup 0 KFastCompass nb]], C66_two, 1.
  assert (exists reg, rs_regs (shared (r_crun [1] [[RLookup 0 KFastCompass na]; [RLookup 0 KFastCompass nb]] C66_two)) !! 0%nat = Some reg)
    as [reg Hr] by (vm_compute; eexists; reflexivity).
  exists reg. split; [done|]. split; [done|].
  assert (option_map (fun reg => recording_entries (reg_GetMetrics reg))
    (rs_regs (shared (r_crun [1] [[RLookup 0 KFastCompass na]; [RLookup 0 KFastCompass nb]] C66_two)) !! 0%nat) = Some 2) as E
    by (vm_compute; reflexivity).
  rewrite Hr in E. cbn [option_map] in E. injection E as ->. lia.
Qed.
Print Assumptions C66_limit_refuted.

(** What holds: with G goroutines at most max + G - 1 recording metrics are
    registered (none when max <= 0), for the directly used registries and, with
    limit 5000, for every group of a manager; given fewer than 2^31 calls.
    (Missing: the bound max.) *)
Theorem C66_limit_partial : forall maxs progs sched,
  let c := r_crun maxs progs sched in
  let bound max := if decide (max <= 0) then 0 else max + Z.of_nat (length progs) - 1 in
  calls progs < 2 ^ 31 ->
  (forall r max reg, maxs !! r = Some max -> rs_regs (shared c) !! r = Some reg ->
     recording_entries (reg_GetMetrics reg) <= bound max) /\
  (forall g r reg, rs_groups (shared c) !! g = Some r -> rs_regs (shared c) !! r = Some reg ->
     recording_entries (reg_GetMetrics reg) <= bound 5000).
Proof.
  intros maxs progs sched. cbv zeta. intros Ht.
  pose proof (groups_run maxs progs sched) as (G1 & _ & G3 & _). split.
  - intros r max reg Hm Hr. pose proof (limit_conc maxs progs sched r reg Ht Hr) as L.
    rewrite (G3 r reg Hr), Hm in L. exact L.
  - intros g r reg Hg Hr. pose proof (limit_conc maxs progs sched r reg Ht Hr) as L.
    pose proof (G1 _ _ Hg). rewrite (G3 r reg Hr), lookup_ge_None_2 in L by lia. exact L.
Qed.
Print Assumptions C66_limit_partial.
(* the bound is reached: 3 goroutines, max 1 *)
Example C66_case :
  let c := r_crun [1] [[RLookup 0 KFastCompass na]; [RLookup 0 KFastCompass nb]; [RLookup 0 KCompass nc]]
    (sch [0; 1; 2; 0; 1; 2; 0; 1; 2; 0; 1; 2; 0; 1; 2]%nat) in
  (fun reg => recording_entries (reg_GetMetrics reg)) <$> rs_regs (shared c) = [3].
Proof. vm_compute. reflexivity. Qed.

(** C86.  Manager lookups: same group and hash key, same metric - the identical
    one if nobody disables the manager, otherwise possibly the no-op metric. *)
Theorem C86_same_group : forall maxs progs sched g k k' nm nm' m m',
  let c := r_crun maxs progs sched in
  completed c (GLookup g k nm) (Some (Ok m)) -> completed c (GLookup g k' nm') (Some (Ok m')) ->
  nm_hash nm = nm_hash nm' ->
  (Forall (Forall (fun o => o <> GSetEnable false)) progs -> m = m') /\
  (records m = true -> records m' = true -> m = m').
Proof.
  intros maxs progs sched g k k' nm nm' m m'. cbv zeta. intros H1 H2 Hh.
  assert (forall (strict : Prop), (strict -> Forall (Forall (fun o => o <> GSetEnable false)) progs) ->
     strict \/ (records m = true /\ records m' = true) -> m = m') as Hall.
  { intros strict Hs Hor. apply (got_found strict) in H1; [|done]. apply (got_found strict) in H2; [|done].
    cbn [got_ok] in H1, H2.
    destruct H1 as [[N1 R1]|(r1 & G1 & F1)].
    { destruct Hor as [?|[Hr _]]; [done|]. injection R1 as ->. by destruct k. }
    destruct H2 as [[N2 R2]|(r2 & G2 & F2)].
    { destruct Hor as [?|[_ Hr]]; [done|]. injection R2 as ->. by destruct k'. }
    apply found_entry in F1 as (reg & e & Q1 & E1 & <-). apply found_entry in F2 as (reg' & e' & Q2 & E2 & <-).
    rewrite Hh in E1. congruence. }
  split.
  - intros HF. apply (Hall True); [done|by left].
  - intros R1 R2. apply (Hall False); [done|by right].
Qed.
Print Assumptions C86_same_group.

(** A recording metric is never shared between two hash keys, two groups, or a
    group and a directly used registry. *)
Theorem C86_no_sharing : forall maxs progs sched op op' m,
  let c := r_crun maxs progs sched in
  completed c op (Some (Ok m)) -> completed c op' (Some (Ok m)) -> records m = true ->
  Forall (Forall (fun o => match o with RLookup r _ _ => (r < length maxs)%nat | _ => True end)) progs ->
  place op = place op'.
Proof.
  intros maxs progs sched op op' m. cbv zeta. intros H1 H2 Hr HF.
  pose proof (refs_run maxs progs sched) as [_ R]. pose proof (groups_run maxs progs sched) as (G1 & G2 & _ & _).
  assert (exists ref, mref m = Some ref) as [ref Href] by (destruct m; cbn in *; eauto; done).
  set (c := r_crun maxs progs sched) in *.
  assert (forall op, completed c op (Some (Ok m)) ->
    match op with
    | RLookup r k nm => owns c (OEntry r (nm_hash nm)) ref /\ (r < length maxs)%nat
    | GLookup g k nm => exists r, rs_groups (shared c) !! g = Some r /\ owns c (OEntry r (nm_hash nm)) ref
    | GSetEnable _ => False
    end) as Hown.
  { intros o Ho. pose proof (completed_prog _ _ _ _ _ Ho) as (p & Hp & Hin).
    rewrite Forall_forall in HF. specialize (HF _ Hp). rewrite Forall_forall in HF. specialize (HF _ Hin).
    apply (got_found False) in Ho; [|done]. fold c in Ho.
    assert (forall r k nm, found (shared c) r k nm (Some (Ok m)) -> owns c (OEntry r (nm_hash nm)) ref) as Hf.
    { intros r k nm (e & He & Hx). exists e. split; [done|]. unfold assert_kind in Hx.
      destruct (implements k (e_metric e)); [|done]. by injection Hx as <-. }
    destruct o as [r k nm|g k nm|b]; cbn [got_ok] in Ho.
    - split; [by eapply Hf|done].
    - destruct Ho as [[_ Hx]|(r & Hg & Hx)]; [injection Hx as ->; by destruct k|]. exists r. split; [done|by eapply Hf].
    - done. }
  apply Hown in H1, H2.
  destruct op as [r k nm|g k nm|b], op' as [r' k' nm'|g' k' nm'|b']; cbn [place]; try done.
  - destruct H1 as [H1 _], H2 as [H2 _]. pose proof (R _ _ _ H1 H2) as E. injection E as -> ->. done.
  - destruct H1 as [H1 L], H2 as (r2 & Hg & H2). pose proof (R _ _ _ H1 H2) as E. injection E as -> _. apply G1 in Hg. lia.
  - destruct H2 as [H2 L], H1 as (r2 & Hg & H1). pose proof (R _ _ _ H1 H2) as E. injection E as -> _. apply G1 in Hg. lia.
  - destruct H1 as (r1 & Hg1 & H1), H2 as (r2 & Hg2 & H2). pose proof (R _ _ _ H1 H2) as E. injection E as -> E2.
    rewrite E2. by rewrite (G2 _ _ _ Hg1 Hg2).
Qed.
Print Assumptions C86_no_sharing.
Example C86_case :
  rt_got <$> threads (r_crun [] [[GLookup "g" KFastCompass na]; [GLookup "g" KFastCompass na]; [GSetEnable false; GLookup "g" KFastCompass na]]
    (sch [0; 1; 0; 1; 1; 0; 0; 1; 0; 1; 2; 0; 2; 1; 0; 1; 0; 1]%nat)) =
  [[(GLookup "g" KFastCompass na, Some (Ok (MFastCompass 0 1000000000 10 20)))];
   [(GLookup "g" KFastCompass na, Some (Ok (MFastCompass 0 1000000000 10 20)))];
   [(GSetEnable false, None); (GLookup "g" KFastCompass na, Some (Ok MNopFastCompass))]].
Proof. vm_compute. reflexivity. Qed.
