(** Data races on a counter (C149) and on a manual clock (C150). *)
From Verif.Go Require Import GoInt GoConc GoAtomic.
From Verif.Model Require Import Counter CounterConc ManualClock.
From Verif.Spec Require Import RaceSpec CounterRaceSpec.
From Verif.Proofs Require Import RaceLemmas.
Local Open Scope Z_scope.

(** The table of the counter's accesses is complete. *)
Theorem C149_table :
  lists_writes ctr_next counter_tstep field_same /\ lists_reads ctr_next counter_tstep field_same nothing_else.
Proof.
  split.
  - intros s t s' t' [] Hs Hl. unfold counter_tstep, ctr_next in *.
    destruct (ct_todo t) as [|[o|] todo]; [done|..]; injection Hs as <- <-; [|done].
    specialize (Hl _ (elem_of_list_here _ _) eq_refl). done.
  - intros s1 s2 t _ Hs. unfold counter_tstep, ctr_next in *.
    destruct (ct_todo t) as [|[o|] todo]; [done|..]; specialize (Hs _ (elem_of_list_here _ _)); cbn in Hs; unfold field_same in Hs; subst s2.
    all: split_and!; done.
Qed.
Print Assumptions C149_table.

Lemma ctr_todo_from progs sched i t :
  threads (counter_crun progs sched) !! i = Some t -> exists p, progs !! i = Some p /\ forall k, k ∈ ct_todo t -> k ∈ p.
Proof.
  apply (program_inv counter_tstep (fun s (_ : Empty_set) => s) (fun p t => forall k, k ∈ ct_todo t -> k ∈ p) (fun p => CThread p [])).
  - done.
  - intros p s u s' u' H Hs k Hk. apply H. unfold counter_tstep in Hs.
    destruct (ct_todo u) as [|[o|] todo]; [done|..]; injection Hs as <- <-; cbn in Hk; by right.
Qed.

(** C149 (what is missing: the race of [C149_refuted]).  A data race on a counter needs one
    goroutine that calls GetCount and another that updates. *)
Theorem C149_partial progs sched :
  data_race_on ctr_next TheField (counter_crun progs sched) ->
  exists i j, i <> j /\ some_call progs i is_CGet /\ some_call progs j is_CUpd.
Proof.
  intros (i & j & ti & tj & x & y & Hne & Hi & Hj & Hx & Hy & Lx & Ly & Hw & Hat)%race_sym.
  destruct (ctr_todo_from _ _ _ _ Hi) as (p & Hp & Ip). destruct (ctr_todo_from _ _ _ _ Hj) as (q & Hq & Iq).
  unfold ctr_next in Hx, Hy.
  destruct (ct_todo ti) as [|[o|] todo]; [by apply elem_of_nil in Hx|..]; apply elem_of_list_singleton in Hx as ->; [|done].
  destruct (ct_todo tj) as [|[o'|] todo']; [by apply elem_of_nil in Hy|..]; apply elem_of_list_singleton in Hy as ->; [by destruct Hat|].
  exists j, i. split_and!; [done|exists q, CGet|exists p, (CUpd o)]; split_and!; try done; [apply Iq|apply Ip]; left.
Qed.
Print Assumptions C149_partial.

(** So goroutines that only update have none, and goroutines that only read have none. *)
Theorem C149_only_partial f progs sched :
  f = is_CGet \/ f = is_CUpd -> Forall (Forall (fun k => f k = true)) progs -> race_free ctr_next (counter_crun progs sched).
Proof.
  intros Hf Hp [] Hr. destruct (C149_partial _ _ Hr) as (i & j & _ & (p & k & Hi & Hk & Ek) & (q & k' & Hj & Hk' & Ek')).
  rewrite Forall_lookup in Hp. pose proof (Hp _ _ Hi) as H1. pose proof (Hp _ _ Hj) as H2.
  rewrite Forall_forall in H1, H2. specialize (H1 _ Hk). specialize (H2 _ Hk').
  destruct Hf as [-> | ->]; destruct k, k'; done.
Qed.
Print Assumptions C149_only_partial.

(** C149 is false: GetCount loads the count without sync/atomic (counter_impl.go:42) while
    another goroutine adds to it. *)
Theorem C149_refuted : data_race_on ctr_next TheField (counter_crun [[CGet]; [CUpd CInc]] []).
Proof.
  apply (race_intro ctr_next _ 0 1 (CThread [CGet] []) (CThread [CUpd CInc] []) (loads TheField) (atomic_op TheField));
    try reflexivity; [done|by left|by left].
Qed.
Print Assumptions C149_refuted.

Example C149_witness : Forall (Forall (fun k => is_CUpd k = true)) [[CUpd CInc; CUpd (CIncN 4)]; [CUpd CDec]; [CUpd (CDecN 7)]].
Proof. repeat constructor. Qed.

(** The same for a manual clock. *)
Theorem C150_table :
  lists_writes clk_next (at_step mc_act) field_same /\ lists_reads clk_next (at_step mc_act) field_same nothing_else.
Proof.
  split.
  - intros s t s' t' [] Hs Hl. unfold at_step, clk_next in *.
    destruct (at_todo t) as [|[d| |] todo]; [done|..]; cbn in Hs; injection Hs as <- <-; [|done..].
    specialize (Hl _ (elem_of_list_here _ _) eq_refl). done.
  - intros s1 s2 t _ Hs. unfold at_step, clk_next in *.
    destruct (at_todo t) as [|[d| |] todo]; [done|..]; specialize (Hs _ (elem_of_list_here _ _)); cbn in Hs; unfold field_same in Hs; subst s2.
    all: split_and!; done.
Qed.
Print Assumptions C150_table.

Lemma clk_todo_from s0 progs sched i t :
  threads (at_crun mc_act s0 progs sched) !! i = Some t -> exists p, progs !! i = Some p /\ forall k, k ∈ at_todo t -> k ∈ p.
Proof.
  apply (program_inv (at_step mc_act) (fun s (_ : Empty_set) => s) (fun p t => forall k, k ∈ at_todo t -> k ∈ p) (fun p => AThread p [])).
  - done.
  - intros p s u s' u' H Hs k Hk. apply H. unfold at_step in Hs.
    destruct (at_todo u) as [|o todo]; [done|]. destruct (mc_act s o). injection Hs as <- <-. cbn in Hk. by right.
Qed.

(** C150 (what is missing: the race of [C150_refuted]).  A data race on a manual clock needs
    one goroutine that reads it and another that advances it. *)
Theorem C150_partial s0 progs sched :
  data_race_on clk_next TheField (at_crun mc_act s0 progs sched) ->
  exists i j, i <> j /\ some_call progs i is_MRead /\ some_call progs j is_MAdd.
Proof.
  intros (i & j & ti & tj & x & y & Hne & Hi & Hj & Hx & Hy & Lx & Ly & Hw & Hat)%race_sym.
  destruct (clk_todo_from _ _ _ _ _ Hi) as (p & Hp & Ip). destruct (clk_todo_from _ _ _ _ _ Hj) as (q & Hq & Iq).
  unfold clk_next in Hx, Hy.
  destruct (at_todo ti) as [|o todo]; [by apply elem_of_nil in Hx|].
  assert (o ∈ p) as Ho by (apply Ip; left).
  destruct (at_todo tj) as [|o' todo']; [by apply elem_of_nil in Hy|].
  assert (o' ∈ q) as Ho' by (apply Iq; left).
  destruct o as [d| |]; apply elem_of_list_singleton in Hx as ->; try done.
  exists j, i. split_and!; [done|exists q, o'|exists p, (MAdd d)]; split_and!; try done.
  destruct o'; try done. apply elem_of_list_singleton in Hy as ->. by destruct Hat.
Qed.
Print Assumptions C150_partial.

Theorem C150_only_partial f s0 progs sched :
  f = is_MRead \/ f = is_MAdd -> Forall (Forall (fun k => f k = true)) progs -> race_free clk_next (at_crun mc_act s0 progs sched).
Proof.
  intros Hf Hp [] Hr. destruct (C150_partial _ _ _ Hr) as (i & j & _ & (p & k & Hi & Hk & Ek) & (q & k' & Hj & Hk' & Ek')).
  rewrite Forall_lookup in Hp. pose proof (Hp _ _ Hi) as H1. pose proof (Hp _ _ Hj) as H2.
  rewrite Forall_forall in H1, H2. specialize (H1 _ Hk). specialize (H2 _ Hk').
  destruct Hf as [-> | ->]; destruct k, k'; done.
Qed.
Print Assumptions C150_only_partial.

(** C150 is false: GetTick and GetTime load the tick without sync/atomic and without the
    clock's mutex (manual_clock.go:33, 37) while Add adds to it. *)
Theorem C150_refuted :
  data_race_on clk_next TheField (at_crun mc_act newManualClock [[MGetTick]; [MAdd 5]] []) /\
  data_race_on clk_next TheField (at_crun mc_act newManualClock [[MAdd 5; MAdd 6]; [MGetTime]] [Run 0]).
Proof.
  split.
  - apply (race_intro clk_next _ 0 1 (AThread [MGetTick] []) (AThread [MAdd 5] []) (loads TheField) (atomic_op TheField));
      try reflexivity; [done|by left|by left].
  - apply (race_intro clk_next _ 0 1 (AThread [MAdd 6] [0]) (AThread [MGetTime] []) (atomic_op TheField) (loads TheField));
      try reflexivity; [done|by left|by left].
Qed.
Print Assumptions C150_refuted.

Example C150_witness : Forall (Forall (fun k => is_MAdd k = true)) [[MAdd 3; MAdd 4]; [MAdd (-2)]].
Proof. repeat constructor. Qed.
