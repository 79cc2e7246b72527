(** Data races on an EWMA (C106). *)
From Verif.Go Require Import GoInt GoFloat GoConc.
From Verif.Model Require Import EWMA EWMAConc.
From Verif.Spec Require Import BucketSpec EWMAConcSpec RaceSpec EWMARaceSpec.
From Verif.Proofs Require Import EWMAConcProofs RaceLemmas.
Local Open Scope Z_scope.

(** The table of accesses is complete. *)
Theorem C106_table :
  lists_writes ew_next ewma_tstep ew_same /\ lists_reads ew_next ewma_tstep ew_same ew_rest.
Proof.
  split.
  - intros s t s' t' l Hs Hl. unfold ewma_tstep, ew_next in *.
    destruct (et_pc t) eqn:Hpc; cbn in *.
    all: try (destruct (et_todo t) as [|[n| |n|u] todo]; [done|..]).
    all: try (destruct (_ =? _)); try (destruct (es_locked s)); try done; injection Hs as <- <-; destruct l; cbn; try done.
    all: exfalso; specialize (Hl _ (elem_of_list_here _ _) eq_refl); done.
  - intros [e1 k1 tk1] [e2 k2 tk2] [todo pc got] (R1 & R2 & R3) Hs. cbn in R1, R2, R3. subst k2.
    destruct e1 as [i1 r1 u1 a1 v1], e2 as [i2 r2 u2 a2 v2]. cbn in R2, R3. subst a2 v2.
    assert (HU : forall b, Access VUncounted b b ∈ ew_next (EwmaShared (EWMA i1 r1 u1 a1 v1) k1 tk1) (EThread todo pc got) -> u1 = u2).
    { intros b Hb. exact (Hs _ Hb). }
    assert (HR : forall b, Access VRate b false ∈ ew_next (EwmaShared (EWMA i1 r1 u1 a1 v1) k1 tk1) (EThread todo pc got) -> r1 = r2 /\ i1 = i2).
    { intros b Hb. exact (Hs _ Hb). }
    clear Hs. destruct pc as [| |old|c|c|c r|]; cbn in HU, HR |- *.
    all: try (destruct todo as [|[n| |n|u] todo]; cbn in HU, HR |- *; [done|..]).
    all: try (specialize (HU _ (elem_of_list_here _ _)); subst u2).
    all: try (specialize (HR _ (elem_of_list_here _ _)) as [-> ->]).
    all: try (destruct (_ =? _)); try (destruct k1); cbn; try done.
    all: split_and!; try done.
    all: intros a Ha; repeat (apply elem_of_cons in Ha as [->|Ha]; [cbn; done|]); by apply elem_of_nil in Ha.
Qed.
Print Assumptions C106_table.

(** What a goroutine is doing comes from its program. *)
Definition ew_from (p : list ewma_call) (t : ethread) : Prop :=
  (forall k, k ∈ et_todo t -> k ∈ p) /\
  match et_pc t with
  | EIdle | EUnlock => True
  | ELoad | ECas _ => ETick ∈ p
  | ELock _ | ERead _ | EWrite _ _ => exists k, k ∈ p /\ (is_Tick k || is_TickN k) = true
  end.

Lemma ew_from_run a iv progs sched i t :
  threads (ewma_crun a iv progs sched) !! i = Some t -> exists p, progs !! i = Some p /\ ew_from p t.
Proof.
  apply (program_inv ewma_tstep (fun s (_ : Empty_set) => s) ew_from (fun p => EThread p EIdle [])).
  - intros p. split; [|exact Logic.I]. cbn. auto.
  - clear. intros p s [todo pc got] s' t' [Ht Hp] Hs. unfold ewma_tstep in Hs. cbn in *.
    destruct pc as [| |old|c|c|c r|]; cbn in *.
    all: try (destruct todo as [|k todo]; [done|]; assert (Hk : k ∈ p) by (apply Ht; left);
       assert (Ht' : forall k, k ∈ todo -> k ∈ p) by (intros k' Hk'; apply Ht; by right); destruct k as [n| |n|u]).
    all: try (destruct (_ =? _)); try (destruct (es_locked s)); try done; injection Hs as <- <-; split; cbn; try done.
    all: eexists; split; [eassumption|done].
Qed.

(** C106 (what is missing: the two kinds of races of [C106_refuted]).  A race on the pending
    count needs a Tick next to an Update or another Tick; a race on the rate needs a GetRate
    next to a tick.  So programs that only Update and TickN have none. *)
Theorem C106_partial a iv progs sched :
  let c := ewma_crun a iv progs sched in
  (data_race_on ew_next VUncounted c ->
     exists i j, i <> j /\ calls progs i is_Tick /\ (calls progs j is_Tick \/ calls progs j is_Update)) /\
  (data_race_on ew_next VRate c ->
     exists i j, i <> j /\ calls progs i is_GetRate /\ (calls progs j is_Tick \/ calls progs j is_TickN)).
Proof.
  cbv zeta. pose proof (ewma_conc_inv a iv progs sched) as I. pose proof (ew_from_run a iv progs sched) as F.
  set (c := ewma_crun a iv progs sched) in *.
  assert (Hu : forall i t x, threads c !! i = Some t -> x ∈ ew_next (shared c) t -> ac_loc x = VUncounted ->
      (ac_atomic x = false /\ calls progs i is_Tick) \/ (ac_atomic x = true /\ (calls progs i is_Tick \/ calls progs i is_Update))).
  { intros i t x Hi Hx Hl. destruct (F _ _ Hi) as (p & Hp & Ht & Hpc). unfold ew_next in Hx.
    assert (HT : ETick ∈ p -> calls progs i is_Tick) by (intros ?; exists p, ETick; done).
    destruct (et_pc t); try (by apply elem_of_nil in Hx).
    - destruct (et_todo t) as [|[n| |n|u] todo]; try (by apply elem_of_nil in Hx).
      all: apply elem_of_list_singleton in Hx as ->; try done. right. split; [done|]. right. exists p, (EUpdate n).
      split_and!; [done|apply Ht; left|done].
    - apply elem_of_list_singleton in Hx as ->. left. split; [done|]. by apply HT.
    - apply elem_of_list_singleton in Hx as ->. right. split; [done|]. left. by apply HT.
    - apply elem_of_list_singleton in Hx as ->. done.
    - apply elem_of_list_singleton in Hx as ->. done. }
  assert (Hr : forall i t x, threads c !! i = Some t -> x ∈ ew_next (shared c) t -> ac_loc x = VRate ->
      (ac_write x = false /\ calls progs i is_GetRate) \/
      (e_holds (et_pc t) = true /\ (calls progs i is_Tick \/ calls progs i is_TickN))).
  { intros i t x Hi Hx Hl. destruct (F _ _ Hi) as (p & Hp & Ht & Hpc). unfold ew_next in Hx.
    assert (HT : (exists k, k ∈ p /\ (is_Tick k || is_TickN k) = true) -> calls progs i is_Tick \/ calls progs i is_TickN).
    { intros (k & Hk & Ek). destruct (is_Tick k) eqn:E1; [left|right]; by exists p, k. }
    destruct (et_pc t); try (by apply elem_of_nil in Hx).
    - destruct (et_todo t) as [|[n| |n|u] todo]; try (by apply elem_of_nil in Hx).
      all: apply elem_of_list_singleton in Hx as ->; try done. left. split; [done|]. exists p, (EGetRate u).
      split_and!; [done|apply Ht; left|done].
    - apply elem_of_list_singleton in Hx as ->. done.
    - apply elem_of_list_singleton in Hx as ->. done.
    - apply elem_of_list_singleton in Hx as ->. right. split; [done|]. by apply HT.
    - apply elem_of_list_singleton in Hx as ->. right. split; [done|]. by apply HT. }
  split; intros (i & j & ti & tj & x & y & Hne & Hi & Hj & Hx & Hy & Lx & Ly & Hw & Hat)%race_sym.
  - destruct (Hu _ _ _ Hi Hx Lx) as [[Ax Cx]|[Ax Cx]], (Hu _ _ _ Hj Hy Ly) as [[Ay Cy]|[Ay Cy]].
    + exists i, j. tauto.
    + exists i, j. tauto.
    + exists j, i. split_and!; auto.
    + rewrite Ax, Ay in Hat. by destruct Hat.
  - destruct (Hr _ _ _ Hi Hx Lx) as [[Ax Cx]|[Ax Cx]]; [by rewrite Ax in Hw|].
    destruct (Hr _ _ _ Hj Hy Ly) as [[Ay Cy]|[Ay Cy]]; [exists j, i; auto|].
    destruct (Hne (e_excl _ _ _ _ _ I _ _ _ _ Hi Hj Ax Ay)).
Qed.
Print Assumptions C106_partial.

(** In particular the programs that go through Update and TickN only have no race at all. *)
Theorem C106_update_tickn_partial a iv progs sched :
  Forall (Forall (fun k => (is_Update k || is_TickN k) = true)) progs ->
  race_free ew_next (ewma_crun a iv progs sched).
Proof.
  intros Hp. assert (Hno : forall i f, calls progs i f -> (forall k, f k = true -> (is_Update k || is_TickN k) = false) -> False).
  { intros i f (p & k & Hi & Hk & Hf) Hn. rewrite Forall_lookup in Hp. specialize (Hp _ _ Hi).
    rewrite Forall_forall in Hp. specialize (Hp _ Hk). rewrite (Hn _ Hf) in Hp. done. }
  destruct (C106_partial a iv progs sched) as [H1 H2]. intros [|] Hr.
  - destruct (H1 Hr) as (i & j & _ & Hc & _). eapply Hno; [exact Hc|]. by intros [].
  - destruct (H2 Hr) as (i & j & _ & Hc & _). eapply Hno; [exact Hc|]. by intros [].
Qed.
Print Assumptions C106_update_tickn_partial.

(** C106 is false: Tick loads the pending count without sync/atomic while Update adds to it
    (ewma.go:83 and 63), and GetRate reads the rate without the mutex while a tick stores
    it (ewma.go:97 and 77). *)
Theorem C106_refuted :
  data_race_on ew_next VUncounted (ewma_crun f1 ewmaInterval [[ETick]; [EUpdate 1]] [Run 0]) /\
  data_race_on ew_next VRate (ewma_crun f1 ewmaInterval [[ETickN 1]; [EGetRate 1]] [Run 0; Run 0; Run 0]).
Proof.
  split.
  - apply (race_intro ew_next _ 0 1 (EThread [] ELoad []) (EThread [EUpdate 1] EIdle []) (loads VUncounted) (atomic_op VUncounted));
      try reflexivity; [done|by left|by left].
  - apply (race_intro ew_next _ 0 1 (EThread [] (EWrite 1 (instantRate ewmaInterval 1)) []) (EThread [EGetRate 1] EIdle [])
      (stores VRate) (loads VRate)); try reflexivity; [done|by left|by left].
Qed.
Print Assumptions C106_refuted.

(** The hypothesis of C106_update_tickn_partial is met by programs that do run concurrently. *)
Example C106_witness :
  Forall (Forall (fun k => (is_Update k || is_TickN k) = true)) [[EUpdate 3; ETickN 4]; [EUpdate 5]; [ETickN 6]].
Proof. repeat constructor. Qed.
