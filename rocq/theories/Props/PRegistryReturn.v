(** C159: lookups in registries and managers are wait-free. *)
From Verif.Go Require Import GoInt GoConc.
From Verif.Model Require Import Config Registry RegistryConc.
From Verif.Spec Require Import RegistrySpec RegistryConcSpec RegistryReturnSpec.
From Verif.Props Require Import PRegistryConc.
Local Open Scope Z_scope.

Section runs.
Context (maxs : list Z) (progs : list (list rop))
  (Hok : Forall (Forall (fun o => match o with RLookup r _ _ => (r < length maxs)%nat | _ => True end)) progs).
Notation run := (r_crun maxs progs).

Lemma turns_snoc i (sched : list (event Empty_set)) j :
  turns_given i (sched ++ [Run j]) = (turns_given i sched + if (j =? i)%nat then 1 else 0)%nat.
Proof. induction sched as [|[k|[]] sched IH]; cbn [app turns_given]; [lia|]. rewrite IH. lia. Qed.

(** How far a call is: its steps lead to higher numbers. *)
Definition lookup_stage (pc : rpc) : nat :=
  match pc with PIdle => 0 | PGroup _ _ _ => 1 | PGroupStore _ _ _ => 2 | PLoad _ _ _ => 3 | PCreate _ _ _ => 4 | PCount _ _ _ _ => 5 | PStore _ _ _ _ => 6 | PAdd _ _ _ _ => 7 end.
Definition lookups_left (t : rthread) : nat := 8 * length (rt_todo t) - lookup_stage (rt_pc t).
Definition in_call (t : rthread) : Prop := rt_todo t = [] -> rt_pc t = PIdle.

Lemma lookup_step s t s' t' : in_call t -> rstep s t = Some (s', t') -> in_call t' /\ (lookups_left t' + 1 <= lookups_left t)%nat.
Proof.
  destruct t as [pc todo got]. unfold in_call, lookups_left, rstep. cbn [rt_pc rt_todo]. intros Hc Hs.
  destruct todo as [|op todo]; [rewrite (Hc eq_refl) in Hs; done|]. clear Hc.
  destruct pc; [destruct op|..]; unfold mbind, option_bind in Hs; repeat (case_match; try done); injection Hs as <- <-;
    unfold r_return, r_goto; cbn [rt_pc rt_todo lookup_stage length]; (split; [try (intros; done)|lia]).
Qed.

Lemma lookup_run sched i prog : progs !! i = Some prog -> exists t, threads (run sched) !! i = Some t /\ in_call t /\
  (rt_todo t = [] \/ (lookups_left t + turns_given i sched <= 8 * length prog)%nat).
Proof.
  intros Hi. induction sched as [|ev sched IH] using rev_ind.
  - exists (RThread PIdle prog []). unfold r_crun, crun, r_init. cbn [fold_left threads]. rewrite list_lookup_fmap, Hi. split; [done|]. split; [done|]. right. unfold lookups_left. cbn. lia.
  - destruct IH as (t & Ht & Hc & Hl). unfold r_crun in *. rewrite crun_snoc. set (c := crun rstep _ _ sched) in *.
    destruct ev as [j|[]]. rewrite turns_snoc. cbn [cstep].
    destruct (threads c !! j) as [u|] eqn:Hj.
    + destruct (decide (j = i)) as [->|Hne].
      * rewrite Ht in Hj. injection Hj as <-. destruct (rstep (shared c) t) as [[s' t']|] eqn:Es.
        -- destruct (lookup_step _ _ _ _ Hc Es) as [Hc' Hl']. exists t'. cbn [threads]. rewrite list_lookup_insert by (by apply lookup_lt_Some in Ht). split; [done|]. split; [done|].
           destruct Hl as [Hn|Hl]; [|right; rewrite Nat.eqb_refl; lia].
           exfalso. unfold rstep in Es. by rewrite (Hc Hn), Hn in Es.
        -- exists t. split; [done|]. split; [done|]. left. destruct (rt_todo t) eqn:Et; [done|]. exfalso.
           destruct (C63_never_waits maxs progs sched i t Hok) as [x Hx]; [done|by rewrite Et|]. change (r_crun maxs progs sched) with c in Hx. congruence.
      * rewrite (proj2 (Nat.eqb_neq j i)) by done. destruct (rstep (shared c) u) as [[s' u']|] eqn:Es; [|rewrite Nat.add_0_r; eauto]. exists t. cbn [threads]. rewrite list_lookup_insert_ne by done. rewrite Nat.add_0_r. eauto.
    + exists t. split; [done|]. split; [done|]. destruct Hl as [|Hl]; [by left|]. destruct (decide (j = i)) as [->|Hne]; [congruence|]. right. rewrite (proj2 (Nat.eqb_neq j i)) by done. lia.
Qed.

(** C159: a goroutine is done with all its lookups after at most eight turns each, whatever
    the others do: no call waits, none is delayed by another. *)
Theorem C159_wait_free sched i prog : progs !! i = Some prog -> (8 * length prog <= turns_given i sched)%nat ->
  exists t, threads (run sched) !! i = Some t /\ lookups_returned t.
Proof.
  intros Hi Hn. destruct (lookup_run sched i prog Hi) as (t & Ht & Hc & Hl). exists t. split; [done|].
  assert (Hd : rt_todo t = []).
  { destruct Hl as [|Hl]; [done|]. destruct (rt_todo t) as [|op todo] eqn:Et; [done|]. exfalso.
    assert (Hp : (lookup_stage (rt_pc t) <= 7)%nat) by (destruct (rt_pc t); cbn; lia). unfold lookups_left in Hl. rewrite Et in Hl. cbn [length] in Hl. lia. }
  split; [done|by apply Hc].
Qed.

(** A call moves from what is to do to what has been got, with its answer. *)
Lemma answers_step s t s' t' : rstep s t = Some (s', t') -> (rt_got t').*1 ++ rt_todo t' = (rt_got t).*1 ++ rt_todo t.
Proof.
  destruct t as [pc todo got]. unfold rstep. cbn [rt_pc rt_todo]. intros Hs.
  destruct pc; [destruct todo as [|[] todo]; [done|..]|..]; unfold mbind, option_bind in Hs; repeat (case_match; try done); injection Hs as <- <-;
    unfold r_return, r_goto; cbn [rt_pc rt_todo rt_got]; try done.
  all: repeat case_match; cbn [rt_got rt_todo]; try done; by rewrite fmap_app, <- app_assoc.
Qed.
(** C159: and it has got one answer for each of its calls, in their order. *)
Theorem C159_answers sched i prog t : progs !! i = Some prog -> threads (run sched) !! i = Some t ->
  lookups_returned t -> (rt_got t).*1 = prog.
Proof.
  intros Hi Ht [Hn _].
  enough (H : forall u, threads (run sched) !! i = Some u -> (rt_got u).*1 ++ rt_todo u = prog) by (rewrite <- (H t Ht), Hn; by rewrite app_nil_r).
  clear t Ht Hn. unfold r_crun. apply (crun_inv rstep (fun s _ => s) (fun c => forall u, threads c !! i = Some u -> (rt_got u).*1 ++ rt_todo u = prog)).
  - cbn [r_init threads]. intros u. rewrite list_lookup_fmap, Hi. cbn. by intros [= <-].
  - cbn [threads]. intros s ts j u s' u' IH Hj Hs w Hw. destruct (decide (j = i)) as [->|Hne].
    + rewrite list_lookup_insert in Hw by (by apply lookup_lt_Some in Hj). injection Hw as <-. rewrite (answers_step _ _ _ _ Hs). by apply IH.
    + rewrite list_lookup_insert_ne in Hw by done. by apply IH.
  - done.
Qed.

(** C159: so a schedule that gives each goroutine that many turns completes all lookups. *)
Theorem C159_all_return sched : (forall i prog, progs !! i = Some prog -> (8 * length prog <= turns_given i sched)%nat) ->
  Forall lookups_returned (threads (run sched)).
Proof.
  intros H. apply Forall_lookup. intros i t Ht.
  assert (Hl : length (threads (run sched)) = length progs).
  { clear. unfold r_crun. induction sched as [|ev s IH] using rev_ind; [cbn; by rewrite fmap_length|]. by rewrite crun_snoc, cstep_threads_length. }
  destruct (lookup_lt_is_Some_2 progs i) as [prog Hp]; [rewrite <- Hl; by apply lookup_lt_Some in Ht|].
  destruct (C159_wait_free sched i prog Hp (H i prog Hp)) as (u & Hu & Hr). congruence.
Qed.
End runs.
Print Assumptions C159_wait_free.
Print Assumptions C159_all_return.
Print Assumptions C159_answers.
(** Two goroutines, a registry and a group of the manager. *)
Definition lookup_progs : list (list rop) := [[RLookup 0 KCompass na; GLookup "app" KCompass nb]; [RLookup 0 KCompass na]].
Definition lookup_sched : list (event Empty_set) := mjoin (replicate 16 [Run 1; Run 0]%nat).
Example C159_case :
  Forall (Forall (fun o => match o with RLookup r _ _ => (r < length [2])%nat | _ => True end)) lookup_progs /\
  (forall i prog, lookup_progs !! i = Some prog -> (8 * length prog <= turns_given i lookup_sched)%nat) /\
  map (fun t => length (rt_got t)) (threads (r_crun [2] lookup_progs lookup_sched)) = [2; 1]%nat.
Proof.
  split; [repeat constructor|]. split; [|vm_compute; reflexivity].
  intros i prog Hi. destruct i as [|[|i]]; [injection Hi as <-|injection Hi as <-|done]; apply Nat.leb_le; vm_compute; reflexivity.
Qed.
