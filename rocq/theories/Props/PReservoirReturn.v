(** C102: every call of a uniform reservoir returns under every fair schedule. *)
From Verif.Go Require Import GoInt GoConc.
From Verif.Model Require Import UniformSnapshot UniformReservoir ReservoirConc.
From Verif.Spec Require Import BucketSpec ReservoirSpec ReservoirConcSpec ProgressSpec.
From Verif.Proofs Require Import BucketHist ProgressLemmas.
From Verif.Props Require Import PReservoirConc.
Local Open Scope Z_scope.

Section runs.
Context (cap : Z) (progs : list (list rx_call)) (Hok : rx_ok cap progs).
Notation run := (rx_run cap progs).
Notation cost := (sum_list_with (call_steps cap) (mjoin progs)).

Lemma steps_same c sched : steps_made rx_tstep rx_estep c sched = steps_taken c sched.
Proof.
  revert c. induction sched as [|ev sched IH]; intros c; [done|]. cbn [steps_made steps_taken]. rewrite IH. f_equal.
  unfold is_step. destruct ev as [i|[]]. destruct (threads c !! i) as [t|]; [|done]. by destruct (rx_tstep (shared c) t).
Qed.

#[local] Instance rx_finished_dec t : Decision (rx_finished t).
Proof. unfold rx_finished. destruct t as [id [|k todo] pc got]; [|right; by intros [? _]]. destruct pc; [left; done|..]; right; by intros [_ ?]. Defined.

(** As long as not all calls have returned, some goroutine can make a step. *)
Theorem C102_no_deadlock sched : ~ Forall rx_finished (threads (run sched)) -> exists i, can_step rx_tstep (run sched) i.
Proof.
  intros Hn. destruct (C102_progress cap progs sched Hok) as [H1 H2]. set (holds := fun t => rx_updating t || rx_reading t) in *.
  destruct (decide (Exists (fun t => holds t = true) (threads (run sched)))) as [He|He].
  - apply Exists_exists in He as (t & Ht & Hh). apply elem_of_list_lookup in Ht as [i Hi]. exists i, t. split; [exact Hi|]. by apply (H1 i).
  - apply not_Forall_Exists in Hn; [|apply _]. apply Exists_exists in Hn as (t & Ht & Hf). apply elem_of_list_lookup in Ht as [i Hi].
    exists i, t. split; [exact Hi|]. apply (H2) with i; [|exact Hi|exact Hf]. intros j u Hj.
    destruct (holds u) eqn:Hh; [|exact Hh]. exfalso. apply He, Exists_exists. exists u. split; [by apply elem_of_list_lookup_2 in Hj|exact Hh].
Qed.

(** So every schedule that gives every goroutine more turns than the calls have steps (8 per
    update, 5 per Size, capacity + 4 per snapshot) completes all calls. *)
Theorem C102_all_return rounds : Forall (round (length progs)) rounds -> (cost < length rounds)%nat ->
  Forall rx_finished (threads (run (mjoin rounds))).
Proof.
  intros Hr Hl. set (D := fun c : config rx_shared rxthread => Forall rx_finished (threads c)).
  refine (fair_finish rx_tstep rx_estep D _ (rx_init cap progs) cost rounds _ _ _ _ _ Hl).
  - intros sched. rewrite steps_same. by apply C102_steps.
  - intros s1 s2 _. destruct (decide (Forall rx_finished (threads (run s1)))) as [Hd|Hd]; [by left|right]. by apply C102_no_deadlock.
  - intros sched ev. rewrite crun_snoc. unfold D. intros Hd. destruct ev as [i|[]]. cbn [cstep]. destruct (threads _ !! i) as [t|] eqn:Ei; [|done].
    pose proof (proj1 (Forall_lookup _ _) Hd _ _ Ei) as [H1 H2]. unfold rx_tstep at 1. rewrite H1, H2. exact Hd.
  - intros c [].
  - cbn [rx_init threads]. by rewrite imap_length.
Qed.
End runs.
Print Assumptions C102_no_deadlock.
Print Assumptions C102_all_return.
Definition return_rounds : list (list (event Empty_set)) := replicate 60 [Run 2; Run 0; Run 1]%nat.
Example C102_case : rx_ok 2 demo /\ Forall (round (length demo)) return_rounds /\
  (sum_list_with (call_steps 2) (mjoin demo) < length return_rounds)%nat /\
  map (fun t => (length (rx_todo t), length (rx_got t))) (threads (rx_run 2 demo (mjoin return_rounds))) = [(0, 1); (0, 2); (0, 2)]%nat.
Proof.
  split; [apply C101_witness|]. split; [|split; [apply Nat.ltb_lt; vm_compute; reflexivity|vm_compute; reflexivity]].
  assert (Hl : length demo = 3%nat) by reflexivity. rewrite Hl. apply Forall_replicate. intros i Hi. destruct i as [|[|[|i]]]; [set_solver..|lia].
Qed.
