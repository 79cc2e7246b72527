(** Every call of HashKey returns. *)
From Verif.Go Require Import GoInt GoConc.
From Verif.Model Require Import MetricName.
From Verif.Spec Require Import BucketSpec ProgressSpec NameShareSpec.
From Verif.Proofs Require Import BucketHist ProgressLemmas NameProofs NameCalls.
Local Open Scope Z_scope.

Definition pc_left (order : list (string * string)) (pc : once_pc) : Z :=
  let n := Z.of_nat (length order) in
  match pc with
  | OLoad => 9 + n | OLock => 8 + n | OCheck => 7 + n | OKey => 6 + n | OSep => 5 + n
  | OTags l => 4 + Z.of_nat (length l) | OSetDone => 3 | OUnlock => 2 | ORead => 1 | ORet _ => 0
  end.
Definition call_left (t : once_thread) : Z := pc_left (ot_order t) (ot_pc t).
Definition calls_left (calls : list once_thread) : Z := sumZ (call_left <$> calls).

Lemma call_left_nonneg t : 0 <= call_left t.
Proof. unfold call_left, pc_left. destruct (ot_pc t); lia. Qed.
Lemma calls_left_nonneg calls : 0 <= calls_left calls.
Proof. apply sum_nonneg. intros t _. apply call_left_nonneg. Qed.

Section progress.
Context (key : string) (tags : gmap string string) (progs : list (list (list (string * string)))).
Notation tstep := (calls_step key tags).
Notation estep := (fun (s : once_shared) (_ : Empty_set) => s).
Notation c0 := (Config (OnceShared false false "") (map (map (fun o => OnceThread o OLoad)) progs)).

Lemma call_left_step s t s' t' : once_step key tags s t = Some (s', t') -> call_left t' + 1 <= call_left t.
Proof.
  unfold once_step, call_left. intros H. destruct (ot_pc t) as [| | | | |[|[k v] rest]| | | |] eqn:Ep; repeat (case_match; try done); simplify_eq;
    cbn [ot_order ot_pc pc_left length]; lia.
Qed.
Lemma calls_left_step s c s' c' : tstep s c = Some (s', c') -> calls_left c' + 1 <= calls_left c.
Proof.
  intros H. destruct (calls_step_inv _ _ _ _ _ _ H) as (k & t & t' & Hk & Hs & ->). pose proof (call_left_step _ _ _ _ Hs) as Hl.
  unfold calls_left. eapply (sum_bound call_left call_left c k t t' 0 (length c)); [done|lia|lia| |lia]. intros; lia.
Qed.
Lemma start_left : sumZ (calls_left <$> threads c0) = hash_cost progs.
Proof.
  unfold hash_cost. cbn [threads]. induction progs as [|p ps IH]; [done|]. rewrite join_cons, fmap_app, sumZ_app, <- IH. cbn [map]. rewrite fmap_cons, sumZ_cons. f_equal.
  unfold calls_left. clear. induction p as [|o p IH]; [done|]. cbn [map]. rewrite !fmap_cons, !sumZ_cons, IH. done.
Qed.
Lemma hash_bound sched : Z.of_nat (steps_made tstep estep c0 sched) <= hash_cost progs.
Proof.
  rewrite <- start_left. refine (made_bound tstep estep (fun c => sumZ (calls_left <$> threads c)) c0 _ _ _ sched).
  - intros s. apply sum_nonneg. intros t _. apply calls_left_nonneg.
  - intros s i t s' t'. cbv zeta. intros Hi Hs. cbn [shared threads]. pose proof (calls_left_step _ _ _ _ Hs).
    eapply (sum_bound calls_left calls_left _ i t t' 0 _); [done|lia|reflexivity| |lia]. intros; lia.
  - intros s e. cbv zeta. cbn [shared threads]. lia.
Qed.

Lemma returned_dec t : {exists h, ot_pc t = ORet h} + {~ exists h, ot_pc t = ORet h}.
Proof. destruct (ot_pc t) eqn:E; [right; intros [? ?]; congruence..|left; eauto]. Qed.
#[local] Instance calls_returned_dec calls : Decision (calls_returned calls).
Proof.
  destruct (List.Forall_dec (fun t => exists h, ot_pc t = ORet h) returned_dec calls) as [H|H].
  - left. intros t Ht. rewrite Forall_forall in H. by apply H.
  - right. intros Hr. by apply H, Forall_forall.
Qed.

Lemma hash_all_return rounds : Forall (round (length progs)) rounds -> hash_cost progs < Z.of_nat (length rounds) ->
  Forall calls_returned (threads (calls_crun key tags progs (mjoin rounds))).
Proof.
  intros Hr Hl. set (D := fun c : config once_shared (list once_thread) => Forall calls_returned (threads c)).
  refine (fair_finish tstep estep D _ c0 (Z.to_nat (hash_cost progs)) rounds _ _ _ _ _ _).
  - intros sched. pose proof (hash_bound sched). lia.
  - intros s1 s2 _. destruct (calls_progress key tags progs s1) as [H|(i & calls & Hi & Hs)].
    + left. apply Forall_lookup. intros i calls Hi t Ht. by apply (H i calls).
    + right. by exists i, calls.
  - intros sched ev. rewrite crun_snoc. unfold D. intros H. destruct ev as [i|e]; [|done]. cbn [cstep]. destruct (threads _ !! i) as [c|] eqn:Ei; [|done].
    pose proof (proj1 (Forall_lookup _ _) H _ _ Ei) as H1. destruct (tstep _ c) as [[s' c']|] eqn:Es; [|exact H].
    exfalso. destruct (calls_step_inv _ _ _ _ _ _ Es) as (k & t & t' & Hk & Hst & _). destruct (H1 t (elem_of_list_lookup_2 _ _ _ Hk)) as [h Hh].
    unfold once_step in Hst. by rewrite Hh in Hst.
  - intros c e i. done.
  - cbn [threads]. rewrite map_length. exact Hr.
  - pose proof (hash_bound []). lia.
Qed.
End progress.
