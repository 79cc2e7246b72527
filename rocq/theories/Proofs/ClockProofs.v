From Verif.Go Require Import GoInt GoConc GoAtomic.
From Verif.Model Require Import ManualClock.
From Verif.Spec Require Import BucketSpec ClockSpec.
From Verif.Proofs Require Import BucketHist BucketMain.
Local Open Scope Z_scope.

Lemma total_added_snoc l c : total_added (l ++ [c]) = total_added l + added c.
Proof. unfold total_added. rewrite fmap_app, sumZ_app. cbn. lia. Qed.

Lemma mc_seq_tick calls : tickInNanos (at_seq mc_act newManualClock calls) = wrap64 (total_added calls).
Proof.
  induction calls as [|c calls IH] using rev_ind; [reflexivity|].
  rewrite at_seq_snoc, total_added_snoc.
  destruct c; cbn [mc_act fst mc_Add tickInNanos added]; rewrite IH, ?Z.add_0_r; try done.
  by rewrite wrap64_add_l.
Qed.

Lemma mc_seq_GetTick calls : mc_GetTick (at_seq mc_act newManualClock calls) = wrap64 (total_added calls).
Proof. apply mc_seq_tick. Qed.

Lemma wrap64_quot x : in64 x -> wrap64 (Z.quot x Millisecond) = Z.quot x Millisecond.
Proof.
  intros H. apply wrap64_id. unfold Millisecond, in64, two63 in *. 
  split.
  - destruct (Z.le_gt_cases 0 x).
    + pose proof (Z.quot_pos x 1000000). lia.
    + rewrite <- (Z.opp_involutive x), Z.quot_opp_l by lia.
      pose proof (Z.quot_le_upper_bound (-x) 1000000 9223372036854775808). lia.
  - destruct (Z.le_gt_cases 0 x).
    + pose proof (Z.quot_lt_upper_bound x 1000000 9223372036854775808). lia.
    + rewrite <- (Z.opp_involutive x), Z.quot_opp_l by lia.
      pose proof (Z.quot_pos (-x) 1000000). lia.
Qed.

Lemma mc_seq_GetTime calls : mc_GetTime (at_seq mc_act newManualClock calls) = Z.quot (wrap64 (total_added calls)) 1000000.
Proof. unfold mc_GetTime. rewrite mc_seq_tick, wrap64_quot by apply wrap64_range. done. Qed.

Lemma total_added_mono calls p q :
  Forall (fun c => 0 <= added c) calls -> (p <= q)%nat ->
  0 <= total_added (take p calls) <= total_added (take q calls) /\ total_added (take q calls) <= total_added calls.
Proof.
  intros H Hpq.
  assert (G : forall l, Forall (fun c => 0 <= added c) l -> 0 <= total_added l).
  { induction 1; unfold total_added; cbn; [lia|]. unfold total_added, sumZ in *. lia. }
  assert (HA : forall a b, total_added (a ++ b) = total_added a + total_added b).
  { intros a b. unfold total_added. by rewrite fmap_app, sumZ_app. }
  assert (E1 : take q calls = take p calls ++ drop p (take q calls)).
  { rewrite <- (take_drop p (take q calls)) at 1. rewrite take_take. by rewrite Nat.min_l by lia. }
  pose proof (take_drop q calls) as E2.
  pose proof (HA (take p calls) (drop p (take q calls))) as E3. rewrite <- E1 in E3.
  pose proof (HA (take q calls) (drop q calls)) as E4. rewrite E2 in E4.
  pose proof (G (take p calls) (Forall_take _ _ _ H)).
  pose proof (G (drop p (take q calls)) (Forall_drop _ _ _ (Forall_take _ _ _ H))).
  pose proof (G (drop q calls) (Forall_drop _ _ _ H)). lia.
Qed.

Lemma mc_seq_mono calls p q :
  Forall (fun c => 0 <= added c) calls -> total_added calls < two63 -> (p <= q)%nat ->
  mc_GetTick (at_seq mc_act newManualClock (take p calls)) <= mc_GetTick (at_seq mc_act newManualClock (take q calls)) /\
  mc_GetTime (at_seq mc_act newManualClock (take p calls)) <= mc_GetTime (at_seq mc_act newManualClock (take q calls)).
Proof.
  intros H Hb Hpq. destruct (total_added_mono calls p q H Hpq) as [H1 H2].
  rewrite !mc_seq_GetTick, !mc_seq_GetTime. rewrite !wrap64_id by (unfold in64, two63 in *; lia).
  split; [lia|]. apply Z.quot_le_mono; lia.
Qed.
