(** Every call of an exponentially decaying reservoir returns (C158): any number of
    goroutines, any schedule.  [dx_crun], [conc_ok] as in Props/PDecayingConc.v. *)
From Verif.Go Require Import GoInt GoFloat GoConc.
From Verif.Model Require Import WeightedSnapshot DecayingReservoir DecayingConc.
From Verif.Spec Require Import BucketSpec DecayingSpec DecayingConcSpec ProgressSpec.
From Verif.Proofs Require Import BucketHist ProgressLemmas CompassBound DecayingConcMain.
From Verif.Props Require Import PDecaying PDecayingConc.
Local Open Scope Z_scope.

Section runs.
Context (math_Exp : f64 -> f64) (size : Z) (alpha : f64) (ms0 tick0 : Z) (progs : list (list dx_call)).
Notation run sched := (dx_crun math_Exp size alpha ms0 tick0 progs sched).
Notation calls := (Z.of_nat (length (mjoin progs))).

(** Whatever the schedule, the clock and the numbers, each call takes at most 13 steps. *)
Theorem C158_bounded_steps sched :
  Z.of_nat (steps_made (dx_tstep math_Exp) dx_estep (run []) sched) <= 13 * calls.
Proof.
  assert (Hs : sumZ (x_pot <$> threads (run [])) = 13 * calls).
  { unfold dx_crun, crun, dx_init. cbn [fold_left threads]. induction progs as [|p ps IH]; [done|].
    rewrite !fmap_cons, sumZ_cons, IH. unfold x_pot at 1. cbn [dx_todo dx_pc x_rank]. change (mjoin (p :: ps)) with (p ++ mjoin ps). rewrite app_length. lia. }
  rewrite <- Hs. refine (made_bound (dx_tstep math_Exp) dx_estep (fun c => sumZ (x_pot <$> threads c)) (run []) _ _ _ sched).
  - intros s. apply sum_nonneg. intros t _. unfold x_pot. assert (0 <= x_rank (dx_pc t)) by (destruct (dx_pc t); cbn; lia). lia.
  - intros s i t s' t'. cbv zeta. intros Hi Ht. cbn [shared threads]. pose proof (x_step _ _ _ _ _ Ht).
    eapply (sum_bound x_pot x_pot _ i t t' 0 _); [done|lia|reflexivity| |lia]. intros; lia.
  - intros s e. cbv zeta. cbn [shared threads]. lia.
Qed.

#[local] Instance dx_finished_dec t : Decision (dx_finished t).
Proof. unfold dx_finished. destruct t as [[|k todo] pc got]; [|right; by intros [? _]]. destruct pc; [left; done|..]; right; by intros [_ ?]. Defined.

(** As long as not all calls have returned, some goroutine can make a step. *)
Theorem C158_no_deadlock sched : conc_ok math_Exp size alpha ms0 progs sched ->
  ~ Forall dx_finished (threads (run sched)) -> exists i, can_step (dx_tstep math_Exp) (run sched) i.
Proof.
  intros H Hn. apply not_Forall_Exists in Hn; [|apply _]. apply Exists_exists in Hn as (t & Ht & Hf). apply elem_of_list_lookup in Ht as [i Hi].
  destruct (C98_decaying_no_deadlock math_Exp size alpha ms0 tick0 progs sched H) as (j & u & Hj & Hu); [by exists i, t|]. by exists j, u.
Qed.

(** So every schedule that gives every goroutine more turns than that, the clock showing
    anything in between, completes all calls. *)
Theorem C158_all_return rounds : conc_ok math_Exp size alpha ms0 progs (mjoin rounds) ->
  Forall (round (length progs)) rounds -> 13 * calls < Z.of_nat (length rounds) ->
  Forall dx_finished (threads (run (mjoin rounds))).
Proof.
  intros H Hr Hl. set (D := fun c : config dx_shared dxthread => Forall dx_finished (threads c)).
  change (D (crun (dx_tstep math_Exp) dx_estep (run []) (mjoin rounds))).
  refine (fair_finish (dx_tstep math_Exp) dx_estep D _ (run []) (Z.to_nat (13 * calls)) rounds _ _ _ _ _ _).
  - intros sched. pose proof (C158_bounded_steps sched). lia.
  - intros s1 s2 E. destruct (decide (Forall dx_finished (threads (run s1)))) as [Hd|Hd]; [by left|right].
    apply (C158_no_deadlock s1); [|exact Hd]. rewrite E in H. by eapply conc_ok_prefix.
  - intros sched ev. rewrite crun_snoc. unfold D. intros Hd. destruct ev as [i|e]; [|done]. cbn [cstep]. destruct (threads _ !! i) as [t|] eqn:Ei; [|done].
    pose proof (proj1 (Forall_lookup _ _) Hd _ _ Ei) as [H1 H2]. unfold dx_tstep at 1. rewrite H1, H2. exact Hd.
  - intros c e i (t & Hi & Hs). exists t. split; [exact Hi|]. cbn [cstep shared]. unfold dx_tstep, dx_estep in *. cbn [ds_rsv ds_writer ds_readers ds_ms ds_tick ds_log] in *.
    destruct (dx_pc t); try done.
    all: repeat match goal with |- context [match ?x with _ => _ end] => destruct x end; try done.
  - unfold dx_crun, crun, dx_init. cbn [fold_left threads]. by rewrite fmap_length.
  - lia.
Qed.
End runs.
Print Assumptions C158_bounded_steps.
Print Assumptions C158_no_deadlock.
Print Assumptions C158_all_return.

(** Three goroutines, a rescale that becomes due in between. *)
Definition return_rounds : list (list (event (Z * Z))) :=
  replicate 30 [Run 2; Run 0; Run 1]%nat ++ [[Env (1500, 4000000000000); Run 0%nat; Run 1%nat; Run 2%nat]] ++ replicate 60 [Run 1; Run 0; Run 2]%nat.
Example C158_case : conc_ok toy_exp 2 half 1000 busy_progs (mjoin return_rounds) /\
  Forall (round (length busy_progs)) return_rounds /\ 13 * Z.of_nat (length (mjoin busy_progs)) < Z.of_nat (length return_rounds) /\
  map (fun t => (length (dx_todo t), length (dx_got t))) (threads (dx_crun toy_exp 2 half 1000 0 busy_progs (mjoin return_rounds))) = [(0, 0); (0, 1); (0, 1)]%nat.
Proof.
  split; [|split; [|split; [vm_compute; reflexivity|vm_compute; reflexivity]]].
  - destruct (busy_ok 0) as (A & B & C & D & _ & F). split; [exact A|]. split; [exact B|]. split; [exact C|]. split; [exact D|]. split; [|exact F].
    vm_compute. repeat split; discriminate.
  - assert (Hl : length busy_progs = 3%nat) by reflexivity. rewrite Hl.
    apply Forall_app. split; [|apply Forall_app; split; [apply Forall_singleton|]].
    + apply Forall_replicate. intros i Hi. destruct i as [|[|[|i]]]; [set_solver..|lia].
    + intros i Hi. destruct i as [|[|[|i]]]; [set_solver..|lia].
    + apply Forall_replicate. intros i Hi. destruct i as [|[|[|i]]]; [set_solver..|lia].
Qed.
