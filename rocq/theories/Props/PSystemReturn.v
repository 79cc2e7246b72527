(** Every call returns, in the whole library (C147): registries, manager, compasses and fast
    compasses used by any number of goroutines, every access of a shared variable a step
    (Model/SystemConc.v). *)
From Verif.Go Require Import GoInt GoFloat GoConc GoCompose.
From Verif.Model Require Import Config Registry RegistryConc Compass CompassConc CompassFine CompassRead FastCompassFine SystemConc.
From Verif.Spec Require Import BucketSpec CompassReadSpec RegistrySpec RegistryConcSpec SystemSpec ProgressSpec.
From Verif.Proofs Require Import SystemReturn.
From Verif.Props Require Import PDecaying PSystem.
Local Open Scope Z_scope.

(** C147: all goroutines together make boundedly many steps: the bound depends only on what
    they have to do (which lookups and which calls), not on the schedule, the clock, the
    limits of the registries, or who is given which metric. *)
Theorem C147_bounded_steps plans : exists B : nat, forall math_Exp maxs e0 sched,
  (steps_made (gstep sy_tstep (fun _ => false) sy_effect (mobj_step math_Exp) min_idle min_push min_returned)
     (gestep (fun s (_ : cenv) => s) mobj_estep) (sy_run math_Exp maxs e0 plans []) sched <= B)%nat.
Proof.
  exists (Z.to_nat (sumZ ((fun p => sumZ (act_cost (length plans) <$> p)) <$> plans))).
  intros math_Exp maxs e0 sched. pose proof (sy_bound math_Exp maxs e0 plans sched). lia.
Qed.

(** C147: so under every fair schedule every goroutine finishes what it has to do: it is enough
    that each gets [B + 1] turns, however they are interleaved (under the conditions of C127:
    the registries exist, nobody waits in a circle, nobody calls one of the getters that read
    a map unprotected). *)
Theorem C147_all_return plans : (forall i plan, plans !! i = Some plan -> well_planned plans i 0 plan) -> Forall (Forall no_map_getter) plans ->
  exists B : nat, forall math_Exp maxs e0 rounds, registries_exist maxs (lookups <$> plans) ->
  Forall (round (length plans)) rounds -> (B < length rounds)%nat ->
  Forall finished (threads (sy_run math_Exp maxs e0 plans (mjoin rounds))).
Proof.
  intros HW HG. exists (Z.to_nat (sumZ ((fun p => sumZ (act_cost (length plans) <$> p)) <$> plans))).
  intros math_Exp maxs e0 rounds HR Hr Hlen. apply sy_all_return; try done. lia.
Qed.
(** C147: with these getters too, unless the runtime aborts the process because a map is
    assigned to while a getter iterates over it (C23, C92). *)
Theorem C147_all_return_or_abort plans : (forall i plan, plans !! i = Some plan -> well_planned plans i 0 plan) -> Forall (Forall existing_method) plans ->
  exists B : nat, forall math_Exp maxs e0 rounds, registries_exist maxs (lookups <$> plans) ->
  Forall (round (length plans)) rounds -> (B < length rounds)%nat -> let c := sy_run math_Exp maxs e0 plans (mjoin rounds) in
  nothing_aborted c -> Forall finished (threads c).
Proof.
  intros HW HG. exists (Z.to_nat (sumZ ((fun p => sumZ (act_cost (length plans) <$> p)) <$> plans))).
  intros math_Exp maxs e0 rounds HR Hr Hlen c Ha. destruct (sy_all_return_or_abort math_Exp maxs e0 plans rounds HR HW HG Hr) as [H|H]; [lia| |exact H]. by apply H in Ha.
Qed.
Print Assumptions C147_bounded_steps.
Print Assumptions C147_all_return.
Print Assumptions C147_all_return_or_abort.

(** The hypotheses are met: the three goroutines of Props/PSystem.v, two of which look the same
    compass up at the same time, and one waits for a metric of another; many rounds complete
    everything, few do not. *)
Definition system_rounds (n : nat) : list (list (event cenv)) := replicate n [Run 2; Run 1; Run 0]%nat ++ [Env (CEnv 12000000000 12000 half [3]); Run 1%nat; Run 0%nat; Run 2%nat] :: replicate n [Run 0; Run 1; Run 2]%nat.
Example C147_case : registries_exist [] (lookups <$> a_system) /\ (forall i plan, a_system !! i = Some plan -> well_planned a_system i 0 plan) /\ Forall (Forall no_map_getter) a_system /\
  (forall n, Forall (round (length a_system)) (system_rounds n) /\ (n < length (system_rounds n))%nat) /\
  (let all n := forallb finishedb (threads (sy_run (fun x => x) [] (CEnv 5000000000 5000 half [3]) a_system (mjoin (system_rounds n)))) in (all 20%nat, all 200%nat)) = (false, true).
Proof.
  destruct C124_case as ((H1 & _) & _ & _ & H2 & H3 & _). refine (conj H1 (conj H2 (conj H3 (conj _ _)))).
  - intros n. split; [|unfold system_rounds; rewrite app_length, replicate_length; cbn [length]; lia]. apply Forall_app. split; [apply Forall_replicate; intros i Hi; destruct i as [|[|[|i]]]; [right; right; left|right; left|left|cbn in Hi; lia]|].
    apply Forall_cons. split; [intros i Hi; destruct i as [|[|[|i]]]; [right; right; left|right; left|right; right; right; left|cbn in Hi; lia]|]. apply Forall_replicate; intros i Hi; destruct i as [|[|[|i]]]; [left|right; left|right; right; left|cbn in Hi; lia].
  - vm_compute. reflexivity.
Qed.
(** With map getters: two goroutines that record into a fast compass and ask it. *)
Definition b_rounds (n : nat) : list (list (event cenv)) := replicate n [Run 0; Run 1]%nat.
Definition b_end (n : nat) : system := sy_run (fun x => x) [] (CEnv 5000000000 5000 half [3]) b_system (mjoin (b_rounds n)).
Example C147_getters_case : registries_exist [] (lookups <$> b_system) /\ (forall i plan, b_system !! i = Some plan -> well_planned b_system i 0 plan) /\ Forall (Forall existing_method) b_system /\
  (forall n, Forall (round (length b_system)) (b_rounds n) /\ length (b_rounds n) = n) /\
  (let all n := (forallb (fun x => unaborted x.2) (map_to_list (gs_objs (shared (b_end n)))), forallb finishedb (threads (b_end n))) in (all 20%nat, all 200%nat)) = ((true, false), (true, true)).
Proof.
  refine (conj _ (conj _ (conj _ (conj _ _)))).
  - repeat constructor.
  - intros i plan Hi. destruct i as [|[|i]]; [..|done]; injection Hi as <-; cbn; repeat split; try (left; split; [done|lia]). all: right; split; [lia|]; eexists; split; [reflexivity|cbn; lia].
  - repeat constructor.
  - intros n. unfold b_rounds. split; [|by rewrite replicate_length]. apply Forall_replicate. intros i Hi. destruct i as [|[|i]]; [left|right; left|cbn in Hi; lia].
  - vm_compute. reflexivity.
Qed.
