(** C151: two calls of counting getters of a compass through handles, one after the other,
    in the whole library, while others look metrics up and update this and other metrics.
    [sy_run] as in Props/PSystem.v, [asks_compass] as in Props/PSystemRead.v: the first call
    takes place during [s2], the second, of the same or another goroutine, through the same
    or another handle of the same compass, during [s4]. *)
From Verif.Go Require Import GoInt GoFloat GoConc GoCompose.
From Verif.Model Require Import Config Registry RegistryConc BucketCounter BucketCounterConc FastCompass FastCompassConc FastCompassFine Compass CompassTypes CompassConc CompassFine CompassRead SystemConc.
From Verif.Spec Require Import BucketSpec CompassConcSpec CompassFineSpec CompassReadSpec RegistrySpec RegistryConcSpec SystemSpec.
From Verif.Proofs Require Import SystemRead SystemOrder.
From Verif.Props Require Import PDecaying PSystemRead.
Local Open Scope Z_scope.

Section system.
Context (math_Exp : f64 -> f64) (maxs : list Z) (e0 : cenv) (plans : list (list saction)).
Notation run := (sy_run math_Exp maxs e0 plans).
(** Fewer than 2^63 updates are planned. *)
Notation few_updates := (Z.of_nat (length (planned durations (compass_programs (fun _ _ => true) plans))) < 2 ^ 63).

(** C151: the second GetCount (GetSuccessCount) does not report less than the first. *)
Theorem C151_counts_never_fall s1 s2 s3 s4 i j ref p method a b : few_updates -> method = GetCount \/ method = GetSuccessCount ->
  asks_compass (run s1) (run (s1 ++ s2)) i ref p method a ->
  asks_compass (run ((s1 ++ s2) ++ s3)) (run (((s1 ++ s2) ++ s3) ++ s4)) j ref p method b ->
  exists n m, a = AInt n /\ b = AInt m /\ 0 <= n <= m.
Proof.
  intros Hn Hm Ha Hb. assert (Hk : exists k, (k = KTotal \/ k = KSuccess) /\ method = [DRead (RCount k)]) by (destruct Hm as [-> | ->]; eauto). destruct Hk as (k & Hk & ->).
  destruct (call_between _ _ _ _ k _ _ _ _ _ _ Hn Hk Ha) as (n & -> & H1 & H2 & _). destruct (call_between _ _ _ _ k _ _ _ _ _ _ Hn Hk Hb) as (m & -> & H3 & H4 & _).
  destruct (asked_given _ _ _ _ _ _ _ _ _ _ _ Ha) as (x & y & Hg). pose proof (given_later math_Exp maxs e0 plans s1 s2 x y _ Hg) as Hg2.
  pose proof (counted_between math_Exp maxs e0 plans k (s1 ++ s2) s3 ref p Hn Hk ltac:(eauto)) as H5. exists n, m. split; [done|]. split; [done|]. lia.
Qed.

(** C151: a GetSuccessCount that has returned when a GetCount begins did not report more than
    this GetCount does: the success rate computed from them is at most one. *)
Theorem C151_success_rate s1 s2 s3 s4 i j ref p a b : few_updates ->
  asks_compass (run s1) (run (s1 ++ s2)) i ref p GetSuccessCount a ->
  asks_compass (run ((s1 ++ s2) ++ s3)) (run (((s1 ++ s2) ++ s3) ++ s4)) j ref p GetCount b ->
  exists successes total, a = AInt successes /\ b = AInt total /\ 0 <= successes <= total.
Proof.
  intros Hn Ha Hb. destruct (call_between _ _ _ _ KSuccess _ _ _ _ _ _ Hn (or_intror eq_refl) Ha) as (n & -> & H1 & H2 & _). destruct (call_between _ _ _ _ KTotal _ _ _ _ _ _ Hn (or_introl eq_refl) Hb) as (m & -> & H3 & H4 & H6).
  destruct (asked_given _ _ _ _ _ _ _ _ _ _ _ Ha) as (x & y & Hg). pose proof (given_later math_Exp maxs e0 plans s1 s2 x y _ Hg) as Hg2.
  pose proof (counted_between math_Exp maxs e0 plans KSuccess (s1 ++ s2) s3 ref p Hn (or_intror eq_refl) ltac:(eauto)) as H5. exists n, m. split; [done|]. split; [done|]. lia.
Qed.
End system.
Print Assumptions C151_counts_never_fall.
Print Assumptions C151_success_rate.

(** The hypotheses are met: the plans and the schedule of [C143_case] with one more goroutine,
    which asks for GetCount when the first answer is there and then everyone goes on. *)
Definition order_plans (first : list dcall) : list (list saction) := read_plans first ++ [[SUse 0 0 (UCompass GetCount)]].
Definition order_at (first : list dcall) (sched : list (event cenv)) : system := sy_run (fun x => x) [] (CEnv 5000000000 5000 half [3]) (order_plans first) sched.
Definition order_then : list (event cenv) := mjoin (replicate 30 [Run 0; Run 1]%nat).
Definition order_during : list (event cenv) := replicate 20 (Run 3%nat).
Example C151_case :
  forallb (fun first => few (order_plans first)) [GetCount; GetSuccessCount] = true /\
  shown_answer (last_answer (order_at GetCount read_before) (order_at GetCount (read_before ++ read_during)) 2 0 read_params) = Some (inl (Some 2)) /\
  shown_answer (last_answer (order_at GetSuccessCount read_before) (order_at GetSuccessCount (read_before ++ read_during)) 2 0 read_params) = Some (inl (Some 1)) /\
  shown_answer (last_answer (order_at GetCount ((read_before ++ read_during) ++ order_then)) (order_at GetCount (((read_before ++ read_during) ++ order_then) ++ order_during)) 3 0 read_params) = Some (inl (Some 3)).
Proof. refine (conj _ (conj _ (conj _ _))); vm_compute; reflexivity. Qed.
