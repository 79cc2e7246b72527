(** C156: LastUpdateTime of a compass through handles, in the whole library, while others look
    metrics up and update this and other metrics.  [sy_run] as in Props/PSystem.v,
    [asks_compass] as in Props/PSystemRead.v: the first call takes place during [s2], the
    second, of the same or another goroutine, through the same or another handle of the same
    compass, during [s4]. *)
From Verif.Go Require Import GoInt GoFloat GoConc GoCompose.
From Verif.Model Require Import Config Registry RegistryConc BucketCounter BucketCounterConc FastCompass FastCompassConc FastCompassFine Compass CompassTypes CompassConc CompassFine CompassRead SystemConc.
From Verif.Spec Require Import BucketSpec CompassConcSpec CompassFineSpec CompassReadSpec RegistrySpec RegistryConcSpec SystemSpec.
From Verif.Proofs Require Import SystemRead SystemOrder SystemLast.
From Verif.Props Require Import PDecaying PSystemRead PSystemOrder.
Local Open Scope Z_scope.

Section system.
Context (math_Exp : f64 -> f64) (maxs : list Z) (e0 : cenv) (plans : list (list saction)).
Notation run := (sy_run math_Exp maxs e0 plans).

(** What it reports: the milliseconds at which the compass was created, or (in seconds) the
    start of the interval of a time the clock has shown. *)
Theorem C156_value_partial s1 s2 i ref p a :
  asks_compass (run s1) (run (s1 ++ s2)) i ref p LastUpdateTime a ->
  exists n, a = AInt n /\
    ((exists created, created ∈ e0 :: shown s1 /\ n = ce_ms created) \/
     (0 < n /\ exists e, e ∈ e0 :: shown (s1 ++ s2) /\ 1000 * n = trunc_key (interval_seconds (cpp_bucketInterval p)) (wrap64 (ce_ms e)))).
Proof.
  intros Ha. destruct (last_call_between math_Exp maxs e0 plans _ _ _ _ _ _ Ha) as (v & e & -> & _ & He & Ec & _ & Hv).
  eexists. split; [reflexivity|]. destruct (Z.leb_spec v 0) as [Hle|Hlt]; [left; eauto|right]. split; [done|]. destruct Hv as [->|Hv]; [lia|done].
Qed.

(** C156 (what is missing: the step down of [C156_refuted]).  A LastUpdateTime that begins
    after another one has returned does not report less, unless the first one reported the
    creation time; it then reports the start of an interval. *)
Theorem C156_partial s1 s2 s3 s4 i j ref p a b :
  asks_compass (run s1) (run (s1 ++ s2)) i ref p LastUpdateTime a ->
  asks_compass (run ((s1 ++ s2) ++ s3)) (run (((s1 ++ s2) ++ s3) ++ s4)) j ref p LastUpdateTime b ->
  exists n m created, a = AInt n /\ b = AInt m /\ created ∈ e0 :: shown s1 /\
    (n = ce_ms created \/
     (n <= m /\ exists e, e ∈ e0 :: shown (((s1 ++ s2) ++ s3) ++ s4) /\ 1000 * m = trunc_key (interval_seconds (cpp_bucketInterval p)) (wrap64 (ce_ms e)))).
Proof.
  intros Ha Hb. destruct (last_call_between math_Exp maxs e0 plans _ _ _ _ _ _ Ha) as (v & e & -> & Hv & He & Ec & Ec2 & _).
  destruct (last_call_between math_Exp maxs e0 plans _ _ _ _ _ _ Hb) as (w & e' & -> & Hw & _ & _ & _ & Hx).
  destruct (asked_given _ _ _ _ _ _ _ _ _ _ _ Ha) as (x & y & Hg). pose proof (given_later math_Exp maxs e0 plans s1 s2 x y _ Hg) as Hg2.
  destruct (last_between math_Exp maxs e0 plans (s1 ++ s2) s3 ref p ltac:(eauto)) as [H5 H6].
  eexists _, _, e. split; [reflexivity|]. split; [reflexivity|]. split; [exact He|].
  destruct (Z.leb_spec v 0) as [Hle|Hlt]; [by left|right]. destruct (Z.leb_spec w 0); [lia|]. split; [lia|]. destruct Hx as [->|Hx]; [lia|done].
Qed.
End system.
Print Assumptions C156_value_partial.
Print Assumptions C156_partial.

(** C156 is false: before the first update it reports when the compass was created, in
    milliseconds; after it, the interval of the update, in seconds.  The hypotheses of
    [C156_partial] are met by the same run and by one more call. *)
Definition last_plans : list (list saction) :=
  [[SLookup (GLookup "app" KCompass (NameRef "a" 0)); SUse 0 0 (UCompass [DWrite (KUpdate 5 (Some (MkResult true "" "")))]); SUse 0 0 (UCompass [DWrite (KUpdate 6 None)])];
   [SUse 0 0 (UCompass LastUpdateTime)]; [SUse 0 0 (UCompass LastUpdateTime)]; [SUse 0 0 (UCompass LastUpdateTime)]].
Definition last_at (sched : list (event cenv)) : system := sy_run (fun x => x) [] (CEnv 5000000000 5000 half [3]) last_plans sched.
Definition last_made : list (event cenv) := replicate 10 (Run 0%nat).
Definition last_first : list (event cenv) := replicate 6 (Run 1%nat).
Definition last_update : list (event cenv) := replicate 17 (Run 0%nat).
Definition last_second : list (event cenv) := replicate 6 (Run 2%nat).
Definition last_later : list (event cenv) := Env (CEnv 9000000000 8500 half [3]) :: replicate 120 (Run 0%nat).
Definition last_third : list (event cenv) := replicate 6 (Run 3%nat).
Definition last_all : list (event cenv) := ((last_made ++ last_first) ++ last_update) ++ last_second.
Theorem C156_refuted :
  asks_compass (last_at last_made) (last_at (last_made ++ last_first)) 1 0 read_params LastUpdateTime (AInt 5000) /\
  asks_compass (last_at ((last_made ++ last_first) ++ last_update)) (last_at last_all) 2 0 read_params LastUpdateTime (AInt 5).
Proof. split; apply last_answer_asks; vm_compute; reflexivity. Qed.
Print Assumptions C156_refuted.
Example C156_case : asks_compass (last_at (last_all ++ last_later)) (last_at ((last_all ++ last_later) ++ last_third)) 3 0 read_params LastUpdateTime (AInt 8).
Proof. apply last_answer_asks; vm_compute; reflexivity. Qed.
