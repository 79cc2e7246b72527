(** The latest interval of a compass at successive moments, and what LastUpdateTime returns in
    between; in the whole library two calls one after the other. *)
From Verif.Go Require Import GoInt GoFloat GoConc GoCompose.
From Verif.Model Require Import Config Registry RegistryConc BucketQueue BucketCounter BucketCounterConc FastCompass FastCompassConc FastCompassFine Compass CompassTypes CompassConc CompassFine CompassRead SystemConc.
From Verif.Spec Require Import BucketSpec BucketConcSpec CompassConcSpec CompassFineSpec CompassReadSpec RegistrySpec RegistryConcSpec SystemSpec.
From Verif.Proofs Require Import ComposeProofs CompassReadProofs CompassReadInv CompassReadMain CompassReadRest CompassReadCalls CompassReadGives SystemProofs SystemMain SystemUse SystemHistory SystemRead SystemProgress SystemOrder.
From Verif.Props Require Import PCompassRead PSystemRead.
Local Open Scope Z_scope.

(** The start of the latest bucket of the counter [k] of the compass with the objects [s]; when
    it was created. *)
Definition latest_in k (s : gshared cp_shared cenv ckey cobj) : Z :=
  match counter_of s k with
  | Some b => match bc_heap (bs_bc b) !! bc_latestBucket (bs_bc b) with Some bk => bk_ts bk | None => -1 end
  | None => -1
  end.
Definition created_in k (s : gshared cp_shared cenv ckey cobj) : Z :=
  match counter_of s k with Some b => bc_initTimestamp (bs_bc b) | None => 0 end.

Section compass.
Context (math_Exp : f64 -> f64) (rk : reservoir_kind) (I N maxE maxA : Z) (e0 : cenv) (progs : list (list dcall)).
Notation run := (cr_run math_Exp rk I N maxE maxA e0 progs).
Context (HS : counter_setting I N).

Lemma last_order s1 s2 c1 c2 : run s1 = Some c1 -> run (s1 ++ s2) = Some c2 ->
  latest_in KTotal (shared c1) <= latest_in KTotal (shared c2) /\ created_in KTotal (shared c1) = ce_ms e0 /\ created_in KTotal (shared c2) = ce_ms e0 /\
  forall i a, reads c1 c2 i (RLast KTotal) a ->
    exists v, a = AInt (if v <=? 0 then ce_ms e0 else v) /\ latest_in KTotal (shared c1) <= v <= latest_in KTotal (shared c2) /\
      (v = -1 \/ exists now, now ∈ times (ce_ms e0) (s1 ++ s2) /\ 1000 * v = trunc_key (interval_seconds I) now).
Proof.
  intros Hc1 Hc2. assert (Hm : main_counter rk KTotal) by exact Logic.I. destruct (started math_Exp rk I N maxE maxA e0 progs HS) as [objs0 H0].
  rewrite (run_at _ _ _ _ _ _ _ _ _ H0) in Hc1, Hc2. injection Hc1 as <-. injection Hc2 as <-.
  assert (V : forall s, created_in KTotal (shared (at_ math_Exp rk I N maxE maxA e0 progs objs0 s)) = ce_ms e0).
  { intros s. destruct (latest_state math_Exp rk I N maxE maxA e0 progs objs0 HS H0 KTotal s Hm) as (b & Eb & _). unfold created_in. rewrite Eb. by eapply init_at. }
  split; [by apply (latest_mono math_Exp rk I N maxE maxA e0 progs objs0 HS H0 KTotal)|]. split; [apply V|]. split; [apply V|].
  intros i a Hr. destruct (CompassReadRest.last_answer math_Exp rk I N maxE maxA e0 progs objs0 HS H0 _ _ _ _ _ Hm Hr) as (s' & [z ->] & ->).
  exists (latest math_Exp rk I N maxE maxA e0 progs objs0 KTotal (s1 ++ s')). split; [done|]. split.
  - split; [by apply (latest_mono math_Exp rk I N maxE maxA e0 progs objs0 HS H0 KTotal)|].
    pose proof (latest_mono math_Exp rk I N maxE maxA e0 progs objs0 HS H0 KTotal (s1 ++ s') z Hm) as H. rewrite <- app_assoc in H. exact H.
  - destruct (latest_state math_Exp rk I N maxE maxA e0 progs objs0 HS H0 KTotal (s1 ++ s') Hm) as (_ & _ & _ & H & _). destruct H as [H|(now & Hn & H)]; [by left|right].
    exists now. split; [|exact H]. revert Hn. rewrite !times_wrap. unfold shown. rewrite !omap_app, !fmap_app. clear. set_solver.
Qed.
End compass.

Section system.
Context (math_Exp : f64 -> f64) (maxs : list Z) (e0 : cenv) (plans : list (list saction)).
Notation run := (sy_run math_Exp maxs e0 plans).
Definition latest_at (c : system) (ref : nat) : Z := match reading_at c ref with Some cc => latest_in KTotal (shared cc) | None => -1 end.
Definition created_at (c : system) (ref : nat) : Z := match reading_at c ref with Some cc => created_in KTotal (shared cc) | None => 0 end.

Lemma last_call_between s1 s2 i ref p a : asks_compass (run s1) (run (s1 ++ s2)) i ref p LastUpdateTime a ->
  exists v e, a = AInt (if v <=? 0 then created_at (run s1) ref else v) /\ latest_at (run s1) ref <= v <= latest_at (run (s1 ++ s2)) ref /\
    e ∈ e0 :: shown s1 /\ created_at (run s1) ref = ce_ms e /\ created_at (run (s1 ++ s2)) ref = ce_ms e /\
    (v = -1 \/ exists x, x ∈ e0 :: shown (s1 ++ s2) /\ 1000 * v = trunc_key (interval_seconds (cpp_bucketInterval p)) (wrap64 (ce_ms x))).
Proof.
  intros Ha. destruct (C143_methods math_Exp maxs e0 plans s1 s2 i ref p _ a Ha) as (before & e & es & progs & tr1 & tr2 & cc1 & cc2 & E1 & E2 & E3 & HS & C1 & C2 & Hg & (ts & R1) & R2 & _ & _ & _).
  pose proof (gives_reads _ _ _ _ _ _ _ _ _ _ _ _ _ _ _ C1 C2 Hg) as Hr.
  destruct (last_order math_Exp RBucket (cpp_bucketInterval p) 10 20 20 e progs HS tr1 tr2 cc1 cc2 C1 C2) as (H1 & H2 & H3 & H4). destruct (H4 _ _ Hr) as (v & -> & Hv & Hx).
  unfold latest_at, created_at. rewrite R1, R2. cbn [shared]. exists v, e. rewrite H2, H3. split; [done|]. split; [exact Hv|]. split; [rewrite E1; set_solver|]. split; [done|]. split; [done|].
  destruct Hx as [->|(now & Hn & Hx)]; [by left|right].
  rewrite times_wrap in Hn. assert (Eapp : shown (tr1 ++ tr2) = es ++ shown s2) by (unfold shown at 1; rewrite omap_app; change (shown tr1 ++ shown tr2 = es ++ shown s2); by rewrite E2, E3). rewrite Eapp in Hn.
  assert (Eapp2 : e0 :: shown (s1 ++ s2) = before ++ (e :: es ++ shown s2)) by (unfold shown at 1; rewrite omap_app; change (e0 :: shown s1 ++ shown s2 = before ++ (e :: es) ++ shown s2); rewrite app_assoc, <- E1; done). rewrite Eapp2.
  change (wrap64 (ce_ms e) :: ((fun x => wrap64 (ce_ms x)) <$> (es ++ shown s2))) with ((fun x => wrap64 (ce_ms x)) <$> (e :: es ++ shown s2)) in Hn.
  apply elem_of_list_fmap in Hn as (y & -> & Hy). exists y. split; [apply elem_of_app; by right|done].
Qed.

Lemma last_between s1 s2 ref p : (exists i j, given (run s1) i j = Some (MCompass ref p)) ->
  latest_at (run s1) ref <= latest_at (run (s1 ++ s2)) ref /\ created_at (run s1) ref = created_at (run (s1 ++ s2)) ref.
Proof.
  intros Hex. destruct (compass_between math_Exp maxs e0 plans s1 s2 ref p Hex) as (before & e & es & tr1 & tr2 & cc1 & cc2 & s & later & E1 & E2 & E3 & R1 & R2 & Hlen & Hcalls & Ecc1 & C1 & C2).
  destruct Hex as (i' & j' & Hg). pose proof (given_fits plans _ _ _ _ (sinv_run math_Exp maxs e0 plans s1) Hg) as [[nm Hnm] _].
  destruct (created_params _ _ _ Hnm) as (Q1 & HS & Q2 & Q3 & Q4 & _). rewrite Q1, Q2, Q3, Q4 in C1, C2. rewrite Q2 in HS. cbv zeta in C1, C2.
  destruct (last_order math_Exp RBucket (cpp_bucketInterval p) 10 20 20 e _ HS tr1 tr2 cc1 cc2 C1 C2) as (H1 & H2 & H3 & _).
  unfold latest_at, created_at. rewrite R1, R2. cbn [shared]. subst cc1. cbn [shared] in H1, H2. by rewrite H2, H3.
Qed.
End system.
