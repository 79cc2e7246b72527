(** The counts of a compass at successive moments, and what its getters return in between;
    in the whole library two calls of getters one after the other. *)
From Verif.Go Require Import GoInt GoFloat GoConc GoCompose.
From Verif.Model Require Import Config Registry RegistryConc BucketCounter BucketCounterConc FastCompass FastCompassConc FastCompassFine Compass CompassTypes CompassConc CompassFine CompassRead SystemConc.
From Verif.Spec Require Import BucketSpec BucketConcSpec CompassConcSpec CompassFineSpec CompassReadSpec RegistrySpec RegistryConcSpec SystemSpec.
From Verif.Proofs Require Import ComposeProofs CompassReadProofs CompassReadInv CompassReadMain CompassReadCalls CompassReadGives CompassReadOrder SystemProofs SystemMain SystemUse SystemHistory SystemRead SystemProgress.
From Verif.Props Require Import PCompassRead PSystemRead.
Local Open Scope Z_scope.

(** What the counter [k] of the compass with the objects [s] has counted. *)
Definition counted k (s : gshared cp_shared cenv ckey cobj) : Z := match counter_of s k with Some b => bc_GetCount (bs_bc b) | None => 0 end.

Section compass.
Context (math_Exp : f64 -> f64) (rk : reservoir_kind) (I N maxE maxA : Z) (e0 : cenv) (progs : list (list dcall)).
Notation run := (cr_run math_Exp rk I N maxE maxA e0 progs).
Context (HS : counter_setting I N) (Hn : Z.of_nat (length (planned durations (writes <$> progs))) < 2 ^ 63).

Lemma counted_order k s1 s2 c1 c2 : k = KTotal \/ k = KSuccess -> run s1 = Some c1 -> run (s1 ++ s2) = Some c2 ->
  0 <= counted k (shared c1) <= counted k (shared c2) /\ counted KSuccess (shared c1) <= counted KTotal (shared c1) /\
  forall i n, reads c1 c2 i (RCount k) (AInt n) -> counted k (shared c1) <= n <= counted k (shared c2).
Proof.
  intros Hk Hc1 Hc2. assert (Hm : main_counter rk k) by (by destruct Hk as [->| ->]). destruct (started math_Exp rk I N maxE maxA e0 progs HS) as [objs0 H0].
  pose proof (begun_le _ _ _ _ _ _ _ _ _ _ HS Hc2) as Hle. rewrite (run_at _ _ _ _ _ _ _ _ _ H0) in Hc1, Hc2. injection Hc1 as <-. injection Hc2 as <-.
  set (T := counts math_Exp rk I N maxE maxA e0 progs objs0).
  assert (V : forall k' s' z, k' = KTotal \/ k' = KSuccess -> s1 ++ s2 = s' ++ z -> wrap64 (sumZ (T k' s')) = Z.of_nat (length (T k' s')) /\ counted k' (shared (at_ math_Exp rk I N maxE maxA e0 progs objs0 s')) = Z.of_nat (length (T k' s'))).
  { intros k' s' z Hk' Es. assert (Hm' : main_counter rk k') by (by destruct Hk' as [->| ->]).
    destruct (count_value math_Exp rk I N maxE maxA e0 progs objs0 HS H0 k' s' Hm') as (b & Eb & Ev & _). destruct (count_value math_Exp rk I N maxE maxA e0 progs objs0 HS H0 k' (s1 ++ s2) Hm') as (_ & _ & _ & _ & B). fold T in Ev, B.
    destruct (counts_prefix math_Exp rk I N maxE maxA e0 progs objs0 k' s' z) as [l P]. fold T in P. rewrite <- Es in P. rewrite P in B.
    destruct (ones k' (begun progs (at_ math_Exp rk I N maxE maxA e0 progs objs0 (s1 ++ s2))) Hk') as [_ F]. pose proof B as B'. apply submseteq_Permutation in B' as [r E]. rewrite E in F. apply Forall_app in F as [F _]. apply Forall_app in F as [F _].
    apply submseteq_length in B. rewrite app_length in B. pose proof (amounts_le k' (begun progs (at_ math_Exp rk I N maxE maxA e0 progs objs0 (s1 ++ s2)))).
    assert (Hw : wrap64 (sumZ (T k' s')) = Z.of_nat (length (T k' s'))) by (rewrite (ones_sum _ F); apply wrap64_id; unfold in64, two63; lia).
    split; [exact Hw|]. unfold counted. rewrite Eb, Ev. exact Hw. }
  assert (P : forall s' z, (length (T k s') <= length (T k (s' ++ z)))%nat).
  { intros s' z. destruct (counts_prefix math_Exp rk I N maxE maxA e0 progs objs0 k s' z) as [l E]. fold T in E. rewrite E, app_length. lia. }
  destruct (V k s1 s2 Hk eq_refl) as [_ ->]. destruct (V k (s1 ++ s2) [] Hk ltac:(by rewrite app_nil_r)) as [_ ->].
  destruct (V KSuccess s1 s2 ltac:(by right) eq_refl) as [_ ->]. destruct (V KTotal s1 s2 ltac:(by left) eq_refl) as [_ ->].
  pose proof (success_after_total math_Exp rk I N maxE maxA e0 progs objs0 HS H0 s1) as Hst. fold T in Hst. pose proof (P s1 s2).
  split; [lia|]. split; [lia|]. intros i n Hr.
  destruct (count_answer math_Exp rk I N maxE maxA e0 progs objs0 HS H0 _ _ _ k _ Hm Hr) as (x & [y ->] & E). fold T in E. injection E as ->.
  destruct (V k (s1 ++ x) y Hk ltac:(by rewrite app_assoc)) as [-> _]. pose proof (P s1 x). pose proof (P (s1 ++ x) y). rewrite <- app_assoc in *. lia.
Qed.
End compass.

Section system.
Context (math_Exp : f64 -> f64) (maxs : list Z) (e0 : cenv) (plans : list (list saction)).
Notation run := (sy_run math_Exp maxs e0 plans).
Notation few_updates := (Z.of_nat (length (planned durations (compass_programs (fun _ _ => true) plans))) < 2 ^ 63).
Definition counted_at k (c : system) (ref : nat) : Z := match reading_at c ref with Some cc => counted k (shared cc) | None => 0 end.

Lemma call_between k s1 s2 i ref p a : few_updates -> k = KTotal \/ k = KSuccess -> asks_compass (run s1) (run (s1 ++ s2)) i ref p [DRead (RCount k)] a ->
  exists n, a = AInt n /\ 0 <= counted_at k (run s1) ref <= n /\ n <= counted_at k (run (s1 ++ s2)) ref /\ counted_at KSuccess (run s1) ref <= counted_at KTotal (run s1) ref.
Proof.
  intros Hn Hk Ha. destruct (C143_methods math_Exp maxs e0 plans s1 s2 i ref p _ a Ha) as (before & e & es & progs & tr1 & tr2 & cc1 & cc2 & _ & _ & _ & HS & C1 & C2 & Hg & (ts & R1) & R2 & P & _ & _).
  pose proof (progress_le _ _ _ _ (threads_length math_Exp maxs e0 plans (s1 ++ s2)) P) as Hle. assert (Hn' : Z.of_nat (length (planned durations (writes <$> progs))) < 2 ^ 63) by lia.
  pose proof (gives_reads _ _ _ _ _ _ _ _ _ _ _ _ _ _ _ C1 C2 Hg) as Hr. assert (Hm : main_counter RBucket k) by (by destruct Hk as [->| ->]).
  destruct (C134_counts math_Exp RBucket (cpp_bucketInterval p) 10 20 20 e progs k Hm HS) as (T & _ & _ & HT). destruct (HT _ _ _ _ _ _ C1 C2 Hr) as (s' & _ & ->).
  destruct (counted_order math_Exp RBucket (cpp_bucketInterval p) 10 20 20 e progs HS Hn' k tr1 tr2 cc1 cc2 Hk C1 C2) as (H1 & H2 & H3). specialize (H3 _ _ Hr).
  eexists. split; [reflexivity|]. unfold counted_at. rewrite R1, R2. cbn [shared]. lia.
Qed.
Lemma counted_between k s1 s2 ref p : few_updates -> k = KTotal \/ k = KSuccess -> (exists i j, given (run s1) i j = Some (MCompass ref p)) ->
  counted_at k (run s1) ref <= counted_at k (run (s1 ++ s2)) ref.
Proof.
  intros Hn Hk Hex. destruct (compass_between math_Exp maxs e0 plans s1 s2 ref p Hex) as (before & e & es & tr1 & tr2 & cc1 & cc2 & s & later & E1 & E2 & E3 & R1 & R2 & Hlen & Hcalls & Ecc1 & C1 & C2).
  destruct Hex as (i' & j' & Hg). pose proof (given_fits plans _ _ _ _ (sinv_run math_Exp maxs e0 plans s1) Hg) as [[nm Hnm] _].
  destruct (created_params _ _ _ Hnm) as (Q1 & HS & Q2 & Q3 & Q4 & _). rewrite Q1, Q2, Q3, Q4 in C1, C2. rewrite Q2 in HS.
  assert (P : progressed compass_calls (is_given (run (s1 ++ s2)) (MCompass ref p)) plans (run (s1 ++ s2)) ((fun t => compass_calls (calls_of ref (gt_made t))) <$> threads (run (s1 ++ s2)))).
  { pose proof (sinv_run math_Exp maxs e0 plans (s1 ++ s2)) as HI2. split; [rewrite fmap_length; by rewrite (threads_length math_Exp maxs e0 plans (s1 ++ s2))|]. intros q t pl prog Hq Hpl Hpr. rewrite list_lookup_fmap, Hq in Hpr. injection Hpr as <-.
    destruct (si_threads _ _ HI2 q t Hq) as [_ _ _ (bef & T4 & _ & T6)]. rewrite T6. rewrite (made_compass plans _ bef ref p HI2) by (exists i', j'; by apply given_later). rewrite T4 in Hpl. injection Hpl as <-. split.
    - rewrite uses_app, compass_calls_app. by eexists.
    - intros (F1 & _ & _). by rewrite F1, app_nil_r. }
  pose proof (progress_le _ _ _ _ (threads_length math_Exp maxs e0 plans (s1 ++ s2)) P) as Hle.
  cbv zeta in C1, C2, Hle. set (progs := (fun t => compass_calls (calls_of ref (gt_made t))) <$> threads (run (s1 ++ s2))) in *.
  assert (Hn' : Z.of_nat (length (planned durations (writes <$> progs))) < 2 ^ 63) by lia.
  destruct (counted_order math_Exp RBucket (cpp_bucketInterval p) 10 20 20 e progs HS Hn' k tr1 tr2 cc1 cc2 Hk C1 C2) as (H1 & _).
  unfold counted_at. rewrite R1, R2. cbn [shared]. subst cc1. cbn [shared] in H1. lia.
Qed.
Lemma asked_given s1 s2 i ref p method a : asks_compass (run s1) (run (s1 ++ s2)) i ref p method a -> exists i j, given (run s1) i j = Some (MCompass ref p).
Proof. intros (t1 & t2 & i' & j' & plan & got & call & _ & _ & _ & _ & _ & Hg & _). eauto. Qed.
End system.
