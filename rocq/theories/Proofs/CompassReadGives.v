(** A compass read while it is updated: from the methods to the reading calls they make. *)
From Verif.Go Require Import GoInt GoFloat GoConc GoCompose.
From Verif.Model Require Import Counter BucketQueue BucketCounter BucketCounterConc BucketReadConc BucketReservoir EWMA EWMAConc Compass CompassConc CompassFine CompassRead.
From Verif.Spec Require Import BucketSpec BucketConcSpec BucketReadSpec CompassConcSpec.
From Verif.Proofs Require Import CompassReadProofs CompassReadInv CompassReadMain CompassReadCalls.
From Verif.Spec Require Import CompassFineSpec CompassReadSpec.
Local Open Scope Z_scope.

Section gives.
Context (math_Exp : f64 -> f64) (rk : reservoir_kind) (I N maxE maxA : Z).
Context (e0 : cenv) (progs : list (list dcall)).
Notation run := (cr_run math_Exp rk I N maxE maxA e0 progs).
Notation tstep := (cr_tstep math_Exp rk I N maxE maxA (ce_ms e0)).

Lemma gives_reads s1 s2 c1 c2 i r a : run s1 = Some c1 -> run (s1 ++ s2) = Some c2 -> gives c1 c2 i [DRead r] a -> reads c1 c2 i r a.
Proof.
  intros Hc1 Hc2 (t1 & t2 & todo & call & more & T1 & T2 & Hidle & Htodo & Hgot). destruct (run_started _ _ _ _ _ _ _ _ _ _ Hc1) as (objs0 & H0 & _).
  rewrite (run_at _ _ _ _ _ _ _ _ _ H0) in Hc1, Hc2. injection Hc1 as <-. injection Hc2 as <-.
  destruct (call_run math_Exp rk I N maxE maxA e0 progs objs0 s1 i r t1 todo T1 Hidle Htodo (fun _ _ => True) (fun _ _ => True)) with (s := s2) as (t & Ht & Hst); try done.
  { intros s pc _. destruct (read_step _ _ _ _) as [[]|]; done. }
  rewrite T2 in Ht. injection Ht as <-. destruct Hst as [->|[(pc & -> & _)|(a' & more' & E & _)]].
  - apply (f_equal length) in Hgot. rewrite app_length in Hgot. cbn in Hgot. lia.
  - cbn [dt_got] in Hgot. apply (f_equal length) in Hgot. rewrite app_length in Hgot. cbn in Hgot. lia.
  - rewrite E in Hgot. apply app_inv_head in Hgot. injection Hgot as <- <- <-. exists t1, t2, todo, more'. done.
Qed.

(** After an updating call: the reading call begins at a later moment. *)
Lemma gives_reads2 s1 s2 c1 c2 i w r a : run s1 = Some c1 -> run (s1 ++ s2) = Some c2 -> gives c1 c2 i [DWrite w; DRead r] a ->
  exists s2' s2'' c, s2 = s2' ++ s2'' /\ run (s1 ++ s2') = Some c /\ reads c c2 i r a.
Proof.
  intros Hc1 Hc2 (t1 & t2 & todo & call & more & T1 & T2 & Hidle & Htodo & Hgot). destruct (run_started _ _ _ _ _ _ _ _ _ _ Hc1) as (objs0 & H0 & _).
  pose proof (fun s => run_at math_Exp rk I N maxE maxA e0 progs objs0 H0 s) as Hat. set (at_ := at_ math_Exp rk I N maxE maxA e0 progs objs0) in *.
  rewrite Hat in Hc1. injection Hc1 as <-. pose proof Hc2 as Hc2'. rewrite Hat in Hc2'. injection Hc2' as E2. subst c2.
  assert (Hrun : forall s, exists t, threads (at_ (s1 ++ s)) !! i = Some t /\
    (t = t1 \/ (dt_read t = None /\ dt_got t = dt_got t1 /\ dt_todo t = DRead r :: todo /\ at_rest (dt_g t) = false) \/
     exists s' s'' u, s = s' ++ s'' /\ threads (at_ (s1 ++ s')) !! i = Some u /\ idle_thread u = true /\ dt_got u = dt_got t1 /\ dt_todo u = DRead r :: todo)).
  { intros s. induction s as [|ev s IH] using rev_ind; [rewrite app_nil_r; exists t1; split; [done|by left]|]. destruct IH as (t & Ht & Hst).
    assert (Hkeep : threads (at_ (s1 ++ s ++ [ev])) !! i = Some t -> exists t0, threads (at_ (s1 ++ s ++ [ev])) !! i = Some t0 /\ (t0 = t1 \/ (dt_read t0 = None /\ dt_got t0 = dt_got t1 /\ dt_todo t0 = DRead r :: todo /\ at_rest (dt_g t0) = false) \/
     exists s' s'' u, s ++ [ev] = s' ++ s'' /\ threads (at_ (s1 ++ s')) !! i = Some u /\ idle_thread u = true /\ dt_got u = dt_got t1 /\ dt_todo u = DRead r :: todo)).
    { intros E. exists t. split; [done|]. destruct Hst as [?|[?|(s' & s'' & u & -> & Hu)]]; [by left|right; by left|]. right. right. exists s', (s'' ++ [ev]), u. split; [by rewrite app_assoc|done]. }
    assert (Estep : at_ (s1 ++ s ++ [ev]) = cstep tstep (gestep cf_estep cobj_estep) (at_ (s1 ++ s)) ev) by (rewrite app_assoc; apply at_snoc).
    destruct ev as [j|e].
    2: { apply Hkeep. rewrite Estep. destruct (at_ (s1 ++ s)). exact Ht. }
    rewrite Estep in Hkeep. rewrite Estep. destruct (at_ (s1 ++ s)) as [sh ts] eqn:Eat. cbn [cstep shared threads] in *. destruct (ts !! j) as [u|] eqn:Hj; [|by apply Hkeep].
    destruct (tstep sh u) as [[sh' u']|] eqn:Hs; [|by apply Hkeep]. cbn [threads] in *. destruct (decide (j = i)) as [->|Hne]; [|apply Hkeep; by rewrite list_lookup_insert_ne].
    rewrite Ht in Hj. injection Hj as <-. rewrite list_lookup_insert by (by eapply lookup_lt_Some). exists u'. split; [done|]. clear Hkeep.
    assert (Hnow : at_rest (dt_g u') = true -> dt_read u' = None -> dt_got u' = dt_got t1 -> dt_todo u' = DRead r :: todo -> exists s' s'' u, s ++ [Run i] = s' ++ s'' /\ threads (at_ (s1 ++ s')) !! i = Some u /\ idle_thread u = true /\ dt_got u = dt_got t1 /\ dt_todo u = DRead r :: todo).
    { intros A1 A2 A3 A4. exists (s ++ [Run i]), [], u'. split; [by rewrite app_nil_r|]. rewrite Estep. cbn [threads]. rewrite list_lookup_insert by (by eapply lookup_lt_Some). split; [done|]. unfold idle_thread. by rewrite A2. }
    destruct Hst as [->|[(A1 & A2 & A3 & A4)|(s' & s'' & u & -> & Hu)]].
    - right. unfold idle_thread in Hidle. unfold cr_tstep in Hs. destruct (cs_crashed _); [done|]. destruct (dt_read t1) eqn:Er; [done|]. rewrite Hidle, Htodo in Hs. injection Hs as <- <-. cbn [dt_todo dt_g dt_read dt_got app] in *.
      destruct (at_rest (g_push _ _)) eqn:Ea; [right; by apply Hnow|left; done].
    - right. unfold cr_tstep in Hs. destruct (cs_crashed _); [done|]. rewrite A1, A4 in Hs. destruct (cf_gstep _ _ _ _ _ _ _ _) as [[s'' g']|]; [|done]. injection Hs as <- <-. cbn [dt_todo dt_g dt_read dt_got] in *.
      destruct (at_rest g') eqn:Ea; [right; by apply Hnow|left; done].
    - right. right. exists s', (s'' ++ [Run i]), u. split; [by rewrite app_assoc|done]. }
  destruct (Hrun s2) as (t & Ht & Hst). rewrite T2 in Ht. injection Ht as <-.
  assert (Hlt : dt_got t2 <> dt_got t1) by (rewrite Hgot; intros E; apply (f_equal length) in E; rewrite app_length in E; cbn in E; lia).
  destruct Hst as [->|[(_ & A2 & _)|(s' & s'' & u & E & Hu & Hidle' & Hg & Ht)]]; [done..|].
  exists s', s'', (at_ (s1 ++ s')). split; [done|]. split; [apply Hat|]. subst s2. rewrite app_assoc in Hc2, T2 |- *. eapply gives_reads; [apply Hat|exact Hc2|].
  exists u, t2, todo, call, more. rewrite Hg. done.
Qed.
End gives.
