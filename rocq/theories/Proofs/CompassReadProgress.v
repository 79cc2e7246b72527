(** A compass read while it is updated: somebody can always go on. *)
From Verif.Go Require Import GoInt GoFloat GoConc GoCompose.
From Verif.Model Require Import Counter BucketQueue BucketCounter BucketCounterConc BucketReadConc BucketReservoir EWMA EWMAConc Compass CompassConc CompassFine CompassRead.
From Verif.Spec Require Import BucketSpec BucketConcSpec BucketReadSpec CompassConcSpec.
From Verif.Proofs Require Import ComposeProofs CompassConcProofs CompassFineProofs CompassFineParts CompassFineMain CompassReadProofs CompassReadInv CompassReadMain CompassReadCalls CompassReadRest.
From Verif.Props Require Import PCompassFine.
From Verif.Spec Require Import CompassFineSpec CompassReadSpec.
Local Open Scope Z_scope.

(** Calls to come do not block a goroutine that is in a call. *)
Lemma cp_push_none I maxE maxA s t l : (kt_pc t <> PIdle \/ kt_todo t <> []) -> cp_tstep I maxE maxA s t = None -> cp_tstep I maxE maxA s (KThread (kt_todo t ++ l) (kt_pc t) (kt_panics t)) = None.
Proof.
  intros Hne Hs. destruct t as [todo pc pa]. unfold cp_tstep in *. cbn [kt_todo kt_pc kt_panics] in *. destruct (cs_crashed s); [done|]. destruct pc.
  { destruct todo as [|[] todo]; [destruct Hne; done|done..]. }
  all: repeat match type of Hs with
    | context [match ?x with _ => _ end] => destruct x
    | Some _ = None => discriminate Hs
    | None = None => reflexivity
    end.
Qed.

Section progress.
Context (math_Exp : f64 -> f64) (rk : reservoir_kind) (I N maxE maxA : Z).
Notation gs := (cf_gstep math_Exp rk I N maxE maxA).
Notation run := (cr_run math_Exp rk I N maxE maxA).

Lemma gs_push_none s g l : at_rest g = false -> gs s g = None -> gs s (g_push g l) = None.
Proof.
  destruct g as [cl inn loc made]. unfold cf_gstep, gstep, g_push, at_rest. cbn [gt_client gt_in gt_local gt_made]. intros Hr. destruct (cs_crashed _); [done|].
  destruct inn as [k|].
  - unfold inside_of. cbn [gt_local]. destruct (cin_returned _); [done|]. destruct (gs_objs s !! k); [|done]. destruct (cobj_step _ _ _) as [[o' ot']|]; done.
  - change (cf_effect rk I N (gs_client s) (KThread (kt_todo cl ++ l) (kt_pc cl) (kt_panics cl)) (gs_env s)) with (cf_effect rk I N (gs_client s) cl (gs_env s)).
    destruct (cp_tstep I maxE maxA (gs_client s) cl) as [[s1 t1]|] eqn:E.
    + destruct (cf_effect rk I N (gs_client s) cl (gs_env s)) as [[|k o|k a]|]; try done. intros _. by destruct (cp_tstep I maxE maxA (gs_client s) (KThread _ _ _)) as [[s2 t2]|].
    + intros _. rewrite cp_push_none; [done| |done]. destruct (kt_todo cl), (kt_pc cl); try done; first [by left|by right].
Qed.

Section started.
Context (e0 : cenv) (progs : list (list dcall)) (objs0 : gmap ckey cobj).
Context (HS : counter_setting I N) (H0 : cf_objs0 rk I N e0 = Some objs0).
Notation tstep := (cr_tstep math_Exp rk I N maxE maxA (ce_ms e0)).
Notation at_ := (at_ math_Exp rk I N maxE maxA e0 progs objs0).

(** A goroutine in a reading call has begun it. *)
Lemma call_began i call s : forall t pc, threads (at_ s) !! i = Some t -> dt_read t = Some (call, pc) ->
  exists s1 s2 t1, s = s1 ++ s2 /\ threads (at_ s1) !! i = Some t1 /\ idle_thread t1 = true /\ dt_todo t1 = DRead call :: dt_todo t /\ dt_got t1 = dt_got t.
Proof.
  induction s as [|ev s IH] using rev_ind; intros t pc Hi Hr.
  { exfalso. unfold at_ in Hi. cbn in Hi. rewrite list_lookup_fmap in Hi. destruct (progs !! i); [|done]. injection Hi as <-. done. }
  assert (Hsame : forall t' pc', threads (at_ s) !! i = Some t' -> dt_read t' = Some (call, pc') -> dt_todo t' = dt_todo t -> dt_got t' = dt_got t ->
    exists s1 s2 t1, s ++ [ev] = s1 ++ s2 /\ threads (at_ s1) !! i = Some t1 /\ idle_thread t1 = true /\ dt_todo t1 = DRead call :: dt_todo t /\ dt_got t1 = dt_got t).
  { intros t' pc' Hi' Hr' E1 E2. destruct (IH t' pc' Hi' Hr') as (s1 & s2 & t1 & -> & A & B & C & D). exists s1, (s2 ++ [ev]), t1. rewrite app_assoc. split; [done|]. rewrite <- E1, <- E2. done. }
  rewrite at_snoc in Hi. pose proof (at_snoc math_Exp rk I N maxE maxA e0 progs objs0 s ev) as _. destruct (at_ s) as [sh ts] eqn:Eat. destruct ev as [j|e]; cbn [cstep shared threads] in Hi; [|by eapply Hsame].
  destruct (ts !! j) as [u|] eqn:Hj; [|by eapply Hsame]. destruct (tstep sh u) as [[sh' u']|] eqn:Hs; [|by eapply Hsame]. cbn [threads] in Hi.
  apply list_lookup_insert_Some in Hi as [(-> & <- & _)|[_ Hi]]; [|by eapply Hsame].
  unfold cr_tstep in Hs. destruct (cs_crashed _); [done|]. destruct (dt_read u) as [[call' pc']|] eqn:Eu.
  - destruct (read_step _ _ _ _) as [[pc2|a]|]; [..|done]; injection Hs as <- <-; [|done]. injection Hr as <- <-. by eapply Hsame.
  - destruct (at_rest (dt_g u)) eqn:Er.
    + destruct (dt_todo u) as [|[c|c] td] eqn:Et; [done|..]; injection Hs as <- <-; [done|]. injection Hr as <- <-. exists s, [Run i], u. rewrite Eat. split; [done|]. split; [done|].
      unfold idle_thread. rewrite Eu, Er. split; [done|]. by rewrite Et.
    + destruct (cf_gstep _ _ _ _ _ _ _ _) as [[s2 g']|]; [|done]. injection Hs as <- <-. done.
Qed.
Lemma reading_can_step i call s t pc : reading_call rk call -> threads (at_ s) !! i = Some t -> dt_read t = Some (call, pc) -> cs_crashed (gs_client (shared (at_ s))) = false ->
  tstep (shared (at_ s)) t <> None.
Proof using HS H0.
  intros Hcall Hi Hr Hnc. destruct (call_began i call s t pc Hi Hr) as (s1 & s2 & t1 & -> & Hi1 & Hidle & Htodo & Hgot).
  pose proof (fun s pc => reading_steps math_Exp rk I N maxE maxA e0 progs objs0 HS H0 s1 call s pc Hcall) as Hstep.
  destruct (call_run math_Exp rk I N maxE maxA e0 progs objs0 s1 i call t1 (dt_todo t) Hi1 Hidle Htodo (reading_pc math_Exp rk I N maxE maxA e0 progs objs0 s1 call) (fun _ _ => True)) with (s := s2) as (t2 & Ht2 & Hst).
  - intros s. by left.
  - intros s ev pc0. by apply reading_mono.
  - done.
  - intros s pc0 HP. specialize (Hstep s pc0 HP). destruct (read_step _ _ _ _) as [[pc'|a]|]; [by destruct Hstep|done|done].
  - rewrite Hi in Ht2. injection Ht2 as <-. destruct Hst as [->|[(pc2 & -> & HP)|(a & more & E & _)]].
    + unfold idle_thread in Hidle. by rewrite Hr in Hidle.
    + specialize (Hstep s2 pc2 HP). unfold cr_tstep. rewrite Hnc. cbn [dt_read]. destruct (read_step _ _ _ _) as [[pc'|a]|]; done.
    + exfalso. rewrite Hgot in E. apply (f_equal length) in E. rewrite app_length in E. cbn in E. lia.
Qed.
End started.

Lemma setting_shown e0 progs s1 s2 : shown s1 = shown s2 -> reservoir_setting math_Exp rk e0 progs s1 -> reservoir_setting math_Exp rk e0 progs s2.
Proof.
  intros E.
  assert (Hsh : forall e, shows e0 s2 e -> shows e0 s1 e).
  { intros e. unfold shows. intros [->|H]; [by left|right]. clear -E H. assert (He : e ∈ shown s2) by (unfold shown; apply elem_of_list_omap; exists (Env e); done).
    rewrite <- E in He. unfold shown in He. apply elem_of_list_omap in He as (ev & Hin & Hx). destruct ev as [|e']; [done|]. by injection Hx as ->. }
  assert (Hms : ms_of s2 = ms_of s1).
  { assert (Hx : forall s, ms_of s = ce_ms <$> shown s) by (intros s; unfold ms_of, shown; induction s as [|[]]; [done|done|]; cbn; by f_equal). by rewrite !Hx, E. }
  unfold reservoir_setting. destruct rk as [size alpha| |cap]; [|done|].
  - unfold decaying_setting. rewrite Hms. intros (A & B & C & D & F & G & H). refine (conj A (conj B (conj C (conj D (conj F (conj _ H)))))). intros e He. apply G. by apply Hsh.
  - unfold uniform_setting. intros (A & B & C). refine (conj A (conj _ C)). intros e He. apply B. by apply Hsh.
Qed.

(** No deadlock, readers included. *)
Lemma reading_progress e0 progs sched : counter_setting I N -> reservoir_setting math_Exp rk e0 (writes <$> progs) sched -> Forall (Forall (fun d => match d with DRead call => reading_call rk call | DWrite _ => True end)) progs ->
  exists c, run e0 progs sched = Some c /\ (cs_crashed (gs_client (shared c)) = false -> ~ Forall (fun t => dt_todo t = [] /\ idle_thread t = true) (threads c) ->
    exists i t, threads c !! i = Some t /\ cr_tstep math_Exp rk I N maxE maxA (ce_ms e0) (shared c) t <> None).
Proof.
  intros HS HR HP. destruct (run_defined math_Exp rk I N maxE maxA e0 progs sched HS) as [c Hc]. exists c. split; [done|]. intros Hnc Hnot.
  destruct (run_started _ _ _ _ _ _ _ _ _ _ Hc) as (objs0 & H0 & _). pose proof (run_at math_Exp rk I N maxE maxA e0 progs objs0 H0 sched) as Hat. rewrite Hc in Hat. injection Hat as ->.
  pose proof (tinv_run math_Exp rk I N maxE maxA e0 progs HS _ _ Hc) as TI.
  set (c := at_ math_Exp rk I N maxE maxA e0 progs objs0 sched) in *.
  destruct (decide (Exists (fun t => is_Some (dt_read t)) (threads c))) as [Hex|Hno].
  { apply Exists_exists in Hex as (t & Ht & [[call pc] Hr]). apply elem_of_list_lookup in Ht as [i Hi]. exists i, t. split; [done|].
    destruct (Forall2_lookup_r _ _ _ _ _ TI Hi) as (prog & Hp & [T1 T2]). rewrite Hr in T2. destruct T2 as [_ [d T2]].
    eapply (reading_can_step e0 progs objs0 HS H0 i call sched t pc); [|exact Hi|exact Hr|exact Hnc].
    pose proof (proj1 (Forall_lookup _ _) HP _ _ Hp) as HPp. rewrite T1, T2 in HPp. apply Forall_app in HPp as [HPp _]. apply Forall_app in HPp as [_ HPp]. by apply Forall_inv in HPp. }
  assert (Hread : forall i t, threads c !! i = Some t -> dt_read t = None).
  { intros i t Hi. destruct (dt_read t) eqn:E; [|done]. exfalso. apply Hno. apply Exists_exists. exists t. split; [by eapply elem_of_list_lookup_2|]. by rewrite E. }
  destruct (decide (Exists (fun t => at_rest (dt_g t) = true /\ dt_todo t <> []) (threads c))) as [Hex|Hno2].
  { apply Exists_exists in Hex as (t & Ht & Hr & Htd). apply elem_of_list_lookup in Ht as [i Hi]. exists i, t. split; [done|]. unfold cr_tstep. rewrite Hnc, (Hread i t Hi), Hr. destruct (dt_todo t) as [|[]]; done. }
  assert (Htodo : forall i t, threads c !! i = Some t -> at_rest (dt_g t) = true -> dt_todo t = []).
  { intros i t Hi Hr. destruct (dt_todo t) eqn:E; [done|]. exfalso. apply Hno2. apply Exists_exists. exists t. split; [by eapply elem_of_list_lookup_2|]. by rewrite E. }
  destruct (readers_disturb_nothing math_Exp rk I N maxE maxA e0 progs sched c Hc) as (sched' & _ & Hsh & Hrun).
  destruct (C117_no_deadlock math_Exp rk I N maxE maxA e0 (writes <$> progs) sched' HS) as (cc & Hcc & Hprog); [exact (setting_shown e0 (writes <$> progs) sched sched' (eq_sym Hsh) HR)|].
  rewrite Hrun in Hcc. injection Hcc as <-. destruct Hprog as (i & g & Hi & Hg); [exact Hnc| |].
  - intros Hall. apply Hnot. apply Forall_lookup. intros i t Hi. pose proof (proj1 (Forall_lookup _ _) Hall i _ (without_lookup c i t Hi)) as Hr. destruct Hr as (A & B & C). cbn [g_push gt_client gt_in kt_todo kt_pc] in A, B, C.
    assert (Hrest : at_rest (dt_g t) = true) by (unfold at_rest; rewrite B, C; by destruct (kt_todo _)).
    split; [by eapply Htodo|]. unfold idle_thread. by rewrite (Hread i t Hi).
  - unfold without_reads in Hi. cbn [threads] in Hi. rewrite list_lookup_fmap in Hi. destruct (threads c !! i) as [t|] eqn:Et; [|done]. injection Hi as <-. exists i, t. split; [done|].
    unfold cr_tstep. rewrite Hnc, (Hread i t Et). destruct (at_rest (dt_g t)) eqn:Er.
    + exfalso. apply Hg. rewrite (Htodo i t Et Er). change (writes []) with (@nil kcall). rewrite g_push_nil. apply rest_idle in Er as (A & B & C). unfold gstep. cbn [without_reads shared]. rewrite Hnc, C.
      unfold cp_tstep. by rewrite Hnc, A, B.
    + destruct (cf_gstep math_Exp rk I N maxE maxA (shared c) (dt_g t)) as [[s' g']|] eqn:Eg; [done|]. exfalso. apply Hg. exact (gs_push_none _ _ _ Er Eg).
Qed.
End progress.
