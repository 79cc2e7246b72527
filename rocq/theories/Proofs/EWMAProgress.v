(** Every call of an EWMA returns. *)
From Verif.Go Require Import GoInt GoFloat GoConc.
From Verif.Model Require Import EWMA EWMAConc.
From Verif.Spec Require Import BucketSpec EWMAConcSpec ProgressSpec EWMAProgressSpec.
From Verif.Proofs Require Import BucketHist EWMAConcProofs ProgressLemmas.
Local Open Scope Z_scope.

(** What a goroutine may still cost; [u]: the pending count. *)
Definition pc_pot (n : nat) (u : Z) (pc : epc) : Z :=
  match pc with
  | EIdle => 0
  | ELoad => 6 + 2 * Z.of_nat n
  | ECas old => (if u =? old then 5 else 7) + 2 * Z.of_nat n
  | ELock _ => 4 | ERead _ => 3 | EWrite _ _ => 2 | EUnlock => 1
  end.
Definition e_pot (n : nat) (u : Z) (t : ethread) : Z := sumZ (call_cost n <$> et_todo t) + pc_pot n u (et_pc t).
Lemma pc_pot_nonneg n u pc : 0 <= pc_pot n u pc.
Proof. destruct pc; cbn [pc_pot]; try destruct (u =? _); lia. Qed.
Lemma call_cost_pos n c : 1 <= call_cost n c.
Proof. destruct c; cbn; lia. Qed.
Lemma e_pot_nonneg n u t : 0 <= e_pot n u t.
Proof.
  unfold e_pot. pose proof (pc_pot_nonneg n u (et_pc t)). enough (0 <= sumZ (call_cost n <$> et_todo t)) by lia.
  apply sum_nonneg. intros c _. pose proof (call_cost_pos n c). lia.
Qed.
Lemma e_pot_change n u u' t : e_pot n u' t <= e_pot n u t + 2.
Proof. unfold e_pot. destruct (et_pc t); cbn [pc_pot]; try lia. destruct (u =? old), (u' =? old); lia. Qed.
Lemma e_pot_step n s t s' t' : ewma_tstep s t = Some (s', t') ->
  (ew_uncounted (es_ewma s') = ew_uncounted (es_ewma s) /\ e_pot n (ew_uncounted (es_ewma s')) t' + 1 <= e_pot n (ew_uncounted (es_ewma s)) t) \/
  e_pot n (ew_uncounted (es_ewma s')) t' + 1 + 2 * Z.of_nat n <= e_pot n (ew_uncounted (es_ewma s)) t.
Proof.
  destruct t as [todo pc got]. unfold ewma_tstep, e_pot. cbn [et_pc et_todo et_got]. intros Hs. destruct pc as [| |old|c|c|c r|].
  - destruct todo as [|[m| |m|unit] todo]; [done|..]; injection Hs as <- <-; cbn [es_ewma et_todo et_pc]; rewrite fmap_cons, sumZ_cons; cbn [call_cost pc_pot].
    + right. lia.
    + left. lia.
    + left. lia.
    + left. lia.
  - injection Hs as <- <-. cbn [es_ewma et_todo et_pc pc_pot]. rewrite Z.eqb_refl. left. lia.
  - cbn [pc_pot]. destruct (ew_uncounted (es_ewma s) =? old); injection Hs as <- <-; cbn [es_ewma et_todo et_pc pc_pot]; [right|left]; lia.
  - destruct (es_locked s); [done|]. injection Hs as <- <-. cbn [es_ewma et_todo et_pc pc_pot]. left. lia.
  - injection Hs as <- <-. cbn [es_ewma et_todo et_pc pc_pot]. left. lia.
  - injection Hs as <- <-. cbn [es_ewma et_todo et_pc pc_pot ew_uncounted]. left. lia.
  - injection Hs as <- <-. cbn [es_ewma et_todo et_pc pc_pot]. left. lia.
Qed.

Section ewma.
Context (alpha : f64) (interval : Z) (progs : list (list ewma_call)).
Notation c0 := (Config (EwmaShared (newEWMA alpha interval) false []) ((fun p => EThread p EIdle []) <$> progs)).
Notation estep := (fun (s : ewma_shared) (_ : Empty_set) => s).

Lemma start_cost : sumZ (e_pot (length progs) 0 <$> threads c0) = program_cost progs.
Proof.
  unfold program_cost. generalize (length progs). intros n. cbn [threads]. induction progs as [|p l IH]; [done|]. rewrite !fmap_cons, sumZ_cons, IH. change (mjoin (p :: l)) with (p ++ mjoin l).
  unfold e_pot. cbn [et_todo et_pc pc_pot]. rewrite fmap_app, sumZ_app. lia.
Qed.
Lemma ewma_bound sched : Z.of_nat (steps_made ewma_tstep estep c0 sched) <= program_cost progs.
Proof.
  rewrite <- start_cost. set (n := length progs).
  refine (made_bound ewma_tstep estep (fun c => sumZ (e_pot n (ew_uncounted (es_ewma (shared c))) <$> threads c)) c0 _ _ _ sched).
  - intros s. apply sum_nonneg. intros t _. apply e_pot_nonneg.
  - intros s i t s' t'. cbv zeta. intros Hi Hs. cbn [shared threads].
    assert (Hl : (length (threads (crun ewma_tstep estep c0 s)) <= n)%nat) by (rewrite run_length; cbn [threads]; rewrite fmap_length; done).
    destruct (e_pot_step n _ _ _ _ Hs) as [[Hu Hd]|Hd].
    + eapply (sum_bound _ _ _ i t t' 0 n); [done|lia|exact Hl| |lia]. intros j u _ _. rewrite Hu. lia.
    + eapply (sum_bound _ _ _ i t t' 2 n); [done|lia|exact Hl| |lia]. intros j u _ _. apply e_pot_change.
  - intros s e. cbv zeta. cbn [shared threads]. lia.
Qed.

Lemma ewma_progress sched : let c := ewma_crun alpha interval progs sched in ~ Forall ewma_done (threads c) -> exists i, can_step ewma_tstep c i.
Proof.
  cbv zeta. pose proof (ewma_conc_inv alpha interval progs sched) as I. set (c := ewma_crun alpha interval progs sched) in *. intros Hn.
  destruct (es_locked (shared c)) eqn:El.
  - destruct (e_holder _ _ _ _ _ I El) as (i & t & Hi & Hh). exists i, t. split; [done|]. unfold ewma_tstep. by destruct (et_pc t).
  - assert (Hex : exists i t, threads c !! i = Some t /\ ~ ewma_done t).
    { assert (Hd : forall t, Decision (ewma_done t)).
      { intros [[|x l] pc got]; [|right; by intros [? _]]. destruct pc; [left; done|..]; right; by intros [_ ?]. }
      apply not_Forall_Exists in Hn; [|exact Hd]. apply Exists_exists in Hn as (t & Ht & Hx). apply elem_of_list_lookup in Ht as [i Hi]. by exists i, t. }
    destruct Hex as (i & t & Hi & Hd). exists i, t. split; [done|]. unfold ewma_tstep. destruct t as [todo pc got]. cbn [et_pc et_todo et_got] in *. destruct pc.
    + destruct todo as [|[]]; [|done..]. exfalso. by apply Hd.
    + done.
    + by destruct (_ =? _).
    + by rewrite El.
    + done.
    + done.
    + done.
Qed.

Global Instance ewma_done_dec t : Decision (ewma_done t).
Proof. destruct t as [[|x l] pc got]; [|right; by intros [? _]]. destruct pc; [left; done|..]; right; by intros [_ ?]. Defined.

Lemma ewma_all_return rounds : Forall (round (length progs)) rounds -> program_cost progs < Z.of_nat (length rounds) ->
  Forall ewma_done (threads (ewma_crun alpha interval progs (mjoin rounds))).
Proof.
  intros Hr Hl. set (D := fun c : config ewma_shared ethread => Forall ewma_done (threads c)).
  refine (fair_finish ewma_tstep estep D _ c0 (Z.to_nat (program_cost progs)) rounds _ _ _ _ _ _).
  - intros sched. pose proof (ewma_bound sched). lia.
  - intros s1 s2 _. destruct (decide (D (ewma_crun alpha interval progs s1))) as [H|H]; [left; exact H|right]. by apply ewma_progress.
  - intros sched ev. rewrite crun_snoc. unfold D. intros H. destruct ev as [i|e]; [|done]. cbn [cstep]. destruct (threads _ !! i) as [t|] eqn:Ei; [|done].
    pose proof (proj1 (Forall_lookup _ _) H _ _ Ei) as [H1 H2]. unfold ewma_tstep at 1. rewrite H1, H2. exact H.
  - intros c e i. done.
  - cbn [threads]. by rewrite fmap_length.
  - pose proof (ewma_bound []). lia.
Qed.
End ewma.
