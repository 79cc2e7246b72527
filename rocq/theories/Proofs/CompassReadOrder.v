(** A compass read while it is updated: a success is counted after the update. *)
From Verif.Go Require Import GoInt GoFloat GoConc GoCompose.
From Verif.Model Require Import Counter BucketQueue BucketCounter BucketCounterConc BucketReadConc BucketReservoir EWMA EWMAConc DecayingConc Compass CompassConc CompassFine CompassRead.
From Verif.Spec Require Import BucketSpec BucketConcSpec BucketReadSpec CompassConcSpec.
From Verif.Proofs Require Import BucketConcProofs ComposeProofs CompassConcProofs CompassFineProofs CompassFineParts CompassFineMain CompassLedger CompassReadProofs CompassReadInv CompassReadMain.
From Verif.Spec Require Import CompassFineSpec CompassReadSpec.
Local Open Scope Z_scope.

Section order.
Context (math_Exp : f64 -> f64) (rk : reservoir_kind) (I N maxE maxA : Z).
Notation gs := (cf_gstep math_Exp rk I N maxE maxA).
Notation run := (cr_run math_Exp rk I N maxE maxA).

(** Has the total counter been called, but not the success counter? *)
Definition ahead (pc : kpc) : nat := match pc with PReservoir _ _ | PSuccess _ => 1 | _ => 0 end.
Definition asks (k : ckey) (g : gthread kthread cin ckey cop) : nat := length (updates (calls k g)).
Definition waits (k : ckey) (g : gthread kthread cin ckey cop) : nat := length (bt_todo (ci_bc (at_in k g))).
Definition ordered (g : gthread kthread cin ckey cop) : Prop :=
  (asks KSuccess g + ahead (kt_pc (gt_client g)) <= asks KTotal g)%nat /\ (waits KTotal g <= ahead (kt_pc (gt_client g)))%nat.

Lemma ahead_tick k : ahead (after_tick k) = 0%nat.
Proof. by destruct k as [[? ?]|]. Qed.
Lemma ahead_key w r : ahead (after_key w r) = 0%nat.
Proof. by destruct w. Qed.
Lemma ordered_step s g s' g' : gs s g = Some (s', g') -> (forall k', gt_in g <> Some k' -> at_in k' g = cin_idle) -> ordered g -> ordered g'.
Proof.
  intros Hs Haway [J1 J2]. pose proof (gs_queue math_Exp rk I N maxE maxA KTotal _ _ _ _ Hs) as Hq. unfold cf_gstep, gstep in Hs. destruct (cs_crashed _); [done|]. destruct (gt_in g) as [k'|] eqn:Hin.
  - destruct (cin_returned _); [injection Hs as <- <-; done|]. destruct (gs_objs s !! k') as [o|]; [|done]. destruct (cobj_step _ _ _) as [[o' ot']|]; [|done]. injection Hs as <- <-.
    split; [exact J1|]. cbn [gt_client]. unfold waits in *. destruct Hq as [[_ [E|[n E]]]|(n & E & _)].
    + rewrite E. exact J2.
    + rewrite E in J2. cbn [length] in J2. lia.
    + exfalso. unfold calls in E. cbn [gt_made] in E. apply (f_equal length) in E. rewrite app_length in E. cbn [length] in E. lia.
  - assert (Hw : waits KTotal g = 0%nat) by (unfold waits; by rewrite Haway). clear Hq J2.
    destruct (cp_tstep _ _ _ _ _) as [[s1 t1]|] eqn:Ec; [|done]. destruct (cf_effect rk I N _ _ _) as [ef|] eqn:Ee; [|done].
    assert (G : ordered g' <-> ((match ef with Invoke k (CUpdate n) => if decide (k = KSuccess) then 1 else 0 | _ => 0 end) + asks KSuccess g + ahead (kt_pc t1) <= asks KTotal g + (match ef with Invoke k (CUpdate n) => if decide (k = KTotal) then 1 else 0 | _ => 0 end))%nat /\
       ((match ef with Invoke k (CUpdate n) => if decide (k = KTotal) then 1 else 0 | _ => 0 end) <= ahead (kt_pc t1))%nat).
    { assert (Hc : forall k k' a, length (updates (calls k (GThread t1 (Some k') (<[k' := cin_push (inside_of cin_idle k' g) a]> (gt_local g)) (gt_made g ++ [(k', a)])))) = (asks k g + match a with CUpdate n => if decide (k' = k) then 1 else 0 | _ => 0 end)%nat).
      { intros k k' a. unfold asks, calls. cbn [gt_made]. destruct (decide (k' = k)) as [->|Hne].
        - rewrite calls_of_same, updates_snoc, app_length. by destruct a.
        - rewrite calls_of_other by done. destruct a; lia. }
      destruct ef as [|k o|k a]; injection Hs as <- <-; unfold ordered; cbn [gt_client].
      + change (asks KSuccess (GThread t1 None (gt_local g) (gt_made g))) with (asks KSuccess g). change (asks KTotal (GThread t1 None (gt_local g) (gt_made g))) with (asks KTotal g).
        change (waits KTotal (GThread t1 None (gt_local g) (gt_made g))) with (waits KTotal g). rewrite Hw. lia.
      + change (asks KSuccess (GThread t1 None (gt_local g) (gt_made g))) with (asks KSuccess g). change (asks KTotal (GThread t1 None (gt_local g) (gt_made g))) with (asks KTotal g).
        change (waits KTotal (GThread t1 None (gt_local g) (gt_made g))) with (waits KTotal g). rewrite Hw. lia.
      + unfold asks at 1 2. rewrite !Hc.
        assert (Ew : waits KTotal (GThread t1 (Some k) (<[k := cin_push (inside_of cin_idle k g) a]> (gt_local g)) (gt_made g ++ [(k, a)])) = match a with CUpdate n => if decide (k = KTotal) then 1 else 0 | _ => 0 end%nat).
        { unfold waits, at_in, inside_of. cbn [gt_local]. destruct (decide (k = KTotal)) as [->|Hne].
          - rewrite lookup_insert. cbn [default id]. unfold waits, at_in, inside_of in Hw. destruct a; cbn [cin_push ci_bc bt_todo]; [rewrite app_length, Hw; done|exact Hw..].
          - rewrite lookup_insert_ne by done. unfold waits, at_in, inside_of in Hw. rewrite Hw. by destruct a. }
        rewrite Ew. destruct a; lia. }
    apply G. clear G Hs Hw Haway. revert J1 Ec Ee. generalize (asks KSuccess g) (asks KTotal g). intros a b. unfold cp_tstep, cf_effect. destruct (cs_crashed _); [done|].
    destruct (gt_client g) as [todo pc pan]. cbn [kt_pc kt_todo kt_panics].
    destruct pc as [|k|old k|old new k|[|n] k|n count k|n count k|n count k|n count k|d r|d r|d r|r|w r|w r|w r|w r|w r|w p r|w [p|] r|w n]; cbn [ahead]; intros J1 Ec Ee.
    all: repeat match type of Ec with context [match ?x with _ => _ end] => destruct x end; try discriminate Ec; injection Ec as <- <-; cbn [kt_pc ahead].
    all: try (injection Ee as <-); repeat match type of Ee with context [match ?x with _ => _ end] => destruct x; [..|discriminate Ee]; injection Ee as <- | context [if ?x then _ else _] => destruct x end; cbn [ahead].
    all: repeat match goal with |- context [ahead (match ?x with _ => _ end)] => destruct x | |- context [match rs_success ?r with _ => _ end] => destruct (rs_success r) | |- context [if rs_success ?r then _ else _] => destruct (rs_success r) end; cbn [ahead].
    all: try (repeat (destruct (decide _) as [?E|?E]; [discriminate || idtac|]); lia).
    all: try (destruct rk; cbn [reservoir_op reservoir_key]).
    all: rewrite ?ahead_tick, ?ahead_key; repeat first [rewrite (decide_False (P := _ = _)) by discriminate | rewrite (decide_True (P := KTotal = KTotal)) by reflexivity]; lia.
Qed.

Lemma ordered_push g l : ordered (g_push g l) <-> ordered g.
Proof. done. Qed.
Lemma ordered_run e0 progs sched c : counter_setting I N -> run e0 progs sched = Some c -> Forall (fun t => ordered (dt_g t)) (threads c).
Proof.
  intros HS Hc. destruct (run_started _ _ _ _ _ _ _ _ _ _ Hc) as (objs0 & H0 & _). revert sched c Hc.
  apply (run_ind math_Exp rk I N maxE maxA (fun sched c => Forall (fun t => ordered (dt_g t)) (threads c))).
  - intros objs _. unfold rstart. cbn [threads]. apply Forall_fmap, Forall_forall. intros p _. split; apply le_n || (cbn; lia).
  - intros sched s ts i t s' t' Hr J Hi Hs. cbn [threads] in *. pose proof (run_fine _ _ _ _ _ _ _ _ _ _ _ H0 Hr) as Hf.
    assert (Haway : forall k', gt_in (dt_g t) <> Some k' -> at_in k' (dt_g t) = cin_idle).
    { intros k' Hk'. rewrite <- (at_in_push k' (dt_g t) (writes (dt_todo t))). eapply (at_in_away _ _ _ _ _ _ _ _ _ _ Hf i); [|done]. by apply (without_lookup (Config s ts)). }
    apply Forall_insert; [done|]. pose proof (proj1 (Forall_lookup _ _) J _ _ Hi) as Jt. cbv beta in Jt. unfold cr_tstep in Hs. destruct (cs_crashed _); [done|]. destruct (dt_read t) as [[call pc]|].
    + destruct (read_step _ _ _ _) as [[pc'|a]|]; [..|done]; injection Hs as <- <-; exact Jt.
    + destruct (at_rest _) eqn:R.
      * destruct (rest_idle _ R) as (R1 & R2 & R3). destruct (dt_todo t) as [|[call|call] todo]; [done|..]; injection Hs as <- <-; exact Jt.
      * destruct (gs s (dt_g t)) as [[s1 g']|] eqn:Es; [|done]. injection Hs as <- <-. cbn [dt_g]. by eapply ordered_step.
  - done.
  - done.
Qed.

Context (e0 : cenv) (progs : list (list dcall)) (objs0 : gmap ckey cobj).
Context (HS : counter_setting I N) (H0 : cf_objs0 rk I N e0 = Some objs0).
Notation counts := (counts math_Exp rk I N maxE maxA e0 progs objs0).
Lemma join_length {A} (f : dthread -> list A) (ts : list dthread) : length (mjoin (f <$> ts)) = sum_list ((length ∘ f) <$> ts).
Proof. induction ts as [|t ts IH]; [done|]. rewrite !fmap_cons, join_cons', app_length. cbn [sum_list]. f_equal. exact IH. Qed.
Lemma success_after_total s : (length (counts KSuccess s) <= length (counts KTotal s))%nat.
Proof.
  pose proof (ordered_run e0 progs s _ HS (run_at math_Exp rk I N maxE maxA e0 progs objs0 H0 s)) as J.
  pose proof (counts_inv math_Exp rk I N maxE maxA e0 progs objs0 KSuccess s) as E1. pose proof (counts_inv math_Exp rk I N maxE maxA e0 progs objs0 KTotal s) as E2.
  apply Permutation_length in E1, E2. rewrite app_length, !join_length in E1, E2.
  assert (Hle : (sum_list ((length ∘ wanted KSuccess) <$> threads (at_ math_Exp rk I N maxE maxA e0 progs objs0 s)) + sum_list ((length ∘ queued KTotal) <$> threads (at_ math_Exp rk I N maxE maxA e0 progs objs0 s)) <= sum_list ((length ∘ wanted KTotal) <$> threads (at_ math_Exp rk I N maxE maxA e0 progs objs0 s)))%nat).
  { clear E1 E2. induction J as [|t ts [J1 J2] _ IH]; [done|]. rewrite !fmap_cons. cbn [sum_list compose]. unfold asks, waits in J1, J2. unfold compose in *. change (length (wanted KSuccess t)) with (length (updates (calls KSuccess (dt_g t)))). change (length (wanted KTotal t)) with (length (updates (calls KTotal (dt_g t)))). change (length (queued KTotal t)) with (length (bt_todo (ci_bc (at_in KTotal (dt_g t))))). unfold id in *. lia. }
  lia.
Qed.
End order.
