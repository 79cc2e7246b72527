(** Schedules with boundedly many steps, and fair schedules. *)
From Verif.Go Require Import GoInt GoConc.
From Verif.Spec Require Import BucketSpec ProgressSpec.
From Verif.Proofs Require Import BucketHist.
Local Open Scope Z_scope.

Section progress.
  Context {S T E : Type} (tstep : S -> T -> option (S * T)) (estep : S -> E -> S).
  Notation made := (steps_made tstep estep).
  Notation run := (crun tstep estep).

  Lemma made_app c s1 s2 : made c (s1 ++ s2) = (made c s1 + made (run c s1) s2)%nat.
  Proof. revert c. induction s1 as [|ev s1 IH]; intros c; [done|]. cbn [app steps_made]. rewrite IH. unfold crun. cbn [fold_left]. lia. Qed.

  (** A potential that every step lowers bounds the number of steps. *)
  Lemma made_bound (Phi : config S T -> Z) c0 :
    (forall sched, 0 <= Phi (run c0 sched)) ->
    (forall sched i t s' t', let c := run c0 sched in threads c !! i = Some t -> tstep (shared c) t = Some (s', t') ->
       Phi (Config s' (<[i := t']> (threads c))) + 1 <= Phi c) ->
    (forall sched e, let c := run c0 sched in Phi (Config (estep (shared c) e) (threads c)) <= Phi c) ->
    forall sched, Z.of_nat (made c0 sched) <= Phi c0.
  Proof.
    intros H0 Hs He sched. enough (Z.of_nat (made c0 sched) + Phi (run c0 sched) <= Phi c0) by (specialize (H0 sched); lia).
    induction sched as [|ev sched IH] using rev_ind; [cbn; lia|].
    rewrite made_app, crun_snoc. cbn [steps_made]. destruct ev as [i|e]; cbn [is_step cstep].
    - specialize (Hs sched i). destruct (threads (run c0 sched) !! i) as [t|] eqn:Ei; [|lia].
      destruct (tstep _ t) as [[s' t']|] eqn:Et; [|lia]. specialize (Hs t s' t' Ei Et). lia.
    - specialize (He sched e). cbv zeta in He. lia.
  Qed.

  (** Goroutines whose steps cost the others at most [delta] each. *)
  Lemma sum_bound (pot pot' : T -> Z) (ts : list T) i t t' delta n : ts !! i = Some t -> 0 <= delta -> (length ts <= n)%nat ->
    (forall j u, j <> i -> ts !! j = Some u -> pot' u <= pot u + delta) ->
    pot' t' + 1 + delta * Z.of_nat n <= pot t ->
    sumZ (pot' <$> <[i := t']> ts) + 1 <= sumZ (pot <$> ts).
  Proof.
    intros Hi Hd Hn Ho Hown.
    enough (Hgen : forall (l : list T) k x, l !! k = Some x -> (forall j u, j <> k -> l !! j = Some u -> pot' u <= pot u + delta) ->
      sumZ (pot' <$> <[k := t']> l) + pot x <= sumZ (pot <$> l) + pot' t' + delta * Z.of_nat (length l)).
    { specialize (Hgen ts i t Hi Ho). nia. }
    clear -Hd. induction l as [|a l IH]; intros k x Hk Ho; [done|]. destruct k as [|k].
    - injection Hk as ->. cbn [insert list_insert fmap list_fmap length]. rewrite !sumZ_cons.
      assert (Hr : sumZ (pot' <$> l) <= sumZ (pot <$> l) + delta * Z.of_nat (length l)).
      { assert (Ho' : forall j u, l !! j = Some u -> pot' u <= pot u + delta) by (intros j u Hj; apply (Ho (Datatypes.S j) u); [done|exact Hj]). clear -Hd Ho'.
        induction l as [|b l IH]; [cbn; lia|]. rewrite !fmap_cons, !sumZ_cons. cbn [length]. specialize (Ho' 0%nat b eq_refl) as H1.
        specialize (IH (fun j u Hj => Ho' (Datatypes.S j) u Hj)). lia. }
      lia.
    - change (<[Datatypes.S k := t']> (a :: l)) with (a :: <[k := t']> l). rewrite !fmap_cons, !sumZ_cons. cbn [length]. specialize (IH k x Hk (fun j u Hne Hj => Ho (Datatypes.S j) u ltac:(lia) Hj)).
      specialize (Ho 0%nat a ltac:(lia) eq_refl). lia.
  Qed.
  Lemma sum_le (pot pot' : T -> Z) (ts : list T) : (forall t, t ∈ ts -> pot' t <= pot t) -> sumZ (pot' <$> ts) <= sumZ (pot <$> ts).
  Proof.
    intros H. induction ts as [|t ts IH]; [cbn; lia|]. rewrite !fmap_cons, !sumZ_cons. specialize (IH (fun u Hu => H u ltac:(by right))). specialize (H t ltac:(by left)). lia.
  Qed.
  Lemma sum_nonneg (pot : T -> Z) (ts : list T) : (forall t, t ∈ ts -> 0 <= pot t) -> 0 <= sumZ (pot <$> ts).
  Proof.
    intros H. induction ts as [|t ts IH]; [cbn; lia|]. rewrite !fmap_cons, !sumZ_cons. specialize (IH (fun u Hu => H u ltac:(by right))). specialize (H t ltac:(by left)). lia.
  Qed.

  Lemma run_length c sched : length (threads (run c sched)) = length (threads c).
  Proof. induction sched as [|ev sched IH] using rev_ind; [done|]. by rewrite crun_snoc, cstep_threads_length. Qed.

  (** Without a step only the environment changes something. *)
  Lemma idle_stable c sched i : (forall c' e, can_step tstep c' i -> can_step tstep (cstep tstep estep c' (Env e)) i) ->
    can_step tstep c i -> made c sched = 0%nat -> can_step tstep (run c sched) i /\ (Run i ∈ sched -> False).
  Proof.
    intros He. revert c. induction sched as [|ev sched IH]; intros c Hi Hm; [split; [done|by intros ?%elem_of_nil]|].
    cbn [steps_made] in Hm. destruct (is_step tstep c ev) eqn:Es; [lia|].
    assert (Hc : can_step tstep (cstep tstep estep c ev) i /\ ev <> Run i).
    { destruct ev as [j|e]; [|split; [by apply He|done]]. cbn [is_step cstep] in *. destruct (threads c !! j) as [t|] eqn:Ej.
      - destruct (tstep (shared c) t) as [[]|] eqn:Et; [done|]. split; [done|]. intros [= ->]. destruct Hi as (t' & Hi & Ht). congruence.
      - split; [done|]. intros [= ->]. destruct Hi as (t' & Hi & Ht). congruence. }
    destruct Hc as [Hc Hne]. destruct (IH _ Hc ltac:(lia)) as [H1 H2]. split; [exact H1|]. intros [Hx|Hx]%elem_of_cons; [congruence|by apply H2].
  Qed.

  (** Fair schedules: with boundedly many steps and no deadlock, everything finishes. *)
  Lemma fair_finish (D : config S T -> Prop) (HD : forall c, Decision (D c)) c0 (B : nat) (rounds : list (list (event E))) :
    (forall sched, (made c0 sched <= B)%nat) ->
    (forall s1 s2, mjoin rounds = s1 ++ s2 -> D (run c0 s1) \/ exists i, can_step tstep (run c0 s1) i) ->
    (forall sched ev, D (run c0 sched) -> D (run c0 (sched ++ [ev]))) ->
    (forall c e i, can_step tstep c i -> can_step tstep (cstep tstep estep c (Env e)) i) ->
    Forall (round (length (threads c0))) rounds -> (B < length rounds)%nat -> D (run c0 (mjoin rounds)).
  Proof.
    intros HB Hp Hst He Hr Hlen.
    assert (Hst' : forall s2 s1, D (run c0 s1) -> D (run c0 (s1 ++ s2))).
    { induction s2 as [|ev s2 IH]; intros s1 H1; [by rewrite app_nil_r|]. change (ev :: s2) with ([ev] ++ s2). rewrite (app_assoc s1 [ev] s2). apply IH. by apply Hst. }
    enough (Hk : forall k, (k <= length rounds)%nat -> D (run c0 (mjoin (take k rounds))) \/ (k <= made c0 (mjoin (take k rounds)))%nat).
    { destruct (Hk (length rounds)) as [H|H]; [done|by rewrite take_ge in H by done|]. specialize (HB (mjoin (take (length rounds) rounds))). lia. }
    induction k as [|k IH]; intros Hle; [right; lia|]. destruct (rounds !! k) as [r|] eqn:Er; [|apply lookup_ge_None in Er; lia].
    assert (Ek : mjoin (take (Datatypes.S k) rounds) = mjoin (take k rounds) ++ r).
    { rewrite (take_S_r _ _ r Er). clear. induction (take k rounds) as [|a l IH]; [cbn; by rewrite app_nil_r|]. cbn in *. rewrite <- app_assoc. f_equal. exact IH. }
    rewrite Ek. destruct (IH ltac:(lia)) as [H|H]; [left; by apply Hst'|].
    destruct (HD (run c0 (mjoin (take k rounds)))) as [Hd|Hd]; [left; by apply Hst'|]. right. rewrite made_app.
    assert (Hs : exists s2, mjoin rounds = mjoin (take k rounds) ++ s2).
    { exists (mjoin (drop k rounds)). rewrite <- (take_drop k rounds) at 1. generalize (take k rounds) (drop k rounds). clear. intros l1 l2. induction l1 as [|a l1 IH]; [done|]. cbn in *. rewrite <- app_assoc. f_equal. exact IH. }
    destruct Hs as [s2 Hs]. destruct (Hp _ _ Hs) as [Hd'|[i Hi]]; [done|].
    destruct (made (run c0 (mjoin (take k rounds))) r) eqn:Em; [exfalso|lia].
    destruct (idle_stable _ r i (fun c' e => He c' e i) Hi Em) as [_ Hno]. apply Hno.
    rewrite Forall_lookup in Hr. apply (Hr _ _ Er). destruct Hi as (t & Hi & _). apply lookup_lt_Some in Hi. by rewrite run_length in Hi.
  Qed.
End progress.
