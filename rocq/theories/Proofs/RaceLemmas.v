(** Facts that tie what a goroutine is doing to the program it was started with. *)
From Verif.Go Require Import GoInt GoConc.
From Verif.Spec Require Import RaceSpec.

Section prog.
  Context {S T E P : Type} (tstep : S -> T -> option (S * T)) (estep : S -> E -> S).

  (** If every step keeps [R p] of the goroutine started with program [p], it holds of
      goroutine [i] and the [i]-th program after every schedule. *)
  Lemma program_inv (R : P -> T -> Prop) (start : P -> T) s0 progs sched :
    (forall p, R p (start p)) ->
    (forall p s t s' t', R p t -> tstep s t = Some (s', t') -> R p t') ->
    forall i t, threads (crun tstep estep (Config s0 (start <$> progs)) sched) !! i = Some t ->
      exists p, progs !! i = Some p /\ R p t.
  Proof.
    intros H0 Hs.
    apply (crun_inv tstep estep (fun c => forall i t, threads c !! i = Some t -> exists p, progs !! i = Some p /\ R p t)).
    - cbn. intros i t Hi. rewrite list_lookup_fmap in Hi. destruct (progs !! i) as [p|]; [|done].
      cbn in Hi. injection Hi as <-. eauto.
    - cbn. intros s ts i t s' t' IH Hi Ht j u Hj.
      apply list_lookup_insert_Some in Hj as [(-> & <- & _)|[_ Hj]]; [|by apply IH].
      destruct (IH _ _ Hi) as (p & Hp & HR). exists p. split; [done|]. by eapply Hs.
    - cbn. done.
  Qed.
End prog.

Lemma conflict_sym {L} (a b : access L) : conflict a b -> conflict b a.
Proof. unfold conflict. intros (-> & H & Hn). tauto. Qed.

Lemma race_sym {S T L} (next : S -> T -> list (access L)) l c :
  data_race_on next l c -> exists i j ti tj a b,
      i <> j /\ threads c !! i = Some ti /\ threads c !! j = Some tj /\
      a ∈ next (shared c) ti /\ b ∈ next (shared c) tj /\ ac_loc a = l /\ ac_loc b = l /\ ac_write a = true /\
      (ac_atomic a = false \/ ac_atomic b = false).
Proof.
  intros (i & j & ti & tj & a & b & Hne & Hi & Hj & Ha & Hb & Hl & Hc & Hw & Hat).
  assert (Hat' : ac_atomic a = false \/ ac_atomic b = false).
  { destruct (ac_atomic a), (ac_atomic b); auto. by destruct Hat. }
  destruct Hw as [Hw|Hw].
  - exists i, j, ti, tj, a, b. split_and!; try done. congruence.
  - exists j, i, tj, ti, b, a. split_and!; try done; [congruence|tauto].
Qed.

Lemma race_intro {S T L} (next : S -> T -> list (access L)) c i j ti tj a b :
  i <> j -> threads c !! i = Some ti -> threads c !! j = Some tj ->
  a ∈ next (shared c) ti -> b ∈ next (shared c) tj -> ac_loc a = ac_loc b ->
  (ac_write a || ac_write b) = true -> (ac_atomic a && ac_atomic b) = false ->
  data_race_on next (ac_loc a) c.
Proof.
  intros Hne Hi Hj Ha Hb Hl Hw Hat. exists i, j, ti, tj, a, b. unfold conflict.
  apply orb_true_iff in Hw. apply andb_false_iff in Hat.
  split_and!; try done. intros [H1 H2]. rewrite H1, H2 in Hat. by destruct Hat.
Qed.

(** Mutual exclusion, for a mutex every step of a goroutine either leaves alone, or
    acquires, or releases. *)
Section mutex.
  Context {S T E : Type} (tstep : S -> T -> option (S * T)) (estep : S -> E -> S).
  Context (locked : S -> bool) (holds : T -> bool).
  Context (Henv : forall s e, locked (estep s e) = locked s).
  Context (Hstep : forall s t s' t', tstep s t = Some (s', t') ->
    (locked s' = locked s /\ (holds t' = true -> holds t = true)) \/
    (locked s = false /\ locked s' = true /\ holds t' = true) \/
    (holds t = true /\ locked s' = false /\ holds t' = false)).

  Lemma mutex_excl c0 sched i j ti tj :
    locked (shared c0) = false -> (forall k t, threads c0 !! k = Some t -> holds t = false) ->
    threads (crun tstep estep c0 sched) !! i = Some ti -> threads (crun tstep estep c0 sched) !! j = Some tj ->
    holds ti = true -> holds tj = true -> i = j.
  Proof.
    intros H0 Ht0.
    cut ((forall k t, threads (crun tstep estep c0 sched) !! k = Some t -> holds t = true -> locked (shared (crun tstep estep c0 sched)) = true) /\
         (forall i j ti tj, threads (crun tstep estep c0 sched) !! i = Some ti -> threads (crun tstep estep c0 sched) !! j = Some tj ->
            holds ti = true -> holds tj = true -> i = j)).
    { intros [_ H]. eauto. }
    clear i j ti tj.
    apply (crun_inv tstep estep (fun c => (forall k t, threads c !! k = Some t -> holds t = true -> locked (shared c) = true) /\
         (forall i j ti tj, threads c !! i = Some ti -> threads c !! j = Some tj -> holds ti = true -> holds tj = true -> i = j))).
    - split; [|intros i j ti tj Hi _ Hh]; intros; [|by rewrite (Ht0 _ _ Hi) in Hh].
      match goal with H : holds _ = true |- _ => rewrite (Ht0 _ _ ltac:(eassumption)) in H; done end.
    - cbn. intros s ts k t s' t' [I1 I2] Hk Hs. destruct (Hstep _ _ _ _ Hs) as [[E1 E2]|[(E1 & E2 & E3)|(E1 & E2 & E3)]].
      + split.
        * intros j u [(-> & <- & _)|[_ Hj]]%list_lookup_insert_Some Hu; rewrite E1; [|by eapply I1]. eapply I1; [exact Hk|by apply E2].
        * intros i j ti tj Hi Hj Hti Htj.
          apply list_lookup_insert_Some in Hi as [(-> & <- & _)|[Ni Hi]]; apply list_lookup_insert_Some in Hj as [(Ej & <- & _)|[Nj Hj]]; try congruence.
          -- eapply I2; [exact Hk|exact Hj|by apply E2|done].
          -- subst j. eapply I2; [exact Hi|exact Hk|done|by apply E2].
          -- by eapply I2.
      + assert (Hno : forall j u, ts !! j = Some u -> holds u = true -> False).
        { intros j u Hj Hu. specialize (I1 _ _ Hj Hu). congruence. }
        split; [by intros|]. intros i j ti tj Hi Hj Hti Htj.
        apply list_lookup_insert_Some in Hi as [(-> & <- & _)|[Ni Hi]]; [|by destruct (Hno _ _ Hi)].
        apply list_lookup_insert_Some in Hj as [(Ej & <- & _)|[Nj Hj]]; [done|by destruct (Hno _ _ Hj)].
      + assert (Hno : forall j u, j <> k -> ts !! j = Some u -> holds u = true -> False).
        { intros j u Hne Hj Hu. apply Hne. by eapply I2. }
        split.
        * intros j u [(-> & <- & _)|[Nj Hj]]%list_lookup_insert_Some Hu; [congruence|]. destruct (Hno _ _ (not_eq_sym Nj) Hj Hu).
        * intros i j ti tj Hi Hj Hti Htj.
          apply list_lookup_insert_Some in Hi as [(-> & <- & _)|[Ni Hi]]; [congruence|]. destruct (Hno _ _ (not_eq_sym Ni) Hi Hti).
    - cbn. intros s ts e [I1 I2]. split; [|done]. intros k t. rewrite Henv. apply I1.
  Qed.
End mutex.
