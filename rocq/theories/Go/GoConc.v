(** Interleavings.  A program is a list of thread-local states; [tstep] runs the
    next atomic access of one thread ([None]: finished or blocked).  A schedule
    is an arbitrary list of events: run thread [i] for one step, or let the
    environment (the clock) do something.  Scheduling a finished, blocked or
    unknown thread does nothing, so every list is a schedule. *)
From Verif.Go Require Import GoInt.
From Verif.Spec Require Import BucketSpec.
Local Open Scope Z_scope.

Inductive event (E : Type) := Run (tid : nat) | Env (e : E).
Arguments Run {E} tid.
Arguments Env {E} e.

Global Instance event_eq_dec {E} `{EqDecision E} : EqDecision (event E).
Proof. solve_decision. Defined.

Record config (S T : Type) := Config { shared : S; threads : list T }.
Arguments Config {S T} shared threads.
Arguments shared {S T} c.
Arguments threads {S T} c.

Section conc.
  Context {S T E : Type} (tstep : S -> T -> option (S * T)) (estep : S -> E -> S).

  Definition cstep (c : config S T) (ev : event E) : config S T :=
    match ev with
    | Run i =>
        match threads c !! i with
        | Some t =>
            match tstep (shared c) t with
            | Some (s', t') => Config s' (<[i := t']> (threads c))
            | None => c
            end
        | None => c
        end
    | Env e => Config (estep (shared c) e) (threads c)
    end.

  Definition crun (c : config S T) (sched : list (event E)) : config S T :=
    fold_left cstep sched c.

  Lemma crun_snoc c sched ev : crun c (sched ++ [ev]) = cstep (crun c sched) ev.
  Proof. unfold crun. by rewrite fold_left_app. Qed.

  Lemma crun_app c s1 s2 : crun c (s1 ++ s2) = crun (crun c s1) s2.
  Proof. unfold crun. by rewrite fold_left_app. Qed.

  Lemma cstep_threads_length c ev : length (threads (cstep c ev)) = length (threads c).
  Proof.
    destruct ev as [i|e]; [|done]. cbn. destruct (threads c !! i); [|done].
    destruct (tstep _ _) as [[s' t']|]; [|done]. cbn. by rewrite insert_length.
  Qed.

  (** Invariants hold after every schedule. *)
  Lemma crun_inv (I : config S T -> Prop) c0 :
    I c0 ->
    (forall s ts i t s' t', I (Config s ts) -> ts !! i = Some t -> tstep s t = Some (s', t') ->
       I (Config s' (<[i := t']> ts))) ->
    (forall s ts e, I (Config s ts) -> I (Config (estep s e) ts)) ->
    forall sched, I (crun c0 sched).
  Proof.
    intros H0 Ht He sched. induction sched as [|ev sched IH] using rev_ind; [done|].
    rewrite crun_snoc. destruct (crun c0 sched) as [s ts]. destruct ev as [i|e]; [|by apply He].
    cbn. destruct (ts !! i) as [t|] eqn:Hi; [|done].
    destruct (tstep s t) as [[s' t']|] eqn:Hs; [|done]. eapply Ht; eauto.
  Qed.
End conc.

(** Sums over threads. *)
Lemma sumZ_insert {A} (f : A -> Z) (l : list A) i x y :
  l !! i = Some x -> sumZ (f <$> <[i := y]> l) = sumZ (f <$> l) - f x + f y.
Proof.
  revert i. induction l as [|a l IH]; intros i Hi; [done|].
  destruct i as [|i]; cbn in Hi |- *.
  - injection Hi as ->. lia.
  - unfold sumZ in *. rewrite IH by done. lia.
Qed.

Lemma Permutation_insert_concat {A B} (f : A -> list B) (l : list A) i x y :
  l !! i = Some x -> mjoin (f <$> <[i := y]> l) ++ f x ≡ₚ mjoin (f <$> l) ++ f y.
Proof.
  revert i. induction l as [|a l IH]; intros i Hi; [done|].
  destruct i as [|i]; cbn in Hi |- *.
  - injection Hi as ->. rewrite (Permutation_app_comm (f y) (mjoin (f <$> l))).
    rewrite (Permutation_app_comm (f x) (mjoin (f <$> l))).
    rewrite <- !app_assoc. apply Permutation_app_head, Permutation_app_comm.
  - rewrite <- !app_assoc. apply Permutation_app_head. by apply IH.
Qed.
