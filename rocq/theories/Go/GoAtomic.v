(** Objects each of whose methods is a single atomic step, used by any number
    of goroutines under any schedule. *)
From Verif.Go Require Import GoInt GoConc.

Section atomic.
  Context {S O R : Type} (act : S -> O -> S * R).

  (** A goroutine: the calls still to make, and the results of those made. *)
  Record athread := AThread { at_todo : list O; at_got : list R }.

  Definition at_step (s : S) (t : athread) : option (S * athread) :=
    match at_todo t with
    | [] => None
    | o :: todo => let '(s', r) := act s o in Some (s', AThread todo (at_got t ++ [r]))
    end.

  Definition at_crun (s0 : S) (progs : list (list O)) (sched : list (event Empty_set)) : config S athread :=
    crun at_step (fun s _ => s) (Config s0 ((fun p => AThread p []) <$> progs)) sched.

  (** One after another. *)
  Definition at_seq (s : S) (ops : list O) : S := fold_left (fun s o => (act s o).1) ops s.

  Definition ops_of (i : nat) (log : list (nat * O * R)) : list O :=
    (fun e => e.1.2) <$> filter (fun e => e.1.1 = i) log.
  Definition results_of (i : nat) (log : list (nat * O * R)) : list R :=
    snd <$> filter (fun e => e.1.1 = i) log.

  Record alin (s0 : S) (progs : list (list O)) (c : config S athread) (log : list (nat * O * R)) : Prop := {
    al_threads : forall i prog, progs !! i = Some prog -> exists t, threads c !! i = Some t /\
        prog = ops_of i log ++ at_todo t /\ at_got t = results_of i log;
    al_len : length (threads c) = length progs;
    al_tids : forall e, e ∈ log -> (e.1.1 < length progs)%nat;
    al_results : forall p i o r, log !! p = Some (i, o, r) ->
        r = (act (at_seq s0 ((fun e => e.1.2) <$> take p log)) o).2;
    al_state : shared c = at_seq s0 ((fun e => e.1.2) <$> log)
  }.

  Lemma ops_of_snoc i log e : ops_of i (log ++ [e]) = ops_of i log ++ (if decide (e.1.1 = i) then [e.1.2] else []).
  Proof. unfold ops_of. rewrite filter_app, fmap_app. f_equal. rewrite filter_cons, filter_nil. by destruct (decide _). Qed.
  Lemma results_of_snoc i log e : results_of i (log ++ [e]) = results_of i log ++ (if decide (e.1.1 = i) then [e.2] else []).
  Proof. unfold results_of. rewrite filter_app, fmap_app. f_equal. rewrite filter_cons, filter_nil. by destruct (decide _). Qed.

  Lemma at_seq_snoc s ops o : at_seq s (ops ++ [o]) = (act (at_seq s ops) o).1.
  Proof. unfold at_seq. by rewrite fold_left_app. Qed.

  Lemma at_linearizable s0 progs sched : exists log, alin s0 progs (at_crun s0 progs sched) log.
  Proof.
    unfold at_crun. apply (crun_inv at_step (fun s _ => s) (fun c => exists log, alin s0 progs c log)).
    - exists []. constructor.
      + intros i prog Hi. cbn. rewrite list_lookup_fmap, Hi. eexists. split; [reflexivity|done].
      + cbn. by rewrite fmap_length.
      + intros e He. by apply elem_of_nil in He.
      + intros p i o r H. by rewrite lookup_nil in H.
      + reflexivity.
    - intros s ts i t s' t' [log L] Hi Hs. unfold at_step in Hs.
      destruct (at_todo t) as [|o todo] eqn:Htodo; [done|].
      destruct (act s o) as [s2 r] eqn:Ha. injection Hs as <- <-.
      pose proof (al_state _ _ _ _ L) as Hst. cbn in Hst.
      exists (log ++ [(i, o, r)]). constructor; cbn [shared threads].
      + intros j prog Hj. destruct (al_threads _ _ _ _ L j prog Hj) as (u & Hu & Hp & Hg). cbn in Hu.
        rewrite ops_of_snoc, results_of_snoc. cbn [fst snd]. destruct (decide (i = j)) as [<-|Hne].
        * rewrite Hi in Hu. injection Hu as <-. eexists. split; [apply list_lookup_insert; by apply lookup_lt_Some in Hi|].
          cbn. rewrite Hp, Htodo, Hg. split; [by rewrite <- app_assoc|done].
        * rewrite list_lookup_insert_ne by done. exists u. by rewrite !app_nil_r.
      + rewrite insert_length. apply (al_len _ _ _ _ L).
      + intros e He. apply elem_of_app in He as [He|He]; [by apply (al_tids _ _ _ _ L)|].
        apply elem_of_list_singleton in He as ->. cbn.
        apply lookup_lt_Some in Hi. pose proof (al_len _ _ _ _ L) as Hl. cbn in Hl. lia.
      + intros p j o' r' Hw. destruct (decide (p < length log)%nat).
        * rewrite lookup_app_l in Hw by done. rewrite take_app_le by lia. by apply (al_results _ _ _ _ L p j).
        * rewrite lookup_app_r in Hw by lia. destruct (p - length log)%nat eqn:Hpl; [|done].
          cbn in Hw. injection Hw as -> -> ->. assert (p = length log) as -> by lia.
          rewrite take_app. rewrite <- Hst, Ha. done.
      + rewrite fmap_app. cbn. rewrite at_seq_snoc, <- Hst, Ha. done.
    - intros s ts [].
  Qed.
End atomic.
Arguments athread O R : clear implicits.
