(** A composed program seen from the client and from each of its objects. *)
From Verif.Go Require Import GoInt GoConc GoCompose.


Lemma shown_run {E} (sched : list (event E)) i : shown (sched ++ [Run i]) = shown sched.
Proof. unfold shown. rewrite omap_app. cbn. apply app_nil_r. Qed.
Lemma shown_env {E} (sched : list (event E)) e : shown (sched ++ [Env e]) = shown sched ++ [e].
Proof. unfold shown. by rewrite omap_app. Qed.

(** Executions in which every scheduled goroutine makes a step. *)
Section esteps.
  Context {S T E : Type} (tstep : S -> T -> option (S * T)) (estep : S -> E -> S).
  Inductive esteps (c : config S T) : list (event E) -> config S T -> Prop :=
  | es_nil : esteps c [] c
  | es_run tr s ts i t s' t' : esteps c tr (Config s ts) -> ts !! i = Some t -> tstep s t = Some (s', t') ->
      esteps c (tr ++ [Run i]) (Config s' (<[i := t']> ts))
  | es_env tr s ts e : esteps c tr (Config s ts) -> esteps c (tr ++ [Env e]) (Config (estep s e) ts).

  Lemma esteps_crun c tr c' : esteps c tr c' -> crun tstep estep c tr = c'.
  Proof.
    induction 1 as [|tr s ts i t s' t' _ IH Hi Hs|tr s ts e _ IH]; [done| |]; rewrite crun_snoc, IH; [|done].
    cbn. by rewrite Hi, Hs.
  Qed.

  Context {A : Type} (push : T -> A -> T).
  Context (Hpush : forall s t s' t' a, tstep s t = Some (s', t') -> tstep s (push t a) = Some (s', push t' a)).
  Definition pushed (i : nat) (a : A) (c : config S T) : config S T :=
    Config (shared c) (alter (fun t => push t a) i (threads c)).
  Lemma esteps_push i a c tr c' : esteps c tr c' -> esteps (pushed i a c) tr (pushed i a c').
  Proof.
    induction 1 as [|tr s ts j t s' t' _ IH Hi Hs|tr s ts e _ IH]; [constructor| |by constructor].
    unfold pushed at 2. cbn [shared threads]. unfold pushed in IH at 2. cbn [shared threads] in IH.
    destruct (decide (i = j)) as [<-|Hne].
    - replace (alter (fun t0 => push t0 a) i (<[i:=t']> ts)) with (<[i := push t' a]> (alter (fun t0 => push t0 a) i ts)).
      + eapply es_run; [exact IH| |by eapply Hpush]. by rewrite list_lookup_alter, Hi.
      + apply list_eq. intros j. destruct (decide (j = i)) as [->|].
        * rewrite list_lookup_insert by (rewrite alter_length; by eapply lookup_lt_Some).
          rewrite list_lookup_alter, list_lookup_insert by (by eapply lookup_lt_Some). done.
        * rewrite list_lookup_insert_ne, !list_lookup_alter_ne, list_lookup_insert_ne by done. done.
    - 
      replace (alter (fun t0 => push t0 a) i (<[j:=t']> ts)) with (<[j := t']> (alter (fun t0 => push t0 a) i ts)).
      + eapply es_run; [exact IH| |exact Hs]. by rewrite list_lookup_alter_ne.
      + apply list_eq. intros l. destruct (decide (l = j)) as [->|].
        * rewrite list_lookup_insert by (rewrite alter_length; by eapply lookup_lt_Some).
          rewrite list_lookup_alter_ne, list_lookup_insert by (done || by eapply lookup_lt_Some). done.
        * rewrite list_lookup_insert_ne by done. destruct (decide (l = i)) as [->|].
          -- rewrite !list_lookup_alter, list_lookup_insert_ne by done. done.
          -- rewrite !list_lookup_alter_ne, list_lookup_insert_ne by done. done.
  Qed.
End esteps.

Section compose.
  Context {S T E K A OS OT : Type} `{Countable K}.
  Context (tstep : S -> T -> option (S * T)) (estep : S -> E -> S) (halted : S -> bool).
  Context (eff : S -> T -> E -> option (effect K A OS)).
  Context (ostep : OS -> OT -> option (OS * OT)) (oestep : OS -> E -> OS) (idle : OT) (push : OT -> A -> OT) (returned : OT -> bool).
  Notation gstep := (gstep tstep halted eff ostep idle push returned).
  Notation gestep := (gestep estep oestep).
  Notation grun := (grun tstep estep halted eff ostep oestep idle push returned).
  Notation gthread := (gthread T OT K A).
  Notation inside_of := (inside_of idle).

  (** The client alone. *)
  Definition client (c : config (gshared S E K OS) gthread) : config S T :=
    Config (gs_client (shared c)) (gt_client <$> threads c).

  Lemma client_step s (t : gthread) s' t' : gstep s t = Some (s', t') ->
    (gs_client s' = gs_client s /\ gt_client t' = gt_client t) \/
    (gt_in t = None /\ tstep (gs_client s) (gt_client t) = Some (gs_client s', gt_client t')).
  Proof.
    unfold GoCompose.gstep. destruct (halted _); [done|]. destruct (gt_in t) as [k|].
    - intros Hs. left. destruct (returned _); [by injection Hs as <- <-|].
      destruct (gs_objs s !! k); [|done]. destruct (ostep _ _) as [[o' ot']|]; [|done]. by injection Hs as <- <-.
    - intros Hs. right. split; [done|]. destruct (tstep _ _) as [[s1 t1]|]; [|done].
      destruct (eff _ _ _) as [[|k o|k a]|]; [..|done]; by injection Hs as <- <-.
  Qed.

  Lemma client_run s0 objs0 e0 ts sched : exists sched',
    client (grun s0 objs0 e0 ts sched) = crun tstep estep (Config s0 ts) sched' /\
    shown sched' = shown sched.
  Proof.
    induction sched as [|ev sched IH] using rev_ind.
    - exists []. split; [|done]. unfold client. cbn. f_equal. rewrite <- list_fmap_compose. apply list_fmap_id.
    - destruct IH as (sched' & IH & IHe). unfold shown in *. unfold GoCompose.grun. rewrite crun_snoc. fold (grun s0 objs0 e0 ts sched).
      destruct (grun s0 objs0 e0 ts sched) as [s gts]. rewrite omap_app. destruct ev as [i|e].
      + cbn [cstep threads shared]. destruct (gts !! i) as [t|] eqn:Hi.
        2: { exists sched'. split; [done|]. rewrite IHe. cbn. by rewrite app_nil_r. }
        destruct (gstep s t) as [[s' t']|] eqn:Hs.
        2: { exists sched'. split; [done|]. rewrite IHe. cbn. by rewrite app_nil_r. }
        unfold client in IH |- *. cbn [shared threads] in IH |- *. rewrite list_fmap_insert.
        destruct (client_step _ _ _ _ Hs) as [[-> ->]|[_ Hc]].
        * exists sched'. split; [|rewrite IHe; cbn; by rewrite app_nil_r]. rewrite <- IH. f_equal.
          apply list_insert_id. by rewrite list_lookup_fmap, Hi.
        * exists (sched' ++ [Run i]). split; [|rewrite omap_app, IHe; done]. rewrite crun_snoc, <- IH. cbn [cstep threads shared].
          rewrite list_lookup_fmap, Hi. cbn. by rewrite Hc.
      + exists (sched' ++ [Env e]). split; [|rewrite omap_app, IHe; done]. rewrite crun_snoc, <- IH. done.
  Qed.

  Context (Hpush : forall s t s' t' a, ostep s t = Some (s', t') -> ostep s (push t a) = Some (s', push t' a)).
  (** A goroutine started with a list of calls to make. *)
  Definition with_calls (p : list A) : OT := fold_left push p idle.

  (** A goroutine has returned from the calls of all objects but the one it is in. *)
  Lemma away_run s0 objs0 e0 ts sched i t k : returned idle = true ->
    threads (grun s0 objs0 e0 ts sched) !! i = Some t -> gt_in t <> Some k -> returned (inside_of k t) = true.
  Proof.
    intros Hid Hi. revert i t Hi k.
    apply (crun_inv gstep gestep (fun c => forall i t, threads c !! i = Some t -> forall k, gt_in t <> Some k -> returned (inside_of k t) = true)).
    - intros i t Hi k _. cbn in Hi. rewrite list_lookup_fmap in Hi. destruct (ts !! i) as [x|]; [|done]. injection Hi as <-.
      unfold GoCompose.inside_of. cbn [gt_local]. by rewrite lookup_empty.
    - intros s gts i t s' t' HJ Hi Hs j u Hj k Hk. cbn [threads] in *.
      apply list_lookup_insert_Some in Hj as [(-> & <- & _)|[_ Hj]]; [|by eapply HJ]. specialize (HJ _ _ Hi).
      unfold GoCompose.gstep in Hs. destruct (halted _); [done|]. destruct (gt_in t) as [k'|] eqn:Ein.
      + destruct (returned (inside_of k' t)) eqn:Er.
        * injection Hs as <- <-. unfold GoCompose.inside_of in *. cbn [gt_local]. destruct (decide (k' = k)) as [->|]; [done|]. apply HJ. congruence.
        * destruct (gs_objs s !! k'); [|done]. destruct (ostep _ _) as [[o' ot']|]; [|done]. injection Hs as <- <-. cbn [gt_in] in Hk.
          unfold GoCompose.inside_of in *. cbn [gt_local]. rewrite lookup_insert_ne by congruence. apply HJ. congruence.
      + destruct (tstep _ _) as [[s1 t1]|]; [|done]. destruct (eff _ _ _) as [[|k' o|k' a]|]; [..|done]; injection Hs as <- <-; cbn [gt_in] in Hk;
          unfold GoCompose.inside_of in *; cbn [gt_local]; rewrite ?lookup_insert_ne by congruence; by apply HJ.
    - intros s gts e HJ. exact HJ.
  Qed.

  (** The client creates an object once and calls only existing objects. *)
  Definition proper (c : config (gshared S E K OS) gthread) : Prop :=
    forall i t, threads c !! i = Some t -> gt_in t = None ->
    match eff (gs_client (shared c)) (gt_client t) (gs_env (shared c)) with
    | Some (Create k _) => tstep (gs_client (shared c)) (gt_client t) <> None -> gs_objs (shared c) !! k = None
    | Some (Invoke k _) => tstep (gs_client (shared c)) (gt_client t) <> None -> is_Some (gs_objs (shared c) !! k)
    | _ => True
    end.
  (** How the object [k] may have begun: it was there from the start, or it was created when
      the environment showed [e].  [e0], [all]: what it showed at the start and so far;
      [es]: since the object is there. *)
  Definition origin (objs0 : gmap K OS) (e0 : E) (all : list E) (k : K) (o : OS) (es : list E) : Prop :=
    (objs0 !! k = Some o /\ es = all) \/
    exists s t e before, eff s t e = Some (Create k o) /\ e0 :: all = before ++ e :: es.

  Lemma calls_of_app (k : K) (l1 l2 : list (K * A)) : calls_of k (l1 ++ l2) = calls_of k l1 ++ calls_of k l2.
  Proof. unfold calls_of. by rewrite omap_app. Qed.
  Lemma calls_of_same (k : K) (l : list (K * A)) a : calls_of k (l ++ [(k, a)]) = calls_of k l ++ [a].
  Proof. rewrite calls_of_app. f_equal. unfold calls_of. cbn. by rewrite decide_True. Qed.
  Lemma calls_of_other (k k' : K) (l : list (K * A)) a : k' <> k -> calls_of k' (l ++ [(k, a)]) = calls_of k' l.
  Proof. intros Hne. rewrite calls_of_app. unfold calls_of at 2. cbn. rewrite decide_False by done. apply app_nil_r. Qed.

  Record seen (objs0 : gmap K OS) (e0 : E) (es : list E) (c : config (gshared S E K OS) gthread) : Prop := {
    sn_env : exists before, e0 :: es = before ++ [gs_env (shared c)];
    sn_in : forall i t k, threads c !! i = Some t -> gt_in t = Some k -> calls_of k (gt_made t) <> [];
    sn_local : forall i t k, threads c !! i = Some t -> calls_of k (gt_made t) = [] -> gt_local t !! k = None;
    sn_none : forall k i t, gs_objs (shared c) !! k = None -> threads c !! i = Some t -> calls_of k (gt_made t) = [];
    sn_some : forall k o, gs_objs (shared c) !! k = Some o -> exists o0 tr, origin objs0 e0 es k o0 (shown tr) /\
      esteps ostep oestep (Config o0 ((fun t => with_calls (calls_of k (gt_made t))) <$> threads c)) tr (Config o (inside_of k <$> threads c)) }.

  Lemma fmap_insert_same {X Y} (f : X -> Y) (l : list X) i x y : l !! i = Some x -> f y = f x -> f <$> <[i := y]> l = f <$> l.
  Proof. intros Hi E'. rewrite list_fmap_insert. apply list_insert_id. by rewrite list_lookup_fmap, Hi, E'. Qed.

  Lemma seen_step objs0 e0 es s ts i t s' t' : seen objs0 e0 es (Config s ts) -> proper (Config s ts) -> ts !! i = Some t -> gstep s t = Some (s', t') ->
    seen objs0 e0 es (Config s' (<[i := t']> ts)).
  Proof using Hpush.
    intros [H0 H1 HL H2 H3] HP Hi Hs. cbn [shared threads] in *.
    assert (Hlt : (i < length ts)%nat) by (by eapply lookup_lt_Some).
    unfold GoCompose.gstep in Hs. destruct (halted _); [done|]. destruct (gt_in t) as [k|] eqn:Ein.
    - destruct (returned (inside_of k t)) eqn:Er.
      { (* the method returns *)
        injection Hs as <- <-. constructor; cbn [shared threads]; [exact H0|..].
        - intros j u k' Hj Hk. apply list_lookup_insert_Some in Hj as [(-> & <- & _)|[_ Hj]]; [done|by eapply H1].
        - intros j u k' Hj. apply list_lookup_insert_Some in Hj as [(-> & <- & _)|[_ Hj]]; [by eapply (HL _ t)|by eapply HL].
        - intros k' j u Hn Hj. apply list_lookup_insert_Some in Hj as [(-> & <- & _)|[_ Hj]]; [by eapply (H2 k' j t)|by eapply H2].
        - intros k' o Ho. destruct (H3 k' o Ho) as (o0 & tr & Hor & Hst). exists o0, tr. split; [done|].
          rewrite (fmap_insert_same _ ts i t) by done. rewrite (fmap_insert_same (inside_of k') ts i t); done. }
      destruct (gs_objs s !! k) as [o|] eqn:Eo; [|done]. destruct (ostep o (inside_of k t)) as [[o' ot']|] eqn:Eost; [|done]. injection Hs as <- <-.
      constructor; cbn [shared threads gs_objs]; [exact H0|..].
      + intros j u k' Hj Hk. apply list_lookup_insert_Some in Hj as [(-> & <- & _)|[_ Hj]]; [|by eapply H1].
        cbn in Hk |- *. injection Hk as <-. by eapply H1.
      + intros j u k' Hj Hn. apply list_lookup_insert_Some in Hj as [(-> & <- & _)|[_ Hj]]; [|by eapply HL]. cbn [gt_local gt_made] in *.
        destruct (decide (k' = k)) as [->|Hne]; [|rewrite lookup_insert_ne by done; by eapply HL]. exfalso. by eapply H1.
      + intros k' j u Hn Hj. assert (k' <> k) as Hne by (intros ->; by rewrite lookup_insert in Hn). rewrite lookup_insert_ne in Hn by done.
        apply list_lookup_insert_Some in Hj as [(-> & <- & _)|[_ Hj]]; [by eapply (H2 k' j t)|by eapply H2].
      + intros k' o1 Ho. destruct (decide (k' = k)) as [->|Hne].
        * rewrite lookup_insert in Ho. injection Ho as <-. destruct (H3 k o Eo) as (o0 & tr & Hor & Hst). exists o0, (tr ++ [Run i]). split; [by rewrite shown_run|].
          rewrite (fmap_insert_same (fun t0 => with_calls _) ts i t) by done. rewrite list_fmap_insert.
          eapply es_run; [exact Hst| |].
          -- rewrite list_lookup_fmap, Hi. cbn. reflexivity.
          -- rewrite Eost. unfold GoCompose.inside_of. cbn [gt_local]. by rewrite lookup_insert.
        * rewrite lookup_insert_ne in Ho by done. destruct (H3 k' o1 Ho) as (o0 & tr & Hor & Hst). exists o0, tr. split; [done|].
          rewrite (fmap_insert_same (fun t0 => with_calls _) ts i t) by done. rewrite (fmap_insert_same (inside_of k') ts i t); [done|done|].
          unfold GoCompose.inside_of. cbn [gt_local]. by rewrite lookup_insert_ne.
    - destruct (tstep _ _) as [[s1 t1]|] eqn:Ets; [|done]. specialize (HP i t Hi Ein). cbn [shared] in HP. rewrite Ets in HP.
      destruct (eff _ _ _) as [[|k o|k a]|] eqn:Eeff; [..|done]; injection Hs as <- <-; constructor; cbn [shared threads gs_objs]; try exact H0.
      + intros j u k' Hj Hk. apply list_lookup_insert_Some in Hj as [(-> & <- & _)|[_ Hj]]; [done|by eapply H1].
      + intros j u k' Hj. apply list_lookup_insert_Some in Hj as [(-> & <- & _)|[_ Hj]]; [by eapply (HL _ t)|by eapply HL].
      + intros k' j u Hn Hj. apply list_lookup_insert_Some in Hj as [(-> & <- & _)|[_ Hj]]; [by eapply (H2 k' j t)|by eapply H2].
      + intros k' o Ho. destruct (H3 k' o Ho) as (o0 & tr & Hor & Hst). exists o0, tr. split; [done|].
        rewrite (fmap_insert_same (fun t0 => with_calls _) ts i t) by done. rewrite (fmap_insert_same (inside_of k') ts i t); done.
      + intros j u k' Hj Hk. apply list_lookup_insert_Some in Hj as [(-> & <- & _)|[_ Hj]]; [done|by eapply H1].
      + intros j u k' Hj. apply list_lookup_insert_Some in Hj as [(-> & <- & _)|[_ Hj]]; [by eapply (HL _ t)|by eapply HL].
      + intros k' j u Hn Hj. assert (k' <> k) as Hne by (intros ->; by rewrite lookup_insert in Hn). rewrite lookup_insert_ne in Hn by done.
        apply list_lookup_insert_Some in Hj as [(-> & <- & _)|[_ Hj]]; [by eapply (H2 k' j t)|by eapply H2].
      + intros k' o1 Ho. destruct (decide (k' = k)) as [->|Hne].
        * (* the new object: nobody has called it *)
          rewrite lookup_insert in Ho. injection Ho as <-. assert (Hn : gs_objs s !! k = None) by (by apply HP).
          exists o, []. split; [right; destruct H0 as [before H0]; exists (gs_client s), (gt_client t), (gs_env s), before; by split|].
          assert (Heq : (fun t0 : gthread => with_calls (calls_of k (gt_made t0))) <$> <[i := GThread t1 None (gt_local t) (gt_made t)]> ts =
                        inside_of k <$> <[i := GThread t1 None (gt_local t) (gt_made t)]> ts).
          { apply list_fmap_ext. intros j u Hj. assert (calls_of k (gt_made u) = [] /\ gt_local u !! k = None) as [Hc Hl].
            { apply list_lookup_insert_Some in Hj as [(-> & <- & _)|[_ Hj]].
              - split; [by eapply (H2 k j t)|]. eapply (HL j t); [done|]. by eapply (H2 k j t).
              - split; [by eapply H2|]. eapply HL; [done|]. by eapply H2. }
            rewrite Hc. unfold GoCompose.inside_of. by rewrite Hl. }
          rewrite Heq. constructor.
        * rewrite lookup_insert_ne in Ho by done. destruct (H3 k' o1 Ho) as (o0 & tr & Hor & Hst). exists o0, tr. split; [done|].
          rewrite (fmap_insert_same (fun t0 => with_calls _) ts i t) by done. rewrite (fmap_insert_same (inside_of k') ts i t); done.
      + intros j u k' Hj Hk. apply list_lookup_insert_Some in Hj as [(-> & <- & _)|[_ Hj]]; [|by eapply H1].
        cbn [gt_in gt_made] in Hk |- *. injection Hk as <-. rewrite calls_of_same. by destruct (calls_of k (gt_made t)).
      + intros j u k' Hj Hn. apply list_lookup_insert_Some in Hj as [(-> & <- & _)|[_ Hj]]; [|by eapply HL]. cbn [gt_local gt_made] in *.
        destruct (decide (k' = k)) as [->|Hne]; [rewrite calls_of_same in Hn; by destruct (calls_of k (gt_made t))|].
        rewrite calls_of_other in Hn by done. rewrite lookup_insert_ne by done. by eapply HL.
      + intros k' j u Hn Hj. assert (k' <> k) as Hne. { intros ->. destruct HP as [o Ho]; [done|]. congruence. }
        apply list_lookup_insert_Some in Hj as [(-> & <- & _)|[_ Hj]]; [|by eapply H2]. cbn [gt_made]. rewrite calls_of_other by done. by eapply (H2 k' j t).
      + intros k' o Ho. destruct (H3 k' o Ho) as (o0 & tr & Hor & Hst). exists o0, tr. split; [done|].
        set (t' := GThread t1 (Some k) (<[k:=push (inside_of k t) a]> (gt_local t)) (gt_made t ++ [(k, a)])).
        destruct (decide (k' = k)) as [->|Hne].
        * assert (Hext : forall (f : gthread -> OT), f t' = push (f t) a -> f <$> <[i := t']> ts = alter (fun x => push x a) i (f <$> ts)).
          { intros f Hf. apply list_eq. intros j. destruct (decide (j = i)) as [->|Hji].
            - rewrite list_lookup_fmap, list_lookup_insert by done. rewrite list_lookup_alter, list_lookup_fmap, Hi. cbn. by rewrite Hf.
            - rewrite list_lookup_fmap, list_lookup_insert_ne by done. by rewrite list_lookup_alter_ne, list_lookup_fmap by done. }
          rewrite (Hext (fun t0 => with_calls (calls_of k (gt_made t0)))).
          2: { cbn [gt_made t']. rewrite calls_of_same. unfold with_calls. by rewrite fold_left_app. }
          rewrite (Hext (inside_of k)).
          2: { unfold GoCompose.inside_of, t'. cbn [gt_local]. by rewrite lookup_insert. }
          exact (esteps_push ostep oestep push Hpush i a _ _ _ Hst).
        * rewrite (fmap_insert_same (fun t0 : gthread => with_calls (calls_of k' (gt_made t0))) ts i t); [|done|].
          2: { cbn [gt_made t']. by rewrite calls_of_other. }
          rewrite (fmap_insert_same (inside_of k') ts i t); [done|done|].
          unfold GoCompose.inside_of, t'. cbn [gt_local]. by rewrite lookup_insert_ne.
  Qed.

  Theorem seen_run s0 objs0 e0 ts : (forall sched, proper (grun s0 objs0 e0 ts sched)) -> forall sched, seen objs0 e0 (shown sched) (grun s0 objs0 e0 ts sched).
  Proof using Hpush.
    intros HP sched. induction sched as [|ev sched IH] using rev_ind.
    - constructor; cbn; [by exists []|..].
      + intros i t k Hi. rewrite list_lookup_fmap in Hi. destruct (ts !! i) as [x|]; [|done]. injection Hi as <-. done.
      + intros i t k Hi _. rewrite list_lookup_fmap in Hi. destruct (ts !! i) as [x|]; [|done]. injection Hi as <-. apply lookup_empty.
      + intros k i t _ Hi. rewrite list_lookup_fmap in Hi. destruct (ts !! i) as [x|]; [|done]. injection Hi as <-. done.
      + intros k o Ho. exists o, []. split; [by left|]. rewrite <- !list_fmap_compose.
        match goal with |- esteps _ _ (Config _ ?l1) _ (Config _ ?l2) => replace l2 with l1; [constructor|] end.
        apply list_fmap_ext. intros j x _. cbn. unfold GoCompose.inside_of. cbn [gt_local]. by rewrite lookup_empty.
    - specialize (HP sched). unfold GoCompose.grun in *. rewrite crun_snoc. destruct (crun gstep gestep _ sched) as [s gts].
      destruct ev as [i|e]; cbn [cstep threads shared].
      + destruct (gts !! i) as [t|] eqn:Hi; [|by rewrite shown_run]. destruct (gstep s t) as [[s' t']|] eqn:Hs; [|]; rewrite shown_run; [by eapply seen_step|done].
      + rewrite shown_env. destruct IH as [H0 H1 HL H2 H3]. constructor; cbn [shared threads gs_objs gs_env GoCompose.gestep] in *.
        * by exists (e0 :: shown sched).
        * exact H1.
        * exact HL.
        * intros k i t Hn. rewrite lookup_fmap in Hn. apply H2. by destruct (gs_objs s !! k).
        * intros k o Ho. rewrite lookup_fmap in Ho. destruct (gs_objs s !! k) as [o1|] eqn:E1; [|done]. injection Ho as <-.
          destruct (H3 k o1 E1) as (o0 & tr & Hor & Hst). exists o0, (tr ++ [Env e]). split; [|by constructor].
          rewrite shown_env. destruct Hor as [[Ho ->]|(s1 & t1 & e1 & before & He & Hb)]; [by left|]. right. exists s1, t1, e1, before. split; [done|].
          rewrite app_comm_cons, Hb, <- app_assoc. done.
  Qed.
End compose.
