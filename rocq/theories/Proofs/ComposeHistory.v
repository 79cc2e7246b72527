(** A composed program seen from one of its objects between two moments. *)
From Verif.Go Require Import GoInt GoConc GoCompose.
From Verif.Proofs Require Import ComposeProofs.

Lemma zip_with_insert {X Y Z} (f : X -> Y -> Z) xs ys i x y : xs !! i = Some x -> zip_with f xs (<[i := y]> ys) = <[i := f x y]> (zip_with f xs ys).
Proof.
  revert ys i. induction xs as [|x' xs IH]; intros ys i Hi; [done|]. destruct ys as [|y' ys]; [by destruct i|]. destruct i as [|i]; cbn in *; [by injection Hi as ->|]. f_equal. by apply IH.
Qed.
Lemma zip_with_alter_l {X Y Z} (f : X -> Y -> Z) (g : X -> X) (h : Z -> Z) xs ys i : (forall x y, f (g x) y = h (f x y)) -> zip_with f (alter g i xs) ys = alter h i (zip_with f xs ys).
Proof.
  intros Hf. revert ys i. induction xs as [|x xs IH]; intros ys i; [by destruct i|]. destruct i as [|i], ys as [|y ys]; cbn; [done|f_equal; apply Hf|done|f_equal; apply IH].
Qed.
Lemma zip_with_alter_r {X Y Z} (f : X -> Y -> Z) (g : Y -> Y) (h : Z -> Z) xs ys i : (forall x y, f x (g y) = h (f x y)) -> zip_with f xs (alter g i ys) = alter h i (zip_with f xs ys).
Proof.
  intros Hf. revert ys i. induction xs as [|x xs IH]; intros ys i; [by destruct i|]. destruct ys as [|y ys]; [by destruct i|]. destruct i as [|i]; cbn; f_equal; [apply Hf|apply IH].
Qed.

Section pushes.
  Context {S T E A : Type} (tstep : S -> T -> option (S * T)) (estep : S -> E -> S) (push : T -> A -> T).
  Context (Hpush : forall s t s' t' a, tstep s t = Some (s', t') -> tstep s (push t a) = Some (s', push t' a)).
  (** Goroutines with further calls to make. *)
  Definition with_later (later : list (list A)) (ts : list T) : list T := zip_with (fun l t => fold_left push l t) later ts.
  Lemma step_later s t s' t' l : tstep s t = Some (s', t') -> tstep s (fold_left push l t) = Some (s', fold_left push l t').
  Proof using Hpush. revert t t'. induction l as [|a l IH]; intros t t' Hs; [done|]. cbn. apply IH. by apply Hpush. Qed.
  Lemma esteps_length (c : config S T) tr c' : esteps tstep estep c tr c' -> length (threads c') = length (threads c).
  Proof. induction 1 as [|tr s ts i t s' t' _ IH _ _|tr s ts e _ IH]; [done| |exact IH]. cbn [threads] in *. by rewrite insert_length. Qed.
  Lemma esteps_later later c tr c' : esteps tstep estep c tr c' -> length later = length (threads c) ->
    esteps tstep estep (Config (shared c) (with_later later (threads c))) tr (Config (shared c') (with_later later (threads c'))).
  Proof using Hpush.
    induction 1 as [|tr s ts i t s' t' Hst IH Hi Hs|tr s ts e _ IH]; intros Hl; [constructor| |].
    - specialize (IH Hl). cbn [shared threads] in *. apply esteps_length in Hst. cbn [threads] in Hst. destruct (later !! i) as [l|] eqn:El; [|apply lookup_ge_None in El; apply lookup_lt_Some in Hi; lia].
      unfold with_later. rewrite (zip_with_insert _ _ _ _ l) by done. eapply es_run; [exact IH| |by apply step_later]. unfold with_later. by rewrite lookup_zip_with, El, Hi.
    - specialize (IH Hl). cbn [shared threads] in *. by apply (es_env tstep estep).
  Qed.
  Lemma esteps_app (c1 c2 c3 : config S T) tr1 tr2 : esteps tstep estep c1 tr1 c2 -> esteps tstep estep c2 tr2 c3 -> esteps tstep estep c1 (tr1 ++ tr2) c3.
  Proof.
    intros H1. induction 1 as [|tr s ts i t s' t' _ IH Hi Hs|tr s ts e _ IH]; [by rewrite app_nil_r|rewrite app_assoc; by eapply es_run|rewrite app_assoc; by apply (es_env tstep estep)].
  Qed.
End pushes.

Section compose.
  Context {S T E K A OS OT : Type} `{Countable K}.
  Context (tstep : S -> T -> option (S * T)) (estep : S -> E -> S) (halted : S -> bool).
  Context (eff : S -> T -> E -> option (effect K A OS)).
  Context (ostep : OS -> OT -> option (OS * OT)) (oestep : OS -> E -> OS) (idle : OT) (push : OT -> A -> OT) (returned : OT -> bool).
  Notation gstep := (gstep tstep halted eff ostep idle push returned).
  Notation gestep := (gestep estep oestep).
  Notation grun := (grun tstep estep halted eff ostep oestep idle push returned).
  Notation gthread := (gthread T OT K A).
  Notation inside_of := (inside_of idle).
  Context (Hpush : forall s t s' t' a, ostep s t = Some (s', t') -> ostep s (push t a) = Some (s', push t' a)).
  Notation later_calls := (with_later push).

  (** A step, seen from the object [k]. *)
  Lemma object_step s ts i t s' t' k o : proper tstep eff (Config s ts) -> ts !! i = Some t -> gstep s t = Some (s', t') -> gs_objs s !! k = Some o ->
    (gs_objs s' !! k = Some o /\ inside_of k t' = inside_of k t /\ calls_of k (gt_made t') = calls_of k (gt_made t)) \/
    (exists o', ostep o (inside_of k t) = Some (o', inside_of k t') /\ gs_objs s' !! k = Some o' /\ calls_of k (gt_made t') = calls_of k (gt_made t)) \/
    (exists a, gs_objs s' !! k = Some o /\ inside_of k t' = push (inside_of k t) a /\ calls_of k (gt_made t') = calls_of k (gt_made t) ++ [a]).
  Proof.
    intros HP Hi Hs Ho. unfold GoCompose.gstep in Hs. destruct (halted _); [done|]. destruct (gt_in t) as [k'|] eqn:Ein.
    - destruct (returned (inside_of k' t)); [injection Hs as <- <-; by left|]. destruct (gs_objs s !! k') as [o1|] eqn:Eo; [|done]. destruct (ostep o1 _) as [[o' ot']|] eqn:Eost; [|done]. injection Hs as <- <-.
      cbn [gs_objs gt_made]. destruct (decide (k' = k)) as [->|Hne].
      + right; left. exists o'. rewrite Ho in Eo. injection Eo as <-. rewrite lookup_insert. unfold GoCompose.inside_of in *. cbn [gt_local]. by rewrite lookup_insert.
      + left. rewrite lookup_insert_ne by done. unfold GoCompose.inside_of. cbn [gt_local]. by rewrite lookup_insert_ne.
    - destruct (tstep _ _) as [[s1 t1]|] eqn:Ets; [|done]. specialize (HP i t Hi Ein). cbn [shared] in HP. rewrite Ets in HP.
      destruct (eff _ _ _) as [[|k' o1|k' a]|] eqn:Eeff; [..|done]; injection Hs as <- <-; cbn [gs_objs gt_made].
      + by left.
      + left. destruct (decide (k' = k)) as [->|Hne]; [rewrite HP in Ho; done|]. by rewrite lookup_insert_ne.
      + destruct (decide (k' = k)) as [->|Hne].
        * right; right. exists a. rewrite calls_of_same. unfold GoCompose.inside_of. cbn [gt_local]. by rewrite lookup_insert.
        * left. rewrite calls_of_other by done. unfold GoCompose.inside_of. cbn [gt_local]. by rewrite lookup_insert_ne.
  Qed.

  Lemma esteps_since s0 objs0 e0 ts s1 k o1 : (forall sched, proper tstep eff (grun s0 objs0 e0 ts sched)) -> let c1 := grun s0 objs0 e0 ts s1 in gs_objs (shared c1) !! k = Some o1 -> forall s2,
    let c2 := grun s0 objs0 e0 ts (s1 ++ s2) in
    exists o2 tr later, gs_objs (shared c2) !! k = Some o2 /\ shown tr = shown s2 /\ length later = length (threads c1) /\
      (fun t => calls_of k (gt_made t)) <$> threads c2 = zip_with (++) ((fun t => calls_of k (gt_made t)) <$> threads c1) later /\
      esteps ostep oestep (Config o1 (later_calls later (inside_of k <$> threads c1))) tr (Config o2 (inside_of k <$> threads c2)).
  Proof using Hpush.
    intros HP c1 Ho1 s2. induction s2 as [|ev s2 IH] using rev_ind.
    - rewrite app_nil_r. fold c1. exists o1, [], (replicate (length (threads c1)) []). split; [done|]. split; [done|]. split; [by rewrite replicate_length|].
      assert (E1 : forall (X : Type) (f : X -> list A -> X) (l : list X), (forall x, f x [] = x) -> zip_with f l (replicate (length l) []) = l).
      { intros X f l Hf. induction l as [|x l IHl]; [done|]. cbn. by rewrite Hf, IHl. }
      split; [rewrite <- (fmap_length (fun t => calls_of k (gt_made t)) (threads c1)); rewrite E1; [done|]; intros; apply app_nil_r|].
      assert (E2 : later_calls (replicate (length (threads c1)) []) (inside_of k <$> threads c1) = inside_of k <$> threads c1).
      { unfold with_later. generalize (threads c1). intros l. induction l as [|x l IHl]; [done|]. cbn. by f_equal. }
      rewrite E2. constructor.
    - cbv zeta in IH |- *. rewrite app_assoc. pose proof (HP (s1 ++ s2)) as HP2. unfold GoCompose.grun in HP2, IH |- *. rewrite crun_snoc. destruct (crun gstep gestep _ (s1 ++ s2)) as [s gts].
      destruct IH as (o2 & tr & later & Ho2 & Hsh & Hl & Hc & Hst). cbn [shared threads] in *. destruct ev as [i|e]; cbn [cstep threads shared].
      2: { exists (oestep o2 e), (tr ++ [Env e]), later. cbn [GoCompose.gestep gs_objs]. rewrite lookup_fmap, Ho2. split; [done|]. split; [by rewrite !shown_env, Hsh|]. split; [done|]. split; [done|]. by apply (es_env ostep oestep). }
      destruct (gts !! i) as [t|] eqn:Hi; [|exists o2, tr, later; by rewrite shown_run]. destruct (gstep s t) as [[s' t']|] eqn:Hs; [|exists o2, tr, later; by rewrite shown_run]. cbn [shared threads]. rewrite shown_run.
      destruct (object_step s gts i t s' t' k o2 HP2 Hi Hs Ho2) as [(H1 & H2 & H3)|[(o' & H1 & H2 & H3)|(a & H1 & H2 & H3)]].
      + exists o2, tr, later. split; [done|]. split; [done|]. split; [done|]. rewrite (fmap_insert_same (fun t => calls_of k (gt_made t)) gts i t t' Hi H3). split; [done|]. by rewrite (fmap_insert_same (inside_of k) gts i t t' Hi H2).
      + exists o', (tr ++ [Run i]), later. split; [done|]. split; [by rewrite shown_run|]. split; [done|]. rewrite (fmap_insert_same (fun t => calls_of k (gt_made t)) gts i t t' Hi H3). split; [done|].
        rewrite list_fmap_insert. eapply es_run; [exact Hst| |exact H1]. by rewrite list_lookup_fmap, Hi.
      + assert (Hext : forall X (f : gthread -> X) (g : X -> X), f t' = g (f t) -> f <$> <[i := t']> gts = alter g i (f <$> gts)).
        { intros X f g Hf. apply list_eq. intros j. destruct (decide (j = i)) as [->|Hji].
          - rewrite list_lookup_fmap, list_lookup_insert by (by eapply lookup_lt_Some). rewrite list_lookup_alter, list_lookup_fmap, Hi. cbn. by rewrite Hf.
          - rewrite list_lookup_fmap, list_lookup_insert_ne by done. by rewrite list_lookup_alter_ne, list_lookup_fmap by done. }
        exists o2, tr, (alter (fun l => l ++ [a]) i later). split; [done|]. split; [done|]. split; [by rewrite alter_length|]. split.
        * rewrite (Hext _ (fun t => calls_of k (gt_made t)) (fun l => l ++ [a])) by done. rewrite Hc.
          symmetry. apply zip_with_alter_r. intros x y. apply app_assoc.
        * rewrite (Hext _ (inside_of k) (fun x => push x a)) by done. unfold with_later. rewrite (zip_with_alter_l _ _ (fun x => push x a)); [|intros x y; by rewrite fold_left_app].
          exact (esteps_push ostep oestep push Hpush i a _ _ _ Hst).
  Qed.

  (** Two moments of a run, as two moments of one run of the object. *)
  Theorem seen_between s0 objs0 e0 ts s1 s2 k o1 : (forall sched, proper tstep eff (grun s0 objs0 e0 ts sched)) ->
    let c1 := grun s0 objs0 e0 ts s1 in let c2 := grun s0 objs0 e0 ts (s1 ++ s2) in gs_objs (shared c1) !! k = Some o1 ->
    exists o0 o2 tr1 tr2 later, gs_objs (shared c2) !! k = Some o2 /\ origin eff objs0 e0 (shown s1) k o0 (shown tr1) /\ shown tr2 = shown s2 /\ length later = length (threads c1) /\
      (fun t => calls_of k (gt_made t)) <$> threads c2 = zip_with (++) ((fun t => calls_of k (gt_made t)) <$> threads c1) later /\
      esteps ostep oestep (Config o0 ((fun t => with_calls idle push (calls_of k (gt_made t))) <$> threads c2)) tr1 (Config o1 (later_calls later (inside_of k <$> threads c1))) /\
      esteps ostep oestep (Config o1 (later_calls later (inside_of k <$> threads c1))) tr2 (Config o2 (inside_of k <$> threads c2)).
  Proof using Hpush.
    intros HP c1 c2 Ho1. destruct (esteps_since s0 objs0 e0 ts s1 k o1 HP Ho1 s2) as (o2 & tr2 & later & Ho2 & Hsh & Hl & Hc & Hst). fold c1 c2 in Ho2, Hl, Hc, Hst.
    pose proof (seen_run tstep estep halted eff ostep oestep idle push returned Hpush s0 objs0 e0 ts HP s1) as HS. fold c1 in HS. destruct (sn_some _ _ _ _ _ _ _ _ _ HS k o1 Ho1) as (o0 & tr1 & Hor & Hst1).
    exists o0, o2, tr1, tr2, later. split; [done|]. split; [done|]. split; [done|]. split; [done|]. split; [done|]. split; [|done].
    pose proof (esteps_later ostep oestep push Hpush later _ _ _ Hst1) as Hx. cbn [shared threads] in Hx. rewrite fmap_length in Hx. specialize (Hx Hl).
    replace ((fun t => with_calls idle push (calls_of k (gt_made t))) <$> threads c2) with (later_calls later ((fun t => with_calls idle push (calls_of k (gt_made t))) <$> threads c1)); [exact Hx|].
    assert (Hff : (fun t => with_calls idle push (calls_of k (gt_made t))) <$> threads c2 = with_calls idle push <$> ((fun t => calls_of k (gt_made t)) <$> threads c2)) by (by rewrite <- list_fmap_compose).
    rewrite Hff, Hc. unfold with_later. clear. generalize (threads c1). intros l. revert later. induction l as [|t l IH]; intros later; [by destruct later|].
    destruct later as [|x later]; [done|]. cbn. f_equal; [|apply IH]. unfold with_calls. by rewrite fold_left_app.
  Qed.
End compose.
