(** A compass read while it is updated: how far the calls of each goroutine are. *)
From Verif.Go Require Import GoInt GoFloat GoConc GoCompose.
From Verif.Model Require Import Counter BucketQueue BucketCounter BucketCounterConc BucketReadConc BucketReservoir EWMA EWMAConc Compass CompassConc CompassFine CompassRead.
From Verif.Spec Require Import BucketSpec BucketConcSpec BucketReadSpec CompassConcSpec.
From Verif.Proofs Require Import BucketAbs BucketHist BucketConcProofs BucketConcMain BucketReadProofs BucketReadMain ComposeProofs CompassConcProofs CompassFineProofs CompassFineParts CompassFineMain CompassLedger CompassReadProofs.
From Verif.Spec Require Import CompassFineSpec CompassReadSpec.
Local Open Scope Z_scope.

(** Amounts the client still has to pass to the counter [k]. *)
Definition left_of (k : ckey) (pc : kpc) : list Z :=
  match k with
  | KTotal => (fun _ => 1) <$> untotalled_yet pc
  | KSuccess => mjoin ((fun r : result => if rs_success r then [1] else []) <$> unjudged_yet pc)
  | KValues => unsampled_yet pc
  | _ => []
  end.
Definition inner (k : ckey) (g : gthread kthread cin ckey cop) : list Z := unfinished (ci_bc (at_in k g)).
Definition owed (k : ckey) (g : gthread kthread cin ckey cop) : list Z :=
  all_amounts k (kt_todo (gt_client g)) ++ left_of k (kt_pc (gt_client g)) ++ inner k g.

Lemma all_amounts_app k l1 l2 : all_amounts k (l1 ++ l2) = all_amounts k l1 ++ all_amounts k l2.
Proof. unfold all_amounts. by rewrite fmap_app, join_app'. Qed.
Lemma all_amounts_cons k x l : all_amounts k (x :: l) = amounts k x ++ all_amounts k l.
Proof. done. Qed.
Lemma amounts_short k call : (length (amounts k call) <= 1)%nat.
Proof. destruct call as [d [r|]| |w n]; destruct k; cbn; try lia. destruct (rs_success r); cbn; lia. Qed.

Lemma main_is_counter rk k : main_counter rk k -> is_counter k = true.
Proof. by destruct k. Qed.

Lemma main_in_objs rk k : main_counter rk k -> k ∈ [KTotal; KSuccess; KOne; KFive; KFifteen; reservoir_key rk].
Proof. rewrite !elem_of_cons. destruct rk; destruct k; intros H; try (exfalso; exact H); cbn; tauto. Qed.

Lemma join_cons' {A} (x : list A) l : mjoin (x :: l) = x ++ mjoin l.
Proof. done. Qed.

Lemma sub_of {A} (k l1 l2 : list A) : l2 ≡ₚ l1 ++ k -> l1 ⊆+ l2.
Proof. intros ->. apply submseteq_inserts_r. reflexivity. Qed.

(** Permutations of the same pieces. *)
Ltac perm := apply (Permutation_count_occ Z.eq_dec); intros ?; rewrite ?count_occ_app; lia.

Section inv.
Context (math_Exp : f64 -> f64) (rk : reservoir_kind) (I N maxE maxA : Z).
Notation effect_of := (cf_effect rk I N).
Notation gs := (cf_gstep math_Exp rk I N maxE maxA).
Notation ge := (gestep cf_estep cobj_estep).
Notation cf := (cf_run math_Exp rk I N maxE maxA).
Notation run := (cr_run math_Exp rk I N maxE maxA).

(** What a step of the client does about the amounts. *)
Lemma client_amounts kk s t s' t' e : main_counter rk kk -> cp_tstep I maxE maxA s t = Some (s', t') -> effect_of s t e <> None ->
  all_amounts kk (kt_todo t) ++ left_of kk (kt_pc t) ≡ₚ eff_args kk (effect_of s t e) ++ all_amounts kk (kt_todo t') ++ left_of kk (kt_pc t').
Proof.
  intros Hk Hs He. unfold cf_effect in *. steps s t Hs; cbn [kt_pc kt_todo] in *.
  all: try (destruct (new_counter I N (ce_ms e)); [|done]).
  all: unfold all_amounts, left_of, after_tick, after_key; cbn [eff_args].
  all: repeat match goal with |- context [match ?x with Codes => _ | Addons => _ end] => destruct x | x : option (Z * option result) |- _ => destruct x as [[? [?|]]|] | x : option result |- _ => destruct x as [?|] end.
  all: destruct kk as [| | | | | | | |w0 p0]; try (exfalso; exact Hk); cbn [eff_args].
  all: try reflexivity.
  all: try (destruct rk; [done| |done]; cbn [reservoir_key reservoir_op eff_args]).
  all: repeat first [rewrite decide_True by done | rewrite decide_False by done]; cbn [arg].
  all: cbn; rewrite ?app_nil_r; try reflexivity.
  all: try (by apply Permutation_middle || by (rewrite Permutation_app_comm)).
  all: try (destruct (rs_success _); cbn; rewrite ?app_nil_r; first [reflexivity|by rewrite Permutation_app_comm]).
Qed.

Lemma unfinished_step s t s' t' : bc_tstep s t = Some (s', t') -> unfinished t' = unfinished t \/ exists n, unfinished t = n :: unfinished t'.
Proof.
  destruct t as [todo pc]. unfold bc_tstep, unfinished. cbn [bt_pc bt_todo]. destruct pc; intros Hs.
  - destruct todo as [|n todo]; [done|]. injection Hs as <- <-. by left.
  - destruct (alignTimestamp _ _); [|done]. injection Hs as <- <-. by left.
  - injection Hs as <- <-. by left.
  - destruct (_ !! old); [|done]. injection Hs as <- <-. left. cbn. by destruct (_ <? _).
  - destruct (decide _); injection Hs as <- <-; by left.
  - destruct (length _); [done|]. injection Hs as <- <-. by left.
  - injection Hs as <- <-. by left.
  - injection Hs as <- <-. by left.
  - destruct (_ <? _)%nat; [|done]. injection Hs as <- <-. by left.
  - injection Hs as <- <-. by left.
  - destruct (heap_add _ _ _); [|done]. injection Hs as <- <-. right. by exists n.
Qed.

(** Where a goroutine that is in a call is. *)
Definition shape (g : gthread kthread cin ckey cop) (call : kcall) : Prop :=
  kt_todo (gt_client g) = [] \/ (kt_todo (gt_client g) = [call] /\ kt_pc (gt_client g) = PIdle /\ gt_in g = None).

Lemma perm_short {A} (l1 l2 : list A) : (length l1 <= 1)%nat -> l1 ≡ₚ l2 -> l2 = l1.
Proof.
  intros Hl P. destruct l1 as [|x [|y l1]]; cbn in Hl; [|..|lia].
  - by apply Permutation_nil in P.
  - by apply Permutation_singleton_l in P.
Qed.

Lemma shape_step call s g s' g' : gs s g = Some (s', g') -> shape g call -> kt_todo (gt_client g') = [].
Proof.
  intros Hs Hsh. unfold cf_gstep, gstep in Hs. destruct (cs_crashed _) eqn:Ec; [done|]. destruct (gt_in g) as [k|] eqn:Ein.
  - assert (Ht : kt_todo (gt_client g) = []) by (destruct Hsh as [?|(_ & _ & ?)]; [done|congruence]).
    destruct (cin_returned _); [by injection Hs as <- <-|]. destruct (_ !! k); [|done]. destruct (cobj_step _ _ _) as [[? ?]|]; [|done]. by injection Hs as <- <-.
  - destruct (cp_tstep _ _ _ _ _) as [[s1 t1]|] eqn:Et; [|done].
    assert (Ht : kt_todo t1 = []).
    { clear Hs. unfold shape in Hsh. destruct (gt_client g) as [todo pc pan]. cbn [kt_todo kt_pc] in Hsh. clear Ein.
      assert (Hsh' : todo = [] \/ (todo = [call] /\ pc = PIdle)) by (destruct Hsh as [?|(? & ? & _)]; auto). clear Hsh.
      unfold cp_tstep in Et. cbn [kt_pc kt_todo kt_panics] in Et. rewrite Ec in Et. destruct Hsh' as [E|[E1 E2]].
      - destruct pc; rewrite ?E in Et; repeat match type of Et with
            | context [match ?x with _ => _ end] => destruct x
            | Some _ = Some _ => injection Et as <- <-; try reflexivity
            | None = Some _ => discriminate Et
            end; first [exact E|reflexivity].
      - rewrite E1, E2 in Et. destruct call; by injection Et as <- <-. }
    destruct (cf_effect _ _ _ _ _ _) as [[|k o|k a]|]; [..|done]; by injection Hs as <- <-.
Qed.

Lemma owed_step k s g s' g' : main_counter rk k -> gs s g = Some (s', g') -> (forall k', gt_in g <> Some k' -> at_in k' g = cin_idle) ->
  (gt_in g = Some k -> exists b, gs_objs s !! k = Some (OCounter b)) ->
  owed k g ≡ₚ owed k g' \/ exists n, owed k g ≡ₚ n :: owed k g'.
Proof.
  intros Hk Hs Hidle Hobj. unfold cf_gstep, gstep in Hs. destruct (cs_crashed _); [done|]. unfold owed, inner. destruct (gt_in g) as [k'|] eqn:Ein.
  - destruct (cin_returned _) eqn:Er.
    + injection Hs as <- <-. by left.
    + destruct (gs_objs s !! k') as [o|] eqn:Eo; [|done]. destruct (cobj_step _ _ _) as [[o' ot']|] eqn:Est; [|done]. injection Hs as <- <-. cbn [gt_client].
      destruct (decide (k' = k)) as [->|Hne].
      * destruct (Hobj eq_refl) as [b Hb]. rewrite Hb in Eo. injection Eo as <-. cbn [cobj_step] in Est.
        destruct (bc_tstep b _) as [[b' t']|] eqn:Eb; [|done]. injection Est as <- <-. unfold at_in at 2 4, inside_of. cbn [gt_local]. rewrite lookup_insert. cbn [ci_bc default id].
        change (inside_of cin_idle k g) with (at_in k g) in Eb. destruct (unfinished_step _ _ _ _ Eb) as [->|[n ->]]; [by left|right]. exists n.
        rewrite !app_assoc. rewrite <- Permutation_middle. done.
      * left. unfold at_in at 2, inside_of. cbn [gt_local]. by rewrite lookup_insert_ne.
  - destruct (cp_tstep _ _ _ _ _) as [[s1 t1]|] eqn:Et; [|done].
    assert (Hi : forall k', at_in k' g = cin_idle) by (intros k'; by apply Hidle). left.
    destruct (effect_of _ _ _) as [e|] eqn:Ee; [|done].
    pose proof (client_amounts k _ _ _ _ (gs_env s) Hk Et) as C. rewrite Ee in C. specialize (C ltac:(done)).
    destruct e as [|k' o|k' a]; injection Hs as <- <-; cbn [gt_client eff_args app] in *.
    + unfold at_in at 2, inside_of. cbn [gt_local]. change (default cin_idle (gt_local g !! k)) with (at_in k g). rewrite !app_assoc. by rewrite C.
    + unfold at_in at 2, inside_of. cbn [gt_local]. change (default cin_idle (gt_local g !! k)) with (at_in k g). rewrite !app_assoc. by rewrite C.
    + rewrite !app_assoc. rewrite C. rewrite Hi. cbn [unfinished ci_bc cin_idle inflight bt_pc bt_todo app]. rewrite app_nil_r.
      destruct (decide (k' = k)) as [->|Hne].
      * unfold at_in, inside_of. cbn [gt_local]. rewrite lookup_insert. cbn [default]. change (default cin_idle (gt_local g !! k)) with (at_in k g). rewrite Hi.
        pose proof (step_kind _ _ _ _ _ _ _ _ Ee) as K. assert (exists n, a = CUpdate n) as [n ->].
        { clear -K Hk. destruct k; try (exfalso; exact Hk); destruct a; try done; eauto. }
        cbn. apply Permutation_cons_append.
      * unfold at_in, inside_of. cbn [gt_local app]. rewrite lookup_insert_ne by done. change (default cin_idle (gt_local g !! k)) with (at_in k g). rewrite Hi. cbn. by rewrite app_nil_r.
Qed.

(** Every amount is at one place. *)
Lemma conservation k e0 progs sched c : main_counter rk k -> cf e0 progs sched = Some c ->
  received k (threads c) ++ mjoin ((fun g => all_amounts k (kt_todo (gt_client g)) ++ left_of k (kt_pc (gt_client g))) <$> threads c) ≡ₚ mjoin (all_amounts k <$> progs).
Proof.
  intros Hk. set (f := fun g : gthread kthread cin ckey cop => all_amounts k (kt_todo (gt_client g)) ++ left_of k (kt_pc (gt_client g))).
  revert sched c. apply (cf_run_ind math_Exp I N maxE maxA rk (fun _ c => received k (threads c) ++ mjoin (f <$> threads c) ≡ₚ mjoin (all_amounts k <$> progs))).
  - intros objs0 _. cbn [ginit threads cp_cinit]. rewrite received_init. cbn [app]. rewrite !fmap_fmap. unfold f. cbn [gt_client kt_todo kt_pc].
    match goal with |- mjoin ?x ≡ₚ mjoin ?y => assert (E : x = y); [|by rewrite E] end. apply list_fmap_ext. intros i p _. cbn. destruct k; by rewrite app_nil_r.
  - intros sched s ts i t s' t' _ J Hi Hs. cbn [threads] in *.
    enough (G : exists l, args_of k t' = args_of k t ++ l /\ f t ≡ₚ l ++ f t').
    { destruct G as (l & G1 & G2). rewrite (received_step k ts i t t' l Hi G1), <- J. rewrite <- app_assoc. apply Permutation_app_head.
      clear -G2 Hi. revert i Hi. induction ts as [|u ts IH]; intros [|i] Hi; try done; cbn in Hi |- *.
      - injection Hi as ->. rewrite app_assoc. by rewrite <- G2.
      - rewrite <- (IH i Hi). rewrite !app_assoc. apply Permutation_app_tail, Permutation_app_comm. }
    unfold gstep in Hs. destruct (cs_crashed _); [done|]. destruct (gt_in t) as [k'|].
    + exists []. unfold args_of. rewrite app_nil_r. destruct (cin_returned _); [by injection Hs as <- <-|]. destruct (gs_objs s !! k'); [|done]. destruct (cobj_step _ _ _) as [[? ?]|]; [|done]. by injection Hs as <- <-.
    + destruct (cp_tstep _ _ _ _ _) as [[s1 t1]|] eqn:Et; [|done]. destruct (effect_of _ _ _) as [e|] eqn:Ee; [|done].
      pose proof (client_amounts k _ _ _ _ (gs_env s) Hk Et) as C. rewrite Ee in C. specialize (C ltac:(done)). exists (eff_args k (Some e)).
      destruct e as [|k' o|k' a]; injection Hs as <- <-; unfold f; cbn [gt_client]; (split; [|exact C]).
      * cbn [eff_args]. by rewrite app_nil_r.
      * cbn [eff_args]. by rewrite app_nil_r.
      * cbn [eff_args]. by apply args_of_made.
  - done.
  - done.
Qed.

(** A goroutine and its program. *)
Record tinv (prog : list dcall) (t : dthread) : Prop := {
  ti_prog : prog = begun_calls prog t ++ dt_todo t;
  ti_rest : match dt_read t with
            | Some (call, _) => at_rest (dt_g t) = true /\ exists d, begun_calls prog t = d ++ [DRead call]
            | None => at_rest (dt_g t) = true \/ exists d call, begun_calls prog t = d ++ [DWrite call] /\ shape (dt_g t) call /\
                forall k, main_counter rk k -> owed k (dt_g t) = amounts k call \/ owed k (dt_g t) = []
            end }.

Lemma begun_split (d l : list dcall) g r got : begun_calls (d ++ l) (DThread l g r got) = d.
Proof. unfold begun_calls. cbn [dt_todo]. rewrite app_length, Nat.add_sub. apply take_app. Qed.

Lemma rest_idle (g : gthread kthread cin ckey cop) : at_rest g = true -> kt_todo (gt_client g) = [] /\ kt_pc (gt_client g) = PIdle /\ gt_in g = None.
Proof. unfold at_rest. destruct (kt_todo _), (kt_pc _), (gt_in g); done. Qed.

Lemma at_in_push k g l : at_in k (g_push g l) = at_in k g.
Proof. done. Qed.

Lemma tinv_run e0 progs : counter_setting I N -> forall sched c, run e0 progs sched = Some c -> Forall2 tinv progs (threads c).
Proof.
  intros HS sched c Hc. destruct (run_started _ _ _ _ _ _ _ _ _ _ Hc) as (objs0 & H0 & _). revert sched c Hc.
  apply (run_ind math_Exp rk I N maxE maxA (fun sched c => Forall2 tinv progs (threads c))).
  - intros objs _. unfold rstart. cbn [threads]. apply Forall2_fmap_r, Forall_Forall2_diag, Forall_forall. intros p _.
    assert (E : begun_calls p (DThread p (GThread (KThread [] PIdle []) None ∅ []) None []) = []) by (unfold begun_calls; cbn [dt_todo]; by rewrite Nat.sub_diag).
    constructor; [by rewrite E|]. cbn. by left.
  - intros sched s ts i t s' t' Hr J Hi Hs. cbn [threads] in *.
    pose proof (run_fine _ _ _ _ _ _ _ _ _ _ _ H0 Hr) as Hf.
    assert (Haway : forall k', gt_in (dt_g t) <> Some k' -> at_in k' (dt_g t) = cin_idle).
    { intros k' Hk'. rewrite <- (at_in_push k' (dt_g t) (writes (dt_todo t))). eapply (at_in_away _ _ _ _ _ _ _ _ _ _ Hf i); [|done]. by apply (without_lookup (Config s ts)). }
    destruct (Forall2_lookup_r _ _ _ _ _ J Hi) as (prog & Hp & [T1 T2]).
    assert (G : tinv prog t').
    2:{ pose proof (Forall2_insert _ _ _ _ _ i J G) as K. by rewrite list_insert_id in K. }
    unfold cr_tstep in Hs. destruct (cs_crashed _); [done|]. destruct t as [todo g r got]. cbn [dt_todo dt_g dt_read dt_got] in *.
    set (d := begun_calls prog (DThread todo g r got)) in *. clearbody d. subst prog.
    destruct r as [[call pc]|].
    + destruct T2 as (R & d' & ->). destruct (read_step _ _ _ _) as [[pc'|a]|]; [..|done]; injection Hs as <- <-; constructor; cbn [dt_todo dt_read dt_g]; rewrite ?begun_split; try done.
      * split; [done|]. by exists d'.
      * by left.
    + destruct (at_rest g) eqn:R.
      * destruct (rest_idle _ R) as (R1 & R2 & R3).
        destruct todo as [|[call|call] todo]; [done|..]; injection Hs as <- <-; rewrite cons_middle, app_assoc; constructor; cbn [dt_todo dt_read dt_g]; rewrite ?begun_split; try done.
        -- right. exists d, call. split; [done|]. split.
           ++ right. unfold g_push. cbn [gt_client kt_todo kt_pc gt_in]. by rewrite R1.
           ++ intros k Hk. left. unfold owed, inner. rewrite at_in_push, Haway by congruence. unfold g_push. cbn [gt_client kt_todo kt_pc]. rewrite R1, R2. cbn [app all_amounts fmap list_fmap mjoin list_join].
              rewrite app_nil_r. destruct k; cbn; by rewrite ?app_nil_r.
        -- split; [done|]. by exists d.
      * destruct T2 as [?|(d' & call & -> & Sh & Ow)]; [done|]. destruct (gs s g) as [[s1 g']|] eqn:Es; [|done]. injection Hs as <- <-.
        constructor; cbn [dt_todo dt_read dt_g]; rewrite ?begun_split; [done|]. right. exists d', call. split; [done|]. split; [left; by eapply shape_step|].
        intros k Hk. pose proof (amounts_short k call) as Sh'.
        assert (Hobj : gt_in g = Some k -> exists b, gs_objs s !! k = Some (OCounter b)).
        { intros _. assert (Hc : is_counter k = true) by (by apply (main_is_counter rk)).
          destruct (exists_run _ _ _ _ _ _ _ _ _ _ Hf) as [X _]. cbn [without_reads shared] in X. destruct (X k) as [o Ho].
          { by apply (main_in_objs rk). }
          pose proof (linv_run math_Exp rk I N maxE maxA e0 _ objs0 HS H0 _ _ Hf k Hc) as [L _]. cbn [without_reads shared] in L. destruct (L o Ho) as (sk & _ & -> & _). by exists sk. }
        destruct (owed_step k _ _ _ _ Hk Es Haway Hobj) as [E|[n E]].
        -- destruct (Ow k Hk) as [Ek|Ek]; rewrite Ek in E; [left; by apply perm_short|right; apply (perm_short []); [cbn; lia|done]].
        -- right. destruct (Ow k Hk) as [Ek|Ek]; rewrite Ek in E; apply Permutation_length in E; cbn in E; [|lia]. apply nil_length_inv. lia.
  - done.
  - done.
Qed.

(** What has been added to a counter: everything by the finished calls, nothing but by calls begun. *)
Lemma ledger_bounds k e0 progs objs0 sched c : counter_setting I N -> main_counter rk k -> cf_objs0 rk I N e0 = Some objs0 -> run e0 progs sched = Some c ->
  let f := sched_of math_Exp rk I N maxE maxA e0 progs objs0 sched in
  let L := cledger math_Exp rk I N maxE maxA k (start e0 (writes <$> progs) objs0) f in
  all_amounts k (finished progs c) ⊆+ L.*2 /\ L.*2 ⊆+ received k (threads (without_reads c)) /\ received k (threads (without_reads c)) ⊆+ all_amounts k (begun progs c).
Proof.
  intros HS Hk H0 Hc f L. pose proof (run_fine _ _ _ _ _ _ _ _ _ _ _ H0 Hc) as Hf. fold f in Hf.
  assert (Hct : is_counter k = true) by (by apply (main_is_counter rk)).
  destruct (exists_run _ _ _ _ _ _ _ _ _ _ Hf) as [X _]. destruct (X k) as [o Ho]; [by apply (main_in_objs rk)|].
  pose proof (linv_run math_Exp rk I N maxE maxA e0 _ objs0 HS H0 _ _ Hf k Hct) as [Li _]. destruct (Li o Ho) as (sk & t0 & -> & _ & [B _] & _). fold L in B. clear Li X.
  pose proof (b_amts _ _ _ _ _ _ _ _ B) as P. cbn [view shared threads] in P. rewrite !fmap_fmap in P. cbn [proj] in P.
  unfold asked_of in P. rewrite (counter_received _ _ _ _ _ _ _ _ _ _ Hf k Hct) in P.
  pose proof (conservation k _ _ _ _ Hk Hf) as Q. cbn [without_reads threads] in P, Q |- *. rewrite !fmap_fmap in Q. rewrite !fmap_fmap in P. cbn [g_push gt_client kt_todo kt_pc] in Q.
  change (fun x : dthread => unfinished (ci_bc (at_in k (g_push (dt_g x) (writes (dt_todo x)))))) with (fun x : dthread => inner k (dt_g x)) in P.
  pose proof (tinv_run e0 progs HS sched c Hc) as T.
  set (R := received k _) in *. clearbody R L.
  assert (Hrest : forall i t, threads c !! i = Some t -> at_rest (dt_g t) = true -> owed k (dt_g t) = []).
  { intros i t Hi HR. destruct (rest_idle _ HR) as (R1 & R2 & R3). unfold owed, inner. rewrite <- (at_in_push k (dt_g t) (writes (dt_todo t))).
    rewrite (at_in_away _ _ _ _ _ _ _ _ _ _ Hf i _ k (without_lookup c i t Hi)) by (cbn; congruence). rewrite R1, R2. by destruct k. }
  clear -Hk P Q T Hrest.
  (* sums over the goroutines *)
  assert (G : exists rest lefts todo,
      all_amounts k (begun progs c) ≡ₚ all_amounts k (finished progs c) ++ rest ++ lefts ++ mjoin ((fun t => inner k (dt_g t)) <$> threads c) /\
      mjoin ((fun x : dthread => all_amounts k (kt_todo (gt_client (dt_g x)) ++ writes (dt_todo x)) ++ left_of k (kt_pc (gt_client (dt_g x)))) <$> threads c) ≡ₚ lefts ++ todo /\
      mjoin ((fun x => all_amounts k (writes x)) <$> progs) ≡ₚ all_amounts k (begun progs c) ++ todo).
  { clear -Hk T Hrest. unfold begun, finished. induction T as [|prog t progs ts [T1 T2] _ IH].
    - exists [], [], []. done.
    - destruct IH as (rest & lefts & todo & G1 & G2 & G3); [intros i u Hu; by apply (Hrest (S i))|]. specialize (Hrest 0%nat t eq_refl).
      assert (Hone : exists r, all_amounts k (writes (begun_calls prog t)) ≡ₚ all_amounts k (writes (finished_calls prog t)) ++ r ++ owed k (dt_g t)).
      { unfold finished_calls, idle_thread. destruct (dt_read t) as [[call pc]|].
        - destruct T2 as (R & d & E). rewrite (Hrest R), E, app_length, Nat.add_1_r. cbn [length pred].
          rewrite E in T1. rewrite T1, <- app_assoc, take_app. exists []. rewrite writes_app, !app_nil_r. done.
        - destruct (at_rest (dt_g t)) eqn:R.
          + rewrite (Hrest eq_refl). exists []. by rewrite !app_nil_r.
          + destruct T2 as [?|(d & call & E & _ & Ow)]; [done|]. rewrite E, app_length, Nat.add_1_r. cbn [length pred]. rewrite E in T1.
            rewrite T1, <- app_assoc, take_app, writes_app, all_amounts_app. destruct (Ow k Hk) as [->| ->]; [exists []|exists (amounts k call)]; rewrite ?app_nil_r; cbn; by rewrite ?app_nil_r. }
      destruct Hone as [r Hone]. set (lf := all_amounts k (kt_todo (gt_client (dt_g t))) ++ left_of k (kt_pc (gt_client (dt_g t)))).
      exists (r ++ rest), (lf ++ lefts), (all_amounts k (writes (dt_todo t)) ++ todo).
      cbn [zip_with]. rewrite !fmap_cons. rewrite !join_cons'.
      rewrite !writes_app, !all_amounts_app. split_and!.
      + rewrite G1, Hone. unfold owed, lf. perm.
      + rewrite G2. unfold lf. perm.
      + rewrite G3. rewrite T1 at 1. rewrite writes_app, all_amounts_app. perm. }
  destruct G as (rest & lefts & todo & G1 & G2 & G3).
  rewrite G2, G3 in Q. rewrite G1.
  assert (E : R ++ lefts ≡ₚ all_amounts k (begun progs c)).
  { apply (Permutation_app_inv_r todo). rewrite <- Q. perm. }
  split_and!.
  - apply (sub_of rest). rewrite G1 in E. apply (Permutation_app_inv_r (mjoin ((λ t : dthread, inner k (dt_g t)) <$> threads c) ++ lefts)).
    rewrite app_assoc, P, E. perm.
  - eapply sub_of. symmetry. exact P.
  - apply (sub_of lefts). by rewrite <- G1, E.
Qed.
End inv.
