(** A compass with all its objects: from the composed program to the models of its parts. *)
From Verif.Go Require Import GoInt GoFloat GoConc GoCompose.
From Verif.Model Require Import Counter BucketQueue BucketCounter BucketCounterConc EWMA EWMAConc WeightedSnapshot DecayingReservoir DecayingConc UniformReservoir ReservoirConc Compass CompassConc CompassFine.
From Verif.Spec Require Import BucketSpec CompassConcSpec CompassFineSpec.
From Verif.Proofs Require Import ComposeProofs CompassConcProofs CompassConcTables CompassConcMore.
Local Open Scope Z_scope.

(** The schedule of the client. *)
Lemma crun_map {S T E E'} (tstep : S -> T -> option (S * T)) (estep : S -> E -> S) (f : E' -> E) c sched :
  crun tstep (fun s e => estep s (f e)) c sched = crun tstep estep c ((fun ev => match ev with Run i => Run i | Env e => Env (f e) end) <$> sched).
Proof. revert c. induction sched as [|[i|e] sched IH]; intros c; [done|exact (IH _)..]. Qed.

Lemma cin_returned_idle t : cin_returned t = true -> t = cin_idle.
Proof.
  destruct t as [[[|? ?] p] e d r]; [|discriminate]. destruct p; try discriminate. destruct e as [[|? ?] p g]; [|discriminate]. destruct p; try discriminate.
  destruct g; [|discriminate]. destruct d as [[|? ?] p g]; [|discriminate]. destruct p; try discriminate. destruct g; [|discriminate].
  destruct r as [[|?] [|? ?] p g]; try discriminate. destruct p; try discriminate. destruct g; [|discriminate]. intros _. reflexivity.
Qed.

Lemma bc_push s t s' t' n : bc_tstep s t = Some (s', t') ->
  bc_tstep s (BThread (bt_todo t ++ [n]) (bt_pc t)) = Some (s', BThread (bt_todo t' ++ [n]) (bt_pc t')).
Proof.
  destruct t as [todo pc]. unfold bc_tstep. cbn [bt_todo bt_pc]. destruct pc.
  { destruct todo as [|m todo]; [done|]. cbn. intros Hs. by injection Hs as <- <-. }
  all: repeat first [ progress (intros Hs; injection Hs as <- <-); reflexivity | match goal with |- context [match ?x with _ => _ end] => destruct x end | done ].
Qed.
Lemma ew_push s t s' t' k : ewma_tstep s t = Some (s', t') ->
  ewma_tstep s (EThread (et_todo t ++ [k]) (et_pc t) (et_got t)) = Some (s', EThread (et_todo t' ++ [k]) (et_pc t') (et_got t')).
Proof.
  destruct t as [todo pc got]. unfold ewma_tstep. cbn [et_todo et_pc et_got]. destruct pc.
  { destruct todo as [|[] todo]; [done|..]; cbn; intros Hs; by injection Hs as <- <-. }
  all: repeat first [ progress (intros Hs; injection Hs as <- <-); reflexivity | match goal with |- context [if ?x then None else _] => destruct x | |- context [if (?x =? ?y) then Some _ else _] => destruct (x =? y) end | done ].
Qed.
Lemma dx_push math_Exp s t s' t' k : dx_tstep math_Exp s t = Some (s', t') ->
  dx_tstep math_Exp s (DxThread (dx_todo t ++ [k]) (dx_pc t) (dx_got t)) = Some (s', DxThread (dx_todo t' ++ [k]) (dx_pc t') (dx_got t')).
Proof.
  destruct t as [todo pc got]. unfold dx_tstep. cbn [dx_todo dx_pc dx_got]. destruct pc.
  { destruct todo as [|m todo]; [done|]. cbn. intros Hs. by injection Hs as <- <-. }
  all: repeat first [ progress (intros Hs; injection Hs as <- <-); reflexivity | match goal with |- context [if ?x then None else _] => destruct x | |- context [if (?x =? ?y) then Some _ else _] => destruct (x =? y) | |- context [match ed_insert ?a ?b ?c ?d with _ => _ end] => destruct (ed_insert a b c d) end | done ].
Qed.
Lemma rx_push s t s' t' k : rx_tstep s t = Some (s', t') ->
  rx_tstep s (RxThread (rx_id t) (rx_todo t ++ [k]) (rx_pc t) (rx_got t)) = Some (s', RxThread (rx_id t') (rx_todo t' ++ [k]) (rx_pc t') (rx_got t')).
Proof.
  destruct t as [id todo pc got]. unfold rx_tstep. cbn [rx_id rx_todo rx_pc rx_got]. destruct pc.
  { destruct todo as [|m todo]; [done|]. cbn. intros Hs. by injection Hs as <- <-. }
  all: repeat first [ progress (intros Hs; injection Hs as <- <-); reflexivity | match goal with |- context [match ?x with _ => _ end] => destruct x end | done ].
Qed.
Lemma cobj_push math_Exp s t s' t' a : cobj_step math_Exp s t = Some (s', t') -> cobj_step math_Exp s (cin_push t a) = Some (s', cin_push t' a).
Proof.
  destruct t as [b e d r]. unfold cobj_step. destruct s as [s|s|s|s]; cbn [ci_bc ci_ew ci_dx ci_rx].
  - destruct (bc_tstep s b) as [[s1 b1]|] eqn:E; [|done]. intros Hs. injection Hs as <- <-. destruct a; cbn; rewrite ?E; try done. by rewrite (bc_push _ _ _ _ n E).
  - destruct (ewma_tstep s e) as [[s1 b1]|] eqn:E; [|done]. intros Hs. injection Hs as <- <-. destruct a; cbn [cin_push ci_bc ci_ew ci_dx ci_rx]; rewrite ?E; try done. by rewrite (ew_push _ _ _ _ _ E).
  - destruct (dx_tstep math_Exp s d) as [[s1 b1]|] eqn:E; [|done]. intros Hs. injection Hs as <- <-. destruct a; cbn [cin_push ci_bc ci_ew ci_dx ci_rx]; rewrite ?E; try done. by rewrite (dx_push _ _ _ _ _ _ E).
  - destruct (rx_tstep s r) as [[s1 b1]|] eqn:E; [|done]. intros Hs. injection Hs as <- <-. destruct a; cbn [cin_push ci_bc ci_ew ci_dx ci_rx]; rewrite ?E; try done. by rewrite (rx_push _ _ _ _ _ E).
Qed.

Section fine.
Context (math_Exp : f64 -> f64) (rk : reservoir_kind) (I N maxE maxA : Z).
Notation effect_of := (cf_effect rk I N).
Notation gs := (gstep (cp_tstep I maxE maxA) cs_crashed effect_of (cobj_step math_Exp) cin_idle cin_push cin_returned).
Notation ge := (gestep cf_estep cobj_estep).
Notation cf := (cf_run math_Exp rk I N maxE maxA).

Lemma cf_run_inv (J : fine -> Prop) e0 progs :
  (forall objs0, cf_objs0 rk I N e0 = Some objs0 -> let c0 := cp_cinit (ce_ms e0) (ce_tick e0) progs in J (ginit (shared c0) objs0 e0 (threads c0))) ->
  (forall s ts i t s' t', J (Config s ts) -> ts !! i = Some t -> gs s t = Some (s', t') -> J (Config s' (<[i := t']> ts))) ->
  (forall s ts e, J (Config s ts) -> J (Config (ge s e) ts)) ->
  forall sched c, cf e0 progs sched = Some c -> J c.
Proof.
  intros H0 Ht He sched c Hc. unfold cf_run in Hc. destruct (cf_objs0 _ _ _ e0) as [objs0|]; [|done]. injection Hc as <-.
  unfold grun. apply (crun_inv _ _ J); [by apply H0|exact Ht|exact He].
Qed.

(** The client is a compass of Model/CompassConc.v. *)
Lemma cf_client e0 progs sched c : cf e0 progs sched = Some c -> exists sched',
  client c = cp_crun I maxE maxA (ce_ms e0) (ce_tick e0) progs sched'.
Proof.
  intros Hc. unfold cf_run in Hc. destruct (cf_objs0 _ _ _ e0) as [objs0|]; [|done]. injection Hc as <-.
  destruct (client_run (cp_tstep I maxE maxA) cf_estep cs_crashed effect_of (cobj_step math_Exp) cobj_estep cin_idle cin_push cin_returned
    (shared (cp_cinit (ce_ms e0) (ce_tick e0) progs)) objs0 e0 (threads (cp_cinit (ce_ms e0) (ce_tick e0) progs)) sched) as (sched' & Hs & _).
  eexists. etransitivity; [exact Hs|]. exact (crun_map (cp_tstep I maxE maxA) cp_estep ce_tick _ sched').
Qed.

(** A step of the client and the objects it is about. *)
Lemma step_heap_lengths s t s' t' w0 : cp_tstep I maxE maxA s t = Some (s', t') ->
  length (tb_heap (tb_of w0 s')) = (match kt_pc t with PAssigning w' _ => if decide (w' = w0) then 1 else 0 | _ => 0 end + length (tb_heap (tb_of w0 s)))%nat.
Proof.
  intros Hs. steps s t Hs; cbn [kt_pc]; try (destruct (rs_success _)); repeat match goal with |- context [tb_of ?a] => is_var a; destruct a | |- context [set_table _ ?a] => is_var a; destruct a end; cbn; rewrite ?alter_length, ?app_length; cbn; repeat case_decide; try done; lia.
Qed.

(** Which objects exist. *)
Definition exists_ok (c : fine) : Prop :=
  (forall k, k ∈ [KTotal; KSuccess; KOne; KFive; KFifteen; reservoir_key rk] -> is_Some (gs_objs (shared c) !! k)) /\
  forall w p, is_Some (gs_objs (shared c) !! KCounter w p) <-> (p < length (tb_heap (tb_of w (gs_client (shared c)))))%nat.

Lemma exists_run e0 progs sched c : cf e0 progs sched = Some c -> exists_ok c.
Proof.
  revert sched c. apply cf_run_inv.
  - intros objs0 Ho. unfold cf_objs0 in Ho. destruct (new_counter _ _ _) as [o|]; [|done]. injection Ho as <-. cbv zeta. split.
    + intros k Hk. cbn [ginit shared gs_objs]. rewrite !lookup_insert_is_Some'. rewrite !elem_of_cons in Hk. rewrite elem_of_nil in Hk. destruct Hk as [->|[->|[->|[->|[->|[->|[]]]]]]]; tauto.
    + intros w p. cbn [ginit shared gs_objs gs_client cp_cinit]. split.
      * destruct rk; cbn [reservoir_key list_to_map foldr fst snd]; rewrite !lookup_insert_ne by done; intros [x Hx]; by rewrite lookup_empty in Hx.
      * destruct w; cbn; lia.
  - intros s ts i t s' t' [J1 J2] Hi Hs. unfold exists_ok in *. cbn [shared] in *. unfold gstep in Hs. destruct (cs_crashed _); [done|].
    destruct (gt_in t) as [k|].
    + destruct (cin_returned _); [by injection Hs as <- <-|]. destruct (gs_objs s !! k) as [o|] eqn:Eo; [|done]. destruct (cobj_step _ _ _) as [[o' ot']|]; [|done].
      injection Hs as <- <-. cbn [gs_objs gs_client]. split.
      * intros k' Hk. destruct (decide (k' = k)) as [->|]; [by rewrite lookup_insert|rewrite lookup_insert_ne by done; by apply J1].
      * intros w p. rewrite <- J2. destruct (decide (KCounter w p = k)) as [<-|]; [rewrite lookup_insert, Eo; done|by rewrite lookup_insert_ne].
    + destruct (cp_tstep _ _ _ _ _) as [[s1 t1]|] eqn:Ets; [|done]. pose proof (fun w => step_heap_lengths _ _ _ _ w Ets) as HL.
      destruct (cf_effect _ _ _ _ _ _) as [[|k o|k a]|] eqn:Ee; [..|done]; injection Hs as <- <-; cbn [gs_objs gs_client].
      * split; [done|]. intros w p. rewrite J2, HL. unfold cf_effect in Ee. destruct (kt_pc _); try done. destruct (new_counter _ _ _); done.
      * unfold cf_effect in Ee. destruct (kt_pc (gt_client t)) as [|k0|old k0|old new k0|n k0|n count k0|n count k0|n count k0|n count k0|d r|d r|d r|r|w r|w r|w r|w r|w r|w p r|w p r|w n]; try done.
        -- by destruct (rs_success r).
        -- destruct (new_counter _ _ _); [|done]. injection Ee as <- <-. split.
           ++ intros k' Hk. rewrite lookup_insert_ne; [by apply J1|]. intros <-. destruct rk; set_solver.
           ++ intros w' p. rewrite HL. destruct (decide (w = w')) as [<-|Hne].
              ** destruct (decide (p = length (tb_heap (tb_of w (gs_client s))))) as [->|Hp].
                 --- rewrite lookup_insert. split; [lia|done].
                 --- rewrite lookup_insert_ne by congruence. rewrite J2. lia.
              ** rewrite lookup_insert_ne by congruence. rewrite J2. lia.
        -- by destruct p.
      * split; [done|]. intros w p. rewrite J2, HL. unfold cf_effect in Ee. destruct (kt_pc _); try done. destruct (new_counter _ _ _); done.
  - intros s ts e [J1 J2]. unfold exists_ok in *. cbn [shared gestep gs_objs gs_client] in *. split.
    + intros k Hk. rewrite lookup_fmap. destruct (J1 k Hk) as [o ->]. done.
    + intros w p. rewrite lookup_fmap, fmap_is_Some. rewrite J2. by destruct w.
Qed.

Lemma client_lookup (c : fine) i t : threads c !! i = Some t -> threads (client c) !! i = Some (gt_client t).
Proof. intros Hi. cbn. by rewrite list_lookup_fmap, Hi. Qed.

Lemma pointer_ok e0 progs sched c i t w p r : cf e0 progs sched = Some c -> threads c !! i = Some t -> kt_pc (gt_client t) = PCount w (Some p) r ->
  (p < length (tb_heap (tb_of w (gs_client (shared c)))))%nat.
Proof.
  intros Hc Hi Hp. destruct (cf_client _ _ _ _ Hc) as [sched' Hcl].
  pose proof (tinv_run I maxE maxA w (ce_ms e0) (ce_tick e0) progs sched') as T. cbv zeta in T. rewrite <- Hcl in T.
  destruct (t_ptr _ _ _ _ _ _ T i (gt_client t) (client_lookup _ _ _ Hi)) as [P _]. rewrite Hp in P. cbn in P. specialize (P eq_refl).
  by eapply (t_heap _ _ _ _ _ _ T).
Qed.

Lemma cf_proper e0 progs sched c : cf e0 progs sched = Some c -> proper (cp_tstep I maxE maxA) effect_of c.
Proof.
  intros Hc i t Hi Hin. pose proof (exists_run _ _ _ _ Hc) as [J1 J2]. unfold cf_effect.
  destruct (kt_pc (gt_client t)) as [|k0|old k0|old new k0|n k0|n count k0|n count k0|n count k0|n count k0|d r|d r|d r|r|w r|w r|w r|w r|w r|w p r|w [p|] r|w n] eqn:Epc; try done.
  1-5: intros _; apply J1; set_solver.
  - destruct (rs_success r); [|done]. intros _. apply J1. set_solver.
  - destruct (new_counter _ _ _); [|done]. intros _. destruct (gs_objs _ !! _) eqn:E; [|done].
    assert (H : is_Some (gs_objs (shared c) !! KCounter w (length (tb_heap (tb_of w (gs_client (shared c))))))) by (by rewrite E).
    apply J2 in H. lia.
  - intros _. apply J2. by eapply pointer_ok.
Qed.

Lemma cf_seen e0 progs sched c objs0 : cf_objs0 rk I N e0 = Some objs0 -> cf e0 progs sched = Some c ->
  seen effect_of (cobj_step math_Exp) cobj_estep cin_idle cin_push objs0 e0 (shown sched) c.
Proof.
  intros Ho Hc. pose proof Hc as Hc'. unfold cf_run in Hc. rewrite Ho in Hc. injection Hc as <-.
  apply seen_run; [apply cobj_push|].
  intros sched'. apply (cf_proper e0 progs sched'). unfold cf_run. by rewrite Ho.
Qed.
End fine.
