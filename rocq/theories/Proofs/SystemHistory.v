(** The whole library in use: a compass between two moments. *)
From Verif.Go Require Import GoInt GoFloat GoConc GoCompose.
From Verif.Model Require Import Config Registry RegistryConc BucketCounter FastCompass FastCompassConc FastCompassFine Compass CompassTypes CompassConc CompassFine CompassRead SystemConc.
From Verif.Spec Require Import BucketSpec FastCompassConcSpec FastCompassFineSpec CompassConcSpec CompassFineSpec CompassReadSpec RegistrySpec RegistryConcSpec SystemSpec.
From Verif.Proofs Require Import ComposeProofs ComposeHistory CompassConcProofs CompassFineProofs CompassFineParts CompassFineMain RegistryProofs RegistryConcProofs RegistryLimit RegistryConcMore CompassReadProofs CompassReadInv SystemProofs SystemMain SystemUse.
Local Open Scope Z_scope.

(** The call of a fast compass that a goroutine is in. *)
Definition in_fast_call (call : qcall) (t : qthread) : Prop :=
  (q_todo t = [call] /\ q_pc t = QAt FIdle) \/ (q_todo t = [] /\ (recording (q_pc t) = [] \/ recording (q_pc t) = valid_calls [call])).
Lemma ff_recording_step s t s' t' : ff_tstep s t = Some (s', t') ->
  (q_todo t' = q_todo t /\ q_pc t <> QAt FIdle /\ (recording (q_pc t') = [] \/ recording (q_pc t') = recording (q_pc t))) \/
  (exists call, q_todo t = call :: q_todo t' /\ q_pc t = QAt FIdle /\ (recording (q_pc t') = [] \/ recording (q_pc t') = valid_calls [call])).
Proof.
  assert (Hn : forall job rest, q_todo (next_entry s t job rest) = q_todo t /\ recording (q_pc (next_entry s t job rest)) = []).
  { intros job rest. unfold next_entry. destruct rest; [done|]. cbn. destruct (_ !! _); [|done]. by destruct job. }
  unfold ff_tstep. destruct (fs_crashed s); [done|]. destruct (q_pc t) as [pc|d cat ct u|job order'|job rest|g' start result cat r rest|result cat rest|result cat p rest] eqn:Hpc.
  - assert (Hat : pc <> FIdle -> ff_at s t pc = Some (s', t') -> q_todo t' = q_todo t /\ QAt pc <> QAt FIdle /\ (recording (q_pc t') = [] \/ recording (q_pc t') = recording (QAt pc))).
    { intros Hne. unfold ff_at. destruct (fc_tstep s (FThread [] pc)) as [[s1 u]|] eqn:E; [|done]. intros H. injection H as <- <-. cbn [q_todo q_pc]. split; [done|]. split; [congruence|].
      unfold fc_tstep in E. destruct (fs_crashed s); [done|]. destruct pc; cbn [ft_pc ft_todo] in E; repeat case_match; try done; injection E as <- <-; cbn; auto. }
    destruct pc; try (intros H; left; apply Hat; [done|exact H]).
    + destruct (q_todo t) as [|[d cat|g st order|order] todo]; [done|..]; intros H; right.
      * destruct ((d <? 0) || _) eqn:Ed; injection H as <- <-; eexists; (split; [reflexivity|]); (split; [done|]); [by left|]. right. cbn. apply orb_false_iff in Ed as [D1 D2]. apply Z.ltb_ge in D1. apply Z.leb_gt in D2.
        rewrite decide_True; [done|]. split; [done|]. intros ->. cbn in D2. lia.
      * injection H as <- <-. eexists. split; [reflexivity|]. split; [done|]. by left.
      * injection H as <- <-. eexists. split; [reflexivity|]. split; [done|]. by left.
    + intros H. injection H as <- <-. left. split; [done|]. split; [done|]. by right.
  - intros H. left. destruct u as [[|n todo] upc].
    + destruct upc; repeat case_match; try done; injection H as <- <-; (split; [done|]); (split; [done|]); cbn; repeat case_match; auto.
    + repeat case_match; try done; injection H as <- <-; (split; [done|]); (split; [done|]); cbn; repeat case_match; auto.
  - destruct (fs_writing s); intros H; injection H as <- <-; left; (split; [by apply Hn || done|]); (split; [done|]); left; [done|apply Hn].
  - destruct (fs_writing s); intros H; injection H as <- <-; left; (split; [by apply Hn || done|]); (split; [done|]); left; [done|apply Hn].
  - intros H; left; repeat case_match; try done; injection H as <- <-; (split; [done|]); (split; [done|]); by left.
  - intros H; left; repeat case_match; try done; injection H as <- <-; (split; [done|]); (split; [done|]); by left.
  - intros H; left; repeat case_match; try done; injection H as <- <-; (split; [done|]); (split; [done|]); by left.
Qed.

Lemma cr_todo_step math_Exp rk I N maxE maxA st s d s' d' : cr_tstep math_Exp rk I N maxE maxA st s d = Some (s', d') ->
  (dt_todo d' = dt_todo d /\ idle_thread d = false) \/ exists x, dt_todo d = x :: dt_todo d'.
Proof.
  unfold cr_tstep, idle_thread. destruct (cs_crashed _); [done|]. destruct (dt_read d) as [[call pc]|].
  - destruct (read_step _ _ _ _) as [[pc'|a]|]; [..|done]; intros H; injection H as <- <-; by left.
  - destruct (at_rest (dt_g d)) eqn:Er.
    + destruct (dt_todo d) as [|[call|call] todo] eqn:Et; [done|..]; intros H; injection H as <- <-; right; by eexists.
    + destruct (cf_gstep _ _ _ _ _ _ _ _) as [[s'' g']|]; [|done]. intros H; injection H as <- <-. by left.
Qed.

Section system.
Context (math_Exp : f64 -> f64) (maxs : list Z) (e0 : cenv) (plans : list (list saction)).
Notation mstep := (mobj_step math_Exp).
Notation gs := (gstep sy_tstep (fun _ => false) sy_effect mstep min_idle min_push min_returned).
Notation ge := (gestep (fun s _ => s) mobj_estep).
Notation run := (sy_run math_Exp maxs e0 plans).

Lemma handles_step s ts i t s' t' : sinv plans (Config s ts) -> ts !! i = Some t -> gs s t = Some (s', t') -> handles_le (gs_client s) (gs_client s').
Proof.
  intros HI Hi Hs. destruct (client_step sy_tstep (fun _ => false) sy_effect mstep min_idle min_push min_returned s t s' t' Hs) as [[E1 _]|[_ Hc]]; [rewrite E1; by intros ? ? ?|].
  pose proof (si_threads _ _ HI i t Hi) as Tt. pose proof Tt as [T1 T2 T3 T4]. cbn [shared] in *.
  assert (Hreg : forall plan, sy_reg_step (gs_client s) (gt_client t) plan = Some (gs_client s', gt_client t') -> handles_le (gs_client s) (gs_client s')).
  { intros plan. unfold sy_reg_step. destruct (rstep _ _) as [[r' reg']|] eqn:Er; [|done]. intros Heq. injection Heq as <- _. rewrite T1.
    pose proof (rstep_todo _ _ _ _ Er (tk_nonempty _ _ _ _ Tt)) as Htd.
    intros i' j x Hx. unfold handle_at in *. cbn [sy_handles]. destruct (decide (i' = i)) as [->|]; [|by rewrite lookup_insert_ne by done].
    rewrite lookup_insert. cbn [default]. rewrite T2 in Hx. destruct Htd as [(_ & _ & ->)|(_ & op & y & _ & ->)]; [done|]. rewrite fmap_app. by apply lookup_app_l_Some. }
  unfold sy_tstep in Hc. destruct (rt_pc _); [|by eapply Hreg..].
  destruct (st_plan _) as [|[op|i' j' u] plan]; [done|by eapply Hreg|]. destruct (handle_at _ _ _); [|done]. injection Hc as <- _. by intros ? ? ?.
Qed.
Lemma handles_run s1 s2 : handles_le (gs_client (shared (run s1))) (gs_client (shared (run (s1 ++ s2)))).
Proof.
  induction s2 as [|ev s2 IH] using rev_ind; [rewrite app_nil_r; by intros ? ? ?|]. rewrite app_assoc. pose proof (sinv_run math_Exp maxs e0 plans (s1 ++ s2)) as HI. unfold sy_run, grun in HI, IH |- *. rewrite (crun_snoc _ _ _ (s1 ++ s2)).
  set (cc := crun gs ge _ (s1 ++ s2)) in *. clearbody cc. destruct cc as [s ts]. destruct ev as [i|e]; cbn [cstep threads shared]; [|exact IH].
  destruct (ts !! i) as [t|] eqn:Hi; [|exact IH]. destruct (gs s t) as [[s' t']|] eqn:Hs; [|exact IH]. cbn [shared] in *. intros a b x Hx. eapply (handles_step s ts i t s' t' HI Hi Hs). by apply IH.
Qed.

(** The call a goroutine is in is the last action it has begun. *)
Definition in_call (c : system) (k : nat) (t : gthread sthread min nat ucall) (ref : nat) : Prop :=
  exists b i j u, plans !! k = Some (b ++ SUse i j u :: st_plan (gt_client t)) /\ resolve (gs_client (shared c)) (SUse i j u) = Some (ref, u) /\
    match u with
    | UCompass method => exists past, method = past ++ dt_todo (mi_compass (inside_of min_idle ref t)) /\ (past = [] -> idle_thread (mi_compass (inside_of min_idle ref t)) = true)
    | UFast call => in_fast_call call (mi_fast (inside_of min_idle ref t))
    end.
Lemma in_call_run sched k t ref : threads (run sched) !! k = Some t -> gt_in t = Some ref -> in_call (run sched) k t ref.
Proof.
  revert k t ref. induction sched as [|ev sched IH] using rev_ind.
  { intros k t ref Hk Hin. cbn in Hk. rewrite list_lookup_fmap in Hk. destruct (imap _ _ !! k); [|done]. injection Hk as <-. done. }
  pose proof (sinv_run math_Exp maxs e0 plans sched) as HI. pose proof (fun i t0 k0 => away_run sy_tstep (fun s _ => s) (fun _ => false) sy_effect mstep mobj_estep min_idle min_push min_returned (SyShared (shared (r_init maxs [])) ∅) ∅ e0 (imap (fun i plan => SThread i (RThread RegistryConc.PIdle (lookups plan) []) plan) plans) sched i t0 k0 eq_refl) as HA.
  unfold sy_run, grun in *. rewrite crun_snoc. set (cc := crun gs ge _ sched) in *. clearbody cc. destruct cc as [s ts]. destruct ev as [i|e]; cbn [cstep threads shared].
  2: { intros k t ref Hk Hin. destruct (IH k t ref Hk Hin) as (b & i & j & u & H1 & H2 & H3). by exists b, i, j, u. }
  destruct (ts !! i) as [t0|] eqn:Hi; [|exact IH]. destruct (gs s t0) as [[s' t0']|] eqn:Hs; [|exact IH]. cbn [threads shared] in *. pose proof (handles_step s ts i t0 s' t0' HI Hi Hs) as HL.
  intros k t ref Hk Hin. apply list_lookup_insert_Some in Hk as [(-> & <- & _)|[_ Hk]].
  2: { destruct (IH k t ref Hk Hin) as (b & i1 & j & u & H1 & H2 & H3). exists b, i1, j, u. split; [done|]. split; [|done]. cbn [shared] in *. rewrite (resolve_le _ _ (SUse i1 j u) HL); [done|]. cbn in H2 |- *. by destruct (handle_at _ _ _). }
  pose proof (si_threads _ _ HI k t0 Hi) as [T1 T2 T3 (before & T4 & T5 & T6)]. cbn [shared] in *. unfold GoCompose.gstep in Hs. destruct (gt_in t0) as [ref0|] eqn:Ein.
  - destruct (min_returned _) eqn:Er; [injection Hs as <- <-; done|]. destruct (gs_objs s !! ref0) as [o|] eqn:Eo; [|done]. destruct (mstep o _) as [[o' ot']|] eqn:Eost; [|done]. injection Hs as <- <-. cbn [gt_in] in Hin. injection Hin as ->.
    destruct (IH k t0 ref Hi Ein) as (b & i1 & j & u & H1 & H2 & H3). exists b, i1, j, u. split; [done|]. split; [done|]. assert (Hnew : inside_of min_idle ref (GThread (gt_client t0) (Some ref) (<[ref := ot']> (gt_local t0)) (gt_made t0)) = ot') by (unfold GoCompose.inside_of; cbn [gt_local]; by rewrite lookup_insert).
    destruct u as [method|call].
    2: { rewrite Hnew. unfold mobj_step in Eost. destruct o as [p rk st x|a b' d x].
         - destruct (compass_step _ _ _ _ _ _) as [[x' d']|]; [|done]. injection Eost as <- <-. exact H3.
         - destruct (ff_tstep _ _) as [[x' d']|] eqn:Ef; [|done]. injection Eost as <- <-. cbn [mi_fast]. unfold in_fast_call in *. apply ff_recording_step in Ef as [(E1 & E2 & E3)|(call' & E1 & E2 & E3)].
           + destruct H3 as [[F1 F2]|[F1 F2]]; [done|]. right. rewrite E1. split; [done|]. destruct F2 as [F2|F2]; rewrite F2 in E3; tauto.
           + destruct H3 as [[F1 F2]|[F1 F2]]; [|congruence]. rewrite F1 in E1. injection E1 as <- E1. right. by rewrite <- E1. }
    rewrite Hnew.
    destruct H3 as (past & Hp & Hid). unfold mobj_step in Eost. destruct o as [p rk st x|a b' d x].
    + destruct (compass_step _ _ _ _ _ _) as [[x' d']|] eqn:Ec; [|done]. injection Eost as <- <-. cbn [mi_compass]. destruct (cr_todo_step _ _ _ _ _ _ _ _ _ _ _ Ec) as [[E1 E2]|[y Ey]].
      * exists past. rewrite E1. split; [done|]. intros ->. rewrite Hid in E2; done.
      * exists (past ++ [y]). rewrite Ey in Hp. rewrite <- app_assoc. split; [done|]. by destruct past.
    + destruct (ff_tstep _ _) as [[x' d']|]; [|done]. injection Eost as <- <-. cbn [mi_compass]. by exists past.
  - destruct (sy_tstep _ _) as [[s1 t1]|] eqn:Ets; [|done]. destruct (sy_effect _ _ _) as [[|ref' o|ref' u]|] eqn:Eeff; [..|done]; injection Hs as <- <-; cbn [gt_in gt_client] in Hin |- *; [done|done|]. injection Hin as ->.
    unfold sy_effect in Eeff. unfold sy_tstep in Ets. destruct (rt_pc _); try done; [|by destruct (new_metric _ _)]. destruct (st_plan _) as [|[op|i1 j1 u1] plan] eqn:Ep; [done|done|].
    destruct (handle_at (gs_client s) i1 j1) as [h|] eqn:Eh; [|done]. injection Ets as <- <-. exists before, i1, j1, u1. cbn [st_plan]. split; [done|]. cbn [shared gs_client resolve]. rewrite Eh.
    assert (Hu : match h, u1 with Some (Ok (MCompass ref0 _)), UCompass _ => Some (Invoke ref0 u1) | Some (Ok (MFastCompass ref0 _ _ _)), UFast _ => Some (Invoke ref0 u1) | _, _ => Some Silent end = Some (Invoke (OS := mobj) ref u)) by exact Eeff. clear Eeff.
    destruct h as [[[r p|r a b d| |]|]|], u1 as [method|call]; try done; injection Hu as -> <-.
    + split; [done|]. exists []. assert (Hr : min_returned (inside_of min_idle ref t0) = true) by (apply (HA k); [done|congruence]). apply min_returned_parts in Hr as (A1 & A2 & _).
      assert (Hnew : inside_of min_idle ref (GThread (SThread (st_id (gt_client t0)) (st_reg (gt_client t0)) plan) (Some ref) (<[ref := min_push (inside_of min_idle ref t0) (UCompass method)]> (gt_local t0)) (gt_made t0 ++ [(ref, UCompass method)])) =
        min_push (inside_of min_idle ref t0) (UCompass method)) by (unfold GoCompose.inside_of at 1; cbn [gt_local]; by rewrite lookup_insert).
      rewrite Hnew. cbn [min_push mi_compass d_push dt_todo]. rewrite A1. split; [done|]. intros _. exact A2.
    + split; [done|]. assert (Hr : min_returned (inside_of min_idle ref t0) = true) by (apply (HA k); [done|congruence]). apply min_returned_parts in Hr as (_ & _ & A1 & A2).
      assert (Hnew : inside_of min_idle ref (GThread (SThread (st_id (gt_client t0)) (st_reg (gt_client t0)) plan) (Some ref) (<[ref := min_push (inside_of min_idle ref t0) (UFast call)]> (gt_local t0)) (gt_made t0 ++ [(ref, UFast call)])) =
        min_push (inside_of min_idle ref t0) (UFast call)) by (unfold GoCompose.inside_of at 1; cbn [gt_local]; by rewrite lookup_insert).
      rewrite Hnew. left. cbn [min_push mi_fast q_todo q_pc]. rewrite A1, A2. done.
Qed.
End system.
