(** A compass read while it is updated: what a reading call sees. *)
From Verif.Go Require Import GoInt GoFloat GoConc GoCompose.
From Verif.Model Require Import Counter BucketQueue BucketCounter BucketCounterConc BucketReadConc BucketReservoir EWMA EWMAConc Compass CompassConc CompassFine CompassRead.
From Verif.Spec Require Import BucketSpec BucketConcSpec BucketReadSpec CompassConcSpec.
From Verif.Proofs Require Import BucketAbs BucketHist BucketMain BucketConcProofs BucketConcRing BucketConcMain BucketReadProofs BucketReadMain EWMAConcProofs ComposeProofs CompassConcProofs CompassFineProofs CompassFineParts CompassFineMain CompassLedger CompassReadProofs CompassReadInv.
From Verif.Spec Require Import CompassFineSpec CompassReadSpec.
Local Open Scope Z_scope.

(** ** How a step changes what is local to a goroutine in a counter. *)
Lemma todo_step s t s' t' : bc_tstep s t = Some (s', t') -> bt_todo t' = bt_todo t \/ exists n, bt_todo t = n :: bt_todo t'.
Proof.
  destruct t as [todo pc]. unfold bc_tstep. cbn [bt_pc bt_todo]. destruct pc; intros Hs.
  - destruct todo as [|n todo]; [done|]. injection Hs as <- <-. right. by exists n.
  - destruct (alignTimestamp _ _); [|done]. injection Hs as <- <-. by left.
  - injection Hs as <- <-. by left.
  - destruct (_ !! old); [|done]. injection Hs as <- <-. left. done.
  - destruct (decide _); injection Hs as <- <-; by left.
  - destruct (length _); [done|]. injection Hs as <- <-. by left.
  - injection Hs as <- <-. by left.
  - injection Hs as <- <-. by left.
  - destruct (_ <? _)%nat; [|done]. injection Hs as <- <-. by left.
  - injection Hs as <- <-. by left.
  - destruct (heap_add _ _ _); [|done]. injection Hs as <- <-. by left.
Qed.

Lemma mjoin_fmap_insert_sub {A B} (f : A -> list B) (l : list A) i x y b : l !! i = Some x -> f x = b ++ f y ->
  b ++ mjoin (f <$> <[i := y]> l) ≡ₚ mjoin (f <$> l).
Proof.
  revert i. induction l as [|z l IH]; intros [|i] Hi E; try done; cbn in Hi |- *.
  - injection Hi as ->. rewrite E, <- !app_assoc. done.
  - rewrite <- (IH i Hi E), !app_assoc. apply Permutation_app_tail, Permutation_app_comm.
Qed.

Definition queued (k : ckey) (t : dthread) : list Z := bt_todo (ci_bc (at_in k (dt_g t))).
Definition wanted (k : ckey) (t : dthread) : list Z := updates (calls k (dt_g t)).
(** The amount that a step counts: it is no longer queued. *)
Definition taken (k : ckey) (t t' : dthread) : list Z :=
  match queued k t with n :: l => if decide (l = queued k t') then [n] else [] | [] => [] end.

Section main.
Context (math_Exp : f64 -> f64) (rk : reservoir_kind) (I N maxE maxA : Z).
Notation effect_of := (cf_effect rk I N).
Notation gs := (cf_gstep math_Exp rk I N maxE maxA).
Notation ge := (gestep cf_estep cobj_estep).
Notation cf := (cf_run math_Exp rk I N maxE maxA).
Notation run := (cr_run math_Exp rk I N maxE maxA).

Lemma gs_queue k s g s' g' : gs s g = Some (s', g') ->
  (updates (calls k g') = updates (calls k g) /\
     (bt_todo (ci_bc (at_in k g')) = bt_todo (ci_bc (at_in k g)) \/ exists n, bt_todo (ci_bc (at_in k g)) = n :: bt_todo (ci_bc (at_in k g')))) \/
  exists n, updates (calls k g') = updates (calls k g) ++ [n] /\ bt_todo (ci_bc (at_in k g')) = bt_todo (ci_bc (at_in k g)) ++ [n].
Proof.
  intros Hs. unfold cf_gstep, gstep in Hs. destruct (cs_crashed _); [done|]. destruct (gt_in g) as [k'|].
  - left. destruct (cin_returned _); [injection Hs as <- <-; split; [done|by left]|].
    destruct (gs_objs s !! k') as [o|]; [|done]. destruct (cobj_step _ _ _) as [[o' ot']|] eqn:Eo; [|done]. injection Hs as <- <-. split; [done|].
    destruct (decide (k' = k)) as [->|Hne].
    2:{ left. unfold at_in, inside_of. cbn [gt_local]. by rewrite lookup_insert_ne. }
    unfold at_in, inside_of. cbn [gt_local]. rewrite lookup_insert. cbn [default id]. unfold inside_of in Eo.
    destruct o; cbn [cobj_step] in Eo.
    + destruct (bc_tstep s0 _) as [[? ?]|] eqn:Eb; [|done]. injection Eo as <- <-. cbn [ci_bc]. by eapply todo_step.
    + destruct (ewma_tstep s0 _) as [[? ?]|] eqn:Eb; [|done]. injection Eo as <- <-. by left.
    + destruct (DecayingConc.dx_tstep math_Exp s0 _) as [[? ?]|] eqn:Eb; [|done]. injection Eo as <- <-. by left.
    + destruct (ReservoirConc.rx_tstep s0 _) as [[? ?]|] eqn:Eb; [|done]. injection Eo as <- <-. by left.
  - destruct (cp_tstep _ _ _ _ _) as [[s1 t1]|]; [|done]. destruct (effect_of _ _ _) as [[|k' o|k' a]|]; [..|done]; injection Hs as <- <-.
    + left. split; [done|by left].
    + left. split; [done|by left].
    + destruct (decide (k' = k)) as [->|Hne].
      2:{ left. split; [unfold calls; cbn [gt_made]; by rewrite calls_of_other|]. left. unfold at_in, inside_of. cbn [gt_local]. by rewrite lookup_insert_ne. }
      unfold calls, at_in, inside_of. cbn [gt_made gt_local]. rewrite lookup_insert, calls_of_same, updates_snoc. cbn [default id].
      destruct a as [n|n|v r|v ds]; [right; by exists n|left; split; [by rewrite app_nil_r|by left]..].
Qed.

Lemma cr_queue k st s t s' t' : cr_tstep math_Exp rk I N maxE maxA st s t = Some (s', t') ->
  (wanted k t' = wanted k t /\ queued k t = taken k t t' ++ queued k t') \/
  exists n, wanted k t' = wanted k t ++ [n] /\ queued k t' = queued k t ++ [n] /\ taken k t t' = [].
Proof.
  assert (Hloc : queued k t' = queued k t -> taken k t t' = []).
  { unfold taken. intros ->. destruct (queued k t) as [|n l]; [done|]. rewrite decide_False; [done|]. intros E. apply (f_equal length) in E. cbn in E. lia. }
  unfold cr_tstep. destruct (cs_crashed _); [done|]. destruct (dt_read t) as [[call pc]|].
  { destruct (read_step _ _ _ _) as [[pc'|a]|]; [..|done]; intros Hs; injection Hs as <- <-; left; (split; [done|]); by rewrite Hloc. }
  destruct (at_rest _).
  { destruct (dt_todo t) as [|[call|call] todo]; [done|..]; intros Hs; injection Hs as <- <-; left; (split; [done|]); by rewrite Hloc. }
  destruct (gs s (dt_g t)) as [[s1 g']|] eqn:Es; [|done]. intros Hs. injection Hs as <- <-. destruct (gs_queue k _ _ _ _ Es) as [[E1 [E2|[n E2]]]|(n & E1 & E2)].
  - left. split; [done|]. by rewrite Hloc.
  - left. split; [done|]. unfold taken, queued in *. cbn [dt_g] in *. rewrite E2. by rewrite decide_True.
  - right. exists n. split; [done|]. split; [done|]. unfold taken, queued in *. cbn [dt_g] in *. rewrite E2. destruct (bt_todo (ci_bc (at_in k (dt_g t)))) as [|m l]; [reflexivity|].
    rewrite decide_False; [done|]. intros E. apply (f_equal length) in E. cbn in E. rewrite app_length in E. cbn in E. lia.
Qed.

(** ** The objects. *)
Lemma create_counter s t e k o : effect_of s t e = Some (Create k o) -> exists w p, k = KCounter w p.
Proof.
  unfold cf_effect. destruct (kt_pc t); try done; [destruct (rs_success r); done|destruct (new_counter _ _ _); [|done]; intros [= <- _]; eauto|destruct p; done].
Qed.
Lemma cr_object k st s t s' t' : (forall w p, k <> KCounter w p) -> cr_tstep math_Exp rk I N maxE maxA st s t = Some (s', t') ->
  gs_objs s' !! k = gs_objs s !! k \/ exists o ot o' ot', gs_objs s !! k = Some o /\ gs_objs s' !! k = Some o' /\ cobj_step math_Exp o ot = Some (o', ot').
Proof.
  intros Hk. unfold cr_tstep. destruct (cs_crashed _); [done|]. destruct (dt_read t) as [[call pc]|].
  { destruct (read_step _ _ _ _) as [[pc'|a]|]; [..|done]; intros Hs; injection Hs as <- <-; by left. }
  destruct (at_rest _).
  { destruct (dt_todo t) as [|[call|call] todo]; [done|..]; intros Hs; injection Hs as <- <-; by left. }
  destruct (gs s (dt_g t)) as [[s1 g']|] eqn:Es; [|done]. intros Hs. injection Hs as <- <-.
  unfold cf_gstep, gstep in Es. destruct (cs_crashed _); [done|]. destruct (gt_in (dt_g t)) as [k'|].
  - destruct (cin_returned _); [injection Es as <- <-; by left|]. destruct (gs_objs s !! k') as [o|] eqn:Eo; [|done]. destruct (cobj_step _ _ _) as [[o' ot']|] eqn:Ec; [|done]. injection Es as <- <-.
    cbn [gs_objs]. destruct (decide (k' = k)) as [->|Hne]; [|left; by rewrite lookup_insert_ne]. right. rewrite lookup_insert. eauto 8.
  - destruct (cp_tstep _ _ _ _ _) as [[s2 t1]|]; [|done]. destruct (effect_of _ _ _) as [[|k' o|k' a]|] eqn:Ee; [..|done]; injection Es as <- <-; left; cbn [gs_objs]; [done| |done].
    destruct (create_counter _ _ _ _ _ Ee) as (w & p & ->). rewrite lookup_insert_ne; [done|]. intros E. by apply (Hk w p).
Qed.

Section started.
Context (e0 : cenv) (progs : list (list dcall)) (objs0 : gmap ckey cobj).
Context (HS : counter_setting I N) (H0 : cf_objs0 rk I N e0 = Some objs0).
Notation tstep := (cr_tstep math_Exp rk I N maxE maxA (ce_ms e0)).
Notation Isec := (interval_seconds I).
Definition at_ (s : list (event cenv)) : reading := crun tstep ge (rstart e0 progs objs0) s.
Lemma run_at s : run e0 progs s = Some (at_ s).
Proof using H0. unfold cr_run. rewrite H0. done. Qed.
Lemma at_snoc s ev : at_ (s ++ [ev]) = cstep tstep ge (at_ s) ev.
Proof. apply crun_snoc. Qed.

(** The amounts counted by the counter [k]. *)
Definition counts_in (k : ckey) (c : reading) (ev : event cenv) : list Z :=
  match ev with
  | Run i => match threads c !! i with Some t => match tstep (shared c) t with Some (_, t') => taken k t t' | None => [] end | None => [] end
  | Env _ => []
  end.
Fixpoint counts_from (k : ckey) (c : reading) (sched : list (event cenv)) : list Z :=
  match sched with [] => [] | ev :: sched => counts_in k c ev ++ counts_from k (cstep tstep ge c ev) sched end.
Lemma counts_from_app k c s1 s2 : counts_from k c (s1 ++ s2) = counts_from k c s1 ++ counts_from k (crun tstep ge c s1) s2.
Proof. revert c. induction s1 as [|ev s1 IH]; intros c; [done|]. cbn. rewrite IH. by rewrite app_assoc. Qed.
Definition counts (k : ckey) (s : list (event cenv)) : list Z := counts_from k (rstart e0 progs objs0) s.
Lemma counts_prefix k s s' : counts k s `prefix_of` counts k (s ++ s').
Proof. unfold counts. rewrite counts_from_app. by eexists. Qed.

Lemma counts_inv k s : counts k s ++ mjoin (queued k <$> threads (at_ s)) ≡ₚ mjoin (wanted k <$> threads (at_ s)).
Proof.
  induction s as [|ev s IH] using rev_ind.
  - unfold at_, rstart. cbn [crun fold_left threads counts counts_from app]. rewrite !fmap_fmap. clear. induction progs as [|p ps IH]; [done|]. exact IH.
  - unfold counts. rewrite counts_from_app, at_snoc. fold (counts k s). cbn [counts_from]. rewrite app_nil_r. change (crun tstep ge (rstart e0 progs objs0) s) with (at_ s).
    destruct (at_ s) as [sh ts]. destruct ev as [i|e]; cbn [threads shared cstep counts_in] in *; [|by rewrite app_nil_r].
    destruct (ts !! i) as [t|] eqn:Hi; [|by rewrite app_nil_r]. destruct (tstep sh t) as [[s' t']|] eqn:Hs; [|by rewrite app_nil_r]. cbn [threads].
    destruct (cr_queue k _ _ _ _ _ Hs) as [[E1 E2]|(n & E1 & E2 & E3)].
    + assert (Ew : mjoin (wanted k <$> <[i := t']> ts) = mjoin (wanted k <$> ts)).
      { rewrite list_fmap_insert, E1, list_insert_id; [done|]. by rewrite list_lookup_fmap, Hi. }
      rewrite Ew, <- IH, <- app_assoc. apply Permutation_app_head. by apply (mjoin_fmap_insert_sub (queued k) ts i t t').
    + rewrite E3, app_nil_r. rewrite (mjoin_fmap_insert_app (queued k) ts i t t' [n] Hi E2), (mjoin_fmap_insert_app (wanted k) ts i t t' [n] Hi E1), app_assoc, IH. done.
Qed.

(** ** The counters the compass has from the start. *)
Definition cl (k : ckey) (s : list (event cenv)) : list (nat * Z) :=
  cledger math_Exp rk I N maxE maxA k (start e0 (writes <$> progs) objs0) (sched_of math_Exp rk I N maxE maxA e0 progs objs0 s).
Definition heap_at (k : ckey) (s : list (event cenv)) : list bucket :=
  match counter_of (shared (at_ s)) k with Some b => bc_heap (bs_bc b) | None => [] end.
Definition added (k : ckey) (s : list (event cenv)) : list (Z * Z) := by_bucket (heap_at k s) (cl k s).

Lemma cl_app k s s' : exists l, cl k (s ++ s') = cl k s ++ l.
Proof. unfold cl, sched_of. rewrite strip_app, cledger_app. by eexists. Qed.

Lemma counter_state k s : main_counter rk k -> exists b t0, counter_of (shared (at_ s)) k = Some b /\ heap_at k s = bc_heap (bs_bc b) /\
  bs_clock b = wrap64 (ce_ms (showing e0 s)) /\
  mxinv (Z.to_nat N) I t0 true (asked_of k (without_reads (at_ s))) (view k b (without_reads (at_ s))) (cl k s) /\
  tsinv Isec (ms_values e0 s) (view k b (without_reads (at_ s))).
Proof using HS H0.
  intros Hk. pose proof (run_fine _ _ _ _ _ _ _ _ _ _ _ H0 (run_at s)) as Hf. pose proof (main_is_counter _ _ Hk) as Hc.
  destruct (exists_run _ _ _ _ _ _ _ _ _ _ Hf) as [X _]. destruct (X k (main_in_objs _ _ Hk)) as [o Ho].
  pose proof (linv_run math_Exp rk I N maxE maxA e0 _ objs0 HS H0 _ _ Hf k Hc) as [L _]. destruct (L o Ho) as (sk & t0 & -> & E1 & E2 & E3).
  cbn [without_reads shared] in Ho, E1. exists sk, t0. unfold heap_at, counter_of. rewrite Ho. split; [done|]. split; [done|]. split.
  - rewrite E1. by rewrite (proj1 (env_run _ _ _ _ _ _ _ _ _ _ (run_at s))).
  - split; [exact E2|]. unfold ms_values in *. unfold sched_of in E3. rewrite strip_shown in E3. exact E3.
Qed.

Lemma heap_step k s ev p b : main_counter rk k -> heap_at k s !! p = Some b -> exists b', heap_at k (s ++ [ev]) !! p = Some b' /\ bk_ts b' = bk_ts b.
Proof using HS H0.
  intros Hk Hp. unfold heap_at in *. rewrite at_snoc. destruct (counter_of (shared (at_ s)) k) as [sk|] eqn:E; [|done]. unfold counter_of in E.
  destruct (gs_objs (shared (at_ s)) !! k) as [[sk'|?|?|?]|] eqn:Eo; try done. injection E as ->.
  destruct (at_ s) as [sh ts]. cbn [shared threads cstep] in *.
  assert (Hsame : match counter_of sh k with Some b0 => bc_heap (bs_bc b0) | None => [] end = bc_heap (bs_bc sk)) by (unfold counter_of; by rewrite Eo).
  destruct ev as [i|e]; cbn [shared threads cstep].
  - destruct (ts !! i) as [t|]; [|cbn [shared]; rewrite Hsame; eauto]. destruct (tstep sh t) as [[s' t']|] eqn:Hs; [|cbn [shared]; rewrite Hsame; eauto]. cbn [shared].
    destruct (cr_object k _ _ _ _ _ ltac:(intros w q ->; exact Hk) Hs) as [E|(o & ot & o' & ot' & E1 & E2 & E3)].
    + unfold counter_of. rewrite E, Eo. eauto.
    + rewrite Eo in E1. injection E1 as <-. cbn [cobj_step] in E3. destruct (bc_tstep sk _) as [[sk' b']|] eqn:Eb; [|done]. injection E3 as <- <-.
      unfold counter_of. rewrite E2. by eapply tstep_heap.
  - unfold counter_of, gestep. cbn [shared gs_objs]. rewrite lookup_fmap, Eo. cbn. eauto.
Qed.
Lemma heap_grows k s s' p b : main_counter rk k -> heap_at k s !! p = Some b -> exists b', heap_at k (s ++ s') !! p = Some b' /\ bk_ts b' = bk_ts b.
Proof using HS H0.
  intros Hk Hp. induction s' as [|ev s' IH] using rev_ind; [rewrite app_nil_r; eauto|]. destruct IH as (b1 & H1 & E1). rewrite app_assoc.
  destruct (heap_step k (s ++ s') ev p b1 Hk H1) as (b2 & H2 & E2). exists b2. split; [done|congruence].
Qed.
Lemma heap_longer k s s' : main_counter rk k -> (length (heap_at k s) <= length (heap_at k (s ++ s')))%nat.
Proof using HS H0.
  intros Hk. destruct (decide (length (heap_at k s) = 0%nat)); [lia|]. destruct (lookup_lt_is_Some_2 (heap_at k s) (length (heap_at k s) - 1)%nat ltac:(lia)) as [b Hb].
  destruct (heap_grows k s s' _ _ Hk Hb) as (b' & Hb' & _). apply lookup_lt_Some in Hb'. lia.
Qed.

(** What was added to which interval. *)
Lemma added_prefix k s s' : main_counter rk k -> added k s `prefix_of` added k (s ++ s').
Proof using HS H0.
  intros Hk. destruct (cl_app k s s') as [l E]. unfold added. rewrite E. exists (by_bucket (heap_at k (s ++ s')) l). unfold by_bucket at 1. rewrite fmap_app. f_equal.
  apply by_bucket_stable.
  - destruct (counter_state k s Hk) as (b & t0 & _ & Eh & _ & [B _] & _). rewrite Eh. exact (b_crptr _ _ _ _ _ _ _ _ B).
  - intros p b Hp. by apply heap_grows.
Qed.
Lemma added_amounts k s : (added k s).*2 = (cl k s).*2.
Proof. unfold added, by_bucket. rewrite fmap_fmap. by apply list_fmap_ext. Qed.
Lemma added_bounds k s : main_counter rk k ->
  all_amounts k (finished progs (at_ s)) ⊆+ (added k s).*2 /\ (added k s).*2 ⊆+ all_amounts k (begun progs (at_ s)).
Proof using HS H0.
  intros Hk. rewrite added_amounts. destruct (ledger_bounds math_Exp rk I N maxE maxA k e0 progs objs0 s (at_ s) HS Hk H0 (run_at s)) as (B1 & B2 & B3).
  split; [exact B1|]. by etransitivity.
Qed.
Lemma key_trunc x : 1000 * (Isec * Z.quot x (1000 * Isec)) = trunc_key Isec x.
Proof. unfold trunc_key. lia. Qed.
Lemma ms_values_times s : ms_values e0 s = times (ce_ms e0) s.
Proof.
  unfold ms_values, times. rewrite fmap_cons. f_equal. unfold shown, ms_of. induction s as [|[i|e] s IH]; [done|exact IH|]. cbn. f_equal. exact IH.
Qed.
Lemma added_keys k s x n : main_counter rk k -> (x, n) ∈ added k s -> x = -1000 \/ exists now, now ∈ times (ce_ms e0) s /\ x = trunc_key Isec now.
Proof using HS H0.
  intros Hk Hx. destruct (counter_state k s Hk) as (b & t0 & _ & Eh & _ & [B _] & T). unfold added, by_bucket in Hx. apply elem_of_list_fmap in Hx as ([p n'] & E & Hp). injection E as -> ->. cbn [fst].
  assert (Hlt : (p < length (heap_at k s))%nat).
  { rewrite Eh. apply (b_crptr _ _ _ _ _ _ _ _ B). apply elem_of_list_fmap. by exists (p, n'). }
  destruct (lookup_lt_is_Some_2 _ _ Hlt) as [b' Hb]. rewrite (key_of_lookup _ _ _ Hb). unfold key. rewrite Eh in Hb.
  destruct (t_heap _ _ _ T _ _ Hb) as [->|(v & Hv & ->)]; [by left|right]. exists v. rewrite key_trunc, <- ms_values_times. done.
Qed.

(** The content of a bucket. *)
Lemma bucket_content k s p b : main_counter rk k -> heap_at k s !! p = Some b -> key b <> -1000 ->
  bk_count b = wrap64 (sum_at (key b) (added k s)) /\ exists now, now ∈ times (ce_ms e0) s /\ key b = trunc_key Isec now.
Proof using HS H0.
  intros Hk Hb Hne. destruct (counter_state k s Hk) as (sk & t0 & _ & Eh & _ & [B _] & T). cbn [view shared threads] in B. unfold added. rewrite Eh in *.
  split.
  - rewrite (sum_at_by_bucket _ _ p b (b_crptr _ _ _ _ _ _ _ _ B)); [|intros p' b' Hp' Hb' E|exact Hb].
    + exact (b_count _ _ _ _ _ _ _ _ B _ _ Hb).
    + assert (HpN : (S (Z.to_nat N) <= p)%nat).
      { destruct (decide (p < S (Z.to_nat N))%nat) as [Hlt|]; [|lia]. pose proof (b_init _ _ _ _ _ _ _ _ B _ _ Hlt Hb). unfold key in Hne. lia. }
      destruct (decide (p' < p)%nat).
      * pose proof (b_sorted _ _ _ _ _ _ _ _ B p' p _ _ ltac:(lia) HpN Hb' Hb). lia.
      * pose proof (b_sorted _ _ _ _ _ _ _ _ B p p' _ _ ltac:(lia) ltac:(lia) Hb Hb'). lia.
  - destruct (t_heap _ _ _ T _ _ Hb) as [E|(v & Hv & E)]; [unfold key in Hne; lia|]. exists v. rewrite <- ms_values_times. split; [done|]. unfold key. rewrite E. apply key_trunc.
Qed.

(** The count. *)
Lemma count_value k s : main_counter rk k -> exists b, counter_of (shared (at_ s)) k = Some b /\ bc_GetCount (bs_bc b) = wrap64 (sumZ (counts k s)) /\
  all_amounts k (finished progs (at_ s)) ⊆+ counts k s /\ counts k s ⊆+ all_amounts k (begun progs (at_ s)).
Proof using HS H0.
  intros Hk. destruct (counter_state k s Hk) as (b & t0 & Eb & Eh & _ & [B _] & _). exists b. split; [exact Eb|]. clear Eb Eh.
  cbn [view shared threads] in B. rewrite !fmap_fmap in B. cbn [proj] in B.
  destruct (ledger_bounds math_Exp rk I N maxE maxA k e0 progs objs0 s (at_ s) HS Hk H0 (run_at s)) as (B1 & B2 & B3). fold (cl k s) in B1, B2.
  pose proof (counts_inv k s) as P. set (T := counts k s) in *.
  assert (Ea : asked_of k (without_reads (at_ s)) = mjoin (wanted k <$> threads (at_ s))).
  { unfold asked_of, without_reads. cbn [threads]. by rewrite fmap_fmap. }
  rewrite Ea in B. pose proof (b_amts _ _ _ _ _ _ _ _ B) as A. pose proof (b_total _ _ _ _ _ _ _ _ B) as Tot. pose proof (b_cin64 _ _ _ _ _ _ _ _ B) as C64.
  rewrite <- (counter_received _ _ _ _ _ _ _ _ _ _ (run_fine _ _ _ _ _ _ _ _ _ _ _ H0 (run_at s)) k (main_is_counter _ _ Hk)) in B2, B3.
  change (mjoin ((fun t => updates (calls k t)) <$> threads (without_reads (at_ s)))) with (asked_of k (without_reads (at_ s))) in B2, B3. rewrite Ea in B2, B3.
  cbn [without_reads threads] in A, Tot. rewrite !fmap_fmap in A. rewrite !fmap_fmap in Tot.
  assert (Eq : sumZ ((fun x : dthread => sumZ (bt_todo (ci_bc (at_in k (g_push (dt_g x) (writes (dt_todo x))))))) <$> threads (at_ s)) = sumZ (mjoin (queued k <$> threads (at_ s)))).
  { generalize (threads (at_ s)). clear. intros ts. induction ts as [|t ts IH]; [done|]. rewrite !fmap_cons, join_cons', sumZ_app, sumZ_cons, IH. done. }
  rewrite Eq in Tot. split_and!.
  - unfold bc_GetCount, counter_GetCount. rewrite <- (sumZ_perm _ _ P), sumZ_app in Tot.
    assert (E : forall a b c, in64 a -> wrap64 (a + c) = wrap64 (b + c) -> a = wrap64 b).
    { clear. intros a b c Ha E. rewrite <- (wrap64_id a Ha). replace a with (a + c - c) by lia. replace b with (b + c - c) by lia. rewrite <- Z.add_opp_r, <- wrap64_add_l, E, wrap64_add_l. f_equal. }
    eapply E; [exact C64|exact Tot].
  - etransitivity; [exact B1|]. apply (submseteq_app_inv_r _ _ (mjoin (queued k <$> threads (at_ s)))). rewrite P, <- A.
    apply submseteq_app; [done|]. clear. generalize (threads (at_ s)). intros ts. induction ts as [|t ts IH]; [done|]. rewrite !fmap_cons, !join_cons'. apply submseteq_app; [|exact IH].
    unfold unfinished. by apply submseteq_inserts_l.
  - etransitivity; [|exact B3]. rewrite <- P. by apply submseteq_inserts_r.
Qed.
End started.
End main.
