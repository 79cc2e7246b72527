From Verif.Go Require Import GoInt GoFloat GoConc.
From Verif.Model Require Import EWMA Compass CompassConc.
From Verif.Spec Require Import BucketSpec CompassConcSpec.
From Verif.Proofs Require Import BucketHist BucketMain EWMAConcProofs.
Local Open Scope Z_scope.

(** [mjoin] and sums. *)
Lemma len_all {A} (f : kpc -> list A) ts : Z.of_nat (length (all f ts)) = sumZ ((fun t => Z.of_nat (length (f (kt_pc t)))) <$> ts).
Proof. unfold all. induction ts as [|t ts IH]; [done|]. cbn [fmap list_fmap mjoin list_join]. rewrite app_length, sumZ_cons, Nat2Z.inj_add. f_equal. exact IH. Qed.
Lemma len_to_come {A} (f : list kcall -> list A) ts : Z.of_nat (length (to_come f ts)) = sumZ ((fun t => Z.of_nat (length (f (kt_todo t)))) <$> ts).
Proof. unfold to_come. induction ts as [|t ts IH]; [done|]. cbn [fmap list_fmap mjoin list_join]. rewrite app_length, sumZ_cons, Nat2Z.inj_add. f_equal. exact IH. Qed.
Lemma sum_join {A} (f : A -> list Z) l : sumZ (mjoin (f <$> l)) = sumZ ((fun x => sumZ (f x)) <$> l).
Proof. induction l as [|t ts IH]; [done|]. cbn [fmap list_fmap mjoin list_join]. rewrite sumZ_app, sumZ_cons. f_equal. exact IH. Qed.
(** The model looks at the code (addon) the call carries. *)
Lemma asked_key w r : asked w r = key_of w r.
Proof. by destruct w. Qed.
Lemma carrying_app w k l1 l2 : carrying w k (l1 ++ l2) = carrying w k l1 + carrying w k l2.
Proof. unfold carrying. rewrite filter_app, app_length. lia. Qed.
Lemma successes_app l1 l2 : successes (l1 ++ l2) = successes l1 + successes l2.
Proof. unfold successes. rewrite filter_app, app_length. lia. Qed.
Lemma carrying_join {A} w k (f : A -> list result) l : carrying w k (mjoin (f <$> l)) = sumZ ((fun x => carrying w k (f x)) <$> l).
Proof. induction l as [|t ts IH]; [done|]. cbn [fmap list_fmap mjoin list_join]. rewrite carrying_app, sumZ_cons. f_equal. exact IH. Qed.
Lemma successes_join {A} (f : A -> list result) l : successes (mjoin (f <$> l)) = sumZ ((fun x => successes (f x)) <$> l).
Proof. induction l as [|t ts IH]; [done|]. cbn [fmap list_fmap mjoin list_join]. rewrite successes_app, sumZ_cons. f_equal. exact IH. Qed.
Lemma carrying_nonneg w k l : 0 <= carrying w k l.
Proof. unfold carrying. lia. Qed.
Lemma lost_app w l1 l2 : lost w (l1 ++ l2) = lost w l1 ++ lost w l2.
Proof. unfold lost. by rewrite filter_app, fmap_app. Qed.
Lemma lost_join {A} w (f : A -> list (which * result)) l : lost w (mjoin (f <$> l)) = mjoin ((fun x => lost w (f x)) <$> l).
Proof. induction l as [|t ts IH]; [done|]. cbn [fmap list_fmap mjoin list_join]. rewrite lost_app. f_equal. exact IH. Qed.

Lemma sumZ_nonneg {A} (f : A -> Z) (l : list A) : Forall (fun x => 0 <= f x) l -> 0 <= sumZ (f <$> l).
Proof. induction 1 as [|x l H _ IH]; [done|]. cbn [fmap list_fmap]. rewrite sumZ_cons. exact (Z.add_nonneg_nonneg _ _ H IH). Qed.
Lemma sumZ_member {A} (f : A -> Z) (l : list A) i x : Forall (fun x => 0 <= f x) l -> l !! i = Some x -> f x <= sumZ (f <$> l).
Proof.
  intros H. revert i. induction H as [|y l Hy Hl IH]; intros i Hi; [done|]. cbn [fmap list_fmap]. rewrite sumZ_cons.
  pose proof (sumZ_nonneg f l Hl) as Hn. change (list_fmap A Z f l) with (f <$> l). destruct i as [|i]; [injection Hi as ->; lia|]. specialize (IH i Hi). lia.
Qed.

#[local] Arguments durations : simpl never.
#[local] Arguments results : simpl never.
Lemma durations_upd d r l : durations (KUpdate d r :: l) = d :: durations l.
Proof. done. Qed.
Lemma durations_rate l : durations (KRate :: l) = durations l.
Proof. done. Qed.
Lemma durations_get w n l : durations (KGetter w n :: l) = durations l.
Proof. done. Qed.
Lemma results_upd d r l : results (KUpdate d (Some r) :: l) = r :: results l.
Proof. done. Qed.
Lemma results_plain d l : results (KUpdate d None :: l) = results l.
Proof. done. Qed.
Lemma results_rate l : results (KRate :: l) = results l.
Proof. done. Qed.
Lemma results_get w n l : results (KGetter w n :: l) = results l.
Proof. done. Qed.
Ltac progs_rw := rewrite ?durations_upd, ?durations_rate, ?durations_get, ?results_upd, ?results_plain, ?results_rate, ?results_get.

Lemma carrying_cons w k r l : carrying w k (r :: l) = (if decide (key_of w r = k) then 1 else 0) + carrying w k l.
Proof. unfold carrying. rewrite filter_cons, <- (asked_key w r). destruct (decide (asked w r = k)); cbn [length]; lia. Qed.
Lemma carrying_nil w k : carrying w k [] = 0.
Proof. done. Qed.
Lemma successes_cons r l : successes (r :: l) = (if rs_success r then 1 else 0) + successes l.
Proof. unfold successes. rewrite filter_cons. destruct (decide _) as [E|E], (rs_success r); cbn [length]; try lia; done. Qed.

Ltac steps s t Hs :=
  unfold cp_tstep in Hs; destruct (cs_crashed _) eqn:Hcr; [done|]; destruct t as [todo pc pan]; cbn [kt_pc kt_todo kt_panics] in Hs;
  destruct pc as [|k|old k|old new k|[|n] k|n count k|n count k|n count k|n count k|d r|d r|d r|r|w r|w r|w r|w r|w r|w p r|w p r|w n];
  [destruct todo as [|[d r| |w n] todo]; [done|..]
  | | destruct (tickInterval <? _) eqn:Hage | destruct (go_mod _ _) as [gr|] eqn:Hgm; [destruct (go_div _ _) as [rt|] eqn:Hgd; [destruct (Z.eqb_spec (mt_lastTick (cs_meter s)) old)|done]|done]
  | | | destruct (Z.eqb_spec (mt_uncounted (cs_meter s)) count)
  | | | | | | | | destruct (_ <? _) eqn:?
  | destruct (tb_locked _) eqn:Hlk; [done|]
  | destruct (tb_writing _) eqn:Hwr; [|destruct (tb_map _ !! _) as [p|] eqn:Hmap; [|destruct (_ <? _) eqn:Hsz]]
  | destruct (tb_writing _) eqn:Hwr
  | | | destruct p as [p|]
  | destruct (tb_writing _) eqn:Hwr; [|destruct n as [|n]]]; injection Hs as <- <-.



Section inv.
Context (I maxE maxA : Z).
Notation tstep := (cp_tstep I maxE maxA).

(** Conserved quantities: a shared part and a part per goroutine. *)
Lemma conserved (sg : cp_shared -> Z) (mu : kthread -> Z) (J : config cp_shared kthread -> Prop) c0 :
  (forall sched, J (crun tstep cp_estep c0 sched)) ->
  (forall s ts i t s' t', J (Config s ts) -> ts !! i = Some t -> tstep s t = Some (s', t') -> sg s' + mu t' = sg s + mu t) ->
  (forall s e, sg (cp_estep s e) = sg s) ->
  forall sched, let c := crun tstep cp_estep c0 sched in
    sg (shared c) + sumZ (mu <$> threads c) = sg (shared c0) + sumZ (mu <$> threads c0).
Proof.
  intros HJ Ht He sched. induction sched as [|ev sched IH] using rev_ind; [done|]. cbv zeta in *. rewrite <- IH. specialize (HJ sched).
  rewrite crun_snoc. destruct (crun tstep cp_estep c0 sched) as [s ts]. destruct ev as [i|e].
  - cbn [cstep threads shared]. destruct (ts !! i) as [t|] eqn:Hi; [|done]. destruct (tstep s t) as [[s' t']|] eqn:Hs; [|done].
    cbn [threads shared]. rewrite (sumZ_insert mu _ _ _ _ Hi). specialize (Ht s ts i t s' t' HJ Hi Hs). lia.
  - cbn [cstep threads shared]. by rewrite He.
Qed.

(** Totals. *)
Definition left_total (t : kthread) : Z := Z.of_nat (length (untotalled_yet (kt_pc t))) + Z.of_nat (length (durations (kt_todo t))).
Lemma step_total s t s' t' : tstep s t = Some (s', t') -> cs_total s' + left_total t' = cs_total s + left_total t.
Proof.
  intros Hs. steps s t Hs; unfold left_total; cbn [kt_pc kt_todo]; progs_rw; try (destruct w); try (destruct k as [[d r]|]); try (destruct r as [r|]); try (destruct (rs_success _));
    cbn; lia.
Qed.
Lemma step_success s t s' t' : tstep s t = Some (s', t') ->
  cs_success s' + (successes (unjudged_yet (kt_pc t')) + successes (results (kt_todo t'))) = cs_success s + (successes (unjudged_yet (kt_pc t)) + successes (results (kt_todo t))).
Proof.
  intros Hs. steps s t Hs; cbn [kt_pc kt_todo]; try (destruct w); try (destruct k as [[d r]|]); try (destruct r as [[? ? ?]|]); try (destruct r as [[] ? ?]); progs_rw;
    cbn; rewrite ?successes_cons; cbn; lia.
Qed.
Lemma step_durations s t s' t' : tstep s t = Some (s', t') ->
  cs_durations s' ++ unsampled_yet (kt_pc t') ++ durations (kt_todo t') ≡ₚ cs_durations s ++ unsampled_yet (kt_pc t) ++ durations (kt_todo t).
Proof.
  intros Hs. steps s t Hs; cbn [kt_pc kt_todo]; progs_rw; try (destruct w); try (destruct k as [[d r]|]); try (destruct r as [r|]); try (destruct (rs_success _));
    cbn; rewrite <- ?app_assoc; done.
Qed.
Lemma join_app {A B} (f g : A -> list B) l : mjoin ((fun x => f x ++ g x) <$> l) ≡ₚ mjoin (f <$> l) ++ mjoin (g <$> l).
Proof.
  induction l as [|x l IH]; [done|]. cbn [fmap list_fmap mjoin list_join].
  transitivity ((f x ++ g x) ++ (mjoin (f <$> l) ++ mjoin (g <$> l))); [by apply Permutation_app_head|]. change (list_fmap A (list B)) with (fmap (M := list) (A := A) (B := list B)).
  change (list_join (f <$> l)) with (mjoin (f <$> l)). change (list_join (g <$> l)) with (mjoin (g <$> l)).
  solve_Permutation.
Qed.
Lemma conservedP {A} (sg : cp_shared -> list A) (mu : kthread -> list A) c0 :
  (forall s t s' t', tstep s t = Some (s', t') -> sg s' ++ mu t' ≡ₚ sg s ++ mu t) ->
  (forall s e, sg (cp_estep s e) = sg s) ->
  forall sched, let c := crun tstep cp_estep c0 sched in sg (shared c) ++ mjoin (mu <$> threads c) ≡ₚ sg (shared c0) ++ mjoin (mu <$> threads c0).
Proof.
  intros Ht He sched. induction sched as [|ev sched IH] using rev_ind; [done|]. cbv zeta in *. etransitivity; [|exact IH].
  rewrite crun_snoc. destruct (crun tstep cp_estep c0 sched) as [s ts]. clear IH. destruct ev as [i|e].
  - cbn [cstep threads shared]. destruct (ts !! i) as [t|] eqn:Hi; [|done]. destruct (tstep s t) as [[s' t']|] eqn:Hs; [|done].
    cbn [threads shared]. specialize (Ht s t s' t' Hs). pose proof (Permutation_insert_concat mu ts i t t' Hi) as Hp.
    apply (Permutation_app_inv_r (mu t)). rewrite <- app_assoc, Hp.
    transitivity ((sg s' ++ mu t') ++ mjoin (mu <$> ts)); [solve_Permutation|]. rewrite Ht. solve_Permutation.
  - cbn [cstep threads shared]. by rewrite He.
Qed.

(** The averages. *)
Definition left_count (t : kthread) : Z := Z.of_nat (length (uncounted_yet (kt_pc t))) + Z.of_nat (length (durations (kt_todo t))).
Record minv (n : Z) (s : cp_shared) (ts : list kthread) : Prop := {
  m_pos : 0 <= mt_uncounted (cs_meter s);
  m_pos1 : Forall (fun c => 0 <= c) (cs_log1 s);
  m_posT : forall i t, ts !! i = Some t -> Forall (fun c => 0 <= c) (taken (kt_pc t));
  m_sum : mt_uncounted (cs_meter s) + sumZ (cs_log1 s) + sumZ ((fun t => sumZ (taken (kt_pc t))) <$> ts) + sumZ (left_count <$> ts) = n;
  m_5 : cs_log1 s ≡ₚ cs_log5 s ++ all not_yet5 ts;
  m_15 : cs_log5 s ≡ₚ cs_log15 s ++ all not_yet15 ts;
  m_e1 : mt_m1Rate (cs_meter s) = fold_left ew_TickN (cs_log1 s) zeroEWMA;
  m_e5 : mt_m5Rate (cs_meter s) = fold_left ew_TickN (cs_log5 s) zeroEWMA;
  m_e15 : mt_m15Rate (cs_meter s) = fold_left ew_TickN (cs_log15 s) zeroEWMA
}.
Lemma all_insert_same {A} (f : kpc -> list A) ts i t t' : ts !! i = Some t -> f (kt_pc t') = f (kt_pc t) -> all f (<[i := t']> ts) ≡ₚ all f ts.
Proof.
  intros Hi E. pose proof (Permutation_insert_concat (fun t => f (kt_pc t)) ts i t t' Hi) as Hp. cbv beta in Hp. rewrite E in Hp. by apply Permutation_app_inv_r in Hp.
Qed.
Lemma all_insert_add {A} (f : kpc -> list A) ts i t t' : ts !! i = Some t -> f (kt_pc t) = [] -> all f (<[i := t']> ts) ≡ₚ all f ts ++ f (kt_pc t').
Proof.
  intros Hi E. pose proof (Permutation_insert_concat (fun t => f (kt_pc t)) ts i t t' Hi) as Hp. cbv beta in Hp. rewrite E, app_nil_r in Hp. exact Hp.
Qed.
Lemma all_insert_del {A} (f : kpc -> list A) ts i t t' : ts !! i = Some t -> f (kt_pc t') = [] -> all f (<[i := t']> ts) ++ f (kt_pc t) ≡ₚ all f ts.
Proof.
  intros Hi E. pose proof (Permutation_insert_concat (fun t => f (kt_pc t)) ts i t t' Hi) as Hp. cbv beta in Hp. rewrite E, app_nil_r in Hp. exact Hp.
Qed.

(** A step that leaves the logs and the averages alone. *)
Lemma minv_local n s ts i t s' t' : minv n s ts -> ts !! i = Some t ->
  cs_log1 s' = cs_log1 s -> cs_log5 s' = cs_log5 s -> cs_log15 s' = cs_log15 s ->
  mt_m1Rate (cs_meter s') = mt_m1Rate (cs_meter s) -> mt_m5Rate (cs_meter s') = mt_m5Rate (cs_meter s) -> mt_m15Rate (cs_meter s') = mt_m15Rate (cs_meter s) ->
  not_yet5 (kt_pc t') = not_yet5 (kt_pc t) -> not_yet15 (kt_pc t') = not_yet15 (kt_pc t) ->
  0 <= mt_uncounted (cs_meter s') -> Forall (fun c => 0 <= c) (taken (kt_pc t')) ->
  mt_uncounted (cs_meter s') + sumZ (taken (kt_pc t')) + left_count t' = mt_uncounted (cs_meter s) + sumZ (taken (kt_pc t)) + left_count t ->
  minv n s' (<[i := t']> ts).
Proof.
  intros M Hi L1 L5 L15 E1 E5 E15 N5 N15 Hp HT HS. assert (Hlt : (i < length ts)%nat) by (by apply lookup_lt_Some in Hi). destruct M.
  constructor; rewrite ?L1, ?L5, ?L15, ?E1, ?E5, ?E15; try done.
  - intros j u Hj. destruct (lookup_insert_cases ts i t' j u Hlt Hj) as [[-> ->]|[_ Hj']]; [done|by eapply m_posT0].
  - rewrite (sumZ_insert (fun t => sumZ (taken (kt_pc t))) _ _ _ _ Hi), (sumZ_insert left_count _ _ _ _ Hi). lia.
  - by rewrite (all_insert_same not_yet5 ts i t t' Hi N5).
  - by rewrite (all_insert_same not_yet15 ts i t t' Hi N15).
Qed.

Lemma minv_step tot s ts i t s' t' : tot < 2 ^ 63 -> minv tot s ts -> ts !! i = Some t -> tstep s t = Some (s', t') -> minv tot s' (<[i := t']> ts).
Proof.
  intros Hn M Hi Hs. pose proof (m_pos _ _ _ M) as Hp0. pose proof (m_posT _ _ _ M i t Hi) as HT0.
  assert (Hlt : (i < length ts)%nat) by (by apply lookup_lt_Some in Hi).
  assert (mt_uncounted (cs_meter s) + left_count t <= tot) as Hle.
  { assert (left_count t <= sumZ (left_count <$> ts)) by (apply (sumZ_member left_count ts i t); [apply Forall_forall; intros; unfold left_count; lia|done]).
    assert (0 <= sumZ (cs_log1 s)). { rewrite <- (list_fmap_id (cs_log1 s)). apply sumZ_nonneg. apply M. }
    assert (0 <= sumZ ((fun t => sumZ (taken (kt_pc t))) <$> ts)).
    { apply sumZ_nonneg, Forall_lookup. intros j u Hj. pose proof (m_posT _ _ _ M j u Hj) as HF. rewrite <- (list_fmap_id (taken _)). by apply sumZ_nonneg. }
    pose proof (m_sum _ _ _ M). lia. }
  steps s t Hs.
  all: try (eapply minv_local; [exact M|exact Hi|try done..]; unfold left_count; cbn [kt_pc kt_todo] in *; progs_rw;
    try (destruct w); try (destruct k as [[dd rr]|]); try (destruct r as [r|]); try (destruct (rs_success _)); cbn; try lia; done).
  - (* PTake *) eapply minv_local; [exact M|exact Hi|try done..]; unfold left_count; cbn [kt_pc kt_todo] in *; subst count.
    + constructor; [done|constructor].
    + destruct k as [[dd rr]|]; cbn; lia.
  - (* PM1 *) destruct M. cbn [kt_pc] in *. constructor; cbn; try done.
    + apply Forall_app. split; [done|]. exact HT0.
    + intros j u Hj. destruct (lookup_insert_cases ts i _ j u Hlt Hj) as [[-> ->]|[_ Hj']]; [constructor|by eapply m_posT0].
    + rewrite (sumZ_insert (fun t => sumZ (taken (kt_pc t))) _ _ _ _ Hi), (sumZ_insert left_count _ _ _ _ Hi). rewrite sumZ_app. unfold left_count at 2 3. cbn. lia.
    + rewrite (all_insert_add not_yet5 ts i _ _ Hi eq_refl). cbn. rewrite app_assoc. by apply Permutation_app_tail.
    + by rewrite (all_insert_same not_yet15 ts i _ _ Hi).
    + rewrite fold_left_app. cbn. by rewrite m_e2.
  - (* PM5 *) destruct M. cbn [kt_pc] in *. constructor; cbn; try done.
    + intros j u Hj. destruct (lookup_insert_cases ts i _ j u Hlt Hj) as [[-> ->]|[_ Hj']]; [constructor|by eapply m_posT0].
    + rewrite (sumZ_insert (fun t => sumZ (taken (kt_pc t))) _ _ _ _ Hi), (sumZ_insert left_count _ _ _ _ Hi).
      replace (left_count (KThread todo (PM15 n count k) pan)) with (left_count (KThread todo (PM5 n count k) pan)) by done. cbn [taken kt_pc]. change (sumZ []) with 0. fold (sumZ (cs_log1 s)). lia.
    + rewrite m_6, <- (all_insert_del not_yet5 ts i _ (KThread todo (PM15 n count k) pan) Hi eq_refl). cbn. solve_Permutation.
    + rewrite (all_insert_add not_yet15 ts i _ _ Hi eq_refl). cbn. rewrite app_assoc. by apply Permutation_app_tail.
    + rewrite fold_left_app. cbn. by rewrite m_e6.
  - (* PM15 *) destruct M. cbn [kt_pc] in *. constructor; cbn; try done.
    + intros j u Hj. destruct (lookup_insert_cases ts i _ j u Hlt Hj) as [[-> ->]|[_ Hj']]; [constructor|by eapply m_posT0].
    + rewrite (sumZ_insert (fun t => sumZ (taken (kt_pc t))) _ _ _ _ Hi), (sumZ_insert left_count _ _ _ _ Hi).
      replace (left_count (KThread todo (PLoop n k) pan)) with (left_count (KThread todo (PM15 n count k) pan)) by done. cbn [taken kt_pc]. change (sumZ []) with 0. fold (sumZ (cs_log1 s)). lia.
    + by rewrite (all_insert_same not_yet5 ts i _ _ Hi).
    + rewrite m_16, <- (all_insert_del not_yet15 ts i _ (KThread todo (PLoop n k) pan) Hi eq_refl). cbn. solve_Permutation.
    + rewrite fold_left_app. cbn. by rewrite m_e16.
  - (* PAdd *) unfold left_count in Hle. cbn in Hle.
    assert (wrap64 (mt_uncounted (cs_meter s) + 1) = mt_uncounted (cs_meter s) + 1) as Ew by (apply wrap64_id; unfold in64, two63; lia).
    eapply minv_local; [exact M|exact Hi|try done..]; unfold left_count; cbn; rewrite Ew; lia.
Qed.

Lemma minv_run start clock progs sched : let c := cp_crun I maxE maxA start clock progs sched in
  Z.of_nat (length (planned durations progs)) < 2 ^ 63 -> minv (Z.of_nat (length (planned durations progs))) (shared c) (threads c).
Proof.
  intros c Hn. unfold c, cp_crun.
  apply (crun_inv tstep cp_estep (fun c => minv (Z.of_nat (length (planned durations progs))) (shared c) (threads c))).
  - cbn [cp_cinit shared threads]. set (ts := (fun p => KThread p PIdle []) <$> progs).
    assert (forall A (f : kpc -> list A), f PIdle = [] -> all f ts = []) as Hall.
    { intros A f Hf. unfold all, ts. rewrite <- list_fmap_compose. clear -Hf. induction progs as [|p ps IH]; [done|]. cbn. by rewrite Hf. }
    constructor; cbn; try done.
    + intros i t Hi. unfold ts in Hi. apply list_lookup_fmap_Some in Hi as (p & -> & _) || (rewrite list_lookup_fmap in Hi; destruct (progs !! i); [injection Hi as <-|done]). constructor.
    + replace (sumZ ((fun t => sumZ (taken (kt_pc t))) <$> ts)) with 0.
      2: { rewrite <- (sum_join (fun t => taken (kt_pc t))). unfold ts. change (mjoin _) with (all taken ts). by rewrite Hall. }
      cbn. change (0 + 0 + 0) with 0. rewrite Z.add_0_l. unfold planned, ts. clear. induction progs as [|p ps IH]; [done|]. cbn [fmap list_fmap mjoin list_join]. rewrite sumZ_cons, app_length, Nat2Z.inj_add. f_equal. exact IH.
    + by rewrite Hall.
    + by rewrite Hall.
  - intros s ts i t s' t' M Hi Hs. by eapply minv_step.
  - intros s ts e M. destruct M. by constructor.
Qed.
End inv.
