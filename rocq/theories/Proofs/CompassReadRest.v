(** A compass read while it is updated: rates, LastUpdateTime, termination of reading calls. *)
From Verif.Go Require Import GoInt GoFloat GoConc GoCompose.
From Verif.Model Require Import Counter BucketQueue BucketCounter BucketCounterConc BucketReadConc BucketReservoir EWMA EWMAConc Compass CompassConc CompassFine CompassRead.
From Verif.Spec Require Import BucketSpec BucketConcSpec BucketReadSpec CompassConcSpec.
From Verif.Proofs Require Import BucketAbs BucketHist BucketMain BucketConcProofs BucketConcRing BucketConcMain BucketReadProofs BucketReadMain EWMAConcProofs ComposeProofs CompassConcProofs CompassFineProofs CompassFineParts CompassFineMain CompassLedger CompassReadProofs CompassReadInv CompassReadMain CompassReadCalls CompassMeter FastCompassFineRead.
From Verif.Spec Require Import CompassFineSpec CompassReadSpec.
Local Open Scope Z_scope.

Section rest.
Context (math_Exp : f64 -> f64) (rk : reservoir_kind) (I N maxE maxA : Z).
Context (e0 : cenv) (progs : list (list dcall)) (objs0 : gmap ckey cobj).
Context (HS : counter_setting I N) (H0 : cf_objs0 rk I N e0 = Some objs0).
Notation ge := (gestep cf_estep cobj_estep).
Notation run := (cr_run math_Exp rk I N maxE maxA).
Notation tstep := (cr_tstep math_Exp rk I N maxE maxA (ce_ms e0)).
Notation Isec := (interval_seconds I).
Notation at_ := (at_ math_Exp rk I N maxE maxA e0 progs objs0).
Notation heap_at := (heap_at math_Exp rk I N maxE maxA e0 progs objs0).
Notation added := (added math_Exp rk I N maxE maxA e0 progs objs0).
Notation counts := (counts math_Exp rk I N maxE maxA e0 progs objs0).
Notation cl := (cl math_Exp rk I N maxE maxA e0 progs objs0).


(** ** The moving averages *)
Definition ticks_of (k : ckey) (s : list (event cenv)) : list Z := match average_of (shared (at_ s)) k with Some a => es_ticked a | None => [] end.
Lemma ewma_ticked s t s' t' : ewma_tstep s t = Some (s', t') -> es_ticked s `prefix_of` es_ticked s'.
Proof.
  intros Hs. apply (f_equal (fmap (fun p => es_ticked (fst p)))) in Hs. cbn [fmap option_fmap option_map fst] in Hs. revert Hs. generalize (es_ticked s'). clear s' t'. intros l.
  unfold ewma_tstep. destruct (et_pc t).
  - destruct (et_todo t) as [|[]]; [discriminate|..]; intros Hs; injection Hs as <-; reflexivity.
  - intros Hs; injection Hs as <-; reflexivity.
  - destruct (_ =? _); intros Hs; injection Hs as <-; reflexivity.
  - destruct (es_locked s); [discriminate|]; intros Hs; injection Hs as <-; reflexivity.
  - intros Hs; injection Hs as <-; reflexivity.
  - intros Hs; injection Hs as <-. apply prefix_app_r. reflexivity.
  - intros Hs; injection Hs as <-; reflexivity.
Qed.
Lemma not_a_counter k : k ∈ [KOne; KFive; KFifteen] -> forall w p, k <> KCounter w p.
Proof. intros H w p ->. set_solver. Qed.
Lemma ticks_prefix1 k s ev : k ∈ [KOne; KFive; KFifteen] -> ticks_of k s `prefix_of` ticks_of k (s ++ [ev]).
Proof.
  intros Hk. unfold ticks_of. rewrite at_snoc. destruct (at_ s) as [sh ts]. destruct ev as [i|e]; cbn [cstep shared threads].
  - destruct (ts !! i) as [t|]; [|done]. destruct (tstep sh t) as [[s' t']|] eqn:Hs; [|done]. cbn [shared].
    destruct (cr_object _ _ _ _ _ _ k _ _ _ _ _ (not_a_counter k Hk) Hs) as [E|(o & ot & o' & ot' & E1 & E2 & E3)]; unfold average_of.
    + by rewrite E.
    + rewrite E1, E2. destruct o as [b|a|r|u]; cbn [cobj_step] in E3.
      * apply prefix_nil.
      * destruct (ewma_tstep a _) as [[a' t2]|] eqn:Ea; [|done]. injection E3 as <- <-. by eapply ewma_ticked.
      * apply prefix_nil.
      * apply prefix_nil.
  - unfold average_of, gestep. cbn [gs_objs]. rewrite lookup_fmap. destruct (gs_objs sh !! k) as [[b|a|r|u]|]; done.
Qed.
Lemma ticks_prefix k s s' : k ∈ [KOne; KFive; KFifteen] -> ticks_of k s `prefix_of` ticks_of k (s ++ s').
Proof.
  intros Hk. induction s' as [|ev s' IH] using rev_ind; [by rewrite app_nil_r|]. rewrite app_assoc. etransitivity; [exact IH|]. by apply ticks_prefix1.
Qed.

Lemma sum_sub (l1 l2 : list Z) : l1 ⊆+ l2 -> Forall (fun c => 0 <= c) l2 -> Forall (fun c => 0 <= c) l1 /\ sumZ l1 <= sumZ l2.
Proof.
  intros Hsub F. apply submseteq_Permutation in Hsub as [l E]. rewrite E in F. apply Forall_app in F as [F1 F2]. split; [done|]. rewrite (sumZ_perm _ _ E), sumZ_app.
  assert (0 <= sumZ l) by (clear -F2; induction F2 as [|x l H _ IH]; [done|]; rewrite sumZ_cons; lia). lia.
Qed.
Lemma durations_app l1 l2 : durations (l1 ++ l2) = durations l1 ++ durations l2.
Proof. unfold durations. by rewrite omap_app. Qed.
Lemma begun_durations (ts : list dthread) (ps : list (list dcall)) : Forall2 (fun p t => p = begun_calls p t ++ dt_todo t) ps ts ->
  length (planned durations (writes <$> ps)) = (length (durations (writes (mjoin (zip_with begun_calls ps ts)))) + length (mjoin ((fun t => durations (writes (dt_todo t))) <$> ts)))%nat.
Proof.
  induction 1 as [|p t ps ts E _ IH]; [done|]. unfold planned in *. cbn [zip_with]. rewrite !fmap_cons, !join_cons', app_length, IH, writes_app, durations_app, !app_length.
  assert (E2 : length (durations (writes p)) = (length (durations (writes (begun_calls p t))) + length (durations (writes (dt_todo t))))%nat).
  { rewrite E at 1. by rewrite writes_app, durations_app, app_length. }
  lia.
Qed.

Lemma rate_state k s : k ∈ [KOne; KFive; KFifteen] -> Z.of_nat (length (planned durations (writes <$> progs))) < 2 ^ 63 ->
  exists a, average_of (shared (at_ s)) k = Some a /\ ew_rate (es_ewma a) = zrate (ticks_of k s) /\
    Forall (fun c => 0 <= c) (ticks_of k s) /\ sumZ (ticks_of k s) <= Z.of_nat (length (durations (begun progs (at_ s)))).
Proof using HS H0.
  intros Hk Hn. pose proof (run_at math_Exp rk I N maxE maxA e0 progs objs0 H0 s) as Hc. pose proof (run_fine _ _ _ _ _ _ _ _ _ _ _ H0 Hc) as Hf.
  destruct (exists_run _ _ _ _ _ _ _ _ _ _ Hf) as [X _]. destruct (X k) as [o Ho]; [set_solver|]. cbn [without_reads shared] in Ho.
  destruct (average_run _ _ _ _ _ _ _ _ _ _ _ _ Hf Hk Ho) as (a & tr & -> & Hr). exists a.
  assert (Ea : average_of (shared (at_ s)) k = Some a) by (unfold average_of; by rewrite Ho). split; [done|]. unfold ticks_of. rewrite Ea.
  assert (HP : Forall (Forall (fun x => exists n, x = ETickN n)) ((fun t => tickns (calls k t)) <$> threads (without_reads (at_ s)))).
  { apply Forall_fmap, Forall_lookup. intros i t Hi. cbn. unfold tickns. apply Forall_forall. intros x Hx. apply elem_of_list_omap in Hx as (b & _ & Ha). destruct b; try done. injection Ha as <-. eauto. }
  pose proof (tickn_run f0 0 _ tr HP) as [T1 T2]. pose proof (ewma_conc_inv f0 0 ((fun t => tickns (calls k t)) <$> threads (without_reads (at_ s))) tr) as E. cbv zeta in *. rewrite Hr in T1, T2, E. cbn [shared threads] in T1, T2, E.
  assert (Hk' : is_tally k = false) by (clear -Hk; destruct k; try done; set_solver).
  assert (Hsub : es_ticked a ⊆+ logs rk (compass_of (without_reads (at_ s))) k).
  { unfold compass_of. rewrite <- (md_logs _ _ (made_run _ _ _ _ _ _ _ _ _ _ Hf) k Hk'). apply (sub_of (mjoin (tick_owed <$> ((λ t, ci_ew (at_in k t)) <$> threads (without_reads (at_ s)))))).
    rewrite T2. rewrite <- (join_received _ _ _ _ _ _ _ _ _ _ Hf (fun l => mjoin (tickn_arg <$> tickns l)) k).
    - clear. induction (threads (without_reads (at_ s))) as [|t ts IH]; [done|]. cbn [fmap list_fmap mjoin list_join]. rewrite fmap_app, join_app'. apply Permutation_app; [done|exact IH].
    - intros l Hl. rewrite tickns_args.
      + generalize (arg <$> l). clear. intros l. induction l as [|x l IH]; [done|]. cbn. f_equal. exact IH.
      + eapply Forall_impl; [exact Hl|]. intros b. destruct k; try (by destruct b; eauto); set_solver. }
  split.
  - change (ew_rate (es_ewma a)) with (ew_rate (set_uncounted (es_ewma a) 0)). rewrite (e_ew _ _ _ _ _ E). done.
  - destruct (cf_client _ _ _ _ _ _ _ _ _ _ Hf) as [sched' Hcl]. pose proof (minv_run I maxE maxA (ce_ms e0) (ce_tick e0) (writes <$> progs) sched' Hn) as M. rewrite <- Hcl in M. destruct M as [M1 M2 M3 M4 M5 M6 _ _ _].
    cbn [compass_alone shared threads without_reads] in M1, M2, M3, M4, M5, M6.
    assert (Hsub1 : es_ticked a ⊆+ cs_log1 (compass_of (without_reads (at_ s)))).
    { etransitivity; [exact Hsub|]. assert (H5 := sub_of _ _ _ M5). assert (H15 := sub_of _ _ _ M6). destruct k; try (clear -Hk; set_solver); cbn [logs]; first [reflexivity|exact H5|etransitivity; [exact H15|exact H5]]. }
    destruct (sum_sub _ _ Hsub1 M2) as [F1 F2]. split; [done|].
    pose proof (tinv_run math_Exp rk I N maxE maxA e0 progs HS _ _ Hc) as TI.
    rewrite (begun_durations (threads (at_ s)) progs) in M4 by (eapply Forall2_impl; [exact TI|]; intros p t [E1 _]; exact E1).
    change (shared (client (without_reads (at_ s)))) with (compass_of (without_reads (at_ s))) in M1, M4.
    set (ks := threads (client (without_reads (at_ s)))) in *.
    assert (P1 : 0 <= sumZ ((fun t : kthread => sumZ (CompassConcSpec.taken (kt_pc t))) <$> ks)).
    { clear -M3. induction ks as [|t ks IH]; [done|]. rewrite fmap_cons, sumZ_cons. specialize (IH (fun i => M3 (S i))). specialize (M3 0%nat t eq_refl).
      assert (0 <= sumZ (CompassConcSpec.taken (kt_pc t))) by (induction M3 as [|x l H _ IH2]; [done|]; rewrite sumZ_cons; lia). lia. }
    assert (P2 : Z.of_nat (length (mjoin ((fun t => durations (writes (dt_todo t))) <$> threads (at_ s)))) <= sumZ (left_count <$> ks)).
    { unfold ks. cbn [client without_reads threads]. rewrite !fmap_fmap. clear. induction (threads (at_ s)) as [|t ts IH]; [done|]. rewrite !fmap_cons, join_cons', sumZ_cons, app_length.
      assert (Z.of_nat (length (durations (writes (dt_todo t)))) <= left_count (gt_client (g_push (dt_g t) (writes (dt_todo t))))) by (unfold left_count; cbn [g_push gt_client kt_todo kt_pc]; rewrite durations_app, app_length; lia).
      lia. }
    unfold begun. lia.
Qed.

Lemma rate_answer s1 s2 i k a : k ∈ [KOne; KFive; KFifteen] -> Z.of_nat (length (planned durations (writes <$> progs))) < 2 ^ 63 -> reads (at_ s1) (at_ (s1 ++ s2)) i (RRate k) a ->
  exists s', s' `prefix_of` s2 /\ a = AFloat (ew_GetRate (fold_left ew_TickN (ticks_of k (s1 ++ s')) zeroEWMA) Second).
Proof using HS H0.
  intros Hk Hn Hr. apply (call_answer math_Exp rk I N maxE maxA e0 progs objs0 s1 s2 i (RRate k) a (fun _ pc => pc = DAt (RRate k)) (fun s a => exists s', s' `prefix_of` s /\ a = AFloat (ew_GetRate (fold_left ew_TickN (ticks_of k (s1 ++ s')) zeroEWMA) Second)) Hr); [intros; assumption || reflexivity..| |].
  - intros s ev b. apply prefix_mono.
  - intros s pc ->. cbn [read_step]. destruct (rate_state k (s1 ++ s) Hk Hn) as (b & -> & E & _). cbn [mbind option_bind]. exists s. split; [reflexivity|]. unfold ew_GetRate. rewrite E. reflexivity.
Qed.

(** What such a rate can be. *)
Lemma rate_values T : Forall (fun c => 0 <= c) T -> sumZ T < 2 ^ 63 ->
  let r := ew_GetRate (fold_left ew_TickN T zeroEWMA) Second in (T = [] -> r = f0) /\ (T <> [] -> ffinite r = false) /\ flt r f0 = false.
Proof.
  intros F HB. cbv zeta. change (ew_GetRate (fold_left ew_TickN T zeroEWMA) Second) with (fmul (zrate T) (f_of_int Second)). rewrite zrate_cons.
  - destruct T as [|x [|y l]]; (split; [|split]); try (intros; discriminate); try (intros H; by destruct (H eq_refl)); try destruct (decide (0 < x)); intros; vm_compute; reflexivity.
  - assert (X : forall l, Forall (fun c => 0 <= c) l -> sumZ l < two63 -> Forall (fun c => in64 c /\ 0 <= c) l).
    { clear. intros l F. induction F as [|c l Hc F IH]; intros HB; [constructor|].
      assert (0 <= sumZ l) by (clear -F; induction F as [|x l H _ IH]; [reflexivity|]; rewrite sumZ_cons; lia).
      rewrite sumZ_cons in HB. constructor; [|apply IH; lia]. split; [|exact Hc]. unfold in64, two63 in *. lia. }
    apply X; [exact F|]. unfold two63. lia.
Qed.

(** ** LastUpdateTime *)
Definition latest (k : ckey) (s : list (event cenv)) : Z :=
  match counter_of (shared (at_ s)) k with
  | Some b => match bc_heap (bs_bc b) !! bc_latestBucket (bs_bc b) with Some bk => bk_ts bk | None => -1 end
  | None => -1
  end.
Lemma objs0_init k b : main_counter rk k -> objs0 !! k = Some (OCounter b) -> bc_initTimestamp (bs_bc b) = ce_ms e0.
Proof using H0.
  intros Hk Ho. unfold cf_objs0, new_counter in H0. destruct (newBucketCounterImpl I N (ce_ms e0) true) as [c|] eqn:E; [|discriminate]. injection H0 as <-.
  assert (Ei : bc_initTimestamp c = ce_ms e0).
  { unfold newBucketCounterImpl in E. destruct (newBucketDequeue N) as [hd|]; [|discriminate]. cbn [mbind res_bind] in E. destruct (dq_peek hd.2); [|discriminate]. injection E as <-. reflexivity. }
  rewrite !lookup_insert_Some in Ho. destruct Ho as [[_ E1]|[_ [[_ E1]|[_ [[_ E1]|[_ [[_ E1]|[_ [[_ E1]|[_ [[_ E1]|[_ E1]]]]]]]]]]]]; try discriminate E1; try (injection E1 as <-; exact Ei).
  destruct rk; [discriminate E1| |discriminate E1]. injection E1 as <-. exact Ei.
Qed.
Lemma init_at k s : main_counter rk k -> forall b, counter_of (shared (at_ s)) k = Some b -> bc_initTimestamp (bs_bc b) = ce_ms e0.
Proof using H0.
  intros Hk. induction s as [|ev s IH] using rev_ind; intros b Hb.
  - apply (objs0_init k b Hk). unfold at_, counter_of, rstart in Hb. cbn [crun fold_left shared gs_objs] in Hb. destruct (objs0 !! k) as [[b'|?|?|?]|]; try discriminate. by injection Hb as ->.
  - rewrite at_snoc in Hb. destruct (at_ s) as [sh ts]. destruct ev as [i|e]; cbn [cstep shared threads] in *.
    + destruct (ts !! i) as [t|]; [|by apply IH]. destruct (tstep sh t) as [[s' t']|] eqn:Hs; [|by apply IH]. cbn [shared] in Hb.
      destruct (cr_object _ _ _ _ _ _ k _ _ _ _ _ ltac:(intros w q ->; exact Hk) Hs) as [E|(o & ot & o' & ot' & E1 & E2 & E3)].
      * apply IH. unfold counter_of in *. by rewrite E in Hb.
      * unfold counter_of in *. rewrite E2 in Hb. destruct o' as [b'|?|?|?]; try discriminate. injection Hb as ->. rewrite E1 in IH.
        destruct o as [b0|a|r|u]; cbn [cobj_step] in E3.
        -- destruct (bc_tstep b0 _) as [[b1 t1]|] eqn:Eb; [|discriminate]. injection E3 as <- <-. rewrite (bc_tstep_init _ _ _ _ Eb). by apply IH.
        -- destruct (ewma_tstep a _) as [[? ?]|]; discriminate.
        -- destruct (DecayingConc.dx_tstep math_Exp r _) as [[? ?]|]; discriminate.
        -- destruct (ReservoirConc.rx_tstep u _) as [[? ?]|]; discriminate.
    + unfold counter_of, gestep in *. cbn [gs_objs] in Hb. rewrite lookup_fmap in Hb. destruct (gs_objs sh !! k) as [[b'|?|?|?]|]; try discriminate. cbn in Hb. injection Hb as <-. exact (IH b' eq_refl).
Qed.

Lemma latest_state k s : main_counter rk k -> exists b, counter_of (shared (at_ s)) k = Some b /\
  bc_LastUpdateTime (bs_bc b) = Ok (if latest k s <=? 0 then ce_ms e0 else latest k s) /\
  (latest k s = -1 \/ exists now, now ∈ times (ce_ms e0) s /\ 1000 * latest k s = trunc_key Isec now) /\
  (forall p bk, heap_at k s !! p = Some bk -> bk_ts bk <= latest k s) /\
  (exists p bk, heap_at k s !! p = Some bk /\ bk_ts bk = latest k s).
Proof using HS H0.
  intros Hk. destruct (counter_state math_Exp rk I N maxE maxA e0 progs objs0 HS H0 k s Hk) as (b & t0 & Eb & Eh & _ & [B _] & T). cbn [view shared threads] in B.
  exists b. split; [done|]. pose proof (init_at k s Hk b Eb) as Ei. rewrite Eh. unfold latest. rewrite Eb. unfold bc_LastUpdateTime.
  pose proof (b_latest _ _ _ _ _ _ _ _ B) as El. pose proof (b_hlen _ _ _ _ _ _ _ _ B) as Hl. cbn [bs_bc] in El, Hl.
  assert (Hlt : (bc_latestBucket (bs_bc b) < length (bc_heap (bs_bc b)))%nat) by (rewrite El; destruct (decide _); lia).
  destruct (lookup_lt_is_Some_2 _ _ Hlt) as [bk Hbk]. rewrite Hbk. cbn [of_option mbind res_bind]. split; [by rewrite Ei|]. split; [|split; [|eauto]].
  - destruct (t_heap _ _ _ T _ _ Hbk) as [->|(v & Hv & ->)]; [by left|right]. exists v. rewrite key_trunc, <- ms_values_times. done.
  - intros p bk' Hp. pose proof (lookup_lt_Some _ _ _ Hp) as Hpl. destruct (decide (p = bc_latestBucket (bs_bc b))) as [->|Hne]; [rewrite Hbk in Hp; injection Hp as ->; lia|].
    rewrite El in Hne, Hbk. destruct (decide (length (bc_heap (bs_bc b)) = S (Z.to_nat N))) as [E|E].
    + rewrite (b_init _ _ _ _ _ _ _ _ B p bk') by (cbn; try lia; done). rewrite (b_init _ _ _ _ _ _ _ _ B 0%nat bk) by (cbn; try lia; done). lia.
    + pose proof (b_sorted _ _ _ _ _ _ _ _ B p (length (bc_heap (bs_bc b)) - 1)%nat bk' bk ltac:(lia) ltac:(lia) Hp Hbk). lia.
Qed.
Lemma latest_mono k s s' : main_counter rk k -> latest k s <= latest k (s ++ s').
Proof using HS H0.
  intros Hk. destruct (latest_state k s Hk) as (_ & _ & _ & _ & _ & p & bk & Hp & <-). destruct (latest_state k (s ++ s') Hk) as (_ & _ & _ & _ & Hm & _).
  destruct (heap_grows math_Exp rk I N maxE maxA e0 progs objs0 HS H0 k s s' p bk Hk Hp) as (b' & Hb' & <-). by eapply Hm.
Qed.
Lemma latest_added k s x n : main_counter rk k -> (x, n) ∈ added k s -> x <= 1000 * latest k s.
Proof using HS H0.
  intros Hk Hx. destruct (counter_state math_Exp rk I N maxE maxA e0 progs objs0 HS H0 k s Hk) as (b & t0 & _ & Eh & _ & [B _] & _). unfold CompassReadMain.added, by_bucket in Hx. apply elem_of_list_fmap in Hx as ([p n'] & E & Hp). injection E as -> ->. cbn [fst].
  assert (Hlt : (p < length (heap_at k s))%nat).
  { rewrite Eh. apply (b_crptr _ _ _ _ _ _ _ _ B). apply elem_of_list_fmap. by exists (p, n'). }
  destruct (lookup_lt_is_Some_2 _ _ Hlt) as [b' Hb]. rewrite (key_of_lookup _ _ _ Hb). destruct (latest_state k s Hk) as (_ & _ & _ & _ & Hm & _). specialize (Hm p b' Hb). unfold key. lia.
Qed.
Lemma last_answer s1 s2 i k a : main_counter rk k -> reads (at_ s1) (at_ (s1 ++ s2)) i (RLast k) a ->
  exists s', s' `prefix_of` s2 /\ a = AInt (if latest k (s1 ++ s') <=? 0 then ce_ms e0 else latest k (s1 ++ s')).
Proof using HS H0.
  intros Hk Hr. apply (call_answer math_Exp rk I N maxE maxA e0 progs objs0 s1 s2 i (RLast k) a (fun _ pc => pc = DAt (RLast k)) (fun s a => exists s', s' `prefix_of` s /\ a = AInt (if latest k (s1 ++ s') <=? 0 then ce_ms e0 else latest k (s1 ++ s'))) Hr); [done..| |].
  - intros s ev b. apply prefix_mono.
  - intros s pc ->. cbn [read_step]. destruct (latest_state k (s1 ++ s) Hk) as (b & -> & E & _). cbn [mbind option_bind]. rewrite E. exists s. split; [done|done].
Qed.

(** ** Every reading call returns. *)
Notation Nn := (Z.to_nat N).
Definition rnk (pc : dpc) : nat :=
  match pc with
  | DAt (RCount _) | DAt (RLast _) | DAt (RRate _) | DMean _ => 1
  | DAt RMean => 2
  | DAt (RSince _ _) => 3 * Nn + 9
  | DAt (RSnapshot _ _) => 6 * Nn + 17
  | DSince _ t | DTotal _ _ _ t => rd_rank Nn t
  | DValue _ _ _ t => rd_rank Nn t + (3 * Nn + 8)
  end.
Definition reading_pc (s1 : list (event cenv)) (call : rcall) (s : list (event cenv)) (pc : dpc) : Prop :=
  pc = DAt call \/
  match call, pc with
  | RMean, DMean _ => True
  | RSince k st, DSince k' t => k' = k /\ since_fine math_Exp rk I N maxE maxA e0 progs objs0 s1 k st s t
  | RSnapshot _ _, DValue st _ _ t => since_fine math_Exp rk I N maxE maxA e0 progs objs0 s1 KValues st s t
  | RSnapshot _ _, DTotal st _ _ t => since_fine math_Exp rk I N maxE maxA e0 progs objs0 s1 KTotal st s t
  | _, _ => False
  end.
Lemma fine_rank s1 k st s t : since_fine math_Exp rk I N maxE maxA e0 progs objs0 s1 k st s t -> (0 < rd_rank Nn t)%nat.
Proof. intros (pc & -> & _ & Hp). destruct pc; cbn in *; [done|lia..]. Qed.
Lemma fine_not_idle s1 k st s m : ~ since_fine math_Exp rk I N maxE maxA e0 progs objs0 s1 k st s (RdThread [] RIdle [m]).
Proof. by intros (pc & E & _). Qed.
Lemma since_rank st : rd_rank Nn (since st) = (3 * Nn + 8)%nat.
Proof. unfold rd_rank, since. cbn [rd_todo rd_pc length rd_rank_pc]. lia. Qed.

Lemma average_there k s : k ∈ [KOne; KFive; KFifteen] -> exists a, average_of (shared (at_ s)) k = Some a.
Proof using HS H0.
  intros Hk. pose proof (run_at math_Exp rk I N maxE maxA e0 progs objs0 H0 s) as Hc. pose proof (run_fine _ _ _ _ _ _ _ _ _ _ _ H0 Hc) as Hf.
  destruct (exists_run _ _ _ _ _ _ _ _ _ _ Hf) as [X _]. destruct (X k) as [o Ho]; [set_solver|]. cbn [without_reads shared] in Ho.
  destruct (average_run _ _ _ _ _ _ _ _ _ _ _ _ Hf Hk Ho) as (a & tr & -> & Hr). exists a. unfold average_of. by rewrite Ho.
Qed.
Lemma reading_steps s1 call s pc : reading_call rk call -> reading_pc s1 call s pc -> match read_step I (ce_ms e0) (shared (at_ (s1 ++ s))) pc with
      | Some (inl pc') => reading_pc s1 call s pc' /\ (rnk pc' < rnk pc)%nat | Some (inr a) => True | None => False end.
Proof using HS H0.
  intros Hcall HP. assert (HN : 0 <= N) by (by destruct HS as (_ & _ & ?)).
    assert (Hsince : forall k st t, main_counter rk k -> since_fine math_Exp rk I N maxE maxA e0 progs objs0 s1 k st s t ->
       exists b t', counter_of (shared (at_ (s1 ++ s))) k = Some b /\ rd_step b t = Some t' /\ (rd_rank Nn t' < rd_rank Nn t)%nat /\
         ((exists m, t' = RdThread [] RIdle [m]) \/ (since_fine math_Exp rk I N maxE maxA e0 progs objs0 s1 k st s t' /\ forall m, t' <> RdThread [] RIdle [m]))).
    { intros k st t Hk F. destruct (since_step math_Exp rk I N maxE maxA e0 progs objs0 HS H0 s1 k st Hk s t F) as (b & t' & E1 & E2 & E3 & [F2|(m & cts & E & _)]); exists b, t'; (split; [done|]); (split; [done|]); (split; [done|]).
      - right. split; [done|]. intros m ->. by apply fine_not_idle in F2.
      - left. by exists m. }
    destruct HP as [->|HP].
    - destruct call as [k|k st|k| |k|p q]; cbn [reading_call] in Hcall; cbn [read_step].
      + destruct (count_value math_Exp rk I N maxE maxA e0 progs objs0 HS H0 k (s1 ++ s) Hcall) as (b & -> & _). done.
      + split; [right; split; [done|apply since_start]|]. cbn [rnk]. rewrite since_rank. lia.
      + destruct (latest_state k (s1 ++ s) Hcall) as (b & -> & E & _). cbn [mbind option_bind]. rewrite E. done.
      + destruct (count_value math_Exp rk I N maxE maxA e0 progs objs0 HS H0 KTotal (s1 ++ s) Logic.I) as (b & -> & _). cbn [mbind option_bind]. split; [by right|cbn; lia].
      + destruct (average_there k (s1 ++ s) Hcall) as (b & ->). cbn [mbind option_bind]. exact Logic.I.
      + destruct (count_value math_Exp rk I N maxE maxA e0 progs objs0 HS H0 KValues (s1 ++ s)) as (b & -> & _); [by rewrite Hcall|]. cbn [mbind option_bind].
        pose proof HS as (HS1 & HS2 & _). pose proof (interval_seconds_pos _ HS1 HS2) as HI.
        unfold br_alignToBucketStartTimeInMs, go_div. cbn [secondToMsRate Z.eqb mbind res_bind br_interval]. assert (E0 : (Isec =? 0) = false) by lia. rewrite E0. cbn [mbind res_bind].
        split; [right; apply since_start|]. cbn [rnk]. rewrite since_rank. lia.
    - destruct call as [k|k st|k| |k|p q]; destruct pc as [c0|k' t|n|st' i' j' t|st' v j' t]; try (exfalso; exact HP); cbn [reading_call] in Hcall; cbn [read_step].
      + destruct HP as [-> F]. destruct (Hsince k st t Hcall F) as (b & t' & -> & Hs & Hr & [[m ->]|[F2 Hni]]); cbn [mbind option_bind]; rewrite Hs; [done|].
        destruct t' as [td pc' gt]. assert (E : exists x, match RdThread td pc' gt with RdThread [] RIdle [m] => Some (inr (ACounts m)) | t'0 => Some (inl (DSince k t'0)) end = x) by eauto.
        destruct td, pc', gt as [|m [|m2 gt]]; try (split; [right; split; [done|exact F2]|exact Hr]). by destruct (Hni m).
      + done.
      + assert (HkV : main_counter rk KValues) by (by rewrite Hcall). destruct (Hsince KValues st' t HkV HP) as (b & t' & -> & Hs & Hr & [[m ->]|[F2 Hni]]); cbn [mbind option_bind]; rewrite Hs.
        * split; [right; apply since_start|]. cbn [rnk]. rewrite since_rank. pose proof (fine_rank _ _ _ _ _ HP). lia.
        * assert (Hr' : (rnk (DValue st' i' j' t') < rnk (DValue st' i' j' t))%nat) by (cbn [rnk]; lia).
          destruct t' as [td pc' gt]. destruct td, pc', gt as [|m [|m2 gt]]; try (split; [right; exact F2|exact Hr']). by destruct (Hni m).
      + destruct (Hsince KTotal st' t Logic.I HP) as (b & t' & -> & Hs & Hr & [[m ->]|[F2 Hni]]); cbn [mbind option_bind]; rewrite Hs; [done|].
        destruct t' as [td pc' gt]. destruct td, pc', gt as [|m [|m2 gt]]; try (split; [right; exact F2|exact Hr]). by destruct (Hni m).
Qed.
Lemma reading_mono s1 call s ev pc : reading_call rk call -> reading_pc s1 call s pc -> reading_pc s1 call (s ++ [ev]) pc.
Proof using HS H0.
  intros Hcall [->|HP]; [by left|right]. destruct call as [k|k st|k| |k|p q]; destruct pc as [c0|k' t|n|st' i' j' t|st' v j' t]; try (exfalso; exact HP); cbn [reading_call] in Hcall.
  - destruct HP as [-> F]. split; [done|]. by apply since_mono.
  - done.
  - apply since_mono; [done..|by rewrite Hcall|done].
  - by apply since_mono.
Qed.
Lemma read_returns s1 s2 i call t1 todo : reading_call rk call ->
  threads (at_ s1) !! i = Some t1 -> idle_thread t1 = true -> dt_todo t1 = DRead call :: todo ->
  cs_crashed (gs_client (shared (at_ (s1 ++ s2)))) = false -> cost N call <= Z.of_nat (turns i s2) -> exists a, reads (at_ s1) (at_ (s1 ++ s2)) i call a.
Proof using HS H0.
  intros Hcall Hi Hidle Htodo Hnc Hcost.
  assert (HN : 0 <= N) by (by destruct HS as (_ & _ & ?)).
  pose proof (fun s pc => reading_steps s1 call s pc Hcall) as Hstep.
  destruct (call_returns math_Exp rk I N maxE maxA e0 progs objs0 s1 i call t1 todo Hi Hidle Htodo (reading_pc s1 call) (fun _ _ => True)) with (R := rnk) (s := s2) as (t & a & more & Ht & Hg).
  - intros s. by left.
  - intros s ev pc. by apply reading_mono.
  - intros s pc HP. specialize (Hstep s pc HP). destruct (read_step _ _ _ _) as [[pc'|a]|]; [by destruct Hstep|done|done].
  - intros s pc [->|HP].
    + destruct call; cbn [rnk]; lia.
    + destruct call as [k|k st|k| |k|p q]; destruct pc as [c0|k' t|n|st' i' j' t|st' v j' t]; try (exfalso; exact HP); cbn [rnk].
      * destruct HP as [-> F]. by eapply fine_rank.
      * lia.
      * pose proof (fine_rank _ _ _ _ _ HP). lia.
      * by eapply fine_rank.
  - intros s pc HP. specialize (Hstep s pc HP). destruct (read_step _ _ _ _) as [[pc'|a]|]; [by destruct Hstep|done|done].
  - exact Hnc.
  - destruct call; cbn [cost rnk] in *; lia.
  - exists a, t1, t, todo, more. done.
Qed.
End rest.
