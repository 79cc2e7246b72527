(** The maps of error codes and addons under concurrent calls. *)
From Verif.Go Require Import GoInt GoFloat GoConc.
From Verif.Model Require Import EWMA Compass CompassConc.
From Verif.Spec Require Import BucketSpec CompassConcSpec.
From Verif.Proofs Require Import BucketHist BucketMain EWMAConcProofs CompassConcProofs.
Local Open Scope Z_scope.

Section inv.
Context (I maxE maxA : Z) (W : which).
Notation tstep := (cp_tstep I maxE maxA).
Notation mx := (max_of maxE maxA W).

(** The UpdateWithError calls a goroutine knows of. *)
Definition known (t : kthread) : list result :=
  unjudged_yet (kt_pc t) ++ match kt_pc t with
    PKey _ r | PLock _ r | PFind _ r | PAssign _ r | PAssigning _ r | PUnlock _ _ r | PCount _ _ r => [r] | _ => [] end ++ results (kt_todo t) ++ (kt_panics t).*2.

Definition absent (m : gmap string nat) (r : result) : Prop := m !! key_of W r = None /\ mx <= Z.of_nat (size m) /\ key_of W r <> ""%string.

(** What is known at each place. *)
Definition pc_ok (m : gmap string nat) (pc : kpc) : Prop :=
  match pc with
  | PLock w' r | PFind w' r => w' = W -> key_of W r <> ""%string
  | PAssign w' r | PAssigning w' r => w' = W -> m !! key_of W r = None /\ Z.of_nat (size m) < mx /\ key_of W r <> ""%string
  | PUnlock w' (Some p) r | PCount w' (Some p) r => w' = W -> m !! key_of W r = Some p
  | PUnlock w' None r | PCount w' None r => w' = W -> absent m r
  | _ => True
  end.
Definition t_ok (m : gmap string nat) (t : kthread) : Prop :=
  pc_ok m (kt_pc t) /\ Forall (fun x => x.1 = W -> absent m x.2) (kt_panics t).

Record tinv (rs : list result) (tb : table) (ts : list kthread) : Prop := {
  t_lock : tb_locked tb = false -> forall i t, ts !! i = Some t -> inside W (kt_pc t) = false;
  t_holder : tb_locked tb = true -> exists i t, ts !! i = Some t /\ inside W (kt_pc t) = true;
  t_excl : forall i j ti tj, ts !! i = Some ti -> ts !! j = Some tj -> inside W (kt_pc ti) = true -> inside W (kt_pc tj) = true -> i = j;
  t_heap : forall k p, tb_map tb !! k = Some p -> (p < length (tb_heap tb))%nat;
  t_inj : forall k1 k2 p, tb_map tb !! k1 = Some p -> tb_map tb !! k2 = Some p -> k1 = k2;
  t_size : Z.of_nat (size (tb_map tb)) <= Z.max 0 mx;
  t_ptr : forall i t, ts !! i = Some t -> t_ok (tb_map tb) t;
  t_known : forall i t r, ts !! i = Some t -> r ∈ known t -> r ∈ rs;
  t_dom : dom (tb_map tb) ⊆ passed W rs;
  t_write : tb_writing tb = true -> exists i t r, ts !! i = Some t /\ kt_pc t = PAssigning W r
}.

(** A step that does not touch the table nor the critical section. *)
Lemma tinv_local rs tb tb' ts i t t' : tinv rs tb ts -> ts !! i = Some t ->
  tb_map tb' = tb_map tb -> tb_locked tb' = tb_locked tb -> tb_writing tb' = tb_writing tb -> length (tb_heap tb') = length (tb_heap tb) ->
  inside W (kt_pc t') = inside W (kt_pc t) -> t_ok (tb_map tb) t' -> (forall r, r ∈ known t' -> r ∈ known t) ->
  (forall r, kt_pc t = PAssigning W r -> kt_pc t' = PAssigning W r) ->
  tinv rs tb' (<[i := t']> ts).
Proof.
  intros T Hi Em El Ew Eh Hin Hok Hk Ha. assert (Hlt : (i < length ts)%nat) by (by apply lookup_lt_Some in Hi).
  pose proof (fun j u => lookup_insert_cases ts i t' j u Hlt) as HL. destruct T.
  constructor; rewrite ?Em, ?El, ?Ew, ?Eh; try done.
  - intros Hl j u Hj. destruct (HL j u Hj) as [[-> ->]|[_ Hj']]; [rewrite Hin|]; by eapply t_lock0.
  - intros Hl. destruct (t_holder0 Hl) as (j & u & Hj & Hu). destruct (decide (i = j)) as [<-|Hne].
    + exists i, t'. rewrite list_lookup_insert by done. split; [done|]. congruence.
    + exists j, u. by rewrite list_lookup_insert_ne by done.
  - intros j k tj tk Hj Hk' Hhj Hhk.
    destruct (HL j tj Hj) as [[-> ->]|[Hnj Hj']], (HL k tk Hk') as [[-> ->]|[Hnk Hk'']]; try done.
    + rewrite Hin in Hhj. by eapply t_excl0.
    + rewrite Hin in Hhk. by eapply t_excl0.
    + by eapply t_excl0.
  - intros j u Hj. destruct (HL j u Hj) as [[-> ->]|[_ Hj']]; [done|by eapply t_ptr0].
  - intros j u r Hj Hr. destruct (HL j u Hj) as [[-> ->]|[_ Hj']]; [|by eapply t_known0]. eapply t_known0; [done|by apply Hk].
  - intros Hw. destruct (t_write0 Hw) as (j & u & r & Hj & Hu). destruct (decide (i = j)) as [<-|Hne].
    + exists i, t', r. rewrite list_lookup_insert by done. split; [done|]. apply Ha. congruence.
    + exists j, u, r. by rewrite list_lookup_insert_ne by done.
Qed.

Lemma tb_set_eq s tb : tb_of W (set_table s W tb) = tb.
Proof. by destruct W. Qed.
Lemma tb_set_ne s w tb : w <> W -> tb_of W (set_table s w tb) = tb_of W s.
Proof. by destruct W, w. Qed.
Lemma tb_meter s m : tb_of W (set_meter s m) = tb_of W s.
Proof. by destruct W. Qed.
Lemma tb_logs s a b c : tb_of W (set_logs s a b c) = tb_of W s.
Proof. by destruct W. Qed.
Lemma tb_counts s a b : tb_of W (set_counts s a b) = tb_of W s.
Proof. by destruct W. Qed.
Lemma tb_durations s a : tb_of W (set_durations s a) = tb_of W s.
Proof. by destruct W. Qed.
Lemma tb_abort s : tb_of W (abort s) = tb_of W s.
Proof. by destruct W. Qed.

Lemma absent_grow m k p r : Z.of_nat (size m) < mx -> absent m r -> absent (<[k := p]> m) r.
Proof. unfold absent. lia. Qed.

Lemma tinv_step rs s ts i t s' t' : tinv rs (tb_of W s) ts -> ts !! i = Some t -> tstep s t = Some (s', t') -> tinv rs (tb_of W s') (<[i := t']> ts).
Proof.
  intros T Hi Hs. assert (Hlt : (i < length ts)%nat) by (by apply lookup_lt_Some in Hi).
  pose proof (t_ptr _ _ _ T i t Hi) as [Hpc Hpan].
  pose proof (t_known _ _ _ T i t) as Hkn. specialize (fun r => Hkn r Hi).
  steps s t Hs.
  all: cbn [kt_pc kt_panics] in Hpc, Hpan.
  all: rewrite ?tb_meter, ?tb_logs, ?tb_counts, ?tb_durations, ?tb_abort.
  all: try (eapply tinv_local; [exact T|exact Hi|done..| | | |]; [try done; try (by destruct k as [[dd rr]|]); try (by destruct w); try (by destruct r)|split; [|exact Hpan]; try done; try (by destruct k as [[dd rr]|]); try (by destruct w); try (by destruct r)
       |intros rr Hr; cbn in Hr |- *; try (destruct k as [[dd [xx|]]|]); try (destruct r as [xx|]); cbn in Hr; progs_rw; set_solver|done]).
  - (* PSuccess *) assert (tb_of W (if rs_success r then set_counts s (cs_total s) (cs_success s + 1) else s) = tb_of W s) as -> by (destruct (rs_success r); [apply tb_counts|done]).
    eapply tinv_local; [exact T|exact Hi|done..|intros rr Hr; cbn in Hr |- *; set_solver|done].
  - (* PKey *) cbn. intros ->. apply Z.ltb_lt in Heqb. intros Hx. by rewrite Hx in Heqb.
  - (* PKey *) eapply tinv_local; [exact T|exact Hi|done..|by destruct w|split; [by destruct w|exact Hpan]| |by destruct w].
    intros rr Hr. destruct w; cbn in Hr |- *; set_solver.
  - (* PLock *) destruct (decide (w = W)) as [->|Hne].
    2: { rewrite tb_set_ne by done. eapply tinv_local; [exact T|exact Hi|done..| | | |done]; [|split; [done|exact Hpan]|intros rr Hr; cbn in Hr |- *; set_solver].
         cbn. by rewrite bool_decide_eq_false_2. }
    rewrite tb_set_eq. pose proof (t_lock _ _ _ T Hlk) as Hno.
    pose proof (fun j u => lookup_insert_cases ts i (KThread todo (PFind W r) pan) j u Hlt) as HL. destruct T. constructor; cbn [tb_map tb_heap tb_locked tb_writing]; try done.
    + intros _. eexists i, _. rewrite list_lookup_insert by done. split; [done|]. cbn. by rewrite bool_decide_eq_true_2.
    + intros j k tj tk Hj Hk Hhj Hhk. destruct (HL j tj Hj) as [[-> ->]|[Hnj Hj']], (HL k tk Hk) as [[-> ->]|[Hnk Hk']]; try done.
      * by rewrite (Hno _ _ Hk') in Hhk.
      * by rewrite (Hno _ _ Hj') in Hhj.
      * by rewrite (Hno _ _ Hj') in Hhj.
    + intros j u Hj. destruct (HL j u Hj) as [[-> ->]|[_ Hj']]; [split; [exact Hpc|exact Hpan]|by eapply t_ptr0].
    + intros j u rr Hj Hr. destruct (HL j u Hj) as [[-> ->]|[_ Hj']]; [|by eapply t_known0]. apply Hkn. cbn in Hr |- *. set_solver.
    + intros Hw. destruct (t_write0 Hw) as (j & u & rr & Hj & Hu). pose proof (Hno j u Hj) as Hx. rewrite Hu in Hx. cbn in Hx. by rewrite bool_decide_eq_true_2 in Hx.
  - cbn. intros ->. done.
  - cbn. intros ->. apply Z.ltb_lt in Hsz. by apply Hpc in Hi || (split; [done|]; split; [done|]; by apply Hpc).
  - cbn. intros ->. apply Z.ltb_ge in Hsz. split; [done|]. split; [done|]. by apply Hpc.
  - (* PAssign *) destruct (decide (w = W)) as [->|Hne].
    2: { rewrite tb_set_ne by done. eapply tinv_local; [exact T|exact Hi|done..| | | |done]; [by cbn; rewrite !bool_decide_eq_false_2|split; [by intros ->|exact Hpan]|intros rr Hr; cbn in Hr |- *; set_solver]. }
    rewrite tb_set_eq. pose proof (fun j u => lookup_insert_cases ts i (KThread todo (PAssigning W r) pan) j u Hlt) as HL.
    pose proof (tinv_local rs (tb_of W s) (tb_of W s) ts i _ (KThread todo (PAssigning W r) pan) T Hi eq_refl eq_refl eq_refl eq_refl) as T'.
    destruct T' as [A1 A2 A3 A4 A5 A6 A7 A8 A9 A10]; [done|split; [exact Hpc|exact Hpan]|intros rr Hr; cbn in Hr |- *; set_solver|done|].
    constructor; cbn [tb_map tb_heap tb_locked tb_writing]; try done.
    intros _. eexists i, _, r. by rewrite list_lookup_insert.
  - (* PAssigning *) destruct (decide (w = W)) as [->|Hne].
    2: { rewrite tb_set_ne by done. eapply tinv_local; [exact T|exact Hi|done..| | | |]; [by cbn; rewrite !bool_decide_eq_false_2|split; [by intros ->|exact Hpan]|intros rr Hr; cbn in Hr |- *; set_solver|].
         intros rr E. injection E as -> _. done. }
    rewrite tb_set_eq. destruct (Hpc eq_refl) as (P1 & P2 & P3). set (tb := tb_of W s) in *. set (p := length (tb_heap tb)).
    pose proof (fun j u => lookup_insert_cases ts i (KThread todo (PUnlock W (Some p) r) pan) j u Hlt) as HL.
    assert (Hin : inside W (PAssigning W r) = true) by (cbn; by rewrite bool_decide_eq_true_2).
    assert (Honly : forall j u, ts !! j = Some u -> j <> i -> inside W (kt_pc u) = false).
    { intros j u Hj Hn. destruct (inside W (kt_pc u)) eqn:E; [|done]. destruct Hn. by eapply (t_excl _ _ _ T); [exact Hj|exact Hi|exact E|]. }
    assert (Hlk : tb_locked tb = true). { destruct (tb_locked tb) eqn:E; [done|]. pose proof (t_lock _ _ _ T E i _ Hi) as Hx. cbn [kt_pc] in Hx. congruence. }
    destruct T. constructor; cbn [tb_map tb_heap tb_locked tb_writing]; try done.
    + congruence.
    + intros _. eexists i, _. rewrite list_lookup_insert by done. split; [done|]. cbn. by rewrite bool_decide_eq_true_2.
    + intros j k tj tk Hj Hk Hhj Hhk. destruct (HL j tj Hj) as [[-> ->]|[Hnj Hj']], (HL k tk Hk) as [[-> ->]|[Hnk Hk']]; try done.
      * by rewrite (Honly _ _ Hk' Hnk) in Hhk.
      * by rewrite (Honly _ _ Hj' Hnj) in Hhj.
      * by rewrite (Honly _ _ Hj' Hnj) in Hhj.
    + intros k q Hq. rewrite app_length. cbn. apply lookup_insert_Some in Hq as [[_ <-]|[_ Hq]]; [unfold p; lia|]. pose proof (t_heap0 k q Hq). lia.
    + intros k1 k2 q H1 H2. apply lookup_insert_Some in H1 as [[<- <-]|[_ H1]], H2 as [[<- E2]|[_ H2]]; try done.
      * pose proof (t_heap0 _ _ H2). unfold p in *. lia.
      * subst q. pose proof (t_heap0 _ _ H1). unfold p in *. lia.
      * by eapply t_inj0.
    + rewrite map_size_insert_None by done. lia.
    + intros j u Hj. destruct (HL j u Hj) as [[-> ->]|[Hn Hj']].
      * split; cbn; [intros _; by rewrite lookup_insert|]. eapply Forall_impl; [exact Hpan|]. cbn. intros x Hx E. specialize (Hx E). unfold absent in Hx. lia.
      * pose proof (Honly j u Hj' Hn) as Ho. destruct (t_ptr0 j u Hj') as [Q1 Q2]. split.
        -- destruct (kt_pc u) as [| | | | | | | | | | | | | | | |w' r'|w' r'|w' [q|] r'|w' [q|] r'|]; try exact Q1; cbn in Q1, Ho |- *; intros ->; try (by rewrite bool_decide_eq_true_2 in Ho).
           all: specialize (Q1 eq_refl); try (unfold absent in Q1; lia). all: destruct (decide (key_of W r = key_of W r')) as [E|E]; [rewrite E in P1; congruence|by rewrite lookup_insert_ne].
        -- eapply Forall_impl; [exact Q2|]. cbn. intros x Hx E. specialize (Hx E). unfold absent in Hx. lia.
    + intros j u rr Hj Hr. destruct (HL j u Hj) as [[-> ->]|[_ Hj']]; [|by eapply t_known0]. apply Hkn. cbn in Hr |- *. set_solver.
    + rewrite dom_insert. apply union_least; [|done]. apply singleton_subseteq_l. unfold passed. apply elem_of_list_to_set, elem_of_list_filter. split; [done|].
      apply elem_of_list_fmap. exists r. split; [done|]. apply Hkn. cbn. set_solver.
  - (* PUnlock *) destruct (decide (w = W)) as [->|Hne].
    2: { rewrite tb_set_ne by done. eapply tinv_local; [exact T|exact Hi|done..| | | |done]; [by cbn; rewrite bool_decide_eq_false_2|split; [destruct p; by intros ->|exact Hpan]|intros rr Hr; cbn in Hr |- *; set_solver]. }
    rewrite tb_set_eq. pose proof (fun j u => lookup_insert_cases ts i (KThread todo (PCount W p r) pan) j u Hlt) as HL.
    assert (Hin : inside W (PUnlock W p r) = true) by (cbn; by rewrite bool_decide_eq_true_2).
    assert (Honly : forall j u, ts !! j = Some u -> j <> i -> inside W (kt_pc u) = false).
    { intros j u Hj Hn. destruct (inside W (kt_pc u)) eqn:E; [|done]. destruct Hn. by eapply (t_excl _ _ _ T); [exact Hj|exact Hi|exact E|]. }
    assert (Hwr : tb_writing (tb_of W s) = false).
    { destruct (tb_writing _) eqn:E; [|done]. destruct (t_write _ _ _ T E) as (j & u & rr & Hj & Hu).
      destruct (decide (j = i)) as [->|Hn]; [rewrite Hi in Hj; by injection Hj as <-|]. pose proof (Honly j u Hj Hn) as Hx. rewrite Hu in Hx. cbn in Hx. by rewrite bool_decide_eq_true_2 in Hx. }
    destruct T. constructor; cbn [tb_map tb_heap tb_locked tb_writing]; try done.
    + intros _ j u Hj. destruct (HL j u Hj) as [[-> ->]|[Hn Hj']]; [done|by eapply Honly].
    + intros j k tj tk Hj Hk Hhj Hhk. destruct (HL j tj Hj) as [[-> ->]|[Hnj Hj']], (HL k tk Hk) as [[-> ->]|[Hnk Hk']]; try done.
      by rewrite (Honly _ _ Hj' Hnj) in Hhj.
    + intros j u Hj. destruct (HL j u Hj) as [[-> ->]|[_ Hj']]; [split; [by destruct p|exact Hpan]|by eapply t_ptr0].
    + intros j u rr Hj Hr. destruct (HL j u Hj) as [[-> ->]|[_ Hj']]; [|by eapply t_known0]. apply Hkn. cbn in Hr |- *. set_solver.
    + congruence.
  - (* PCount *) assert (Hk : forall rr, rr ∈ known (KThread todo (after_key w r) pan) -> rr ∈ known (KThread todo (PCount w (Some p) r) pan)).
    { intros rr Hr. destruct w; cbn in Hr |- *; set_solver. }
    assert (Hq : t_ok (tb_map (tb_of W s)) (KThread todo (after_key w r) pan)) by (split; [by destruct w|exact Hpan]).
    destruct (decide (w = W)) as [->|Hne].
    + rewrite tb_set_eq. eapply tinv_local; [exact T|exact Hi|done..| | |exact Hq|exact Hk|by destruct W]; [cbn; apply alter_length|by destruct W].
    + rewrite tb_set_ne by done. eapply tinv_local; [exact T|exact Hi|done..| |exact Hq|exact Hk|done]. by destruct w.
  - (* PCount nil *) eapply tinv_local; [exact T|exact Hi|done..| | |done].
    + split; [done|]. cbn. apply Forall_app. split; [exact Hpan|]. constructor; [|constructor]. cbn. intros ->. by apply Hpc.
    + intros rr Hr. cbn in Hr |- *. rewrite fmap_app in Hr. cbn in Hr. set_solver.
Qed.
Lemma tinv_run start clock progs sched : let c := cp_crun I maxE maxA start clock progs sched in
  tinv (planned results progs) (tb_of W (shared c)) (threads c).
Proof.
  unfold cp_crun. apply (crun_inv tstep cp_estep (fun c => tinv (planned results progs) (tb_of W (shared c)) (threads c))).
  - cbn [cp_cinit shared threads]. set (ts := (fun p => KThread p PIdle []) <$> progs).
    assert (Ht : forall i t, ts !! i = Some t -> exists p, progs !! i = Some p /\ t = KThread p PIdle []).
    { intros i t Hi. subst ts. rewrite list_lookup_fmap in Hi. destruct (progs !! i); [|done]. injection Hi as <-. eauto. }
    replace (tb_of W _) with tb_empty by (by destruct W).
    constructor; cbn [tb_empty tb_map tb_heap tb_locked tb_writing]; try done.
    + intros _ i t Hi. by destruct (Ht i t Hi) as (p & _ & ->).
    + intros i j ti tj Hi _ Hx. by destruct (Ht i ti Hi) as (p & _ & ->).
    + rewrite map_size_empty. lia.
    + intros i t Hi. destruct (Ht i t Hi) as (p & _ & ->). split; [done|constructor].
    + intros i t r Hi Hr. destruct (Ht i t Hi) as (p & Hp & ->). cbn in Hr. rewrite app_nil_r in Hr. unfold planned. apply elem_of_list_join. exists (results p). split; [done|].
      apply elem_of_list_fmap. exists p. split; [done|]. by eapply elem_of_list_lookup_2.
  - intros s ts i t s' t' T Hi Hs. by eapply tinv_step.
  - intros s ts e T. cbn [shared threads] in *. by replace (tb_of W (cp_estep s e)) with (tb_of W s) by (by destruct W).
Qed.

(** Every call with the key is counted at most once, exactly once unless it panics. *)
Definition left_noted (key : string) (t : kthread) : Z :=
  carrying W key (unnoted_yet W (kt_pc t)) + carrying W key (results (kt_todo t)) + carrying W key (lost W (kt_panics t)).
Lemma step_noted rs key s ts i t s' t' : key <> ""%string -> tinv rs (tb_of W s) ts -> ts !! i = Some t -> tstep s t = Some (s', t') ->
  noted W s' key + left_noted key t' = noted W s key + left_noted key t.
Proof.
  intros Hkey T Hi Hs. pose proof (t_ptr _ _ _ T i t Hi) as [Hpc _]. steps s t Hs; unfold left_noted; cbn [kt_pc kt_todo kt_panics] in *.
  all: try (replace (noted W _ key) with (noted W s key) by (unfold noted; by destruct W); progs_rw;
     try (destruct k as [[dd [rr|]]|]); try (destruct r as [rr|]); cbn [after_tick unnoted_yet unjudged_yet current app]; rewrite ?carrying_app, ?carrying_cons, ?carrying_nil; cbn; rewrite ?carrying_cons, ?carrying_nil; lia).
  - destruct r as [r|]; progs_rw; cbn [unnoted_yet unjudged_yet current app]; rewrite ?carrying_cons, ?carrying_nil; lia.
  - replace (noted W _ key) with (noted W s key) by (destruct (rs_success r); [|done]; unfold noted; by destruct W).
    f_equal. f_equal. f_equal. by destruct W.
  - assert (carrying W key [r] = 0 \/ w <> W) as Hz.
    { destruct (decide (w = W)) as [->|]; [left|by right]. rewrite carrying_cons, carrying_nil. destruct (decide _) as [E|]; [|done].
      apply Z.ltb_ge in Heqb. destruct (key_of W r) eqn:Ek; [congruence|]. cbn in Heqb. lia. }
    f_equal. f_equal. f_equal. destruct W, w; cbn; rewrite ?carrying_nil; try done; destruct Hz as [Hz|Hz]; done.
  - destruct (decide (w = W)) as [->|Hne]; [|unfold noted; by rewrite tb_set_ne]. unfold noted. by rewrite tb_set_eq.
  - destruct (decide (w = W)) as [->|Hne]; [|unfold noted; by rewrite tb_set_ne]. unfold noted. by rewrite tb_set_eq.
  - destruct (decide (w = W)) as [->|Hne]; [|unfold noted; by rewrite tb_set_ne]. f_equal. unfold noted. change (counters W) with (tb_of W). rewrite tb_set_eq. cbn [tb_map tb_heap].
    destruct (decide (key_of W r = key)) as [<-|Hk].
    + rewrite lookup_insert. rewrite list_lookup_middle by done. cbn. destruct (Hpc eq_refl) as [-> _]. done.
    + rewrite lookup_insert_ne by done. destruct (tb_map (tb_of W s) !! key) as [q|] eqn:Eq; [|done]. by rewrite lookup_app_l by (by eapply t_heap).
  - destruct (decide (w = W)) as [->|Hne]; [|unfold noted; by rewrite tb_set_ne]. unfold noted. by rewrite tb_set_eq.
  - destruct (decide (w = W)) as [->|Hne].
    + unfold noted. change (counters W) with (tb_of W). rewrite tb_set_eq. cbn [tb_map tb_heap]. specialize (Hpc eq_refl).
      assert (carrying W key (unnoted_yet W (after_key W r)) = 0) as -> by (by destruct W).
      assert (carrying W key (unnoted_yet W (PCount W (Some p) r)) = if decide (key_of W r = key) then 1 else 0) as ->.
      { transitivity (carrying W key [r]); [by destruct W|]. rewrite carrying_cons, carrying_nil. lia. }
      destruct (decide (key_of W r = key)) as [<-|Hk].
      * rewrite Hpc, list_lookup_alter. pose proof (t_heap _ _ _ T _ _ Hpc) as Hl. apply lookup_lt_is_Some_2 in Hl as [x Hx]. rewrite Hx. cbn. lia.
      * destruct (tb_map (tb_of W s) !! key) as [q|] eqn:Eq; [|lia]. rewrite list_lookup_alter_ne; [lia|]. intros <-. apply Hk. by eapply (t_inj _ _ _ T).
    + unfold noted. rewrite tb_set_ne by done. f_equal. f_equal. f_equal. by destruct W, w.
  - rewrite lost_app, carrying_app. assert (lost W [(w, r)] = match W, w with Codes, Addons => [] | _, _ => [r] end) as -> by (by destruct W, w).
    f_equal. destruct W, w; cbn [unnoted_yet unjudged_yet current app]; rewrite ?carrying_nil; lia.
Qed.

Lemma run_noted start clock progs sched key : key <> ""%string -> let c := cp_crun I maxE maxA start clock progs sched in
  noted W (shared c) key + carrying W key (all (unnoted_yet W) (threads c) ++ to_come results (threads c) ++ lost W (panicked (threads c))) = carrying W key (planned results progs).
Proof.
  intros Hkey c. unfold c, cp_crun.
  pose proof (conserved I maxE maxA (fun s => noted W s key) (left_noted key) (fun c => tinv (planned results progs) (tb_of W (shared c)) (threads c)) (cp_cinit start clock progs)) as H.
  specialize (H (tinv_run start clock progs)). specialize (H (fun s ts i t s' t' T Hi Hs => step_noted _ key s ts i t s' t' Hkey T Hi Hs)).
  assert (forall s e, noted W (cp_estep s e) key = noted W s key) as He by (intros; unfold noted; by destruct W).
  specialize (H He sched). cbv zeta in H. set (cc := crun _ _ _ _) in *.
  assert (forall ts, sumZ (left_noted key <$> ts) = carrying W key (all (unnoted_yet W) ts ++ to_come results ts ++ lost W (panicked ts))) as E.
  { intros ts. rewrite !carrying_app. unfold all, to_come, panicked. rewrite lost_join, !carrying_join. induction ts as [|t ts IH]; [done|]. cbn [fmap list_fmap]. rewrite !sumZ_cons. unfold left_noted at 1.
    change (list_fmap kthread Z) with (fmap (M := list) (A := kthread) (B := Z)). lia. }
  rewrite E in H. rewrite H. cbn [cp_cinit shared threads]. replace (noted W _ key) with 0 by (by destruct W). rewrite Z.add_0_l.
  unfold planned. rewrite carrying_join. clear. induction progs as [|p ps IH]; [done|]. cbn [fmap list_fmap]. rewrite !sumZ_cons. f_equal; [|exact IH].
  unfold left_noted. cbn [kt_pc kt_todo kt_panics]. replace (unnoted_yet W PIdle) with (@nil result) by (by destruct W). rewrite carrying_nil. replace (lost W []) with (@nil result) by done. rewrite carrying_nil. lia.
Qed.
End inv.
