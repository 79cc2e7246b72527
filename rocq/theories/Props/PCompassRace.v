(** Data races on a compass (C110). *)
From Verif.Go Require Import GoInt GoFloat GoConc.
From Verif.Model Require Import BucketCounter EWMA Compass CompassConc.
From Verif.Spec Require Import BucketSpec CompassConcSpec RaceSpec CompassRaceSpec.
From Verif.Proofs Require Import CompassConcTables RaceLemmas.
Local Open Scope Z_scope.

Local Arguments ew_TickN : simpl never.
Local Arguments go_mod : simpl never.
Local Arguments go_div : simpl never.
Local Arguments wrap64 : simpl never.


(** The table of accesses is complete. *)
Theorem C110_table I maxE maxA :
  lists_writes cp_next (cp_tstep I maxE maxA) cp_same /\ lists_reads cp_next (cp_tstep I maxE maxA) cp_same cp_rest.
Proof.
  split.
  - intros s [todo pc pan] s' t' l Hs Hl. unfold cp_tstep in Hs. cbn [kt_pc kt_todo kt_panics] in Hs.
    destruct (cs_crashed s); [discriminate Hs|].
    assert (Hw : forall m a, Access m true a ∈ cp_next s (KThread todo pc pan) -> m <> l).
    { intros m a Hin <-. specialize (Hl _ Hin eq_refl). discriminate Hl. }
    unfold cp_next in Hw. cbn [kt_pc] in Hw. clear Hl.
    assert (Hsame : forall l, cp_same l s s) by (intros [| |w]; cbn; auto).
    destruct pc; try (injection Hs as <- <-; solve [apply Hsame | destruct l; cbn; auto | destruct l as [| |[]]; cbn; auto]).
    + destruct todo as [|[d r| |w n] todo]; [discriminate Hs|..]; injection Hs as <- <-; apply Hsame.
    + destruct (_ <? _); injection Hs as <- <-; apply Hsame.
    + destruct (go_mod _ _) as [r|]; [|discriminate Hs]. destruct (go_div _ _); [|discriminate Hs].
      destruct (_ =? _); injection Hs as <- <-; [|apply Hsame].
      assert (l <> VLastTick) by (intros ->; eapply Hw; [left|reflexivity]). destruct l; cbn; auto; congruence.
    + destruct n; injection Hs as <- <-; apply Hsame.
    + destruct (_ =? _); injection Hs as <- <-; [|apply Hsame].
      assert (l <> VUncounted) by (intros ->; eapply Hw; [left|reflexivity]). destruct l; cbn; auto; congruence.
    + injection Hs as <- <-. assert (l <> VUncounted) by (intros ->; eapply Hw; [left|reflexivity]). destruct l; cbn; auto; congruence.
    + injection Hs as <- <-. destruct (rs_success r); destruct l as [| |[]]; cbn; auto.
    + destruct (_ <? _); injection Hs as <- <-; apply Hsame.
    + destruct (tb_locked _); [discriminate Hs|]. injection Hs as <- <-. destruct l as [| |[]], w; cbn; auto.
    + destruct (tb_writing _); [injection Hs as <- <-; destruct l as [| |[]]; cbn; auto|].
      destruct (_ !! _); [injection Hs as <- <-; apply Hsame|]. destruct (_ <? _); injection Hs as <- <-; apply Hsame.
    + destruct (tb_writing _); [injection Hs as <- <-; destruct l as [| |[]]; cbn; auto|]. injection Hs as <- <-.
      assert (l <> VMap w) by (intros ->; eapply Hw; [right; left|reflexivity]). destruct l as [| |[]], w; cbn; auto; congruence.
    + injection Hs as <- <-.
      assert (l <> VMap w) by (intros ->; eapply Hw; [right; left|reflexivity]). destruct l as [| |[]], w; cbn; auto; congruence.
    + injection Hs as <- <-. destruct l as [| |[]], w; cbn; auto.
    + destruct p; injection Hs as <- <-; [destruct l as [| |[]], w; cbn; auto|apply Hsame].
    + destruct (tb_writing _); [injection Hs as <- <-; destruct l as [| |[]]; cbn; auto|]. injection Hs as <- <-. apply Hsame.
  - intros s1 s2 [todo pc pan] (R1 & R2 & R3 & R4 & R5 & R6 & R7 & R8 & R9 & R10 & R11 & R12) Hs.
    destruct (R12 Codes) as [R13 R14], (R12 Addons) as [R15 R16]. clear R12.
    destruct s1 as [[a1 b1 c1 lt1 u1] la1 lb1 lc1 tt1 ss1 ds1 [mp1 hp1 lk1 wr1] [mq1 hq1 lq1 wq1] cr1 ck1].
    destruct s2 as [[a2 b2 c2 lt2 u2] la2 lb2 lc2 tt2 ss2 ds2 [mp2 hp2 lk2 wr2] [mq2 hq2 lq2 wq2] cr2 ck2].
    cbn in R1, R2, R3, R4, R5, R6, R7, R8, R9, R10, R11, R13, R14, R15, R16.
    subst cr2 ck2 a2 b2 c2 la2 lb2 lc2 tt2 ss2 ds2 hp2 lk2 hq2 lq2.
    set (s1 := CpShared (Meter a1 b1 c1 lt1 u1) la1 lb1 lc1 tt1 ss1 ds1 (Table mp1 hp1 lk1 wr1) (Table mq1 hq1 lq1 wq1) cr1 ck1) in *.
    set (s2 := CpShared (Meter a1 b1 c1 lt2 u2) la1 lb1 lc1 tt1 ss1 ds1 (Table mp2 hp1 lk1 wr2) (Table mq2 hq1 lq1 wq2) cr1 ck1) in *.
    assert (HT : forall b a, Access VLastTick b a ∈ cp_next s1 (KThread todo pc pan) -> lt1 = lt2) by (intros b a Hb; exact (Hs _ Hb)).
    assert (HU : forall b a, Access VUncounted b a ∈ cp_next s1 (KThread todo pc pan) -> u1 = u2) by (intros b a Hb; exact (Hs _ Hb)).
    assert (HC : forall b a, Access (VMap Codes) b a ∈ cp_next s1 (KThread todo pc pan) -> mp1 = mp2 /\ wr1 = wr2) by (intros b a Hb; exact (Hs _ Hb)).
    assert (HA : forall b a, Access (VMap Addons) b a ∈ cp_next s1 (KThread todo pc pan) -> mq1 = mq2 /\ wq1 = wq2) by (intros b a Hb; exact (Hs _ Hb)).
    clear Hs. unfold cp_next in HT, HU, HC, HA |- *. cbn [kt_pc] in HT, HU, HC, HA |- *.
    assert (Hrest : cp_rest s1 s2). { unfold cp_rest. subst s1 s2. split_and!; try reflexivity. intros []; split; reflexivity. }
    assert (Hnil : forall (P : access cp_var -> Prop), forall x, x ∈ [] -> P x) by (intros P x []%elem_of_nil).
    assert (R : forall t1 t2 : kthread, t1 = t2 -> forall s1' s2', cp_rest s1' s2' ->
       forall l : list (access cp_var), Forall (fun a => cp_same (ac_loc a) s1' s2') l ->
       t1 = t2 /\ cp_rest s1' s2' /\ (forall a, a ∈ l -> cp_same (ac_loc a) s1' s2')).
    { intros t1 t2 Ht x y Hr l Hl. split; [exact Ht|]. split; [exact Hr|]. by apply Forall_forall. }
    unfold cp_tstep. cbn [kt_pc kt_todo kt_panics].
    change (cs_crashed s1) with cr1. change (cs_crashed s2) with cr1. destruct cr1; [exact Logic.I|].
    destruct pc.
    all: try (apply R; [reflexivity|unfold cp_rest; subst s1 s2; cbn; split_and!; try reflexivity; intros []; split; reflexivity|apply Forall_nil_2]).
    + destruct todo as [|[d r| |w n] todo]; [exact Logic.I|..]; (apply R; [reflexivity|exact Hrest|apply Forall_nil_2]).
    + specialize (HT _ _ (elem_of_list_here _ _)). subst lt2. apply R; [reflexivity|exact Hrest|apply Forall_cons_2; [reflexivity|apply Forall_nil_2]].
    + change (cs_clock s2) with ck1. change (cs_clock s1) with ck1. destruct (_ <? _); (apply R; [reflexivity|exact Hrest|apply Forall_nil_2]).
    + specialize (HT _ _ (elem_of_list_here _ _)). subst lt2. destruct (go_mod _ _) as [r|]; [|exact Logic.I]. destruct (go_div _ _); [|exact Logic.I].
      change (mt_lastTick (cs_meter s1)) with lt1. change (mt_lastTick (cs_meter s2)) with lt1. destruct (_ =? _).
      * apply R; [reflexivity|unfold cp_rest; subst s1 s2; cbn; split_and!; try reflexivity; intros []; split; reflexivity|apply Forall_cons_2; [reflexivity|apply Forall_nil_2]].
      * apply R; [reflexivity|exact Hrest|apply Forall_cons_2; [reflexivity|apply Forall_nil_2]].
    + destruct n as [|n].
      * apply R; [reflexivity|exact Hrest|apply Forall_nil_2].
      * specialize (HU _ _ (elem_of_list_here _ _)). subst u2. apply R; [reflexivity|exact Hrest|apply Forall_cons_2; [reflexivity|apply Forall_nil_2]].
    + specialize (HU _ _ (elem_of_list_here _ _)). subst u2. change (mt_uncounted (cs_meter s1)) with u1. change (mt_uncounted (cs_meter s2)) with u1. destruct (_ =? _).
      * apply R; [reflexivity|unfold cp_rest; subst s1 s2; cbn; split_and!; try reflexivity; intros []; split; reflexivity|apply Forall_cons_2; [reflexivity|apply Forall_nil_2]].
      * apply R; [reflexivity|exact Hrest|apply Forall_cons_2; [reflexivity|apply Forall_nil_2]].
    + specialize (HU _ _ (elem_of_list_here _ _)). subst u2.
      apply R; [reflexivity|unfold cp_rest; subst s1 s2; cbn; split_and!; try reflexivity; intros []; split; reflexivity|apply Forall_cons_2; [reflexivity|apply Forall_nil_2]].
    + apply R; [reflexivity| |apply Forall_nil_2]. destruct (rs_success r); [|exact Hrest].
      unfold cp_rest; subst s1 s2; cbn; split_and!; try reflexivity; intros []; split; reflexivity.
    + destruct (_ <? _); (apply R; [reflexivity|exact Hrest|apply Forall_nil_2]).
    + change (tb_locked (tb_of w s1)) with (tb_locked (tb_of w s2)) || (destruct w; [change (tb_locked (tb_of Codes s1)) with lk1; change (tb_locked (tb_of Codes s2)) with lk1|change (tb_locked (tb_of Addons s1)) with lq1; change (tb_locked (tb_of Addons s2)) with lq1]).
      1: destruct lk1. 3: destruct lq1. 1,3: exact Logic.I.
      all: (apply R; [reflexivity|unfold cp_rest; subst s1 s2; cbn; split_and!; try reflexivity; intros []; split; reflexivity|apply Forall_nil_2]).
    + destruct w; [destruct (HC _ _ (elem_of_list_here _ _)) as [<- <-]|destruct (HA _ _ (elem_of_list_here _ _)) as [<- <-]].
      * change (tb_of Codes s1) with (Table mp1 hp1 lk1 wr1). change (tb_of Codes s2) with (Table mp1 hp1 lk1 wr1). cbn [tb_writing tb_map]. destruct wr1.
        { apply R; [reflexivity|unfold cp_rest; subst s1 s2; cbn; split_and!; try reflexivity; intros []; split; reflexivity|apply Forall_cons_2; [split; reflexivity|apply Forall_nil_2]]. }
        destruct (_ !! _); [|destruct (_ <? _)]; (apply R; [reflexivity|exact Hrest|apply Forall_cons_2; [split; reflexivity|apply Forall_nil_2]]).
      * change (tb_of Addons s1) with (Table mq1 hq1 lq1 wq1). change (tb_of Addons s2) with (Table mq1 hq1 lq1 wq1). cbn [tb_writing tb_map]. destruct wq1.
        { apply R; [reflexivity|unfold cp_rest; subst s1 s2; cbn; split_and!; try reflexivity; intros []; split; reflexivity|apply Forall_cons_2; [split; reflexivity|apply Forall_nil_2]]. }
        destruct (_ !! _); [|destruct (_ <? _)]; (apply R; [reflexivity|exact Hrest|apply Forall_cons_2; [split; reflexivity|apply Forall_nil_2]]).
    + destruct w; [destruct (HC _ _ (elem_of_list_here _ _)) as [<- <-]|destruct (HA _ _ (elem_of_list_here _ _)) as [<- <-]].
      * change (tb_of Codes s1) with (Table mp1 hp1 lk1 wr1). change (tb_of Codes s2) with (Table mp1 hp1 lk1 wr1). cbn [tb_writing tb_map tb_heap tb_locked]. destruct wr1.
        all: (apply R; [reflexivity|unfold cp_rest; subst s1 s2; cbn; split_and!; try reflexivity; intros []; split; reflexivity|apply Forall_cons_2; [split; reflexivity|apply Forall_cons_2; [split; reflexivity|apply Forall_nil_2]]]).
      * change (tb_of Addons s1) with (Table mq1 hq1 lq1 wq1). change (tb_of Addons s2) with (Table mq1 hq1 lq1 wq1). cbn [tb_writing tb_map tb_heap tb_locked]. destruct wq1.
        all: (apply R; [reflexivity|unfold cp_rest; subst s1 s2; cbn; split_and!; try reflexivity; intros []; split; reflexivity|apply Forall_cons_2; [split; reflexivity|apply Forall_cons_2; [split; reflexivity|apply Forall_nil_2]]]).
    + destruct w; [destruct (HC _ _ (elem_of_list_here _ _)) as [<- <-]|destruct (HA _ _ (elem_of_list_here _ _)) as [<- <-]].
      all: (apply R; [reflexivity|unfold cp_rest; subst s1 s2; cbn; split_and!; try reflexivity; intros []; split; reflexivity|apply Forall_cons_2; [split; reflexivity|apply Forall_cons_2; [split; reflexivity|apply Forall_nil_2]]]).
    + destruct w; (apply R; [reflexivity|unfold cp_rest; subst s1 s2; cbn; split_and!; try reflexivity; intros []; split; reflexivity|apply Forall_nil_2]).
    + destruct p.
      * destruct w; (apply R; [reflexivity|unfold cp_rest; subst s1 s2; cbn; split_and!; try reflexivity; intros []; split; reflexivity|apply Forall_nil_2]).
      * apply R; [reflexivity|exact Hrest|apply Forall_nil_2].
    + destruct w; [destruct (HC _ _ (elem_of_list_here _ _)) as [<- <-]|destruct (HA _ _ (elem_of_list_here _ _)) as [<- <-]].
      * change (tb_of Codes s1) with (Table mp1 hp1 lk1 wr1). change (tb_of Codes s2) with (Table mp1 hp1 lk1 wr1). cbn [tb_writing]. destruct wr1.
        all: (apply R; [reflexivity|unfold cp_rest; subst s1 s2; cbn; split_and!; try reflexivity; intros []; split; reflexivity|apply Forall_cons_2; [split; reflexivity|apply Forall_nil_2]]).
      * change (tb_of Addons s1) with (Table mq1 hq1 lq1 wq1). change (tb_of Addons s2) with (Table mq1 hq1 lq1 wq1). cbn [tb_writing]. destruct wq1.
        all: (apply R; [reflexivity|unfold cp_rest; subst s1 s2; cbn; split_and!; try reflexivity; intros []; split; reflexivity|apply Forall_cons_2; [split; reflexivity|apply Forall_nil_2]]).
Qed.
Print Assumptions C110_table.

(** What a goroutine is doing comes from its program. *)
Definition kont_from (p : list kcall) (k : option (Z * option result)) : Prop :=
  match k with Some (d, r) => KUpdate d r ∈ p | None => KRate ∈ p end.
Definition kp_from (p : list kcall) (pc : kpc) : Prop :=
  match pc with
  | PIdle => True
  | PTick k | PClock _ k | PCas _ _ k | PLoop _ k | PTake _ _ k | PM1 _ _ k | PM5 _ _ k | PM15 _ _ k => kont_from p k
  | PAdd d r | PTotal d r | PReservoir d r => KUpdate d r ∈ p
  | PSuccess r | PKey _ r | PUnlock _ _ r | PCount _ _ r => exists d, KUpdate d (Some r) ∈ p
  | PLock w r | PFind w r | PAssign w r | PAssigning w r => (exists d, KUpdate d (Some r) ∈ p) /\ key_of w r <> ""%string
  | PIter w _ => exists n, KGetter w n ∈ p
  end.
Definition cp_from (p : list kcall) (t : kthread) : Prop := (forall x, x ∈ kt_todo t -> x ∈ p) /\ kp_from p (kt_pc t).

Lemma cp_program I maxE maxA start clock progs sched i t :
  threads (cp_crun I maxE maxA start clock progs sched) !! i = Some t -> exists p, progs !! i = Some p /\ cp_from p t.
Proof.
  apply (program_inv (cp_tstep I maxE maxA) cp_estep cp_from).
  - intros p. split; [auto|exact Logic.I].
  - clear. intros p s [todo pc pan] s' t' [F1 F2] Hs. unfold cp_tstep in Hs. cbn [kt_pc kt_todo kt_panics] in Hs, F1, F2.
    destruct (cs_crashed s); [discriminate Hs|].
    assert (Haft : forall k, kont_from p k -> kp_from p (after_tick k)) by (intros [[d r]|]; cbn; auto).
    assert (Hkey : forall w r, (exists d, KUpdate d (Some r) ∈ p) -> kp_from p (after_key w r)) by (intros [] r; cbn; auto).
    destruct pc; cbn [kp_from] in F2.
    all: try (injection Hs as <- <-; split; [exact F1|]; cbn [kt_pc kp_from]; solve [exact F2 | exact (proj1 F2) | auto]).
    + destruct todo as [|[d r| |w n] todo]; [discriminate Hs|..]; injection Hs as <- <-; (split; [intros; apply F1; by right|]); cbn [kt_pc kp_from kont_from].
      * apply F1. left.
      * apply F1. left.
      * exists n. apply F1. left.
    + destruct (_ <? _); injection Hs as <- <-; (split; [exact F1|]); cbn [kt_pc]; auto.
    + destruct (go_mod _ _) as [r|]; [|discriminate Hs]. destruct (go_div _ _); [|discriminate Hs].
      destruct (_ =? _); injection Hs as <- <-; (split; [exact F1|]); cbn [kt_pc]; auto.
    + destruct n; injection Hs as <- <-; (split; [exact F1|]); cbn [kt_pc]; auto.
    + destruct (_ =? _); injection Hs as <- <-; (split; [exact F1|]); cbn [kt_pc]; auto.
    + injection Hs as <- <-; (split; [exact F1|]); cbn [kt_pc]. destruct r; [by exists d|exact Logic.I].
    + destruct (0 <? _) eqn:E; injection Hs as <- <-; (split; [exact F1|]); cbn [kt_pc kp_from]; auto.
      split; [exact F2|]. intros Hk. rewrite Hk in E. discriminate E.
    + destruct (tb_locked _); [discriminate Hs|]. injection Hs as <- <-. split; [exact F1|exact F2].
    + destruct (tb_writing _); [injection Hs as <- <-; split; [exact F1|exact F2]|].
      destruct (_ !! _); [injection Hs as <- <-; split; [exact F1|exact (proj1 F2)]|]. destruct (_ <? _); injection Hs as <- <-; split; [exact F1|exact F2|exact F1|exact (proj1 F2)].
    + destruct (tb_writing _); injection Hs as <- <-; split; [exact F1|exact F2|exact F1|exact F2].
    + destruct p0; injection Hs as <- <-; split; [exact F1|cbn [kt_pc]; auto|exact F1|exact Logic.I].
    + destruct (tb_writing _); injection Hs as <- <-; split; [exact F1|exact F2|exact F1|destruct n; [exact Logic.I|exact F2]].
Qed.

(** What is missing: the races of [C110_refuted].  A data race is either one on the time of
    the last tick, between two calls of Update, UpdateWithError or a rate getter, or one
    on a map, between GetErrorCodeCounts (GetAddonCounts) and an UpdateWithError with a
    code (addon).  There is none on the pending count. *)
Theorem C110_partial I maxE maxA start clock progs sched l :
  data_race_on cp_next l (cp_crun I maxE maxA start clock progs sched) ->
  match l with
  | VLastTick => exists i j, i <> j /\ ticks progs i /\ ticks progs j
  | VUncounted => False
  | VMap w => exists i j, i <> j /\ asks_counts progs w i /\ gives_key progs w j
  end.
Proof.
  intros (i & j & ti & tj & a & b & Hne & Hi & Hj & Ha & Hb & La & Lb & Hw & Hat)%race_sym.
  destruct (cp_program _ _ _ _ _ _ _ _ _ Hi) as (p & Hp & _ & Fi).
  destruct (cp_program _ _ _ _ _ _ _ _ _ Hj) as (q & Hq & _ & Fj).
  unfold cp_next in Ha, Hb.
  assert (HK : forall i p k, progs !! i = Some p -> kont_from p k -> ticks progs i).
  { intros i' p' [[d r]|] Hp' Hk; eexists p', _; (split; [exact Hp'|]; split; [exact Hk|exact Logic.I]). }
  destruct l as [| |w].
  - assert (Hx : forall i p t x, progs !! i = Some p -> kp_from p (kt_pc t) -> x ∈ cp_next (shared (cp_crun I maxE maxA start clock progs sched)) t -> ac_loc x = VLastTick -> ticks progs i).
    { intros i' p' t x Hp' F Hx Lx. unfold cp_next in Hx. destruct (kt_pc t); try destruct n; cbn [kp_from] in F; repeat (apply elem_of_cons in Hx as [->|Hx]); try (by apply elem_of_nil in Hx); try discriminate Lx.
      all: by eapply HK. }
    exists i, j. split; [exact Hne|]. split; [exact (Hx i p ti a Hp Fi Ha La)|exact (Hx j q tj b Hq Fj Hb Lb)].
  - assert (Hx : forall t x, x ∈ cp_next (shared (cp_crun I maxE maxA start clock progs sched)) t -> ac_loc x = VUncounted -> ac_atomic x = true).
    { intros t x Hx Lx. unfold cp_next in Hx. destruct (kt_pc t); try destruct n; repeat (apply elem_of_cons in Hx as [->|Hx]); try (by apply elem_of_nil in Hx); try discriminate Lx; reflexivity. }
    pose proof (Hx ti a Ha La) as H1. pose proof (Hx tj b Hb Lb) as H2. rewrite H1, H2 in Hat. destruct Hat; discriminate.
  - pose proof (t_excl maxE maxA w _ _ _ (tinv_run I maxE maxA w start clock progs sched) i j ti tj Hi Hj) as Hex.
    assert (Wi : inside w (kt_pc ti) = true /\ gives_key progs w i).
    { destruct (kt_pc ti); try destruct n; cbn [kp_from] in Fi; repeat (apply elem_of_cons in Ha as [->|Ha]); try (by apply elem_of_nil in Ha); try discriminate La; try discriminate Hw.
      all: injection La as ->; (split; [by apply bool_decide_eq_true_2|]); destruct Fi as [[d Fi] Hk]; by exists p, d, r. }
    destruct Wi as [Wi Gi]. specialize (Hex Wi).
    assert (Cj : inside w (kt_pc tj) = true \/ asks_counts progs w j).
    { destruct (kt_pc tj); try destruct n; cbn [kp_from] in Fj; repeat (apply elem_of_cons in Hb as [->|Hb]); try (by apply elem_of_nil in Hb); try discriminate Lb.
      all: injection Lb as ->; try (left; by apply bool_decide_eq_true_2); right; destruct Fj as [m Fj]; by exists q, m. }
    destruct Cj as [Cj|Cj]; [destruct (Hne (Hex Cj))|]. exists j, i. auto.
Qed.
Print Assumptions C110_partial.

(** Until the clock is more than 5 s ahead of the start time nobody writes the time of the
    last tick; so the goroutines that do not ask for the counts of codes and addons have
    no data race in that time. *)
Theorem C110_first_tick_partial I maxE maxA start clock progs sched :
  wrap64 (wrap64 clock - start) <= tickInterval -> Forall (within_tick start) sched ->
  let c := cp_crun I maxE maxA start clock progs sched in
  ~ data_race_on cp_next VLastTick c /\
  (Forall (Forall no_getter) progs -> race_free cp_next c).
Proof.
  intros Hc Hs c.
  assert (Hlt : ~ data_race_on cp_next VLastTick c).
  { assert (Inv : (mt_lastTick (cs_meter (shared c)) = start /\ wrap64 (cs_clock (shared c) - start) <= tickInterval) /\
      forall i t, threads c !! i = Some t -> match kt_pc t with PCas _ _ _ => False | PClock old _ => old = start | _ => True end).
    { subst c. unfold cp_crun. induction sched as [|ev sched IH] using rev_ind.
      - cbn [crun cp_cinit shared threads]. split; [cbn; split; [reflexivity|exact Hc]|]. intros i t Hi. cbn in Hi. rewrite list_lookup_fmap in Hi.
        destruct (progs !! i); [|discriminate Hi]. injection Hi as <-. exact Logic.I.
      - apply Forall_app in Hs as [Hs Hev]. apply Forall_inv in Hev. specialize (IH Hs). rewrite crun_snoc.
        set (c := crun (cp_tstep I maxE maxA) cp_estep (cp_cinit start clock progs) sched) in *. destruct c as [s ts]. cbn [shared threads] in IH.
        destruct IH as [[I1 I2] I3]. destruct ev as [tid|e].
        2: { cbn. split; [split; [exact I1|]|exact I3]. unfold within_tick in Hev. exact Hev. }
        unfold cstep. cbn [shared threads]. destruct (ts !! tid) as [t|] eqn:Ht; [|split; [split; [exact I1|exact I2]|exact I3]].
        destruct (cp_tstep I maxE maxA s t) as [[s' t']|] eqn:Et; [|split; [split; [exact I1|exact I2]|exact I3]].
        cbn [shared threads].
        assert (HH : (mt_lastTick (cs_meter s') = start /\ cs_clock s' = cs_clock s) /\ match kt_pc t' with PCas _ _ _ => False | PClock old _ => old = start | _ => True end).
        { specialize (I3 _ _ Ht). destruct t as [todo pc pan]. cbn [kt_pc] in I3. unfold cp_tstep in Et. cbn [kt_pc kt_todo kt_panics] in Et. destruct (cs_crashed s); [discriminate Et|].
          assert (Haft : forall k, match after_tick k with PCas _ _ _ => False | PClock old _ => old = start | _ => True end) by (intros [[d r]|]; exact Logic.I).
          assert (Hkey : forall w r, match after_key w r with PCas _ _ _ => False | PClock old _ => old = start | _ => True end) by (intros [] r; exact Logic.I).
          assert (Htb : forall w tb, mt_lastTick (cs_meter (set_table s w tb)) = start) by (intros; exact I1).
          destruct pc.
          - destruct todo as [|[d r| |w n] todo]; [discriminate Et|..]; injection Et as <- <-; (split; [split; [exact I1|reflexivity]|]; first [exact Logic.I | exact I1 | apply Haft | apply Hkey]).
          - injection Et as <- <-. (split; [split; [exact I1|reflexivity]|]; first [exact Logic.I | exact I1 | apply Haft | apply Hkey]).
          - subst old. destruct (tickInterval <? _) eqn:E; [apply Z.ltb_lt in E; lia|]. injection Et as <- <-. (split; [split; [exact I1|reflexivity]|]; first [exact Logic.I | exact I1 | apply Haft | apply Hkey]).
          - destruct I3.
          - destruct n; injection Et as <- <-; (split; [split; [exact I1|reflexivity]|]; first [exact Logic.I | exact I1 | apply Haft | apply Hkey]).
          - destruct (_ =? _); injection Et as <- <-; (split; [split; [exact I1|reflexivity]|]; first [exact Logic.I | exact I1 | apply Haft | apply Hkey]).
          - injection Et as <- <-; (split; [split; [exact I1|reflexivity]|]; first [exact Logic.I | exact I1 | apply Haft | apply Hkey]).
          - injection Et as <- <-; (split; [split; [exact I1|reflexivity]|]; first [exact Logic.I | exact I1 | apply Haft | apply Hkey]).
          - injection Et as <- <-; (split; [split; [exact I1|reflexivity]|]; first [exact Logic.I | exact I1 | apply Haft | apply Hkey]).
          - injection Et as <- <-; (split; [split; [exact I1|reflexivity]|]; first [exact Logic.I | exact I1 | apply Haft | apply Hkey]).
          - injection Et as <- <-; (split; [split; [exact I1|reflexivity]|]; first [exact Logic.I | exact I1 | apply Haft | apply Hkey]).
          - injection Et as <- <-; destruct r; (split; [split; [exact I1|reflexivity]|]; first [exact Logic.I | exact I1 | apply Haft | apply Hkey]).
          - injection Et as <- <-; destruct (rs_success r); (split; [split; [exact I1|reflexivity]|]; first [exact Logic.I | exact I1 | apply Haft | apply Hkey]).
          - destruct (0 <? _); injection Et as <- <-; (split; [split; [exact I1|reflexivity]|]; first [exact Logic.I | exact I1 | apply Haft | apply Hkey]).
          - destruct (tb_locked _); [discriminate Et|]. injection Et as <- <-; (split; [split; [exact I1|reflexivity]|]; first [exact Logic.I | exact I1 | apply Haft | apply Hkey]).
          - destruct (tb_writing _); [injection Et as <- <-; (split; [split; [exact I1|reflexivity]|]; first [exact Logic.I | exact I1 | apply Haft | apply Hkey])|]. destruct (tb_map _ !! _); [injection Et as <- <-; (split; [split; [exact I1|reflexivity]|]; first [exact Logic.I | exact I1 | apply Haft | apply Hkey])|]. destruct (_ <? _); injection Et as <- <-; (split; [split; [exact I1|reflexivity]|]; first [exact Logic.I | exact I1 | apply Haft | apply Hkey]).
          - destruct (tb_writing _); injection Et as <- <-; (split; [split; [exact I1|reflexivity]|]; first [exact Logic.I | exact I1 | apply Haft | apply Hkey]).
          - injection Et as <- <-; (split; [split; [exact I1|reflexivity]|]; first [exact Logic.I | exact I1 | apply Haft | apply Hkey]).
          - injection Et as <- <-; (split; [split; [exact I1|reflexivity]|]; first [exact Logic.I | exact I1 | apply Haft | apply Hkey]).
          - destruct p; injection Et as <- <-; (split; [split; [exact I1|reflexivity]|]; first [exact Logic.I | exact I1 | apply Haft | apply Hkey]).
          - destruct (tb_writing _); injection Et as <- <-; destruct n; (split; [split; [exact I1|reflexivity]|]; first [exact Logic.I | exact I1 | apply Haft | apply Hkey]). }
        destruct HH as [[H1 H2] H3]. split; [split; [exact H1|rewrite H2; exact I2]|].
        intros j u Hu. apply list_lookup_insert_Some in Hu as [(-> & <- & _)|[_ Hu]]; [exact H3|by eapply I3]. }
    destruct Inv as [_ Inv].
    intros (i & j & ti & tj & a & b & Hne & Hi & Hj & Ha & Hb & La & Lb & Hw & Hat)%race_sym.
    specialize (Inv _ _ Hi). unfold cp_next in Ha. destruct (kt_pc ti); try destruct n; repeat (apply elem_of_cons in Ha as [->|Ha]); try (by apply elem_of_nil in Ha); try discriminate La; try discriminate Hw.
    destruct Inv. }
  split; [exact Hlt|]. intros Hp l Hr. pose proof (C110_partial _ _ _ _ _ _ _ _ Hr) as H. destruct l as [| |w]; [exact (Hlt Hr)|exact H|].
  destruct H as (i & j & _ & (p & n & Hi & Hn) & _). rewrite Forall_lookup in Hp. specialize (Hp _ _ Hi). rewrite Forall_forall in Hp. exact (Hp _ Hn).
Qed.
Print Assumptions C110_first_tick_partial.

(** C110 is false.  A tick stores lastTick with CompareAndSwapInt64 while another call
    loads it without sync/atomic; GetErrorCodeCounts iterates over the map without the
    mutex while UpdateWithError inserts a code. *)
Theorem C110_refuted :
  data_race_on cp_next VLastTick (cp_crun (10 * Second) 20 20 0 (6 * Second) [[KRate]; [KRate]] [Run 0; Run 0; Run 0; Run 1]) /\
  data_race_on cp_next (VMap Codes)
    (cp_crun (10 * Second) 20 20 0 0 [[KUpdate 7 (Some (MkResult true "OK" ""))]; [KGetter Codes 1]] (Run <$> [0; 0; 0; 0; 0; 0; 0; 0; 0; 0; 1]%nat)).
Proof.
  split.
  - apply (race_intro cp_next _ 0%nat 1%nat (KThread [] (PCas 0 (6 * Second) None) []) (KThread [] (PTick None) []) (atomic_op VLastTick) (loads VLastTick));
      try reflexivity; [done|by left|by left].
  - apply (race_intro cp_next _ 0%nat 1%nat (KThread [] (PAssign Codes (MkResult true "OK" "")) []) (KThread [] (PIter Codes 1) []) (stores (VMap Codes)) (loads (VMap Codes)));
      try reflexivity; [done|right; by left|by left].
Qed.
Print Assumptions C110_refuted.

(** A case of C110_first_tick_partial: the clock moves on by 4 s while two goroutines update. *)
Example C110_witness : let progs := [[KUpdate 7 (Some (MkResult true "OK" "")); KRate]; [KUpdate 9 None]] in
  let sched := Env (1000 * Second + 4 * Second) :: (Run <$> [0; 1; 0; 1; 0; 1]%nat) in
  wrap64 (wrap64 (1000 * Second) - 1000 * Second) <= tickInterval /\ Forall (within_tick (1000 * Second)) sched /\ Forall (Forall no_getter) progs.
Proof.
  cbv zeta. split; [vm_compute; discriminate|]. split.
  - apply Forall_cons_2; [vm_compute; discriminate|]. apply Forall_fmap, Forall_true. intros ?. exact Logic.I.
  - repeat constructor.
Qed.
