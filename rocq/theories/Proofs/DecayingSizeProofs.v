(** Size of a decaying reservoir next to updates. *)
From Verif.Go Require Import GoInt GoFloat GoConc.
From Verif.Model Require Import WeightedSnapshot DecayingReservoir DecayingConc DecayingSizeConc.
From Verif.Spec Require Import BucketSpec DecayingSpec DecayingConcSpec DecayingSizeSpec.
From Verif.Proofs Require Import DecayingProofs DecayingCalls DecayingConcProofs DecayingConcMore DecayingConcMain.
Local Open Scope Z_scope.

Section runs.
Context (mexp : f64 -> f64) (size : Z) (alpha : f64) (ms0 tick0 : Z) (progs : list sz_prog).
Notation run sched := (sz_crun mexp size alpha ms0 tick0 progs sched).
Notation drun sched := (dx_crun mexp size alpha ms0 tick0 (sz_calls <$> progs) sched).
Notation ok sched := (conc_ok mexp size alpha ms0 (sz_calls <$> progs) sched).
Notation new := (NewEDR size alpha ms0 tick0).

(** Leaving out the calls of Size changes nothing for the others. *)
Definition plain (t : sz_thread) : dxthread := match t with SUse t => t | SSize _ _ _ => DxThread [] XIdle [] end.

Lemma erase sched : shared (run sched) = shared (drun sched) /\ plain <$> threads (run sched) = threads (drun sched).
Proof.
  unfold sz_crun, dx_crun. induction sched as [|ev sched IH] using rev_ind.
  - cbn. split; [done|]. rewrite <- !list_fmap_compose. apply list_fmap_ext. intros i p _. by destruct p.
  - rewrite !crun_snoc. revert IH. generalize (crun (sz_tstep mexp) dx_estep (Config (DxShared new false 0 ms0 tick0 []) (sz_start <$> progs)) sched).
    generalize (crun (dx_tstep mexp) dx_estep (dx_init size alpha ms0 tick0 (sz_calls <$> progs)) sched).
    intros [s ts] [s' ts'] [E1 E2]. cbn [shared threads] in E1, E2. subst s' ts. destruct ev as [i|e]; [|by split].
    cbn [cstep shared threads]. rewrite list_lookup_fmap. destruct (ts' !! i) as [t|] eqn:Hi; [|by split]. cbn [fmap option_fmap option_map].
    destruct t as [t|[|n] [|] got]; cbn [sz_tstep plain].
    + destruct (dx_tstep mexp s t) as [[s' t']|] eqn:Ht; [|by split]. cbn [shared threads]. split; [done|]. by rewrite list_fmap_insert.
    + cbn. split; [done|]. rewrite list_fmap_insert. cbn. by rewrite list_insert_id by (rewrite list_lookup_fmap, Hi; done).
    + by split.
    + cbn. split; [done|]. rewrite list_fmap_insert. cbn. by rewrite list_insert_id by (rewrite list_lookup_fmap, Hi; done).
    + cbn. destruct (_ <? _); cbn; (split; [done|]); rewrite list_fmap_insert; cbn; by rewrite list_insert_id by (rewrite list_lookup_fmap, Hi; done).
Qed.

Notation total := (Z.of_nat (length (mjoin (call_value <$> mjoin (sz_calls <$> progs))))).

Lemma size_facts sched : ok sched -> let s := shared (run sched) in
  0 <= ed_count (ds_rsv s) <= recorded s /\ ed_size (ds_rsv s) = size /\ recorded s <= total /\ 1 <= size /\ total < 2 ^ 63 /\
  exists r, ed_events new (ds_log s) = Ok r /\ ed_count (ds_rsv s) = ed_count r.
Proof.
  intros H s. destruct (erase sched) as [Es _]. subst s. rewrite Es.
  pose proof (dxinv_main mexp size alpha ms0 tick0 _ sched H) as D. destruct H as (HE & Hs & Ha & Hm & Hc & Hp & Hn).
  pose proof D as [D1 D2 D3 D4 D5 D6 D7 D8 D9 D10 D11].
  pose proof (dxinv_ed size alpha ms0 tick0 _ ltac:(lia) Hn _ _ D) as I. pose proof (ei_count _ _ _ I) as C.
  apply Permutation_length in D9. rewrite app_length in D9. unfold recorded.
  split; [exact C|]. split; [|split; [lia|split; [lia|split; [exact Hn|]]]].
  - destruct D1 as (r & Er & _ & _ & ->). destruct (events_inv _ D2 new [] 0 (ed_inv_new size alpha ms0 tick0 (proj1 Hs))) as (r' & E' & _ & S'); [lia|].
    rewrite Er in E'. by injection E' as <-.
  - destruct D1 as (r & Er & _ & Hcr & _). exists r. split; [exact Er|exact Hcr].
Qed.

(** One step adds at most one to the count, and then records a value. *)
Lemma count_step sched ev : ok (sched ++ [ev]) ->
  let s := shared (run sched) in let s' := shared (run (sched ++ [ev])) in
  recorded s <= recorded s' /\ ed_count (ds_rsv s') - ed_count (ds_rsv s) <= recorded s' - recorded s /\
  (ds_log s `prefix_of` ds_log s').
Proof.
  intros H s s'. subst s s'.
  pose proof (conc_ok_prefix mexp size alpha ms0 _ sched [ev] H) as H0.
  pose proof (dxinv_main mexp size alpha ms0 tick0 _ _ H0) as D. pose proof (dxinv_main mexp size alpha ms0 tick0 _ _ H) as D'.
  destruct (erase sched) as [-> _], (erase (sched ++ [ev])) as [-> _].
  destruct H as (_ & Hs & _ & _ & _ & _ & Hn). pose proof (dxinv_ed size alpha ms0 tick0 _ ltac:(lia) Hn _ _ D) as I.
  unfold dx_crun in *. rewrite crun_snoc in *. revert D D' I. generalize (crun (dx_tstep mexp) dx_estep (dx_init size alpha ms0 tick0 (sz_calls <$> progs)) sched).
  intros [s ts] D D' I. cbn [shared threads] in *.
  assert (Hrefl : recorded s <= recorded s /\ ed_count (ds_rsv s) - ed_count (ds_rsv s) <= recorded s - recorded s /\ ds_log s `prefix_of` ds_log s).
  { split; [lia|]. split; [lia|]. done. }
  destruct ev as [i|e]; [|exact Hrefl]. cbn [cstep shared threads] in *.
  destruct (ts !! i) as [t|] eqn:Hi; [|exact Hrefl]. destruct (dx_tstep mexp s t) as [[s' t']|] eqn:Ht; [|exact Hrefl].
  cbn [shared threads] in *. pose proof (d_log _ _ _ _ _ _ _ D') as L'. pose proof (d_acct _ _ _ _ _ _ _ D') as A'. apply Permutation_length in A'. rewrite app_length in A'.
  destruct t as [todo pc got]. unfold dx_tstep in Ht. cbn [dx_pc dx_todo dx_got] in Ht. cbv zeta in Ht.
  clear D D'. destruct pc.
  all: try (injection Ht as <- <-; exact Hrefl).
  - destruct todo; [discriminate Ht|]. injection Ht as <- <-. exact Hrefl.
  - destruct (_ =? _); injection Ht as <- <-; exact Hrefl.
  - destruct (_ || _); [discriminate Ht|]. injection Ht as <- <-. exact Hrefl.
  - injection Ht as <- <-. unfold recorded. cbn [logged set_lock set_rsv ds_log ds_rsv] in *.
    apply Forall_app in L' as [_ L']. apply Forall_inv in L'. cbn [event_ok] in L'.
    rewrite offers_app. change (offers [Rescale f]) with (@nil Z). rewrite app_nil_r.
    split; [lia|]. split; [|by apply prefix_app_r]. rewrite Z.sub_diag.
    destruct (ed_rescale_inv _ _ _ f I L') as [I' _].
    unfold ed_rescale_body in *. destruct (feq f f0) eqn:Hz; [cbn; pose proof (ei_count _ _ _ I); lia|].
    cbn [set_count ed_count]. destruct I. unfold ed_GetValues. rewrite iter_all by exact ei_ok.
    destruct (loop_inv f (ed_values (ds_rsv s)) L' Hz (ed_values (ds_rsv s)) ei_asc ei_ok ei_ok ei_asc) as (A1 & A2 & A3 & A4 & A5).
    { intros x Hx. by exists x. }
    lia.
  - destruct (_ || _); [discriminate Ht|]. injection Ht as <- <-. exact Hrefl.
  - destruct (ed_insert _ _ _ _) as [rsv'|] eqn:Ei; injection Ht as <- <-; [|exact Hrefl].
    unfold recorded. cbn [logged set_lock set_rsv ds_log ds_rsv] in *. rewrite offers_app in *.
    change (offers [Offer (ed_priority (dx_weight mexp (ds_rsv s) land ms) r) v (dx_weight mexp (ds_rsv s) land ms)]) with [v] in *.
    rewrite app_length in *. cbn [length] in *. split; [lia|]. split; [|by apply prefix_app_r].
    assert (Ec : ed_count rsv' = wrap64 (ed_count (ds_rsv s) + 1)).
    { unfold ed_insert in Ei. cbv zeta in Ei. destruct (_ <=? _); [by injection Ei as <-|]. destruct (ed_GetValues _) as [|first l]; [discriminate Ei|].
      destruct (fle _ _); [by injection Ei as <-|]. destruct (sk_Get _ _); by injection Ei as <-. }
    pose proof (ei_count _ _ _ I). rewrite Ec, wrap64_id by (unfold in64, two63; lia). lia.
  - destruct (ds_writer s); [discriminate Ht|]. injection Ht as <- <-. exact Hrefl.
  - discriminate Ht.
Qed.

Lemma recorded_mono s1 s2 : ok (s1 ++ s2) ->
  recorded (shared (run s1)) <= recorded (shared (run (s1 ++ s2))) /\ ds_log (shared (run s1)) `prefix_of` ds_log (shared (run (s1 ++ s2))).
Proof.
  induction s2 as [|ev s2 IH] using rev_ind; [rewrite app_nil_r; intros _; split; [lia|done]|].
  rewrite app_assoc. intros H. destruct (count_step _ _ H) as (M1 & _ & P1). destruct IH as [M2 P2]; [by eapply conc_ok_prefix|].
  split; [lia|]. by etrans.
Qed.

(** Where a goroutine that started a call of Size after [s1] has got to. *)
Definition size_state (s1 now : dx_shared) (n : nat) (got : list Z) (t : sz_thread) : Prop :=
  t = SSize n false got \/
  (exists n', n = S n' /\ t = SSize n' true got /\ ed_count (ds_rsv now) < size + (recorded now - recorded s1) /\
     (ds_log now = ds_log s1 -> ed_count (ds_rsv s1) < size)) \/
  (exists n' b x more, t = SSize n' b (got ++ x :: more) /\ 0 <= x <= Z.max size total /\
     (x <= size \/ x < size + (recorded now - recorded s1)) /\
     (ds_log now = ds_log s1 -> x = ed_Size (ds_rsv s1))).

Lemma size_run s1 s2 i n got : ok (s1 ++ s2) -> threads (run s1) !! i = Some (SSize n false got) ->
  exists t, threads (run (s1 ++ s2)) !! i = Some t /\ size_state (shared (run s1)) (shared (run (s1 ++ s2))) n got t.
Proof.
  intros H Hi. induction s2 as [|ev s2 IH] using rev_ind; [rewrite app_nil_r; eexists; split; [exact Hi|by left]|].
  rewrite app_assoc in *. assert (H0 := conc_ok_prefix mexp size alpha ms0 _ _ _ H). destruct (IH H0) as (t & Ht & St). clear IH.
  destruct (size_facts _ H) as (C' & S' & R' & _). destruct (size_facts _ H0) as (C0 & S0 & R0 & Hs & _ & r0 & E0 & Er0).
  destruct (size_facts s1 (conc_ok_prefix mexp size alpha ms0 _ s1 s2 H0)) as (C1 & S1 & R1 & _ & _ & r1 & E1 & Er1).
  destruct (recorded_mono s1 s2 H0) as [M0 P0]. destruct (count_step _ _ H) as (M1 & Cs & P1).
  assert (Hback : ds_log (shared (run ((s1 ++ s2) ++ [ev]))) = ds_log (shared (run s1)) -> ds_log (shared (run (s1 ++ s2))) = ds_log (shared (run s1))).
  { intros E. rewrite E in P1. destruct P0 as [a P0], P1 as [b P1]. rewrite P1, <- app_assoc in P0.
    apply (f_equal length) in P0. rewrite !app_length in P0. assert (b = []) as -> by (destruct b; [done|cbn in P0; lia]). by rewrite app_nil_r in P1. }
  assert (Hsame : ds_log (shared (run (s1 ++ s2))) = ds_log (shared (run s1)) -> ed_count (ds_rsv (shared (run (s1 ++ s2)))) = ed_count (ds_rsv (shared (run s1)))).
  { intros E. rewrite E, E1 in E0. injection E0 as <-. congruence. }
  assert (Hkeep : size_state (shared (run s1)) (shared (run ((s1 ++ s2) ++ [ev]))) n got t).
  { destruct St as [->|[(n' & -> & -> & K1 & K2)|(n' & b & x & more & -> & K1 & K2 & K3)]].
    - by left.
    - right. left. exists n'. split; [done|]. split; [done|]. split; [lia|]. intros E. apply K2, Hback, E.
    - right. right. exists n', b, x, more. split; [done|]. split; [done|]. split; [lia|]. intros E. apply K3, Hback, E. }
  clear M1 Cs P1 P0 R' R1 E0 E1 Er0 Er1 Hi. revert Hkeep Hback Ht C0 Hsame M0. unfold sz_crun in *. rewrite crun_snoc.
  change (crun (sz_tstep mexp) dx_estep {| shared := DxShared new false 0 ms0 tick0 []; threads := sz_start <$> progs |} (s1 ++ s2)) with (run (s1 ++ s2)) in *.
  change (crun (sz_tstep mexp) dx_estep {| shared := DxShared new false 0 ms0 tick0 []; threads := sz_start <$> progs |} s1) with (run s1) in *.
  set (r1' := shared (run s1)) in *. clearbody r1'. revert S0 St R0. generalize (run (s1 ++ s2)). intros [s ts] S0 St R0 Hkeep Hback Ht C0 Hsame M0. cbn [shared threads] in *.
  destruct ev as [j|e]; [|by exists t]. cbn [cstep shared threads] in *.
  destruct (ts !! j) as [u|] eqn:Hj; [|by exists t]. destruct (sz_tstep mexp s u) as [[s' u']|] eqn:Hu; [|by exists t]. cbn [shared threads] in *.
  destruct (decide (j = i)) as [->|Hne]; [|exists t; by rewrite list_lookup_insert_ne].
  rewrite Ht in Hj. injection Hj as <-. exists u'. rewrite list_lookup_insert by (by eapply lookup_lt_Some). split; [done|].
  destruct St as [->|[(n' & -> & -> & K1 & K2)|(n' & b & x & more & -> & K1 & K2 & K3)]].
  - destruct n as [|n]; [discriminate Hu|]. cbn [sz_tstep] in Hu. rewrite S0 in Hu. destruct (Z.ltb_spec (ed_count (ds_rsv s)) size) as [L|L]; injection Hu as <- <-.
    + right. left. exists n. split; [done|]. split; [done|]. split; [lia|]. intros E. rewrite <- (Hsame E). exact L.
    + right. right. exists n, false, size, []. split; [done|]. split; [lia|]. split; [left; lia|]. intros E. unfold ed_Size. rewrite <- (Hsame E).
      destruct (Z.ltb_spec (ed_count (ds_rsv s)) (ed_size (ds_rsv r1'))); lia.
  - assert (s' = s /\ u' = SSize n' false (got ++ [ed_count (ds_rsv s)])) as [-> ->] by (destruct n'; cbn in Hu; injection Hu as <- <-; done).
    right. right. exists n', false, (ed_count (ds_rsv s)), []. split; [done|]. split; [lia|]. split; [right; lia|]. intros E. unfold ed_Size. rewrite (Hsame E).
    specialize (K2 E). destruct (Z.ltb_spec (ed_count (ds_rsv r1')) (ed_size (ds_rsv r1'))); lia.
  - assert (Hs' : s' = s /\ exists n'' b' more', u' = SSize n'' b' (got ++ x :: more ++ more')).
    { destruct n' as [|n'], b; cbn in Hu; try discriminate Hu; try (destruct (_ <? _)); injection Hu as <- <-; (split; [done|]).
      - eexists _, _, [_]. by rewrite <- app_assoc.
      - eexists _, _, [_]. by rewrite <- app_assoc.
      - eexists _, _, []. by rewrite app_nil_r.
      - eexists _, _, [_]. by rewrite <- app_assoc. }
    destruct Hs' as [-> (n'' & b' & more' & ->)]. right. right. exists n'', b', x, (more ++ more'). done.
Qed.
End runs.
