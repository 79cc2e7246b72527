(** The steps goroutines make in a compass are bounded. *)
From Verif.Go Require Import GoInt GoFloat GoConc GoCompose.
From Verif.Model Require Import Counter BucketQueue BucketCounter BucketCounterConc BucketReadConc EWMA EWMAConc WeightedSnapshot DecayingReservoir DecayingConc UniformReservoir ReservoirConc BucketReservoir Compass CompassConc CompassFine CompassRead.
From Verif.Spec Require Import BucketSpec ProgressSpec CompassFineSpec CompassReadSpec.
From Verif.Proofs Require Import BucketHist ProgressLemmas ComposeProofs CompassConcProofs CompassFineProofs.
Local Open Scope Z_scope.

(** * Inside the objects of a compass: each call has a fixed number of steps. *)
Definition b_rank (pc : bpc) : Z :=
  match pc with
  | BucketCounterConc.PIdle => 0 | BucketCounterConc.PAdd _ _ => 1 | PSlotStore _ _ _ => 2 | PReload _ => 2 | PSlotLoad _ _ => 3 | PCurStore _ _ _ => 4 | PCurLoad _ _ => 5
  | BucketCounterConc.PCas _ _ _ => 6 | PCmp _ _ _ => 7 | BucketCounterConc.PLoad _ _ => 8 | BucketCounterConc.PClock _ => 9
  end.
Definition b_pot (t : bthread) : Z := 10 * Z.of_nat (length (bt_todo t)) + b_rank (bt_pc t).
Definition t_rank (pc : epc) : Z := match pc with EIdle => 0 | ELoad => 0 | ECas _ => 0 | ELock _ => 4 | ERead _ => 3 | EWrite _ _ => 2 | EUnlock => 1 end.
Definition t_pot (t : ethread) : Z := 5 * Z.of_nat (length (et_todo t)) + t_rank (et_pc t).
Definition t_ok (t : ethread) : Prop := Forall (fun k => exists c, k = ETickN c) (et_todo t) /\ et_pc t <> ELoad /\ forall old, et_pc t <> ECas old.
Definition x_rank (pc : dxpc) : Z :=
  match pc with
  | XIdle => 0 | XPanic => 0 | XInsert _ _ _ _ => 1 | XULock _ _ _ _ => 2 | XLand _ _ _ => 3 | XMs _ _ => 4 | XRead => 1 | XRLock => 2
  | XScale _ _ => 5 | XStart _ _ _ => 6 | XClock _ => 7 | XLock _ => 8 | XCas _ _ _ => 9 | XNext _ _ => 10 | XCmp _ _ => 11 | XTick _ => 12
  end.
Definition x_pot (t : dxthread) : Z := 13 * Z.of_nat (length (dx_todo t)) + x_rank (dx_pc t).
Definition u_rank (pc : rxpc) : Z :=
  match pc with
  | RLock _ _ => 7 | RLoad _ _ => 6 | RStore _ _ _ => 5 | RCmp _ _ => 4 | RIndex _ _ => 3 | RRandom _ _ => 3 | RPut _ _ _ => 2 | RUnlock _ _ => 1 | _ => 0
  end.
Definition u_pot (t : rxthread) : Z := 8 * Z.of_nat (length (rx_todo t)) + u_rank (rx_pc t).
Definition u_ok (t : rxthread) : Prop := Forall (fun k => exists v ds, k = RUpdate v ds) (rx_todo t) /\
  match rx_pc t with RSizeLock | RSizeCmp | RSizeLoad | RSizeUnlock _ | RSnapLock | RSnapCopy _ | RSnapUnlock _ => False | _ => True end.
Definition in_pot (l : cin) : Z := b_pot (ci_bc l) + t_pot (ci_ew l) + x_pot (ci_dx l) + u_pot (ci_rx l).
Definition in_ok (l : cin) : Prop := t_ok (ci_ew l) /\ u_ok (ci_rx l).

Lemma b_pot_nonneg t : 0 <= b_pot t.
Proof. unfold b_pot. destruct (bt_pc t); cbn [b_rank]; lia. Qed.
Lemma in_pot_nonneg l : 0 <= in_pot l.
Proof.
  unfold in_pot, b_pot, t_pot, x_pot, u_pot.
  assert (0 <= b_rank (bt_pc (ci_bc l))) by (destruct (bt_pc _); cbn; lia). assert (0 <= t_rank (et_pc (ci_ew l))) by (destruct (et_pc _); cbn; lia).
  assert (0 <= x_rank (dx_pc (ci_dx l))) by (destruct (dx_pc _); cbn; lia). assert (0 <= u_rank (rx_pc (ci_rx l))) by (destruct (rx_pc _); cbn; lia). lia.
Qed.
Lemma b_step s t s' t' : bc_tstep s t = Some (s', t') -> b_pot t' + 1 <= b_pot t /\ length (dq_queue (bc_buckets (bs_bc s'))) = length (dq_queue (bc_buckets (bs_bc s))).
Proof.
  destruct t as [todo pc]. unfold bc_tstep, b_pot. cbn [bt_pc bt_todo]. intros Hs.
  destruct pc; repeat case_match; simplify_eq; cbn [bt_pc bt_todo b_rank bs_bc set_total set_buckets set_heap publish bc_buckets dq_queue]; cbn [length]; split; try lia; try done; try (by rewrite ?insert_length).
Qed.
Lemma t_step s t s' t' : t_ok t -> ewma_tstep s t = Some (s', t') -> t_ok t' /\ t_pot t' + 1 <= t_pot t.
Proof.
  destruct t as [todo pc got]. unfold ewma_tstep, t_pot, t_ok. cbn [et_pc et_todo et_got]. intros (H1 & H2 & H3) Hs.
  destruct pc as [| |old|c|c|c r|]; [|done|by destruct (H3 old)|..].
  - destruct todo as [|k todo]; [done|]. apply Forall_cons in H1 as [[c ->] H1]. injection Hs as <- <-. cbn [et_todo et_pc t_rank length]. split; [done|lia].
  - destruct (es_locked s); [done|]. injection Hs as <- <-. cbn [et_todo et_pc t_rank length]. split; [done|lia].
  - injection Hs as <- <-. cbn [et_todo et_pc t_rank length]. split; [done|lia].
  - injection Hs as <- <-. cbn [et_todo et_pc t_rank length]. split; [done|lia].
  - injection Hs as <- <-. cbn [et_todo et_pc t_rank length]. split; [done|lia].
Qed.
Lemma x_step math_Exp s t s' t' : dx_tstep math_Exp s t = Some (s', t') -> x_pot t' + 1 <= x_pot t.
Proof.
  destruct t as [todo pc got]. unfold dx_tstep, x_pot. cbn [dx_pc dx_todo dx_got]. intros Hs.
  destruct pc; try (destruct todo as [|k' todo]; [done|]).
  all: repeat match type of Hs with context [if ?b then _ else _] => destruct b | context [match ed_insert ?a ?b ?c ?d with _ => _ end] => destruct (ed_insert a b c d) end; try done; injection Hs as <- <-; cbn [dx_pc dx_todo x_rank length]; try (destruct k; cbn [dx_after x_rank]); lia.
Qed.
Lemma u_step s t s' t' : u_ok t -> rx_tstep s t = Some (s', t') -> u_ok t' /\ u_pot t' + 1 <= u_pot t.
Proof.
  destruct t as [id todo pc got]. unfold rx_tstep, u_pot, u_ok. cbn [rx_pc rx_todo rx_got]. intros (H1 & H2) Hs.
  destruct pc; try done; try (destruct todo as [|k' todo]; [done|]; apply Forall_cons in H1 as [(v & ds & ->) H1]).
  all: repeat match type of Hs with context [if ?b then _ else _] => destruct b | context [match nextRandomPos ?a ?b with _ => _ end] => destruct (nextRandomPos a b) | context [match set_at ?a ?b ?c with _ => _ end] => destruct (set_at a b c) end; try done; injection Hs as <- <-; cbn [rx_pc rx_todo u_rank length]; (split; [done|lia]).
Qed.
Lemma in_step math_Exp o l o' l' : in_ok l -> cobj_step math_Exp o l = Some (o', l') -> in_ok l' /\ in_pot l' + 1 <= in_pot l.
Proof.
  intros [H1 H2] Hs. unfold in_pot, in_ok. destruct o as [s|s|s|s]; cbn [cobj_step] in Hs.
  - destruct (bc_tstep _ _) as [[s1 b]|] eqn:E; [|done]. injection Hs as <- <-. cbn [ci_bc ci_ew ci_dx ci_rx]. apply b_step in E as [E _]. split; [done|lia].
  - destruct (ewma_tstep _ _) as [[s1 b]|] eqn:E; [|done]. injection Hs as <- <-. cbn [ci_bc ci_ew ci_dx ci_rx]. apply t_step in E as [E1 E]; [|done]. split; [done|lia].
  - destruct (dx_tstep _ _ _) as [[s1 b]|] eqn:E; [|done]. injection Hs as <- <-. cbn [ci_bc ci_ew ci_dx ci_rx]. apply x_step in E. split; [done|lia].
  - destruct (rx_tstep _ _) as [[s1 b]|] eqn:E; [|done]. injection Hs as <- <-. cbn [ci_bc ci_ew ci_dx ci_rx]. apply u_step in E as [E1 E]; [|done]. unfold u_ok, u_pot in *. cbn [rx_todo rx_pc]. split; [done|lia].
Qed.
Lemma in_push l a : in_ok l -> in_ok (cin_push l a) /\ in_pot (cin_push l a) <= in_pot l + 13.
Proof.
  intros [[H1 H2] [H3 H4]]. unfold in_pot, in_ok, b_pot, t_pot, x_pot, u_pot, t_ok, u_ok. destruct a; cbn [cin_push ci_bc ci_ew ci_dx ci_rx bt_todo bt_pc et_todo et_pc dx_todo dx_pc rx_todo rx_pc]; rewrite ?app_length; cbn [length];
    (split; [|lia]); (split; (split; [|done])); try done; apply Forall_app; split; try done; apply Forall_singleton; eauto.
Qed.
Lemma in_idle : in_ok cin_idle /\ in_pot cin_idle = 0.
Proof. split; [|done]. repeat split; try done; constructor. Qed.

(** * The compass itself. *)
Section compass.
Context (nt : nat). (* the goroutines *)
Definition after_pot (k : kont) : Z := match k with Some _ => 18 + 2 * Z.of_nat nt | None => 0 end.
Definition round_pot : Z := 6 + 2 * Z.of_nat nt.
Definition tick_pot (k : kont) : Z := 2 ^ 63 * round_pot + 4 + after_pot k.
Definition key_rank (w : which) : Z := match w with Codes => 7 | Addons => 0 end.
Definition k_rank (u : Z) (pc : kpc) : Z :=
  match pc with
  | PIdle => 0
  | PTick k => tick_pot k
  | PClock _ k => tick_pot k - 1
  | PCas _ _ k => tick_pot k - 2
  | PLoop m k => Z.of_nat m * round_pot + 1 + after_pot k
  | PTake m count k => Z.of_nat m * round_pot + (if u =? count then 6 else 8) + 2 * Z.of_nat nt + after_pot k
  | PM1 m _ k => Z.of_nat m * round_pot + 5 + after_pot k
  | PM5 m _ k => Z.of_nat m * round_pot + 4 + after_pot k
  | PM15 m _ k => Z.of_nat m * round_pot + 3 + after_pot k
  | PAdd _ _ => 18 + 2 * Z.of_nat nt
  | PTotal _ _ => 17 | PReservoir _ _ => 16 | PSuccess _ => 15
  | PKey w _ => key_rank w + 7 | PLock w _ => key_rank w + 6 | PFind w _ => key_rank w + 5 | PAssign w _ => key_rank w + 4 | PAssigning w _ => key_rank w + 3 | PUnlock w _ _ => key_rank w + 2 | PCount w _ _ => key_rank w + 1
  | PIter _ m => Z.of_nat m + 1
  end.
Definition k_cost (c : kcall) : Z := match c with KUpdate d r => 1 + tick_pot (Some (d, r)) | KRate => 1 + tick_pot None | KGetter _ m => Z.of_nat m + 2 end.
Definition k_pot (u : Z) (t : kthread) : Z := sumZ (k_cost <$> kt_todo t) + k_rank u (kt_pc t).

Lemma round_pot_pos : 6 <= round_pot.
Proof. unfold round_pot. lia. Qed.
Lemma after_pot_nonneg k : 0 <= after_pot k.
Proof. destruct k; cbn [after_pot]; lia. Qed.
Lemma tick_pot_pos k : 4 <= tick_pot k.
Proof. unfold tick_pot. pose proof round_pot_pos. pose proof (after_pot_nonneg k). nia. Qed.
Lemma k_cost_pos c : 1 <= k_cost c.
Proof. destruct c; cbn [k_cost]; [pose proof (tick_pot_pos (Some (d, r)))|pose proof (tick_pot_pos None)|]; lia. Qed.
Lemma k_rank_nonneg u pc : 0 <= k_rank u pc.
Proof.
  pose proof round_pot_pos. destruct pc; cbn [k_rank]; try (pose proof (after_pot_nonneg k)); try (pose proof (tick_pot_pos k)); try (destruct w; cbn [key_rank]); try (destruct (u =? _)); nia.
Qed.
Lemma k_todo_nonneg l : 0 <= sumZ (k_cost <$> l).
Proof. apply sum_nonneg. intros c _. pose proof (k_cost_pos c). lia. Qed.
Lemma k_pot_nonneg u t : 0 <= k_pot u t.
Proof. unfold k_pot. pose proof (k_rank_nonneg u (kt_pc t)). pose proof (k_todo_nonneg (kt_todo t)). lia. Qed.
Lemma k_pot_change u u' t : k_pot u' t <= k_pot u t + 2.
Proof. unfold k_pot. destruct (kt_pc t); cbn [k_rank]; try lia. destruct (u =? count), (u' =? count); lia. Qed.
Lemma after_tick_rank u k : k_rank u (after_tick k) = after_pot k.
Proof. by destruct k as [[d r]|]. Qed.
Lemma after_key_rank u w r : k_rank u (after_key w r) = key_rank w.
Proof. by destruct w. Qed.
Lemma key_rank_nonneg w : 0 <= key_rank w.
Proof. destruct w; cbn; lia. Qed.
Definition unc (s : cp_shared) : Z := mt_uncounted (cs_meter s).

(** A step of the compass itself: it aborts the process, or it pays for itself, and for what it
    costs the others. *)
Lemma k_step I maxE maxA s t s' t' : cp_tstep I maxE maxA s t = Some (s', t') ->
  cs_crashed s = false /\ 1 <= k_pot (unc s) t /\
  (cs_crashed s' = true \/ (cs_crashed s' = false /\ unc s' = unc s /\ k_pot (unc s') t' + 1 <= k_pot (unc s) t) \/
   (cs_crashed s' = false /\ k_pot (unc s') t' + 1 + 2 * Z.of_nat nt <= k_pot (unc s) t)).
Proof.
  intros Hs. destruct t as [todo pc pan]. unfold cp_tstep in Hs. cbn [kt_todo kt_pc kt_panics] in Hs. destruct (cs_crashed s) eqn:Hnc; [done|].
  pose proof (k_todo_nonneg todo) as Htd.
  assert (Hpc : pc <> PIdle -> 1 <= k_rank (unc s) pc).
  { pose proof round_pot_pos. intros Hne. destruct pc; try done; cbn [k_rank]; try (pose proof (after_pot_nonneg k)); try (pose proof (tick_pot_pos k)); try (pose proof (key_rank_nonneg w)); try (destruct (unc s =? _)); nia. }
  split; [done|]. unfold k_pot. cbn [kt_todo kt_pc].
  destruct pc as [|k|old k|old new k|m k|m count k|m count k|m count k|m count k|d r|d r|d r|r|w r|w r|w r|w r|w r|w p r|w p r|w m].
  1: { destruct todo as [|k todo]; [done|]. rewrite fmap_cons, sumZ_cons in *. pose proof (k_cost_pos k). pose proof (k_todo_nonneg todo). split; [cbn [k_rank]; lia|]. right. left.
       destruct k; injection Hs as <- <-; cbn [kt_todo kt_pc k_rank k_cost] in *; (split; [done|]; split; [done|]); lia. }
  all: split; [specialize (Hpc ltac:(done)); lia|]; clear Hpc.
  - injection Hs as <- <-. right. left. cbn [kt_todo kt_pc k_rank]. split; [done|]. split; [done|lia].
  - right. left. pose proof round_pot_pos. destruct (tickInterval <? _); injection Hs as <- <-; cbn [kt_todo kt_pc]; (split; [done|]; split; [done|]); rewrite ?after_tick_rank; cbn [k_rank]; unfold tick_pot; lia.
  - unfold go_div in Hs. destruct (go_mod _ _) as [r|]; [|done]. change (tickInterval =? 0) with false in Hs. right. left. pose proof round_pot_pos.
    pose proof (wrap64_range (wrap64 (new - old) ÷ tickInterval)) as Hr. unfold in64, two63 in Hr. destruct (_ =? old); injection Hs as <- <-; cbn [kt_todo kt_pc]; (split; [done|]; split; [done|]); rewrite ?after_tick_rank; cbn [k_rank]; unfold tick_pot.
    + assert (Z.of_nat (Z.to_nat (wrap64 (wrap64 (new - old) ÷ tickInterval))) <= 2 ^ 63) by (change (2 ^ 63) with 9223372036854775808; lia). nia.
    + lia.
  - right. left. destruct m as [|m]; injection Hs as <- <-; cbn [kt_todo kt_pc]; (split; [done|]; split; [done|]); rewrite ?after_tick_rank; cbn [k_rank]; [lia|]. unfold unc. rewrite Z.eqb_refl. unfold round_pot. lia.
  - fold (unc s) in Hs. destruct (unc s =? count) eqn:E; injection Hs as <- <-; cbn [kt_todo kt_pc].
    + right. right. split; [done|]. cbn [k_rank]. rewrite E. lia.
    + right. left. split; [done|]. split; [done|]. cbn [k_rank]. rewrite E. unfold round_pot. lia.
  - injection Hs as <- <-. right. left. cbn [kt_todo kt_pc k_rank]. split; [done|]. split; [done|lia].
  - injection Hs as <- <-. right. left. cbn [kt_todo kt_pc k_rank]. split; [done|]. split; [done|lia].
  - injection Hs as <- <-. right. left. cbn [kt_todo kt_pc k_rank]. split; [done|]. split; [done|lia].
  - injection Hs as <- <-. right. right. cbn [kt_todo kt_pc k_rank]. split; [done|lia].
  - injection Hs as <- <-. right. left. cbn [kt_todo kt_pc k_rank]. split; [done|]. split; [done|lia].
  - injection Hs as <- <-. right. left. cbn [kt_todo kt_pc]. split; [done|]. split; [done|]. destruct r; cbn [k_rank]; lia.
  - injection Hs as <- <-. right. left. cbn [kt_todo kt_pc]. destruct (rs_success r); (split; [done|]; split; [done|]); cbn [k_rank key_rank]; lia.
  - right. left. pose proof (key_rank_nonneg w). destruct (0 <? _); injection Hs as <- <-; cbn [kt_todo kt_pc]; (split; [done|]; split; [done|]); rewrite ?after_key_rank; cbn [k_rank]; lia.
  - right. left. destruct (tb_locked _); [done|]. injection Hs as <- <-. cbn [kt_todo kt_pc]. split; [by destruct w|]. split; [by destruct w|]. cbn [k_rank]. lia.
  - destruct (tb_writing _); [injection Hs as <- <-; by left|]. right. left. destruct (tb_map _ !! _); [|destruct (_ <? _)]; injection Hs as <- <-; cbn [kt_todo kt_pc]; (split; [done|]; split; [done|]); cbn [k_rank]; lia.
  - destruct (tb_writing _); [injection Hs as <- <-; by left|]. right. left. injection Hs as <- <-. cbn [kt_todo kt_pc]. split; [by destruct w|]. split; [by destruct w|]. cbn [k_rank]. lia.
  - right. left. injection Hs as <- <-. cbn [kt_todo kt_pc]. split; [by destruct w|]. split; [by destruct w|]. cbn [k_rank]. lia.
  - right. left. injection Hs as <- <-. cbn [kt_todo kt_pc]. split; [by destruct w|]. split; [by destruct w|]. cbn [k_rank]. lia.
  - right. left. pose proof (key_rank_nonneg w). destruct p; injection Hs as <- <-; cbn [kt_todo kt_pc].
    + split; [by destruct w|]. split; [by destruct w|]. rewrite after_key_rank. cbn [k_rank]. lia.
    + split; [done|]. split; [done|]. cbn [k_rank]. lia.
  - destruct (tb_writing _); [injection Hs as <- <-; by left|]. right. left. injection Hs as <- <-. cbn [kt_todo kt_pc]. split; [done|]. split; [done|]. destruct m; cbn [k_rank]; lia.
Qed.

(** * With the objects. *)
Notation gth := (gthread kthread cin ckey cop).
Definition f_pot (u : Z) (g : gth) : Z := 15 * k_pot u (gt_client g) + match gt_in g with Some k => 1 + in_pot (inside_of cin_idle k g) | None => 0 end.
Definition f_ok (g : gth) : Prop := forall k, in_ok (inside_of cin_idle k g) /\ (gt_in g <> Some k -> in_pot (inside_of cin_idle k g) = 0).
Lemma f_pot_nonneg u g : 0 <= f_pot u g.
Proof. unfold f_pot. pose proof (k_pot_nonneg u (gt_client g)). destruct (gt_in g); [|lia]. pose proof (in_pot_nonneg (inside_of cin_idle c g)). lia. Qed.
Lemma f_pot_change u u' g : f_pot u' g <= f_pot u g + 30.
Proof. unfold f_pot. pose proof (k_pot_change u u' (gt_client g)). destruct (gt_in g); lia. Qed.
Lemma f_push u g l : f_pot u (g_push g l) = f_pot u g + 15 * sumZ (k_cost <$> l).
Proof. unfold f_pot, g_push, inside_of, k_pot. cbn [gt_client gt_in gt_local kt_todo kt_pc]. rewrite fmap_app, sumZ_app. destruct (gt_in g); lia. Qed.

Definition rings (L : Z) (s : gshared cp_shared cenv ckey cobj) : Prop :=
  forall k b, gs_objs s !! k = Some (OCounter b) -> Z.of_nat (length (dq_queue (bc_buckets (bs_bc b)))) <= L.

Lemma returned_pot l : cin_returned l = true -> in_pot l = 0.
Proof. intros H. unfold cin_returned in H. repeat case_match; try done; by subst. Qed.

Lemma f_step math_Exp rk I N maxE maxA L s g s' g' : Z.of_nat (Z.to_nat (N + 1)) <= L -> rings L s -> f_ok g -> cf_gstep math_Exp rk I N maxE maxA s g = Some (s', g') ->
  let u := unc (gs_client s) in let u' := unc (gs_client s') in
  rings L s' /\ f_ok g' /\ cs_crashed (gs_client s) = false /\ 1 <= f_pot u g /\
  (cs_crashed (gs_client s') = true \/ (cs_crashed (gs_client s') = false /\ u' = u /\ f_pot u' g' + 1 <= f_pot u g) \/
   (cs_crashed (gs_client s') = false /\ f_pot u' g' + 1 + 30 * Z.of_nat nt <= f_pot u g)).
Proof.
  intros HL Hr Hok Hs. cbv zeta. unfold cf_gstep, gstep in Hs. destruct (cs_crashed (gs_client s)) eqn:Hnc; [done|].
  pose proof (k_pot_nonneg (unc (gs_client s)) (gt_client g)) as Hk0. destruct (gt_in g) as [k|] eqn:Ein.
  - destruct (Hok k) as [Hok1 _]. pose proof (in_pot_nonneg (inside_of cin_idle k g)) as Hi0. destruct (cin_returned (inside_of cin_idle k g)) eqn:Eret.
    + injection Hs as <- <-. apply returned_pot in Eret. split; [done|]. split.
      { intros k'. destruct (Hok k') as [A B]. split; [exact A|]. intros _. change (in_pot (inside_of cin_idle k' g) = 0). destruct (decide (k = k')) as [<-|Hne]; [exact Eret|]. apply B. congruence. }
      split; [done|]. unfold f_pot. rewrite Ein. cbn [gt_client gt_in]. split; [lia|]. right. left. split; [done|]. split; [done|]. lia.
    + destruct (gs_objs s !! k) as [o|] eqn:Eo; [|done]. destruct (cobj_step math_Exp o (inside_of cin_idle k g)) as [[o' l']|] eqn:Est; [|done]. injection Hs as <- <-. cbn [gs_client].
      pose proof (in_step _ _ _ _ _ Hok1 Est) as [Hok' Hpot]. split.
      { intros k' b. cbn [gs_objs]. destruct (decide (k' = k)) as [->|Hne]; [rewrite lookup_insert|rewrite lookup_insert_ne by done; apply Hr]. intros [= ->].
        destruct o as [b0|b0|b0|b0]; cbn [cobj_step] in Est.
        - destruct (bc_tstep b0 _) as [[b1 b2]|] eqn:Eb; [|done]. injection Est as -> _. apply b_step in Eb as [_ Eb]. rewrite Eb. by apply (Hr k).
        - by destruct (ewma_tstep b0 _) as [[]|].
        - by destruct (dx_tstep _ b0 _) as [[]|].
        - by destruct (rx_tstep b0 _) as [[]|]. }
      assert (Hin : forall k', inside_of cin_idle k' (GThread (gt_client g) (Some k) (<[k:=l']> (gt_local g)) (gt_made g)) = if decide (k' = k) then l' else inside_of cin_idle k' g).
      { intros k'. unfold inside_of. cbn [gt_local]. case_decide as E; [by rewrite E, lookup_insert|by rewrite lookup_insert_ne by done]. }
      split.
      { intros k'. rewrite Hin. cbn [gt_in]. case_decide as E; [split; [done|congruence]|]. destruct (Hok k') as [A B]. split; [done|]. intros _. apply B. congruence. }
      split; [done|]. unfold f_pot. rewrite Ein. cbn [gt_client gt_in]. rewrite Hin, decide_True by done. split; [lia|]. right. left. split; [done|]. split; [done|]. lia.
  - destruct (cp_tstep I maxE maxA (gs_client s) (gt_client g)) as [[s1 t1]|] eqn:Est; [|done]. pose proof (k_step _ _ _ _ _ _ _ Est) as (_ & H1 & H2).
    assert (Hzero : forall k, in_pot (inside_of cin_idle k g) = 0) by (intros k; apply Hok; congruence).
    destruct (cf_effect rk I N (gs_client s) (gt_client g) (gs_env s)) as [[|k o|k a]|] eqn:Eff; [..|done]; injection Hs as <- <-; cbn [gs_client].
    + split; [exact Hr|]. split; [intros k; split; [apply Hok|intros _; apply Hzero]|]. split; [done|]. unfold f_pot. rewrite Ein. cbn [gt_client gt_in]. split; [lia|].
      destruct H2 as [H2|[(H2 & H3 & H4)|(H2 & H4)]]; [by left|right; left; split_and!; [done..|lia]|right; right; split; [done|lia]].
    + split.
      { intros k' b. cbn [gs_objs]. destruct (decide (k' = k)) as [->|Hne]; [rewrite lookup_insert|rewrite lookup_insert_ne by done; apply Hr]. intros [= ->].
        unfold cf_effect in Eff. destruct (kt_pc (gt_client g)); try done; [by destruct (rs_success r)| |by destruct p].
        unfold new_counter, newBucketCounterImpl, newBucketDequeue in Eff. destruct (N + 1 <? 0) eqn:EN; [done|]. cbn [mbind res_bind fst snd] in Eff. destruct (dq_peek _) as [p|]; [|done]. cbn [mbind res_bind] in Eff.
        injection Eff as _ <-. cbn [bs_bc bc_buckets dq_queue]. by rewrite seq_length. }
      split; [intros k'; split; [apply Hok|intros _; apply Hzero]|]. split; [done|]. unfold f_pot. rewrite Ein. cbn [gt_client gt_in]. split; [lia|].
      destruct H2 as [H2|[(H2 & H3 & H4)|(H2 & H4)]]; [by left|right; left; split_and!; [done..|lia]|right; right; split; [done|lia]].
    + split; [exact Hr|]. pose proof (in_push (inside_of cin_idle k g) a (proj1 (Hok k))) as [Hok' Hpot]. rewrite Hzero in Hpot.
      assert (Hin : forall k', inside_of cin_idle k' (GThread t1 (Some k) (<[k:=cin_push (inside_of cin_idle k g) a]> (gt_local g)) (gt_made g ++ [(k, a)])) = if decide (k' = k) then cin_push (inside_of cin_idle k g) a else inside_of cin_idle k' g).
      { intros k'. unfold inside_of at 1. cbn [gt_local]. case_decide as E; [by rewrite E, lookup_insert|by rewrite lookup_insert_ne by done]. }
      split.
      { intros k'. rewrite Hin. cbn [gt_in]. case_decide as E; [split; [done|congruence]|]. split; [apply Hok|]. intros _. apply Hzero. }
      split; [done|]. unfold f_pot. rewrite Ein. cbn [gt_client gt_in]. rewrite Hin, decide_True by done. split; [lia|].
      destruct H2 as [H2|[(H2 & H3 & H4)|(H2 & H4)]]; [by left|right; left; split_and!; [done..|lia]|right; right; split; [done|lia]].
Qed.

(** * With the reading calls. *)
Context (L : Z). (* slots of a bucket counter *)
Definition rd_rank (pc : rdpc) : Z :=
  match pc with
  | BucketReadConc.RIdle => 0
  | RFill _ _ l _ => Z.of_nat (length l) + 1
  | RLoop2 _ _ _ _ i acc => 2 * Z.of_nat i + Z.of_nat (length acc) + 2
  | RLoop1 _ _ pos _ i1 acc => 2 * Z.max 0 (L - (Z.of_nat pos + 1 - Z.of_nat i1)) + 2 * L + Z.of_nat (length acc) + 3
  | RTop _ _ _ _ => 4 * L + 4
  | RCur2 _ _ _ => 4 * L + 5
  | RCur _ _ => 4 * L + 6
  | BucketReadConc.RClock _ => 4 * L + 7
  end.
Lemma rd_rank_nonneg pc : 0 <= L -> 0 <= rd_rank pc.
Proof. intros H. destruct pc; cbn [rd_rank]; lia. Qed.
Lemma rd_drop s pc t' : 0 <= L -> Z.of_nat (length (dq_queue (bc_buckets (bs_bc s)))) <= L -> rd_step s (RdThread [] pc []) = Some t' ->
  rd_rank (rd_pc t') + 1 <= rd_rank pc /\ rd_todo t' = [] /\ ((rd_pc t' <> BucketReadConc.RIdle /\ rd_got t' = []) \/ (rd_pc t' = BucketReadConc.RIdle /\ exists m, rd_got t' = [m])).
Proof.
  intros HL0 HL Hs. unfold rd_step in Hs. cbn [rd_pc rd_todo rd_got] in Hs. destruct pc as [|start|start cts|start cts pos|start cts pos j|start cts pos sts i1 acc|start cts pos sts i acc|start cts l result]; cbn [rd_rank].
  - done.
  - destruct (alignTimestamp _ _); [|done]. injection Hs as <-. cbn [rd_pc rd_todo rd_got rd_rank]. split; [lia|]. split; [done|]. by left.
  - injection Hs as <-. cbn [rd_pc rd_todo rd_got rd_rank]. split; [lia|]. split; [done|]. by left.
  - injection Hs as <-. cbn [rd_pc rd_todo rd_got rd_rank]. split; [lia|]. split; [done|]. by left.
  - destruct (_ !! j) as [p|]; [|done]. cbn [mbind option_bind] in Hs. destruct (_ !! p) as [b|]; [|done]. cbn [mbind option_bind] in Hs. injection Hs as <-. cbn [rd_pc rd_todo rd_got rd_rank length]. split; [lia|]. split; [done|]. by left.
  - destruct i1 as [|i].
    + injection Hs as <-. cbn [rd_pc rd_todo rd_got rd_rank]. split; [lia|]. split; [done|]. by left.
    + destruct (pos - i <? _)%nat eqn:E.
      * apply Nat.ltb_lt in E. destruct (_ !! i) as [p|]; [|done]. cbn [mbind option_bind] in Hs. injection Hs as <-. cbn [rd_pc rd_todo rd_got rd_rank]. rewrite app_length. cbn [length]. split; [lia|]. split; [done|]. by left.
      * injection Hs as <-. cbn [rd_pc rd_todo rd_got rd_rank]. split; [lia|]. split; [done|]. by left.
  - destruct (pos + 1 <? i)%nat eqn:E.
    + apply Nat.ltb_lt in E. destruct (_ !! i) as [p|]; [|done]. cbn [mbind option_bind] in Hs. destruct (_ !! p) as [b|]; [|done]. cbn [mbind option_bind] in Hs. injection Hs as <-. cbn [rd_pc rd_todo rd_got rd_rank].
      split; [|split; [done|by left]]. destruct (bk_ts b <=? sts); rewrite ?app_length; cbn [length]; lia.
    + injection Hs as <-. cbn [rd_pc rd_todo rd_got rd_rank]. split; [lia|]. split; [done|]. by left.
  - destruct l as [|p l].
    + injection Hs as <-. cbn [rd_pc rd_todo rd_got rd_rank app length]. split; [lia|]. split; [done|]. right. by eauto.
    + destruct (_ !! p) as [b|]; [|done]. cbn [mbind option_bind] in Hs. injection Hs as <-. cbn [rd_pc rd_todo rd_got rd_rank length]. split; [lia|]. split; [done|]. by left.
Qed.
Definition RD : Z := 4 * L + 7.
Definition at_pot (pc : dpc) : Z :=
  match pc with
  | DAt _ => 2 * RD + 1
  | DSince _ t => rd_rank (rd_pc t)
  | DMean _ => 1
  | DValue _ _ _ t => rd_rank (rd_pc t) + RD
  | DTotal _ _ _ t => rd_rank (rd_pc t)
  end.
Definition at_ok (pc : dpc) : Prop :=
  match pc with
  | DAt _ | DMean _ => True
  | DSince _ t | DValue _ _ _ t | DTotal _ _ _ t => rd_todo t = [] /\ rd_got t = []
  end.
Lemma read_drop I startTime s pc r : 0 <= L -> rings L s -> at_ok pc -> read_step I startTime s pc = Some r ->
  1 <= at_pot pc /\ match r with inl pc' => at_ok pc' /\ at_pot pc' + 1 <= at_pot pc | inr _ => True end.
Proof.
  intros HL0 HL Hok Hs. assert (HRD : RD = 4 * L + 7) by reflexivity.
  assert (Hring : forall k b, counter_of s k = Some b -> Z.of_nat (length (dq_queue (bc_buckets (bs_bc b)))) <= L).
  { intros k b. unfold counter_of. destruct (gs_objs s !! k) as [[]|] eqn:E; try done. intros [= ->]. by eapply HL. }
  destruct pc as [[k|k start|k| |k|i j]|k t|count|start i j t|start v j t]; cbn [read_step at_pot] in *.
  - split; [lia|]. destruct (counter_of s k); [|done]. cbn in Hs. by injection Hs as <-.
  - split; [lia|]. injection Hs as <-. cbn [at_ok at_pot since rd_todo rd_pc rd_got rd_rank]. split; [done|lia].
  - split; [lia|]. destruct (counter_of s k); [|done]. cbn [mbind option_bind] in Hs. destruct (bc_LastUpdateTime _); [|done]. by injection Hs as <-.
  - split; [lia|]. destruct (counter_of s KTotal); [|done]. cbn [mbind option_bind] in Hs. injection Hs as <-. split; [done|]. cbn [at_pot]. lia.
  - split; [lia|]. destruct (average_of s k); [|done]. cbn [mbind option_bind] in Hs. by injection Hs as <-.
  - split; [lia|]. destruct (counter_of s KValues); [|done]. cbn [mbind option_bind] in Hs. destruct (br_alignToBucketStartTimeInMs _ _); [|done]. injection Hs as <-. cbn [at_ok at_pot since rd_todo rd_pc rd_got rd_rank]. split; [done|lia].
  - destruct t as [todo pc got]. destruct Hok as [E1 E2]. cbn [rd_todo rd_got] in E1, E2. subst todo got. destruct (counter_of s k) as [b|] eqn:Eb; [|done]. cbn [mbind option_bind] in Hs.
    destruct (rd_step b _) as [t'|] eqn:Et; [|done]. apply rd_drop in Et as (D1 & D2 & D3); [|done|by eapply Hring]. cbn [rd_pc]. pose proof (rd_rank_nonneg (rd_pc t') HL0). split; [lia|].
    destruct t' as [td' pc' got']. cbn [rd_todo rd_pc rd_got] in *. subst td'. destruct D3 as [[D3 ->]|[-> [m ->]]].
    + destruct pc'; try done; injection Hs as <-; split; try done; exact D1.
    + by injection Hs as <-.
  - split; [lia|]. by injection Hs as <-.
  - destruct t as [todo pc got]. destruct Hok as [E1 E2]. cbn [rd_todo rd_got] in E1, E2. subst todo got. destruct (counter_of s KValues) as [b|] eqn:Eb; [|done]. cbn [mbind option_bind] in Hs.
    destruct (rd_step b _) as [t'|] eqn:Et; [|done]. apply rd_drop in Et as (D1 & D2 & D3); [|done|by eapply Hring]. cbn [rd_pc]. pose proof (rd_rank_nonneg (rd_pc t') HL0). split; [lia|].
    destruct t' as [td' pc' got']. cbn [rd_todo rd_pc rd_got] in *. subst td'. destruct D3 as [[D3 ->]|[-> [m ->]]].
    + destruct pc'; try done; injection Hs as <-; split; try done; cbn [at_pot rd_pc]; lia.
    + injection Hs as <-. split; [done|]. cbn [at_pot since rd_pc rd_rank]. cbn [rd_rank] in D1. lia.
  - destruct t as [todo pc got]. destruct Hok as [E1 E2]. cbn [rd_todo rd_got] in E1, E2. subst todo got. destruct (counter_of s KTotal) as [b|] eqn:Eb; [|done]. cbn [mbind option_bind] in Hs.
    destruct (rd_step b _) as [t'|] eqn:Et; [|done]. apply rd_drop in Et as (D1 & D2 & D3); [|done|by eapply Hring]. cbn [rd_pc]. pose proof (rd_rank_nonneg (rd_pc t') HL0). split; [lia|].
    destruct t' as [td' pc' got']. cbn [rd_todo rd_pc rd_got] in *. subst td'. destruct D3 as [[D3 ->]|[-> [m ->]]].
    + destruct pc'; try done; injection Hs as <-; split; try done; exact D1.
    + by injection Hs as <-.
Qed.

Definition d_cost (c : dcall) : Z := match c with DWrite k => 1 + 15 * k_cost k | DRead _ => 2 * RD + 2 end.
Definition d_pot (u : Z) (t : dthread) : Z := sumZ (d_cost <$> dt_todo t) + f_pot u (dt_g t) + match dt_read t with Some (_, pc) => at_pot pc | None => 0 end.
Definition d_ok (t : dthread) : Prop := f_ok (dt_g t) /\ match dt_read t with Some (_, pc) => at_ok pc | None => True end.
Lemma d_cost_pos c : 0 <= L -> 1 <= d_cost c.
Proof. intros H. destruct c as [k|]; cbn [d_cost]; [pose proof (k_cost_pos k)|unfold RD]; lia. Qed.
Lemma d_todo_nonneg l : 0 <= L -> 0 <= sumZ (d_cost <$> l).
Proof. intros H. apply sum_nonneg. intros c _. pose proof (d_cost_pos c H). lia. Qed.
Lemma at_pot_nonneg pc : 0 <= L -> 0 <= at_pot pc.
Proof. intros H. assert (RD = 4 * L + 7) by reflexivity. destruct pc; cbn [at_pot]; try (pose proof (rd_rank_nonneg (rd_pc t) H)); lia. Qed.
Lemma d_pot_nonneg u t : 0 <= L -> 0 <= d_pot u t.
Proof. intros H. unfold d_pot. pose proof (d_todo_nonneg (dt_todo t) H). pose proof (f_pot_nonneg u (dt_g t)). destruct (dt_read t) as [[c pc]|]; [pose proof (at_pot_nonneg pc H)|]; lia. Qed.
Lemma d_pot_change u u' t : d_pot u' t <= d_pot u t + 30.
Proof. unfold d_pot. pose proof (f_pot_change u u' (dt_g t)). lia. Qed.

Lemma d_step math_Exp rk I N maxE maxA startTime s t s' t' : 0 <= L -> Z.of_nat (Z.to_nat (N + 1)) <= L -> rings L s -> d_ok t -> cr_tstep math_Exp rk I N maxE maxA startTime s t = Some (s', t') ->
  let u := unc (gs_client s) in let u' := unc (gs_client s') in
  rings L s' /\ d_ok t' /\ cs_crashed (gs_client s) = false /\ 1 <= d_pot u t /\
  (cs_crashed (gs_client s') = true \/ (cs_crashed (gs_client s') = false /\ u' = u /\ d_pot u' t' + 1 <= d_pot u t) \/
   (cs_crashed (gs_client s') = false /\ d_pot u' t' + 1 + 30 * Z.of_nat nt <= d_pot u t)).
Proof.
  intros HL0 HL Hr [Hok1 Hok2] Hs. cbv zeta. unfold cr_tstep in Hs. destruct (cs_crashed (gs_client s)) eqn:Hnc; [done|]. unfold d_pot, d_ok.
  pose proof (d_todo_nonneg (dt_todo t) HL0) as Htd. pose proof (f_pot_nonneg (unc (gs_client s)) (dt_g t)) as Hf.
  destruct (dt_read t) as [[call pc]|].
  - destruct (read_step _ _ _ _) as [r|] eqn:Er; [|done]. apply read_drop in Er as [H1 H2]; [|done..]. destruct r as [pc'|a]; injection Hs as <- <-; cbn [dt_todo dt_g dt_read].
    + destruct H2 as [H2 H3]. split; [done|]. split; [done|]. split; [done|]. split; [lia|]. right. left. split; [done|]. split; [done|]. lia.
    + split; [done|]. split; [done|]. split; [done|]. split; [lia|]. right. left. split; [done|]. split; [done|]. lia.
  - destruct (at_rest (dt_g t)).
    + destruct (dt_todo t) as [|c todo]; [done|]. rewrite fmap_cons, sumZ_cons in *. pose proof (d_cost_pos c HL0). pose proof (d_todo_nonneg todo HL0). destruct c as [c|c]; injection Hs as <- <-; cbn [dt_todo dt_g dt_read d_cost] in *.
      * split; [done|]. split; [split; [exact Hok1|done]|]. split; [done|]. split; [lia|]. right. left. split; [done|]. split; [done|]. rewrite f_push. cbn [fmap list_fmap]. rewrite sumZ_cons. change (sumZ []) with 0. lia.
      * split; [done|]. split; [done|]. split; [done|]. split; [lia|]. right. left. split; [done|]. split; [done|]. cbn [at_pot]. lia.
    + destruct (cf_gstep _ _ _ _ _ _ _ _) as [[s1 g1]|] eqn:Eg; [|done]. injection Hs as <- <-. cbn [dt_todo dt_g dt_read]. apply (f_step _ _ _ _ _ _ L) in Eg as (F1 & F2 & F3 & F4 & F5); [|done..].
      split; [done|]. split; [done|]. split; [done|]. split; [lia|]. destruct F5 as [H2|[(H2 & H3 & H4)|(H2 & H4)]]; [by left|right; left; split_and!; [done..|lia]|right; right; split; [done|lia]].
Qed.
End compass.
