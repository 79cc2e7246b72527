(** The steps goroutines make in a fast compass are bounded. *)
From Verif.Go Require Import GoInt GoConc.
From Verif.Model Require Import Counter BucketQueue BucketCounter BucketCounterConc BucketReadConc FastCompass FastCompassConc FastCompassFine.
From Verif.Spec Require Import BucketSpec ProgressSpec.
From Verif.Proofs Require Import BucketHist ProgressLemmas CompassBound FastCompassFineSafe.
Local Open Scope Z_scope.

Section fast.
Context (L M : Z). (* slots of a bucket counter; categories *)
Context (HL0 : 0 <= L) (HM0 : 0 <= M).
Notation RE := (4 * L + 10).
Definition fpc_rank (pc : fpc) : Z :=
  match pc with
  | FIdle => 0 | FUnlock => 1 | FUpdate _ _ _ => 13 | FAssigning _ _ _ _ => 14 | FAssign _ _ _ _ => 15 | FCreate _ _ => 16 | FLookup _ _ => 17 | FLock _ _ => 18
  | FIter k => Z.of_nat k + 1
  end.
Definition q_rank (pc : qpc) : Z :=
  match pc with
  | QAt pc => fpc_rank pc
  | QUpdate _ _ _ u => b_pot u + 2
  | QStart _ order => RE * (Z.of_nat (length order) + M) + 2
  | QIter _ rest => RE * Z.of_nat (length rest) + 1
  | QRead _ _ _ _ r rest => rd_rank L (rd_pc r) + 2 + RE * Z.of_nat (length rest)
  | QLoad _ _ rest => 3 + RE * Z.of_nat (length rest)
  | QStamp _ _ _ rest => 2 + RE * Z.of_nat (length rest)
  end.
Definition q_cost (c : qcall) : Z :=
  match c with QRecord _ _ => 19 | QGet _ _ order | QLast order => RE * (Z.of_nat (length order) + M) + 3 end.
Definition q_pot (t : qthread) : Z := sumZ (q_cost <$> q_todo t) + q_rank (q_pc t).
Definition ring (bc : bucket_counter) : Prop := Z.of_nat (length (dq_queue (bc_buckets bc))) <= L.
Definition q_ok (t : qthread) : Prop :=
  match q_pc t with
  | QAt (FAssign _ _ _ bc) | QAt (FAssigning _ _ _ bc) => ring bc
  | QRead _ _ _ _ r _ => rd_todo r = []
  | _ => True
  end.
Definition fast_ok (s : fc_shared) : Prop := Z.of_nat (Z.to_nat (fc_numberOfBuckets (fs_fc s) + 1)) <= L /\ forall cat bc, fc_subCategories (fs_fc s) !! cat = Some bc -> ring bc.

Lemma q_cost_pos c : 1 <= q_cost c.
Proof using HL0 HM0. destruct c; cbn [q_cost]; nia. Qed.
Lemma q_todo_nonneg l : 0 <= sumZ (q_cost <$> l).
Proof using HL0 HM0. apply sum_nonneg. intros c _. pose proof (q_cost_pos c). lia. Qed.
Lemma q_rank_nonneg pc : 0 <= q_rank pc.
Proof using HL0 HM0.
  destruct pc as [pc|d cat ct u|job order|job rest|g start result cat r rest|result cat rest|result cat p rest]; cbn [q_rank]; [destruct pc; cbn [fpc_rank]; lia|pose proof (b_pot_nonneg u); lia|nia|nia|pose proof (rd_rank_nonneg L (rd_pc r) HL0); nia|nia|nia].
Qed.
Lemma q_pot_nonneg t : 0 <= q_pot t.
Proof using HL0 HM0. unfold q_pot. pose proof (q_todo_nonneg (q_todo t)). pose proof (q_rank_nonneg (q_pc t)). lia. Qed.

Lemma next_pot s t job rest : q_ok (next_entry s t job rest) /\ q_pot (next_entry s t job rest) <= sumZ (q_cost <$> q_todo t) + RE * Z.of_nat (length rest).
Proof using HL0 HM0.
  unfold next_entry, q_pot. destruct rest as [|cat rest]; cbn [q_todo q_pc q_rank fpc_rank length]; [split; [done|lia]|].
  destruct (_ !! cat); [destruct job|]; cbn [q_pc q_rank rd_pc rd_rank]; (split; [done|nia]).
Qed.

Lemma q_step s t s' t' : fast_ok s -> Z.of_nat (size (fc_subCategories (fs_fc s))) <= M -> q_ok t -> ff_tstep s t = Some (s', t') ->
  fast_ok s' /\ q_ok t' /\ fs_crashed s = false /\ 1 <= q_pot t /\ (fs_crashed s' = true \/ (fs_crashed s' = false /\ q_pot t' + 1 <= q_pot t)).
Proof using HL0 HM0.
  intros [HN HR] HM Hok Hs. unfold ff_tstep in Hs. destruct (fs_crashed s) eqn:Hnc; [done|]. destruct t as [todo pc got]. unfold q_ok in Hok. cbn [q_pc q_todo q_got] in *.
  pose proof (q_todo_nonneg todo) as Htd. unfold q_pot at 1 3. cbn [q_pc q_todo].
  destruct pc as [pc|d cat ct u|job order|job rest|g start result cat r rest|result cat rest|result cat p rest].
  - destruct pc as [|d cat|d cat|d cat|d cat ct bc|d cat ct bc|d cat ct| |k].
    + destruct todo as [|c todo]; [done|]. rewrite fmap_cons, sumZ_cons in *. pose proof (q_cost_pos c). pose proof (q_todo_nonneg todo). cbn [q_rank fpc_rank].
      destruct c as [d cat|g start order|order]; [destruct (_ || _)|..]; injection Hs as <- <-; (split; [by split|]; split; [done|]; split; [done|]; split; [lia|]; right; split; [done|]); unfold q_pot; cbn [q_todo q_pc q_rank fpc_rank q_cost]; lia.
    + unfold ff_at, fc_tstep in Hs. rewrite Hnc in Hs. cbn [ft_pc ft_todo] in Hs. destruct (fs_locked s); [done|]. injection Hs as <- <-.
      split; [by split|]. split; [done|]. split; [done|]. cbn [q_rank fpc_rank]. split; [lia|]. right. split; [done|]. unfold q_pot. cbn [q_todo q_pc q_rank fpc_rank ft_pc]. lia.
    + unfold ff_at, fc_tstep in Hs. rewrite Hnc in Hs. cbn [ft_pc ft_todo] in Hs. destruct (fs_writing s).
      { injection Hs as <- <-. split; [by split|]. split; [done|]. split; [done|]. cbn [q_rank fpc_rank]. split; [lia|]. by left. }
      destruct (_ !! cat); [|destruct (_ <=? _)]; injection Hs as <- <-; (split; [by split|]; split; [done|]; split; [done|]; cbn [q_rank fpc_rank]; split; [lia|]; right; split; [done|]); unfold q_pot; cbn [q_todo q_pc q_rank fpc_rank ft_pc]; lia.
    + unfold ff_at, fc_tstep in Hs. rewrite Hnc in Hs. cbn [ft_pc ft_todo] in Hs. destruct (newBucketCounterImpl _ _ _ _) as [bc|] eqn:En; [|done]. injection Hs as <- <-.
      split; [by split|]. split; [|split; [done|]; cbn [q_rank fpc_rank]; split; [lia|]; right; split; [done|]; unfold q_pot; cbn [q_todo q_pc q_rank fpc_rank ft_pc]; lia].
      unfold q_ok. cbn [q_pc ft_pc]. unfold newBucketCounterImpl, newBucketDequeue in En. destruct (_ <? 0); [done|]. cbn [mbind res_bind fst snd] in En. destruct (dq_peek _) as [p|]; [|done]. cbn [mbind res_bind] in En. injection En as <-.
      unfold ring. cbn [bc_buckets dq_queue]. by rewrite seq_length.
    + unfold ff_at, fc_tstep in Hs. rewrite Hnc in Hs. cbn [ft_pc ft_todo] in Hs. destruct (fs_writing s).
      { injection Hs as <- <-. split; [by split|]. split; [done|]. split; [done|]. cbn [q_rank fpc_rank]. split; [lia|]. by left. }
      injection Hs as <- <-. split; [by split|]. split; [exact Hok|]. split; [done|]. cbn [q_rank fpc_rank]. split; [lia|]. right. split; [done|]. unfold q_pot. cbn [q_todo q_pc q_rank fpc_rank ft_pc]. lia.
    + unfold ff_at, fc_tstep in Hs. rewrite Hnc in Hs. cbn [ft_pc ft_todo] in Hs. injection Hs as <- <-. split.
      { split; [done|]. intros cat' bc'. cbn. destruct (decide (cat' = cat)) as [->|]; [rewrite lookup_insert; by intros [= <-]|rewrite lookup_insert_ne by done; apply HR]. }
      split; [done|]. split; [done|]. cbn [q_rank fpc_rank]. split; [lia|]. right. split; [done|]. unfold q_pot. cbn [q_todo q_pc q_rank fpc_rank ft_pc]. lia.
    + injection Hs as <- <-. split; [by split|]. split; [done|]. split; [done|]. cbn [q_rank fpc_rank]. split; [lia|]. right. split; [done|]. unfold q_pot, b_pot. cbn [q_todo q_pc q_rank bt_todo bt_pc b_rank length]. unfold b_pot. cbn [bt_todo bt_pc b_rank length]. lia.
    + unfold ff_at, fc_tstep in Hs. rewrite Hnc in Hs. cbn [ft_pc ft_todo] in Hs. injection Hs as <- <-. split; [by split|]. split; [done|]. split; [done|]. cbn [q_rank fpc_rank]. split; [lia|]. right. split; [done|]. unfold q_pot. cbn [q_todo q_pc q_rank fpc_rank ft_pc]. lia.
    + unfold ff_at, fc_tstep in Hs. rewrite Hnc in Hs. cbn [ft_pc ft_todo] in Hs. destruct (fs_writing s).
      { injection Hs as <- <-. split; [by split|]. split; [done|]. split; [done|]. cbn [q_rank fpc_rank]. split; [lia|]. by left. }
      injection Hs as <- <-. cbn [q_rank fpc_rank ft_pc]. split; [by split|]. split; [by destruct k|]. split; [done|]. split; [lia|]. right. split; [done|]. unfold q_pot. cbn [q_todo q_pc q_rank]. destruct k; cbn [fpc_rank]; lia.
  - pose proof (b_pot_nonneg u) as Hb. cbn [q_rank].
    assert (Hcase : (u = BThread [] BucketCounterConc.PIdle /\ Some (s, QThread todo (QAt FUnlock) got) = Some (s', t')) \/
      exists bc o u', fc_subCategories (fs_fc s) !! cat = Some bc /\ bc_tstep (BcShared bc (fs_clock s)) u = Some (o, u') /\
        Some (with_fc s (set_sub (fs_fc s) (<[cat := bs_bc o]> (fc_subCategories (fs_fc s)))), QThread todo (QUpdate d cat ct u') got) = Some (s', t')).
    { destruct u as [[|x l] [| | | | | | | | | |]]; try (by left); right; destruct (fc_subCategories (fs_fc s) !! cat) as [bc|]; try done; match type of Hs with context [bc_tstep ?a ?b] => destruct (bc_tstep a b) as [[o u']|] eqn:Eu end; try done; exists bc, o, u'; done. }
    destruct Hcase as [[-> [= <- <-]]|(bc & o & u' & Ebc & Eu & [= <- <-])].
    + split; [by split|]. split; [done|]. split; [done|]. split; [lia|]. right. split; [done|]. unfold q_pot. cbn [q_todo q_pc q_rank fpc_rank]. lia.
    + apply b_step in Eu as [E1 E2]. cbn [bs_bc] in E2. split.
      { split; [done|]. intros cat' bc'. cbn. destruct (decide (cat' = cat)) as [->|]; [rewrite lookup_insert|rewrite lookup_insert_ne by done; apply HR]. intros [= <-]. unfold ring. rewrite E2. by apply (HR cat). }
      split; [done|]. split; [done|]. split; [lia|]. right. split; [done|]. unfold q_pot. cbn [q_todo q_pc q_rank]. lia.
  - cbn [q_rank]. destruct (fs_writing s).
    { injection Hs as <- <-. split; [by split|]. split; [done|]. split; [done|]. split; [nia|]. by left. }
    injection Hs as <- <-. destruct (next_pot s (QThread todo (QStart job order) got) job (iteration order (fc_subCategories (fs_fc s)))) as [H1 H2]. cbn [q_todo] in H2.
    pose proof (iteration_length order (fc_subCategories (fs_fc s))) as Hlen. split; [by split|]. split; [exact H1|]. split; [done|]. split; [nia|]. right. split; [done|]. nia.
  - cbn [q_rank]. destruct (fs_writing s).
    { injection Hs as <- <-. split; [by split|]. split; [done|]. split; [done|]. split; [nia|]. by left. }
    injection Hs as <- <-. destruct (next_pot s (QThread todo (QIter job rest) got) job rest) as [H1 H2]. cbn [q_todo] in H2. split; [by split|]. split; [exact H1|]. split; [done|]. split; [nia|]. right. split; [done|]. lia.
  - cbn [q_rank]. pose proof (rd_rank_nonneg L (rd_pc r) HL0) as Hr0. destruct (rd_got r) as [|m ms] eqn:Eg.
    + destruct (_ !! cat) as [bc|] eqn:Ebc; [|done]. destruct r as [rtodo rpc rgot]. cbn [rd_todo rd_got rd_pc] in *. subst rtodo rgot. destruct (rd_step _ _) as [r'|] eqn:Er; [|done]. injection Hs as <- <-.
      apply (rd_drop L) in Er as (D1 & D2 & _); [|done|exact (HR _ _ Ebc)]. split; [by split|]. split; [exact D2|]. split; [done|]. split; [nia|]. right. split; [done|]. unfold q_pot. cbn [q_todo q_pc q_rank]. lia.
    + injection Hs as <- <-. split; [by split|]. split; [done|]. split; [done|]. split; [nia|]. right. split; [done|]. unfold q_pot. cbn [q_todo q_pc q_rank]. lia.
  - cbn [q_rank]. destruct (_ !! cat); [|done]. injection Hs as <- <-. split; [by split|]. split; [done|]. split; [done|]. split; [nia|]. right. split; [done|]. unfold q_pot. cbn [q_todo q_pc q_rank]. lia.
  - cbn [q_rank]. destruct (_ !! cat); [|done]. destruct (_ !! p); [|done]. injection Hs as <- <-. split; [by split|]. split; [done|]. split; [done|]. split; [nia|]. right. split; [done|]. unfold q_pot. cbn [q_todo q_pc q_rank]. lia.
Qed.
End fast.
