(** Two runs that differ in what is done to the other names (C155). *)
From Verif.Go Require Import GoInt GoConc.
From Verif.Model Require Import MetricName NameHeap.
From Verif.Spec Require Import NameShareSpec.
Local Open Scope Z_scope.

Section share.
Context (n : nat) (G : list nat).

Record same_name (h g : nheap) : Prop := {
  sn_len : length (nh_maps h) = length (nh_maps g);
  sn_tags : hn_Tags <$> nh_names h = hn_Tags <$> nh_names g;
  sn_name : nh_names h !! n = nh_names g !! n;
  sn_map : forall A, G !! n = Some A -> nh_maps h !! A = nh_maps g !! A
}.

Definition results (l : list (nh_op * option string)) : list (option string) :=
  omap (fun '(op, r) => match op with HHash i _ => if (i =? n)%nat then Some r else None | _ => None end) l.

Lemma alter_tags (f : hname -> hname) (i : nat) (l : list hname) : (forall u, hn_Tags (f u) = hn_Tags u) -> hn_Tags <$> alter f i l = hn_Tags <$> l.
Proof.
  intros Hf. apply list_eq. intros k. rewrite !list_lookup_fmap.
  destruct (decide (k = i)) as [->|Hk].
  - rewrite list_lookup_alter. destruct (l !! i); [cbn; by rewrite Hf|done].
  - by rewrite list_lookup_alter_ne by done.
Qed.

Lemma put_name_same f i h g : (forall u, hn_Tags (f u) = hn_Tags u) -> same_name h g -> same_name (put_name h i f) (put_name g i f).
Proof.
  intros Hf [E1 E2 E3 E4]. constructor; cbn; try done.
  - by rewrite !alter_tags.
  - destruct (decide (n = i)) as [->|Hk]; [by rewrite !list_lookup_alter, E3|by rewrite !list_lookup_alter_ne by done].
Qed.

Lemma put_name_other f i h g : i <> n -> (forall u, hn_Tags (f u) = hn_Tags u) -> same_name h g -> same_name (put_name h i f) g.
Proof.
  intros Hi Hf [E1 E2 E3 E4]. constructor; cbn; try done.
  - by rewrite alter_tags.
  - by rewrite list_lookup_alter_ne by done.
Qed.

Lemma put_name_ext i f f' h u : nh_names h !! i = Some u -> f u = f' u -> put_name h i f = put_name h i f'.
Proof.
  intros Hi Hf. unfold put_name. f_equal. apply list_eq. intros k. destruct (decide (k = i)) as [->|Hk].
  - by rewrite !list_lookup_alter, Hi; cbn; rewrite Hf.
  - by rewrite !list_lookup_alter_ne by done.
Qed.

Lemma put_map_same f h g : same_name h g ->
  (forall A u, G !! n = Some A -> nh_names h !! n = Some u -> hn_Tags u = A) ->
  same_name (put_map h n f) (put_map g n f).
Proof.
  intros [E1 E2 E3 E4] HA. unfold put_map. rewrite <- E3. destruct (nh_names h !! n) as [u|] eqn:Eu; [|by constructor; rewrite ?Eu].
  constructor; cbn; try done; [by rewrite !alter_length|by rewrite Eu|].
  intros A HG. rewrite (HA A u HG eq_refl), !list_lookup_alter. by rewrite E4.
Qed.

Lemma put_map_other f i h g : same_name h g ->
  (forall u, nh_names h !! i = Some u -> G !! n <> Some (hn_Tags u)) ->
  same_name (put_map h i f) g.
Proof.
  intros [E1 E2 E3 E4] HA. unfold put_map. destruct (nh_names h !! i) as [u|] eqn:Eu; [|by constructor].
  constructor; cbn; try done; [by rewrite alter_length|].
  intros A HG. rewrite list_lookup_alter_ne; [by apply E4|]. intros Heq. apply (HA u eq_refl). congruence.
Qed.

Lemma act_tags h op : hn_Tags <$> nh_names (nh_act h op).1 = (hn_Tags <$> nh_names h) ++ maps_given [op].
Proof.
  destruct op; cbn; rewrite ?app_nil_r; try done.
  - by rewrite fmap_app.
  - unfold put_map. by destruct (nh_names h !! i).
  - unfold put_map. by destruct (nh_names h !! i).
  - by apply alter_tags.
  - by apply alter_tags.
  - destruct (nh_names h !! i) as [u|] eqn:Eu; [|done]. destruct (HashKey _ _) as [mn' r] eqn:EH. cbn.
    apply list_eq. intros k. rewrite !list_lookup_fmap. destruct (decide (k = i)) as [->|Hk].
    + rewrite list_lookup_alter, Eu. done.
    + by rewrite list_lookup_alter_ne by done.
Qed.

Lemma run_same ops : forall h g,
  same_name h g -> (hn_Tags <$> nh_names h) ++ maps_given ops = G ->
  (forall i op, op ∈ ops -> writes_tags_of i op -> i <> n -> G !! i <> G !! n) ->
  results (nh_run h ops).2 = results (nh_run g (leave_others_alone n ops)).2.
Proof.
  induction ops as [|op ops IH]; intros h g Hsn HG HW; [done|].
  assert (HG' : (hn_Tags <$> nh_names (nh_act h op).1) ++ maps_given ops = G).
  { rewrite act_tags, <- (assoc_L (++)). unfold maps_given in HG |- *. change (op :: ops) with ([op] ++ ops) in HG.
    by rewrite omap_app in HG. }
  assert (HA : forall i u, nh_names h !! i = Some u -> G !! i = Some (hn_Tags u)).
  { intros i u Hi. rewrite <- HG. apply lookup_app_l_Some. by rewrite list_lookup_fmap, Hi. }
  assert (HW' : forall i o, o ∈ ops -> writes_tags_of i o -> i <> n -> G !! i <> G !! n) by (intros; eapply HW; eauto; by right).
  specialize (HW). assert (HWo := fun i H1 H2 => HW i op (elem_of_list_here _ _) H1 H2). clear HW.
  unfold leave_others_alone. cbn [List.filter]. fold (leave_others_alone n ops).
  destruct (on_name n op) eqn:Eon.
  - (* done in both runs *)
    cut (same_name (nh_act h op).1 (nh_act g op).1 /\ results [(op, (nh_act h op).2)] = results [(op, (nh_act g op).2)]).
    { intros [H1 H2]. cbn [nh_run]. destruct (nh_act h op) as [h1 r1], (nh_act g op) as [g1 r2]. cbn [fst snd] in *.
      specialize (IH h1 g1 H1 HG' HW'). destruct (nh_run h1 ops) as [h2 l1], (nh_run g1 _) as [g2 l2]. cbn [snd] in *.
      change (results ([(op, r1)] ++ l1) = results ([(op, r2)] ++ l2)). unfold results in *. rewrite !omap_app. by f_equal. }
    destruct op as [t|key tags level|i k v|i k|i k|i l|i order]; cbn in Eon |- *; try (apply Nat.eqb_eq in Eon as ->).
    + split; [|done]. destruct Hsn as [E1 E2 E3 E4]. constructor; cbn; try done; [by rewrite !app_length, E1|].
      intros A HA'. specialize (E4 A HA'). destruct (decide (A < length (nh_maps h))%nat) as [Hl|Hl].
      * rewrite !lookup_app_l by lia. done.
      * rewrite !lookup_app_r by lia. by rewrite E1.
    + split; [|done]. destruct Hsn as [E1 E2 E3 E4]. assert (El : length (nh_names h) = length (nh_names g)).
      { apply (f_equal length) in E2. by rewrite !fmap_length in E2. }
      constructor; cbn; try done; [by rewrite !fmap_app, E2|].
      destruct (decide (n < length (nh_names h))%nat) as [Hl|Hl].
      * rewrite !lookup_app_l by lia. done.
      * rewrite !lookup_app_r by lia. by rewrite El.
    + split; [|done]. apply put_map_same; [done|]. intros A u H1 H2. rewrite (HA _ _ H2) in H1. congruence.
    + split; [|done]. apply put_map_same; [done|]. intros A u H1 H2. rewrite (HA _ _ H2) in H1. congruence.
    + split; [|done]. by apply put_name_same.
    + split; [|done]. by apply put_name_same.
    + pose proof (sn_name _ _ Hsn) as En. rewrite <- En. destruct (nh_names h !! n) as [u|] eqn:Eu.
      * assert (name_view (nh_maps g) u = name_view (nh_maps h) u) as ->.
        { unfold name_view. by rewrite (sn_map _ _ Hsn _ (HA _ _ Eu)). }
        destruct (HashKey _ _) as [mn' r]. cbn. split; [|done].
        rewrite (put_name_ext n (fun _ => name_back u mn') (fun w => HName (mn_Key mn') (hn_Tags w) (mn_Level mn') (mn_done mn') (mn_hashKey mn')) h u Eu eq_refl).
        rewrite (put_name_ext n (fun _ => name_back u mn') (fun w => HName (mn_Key mn') (hn_Tags w) (mn_Level mn') (mn_done mn') (mn_hashKey mn')) g u (eq_sym En) eq_refl).
        by apply put_name_same.
      * done.
  - (* on another name *)
    cut (same_name (nh_act h op).1 g /\ results [(op, (nh_act h op).2)] = []).
    { intros [H1 H2]. cbn [nh_run]. destruct (nh_act h op) as [h1 r1]. cbn [fst snd] in *.
      specialize (IH h1 g H1 HG' HW'). destruct (nh_run h1 ops) as [h2 l1]. cbn [snd] in *.
      change (results ([(op, r1)] ++ l1) = results (nh_run g (leave_others_alone n ops)).2). unfold results in *. by rewrite omap_app, H2. }
    destruct op as [t|key tags level|i k v|i k|i k|i l|i order]; cbn in Eon |- *; try done; pose proof Eon as Eon'; apply Nat.eqb_neq in Eon.
    + split; [|done]. apply put_map_other; [done|]. intros u Hu. rewrite <- (HA _ _ Hu). intros E. by apply (HWo i).
    + split; [|done]. apply put_map_other; [done|]. intros u Hu. rewrite <- (HA _ _ Hu). intros E. by apply (HWo i).
    + split; [|done]. by apply put_name_other.
    + split; [|done]. by apply put_name_other.
    + destruct (nh_names h !! i) as [u|] eqn:Eu; [|cbn; by rewrite Eon'].
      destruct (HashKey _ _) as [mn' r]. cbn. rewrite Eon'. split; [|done].
      rewrite (put_name_ext i (fun _ => name_back u mn') (fun w => HName (mn_Key mn') (hn_Tags w) (mn_Level mn') (mn_done mn') (mn_hashKey mn')) h u Eu eq_refl).
      by apply put_name_other.
Qed.
End share.

Lemma same_start n G : same_name n G nheap0 nheap0.
Proof. by constructor. Qed.

(** Once a hash key has been returned it stays. *)
Definition hashed (n : nat) (h : nheap) (r : string) : Prop :=
  exists u, nh_names h !! n = Some u /\ hn_done u = true /\ hn_hashKey u = r.

Lemma act_hashed n h op r : hashed n h r -> hashed n (nh_act h op).1 r /\ (forall o, op = HHash n o -> (nh_act h op).2 = Some r).
Proof.
  intros (u & Hu & Hd & Hh). assert (Hlt := lookup_lt_Some _ _ _ Hu).
  destruct op as [t|key tags level|i k v|i k|i k|i l|i order]; cbn; try (split; [|done]).
  - exists u. done.
  - exists u. cbn. rewrite lookup_app_l by lia. done.
  - exists u. unfold put_map. by destruct (nh_names h !! i).
  - exists u. unfold put_map. by destruct (nh_names h !! i).
  - destruct (decide (i = n)) as [->|Hi].
    + eexists. cbn. rewrite list_lookup_alter, Hu. cbn. split; [reflexivity|]. done.
    + exists u. cbn. by rewrite list_lookup_alter_ne by done.
  - destruct (decide (i = n)) as [->|Hi].
    + eexists. cbn. rewrite list_lookup_alter, Hu. cbn. split; [reflexivity|]. done.
    + exists u. cbn. by rewrite list_lookup_alter_ne by done.
  - destruct (nh_names h !! i) as [w|] eqn:Ew; [|split; [by exists u|intros o [= -> ->]; congruence]].
    destruct (decide (i = n)) as [->|Hi].
    + rewrite Hu in Ew. injection Ew as <-. unfold HashKey, name_view. cbn. rewrite Hd. cbn. split; [|intros; by rewrite Hh].
      eexists. cbn. rewrite list_lookup_alter, Hu. cbn. split; [reflexivity|]. done.
    + destruct (HashKey _ _). cbn. split; [|intros o [= -> ->]; done].
      exists u. cbn. by rewrite list_lookup_alter_ne by done.
Qed.

Lemma hash_sets n h order r : (nh_act h (HHash n order)).2 = Some r -> hashed n (nh_act h (HHash n order)).1 r.
Proof.
  cbn. destruct (nh_names h !! n) as [u|] eqn:Eu; [|done].
  unfold HashKey, name_view. cbn. destruct (hn_done u) eqn:Ed; cbn; intros [= <-].
  all: eexists; cbn; rewrite list_lookup_alter, Eu; cbn; split; [reflexivity|]; done.
Qed.

Lemma run_hashed n ops : forall h r, hashed n h r -> forall x, x ∈ results n (nh_run h ops).2 -> x = Some r.
Proof.
  induction ops as [|op ops IH]; intros h r Hh x Hx; [by apply elem_of_nil in Hx|].
  destruct (act_hashed n h op r Hh) as [H1 H2]. cbn [nh_run] in Hx.
  destruct (nh_act h op) as [h1 r1]. cbn [fst snd] in *. specialize (IH h1 r H1 x).
  destruct (nh_run h1 ops) as [h2 l1]. cbn [snd] in *.
  change (x ∈ results n ([(op, r1)] ++ l1)) in Hx. unfold results in *. rewrite omap_app in Hx.
  apply elem_of_app in Hx as [Hx|Hx]; [|by apply IH].
  destruct op; cbn in Hx; try by apply elem_of_nil in Hx.
  destruct (i =? n)%nat eqn:Ei; [|by apply elem_of_nil in Hx].
  apply Nat.eqb_eq in Ei as ->. apply elem_of_list_singleton in Hx as ->. by apply (H2 order).
Qed.

(** All of them return the same, from the first on. *)
Lemma run_stable n ops : forall h x y r s, results n (nh_run h ops).2 = x ++ Some r :: y -> Some s ∈ y -> s = r.
Proof.
  induction ops as [|op ops IH]; intros h x y r s He Hs; [by destruct x|].
  cbn [nh_run] in He. destruct (nh_act h op) as [h1 r1] eqn:Ea. specialize (IH h1).
  pose proof (run_hashed n ops h1) as Hrun.
  destruct (nh_run h1 ops) as [h2 l1]. cbn [snd] in *.
  change (results n ([(op, r1)] ++ l1) = x ++ Some r :: y) in He. unfold results in *. rewrite omap_app in He.
  destruct op; cbn in He; try (by eapply IH).
  destruct (i =? n)%nat eqn:Ei; [|cbn in He; by eapply IH]. apply Nat.eqb_eq in Ei as ->. cbn in He.
  destruct x as [|x0 x]; cbn in He; injection He as -> He; [|by eapply IH].
  pose proof (hash_sets n h order r) as HS. rewrite Ea in HS. cbn [fst snd] in HS. specialize (HS eq_refl).
  rewrite <- He in Hs. specialize (Hrun r HS _ Hs). congruence.
Qed.
