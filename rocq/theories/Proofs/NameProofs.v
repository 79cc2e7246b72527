From Coq Require Import Ascii.
From Verif.Go Require Import GoInt GoConc.
From Verif.Model Require Import MetricName.
From Verif.Spec Require Import NameSpec.
Local Open Scope Z_scope.

(** ** Strings *)
Lemma scons_app x (a b : string) : String x a +:+ b = String x (a +:+ b).
Proof. reflexivity. Qed.
Lemma snil_app (b : string) : "" +:+ b = b.
Proof. reflexivity. Qed.
Lemma sapp_assoc (a b c : string) : (a +:+ b) +:+ c = a +:+ (b +:+ c).
Proof. induction a as [|x a IH]; [done|]. by rewrite !scons_app, IH. Qed.
Lemma sapp_nil_r (a : string) : a +:+ "" = a.
Proof. induction a as [|x a IH]; [done|]. by rewrite scons_app, IH. Qed.
Lemma sapp_inj_l (a b c : string) : a +:+ b = a +:+ c -> b = c.
Proof. induction a as [|x a IH]; [done|]. rewrite !scons_app. intros H. injection H as H. by apply IH. Qed.

Lemma has_char_app c a b : has_char c (a +:+ b) = has_char c a || has_char c b.
Proof. induction a as [|x a IH]; [done|]. rewrite scons_app. cbn [has_char]. rewrite IH. by rewrite orb_assoc. Qed.

(** Splitting at the first occurrence of a character is unique. *)
Lemma split_unique c a b a' b' :
  has_char c a = false -> has_char c a' = false ->
  a +:+ String c b = a' +:+ String c b' -> a = a' /\ b = b'.
Proof.
  revert a'. induction a as [|x a IH]; intros a' Ha Ha' H.
  - destruct a' as [|x' a']; rewrite ?scons_app, ?snil_app in H.
    + injection H as ->. done.
    + injection H as -> _. simpl in Ha'. by rewrite Ascii.eqb_refl in Ha'.
  - destruct a' as [|x' a']; rewrite ?scons_app, ?snil_app in H.
    + injection H as -> _. simpl in Ha. by rewrite Ascii.eqb_refl in Ha.
    + injection H as -> H. simpl in Ha, Ha'. apply orb_false_iff in Ha as [_ Ha], Ha' as [_ Ha'].
      destruct (IH a' Ha Ha' H) as [-> ->]. done.
Qed.

(** ** The hash *)
Lemma hash_tags_join h order :
  hash_tags h order = (h +:+ join ((fun kv => kv.1 +:+ ":" +:+ kv.2) <$> order))%string.
Proof.
  revert h. induction order as [|[k v] order IH]; intros h; cbn [hash_tags fmap list_fmap join].
  - by rewrite sapp_nil_r.
  - rewrite IH. cbn [fst snd]. rewrite !sapp_assoc. done.
Qed.

Lemma iterates_nil {K V} `{Countable K} (tags : gmap K V) : iterates [] tags <-> tags = ∅.
Proof.
  unfold iterates. split.
  - intros H1. symmetry in H1. apply Permutation_nil_r in H1. by apply map_to_list_empty_iff.
  - intros ->. by rewrite map_to_list_empty.
Qed.

Lemma iterates_length {K V} `{Countable K} (order : list (K * V)) (tags : gmap K V) :
  iterates order tags -> length order = size tags.
Proof. unfold iterates. intros H1. rewrite H1. done. Qed.

Lemma hash_of_spec key tags order :
  iterates order tags -> hash_of key tags order = hash_in_order key order.
Proof.
  intros H. pose proof (iterates_length _ _ H) as Hl. unfold hash_of.
  destruct order as [|kv order].
  - assert (tags = ∅) as -> by (by apply iterates_nil). done.
  - cbn in Hl. destruct (Nat.leb_spec (size tags) 0); [lia|].
    rewrite hash_tags_join. unfold hash_in_order, keyTagsSeparator. by rewrite sapp_assoc.
Qed.

Lemma HashKey_fresh key tags level order :
  iterates order (default ∅ tags) ->
  (HashKey (NewMetricName key tags level) order).2 = hash_in_order key order.
Proof. intros H. cbn. by apply hash_of_spec. Qed.

Lemma name_run_done mn ops :
  mn_done mn = true ->
  Forall (fun r => r = None \/ r = Some (mn_hashKey mn)) (name_run mn ops).2.
Proof.
  revert mn. induction ops as [|op ops IH]; intros mn Hd; [by constructor|].
  cbn [name_run]. destruct (name_act mn op) as [mn1 r] eqn:Ha.
  assert (mn_done mn1 = true /\ mn_hashKey mn1 = mn_hashKey mn /\ (r = None \/ r = Some (mn_hashKey mn))) as (H1 & H2 & H3).
  { destruct op; cbn in Ha; [unfold HashKey in Ha; rewrite Hd in Ha|..]; injection Ha as <- <-; cbn; auto. }
  destruct (name_run mn1 ops) as [mn2 rs] eqn:Hr. cbn [snd]. constructor; [done|].
  specialize (IH mn1 H1). rewrite Hr, H2 in IH. done.
Qed.

Lemma name_act_hash mn order mn1 h :
  name_act mn (NHash order) = (mn1, Some h) -> mn_done mn1 = true /\ mn_hashKey mn1 = h.
Proof.
  cbn. unfold HashKey. destruct (mn_done mn) eqn:E; intros H; injection H as <- <-; cbn; auto.
Qed.

(** All the strings returned in a history are the same. *)
Lemma name_run_same mn ops i j h h' :
  (name_run mn ops).2 !! i = Some (Some h) -> (name_run mn ops).2 !! j = Some (Some h') -> h = h'.
Proof.
  revert mn i j. induction ops as [|op ops IH]; intros mn i j Hi Hj; [cbn in Hi; by rewrite lookup_nil in Hi|].
  cbn [name_run] in Hi, Hj. destruct (name_act mn op) as [mn1 r] eqn:Ha.
  destruct (name_run mn1 ops) as [mn2 rs] eqn:Hr. cbn [snd] in Hi, Hj.
  assert (forall h0, r = Some h0 -> Forall (fun r => r = None \/ r = Some h0) rs) as Hall.
  { intros h0 ->. destruct op; try done. apply name_act_hash in Ha as [H1 H2].
    pose proof (name_run_done mn1 ops H1) as HF. rewrite Hr, H2 in HF. done. }
  destruct i as [|i], j as [|j]; cbn in Hi, Hj.
  - injection Hi as Hi; injection Hj as Hj. congruence.
  - injection Hi as Hi. specialize (Hall h Hi). rewrite Forall_lookup in Hall.
    destruct (Hall j _ Hj) as [?|E]; [done|]. by injection E.
  - injection Hj as Hj. specialize (Hall h' Hj). rewrite Forall_lookup in Hall.
    destruct (Hall i _ Hi) as [?|E]; [done|]. by injection E.
  - apply (IH mn1 i j); rewrite Hr; done.
Qed.

(** ** Injectivity *)
Lemma hash_has_dash key kv order :
  has_char "-"%char (hash_in_order key (kv :: order)) = true.
Proof. unfold hash_in_order. rewrite !has_char_app. cbn. by rewrite orb_true_r. Qed.

Lemma hash_keys_inj key1 key2 order1 order2 :
  has_char "-"%char key1 = false -> has_char "-"%char key2 = false ->
  hash_in_order key1 order1 = hash_in_order key2 order2 ->
  key1 = key2 /\ (order1 = [] <-> order2 = []).
Proof.
  intros H1 H2 H. destruct order1 as [|kv1 order1], order2 as [|kv2 order2].
  - done.
  - exfalso. pose proof (hash_has_dash key2 kv2 order2) as Hd. rewrite <- H in Hd. cbn in Hd. congruence.
  - exfalso. pose proof (hash_has_dash key1 kv1 order1) as Hd. rewrite H in Hd. cbn in Hd. congruence.
  - cbn [hash_in_order] in H. apply split_unique in H as [-> _]; done.
Qed.

Lemma small_iterates (order : list (string * string)) tags :
  iterates order tags -> (size tags <= 1)%nat ->
  (order = [] /\ tags = ∅) \/ exists k v, order = [(k, v)] /\ tags = {[ k := v ]}.
Proof.
  intros H Hs. pose proof (iterates_length _ _ H) as Hl.
  destruct order as [|[k v] [|? ?]]; cbn in Hl; [left|right|lia].
  - split; [done|]. by apply iterates_nil.
  - exists k, v. split; [done|]. unfold iterates in H. symmetry in H.
    apply Permutation_singleton_r in H. rewrite <- (list_to_map_to_list tags), H. done.
Qed.

(** ** Concurrent calls *)
Section once.
Context (key : string) (tags : gmap string string).

Definition crit (t : once_thread) : Prop :=
  match ot_pc t with
  | OCheck | OKey | OSep | OTags _ | OSetDone | OUnlock => True
  | _ => False
  end.

Definition oko (s : once_shared) (t : once_thread) : Prop :=
  match ot_pc t with
  | OLoad | OLock | OCheck => True
  | OKey => os_done s = false
  | OSep => os_done s = false /\ (0 < size tags)%nat /\ os_hashKey s = key
  | OTags rest => os_done s = false /\ hash_tags (os_hashKey s) rest = hash_of key tags (ot_order t)
  | OSetDone => os_done s = false /\ os_hashKey s = hash_of key tags (ot_order t)
  | OUnlock | ORead => os_done s = true
  | ORet h => os_done s = true /\ h = os_hashKey s
  end.

Record oinv (orders : list (list (string * string))) (c : config once_shared once_thread) : Prop := {
  oi_orders : ot_order <$> threads c = orders;
  oi_excl : forall i j t u, threads c !! i = Some t -> threads c !! j = Some u -> crit t -> crit u -> i = j;
  oi_lock : os_locked (shared c) = true <-> exists i t, threads c !! i = Some t /\ crit t;
  oi_thr : forall i t, threads c !! i = Some t -> oko (shared c) t;
  oi_fin : os_done (shared c) = true -> exists i t, threads c !! i = Some t /\
      os_hashKey (shared c) = hash_of key tags (ot_order t)
}.

Lemma oko_stable s s' t :
  os_done s = true -> os_done s' = true -> os_hashKey s' = os_hashKey s -> oko s t -> oko s' t.
Proof. unfold oko. intros H1 H2 H3. destruct (ot_pc t); rewrite ?H1, ?H2, ?H3; naive_solver. Qed.

Lemma oko_noncrit s s' t :
  os_done s = false -> ~ crit t -> oko s t -> oko s' t.
Proof. unfold oko, crit. intros H1. destruct (ot_pc t); rewrite ?H1; naive_solver. Qed.

Lemma oko_same s s' t :
  os_done s' = os_done s -> os_hashKey s' = os_hashKey s -> oko s t -> oko s' t.
Proof. unfold oko. intros H1 H2. by rewrite H1, H2. Qed.

Lemma oinv_step orders s ts i t s' t' :
  oinv orders (Config s ts) -> ts !! i = Some t -> once_step key tags s t = Some (s', t') ->
  oinv orders (Config s' (<[i := t']> ts)).
Proof.
  intros [Ho He Hl Ht Hf] Hi Hs. cbn [shared threads] in *.
  pose proof (Ht i t Hi) as Hok.
  assert (ot_order t' = ot_order t) as Hot.
  { unfold once_step in Hs. destruct (ot_pc t) as [| | | | |[|[k v] rest]| | | |]; cbn in Hs;
      repeat (case_match; try done); simplify_eq; done. }
  assert (i < length ts)%nat as Hlen by (by apply lookup_lt_Some in Hi).
  assert (forall j u, <[i := t']> ts !! j = Some u -> (j = i /\ u = t') \/ (j <> i /\ ts !! j = Some u)) as Hlk.
  { intros j u Hj. destruct (decide (j = i)) as [->|Hne].
    - rewrite list_lookup_insert in Hj by done. injection Hj as <-. by left.
    - rewrite list_lookup_insert_ne in Hj by done. by right. }
  (* facts that depend on the step *)
  assert (oko s' t' /\
          (os_done s' = true -> (os_done s = true /\ os_hashKey s' = os_hashKey s) \/
                                 os_hashKey s' = hash_of key tags (ot_order t')) /\
          (os_locked s' = true /\ crit t' /\ (crit t \/ os_locked s = false) \/
           os_locked s' = os_locked s /\ ~ crit t /\ ~ crit t' \/
           os_locked s' = false /\ crit t /\ ~ crit t') /\
          ((os_done s' = os_done s /\ os_hashKey s' = os_hashKey s) \/ (os_done s = false /\ crit t))) as (A & B & C & D).
  { assert (crit t -> os_locked s = true) as Hcl by (intros; apply Hl; eauto).
    clear Hl Ht Hf He Ho Hlk Hot. unfold once_step, oko, crit in *.
    destruct (ot_pc t) as [| | | | |[|[k v] rest]| | | |] eqn:Epc; try (specialize (Hcl I)).
    - injection Hs as <- <-. cbn [ot_pc]. destruct (os_done s); split_and!; auto 10; intros; by auto.
    - destruct (os_locked s) eqn:El; [discriminate Hs|]. injection Hs as <- <-.
      cbn [ot_pc os_done os_locked os_hashKey]. split_and!; auto 10.
    - injection Hs as <- <-. cbn [ot_pc]. destruct (os_done s) eqn:Ed; split_and!; auto 10.
    - injection Hs as <- <-. cbn [ot_pc ot_order os_done os_locked os_hashKey].
      destruct (Nat.leb_spec (size tags) 0) as [Hsz|Hsz]; rewrite Hok; split_and!; auto 10; try discriminate.
      unfold hash_of. by apply Nat.leb_le in Hsz as ->.
    - injection Hs as <- <-. cbn [ot_pc ot_order os_done os_locked os_hashKey].
      destruct Hok as (H1 & H2 & H3). rewrite H1, H3. split_and!; auto 10; try discriminate.
      unfold hash_of. by apply Nat.leb_gt in H2 as ->.
    - injection Hs as <- <-. cbn [ot_pc ot_order os_done os_locked os_hashKey].
      destruct Hok as [H1 H2]. cbn [hash_tags] in H2. rewrite H1. split_and!; auto 10; discriminate.
    - injection Hs as <- <-. cbn [ot_pc ot_order os_done os_locked os_hashKey].
      destruct Hok as [H1 H2]. cbn [hash_tags] in H2. rewrite H1. split_and!; auto 10; discriminate.
    - injection Hs as <- <-. cbn [ot_pc ot_order os_done os_locked os_hashKey].
      destruct Hok as [H1 H2]. rewrite H1. split_and!; auto 10.
    - injection Hs as <- <-. cbn [ot_pc ot_order os_done os_locked os_hashKey]. rewrite Hok. split_and!; auto 10.
    - injection Hs as <- <-. cbn [ot_pc ot_order os_done os_locked os_hashKey]. rewrite Hok. split_and!; auto 10.
    - discriminate Hs. }
  constructor; cbn [shared threads].
  - rewrite list_fmap_insert, Hot, Ho. apply list_insert_id. rewrite <- Ho, list_lookup_fmap, Hi. done.
  - intros j1 j2 u1 u2 H1 H2 C1 C2.
    apply Hlk in H1 as [[-> ->]|[N1 H1]], H2 as [[-> ->]|[N2 H2]]; [done|..|eauto].
    + destruct C as [(_ & _ & [C|C])|[(_ & _ & C)|(_ & _ & C)]]; [eauto|..|done|done].
      assert (os_locked s = true) by (apply Hl; eauto). congruence.
    + destruct C as [(_ & _ & [C|C])|[(_ & _ & C)|(_ & _ & C)]]; [eauto|..|done|done].
      assert (os_locked s = true) by (apply Hl; eauto). congruence.
  - destruct C as [(C1 & C2 & _)|[(C1 & C2 & C3)|(C1 & C2 & C3)]]; rewrite C1.
    + split; [|done]. intros _. exists i, t'. split; [by apply list_lookup_insert|done].
    + rewrite Hl. split.
      * intros (j & u & Hj & Hu). exists j, u. split; [|done]. rewrite list_lookup_insert_ne; [done|]. intros ->.
        rewrite Hi in Hj. injection Hj as ->. done.
      * intros (j & u & Hj & Hu). apply Hlk in Hj as [[-> ->]|[N Hj]]; [done|eauto].
    + split; [done|]. intros (j & u & Hj & Hu). apply Hlk in Hj as [[-> ->]|[N Hj]]; [done|].
      exfalso. apply N. eauto.
  - intros j u Hj. apply Hlk in Hj as [[-> ->]|[N Hj]]; [done|].
    destruct D as [[D1 D2]|[D1 D2]].
    + apply (oko_same s); eauto.
    + apply (oko_noncrit s); [done| |eauto]. intros Cu. apply N. eauto.
  - intros Hd. destruct (B Hd) as [[B1 B2]|B1].
    + destruct (Hf B1) as (j & u & Hj & Hu). rewrite B2. destruct (decide (j = i)) as [->|N].
      * exists i, t'. split; [by apply list_lookup_insert|]. rewrite Hi in Hj. injection Hj as ->. congruence.
      * exists j, u. split; [|done]. by rewrite list_lookup_insert_ne.
    + exists i, t'. split; [by apply list_lookup_insert|done].
Qed.

Lemma oinv_run orders sched : oinv orders (once_crun key tags orders sched).
Proof.
  unfold once_crun. apply (crun_inv (once_step key tags) (fun s _ => s) (oinv orders)).
  - constructor; cbn [shared threads os_locked os_done os_hashKey].
    + rewrite <- list_fmap_compose. cbn. apply list_fmap_id.
    + intros i j t u Hi Hj Ct. rewrite list_lookup_fmap in Hi. destruct (orders !! i); [|done].
      injection Hi as <-. done.
    + split; [done|]. intros (i & t & Hi & Ct). rewrite list_lookup_fmap in Hi. destruct (orders !! i); [|done].
      injection Hi as <-. done.
    + intros i t Hi. rewrite list_lookup_fmap in Hi. destruct (orders !! i); [|done].
      injection Hi as <-. done.
    + done.
  - intros s ts i t s' t'. apply oinv_step.
  - intros s ts [].
Qed.

(** Unless every call has returned some goroutine can take a step. *)
Lemma once_progress orders sched :
  let c := once_crun key tags orders sched in
  (forall i t, threads c !! i = Some t -> exists h, ot_pc t = ORet h) \/
  (exists i t, threads c !! i = Some t /\ once_step key tags (shared c) t <> None).
Proof.
  cbv zeta. pose proof (oinv_run orders sched) as [Ho He Hl Ht Hf].
  set (c := once_crun key tags orders sched) in *.
  destruct (os_locked (shared c)) eqn:El.
  - right. destruct (proj1 Hl eq_refl) as (i & t & Hi & Ct). exists i, t. split; [done|].
    unfold once_step, crit in *. destruct (ot_pc t) as [| | | | |[|[k v] rest]| | | |]; done.
  - set (running t := match ot_pc t with ORet _ => false | _ => true end).
    destruct (decide (Exists (fun t => Is_true (running t)) (threads c))) as [H|H].
    + right. apply Exists_exists in H as (t & Hin & Hp). apply elem_of_list_lookup in Hin as [i Hi].
      exists i, t. split; [done|]. unfold once_step. rewrite El. unfold running in Hp.
      destruct (ot_pc t) as [| | | | |[|[k v] rest]| | | |]; done.
    + left. intros i t Hi. destruct (ot_pc t) eqn:Ep; try (exfalso; apply H; apply Exists_exists; exists t;
        split; [by apply elem_of_list_lookup_2 in Hi|unfold running; by rewrite Ep]).
      eauto.
Qed.
End once.
