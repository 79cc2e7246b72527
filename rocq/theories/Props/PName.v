(** C59 - C61, C85: metric names. *)
From Coq Require Import Ascii.
From Verif.Go Require Import GoInt GoConc.
From Verif.Model Require Import MetricName.
From Verif.Spec Require Import NameSpec.
From Verif.Proofs Require Import NameProofs.
Local Open Scope Z_scope.

(** C59.  In any history of HashKey calls and assignments to the exported fields
    all HashKey calls return the same string, and the first one returns the key,
    followed (if there are tags) by a dash and the tags as name:value in the
    order of iteration - the level does not occur in it. *)
Theorem C59_stable : forall mn ops i j h h',
  (name_run mn ops).2 !! i = Some (Some h) -> (name_run mn ops).2 !! j = Some (Some h') -> h = h'.
Proof. exact name_run_same. Qed.
Print Assumptions C59_stable.

Theorem C59_value : forall key tags level order,
  iterates order (default ∅ tags) ->
  (HashKey (NewMetricName key tags level) order).2 = hash_in_order key order.
Proof. exact HashKey_fresh. Qed.
Print Assumptions C59_value.

Definition tags2 : gmap string string := {[ "host" := "h1"; "port" := "80" ]}.
Example C59_case :
  (name_run (NewMetricName "qps" (Some tags2) 3)
     [NHash [("host","h1"); ("port","80")]; NSetTags ∅; NSetKey "other"; NHash []; NSetLevel 7; NHash [("port","80")]]).2
  = [Some "qps-host:h1port:80"; None; None; Some "qps-host:h1port:80"; None; Some "qps-host:h1port:80"].
Proof. reflexivity. Qed.
Example C59_iterates : iterates [("host","h1"); ("port","80")] tags2 /\ iterates [("port","80"); ("host","h1")] tags2.
Proof. split; unfold iterates; vm_compute; first [reflexivity|apply perm_swap]. Qed.

(** C60 is false with two tags: two equal names whose maps are iterated in
    different orders. *)
Theorem C60_equal_names_refuted :
  exists key tags level o1 o2, iterates o1 tags /\ iterates o2 tags /\
    (HashKey (NewMetricName key (Some tags) level) o1).2 <> (HashKey (NewMetricName key (Some tags) level) o2).2.
Proof.
  exists "qps", tags2, 0, [("host","h1"); ("port","80")], [("port","80"); ("host","h1")].
  destruct C59_iterates as [H1 H2]. split_and!; [done|done|]. vm_compute. discriminate.
Qed.
Print Assumptions C60_equal_names_refuted.

(** It holds for at most one tag, whatever the levels. *)
Theorem C60_equal_names_partial : forall key tags l1 l2 o1 o2,
  (size (default ∅ tags) <= 1)%nat -> iterates o1 (default ∅ tags) -> iterates o2 (default ∅ tags) ->
  (HashKey (NewMetricName key tags l1) o1).2 = (HashKey (NewMetricName key tags l2) o2).2.
Proof.
  intros key tags l1 l2 o1 o2 Hs H1 H2. rewrite !HashKey_fresh by done. f_equal.
  destruct (small_iterates _ _ H1 Hs) as [[-> E1]|(k & v & -> & E1)];
  destruct (small_iterates _ _ H2 Hs) as [[-> E2]|(k2 & v2 & -> & E2)]; [done|..].
  - rewrite E1 in E2. exfalso. symmetry in E2. by apply (map_non_empty_singleton k2 v2) in E2.
  - rewrite E1 in E2. exfalso. by apply (map_non_empty_singleton k v) in E2.
  - rewrite E1 in E2.
    assert (({[k := v]} : gmap string string) !! k = ({[k2 := v2]} : gmap string string) !! k) as E by by rewrite E2.
    rewrite lookup_singleton in E. symmetry in E. apply lookup_singleton_Some in E as [-> ->]. done.
Qed.
Print Assumptions C60_equal_names_partial.
Example C60_case : iterates [("host","h1")] ({[ "host" := "h1" ]} : gmap string string) /\
  (HashKey (NewMetricName "qps" (Some {[ "host" := "h1" ]}) 2) [("host","h1")]).2 = "qps-host:h1".
Proof. split; [unfold iterates|]; vm_compute; reflexivity. Qed.

(** C61 is false: different keys, or the same key with different tags. *)
Theorem C61_different_names_refuted :
  (exists k1 k2 t2 o2, k1 <> k2 /\ iterates o2 t2 /\
     (HashKey (NewMetricName k1 None 0) []).2 = (HashKey (NewMetricName k2 (Some t2) 0) o2).2) /\
  (exists k t1 t2 o1 o2, t1 <> t2 /\ iterates o1 t1 /\ iterates o2 t2 /\
     (HashKey (NewMetricName k (Some t1) 0) o1).2 = (HashKey (NewMetricName k (Some t2) 0) o2).2).
Proof.
  split.
  - exists "qps-host:h1", "qps", {[ "host" := "h1" ]}, [("host","h1")]. split_and!.
    + discriminate.
    + unfold iterates. vm_compute. reflexivity.
    + reflexivity.
  - exists "qps", tags2, {[ "host" := "h1port:80" ]}, [("host","h1"); ("port","80")], [("host","h1port:80")]. split_and!.
    + intros E. assert (tags2 !! "port" = ({[ "host" := "h1port:80" ]} : gmap string string) !! "port") as E2 by by rewrite E.
      vm_compute in E2. discriminate E2.
    + apply C59_iterates.
    + unfold iterates. vm_compute. reflexivity.
    + reflexivity.
Qed.
Print Assumptions C61_different_names_refuted.

(** Keys without a dash are told apart whatever the tags, and so is the presence
    of tags; with at most one tag per name, whose name has no colon, the whole
    name is determined.  (Missing: names with several tags, or with separators
    in them.) *)
Theorem C61_keys_partial : forall k1 k2 t1 t2 l1 l2 o1 o2,
  has_char "-"%char k1 = false -> has_char "-"%char k2 = false ->
  iterates o1 (default ∅ t1) -> iterates o2 (default ∅ t2) ->
  (HashKey (NewMetricName k1 t1 l1) o1).2 = (HashKey (NewMetricName k2 t2 l2) o2).2 ->
  k1 = k2 /\ (default ∅ t1 = ∅ <-> default ∅ t2 = ∅).
Proof.
  intros k1 k2 t1 t2 l1 l2 o1 o2 H1 H2 I1 I2. rewrite !HashKey_fresh by done. intros H.
  destruct (hash_keys_inj _ _ _ _ H1 H2 H) as [-> E]. split; [done|].
  rewrite <- !iterates_nil. split; intros Hn.
  - unfold iterates in I1, Hn. rewrite <- Hn in I1. apply Permutation_nil_r in I1. apply E in I1 as ->. done.
  - unfold iterates in I2, Hn. rewrite <- Hn in I2. apply Permutation_nil_r in I2. apply E in I2 as ->. done.
Qed.
Print Assumptions C61_keys_partial.

Theorem C61_one_tag_partial : forall k1 k2 t1 t2 l1 l2 o1 o2,
  has_char "-"%char k1 = false -> has_char "-"%char k2 = false ->
  (size (default ∅ t1) <= 1)%nat -> (size (default ∅ t2) <= 1)%nat ->
  (forall k v, default ∅ t1 !! k = Some v \/ default ∅ t2 !! k = Some v -> has_char ":"%char k = false) ->
  iterates o1 (default ∅ t1) -> iterates o2 (default ∅ t2) ->
  (HashKey (NewMetricName k1 t1 l1) o1).2 = (HashKey (NewMetricName k2 t2 l2) o2).2 ->
  k1 = k2 /\ default ∅ t1 = default ∅ t2.
Proof.
  intros k1 k2 t1 t2 l1 l2 o1 o2 H1 H2 S1 S2 Hc I1 I2. rewrite !HashKey_fresh by done. intros H.
  destruct (hash_keys_inj _ _ _ _ H1 H2 H) as [-> E]. split; [done|].
  destruct (small_iterates _ _ I1 S1) as [[-> E1]|(a & v & -> & E1)];
  destruct (small_iterates _ _ I2 S2) as [[-> E2]|(a2 & v2 & -> & E2)]; rewrite E1, E2.
  - done.
  - by assert ([(a2, v2)] = []) by by apply E.
  - by assert ([(a, v)] = []) by by apply E.
  - cbn [hash_in_order fmap list_fmap join fst snd] in H. apply sapp_inj_l in H.
    rewrite !scons_app, !snil_app, !sapp_nil_r in H. injection H as H.
    rewrite ?scons_app, ?snil_app in H.
    apply split_unique in H as [-> ->]; [done|..].
    + apply (Hc a v). left. rewrite E1. apply lookup_singleton.
    + apply (Hc a2 v2). right. rewrite E2. apply lookup_singleton.
Qed.
Print Assumptions C61_one_tag_partial.

(** C85.  Any number of goroutines call HashKey on one name at the same time:
    all of them get the same, complete, hash key; no schedule deadlocks. *)
Theorem C85_concurrent_hashkey : forall key tags orders sched,
  Forall (fun o => iterates o tags) orders ->
  exists order, iterates order tags /\
    forall i t h, threads (once_crun key tags orders sched) !! i = Some t -> ot_pc t = ORet h ->
      h = hash_in_order key order.
Proof.
  intros key tags orders sched Ho. pose proof (oinv_run key tags orders sched) as [I1 _ _ It If].
  set (c := once_crun key tags orders sched) in *.
  destruct (os_done (shared c)) eqn:Ed.
  - destruct (If eq_refl) as (i & t & Hi & Hh). exists (ot_order t).
    assert (iterates (ot_order t) tags) as Hit.
    { rewrite Forall_forall in Ho. apply Ho. rewrite <- I1. apply elem_of_list_fmap. exists t. split; [done|].
      by apply elem_of_list_lookup_2 in Hi. }
    split; [done|]. intros j u h Hj Hp. pose proof (It j u Hj) as Hok. unfold oko in Hok. rewrite Hp in Hok.
    destruct Hok as [_ ->]. rewrite Hh. by apply hash_of_spec.
  - exists (map_to_list tags). split; [unfold iterates; done|]. intros j u h Hj Hp. pose proof (It j u Hj) as Hok.
    unfold oko in Hok. rewrite Hp in Hok. destruct Hok; congruence.
Qed.
Print Assumptions C85_concurrent_hashkey.

Theorem C85_no_deadlock : forall key tags orders sched,
  let c := once_crun key tags orders sched in
  (forall i t, threads c !! i = Some t -> exists h, ot_pc t = ORet h) \/
  (exists i t, threads c !! i = Some t /\ once_step key tags (shared c) t <> None).
Proof. exact once_progress. Qed.
Print Assumptions C85_no_deadlock.

(** Two goroutines with different orders: the first to lock wins. *)
Example C85_case :
  ot_pc <$> threads (once_crun "qps" tags2 [[("host","h1"); ("port","80")]; [("port","80"); ("host","h1")]]
    [Run 0; Run 1; Run 1; Run 0; Run 1; Run 1; Run 1; Run 0; Run 1; Run 1; Run 1; Run 1; Run 1; Run 0; Run 0; Run 0; Run 0; Run 1]%nat)
  = [ORet "qps-port:80host:h1"; ORet "qps-port:80host:h1"].
Proof. vm_compute. reflexivity. Qed.
