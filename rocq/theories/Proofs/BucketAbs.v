(** Refinement of the ring-based bucket counter to a plain list of buckets,
    newest first, and of that list to sums over the history. *)
From Verif.Go Require Import GoInt.
From Verif.Model Require Import Counter BucketQueue BucketCounter.
From Verif.Spec Require Import BucketSpec.
Local Open Scope Z_scope.

Arguments Nat.modulo : simpl never.

Lemma NoDup_take {A} n (l : list A) : NoDup l -> NoDup (take n l).
Proof. intros H. rewrite <- (take_drop n l) in H. by apply NoDup_app in H as [? _]. Qed.

Lemma StronglySorted_take {A} (R : A -> A -> Prop) n (l : list A) :
  StronglySorted R l -> StronglySorted R (take n l).
Proof. intros H. rewrite <- (take_drop n l) in H. by apply StronglySorted_app_inv_l in H. Qed.

(** ** alignTimestamp *)

Lemma interval_seconds_pos d : Second <= d -> in64 d -> 1 <= interval_seconds d.
Proof.
  intros H _. unfold interval_seconds, Second in *.
  rewrite Z.quot_div_nonneg by lia. apply Z.div_le_lower_bound; lia.
Qed.

Lemma quot_in64 x y : in64 x -> 1 <= y -> in64 (Z.quot x y).
Proof.
  intros Hx Hy.
  assert (Z.abs (Z.quot x y) <= Z.abs x).
  { destruct (decide (0 <= x)).
    - rewrite Z.quot_div_nonneg by lia.
      pose proof (Z.div_pos x y). rewrite !Z.abs_eq by lia.
      apply Z.div_le_upper_bound; nia.
    - replace x with (- (- x)) by lia. rewrite Z.quot_opp_l by lia.
      rewrite Z.quot_div_nonneg by lia. pose proof (Z.div_pos (-x) y).
      rewrite !Z.abs_opp, !Z.abs_eq by lia.
      apply Z.div_le_upper_bound; nia. }
  assert (x < 0 -> Z.quot x y <= 0).
  { intros. replace x with (- (- x)) by lia. rewrite Z.quot_opp_l by lia.
    pose proof (Z.quot_pos (- x) y ltac:(lia) ltac:(lia)). lia. }
  unfold in64, two63 in *. lia.
Qed.

Lemma quot_mul_in64 x y : in64 x -> 1 <= y -> in64 (Z.quot x y * y).
Proof.
  intros Hx Hy.
  pose proof (Z.quot_rem' x y) as H1.
  pose proof (Z.rem_bound_abs x y ltac:(lia)) as H2.
  destruct (Z_le_gt_dec 0 x).
  - pose proof (Z.rem_nonneg x y ltac:(lia) ltac:(lia)).
    pose proof (Z.quot_pos x y ltac:(lia) ltac:(lia)).
    unfold in64, two63 in *. nia.
  - pose proof (Z.rem_nonpos x y ltac:(lia) ltac:(lia)).
    assert (0 <= Z.quot (-x) y) by (apply Z.quot_pos; lia).
    rewrite Z.quot_opp_l in * by lia.
    unfold in64, two63 in *. nia.
Qed.

Lemma alignTimestamp_spec d t :
  1 <= interval_seconds d -> in64 t ->
  alignTimestamp d t =
    Ok (interval_seconds d * Z.quot t (1000 * interval_seconds d)).
Proof.
  intros Hs Ht. unfold alignTimestamp, go_div. cbn [Z.eqb secondToMsRate].
  set (I := interval_seconds d) in *.
  assert (Ha : in64 (Z.quot t 1000)) by (apply quot_in64; [exact Ht | lia]).
  unfold mbind, res_bind. cbn [Z.eqb secondToMsRate].
  replace (secondToMsRate =? 0) with false by reflexivity.
  replace (I =? 0) with false by (symmetry; apply Z.eqb_neq; lia).
  unfold secondToMsRate. rewrite (wrap64_id (Z.quot t 1000)) by exact Ha.
  rewrite (wrap64_id (Z.quot (Z.quot t 1000) I)) by (apply quot_in64; assumption).
  rewrite wrap64_id by (apply quot_mul_in64; assumption).
  rewrite Z.quot_quot by lia. f_equal. lia.
Qed.

Lemma alignTimestamp_panic d t : interval_seconds d = 0 -> alignTimestamp d t = Panic.
Proof.
  intros Hs. unfold alignTimestamp. rewrite Hs. unfold go_div, mbind, res_bind.
  reflexivity.
Qed.

(** ** The ring *)

(** Contents of the ring, newest first, ending with the slot that will be
    overwritten next. *)
Definition ring (q : list ptr) (cur : nat) : list ptr :=
  reverse (take (S cur) q) ++ reverse (drop (S cur) q).

Arguments ring : simpl never.

Lemma ring_Permutation q cur : ring q cur ≡ₚ q.
Proof.
  unfold ring. rewrite !reverse_Permutation. by rewrite take_drop.
Qed.

Lemma ring_length q cur : length (ring q cur) = length q.
Proof. apply Permutation_length, ring_Permutation. Qed.

Lemma ring_hd q cur : (cur < length q)%nat -> head (ring q cur) = q !! cur.
Proof.
  intros H. destruct (lookup_lt_is_Some_2 q cur H) as [p Hp].
  unfold ring. rewrite (take_S_r q cur p Hp), reverse_snoc. cbn. by rewrite Hp.
Qed.

Lemma ring_addLast q cur p :
  (cur < length q)%nat ->
  let cur' := ((cur + 1) mod length q)%nat in
  ring (<[cur' := p]> q) cur' = p :: take (length q - 1) (ring q cur).
Proof.
  intros Hc cur'. subst cur'.
  destruct (decide (cur + 1 < length q)%nat) as [Hlt|Hge].
  - rewrite Nat.mod_small by lia.
    destruct (lookup_lt_is_Some_2 q (cur+1) Hlt) as [x Hx].
    rewrite <- (take_drop_middle q (cur+1) x Hx) at 1.
    pose proof (take_drop_middle q (cur+1) x Hx) as Hq.
    assert (Hl1 : length (take (cur+1) q) = (cur+1)%nat) by (rewrite take_length; lia).
    unfold ring.
    rewrite insert_app_r_alt by lia. rewrite Hl1, Nat.sub_diag. cbn [list_insert insert].
    rewrite take_app_ge by lia. rewrite drop_app_ge by lia. rewrite Hl1.
    replace (S (cur + 1) - (cur + 1))%nat with 1%nat by lia.
    cbn [take drop]. rewrite take_0, drop_0, reverse_snoc. cbn. f_equal.
    replace (S cur) with (cur + 1)%nat by lia.
    assert (Hdrop : drop (cur+1) q = x :: drop (S (cur+1)) q).
    { apply drop_S; exact Hx. }
    rewrite Hdrop. rewrite reverse_cons, app_assoc.
    rewrite take_app_alt; [reflexivity|].
    rewrite app_length, !reverse_length, Hl1, drop_length. lia.
  - assert (Hcl : (cur + 1 = length q)%nat) by lia.
    rewrite Hcl, Nat.mod_same by lia.
    destruct q as [|x q]; [cbn in *; lia|]. cbn [list_insert insert].
    unfold ring.
    rewrite (take_ge (x :: q)) by lia. rewrite (drop_ge (x :: q)) by lia.
    cbn [take drop]. rewrite take_0, drop_0.
    cbn [length]. replace (S (length q) - 1)%nat with (length q) by lia.
    rewrite (reverse_cons q x), app_nil_r. cbn. f_equal.
    rewrite take_app_alt; [reflexivity|]. by rewrite reverse_length.
Qed.

(** ** getBucketList returns the [length q - 1] newest entries *)

Lemma gbl_loop1_spec q start len i1 :
  (i1 <= S start)%nat -> (S start <= length q)%nat -> (start <= len)%nat ->
  gbl_loop1 q start len i1 = Ok (take (len - (S start - i1)) (reverse (take i1 q))).
Proof.
  intros H1 H2 Hl. induction i1 as [|i IH]; cbn [gbl_loop1].
  { rewrite take_0. cbn. by rewrite take_nil. }
  destruct (lookup_lt_is_Some_2 q i ltac:(lia)) as [p Hp].
  destruct (Nat.ltb_spec (start - i) len) as [Hlt|Hge].
  - rewrite Hp. cbn. rewrite IH by lia. cbn. rewrite (take_S_r q i p Hp), reverse_snoc.
    replace (len - (start - i))%nat with (S (len - (S start - i))) by lia.
    reflexivity.
  - replace (len - (S start - S i))%nat with 0%nat by lia. reflexivity.
Qed.

Lemma gbl_loop2_spec h q start ts0 i :
  (i < length q)%nat ->
  (forall j p, (start + 1 < j)%nat -> q !! j = Some p -> exists b, h !! p = Some b /\ bk_ts b <= ts0) ->
  gbl_loop2 h q start ts0 i = Ok (reverse (take (i - (start + 1)) (drop (start + 2) q))).
Proof.
  intros Hi Hts. induction i as [|i IH].
  { cbn. reflexivity. }
  unfold gbl_loop2; fold gbl_loop2.
  destruct (Nat.ltb_spec (start + 1) (S i)) as [Hlt|Hge].
  - destruct (lookup_lt_is_Some_2 q (S i) Hi) as [p Hp]. rewrite Hp. cbn.
    destruct (Hts (S i) p Hlt Hp) as [b [Hb Hle]]. rewrite Hb. cbn.
    rewrite IH by lia. cbn.
    replace (bk_ts b <=? ts0) with true by (symmetry; apply Z.leb_le; lia).
    replace (S i - (start + 1))%nat with (S (i - (start + 1))) by lia.
    rewrite (take_S_r _ _ p).
    + by rewrite reverse_snoc.
    + rewrite lookup_drop. rewrite <- Hp. f_equal. lia.
  - replace (S i - (start + 1))%nat with 0%nat by lia. reflexivity.
Qed.

(** Well-formed counter state with the newest-first list [l] of its buckets. *)
Record repr (N : nat) (c : bucket_counter) (l : list bucket) : Prop := {
  r_len : length (dq_queue (bc_buckets c)) = S N;
  r_cur : (dq_current (bc_buckets c) < S N)%nat;
  r_nodup : NoDup (dq_queue (bc_buckets c));
  r_ptrs : Forall2 (fun p b => bc_heap c !! p = Some b)
             (ring (dq_queue (bc_buckets c)) (dq_current (bc_buckets c))) l;
  r_latest : dq_queue (bc_buckets c) !! dq_current (bc_buckets c) = Some (bc_latestBucket c);
  r_sorted : StronglySorted (fun a b => bk_ts b <= bk_ts a) l
}.

Lemma repr_length N c l : repr N c l -> length l = S N.
Proof.
  intros R. rewrite <- (Forall2_length _ _ _ (r_ptrs _ _ _ R)), ring_length. apply (r_len _ _ _ R).
Qed.

Lemma repr_cons N c l : repr N c l ->
  exists b l', l = b :: l' /\ bc_heap c !! bc_latestBucket c = Some b /\
    ring (dq_queue (bc_buckets c)) (dq_current (bc_buckets c)) =
      bc_latestBucket c :: tail (ring (dq_queue (bc_buckets c)) (dq_current (bc_buckets c))).
Proof.
  intros R.
  pose proof (ring_hd (dq_queue (bc_buckets c)) (dq_current (bc_buckets c))) as Hh.
  rewrite (r_latest _ _ _ R) in Hh.
  specialize (Hh ltac:(rewrite (r_len _ _ _ R); apply (r_cur _ _ _ R))).
  pose proof (r_ptrs _ _ _ R) as F.
  destruct (ring _ _) as [|p r] eqn:Er; [discriminate|].
  cbn in Hh. injection Hh as ->.
  inversion F as [|? b ? l' Hb ? ]; subst. exists b, l'. auto.
Qed.

Lemma StronglySorted_lookup_le l (i j : nat) (a b : bucket) :
  StronglySorted (fun a b => bk_ts b <= bk_ts a) l ->
  l !! i = Some a -> l !! j = Some b -> (i <= j)%nat -> bk_ts b <= bk_ts a.
Proof.
  intros Hs. revert i j. induction Hs as [|x l Hs IH Hf]; intros i j Hi Hj Hij; [done|].
  destruct i as [|i], j as [|j]; cbn in *; try lia.
  - injection Hi as ->. injection Hj as ->. lia.
  - injection Hi as ->. rewrite Forall_forall in Hf. apply Hf. eapply elem_of_list_lookup_2; eauto.
  - eapply IH; eauto; lia.
Qed.

Lemma ring_take_length q cur N :
  length q = S N -> (cur < S N)%nat ->
  take N (ring q cur) =
  take N (reverse (take (S cur) q)) ++ reverse (take (N - (cur + 1)) (drop (cur + 2) q)).
Proof.
  intros Hl Hc. unfold ring.
  destruct (decide (cur = N)) as [->|Hne].
  - rewrite (drop_ge q (S N)) by lia.
    replace (N - (N+1))%nat with 0%nat by lia. rewrite reverse_nil, app_nil_r. cbn.
    by rewrite app_nil_r.
  - rewrite take_app_ge by (rewrite reverse_length, take_length; lia).
    rewrite (take_ge (reverse (take (S cur) q))) by (rewrite reverse_length, take_length; lia).
    f_equal. rewrite reverse_length, take_length, Hl.
    replace (Nat.min (S cur) (S N)) with (S cur) by lia.
    destruct (lookup_lt_is_Some_2 q (S cur) ltac:(lia)) as [x Hx].
    rewrite (drop_S q x (S cur) Hx), reverse_cons.
    rewrite take_app_alt by (rewrite reverse_length, drop_length; lia).
    replace (cur + 2)%nat with (S (S cur)) by lia.
    rewrite (take_ge (drop _ _)) by (rewrite drop_length; lia). reflexivity.
Qed.

Lemma getBucketList_spec N c l :
  repr N c l ->
  dq_getBucketList (bc_heap c) (bc_buckets c) =
    Ok (take N (ring (dq_queue (bc_buckets c)) (dq_current (bc_buckets c)))).
Proof.
  intros R. unfold dq_getBucketList.
  destruct (repr_cons _ _ _ R) as (b & l' & -> & Hb & Hr).
  rewrite (r_latest _ _ _ R). cbn [mbind res_bind of_option]. rewrite Hb. cbn [mbind res_bind of_option].
  pose proof (r_len _ _ _ R) as Hl. pose proof (r_cur _ _ _ R) as Hc.
  rewrite Hl. replace (S N - 1)%nat with N by lia.
  destruct (lookup_lt_is_Some_2 (dq_queue (bc_buckets c)) (dq_current (bc_buckets c)) ltac:(lia)) as [p Hp].
  pose proof (gbl_loop1_spec (dq_queue (bc_buckets c)) (dq_current (bc_buckets c)) N
                (S (dq_current (bc_buckets c))) ltac:(lia) ltac:(lia) ltac:(lia)) as H1.
  rewrite H1. cbn [mbind res_bind of_option].
  rewrite (gbl_loop2_spec (bc_heap c) (dq_queue (bc_buckets c)) (dq_current (bc_buckets c)) (bk_ts b) N).
  - cbn [mbind res_bind of_option]. rewrite (ring_take_length _ _ N Hl Hc).
    replace (N - (S (dq_current (bc_buckets c)) - S (dq_current (bc_buckets c))))%nat with N by lia. reflexivity.
  - lia.
  - intros j q Hj Hq.
    assert (Hin : q ∈ ring (dq_queue (bc_buckets c)) (dq_current (bc_buckets c))).
    { rewrite ring_Permutation. eapply elem_of_list_lookup_2; eauto. }
    apply elem_of_list_lookup_1 in Hin as [i Hi].
    destruct (Forall2_lookup_l _ _ _ _ _ (r_ptrs _ _ _ R) Hi) as (b' & Hb' & Hh).
    exists b'. split; [exact Hh|].
    eapply (StronglySorted_lookup_le _ 0 i b b'); [apply (r_sorted _ _ _ R) | reflexivity | exact Hb' | lia].
Qed.

(** ** Abstract step on newest-first lists *)

Definition astep (l : list bucket) (u : Z * Z) : list bucket :=
  match l with
  | [] => []
  | b :: l' =>
      if bk_ts b <? u.1 then Bucket u.1 (wrap64 u.2) :: l
      else Bucket (bk_ts b) (wrap64 (bk_count b + u.2)) :: l'
  end.

Lemma bc_UpdateN_spec N c l now n :
  repr N c l -> 1 <= interval_seconds (bc_interval c) -> in64 now ->
  let ts := interval_seconds (bc_interval c) * Z.quot now (1000 * interval_seconds (bc_interval c)) in
  exists c', bc_UpdateN c now n = Ok c' /\
    repr N c' (take (S N) (astep l (ts, n))) /\
    bc_interval c' = bc_interval c /\ bc_initTimestamp c' = bc_initTimestamp c /\
    bc_updateTotalCount c' = bc_updateTotalCount c /\
    c_count (bc_totalCount c') =
      (if bc_updateTotalCount c then wrap64 (c_count (bc_totalCount c) + n)
       else c_count (bc_totalCount c)).
Proof.
  intros R Hs Hnow ts. unfold bc_UpdateN. rewrite alignTimestamp_spec by assumption.
  fold ts. cbn. destruct (repr_cons _ _ _ R) as (b & l' & -> & Hb & Hr). rewrite Hb. cbn.
  pose proof (repr_length _ _ _ R) as Hll. cbn in Hll.
  destruct (Z.ltb_spec (bk_ts b) ts) as [Hlt|Hge].
  - unfold dq_addLast. rewrite (r_len _ _ _ R).
    unfold heap_add. rewrite list_lookup_middle by reflexivity. cbn.
    eexists. split; [reflexivity|]. cbn.
    split; [|by destruct (bc_updateTotalCount c)].
    pose proof (r_cur _ _ _ R) as Hc. pose proof (r_len _ _ _ R) as Hlen.
    pose proof (ring_addLast (dq_queue (bc_buckets c)) (dq_current (bc_buckets c))
                  (length (bc_heap c)) ltac:(lia)) as HR.
    cbn zeta in HR. rewrite Hlen in HR.
    set (cur' := ((dq_current (bc_buckets c) + 1) mod S N)%nat) in *.
    assert (Hcur' : (cur' < S N)%nat) by (apply Nat.mod_upper_bound; lia).
    rewrite insert_app_r_alt by lia. rewrite Nat.sub_diag. cbn [list_insert insert].
    assert (Hfr : Forall (fun p => (p < length (bc_heap c))%nat)
                    (ring (dq_queue (bc_buckets c)) (dq_current (bc_buckets c)))).
    { pose proof (r_ptrs _ _ _ R) as F. eapply Forall_impl.
      - apply (Forall2_Forall_l _ (fun p => is_Some (bc_heap c !! p)) _ _ F).
        apply Forall_true. intros b0 p Hp. eauto.
      - intros p [b0 Hp]. apply lookup_lt_is_Some_1. eauto. }
    constructor; cbn.
    + rewrite insert_length. exact Hlen.
    + exact Hcur'.
    + (* NoDup *)
      rewrite <- (ring_Permutation (<[cur':=length (bc_heap c)]> (dq_queue (bc_buckets c))) cur'), HR. constructor.
      * intros Hin. apply (elem_of_list_In) in Hin.
        assert (Hin2 : length (bc_heap c) ∈ ring (dq_queue (bc_buckets c)) (dq_current (bc_buckets c))).
        { apply elem_of_list_In in Hin. eapply elem_of_take in Hin as (i & Hi & _).
          eapply elem_of_list_lookup_2; eauto. }
        rewrite Forall_forall in Hfr. specialize (Hfr _ Hin2). lia.
      * apply NoDup_take. rewrite ring_Permutation. apply (r_nodup _ _ _ R).
    + rewrite HR. constructor.
      * rewrite lookup_app_r by lia. rewrite Nat.sub_diag. reflexivity.
      * replace (S N - 1)%nat with N by lia. apply Forall2_take.
        eapply Forall2_impl; [apply (r_ptrs _ _ _ R)|].
        intros p b0 Hp. apply lookup_app_l_Some. exact Hp.
    + rewrite list_lookup_insert; [reflexivity|]. rewrite Hlen. exact Hcur'.
    + constructor.
      * apply (StronglySorted_take _ N (b :: l')). apply (r_sorted _ _ _ R).
      * apply Forall_take. pose proof (r_sorted _ _ _ R) as S0. inversion S0 as [|? ? ? Hf]; subst.
        constructor; cbn; [lia|]. eapply Forall_impl; [exact Hf|]. cbn. intros; lia.
  - unfold heap_add. rewrite Hb. cbn. eexists. split; [reflexivity|]. cbn.
    split; [|by destruct (bc_updateTotalCount c)].
    constructor; cbn; try apply R.
    + pose proof (r_ptrs _ _ _ R) as F. rewrite Hr in F. rewrite Hr.
      inversion F as [|? ? ? ? Hb0 F']; subst.
      rewrite (take_ge l') by lia.
      assert (HND : NoDup (ring (dq_queue (bc_buckets c)) (dq_current (bc_buckets c)))).
      { rewrite ring_Permutation. apply R. }
      rewrite Hr in HND. inversion HND as [|? ? Hnin HND']; subst.
      constructor.
      * rewrite list_lookup_insert; [reflexivity|]. apply lookup_lt_is_Some_1. eauto.
      * eapply Forall2_impl with (P := fun p b0 => p ∈ tail (ring (dq_queue (bc_buckets c)) (dq_current (bc_buckets c))) /\ bc_heap c !! p = Some b0).
        { clear -F'. revert F'. generalize (tail (ring (dq_queue (bc_buckets c)) (dq_current (bc_buckets c)))) as r.
          intros r F. apply Forall2_same_length_lookup. split; [by eapply Forall2_length|].
          intros i p b0 Hp Hb0. split; [eapply elem_of_list_lookup_2; eauto|].
          eapply Forall2_lookup_lr in F; eauto. }
        intros p b0 [Hin Hp]. rewrite list_lookup_insert_ne; [exact Hp|]. intros <-. done.
    + rewrite (take_ge l') by lia. pose proof (r_sorted _ _ _ R) as S0.
      inversion S0 as [|? ? S1 Hf]; subst. constructor; assumption.
Qed.
