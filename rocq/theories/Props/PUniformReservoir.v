(** C38-C41, C87: the uniform reservoir. *)
From Verif.Go Require Import GoInt.
From Verif.Model Require Import UniformSnapshot UniformReservoir.
From Verif.Spec Require Import BucketSpec SnapshotSpec ReservoirSpec.
From Verif.Proofs Require Import UniformSnapshotProofs UniformReservoirProofs UniformSubset.
From Coq Require Import Factorial.
Local Open Scope Z_scope.

(** C38.  Whatever is recorded and whatever positions are drawn, no update panics,
    Size is min(recorded, capacity), and the snapshot holds capacity many values
    (so never more). *)
Theorem C38_size : forall cap ups,
  0 <= cap -> Z.of_nat (length ups) < 2 ^ 63 -> picks_in_range ups ->
  exists u, ur_exec cap ups = Ok u /\
    ur_Size u = Z.min (Z.of_nat (length ups)) cap /\
    us_Size (ur_GetSnapshot u) = (cap, false).
Proof.
  intros cap ups Hcap Hn Hp. destruct (ur_exec_spec cap ups Hcap Hn Hp) as (u & E & Hc & Hl & _).
  exists u. split_and!; [done| |].
  - unfold ur_Size. rewrite Hc, Hl. destruct (Z.ltb_spec (Z.of_nat (Z.to_nat cap)) (Z.of_nat (length ups))); lia.
  - unfold us_Size, ur_GetSnapshot, NewUniformSnapshot. cbn [us_values]. rewrite sort_perm, Hl, Z2Nat.id by lia. done.
Qed.
Print Assumptions C38_size.

Example C38_witness :
  let ups := [(5, 0); (7, 0); (9, 1); (11, 3)] in
  picks_in_range ups /\ (u ← ur_exec 2 ups; Ok (ur_Size u, ur_values u)) = Ok (2, [5; 9]).
Proof.
  cbv zeta. split; [|vm_compute; reflexivity].
  intros i v p H. do 4 (destruct i as [|i]; [injection H as <- <-; lia|]). done.
Qed.

(** C39 is false of the code: the snapshot is taken of the whole backing slice, so
    before the reservoir is full it contains zeros nobody recorded. *)
Theorem C39_refuted :
  exists cap ups u, 0 <= cap /\ picks_in_range ups /\ ur_exec cap ups = Ok u /\
    0 ∈ (us_GetValues (ur_GetSnapshot u)).1 /\ 0 ∉ ups.*1.
Proof.
  exists 3, [(5, 0)]. eexists. split; [lia|]. split.
  { intros i v p H. destruct i as [|i]; [injection H as <- <-; lia|done]. }
  split; [reflexivity|]. split.
  - apply elem_of_list_lookup. exists 0%nat. vm_compute. reflexivity.
  - intros H. cbn in H. apply elem_of_list_singleton in H. lia.
Qed.
Print Assumptions C39_refuted.

(** C39, what holds: up to capacity the snapshot is the multiset of the recorded
    values padded with zeros; from capacity on, it is a selection of distinct
    records (given by their positions in the history), without anything else. *)
Theorem C39_partial : forall cap ups u,
  0 <= cap -> Z.of_nat (length ups) < 2 ^ 63 -> picks_in_range ups -> ur_exec cap ups = Ok u ->
  (Z.of_nat (length ups) <= cap ->
     (us_GetValues (ur_GetSnapshot u)).1 ≡ₚ ups.*1 ++ replicate (Z.to_nat cap - length ups) 0) /\
  (cap <= Z.of_nat (length ups) ->
     exists idxs vals, (us_GetValues (ur_GetSnapshot u)).1 ≡ₚ vals /\ NoDup idxs /\
       Forall2 (fun i v => ups.*1 !! i = Some v) idxs vals).
Proof.
  intros cap ups u Hcap Hn Hp E. destruct (ur_exec_spec cap ups Hcap Hn Hp) as (u' & E' & Hc & Hl & Hsm & Hbig).
  rewrite E in E'. injection E' as <-.
  unfold us_GetValues, ur_GetSnapshot, NewUniformSnapshot. cbn [us_values fst]. split.
  - intros H. rewrite sort_perm, Hsm by done. done.
  - intros H. destruct (Hbig H) as (idxs & ND & F). exists idxs, (ur_values u). split_and!; [apply sort_perm|done|done].
Qed.
Print Assumptions C39_partial.

Example C39_witness_partial :
  (u ← ur_exec 3 [(5, 0)]; Ok ((us_GetValues (ur_GetSnapshot u)).1)) = Ok [0; 0; 5] /\
  (u ← ur_exec 2 [(5, 0); (7, 0); (9, 0); (11, 3)]; Ok ((us_GetValues (ur_GetSnapshot u)).1)) = Ok [7; 9].
Proof. split; vm_compute; reflexivity. Qed.

(** C40.  For every n: whatever numbers the source yields, an answer is a position
    in [0,n) and is the first draw r below the largest multiple n * (2^63 / n) of n,
    taken modulo n; some draw below that bound makes the loop end; and for every
    position exactly 2^63 / n of the raw 63-bit numbers yield it at once. *)
Theorem C40_range : forall n draws x,
  1 <= n < 2 ^ 63 -> Forall (fun r => 0 <= r < 2 ^ 63) draws -> nextRandomPos n draws = Some x ->
  0 <= x < n /\
  exists i r, draws !! i = Some r /\ r < n * (2 ^ 63 / n) /\ x = r mod n /\
    forall j r', (j < i)%nat -> draws !! j = Some r' -> n * (2 ^ 63 / n) <= r'.
Proof. intros. by apply nextRandomPos_spec. Qed.
Print Assumptions C40_range.

Theorem C40_ends : forall n draws,
  1 <= n < 2 ^ 63 -> Forall (fun r => 0 <= r < 2 ^ 63) draws ->
  (exists r, r ∈ draws /\ r < n * (2 ^ 63 / n)) <-> (exists x, nextRandomPos n draws = Some x).
Proof.
  intros n draws Hn HF. split.
  - intros (r & Hin & Hr). by apply (nextRandomPos_some n draws r).
  - intros (x & Hx). apply nextRandomPos_spec in Hx as (_ & i & r & H1 & H2 & _); try done.
    exists r. split; [by eapply elem_of_list_lookup_2|done].
Qed.
Print Assumptions C40_ends.

(** A single draw is accepted with probability more than one half. *)
Theorem C40_ends_fast : forall n, 1 <= n < 2 ^ 63 -> 2 ^ 62 < n * (2 ^ 63 / n) <= 2 ^ 63.
Proof.
  intros n Hn. pose proof (Z.div_mod (2 ^ 63) n ltac:(lia)) as D. pose proof (Z.mod_pos_bound (2 ^ 63) n ltac:(lia)) as M.
  assert (1 <= 2 ^ 63 / n) by (apply Z.div_le_lower_bound; lia). set (q := 2 ^ 63 / n) in *. nia.
Qed.
Print Assumptions C40_ends_fast.

Theorem C40_unbiased : forall n x, 1 <= n < 2 ^ 63 -> 0 <= x < n ->
  exists raws : list Z, NoDup raws /\ Z.of_nat (length raws) = 2 ^ 63 / n /\
    forall r, r ∈ raws <-> 0 <= r < 2 ^ 63 /\ nextRandomPos n [r] = Some x.
Proof.
  intros n x Hn Hx. pose proof (Z.div_mod (2 ^ 63) n ltac:(lia)) as D. pose proof (Z.mod_pos_bound (2 ^ 63) n ltac:(lia)) as M.
  assert (0 <= 2 ^ 63 / n) as Hq by (apply Z.div_pos; lia).
  exists ((fun k => x + n * k) <$> seqZ 0 (2 ^ 63 / n)). split_and!.
  - apply NoDup_fmap_2; [|apply NoDup_seqZ]. intros a b E. nia.
  - rewrite fmap_length, seqZ_length. lia.
  - intros r. rewrite elem_of_list_fmap. cbn [nextRandomPos]. split.
    + intros (k & -> & Hk). apply elem_of_seqZ in Hk.
      assert (0 <= x + n * k < 2 ^ 63) as Hr by nia. split; [done|].
      destruct (draw_spec n _ Hn Hr) as [Hv Ho]. assert (draw_ok n (x + n * k) = true) as -> by (apply Ho; nia).
      rewrite Hv. f_equal. rewrite (Z.mul_comm n), Z.mod_add by lia. apply Z.mod_small. lia.
    + intros [Hr E]. destruct (draw_spec n _ Hn Hr) as [Hv Ho]. destruct (draw_ok n r); [|done].
      injection E as E. rewrite Hv in E. pose proof (proj1 Ho eq_refl) as Ho'. exists (r / n).
      pose proof (Z.div_mod r n ltac:(lia)) as D'. assert (0 <= r / n) by (apply Z.div_pos; lia). split; [lia|].
      apply elem_of_seqZ. split; [done|]. nia.
Qed.
Print Assumptions C40_unbiased.

(** n = 2^62 + 1: the loop rejects 2^63 - 1 and goes on. *)
Example C40_witness :
  nextRandomPos 4611686018427387905 [9223372036854775807; 42] = Some 42 /\ nextRandomPos 10 [9223372036854775807; 42] = Some 2.
Proof. split; vm_compute; reflexivity. Qed.

(** C41.  [pick_vectors (S cap) k] lists every vector of positions the updates
    number cap+1, ..., cap+k can draw, each once; when all are equally likely (C40),
    each recorded value is retained with probability cap / m. *)
Theorem C41_vectors : forall a k,
  NoDup (pick_vectors a k) /\
  forall ps, ps ∈ pick_vectors a k <->
    length ps = k /\ forall i p, ps !! i = Some p -> 0 <= p < Z.of_nat (a + i).
Proof.
  intros a k. revert a. induction k as [|k IH]; intros a.
  - cbn. split; [apply NoDup_singleton|]. intros ps. rewrite elem_of_list_singleton. split.
    + intros ->. done.
    + intros [H _]. by destruct ps.
  - rewrite pick_vectors_cons. destruct (IH (S a)) as [ND Hel]. split.
    + generalize (NoDup_seq 0 a). generalize (seq 0 a) as l. intros l Hl. induction Hl as [|p l Hp Hl IHl]; [constructor|].
      cbn. apply NoDup_app. split_and!.
      * apply NoDup_fmap_2; [|done]. intros ? ? E. by injection E.
      * intros ps Hps Hps'. apply elem_of_list_fmap in Hps as (q & -> & _).
        apply elem_of_list_bind in Hps' as (p' & Hps' & Hp'). apply elem_of_list_fmap in Hps' as (q' & E & _).
        injection E as E _. apply Nat2Z.inj in E. by subst p'.
      * exact IHl.
    + intros ps. rewrite elem_of_list_bind. split.
      * intros (p & Hin & Hp). apply elem_of_list_fmap in Hin as (ps' & -> & Hin). apply Hel in Hin as [Hl Hin].
        apply elem_of_seq in Hp. split; [cbn; lia|]. intros [|i] q Hq; cbn in Hq.
        -- injection Hq as <-. lia.
        -- apply Hin in Hq. lia.
      * intros [Hl Hin]. destruct ps as [|p ps]; [done|]. pose proof (Hin 0%nat p eq_refl) as H0.
        exists (Z.to_nat p). rewrite Z2Nat.id by lia. split.
        -- apply elem_of_list_fmap. exists ps. split; [done|]. apply Hel. split; [by injection Hl|]. intros i q Hq.
           specialize (Hin (S i) q Hq). lia.
        -- apply elem_of_seq. lia.
Qed.
Print Assumptions C41_vectors.

Theorem C41_uniform : forall (cap : nat) vals junk x,
  (1 <= cap <= length vals)%nat -> Z.of_nat (length vals) < 2 ^ 63 -> length junk = cap -> NoDup vals -> x ∈ vals ->
  let choices := pick_vectors (S cap) (length vals - cap) in
  let retained ps := match ur_exec (Z.of_nat cap) (zip vals (junk ++ ps)) with
                     | Ok u => bool_decide (x ∈ (us_GetValues (ur_GetSnapshot u)).1)
                     | Panic => false
                     end in
  Z.of_nat (length vals) * count_if retained choices = Z.of_nat cap * Z.of_nat (length choices).
Proof.
  intros cap vals junk x Hcap Hn Hj ND Hx. cbv zeta. rewrite <- (retain_main cap vals junk x) by done.
  f_equal. apply count_if_ext. intros ps _. unfold holds. destruct (ur_exec _ _) as [u|]; [|done].
  apply bool_decide_ext. unfold us_GetValues, ur_GetSnapshot, NewUniformSnapshot. cbn [us_values fst]. by rewrite sort_perm.
Qed.
Print Assumptions C41_uniform.

(** capacity 2 of 4 values: value 7 is kept by 6 of the 12 choices *)
Example C41_witness :
  let choices := pick_vectors 3 2 in
  let retained ps := match ur_exec 2 (zip [5; 7; 9; 11] ([0; 0] ++ ps)) with
                     | Ok u => bool_decide (7 ∈ (us_GetValues (ur_GetSnapshot u)).1)
                     | Panic => false
                     end in
  count_if retained choices = 6 /\ length choices = 12%nat.
Proof. vm_compute. split; reflexivity. Qed.

(** C87.  The whole sample is uniform: every set of cap recorded values is what the
    reservoir holds for exactly (m - cap)! of the m! / cap! choices of positions. *)
Theorem C87_every_sample : forall (cap : nat) vals junk sample,
  (cap <= length vals)%nat -> Z.of_nat (length vals) < 2 ^ 63 -> length junk = cap -> NoDup vals ->
  NoDup sample -> length sample = cap -> (forall x, x ∈ sample -> x ∈ vals) ->
  let choices := pick_vectors (S cap) (length vals - cap) in
  let is_sample ps := match ur_exec (Z.of_nat cap) (zip vals (junk ++ ps)) with
                      | Ok u => bool_decide ((us_GetValues (ur_GetSnapshot u)).1 ≡ₚ sample)
                      | Panic => false
                      end in
  count_if is_sample choices = Z.of_nat (fact (length vals - cap)) /\
  (length choices * fact cap = fact (length vals))%nat.
Proof.
  intros cap vals junk sample Hc Hn Hj ND NS HS Hsub. cbv zeta. split.
  - rewrite <- (subset_main cap vals junk sample) by done. apply count_if_ext. intros ps _. unfold holds_exactly.
    destruct (ur_exec _ _) as [u|]; [|done]. apply bool_decide_ext.
    unfold us_GetValues, ur_GetSnapshot, NewUniformSnapshot. cbn [us_values fst]. by rewrite sort_perm.
  - rewrite vectors_number. f_equal. lia.
Qed.
Print Assumptions C87_every_sample.

(** {5, 11} out of 4 values: 2! of 4!/2! = 12 choices *)
Example C87_witness :
  let is_sample ps := match ur_exec 2 (zip [5; 7; 9; 11] ([0; 0] ++ ps)) with
                      | Ok u => bool_decide ((us_GetValues (ur_GetSnapshot u)).1 ≡ₚ [11; 5])
                      | Panic => false
                      end in
  count_if is_sample (pick_vectors 3 2) = 2.
Proof. vm_compute. reflexivity. Qed.
