(** Every sample of [cap] values is equally likely. *)
From Verif.Go Require Import GoInt.
From Verif.Model Require Import UniformSnapshot UniformReservoir.
From Verif.Spec Require Import BucketSpec ReservoirSpec.
From Verif.Proofs Require Import UniformReservoirProofs.
From Coq Require Import Factorial.
Local Open Scope Z_scope.

Lemma sumZ_app l1 l2 : sumZ (l1 ++ l2) = sumZ l1 + sumZ l2.
Proof. unfold sumZ; induction l1; cbn in *; lia. Qed.
Lemma count_if_zero {A} (P : A -> bool) l : (forall y, y ∈ l -> P y = false) -> count_if P l = 0.
Proof. intros H. rewrite (count_if_ext P (fun _ => false)) by done. apply (count_if_const false). Qed.
Lemma count_if_cons {A} (P : A -> bool) x l : count_if P (x :: l) = (if P x then 1 else 0) + count_if P l.
Proof.
  unfold count_if. rewrite filter_cons. destruct (P x).
  - rewrite decide_True by done. cbn [length]. lia.
  - rewrite decide_False by done. lia.
Qed.
Lemma count_if_one {A} (P : A -> bool) l x : NoDup l -> x ∈ l -> (forall y, y ∈ l -> P y = true <-> y = x) -> count_if P l = 1.
Proof.
  intros ND. induction ND as [|y l Hy ND IH]; intros Hx H; [by apply elem_of_nil in Hx|].
  rewrite count_if_cons. apply elem_of_cons in Hx as [->|Hx].
  - rewrite (proj2 (H y ltac:(left)) eq_refl). rewrite count_if_zero; [lia|]. intros z Hz.
    destruct (P z) eqn:E; [|done]. apply H in E; [|by right]. by subst z.
  - assert (P y = false) as ->.
    { destruct (P y) eqn:E; [|done]. apply H in E; [|left]. by subst y. }
    rewrite IH; [lia|done|]. intros z Hz. apply H. by right.
Qed.
Lemma count_if_sum {A} (P : A -> bool) l : count_if P l = sumZ ((fun x => if P x then 1 else 0) <$> l).
Proof. induction l as [|x l IH]; [done|]. rewrite count_if_cons, fmap_cons, IH. done. Qed.
Lemma sumZ_add {A} (f g : A -> Z) l : sumZ ((fun x => f x + g x) <$> l) = sumZ (f <$> l) + sumZ (g <$> l).
Proof. induction l as [|x l IH]; [done|]. rewrite !fmap_cons. cbn [sumZ foldr]. fold (sumZ ((fun x => f x + g x) <$> l)) (sumZ (f <$> l)) (sumZ (g <$> l)). lia. Qed.
(** exchange of sums *)
Lemma sum_count_swap {A B} (Q : A -> B -> bool) (l : list A) (m : list B) :
  sumZ ((fun x => count_if (Q x) m) <$> l) = sumZ ((fun y => count_if (fun x => Q x y) l) <$> m).
Proof.
  induction l as [|x l IH].
  - cbn. rewrite (sumZ_ext _ (fun _ => 0)) by done. rewrite sumZ_const. lia.
  - rewrite fmap_cons. cbn [sumZ foldr]. fold (sumZ ((fun x => count_if (Q x) m) <$> l)). rewrite IH.
    rewrite (sumZ_ext (fun y => count_if (fun x0 => Q x0 y) (x :: l)) (fun y => (if Q x y then 1 else 0) + count_if (fun x0 => Q x0 y) l)).
    2:{ intros y _. exact (count_if_cons (fun x0 => Q x0 y) x l). }
    rewrite sumZ_add, (count_if_sum (Q x)). done.
Qed.

Lemma pick_vectors_snoc a k :
  pick_vectors a (S k) = (ps ← pick_vectors a k; (fun p => ps ++ [Z.of_nat p]) <$> seq 0 (a + k)).
Proof.
  revert a. induction k as [|k IH]; intros a.
  - cbn. rewrite app_nil_r, Nat.add_0_r. clear. generalize (seq 0 a). intros l. induction l as [|x l IHl]; [done|]. cbn. f_equal. exact IHl.
  - rewrite (pick_vectors_cons a (S k)), (pick_vectors_cons a k), IH. rewrite (Nat.add_succ_r a k), <- (Nat.add_succ_l a k).
    generalize (seq 0 a). intros l. induction l as [|x l IHl]; [done|].
    rewrite !bind_cons, bind_app, IHl. f_equal.
    generalize (pick_vectors (S a) k). clear. intros V. induction V as [|ps V IH]; [done|].
    cbn [fmap list_fmap]. rewrite !bind_cons, fmap_app, IH, <- list_fmap_compose. done.
Qed.

(** The reservoir after all [vals]. *)
Lemma full_run (cap : nat) vals junk ps :
  (cap <= length vals)%nat -> Z.of_nat (length vals) < 2 ^ 63 -> length junk = cap ->
  length ps = (length vals - cap)%nat -> Forall (fun p => 0 <= p) ps -> NoDup vals ->
  exists W, ur_exec (Z.of_nat cap) (zip vals (junk ++ ps)) = Ok (UniformReservoir (Z.of_nat (length vals)) W) /\
    length W = cap /\ NoDup W /\ (forall x, x ∈ W -> x ∈ vals).
Proof.
  remember (length vals - cap)%nat as k eqn:Ek. revert vals ps Ek.
  induction k as [|k IH]; intros vals ps Ek Hc Hn Hj Hps HF ND.
  - destruct ps; [|done]. rewrite app_nil_r. exists vals. rewrite fill_run by lia. split_and!; try done; try lia.
    do 2 f_equal. lia.
  - destruct vals as [|v vals _] using rev_ind; [cbn in Ek; lia|].
    destruct ps as [|p ps _] using rev_ind; [done|].
    rewrite !app_length in *. cbn [length] in *. apply Forall_app in HF as [HF Hp]. rewrite Forall_singleton in Hp.
    apply NoDup_app in ND as (ND & D & _).
    destruct (IH vals ps) as (W & E & HW & NW & SW); try done; try lia.
    rewrite app_assoc. rewrite zip_with_app by (rewrite app_length; lia). unfold ur_exec, ur_run in *.
    destruct (NewUniformReservoir (Z.of_nat cap)) as [u0|]; [|done]. cbn [mbind res_bind] in *.
    rewrite run_ops_app, E. cbn [zip_with run_ops fst snd]. rewrite ur_UpdateN_spec by (cbn [ur_count]; lia).
    cbn [ur_count ur_values]. cbv zeta. destruct (Z.ltb_spec (Z.of_nat (length vals)) (Z.of_nat (length W))); [lia|].
    eexists. split; [do 2 f_equal; lia|]. rewrite insert_length. split; [done|].
    assert (v ∉ vals) as Hv. { intros Hin. apply (D v Hin). left. }
    split.
    + apply NoDup_alt. intros i j y Hi Hi'. rewrite list_lookup_insert_Some in Hi. rewrite list_lookup_insert_Some in Hi'.
      destruct Hi as [(Ei & Ey & _)|(Ni & Hi)], Hi' as [(Ei' & Ey' & _)|(Ni' & Hi')]; [congruence| | |].
      * subst y. apply elem_of_list_lookup_2, SW in Hi'. done.
      * subst y. apply elem_of_list_lookup_2, SW in Hi. done.
      * by apply (NoDup_lookup W i j y).
    + intros x Hx. apply elem_of_list_lookup in Hx as [i Hi]. rewrite list_lookup_insert_Some in Hi.
      apply elem_of_app. destruct Hi as [(_ & -> & _)|(_ & Hi)]; [right; left|]. left. apply SW. by eapply elem_of_list_lookup_2.
Qed.

Definition holds_exactly (u : res uniform_reservoir) (l : list Z) : bool :=
  match u with Ok u => bool_decide (ur_values u ≡ₚ l) | Panic => false end.

Lemma insert_split (W : list Z) p v : (p < length W)%nat ->
  exists w A B, W !! p = Some w /\ W = A ++ w :: B /\ length A = p /\ <[p := v]> W = A ++ v :: B.
Proof.
  intros H. apply lookup_lt_is_Some in H as [w Hw]. exists w, (take p W), (drop (S p) W).
  pose proof (lookup_lt_Some _ _ _ Hw). split_and!; [done|by rewrite take_drop_middle|rewrite take_length; lia|].
  apply insert_take_drop. done.
Qed.

(** one more value [v], position drawn from [0,m) *)
Lemma last_out (cap m : nat) (W : list Z) (v : Z) (S : list Z) : length W = cap -> (cap <= m)%nat -> v ∉ S ->
  length S = cap ->
  count_if (fun p => bool_decide (<[p := v]> W ≡ₚ S)) (seq 0 m) = if bool_decide (W ≡ₚ S) then Z.of_nat (m - cap) else 0.
Proof.
  intros HW Hm Hv HS.
  rewrite (count_if_ext _ (fun p => bool_decide (cap <= p)%nat && bool_decide (W ≡ₚ S))).
  2:{ intros p _. rewrite <- bool_decide_and. apply bool_decide_ext. destruct (decide (cap <= p)%nat) as [C|C].
      - rewrite list_insert_ge by lia. naive_solver.
      - split; [|lia]. intros P. exfalso. apply Hv. rewrite <- P. apply elem_of_list_lookup. exists p. apply list_lookup_insert. lia. }
  replace (seq 0 m) with (seq 0 cap ++ seq cap (m - cap)) by (rewrite <- seq_app; f_equal; lia).
  rewrite count_if_app. rewrite count_if_zero.
  2:{ intros y Hy. apply elem_of_seq in Hy. rewrite bool_decide_eq_false_2 by lia. done. }
  rewrite (count_if_ext _ (fun _ => bool_decide (W ≡ₚ S))).
  2:{ intros y Hy. apply elem_of_seq in Hy. rewrite bool_decide_eq_true_2 by lia. done. }
  rewrite count_if_const, seq_length. destruct (bool_decide _); lia.
Qed.

Lemma last_in (cap m : nat) (W : list Z) (v : Z) (S vals : list Z) : length W = cap -> (cap <= m)%nat -> NoDup W -> NoDup vals ->
  (forall x, x ∈ W -> x ∈ vals) -> v ∉ vals -> 
  count_if (fun p => bool_decide (<[p := v]> W ≡ₚ v :: S)) (seq 0 m) = count_if (fun w => bool_decide (W ≡ₚ w :: S)) vals.
Proof.
  intros HW Hm ND NV SW Hv.
  assert (forall p, <[p := v]> W ≡ₚ v :: S -> exists w, W !! p = Some w /\ W ≡ₚ w :: S) as H1.
  { intros p P. assert (p < length W)%nat as Hp.
    { destruct (decide (p < length W)%nat) as [C|C]; [done|]. rewrite list_insert_ge in P by lia. exfalso. apply Hv, SW. rewrite P. left. }
    destruct (insert_split W p v Hp) as (w & A & B & Hw & EW & _ & EI). exists w. split; [done|].
    rewrite EI in P. rewrite <- Permutation_middle in P. apply Permutation_cons_inv in P.
    rewrite EW. rewrite <- Permutation_middle. by rewrite P. }
  destruct (decide (Exists (fun w => W ≡ₚ w :: S) vals)) as [X|N'].
  1: apply Exists_exists in X as (w & Hwv & Hw).
  2: assert (~ exists w, w ∈ vals /\ W ≡ₚ w :: S) as N by (by rewrite <- Exists_exists).
  - assert (w ∈ W) as HwW by (rewrite Hw; left). apply elem_of_list_lookup in HwW as [j Hj].
    assert (w ∉ S) as HwS. { rewrite Hw in ND. by apply NoDup_cons in ND as [? _]. }
    pose proof (lookup_lt_Some _ _ _ Hj) as Hjl.
    rewrite (count_if_one _ (seq 0 m) j); [|apply NoDup_seq|apply elem_of_seq; lia|].
    2:{ intros p _. rewrite bool_decide_eq_true. split.
        - intros P. destruct (H1 p P) as (w' & Hw' & P'). rewrite P' in Hw.
          assert (w' = w) as ->.
          { assert (w' ∈ w :: S) as Hin by (rewrite <- Hw; left). apply elem_of_cons in Hin as [?|Hin]; [done|].
            rewrite P' in ND. by apply NoDup_cons in ND as [? _]. }
          by apply (NoDup_lookup W p j w).
        - intros ->. destruct (insert_split W j v Hjl) as (w' & A & B & Hw' & EW & _ & EI). 
          assert (w' = w) as -> by congruence. rewrite EI. rewrite <- Permutation_middle. f_equiv.
          rewrite EW in Hw. rewrite <- Permutation_middle in Hw. by apply Permutation_cons_inv in Hw. }
    rewrite (count_if_one _ vals w); try done. intros y _. rewrite bool_decide_eq_true. split; [|by intros ->].
    intros P. rewrite Hw in P. assert (y ∈ w :: S) as Hin by (rewrite P; left).
    apply elem_of_cons in Hin as [?|Hin]; [done|]. rewrite Hw in ND. rewrite P in ND. by apply NoDup_cons in ND as [? _].
  - rewrite !count_if_zero; [done| |].
    + intros w Hw. apply bool_decide_eq_false_2. intros P. apply N. by exists w.
    + intros p _. apply bool_decide_eq_false_2. intros P. apply N. destruct (H1 p P) as (w & Hw & P'). exists w. split; [|done].
      apply SW. by eapply elem_of_list_lookup_2.
Qed.

Lemma count_notin (S vals : list Z) : NoDup S -> NoDup vals -> (forall x, x ∈ S -> x ∈ vals) ->
  count_if (fun w => bool_decide (w ∉ S)) vals = Z.of_nat (length vals) - Z.of_nat (length S).
Proof.
  intros NS NV. revert vals NV. induction NS as [|x S Hx NS IH]; intros vals NV Hs.
  - rewrite (count_if_ext _ (fun _ => true)).
    + rewrite count_if_const. cbn. lia.
    + intros w _. apply bool_decide_eq_true_2. apply not_elem_of_nil.
  - assert (x ∈ vals) as Hxv by (apply Hs; left). apply elem_of_list_split in Hxv as (A & B & ->).
    rewrite <- Permutation_middle in NV. apply NoDup_cons in NV as [Hx' NV].
    rewrite count_if_app, count_if_cons. rewrite bool_decide_eq_false_2 by (intros H; apply H; left).
    specialize (IH (A ++ B) NV). rewrite count_if_app in IH.
    rewrite (count_if_ext _ (fun w => bool_decide (w ∉ S)) A), (count_if_ext _ (fun w => bool_decide (w ∉ S)) B).
    + rewrite !app_length in *. cbn [length]. rewrite Nat2Z.inj_add in *. 
      assert (forall y, y ∈ S -> y ∈ A ++ B) as HS.
      { intros y Hy. specialize (Hs y ltac:(by right)). rewrite <- Permutation_middle in Hs. apply elem_of_cons in Hs as [->|?]; done. }
      specialize (IH HS). lia.
    + intros w Hw. apply bool_decide_ext. rewrite elem_of_cons. split; [tauto|]. intros H [->|?]; [|done].
      apply Hx', elem_of_app. by right.
    + intros w Hw. apply bool_decide_ext. rewrite elem_of_cons. split; [tauto|]. intros H [->|?]; [|done].
      apply Hx', elem_of_app. by left.
Qed.

Lemma sumZ_if {A} (P : A -> bool) (c : Z) l : sumZ ((fun x => if P x then c else 0) <$> l) = c * count_if P l.
Proof.
  induction l as [|x l IH]; [cbn; unfold count_if; cbn; lia|]. rewrite fmap_cons, count_if_cons. cbn [sumZ foldr].
  fold (sumZ ((fun x => if P x then c else 0) <$> l)). rewrite IH. destruct (P x); lia.
Qed.

Lemma subset_main (cap : nat) vals junk S :
  (cap <= length vals)%nat -> Z.of_nat (length vals) < 2 ^ 63 -> length junk = cap -> NoDup vals ->
  NoDup S -> length S = cap -> (forall x, x ∈ S -> x ∈ vals) ->
  count_if (fun ps => holds_exactly (ur_exec (Z.of_nat cap) (zip vals (junk ++ ps))) S) (pick_vectors (Datatypes.S cap) (length vals - cap)) =
  Z.of_nat (fact (length vals - cap)).
Proof.
  remember (length vals - cap)%nat as k eqn:Ek. revert vals S Ek.
  induction k as [|k IH]; intros vals S Ek Hc Hn Hj ND NS HS Hsub.
  - cbn [pick_vectors fact]. rewrite count_if_cons, app_nil_r. rewrite fill_run by lia. cbn [holds_exactly ur_values].
    rewrite bool_decide_eq_true_2; [unfold count_if; cbn; lia|].
    symmetry. apply submseteq_Permutation_length_le; [lia|]. by apply NoDup_submseteq.
  - destruct vals as [|v vals _] using rev_ind; [cbn in Ek; lia|].
    rewrite app_length in *. cbn [length] in *. apply NoDup_app in ND as (ND & D & _).
    assert (v ∉ vals) as Hv. { intros Hin. apply (D v Hin). left. }
    rewrite pick_vectors_snoc, count_if_bind.
    set (m := (Datatypes.S cap + k)%nat).
    assert (forall ps, ps ∈ pick_vectors (Datatypes.S cap) k ->
      exists W, ur_exec (Z.of_nat cap) (zip vals (junk ++ ps)) = Ok (UniformReservoir (Z.of_nat (length vals)) W) /\
        length W = cap /\ NoDup W /\ (forall x, x ∈ W -> x ∈ vals) /\
        forall p : nat, ur_exec (Z.of_nat cap) (zip (vals ++ [v]) (junk ++ ps ++ [Z.of_nat p])) =
          Ok (UniformReservoir (Z.of_nat (length vals) + 1) (<[p := v]> W))) as HW.
    { intros ps Hps. apply pick_vectors_elem in Hps as [Hl HF].
      destruct (full_run cap vals junk ps) as (W & E & HW & NW & SW); try done; try lia.
      exists W. split_and!; try done. intros p. rewrite app_assoc. rewrite zip_with_app by (rewrite app_length; lia).
      unfold ur_exec, ur_run in *. destruct (NewUniformReservoir (Z.of_nat cap)) as [u0|]; [|done]. cbn [mbind res_bind] in *.
      rewrite run_ops_app, E. cbn [zip_with run_ops fst snd]. rewrite ur_UpdateN_spec by (cbn [ur_count]; lia).
      cbn [ur_count ur_values]. cbv zeta. destruct (Z.ltb_spec (Z.of_nat (length vals)) (Z.of_nat (length W))); [lia|].
      rewrite Nat2Z.id. done. }
    destruct (decide (v ∈ S)) as [Hin|Hout].
    + apply elem_of_list_split in Hin as (A & B & ES).
      assert (S ≡ₚ v :: (A ++ B)) as PS by (rewrite ES; by rewrite Permutation_middle).
      set (S' := A ++ B) in *.
      assert (NoDup (v :: S')) as NS' by (by rewrite <- PS). apply NoDup_cons in NS' as [HvS' NS'].
      assert (forall x, x ∈ S' -> x ∈ vals) as Hsub'.
      { intros x Hx. assert (x ∈ S) as HxS by (rewrite PS; by right). apply Hsub, elem_of_app in HxS as [?|HxS]; [done|].
        apply elem_of_list_singleton in HxS as ->. done. }
      assert (Datatypes.S (length S') = cap) as LS'.
      { rewrite <- HS. rewrite PS. done. }
      rewrite (sumZ_ext _ (fun ps => count_if (fun w => holds_exactly (ur_exec (Z.of_nat cap) (zip vals (junk ++ ps))) (w :: S')) vals)).
      2:{ intros ps Hps. destruct (HW ps Hps) as (W & E & LW & NW & SW & Hp). rewrite count_if_fmap.
          rewrite (count_if_ext _ (fun p => bool_decide (<[p := v]> W ≡ₚ v :: S'))).
          2:{ intros p _. rewrite Hp. cbn [holds_exactly ur_values]. apply bool_decide_ext. by rewrite PS. }
          rewrite (last_in cap m W v S' vals) by (done || lia). apply count_if_ext. intros w _. rewrite E. done. }
      rewrite sum_count_swap.
      rewrite (sumZ_ext _ (fun w => if bool_decide (w ∉ S') then Z.of_nat (fact k) else 0)).
      2:{ intros w Hw. destruct (decide (w ∈ S')) as [Hin|Hn'].
          - rewrite bool_decide_eq_false_2 by (intros H; by apply H). apply count_if_zero. intros ps Hps.
            destruct (HW ps Hps) as (W & E & LW & NW & SW & Hp). rewrite E. cbn. apply bool_decide_eq_false_2. intros P.
            rewrite P in NW. apply NoDup_cons in NW as [? _]. done.
          - rewrite bool_decide_eq_true_2 by done. apply IH; try done; try lia.
            + by apply NoDup_cons.
            + intros x Hx. apply elem_of_cons in Hx as [->|Hx]; [done|]. by apply Hsub'. }
      rewrite sumZ_if, count_notin by done.
      replace (fact (Datatypes.S k)) with (Datatypes.S k * fact k)%nat by reflexivity.
      rewrite Nat2Z.inj_mul. replace (Z.of_nat (length vals) - Z.of_nat (length S')) with (Z.of_nat (Datatypes.S k)) by lia. ring.
    + rewrite (sumZ_ext _ (fun ps => if holds_exactly (ur_exec (Z.of_nat cap) (zip vals (junk ++ ps))) S then Z.of_nat (Datatypes.S k) else 0)).
      2:{ intros ps Hps. destruct (HW ps Hps) as (W & E & LW & NW & SW & Hp). rewrite count_if_fmap.
          rewrite (count_if_ext _ (fun p => bool_decide (<[p := v]> W ≡ₚ S))).
          2:{ intros p _. rewrite Hp. done. }
          rewrite (last_out cap m W v S) by (done || lia). rewrite E. cbn [holds_exactly ur_values].
          replace (m - cap)%nat with (Datatypes.S k) by lia. done. }
      rewrite sumZ_if. rewrite IH; try done; try lia.
      * replace (fact (Datatypes.S k)) with (Datatypes.S k * fact k)%nat by reflexivity. lia.
      * intros x Hx. pose proof (Hsub x Hx) as H. apply elem_of_app in H as [?|H]; [done|].
        apply elem_of_list_singleton in H as ->. done.
Qed.

Lemma vectors_number a k : (length (pick_vectors (S a) k) * fact a = fact (a + k))%nat.
Proof.
  revert a. induction k as [|k IH]; intros a; [rewrite Nat.add_0_r; cbn [pick_vectors length]; lia|].
  pose proof (length_vectors_cons (S a) k) as H. rewrite <- Nat2Z.inj_mul in H. apply Nat2Z.inj in H. rewrite H.
  rewrite Nat.add_succ_r, <- Nat.add_succ_l, <- (IH (S a)). replace (fact (S a)) with (S a * fact a)%nat by reflexivity. rewrite (Nat.mul_comm (S a)), <- Nat.mul_assoc. done.
Qed.
