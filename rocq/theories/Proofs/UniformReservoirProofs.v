From Verif.Go Require Import GoInt.
From Verif.Model Require Import UniformSnapshot UniformReservoir.
From Verif.Spec Require Import BucketSpec ReservoirSpec.
Local Open Scope Z_scope.

(** ** The random position *)
Lemma land_mask r : 0 <= r < 2 ^ 63 -> Z.land r randomMask = r.
Proof.
  intros H. change randomMask with (Z.ones 63). rewrite Z.land_ones by lia. by rewrite Z.mod_small.
Qed.

Lemma draw_spec n r : 1 <= n < 2 ^ 63 -> 0 <= r < 2 ^ 63 ->
  draw_val n r = r mod n /\ (draw_ok n r = true <-> r < n * (2 ^ 63 / n)).
Proof.
  intros Hn Hr. unfold draw_ok, draw_val. rewrite land_mask by done. rewrite Z.rem_mod_nonneg by lia. split; [done|].
  pose proof (Z.div_mod r n ltac:(lia)) as D. pose proof (Z.mod_pos_bound r n ltac:(lia)) as M.
  pose proof (Z.div_mod (2 ^ 63) n ltac:(lia)) as D2. pose proof (Z.mod_pos_bound (2 ^ 63) n ltac:(lia)) as M2.
  set (a := r / n) in *. set (q := 2 ^ 63 / n) in *. set (m := r mod n) in *.
  assert (0 <= a) by (apply Z.div_pos; lia).
  assert (0 <= n * a <= r) by lia.
  replace (r - m) with (n * a) by lia.
  rewrite (wrap64_id (n * a)) by (unfold in64, two63; lia).
  rewrite wrap64_add_l with (y := -1) (x := n * a + n) || (replace (wrap64 (n * a + n) - 1) with (wrap64 (n * a + n) + -1) by lia; rewrite wrap64_add_l).
  assert (0 <= wrap64 (n * a + n + -1) <-> n * a + n - 1 < 2 ^ 63) as E.
  { unfold wrap64, two63, two64. destruct (Z_lt_ge_dec (n * a + n - 1) (2 ^ 63)) as [C|C].
    - rewrite Z.mod_small by lia. lia.
    - replace (n * a + n + -1 + 9223372036854775808) with (n * a + n - 1 - 9223372036854775808 + 1 * 18446744073709551616) by lia.
      rewrite Z.mod_add by lia. rewrite Z.mod_small by lia. lia. }
  rewrite Z.leb_le, E. split.
  - intros C. assert (a < q) as Haq by nia. nia.
  - intros C. assert (a < q) as Haq by nia. nia.
Qed.

Lemma nextRandomPos_spec n draws x : 1 <= n < 2 ^ 63 -> Forall (fun r => 0 <= r < 2 ^ 63) draws ->
  nextRandomPos n draws = Some x ->
  0 <= x < n /\ exists i r, draws !! i = Some r /\ r < n * (2 ^ 63 / n) /\ x = r mod n /\
    forall j r', (j < i)%nat -> draws !! j = Some r' -> n * (2 ^ 63 / n) <= r'.
Proof.
  intros Hn. induction draws as [|r draws IH]; intros HF H; [done|]. apply Forall_cons in HF as [Hr HF].
  cbn [nextRandomPos] in H. destruct (draw_spec n r Hn Hr) as [Hv Ho]. destruct (draw_ok n r) eqn:E.
  - injection H as <-. rewrite Hv. split; [apply Z.mod_pos_bound; lia|]. exists 0%nat, r. split_and!; [done|by apply Ho|done|lia].
  - destruct (IH HF H) as (H1 & i & r2 & H2 & H3 & H4 & H5). split; [done|]. exists (S i), r2. split_and!; [done|done|done|].
    intros [|j] r' Hj Hl; cbn in Hl.
    + injection Hl as <-. destruct (Z_lt_ge_dec r (n * (2 ^ 63 / n))) as [C|C]; [|lia]. apply Ho in C. congruence.
    + apply (H5 j r'); [lia|done].
Qed.

Lemma nextRandomPos_some n draws r : 1 <= n < 2 ^ 63 -> Forall (fun r => 0 <= r < 2 ^ 63) draws ->
  r ∈ draws -> r < n * (2 ^ 63 / n) -> exists x, nextRandomPos n draws = Some x.
Proof.
  intros Hn HF Hin Hr. induction HF as [|r' draws Hr' HF IH]; [by apply elem_of_nil in Hin|]. cbn.
  destruct (draw_ok n r') eqn:E; [by eexists|]. apply elem_of_cons in Hin as [<-|Hin]; [|by apply IH].
  apply (draw_spec n r Hn Hr') in Hr. congruence.
Qed.

(** ** Updates *)
Lemma set_at_ok l i v : 0 <= i < Z.of_nat (length l) -> set_at l i v = Ok (<[Z.to_nat i := v]> l).
Proof. intros H. unfold set_at. destruct (Z.leb_spec 0 i); [|lia]. destruct (Z.ltb_spec i (Z.of_nat (length l))); [done|lia]. Qed.

Lemma ur_UpdateN_spec u v p :
  0 <= ur_count u < 2 ^ 63 - 1 -> 0 <= p ->
  ur_UpdateN u v p = Ok (UniformReservoir (ur_count u + 1)
    (let j := if ur_count u <? Z.of_nat (length (ur_values u)) then ur_count u else p in
     <[Z.to_nat j := v]> (ur_values u))).
Proof.
  intros Hc Hp. unfold ur_UpdateN. rewrite wrap64_id by (unfold in64, two63; lia).
  set (size := Z.of_nat (length (ur_values u))).
  destruct (Z.leb_spec (ur_count u + 1) size) as [C|C]; destruct (Z.ltb_spec (ur_count u) size) as [C'|C']; try lia; cbv zeta.
  - replace (ur_count u + 1 - 1) with (ur_count u) by lia. rewrite wrap64_id by (unfold in64, two63; lia).
    rewrite set_at_ok by lia. done.
  - destruct (Z.ltb_spec p size); [by rewrite set_at_ok by lia|].
    rewrite list_insert_ge by lia. done.
Qed.

(** Where the retained values come from. *)
Definition from_history (hist values : list Z) (idxs : list nat) : Prop :=
  NoDup idxs /\ Forall2 (fun i v => hist !! i = Some v) idxs values.

Lemma ur_exec_spec cap ups :
  0 <= cap -> Z.of_nat (length ups) < 2 ^ 63 -> picks_in_range ups ->
  exists u, ur_exec cap ups = Ok u /\ ur_count u = Z.of_nat (length ups) /\
    length (ur_values u) = Z.to_nat cap /\
    (Z.of_nat (length ups) <= cap -> ur_values u = ups.*1 ++ replicate (Z.to_nat cap - length ups) 0) /\
    (cap <= Z.of_nat (length ups) -> exists idxs, from_history ups.*1 (ur_values u) idxs).
Proof.
  intros Hcap. unfold ur_exec, NewUniformReservoir. destruct (Z.ltb_spec cap 0); [lia|].
  cbn [mbind res_bind]. unfold ur_run. induction ups as [|[v p] ups IH] using rev_ind; intros Hn Hp.
  - eexists. split; [done|]. cbn [ur_count ur_values length]. rewrite replicate_length. split_and!; try done.
    + intros _. cbn. f_equal. lia.
    + intros H0. cbn in H0. exists []. split; [constructor|]. replace (Z.to_nat cap) with 0%nat by lia. constructor.
  - rewrite app_length in Hn. cbn [length] in Hn.
    destruct IH as (u & E & Hc & Hl & Hsm & Hbig).
    { lia. }
    { intros i w q Hi. apply (Hp i w q). by rewrite lookup_app_l by (by apply lookup_lt_Some in Hi). }
    assert (0 <= p <= Z.of_nat (length ups)) as Hpick.
    { apply (Hp (length ups) v p). by apply list_lookup_middle. }
    rewrite run_ops_app, E. cbn [run_ops fst snd]. rewrite ur_UpdateN_spec by lia. eexists. split; [done|].
    cbn [ur_count ur_values]. rewrite !app_length, insert_length, Hl. cbn [length]. split_and!; [lia|done| |].
    + intros Hle. rewrite Hc. destruct (Z.ltb_spec (Z.of_nat (length ups)) (Z.of_nat (Z.to_nat cap))); [|lia].
      rewrite Hsm by lia. rewrite Nat2Z.id.
      rewrite (insert_app_r_alt ups.*1) by (rewrite fmap_length; lia). rewrite fmap_length, Nat.sub_diag, fmap_app, <- app_assoc.
      f_equal. destruct (Z.to_nat cap - length ups)%nat as [|k] eqn:Ek; [lia|]. cbn. f_equal. f_equal. lia.
    + intros Hge. rewrite Hc.
      destruct (Z.ltb_spec (Z.of_nat (length ups)) (Z.of_nat (Z.to_nat cap))) as [C|C].
      * (* just filled up *)
        rewrite Hsm by lia. rewrite Nat2Z.id.
        rewrite (insert_app_r_alt ups.*1) by (rewrite fmap_length; lia). rewrite fmap_length, Nat.sub_diag.
        replace (Z.to_nat cap - length ups)%nat with 1%nat by lia. cbn [replicate]. rewrite fmap_app. cbn.
        exists (seq 0 (length (ups.*1 ++ [v]))). split; [apply NoDup_seq|].
        apply Forall2_same_length_lookup_2; [by rewrite seq_length|]. intros i j w Hj Hw.
        apply lookup_seq in Hj as [-> Hj]. exact Hw.
      * destruct Hbig as (idxs & ND & F); [lia|].
        assert (Forall2 (fun i w => (ups ++ [(v, p)]).*1 !! i = Some w) idxs (ur_values u)) as F'.
        { eapply Forall2_impl; [done|]. intros i w Hi. rewrite fmap_app. by rewrite lookup_app_l by (by apply lookup_lt_Some in Hi). }
        destruct (decide (Z.to_nat p < Z.to_nat cap)%nat) as [Hlt|Hge'].
        -- exists (<[Z.to_nat p := length ups]> idxs). split.
           ++ assert (forall i, i ∈ idxs -> (i < length ups)%nat) as Hb.
              { intros i Hi. apply elem_of_list_lookup in Hi as [j Hj]. destruct (Forall2_lookup_l _ _ _ _ _ F Hj) as (w & _ & Hw).
                apply lookup_lt_Some in Hw. by rewrite fmap_length in Hw. }
              apply NoDup_alt. intros i j x Hi Hj.
              rewrite list_lookup_insert_Some in Hi. rewrite list_lookup_insert_Some in Hj.
              destruct Hi as [(Ei & Exi & _)|(Ni & Hi)], Hj as [(Ej & Exj & _)|(Nj & Hj)]; [congruence| | |].
              ** apply elem_of_list_lookup_2, Hb in Hj. lia.
              ** apply elem_of_list_lookup_2, Hb in Hi. lia.
              ** eapply NoDup_lookup; done.
           ++ apply Forall2_insert; [done|]. rewrite fmap_app. cbn. rewrite lookup_app_r by (rewrite fmap_length; lia).
              by rewrite fmap_length, Nat.sub_diag.
        -- exists idxs. rewrite list_insert_ge by lia. done.
Qed.

(** ** Counting *)
Lemma count_if_app {A} (P : A -> bool) l1 l2 : count_if P (l1 ++ l2) = count_if P l1 + count_if P l2.
Proof. unfold count_if. rewrite filter_app, app_length. lia. Qed.
Lemma count_if_fmap {A B} (f : A -> B) (P : B -> bool) l : count_if P (f <$> l) = count_if (fun x => P (f x)) l.
Proof.
  unfold count_if. f_equal. induction l as [|x l IH]; [done|]. rewrite fmap_cons, !filter_cons.
  destruct (decide (P (f x) = true)); cbn; lia.
Qed.
Lemma count_if_ext {A} (P Q : A -> bool) l : (forall x, x ∈ l -> P x = Q x) -> count_if P l = count_if Q l.
Proof.
  unfold count_if. intros H. f_equal. induction l as [|x l IH]; [done|]. rewrite !filter_cons.
  rewrite (H x) by left. destruct (decide (Q x = true)); cbn; rewrite IH; try done; intros y Hy; apply H; by right.
Qed.
Lemma count_if_const {A} (b : bool) (l : list A) : count_if (fun _ => b) l = if b then Z.of_nat (length l) else 0.
Proof.
  unfold count_if. induction l as [|x l IH]; [by destruct b|]. rewrite filter_cons. destruct b.
  - rewrite decide_True by done. cbn [length]. lia.
  - rewrite decide_False by done. done.
Qed.
Lemma count_if_bind {A B} (f : A -> list B) (P : B -> bool) l :
  count_if P (mbind f l) = sumZ ((fun x => count_if P (f x)) <$> l).
Proof. induction l as [|x l IH]; [done|]. cbn. rewrite count_if_app. cbn in IH. unfold sumZ in *. lia. Qed.
Lemma length_bind {A B} (f : A -> list B) l : Z.of_nat (length (mbind f l)) = sumZ ((fun x => Z.of_nat (length (f x))) <$> l).
Proof. induction l as [|x l IH]; [done|]. cbn. rewrite app_length. cbn in IH. unfold sumZ in *. lia. Qed.
Lemma sumZ_const {A} (c : Z) (l : list A) : sumZ ((fun _ => c) <$> l) = Z.of_nat (length l) * c.
Proof. induction l as [|x l IH]; [done|]. cbn. cbn in IH. unfold sumZ in *. lia. Qed.
Lemma sumZ_ext {A} (f g : A -> Z) l : (forall x, x ∈ l -> f x = g x) -> sumZ (f <$> l) = sumZ (g <$> l).
Proof.
  intros H. induction l as [|x l IH]; [done|]. cbn. unfold sumZ in *. rewrite (H x) by left. rewrite IH; [done|].
  intros y Hy. apply H. by right.
Qed.
(** c0 for all but one of 0..a-1, c1 for that one *)
Lemma sumZ_but_one (a j : nat) c0 c1 : (j < a)%nat ->
  sumZ ((fun x => if decide (x = j) then c1 else c0) <$> seq 0 a) = c1 + (Z.of_nat a - 1) * c0.
Proof.
  intros Hj. replace a with (j + S (a - S j))%nat at 1 by lia. rewrite seq_app, fmap_app. cbn [seq].
  assert (forall l1 l2, sumZ (l1 ++ l2) = sumZ l1 + sumZ l2) as Happ by (clear; intros l1 l2; unfold sumZ; induction l1; cbn in *; lia).
  rewrite Happ. rewrite (sumZ_ext _ (fun _ => c0)).
  2:{ intros x Hx. apply elem_of_seq in Hx. rewrite decide_False by lia. done. }
  rewrite sumZ_const, seq_length. rewrite fmap_cons. change (sumZ (?x :: ?l)) with (x + sumZ l). cbv beta. rewrite ?Nat.add_0_l. rewrite decide_True by done.
  rewrite (sumZ_ext _ (fun _ => c0)).
  2:{ intros x Hx. apply elem_of_seq in Hx. rewrite decide_False by lia. done. }
  rewrite sumZ_const, seq_length. replace (Z.of_nat (a - S j)) with (Z.of_nat a - Z.of_nat j - 1) by lia. ring.
Qed.
(** c1 for 0..b-1, c0 for b..a-1 *)
Lemma sumZ_below (a b : nat) c0 c1 : (b <= a)%nat ->
  sumZ ((fun x => if decide (x < b)%nat then c1 else c0) <$> seq 0 a) = Z.of_nat b * c1 + (Z.of_nat a - Z.of_nat b) * c0.
Proof.
  intros Hb. replace a with (b + (a - b))%nat at 1 by lia. rewrite seq_app, fmap_app. cbn.
  assert (forall l1 l2, sumZ (l1 ++ l2) = sumZ l1 + sumZ l2) as Happ by (clear; intros l1 l2; unfold sumZ; induction l1; cbn in *; lia).
  rewrite Happ. rewrite (sumZ_ext _ (fun _ => c1)).
  2:{ intros x Hx. apply elem_of_seq in Hx. rewrite decide_True by lia. done. }
  rewrite sumZ_const, seq_length. rewrite (sumZ_ext _ (fun _ => c0)).
  2:{ intros x Hx. apply elem_of_seq in Hx. rewrite decide_False by lia. done. }
  rewrite sumZ_const, seq_length, Nat2Z.inj_sub by lia. ring.
Qed.

Definition holds (u : res uniform_reservoir) (x : Z) : bool :=
  match u with Ok u => bool_decide (x ∈ ur_values u) | Panic => false end.
Definition retained_after (u : uniform_reservoir) (vals : list Z) (x : Z) (ps : list Z) : bool :=
  holds (ur_run u (zip vals ps)) x.

Lemma pick_vectors_cons a k :
  pick_vectors a (S k) = (p ← seq 0 a; (fun ps => Z.of_nat p :: ps) <$> pick_vectors (S a) k).
Proof. cbn. rewrite list_bind_fmap || idtac. clear. generalize (seq 0 a). intros l. induction l as [|x l IH]; [done|]. cbn. cbn in IH. by rewrite IH. Qed.

Lemma count_vectors_cons (P : list Z -> bool) a k :
  count_if P (pick_vectors a (S k)) =
  sumZ ((fun p => count_if (fun ps => P (Z.of_nat p :: ps)) (pick_vectors (S a) k)) <$> seq 0 a).
Proof. rewrite pick_vectors_cons, count_if_bind. apply sumZ_ext. intros p _. by rewrite count_if_fmap. Qed.
Lemma length_vectors_cons a k :
  Z.of_nat (length (pick_vectors a (S k))) = Z.of_nat a * Z.of_nat (length (pick_vectors (S a) k)).
Proof.
  rewrite pick_vectors_cons, length_bind. rewrite (sumZ_ext _ (fun _ => Z.of_nat (length (pick_vectors (S a) k)))).
  - rewrite sumZ_const, seq_length. done.
  - intros x _. by rewrite fmap_length.
Qed.

Lemma run_cons u v vals p ps :
  0 <= ur_count u < 2 ^ 63 - 1 -> 0 <= p -> Z.of_nat (length (ur_values u)) <= ur_count u ->
  ur_run u (zip (v :: vals) (p :: ps)) =
  ur_run (UniformReservoir (ur_count u + 1) (<[Z.to_nat p := v]> (ur_values u))) (zip vals ps).
Proof.
  intros Hc Hp Hl. unfold ur_run. cbn [zip zip_with run_ops fst snd]. rewrite ur_UpdateN_spec by done. cbv zeta.
  destruct (Z.ltb_spec (ur_count u) (Z.of_nat (length (ur_values u)))); [lia|done].
Qed.

Section retain.
Variable cap : nat.

Lemma absent_stays vals u x ps :
  length (ur_values u) = cap -> Z.of_nat cap <= ur_count u -> ur_count u + Z.of_nat (length vals) < 2 ^ 63 ->
  x ∉ ur_values u -> x ∉ vals -> Forall (fun p => 0 <= p) ps -> length ps = length vals ->
  retained_after u vals x ps = false.
Proof.
  unfold retained_after. revert u ps. induction vals as [|v vals IH]; intros u ps Hl Hc Hn Hx Hv HF Hlen.
  - destruct ps; [|done]. cbn. by apply bool_decide_eq_false_2.
  - destruct ps as [|p ps]; [done|]. apply Forall_cons in HF as [Hp HF]. cbn in Hn, Hlen.
    apply not_elem_of_cons in Hv as [Hv1 Hv2].
    rewrite run_cons by lia. apply IH; cbn [ur_values ur_count]; try done; try lia.
    + by rewrite insert_length.
    + intros Hin. apply elem_of_list_lookup in Hin as [i Hi]. apply list_lookup_insert_Some in Hi as [(_ & -> & _)|(_ & Hi)]; [done|].
      by apply elem_of_list_lookup_2 in Hi.
Qed.

Lemma pick_vectors_elem a k ps : ps ∈ pick_vectors a k ->
  length ps = k /\ Forall (fun p => 0 <= p) ps.
Proof.
  revert a ps. induction k as [|k IH]; intros a ps Hin.
  - cbn in Hin. apply elem_of_list_singleton in Hin as ->. split; [done|constructor].
  - rewrite pick_vectors_cons in Hin. apply elem_of_list_bind in Hin as (p & Hin & Hp).
    apply elem_of_list_fmap in Hin as (ps' & -> & Hin). apply IH in Hin as [H1 H2]. split; [cbn; lia|]. constructor; [lia|done].
Qed.

(** A value that is held now survives with probability count / (count + k). *)
Lemma held_count vals u x :
  length (ur_values u) = cap -> Z.of_nat cap <= ur_count u -> ur_count u + Z.of_nat (length vals) < 2 ^ 63 ->
  NoDup (ur_values u) -> NoDup vals -> (forall y, y ∈ ur_values u -> y ∈ vals -> False) -> x ∈ ur_values u ->
  (ur_count u + Z.of_nat (length vals)) *
    count_if (retained_after u vals x) (pick_vectors (S (Z.to_nat (ur_count u))) (length vals)) =
  ur_count u * Z.of_nat (length (pick_vectors (S (Z.to_nat (ur_count u))) (length vals))).
Proof.
  revert u. induction vals as [|v vals IH]; intros u Hl Hc Hn ND1 ND2 Hd Hx.
  - cbn [length pick_vectors].
    assert (count_if (retained_after u [] x) [[]] = 1) as ->; [|cbn; lia].
    unfold count_if, retained_after. rewrite filter_cons. rewrite decide_True; [done|]. cbn. by apply bool_decide_eq_true_2.
  - cbn [length] in *. apply NoDup_cons in ND2 as [Hv ND2].
    rewrite count_vectors_cons, length_vectors_cons.
    set (a := S (Z.to_nat (ur_count u))). set (V := pick_vectors (S a) (length vals)) in *.
    apply elem_of_list_lookup in Hx as [j Hj]. pose proof (lookup_lt_Some _ _ _ Hj) as Hjl.
    assert (x ∉ vals) as Hxv.
    { intros Hin. apply (Hd x); [by eapply elem_of_list_lookup_2|by right]. }
    assert (x <> v) as Hxv'.
    { intros ->. apply (Hd v); [by eapply elem_of_list_lookup_2|left]. }
    (* the new reservoir after picking p *)
    assert (forall p, length (<[p := v]> (ur_values u)) = cap) as L' by (intros; by rewrite insert_length).
    assert (forall p : nat, NoDup (<[p := v]> (ur_values u))) as N'.
    { intros p. apply NoDup_alt. intros i i' y Hi Hi'. rewrite !list_lookup_insert_Some in Hi, Hi'.
      destruct Hi as [(<- & <- & _)|(Ni & Hi)], Hi' as [(<- & Hy & _)|(Ni' & Hi')]; try done.
      - apply elem_of_list_lookup_2 in Hi'. exfalso. apply (Hd v); [done|left].
      - subst y. apply elem_of_list_lookup_2 in Hi. exfalso. apply (Hd v); [done|left].
      - by apply (NoDup_lookup (ur_values u) i i' y). }
    assert (forall (p : nat) y, y ∈ <[p := v]> (ur_values u) -> y ∈ vals -> False) as D'.
    { intros p y Hy Hin. apply elem_of_list_lookup in Hy as [i Hi]. rewrite list_lookup_insert_Some in Hi.
      destruct Hi as [(_ & -> & _)|(_ & Hi)]; [done|]. apply (Hd y); [by eapply elem_of_list_lookup_2|by right]. }
    assert (exists w, forall p, p <> j -> count_if (fun ps => retained_after u (v :: vals) x (Z.of_nat p :: ps)) V = w /\
       (ur_count u + 1 + Z.of_nat (length vals)) * w = (ur_count u + 1) * Z.of_nat (length V)) as [w Hw].
    { set (tot := ur_count u + 1 + Z.of_nat (length vals)).
      exists ((ur_count u + 1) * Z.of_nat (length V) / tot). intros p Hp.
      set (u' := UniformReservoir (ur_count u + 1) (<[p := v]> (ur_values u))).
      assert (tot * count_if (retained_after u' vals x) V = (ur_count u + 1) * Z.of_nat (length V)) as E.
      { pose proof (IH u') as I. cbn [ur_count ur_values u'] in I.
        replace (S (Z.to_nat (ur_count u + 1))) with (S a) in I by (unfold a; lia).
        fold V in I. unfold tot. rewrite I; [done|apply L'|lia|lia|apply N'|done|apply D'|].
        apply elem_of_list_lookup. exists j. rewrite list_lookup_insert_ne by done. done. }
      assert (count_if (fun ps => retained_after u (v :: vals) x (Z.of_nat p :: ps)) V = count_if (retained_after u' vals x) V) as Ec.
      { apply count_if_ext. intros ps _. unfold retained_after. rewrite run_cons by lia. rewrite Nat2Z.id. done. }
      rewrite Ec, <- E. rewrite (Z.mul_comm tot), Z.div_mul by (unfold tot; lia). split; [done|lia]. }
    assert (count_if (fun ps => retained_after u (v :: vals) x (Z.of_nat j :: ps)) V = 0) as Hz.
    { rewrite (count_if_ext _ (fun _ => false)); [apply (count_if_const false)|]. intros ps Hps.
      apply pick_vectors_elem in Hps as [Hps1 Hps2]. unfold retained_after. rewrite run_cons by lia.
      apply absent_stays; cbn [ur_values ur_count]; try done; try lia.
      - rewrite Nat2Z.id. intros Hin. apply elem_of_list_lookup in Hin as [i Hi]. rewrite list_lookup_insert_Some in Hi.
        destruct Hi as [(_ & ? & _)|(Ni & Hi)]; [done|]. apply Ni. by apply (NoDup_lookup (ur_values u) j i x). }
    rewrite (sumZ_ext _ (fun p => if decide (p = j) then 0 else w)).
    2:{ intros p _. destruct (decide (p = j)) as [->|N]; [done|]. by apply Hw. }
    rewrite sumZ_but_one by (unfold a; lia). destruct (Hw (S j)) as [_ Hw2]; [lia|].
    assert (Z.of_nat a = ur_count u + 1) as Ea by (unfold a; lia). rewrite Ea.
    replace (ur_count u + Z.of_nat (S (length vals))) with (ur_count u + 1 + Z.of_nat (length vals)) by lia.
    transitivity (ur_count u * ((ur_count u + 1 + Z.of_nat (length vals)) * w)); [ring|]. rewrite Hw2. ring.
Qed.

(** A value still to come is held in the end with probability cap / (count + k). *)
Lemma future_count vals u x :
  length (ur_values u) = cap -> Z.of_nat cap <= ur_count u -> ur_count u + Z.of_nat (length vals) < 2 ^ 63 ->
  NoDup (ur_values u) -> NoDup vals -> (forall y, y ∈ ur_values u -> y ∈ vals -> False) -> x ∈ vals ->
  (ur_count u + Z.of_nat (length vals)) *
    count_if (retained_after u vals x) (pick_vectors (S (Z.to_nat (ur_count u))) (length vals)) =
  Z.of_nat cap * Z.of_nat (length (pick_vectors (S (Z.to_nat (ur_count u))) (length vals))).
Proof.
  revert u. induction vals as [|v vals IH]; intros u Hl Hc Hn ND1 ND2 Hd Hx; [by apply elem_of_nil in Hx|].
  cbn [length] in *. apply NoDup_cons in ND2 as [Hv ND2].
  rewrite count_vectors_cons, length_vectors_cons.
  set (a := S (Z.to_nat (ur_count u))). set (V := pick_vectors (S a) (length vals)) in *.
  assert (forall p, length (<[p := v]> (ur_values u)) = cap) as L' by (intros; by rewrite insert_length).
  assert (forall p : nat, NoDup (<[p := v]> (ur_values u))) as N'.
  { intros p. apply NoDup_alt. intros i i' y Hi Hi'. rewrite !list_lookup_insert_Some in Hi, Hi'.
    destruct Hi as [(<- & <- & _)|(Ni & Hi)], Hi' as [(<- & Hy & _)|(Ni' & Hi')]; try done.
    - apply elem_of_list_lookup_2 in Hi'. exfalso. apply (Hd v); [done|left].
    - subst y. apply elem_of_list_lookup_2 in Hi. exfalso. apply (Hd v); [done|left].
    - by apply (NoDup_lookup (ur_values u) i i' y). }
  assert (forall (p : nat) y, y ∈ <[p := v]> (ur_values u) -> y ∈ vals -> False) as D'.
  { intros p y Hy Hin. apply elem_of_list_lookup in Hy as [i Hi]. rewrite list_lookup_insert_Some in Hi.
    destruct Hi as [(_ & -> & _)|(_ & Hi)]; [done|]. apply (Hd y); [by eapply elem_of_list_lookup_2|by right]. }
  set (tot := ur_count u + 1 + Z.of_nat (length vals)).
  assert (Z.of_nat a = ur_count u + 1) as Ea by (unfold a; lia).
  assert (forall p, count_if (fun ps => retained_after u (v :: vals) x (Z.of_nat p :: ps)) V =
    count_if (retained_after (UniformReservoir (ur_count u + 1) (<[p := v]> (ur_values u))) vals x) V) as Ec.
  { intros p. apply count_if_ext. intros ps _. unfold retained_after. rewrite run_cons by lia. rewrite Nat2Z.id. done. }
  replace (ur_count u + Z.of_nat (S (length vals))) with tot by (unfold tot; lia).
  destruct (decide (x = v)) as [->|Nxv].
  - (* the next value *)
    set (w := (ur_count u + 1) * Z.of_nat (length V) / tot).
    assert (forall p, (p < cap)%nat -> count_if (fun ps => retained_after u (v :: vals) v (Z.of_nat p :: ps)) V = w /\
       tot * w = (ur_count u + 1) * Z.of_nat (length V)) as Hw.
    { intros p Hp. rewrite Ec. set (u' := UniformReservoir (ur_count u + 1) (<[p := v]> (ur_values u))).
      pose proof (held_count vals u' v) as I. cbn [ur_count ur_values u'] in I.
      replace (S (Z.to_nat (ur_count u + 1))) with (S a) in I by (unfold a; lia). fold V tot in I.
      assert (tot * count_if (retained_after u' vals v) V = (ur_count u + 1) * Z.of_nat (length V)) as E.
      { apply I; [apply L'|lia|lia|apply N'|done|apply D'|]. apply elem_of_list_lookup. exists p.
        apply list_lookup_insert. lia. }
      unfold w. rewrite <- E. rewrite (Z.mul_comm tot), Z.div_mul by (unfold tot; lia). split; [done|lia]. }
    rewrite (sumZ_ext _ (fun p => if decide (p < cap)%nat then w else 0)).
    2:{ intros p _. destruct (decide (p < cap)%nat) as [C|C]; [by apply Hw|]. rewrite Ec.
        rewrite list_insert_ge by lia. rewrite (count_if_ext _ (fun _ => false)); [apply (count_if_const false)|]. intros ps Hps.
        apply pick_vectors_elem in Hps as [Hps1 Hps2]. apply absent_stays; cbn [ur_values ur_count]; try done; try lia.
        intros Hin. apply (Hd v); [done|left]. }
    rewrite sumZ_below by lia. destruct cap as [|cap'] eqn:Ecap; [lia|]. destruct (Hw 0%nat) as [_ Hw2]; [lia|].
    transitivity (Z.of_nat (S cap') * (tot * w)); [ring|]. rewrite Hw2, Ea. ring.
  - apply elem_of_cons in Hx as [->|Hx]; [done|].
    set (w := Z.of_nat cap * Z.of_nat (length V) / tot).
    assert (forall p, count_if (fun ps => retained_after u (v :: vals) x (Z.of_nat p :: ps)) V = w /\
       tot * w = Z.of_nat cap * Z.of_nat (length V)) as Hw.
    { intros p. rewrite Ec. set (u' := UniformReservoir (ur_count u + 1) (<[p := v]> (ur_values u))).
      pose proof (IH u') as I. cbn [ur_count ur_values u'] in I.
      replace (S (Z.to_nat (ur_count u + 1))) with (S a) in I by (unfold a; lia). fold V tot in I.
      assert (tot * count_if (retained_after u' vals x) V = Z.of_nat cap * Z.of_nat (length V)) as E.
      { apply I; [apply L'|lia|lia|apply N'|done|apply D'|done]. }
      unfold w. rewrite <- E. rewrite (Z.mul_comm tot), Z.div_mul by (unfold tot; lia). split; [done|lia]. }
    rewrite (sumZ_ext _ (fun _ => w)) by (intros p _; by apply Hw).
    rewrite sumZ_const, seq_length. destruct (Hw 0%nat) as [_ Hw2].
    transitivity (Z.of_nat a * (tot * w)); [ring|]. rewrite Hw2. ring.
Qed.
End retain.

(** The first [cap] updates fill the reservoir whatever is picked. *)
Lemma fill_run cap vals junk : length junk = length vals -> length vals = cap -> Z.of_nat cap < 2 ^ 63 ->
  ur_exec (Z.of_nat cap) (zip vals junk) = Ok (UniformReservoir (Z.of_nat cap) vals).
Proof.
  intros Hj Hc Hb. unfold ur_exec, NewUniformReservoir. destruct (Z.ltb_spec (Z.of_nat cap) 0); [lia|].
  cbn [mbind res_bind]. rewrite Nat2Z.id. unfold ur_run.
  assert (forall pre vals junk, length junk = length vals -> (length pre + length vals <= cap)%nat ->
    run_ops (fun u (up : Z * Z) => ur_UpdateN u up.1 up.2)
      (UniformReservoir (Z.of_nat (length pre)) (pre ++ replicate (cap - length pre) 0)) (zip vals junk) =
    Ok (UniformReservoir (Z.of_nat (length pre + length vals)) (pre ++ vals ++ replicate (cap - length pre - length vals) 0))) as H1.
  { clear vals junk Hj Hc. intros pre vals. revert pre. induction vals as [|v vals IH]; intros pre junk Hj Hl.
    - destruct junk; [|done]. cbn. rewrite Nat.add_0_r, Nat.sub_0_r. done.
    - destruct junk as [|p junk]; [done|]. cbn [length] in *. cbn [zip zip_with run_ops fst snd].
      unfold ur_UpdateN. cbn [ur_count ur_values]. rewrite wrap64_id by (unfold in64, two63; lia).
      rewrite app_length, replicate_length. destruct (Z.leb_spec (Z.of_nat (length pre) + 1) (Z.of_nat (length pre + (cap - length pre)))); [|lia].
      replace (Z.of_nat (length pre) + 1 - 1) with (Z.of_nat (length pre)) by lia. rewrite wrap64_id by (unfold in64, two63; lia).
      rewrite set_at_ok by (rewrite app_length, replicate_length; lia). cbn [mbind res_bind]. rewrite Nat2Z.id.
      rewrite (insert_app_r_alt pre) by lia. rewrite Nat.sub_diag.
      destruct (cap - length pre)%nat as [|k] eqn:Ek; [lia|]. cbn [replicate insert list_insert].
      pose proof (IH (pre ++ [v]) junk) as I. rewrite app_length in I. cbn [length] in I.
      replace (cap - (length pre + 1))%nat with k in I by lia.
      rewrite <- !app_assoc in I. cbn [app] in I.
      replace (Z.of_nat (length pre + 1)) with (Z.of_nat (length pre) + 1) in I by lia.
      etrans; [exact (I ltac:(lia) ltac:(lia))|]. replace (length pre + S (length vals))%nat with (length pre + 1 + length vals)%nat by lia. done. }
  pose proof (H1 [] vals junk Hj) as E. cbn [length app Nat.add] in E. rewrite Nat.sub_0_r in E.
  change (Z.of_nat 0) with 0 in E. rewrite E by lia. rewrite Hc, Nat.sub_diag. cbn. by rewrite app_nil_r.
Qed.

Lemma retain_main cap vals junk x :
  (1 <= cap <= length vals)%nat -> Z.of_nat (length vals) < 2 ^ 63 -> length junk = cap -> NoDup vals -> x ∈ vals ->
  Z.of_nat (length vals) *
    count_if (fun ps => holds (ur_exec (Z.of_nat cap) (zip vals (junk ++ ps))) x) (pick_vectors (S cap) (length vals - cap)) =
  Z.of_nat cap * Z.of_nat (length (pick_vectors (S cap) (length vals - cap))).
Proof.
  intros Hcap Hn Hj ND Hx.
  set (v1 := take cap vals). set (v2 := drop cap vals).
  assert (vals = v1 ++ v2) as E by (symmetry; apply take_drop).
  assert (length v1 = cap) as L1 by (unfold v1; rewrite take_length; lia).
  assert (length v2 = (length vals - cap)%nat) as L2 by (unfold v2; rewrite drop_length; done).
  rewrite E in ND, Hx. apply NoDup_app in ND as (N1 & D & N2).
  rewrite (count_if_ext _ (retained_after (UniformReservoir (Z.of_nat cap) v1) v2 x)).
  2:{ intros ps Hps. unfold retained_after. f_equal. rewrite E. rewrite zip_with_app by lia.
      unfold ur_exec, ur_run. pose proof (fill_run cap v1 junk ltac:(lia) L1 ltac:(lia)) as F. unfold ur_exec, ur_run in F.
      destruct (NewUniformReservoir (Z.of_nat cap)) as [u0|]; [|done]. cbn [mbind res_bind] in *. rewrite run_ops_app.
      rewrite F. done. }
  assert (forall y, y ∈ v1 -> y ∈ v2 -> False) as D' by (intros y H1 H2; by apply (D y)).
  rewrite <- L2.
  replace (Z.of_nat (length vals)) with (Z.of_nat cap + Z.of_nat (length v2)) by lia.
  apply elem_of_app in Hx as [Hx|Hx].
  - pose proof (held_count cap v2 (UniformReservoir (Z.of_nat cap) v1) x) as H. cbn [ur_count ur_values] in H.
    rewrite Nat2Z.id in H. apply H; try done; lia.
  - pose proof (future_count cap v2 (UniformReservoir (Z.of_nat cap) v1) x) as H. cbn [ur_count ur_values] in H.
    rewrite Nat2Z.id in H. apply H; try done; lia.
Qed.
