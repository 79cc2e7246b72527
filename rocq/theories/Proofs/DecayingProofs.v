From Verif.Go Require Import GoInt GoFloat.
From Verif.Model Require Import WeightedSnapshot DecayingReservoir.
From Verif.Spec Require Import BucketSpec DecayingSpec.
From Coq Require Import Reals Lra.
From Flocq Require Import Core.Core IEEE754.BinarySingleNaN.
Local Open Scope R_scope.

(** ** Priorities as real numbers *)
Definition rank (x : f64) : R := if ffinite x then RF x else bpow radix2 1024.

Lemma key_ok_cases x : key_ok x -> (ffinite x = true /\ 0 <= RF x) \/ x = B754_infinity false.
Proof.
  unfold key_ok. intros H. destruct (ffinite x) eqn:F.
  - left. split; [done|]. apply fle_spec in H; [|done|done]. rewrite RF_f0 in H. done.
  - right. destruct x as [s|s| |s m e Hb]; try done; try (by destruct s).
Qed.
Lemma key_ok_finite x : ffinite x = true -> 0 <= RF x -> key_ok x.
Proof. intros F H. unfold key_ok. apply fle_spec; [done|done|]. by rewrite RF_f0. Qed.
Lemma key_ok_inf : key_ok (B754_infinity false).
Proof. done. Qed.
Lemma rank_lt_inf x : ffinite x = true -> rank x < bpow radix2 1024.
Proof. intros F. unfold rank. rewrite F. pose proof (RF_abs_lt x) as H. apply Rabs_lt_inv in H. lra. Qed.
Lemma rank_nonneg x : key_ok x -> 0 <= rank x.
Proof.
  intros H. destruct (key_ok_cases x H) as [[F R]| ->]; unfold rank; [by rewrite F|]. cbn [ffinite is_finite]. apply bpow_ge_0.
Qed.

Lemma flt_rank x y : key_ok x -> key_ok y -> (flt x y = true <-> rank x < rank y).
Proof.
  intros Hx Hy. destruct (key_ok_cases x Hx) as [[Fx Rx]| ->], (key_ok_cases y Hy) as [[Fy Ry]| ->].
  - unfold rank. rewrite Fx, Fy. by apply flt_spec.
  - split; [|by destruct x]. intros _. apply rank_lt_inf in Fx. exact Fx.
  - split; [by destruct y|]. intros H. pose proof (rank_lt_inf y Fy). unfold rank in *. cbn [ffinite is_finite] in H. lra.
  - split; [done|]. intros H. unfold rank in H. lra.
Qed.
Lemma fle_rank x y : key_ok x -> key_ok y -> (fle x y = true <-> rank x <= rank y).
Proof.
  intros Hx Hy. destruct (key_ok_cases x Hx) as [[Fx Rx]| ->], (key_ok_cases y Hy) as [[Fy Ry]| ->].
  - unfold rank. rewrite Fx, Fy. by apply fle_spec.
  - split; [|by destruct x]. intros _. pose proof (rank_lt_inf x Fx). unfold rank in *. cbn [ffinite is_finite]. lra.
  - split; [by destruct y|]. intros H. pose proof (rank_lt_inf y Fy). unfold rank in *. cbn [ffinite is_finite] in H. lra.
  - split; [|done]. intros _. lra.
Qed.

Definition sk (s : sample) : R := rank (sm_key s).
Definition ok (s : sample) : Prop := key_ok (sm_key s).

Lemma compare_lt e c : ok e -> ok c -> ((sm_Compare e c <? 0)%Z = true <-> sk e < sk c).
Proof.
  intros He Hc. unfold sm_Compare, sk. rewrite <- flt_rank by done.
  destruct (flt (sm_key e) (sm_key c)); [done|]. destruct (flt (sm_key c) (sm_key e)); done.
Qed.
Lemma compare_eq e c : ok e -> ok c -> ((sm_Compare e c =? 0)%Z = true <-> sk e = sk c).
Proof.
  intros He Hc. unfold sm_Compare, sk. pose proof (flt_rank _ _ He Hc) as H1. pose proof (flt_rank _ _ Hc He) as H2.
  destruct (flt (sm_key e) (sm_key c)); [pose proof (proj1 H1 eq_refl); split; [done|lra]|].
  destruct (flt (sm_key c) (sm_key e)); [pose proof (proj1 H2 eq_refl); split; [done|lra]|].
  split; [|done]. intros _. assert (~ rank (sm_key e) < rank (sm_key c)) by (rewrite <- H1; done).
  assert (~ rank (sm_key c) < rank (sm_key e)) by (rewrite <- H2; done). lra.
Qed.

(** Three-way case split on a comparison. *)
Lemma compare_cases e c : ok e -> ok c ->
  ((sm_Compare e c <? 0)%Z = true /\ sk e < sk c) \/
  ((sm_Compare e c <? 0)%Z = false /\ (sm_Compare e c =? 0)%Z = true /\ sk e = sk c) \/
  ((sm_Compare e c <? 0)%Z = false /\ (sm_Compare e c =? 0)%Z = false /\ sk c < sk e).
Proof.
  intros He Hc. pose proof (compare_lt e c He Hc) as L. pose proof (compare_eq e c He Hc) as Q.
  destruct (sm_Compare e c <? 0)%Z; [left; split; [done|by apply L]|]. right.
  assert (~ sk e < sk c) by (rewrite <- L; done).
  destruct (sm_Compare e c =? 0)%Z; [left; split; [done|]; split; [done|by apply Q]|].
  assert (~ sk e = sk c) by (rewrite <- Q; done). right. split; [done|]. split; [done|]. lra.
Qed.

(** ** Sorted entry lists *)
Definition asc (l : list sample) : Prop := StronglySorted (fun a b => sk a < sk b) l.
Lemma asc_keys l : Forall ok l -> (asc l <-> keys_ascending l).
Proof.
  intros HF. unfold asc, keys_ascending. induction HF as [|s l Hs HF IH]; [split; constructor|].
  split; intros H; apply StronglySorted_inv in H as [H1 H2]; (constructor; [by apply IH|]);
    rewrite Forall_forall in *; intros x Hx; specialize (H2 x Hx); specialize (HF x Hx); by apply flt_rank.
Qed.

Lemma insert_spec l c : asc l -> Forall ok l -> ok c ->
  asc (sk_Insert l c) /\ Forall ok (sk_Insert l c) /\
  (forall e, e ∈ sk_Insert l c <-> e = c \/ (e ∈ l /\ sk e <> sk c)).
Proof.
  intros S HF Hc. induction S as [|a l S IH HA].
  - cbn. split; [repeat constructor|]. split; [by repeat constructor|]. intros e. rewrite elem_of_list_singleton. split; [by left|].
    intros [?|[H _]]; [done|]. by apply elem_of_nil in H.
  - apply Forall_cons in HF as [Ha HF]. specialize (IH HF) as (I1 & I2 & I3). rewrite Forall_forall in HA. cbn [sk_Insert].
    destruct (compare_cases a c Ha Hc) as [(E1 & L)|[(E1 & E2 & L)|(E1 & E2 & L)]]; rewrite ?E1, ?E2.
    + split; [|split].
      * constructor; [done|]. apply Forall_forall. intros e He. apply I3 in He as [->|[He _]]; [done|by apply HA].
      * by constructor.
      * intros e. rewrite !elem_of_cons, I3. split; [|naive_solver]. intros [->|[->|[? ?]]]; [right; split; [by left|lra]|by left|right; split; [by right|done]].
    + split; [|split].
      * constructor; [done|]. apply Forall_forall. intros e He. specialize (HA e He). cbv beta in *. lra.
      * by constructor.
      * intros e. rewrite !elem_of_cons. split.
        -- intros [->|He]; [by left|]. right. split; [by right|]. specialize (HA e He). cbv beta in *. lra.
        -- intros [->|[[->|He] Hne]]; [by left|lra|by right].
    + split; [|split].
      * constructor; [constructor; [done|by apply Forall_forall]|]. constructor; [done|]. apply Forall_forall. intros e He. specialize (HA e He). cbv beta in *. lra.
      * by repeat constructor.
      * intros e. rewrite !elem_of_cons. split.
        -- intros [->|[->|He]]; [by left|right; split; [by left|lra]|]. right. split; [by right|]. specialize (HA e He). cbv beta in *. lra.
        -- intros [->|[[->|He] Hne]]; [by left|by right; left|by right; right].
Qed.
Lemma insert_new l c : asc l -> Forall ok l -> ok c -> (forall e, e ∈ l -> sk e <> sk c) -> Permutation (sk_Insert l c) (c :: l).
Proof.
  intros S HF Hc. induction S as [|a l S IH HA]; intros Hn; [done|].
  apply Forall_cons in HF as [Ha HF]. cbn [sk_Insert].
  destruct (compare_cases a c Ha Hc) as [(E1 & L)|[(E1 & E2 & L)|(E1 & E2 & L)]]; rewrite ?E1, ?E2.
  - rewrite IH; [constructor|done|]. intros e He. apply Hn. by right.
  - exfalso. apply (Hn a); [left|done].
  - done.
Qed.
Lemma insert_length l c : asc l -> Forall ok l -> ok c ->
  (length l <= length (sk_Insert l c) <= S (length l))%nat /\ (0 < length (sk_Insert l c))%nat.
Proof.
  intros S HF Hc. induction S as [|a l S IH HA]; [cbn; lia|].
  apply Forall_cons in HF as [Ha HF]. cbn [sk_Insert].
  destruct (compare_cases a c Ha Hc) as [(E1 & L)|[(E1 & E2 & L)|(E1 & E2 & L)]]; rewrite ?E1, ?E2; cbn [length]; [specialize (IH HF); lia|lia|lia].
Qed.

Lemma delete_spec l c : asc l -> Forall ok l -> ok c ->
  asc (sk_Delete l c) /\ Forall ok (sk_Delete l c) /\
  (forall e, e ∈ sk_Delete l c <-> e ∈ l /\ sk e <> sk c) /\
  (length (sk_Delete l c) <= length l)%nat /\
  ((exists e, e ∈ l /\ sk e = sk c) -> length l = S (length (sk_Delete l c))).
Proof.
  intros S HF Hc. induction S as [|a l S IH HA].
  - cbn. split; [constructor|]. split; [constructor|]. split; [intros e; split; [intros H; by apply elem_of_nil in H|intros [H _]; by apply elem_of_nil in H]|].
    split; [done|]. intros (e & H & _). by apply elem_of_nil in H.
  - apply Forall_cons in HF as [Ha HF]. specialize (IH HF) as (I1 & I2 & I3 & I4 & I5). pose proof HA as HA'. rewrite Forall_forall in HA. cbn [sk_Delete].
    destruct (compare_cases a c Ha Hc) as [(E1 & L)|[(E1 & E2 & L)|(E1 & E2 & L)]]; rewrite ?E1, ?E2.
    + split_and!.
      * constructor; [done|]. apply Forall_forall. intros e He. apply I3 in He as [He _]. by apply HA.
      * by constructor.
      * intros e. rewrite !elem_of_cons, I3. split; [intros [->|[? ?]]; [split; [by left|lra]|split; [by right|done]]|intros [[->|?] ?]; [by left|by right]].
      * cbn. lia.
      * intros (e & He & Ee). cbn. rewrite (I5); [done|]. apply elem_of_cons in He as [->|He]; [lra|]. by exists e.
    + split_and!.
      * done.
      * done.
      * intros e. rewrite elem_of_cons. split; [intros He; split; [by right|]; specialize (HA e He); cbv beta in *; lra|]. intros [[->|He] Hne]; [lra|done].
      * cbn. lia.
      * done.
    + split_and!.
      * by constructor.
      * by constructor.
      * intros e. rewrite elem_of_cons. split; [|naive_solver]. intros [->|He]; [split; [by left|lra]|split; [by right|]]. specialize (HA e He). cbv beta in *. lra.
      * done.
      * intros (e & He & Ee). apply elem_of_cons in He as [->|He]; [lra|]. specialize (HA e He). cbv beta in *. lra.
Qed.

Lemma get_spec l c : asc l -> Forall ok l -> ok c ->
  match sk_Get l c with Some e => e ∈ l /\ sk e = sk c | None => forall e, e ∈ l -> sk e <> sk c end.
Proof.
  intros S HF Hc. induction S as [|a l S IH HA]; [intros e He; by apply elem_of_nil in He|].
  apply Forall_cons in HF as [Ha HF]. specialize (IH HF). rewrite Forall_forall in HA. cbn [sk_Get].
  destruct (compare_cases a c Ha Hc) as [(E1 & L)|[(E1 & E2 & L)|(E1 & E2 & L)]]; rewrite ?E1, ?E2.
  - destruct (sk_Get l c) as [e|]; [split; [right; apply IH|apply IH]|]. intros e He. apply elem_of_cons in He as [->|He]; [lra|by apply IH].
  - split; [left|done].
  - intros e He. apply elem_of_cons in He as [->|He]; [lra|]. specialize (HA e He). cbv beta in *. lra.
Qed.

Lemma overwrite_spec l c : asc l -> Forall ok l -> ok c ->
  asc (sk_Overwrite l c) /\ Forall ok (sk_Overwrite l c) /\ length (sk_Overwrite l c) = length l /\
  (forall e, e ∈ sk_Overwrite l c -> (e ∈ l /\ sk e <> sk c) \/
     (sk e = sk c /\ sm_value e = sm_value c /\ sm_weight e = sm_weight c)) /\
  sk <$> sk_Overwrite l c = sk <$> l.
Proof.
  intros S HF Hc. induction S as [|a l S IH HA].
  - cbn. split; [constructor|]. split; [constructor|]. split; [done|]. split; [|done]. intros x He. by apply elem_of_nil in He.
  - apply Forall_cons in HF as [Ha HF]. specialize (IH HF) as (I1 & I2 & I3 & I4 & I5). pose proof HA as HA'. rewrite Forall_forall in HA. cbn [sk_Overwrite].
    destruct (compare_cases a c Ha Hc) as [(E1 & L)|[(E1 & E2 & L)|(E1 & E2 & L)]]; rewrite ?E1, ?E2.
    + split_and!.
      * constructor; [done|]. apply Forall_forall. intros e He. apply (elem_of_list_fmap_1 sk) in He. rewrite I5 in He.
        apply elem_of_list_fmap in He as (e' & -> & He'). by apply HA.
      * by constructor.
      * cbn. by rewrite I3.
      * intros e He. apply elem_of_cons in He as [->|He]; [left; split; [left|lra]|]. destruct (I4 e He) as [[? ?]|?]; [left; split; [by right|done]|by right].
      * rewrite !fmap_cons. by rewrite I5.
    + split_and!.
      * constructor; [done|]. done.
      * constructor; [done|done].
      * done.
      * intros e He. apply elem_of_cons in He as [->|He]; [right; done|]. left. split; [by right|]. specialize (HA e He). cbv beta in *. lra.
      * done.
    + split; [by constructor|]. split; [by constructor|]. split; [done|]. split; [|done]. intros x He. left. split; [done|].
      apply elem_of_cons in He as [->|He]; [lra|]. specialize (HA x He). cbv beta in *. lra.
Qed.

Lemma iter_all l : Forall ok l -> sk_Iter l (WeightedSample f0 0 f0) = l.
Proof.
  intros HF. destruct HF as [|s l Hs HF]; [done|]. cbn [sk_Iter].
  assert (ok (WeightedSample f0 0 f0)) as H0 by done.
  destruct (compare_cases s _ Hs H0) as [(E1 & L)|[(E1 & _)|(E1 & _)]]; rewrite E1; try done.
  exfalso. pose proof (rank_nonneg _ Hs) as H. unfold sk in L. cbn [sm_key] in L. assert (rank f0 = 0) as E by (unfold rank; cbn [ffinite is_finite]; apply RF_f0). lra.
Qed.

(** ** Scaling *)
Lemma scale_ok f x : factor_ok f -> key_ok x -> feq f f0 = false -> key_ok (fmul x f) \/ fmul x f = B754_infinity false.
Proof.
  intros [Ff Rf] Hx Hz. assert (0 < RF f) as Hpos.
  { destruct (Rle_lt_or_eq_dec _ _ Rf) as [?|E]; [done|]. exfalso. rewrite (proj2 (feq_spec f f0 Ff eq_refl)) in Hz; [done|]. by rewrite RF_f0. }
  destruct (key_ok_cases x Hx) as [[Fx Rx]| ->].
  - destruct (Rlt_le_dec (Rabs (rnd (RF x * RF f))) (bpow radix2 1024)) as [H|H].
    + left. destruct (fmul_spec x f Fx Ff H) as [R F]. apply key_ok_finite; [done|]. rewrite R. apply rnd_ge_l; [apply fmt_0|by apply Rmult_le_pos].
    + right. pose proof (Bmult_correct 53 1024 _ _ mode_NE x f) as C. rewrite Rlt_bool_false in C by exact H.
      assert (0 < RF x) as Px.
      { destruct (Rle_lt_or_eq_dec _ _ Rx) as [?|E]; [done|]. exfalso. rewrite <- E, Rmult_0_l, rnd_0, Rabs_R0 in H. pose proof (bpow_gt_0 radix2 1024). lra. }
      assert (Bsign x = false) as Sx.
      { destruct x as [s|s| |s m e Hb]; try done; cbn in Px; try lra. destruct s; [|done]. exfalso. apply (Rlt_not_le _ _ Px). apply Rlt_le, F2R_lt_0. cbn. lia. }
      assert (Bsign f = false) as Sf.
      { destruct f as [s|s| |s m e Hb]; try done; cbn in Hpos; try lra. destruct s; [|done]. exfalso. apply (Rlt_not_le _ _ Hpos). apply Rlt_le, F2R_lt_0. cbn. lia. }
      unfold fmul. unfold binary_overflow in C. rewrite Sx, Sf in C. cbn in C.
      destruct (Bmult mode_NE x f) as [?|[|]| |?]; try done.
  - right. destruct f as [s|s| |s m e Hb]; try done.
    destruct s; [|done]. exfalso. cbn in Hpos. apply (Rlt_not_le _ _ Hpos). apply Rlt_le, F2R_lt_0. cbn. lia.
Qed.
Lemma scale_key_ok f x : factor_ok f -> key_ok x -> feq f f0 = false -> key_ok (fmul x f).
Proof. intros. destruct (scale_ok f x) as [?| ->]; done. Qed.
Lemma scale_sample_ok f s : factor_ok f -> feq f f0 = false -> ok s -> ok (ed_scale f s).
Proof. intros. unfold ok, ed_scale. cbn. by apply scale_key_ok. Qed.

(** The loop keeps the list sorted, never makes it longer, and only holds values
    that were there. *)
Lemma loop_inv f todo : factor_ok f -> feq f f0 = false -> forall l,
  asc l -> Forall ok l -> Forall ok todo -> asc todo -> (forall s, s ∈ todo -> exists e, e ∈ l /\ sk e = sk s) ->
  let l' := ed_rescale_loop f todo l in
  asc l' /\ Forall ok l' /\ (length l' <= length l)%nat /\ ((0 < length l)%nat -> (0 < length l')%nat) /\
  (forall e, e ∈ l' -> exists s, s ∈ todo ++ l /\ sm_value e = sm_value s).
Proof.
  intros Hf Hz. induction todo as [|s todo IH]; intros l Sl Ol Ot St Hin; cbv zeta.
  { cbn. split_and!; try done. intros e He. by exists e. }
  apply Forall_cons in Ot as [Hs Ot]. apply StronglySorted_inv in St as [St Hlt]. rewrite Forall_forall in Hlt.
  destruct (delete_spec l s Sl Ol Hs) as (D1 & D2 & D3 & D4 & D5).
  pose proof (scale_sample_ok f s Hf Hz Hs) as Hs'.
  destruct (insert_spec (sk_Delete l s) (ed_scale f s) D1 D2 Hs') as (I1 & I2 & I3).
  destruct (insert_length (sk_Delete l s) (ed_scale f s) D1 D2 Hs') as ([_ L1] & L2).
  unfold ed_rescale_loop. cbn [fold_left]. fold (ed_rescale_loop f todo (sk_Insert (sk_Delete l s) (ed_scale f s))).
  destruct (IH (sk_Insert (sk_Delete l s) (ed_scale f s)) I1 I2 Ot St) as (A1 & A2 & A3 & A4 & A5).
  { intros t Ht. specialize (Hlt t Ht). cbv beta in Hlt. destruct (Hin t) as (e & He & Ee); [by right|].
    destruct (Req_dec (sk e) (sk (ed_scale f s))) as [Q|Q].
    - exists (ed_scale f s). split; [apply I3; by left|]. lra.
    - exists e. split; [|done]. apply I3. right. split; [|done]. apply D3. split; [done|lra]. }
  assert (length l = S (length (sk_Delete l s))) as Ld by (apply D5, Hin; left).
  split_and!; [done|done|lia|intros _; apply A4; lia|].
  intros e He. destruct (A5 e He) as (t & Ht & Et). apply elem_of_app in Ht as [Ht|Ht].
  - exists t. split; [|done]. apply elem_of_app. left. by right.
  - apply I3 in Ht as [->|[Ht _]]; [exists s; split; [left|done]|]. apply D3 in Ht as [Ht _]. exists t. split; [|done]. apply elem_of_app. by right.
Qed.

(** ** Invariant *)
Local Open Scope Z_scope.
Record ed_inv (rsv : edr) (vals : list Z) (n : Z) : Prop := {
  ei_size : 1 <= ed_size rsv;
  ei_asc : asc (ed_values rsv);
  ei_ok : Forall ok (ed_values rsv);
  ei_len : Z.of_nat (length (ed_values rsv)) <= Z.min (ed_size rsv) (ed_count rsv);
  ei_count : 0 <= ed_count rsv <= n;
  ei_some : 1 <= ed_count rsv -> ed_values rsv <> [];
  ei_vals : forall e, e ∈ ed_values rsv -> sm_value e ∈ vals }.

Lemma ed_inv_new size alpha ms tick : 1 <= size -> ed_inv (NewEDR size alpha ms tick) [] 0.
Proof.
  intros H. constructor; cbn; try done; try lia; [constructor|]. intros e He. by apply elem_of_nil in He.
Qed.

Lemma ed_insert_inv rsv vals n p v w : ed_inv rsv vals n -> key_ok p -> n < 2 ^ 63 - 1 ->
  exists rsv', ed_insert rsv p v w = Ok rsv' /\ ed_inv rsv' (vals ++ [v]) (n + 1) /\ ed_size rsv' = ed_size rsv /\
    ed_startTime rsv' = ed_startTime rsv /\ ed_alpha rsv' = ed_alpha rsv.
Proof.
  intros I Hp Hn. destruct I. unfold ed_insert. cbn zeta.
  assert (wrap64 (ed_count rsv + 1) = ed_count rsv + 1) as Ew by (apply wrap64_id; unfold in64, two63; lia).
  rewrite Ew. cbn [set_count ed_values ed_count ed_size]. set (c := WeightedSample p v w). assert (ok c) as Hc by done.
  assert (forall e, e ∈ ed_values rsv -> sm_value e ∈ vals ++ [v]) as Hv0 by (intros e He; apply elem_of_app; left; auto).
  assert (v ∈ vals ++ [v]) as Hv1 by (apply elem_of_app; right; by apply elem_of_list_singleton).
  destruct (insert_spec (ed_values rsv) c ei_asc0 ei_ok0 Hc) as (I1 & I2 & I3).
  destruct (insert_length (ed_values rsv) c ei_asc0 ei_ok0 Hc) as ([L0 L1] & L2).
  destruct (Z.leb_spec (ed_count rsv + 1) (ed_size rsv)) as [C|C].
  - eexists. split; [done|]. split; [|done]. constructor; cbn [set_values set_count ed_values ed_size ed_count]; try done; try lia.
    + intros _ E. rewrite E in L2. cbn in L2. lia.
    + intros e He. apply I3 in He as [->|[He _]]; [done|auto].
  - unfold ed_GetValues. cbn [set_count ed_values]. rewrite iter_all by done.
    assert (ed_values rsv <> []) as Hne by (apply ei_some0; lia).
    destruct (ed_values rsv) as [|first l] eqn:El; [done|]. pose proof ei_ok0 as ok0'. apply Forall_cons in ok0' as [Hfst Hl].
    destruct (fle p (sm_key first)).
    { eexists. split; [done|]. split; [|done]. constructor; cbn [set_values set_count ed_values ed_size ed_count]; rewrite ?El; try done; try lia. }
    rewrite <- El in *.
    pose proof (get_spec (ed_values rsv) c ei_asc0 ei_ok0 Hc) as G. destruct (sk_Get (ed_values rsv) c) as [e|] eqn:EG.
    + destruct (overwrite_spec (ed_values rsv) c ei_asc0 ei_ok0 Hc) as (O1 & O2 & O3 & O4 & _).
      eexists. split; [done|]. split; [|done]. constructor; cbn [set_values set_count ed_values ed_size ed_count]; try done; try lia.
      * intros _ E. rewrite E in O3. rewrite El in O3. done.
      * intros e' He. destruct (O4 e' He) as [[? _]|(_ & -> & _)]; [auto|done].
    + destruct (delete_spec (ed_values rsv) first ei_asc0 ei_ok0 Hfst) as (D1 & D2 & D3 & D4 & D5).
      assert (length (ed_values rsv) = S (length (sk_Delete (ed_values rsv) first))) as Ld.
      { apply D5. exists first. split; [rewrite El; left|done]. }
      destruct (insert_spec (sk_Delete (ed_values rsv) first) c D1 D2 Hc) as (J1 & J2 & J3).
      destruct (insert_length (sk_Delete (ed_values rsv) first) c D1 D2 Hc) as ([M0 M1] & M2).
      eexists. split; [done|]. split; [|done]. constructor; cbn [set_values set_count ed_values ed_size ed_count]; try done; try lia.
      * intros _ E. rewrite E in M2. cbn in M2. lia.
      * intros e He. apply J3 in He as [->|[He _]]; [done|]. apply D3 in He as [He _]. auto.
Qed.

Lemma ed_rescale_inv rsv vals n f : ed_inv rsv vals n -> factor_ok f ->
  ed_inv (ed_rescale_body rsv f) (if feq f f0 then [] else vals) n /\ ed_size (ed_rescale_body rsv f) = ed_size rsv.
Proof.
  intros I Hf. destruct I. unfold ed_rescale_body. destruct (feq f f0) eqn:Hz.
  - split; [|done]. constructor; cbn; try done; try lia; [constructor|]. intros e He. by apply elem_of_nil in He.
  - split; [|done]. unfold ed_GetValues. rewrite iter_all by done.
    destruct (loop_inv f (ed_values rsv) Hf Hz (ed_values rsv) ei_asc0 ei_ok0 ei_ok0 ei_asc0) as (A1 & A2 & A3 & A4 & A5).
    { intros s Hs. by exists s. }
    constructor; cbn [set_values set_count ed_values ed_size ed_count]; try done; try lia.
    + intros H E. rewrite E in H. cbn in H. lia.
    + intros e He. destruct (A5 e He) as (s & Hs & ->). apply ei_vals0. apply elem_of_app in Hs as [?|?]; done.
Qed.

Lemma ed_inv_frame rsv rsv' vals n : ed_inv rsv vals n -> ed_values rsv' = ed_values rsv -> ed_size rsv' = ed_size rsv -> ed_count rsv' = ed_count rsv ->
  ed_inv rsv' vals n.
Proof. intros [] E1 E2 E3. constructor; rewrite ?E1, ?E2, ?E3; done. Qed.
Lemma ed_inv_weaken rsv vals n vals' n' : ed_inv rsv vals n -> (forall v, v ∈ vals -> v ∈ vals') -> n <= n' -> ed_inv rsv vals' n'.
Proof. intros [] H1 H2. constructor; try done; [lia|]. auto. Qed.
