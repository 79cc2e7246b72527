From Verif.Go Require Import GoInt GoFloat.
From Verif.Model Require Import WeightedSnapshot DecayingReservoir.
From Verif.Spec Require Import BucketSpec DecayingSpec.
From Verif.Proofs Require Import FloatProofs DecayingProofs.
From Coq Require Import Reals Lra.
From Flocq Require Import Core.Core IEEE754.BinarySingleNaN.
Local Open Scope R_scope.

(** ** Offers with different priorities *)
Definition top_state (rsv : edr) (all : list sample) : Prop :=
  (1 <= ed_size rsv)%Z /\ asc (ed_values rsv) /\ Forall ok all /\ ed_count rsv = Z.of_nat (length all) /\
  exists rest, Permutation all (ed_values rsv ++ rest) /\
    Z.of_nat (length (ed_values rsv)) = Z.min (ed_size rsv) (Z.of_nat (length all)) /\
    (forall a b, a ∈ ed_values rsv -> b ∈ rest -> sk b < sk a).

Lemma top_insert rsv all p v w : top_state rsv all -> key_ok p -> (forall e, e ∈ all -> sk e <> rank p) ->
  (Z.of_nat (length all) < 2 ^ 63 - 1)%Z ->
  exists rsv', ed_insert rsv p v w = Ok rsv' /\ ed_size rsv' = ed_size rsv /\ top_state rsv' (all ++ [WeightedSample p v w]).
Proof.
  intros (Hsz & S & HF & Hc & rest & P & L & T) Hp Hd Hn. set (c := WeightedSample p v w). assert (ok c) as Oc by done.
  assert (Forall ok (ed_values rsv)) as OV.
  { rewrite Forall_forall in *. intros e He. apply HF. rewrite P. apply elem_of_app. by left. }
  assert (forall e, e ∈ ed_values rsv -> sk e <> sk c) as Hd'.
  { intros e He. apply Hd. rewrite P. apply elem_of_app. by left. }
  assert (forall e, e ∈ rest -> sk e <> sk c) as Hd''.
  { intros e He. apply Hd. rewrite P. apply elem_of_app. by right. }
  assert (Forall ok (all ++ [c])) as HF' by (apply Forall_app; split; [done|by repeat constructor]).
  unfold ed_insert. cbn zeta. rewrite wrap64_id by (unfold in64, two63; lia). cbn [set_count ed_count ed_size ed_values]. fold c.
  destruct (insert_spec (ed_values rsv) c S OV Oc) as (I1 & I2 & I3).
  destruct (Z.leb_spec (ed_count rsv + 1) (ed_size rsv)) as [C|C].
  - eexists. split; [done|]. split; [done|]. unfold top_state. cbn [set_values set_count ed_values ed_size ed_count].
    pose proof (insert_new (ed_values rsv) c S OV Oc Hd') as PI.
    split; [done|]. split; [done|]. split; [done|]. split; [rewrite app_length; cbn; lia|]. exists rest.
    assert (rest = []) as ->.
    { apply Permutation_length in P. rewrite app_length in P. destruct rest; [done|]. cbn in P. lia. }
    split; [rewrite PI, P, !app_nil_r, (Permutation_app_comm _ [c]); done|].
    split; [rewrite PI, app_length; cbn; lia|]. intros a b _ Hb. by apply elem_of_nil in Hb.
  - unfold ed_GetValues. cbn [set_count ed_values]. rewrite iter_all by done.
    destruct (ed_values rsv) as [|first l] eqn:El; [cbn in L; lia|]. pose proof OV as OV'. apply Forall_cons in OV' as [Of Ol].
    pose proof S as S'. apply StronglySorted_inv in S' as [Sl Hl]. rewrite Forall_forall in Hl.
    destruct (fle p (sm_key first)) eqn:EF.
    + eexists. split; [done|]. split; [done|]. unfold top_state. cbn [set_values set_count ed_values ed_size ed_count]. rewrite El.
      apply fle_rank in EF; [|done|done].
      split; [done|]. split; [done|]. split; [done|]. split; [rewrite app_length; cbn; lia|]. exists (rest ++ [c]).
      split; [rewrite P, !app_assoc; done|]. split; [rewrite app_length; cbn [length] in *; lia|].
      intros a b Ha Hb. apply elem_of_app in Hb as [Hb|Hb]; [by apply T|]. apply elem_of_list_singleton in Hb as ->.
      assert (sk first <> sk c) as Hne by (apply Hd'; left). unfold sk in Hne at 2. cbn [c sm_key] in Hne.
      assert (sk c < sk first) as Hlt by (unfold sk; cbn [c sm_key]; unfold sk in Hne; lra).
      apply elem_of_cons in Ha as [->|Ha]; [done|]. specialize (Hl a Ha). cbv beta in Hl. lra.
    + assert (sk first < sk c) as Hlt.
      { destruct (Rlt_le_dec (sk first) (sk c)) as [?|Hle]; [done|]. exfalso. rewrite (proj2 (fle_rank p (sm_key first) Hp Of)) in EF; [done|exact Hle]. }
      pose proof (get_spec (first :: l) c S OV Oc) as G. destruct (sk_Get (first :: l) c) as [e|] eqn:EG.
      { exfalso. destruct G as [G1 G2]. by apply (Hd' e). }
      assert (sk_Delete (first :: l) first = l) as ED.
      { cbn [sk_Delete]. destruct (compare_cases first first Of Of) as [(_ & L1)|[(-> & -> & _)|(_ & _ & L1)]]; [lra|done|lra]. }
      rewrite ED. eexists. split; [done|]. split; [done|]. unfold top_state. cbn [set_values set_count ed_values ed_size ed_count].
      destruct (insert_spec l c Sl Ol Oc) as (J1 & J2 & J3).
      pose proof (insert_new l c Sl Ol Oc ltac:(intros e He; apply Hd'; by right)) as PI.
      split; [done|]. split; [done|]. split; [done|]. split; [rewrite app_length; cbn; lia|]. exists (first :: rest).
      split.
      { rewrite PI, P. cbn [app]. rewrite (Permutation_app_comm (first :: l ++ rest) [c]). cbn [app]. constructor. by rewrite Permutation_middle. }
      split; [rewrite PI, app_length; cbn [length] in *; lia|].
      intros a b Ha Hb. rewrite PI in Ha.
      assert (sk first < sk a) as Hfa by (apply elem_of_cons in Ha as [->|Ha]; [done|by apply Hl]).
      apply elem_of_cons in Hb as [->|Hb]; [done|].
      assert (sk b < sk first) by (apply T; [left|done]). lra.
Qed.

(** ** Rescaling by a factor at most 1 *)
Lemma scale_rank_mono f s t : factor_ok f -> feq f f0 = false -> ok s -> ok t -> sk s <= sk t -> sk (ed_scale f s) <= sk (ed_scale f t).
Proof.
  intros Hf Hz Hs Ht H. pose proof Hf as [Ff Rf].
  assert (0 < RF f) as Hpos.
  { destruct (Rle_lt_or_eq_dec _ _ Rf) as [?|E]; [done|]. exfalso. rewrite (proj2 (feq_spec f f0 Ff eq_refl)) in Hz; [done|]. by rewrite RF_f0. }
  assert (forall x, key_ok x -> (ffinite x = true /\ Rabs (rnd (RF x * RF f)) < bpow radix2 1024 /\ rank (fmul x f) = rnd (RF x * RF f)) \/
     ((ffinite x = true -> bpow radix2 1024 <= Rabs (rnd (RF x * RF f))) /\ rank (fmul x f) = bpow radix2 1024)) as Hcase.
  { intros x Hx. pose proof (scale_key_ok f x Hf Hx Hz) as K.
    destruct (key_ok_cases x Hx) as [[Fx Rx]| ->].
    - destruct (Rlt_le_dec (Rabs (rnd (RF x * RF f))) (bpow radix2 1024)) as [B|B].
      + left. destruct (fmul_spec x f Fx Ff B) as [R F]. split; [done|]. split; [done|]. unfold rank. by rewrite F.
      + right. split; [done|]. destruct (key_ok_cases _ K) as [[F R]| ->]; [|done]. exfalso.
        pose proof (Bmult_correct 53 1024 _ _ mode_NE x f) as C. rewrite Rlt_bool_false in C by exact B.
        unfold binary_overflow in C. change (Bmult mode_NE x f) with (fmul x f) in C. unfold ffinite in F.
        destruct (fmul x f); cbn in F; cbn in C; done.
    - right. split; [done|]. destruct (key_ok_cases _ K) as [[F R]| ->]; [|done]. exfalso.
      destruct f as [[|]|[|]| |[|] m e Hb]; try done. }
  unfold sk, ed_scale. cbn [sm_key]. unfold sk in H.
  destruct (Hcase _ Hs) as [(Fs & Bs & Es)|[Bs Es]], (Hcase _ Ht) as [(Ft & Bt & Et)|[Bt Et]]; rewrite Es, Et.
  - apply rnd_le. apply Rmult_le_compat_r; [lra|]. unfold rank in H. by rewrite Fs, Ft in H.
  - apply Rabs_lt_inv in Bs. lra.
  - exfalso. destruct (key_ok_cases _ Hs) as [[Fs Rs]|Is].
    + specialize (Bs Fs). unfold rank in H. rewrite Fs, Ft in H.
      assert (0 <= RF (sm_key s) * RF f) as P1 by (apply Rmult_le_pos; lra).
      assert (0 <= rnd (RF (sm_key s) * RF f)) as P2 by (apply rnd_ge_l; [apply fmt_0|done]).
      assert (rnd (RF (sm_key s) * RF f) <= rnd (RF (sm_key t) * RF f)) by (apply rnd_le, Rmult_le_compat_r; lra).
      rewrite Rabs_pos_eq in Bs by done. apply Rabs_lt_inv in Bt. lra.
    + pose proof (rank_lt_inf _ Ft). rewrite Is in H. unfold rank at 1 in H. cbn [ffinite is_finite] in H. lra.
  - lra.
Qed.
Lemma scale_rank_le f s : factor_ok f -> feq f f0 = false -> RF f <= 1 -> ok s -> sk (ed_scale f s) <= sk s.
Proof.
  intros Hf Hz H1 Hs. pose proof Hf as [Ff Rf]. unfold sk, ed_scale. cbn [sm_key].
  destruct (key_ok_cases _ Hs) as [[Fs Rs]|Is].
  - assert (0 <= rnd (RF (sm_key s) * RF f) <= RF (sm_key s)) as B.
    { split; [apply rnd_ge_l; [apply fmt_0|by apply Rmult_le_pos]|]. apply rnd_le_r; [apply fmt_RF|].
      rewrite <- (Rmult_1_r (RF (sm_key s))) at 2. by apply Rmult_le_compat_l. }
    destruct (fmul_spec (sm_key s) f Fs Ff) as [R F].
    { unfold fits. rewrite Rabs_pos_eq by lra. pose proof (RF_abs_lt (sm_key s)) as HH. apply Rabs_lt_inv in HH. lra. }
    unfold rank. rewrite F, Fs, R. lra.
  - rewrite Is. unfold rank at 2. cbn [ffinite is_finite]. pose proof (scale_key_ok f (sm_key s) Hf Hs Hz) as K. rewrite Is in K.
    destruct (key_ok_cases _ K) as [[F _]| ->]; [|unfold rank; cbn [ffinite is_finite]; lra]. apply Rlt_le, (rank_lt_inf _ F).
Qed.

(** [done_] : already scaled, [todo] still to do.  The working list is the scaled
    ones followed by the rest, where a scaled sample gives way to a later one whose
    scaled priority is the same. *)
Fixpoint scaled (f : f64) (old : list sample) : list sample :=
  match old with
  | [] => []
  | s :: old' =>
      match old' with
      | t :: _ => if feq (sm_key (ed_scale f s)) (sm_key (ed_scale f t)) then scaled f old' else ed_scale f s :: scaled f old'
      | [] => [ed_scale f s]
      end
  end.
Lemma feq_rank x y : key_ok x -> key_ok y -> (feq x y = true <-> rank x = rank y).
Proof.
  intros Hx Hy. destruct (key_ok_cases x Hx) as [[Fx Rx]| ->], (key_ok_cases y Hy) as [[Fy Ry]| ->].
  - unfold rank. rewrite Fx, Fy. by apply feq_spec.
  - pose proof (rank_lt_inf x Fx). unfold rank in *. cbn [ffinite is_finite]. split; [by destruct x|lra].
  - pose proof (rank_lt_inf y Fy). unfold rank in *. cbn [ffinite is_finite]. split; [by destruct y|lra].
  - done.
Qed.

Lemma insert_before l c : Forall ok l -> ok c -> asc (c :: l) -> sk_Insert l c = c :: l.
Proof.
  intros HF Hc S. destruct l as [|a l]; [done|]. apply Forall_cons in HF as [Ha _]. apply StronglySorted_inv in S as [_ H].
  apply Forall_cons in H as [H _]. cbv beta in H. cbn [sk_Insert].
  destruct (compare_cases a c Ha Hc) as [(E1 & L)|[(E1 & E2 & L)|(E1 & E2 & L)]]; rewrite ?E1, ?E2; [lra|lra|done].
Qed.
Lemma insert_after a l c : ok a -> ok c -> sk a < sk c -> sk_Insert (a :: l) c = a :: sk_Insert l c.
Proof.
  intros Ha Hc H. cbn [sk_Insert]. destruct (compare_cases a c Ha Hc) as [(E1 & L)|[(E1 & E2 & L)|(E1 & E2 & L)]]; rewrite ?E1, ?E2; [done|lra|lra].
Qed.
Lemma delete_after a l c : ok a -> ok c -> sk a < sk c -> sk_Delete (a :: l) c = a :: sk_Delete l c.
Proof.
  intros Ha Hc H. cbn [sk_Delete]. destruct (compare_cases a c Ha Hc) as [(E1 & L)|[(E1 & E2 & L)|(E1 & E2 & L)]]; rewrite ?E1, ?E2; [done|lra|lra].
Qed.
Lemma delete_head a l : ok a -> sk_Delete (a :: l) a = l.
Proof. intros Ha. cbn [sk_Delete]. destruct (compare_cases a a Ha Ha) as [(_ & L)|[(-> & -> & _)|(_ & _ & L)]]; [lra|done|lra]. Qed.

(** In a sorted list of doubles, nothing about membership is lost by the above. *)
Lemma loop_scaled f : factor_ok f -> feq f f0 = false -> RF f <= 1 -> forall todo pre,
  Forall ok todo -> asc todo -> Forall ok pre -> Forall (fun a => Forall (fun t => sk a < sk t) todo) pre ->
  Forall (fun a => Forall (fun t => sk a < sk (ed_scale f t)) todo) pre ->
  ed_rescale_loop f todo (pre ++ todo) = pre ++ scaled f todo /\
  (forall a, ok a -> Forall (fun t => sk a < sk t) todo ->
     match todo with t :: _ => sk a = sk (ed_scale f t) | [] => False end ->
     ed_rescale_loop f todo (pre ++ a :: todo) = pre ++ scaled f todo).
Proof.
  intros Hf Hz H1. induction todo as [|s todo IH]; intros pre Ot St Op P1 P2.
  { split; [done|]. done. }
  apply Forall_cons in Ot as [Os Ot]. apply StronglySorted_inv in St as [St Hst].
  pose proof (scale_sample_ok f s Hf Hz Os) as Os'. pose proof (scale_rank_le f s Hf Hz H1 Os) as Hle.
  assert (forall pre l c, Forall ok pre -> ok c -> Forall (fun a => sk a < sk c) pre -> sk_Delete (pre ++ l) c = pre ++ sk_Delete l c) as HD.
  { clear. intros pre l c. induction pre as [|a pre IH]; intros A B C; [done|]. apply Forall_cons in A as [A1 A]. apply Forall_cons in C as [C1 C].
    cbn [app]. rewrite delete_after by done. f_equal. by apply IH. }
  assert (forall pre l c, Forall ok pre -> ok c -> Forall (fun a => sk a < sk c) pre -> sk_Insert (pre ++ l) c = pre ++ sk_Insert l c) as HI.
  { clear. intros pre l c. induction pre as [|a pre IH]; intros A B C; [done|]. apply Forall_cons in A as [A1 A]. apply Forall_cons in C as [C1 C].
    cbn [app]. rewrite insert_after by done. f_equal. by apply IH. }
  assert (Forall (fun a => sk a < sk s) pre) as Q1.
  { eapply Forall_impl; [exact P1|]. intros a Ha. cbv beta in Ha. by apply Forall_cons in Ha as [? _]. }
  assert (Forall (fun a => sk a < sk (ed_scale f s)) pre) as Q2.
  { eapply Forall_impl; [exact P2|]. intros a Ha. cbv beta in Ha. by apply Forall_cons in Ha as [? _]. }
  assert (Forall (fun a => Forall (fun t => sk a < sk t) todo) pre) as R1.
  { eapply Forall_impl; [exact P1|]. intros a Ha. cbv beta in Ha. by apply Forall_cons in Ha as [_ ?]. }
  assert (Forall (fun a => Forall (fun t => sk a < sk (ed_scale f t)) todo) pre) as R2.
  { eapply Forall_impl; [exact P2|]. intros a Ha. cbv beta in Ha. by apply Forall_cons in Ha as [_ ?]. }
  assert (Forall (fun t => sk (ed_scale f s) < sk t) todo) as Hs1.
  { eapply Forall_impl; [exact Hst|]. intros t Ht. cbv beta in *. lra. }
  (* one step leads to the same list in both cases *)
  assert (ed_rescale_loop f todo (pre ++ ed_scale f s :: todo) = pre ++ scaled f (s :: todo)) as HM.
  { destruct todo as [|t todo].
    - done.
    - cbn [scaled]. fold (scaled f (t :: todo)). pose proof Ot as Ot'. apply Forall_cons in Ot' as [Ott Ot']. pose proof (scale_sample_ok f t Hf Hz Ott) as Ott'.
      pose proof (feq_rank _ _ Os' Ott') as FR. destruct (feq (sm_key (ed_scale f s)) (sm_key (ed_scale f t))) eqn:EQ.
      + apply (proj2 (IH pre Ot St Op R1 R2)); [done|done|]. by apply FR.
      + assert (sk (ed_scale f s) <> sk (ed_scale f t)) as Hne by (intros HH; apply FR in HH; done).
        pose proof Hst as Hst0. apply Forall_cons in Hst0 as [Hst1 Hst2].
        pose proof (scale_rank_mono f s t Hf Hz Os Ott ltac:(lra)) as Hm.
        replace (pre ++ ed_scale f s :: t :: todo) with ((pre ++ [ed_scale f s]) ++ t :: todo) by (by rewrite <- app_assoc).
        rewrite (fun a b c => proj1 (IH (pre ++ [ed_scale f s]) Ot St a b c)).
        2:{ apply Forall_app. split; [done|]. constructor; [done|constructor]. }
        2:{ apply Forall_app. split; [done|]. constructor; [exact Hs1|constructor]. }
        2:{ apply Forall_app. split; [done|]. constructor; [|constructor]. apply Forall_forall. intros u Hu.
            pose proof (proj1 (Forall_forall _ _) Ot u Hu) as Ou. apply elem_of_cons in Hu as [->|Hu]; [lra|].
            pose proof (StronglySorted_inv St) as [_ Hu2]. rewrite Forall_forall in Hu2. specialize (Hu2 u Hu). cbv beta in Hu2.
            pose proof (scale_rank_mono f t u Hf Hz Ott Ou ltac:(lra)). lra. }
        rewrite <- app_assoc. done. }
  assert (sk_Insert todo (ed_scale f s) = ed_scale f s :: todo) as HIb.
  { apply insert_before; [done|done|]. constructor; [done|exact Hs1]. }
  split.
  - unfold ed_rescale_loop. cbn [fold_left]. fold (ed_rescale_loop f todo (sk_Insert (sk_Delete (pre ++ s :: todo) s) (ed_scale f s))).
    rewrite HD, delete_head, HI, HIb by done. exact HM.
  - intros a Oa A1 A2. apply Forall_cons in A1 as [A1 _].
    unfold ed_rescale_loop. cbn [fold_left]. fold (ed_rescale_loop f todo (sk_Insert (sk_Delete (pre ++ a :: s :: todo) s) (ed_scale f s))).
    rewrite HD, delete_after, delete_head, HI by done. cbn [sk_Insert].
    destruct (compare_cases a (ed_scale f s) Oa Os') as [(E1 & L)|[(E1 & E2 & L)|(E1 & E2 & L)]]; rewrite ?E1, ?E2; [lra| |lra].
    exact HM.
Qed.

(** What [scaled] gives *)
Lemma scaled_in f l e : e ∈ scaled f l -> exists s, s ∈ l /\ e = ed_scale f s.
Proof.
  induction l as [|s l IH]; cbn [scaled]; intros H; [by apply elem_of_nil in H|]. destruct l as [|t l].
  - apply elem_of_list_singleton in H as ->. exists s. split; [left|done].
  - destruct (feq _ _).
    + destruct (IH H) as (x & Hx & ->). exists x. split; [by right|done].
    + apply elem_of_cons in H as [->|H]; [exists s; split; [left|done]|]. destruct (IH H) as (x & Hx & ->). exists x. split; [by right|done].
Qed.
Lemma scaled_key f l : Forall ok l -> factor_ok f -> feq f f0 = false -> forall s, s ∈ l -> exists e, e ∈ scaled f l /\ sk e = sk (ed_scale f s).
Proof.
  intros HF Hf Hz. induction HF as [|a l Ha HF IH]; intros s Hs; [by apply elem_of_nil in Hs|]. cbn [scaled]. destruct l as [|t l].
  - apply elem_of_list_singleton in Hs as ->. exists (ed_scale f a). split; [by apply elem_of_list_singleton|done].
  - pose proof HF as HF'. apply Forall_cons in HF' as [Ht HF'].
    pose proof (feq_rank _ _ (scale_sample_ok f a Hf Hz Ha) (scale_sample_ok f t Hf Hz Ht)) as FR.
    destruct (feq (sm_key (ed_scale f a)) (sm_key (ed_scale f t))) eqn:EQ.
    + apply elem_of_cons in Hs as [->|Hs]; [|by apply IH]. destruct (IH t) as (e & He & Ee); [left|].
      exists e. split; [done|]. rewrite Ee. symmetry. by apply FR.
    + apply elem_of_cons in Hs as [->|Hs]; [exists (ed_scale f a); split; [left|done]|]. destruct (IH s Hs) as (e & He & Ee). exists e. split; [by right|done].
Qed.

(** Of samples whose scaled priorities are the same, the one with the highest
    priority stays. *)
Lemma scaled_highest f l : Forall ok l -> asc l -> factor_ok f -> feq f f0 = false -> forall e, e ∈ scaled f l ->
  exists s, s ∈ l /\ e = ed_scale f s /\ forall t, t ∈ l -> sk (ed_scale f t) = sk e -> sk t <= sk s.
Proof.
  intros HF S Hf Hz. induction HF as [|a l Ha HF IH]; intros e He; [by apply elem_of_nil in He|]. apply StronglySorted_inv in S as [S HA].
  cbn [scaled] in He. destruct l as [|t l].
  - apply elem_of_list_singleton in He as ->. exists a. split; [left|]. split; [done|]. intros t Ht _. apply elem_of_list_singleton in Ht as ->. lra.
  - specialize (IH S). pose proof HF as HF'. apply Forall_cons in HF' as [Ht HF']. rewrite Forall_forall in HA.
    pose proof (feq_rank _ _ (scale_sample_ok f a Hf Hz Ha) (scale_sample_ok f t Hf Hz Ht)) as FR.
    assert (forall e, e ∈ scaled f (t :: l) ->
      exists s, s ∈ a :: t :: l /\ e = ed_scale f s /\ forall u, u ∈ a :: t :: l -> sk (ed_scale f u) = sk e -> sk u <= sk s) as Hrest.
    { intros e' He'. destruct (IH e' He') as (s & Hs & -> & Hmax). exists s. split; [by right|]. split; [done|].
      intros u Hu Eu. apply elem_of_cons in Hu as [->|Hu]; [|by apply Hmax]. specialize (HA s Hs). cbv beta in HA. lra. }
    destruct (feq (sm_key (ed_scale f a)) (sm_key (ed_scale f t))) eqn:EQ; [by apply Hrest|]. apply elem_of_cons in He as [->|He]; [|by apply Hrest].
    exists a. split; [left|]. split; [done|]. intros u Hu Eu. apply elem_of_cons in Hu as [->|Hu]; [lra|]. exfalso.
    assert (sk (ed_scale f a) < sk (ed_scale f t)) as Hlt.
    { pose proof (scale_rank_mono f a t Hf Hz Ha Ht) as Hm. specialize (HA t ltac:(left)). cbv beta in HA. specialize (Hm ltac:(lra)).
      assert (sk (ed_scale f a) <> sk (ed_scale f t)) by (intros HH; apply FR in HH; done). lra. }
    assert (sk (ed_scale f t) <= sk (ed_scale f u)) as Hle; [|lra].
    apply scale_rank_mono; try done; [by rewrite Forall_forall in HF; apply HF|].
    apply elem_of_cons in Hu as [->|Hu]; [lra|]. apply StronglySorted_inv in S as [_ S]. rewrite Forall_forall in S. specialize (S u Hu). cbv beta in S. lra.
Qed.
Lemma scaled_map f l : Forall ok l -> factor_ok f -> feq f f0 = false -> asc (ed_scale f <$> l) -> scaled f l = ed_scale f <$> l.
Proof.
  intros HF Hf Hz. induction HF as [|a l Ha HF IH]; intros S; [done|]. rewrite fmap_cons in *. apply StronglySorted_inv in S as [S HA].
  cbn [scaled]. destruct l as [|t l]; [done|]. rewrite IH by done.
  pose proof HF as HF'. apply Forall_cons in HF' as [Ht HF']. rewrite fmap_cons in HA. apply Forall_cons in HA as [HA _]. cbv beta in HA.
  pose proof (feq_rank _ _ (scale_sample_ok f a Hf Hz Ha) (scale_sample_ok f t Hf Hz Ht)) as FR.
  destruct (feq (sm_key (ed_scale f a)) (sm_key (ed_scale f t))) eqn:EQ; [|done]. exfalso. pose proof (proj1 FR eq_refl) as HH. unfold sk in HA. lra.
Qed.
Lemma rescale_scaled rsv f : asc (ed_values rsv) -> Forall ok (ed_values rsv) -> factor_ok f -> feq f f0 = false -> RF f <= 1 ->
  ed_values (ed_rescale_body rsv f) = scaled f (ed_values rsv) /\
  ed_count (ed_rescale_body rsv f) = Z.of_nat (length (scaled f (ed_values rsv))) /\
  asc (scaled f (ed_values rsv)) /\ Forall ok (scaled f (ed_values rsv)).
Proof.
  intros S HF Hf Hz H1.
  destruct (loop_scaled f Hf Hz H1 (ed_values rsv) [] HF S ltac:(done) ltac:(done) ltac:(done)) as [E _]. cbn [app] in E.
  destruct (loop_inv f (ed_values rsv) Hf Hz (ed_values rsv) S HF HF S ltac:(intros s Hs; by exists s)) as (A1 & A2 & _).
  rewrite E in A1, A2. unfold ed_rescale_body. rewrite Hz. unfold ed_GetValues. rewrite iter_all by done. rewrite E. done.
Qed.
