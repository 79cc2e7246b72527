From Verif.Go Require Import GoInt GoConc.
From Verif.Model Require Import Counter BucketQueue BucketCounter BucketCounterConc BucketReadConc.
From Verif.Spec Require Import BucketSpec BucketConcSpec BucketReadSpec.
From Verif.Proofs Require Import BucketAbs BucketHist BucketMain BucketConcProofs BucketConcRing BucketConcMain BucketReadProofs BucketReadMain.
Local Open Scope Z_scope.

(** The amounts added so far, by interval, in the order they were added. *)
Lemma reads_content interval N now0 upd progs (Isec := interval_seconds interval) :
  Second <= interval -> in64 interval -> 0 <= N ->
  exists L : list (event Z) -> list (Z * Z),
    (forall s s', L s `prefix_of` L (s ++ s')) /\
    (forall s, exists c, mx_crun interval N now0 upd progs s = Ok c /\ accounts progs c (L s) /\
      forall k n, (k, n) ∈ L s -> k = -1000 \/ exists now, now ∈ clock_values now0 s /\ k = trunc_key Isec now) /\
    (forall s1 s2 c1 c2 i st todo got m,
      mx_crun interval N now0 upd progs s1 = Ok c1 ->
      mx_crun interval N now0 upd progs (s1 ++ s2) = Ok c2 ->
      threads c1 !! i = Some (MRead (RdThread (st :: todo) RIdle got)) ->
      threads c2 !! i = Some (MRead (RdThread todo RIdle (got ++ [m]))) ->
      -1000 < st ->
      (size m <= Z.to_nat N)%nat /\
      exists now, now ∈ clock_values (bs_clock (shared c1)) s2 /\
      forall k v, m !! k = Some v ->
        st <= k <= trunc_key Isec now /\
        (exists now', now' ∈ clock_values now0 (s1 ++ s2) /\ k = trunc_key Isec now') /\
        exists s', s' `prefix_of` s2 /\ v = wrap64 (sum_at k (L (s1 ++ s')))).
Proof.
  intros H1 H2 HN. pose proof (interval_seconds_pos _ H1 H2) as HI. fold Isec in HI.
  destruct (mx_init interval N now0 upd progs HN) as (b0 & E0 & M0).
  set (c0 := Config (BcShared b0 (wrap64 now0)) (mx_start <$> progs)) in *.
  assert (Erun : forall s, mx_crun interval N now0 upd progs s = Ok (mrun c0 s)).
  { intros s. unfold mx_crun. by rewrite E0. }
  assert (Ms : forall s, mxinv (Z.to_nat N) interval now0 upd (mjoin (amounts_of <$> progs)) (mrun c0 s) (pledger c0 s)).
  { intros s. exact (mxinv_ledger _ _ _ _ _ HI _ _ s M0). }
  assert (Ts : forall s, tsinv Isec (clock_values now0 s) (mrun c0 s)).
  { intros s. apply (tsinv_run _ _ _ _ _ _ _ s now0 HI M0 eq_refl []). constructor.
    - by left.
    - intros p b Hp. left. destruct (binv_init interval N now0 upd (amounts_of <$> progs) HN) as (c' & E' & _ & Hh & _).
      unfold bc_cinit in E'. rewrite E0 in E'. cbn in E'. injection E' as <-. cbn [shared bs_bc] in Hh.
      cbn [c0 shared bs_bc] in Hp. rewrite Hh in Hp. by apply lookup_replicate in Hp as [-> _].
    - intros j t x Hj. cbn [c0 threads] in Hj. rewrite list_lookup_fmap in Hj.
      destruct (progs !! j) as [[l|l]|]; [|done|done]. injection Hj as <-. done. }
  assert (HTK : forall x, 1000 * (Isec * Z.quot x (1000 * Isec)) = trunc_key Isec x) by (intros; unfold trunc_key; lia).
  exists (fun s => by_bucket (bc_heap (bs_bc (shared (mrun c0 s)))) (pledger c0 s)). split; [|split].
  - intros s s'. exists (by_bucket (bc_heap (bs_bc (shared (mrun c0 (s ++ s'))))) (pledger (mrun c0 s) s')).
    rewrite pledger_app. unfold by_bucket at 1. rewrite fmap_app. f_equal.
    apply by_bucket_stable; [exact (b_crptr _ _ _ _ _ _ _ _ (proj1 (Ms s)))|].
    intros p b Hp. rewrite crun_app. by apply mx_crun_heap.
  - intros s. exists (mrun c0 s). split; [done|]. split.
    + unfold accounts. rewrite to_add_proj. destruct (Ms s) as [B _]. pose proof (b_amts _ _ _ _ _ _ _ _ B) as P.
      assert (Eq : (by_bucket (bc_heap (bs_bc (shared (mrun c0 s)))) (pledger c0 s)).*2 = (pledger c0 s).*2).
      { unfold by_bucket. rewrite <- list_fmap_compose. by apply list_fmap_ext. }
      by rewrite Eq.
    + intros k n Hk. unfold by_bucket in Hk. apply elem_of_list_fmap in Hk as ([p n'] & E & Hp). injection E as -> ->. cbn [fst].
      assert (Hlt : (p < length (bc_heap (bs_bc (shared (mrun c0 s)))))%nat).
      { apply (b_crptr _ _ _ _ _ _ _ _ (proj1 (Ms s))). apply elem_of_list_fmap. by exists (p, n'). }
      destruct (lookup_lt_is_Some_2 _ _ Hlt) as [b Hb]. rewrite (key_of_lookup _ _ _ Hb). unfold key.
      destruct (t_heap _ _ _ (Ts s) _ _ Hb) as [->|(v & Hv & ->)]; [by left|right]. exists v. by rewrite HTK.
  - intros s1 s2 c1 c2 i st todo got m Ec1 Ec2 Hi1 Hi2 Hst. rewrite Erun in Ec1, Ec2. injection Ec1 as <-. injection Ec2 as <-.
    assert (R1 : readers_ok (Z.to_nat N) (mrun c0 s1)).
    { eapply readers_ok_reach; [exact H1|exact H2|exact HN|apply Erun]. }
    destruct (stage_run _ _ _ _ _ _ _ HI (Ms s1) i st todo got s2 R1 Hi1) as (t & Ht & Hs).
    rewrite <- crun_app, Hi2 in Ht. injection Ht as <-.
    destruct Hs as [E|[(pc & E & H)|(m' & rest & cts & Hg & Hsz & [(now & Hn & ->) Hf])]].
    { injection E as E _. apply (f_equal length) in E. cbn in E. lia. }
    { injection E as <- E. apply (f_equal length) in E. rewrite app_length in E. cbn in E. lia. }
    cbn [rd_got] in Hg. apply app_inv_head in Hg. injection Hg as <- <-. split; [done|].
    exists now. split; [done|]. intros k v Hk. destruct (Hf k v Hk) as (Hle & s' & p & b & Hpre & Hb & <- & <-).
    fold Isec in Hle. rewrite HTK in Hle. split; [done|].
    rewrite <- crun_app in Hb. destruct (Ms (s1 ++ s')) as [B _].
    assert (Hts : bk_ts b <> -1) by (unfold key in Hle; lia).
    split.
    + destruct (t_heap _ _ _ (Ts (s1 ++ s')) _ _ Hb) as [?|(x & Hx & E)]; [done|]. exists x. split.
      * destruct Hpre as [z ->]. rewrite app_assoc. by apply clock_values_prefix.
      * unfold key. rewrite E. apply HTK.
    + exists s'. split; [done|]. rewrite (sum_at_by_bucket _ _ p b (b_crptr _ _ _ _ _ _ _ _ B)); [|intros p' b' Hne Hb' E|exact Hb].
      * exact (b_count _ _ _ _ _ _ _ _ B _ _ Hb).
      * assert (HpN : (S (Z.to_nat N) <= p)%nat).
        { destruct (decide (p < S (Z.to_nat N))%nat) as [Hlt|]; [|lia]. by pose proof (b_init _ _ _ _ _ _ _ _ B _ _ Hlt Hb). }
        destruct (decide (p' < p)%nat).
        -- pose proof (b_sorted _ _ _ _ _ _ _ _ B p' p _ _ ltac:(lia) HpN Hb' Hb). lia.
        -- pose proof (b_sorted _ _ _ _ _ _ _ _ B p p' _ _ ltac:(lia) ltac:(lia) Hb Hb'). lia.
Qed.
