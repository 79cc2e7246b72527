From Verif.Go Require Import GoInt.
From Verif.Model Require Import Counter BucketQueue BucketCounter FastCompass.
From Verif.Spec Require Import BucketSpec CounterSpec FastCompassSpec.
From Verif.Proofs Require Import BucketAbs BucketHist BucketMain BucketProps.
Local Open Scope Z_scope.

(** ** firsts / tracked *)

Lemma elem_of_firsts x l : x ∈ firsts l <-> x ∈ l.
Proof.
  induction l as [|y l IH]; [done|]. cbn. rewrite !elem_of_cons, elem_of_list_filter, IH.
  destruct (decide (x = y)); tauto.
Qed.

Lemma firsts_snoc l x : firsts (l ++ [x]) = if decide (x ∈ l) then firsts l else firsts l ++ [x].
Proof.
  induction l as [|y l IH]; [reflexivity|]. cbn [app firsts]. rewrite IH.
  destruct (decide (x = y)) as [->|Hne].
  - rewrite (decide_True _ _ (P := y ∈ y :: l)) by left.
    destruct (decide (y ∈ l)); [done|]. rewrite filter_app. cbn.
    rewrite decide_False by (intros H; by apply H). by rewrite app_nil_r.
  - destruct (decide (x ∈ l)) as [Hin|Hin].
    + rewrite decide_True by (by right). done.
    + rewrite decide_False by (rewrite elem_of_cons; tauto).
      rewrite filter_app. cbn. rewrite decide_True by done. done.
Qed.

Lemma NoDup_firsts l : NoDup (firsts l).
Proof.
  induction l as [|y l IH]; cbn; constructor; [|by apply NoDup_filter].
  rewrite elem_of_list_filter. tauto.
Qed.

Lemma valid_bool r :
  ((rc_duration r <? 0) || (Z.of_nat (String.length (rc_category r)) <=? 0)) = negb (bool_decide (valid_record r)).
Proof.
  destruct (bool_decide_reflect (valid_record r)) as [[H1 H2]|Hn]; cbn.
  - apply orb_false_iff. split; [apply Z.ltb_ge; lia|].
    apply Z.leb_gt. destruct (rc_category r); [done|]. cbn. lia.
  - apply orb_true_iff. destruct (Z.ltb_spec (rc_duration r) 0); [by left|]. right. apply Z.leb_le.
    destruct (rc_category r) eqn:E; [done|]. exfalso. apply Hn. split; [done|]. by rewrite E.
Qed.

Lemma fc_Record_invalid fc r : ~ valid_record r -> fc_Record fc r = Ok fc.
Proof.
  intros H. unfold fc_Record. rewrite valid_bool, bool_decide_eq_false_2 by done. reflexivity.
Qed.

(** ** One category is one counter driven by its own records *)

Definition cat_ops (rs : list fc_record) : list (Z * bc_op) :=
  (fun r => (rc_time r, BUpdateN (record_amount (rc_duration r)))) <$> rs.

Record fc_inv (max interval N : Z) (recs : list fc_record) (fc : fast_compass) : Prop := {
  fi_max : fc_maxSubCategoryCount fc = max;
  fi_int : fc_bucketInterval fc = interval;
  fi_n : fc_numberOfBuckets fc = N;
  fi_dom : forall cat, is_Some (fc_subCategories fc !! cat) <-> cat ∈ tracked max recs;
  fi_size : size (fc_subCategories fc) = length (tracked max recs);
  fi_counter : forall cat c, fc_subCategories fc !! cat = Some c ->
    exists r rs, records_of cat recs = r :: rs /\
      bc_exec interval N (rc_createTime r) false (cat_ops (r :: rs)) = Ok c
}.

Lemma records_of_snoc cat recs r :
  records_of cat (recs ++ [r]) =
  records_of cat recs ++ (if decide (valid_record r /\ rc_category r = cat) then [r] else []).
Proof. unfold records_of. rewrite filter_app. f_equal. Qed.

Lemma filter_valid_snoc recs r :
  filter valid_record (recs ++ [r]) = filter valid_record recs ++ (if decide (valid_record r) then [r] else []).
Proof. rewrite filter_app. f_equal. Qed.

Lemma bc_exec_snoc interval N now0 upd ops o c :
  bc_exec interval N now0 upd ops = Ok c ->
  bc_exec interval N now0 upd (ops ++ [o]) = bc_step c o.
Proof.
  unfold bc_exec. destruct (newBucketCounterImpl _ _ _ _); cbn [mbind res_bind]; [|done].
  intros H. unfold bc_run in *. rewrite run_ops_app, H. cbn. by destruct (bc_step c o).
Qed.

Lemma Forall_snoc_inv {A} (P : A -> Prop) l x : Forall P (l ++ [x]) -> Forall P l /\ P x.
Proof. rewrite Forall_app, Forall_singleton. done. Qed.

Lemma fc_inv_step max interval N recs fc r :
  Second <= interval -> in64 interval -> 0 <= N -> Forall (fun r => in64 (rc_time r)) (recs ++ [r]) ->
  fc_inv max interval N recs fc ->
  exists fc', fc_Record fc r = Ok fc' /\ fc_inv max interval N (recs ++ [r]) fc' /\
    (rc_category r ∉ tracked max (recs ++ [r]) -> fc' = fc).
Proof.
  intros H1 H2 H3 Hf I. apply Forall_snoc_inv in Hf as [Hf Hr].
  destruct (decide (valid_record r)) as [Hv|Hv].
  2:{ exists fc. split; [by apply fc_Record_invalid|]. split; [|done].
      assert (Ht : tracked max (recs ++ [r]) = tracked max recs).
      { unfold tracked. rewrite filter_valid_snoc, decide_False by done. by rewrite app_nil_r. }
      destruct I as [I1 I2 I3 I4 I5 I6]. constructor; try done; rewrite ?Ht; try done.
      intros cat c Hc. rewrite records_of_snoc, decide_False by tauto. rewrite app_nil_r. eauto. }
  unfold fc_Record. rewrite valid_bool, bool_decide_eq_true_2 by done. cbn [negb].
  assert (Ht : tracked max (recs ++ [r]) =
    take (Z.to_nat max) (if decide (rc_category r ∈ rc_category <$> filter valid_record recs)
       then firsts (rc_category <$> filter valid_record recs)
       else firsts (rc_category <$> filter valid_record recs) ++ [rc_category r])).
  { unfold tracked. rewrite filter_valid_snoc, decide_True by done. rewrite fmap_app. cbn.
    by rewrite firsts_snoc. }
  destruct (fc_subCategories fc !! rc_category r) as [c|] eqn:Hc.
  - (* known category *)
    assert (Hin : rc_category r ∈ tracked max recs) by (apply (fi_dom _ _ _ _ _ I); eauto).
    assert (Hin' : rc_category r ∈ rc_category <$> filter valid_record recs).
    { apply elem_of_firsts. unfold tracked in Hin. apply elem_of_take in Hin as (i & Hi & _).
      by eapply elem_of_list_lookup_2. }
    rewrite decide_True in Ht by done. fold (tracked max recs) in Ht.
    destruct (fi_counter _ _ _ _ _ I _ _ Hc) as (r0 & rs & Hrs & Hex).
    assert (Htimes : Forall (fun o : Z * bc_op => in64 o.1)
       (cat_ops (records_of (rc_category r) recs) ++ [(rc_time r, BUpdateN (record_amount (rc_duration r)))])).
    { apply Forall_app. split; [|by constructor]. unfold cat_ops. apply Forall_fmap. cbn.
      rewrite Forall_forall in Hf |- *. intros x Hx. cbn. apply Hf.
      unfold records_of in Hx. by apply elem_of_list_filter in Hx as [_ ?]. }
    rewrite Hrs in Htimes.
    destruct (exec_total interval N (rc_createTime r0) false _ H1 H2 H3 Htimes) as (c' & Hc' & _).
    pose proof Hc' as Hc''. rewrite (bc_exec_snoc _ _ _ _ _ _ _ Hex) in Hc'. cbn [bc_step fst snd] in Hc'.
    rewrite Hc'. cbn [mbind res_bind]. eexists. split; [reflexivity|]. split.
    2:{ intros Hn. rewrite Ht in Hn. done. }
    constructor; cbn; try apply I; rewrite ?Ht.
    + intros cat. destruct (decide (cat = rc_category r)) as [->|Hne].
      * rewrite lookup_insert. split; [done|eauto].
      * rewrite lookup_insert_ne by done. apply (fi_dom _ _ _ _ _ I).
    + rewrite map_size_insert_Some by eauto. apply (fi_size _ _ _ _ _ I).
    + intros cat c1 Hc1. rewrite records_of_snoc. destruct (decide (cat = rc_category r)) as [->|Hne].
      * rewrite lookup_insert in Hc1. injection Hc1 as <-. rewrite decide_True by done.
        exists r0, (rs ++ [r]). rewrite Hrs. split; [done|].
        change (r0 :: rs ++ [r]) with ((r0 :: rs) ++ [r]). unfold cat_ops in *. rewrite fmap_app. exact Hc''.
      * rewrite lookup_insert_ne in Hc1 by done. rewrite decide_False by (intros [_ ?]; congruence).
        rewrite app_nil_r. apply (fi_counter _ _ _ _ _ I _ _ Hc1).
  - (* new category *)
    assert (Hni : rc_category r ∉ tracked max recs).
    { intros Hin. apply (fi_dom _ _ _ _ _ I) in Hin as [? ?]. congruence. }
    rewrite (fi_max _ _ _ _ _ I), (fi_size _ _ _ _ _ I).
    destruct (Z.leb_spec max (Z.of_nat (length (tracked max recs)))) as [Hfull|Hroom].
    + assert (Hlen : (Z.to_nat max <= length (firsts (rc_category <$> filter valid_record recs)))%nat).
      { unfold tracked in Hfull. rewrite take_length in Hfull. lia. }
      assert (Ht' : tracked max (recs ++ [r]) = tracked max recs).
      { rewrite Ht. unfold tracked. destruct (decide _); [done|]. by rewrite take_app_le. }
      exists fc. split; [done|]. split; [|done].
      destruct I as [I1 I2 I3 I4 I5 I6]. constructor; try done; rewrite ?Ht'; try done.
      intros cat c Hc0. rewrite records_of_snoc, decide_False.
      * rewrite app_nil_r. eauto.
      * intros [_ <-]. congruence.
    + assert (Hlen : (length (firsts (rc_category <$> filter valid_record recs)) < Z.to_nat max)%nat).
      { unfold tracked in Hroom. rewrite take_length in Hroom. lia. }
      assert (Hni' : rc_category r ∉ rc_category <$> filter valid_record recs).
      { intros Hin. apply Hni. unfold tracked. rewrite take_ge by lia. by apply elem_of_firsts. }
      rewrite decide_False in Ht by done.
      assert (Ht' : tracked max (recs ++ [r]) = tracked max recs ++ [rc_category r]).
      { rewrite Ht. unfold tracked. rewrite !take_ge; rewrite ?app_length; cbn; try lia. done. }
      rewrite (fi_int _ _ _ _ _ I), (fi_n _ _ _ _ _ I).
      destruct (exec_total interval N (rc_createTime r) false
        [(rc_time r, BUpdateN (record_amount (rc_duration r)))] H1 H2 H3) as (c' & Hc' & _); [by constructor|].
      pose proof Hc' as Hc''. unfold bc_exec in Hc'.
      destruct (newBucketCounterImpl interval N (rc_createTime r) false) as [c0|] eqn:E0; [|done].
      cbn [mbind res_bind] in *. unfold bc_run in Hc'. cbn [run_ops bc_step fst snd] in Hc'.
      destruct (bc_UpdateN c0 (rc_time r) (record_amount (rc_duration r))) as [c1|] eqn:E1; [|done].
      injection Hc' as ->. cbn [mbind res_bind]. eexists. split; [reflexivity|]. split.
      2:{ intros Hn. exfalso. apply Hn. rewrite Ht'. apply elem_of_app. right. left. }
      constructor; cbn; try apply I; try reflexivity; rewrite ?Ht'.
      * intros cat. destruct (decide (cat = rc_category r)) as [->|Hne].
        -- rewrite lookup_insert, elem_of_app. split; [|eauto]. intros _. right. left.
        -- rewrite lookup_insert_ne by done. rewrite (fi_dom _ _ _ _ _ I), elem_of_app, elem_of_list_singleton. tauto.
      * rewrite map_size_insert_None by done. rewrite (fi_size _ _ _ _ _ I), app_length. cbn. lia.
      * intros cat c1 Hc1. rewrite records_of_snoc. destruct (decide (cat = rc_category r)) as [->|Hne].
        -- rewrite lookup_insert in Hc1. injection Hc1 as <-. rewrite decide_True by done.
           assert (Hnil : records_of (rc_category r) recs = []).
           { destruct (records_of (rc_category r) recs) as [|x l] eqn:Ex; [reflexivity|]. exfalso.
             assert (Hx : x ∈ records_of (rc_category r) recs) by (rewrite Ex; left).
             apply elem_of_list_filter in Hx as [[Hvx Hcx] Hx]. apply Hni'.
             rewrite <- Hcx. apply elem_of_list_fmap_1. by apply elem_of_list_filter. }
           rewrite Hnil. exists r, []. split; [done|]. exact Hc''.
        -- rewrite lookup_insert_ne in Hc1 by done. rewrite decide_False by (intros [_ ?]; congruence).
           rewrite app_nil_r. apply (fi_counter _ _ _ _ _ I _ _ Hc1).
Qed.

Lemma fc_exec_snoc max interval N recs r fc :
  fc_exec max interval N recs = Ok fc -> fc_exec max interval N (recs ++ [r]) = fc_Record fc r.
Proof.
  unfold fc_exec. intros H. rewrite run_ops_app, H. cbn. by destruct (fc_Record fc r).
Qed.

Lemma fc_exec_inv max interval N recs :
  Second <= interval -> in64 interval -> 0 <= N -> Forall (fun r => in64 (rc_time r)) recs ->
  exists fc, fc_exec max interval N recs = Ok fc /\ fc_inv max interval N recs fc.
Proof.
  intros H1 H2 H3. induction recs as [|r recs IH] using rev_ind; intros Hf.
  - eexists. split; [reflexivity|]. assert (tracked max [] = []) as Ht by (unfold tracked; cbn; by destruct (Z.to_nat max)).
    constructor; cbn; try done; rewrite ?Ht.
    + intros cat. rewrite lookup_empty. split; [by intros []|]. intros Hc. by apply elem_of_nil in Hc.
    + by rewrite map_size_empty.
  - destruct IH as (fc & E & I); [by apply Forall_snoc_inv in Hf as [? _]|].
    destruct (fc_inv_step max interval N recs fc r H1 H2 H3 Hf I) as (fc' & E' & I' & _).
    exists fc'. split; [|done]. by rewrite (fc_exec_snoc _ _ _ _ _ _ E).
Qed.

(** ** The getters' loop *)


Lemma is_order_elem {A} order (m : gmap string A) cat : is_order order m -> cat ∈ order <-> is_Some (m !! cat).
Proof.
  intros H. rewrite H. rewrite elem_of_list_fmap. split.
  - intros ([k v] & -> & Hk). apply elem_of_map_to_list in Hk. eauto.
  - intros [v Hv]. exists (cat, v). split; [done|]. by apply elem_of_map_to_list.
Qed.

Lemma fc_collect_spec dec sub now start order :
  (forall cat, cat ∈ order -> exists c m, sub !! cat = Some c /\ bc_GetBucketCountsSince c (now cat) start = Ok m) ->
  forall r0, exists r, fc_collect dec sub now start order r0 = Ok r /\
    (forall cat, cat ∈ order -> exists c m, sub !! cat = Some c /\
        bc_GetBucketCountsSince c (now cat) start = Ok m /\ r !! cat = Some (dec <$> m)) /\
    (forall cat, cat ∉ order -> r !! cat = r0 !! cat).
Proof.
  induction order as [|k order IH]; intros Hex r0.
  - exists r0. split; [done|]. split; [|done]. intros cat Hc. by apply elem_of_nil in Hc.
  - destruct (Hex k) as (c & m & Hc & Hm); [left|].
    cbn [fc_collect]. rewrite Hc. cbn [of_option mbind res_bind]. rewrite Hm. cbn [mbind res_bind].
    destruct (IH (fun cat H => Hex cat (elem_of_list_further _ _ _ H)) (<[k := dec <$> m]> r0)) as (r & E & R1 & R2).
    exists r. split; [done|]. split.
    + intros cat Hcat. destruct (decide (cat ∈ order)); [by apply R1|].
      apply elem_of_cons in Hcat as [->|]; [|done]. exists c, m. do 2 (split; [done|]).
      rewrite R2 by done. by rewrite lookup_insert.
    + intros cat Hcat. rewrite not_elem_of_cons in Hcat. destruct Hcat as [Hne Hni].
      rewrite R2 by done. by rewrite lookup_insert_ne by done.
Qed.

Lemma records_of_forall (P : fc_record -> Prop) cat recs : Forall P recs -> Forall P (records_of cat recs).
Proof.
  rewrite !Forall_forall. intros H x Hx. apply H. unfold records_of in Hx.
  by apply elem_of_list_filter in Hx as [_ ?].
Qed.

(** What any of the three getters returns, for any clock. *)
Lemma fc_getter max interval N recs dec order now start fc :
  Second <= interval -> in64 interval -> 0 <= N -> Forall (fun r => in64 (rc_time r)) recs ->
  (forall cat, in64 (now cat)) -> -1000 < start ->
  fc_exec max interval N recs = Ok fc -> is_order order (fc_subCategories fc) ->
  exists r, fc_collect dec (fc_subCategories fc) now start order ∅ = Ok r /\
    (forall cat, is_Some (r !! cat) <-> cat ∈ tracked max recs) /\
    forall cat m k, r !! cat = Some m ->
      m !! k = if decide (start <= k /\ k <= trunc_key (interval / Second) (now cat))
               then dec <$> recent_sum (Z.to_nat N)
                      (by_latest (-1000) (interval / Second) (bc_hist (cat_ops (records_of cat recs)))) k
               else None.
Proof.
  intros H1 H2 H3 Hf Hnow Hst E Ho.
  destruct (fc_exec_inv max interval N recs H1 H2 H3 Hf) as (fc' & E' & I).
  rewrite E in E'. injection E' as <-.
  assert (Hc : forall cat c, fc_subCategories fc !! cat = Some c -> exists m,
     bc_GetBucketCountsSince c (now cat) start = Ok m /\ forall k, m !! k =
       if decide (start <= k /\ k <= trunc_key (interval / Second) (now cat))
       then recent_sum (Z.to_nat N) (by_latest (-1000) (interval / Second) (bc_hist (cat_ops (records_of cat recs)))) k
       else None).
  { intros cat c Hc. destruct (fi_counter _ _ _ _ _ I _ _ Hc) as (r & rs & Hrs & Hex).
    destruct (exec_since interval N (rc_createTime r) false (cat_ops (r :: rs)) (now cat) start H1 H2 H3) as (c' & m & Ec & Em & Hm); try done.
    - unfold cat_ops. apply Forall_fmap. rewrite <- Hrs. apply records_of_forall, Hf.
    - rewrite Hex in Ec. injection Ec as <-. exists m. rewrite Hrs. done. }
  destruct (fc_collect_spec dec (fc_subCategories fc) now start order) with (r0 := ∅ : fc_result)
    as (r & Er & R1 & R2).
  { intros cat Hcat. apply (is_order_elem _ _ _ Ho) in Hcat as [c Hcc].
    destruct (Hc _ _ Hcc) as (m & Hm & _). eauto. }
  exists r. split; [done|]. split.
  - intros cat. rewrite <- (fi_dom _ _ _ _ _ I), <- (is_order_elem _ _ cat Ho). split.
    + intros [m Hm]. destruct (decide (cat ∈ order)); [done|]. rewrite R2 in Hm by done.
      by rewrite lookup_empty in Hm.
    + intros Hcat. destruct (R1 _ Hcat) as (c & m & _ & _ & ->). eauto.
  - intros cat m k Hm. destruct (decide (cat ∈ order)) as [Hin|Hin].
    + destruct (R1 _ Hin) as (c & m0 & Hcc & Hm0 & Hr). rewrite Hr in Hm. injection Hm as <-.
      destruct (Hc _ _ Hcc) as (m1 & Hm1 & Hk). rewrite Hm0 in Hm1. injection Hm1 as <-.
      rewrite lookup_fmap, Hk. by destruct (decide _).
    + rewrite R2 in Hm by done. by rewrite lookup_empty in Hm.
Qed.
