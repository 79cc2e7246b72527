(** C16-C21, C24: the fast compass used by one goroutine at a time.

    A record carries its clock readings, duration (ns) and category.  [order]
    is any order in which Go may iterate over the category map and [now cat] the
    clock reading made for category [cat].  Spec/FastCompassSpec.v defines
    [tracked] (the first max different valid categories), [records_of],
    [invocations] (each record counts 1), [durations_ms] (each counts its whole
    milliseconds) and [recent_total]. *)
From Verif.Go Require Import GoInt.
From Verif.Model Require Import Counter BucketQueue BucketCounter FastCompass.
From Verif.Spec Require Import BucketSpec CounterSpec FastCompassSpec.
From Verif.Proofs Require Import FastCompassProps.
Local Open Scope Z_scope.

(** C16 *)
Theorem C16_fast_compass_exact : forall max interval N (recs : list fc_record) order now fc,
  Second <= interval -> in64 interval -> 0 <= N ->
  (forall cat, nondecreasing 0 (rc_time <$> recs) (now cat)) -> (forall cat, in64 (now cat)) ->
  (forall cat k, sum_at k (by_time (interval / Second) (invocations (records_of cat recs))) < 2 ^ 26) ->
  (forall cat k, sum_at k (by_time (interval / Second) (durations_ms (records_of cat recs))) < 2 ^ 38) ->
  fc_exec max interval N recs = Ok fc -> is_order order (fc_subCategories fc) ->
  exists counts rts,
    fc_GetMethodCountPerCategory fc order now = Ok counts /\
    fc_GetMethodRtPerCategory fc order now = Ok rts /\
    (forall cat, is_Some (counts !! cat) <-> cat ∈ tracked max recs) /\
    (forall cat, is_Some (rts !! cat) <-> cat ∈ tracked max recs) /\
    forall cat k,
      (forall m, counts !! cat = Some m -> m !! k =
         recent_total (Z.to_nat N) (by_time (interval / Second) (invocations (records_of cat recs))) k) /\
      (forall m, rts !! cat = Some m -> m !! k =
         recent_total (Z.to_nat N) (by_time (interval / Second) (durations_ms (records_of cat recs))) k).
Proof. exact fc_exact. Qed.
Print Assumptions C16_fast_compass_exact.

(** C17 *)
Theorem C17_combined_decodes : forall max interval N (recs : list fc_record) order now start fc,
  Second <= interval -> in64 interval -> 0 <= N -> Forall (fun r => in64 (rc_time r)) recs ->
  (forall cat, in64 (now cat)) ->
  fc_exec max interval N recs = Ok fc -> is_order order (fc_subCategories fc) ->
  exists counts rts both,
    fc_GetMethodCountPerCategorySince fc order now start = Ok counts /\
    fc_GetMethodRtPerCategorySince fc order now start = Ok rts /\
    fc_GetCountAndRtPerCategorySince fc order now start = Ok both /\
    dom counts = (dom both : gset string) /\ dom rts = (dom both : gset string) /\
    forall cat mb, both !! cat = Some mb -> exists mc mr,
      counts !! cat = Some mc /\ rts !! cat = Some mr /\
      forall k, match mb !! k with
                | None => mc !! k = None /\ mr !! k = None
                | Some v => exists c t, mc !! k = Some c /\ mr !! k = Some t /\
                    v mod 2 ^ 64 = c * 2 ^ 38 + t /\ 0 <= t < 2 ^ 38 /\ 0 <= c < 2 ^ 26
                end.
Proof. exact fc_combined. Qed.
Print Assumptions C17_combined_decodes.

(** C18: an invalid record anywhere in a history makes no difference at all. *)
Theorem C18_invalid_ignored : forall max interval N (before : list fc_record) r after,
  (rc_duration r < 0 \/ rc_category r = ""%string) ->
  fc_exec max interval N (before ++ r :: after) = fc_exec max interval N (before ++ after).
Proof.
  intros max interval N before r after H. apply fc_skip_invalid. unfold valid_record.
  destruct H as [H|H]; [intros [H' _]; exact (Zlt_not_le _ _ H H')|intros [_ H']; exact (H' H)].
Qed.
Print Assumptions C18_invalid_ignored.

(** C19: the tracked categories are exactly the first max different valid ones,
    and never more than max. *)
Theorem C19_category_limit : forall max interval N (recs : list fc_record),
  Second <= interval -> in64 interval -> 0 <= N -> Forall (fun r => in64 (rc_time r)) recs ->
  exists fc, fc_exec max interval N recs = Ok fc /\
    (forall cat, is_Some (fc_subCategories fc !! cat) <-> cat ∈ tracked max recs) /\
    Z.of_nat (size (fc_subCategories fc)) <= Z.max 0 max.
Proof. exact fc_limit. Qed.
Print Assumptions C19_category_limit.

(** C19: a record of an untracked category leaves the compass as it was. *)
Theorem C19_excess_ignored : forall max interval N (recs : list fc_record) r,
  Second <= interval -> in64 interval -> 0 <= N -> Forall (fun r => in64 (rc_time r)) (recs ++ [r]) ->
  rc_category r ∉ tracked max (recs ++ [r]) ->
  fc_exec max interval N (recs ++ [r]) = fc_exec max interval N recs.
Proof. exact fc_excess_ignored. Qed.
Print Assumptions C19_excess_ignored.

(** C20: two runs that agree on the records of [cat] report the same for it,
    whatever else was recorded. *)
Theorem C20_isolated : forall max max' interval N (recs recs' : list fc_record) order order' now start cat fc fc',
  Second <= interval -> in64 interval -> 0 <= N ->
  Forall (fun r => in64 (rc_time r)) recs -> Forall (fun r => in64 (rc_time r)) recs' ->
  (forall c, in64 (now c)) ->
  fc_exec max interval N recs = Ok fc -> fc_exec max' interval N recs' = Ok fc' ->
  is_order order (fc_subCategories fc) -> is_order order' (fc_subCategories fc') ->
  cat ∈ tracked max recs -> cat ∈ tracked max' recs' -> records_of cat recs = records_of cat recs' ->
  forall getter, getter = fc_GetMethodCountPerCategorySince \/ getter = fc_GetMethodRtPerCategorySince \/
                 getter = fc_GetCountAndRtPerCategorySince ->
  exists r r' m, getter fc order now start = Ok r /\ getter fc' order' now start = Ok r' /\
    r !! cat = Some m /\ r' !! cat = Some m.
Proof.
  intros max max' interval N recs recs' order order' now start cat fc fc' H1 H2 H3 H4 H5 H6 H7 H8 H9 H10 H11 H12 H13
    getter Hg; destruct Hg as [Hg|Hg]; [|destruct Hg as [Hg|Hg]]; subst getter;
    exact (fc_isolated max max' interval N recs recs' order order' now start cat fc fc' H1 H2 H3 H4 H5 (H6 cat) H6 H7 H8 H9 H10 H11 H12 H13 _).
Qed.
Print Assumptions C20_isolated.

(** C21: what is reported without any capacity assumption and for any clock. *)
Theorem C21_modular : forall max interval N (recs : list fc_record) order now start fc,
  Second <= interval -> in64 interval -> 0 <= N -> Forall (fun r => in64 (rc_time r)) recs ->
  (forall cat, in64 (now cat)) -> -1000 < start ->
  fc_exec max interval N recs = Ok fc -> is_order order (fc_subCategories fc) ->
  exists counts rts,
    fc_GetMethodCountPerCategorySince fc order now start = Ok counts /\
    fc_GetMethodRtPerCategorySince fc order now start = Ok rts /\
    (forall cat, is_Some (counts !! cat) <-> cat ∈ tracked max recs) /\
    (forall cat, is_Some (rts !! cat) <-> cat ∈ tracked max recs) /\
    forall cat k,
      let hc := by_latest (-1000) (interval / Second) (invocations (records_of cat recs)) in
      let hm := by_latest (-1000) (interval / Second) (durations_ms (records_of cat recs)) in
      let visible := start <= k /\ k <= trunc_key (interval / Second) (now cat) in
      (forall m, counts !! cat = Some m -> m !! k =
         if decide visible then recent_value (Z.to_nat N) hc k ((sum_at k hc + sum_at k hm / 2 ^ 38) mod 2 ^ 26)
         else None) /\
      (forall m, rts !! cat = Some m -> m !! k =
         if decide visible then recent_value (Z.to_nat N) hm k (sum_at k hm mod 2 ^ 38) else None).
Proof. exact fc_mod_semantics. Qed.
Print Assumptions C21_modular.

(** C21: one call of 2^38 ms is reported as two calls taking 0 ms. *)
Theorem C21_overflow_witness :
  (fc ← fc_exec 5 Second 10 [FcRecord 1000 1000 (2 ^ 38 * 1000000) "a"];
   counts ← fc_GetMethodCountPerCategory fc ["a"%string] (fun _ => 1000);
   rts ← fc_GetMethodRtPerCategory fc ["a"%string] (fun _ => 1000);
   Ok (map_to_list <$> counts !! "a"%string, map_to_list <$> rts !! "a"%string))
  = Ok (Some [(1000, 2)], Some [(1000, 0)]).
Proof. vm_compute. reflexivity. Qed.
Print Assumptions C21_overflow_witness.

(** C24 *)
Theorem C24_LastUpdateTime : forall max interval N (recs : list fc_record) order fc,
  Second <= interval -> in64 interval -> 0 <= N -> Forall (fun r => in64 (rc_time r)) recs ->
  fc_exec max interval N recs = Ok fc -> is_order order (fc_subCategories fc) ->
  exists r, fc_LastUpdateTime fc order = Ok r /\ 0 <= r /\
    (forall cat c t, fc_subCategories fc !! cat = Some c -> bc_LastUpdateTime c = Ok t -> t <= r) /\
    (r = 0 \/ exists cat c, fc_subCategories fc !! cat = Some c /\ bc_LastUpdateTime c = Ok r) /\
    (tracked max recs = [] -> r = 0).
Proof. exact fc_lut. Qed.
Print Assumptions C24_LastUpdateTime.

(** A concrete history meeting the hypotheses: two tracked categories, one
    excess category, invalid records. *)
Definition demo_recs : list fc_record :=
  [FcRecord 1000 1000 5000000 "ok"; FcRecord 1500 1500 7999999 "ok"; FcRecord 1600 1600 1000000 "err";
   FcRecord 1700 1700 1000000 "third"; FcRecord 1800 1800 (-1) "ok"; FcRecord 1800 1800 3 "";
   FcRecord 2100 2100 2000000 "ok"].

Example demo_tracked : tracked 2 demo_recs = ["ok"%string; "err"%string].
Proof. vm_compute. reflexivity. Qed.

Example demo_fc_hyps : Second <= Second /\ in64 Second /\
  nondecreasing 0 (rc_time <$> demo_recs) 2500 /\ Forall (fun r => in64 (rc_time r)) demo_recs /\
  "third"%string ∉ tracked 2 demo_recs.
Proof.
  unfold Second, in64, two63, demo_recs. cbn [fmap list_fmap rc_time nondecreasing].
  split_and!; try lia.
  - repeat (apply List.Forall_cons; [cbn [rc_time]; lia|]). apply List.Forall_nil.
  - change (tracked 2 _) with ["ok"%string; "err"%string]. set_solver.
Qed.

Example demo_fc_capacity : forall cat k,
  sum_at k (by_time (Second / Second) (invocations (records_of cat demo_recs))) < 2 ^ 26 /\
  sum_at k (by_time (Second / Second) (durations_ms (records_of cat demo_recs))) < 2 ^ 38.
Proof.
  intros cat k. split.
  - eapply Z.le_lt_trans; [apply (capacity_bound _ cat k demo_recs (fun _ => 1)); lia|]. reflexivity.
  - eapply Z.le_lt_trans.
    + assert (E : durations_ms (records_of cat demo_recs) =
        (fun r => (rc_time r, Z.max 0 (rc_duration r / 1000000))) <$> records_of cat demo_recs).
      { apply Forall_fmap_ext_1. eapply Forall_impl; [apply (records_of_valid cat demo_recs)|].
        intros r [Hd _]. cbn beta. rewrite Z.max_r; [reflexivity|]. apply Z.div_pos; lia. }
      rewrite E. apply capacity_bound. lia.
    + vm_compute. reflexivity.
Qed.

Example demo_fc_result :
  (fc ← fc_exec 2 Second 10 demo_recs;
   counts ← fc_GetMethodCountPerCategory fc ["err"; "ok"]%string (fun _ => 2500);
   rts ← fc_GetMethodRtPerCategory fc ["ok"; "err"]%string (fun _ => 2500);
   Ok (map_to_list <$> counts !! "ok"%string, map_to_list <$> rts !! "ok"%string,
       map_to_list <$> rts !! "third"%string, (map_to_list (fc_subCategories fc)).*1))
  = Ok (Some [(2000, 1); (1000, 2)], Some [(2000, 2); (1000, 12)], None, ["err"; "ok"]%string).
Proof. vm_compute. reflexivity. Qed.
