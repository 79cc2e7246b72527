(** C73 - C78, C80: the configuration. *)
From Coq Require Import Ascii.
From Verif.Go Require Import GoInt.
From Verif.Model Require Import Config.
From Verif.Spec Require Import ConfigSpec.
Local Open Scope Z_scope.

Lemma getter_spec d x : positive_or d x (if x <=? 0 then d else x).
Proof. unfold positive_or. destruct (Z.leb_spec x 0); split; intros; try lia; done. Qed.

(** C73.  Every limit is the configured one if positive, else the documented
    default; in particular it is positive. *)
Theorem C73_limits : forall mc,
  positive_or 10 (BucketCount mc) (GetBucketCount mc) /\
  positive_or 20 (MaxSubCategoryCount mc) (GetMaxSubCategoryCount mc) /\
  positive_or 5000 (MaxMetricCountPerRegistry mc) (GetMaxMetricCountPerRegistry mc) /\
  positive_or 100 (MaxCompassErrorCodeCount mc) (GetMaxCompassErrorCodeCount mc) /\
  positive_or 20 (MaxCompassAddonCount mc) (GetMaxCompassAddonCount mc).
Proof. intros mc. split_and!; apply getter_spec. Qed.
Print Assumptions C73_limits.

Theorem C73_limits_positive : forall mc,
  0 < GetBucketCount mc /\ 0 < GetMaxSubCategoryCount mc /\ 0 < GetMaxMetricCountPerRegistry mc /\
  0 < GetMaxCompassErrorCodeCount mc /\ 0 < GetMaxCompassAddonCount mc.
Proof.
  intros mc.
  assert (forall d x, 0 < d -> 0 < (if x <=? 0 then d else x)) as H
    by (intros d x ?; destruct (Z.leb_spec x 0); lia).
  split_and!; by apply H.
Qed.
Print Assumptions C73_limits_positive.

Definition a_config : MetricConfig :=
  mkMetricConfig "mine" ["fastCompass"] (-3) (seconds 7) (Some {[ 3 := seconds 5; 9 := seconds 2 ]}) 40 0 6 1 (-1).
Example C73_case :
  (GetBucketCount a_config, GetMaxSubCategoryCount a_config, GetMaxMetricCountPerRegistry a_config,
   GetMaxCompassErrorCodeCount a_config, GetMaxCompassAddonCount a_config) = (10, 20, 40, 100, 6).
Proof. reflexivity. Qed.

(** C74 is false: the built-in table always wins over the user's. *)
Theorem C74_level_interval_refuted :
  exists mc m level d, LevelInterval mc = Some m /\ m !! level = Some d /\ seconds 1 <= d /\
    GetLevelInterval mc level <> d.
Proof.
  exists a_config, {[ 3 := seconds 5; 9 := seconds 2 ]}, 3, (seconds 5).
  split_and!; [reflexivity|reflexivity|done|vm_compute; discriminate].
Qed.
Print Assumptions C74_level_interval_refuted.

(** What GetLevelInterval really returns: a fixed interval for the five built-in
    levels, the global interval for any other level - the configured table never
    matters.  (Missing for the full claim: the configured value.) *)
Theorem C74_level_interval_partial : forall mc level,
  (0 <= level <= 2 -> GetLevelInterval mc level = seconds 1) /\
  (3 <= level <= 4 -> GetLevelInterval mc level = seconds 60) /\
  (level < 0 \/ 4 < level -> GetLevelInterval mc level = GetGlobalInterval mc).
Proof.
  intros mc level.
  assert (GetLevelInterval mc level =
    match map_get defaultLevelInterval level with
    | Some result => if Second <=? result then result else GetGlobalInterval mc
    | None => GetGlobalInterval mc end) as ->.
  { unfold GetLevelInterval. by destruct (LevelInterval mc). }
  split_and!.
  - intros H. assert (level = 0 \/ level = 1 \/ level = 2) as [->|[->| ->]] by lia; reflexivity.
  - intros H. assert (level = 3 \/ level = 4) as [->| ->] by lia; reflexivity.
  - intros H. unfold defaultLevelInterval, map_get, Trivial, Minor, Normal, Major, Critical.
    rewrite !lookup_insert_ne by lia. by rewrite lookup_empty.
Qed.
Print Assumptions C74_level_interval_partial.
Example C74_case : (GetLevelInterval a_config 2, GetLevelInterval a_config 4, GetLevelInterval a_config 9)
  = (seconds 1, seconds 60, seconds 7).
Proof. vm_compute. reflexivity. Qed.

(** C76 is false at exactly one second. *)
Theorem C76_global_interval_refuted :
  exists mc, seconds 1 <= GlobalInterval mc /\ GetGlobalInterval mc <> GlobalInterval mc.
Proof. exists (mkMetricConfig "" [] 0 (seconds 1) None 0 0 0 0 0). split; [done|]. vm_compute. discriminate. Qed.
Print Assumptions C76_global_interval_refuted.

(** Above one second the configured value is used; at or below it 60 s. *)
Theorem C76_global_interval_partial : forall mc,
  (seconds 1 < GlobalInterval mc -> GetGlobalInterval mc = GlobalInterval mc) /\
  (GlobalInterval mc <= seconds 1 -> GetGlobalInterval mc = seconds 60).
Proof.
  intros mc. unfold GetGlobalInterval, Second, seconds.
  destruct (Z.leb_spec (GlobalInterval mc) 1000000000); split; intros; try lia; done.
Qed.
Print Assumptions C76_global_interval_partial.
Example C76_case : GetGlobalInterval a_config = seconds 7.
Proof. reflexivity. Qed.

(** C75. *)
Theorem C75_level_interval_usable : forall mc level, seconds 1 <= GetLevelInterval mc level.
Proof.
  intros mc level. destruct (C74_level_interval_partial mc level) as (H1 & H2 & H3).
  destruct (C76_global_interval_partial mc) as [G1 G2].
  destruct (decide (0 <= level <= 2)); [rewrite H1 by lia; lia|].
  destruct (decide (3 <= level <= 4)); [rewrite H2 by lia; unfold seconds; lia|].
  rewrite H3 by lia. destruct (decide (seconds 1 < GlobalInterval mc)).
  - rewrite G1 by lia. lia.
  - rewrite G2 by lia. unfold seconds. lia.
Qed.
Print Assumptions C75_level_interval_usable.

(** C77 is false: the unset value 0 means the bucket reservoir. *)
Theorem C77_default_reservoir_refuted :
  GetReservoirType GetMetricConfig = BucketReservoirType /\
  GetReservoirType GetMetricConfig <> ExponentiallyDecayingReservoirType.
Proof. split; [reflexivity|vm_compute; discriminate]. Qed.
Print Assumptions C77_default_reservoir_refuted.

(** A configured type is respected, and only a negative one yields the
    documented default. *)
Theorem C77_reservoir_partial : forall mc,
  (0 <= ReservoirType mc -> GetReservoirType mc = ReservoirType mc) /\
  (ReservoirType mc < 0 -> GetReservoirType mc = ExponentiallyDecayingReservoirType).
Proof.
  intros mc. unfold GetReservoirType. destruct (Z.ltb_spec (ReservoirType mc) 0); split; intros; try lia; done.
Qed.
Print Assumptions C77_reservoir_partial.
Example C77_case : GetReservoirType a_config = UniformReservoirType.
Proof. reflexivity. Qed.

(** C78. *)
Lemma eqb_fold_letter (lo up : Ascii.ascii) d :
  fold_ascii lo = lo -> (forall c, fold_ascii c = lo <-> c = lo \/ c = up) ->
  Ascii.eqb (fold_ascii lo) (fold_ascii d) = true <-> d = lo \/ d = up.
Proof. intros -> H. rewrite Ascii.eqb_eq, <- H. split; intros ->; done. Qed.
Lemma fold_a c : fold_ascii c = "a"%char <-> c = "a"%char \/ c = "A"%char.
Proof.
  split; [|by intros [->| ->]].
  destruct c as [[] [] [] [] [] [] [] []]; vm_compute; intros H; first [by left|by right|discriminate H].
Qed.
Lemma fold_l c : fold_ascii c = "l"%char <-> c = "l"%char \/ c = "L"%char.
Proof.
  split; [|by intros [->| ->]].
  destruct c as [[] [] [] [] [] [] [] []]; vm_compute; intros H; first [by left|by right|discriminate H].
Qed.

Lemma EqualFold_all v : EqualFold allStr v = true <-> is_all v.
Proof.
  unfold allStr. split.
  - destruct v as [|x [|y [|z [|? ?]]]]; cbn [EqualFold]; rewrite ?andb_true_iff; try (intros; naive_solver).
    intros (Hx & Hy & Hz & _).
    apply (eqb_fold_letter "a" "A" x eq_refl fold_a) in Hx.
    apply (eqb_fold_letter "l" "L" y eq_refl fold_l) in Hy.
    apply (eqb_fold_letter "l" "L" z eq_refl fold_l) in Hz.
    exists (String x ""), (String y ""), (String z "").
    split_and!; [naive_solver..|reflexivity].
  - intros (a & b & c & [->| ->] & [->| ->] & [->| ->] & ->); reflexivity.
Qed.

Lemma enables_loop_spec l other :
  (Exists is_all l -> enables_loop l other = allMetrics) /\
  (~ Exists is_all l -> enables_loop l other = other).
Proof.
  induction l as [|v l [IH1 IH2]].
  - split; [by rewrite Exists_nil|done].
  - cbn [enables_loop]. rewrite Exists_cons. destruct (EqualFold allStr v) eqn:E.
    + apply EqualFold_all in E. split; [done|tauto].
    + assert (~ is_all v) by (rewrite <- EqualFold_all, E; discriminate).
      split; intros; [apply IH1|apply IH2]; tauto.
Qed.

Theorem C78_enabled_metrics : forall mc,
  (Exists is_all (Enables mc) -> GetEnableMetrics mc = ["compass"; "fastCompass"]) /\
  (~ Exists is_all (Enables mc) -> GetEnableMetrics mc = Enables mc) /\
  (Enables mc = [] -> GetEnableMetrics mc = []).
Proof.
  intros mc. unfold GetEnableMetrics. destruct (Enables mc) as [|v l] eqn:E.
  - split_and!; [by rewrite Exists_nil|done|done].
  - cbn [length Nat.eqb]. destruct (enables_loop_spec (v :: l) (v :: l)) as [H1 H2].
    split_and!; [done|done|discriminate].
Qed.
Print Assumptions C78_enabled_metrics.
Example C78_case :
  GetEnableMetrics (mkMetricConfig "" ["x"; "aLL"] 0 0 None 0 0 0 0 0) = ["compass"; "fastCompass"] /\
  GetEnableMetrics (mkMetricConfig "" ["x"; "al"; "alll"] 0 0 None 0 0 0 0 0) = ["x"; "al"; "alll"].
Proof. split; reflexivity. Qed.

(** C80 is false for three of the five constants. *)
Theorem C80_intervals_refuted :
  Sec_10 <> seconds 10 /\ Sec_30 <> seconds 30 /\ Sec_60 <> seconds 60 /\
  Sec_10 = seconds 5 /\ Sec_30 = seconds 5 /\ Sec_60 = seconds 5.
Proof. split_and!; try reflexivity; vm_compute; discriminate. Qed.
Print Assumptions C80_intervals_refuted.
Theorem C80_intervals_partial : Sec_1 = seconds 1 /\ Sec_5 = seconds 5.
Proof. split; reflexivity. Qed.
Print Assumptions C80_intervals_partial.
