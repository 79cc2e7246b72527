(** Reading the configuration from a document (C113). *)
From Verif.Go Require Import GoInt.
From Verif.Model Require Import Config ConfigTags.
From Verif.Spec Require Import ConfigTagsSpec.
Local Open Scope Z_scope.

Local Arguments json_fields : simpl never.
Local Arguments json_field : simpl never.

Lemma EqualFold_refl s : EqualFold s s = true.
Proof. induction s as [|c s IH]; [done|]. cbn. by rewrite Ascii.eqb_refl, IH. Qed.

Lemma find_field_spec p f : find_field p = Some f -> f ∈ json_fields /\ p f = true.
Proof.
  unfold find_field. destruct (filter _ json_fields) as [|g l] eqn:E; [done|]. cbn [head]. intros [= <-].
  assert (H : g ∈ filter (fun f => p f = true) json_fields) by (rewrite E; left).
  apply elem_of_list_filter in H. tauto.
Qed.

Lemma json_field_spec key f : json_field key = Some f -> f ∈ json_fields /\ names key f.
Proof.
  unfold json_field, names. destruct (find_field (fun f => String.eqb (tag f) key)) as [g|] eqn:E.
  - intros [= <-]. apply find_field_spec in E as [H1 H2]. apply String.eqb_eq in H2 as <-. split; [done|apply EqualFold_refl].
  - apply find_field_spec.
Qed.

Lemma set_frame f g v mc mc' : set_setting g v mc = Some mc' -> f <> g -> same_setting mc' mc f.
Proof.
  destruct mc. intros H Hne.
  destruct g, v; cbn in H; try (destruct (wrap64 n =? n)); try (destruct (forallb _ _)); try discriminate H; injection H as <-; by destruct f.
Qed.

Lemma decode_frame f doc : forall mc mc', decode_into mc doc = Some mc' ->
  (forall key v, (key, v) ∈ doc -> json_field key <> Some f) -> same_setting mc' mc f.
Proof.
  assert (Hrefl : forall mc, same_setting mc mc f) by (intros; by destruct f).
  induction doc as [|[key v] doc IH]; intros mc mc' H Hno; cbn in H; [injection H as <-; apply Hrefl|].
  assert (Hno' : forall key v, (key, v) ∈ doc -> json_field key <> Some f) by (intros; eapply Hno; by right).
  assert (Hk : json_field key <> Some f) by (eapply Hno; left).
  destruct (json_field key) as [g|]; [|by apply IH]. destruct (set_setting g v mc) as [mc1|] eqn:E; [|done].
  specialize (IH _ _ H Hno'). apply (set_frame f) in E; [|congruence]. destruct f; cbn in *; congruence.
Qed.

Lemma decode_app d1 d2 mc : decode_into mc (d1 ++ d2) = match decode_into mc d1 with Some mc' => decode_into mc' d2 | None => None end.
Proof.
  revert mc. induction d1 as [|[key v] d1 IH]; intros mc; [done|]. cbn. destruct (json_field key); [|apply IH].
  destruct (set_setting _ _ _); [apply IH|done].
Qed.

Lemma levels_fold (l : list (Z * Z)) : forall (m : gmap Z Z) k v, (k, v) ∈ l -> (forall v', (k, v') ∈ l -> v' = v) ->
  foldl (fun acc (x : Z * Z) => <[x.1 := x.2]> acc) m l !! k = Some v.
Proof.
  assert (Hout : forall l (m : gmap Z Z) k, (forall v, (k, v) ∉ l) -> foldl (fun acc (x : Z * Z) => <[x.1 := x.2]> acc) m l !! k = m !! k).
  { clear. intros l. induction l as [|[a b] l IH]; intros m k Hk; [done|]. cbn. rewrite IH by (intros v Hv; apply (Hk v); by right).
    apply lookup_insert_ne. intros ->. apply (Hk b). left. }
  induction l as [|[a b] l IH]; intros m k v Hin Hu; [by apply elem_of_nil in Hin|]. cbn.
  destruct (decide (k ∈ l.*1)) as [Hk|Hno'].
  1: apply elem_of_list_fmap in Hk as ([k' w] & E & Hw); cbn in E; subst k'.
  2: assert (Hno : ~ exists w, (k, w) ∈ l) by (intros [w Hw]; apply Hno', elem_of_list_fmap; by exists (k, w)).
  - assert (w = v) as -> by (apply Hu; by right). apply IH; [done|]. intros; apply Hu; by right.
  - rewrite Hout by (intros w Hw; apply Hno; eauto). apply elem_of_cons in Hin as [[= <- <-]|Hin]; [apply lookup_insert|]. destruct Hno; eauto.
Qed.

Lemma set_ok f v mc : fits_setting f v -> exists mc', set_setting f v mc = Some mc' /\ setting_is mc' f v.
Proof.
  destruct mc. intros H.
  assert (Hlev : forall l, (forall k v, (k, v) ∈ l -> in64 k /\ in64 v) -> forallb (fun x : Z * Z => (wrap64 x.1 =? x.1) && (wrap64 x.2 =? x.2)) l = true).
  { intros l Hl. apply forallb_forall. intros [a b] Hab. destruct (Hl a b) as [Ha Hb]; [by apply elem_of_list_In|]. cbn. by rewrite !wrap64_id, !Z.eqb_refl. }
  destruct f, v; cbn in H |- *; try done; rewrite ?wrap64_id, ?Z.eqb_refl by done; try (eexists; split; [done|done]).
  rewrite Hlev by done. eexists. split; [done|]. eexists. split; [done|]. intros k v Hin Hu. by apply levels_fold.
Qed.

Lemma own_field f : ~ shared_tag f -> json_field (tag f) = Some f.
Proof. unfold shared_tag. intros H. destruct f; try (by vm_compute); tauto. Qed.

(** C113 (what is missing: the two settings that share a tag, and YAML, see
    [C113_refuted]).  If a document with the key of setting [f] is accepted, and no later key
    names the setting, the setting has that value; and if no key of the document names the
    setting, it is as in an empty document. *)
Theorem C113_json_partial f v before after mc :
  ~ shared_tag f -> fits_setting f v ->
  json_decode (before ++ (tag f, v) :: after) = Some mc ->
  (forall key w, (key, w) ∈ after -> ~ names key f) ->
  setting_is mc f v.
Proof.
  intros Hf Hv H Hafter. unfold json_decode in H. rewrite decode_app in H. destruct (decode_into _ before) as [mc1|]; [|done].
  cbn [decode_into] in H. rewrite own_field in H by done. destruct (set_ok f v mc1 Hv) as (mc2 & E & Hs). rewrite E in H.
  apply (decode_frame f) in H; [|intros key w Hin Hk; apply json_field_spec in Hk as [_ Hk]; by eapply Hafter].
  destruct f, v; cbn in *; try done; try congruence. rewrite H. done.
Qed.
Print Assumptions C113_json_partial.

Theorem C113_absent_partial f doc mc :
  json_decode doc = Some mc -> (forall key v, (key, v) ∈ doc -> ~ names key f) -> same_setting mc GetMetricConfig f.
Proof.
  intros H Hno. apply (decode_frame f) in H; [done|]. intros key v Hin Hk. apply json_field_spec in Hk as [_ Hk]. by eapply Hno.
Qed.
Print Assumptions C113_absent_partial.

(** A document that sets just one of these settings is accepted. *)
Theorem C113_accepted_partial f v : ~ shared_tag f -> fits_setting f v ->
  exists mc, json_decode [(tag f, v)] = Some mc /\ setting_is mc f v /\ forall g, g <> f -> same_setting mc GetMetricConfig g.
Proof.
  intros Hf Hv. unfold json_decode. cbn [decode_into]. rewrite own_field by done. destruct (set_ok f v GetMetricConfig Hv) as (mc & E & Hs).
  rewrite E. exists mc. split; [done|]. split; [done|]. intros g Hg. by eapply set_frame.
Qed.
Print Assumptions C113_accepted_partial.

(** A document is accepted if every key that names a setting comes with a value of the
    setting's type or with null; and null leaves a number or a string as it is. *)
Theorem C113_documents_partial doc :
  (forall key v f, (key, v) ∈ doc -> names key f -> v = JNull \/ fits_setting f v) ->
  exists mc, json_decode doc = Some mc.
Proof.
  unfold json_decode. generalize GetMetricConfig. induction doc as [|[key v] doc IH]; intros mc H; [by exists mc|]. cbn [decode_into].
  assert (H' : forall key v f, (key, v) ∈ doc -> names key f -> v = JNull \/ fits_setting f v) by (intros; eapply H; [by right|done]).
  destruct (json_field key) as [f|] eqn:E; [|by apply IH]. apply json_field_spec in E as [_ E].
  destruct (H key v f (elem_of_list_here _ _) E) as [->|Hv].
  - destruct mc. destruct f; cbn; by apply IH.
  - destruct (set_ok f v mc Hv) as (mc' & -> & _). by apply IH.
Qed.
Print Assumptions C113_documents_partial.
Theorem C113_null_partial f key before after : f <> SEnables -> f <> SLevelInterval -> names key f ->
  json_decode (before ++ (key, JNull) :: after) = json_decode (before ++ after).
Proof.
  intros H1 H2 Hk. unfold json_decode. rewrite !decode_app. destruct (decode_into _ before) as [mc|]; [|done]. cbn [decode_into].
  destruct (json_field key) as [g|] eqn:E; [|done].
  assert (Hg : g <> SEnables /\ g <> SLevelInterval).
  { apply json_field_spec in E as [_ E]. unfold names in *.
    assert (Heq : EqualFold (tag f) (tag g) = true).
    { clear -E Hk. revert key E Hk. generalize (tag f) (tag g). intros a. induction a as [|x a IH]; intros b [|k key] E Hk; destruct b as [|y b]; cbn in *; try done.
      apply andb_true_iff in E as [E1 E2]. apply andb_true_iff in Hk as [K1 K2]. rewrite (IH b key) by done.
      apply Ascii.eqb_eq in E1, K1. rewrite K1, E1, Ascii.eqb_refl. done. }
    split; intros ->; destruct f; try done; by vm_compute in Heq. }
  destruct mc, Hg. by destruct g.
Qed.
Print Assumptions C113_null_partial.

(** C113 is false: the maximal number of metrics and of addons carry the same tag.  No JSON
    document whatsoever can set either of them, the defaults are always in force; and no YAML
    document can be decoded. *)
Theorem C113_refuted :
  (forall doc mc, json_decode doc = Some mc -> GetMaxMetricCountPerRegistry mc = 5000 /\ GetMaxCompassAddonCount mc = 20) /\
  yaml_decodable = false.
Proof.
  split; [|vm_compute; reflexivity]. intros doc mc H.
  assert (Hno : forall f, shared_tag f -> forall key v, (key, v) ∈ doc -> json_field key <> Some f).
  { intros f Hf key v _ Hk. apply json_field_spec in Hk as [Hk _]. unfold json_fields in Hk. apply elem_of_list_filter in Hk as [Hk _].
    destruct Hf as [-> | ->]; by vm_compute in Hk. }
  pose proof (decode_frame SMaxMetricCountPerRegistry _ _ _ H (Hno _ (or_introl eq_refl))) as H1.
  pose proof (decode_frame SMaxCompassAddonCount _ _ _ H (Hno _ (or_intror eq_refl))) as H2.
  cbn in H1, H2. unfold GetMaxMetricCountPerRegistry, GetMaxCompassAddonCount. by rewrite H1, H2.
Qed.
Print Assumptions C113_refuted.

(** A document that is accepted, and what it sets; the last two entries are lost. *)
Example C113_witness :
  (mc ← json_decode [("manager", JStr "m"); ("Bucket_Count", JInt 7); ("unknown", JStr "x"); ("bucket_count", JInt 30);
     ("global_interval", JInt 5000000000); ("max_metric_count_per_registry", JInt 100); ("MaxCompassAddonCount", JInt 3)];
   Some (Manager mc, BucketCount mc, GlobalInterval mc, MaxMetricCountPerRegistry mc, MaxCompassAddonCount mc))
  = Some ("m", 30, 5000000000, 0, 0).
Proof. vm_compute. reflexivity. Qed.
