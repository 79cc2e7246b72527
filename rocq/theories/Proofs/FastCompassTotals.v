(** Numbers of Records and what getters report. *)
From Verif.Go Require Import GoInt GoConc.
From Verif.Model Require Import Counter BucketQueue BucketCounter FastCompass FastCompassConc FastCompassFine.
From Verif.Spec Require Import BucketSpec FastCompassSpec FastCompassConcSpec FastCompassFineSpec SystemSpec.
From Verif.Proofs Require Import BucketHist FastCompassProps CompassFineParts FastCompassConcProofs FastCompassFineMain.
Local Open Scope Z_scope.

Lemma join_cons' {A} (x : list A) l : mjoin (x :: l) = x ++ mjoin l.
Proof. done. Qed.
Notation as_call := (fun e : nat * fc_record => (rc_duration e.2, rc_category e.2)).
(** The goroutines' parts of a log are the log. *)
Lemma join_insert_snoc {A} (ls : list (list A)) k x l : ls !! k = Some l -> mjoin (<[k := l ++ [x]]> ls) ≡ₚ mjoin ls ++ [x].
Proof.
  revert k. induction ls as [|l0 ls IH]; intros k Hk; [done|]. destruct k as [|k].
  - injection Hk as ->. change (<[0%nat := l ++ [x]]> (l :: ls)) with ((l ++ [x]) :: ls). rewrite !join_cons'. rewrite <- !app_assoc. apply Permutation_app_head, Permutation_app_comm.
  - change (<[S k := l ++ [x]]> (l0 :: ls)) with (l0 :: <[k := l ++ [x]]> ls). rewrite !join_cons'. rewrite <- app_assoc. apply Permutation_app_head. by apply IH.
Qed.
Lemma log_parts n log : (forall e, e ∈ log -> (e.1 < n)%nat) -> mjoin ((fun k => log_of k log) <$> seq 0 n) ≡ₚ as_call <$> log.
Proof.
  induction log as [|[k r] log IH] using rev_ind; intros H.
  - assert (E : mjoin ((fun k => log_of k []) <$> seq 0 n) = []) by (generalize 0%nat; clear; induction n as [|n IH]; intros a; [done|]; cbn [seq]; rewrite fmap_cons, join_cons', IH; done). by rewrite E.
  - rewrite fmap_app. cbn [fmap list_fmap fst snd]. assert (Hk : (k < n)%nat) by (apply (H (k, r)); set_solver). rewrite <- IH by (intros e He; apply H; set_solver).
    assert (E : ((fun k' => log_of k' (log ++ [(k, r)])) <$> seq 0 n) = <[k := log_of k log ++ [(rc_duration r, rc_category r)]]> ((fun k' => log_of k' log) <$> seq 0 n)).
    { apply list_eq. intros j. rewrite list_lookup_fmap. destruct (decide (j = k)) as [->|Hne].
      - rewrite list_lookup_insert by (by rewrite fmap_length, seq_length). rewrite lookup_seq_lt by done. cbn. by rewrite log_of_snoc, decide_True.
      - rewrite list_lookup_insert_ne by done. rewrite list_lookup_fmap. destruct (seq 0 n !! j) as [x|] eqn:Ej; [|done]. cbn. apply lookup_seq in Ej as [-> _]. cbn. rewrite log_of_snoc, decide_False by congruence. by rewrite app_nil_r. }
    rewrite E. apply join_insert_snoc. rewrite list_lookup_fmap, lookup_seq_lt by done. done.
Qed.
Lemma prefixes_sub {A} (xs ys : list (list A)) : Forall2 prefix xs ys -> mjoin xs ⊆+ mjoin ys.
Proof.
  induction 1 as [|x y xs ys [k ->] _ IH]; [done|]. rewrite !join_cons'. rewrite <- app_assoc. apply submseteq_app; [done|]. by apply submseteq_inserts_l.
Qed.

(** The Records of a category. *)
Lemma records_of_calls cat recs : Forall valid_record recs -> (fun r => (rc_duration r, rc_category r)) <$> records_of cat recs = of_category cat ((fun r => (rc_duration r, rc_category r)) <$> recs).
Proof.
  unfold records_of, of_category. induction 1 as [|r recs Hr _ IH]; [done|]. rewrite fmap_cons, !filter_cons. cbn [snd].
  destruct (decide (rc_category r = cat)) as [E|E]; [rewrite decide_True by done; rewrite fmap_cons; by f_equal|by rewrite decide_False by tauto].
Qed.
Lemma of_category_sub cat l1 l2 : l1 ⊆+ l2 -> of_category cat l1 ⊆+ of_category cat l2.
Proof. intros H. apply submseteq_Permutation in H as [k E]. unfold of_category. rewrite E, filter_app. by apply submseteq_inserts_r. Qed.
Lemma ms_sub l1 l2 : Forall (fun x : Z * string => 0 <= x.1) l2 -> l1 ⊆+ l2 -> sumZ ((fun x => x.1 / 1000000) <$> l1) <= sumZ ((fun x => x.1 / 1000000) <$> l2).
Proof.
  intros H Hs. apply submseteq_Permutation in Hs as [k E]. rewrite E in H. apply Forall_app in H as [_ H].
  assert (E' : (fun x : Z * string => x.1 / 1000000) <$> l2 ≡ₚ (fun x => x.1 / 1000000) <$> (l1 ++ k)) by (by rewrite E).
  assert (P : forall a b : list Z, a ≡ₚ b -> sumZ a = sumZ b) by (induction 1; rewrite ?sumZ_cons; lia || done).
  rewrite (P _ _ E'), fmap_app, sumZ_app. assert (0 <= sumZ ((fun x : Z * string => x.1 / 1000000) <$> k)); [|lia].
  clear -H. induction H as [|x l Hx _ IH]; [done|]. rewrite fmap_cons, sumZ_cons. assert (0 <= x.1 / 1000000) by (apply Z.div_pos; lia). lia.
Qed.

(** Values at keys. *)
Lemma by_latest_app lo I h1 h2 : exists lo', by_latest lo I (h1 ++ h2) = by_latest lo I h1 ++ by_latest lo' I h2.
Proof.
  revert lo. induction h1 as [|[t n] h1 IH]; intros lo; [by exists lo|]. cbn [app by_latest]. destruct (IH (Z.max lo (trunc_key I t))) as [lo' E]. exists lo'. by rewrite E.
Qed.
Lemma sum_at_app k l1 l2 : sum_at k (l1 ++ l2) = sum_at k l1 + sum_at k l2.
Proof. unfold sum_at. by rewrite filter_app, fmap_app, sumZ_app. Qed.
Lemma by_latest_amounts lo I h : Forall (fun u : Z * Z => 0 <= u.2) h -> Forall (fun u => 0 <= u.2) (by_latest lo I h).
Proof. intros H. revert lo. induction H as [|[t n] h Hn _ IH]; intros lo; [constructor|]. cbn. constructor; [done|apply IH]. Qed.
Lemma sum_at_prefix lo I h1 h2 k : Forall (fun u : Z * Z => 0 <= u.2) (h1 ++ h2) -> sum_at k (by_latest lo I h1) <= sum_at k (by_latest lo I (h1 ++ h2)).
Proof.
  intros H. apply Forall_app in H as [_ H]. destruct (by_latest_app lo I h1 h2) as [lo' ->]. rewrite sum_at_app.
  pose proof (sum_at_nonneg k _ (by_latest_amounts lo' I h2 H)). lia.
Qed.
Lemma sum_at_cons' k u l : sum_at k (u :: l) = (if decide (u.1 = k) then u.2 else 0) + sum_at k l.
Proof. unfold sum_at. rewrite filter_cons. destruct (decide (u.1 = k)); [rewrite fmap_cons, sumZ_cons; done|done]. Qed.
Lemma keys_total (ks : list Z) l : NoDup ks -> Forall (fun u : Z * Z => 0 <= u.2) l -> sumZ ((fun k => sum_at k l) <$> ks) <= sumZ l.*2.
Proof.
  intros Hks. induction 1 as [|[x n] l Hn Hl IH].
  - cbn. clear Hks. induction ks as [|k ks IHk]; [done|]. rewrite fmap_cons, sumZ_cons. change (sum_at k []) with 0. lia.
  - cbn [snd] in Hn. rewrite fmap_cons, sumZ_cons. cbn [snd].
    assert (G : sumZ ((fun k => sum_at k ((x, n) :: l)) <$> ks) <= n + sumZ ((fun k => sum_at k l) <$> ks) /\ (x ∉ ks -> sumZ ((fun k => sum_at k ((x, n) :: l)) <$> ks) = sumZ ((fun k => sum_at k l) <$> ks))); [|lia].
    clear IH. induction Hks as [|k ks Hk _ [I1 I2]]; [split; [cbn; lia|done]|]. rewrite !fmap_cons, !sumZ_cons, sum_at_cons'. cbn [fst snd]. destruct (decide (x = k)) as [->|Hne].
    + specialize (I2 Hk). split; [lia|]. intros H. exfalso. apply H. by left.
    + split; [lia|]. intros H. rewrite I2; [lia|]. intros H'. apply H. by right.
Qed.
Lemma values_total (m : gmap Z Z) l : Forall (fun u : Z * Z => 0 <= u.2) l -> (forall x v, m !! x = Some v -> v <= sum_at x l) -> sumZ (map_to_list m).*2 <= sumZ l.*2.
Proof.
  intros Hl H. etransitivity; [|apply (keys_total (map_to_list m).*1 l); [apply NoDup_fst_map_to_list|done]].
  assert (G : forall kv, Forall (fun u => m !! u.1 = Some u.2) kv -> sumZ kv.*2 <= sumZ ((fun k => sum_at k l) <$> kv.*1)).
  { induction 1 as [|[x v] kv Hx _ IH]; [cbn; lia|]. rewrite !fmap_cons, !sumZ_cons. cbn [fst snd] in *. specialize (H x v Hx). lia. }
  apply G. apply Forall_forall. intros [x v] Hx. by apply elem_of_map_to_list in Hx.
Qed.
(** Records all in one interval. *)
Lemma by_latest_one I K h : -1000 <= K -> Forall (fun u : Z * Z => trunc_key I u.1 = K) h -> forall lo, lo <= K -> by_latest lo I h = (fun u => (K, u.2)) <$> h.
Proof.
  intros HK. induction 1 as [|[t n] h Ht _ IH]; intros lo Hlo; [done|]. cbn [fst] in Ht. cbn [by_latest]. rewrite Ht. rewrite Z.max_r by lia. rewrite IH by lia. done.
Qed.
Lemma sum_at_one K (h : list (Z * Z)) : sum_at K ((fun u => (K, u.2)) <$> h) = sumZ h.*2.
Proof. induction h as [|u h IH]; [done|]. rewrite fmap_cons, sum_at_cons', fmap_cons, sumZ_cons. cbn [fst snd]. rewrite decide_True by done. lia. Qed.
Lemma invocations_total recs : sumZ (invocations recs).*2 = Z.of_nat (length recs).
Proof. unfold invocations. induction recs as [|r recs IH]; [done|]. rewrite !fmap_cons, sumZ_cons, IH. cbn [snd length]. lia. Qed.
Lemma durations_total recs : (durations_ms recs).*2 = (fun x => x.1 / 1000000) <$> ((fun r => (rc_duration r, rc_category r)) <$> recs).
Proof. unfold durations_ms. by rewrite !fmap_fmap. Qed.
Lemma invocations_amounts recs : Forall (fun u : Z * Z => 0 <= u.2) (invocations recs).
Proof. unfold invocations. apply Forall_fmap, Forall_forall. intros r _. cbn. lia. Qed.
Lemma durations_amounts recs : Forall valid_record recs -> Forall (fun u : Z * Z => 0 <= u.2) (durations_ms recs).
Proof. unfold durations_ms. intros H. apply Forall_fmap. eapply Forall_impl; [exact H|]. intros r [Hr _]. cbn. apply Z.div_pos; lia. Qed.
