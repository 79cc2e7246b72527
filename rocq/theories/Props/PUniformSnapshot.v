(** C42 - C46: the uniform snapshot.  Float results are binary64, rounded to
    nearest even after every operation (no fused multiply-add). *)
From Verif.Go Require Import GoInt GoFloat.
From Verif.Model Require Import UniformSnapshot.
From Verif.Spec Require Import BucketSpec SnapshotSpec.
From Verif.Proofs Require Import UniformSnapshotProofs.
From Coq Require Import Reals Lra.
From Flocq Require Import Core.Core IEEE754.BinarySingleNaN.
Local Open Scope Z_scope.

(** C42.  Values sorted, size, min, max. *)
Theorem C42_sorted : forall values,
  let u := NewUniformSnapshot values in
  (exists l, us_GetValues u = (l, false) /\ ascending l /\ Permutation l values) /\
  us_Size u = (Z.of_nat (length values), false) /\
  (values = [] -> us_GetMin u = Ok (0, false) /\ us_GetMax u = Ok (0, false)) /\
  (values <> [] -> exists mn mx, us_GetMin u = Ok (mn, false) /\ us_GetMax u = Ok (mx, false) /\
     is_min mn values /\ is_max mx values).
Proof.
  intros values. cbv zeta. pose proof (sort_perm values) as P. pose proof (sort_ascending values) as S. split_and!.
  - eexists. split; [done|]. split; done.
  - unfold us_Size. cbn [NewUniformSnapshot us_values]. by rewrite P.
  - intros ->. done.
  - intros Hne.
    assert (us_values (NewUniformSnapshot values) <> []) as Hne'.
    { cbn [NewUniformSnapshot us_values]. intros E. rewrite E in P. apply Permutation_nil_l in P. congruence. }
    destruct (GetMin_spec (NewUniformSnapshot values) S Hne') as (mn & A1 & [A2 A3] & _).
    destruct (GetMax_spec (NewUniformSnapshot values) S Hne') as (mx & B1 & [B2 B3] & _).
    cbn [NewUniformSnapshot us_values] in *.
    exists mn, mx. split; [done|]. split; [done|]. split; split.
    + by rewrite <- P.
    + intros x Hx. apply A3. by rewrite P.
    + by rewrite <- P.
    + intros x Hx. apply B3. by rewrite P.
Qed.
Print Assumptions C42_sorted.

(** C42.  The snapshot has an array of its own: writing to any other array - the
    source, anything else that existed, a result of GetValues - leaves it as it
    is. *)
Lemma writes_other mem (ws : list (slice * nat * Z)) s :
  Forall (fun w => w.1.1 <> s) ws ->
  fold_left (fun m w => mem_write m w.1.1 w.1.2 w.2) ws mem !! s = mem !! s.
Proof.
  revert mem. induction ws as [|[[s' i] v] ws IH]; intros mem HF; [done|]. apply Forall_cons in HF as [H1 H2].
  cbn [fold_left fst snd] in *. rewrite IH by done. unfold mem_write. destruct (mem !! s') eqn:E; [|done].
  by rewrite list_lookup_insert_ne.
Qed.
Theorem C42_own_copy : forall mem src values mem1 snap mem2 got (ws1 ws2 : list (slice * nat * Z)),
  let write m ws := fold_left (fun m w => mem_write m w.1.1 w.1.2 w.2) ws m in
  mem !! src = Some values -> mem_NewUniformSnapshot mem src = Some (mem1, snap) ->
  (* any writes to arrays that existed before the snapshot was taken *)
  Forall (fun w => (w.1.1 < length mem)%nat) ws1 ->
  mem_GetValues (write mem1 ws1) snap = Some (mem2, got) ->
  (* any writes to those or to what GetValues returned *)
  Forall (fun w => (w.1.1 < length mem)%nat \/ w.1.1 = got) ws2 ->
  mem2 !! got = Some (us_values (NewUniformSnapshot values)) /\
  write mem2 ws2 !! snap = Some (us_values (NewUniformSnapshot values)).
Proof.
  intros mem src values mem1 snap mem2 got ws1 ws2. cbv zeta. intros Hsrc Hnew HF1 Hget HF2.
  unfold mem_NewUniformSnapshot in Hnew. rewrite Hsrc in Hnew. cbn in Hnew. injection Hnew as <- <-.
  unfold mem_GetValues in Hget.
  assert (forall ws m, length (fold_left (fun m (w : slice * nat * Z) => mem_write m w.1.1 w.1.2 w.2) ws m) = length m) as Hlen.
  { clear. induction ws as [|w ws IH]; intros m; [done|]. cbn [fold_left]. rewrite IH. unfold mem_write.
    destruct (m !! w.1.1); [by rewrite insert_length|done]. }
  rewrite writes_other in Hget.
  2:{ eapply Forall_impl; [done|]. intros w Hw; cbv beta in *; lia. }
  rewrite (list_lookup_middle mem [] (sort_int64 values)) in Hget by done. cbn [mbind option_bind] in Hget. injection Hget as <- <-.
  rewrite Hlen, app_length in *. cbn [length] in *.
  set (m1 := fold_left _ ws1 _) in *. assert (length m1 = length mem + 1)%nat as L1 by (unfold m1; rewrite Hlen, app_length; done).
  assert (m1 !! length mem = Some (sort_int64 values)) as Hs.
  { unfold m1. rewrite writes_other; [by apply list_lookup_middle|]. eapply Forall_impl; [done|]. intros w Hw; cbv beta in *; lia. }
  split.
  - by apply list_lookup_middle.
  - rewrite writes_other.
    + rewrite lookup_app_l by lia. done.
    + eapply Forall_impl; [exact HF2|]. intros w Hw; cbv beta in *; lia.
Qed.
Print Assumptions C42_own_copy.

Definition demo_values := [30; -7; 12; 30; 5].
Example C42_case : us_GetValues (NewUniformSnapshot demo_values) = ([-7; 5; 12; 30; 30], false).
Proof. vm_compute. reflexivity. Qed.
Example C42_copy_case :
  option_map (fun x => fold_left (fun m (w : slice * nat * Z) => mem_write m w.1.1 w.1.2 w.2) [(0%nat, 1%nat, 99)] x.1)
    (mem_NewUniformSnapshot [demo_values] 0) = Some [[30; 99; 12; 30; 5]; [-7; 5; 12; 30; 30]].
Proof. vm_compute. reflexivity. Qed.

(** C43. *)
Theorem C43_rejects : forall u q, ~ valid_quantile q <-> exists x, us_GetValue u q = Ok (x, true).
Proof.
  intros u q. rewrite valid_cases. unfold us_GetValue.
  destruct (flt q f0 || flt f1 q || fisnan q).
  { split; [intros _; by eexists|intros _; discriminate]. }
  split; [intros H; by destruct H|]. intros [x Hx]. exfalso. unfold us_Size in Hx. cbn [fst] in Hx.
  unfold mbind, res_bind in Hx. cbv zeta in Hx. repeat case_match; discriminate Hx.
Qed.
Print Assumptions C43_rejects.

Theorem C43_range : forall values q,
  valid_quantile q -> small (2 ^ 52) values -> Z.of_nat (length values) <= 2 ^ 52 ->
  let u := NewUniformSnapshot values in
  (values = [] -> us_GetValue u q = Ok (f0, false)) /\
  (forall mn mx, is_min mn values -> is_max mx values ->
     exists x, us_GetValue u q = Ok (x, false) /\ ffinite x = true /\ (IZR mn <= RF x <= IZR mx)%R).
Proof.
  intros values q Hq Hs Hn. cbv zeta. split.
  - intros ->. unfold us_GetValue. rewrite (proj1 (valid_cases q) Hq). done.
  - intros mn mx [M1 M2] [X1 X2]. pose proof (sort_perm values) as P. apply GetValue_bounds; try done.
    + apply sort_ascending.
    + unfold small. cbn [NewUniformSnapshot us_values]. by rewrite P.
    + cbn [NewUniformSnapshot us_values]. by rewrite P.
    + split; cbn [NewUniformSnapshot us_values]; [by rewrite P|]. intros x. rewrite P. apply M2.
    + split; cbn [NewUniformSnapshot us_values]; [by rewrite P|]. intros x. rewrite P. apply X2.
Qed.
Print Assumptions C43_range.

Theorem C43_ends : forall values q,
  ffinite q = true -> values <> [] -> Z.of_nat (length values) <= 2 ^ 52 ->
  let u := NewUniformSnapshot values in
  (RF q = 0%R -> exists mn, is_min mn values /\ us_GetValue u q = Ok (f_of_int mn, false)) /\
  (RF q = 1%R -> exists mx, is_max mx values /\ us_GetValue u q = Ok (f_of_int mx, false)).
Proof.
  intros values q F Hne Hn. cbv zeta. pose proof (sort_perm values) as P. pose proof (sort_ascending values) as S.
  assert (us_values (NewUniformSnapshot values) <> []) as Hne'.
  { cbn [NewUniformSnapshot us_values]. intros E. rewrite E in P. apply Permutation_nil_l in P. congruence. }
  assert (Z.of_nat (length (us_values (NewUniformSnapshot values))) <= 2 ^ 52) as Hn'.
  { cbn [NewUniformSnapshot us_values]. by rewrite P. }
  destruct (GetMin_spec (NewUniformSnapshot values) S Hne') as (mn & A1 & [A2 A3] & A4).
  destruct (GetMax_spec (NewUniformSnapshot values) S Hne') as (mx & B1 & [B2 B3] & B4).
  split; intros E.
  - exists mn. split; [|by apply GetValue_0]. cbn [NewUniformSnapshot us_values] in A2, A3.
    split; [by rewrite <- P|]. intros x Hx. apply A3. by rewrite P.
  - exists mx. split; [|by apply GetValue_1]. cbn [NewUniformSnapshot us_values] in B2, B3.
    split; [by rewrite <- P|]. intros x Hx. apply B3. by rewrite P.
Qed.
Print Assumptions C43_ends.

(** C44. *)
Theorem C44_monotone : forall values q1 q2,
  valid_quantile q1 -> valid_quantile q2 -> (RF q1 <= RF q2)%R ->
  small (2 ^ 52) values -> Z.of_nat (length values) <= 2 ^ 52 ->
  let u := NewUniformSnapshot values in
  exists x1 x2, us_GetValue u q1 = Ok (x1, false) /\ us_GetValue u q2 = Ok (x2, false) /\ (RF x1 <= RF x2)%R.
Proof.
  intros values q1 q2 V1 V2 Hle Hs Hn. cbv zeta. pose proof (sort_perm values) as P. apply GetValue_mono; try done.
  - apply sort_ascending.
  - unfold small. cbn [NewUniformSnapshot us_values]. by rewrite P.
  - cbn [NewUniformSnapshot us_values]. by rewrite P.
Qed.
Print Assumptions C44_monotone.

Example C43_case : valid_quantile (fdiv (f_of_int 99) (f_of_int 100)) /\ small (2 ^ 52) demo_values.
Proof.
  split; [apply valid_cases; vm_compute; reflexivity|]. repeat constructor; cbn; lia.
Qed.
(* between the 5th and ... : 0.5*6 = 3 -> the third; 0.75*6 = 4.5 -> half way between 30 and 30 *)
Example C44_case :
  (match us_GetMedian (NewUniformSnapshot demo_values) with
   | Ok (x, false) => feq x (f_of_int 12) | _ => false end) = true /\
  (match us_GetValue (NewUniformSnapshot [1; 2]) (fdiv f1 (f_of_int 2)) with
   | Ok (x, false) => feq x (fdiv (f_of_int 3) (f_of_int 2)) | _ => false end) = true.
Proof. split; vm_compute; reflexivity. Qed.

(** C45. *)
Theorem C45_mean : forall values,
  sum_abs values <= 2 ^ 53 -> Z.of_nat (length values) <= 2 ^ 53 ->
  let u := NewUniformSnapshot values in
  (values = [] -> us_GetMean u = (f0, false)) /\
  (values <> [] -> exists x, us_GetMean u = (x, false) /\ ffinite x = true /\
     RF x = rnd (IZR (sumZ values) / IZR (Z.of_nat (length values))) /\
     forall mn mx, is_min mn values -> is_max mx values -> (IZR mn <= RF x <= IZR mx)%R).
Proof.
  intros values Hs Hn. cbv zeta. pose proof (sort_perm values) as P. split; [by intros ->|]. intros Hne.
  assert (forall l l', Permutation l l' -> sumZ l = sumZ l') as Hsum.
  { clear. intros l l' Hp. unfold sumZ. induction Hp; cbn; lia. }
  assert (sum_abs (sort_int64 values) = sum_abs values) as Ea by (unfold sum_abs; apply Hsum; by rewrite P).
  destruct (GetMean_spec (NewUniformSnapshot values)) as (x & E & F & R & B); cbn [NewUniformSnapshot us_values] in *.
  - intros E. rewrite E in P. apply Permutation_nil_l in P. congruence.
  - lia.
  - by rewrite P.
  - exists x. split; [done|]. split; [done|]. split.
    + by rewrite R, (Hsum _ _ P), P.
    + intros mn mx [M1 M2] [X1 X2]. apply B; (split; [by rewrite P|]); intros y; rewrite P; auto.
Qed.
Print Assumptions C45_mean.
Example C45_case : sum_abs demo_values <= 2 ^ 53 /\ (match us_GetMean (NewUniformSnapshot demo_values) with (x, e) => feq x (f_of_int 14) && negb e end) = true.
Proof. split; [vm_compute; discriminate|vm_compute; reflexivity]. Qed.

(** C46. *)
Theorem C46_stddev : forall values,
  sum_abs values <= 2 ^ 53 -> Z.of_nat (length values) <= 2 ^ 53 ->
  exists x, us_GetStdDev (NewUniformSnapshot values) = (x, false) /\ ffinite x = true /\ (0 <= RF x)%R /\
    ((length values <= 1)%nat -> RF x = 0%R) /\ (forall v, Forall (fun y => y = v) values -> RF x = 0%R).
Proof.
  intros values Hs Hn. pose proof (sort_perm values) as P.
  assert (sum_abs (sort_int64 values) = sum_abs values) as Ea.
  { unfold sum_abs, sumZ. clear -P. induction P; cbn; try lia. }
  destruct (GetStdDev_spec (NewUniformSnapshot values)) as (x & E & F & R & B1 & B2); cbn [NewUniformSnapshot us_values] in *.
  - lia.
  - by rewrite P.
  - exists x. split_and!; try done.
    + intros H. apply B1. by rewrite P.
    + intros v HF. apply (B2 v). by rewrite P.
Qed.
Print Assumptions C46_stddev.
Example C46_case : (match us_GetStdDev (NewUniformSnapshot [1; 2; 3]) with (x, e) => feq x f1 && negb e end) = true.
Proof. vm_compute. reflexivity. Qed.
