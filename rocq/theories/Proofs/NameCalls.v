(** Several calls of HashKey per goroutine: every execution is one of as many goroutines as
    there are calls. *)
From Verif.Go Require Import GoInt GoConc.
From Verif.Model Require Import MetricName.
From Verif.Spec Require Import RaceSpec NameSpec NameShareSpec.
From Verif.Proofs Require Import NameProofs.
Local Open Scope Z_scope.

Lemma join_cons {A} (l : list A) ls : mjoin (l :: ls) = l ++ mjoin ls.
Proof. done. Qed.

Lemma join_insert {A} (ls : list (list A)) i l k x : ls !! i = Some l -> (k < length l)%nat ->
  exists m, mjoin ls !! m = l !! k /\ mjoin (<[i := <[k := x]> l]> ls) = <[m := x]> (mjoin ls).
Proof.
  revert i. induction ls as [|l0 ls IH]; intros i Hi Hk; [done|]. destruct i as [|i]; cbn in Hi.
  - injection Hi as ->. exists k. cbn. rewrite lookup_app_l by done. split; [done|]. by rewrite insert_app_l.
  - destruct (IH i Hi Hk) as (m & H1 & H2). exists (length l0 + m)%nat. split.
    + change (mjoin (l0 :: ls)) with (l0 ++ mjoin ls). rewrite lookup_app_r by lia. by replace (length l0 + m - length l0)%nat with m by lia.
    + change (mjoin (<[S i := <[k := x]> l]> (l0 :: ls))) with (l0 ++ mjoin (<[i := <[k := x]> l]> ls)).
      rewrite H2. change (mjoin (l0 :: ls)) with (l0 ++ mjoin ls). by rewrite insert_app_r.
Qed.

(** Where the elements of two different lists are. *)
Lemma join_lookup2 {A} (ls : list (list A)) i j l l' k k' x y : i <> j -> ls !! i = Some l -> ls !! j = Some l' ->
  l !! k = Some x -> l' !! k' = Some y -> exists m m', m <> m' /\ mjoin ls !! m = Some x /\ mjoin ls !! m' = Some y.
Proof.
  revert i j. induction ls as [|l0 ls IH]; intros i j Hne Hi Hj Hk Hk'; [done|]. destruct i as [|i], j as [|j]; cbn in Hi, Hj; [done|..].
  - injection Hi as ->. pose proof (lookup_lt_Some _ _ _ Hk).
    assert (Hy : y ∈ mjoin ls) by (apply elem_of_list_join; exists l'; split; apply elem_of_list_lookup; eauto).
    apply elem_of_list_lookup in Hy as [m Hm]. exists k, (length l + m)%nat. rewrite join_cons.  rewrite lookup_app_l by done.
    rewrite lookup_app_r by lia. replace (length l + m - length l)%nat with m by lia. repeat split; [lia|exact Hk|exact Hm].
  - injection Hj as ->. pose proof (lookup_lt_Some _ _ _ Hk').
    assert (Hx : x ∈ mjoin ls) by (apply elem_of_list_join; exists l; split; apply elem_of_list_lookup; eauto).
    apply elem_of_list_lookup in Hx as [m Hm]. exists (length l' + m)%nat, k'. rewrite join_cons. rewrite (lookup_app_l l' _ k') by done.
    rewrite lookup_app_r by lia. replace (length l' + m - length l')%nat with m by lia. repeat split; [lia|exact Hm|exact Hk'].
  - destruct (IH i j ltac:(congruence) Hi Hj Hk Hk') as (m & m' & H1 & H2 & H3). exists (length l0 + m)%nat, (length l0 + m')%nat. rewrite !join_cons.
    rewrite !lookup_app_r by lia. replace (length l0 + m - length l0)%nat with m by lia. replace (length l0 + m' - length l0)%nat with m' by lia. split; [lia|]. by rewrite H2, H3.
Qed.

Lemma join_map {A B} (f : A -> B) (ls : list (list A)) : f <$> mjoin ls = mjoin (map (map f) ls).
Proof. induction ls as [|l ls IH]; [done|]. cbn [map]. by rewrite !join_cons, fmap_app, IH. Qed.

Section calls.
Context (key : string) (tags : gmap string string).
Notation step := (once_step key tags).

(** The call it is in. *)
Lemma calls_step_inv s calls s' calls' : calls_step key tags s calls = Some (s', calls') ->
  exists k t t', calls !! k = Some t /\ step s t = Some (s', t') /\ calls' = <[k := t']> calls.
Proof.
  revert calls'. induction calls as [|t calls IH]; intros calls' H; [done|]. cbn in H.
  assert (Hr : (exists h, ot_pc t = ORet h) \/ (match step s t with Some (s', t') => Some (s', t' :: calls) | None => None end) = Some (s', calls')) by (destruct (ot_pc t); eauto).
  destruct Hr as [[h Eh]|Hr].
  - rewrite Eh in H. destruct (calls_step key tags s calls) as [[s1 c1]|]; [|done]. injection H as -> <-.
    destruct (IH c1 eq_refl) as (k & u & u' & H1 & H2 & ->). exists (S k), u, u'. done.
  - destruct (step s t) as [[s1 t1]|] eqn:Es; [|done]. injection Hr as -> <-. exists 0%nat, t, t1. done.
Qed.
Lemma calls_next_inv s calls a : a ∈ calls_next s calls -> exists k t, calls !! k = Some t /\ a ∈ once_next s t.
Proof.
  induction calls as [|t calls IH]; intros H; [by apply elem_of_nil in H|]. cbn in H.
  assert (Hr : (exists h, ot_pc t = ORet h) \/ a ∈ once_next s t) by (destruct (ot_pc t); eauto).
  destruct Hr as [[h Eh]|Hr].
  - rewrite Eh in H. destruct (IH H) as (k & u & H1 & H2). by exists (S k), u.
  - by exists 0%nat, t.
Qed.
(** The first call that has not returned decides whether it can go on. *)
Lemma calls_step_none s calls : calls_step key tags s calls = None ->
  (forall t, t ∈ calls -> exists h, ot_pc t = ORet h) \/
  exists before t after, calls = before ++ t :: after /\ (forall u, u ∈ before -> exists h, ot_pc u = ORet h) /\ step s t = None /\ (forall h, ot_pc t <> ORet h).
Proof.
  induction calls as [|t calls IH]; intros H; [left; intros t Ht; by apply elem_of_nil in Ht|]. cbn in H.
  assert (Hr : (exists h, ot_pc t = ORet h) \/ ((forall h, ot_pc t <> ORet h) /\ (match step s t with Some (s', t') => Some (s', t' :: calls) | None => None end) = None)) by (destruct (ot_pc t); eauto).
  destruct Hr as [[h Eh]|[Hn Hr]].
  - rewrite Eh in H. destruct (calls_step key tags s calls) as [[s1 c1]|]; [done|]. destruct (IH eq_refl) as [IH'|(b & u & a & -> & H2 & H3 & H4)].
    + left. intros u Hu. apply elem_of_cons in Hu as [->|Hu]; eauto.
    + right. exists (t :: b), u, a. split; [done|]. split; [|done]. intros w Hw. apply elem_of_cons in Hw as [->|Hw]; eauto.
  - destruct (step s t) as [[s1 t1]|] eqn:Es; [done|]. right. exists [], t, calls. split; [done|]. split; [|done]. intros u Hu. by apply elem_of_nil in Hu.
Qed.

Lemma calls_flat progs sched : exists sched',
  once_crun key tags (mjoin progs) sched' = Config (shared (calls_crun key tags progs sched)) (mjoin (threads (calls_crun key tags progs sched))).
Proof.
  unfold calls_crun. apply (crun_inv (calls_step key tags) (fun s _ => s)
    (fun c => exists sched', once_crun key tags (mjoin progs) sched' = Config (shared c) (mjoin (threads c)))).
  - exists []. unfold once_crun. unfold crun. cbn [fold_left shared threads]. f_equal. apply join_map.
  - cbn. intros s ts i calls s' calls' [sched' E] Hi Hs. destruct (calls_step_inv _ _ _ _ Hs) as (k & t & t' & Hk & Ht & ->).
    destruct (join_insert ts i calls k t' Hi (lookup_lt_Some _ _ _ Hk)) as (m & Hm & ->). rewrite Hk in Hm.
    exists (sched' ++ [Run m]). unfold once_crun in *. rewrite crun_snoc, E. cbn [cstep shared threads]. by rewrite Hm, Ht.
  - done.
Qed.

(** Calls are made one after the other. *)
Definition in_turn (calls : list once_thread) : Prop := forall a b t u, (a < b)%nat ->
  calls !! a = Some t -> calls !! b = Some u -> (exists h, ot_pc t = ORet h) \/ ot_pc u = OLoad.

Lemma calls_step_first s calls s' calls' : calls_step key tags s calls = Some (s', calls') ->
  exists k t t', calls !! k = Some t /\ step s t = Some (s', t') /\ calls' = <[k := t']> calls /\
    forall j u, (j < k)%nat -> calls !! j = Some u -> exists h, ot_pc u = ORet h.
Proof.
  revert calls'. induction calls as [|t calls IH]; intros calls' H; [done|]. cbn in H.
  assert (Hr : (exists h, ot_pc t = ORet h) \/ (match step s t with Some (s', t') => Some (s', t' :: calls) | None => None end) = Some (s', calls')) by (destruct (ot_pc t); eauto).
  destruct Hr as [[h Eh]|Hr].
  - rewrite Eh in H. destruct (calls_step key tags s calls) as [[s1 c1]|]; [|done]. injection H as -> <-.
    destruct (IH c1 eq_refl) as (k & u & u' & H1 & H2 & -> & H4). exists (S k), u, u'. split; [done|]. split; [done|]. split; [done|].
    intros [|j] w Hj Hw; [injection Hw as ->; eauto|]. apply (H4 j); [lia|done].
  - destruct (step s t) as [[s1 t1]|] eqn:Es; [|done]. injection Hr as -> <-. exists 0%nat, t, t1. split_and!; [done..|]. intros; lia.
Qed.
Lemma calls_can_step s calls k t : calls !! k = Some t -> (forall j u, (j < k)%nat -> calls !! j = Some u -> exists h, ot_pc u = ORet h) ->
  step s t <> None -> calls_step key tags s calls <> None.
Proof.
  revert k. induction calls as [|t0 calls IH]; intros k Hk Hb Hs; [done|]. destruct k as [|k]; cbn in Hk |- *.
  - injection Hk as ->. destruct (step s t) as [[s1 t1]|] eqn:Es; [|done]. destruct (ot_pc t) eqn:Ep; try done. unfold once_step in Es. by rewrite Ep in Es.
  - destruct (Hb 0%nat t0 ltac:(lia) eq_refl) as [h ->].
    pose proof (IH k Hk (fun j u Hj Hu => Hb (S j) u ltac:(lia) Hu) Hs). by destruct (calls_step key tags s calls) as [[s1 c1]|].
Qed.
Lemma calls_in_turn progs sched : Forall in_turn (threads (calls_crun key tags progs sched)).
Proof.
  unfold calls_crun. apply (crun_inv (calls_step key tags) (fun s _ => s) (fun c => Forall in_turn (threads c))); [|cbn|done].
  - cbn. apply Forall_forall. intros c Hc. apply elem_of_list_In, in_map_iff in Hc as (p & <- & _).
    intros a b t u _ _ Hu. right. change (map ?f p) with (f <$> p) in Hu. rewrite list_lookup_fmap in Hu. destruct (p !! b); [|done]. by injection Hu as <-.
  - intros s ts i calls s' calls' Hf Hi Hs. apply Forall_insert; [done|]. pose proof (proj1 (Forall_lookup _ _) Hf i calls Hi) as Ht.
    destruct (calls_step_first _ _ _ _ Hs) as (k & t & t' & Hk & Hst & -> & Hb). intros a b u w Hab Hu Hw.
    destruct (decide (a = k)) as [->|Ha].
    + rewrite list_lookup_insert_ne in Hw by lia. destruct (Ht _ _ _ _ Hab Hk Hw) as [[h E]|E]; [|by right].
      exfalso. unfold once_step in Hst. by rewrite E in Hst.
    + rewrite list_lookup_insert_ne in Hu by done. destruct (decide (b = k)) as [->|Hbk]; [left; by apply (Hb a)|].
      rewrite list_lookup_insert_ne in Hw by done. by apply (Ht a b).
Qed.
Lemma calls_progress progs sched : let c := calls_crun key tags progs sched in
  (forall i calls t, threads c !! i = Some calls -> t ∈ calls -> exists h, ot_pc t = ORet h) \/
  (exists i calls, threads c !! i = Some calls /\ calls_step key tags (shared c) calls <> None).
Proof.
  intros c. destruct (calls_flat progs sched) as [sched' E]. fold c in E.
  pose proof (oinv_run key tags (mjoin progs) sched') as [_ _ Hl _ _]. rewrite E in Hl. cbn [shared threads] in Hl.
  pose proof (calls_in_turn progs sched) as Ht. fold c in Ht.
  destruct (os_locked (shared c)) eqn:El.
  - right. destruct (proj1 Hl eq_refl) as (m & t & Hm & Ct). apply elem_of_list_lookup_2, elem_of_list_join in Hm as (calls & Htc & Hcs).
    apply elem_of_list_lookup in Htc as [k Hk]. apply elem_of_list_lookup in Hcs as [i Hi]. exists i, calls. split; [done|].
    apply (calls_can_step _ _ k t Hk).
    + intros j u Hj Hu. destruct (proj1 (Forall_lookup _ _) Ht i calls Hi _ _ _ _ Hj Hu Hk) as [|Eo]; [done|]. unfold crit in Ct. by rewrite Eo in Ct.
    + unfold once_step, crit in *. destruct (ot_pc t) as [| | | | |[|[x v] rest]| | | |]; done.
  - destruct (decide (Exists (fun calls => calls_step key tags (shared c) calls <> None) (threads c))) as [H|H].
    + right. apply Exists_exists in H as (calls & Hc & Hs). apply elem_of_list_lookup in Hc as [i Hi]. by exists i, calls.
    + left. intros i calls t Hi Hin. destruct (calls_step_none (shared c) calls) as [Hn|(b & u & a & -> & _ & Hn & Hu)].
      * destruct (calls_step key tags (shared c) calls) eqn:Es; [|done]. exfalso. apply H, Exists_exists. exists calls. split; [by apply elem_of_list_lookup_2 in Hi|]. by rewrite Es.
      * by apply Hn.
      * exfalso. unfold once_step in Hn. rewrite El in Hn. destruct (ot_pc u) as [| | | | |[|[x v] rest]| | | |] eqn:Ep; try done. by apply (Hu h).
Qed.
End calls.
