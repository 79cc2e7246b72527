(** C154, C155: names used by several goroutines, and several names. *)
From Verif.Go Require Import GoInt GoConc.
From Verif.Model Require Import MetricName NameHeap.
From Verif.Spec Require Import RaceSpec ProgressSpec NameSpec NameShareSpec.
From Verif.Proofs Require Import RaceLemmas NameProofs NameShare NameCalls NameProgress.
From Verif.Props Require Import PName.
Local Open Scope Z_scope.

(** The table of HashKey's accesses is complete. *)
Theorem C154_table : forall key tags,
  lists_writes once_next (once_step key tags) once_same /\
  lists_reads once_next (once_step key tags) once_same once_rest.
Proof.
  intros key tags. split.
  - intros s t s' t' l Hs Hl. unfold once_step, once_next in *.
    destruct (ot_pc t) as [| | | | |[|[k v] rest]| | | |]; repeat (case_match; try done); simplify_eq;
      destruct l; try done; exfalso.
    all: first [ specialize (Hl _ (elem_of_list_here _ _) eq_refl); done
               | specialize (Hl _ (elem_of_list_further _ _ _ (elem_of_list_here _ _)) eq_refl); done ].
  - intros s1 s2 t Hr Hs. unfold once_step, once_next in *. unfold once_rest in Hr.
    destruct (ot_pc t) as [| | | | |[|[k v] rest]| | | |];
      try (pose proof (Hs _ (elem_of_list_here _ _)) as E; cbn in E; rewrite <- E); try rewrite <- Hr;
      repeat (case_match; try done); unfold once_rest; simplify_eq/=; try exact I; (split_and!; [try congruence..|]).
    all: intros a Ha; specialize (Hs _ Ha); try (by apply elem_of_nil in Ha).
    all: repeat (apply elem_of_cons in Ha as [->|Ha]); try (by apply elem_of_nil in Ha); cbn in *; congruence.
Qed.
Print Assumptions C154_table.

(** C154.  However many goroutines call HashKey on a name, and whatever the schedule, there
    is no data race. *)
Theorem C154_hashkey_race_free : forall key tags orders sched,
  race_free once_next (once_crun key tags orders sched).
Proof.
  intros key tags orders sched l Hr.
  pose proof (oinv_run key tags orders sched) as [_ He _ Ht _].
  set (c := once_crun key tags orders sched) in *. clearbody c.
  apply race_sym in Hr as (i & j & ti & tj & x & y & Hne & Hi & Hj & Hx & Hy & Lx & Ly & Hw & Hat).
  pose proof (Ht _ _ Hi) as Oi. pose proof (Ht _ _ Hj) as Oj.
  assert (~ (crit ti /\ crit tj)) as Hc by (intros [Ci Cj]; by apply Hne, (He _ _ _ _ Hi Hj)).
  subst l. unfold crit, oko, once_next in *.
  destruct (ot_pc ti) as [| | | | |[|[k v] rest]| | | |]; rewrite ?elem_of_cons, ?elem_of_nil in Hx;
  destruct (ot_pc tj) as [| | | | |[|[k' v'] rest']| | | |]; rewrite ?elem_of_cons, ?elem_of_nil in Hy;
    try tauto.
  all: repeat match goal with H : _ \/ _ |- _ => destruct H end; try done; subst x; subst y; try discriminate.
  all: repeat match goal with H : _ /\ _ |- _ => destruct H end; try discriminate; try congruence.
Qed.
Print Assumptions C154_hashkey_race_free.

(** A schedule at which one goroutine is about to write the hash key and the other to take
    the fast path. *)
Example C154_witness :
  ot_pc <$> threads (once_crun "qps" ∅ [[]; []] [Run 0; Run 0; Run 0]%nat) = [OKey; OLoad] /\
  ot_pc <$> threads (once_crun "qps" ∅ [[]; []] [Run 0; Run 0; Run 0; Run 0; Run 0; Run 1; Run 0]%nat) = [ORead; ORead].
Proof. split; vm_compute; reflexivity. Qed.

(** C154, C85 when every goroutine makes any number of calls, one after the other: no data
    race, all calls that have returned got the same complete hash key, no deadlock. *)
Theorem C154_many_calls : forall key tags progs sched,
  race_free calls_next (calls_crun key tags progs sched).
Proof.
  intros key tags progs sched l (i & j & ci & cj & a & b & Hne & Hi & Hj & Ha & Hb & R).
  destruct (calls_flat key tags progs sched) as [sched' E]. set (c := calls_crun key tags progs sched) in *.
  apply calls_next_inv in Ha as (k & t & Hk & Ha). apply calls_next_inv in Hb as (k' & t' & Hk' & Hb).
  destruct (join_lookup2 (threads c) i j ci cj k k' t t' Hne Hi Hj Hk Hk') as (m & m' & Hm & H1 & H2).
  apply (C154_hashkey_race_free key tags (mjoin progs) sched' l). rewrite E. exists m, m', t, t', a, b. exact (conj Hm (conj H1 (conj H2 (conj Ha (conj Hb R))))).
Qed.
Print Assumptions C154_many_calls.

Theorem C85_many_calls : forall key tags progs sched,
  Forall (fun p => Forall (fun o => iterates o tags) p) progs ->
  exists order, iterates order tags /\
    forall i calls t h, threads (calls_crun key tags progs sched) !! i = Some calls -> t ∈ calls -> ot_pc t = ORet h ->
      h = hash_in_order key order.
Proof.
  intros key tags progs sched Hp. destruct (calls_flat key tags progs sched) as [sched' E].
  destruct (C85_concurrent_hashkey key tags (mjoin progs) sched') as (order & Ho & H).
  { apply Forall_forall. intros o Hin. apply elem_of_list_join in Hin as (p & Ho & Hpp).
    rewrite Forall_forall in Hp. specialize (Hp p Hpp). rewrite Forall_forall in Hp. by apply Hp. }
  exists order. split; [done|]. intros i calls t h Hi Ht Hr. rewrite E in H. cbn [threads] in H.
  assert (Hin : t ∈ mjoin (threads (calls_crun key tags progs sched))).
  { apply elem_of_list_join. exists calls. split; [done|]. by apply elem_of_list_lookup_2 in Hi. }
  apply elem_of_list_lookup in Hin as [m Hm]. by apply (H m t h).
Qed.
Print Assumptions C85_many_calls.

Theorem C85_many_calls_no_deadlock : forall key tags progs sched,
  let c := calls_crun key tags progs sched in
  (forall i calls t, threads c !! i = Some calls -> t ∈ calls -> exists h, ot_pc t = ORet h) \/
  (exists i calls, threads c !! i = Some calls /\ calls_step key tags (shared c) calls <> None).
Proof. exact calls_progress. Qed.
Print Assumptions C85_many_calls_no_deadlock.

(** Two goroutines, the first making two calls. *)
Example C85_many_calls_case :
  map (map ot_pc) (threads (calls_crun "qps" ∅ [[[]; []]; [[]]]
    [Run 0; Run 0; Run 1; Run 0; Run 0; Run 0; Run 0; Run 1; Run 1; Run 0; Run 0; Run 0; Run 1; Run 1; Run 1; Run 0]%nat))
  = [[ORet "qps"; ORet "qps"]; [ORet "qps"]].
Proof. vm_compute. reflexivity. Qed.

(** C157: whatever the schedule, all goroutines together make at most [hash_cost progs] steps
    (nine per call and one per tag), ... *)
Theorem C157_bounded_steps key tags progs sched :
  Z.of_nat (steps_made (calls_step key tags) (fun s (_ : Empty_set) => s) (calls_crun key tags progs []) sched) <= hash_cost progs.
Proof. apply hash_bound. Qed.
(** ... as long as not all calls have returned, some goroutine can make a step, ... *)
Theorem C157_no_deadlock key tags progs sched : let c := calls_crun key tags progs sched in
  ~ Forall calls_returned (threads c) -> exists i, can_step (calls_step key tags) c i.
Proof.
  intros c Hn. destruct (calls_progress key tags progs sched) as [H|(i & calls & Hi & Hs)].
  - exfalso. apply Hn, Forall_lookup. intros i calls Hi t Ht. by apply (H i calls).
  - by exists i, calls.
Qed.
(** ... so every schedule that gives every goroutine more turns than that completes all calls,
    each with the same complete hash key. *)
Theorem C157_all_return key tags progs rounds : Forall (round (length progs)) rounds -> hash_cost progs < Z.of_nat (length rounds) ->
  Forall calls_returned (threads (calls_crun key tags progs (mjoin rounds))).
Proof. apply hash_all_return. Qed.
Theorem C157_all_the_same key tags progs rounds : Forall (fun p => Forall (fun o => iterates o tags) p) progs ->
  Forall (round (length progs)) rounds -> hash_cost progs < Z.of_nat (length rounds) ->
  exists order, iterates order tags /\
    forall i calls t, threads (calls_crun key tags progs (mjoin rounds)) !! i = Some calls -> t ∈ calls -> ot_pc t = ORet (hash_in_order key order).
Proof.
  intros Hp Hr Hc. destruct (C85_many_calls key tags progs (mjoin rounds) Hp) as (order & Ho & H). exists order. split; [exact Ho|].
  intros i calls t Hi Ht. pose proof (hash_all_return key tags progs rounds Hr Hc) as Ha. rewrite Forall_lookup in Ha.
  destruct (Ha i calls Hi t Ht) as [h Hh]. by rewrite Hh, (H i calls t h Hi Ht Hh).
Qed.
Print Assumptions C157_bounded_steps.
Print Assumptions C157_no_deadlock.
Print Assumptions C157_all_return.
Print Assumptions C157_all_the_same.
Example C157_case : let progs := [[[("host", "h1")]; [("host", "h1")]]; [[("host", "h1")]]] in
  let rounds := replicate 31 [Run 1; Run 0 : event Empty_set]%nat in
  hash_cost progs = 30 /\ Forall (round (length progs)) rounds /\ hash_cost progs < Z.of_nat (length rounds) /\
  Forall (fun p => Forall (fun o => iterates o {["host" := "h1"]}) p) progs /\
  map (map ot_pc) (threads (calls_crun "qps" {["host" := "h1"]} progs (mjoin rounds))) = [[ORet "qps-host:h1"; ORet "qps-host:h1"]; [ORet "qps-host:h1"]].
Proof.
  assert (Hi : iterates [("host", "h1")] ({["host" := "h1"]} : gmap string string)) by (unfold iterates; by rewrite map_to_list_singleton).
  refine (conj _ (conj _ (conj _ (conj _ _)))); [by vm_compute| |by vm_compute| |by vm_compute].
  - apply Forall_replicate. intros i Hl. destruct i as [|[|i]]; [right; left|left|cbn in Hl; lia].
  - repeat constructor; exact Hi.
Qed.

(** C155 is false: all names made with nil tags have the same map, so a tag added to one of
    them ("a") becomes a tag of the others ("b").  (Over an empty map the loop runs over
    nothing, whatever [order] is.) *)
Definition two_nil_names : list nh_op :=
  [HNew "a" None 0; HNew "b" None 0; HPut 0 "x" "1"; HHash 1 [("x", "1")]].
Theorem C155_refuted :
  hash_keys 1 two_nil_names = [Some "b-x:1"] /\
  hash_keys 1 (leave_others_alone 1 two_nil_names) = [Some "b"].
Proof. split; vm_compute; reflexivity. Qed.
Print Assumptions C155_refuted.

(** C155 (what is missing: writes through another name that was given the same map, as nil
    is to all).  In any history in which nobody writes to the tags of another name that was
    created with the same map as name number [n], what HashKey returns of name [n] is as if
    nothing had been done to the other names. *)
Theorem C155_partial : forall n ops,
  (forall i op, op ∈ ops -> writes_tags_of i op -> i <> n -> maps_given ops !! i <> maps_given ops !! n) ->
  hash_keys n ops = hash_keys n (leave_others_alone n ops).
Proof.
  intros n ops HW. unfold hash_keys. apply (run_same n (maps_given ops)); [apply same_start|done|done].
Qed.
Print Assumptions C155_partial.

(** In particular: a name with a map that no other name was given; ... *)
Theorem C155_own_map_partial : forall n ops m,
  maps_given ops !! n = Some m -> (forall i, maps_given ops !! i = Some m -> i = n) ->
  hash_keys n ops = hash_keys n (leave_others_alone n ops).
Proof.
  intros n ops m Hn Hm. apply C155_partial. intros i op _ _ Hi. rewrite Hn. intros E. by apply Hi, Hm.
Qed.
Print Assumptions C155_own_map_partial.

(** ... and, whatever the other names' maps and whoever writes to them, HashKey returns the
    same from its first call on. *)
Theorem C155_later_partial : forall n ops before r after s,
  hash_keys n ops = before ++ Some r :: after -> Some s ∈ after -> s = r.
Proof. intros n ops before r after s. apply run_stable. Qed.
Print Assumptions C155_later_partial.

(** Three names, two with maps of their own; tags are added to all of them. *)
Definition three_names : list nh_op :=
  [HMap {["h" := "1"]}; HMap ∅; HNew "a" (Some 1%nat) 0; HNew "b" (Some 2%nat) 0; HNew "c" None 0;
   HPut 0 "z" "2"; HPut 1 "x" "3"; HPut 2 "y" "4"; HHash 0 [("z", "2"); ("h", "1")]; HHash 1 [("x", "3")];
   HSetKey 0 "d"; HDel 1 "x"; HHash 1 []].
Example C155_witness :
  maps_given three_names = [1; 2; 0]%nat /\
  hash_keys 1 three_names = [Some "b-x:3"; Some "b-x:3"] /\
  hash_keys 0 three_names = [Some "a-z:2h:1"].
Proof. split_and!; vm_compute; reflexivity. Qed.
