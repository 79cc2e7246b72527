(** Size of the exponentially decaying reservoir called next to updates (C112, and its
    data races, C107). *)
From Verif.Go Require Import GoInt GoFloat GoConc.
From Verif.Model Require Import WeightedSnapshot DecayingReservoir DecayingConc DecayingSizeConc.
From Verif.Spec Require Import BucketSpec DecayingSpec DecayingConcSpec RaceSpec DecayingRaceSpec DecayingSizeSpec.
From Verif.Proofs Require Import DecayingProofs DecayingConcMore DecayingSizeProofs RaceLemmas.
From Verif.Props Require Import PDecaying PDecayingRace PDecayingConc.
From Coq Require Import Reals Lra.
Local Open Scope Z_scope.

(** C112 (what is missing: Size can exceed the capacity, see [C112_refuted]).  Goroutine [i]
    has returned from its calls with the results [got] at the moment reached by [s1]; [x]
    is the result of its next call.  It is not negative, exceeds the capacity by less than
    the number of values recorded since [s1], and does not exceed it if no more values
    than that are recorded altogether.  It is exact if no update or rescale gets to the
    reservoir in the meantime. *)
Theorem C112_size_partial math_Exp size alpha ms0 tick0 progs s1 s2 i n n' b got x more :
  let run := sz_crun math_Exp size alpha ms0 tick0 progs in
  conc_ok math_Exp size alpha ms0 (sz_calls <$> progs) (s1 ++ s2) ->
  threads (run s1) !! i = Some (SSize n false got) ->
  threads (run (s1 ++ s2)) !! i = Some (SSize n' b (got ++ x :: more)) ->
  0 <= x /\
  (x <= size \/ x - size < recorded (shared (run (s1 ++ s2))) - recorded (shared (run s1))) /\
  (Z.of_nat (length (mjoin (call_value <$> mjoin (sz_calls <$> progs)))) <= size -> x <= size) /\
  (ds_log (shared (run (s1 ++ s2))) = ds_log (shared (run s1)) -> x = ed_Size (ds_rsv (shared (run s1)))).
Proof.
  cbv zeta. intros H Hi Hx. destruct (size_run _ _ _ _ _ _ _ _ _ _ _ H Hi) as (t & Ht & St).
  rewrite Hx in Ht. injection Ht as <-.
  destruct St as [E|[(m & _ & E & _)|(m & b' & y & more' & E & K1 & K2 & K3)]].
  - injection E as _ _ E. apply (f_equal length) in E. rewrite app_length in E. cbn in E. lia.
  - injection E as _ _ E. apply (f_equal length) in E. rewrite app_length in E. cbn in E. lia.
  - injection E as _ _ E. apply app_inv_head in E. injection E as <- _.
    split; [lia|]. split; [lia|]. split; [lia|]. exact K3.
Qed.
Print Assumptions C112_size_partial.

(** The weights are all 1, as with a decay rate of 0. *)
Definition flat_exp (_ : f64) : f64 := f1.
Definition size_progs : list sz_prog := [PSize 1; PUse [KUpdate 7 half; KUpdate 8 half]].
Definition size_sched : list (event (Z * Z)) := [Run 0%nat] ++ repeat (Run 1%nat) 14 ++ [Run 0%nat].

(** C112 is false: a reservoir of capacity 1 that says its size is 2.  Size finds the count
    below the capacity (line 69), two values are recorded, Size returns the count (line
    70). *)
Theorem C112_refuted :
  threads (sz_crun flat_exp 1 f0 0 0 size_progs size_sched) !! 0%nat = Some (SSize 0 false [2]).
Proof.
  assert (H : match threads (sz_crun flat_exp 1 f0 0 0 size_progs size_sched) !! 0%nat with
    | Some (SSize O false [x]) => x =? 2 | _ => false end = true) by (vm_compute; reflexivity).
  destruct (threads _ !! 0%nat) as [[t|[|n] [|] [|x [|y l]]]|]; try discriminate H. by apply Z.eqb_eq in H as ->.
Qed.
Print Assumptions C112_refuted.

(** ** Data races of Size *)
Lemma sz_dlock math_Exp size alpha ms0 tick0 progs sched :
  let c := sz_crun math_Exp size alpha ms0 tick0 progs sched in
  (forall i t, threads c !! i = Some (SUse t) -> threads (dx_crun math_Exp size alpha ms0 tick0 (sz_calls <$> progs) sched) !! i = Some t) /\
  shared c = shared (dx_crun math_Exp size alpha ms0 tick0 (sz_calls <$> progs) sched).
Proof.
  cbv zeta. destruct (erase math_Exp size alpha ms0 tick0 progs sched) as [E1 E2]. split; [|exact E1].
  intros i t Hi. rewrite <- E2, list_lookup_fmap, Hi. done.
Qed.

Definition sz_from (p : sz_prog) (t : sz_thread) : Prop :=
  match p, t with
  | PUse calls, SUse t => calls = [] -> t = DxThread [] XIdle []
  | PSize _, SSize _ _ _ => True
  | _, _ => False
  end.

(** C107 with calls of Size: a race on the samples and the count is one between a Size and
    another goroutine's UpdateN or GetSnapshot (which may rescale). *)
Theorem C107_size_partial math_Exp size alpha ms0 tick0 progs sched :
  data_race_on sz_next VSamples (sz_crun math_Exp size alpha ms0 tick0 progs sched) ->
  exists i j, i <> j /\ asks_size progs i /\ uses progs j.
Proof.
  intros Hr. pose proof Hr as (i & j & ti & tj & a & b & Hne & Hi & Hj & Ha & Hb & La & Lb & Hw & Hat)%race_sym.
  destruct (sz_dlock math_Exp size alpha ms0 tick0 progs sched) as [L1 L2].
  assert (F : forall i t, threads (sz_crun math_Exp size alpha ms0 tick0 progs sched) !! i = Some t -> exists p, progs !! i = Some p /\ sz_from p t).
  { apply (program_inv (sz_tstep math_Exp) dx_estep sz_from sz_start).
    - intros [calls|n]; cbn; [by intros ->|done].
    - clear. intros [calls|m] s [t|n b got] s' t' F Hs; cbn in F |- *; try done; cbn in Hs.
      + destruct (dx_tstep math_Exp s t) as [[s'' t'']|] eqn:Et; [|done]. injection Hs as <- <-. intros E. rewrite (F E) in Et. discriminate Et.
      + destruct n, b; try discriminate Hs; try (destruct (_ <? _)); by injection Hs as <- <-. }
  destruct ti as [ti|n f got].
  2: { destruct n, f; cbn in Ha; try (by apply elem_of_nil in Ha); apply elem_of_list_singleton in Ha as ->; discriminate Hw. }
  destruct (F _ _ Hi) as ([calls|m] & Hp & Fi); [|done].
  assert (Hu : uses progs i).
  { exists calls. split; [exact Hp|]. intros E. cbn in Fi. rewrite (Fi E) in Ha. by apply elem_of_nil in Ha. }
  destruct tj as [tj|n f got].
  - destruct (C107_samples_partial math_Exp size alpha ms0 tick0 (sz_calls <$> progs) sched).
    apply L1 in Hi, Hj. rewrite L2 in Ha, Hb. cbn [sz_next] in Ha, Hb. exists i, j, ti, tj, a, b. split_and!; try assumption.
    unfold conflict. split; [congruence|]. split; [by left|]. intros [A1 A2]. rewrite A1, A2 in Hat. destruct Hat; discriminate.
  - destruct (F _ _ Hj) as ([calls'|m] & Hq & Fj); [done|]. exists j, i. split; [done|]. split; [by exists m|done].
Qed.
Print Assumptions C107_size_partial.

Theorem C107_size_refuted math_Exp :
  data_race_on sz_next VSamples (sz_crun math_Exp 1 f0 0 0 [PSize 1; PUse [KUpdate 7 half]] (repeat (Run 1%nat) 6)).
Proof.
  apply (race_intro sz_next _ 0%nat 1%nat (SSize 1 false []) (SUse (DxThread [] (XInsert 7 half 0 0) [])) (loads VSamples) (stores VSamples));
    try reflexivity; [done|by left|right; by left].
Qed.
Print Assumptions C107_size_refuted.

(** C112_size_partial applies to the run of [C112_refuted]: two values are recorded during
    the call, the result exceeds the capacity by one. *)
Example C112_witness :
  conc_ok flat_exp 1 f0 0 (sz_calls <$> size_progs) ([] ++ size_sched) /\
  threads (sz_crun flat_exp 1 f0 0 0 size_progs []) !! 0%nat = Some (SSize 1 false []) /\
  threads (sz_crun flat_exp 1 f0 0 0 size_progs ([] ++ size_sched)) !! 0%nat = Some (SSize 0 false ([] ++ 2 :: [])).
Proof.
  split; [|split; [reflexivity|exact C112_refuted]].
  unfold conc_ok. split; [|split; [lia|split; [|split; [lia|split; [|split]]]]].
  - intros x _. unfold flat_exp. split; intros _; [|reflexivity]. split; [reflexivity|]. rewrite RF_f1. lra.
  - split; [reflexivity|]. rewrite RF_f0. lra.
  - exact Logic.I.
  - apply Forall_cons_2; [apply Forall_nil_2|]. apply Forall_cons_2; [|apply Forall_nil_2].
    apply Forall_cons_2; [exact half_facts|]. apply Forall_cons_2; [exact half_facts|apply Forall_nil_2].
  - change (2 < 2 ^ 63). lia.
Qed.
