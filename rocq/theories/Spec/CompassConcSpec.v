(** Vocabulary for concurrent use of a compass: what the goroutines' programs ask for,
    and what a goroutine has still to do. *)
From Verif.Go Require Import GoInt GoFloat GoConc.
From Verif.Model Require Import EWMA Compass CompassConc.
From Verif.Spec Require Import BucketSpec.
Local Open Scope Z_scope.

(** The durations of the Update and UpdateWithError calls of a program, and the
    arguments of its UpdateWithError calls. *)
Definition durations (prog : list kcall) : list Z :=
  omap (fun c => match c with KUpdate d _ => Some d | _ => None end) prog.
Definition results (prog : list kcall) : list result :=
  omap (fun c => match c with KUpdate _ (Some r) => Some r | _ => None end) prog.
Definition successes (rs : list result) : Z := Z.of_nat (length (filter (fun r => rs_success r = true) rs)).
(** What a call asks to be counted: its code for the code counters, its addon for the
    addon counters. *)
Definition asked (w : which) (r : result) : string := match w with Codes => rs_code r | Addons => rs_addon r end.
(** How many calls carry the code (or addon) [key]. *)
Definition carrying (w : which) (key : string) (rs : list result) : Z := Z.of_nat (length (filter (fun r => asked w r = key) rs)).

(** The call a goroutine is in the middle of, and how far it is. *)
Definition current (pc : kpc) : option (Z * option result) :=
  match pc with
  | PTick k | PClock _ k | PCas _ _ k | PLoop _ k | PTake _ _ k | PM1 _ _ k | PM5 _ _ k | PM15 _ _ k => k
  | PAdd d r | PTotal d r | PReservoir d r => Some (d, r)
  | _ => None
  end.
(** An update that has not counted itself (line 181) yet. *)
Definition uncounted_yet (pc : kpc) : list Z :=
  match pc with PTotal _ _ | PReservoir _ _ => [] | _ => match current pc with Some (d, _) => [d] | None => [] end end.
(** ... not updated the total count (line 182), not reached the reservoir (line 183). *)
Definition untotalled_yet (pc : kpc) : list Z :=
  match pc with PReservoir _ _ => [] | _ => match current pc with Some (d, _) => [d] | None => [] end end.
Definition unsampled_yet (pc : kpc) : list Z := match current pc with Some (d, _) => [d] | None => [] end.
(** An UpdateWithError that has not passed line 152 yet. *)
Definition unjudged_yet (pc : kpc) : list result :=
  match pc with PSuccess r => [r] | _ => match current pc with Some (_, Some r) => [r] | _ => [] end end.
(** An UpdateWithError that has not updated its code's (addon's) counter yet. *)
Definition unnoted_yet (w : which) (pc : kpc) : list result :=
  unjudged_yet pc ++
  match pc with
  | PKey w' r | PLock w' r | PFind w' r | PAssign w' r | PAssigning w' r | PUnlock w' _ r | PCount w' _ r =>
      match w, w' with Codes, Addons => [] | _, _ => [r] end
  | _ => []
  end.
(** Calls that panicked before updating their code's (addon's) counter. *)
Definition lost (w : which) (panics : list (which * result)) : list result :=
  (filter (fun p => w = Addons \/ p.1 = Codes) panics).*2.

(** Taken from the pending count for a tick, but not passed to the 1 minute average
    yet; passed to the 1 minute but not yet to the 5 minute average; passed to the
    5 minute but not yet to the 15 minute average. *)
Definition taken (pc : kpc) : list Z := match pc with PM1 _ c _ => [c] | _ => [] end.
Definition not_yet5 (pc : kpc) : list Z := match pc with PM5 _ c _ => [c] | _ => [] end.
Definition not_yet15 (pc : kpc) : list Z := match pc with PM15 _ c _ => [c] | _ => [] end.
(** Ticks of the 1 minute average a goroutine still has to make. *)
Definition due (pc : kpc) : Z :=
  match pc with PLoop n _ | PM5 n _ _ | PM15 n _ _ => Z.of_nat n | PTake n _ _ | PM1 n _ _ => Z.of_nat n + 1 | _ => 0 end.

(** All goroutines together. *)
Definition all {A} (f : kpc -> list A) (ts : list kthread) : list A := mjoin ((fun t => f (kt_pc t)) <$> ts).
Definition to_come {A} (f : list kcall -> list A) (ts : list kthread) : list A := mjoin ((fun t => f (kt_todo t)) <$> ts).
Definition panicked (ts : list kthread) : list (which * result) := mjoin (kt_panics <$> ts).
Definition planned {A} (f : list kcall -> list A) (progs : list (list kcall)) : list A := mjoin (f <$> progs).

(** The configured number of codes (addons): maxErrorCodeCount and maxAddonCount. *)
Definition limit (maxErrorCodeCount maxAddonCount : Z) (w : which) : Z := match w with Codes => maxErrorCodeCount | Addons => maxAddonCount end.
(** The map of code (addon) counters. *)
Definition counters (w : which) (s : cp_shared) : table := match w with Codes => cs_codes s | Addons => cs_addons s end.
(** The Updates the counter of [key] has received (0 if there is none). *)
Definition noted (w : which) (s : cp_shared) (key : string) : Z :=
  match tb_map (counters w s) !! key with Some p => default 0 (tb_heap (counters w s) !! p) | None => 0 end.
Definition tracked (w : which) (s : cp_shared) : gset string := dom (tb_map (counters w s)).
(** The different non-empty codes (addons) passed. *)
Definition passed (w : which) (rs : list result) : gset string := list_to_set (filter (fun k => k <> ""%string) (asked w <$> rs)).

Definition cp_done (t : kthread) : Prop := kt_todo t = [] /\ kt_pc t = PIdle.

(** The goroutine is inside the critical section of the map's mutex. *)
Definition inside (w : which) (pc : kpc) : bool :=
  match pc with PFind w' _ | PAssign w' _ | PAssigning w' _ | PUnlock w' _ _ => bool_decide (w' = w) | _ => false end.

(** The clock never shows a negative value or one above [M]. *)
Definition clock_below (M : Z) (ev : event Z) : Prop := match ev with Env e => 0 <= wrap64 e <= M | Run _ => True end.

(** A call other than GetErrorCodeCounts and GetAddonCounts. *)
Definition no_getter (c : kcall) : Prop := match c with KGetter _ _ => False | _ => True end.

(** The getter of the map [w]. *)
Definition getter_of (w : which) (c : kcall) : Prop := match c with KGetter w' _ => w' = w | _ => False end.
(** No goroutine is iterating over the map [w] or has still to do so. *)
Definition unread (w : which) (ts : list kthread) : Prop :=
  Forall (fun t => Forall (fun c => ~ getter_of w c) (kt_todo t) /\ match kt_pc t with PIter w' _ => w' <> w | _ => True end) ts.
(** The calls that have still to update their code's (addon's) counter have one already,
    or there is no room for more counters. *)
Definition warm (maxErrorCodeCount maxAddonCount : Z) (w : which) (c : config cp_shared kthread) : Prop :=
  forall t r, t ∈ threads c -> r ∈ unnoted_yet w (kt_pc t) ++ results (kt_todo t) ->
    asked w r = ""%string \/ asked w r ∈ tracked w (shared c) \/ limit maxErrorCodeCount maxAddonCount w <= Z.of_nat (size (tracked w (shared c))).
