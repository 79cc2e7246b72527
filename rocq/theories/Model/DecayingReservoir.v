(** impl/exponentially_decaying_reservoir.go.

    The skip list (github.com/Workiva/go-datastructures/slice/skip, not part of the
    repository) is modelled as the list of its entries from the lowest level, with
    the searching done along that list: [search] stops at the first entry that does
    not compare below the wanted one.  With keys that are not NaN - the only case
    the theorems speak about - that is what the levels lead to as well.

    [math.Exp] is a parameter: nothing is assumed about it in the definitions. *)
From Verif.Go Require Import GoInt GoFloat.
From Verif.Model Require Import WeightedSnapshot.
From Flocq Require Import IEEE754.BinarySingleNaN.
Local Open Scope Z_scope.

(** skip.Insert: an entry that compares equal is replaced *)
Fixpoint sk_Insert (l : list sample) (c : sample) : list sample :=
  match l with
  | [] => [c]
  | e :: l' =>
      if sm_Compare e c <? 0 then e :: sk_Insert l' c
      else if sm_Compare e c =? 0 then c :: l'
      else c :: e :: l'
  end.

(** skip.Get of one entry: the entry found, if it compares equal *)
Fixpoint sk_Get (l : list sample) (c : sample) : option sample :=
  match l with
  | [] => None
  | e :: l' =>
      if sm_Compare e c <? 0 then sk_Get l' c
      else if sm_Compare e c =? 0 then Some e else None
  end.

(** skip.Delete of one entry *)
Fixpoint sk_Delete (l : list sample) (c : sample) : list sample :=
  match l with
  | [] => []
  | e :: l' =>
      if sm_Compare e c <? 0 then e :: sk_Delete l' c
      else if sm_Compare e c =? 0 then l' else e :: l'
  end.

(** what skip.Iter walks through *)
Fixpoint sk_Iter (l : list sample) (c : sample) : list sample :=
  match l with
  | [] => []
  | e :: l' => if sm_Compare e c <? 0 then sk_Iter l' c else l
  end.

(** exponentially_decaying_reservoir.go:110-112: the entry found by Get is given a
    new value and weight; its key stays. *)
Fixpoint sk_Overwrite (l : list sample) (c : sample) : list sample :=
  match l with
  | [] => []
  | e :: l' =>
      if sm_Compare e c <? 0 then e :: sk_Overwrite l' c
      else if sm_Compare e c =? 0 then WeightedSample (sm_key e) (sm_value c) (sm_weight c) :: l' else e :: l'
  end.

(** exponentially_decaying_reservoir.go:42-44 *)
Definition edrRescaleThreshold : Z := 3600 * 1000000000.

(** exponentially_decaying_reservoir.go:203-205 *)
Definition currentTimeInSecond (ms : Z) : Z := Z.quot ms 1000.

(** exponentially_decaying_reservoir.go:57-66 *)
Record edr := EDR {
  ed_values : list sample; ed_alpha : f64; ed_size : Z; ed_count : Z; ed_startTime : Z; ed_nextScaleTime : Z }.

(** exponentially_decaying_reservoir.go:207-216 [NewExponentiallyDecayingReservoir];
    [ms] and [tick] are what the clock returns. *)
Definition NewEDR (size : Z) (alpha : f64) (ms tick : Z) : edr :=
  EDR [] alpha size 0 (currentTimeInSecond ms) (wrap64 (tick + edrRescaleThreshold)).

(** exponentially_decaying_reservoir.go:68-73 [Size] *)
Definition ed_Size (rsv : edr) : Z := if ed_count rsv <? ed_size rsv then ed_count rsv else ed_size rsv.

(** exponentially_decaying_reservoir.go:184-194 [GetValues] *)
Definition ed_GetValues (rsv : edr) : list sample := sk_Iter (ed_values rsv) (WeightedSample f0 0 f0).

Definition set_values (rsv : edr) (l : list sample) : edr :=
  EDR l (ed_alpha rsv) (ed_size rsv) (ed_count rsv) (ed_startTime rsv) (ed_nextScaleTime rsv).
Definition set_count (rsv : edr) (n : Z) : edr :=
  EDR (ed_values rsv) (ed_alpha rsv) (ed_size rsv) n (ed_startTime rsv) (ed_nextScaleTime rsv).
Definition set_startTime (rsv : edr) (t : Z) : edr :=
  EDR (ed_values rsv) (ed_alpha rsv) (ed_size rsv) (ed_count rsv) t (ed_nextScaleTime rsv).
Definition set_nextScaleTime (rsv : edr) (t : Z) : edr :=
  EDR (ed_values rsv) (ed_alpha rsv) (ed_size rsv) (ed_count rsv) (ed_startTime rsv) t.

(** exponentially_decaying_reservoir.go:86-124: the critical section of [UpdateN].
    skip.Delete returns a slice that is never nil, so the loop at 116-122 runs once. *)
Definition ed_insert (rsv : edr) (priority : f64) (value : Z) (itemWeight : f64) : res edr :=
  let rsv := set_count rsv (wrap64 (ed_count rsv + 1)) in
  let sample := WeightedSample priority value itemWeight in
  if ed_count rsv <=? ed_size rsv then Ok (set_values rsv (sk_Insert (ed_values rsv) sample))
  else
    match ed_GetValues rsv with
    | [] => Panic (* samples[0] *)
    | first :: _ =>
        if fle priority (sm_key first) then Ok rsv
        else
          match sk_Get (ed_values rsv) sample with
          | Some _ => Ok (set_values rsv (sk_Overwrite (ed_values rsv) sample))
          | None => Ok (set_values rsv (sk_Insert (sk_Delete (ed_values rsv) first) sample))
          end
    end.

(** exponentially_decaying_reservoir.go:173-179: the loop of [rescale] *)
Definition ed_scale (f : f64) (s : sample) : sample :=
  WeightedSample (fmul (sm_key s) f) (sm_value s) (fmul (sm_weight s) f).
Definition ed_rescale_loop (f : f64) (samples values : list sample) : list sample :=
  fold_left (fun l smp => sk_Insert (sk_Delete l smp) (ed_scale f smp)) samples values.

(** exponentially_decaying_reservoir.go:167-180 *)
Definition ed_rescale_body (rsv : edr) (scalingFactor : f64) : edr :=
  if feq scalingFactor f0 then set_count (set_values rsv []) 0
  else
    let l := ed_rescale_loop scalingFactor (ed_GetValues rsv) (ed_values rsv) in
    set_count (set_values rsv l) (Z.of_nat (length l)).

Section exp.
  Context (math_Exp : f64 -> f64).

  (** exponentially_decaying_reservoir.go:127-129 [weight] *)
  Definition ed_weight (rsv : edr) (t : Z) : f64 := math_Exp (fmul (ed_alpha rsv) (f_of_int t)).

  (** exponentially_decaying_reservoir.go:165: the scaling factor, after startTime
      went from [oldStartTime] to its new value *)
  Definition ed_scalingFactor (rsv : edr) (oldStartTime : Z) : f64 :=
    math_Exp (fmul (Bopp (ed_alpha rsv)) (f_of_int (wrap64 (ed_startTime rsv - oldStartTime)))).

  (** exponentially_decaying_reservoir.go:160-180: the critical section of [rescale];
      [ms] is what clock.GetTime returns *)
  Definition ed_rescale_locked (rsv : edr) (ms : Z) : edr :=
    let oldStartTime := ed_startTime rsv in
    let rsv := set_startTime rsv (currentTimeInSecond ms) in
    ed_rescale_body rsv (ed_scalingFactor rsv oldStartTime).

  (** exponentially_decaying_reservoir.go:131-136, 156-158: [rescaleIfNeeded] and the
      compare-and-swap of [rescale], with no other goroutine around *)
  Definition ed_rescaleIfNeeded (rsv : edr) (tick ms : Z) : edr :=
    if ed_nextScaleTime rsv <=? tick
    then ed_rescale_locked (set_nextScaleTime rsv (wrap64 (tick + edrRescaleThreshold))) ms
    else rsv.

  (** exponentially_decaying_reservoir.go:79-84: the weight and the priority an update
      computes from the time and a random number *)
  Definition ed_itemWeight (rsv : edr) (ms : Z) : f64 :=
    ed_weight rsv (wrap64 (currentTimeInSecond ms - ed_startTime rsv)).
  Definition ed_priority (itemWeight random : f64) : f64 := fdiv itemWeight random.

  (** exponentially_decaying_reservoir.go:75-125 [UpdateN] *)
  Definition ed_UpdateN (rsv : edr) (tick ms0 ms : Z) (random : f64) (value : Z) : res edr :=
    let rsv := ed_rescaleIfNeeded rsv tick ms0 in
    let itemWeight := ed_itemWeight rsv ms in
    ed_insert rsv (ed_priority itemWeight random) value itemWeight.

  (** exponentially_decaying_reservoir.go:196-201 [GetSnapshot]: the samples handed to
      NewWeightedSnapshot *)
  Definition ed_GetSnapshot (rsv : edr) (tick ms0 : Z) : edr * list sample :=
    let rsv := ed_rescaleIfNeeded rsv tick ms0 in (rsv, ed_GetValues rsv).

  (** A history of calls with the clock readings and random numbers they see. *)
  Inductive ed_call :=
  | DUpdate (tick ms0 ms : Z) (random : f64) (value : Z)
  | DSnapshot (tick ms0 : Z).

  Definition ed_step (rsv : edr) (c : ed_call) : res edr :=
    match c with
    | DUpdate tick ms0 ms random value => ed_UpdateN rsv tick ms0 ms random value
    | DSnapshot tick ms0 => Ok (ed_GetSnapshot rsv tick ms0).1
    end.
  Fixpoint ed_run (rsv : edr) (calls : list ed_call) : res edr :=
    match calls with
    | [] => Ok rsv
    | c :: calls => rsv' ← ed_step rsv c; ed_run rsv' calls
    end.
End exp.
