(** impl/weighted_snapshot.go.  A result (x, err) is modelled as (x, b) with
    [b = true] when err is not nil. *)
From Verif.Go Require Import GoInt GoFloat.
Local Open Scope Z_scope.

(** impl/weighted_snapshot.go:204-208 *)
Record sample := WeightedSample { sm_key : f64; sm_value : Z; sm_weight : f64 }.

(** impl/weighted_snapshot.go:210-220 [Compare] *)
Definition sm_Compare (w other : sample) : Z :=
  if flt (sm_key w) (sm_key other) then -1
  else if flt (sm_key other) (sm_key w) then 1
  else 0.

(** impl/weighted_snapshot.go:34-38 *)
Record weighted_snapshot := WeightedSnapshot {
  ws_values : list Z; ws_normalizedWeights : list f64; ws_quantiles : list f64 }.

(** impl/weighted_snapshot.go:182-187: the weights added up in the order given *)
Definition ws_totalWeight (samples : list sample) : f64 :=
  fold_left (fun total ele => fadd total (sm_weight ele)) samples f0.

(** impl/weighted_snapshot.go:189-192: what sort.Slice can leave in cp.  It is not
    stable, so with equal values any of the sorted arrangements is possible. *)
Definition sorted_by_value (samples cp : list sample) : Prop :=
  Permutation cp samples /\ StronglySorted (fun a b => sm_value a <= sm_value b) cp.

(** impl/weighted_snapshot.go:199-201: quantiles[0] = 0,
    quantiles[i] = quantiles[i-1] + normalizedWeights[i-1] *)
Fixpoint ws_cumulate (acc : f64) (nws : list f64) : list f64 :=
  match nws with
  | [] => []
  | w :: nws' => acc :: ws_cumulate (fadd acc w) nws'
  end.

(** impl/weighted_snapshot.go:194-202, after the sorting *)
Definition ws_build (total : f64) (cp : list sample) : weighted_snapshot :=
  let nws := (fun ele => fdiv (sm_weight ele) total) <$> cp in
  WeightedSnapshot (sm_value <$> cp) nws (ws_cumulate f0 nws).

(** impl/weighted_snapshot.go:168-202 [NewWeightedSnapshot]: the snapshots it may
    return.  (For no samples, all three slices are empty.) *)
Definition NewWeightedSnapshot (samples : list sample) (w : weighted_snapshot) : Prop :=
  exists cp, sorted_by_value samples cp /\ w = ws_build (ws_totalWeight samples) cp.

(** sort.Search of the Go library: binary search; [fuel] >= j - i. *)
Fixpoint search_loop (fuel : nat) (f : nat -> bool) (i j : nat) : nat :=
  match fuel with
  | O => i
  | S fuel =>
      if (i <? j)%nat then
        let h := ((i + j) / 2)%nat in
        if negb (f h) then search_loop fuel f (h + 1) j else search_loop fuel f i h
      else i
  end.
Definition sort_Search (n : nat) (f : nat -> bool) : nat := search_loop n f 0 n.

(** impl/weighted_snapshot.go:71-77 [searchQuantile];
    sort.SearchFloat64s(a, x) = sort.Search(len(a), a[i] >= x). *)
Definition ws_searchQuantile (w : weighted_snapshot) (target : f64) : nat * bool :=
  let n := length (ws_quantiles w) in
  let at_ i := default f0 (ws_quantiles w !! i) in
  let pos := sort_Search n (fun i => fle target (at_ i)) in
  let found := negb (sort_Search n (fun i => feq (at_ i) target) =? n)%nat in
  (pos, found).

(** values[i]: panics when out of range *)
Definition ws_at (w : weighted_snapshot) (i : Z) : res Z :=
  if i <? 0 then Panic else of_option (ws_values w !! Z.to_nat i).

(** impl/weighted_snapshot.go:40-66 [GetValue] *)
Definition ws_GetValue (w : weighted_snapshot) (quantile : f64) : res (f64 * bool) :=
  if flt quantile f0 || flt f1 quantile || fisnan quantile then Ok (f0, true)
  else
    let length := Z.of_nat (length (ws_values w)) in
    if length =? 0 then Ok (f0, false)
    else
      let '(p, found) := ws_searchQuantile w quantile in
      let pos := if found then Z.of_nat p else Z.of_nat p - 1 in
      if pos <? 1 then x ← ws_at w 0; Ok (f_of_int x, false)
      else if length <=? pos then x ← ws_at w (length - 1); Ok (f_of_int x, false)
      else x ← ws_at w pos; Ok (f_of_int x, false).

(** impl/weighted_snapshot.go:79-86 [GetValues], 88-90 [Size] *)
Definition ws_GetValues (w : weighted_snapshot) : list Z * bool := (ws_values w, false).
Definition ws_Size (w : weighted_snapshot) : Z * bool := (Z.of_nat (length (ws_values w)), false).

(** impl/weighted_snapshot.go:92-120: the percentiles; a decimal constant is the
    nearest double, which is what the division of two small integers gives. *)
Definition ws_GetMedian w := ws_GetValue w (fdiv (f_of_int 5) (f_of_int 10)).
Definition ws_Get75thPercentile w := ws_GetValue w (fdiv (f_of_int 75) (f_of_int 100)).
Definition ws_Get95thPercentile w := ws_GetValue w (fdiv (f_of_int 95) (f_of_int 100)).
Definition ws_Get98thPercentile w := ws_GetValue w (fdiv (f_of_int 98) (f_of_int 100)).
Definition ws_Get99thPercentile w := ws_GetValue w (fdiv (f_of_int 99) (f_of_int 100)).
Definition ws_Get999thPercentile w := ws_GetValue w (fdiv (f_of_int 999) (f_of_int 1000)).

(** impl/weighted_snapshot.go:122-129 [GetMax] *)
Definition ws_GetMax (w : weighted_snapshot) : res (Z * bool) :=
  let length := Z.of_nat (length (ws_values w)) in
  if length =? 0 then Ok (0, true) else x ← ws_at w (length - 1); Ok (x, false).

(** impl/weighted_snapshot.go:131-142 [GetMean].  The slices values and
    normalizedWeights are walked in step (same length, see [ws_build]). *)
Definition ws_GetMean (w : weighted_snapshot) : f64 * bool :=
  let length := Z.of_nat (length (ws_values w)) in
  if length =? 0 then (f0, true)
  else (fold_left (fun sum e => fadd sum (fmul (f_of_int e.1) e.2)) (zip (ws_values w) (ws_normalizedWeights w)) f0, false).

(** impl/weighted_snapshot.go:144-150 [GetMin] *)
Definition ws_GetMin (w : weighted_snapshot) : res (Z * bool) :=
  let length := Z.of_nat (length (ws_values w)) in
  if length =? 0 then Ok (0, true) else x ← ws_at w 0; Ok (x, false).

(** impl/weighted_snapshot.go:152-166 [GetStdDev] *)
Definition ws_GetStdDev (w : weighted_snapshot) : f64 * bool :=
  let length := Z.of_nat (length (ws_values w)) in
  if length <=? 1 then (f0, false)
  else
    let mean := (ws_GetMean w).1 in
    let variance := fold_left (fun variance e =>
                      let diff := fsub (f_of_int e.1) mean in
                      fadd variance (fmul (fmul e.2 diff) diff))
                      (zip (ws_values w) (ws_normalizedWeights w)) f0 in
    (fsqrt variance, false).
