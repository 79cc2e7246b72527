(** impl/uniform_snapshot.go.  A result (x, err) is modelled as (x, b) with
    [b = true] when err is not nil. *)
From Verif.Go Require Import GoInt GoFloat.
Local Open Scope Z_scope.

(** impl/uniform_snapshot.go:31-33.  The snapshot's own array, see [newUniformSnapshot]. *)
Record uniform_snapshot := UniformSnapshot { us_values : list Z }.

(** impl/uniform_snapshot.go:152-160: sort.Sort(Int64Slice(copied)), ascending.
    (On integers the sorted rearrangement is unique, so the algorithm does not
    matter.) *)
Definition sort_int64 (l : list Z) : list Z := merge_sort Z.le l.

(** impl/uniform_snapshot.go:152-160 [NewUniformSnapshot] *)
Definition NewUniformSnapshot (values : list Z) : uniform_snapshot := UniformSnapshot (sort_int64 values).

(** impl/uniform_snapshot.go:69-71 [Size] *)
Definition us_Size (u : uniform_snapshot) : Z * bool := (Z.of_nat (length (us_values u)), false).

(** values[i]: panics when out of range *)
Definition us_at (u : uniform_snapshot) (i : Z) : res Z :=
  if i <? 0 then Panic else of_option (us_values u !! Z.to_nat i).

(** impl/uniform_snapshot.go:35-60 [GetValue] *)
Definition us_GetValue (u : uniform_snapshot) (quantile : f64) : res (f64 * bool) :=
  if flt quantile f0 || flt f1 quantile || fisnan quantile then Ok (f0, true)
  else
    let size := (us_Size u).1 in
    if size =? 0 then Ok (f0, false)
    else
      let pos := fmul quantile (f_of_int (size + 1)) in
      let index := int_of_f pos in
      if index <? 1 then x ← us_at u 0; Ok (f_of_int x, false)
      else if size <=? index then x ← us_at u (size - 1); Ok (f_of_int x, false)
      else
        lower ← us_at u (index - 1);
        upper ← us_at u index;
        Ok (fadd (f_of_int lower)
              (fmul (fsub pos (ffloor pos)) (f_of_int (wrap64 (upper - lower)))), false).

(** impl/uniform_snapshot.go:62-67 [GetValues] *)
Definition us_GetValues (u : uniform_snapshot) : list Z * bool := (us_values u, false).

(** impl/uniform_snapshot.go:73-79 [GetMax] *)
Definition us_GetMax (u : uniform_snapshot) : res (Z * bool) :=
  let size := (us_Size u).1 in
  if size =? 0 then Ok (0, false) else x ← us_at u (size - 1); Ok (x, false).

(** impl/uniform_snapshot.go:96-103 [GetMin] *)
Definition us_GetMin (u : uniform_snapshot) : res (Z * bool) :=
  let size := (us_Size u).1 in
  if size =? 0 then Ok (0, false) else x ← us_at u 0; Ok (x, false).

(** impl/uniform_snapshot.go:81-94 [GetMean] *)
Definition us_GetMean (u : uniform_snapshot) : f64 * bool :=
  let size := (us_Size u).1 in
  if size =? 0 then (f0, false)
  else
    let sum := fold_left (fun sum value => wrap64 (sum + value)) (us_values u) 0 in
    (fdiv (f_of_int sum) (f_of_int size), false).

(** impl/uniform_snapshot.go:105-120 [GetStdDev] *)
Definition us_GetStdDev (u : uniform_snapshot) : f64 * bool :=
  let size := (us_Size u).1 in
  if size <=? 1 then (f0, false)
  else
    let mean := (us_GetMean u).1 in
    let diffSum := fold_left (fun diffSum value =>
                     let diff := fsub (f_of_int value) mean in
                     fadd diffSum (fmul diff diff)) (us_values u) f0 in
    let variance := fdiv diffSum (f_of_int (size - 1)) in
    (fsqrt variance, false).

(** impl/uniform_snapshot.go:122-150: the percentiles; a decimal constant is the
    nearest double, which is what the division of two small integers gives. *)
Definition us_GetMedian u := us_GetValue u (fdiv (f_of_int 5) (f_of_int 10)).
Definition us_Get75thPercentile u := us_GetValue u (fdiv (f_of_int 75) (f_of_int 100)).
Definition us_Get95thPercentile u := us_GetValue u (fdiv (f_of_int 95) (f_of_int 100)).
Definition us_Get98thPercentile u := us_GetValue u (fdiv (f_of_int 98) (f_of_int 100)).
Definition us_Get99thPercentile u := us_GetValue u (fdiv (f_of_int 99) (f_of_int 100)).
Definition us_Get999thPercentile u := us_GetValue u (fdiv (f_of_int 999) (f_of_int 1000)).

(** ** The arrays behind the slices.  An array is known by its address; slices
    here always cover a whole array. *)
Notation memory := (list (list Z)).
Notation slice := nat.

(** impl/uniform_snapshot.go:152-160: make, copy, sort in place; the snapshot
    refers to the new array. *)
Definition mem_NewUniformSnapshot (mem : memory) (values : slice) : option (memory * slice) :=
  src ← mem !! values;
  Some (mem ++ [sort_int64 src], length mem).

(** impl/uniform_snapshot.go:62-67: make, copy. *)
Definition mem_GetValues (mem : memory) (snapshot : slice) : option (memory * slice) :=
  src ← mem !! snapshot; Some (mem ++ [src], length mem).

(** s[i] = v *)
Definition mem_write (mem : memory) (s : slice) (i : nat) (v : Z) : memory :=
  match mem !! s with Some l => <[s := <[i := v]> l]> mem | None => mem end.
