(** impl/uniform_reservoir.go.  Every method holds the mutex for its whole body,
    so calls are atomic (see Model/ReservoirConc.v for the interleaved version).
    The random source is an input: each UpdateN gets the raw numbers its source
    would produce. *)
From Verif.Go Require Import GoInt.
From Verif.Model Require Import UniformSnapshot.
Local Open Scope Z_scope.

(** impl/uniform_reservoir.go:31  2^63 - 1 *)
Definition randomMask : Z := 9223372036854775807.
(** impl/uniform_reservoir.go:32 *)
Definition defaultUniformReservoirSize : Z := 1024.

(** impl/uniform_reservoir.go:39-43 *)
Record uniform_reservoir := UniformReservoir { ur_count : Z; ur_values : list Z }.

(** impl/uniform_reservoir.go:92-96; [size] >= 0 (make panics otherwise) *)
Definition NewUniformReservoir (size : Z) : res uniform_reservoir :=
  if size <? 0 then Panic else Ok (UniformReservoir 0 (replicate (Z.to_nat size) 0)).

(** impl/uniform_reservoir.go:45-53 [Size] *)
Definition ur_Size (u : uniform_reservoir) : Z :=
  let size := Z.of_nat (length (ur_values u)) in
  if size <? ur_count u then size else ur_count u.

(** impl/uniform_reservoir.go:71-84 [nextRandomPos]: one turn of the loop, for the
    raw number [r] in [0,2^63). *)
Definition draw_val (n r : Z) : Z := Z.rem (Z.land r randomMask) n.
Definition draw_ok (n r : Z) : bool := 0 <=? wrap64 (wrap64 (wrap64 (Z.land r randomMask - draw_val n r) + n) - 1).
(** [draws]: the numbers the source produces; None when the loop is still running
    after all of them. *)
Fixpoint nextRandomPos (n : Z) (draws : list Z) : option Z :=
  match draws with
  | [] => None
  | r :: draws' => if draw_ok n r then Some (draw_val n r) else nextRandomPos n draws'
  end.

(** values[i] = v: panics when out of range *)
Definition set_at (l : list Z) (i v : Z) : res (list Z) :=
  if (0 <=? i) && (i <? Z.of_nat (length l)) then Ok (<[Z.to_nat i := v]> l) else Panic.

(** impl/uniform_reservoir.go:55-69 [UpdateN]; [pick]: what nextRandomPos returns
    if it is called. *)
Definition ur_UpdateN (u : uniform_reservoir) (value pick : Z) : res uniform_reservoir :=
  let count := wrap64 (ur_count u + 1) in
  let size := Z.of_nat (length (ur_values u)) in
  if count <=? size then
    values ← set_at (ur_values u) (wrap64 (count - 1)) value; Ok (UniformReservoir count values)
  else if pick <? size then
    values ← set_at (ur_values u) pick value; Ok (UniformReservoir count values)
  else Ok (UniformReservoir count (ur_values u)).

(** impl/uniform_reservoir.go:86-90 [GetSnapshot] *)
Definition ur_GetSnapshot (u : uniform_reservoir) : uniform_snapshot := NewUniformSnapshot (ur_values u).

(** A history of (value, pick). *)
Definition ur_run (u : uniform_reservoir) (ups : list (Z * Z)) : res uniform_reservoir :=
  run_ops (fun u up => ur_UpdateN u up.1 up.2) u ups.
Definition ur_exec (size : Z) (ups : list (Z * Z)) : res uniform_reservoir :=
  u ← NewUniformReservoir size; ur_run u ups.
