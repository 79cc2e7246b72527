(** ewma.go *)
From Verif.Go Require Import GoInt GoFloat.
Local Open Scope Z_scope.

(** ewma.go:52-60; the mutex is in Model/EWMAConc.v *)
Record ewma := EWMA {
  ew_initialized : bool;
  ew_rate : f64;
  ew_uncounted : Z;
  ew_alpha : f64;
  ew_interval : Z
}.

(** ewma.go:62-64 [Update] *)
Definition ew_Update (e : ewma) (n : Z) : ewma :=
  EWMA (ew_initialized e) (ew_rate e) (wrap64 (ew_uncounted e + n)) (ew_alpha e) (ew_interval e).

(** ewma.go:67 *)
Definition instantRate (interval count : Z) : f64 := fdiv (f_of_int count) (f_of_int interval).

(** ewma.go:66-80 [TickN] *)
Definition ew_TickN (e : ewma) (count : Z) : ewma :=
  let instant := instantRate (ew_interval e) count in
  if ew_initialized e then
    let delta := fmul (ew_alpha e) (fsub instant (ew_rate e)) in
    EWMA true (fadd (ew_rate e) delta) (ew_uncounted e) (ew_alpha e) (ew_interval e)
  else EWMA true instant (ew_uncounted e) (ew_alpha e) (ew_interval e).

(** ewma.go:82-90 [Tick], called by a single goroutine. *)
Definition ew_Tick (e : ewma) : ewma :=
  let old := ew_uncounted e in
  ew_TickN (EWMA (ew_initialized e) (ew_rate e) 0 (ew_alpha e) (ew_interval e)) old.

(** ewma.go:96-98 [GetRate]; [timeUnit] in nanoseconds *)
Definition ew_GetRate (e : ewma) (timeUnit : Z) : f64 := fmul (ew_rate e) (f_of_int timeUnit).

(** ewma.go:112-118 *)
Definition newEWMA (alpha : f64) (interval : Z) : ewma := EWMA false f0 0 alpha interval.

(** EWMA{}: Go's zero value. *)
Definition zeroEWMA : ewma := EWMA false f0 0 f0 0.

(** ewma.go:28, 100-110: ewmaInterval * time.Second *)
Definition ewmaInterval : Z := 5000000000.
(** ewma.go:36-38: 1 - math.Exp(...); [e]: what math.Exp returned. *)
Definition alpha_of_exp (e : f64) : f64 := fsub f1 e.
