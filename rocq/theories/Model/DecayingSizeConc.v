(** impl/exponentially_decaying_reservoir.go: goroutines that call Size next to goroutines
    that call UpdateN and GetSnapshot (Model/DecayingConc.v).  Size takes no lock and loads
    [count] once for the comparison and, if it is below the capacity, once more for the
    result; every load is a step. *)
From Verif.Go Require Import GoInt GoFloat GoConc.
From Verif.Model Require Import WeightedSnapshot DecayingReservoir DecayingConc.
Local Open Scope Z_scope.

(** What a goroutine is started with: calls of UpdateN and GetSnapshot, or a number of
    calls of Size. *)
Inductive sz_prog := PUse (calls : list dx_call) | PSize (n : nat).

(** [SSize n false got]: [n] more calls to make, the results so far; [SSize n true got]: in
    a call, line 70 (about to load [count] for the result). *)
Inductive sz_thread := SUse (t : dxthread) | SSize (n : nat) (second : bool) (got : list Z).

Definition sz_tstep (math_Exp : f64 -> f64) (s : dx_shared) (t : sz_thread) : option (dx_shared * sz_thread) :=
  let rsv := ds_rsv s in
  match t with
  | SUse t => match dx_tstep math_Exp s t with Some (s', t') => Some (s', SUse t') | None => None end
  | SSize O false got => None
  | SSize (S n) false got => (* line 69 *)
      if ed_count rsv <? ed_size rsv then Some (s, SSize n true got)
      else Some (s, SSize n false (got ++ [ed_size rsv])) (* line 72 *)
  | SSize n true got => Some (s, SSize n false (got ++ [ed_count rsv])) (* line 70 *)
  end.

Definition sz_start (p : sz_prog) : sz_thread :=
  match p with PUse calls => SUse (DxThread calls XIdle []) | PSize n => SSize n false [] end.

Definition sz_crun (math_Exp : f64 -> f64) (size : Z) (alpha : f64) (ms0 tick0 : Z) (progs : list sz_prog)
  (sched : list (event (Z * Z))) : config dx_shared sz_thread :=
  crun (sz_tstep math_Exp) dx_estep
    (Config (DxShared (NewEDR size alpha ms0 tick0) false 0 ms0 tick0 []) (sz_start <$> progs)) sched.
