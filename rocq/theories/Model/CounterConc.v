(** impl/counter_impl.go used by several goroutines: every method is one atomic
    access of the count ([atomic.AddInt64], or the load in GetCount). *)
From Verif.Go Require Import GoInt GoConc.
From Verif.Model Require Import Counter.
Local Open Scope Z_scope.

(** A call: an update (counter.go:24-46) or GetCount (counting.go). *)
Inductive counter_call := CUpd (o : counter_op) | CGet.

(** A goroutine: the calls still to make, and what its GetCount calls returned. *)
Record counter_thread := CThread { ct_todo : list counter_call; ct_got : list Z }.

(** impl/counter_impl.go:41-59, one method per step. *)
Definition counter_tstep (c : counter) (t : counter_thread) : option (counter * counter_thread) :=
  match ct_todo t with
  | [] => None
  | CUpd o :: todo => Some (counter_step c o, CThread todo (ct_got t))
  | CGet :: todo => Some (c, CThread todo (ct_got t ++ [counter_GetCount c]))
  end.

(** No environment events. *)
Definition counter_crun (progs : list (list counter_call)) (sched : list (event Empty_set))
  : config counter counter_thread :=
  crun counter_tstep (fun s _ => s) (Config newCounter ((fun p => CThread p []) <$> progs)) sched.
