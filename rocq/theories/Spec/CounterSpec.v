(** What each call of the counter APIs is supposed to add. *)
From Verif.Go Require Import GoInt.
From Verif.Model Require Import Counter BucketQueue BucketCounter.
Local Open Scope Z_scope.

(** Counter interface (counter.go). *)
Definition counter_delta (o : counter_op) : Z :=
  match o with CInc => 1 | CIncN n => n | CDec => -1 | CDecN n => - n end.

(** BucketCounter interface (bucket_counter.go). *)
Definition bc_delta (o : bc_op) : Z :=
  match o with
  | BUpdate => 1 | BUpdateN n => n | BInc => 1 | BIncN n => n
  | BDec => -1 | BDecN n => - n
  end.

(** The (time, amount) history of a sequence of (time, call). *)
Definition bc_hist (ops : list (Z * bc_op)) : list (Z * Z) :=
  (fun o => (o.1, bc_delta o.2)) <$> ops.
