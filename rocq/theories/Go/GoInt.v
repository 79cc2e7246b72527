(** Go's 64-bit integers and panics.
    int64 (and int, which is 64 bits wide on the supported platforms) are
    modelled as [Z]; [wrap64] is the two's-complement reduction Go applies to
    the result of +, - and * .  Go's / and % truncate towards zero, i.e. they
    are [Z.quot] and [Z.rem]; division by zero is a run-time panic. *)
From stdpp Require Export base list gmap strings sorting.
From Coq Require Export ZArith Lia.

Definition two63 : Z := 9223372036854775808.
Definition two64 : Z := 18446744073709551616.

Definition in64 (x : Z) : Prop := (- two63 <= x < two63)%Z.

Definition wrap64 (x : Z) : Z := ((x + two63) mod two64 - two63)%Z.

(** uint64(x) for an int64 x. *)
Definition to_uint64 (x : Z) : Z := (x mod two64)%Z.

(** int64(x) for a uint64 x. *)
Definition uint64_to_int64 (x : Z) : Z := wrap64 x.

(** The outcome of a Go call: a value, or a run-time panic. *)
Inductive res (A : Type) : Type :=
| Ok (a : A)
| Panic.
Arguments Ok {A} a.
Arguments Panic {A}.

Global Instance res_ret : MRet res := fun A a => Ok a.
Global Instance res_bind : MBind res :=
  fun A B f m => match m with Ok a => f a | Panic => Panic end.

(** Slice indexing / pointer dereference: out of range (or nil) panics. *)
Definition of_option {A} (o : option A) : res A :=
  match o with Some a => Ok a | None => Panic end.

(** x / y on int64. *)
Definition go_div (x y : Z) : res Z :=
  if Z.eqb y 0 then Panic else Ok (wrap64 (Z.quot x y)).

(** x % y on int64. *)
Definition go_mod (x y : Z) : res Z :=
  if Z.eqb y 0 then Panic else Ok (Z.rem x y).

(** Run a list of operations, stopping at the first panic. *)
Definition run_ops {S O} (step : S -> O -> res S) : S -> list O -> res S :=
  fix go s ops :=
    match ops with
    | [] => Ok s
    | o :: ops' => match step s o with Ok s' => go s' ops' | Panic => Panic end
    end.

Section facts.
Local Open Scope Z_scope.

Lemma wrap64_range x : in64 (wrap64 x).
Proof.
  unfold in64, wrap64, two63, two64.
  pose proof (Z.mod_pos_bound (x + 9223372036854775808) 18446744073709551616).
  lia.
Qed.

Lemma wrap64_id x : in64 x -> wrap64 x = x.
Proof.
  unfold in64, wrap64, two63, two64. intros H. rewrite Z.mod_small; lia.
Qed.

Lemma wrap64_cong x y : (exists k, x = y + k * two64) -> wrap64 x = wrap64 y.
Proof.
  intros [k ->]. unfold wrap64.
  replace (y + k * two64 + two63) with (y + two63 + k * two64) by lia.
  rewrite Z.mod_add; [reflexivity | discriminate].
Qed.

Lemma wrap64_form x : exists k, wrap64 x = x + k * two64.
Proof.
  unfold wrap64.
  exists (- ((x + two63) / two64)).
  pose proof (Z.div_mod (x + two63) two64). unfold two64 in *. lia.
Qed.

Lemma wrap64_add_l x y : wrap64 (wrap64 x + y) = wrap64 (x + y).
Proof.
  apply wrap64_cong. destruct (wrap64_form x) as [k ->]. exists k. lia.
Qed.

Lemma wrap64_add_r x y : wrap64 (x + wrap64 y) = wrap64 (x + y).
Proof.
  apply wrap64_cong. destruct (wrap64_form y) as [k ->]. exists k. lia.
Qed.

Lemma wrap64_wrap64 x : wrap64 (wrap64 x) = wrap64 x.
Proof. apply wrap64_id, wrap64_range. Qed.

Lemma to_uint64_wrap x : to_uint64 (wrap64 x) = x mod two64.
Proof.
  unfold to_uint64. destruct (wrap64_form x) as [k ->].
  rewrite Z.mod_add; [reflexivity | discriminate].
Qed.

Lemma wrap64_0 : wrap64 0 = 0.
Proof. reflexivity. Qed.

Lemma run_ops_app {S O} (step : S -> O -> res S) s l1 l2 :
  run_ops step s (l1 ++ l2) =
  match run_ops step s l1 with Ok s' => run_ops step s' l2 | Panic => Panic end.
Proof.
  revert s. induction l1 as [|o l1 IH]; intros s; [reflexivity|].
  cbn. destruct (step s o); [apply IH | reflexivity].
Qed.

End facts.
