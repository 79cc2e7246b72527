(** Vocabulary for the uniform reservoir. *)
From Verif.Go Require Import GoInt.
From Verif.Spec Require Import BucketSpec.
Local Open Scope Z_scope.

(** The position handed to the i-th update (counting from 1) is what a uniform
    draw from [0,i) can give. *)
Definition picks_in_range (ups : list (Z * Z)) : Prop :=
  forall i v p, ups !! i = Some (v, p) -> 0 <= p <= Z.of_nat i.

(** All vectors of positions: the first entry ranges over [0,a), the next over
    [0,a+1), ... ([k] entries). *)
Fixpoint pick_vectors (a : nat) (k : nat) : list (list Z) :=
  match k with
  | O => [[]]
  | S k' => p ← Z.of_nat <$> seq 0 a; (fun ps => p :: ps) <$> pick_vectors (S a) k'
  end.

(** The number of elements of a list that satisfy a predicate. *)
Definition count_if {A} (P : A -> bool) (l : list A) : Z := Z.of_nat (length (filter (fun x => P x = true) l)).
