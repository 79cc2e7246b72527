(** Vocabulary for the snapshot statements. *)
From Verif.Go Require Import GoInt GoFloat.
From Verif.Spec Require Import BucketSpec.
From Coq Require Import Reals.
Local Open Scope Z_scope.

(** The ascending rearrangement of the values. *)
Definition ascending (l : list Z) : Prop := StronglySorted Z.le l.

(** [m] is the smallest (largest) element of [l]. *)
Definition is_min (m : Z) (l : list Z) : Prop := m ∈ l /\ forall x, x ∈ l -> m <= x.
Definition is_max (m : Z) (l : list Z) : Prop := m ∈ l /\ forall x, x ∈ l -> x <= m.

(** Quantiles that are accepted: the doubles in [0,1]. *)
Definition valid_quantile (q : f64) : Prop := ffinite q = true /\ (0 <= RF q <= 1)%R.

(** All values have magnitude at most [b]. *)
Definition small (b : Z) (l : list Z) : Prop := Forall (fun x => Z.abs x <= b) l.
Definition sum_abs (l : list Z) : Z := sumZ (Z.abs <$> l).
