(** What the documentation of the configuration promises. *)
From Verif.Go Require Import GoInt.
Local Open Scope Z_scope.

(** The configured value when positive, the default otherwise. *)
Definition positive_or (default configured answer : Z) : Prop :=
  (0 < configured -> answer = configured) /\ (configured <= 0 -> answer = default).

Definition seconds (n : Z) : Z := n * 1000000000.

(** A spelling of "all" with any letter in upper or lower case. *)
Definition is_all (s : string) : Prop :=
  exists a b c, (a = "a" \/ a = "A") /\ (b = "l" \/ b = "L") /\ (c = "l" \/ c = "L") /\
    s = (a +:+ b +:+ c)%string.
