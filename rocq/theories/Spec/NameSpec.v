(** What a hash key is supposed to be: the key, and after a dash the tags in
    some order, each as name:value. *)
From Verif.Go Require Import GoInt.

Fixpoint join (l : list string) : string :=
  match l with [] => ""%string | s :: l' => (s +:+ join l')%string end.

(** [order] lists the entries of [tags], each once. *)
Definition iterates {K V} `{Countable K} (order : list (K * V)) (tags : gmap K V) : Prop :=
  order ≡ₚ map_to_list tags.

Definition hash_in_order (key : string) (order : list (string * string)) : string :=
  match order with
  | [] => key
  | _ => (key +:+ "-" +:+ join ((fun kv => kv.1 +:+ ":" +:+ kv.2) <$> order))%string
  end.

Fixpoint has_char (c : Ascii.ascii) (s : string) : bool :=
  match s with EmptyString => false | String d s' => Ascii.eqb c d || has_char c s' end.
