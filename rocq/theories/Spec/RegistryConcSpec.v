(** Vocabulary for the concurrent registry statements. *)
From Verif.Go Require Import GoInt GoConc.
From Verif.Model Require Import Registry RegistryConc.
From Verif.Spec Require Import BucketSpec.
Local Open Scope Z_scope.

(** Some goroutine has finished the call [op] with result [x]. *)
Definition completed (c : config rshared rthread) (op : rop) (x : option (res metric)) : Prop :=
  exists i t, threads c !! i = Some t /\ (op, x) ∈ rt_got t.

(** GetMetrics of registry [r] now shows [m] under hash key [h]. *)
Definition listed (c : config rshared rthread) (r : nat) (h : string) (m : metric) : Prop :=
  exists reg e, rs_regs (shared c) !! r = Some reg /\ reg_GetMetrics reg !! h = Some e /\ e_metric e = m.

(** Where a lookup looks: a registry or a group, and the hash key. *)
Definition place (op : rop) : option (nat + string) * string :=
  match op with
  | RLookup r _ nm => (Some (inl r), nm_hash nm)
  | GLookup g _ nm => (Some (inr g), nm_hash nm)
  | GSetEnable _ => (None, EmptyString)
  end.

(** The number of calls in all programs together. *)
Definition calls (progs : list (list rop)) : Z := sumZ ((fun p => Z.of_nat (length p)) <$> progs).

(** The lookup of kind [k] under the name [nm] at a registry or a group. *)
Definition lookup_at (pl : nat + string) (k : mkind) (nm : nameref) : rop :=
  match pl with inl r => RLookup r k nm | inr g => GLookup g k nm end.
(** The different hash keys looked up there by the programs. *)
Definition keys_at (pl : nat + string) (progs : list (list rop)) : gset string :=
  list_to_set (omap (fun op => if decide ((place op).1 = Some pl) then Some (place op).2 else None) (mjoin progs)).
(** The limit there: as given for a registry, 5000 for a group. *)
Definition limit_at (pl : nat + string) (maxs : list Z) : option Z := match pl with inl r => maxs !! r | inr _ => Some 5000 end.
(** Directly used registries exist. *)
Definition registries_exist (maxs : list Z) (progs : list (list rop)) : Prop :=
  Forall (Forall (fun o => match o with RLookup r _ _ => (r < length maxs)%nat | _ => True end)) progs.
(** Nobody disables the manager (this matters for groups only). *)
Definition stays_enabled (pl : nat + string) (progs : list (list rop)) : Prop :=
  match pl with inl _ => True | inr _ => Forall (Forall (fun o => o <> GSetEnable false)) progs end.
(** The registry behind a place. *)
Definition behind (pl : nat + string) (s : rshared) (r : nat) : Prop := match pl with inl r' => r = r' | inr g => rs_groups s !! g = Some r end.
