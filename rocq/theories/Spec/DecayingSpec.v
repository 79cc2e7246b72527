(** Vocabulary for the decaying reservoir. *)
From Verif.Go Require Import GoInt GoFloat.
From Verif.Model Require Import WeightedSnapshot DecayingReservoir.
From Coq Require Import Reals.
From Flocq Require Import IEEE754.BinarySingleNaN.
Local Open Scope Z_scope.

(** A usable priority: not NaN and not negative (it may be +Inf). *)
Definition key_ok (x : f64) : Prop := fle f0 x = true.

(** A scaling factor: a finite double in [0, +oo). *)
Definition factor_ok (f : f64) : Prop := ffinite f = true /\ (0 <= RF f)%R.

(** What happens to the reservoir, one critical section after the other: a value is
    offered with a priority and a weight, or everything is rescaled. *)
Inductive ed_event := Offer (priority : f64) (value : Z) (weight : f64) | Rescale (factor : f64).
Definition ed_apply (rsv : edr) (e : ed_event) : res edr :=
  match e with
  | Offer p v w => ed_insert rsv p v w
  | Rescale f => Ok (ed_rescale_body rsv f)
  end.
Fixpoint ed_events (rsv : edr) (es : list ed_event) : res edr :=
  match es with
  | [] => Ok rsv
  | e :: es => rsv' ← ed_apply rsv e; ed_events rsv' es
  end.
Definition event_ok (e : ed_event) : Prop :=
  match e with Offer p _ _ => key_ok p | Rescale f => factor_ok f end.

(** The values offered since the last rescale with factor 0 (which forgets all). *)
Fixpoint offered_from (acc : list Z) (es : list ed_event) : list Z :=
  match es with
  | [] => acc
  | Offer _ v _ :: es => offered_from (acc ++ [v]) es
  | Rescale f :: es => offered_from (if feq f f0 then [] else acc) es
  end.
Definition offered (es : list ed_event) : list Z := offered_from [] es.

(** All values offered. *)
Definition offers (es : list ed_event) : list Z := omap (fun e => match e with Offer _ v _ => Some v | _ => None end) es.

(** [kept] are the [k] samples of [all] with the highest priorities (or all). *)
Definition keeps_top (k : Z) (all kept : list sample) : Prop :=
  exists rest, Permutation all (kept ++ rest) /\
    Z.of_nat (length kept) = Z.min k (Z.of_nat (length all)) /\
    forall a b, a ∈ kept -> b ∈ rest -> flt (sm_key b) (sm_key a) = true.

(** Priorities in strictly ascending order. *)
Definition keys_ascending (l : list sample) : Prop := StronglySorted (fun a b => flt (sm_key a) (sm_key b) = true) l.

(** What is assumed of math.Exp: monotone around exp 0 = 1, never NaN or negative. *)
Definition exp_ok (math_Exp : f64 -> f64) : Prop := forall x, ffinite x = true ->
  ((RF x <= 0)%R -> ffinite (math_Exp x) = true /\ (0 <= RF (math_Exp x) <= 1)%R) /\
  ((0 <= RF x)%R -> fle f1 (math_Exp x) = true).

(** rand.Float64 gives a double in [0,1), and never -0. *)
Definition random_ok (r : f64) : Prop := ffinite r = true /\ Bsign r = false /\ (0 <= RF r < 1)%R.

(** The decay rate. *)
Definition decay_ok (alpha : f64) : Prop := ffinite alpha = true /\ (0 <= RF alpha <= 1000)%R.

(** The clock's milliseconds never go back, and stay in the next hundred million
    years.  (The ticks are arbitrary.) *)
Fixpoint times_ok (last : Z) (calls : list ed_call) : Prop :=
  match calls with
  | [] => True
  | DUpdate _ ms0 ms r _ :: calls => last <= ms0 /\ ms0 <= ms /\ ms < 2 ^ 62 /\ random_ok r /\ times_ok ms calls
  | DSnapshot _ ms0 :: calls => last <= ms0 /\ ms0 < 2 ^ 62 /\ times_ok ms0 calls
  end.
Definition updated_values (calls : list ed_call) : list Z :=
  omap (fun c => match c with DUpdate _ _ _ _ v => Some v | _ => None end) calls.

(** No call happens at or after the tick [next], when a rescale becomes due. *)
Definition no_rescale_due (next : Z) (calls : list ed_call) : Prop :=
  Forall (fun c => match c with DUpdate tick _ _ _ _ => tick < next | DSnapshot tick _ => tick < next end)%Z calls.
