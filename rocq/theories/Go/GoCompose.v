(** A program whose goroutines use objects with steps of their own.  The program (the
    client) is given by its steps on its own variables; some of them call a method of an
    object or create one.  A goroutine that has called a method executes the steps of that
    method, interleaved with everybody else's steps, and goes on in the client when the
    method has returned.  Time passes for the client and for all objects alike. *)
From Verif.Go Require Import GoInt GoConc.

(** What a step of the client does besides changing the client's variables: nothing,
    create the object [k] in the state [o], or call the method [a] of the object [k]. *)
Inductive effect (K A OS : Type) := Silent | Create (k : K) (o : OS) | Invoke (k : K) (a : A).
Arguments Silent {K A OS}.
Arguments Create {K A OS} k o.
Arguments Invoke {K A OS} k a.

(** A goroutine: where it is in the client; the object it is inside of, if any; what is
    local to it in each object it has called (where it is in the method, and what the
    model of the object keeps about it); and, a ghost, the calls it has made. *)
Record gthread (T OT K A : Type) `{Countable K} := GThread { gt_client : T; gt_in : option K; gt_local : gmap K OT; gt_made : list (K * A) }.
Arguments GThread {T OT K A _ _} _ _ _ _.
Arguments gt_client {T OT K A _ _} _.
Arguments gt_in {T OT K A _ _} _.
Arguments gt_local {T OT K A _ _} _.
Arguments gt_made {T OT K A _ _} _.

(** The variables of the client, the objects, and what the environment last showed. *)
Record gshared (S E K OS : Type) `{Countable K} := GShared { gs_client : S; gs_objs : gmap K OS; gs_env : E }.
Arguments GShared {S E K OS _ _} _ _ _.
Arguments gs_client {S E K OS _ _} _.
Arguments gs_objs {S E K OS _ _} _.
Arguments gs_env {S E K OS _ _} _.

(** What the environment shows during a schedule. *)
Definition shown {E} (sched : list (event E)) : list E := omap (fun ev => match ev with Env e => Some e | Run _ => None end) sched.

Section compose.
  Context {S T E K A OS OT : Type} `{Countable K}.
  (** The client; [halted]: the process has been aborted. *)
  Context (tstep : S -> T -> option (S * T)) (estep : S -> E -> S) (halted : S -> bool).
  Context (eff : S -> T -> E -> option (effect K A OS)).
  (** The objects; [idle]: a goroutine that has not called the object; [push]: it calls a method. *)
  Context (ostep : OS -> OT -> option (OS * OT)) (oestep : OS -> E -> OS) (idle : OT) (push : OT -> A -> OT) (returned : OT -> bool).

  (** What is local to a goroutine in the object [k]. *)
  Definition inside_of (k : K) (t : gthread T OT K A) : OT := default idle (gt_local t !! k).

  Definition gstep (s : gshared S E K OS) (t : gthread T OT K A) : option (gshared S E K OS * gthread T OT K A) :=
    if halted (gs_client s) then None else
    match gt_in t with
    | Some k =>
        if returned (inside_of k t) then Some (s, GThread (gt_client t) None (gt_local t) (gt_made t))
        else
          match gs_objs s !! k with
          | Some o =>
              match ostep o (inside_of k t) with
              | Some (o', ot') =>
                  Some (GShared (gs_client s) (<[k := o']> (gs_objs s)) (gs_env s), GThread (gt_client t) (Some k) (<[k := ot']> (gt_local t)) (gt_made t))
              | None => None
              end
          | None => None
          end
    | None =>
        match tstep (gs_client s) (gt_client t), eff (gs_client s) (gt_client t) (gs_env s) with
        | Some (s', t'), Some Silent => Some (GShared s' (gs_objs s) (gs_env s), GThread t' None (gt_local t) (gt_made t))
        | Some (s', t'), Some (Create k o) => Some (GShared s' (<[k := o]> (gs_objs s)) (gs_env s), GThread t' None (gt_local t) (gt_made t))
        | Some (s', t'), Some (Invoke k a) =>
            Some (GShared s' (gs_objs s) (gs_env s), GThread t' (Some k) (<[k := push (inside_of k t) a]> (gt_local t)) (gt_made t ++ [(k, a)]))
        | _, _ => None
        end
    end.

  Definition gestep (s : gshared S E K OS) (e : E) : gshared S E K OS :=
    GShared (estep (gs_client s) e) ((fun o => oestep o e) <$> gs_objs s) e.

  Definition ginit (s0 : S) (objs0 : gmap K OS) (e0 : E) (ts : list T) : config (gshared S E K OS) (gthread T OT K A) :=
    Config (GShared s0 objs0 e0) ((fun t => GThread t None ∅ []) <$> ts).
  Definition grun (s0 : S) (objs0 : gmap K OS) (e0 : E) (ts : list T) (sched : list (event E)) : config (gshared S E K OS) (gthread T OT K A) :=
    crun gstep gestep (ginit s0 objs0 e0 ts) sched.

  (** The calls of the object [k] among the calls [l]. *)
  Definition calls_of (k : K) (l : list (K * A)) : list A := omap (fun x => if decide (x.1 = k) then Some x.2 else None) l.
End compose.
