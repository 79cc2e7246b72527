(** Vocabulary for a fast compass used step by step. *)
From Verif.Go Require Import GoInt GoConc.
From Verif.Model Require Import Counter BucketQueue BucketCounter FastCompass BucketCounterConc BucketReadConc FastCompassConc FastCompassFine.
From Verif.Spec Require Import BucketSpec FastCompassSpec FastCompassConcSpec.
Local Open Scope Z_scope.

(** The (duration, category) of the Record calls of a program that are valid. *)
Definition valid_calls (calls : list qcall) : list (Z * string) :=
  flat_map (fun call => match call with
    | QRecord d cat => if decide (0 <= d /\ cat <> ""%string) then [(d, cat)] else []
    | QGet _ _ _ | QLast _ => []
    end) calls.

(** The Record call a goroutine has begun and whose amount has not been added yet. *)
Definition recording (pc : qpc) : list (Z * string) :=
  match pc with
  | QAt pc => begun pc
  | QUpdate d cat _ (BThread [] PIdle) => []
  | QUpdate d cat _ _ => [(d, cat)]
  | _ => []
  end.

Definition q_done (t : qthread) : Prop := q_todo t = [] /\ q_pc t = QAt FIdle.

(** What a getter reports for the interval that starts at [k] when [recs] are the records of
    a category: 38 bits of milliseconds, 26 bits of invocations, or both in one number. *)
Definition reported (g : getter) (I : Z) (recs : list fc_record) (k : Z) : Z :=
  let hc := by_latest (-1000) I (invocations recs) in
  let hm := by_latest (-1000) I (durations_ms recs) in
  match g with
  | GCount => (sum_at k hc + sum_at k hm / 2 ^ 38) mod 2 ^ 26
  | GRt => sum_at k hm mod 2 ^ 38
  | GBoth => wrap64 (2 ^ 38 * sum_at k hc + sum_at k hm)
  end.

(** Calls that only Record, with categories among [cats] (or refused). *)
Definition records_within (cats : string -> Prop) (call : qcall) : Prop :=
  match call with QRecord d cat => 0 <= d -> cat <> ""%string -> cats cat | _ => True end.
Definition only_records (call : qcall) : Prop := match call with QRecord _ _ => True | _ => False end.

(** The getter called with nobody else running (impl/default_fast_compass.go:111-159). *)
Definition getter_alone (g : getter) : fast_compass -> list string -> (string -> Z) -> Z -> res fc_result :=
  match g with
  | GCount => fc_GetMethodCountPerCategorySince
  | GRt => fc_GetMethodRtPerCategorySince
  | GBoth => fc_GetCountAndRtPerCategorySince
  end.

(** Nobody changes the compass between the end of [s1] and the end of [s1 ++ s2]. *)
Definition compass_untouched (fc0 : fast_compass) (now0 : Z) (progs : list (list qcall)) (s1 s2 : list (event Z)) : Prop :=
  forall s', s' `prefix_of` s2 -> fs_fc (shared (ff_crun fc0 now0 progs (s1 ++ s'))) = fs_fc (shared (ff_crun fc0 now0 progs s1)).

(** The order of visit a getter or LastUpdateTime call was given. *)
Definition order_of (call : qcall) : option (list string) :=
  match call with QRecord _ _ => None | QGet _ _ order => Some order | QLast order => Some order end.

(** What a call asks for and what a result answers: a getter with its start time, or (None)
    LastUpdateTime. *)
Definition asks (call : qcall) : option (option (getter * Z)) :=
  match call with QRecord _ _ => None | QGet g st _ => Some (Some (g, st)) | QLast _ => Some None end.
Definition answers (job : qjob) : option (getter * Z) :=
  match job with JMap g st _ => Some (g, st) | JLast _ => None end.
(** The question a goroutine is answering. *)
Definition asking (pc : qpc) : list (option (getter * Z)) :=
  match pc with
  | QAt _ | QUpdate _ _ _ _ => []
  | QStart job _ | QIter job _ => [answers job]
  | QRead g st _ _ _ _ => [Some (g, st)]
  | QLoad _ _ _ | QStamp _ _ _ _ => [None]
  end.

(** Each result has been returned by a call. *)
Definition returned_by (fc0 : fast_compass) (now0 : Z) (progs : list (list qcall)) (i : nat) (s : list (event Z)) (got : list qjob) (job : qjob) : Prop :=
  exists s1 s2 s3 call todo, s = s1 ++ s2 ++ s3 /\ asks call = Some (answers job) /\
    threads (ff_crun fc0 now0 progs s1) !! i = Some (QThread (call :: todo) (QAt FIdle) got) /\
    threads (ff_crun fc0 now0 progs (s1 ++ s2)) !! i = Some (QThread todo (QAt FIdle) (got ++ [job])).

(** The results [results] a goroutine [i] with program [prog] has got from getters are real:
    each belongs to one of its calls (in order), and each value in it is what had been recorded
    for the category in that interval when a first part [log'] of the Records in [log] had
    taken effect, among them all of the goroutine's own Records before the call. *)
Definition real_results (interval N : Z) (recs0 : list fc_record) (log : list (nat * fc_record)) (i : nat) (prog : list qcall) (results : list qjob) : Prop :=
  forall got g st res rest, results = got ++ JMap g st res :: rest -> -1000 < st ->
  exists before call after, prog = before ++ call :: after /\ asks call = Some (Some (g, st)) /\ omap asks before = answers <$> got /\
    forall cat m, res !! cat = Some m -> (size m <= Z.to_nat N)%nat /\
    forall key v, m !! key = Some v -> st <= key /\
      exists log', log' `prefix_of` log /\ log_of i log' = valid_calls before /\
        v = reported g (interval `quot` Second) (records_of cat (recs0 ++ log'.*2)) key.
