(** C89: what the snapshots of a compass are taken over, for each kind of reservoir.
    (PCompass.v has the theorems that hold whatever the reservoir.) *)
From Verif.Go Require Import GoInt GoFloat.
From Verif.Model Require Import Counter BucketQueue BucketCounter Compass UniformSnapshot UniformReservoir BucketReservoir WeightedSnapshot DecayingReservoir CompassTypes.
From Verif.Spec Require Import BucketSpec CompassSpec ReservoirSpec BucketReservoirSpec DecayingSpec.
From Verif.Proofs Require Import CompassProofs.
From Verif.Props Require Import PCompass PUniformReservoir PBucketReservoir PDecaying.
From Coq Require Import Reals Lra.
Local Open Scope Z_scope.

(** The durations recorded. *)
Definition durations {RR} (calls : list (cp_call RR)) : list Z := up_duration <$> updates calls.

(** ** Uniform *)
Definition uniform_exec N I maxE maxA nowT now nowS calls : res (compass uniform_reservoir) :=
  cp ← NewCompass_uniform N I maxE maxA nowT now nowS; cp_run uniform_UpdateN uniform_GetSnapshot cp calls.
(** (duration, position) of each update *)
Definition uniform_ups (calls : list (cp_call Z)) : list (Z * Z) := (fun u => (up_duration u, up_reads u)) <$> updates calls.

Lemma uniform_rsv r (calls : list (cp_call Z)) : rsv_run uniform_UpdateN uniform_GetSnapshot r (rsv_calls calls) = ur_run r (uniform_ups calls).
Proof.
  unfold rsv_run, ur_run, uniform_ups. revert r. induction calls as [|[u|u o|t|sr] calls IH]; intros r; [done|..].
  - change (updates (CpUpdate u :: calls)) with (u :: updates calls). change (rsv_calls (CpUpdate u :: calls)) with (RUpdate (up_reads u) (up_duration u) :: rsv_calls calls).
    cbn [run_ops fmap list_fmap rsv_step fst snd]. unfold uniform_UpdateN at 1. destruct (ur_UpdateN _ _ _); [apply IH|done].
  - change (updates (CpUpdateWithError u o :: calls)) with (u :: updates calls). change (rsv_calls (CpUpdateWithError u o :: calls)) with (RUpdate (up_reads u) (up_duration u) :: rsv_calls calls).
    cbn [run_ops fmap list_fmap rsv_step fst snd]. unfold uniform_UpdateN at 1. destruct (ur_UpdateN _ _ _); [apply IH|done].
  - apply IH.
  - apply IH.
Qed.

(** The uniform reservoir holds every duration while there are at most 1024 (padded with
    zeros), and a sample of 1024 of them, each recorded once, afterwards. *)
Theorem C89_uniform N I maxE maxA nowT now nowS calls cp : PCompass.setting_ok N I -> readings_in64 calls ->
  picks_in_range (uniform_ups calls) -> Z.of_nat (length calls) < 2 ^ 63 -> uniform_exec N I maxE maxA nowT now nowS calls = Ok cp ->
  let values := (us_GetValues (ur_GetSnapshot (cp_reservoir cp))).1 in
  us_Size (ur_GetSnapshot (cp_reservoir cp)) = (1024, false) /\
  (Z.of_nat (length (durations calls)) <= 1024 -> values ≡ₚ durations calls ++ replicate (1024 - length (durations calls)) 0) /\
  (1024 <= Z.of_nat (length (durations calls)) ->
     exists idxs vals, values ≡ₚ vals /\ NoDup idxs /\ Forall2 (fun i v => durations calls !! i = Some v) idxs vals).
Proof.
  intros HS HR HP HL E values. unfold uniform_exec, NewCompass_uniform in E.
  assert ((uniform_ups calls).*1 = durations calls) as Ed by (unfold uniform_ups, durations; by rewrite <- list_fmap_compose).
  assert (length (uniform_ups calls) = length (durations calls)) as El by (unfold uniform_ups, durations; by rewrite !fmap_length).
  assert (Z.of_nat (length (uniform_ups calls)) < 2 ^ 63) as HB by (unfold uniform_ups; rewrite fmap_length; pose proof (updates_length calls); lia).
  destruct (NewUniformReservoir defaultUniformReservoirSize) as [r0|] eqn:Er; [|done]. cbn [mbind res_bind] in E.
  pose proof (C88_compass_feeds_reservoir uniform_UpdateN uniform_GetSnapshot r0 N I maxE maxA nowT now nowS calls cp HS HR E) as F.
  rewrite uniform_rsv in F.
  assert (ur_exec 1024 (uniform_ups calls) = Ok (cp_reservoir cp)) as Ex by (unfold ur_exec; change 1024 with defaultUniformReservoirSize; rewrite Er; exact F).
  destruct (C38_size 1024 (uniform_ups calls) ltac:(lia) HB HP) as (u & Eu & _ & Su). rewrite Ex in Eu. injection Eu as <-.
  destruct (C39_partial 1024 (uniform_ups calls) (cp_reservoir cp) ltac:(lia) HB HP Ex) as [A B]. rewrite Ed, El in *.
  split; [done|]. split; [exact A|exact B].
Qed.
Print Assumptions C89_uniform.

(** ** Buckets *)
Definition bucket_exec N I maxE maxA nowT now nowR nowS calls : res (compass bucket_reservoir) :=
  cp ← NewCompass_bucket N I maxE maxA nowT now nowR nowS; cp_run bucket_UpdateN bucket_GetSnapshot cp calls.
Definition bucket_events (calls : list (cp_call Z)) : list br_event := (fun u => BrEvent (up_time u) (up_reads u) (up_duration u)) <$> updates calls.

Lemma bucket_rsv r c c' r' (calls : list (cp_call Z)) :
  run_ops bc_step c (total_ops calls) = Ok c' -> rsv_run bucket_UpdateN bucket_GetSnapshot r (rsv_calls calls) = Ok r' ->
  run_ops br_step (c, r) (bucket_events calls) = Ok (c', r').
Proof.
  unfold rsv_run, bucket_events, total_ops. revert r c. induction calls as [|[u|u o|t|sr] calls IH]; intros r c.
  - cbn. intros H1 H2. injection H1 as <-. injection H2 as <-. done.
  - change (updates (CpUpdate u :: calls)) with (u :: updates calls). change (rsv_calls (CpUpdate u :: calls)) with (RUpdate (up_reads u) (up_duration u) :: rsv_calls calls).
    cbn [run_ops fmap list_fmap rsv_step]. unfold bc_step at 1. unfold br_step at 1. cbn [fst snd be_countTime be_valueTime be_value]. unfold bucket_UpdateN at 1.
    destruct (bc_UpdateN c (up_time u) 1); [|done]. cbn [mbind res_bind].
    destruct (br_UpdateN r (up_reads u) (up_duration u)); [|done]. cbn [mbind res_bind]. apply IH.
  - change (updates (CpUpdateWithError u o :: calls)) with (u :: updates calls). change (rsv_calls (CpUpdateWithError u o :: calls)) with (RUpdate (up_reads u) (up_duration u) :: rsv_calls calls).
    cbn [run_ops fmap list_fmap rsv_step]. unfold bc_step at 1. unfold br_step at 1. cbn [fst snd be_countTime be_valueTime be_value]. unfold bucket_UpdateN at 1.
    destruct (bc_UpdateN c (up_time u) 1); [|done]. cbn [mbind res_bind].
    destruct (br_UpdateN r (up_reads u) (up_duration u)); [|done]. cbn [mbind res_bind]. apply IH.
  - apply IH.
  - apply IH.
Qed.

(** The count and the value sum in a snapshot are those of the current or the previous
    interval.  (Not necessarily of the same one: C58.) *)
Theorem C89_bucket N I maxE maxA nowT now nowR nowS calls cp t1 t2 t3 : Second <= I -> in64 I -> 2 <= N -> readings_in64 calls ->
  1000 <= t1 <= t2 -> t1 <= t3 -> in64 t2 -> in64 t3 ->
  nondecreasing 0 (up_time <$> updates calls) t1 -> nondecreasing 0 (up_reads <$> updates calls) t1 ->
  bucket_exec N I maxE maxA nowT now nowR nowS calls = Ok cp ->
  let secs := I / Second in let cur := bucket_key secs t1 in let prev := cur - 1000 * secs in
  let recorded k := up_duration <$> filter (fun u => bucket_key secs (up_reads u) = k) (updates calls) in
  let counted k := Z.of_nat (length (filter (fun u => bucket_key secs (up_time u) = k) (updates calls))) in
  (exists s, cp_bucket_snapshot cp t1 t2 t3 s) /\
  forall s, cp_bucket_snapshot cp t1 t2 t3 s ->
    (exists k, (k = cur \/ k = prev) /\ bs_value s = wrap64 (sumZ (recorded k)) /\ (recorded k = [] -> recorded cur = [] /\ recorded prev = [])) /\
    (exists k, (k = cur \/ k = prev) /\ bs_count s = wrap64 (counted k) /\ (counted k = 0 -> counted cur = 0 /\ counted prev = 0)).
Proof.
  intros H1 H2 H3 HR T1 T2 T3 T4 M1 M2 E secs cur prev recorded counted.
  assert (forall k, values_in secs k (bucket_events calls) = recorded k) as Ev.
  { intros k. unfold values_in, bucket_events, recorded. clear. induction (updates calls) as [|u us IH]; [done|]. cbn [fmap list_fmap]. rewrite !filter_cons. cbn [be_valueTime].
    destruct (decide _); [|exact IH]. cbn [fmap list_fmap]. f_equal. exact IH. }
  assert (forall k, counted_in secs k (bucket_events calls) = counted k) as Ec.
  { intros k. unfold counted_in, bucket_events, counted. f_equal. clear. induction (updates calls) as [|u us IH]; [done|]. cbn [fmap list_fmap]. rewrite !filter_cons. cbn [be_countTime].
    destruct (decide _); [|exact IH]. cbn [length]. f_equal. exact IH. }
  unfold bucket_exec, NewCompass_bucket in E.
  destruct (NewBucketReservoir I N nowR) as [r0|] eqn:Er; [|done]. cbn [mbind res_bind] in E.
  pose proof (C88_compass_feeds_reservoir bucket_UpdateN bucket_GetSnapshot r0 N I maxE maxA nowT now nowS calls cp ltac:(unfold PCompass.setting_ok; split; [done|split; [done|lia]]) HR E) as F.
  destruct (exec_inv bucket_UpdateN bucket_GetSnapshot r0 N I maxE maxA nowT now nowS calls cp H1 H2 ltac:(lia) HR E) as [P1 _ _ _ _ _ _].
  unfold bc_exec, bc_run in P1. destruct (newBucketCounterImpl I N nowT true) as [c0|] eqn:E0; [|done]. cbn [mbind res_bind] in P1.
  pose proof (bucket_rsv r0 c0 _ _ calls P1 F) as RB.
  destruct (C58_partial I N nowT nowR (bucket_events calls) t1 t2 t3 H1 H2 H3 T1 T2 T3 T4) as (c & b & Eb & Hex & Hall).
  { unfold bucket_events. by rewrite <- list_fmap_compose. }
  { unfold bucket_events. by rewrite <- list_fmap_compose. }
  unfold br_exec in Eb. rewrite E0, Er in Eb. cbn [mbind res_bind] in Eb. rewrite RB in Eb. injection Eb as <- <-.
  split; [exact Hex|]. intros s Hs. destruct (Hall s Hs) as [(k1 & K1 & V1 & W1) [(k2 & K2 & V2 & W2) _]].
  fold secs cur prev in K1, K2, W1, W2, V1, V2. rewrite !Ev in *. rewrite !Ec in *. split; [by exists k1|by exists k2].
Qed.
Print Assumptions C89_bucket.

(** ** Exponentially decaying *)
Definition decaying_exec math_Exp N I maxE maxA nowT now msR tickR nowS calls : res (compass edr) :=
  cp ← NewCompass_decaying N I maxE maxA nowT now msR tickR nowS; cp_run (decaying_UpdateN math_Exp) (decaying_GetSnapshot math_Exp) cp calls.
Definition decaying_calls (calls : list (cp_call ed_reads)) : list ed_call :=
  (fun c => match c with RUpdate x d => DUpdate (er_tick x) (er_ms0 x) (er_ms x) (er_random x) d | RSnapshot x => DSnapshot (er_tick x) (er_ms0 x) end) <$> rsv_calls calls.

Lemma decaying_rsv math_Exp r (calls : list (cp_call ed_reads)) :
  rsv_run (decaying_UpdateN math_Exp) (decaying_GetSnapshot math_Exp) r (rsv_calls calls) = ed_run math_Exp r (decaying_calls calls).
Proof.
  unfold rsv_run, decaying_calls. generalize (rsv_calls calls). intros l. revert r. induction l as [|c l IH]; intros r; [done|].
  cbn [run_ops fmap list_fmap ed_run]. destruct c as [x d|x]; cbn [rsv_step ed_step]; [|apply IH]. unfold decaying_UpdateN at 1. destruct (ed_UpdateN _ _ _ _ _ _ _); [apply IH|done].
Qed.
Lemma decaying_values (calls : list (cp_call ed_reads)) : updated_values (decaying_calls calls) = durations calls.
Proof.
  unfold decaying_calls, durations, updated_values. induction calls as [|[u|u o|t|sr] calls IH]; [done|..].
  - change (updates (CpUpdate u :: calls)) with (u :: updates calls). change (rsv_calls (CpUpdate u :: calls)) with (RUpdate (up_reads u) (up_duration u) :: rsv_calls calls).
    cbn [fmap list_fmap omap list_omap]. f_equal. exact IH.
  - change (updates (CpUpdateWithError u o :: calls)) with (u :: updates calls). change (rsv_calls (CpUpdateWithError u o :: calls)) with (RUpdate (up_reads u) (up_duration u) :: rsv_calls calls).
    cbn [fmap list_fmap omap list_omap]. f_equal. exact IH.
  - exact IH.
  - exact IH.
Qed.
Lemma decaying_length (calls : list (cp_call ed_reads)) : (length (decaying_calls calls) <= length calls)%nat.
Proof.
  unfold decaying_calls. rewrite fmap_length. induction calls as [|[u|u o|t|sr] calls IH]; [done|..].
  - change (rsv_calls (CpUpdate u :: calls)) with (RUpdate (up_reads u) (up_duration u) :: rsv_calls calls). cbn [length]. lia.
  - change (rsv_calls (CpUpdateWithError u o :: calls)) with (RUpdate (up_reads u) (up_duration u) :: rsv_calls calls). cbn [length]. lia.
  - change (rsv_calls (CpRate t :: calls)) with (rsv_calls calls). cbn [length]. lia.
  - change (rsv_calls (CpSnapshot sr :: calls)) with (RSnapshot sr :: rsv_calls calls). cbn [length]. lia.
Qed.
Lemma default_alpha_ok : decay_ok EdrDefaultAlpha.
Proof.
  assert (fle f0 EdrDefaultAlpha && fle EdrDefaultAlpha (f_of_int 1000) && ffinite EdrDefaultAlpha = true) as H by (vm_compute; reflexivity).
  apply andb_prop in H as [H F]. apply andb_prop in H as [H1 H2]. split; [exact F|].
  assert (ffinite (f_of_int 1000) = true) as F1000 by (apply f_of_int_finite64; unfold in64, two63; lia).
  rewrite fle_spec in H1 by done. rewrite fle_spec in H2 by done. rewrite f_of_int_exact in H2 by lia. rewrite RF_f0 in H1. split; [exact H1|exact H2].
Qed.

(** The samples of every snapshot are durations recorded, at most 1028 (and at most as
    many as were recorded). *)
Theorem C89_decaying math_Exp N I maxE maxA nowT now msR tickR nowS calls cp x : exp_ok math_Exp -> PCompass.setting_ok N I -> readings_in64 calls ->
  0 <= msR < 2 ^ 62 -> times_ok msR (decaying_calls (calls ++ [CpSnapshot x])) -> Z.of_nat (length calls) < 2 ^ 63 - 1 ->
  decaying_exec math_Exp N I maxE maxA nowT now msR tickR nowS calls = Ok cp ->
  let samples := (ed_GetSnapshot math_Exp (cp_reservoir cp) (er_tick x) (er_ms0 x)).2 in
  (length samples <= 1028)%nat /\ (length samples <= length (durations calls))%nat /\ forall s, s ∈ samples -> sm_value s ∈ durations calls.
Proof.
  intros HE HS HR Hm HT HL E samples. unfold decaying_exec, NewCompass_decaying in E.
  pose proof (C88_compass_feeds_reservoir (decaying_UpdateN math_Exp) (decaying_GetSnapshot math_Exp) _ N I maxE maxA nowT now nowS calls cp HS HR E) as F.
  rewrite decaying_rsv in F.
  assert (decaying_calls (calls ++ [CpSnapshot x]) = decaying_calls calls ++ [DSnapshot (er_tick x) (er_ms0 x)]) as Ec.
  { unfold decaying_calls. rewrite rsv_calls_snoc, fmap_app. done. }
  rewrite Ec in HT. pose proof (decaying_length calls) as LC.
  assert (PDecaying.setting_ok math_Exp EdrDefaultSize EdrDefaultAlpha msR) as HS2.
  { split; [done|]. split; [unfold EdrDefaultSize; lia|]. split; [apply default_alpha_ok|done]. }
  pose proof (C52_decaying_size math_Exp EdrDefaultSize EdrDefaultAlpha msR tickR (decaying_calls calls) (cp_reservoir cp) (er_tick x) (er_ms0 x) HS2 HT ltac:(lia) F) as B.
  pose proof (C54_decaying_recorded_only math_Exp EdrDefaultSize EdrDefaultAlpha msR tickR (decaying_calls calls) [DSnapshot (er_tick x) (er_ms0 x)] (cp_reservoir cp)
    (ed_GetSnapshot math_Exp (cp_reservoir cp) (er_tick x) (er_ms0 x)).1 HS2 HT) as D.
  rewrite decaying_values in B. unfold samples, EdrDefaultSize in *. destruct (ed_GetSnapshot math_Exp (cp_reservoir cp) (er_tick x) (er_ms0 x)) as [r' vs] eqn:Es. cbn [fst snd] in *.
  split; [lia|]. split; [lia|]. destruct D as [D _].
  - rewrite app_length. cbn. lia.
  - exact F.
  - cbn [ed_run ed_step mbind res_bind]. rewrite Es. done.
  - intros s Hs. assert (updated_values (decaying_calls calls ++ [DSnapshot (er_tick x) (er_ms0 x)]) = durations calls) as Eu.
    { rewrite <- decaying_values. unfold updated_values. rewrite omap_app. cbn. by rewrite app_nil_r. }
    rewrite Eu in D. apply D. unfold ed_GetSnapshot in Es. injection Es as Es1 Es2. subst r' vs. exact Hs.
Qed.
Print Assumptions C89_decaying.

(** Cases *)
Definition uc (t d pick : Z) : cp_call Z := CpUpdate (MkUpdate (t * 1000000) t pick d).
Example C89_uniform_case : picks_in_range (uniform_ups [uc 1100 7 0; uc 1200 8 1; CpSnapshot 0]) /\
  (cp ← uniform_exec 10 Second 2 1 1000 1000 1000 [uc 1100 7 0; uc 1200 8 1; CpSnapshot 0]; Ok (ur_Size (cp_reservoir cp), filter (fun x => x <> 0) (us_GetValues (ur_GetSnapshot (cp_reservoir cp))).1))
    = Ok (2, [7; 8]).
Proof.
  split; [|vm_compute; reflexivity]. intros i v p H. destruct i as [|[|i]]; cbn in H; [injection H as <- <-; lia|injection H as <- <-; lia|done].
Qed.
Example C89_bucket_case : exists cp, bucket_exec 10 (5 * Second) 2 1 0 0 0 0 [uc 5000 10 5000; uc 6000 20 6000] = Ok cp /\
  cp_bucket_snapshot cp 7000 7000 7000 (NewBucketSnapshot 2 30).
Proof.
  destruct (bucket_exec 10 (5 * Second) 2 1 0 0 0 0 [uc 5000 10 5000; uc 6000 20 6000]) as [cp|] eqn:E; [|vm_compute in E; discriminate].
  exists cp. split; [done|]. vm_compute in E. injection E as <-.
  do 5 eexists. split; [vm_compute; reflexivity|]. split; [vm_compute; reflexivity|].
  split; [right; exists 5000; vm_compute; reflexivity|]. split; [vm_compute; reflexivity|].
  split; [right; exists 5000; vm_compute; reflexivity|]. reflexivity.
Qed.
Definition dc (t d : Z) : cp_call ed_reads := CpUpdate (MkUpdate (t * 1000000) t (EdReads (t * 1000000) t t (fdiv f1 (f_of_int (2 + d)))) d).
Example C89_decaying_case :
  (cp ← decaying_exec (fun _ => f1) 10 Second 2 1 1000 1000 1000 1000000000 1000 [dc 1100 7; dc 1200 8];
   Ok (sm_value <$> (ed_GetSnapshot (fun _ => f1) (cp_reservoir cp) 1300000000 1300).2)) = Ok [7; 8].
Proof. vm_compute. reflexivity. Qed.
