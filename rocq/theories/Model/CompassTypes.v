(** impl/default_compass.go:213-245 [NewCompassWithType]: the compass with each kind of
    reservoir, and what its calls do to the reservoir. *)
From Verif.Go Require Import GoInt GoFloat.
From Verif.Model Require Import Counter BucketQueue BucketCounter Compass UniformSnapshot UniformReservoir BucketReservoir WeightedSnapshot DecayingReservoir.
Local Open Scope Z_scope.

(** impl/exponentially_decaying_reservoir.go:38-39 *)
Definition EdrDefaultSize : Z := 1028.
Definition EdrDefaultAlpha : f64 := fdiv (f_of_int 15) (f_of_int 1000).

(** impl/default_compass.go:224-225; a call reads the position nextRandomPos returns. *)
Definition uniform_UpdateN (u : uniform_reservoir) (pick d : Z) : res uniform_reservoir := ur_UpdateN u d pick.
Definition uniform_GetSnapshot (u : uniform_reservoir) (pick : Z) : uniform_reservoir := u.
Definition NewCompass_uniform (N I maxE maxA nowT now nowS : Z) : res (compass uniform_reservoir) :=
  r ← NewUniformReservoir defaultUniformReservoirSize; NewCompass r N I maxE maxA nowT now nowS.

(** impl/default_compass.go:222-223: the reservoir shares the compass's counter of all
    calls; a call reads the time. *)
Definition bucket_UpdateN (b : bucket_reservoir) (t d : Z) : res bucket_reservoir := br_UpdateN b t d.
Definition bucket_GetSnapshot (b : bucket_reservoir) (t : Z) : bucket_reservoir := b.
Definition NewCompass_bucket (N I maxE maxA nowT now nowR nowS : Z) : res (compass bucket_reservoir) :=
  r ← NewBucketReservoir I N nowR; NewCompass r N I maxE maxA nowT now nowS.
(** The snapshot of such a compass (impl/default_compass.go:186-188) *)
Definition cp_bucket_snapshot (cp : compass bucket_reservoir) (t1 t2 t3 : Z) (s : bucket_snapshot) : Prop :=
  br_GetSnapshot (cp_reservoir cp) (cp_totalCount cp) t1 t2 t3 s.

(** impl/default_compass.go:220-221, 226-227; a call reads the tick, the time (twice) and
    a random number. *)
Record ed_reads := EdReads { er_tick : Z; er_ms0 : Z; er_ms : Z; er_random : f64 }.
Definition decaying_UpdateN (math_Exp : f64 -> f64) (r : edr) (x : ed_reads) (d : Z) : res edr :=
  ed_UpdateN math_Exp r (er_tick x) (er_ms0 x) (er_ms x) (er_random x) d.
Definition decaying_GetSnapshot (math_Exp : f64 -> f64) (r : edr) (x : ed_reads) : edr :=
  (ed_GetSnapshot math_Exp r (er_tick x) (er_ms0 x)).1.
Definition NewCompass_decaying (N I maxE maxA nowT now msR tickR nowS : Z) : res (compass edr) :=
  NewCompass (NewEDR EdrDefaultSize EdrDefaultAlpha msR tickR) N I maxE maxA nowT now nowS.
