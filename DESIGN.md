# Formal model of cauherk/golang-metrics in Rocq (Coq 8.16.1)

## 1. Layout

`rocq/theories/` (logical name `Verif`)

* `Go/` - what Go itself contributes: `GoInt.v` (int64 wrap-around, truncating
  division), `GoFloat.v` (IEEE binary64 on top of Flocq's executable
  `binary_float 53 1024`, single NaN), `GoConc.v` (threads, schedules).
* `Model/` - the program, one file per source file, executable Gallina only,
  no proofs. Every definition cites the file and lines it models.
* `Spec/` - the small independent specifications used by the theorem
  statements (sums over histories, "the most recent N", ...). They do not
  mention the model.
* `Proofs/` - lemmas.
* `Props/` - one file per area holding only `Theorem ... exact ...`,
  `Print Assumptions`, and the `Example`s showing that hypotheses are met.

## 2. Modelling decisions

* int64/int are `Z` with explicit two's-complement wrap (`wrap64`) at every
  operation that can overflow on a path a theorem talks about.  `int` is 64 bit.
* A Go panic is a value (`Panic`), nil is an explicit case.
* Pointers that are aliased (the latest bucket is also an element of the ring,
  the total counter of a compass is also the count source of its bucket
  reservoir) are modelled as indices into an explicit heap or as one shared field.
* Clock readings are inputs: each call carries the value(s) its clock reads return.
* Randomness (`math/rand`) and map iteration order are inputs (oracles):
  theorems quantify over all of them.
* float64 is IEEE binary64, round to nearest even, without fused
  multiply-add (amd64 behaviour of the Go compiler). `math.Exp` is an oracle.
* Goroutines: a state machine in which each step is one atomic access
  (atomic op, plain load/store, lock acquire/release); the schedule is an
  arbitrary list of thread numbers, interleaved with arbitrary clock moves.
  Memory is sequentially consistent - weaker behaviour allowed by the Go memory
  model for the racy plain accesses is not modelled.
* Dependencies: `sync.Map`, `sync.Mutex`, `sync.Once`, `sort`, Workiva's skip
  list are modelled by their documented contracts (atomic LoadOrStore, sorted
  map with overwrite-on-equal insert, some sorted permutation, binary search
  exactly as in `sort.Search`).
* When the code violates the property as a user would state it, the faithful
  model is kept, `<name>_refuted` proves the violation with a witness, and
  `<name>_partial` proves what remains true, with its guard.

## 3. Plan per property

C01 sum over the op list, induction. C02 schedule model, invariant over
(memory, consumed ops). C03-C08, C10, C11 sequential model with heap + ring;
refinement to a list of (timestamp, sum) pairs, most recent first; the
statements speak about filtered sums over the update history. C06, C11 are
expected to fail and to be refuted. C09 arithmetic. C12-C15 step model of
UpdateN (load, CAS, two stores of addLast, atomic add) for any number of
threads; invariants; C15 expected to be refuted with a concrete schedule and
proved for schedules that do not interrupt the CAS/addLast window.
C16-C21, C24 FastCompass over the counter refinement, arithmetic on 2^38.
C22, C23 step model with mutex and Go's map-write flag; C23 expected refuted.
C25 step model with CAS loop. C26-C28 Flocq: rounding lemmas. C29 over R.
C30-C37 sequential compass state machine with float EWMAs; C32-C35 expected to
be refuted in general, partial versions with guards. C36 also as step model.
C38-C41 reservoir with random choices as inputs; C39 expected refuted before
the reservoir is full; C41 by counting choice vectors (rationals).
C42-C46 sorted lists and Flocq. C47-C51 weighted/bucket snapshots, any sorting
function. C49 expected refuted. C52-C57 sorted association list as skip list.
C53 expected refuted (equal priorities). C58 expected refuted (map order).
C59-C61 strings with iteration order as a permutation; C60, C61 expected
refuted in general. C62-C69 registry as finite map; C63, C66 step model.
C65-C67 expected refuted. C70-C72 manager. C73-C80 config. C81 clock. C82 Flocq.
C83 rank function on program counters. C84, C93 progress: case analysis on the
lock holder. C85 step model of sync.Once. C86 step model of the manager.
C87 counting choice vectors per retained set. C88, C89 compass over an abstract
reservoir, instantiated with the three kinds. C90, C91 conserved quantities of the
compass step model (what the counters hold + what calls still have to add). C92
Go's map-write flag, expected refuted; partial: no getters at all, or maps with no new entries left (invariant over what threads still have to do). C94 invariant over lastTick: rounds
committed to never exceed (clock - start)/5s. C95 rank function. C96 the log of
AddInt64 steps; each map entry is a bucket's content at the moment it was read.
C97 expected refuted; partial by replaying the sequential read on the fixed ring.
C98 step model of the decaying reservoir with RWMutex; the log of critical sections is
the linearization. C99, C100 expected refuted (landmark and nextScaleTime are loaded
outside the lock); partial by invariants over the runs in which the loaded value is
still current. C101-C103 step model of the uniform reservoir, one access of count or of
one element per step; invariant relating each program counter to the reservoir the
returned calls lead to; a rank function; lock counts for race freedom. C104, C105 (and
the accuracy part of C46) forward error analysis against a real-valued specification.
C106-C111 (and C149, C150: the counter and the manual clock) a table of the accesses each step makes (its completeness is proved: a step
changes nothing the table does not list as written and depends on nothing it does not
list); a data race is two goroutines whose next accesses conflict and are not both atomic.
Expected refuted for all six; partial: which pairs of calls can race, and the uses that are
race free. C112 the decaying reservoir's step model with Size's two loads; expected
refuted; partial by erasing Size from the run and counting insertions between the loads. C113 the struct's
tags with the libraries' rules for duplicate names; expected refuted for two settings.
C114-C120 the compass together with its counters, averages and reservoir, every shared access
a step: a general composition (Go/GoCompose) of a client with objects, projected onto the client
(giving the coarse model's invariants) and onto each object (giving the objects' theorems). C119
only within one interval, because of C15. C142 the projection on a uniform reservoir, erasing
the goroutine numbers from ReservoirConc's runs. C121 an invariant of the registries' step model: as
long as all keys fit, nobody stores a no-op. C122-C127 the same composition once more, with the
registries and the manager as the client and the compasses (themselves compositions, updated and read) and fast
compasses as objects created while it runs; the goroutines' plans are lookups and calls through the
results of lookups. Projections give C122; C123, C126 follow from C114, C115, C120, C22; C124, C125
from C121 and the uniqueness of references; C127 from C84, C117 and progress of the registries. C143: two
moments of a composed run as two moments of one run of an object (Proofs/ComposeHistory.v), so C134-C138 apply.
C128-C131 (and the steps theorems of C22, C23, C84): a fast compass in which UpdateN and each
getter take the steps of the bucket counter models. A run carries the list of what has landed
(one record per completed add) and the record being added; the invariant relates the compass to
that of FastCompassConc before or after the UpdateN under way. C128, C130: stage invariants of one
call; C129 a rank; C131 expected refuted. C132: C128 for the fast compasses of C122.
C133-C140: a compass whose reading methods run next to updates, every access a step
(Model/CompassRead.v on top of CompassFine). C133 by erasing the reading steps (a simulation
into CompassFine); C134-C139 by a ledger of what each counter (average) has received and the
theorems of BucketCounterConc/BucketReadConc replayed on the counter inside the compass; C140 by
counting steps, and no deadlock from C117. C141: per goroutine, what it asked of the success counter never exceeds what the
total counter has had from it.
C144: a potential: each step of a goroutine lowers its own share and raises that of any other by at
most one retry's worth, of which the calls pay for in advance (Spec/ProgressSpec.v counts steps). C145: the same potential for a compass with its objects and readers
(Proofs/CompassBound.v), with C140's absence of deadlock and the fact that the clock disables nothing. C146: likewise for the fast compass (Proofs/FastCompassBound.v), with C84;
the category limit bounds the length of an iteration. C147: the potentials of C145 and C146 for the metrics goroutines are inside of, with
the steps of the registries (Proofs/SystemReturn.v); the metrics are in order because each, seen alone, is a run of its own model (C122). C159: the stage of a call goes up with each of its own steps (Props/PRegistryReturn.v). C158: the potential of C145 for the reservoir alone, with C98. C157: what is left of a call goes down with each of its steps (Proofs/NameProgress.v); several calls
per goroutine are as many goroutines with one call each (Proofs/NameCalls.v). C156: as C151, with the latest interval for the counters (Proofs/SystemLast.v). C154: mutual exclusion, and the flag is set before anybody reads (C85's invariant). C155: two runs of a heap model of
the names, one without what is done to other names, stay equal as far as the name and its map go (Proofs/NameShare.v). C152, C153: the mean of any 64-bit values, wrapped sums included, with the lemmas on roundings
of C34 (Proofs/MeanInt.v). C151: two calls through handles, each between two moments of one run of the compass;
its counters do not fall from the end of the first call to the beginning of the second (Proofs/SystemOrder.v). C148: the history of a fast
compass seen alone (C122) gives the moment of its creation and the Records its model run has landed; the fine-grained getter facts (C128) are
read back through the plans and handles (Proofs/SystemReadFast.v, FastCompassCats.v, FastCompassTotals.v, FastCompassLatest.v).

## 4. Files

| Model | Source | Properties (Props file) |
|---|---|---|
| Counter, CounterConc | impl/counter_impl.go | C01, C02 (PCounter, PCounterConc) |
| BucketQueue, BucketCounter | impl/bucket_queue.go, impl/default_bucket_counter.go | C03-C11 (PBucket) |
| BucketCounterConc | same, interleaved UpdateN | C12-C15, C83 (PBucketConc) |
| DecayingConc | exponentially_decaying_reservoir.go, any number of goroutines | C98-C100, C158 (PDecayingConc, PDecayingReturn) |
| DecayingSizeConc | same, with Size | C112, C107 (PDecayingSize) |
| ReservoirConc | uniform_reservoir.go, any number of goroutines | C101-C103 (PReservoirConc, PReservoirReturn) |
| BucketReadConc | same, GetBucketCountsSince next to UpdateN | C95-C97 (PBucketRead) |
| FastCompass, FastCompassConc | impl/default_fast_compass.go | C16-C24, C84 (PFastCompass, PFastCompassConc) |
| EWMA, EWMAConc | ewma.go | C25-C29, C144 (PEWMA, PEWMAProgress) |
| Compass, CompassTypes, CompassConc | impl/default_compass.go | C30-C37, C88-C94 (PCompass, PCompassTypes, PCompassConc) |
| CompassFine (Go/GoCompose) | impl/default_compass.go with its counters, averages and decaying, bucket or uniform reservoir | C114-C120, C142 (PCompassFine) |
| CompassRead | impl/default_compass.go: the reading methods next to updates; impl/bucket_reservoir.go: GetSnapshot | C133-C141, C145 (PCompassRead, PCompassReturn) |
| FastCompassFine | impl/default_fast_compass.go, every shared access a step | C22, C23, C84, C128-C131, C146 (PFastCompassFine, PFastCompassReturn) |
| SystemConc (Go/GoCompose) | impl/default_registry.go, impl/default_metric_manager.go, compasses and fast compasses together | C122-C127, C132, C143, C147, C148, C151, C156 (PSystem, PSystemRead, PSystemReturn, PSystemReadFast, PSystemOrder, PSystemLast); C121 (RegistryConc) |
| UniformReservoir, UniformSnapshot | impl/uniform_reservoir.go, impl/uniform_snapshot.go | C38-C46, C87, C104, C105, C152, C153 (PUniformReservoir, PUniformSnapshot, PQuantile, PMeanAccuracy) |
| WeightedSnapshot | impl/weighted_snapshot.go | C47-C50 (PWeighted) |
| BucketReservoir | impl/bucket_reservoir.go, impl/bucket_snapshot.go | C51, C58 (PBucketReservoir) |
| DecayingReservoir | impl/exponentially_decaying_reservoir.go | C52-C57 (PDecaying) |
| MetricName, NameHeap (with the tag maps as references) | metric_name.go | C59-C61, C85, C154, C155, C157 (PName, PNameShare) |
| Registry, RegistryConc | impl/default_registry.go, impl/default_metric_manager.go, impl/nop_metric_manager.go | C62-C71, C86, C159 (PRegistry, PRegistryConc, PRegistryReturn) |
| Nop | impl/nop_*.go | C72 (PConfig, PRegistry) |
| Config | config/metric_config.go, interval.go, metric_level.go, reservoir.go | C73-C80 (PConfig) |
| ConfigTags | config/metric_config.go, the tags; rules of encoding/json and yaml | C113 (PConfigTags) |
| ManualClock | impl/manual_clock.go, clock.go | C81 (PClock) |
| FloatUtil | compare.go, time.Duration.Seconds | C82 (PFloat) |
| (access tables) Spec/EWMARaceSpec, DecayingRaceSpec, RegistryRaceSpec, BucketRaceSpec, CompassRaceSpec, FastCompassRaceSpec, CounterRaceSpec | same as the step models | C106-C111, C149, C150 (PCounterRace, PEWMARace, PDecayingRace, PRegistryRace, PBucketRace, PCompassRace, PFastCompassRace) |

## 5. Trusted base

1. Coq 8.16.1's kernel (and the compiled standard library, std++, Flocq). No
   plugin, no kernel flag, no `Admitted`, no axiom of our own.
2. The axioms listed by `Print Assumptions` (every Props file prints them after
   each theorem; collected in section 6). Only axioms of the standard library
   occur, and only through its real numbers: `ClassicalDedekindReals.sig_not_dec`,
   `ClassicalDedekindReals.sig_forall_dec`,
   `FunctionalExtensionality.functional_extensionality_dep`, and
   `Classical_Prop.classic` (Flocq's rounding lemmas). Theorems about integers,
   strings, maps and schedules are closed under the global context unless the
   model they speak about contains floating point (the compass).
3. That the model is the code. Modelled: every non-test function of the packages
   `metrics`, `metrics/impl` and `metrics/config` except the getters that return
   a field, the parsing of yaml/json text (ConfigTags starts from keys and values), and
   what is listed below.
   * Sequential consistency. The code has data races (latestBucket,
     bucketDequeue.current, metricsCount, enable, lastTick, the maps); the Go
     memory model gives racy programs weaker guarantees. 64-bit loads and stores
     are single accesses.
   * amd64: no fused multiply-add, `int` is 64 bit; float-to-int conversion is only used where
     the value is in range.
   * `math.Exp` is a parameter; where its size matters the assumption `exp_ok`
     (between 0 and 1 for non-positive arguments, at least 1 otherwise) is an explicit
     hypothesis, and `exp_ok_rounded` shows that the correctly rounded exponential
     meets it.
   * `math/rand` numbers are inputs. Statements about probability count choice
     vectors; that the generator is uniform is not claimed (the code seeds a new
     generator from the clock for each number).
   * The skip list is a sorted list (right for keys that are not NaN);
     `sort.Slice` is any sorting permutation; `sort.Search` is modelled as written.
   * `sync.Map` operations, mutex operations and atomics are single steps; the
     RWMutex's writer preference is not modelled (any admissible grant order is).
   * Go's fatal "concurrent map read and map write" is modelled as: abort iff an
     access happens between the two steps of an assignment.
   * In CompassConc one Update of a bucket counter, one TickN of an average and
     one UpdateN of the reservoir are single steps. CompassFine does without this:
     there the goroutine executes the steps of the method, and C118 proves that the
     compass cannot tell the difference.
   * A panic ends the call as if it had been recovered; a program that does not
     recover shows a prefix of such an execution.
   * `Duration.Seconds()` is the integer quotient in BucketCounter; theorem
     `seconds_float_exact` justifies this below 2^22 s.
   * time.Now() is not modelled beyond "some reading".

## 6. Print Assumptions

* **Closed under the global context (no axioms)** - 180 theorems:
  C01_counter_exact_in_range, C01_counter_is_running_sum, C02_counter_final, C02_counter_linearizable, C03_total, C04_bucket_counts_exact, C05_since_is_filter, C06_no_phantom_partial, C06_no_phantom_refuted, C07_bounded, C08_any_clock, C08_effective_times_sorted, C09_bucket_contains_update, C09_keys_aligned, C101_history, C101_linearizable, C101_real_time, C102_all_return, C102_no_deadlock, C102_progress, C102_steps, C103_no_race, C108_enable_partial, C108_known_partial, C108_refuted, C108_table, C109_counts_partial, C109_refuted, C109_same_interval_partial, C109_table, C10_no_panic, C10_subsecond_panics, C111_partial, C111_record_only_partial, C111_refuted, C111_table, C113_absent_partial, C113_accepted_partial, C113_documents_partial, C113_json_partial, C113_null_partial, C113_refuted, C11_LastUpdateTime_partial, C11_LastUpdateTime_refuted, C121_below_limit, C128_getter_content, C128_getter_quiet, C128_one_order, C128_results_of_calls, C128_within_capacity, C129_getters_finish, C12_total_exact, C130_last_update_content, C130_last_update_records, C131_monotone_partial, C131_monotone_refuted, C13_one_bucket_each, C13_sum_over_buckets, C146_all_return, C146_bounded_steps, C146_records_return, C149_only_partial, C149_partial, C149_refuted, C149_table, C14_latest_never_decreases, C14_one_bucket_per_timestamp, C150_only_partial, C150_partial, C150_refuted, C150_table, C154_hashkey_race_free, C154_many_calls, C154_table, C155_later_partial, C155_own_map_partial, C155_partial, C155_refuted, C157_all_return, C157_all_the_same, C157_bounded_steps, C157_no_deadlock, C159_all_return, C159_answers, C159_wait_free, C15_counts_exact_refuted, C15_counts_partial, C15_one_interval_partial, C15_wrong_interval_refuted, C16_fast_compass_exact, C17_combined_decodes, C18_invalid_ignored, C19_category_limit, C19_excess_ignored, C20_isolated, C21_modular, C21_overflow_witness, C22_record_final, C22_record_linearizable, C22_steps_final, C22_steps_linearizable, C23_no_new_category_partial, C23_queries_safe_refuted, C23_records_only_partial, C23_steps_no_new_category_partial, C23_steps_records_only_partial, C24_LastUpdateTime, C35_ticks_refuted, C38_size, C39_partial, C39_refuted, C40_ends, C40_ends_fast, C40_range, C40_unbiased, C41_uniform, C41_vectors, C42_own_copy, C42_sorted, C58_refuted, C59_stable, C59_value, C60_equal_names_partial, C60_equal_names_refuted, C61_different_names_refuted, C61_keys_partial, C61_one_tag_partial, C62_one_metric_per_name, C63_listed_forever, C63_never_waits, C63_one_metric, C64_limit, C65_size_partial, C65_size_refuted, C66_limit_partial, C66_limit_refuted, C67_no_panic_partial, C67_no_panic_refuted, C68_listings, C68_lookups_listed, C69_last_update_time, C70_disabled, C70_enabled_again, C71_groups_independent, C71_no_sharing, C71_same_group_same_metric, C72_nop_manager, C72_nop_metrics, C73_limits, C73_limits_positive, C74_level_interval_partial, C74_level_interval_refuted, C75_level_interval_usable, C76_global_interval_partial, C76_global_interval_refuted, C77_default_reservoir_refuted, C77_reservoir_partial, C78_enabled_metrics, C79_compass_partial, C79_error_limit_refuted, C80_intervals_partial, C80_intervals_refuted, C81_concurrent, C81_tick_is_sum, C81_user_clock, C83_update_wait_free, C84_no_deadlock, C84_steps_no_deadlock, C85_concurrent_hashkey, C85_many_calls, C85_many_calls_no_deadlock, C85_no_deadlock, C86_no_sharing, C86_same_group, C87_every_sample, C95_reads_change_nothing, C95_reads_wait_free, C96_read_content, C97_read_complete_partial, C97_read_complete_refuted.

* **`ClassicalDedekindReals.sig_forall_dec`, `FunctionalExtensionality.functional_extensionality_dep`** - 1 theorems:
  C29_exact_recurrence.

* **`ClassicalDedekindReals.sig_not_dec`, `ClassicalDedekindReals.sig_forall_dec`, `FunctionalExtensionality.functional_extensionality_dep`, `Classical_Prop.classic`** - 193 theorems:
  C100_decaying_rescale_hourly_partial, C100_decaying_rescale_hourly_refuted, C100_decaying_rescale_not_early_partial, C104_interpolates, C105_ordered, C105_uniform, C105_weighted, C106_partial, C106_refuted, C106_table, C106_update_tickn_partial, C107_first_hour_partial, C107_refuted, C107_samples_partial, C107_size_partial, C107_size_refuted, C107_table, C110_first_tick_partial, C110_partial, C110_refuted, C110_table, C112_refuted, C112_size_partial, C114_counts, C114_counts_within, C115_averages, C116_reservoir, C117_no_deadlock, C118_averages, C118_counters, C118_no_abort, C118_refines, C118_reservoir, C118_uniform, C119_bucket_counts_partial, C119_bucket_counts_refuted, C120_bucket, C122_compass, C122_fast_compass, C122_registries, C123_all_counts, C123_averages, C123_counts, C123_snapshot, C124_same_metric, C125_compass, C126_fast_compass, C127_no_deadlock, C127_no_deadlock_unless_aborted, C132_getters, C133_final_counts, C133_readers_disturb_nothing, C133_reads_change_nothing, C134_GetCount, C134_GetSuccessCount, C134_count_bounds, C134_counts, C134_counts_never_fall, C135_GetInstantCount, C135_instant_counts, C136_GetMeanRate, C136_mean_rate, C137_LastUpdateTime, C137_last_update, C138_methods, C138_never_a_rate, C138_own_average, C138_rates, C139_GetSnapshot, C139_snapshot, C139_torn_snapshot, C140_no_deadlock, C140_reads_return, C141_other_order, C141_success_rate, C142_uniform, C143_GetCount, C143_GetInstantCount, C143_GetMeanRate, C143_GetSuccessCount, C143_methods, C143_rates, C144_all_return, C144_bounded_steps, C144_no_deadlock, C145_all_return, C145_all_return_without_getters, C145_bounded_steps, C147_all_return, C147_all_return_or_abort, C147_bounded_steps, C148_getter, C148_last_update, C148_one_interval, C148_totals, C151_counts_never_fall, C151_success_rate, C152_bucket, C152_partial, C152_refuted, C152_wrapped, C153_mean_defined, C153_stddev_defined, C156_partial, C156_refuted, C156_value_partial, C158_all_return, C158_bounded_steps, C158_no_deadlock, C25_calls, C25_conservation, C25_final, C25_progress, C25_reads, C26_constant_input, C26_first_tick, C27_alpha, C27_no_overshoot, C27_within, C28_idle_decay, C29_float_error, C29_get_rate, C30_compass_counts, C31_compass_addons, C31_compass_codes, C32_excess_code_refuted, C32_no_panic_partial, C33_rates_partial, C33_rates_refuted, C34_default_clock_refuted, C34_mean_rate_partial, C34_mean_rate_refuted, C35_ticks_partial, C36_concurrent, C36_concurrent_final, C36_conservation, C37_instant_counts, C37_success_bounded_partial, C37_success_bounded_refuted, C43_ends, C43_range, C43_rejects, C44_monotone, C45_mean, C46_accuracy, C46_stddev, C47_sorted, C48_monotone, C48_rejects, C48_total, C49_between_partial, C49_boundary_partial, C49_refuted, C49_refuted_general, C50_mean_partial, C50_refuted, C50_stddev_partial, C51_mean, C51_not_available, C52_C54_C57_decaying_events, C52_decaying_size, C53_decaying_size_is_snapshot_size_partial, C53_decaying_size_is_snapshot_size_refuted, C54_decaying_recorded_only, C55_decaying_keeps_top, C55_decaying_keeps_top_calls, C56_decaying_rescale, C57_decaying_no_panic, C58_partial, C82_delta_meaning, C82_delta_nan, C82_delta_symmetric, C88_compass_feeds_reservoir, C89_bucket, C89_decaying, C89_types, C89_uniform, C90_concurrent_counts, C90_concurrent_counts_final, C91_concurrent_keys, C91_concurrent_keys_within, C92_getters_safe_refuted, C92_updates_safe_partial, C92_warm_maps_partial, C93_no_deadlock, C94_ticks_not_repeated, C98_decaying_atomic, C98_decaying_no_deadlock, C98_decaying_snapshot_fresh, C99_decaying_first_hour_partial, C99_decaying_one_at_a_time_partial, C99_decaying_one_at_a_time_refuted, weighted_mean_between.


