{"id": "C01", "title": "Counter value is the exact running sum", "statement": "After any sequence of Inc, IncN(n), Dec, DecN(n) on a fresh counter, GetCount returns the sum of the signed increments reduced to a two's-complement int64; LastUpdateTime is always 0.", "quantifier": "all finite sequences of counter calls, all int64 arguments", "why_tests_cant": "a test exercises a handful of histories; the claim is about every history of every length", "anchors": ["impl/counter_impl.go:counterImpl"]}
{"id": "C02", "title": "Counter loses nothing under concurrency", "statement": "With any number of goroutines each issuing any program of increments, decrements and reads on one counter, under every interleaving each GetCount returns exactly the sum of the increments executed before it and the final value is the sum of all increments.", "quantifier": "all goroutine counts, programs and schedules", "why_tests_cant": "tests sample a few schedules chosen by the Go runtime; the claim is about every interleaving of any number of goroutines", "anchors": ["impl/counter_impl.go:counterImpl.IncN"]}
{"id": "C03", "title": "Bucket counter total", "statement": "GetCount of a bucket counter equals the (int64-wrapped) sum of every update ever made, whatever the clock did, when created with total counting on, and is always 0 when created with it off.", "quantifier": "all update histories, all clock readings", "why_tests_cant": "a test exercises a handful of histories; the claim is about every history of every length", "anchors": ["impl/default_bucket_counter.go:UpdateN", "impl/default_bucket_counter.go:GetCount"]}
{"id": "C04", "title": "Bucket counts are exact per interval", "statement": "With a non-decreasing clock starting at or after 0, GetBucketCounts returns, keyed by bucket start in milliseconds, exactly the (int64-wrapped) sum of the updates whose time falls in each of the numbOfBuckets most recent intervals that received an update, and nothing else.", "quantifier": "all intervals >= 1s, all numbers of buckets >= 0, all non-decreasing update histories and query times", "why_tests_cant": "a test exercises a handful of histories; the claim is about every history of every length; in particular ring wrap-around at every offset", "anchors": ["impl/default_bucket_counter.go:UpdateN", "impl/default_bucket_counter.go:GetBucketCountsSince", "impl/bucket_queue.go:addLast", "impl/bucket_queue.go:getBucketList"]}
{"id": "C05", "title": "GetBucketCountsSince is a filter", "statement": "For startTime >= 0, GetBucketCountsSince(startTime) is exactly the part of GetBucketCounts whose keys are >= startTime (start included).", "quantifier": "all histories, all start times", "why_tests_cant": "a test exercises a handful of histories; the claim is about every history of every length", "anchors": ["impl/default_bucket_counter.go:GetBucketCountsSince"]}
{"id": "C06", "title": "No phantom buckets", "statement": "GetBucketCountsSince never reports a bucket that no update created, for any start time.", "quantifier": "all histories, all start times including negative ones", "why_tests_cant": "tests sample a few literals; the claim is about every input value", "anchors": ["impl/default_bucket_counter.go:GetBucketCountsSince", "impl/bucket_queue.go:newBucket"]}
{"id": "C07", "title": "Bucket result is bounded", "statement": "The number of entries returned by GetBucketCounts/GetBucketCountsSince never exceeds the configured number of buckets.", "quantifier": "all histories with arbitrary (also backwards-jumping) clocks", "why_tests_cant": "a test exercises a handful of histories; the claim is about every history of every length", "anchors": ["impl/bucket_queue.go:getBucketList"]}
{"id": "C08", "title": "Backward clock never loses an update", "statement": "When the clock jumps backwards an update is credited to the most recent bucket; bucket timestamps never go backwards, buckets that lie in the future of the query time are hidden, and otherwise the reported sums are exact for the effective (running maximum) timestamps.", "quantifier": "all update histories with arbitrary int64 clock readings", "why_tests_cant": "a test exercises a handful of histories; the claim is about every history of every length", "anchors": ["impl/default_bucket_counter.go:UpdateN", "impl/default_bucket_counter.go:GetBucketCountsSince"]}
{"id": "C09", "title": "Bucket keys are aligned", "statement": "Every reported key is a multiple of the interval in milliseconds, and the bucket an update at time t >= 0 goes to starts at or before t and ends strictly after t.", "quantifier": "all times >= 0 and all whole-second intervals", "why_tests_cant": "tests sample a few literals; the claim is about every input value", "anchors": ["impl/default_bucket_counter.go:alignTimestamp"]}
{"id": "C10", "title": "Bucket counter operations do not panic", "statement": "A bucket counter created with an interval of at least one second and a non-negative number of buckets never panics in any sequence of calls; with an interval below one second every update or query panics (integer division by zero).", "quantifier": "all call sequences, intervals and bucket numbers", "why_tests_cant": "tests sample a few literals; the claim is about every input value", "anchors": ["impl/default_bucket_counter.go:alignTimestamp", "impl/bucket_queue.go:newBucketDequeue"]}
{"id": "C11", "title": "Bucket counter LastUpdateTime is in milliseconds", "statement": "LastUpdateTime returns the time of the last update in milliseconds (start of its bucket), or the creation time if never updated.", "quantifier": "all histories", "why_tests_cant": "a test exercises a handful of histories; the claim is about every history of every length", "anchors": ["impl/default_bucket_counter.go:LastUpdateTime", "metric.go:Metric"]}
{"id": "C12", "title": "Concurrent bucket counter total is exact", "statement": "Under every interleaving of any number of goroutines updating one bucket counter (with the clock moving arbitrarily), once all calls have returned GetCount is the wrapped sum of all updates.", "quantifier": "all goroutine counts, programs, clock movements and schedules", "why_tests_cant": "tests sample a few schedules chosen by the Go runtime; the claim is about every interleaving of any number of goroutines", "anchors": ["impl/default_bucket_counter.go:UpdateN"]}
{"id": "C13", "title": "Concurrent updates land in exactly one bucket", "statement": "Under every interleaving each completed UpdateN(n) adds n to exactly one bucket: the sum over all buckets ever created equals the sum of all completed updates.", "quantifier": "all goroutine counts, programs, clock movements and schedules", "why_tests_cant": "tests sample a few schedules chosen by the Go runtime; the claim is about every interleaving of any number of goroutines", "anchors": ["impl/default_bucket_counter.go:UpdateN"]}
{"id": "C14", "title": "One bucket per timestamp", "statement": "Under every interleaving no two buckets with the same timestamp are ever installed in one counter, and the timestamp of the latest bucket never decreases.", "quantifier": "all goroutine counts, programs, clock movements and schedules", "why_tests_cant": "tests sample a few schedules chosen by the Go runtime; the claim is about every interleaving of any number of goroutines", "anchors": ["impl/default_bucket_counter.go:UpdateN"]}
{"id": "C15", "title": "Concurrent bucket counts are exact", "statement": "After any concurrent run has quiesced, GetBucketCounts reports exactly the per-interval sums of the numbOfBuckets most recent buckets.", "quantifier": "all goroutine counts, programs, clock movements and schedules", "why_tests_cant": "tests sample a few schedules chosen by the Go runtime; the claim is about every interleaving of any number of goroutines; the failing window (between the pointer swap and the ring insertion) is a few instructions wide", "anchors": ["impl/default_bucket_counter.go:UpdateN", "impl/bucket_queue.go:addLast"]}
{"id": "C16", "title": "FastCompass counts and response times are exact", "statement": "For every tracked category and reported bucket, GetMethodCountPerCategory is the number of accepted Record calls and GetMethodRtPerCategory the sum of their durations in whole milliseconds, provided that per bucket the count is below 2^26 and the summed time below 2^38 ms.", "quantifier": "all Record histories, durations, categories and query times within the stated capacity", "why_tests_cant": "a test exercises a handful of histories; the claim is about every history of every length; packing two sums in one word can only be trusted for all values", "anchors": ["impl/default_fast_compass.go:Record", "impl/default_fast_compass.go:GetMethodCountPerCategorySince", "impl/default_fast_compass.go:GetMethodRtPerCategorySince"]}
{"id": "C17", "title": "FastCompass combined result decodes", "statement": "GetCountAndRtPerCategory has the same categories and buckets as the two separate getters, and each of its entries decodes (count in the bits above 38, time in the low 38 bits) to exactly their entries.", "quantifier": "all histories and start times, no capacity assumption", "why_tests_cant": "a test exercises a handful of histories; the claim is about every history of every length", "anchors": ["impl/default_fast_compass.go:GetCountAndRtPerCategorySince"]}
{"id": "C18", "title": "FastCompass rejects invalid records", "statement": "Record with a negative duration or an empty category changes nothing observable.", "quantifier": "all states and arguments", "why_tests_cant": "tests sample a few literals; the claim is about every input value", "anchors": ["impl/default_fast_compass.go:Record"]}
{"id": "C19", "title": "FastCompass category limit", "statement": "The number of categories reported never exceeds the configured maximum; the categories tracked are exactly the first maximum-many distinct valid ones, and records for further categories change nothing.", "quantifier": "all Record histories", "why_tests_cant": "a test exercises a handful of histories; the claim is about every history of every length", "anchors": ["impl/default_fast_compass.go:Record"]}
{"id": "C20", "title": "FastCompass categories are isolated", "statement": "What is reported for one category depends only on the records of that category once it has been admitted: records of other categories never change it.", "quantifier": "all histories, all pairs of categories", "why_tests_cant": "a test exercises a handful of histories; the claim is about every history of every length", "anchors": ["impl/default_fast_compass.go:Record"]}
{"id": "C21", "title": "FastCompass overflow behaviour", "statement": "Without any capacity assumption the reported response time is the summed time modulo 2^38 and the reported count is (true count + carry of the summed time) modulo 2^26; in particular a single Record of 2^38 ms is reported as two invocations taking 0 ms.", "quantifier": "all histories and durations", "why_tests_cant": "tests sample a few literals; the claim is about every input value", "anchors": ["impl/default_fast_compass.go:countOffset", "impl/default_fast_compass.go:rtBitwiseAndBase"]}
{"id": "C22", "title": "FastCompass records are atomic", "statement": "Under every interleaving of concurrent Record calls the result is the same as executing them one after another in the order in which they entered the critical section.", "quantifier": "all goroutine counts, programs and schedules", "why_tests_cant": "tests sample a few schedules chosen by the Go runtime; the claim is about every interleaving of any number of goroutines", "anchors": ["impl/default_fast_compass.go:Record"]}
{"id": "C23", "title": "FastCompass queries are safe next to Record", "statement": "Calling the getters concurrently with Record never crashes the process.", "quantifier": "all schedules of readers and writers", "why_tests_cant": "tests sample a few schedules chosen by the Go runtime; the claim is about every interleaving of any number of goroutines; Go's concurrent-map-access detector is itself best effort", "anchors": ["impl/default_fast_compass.go:GetMethodCountPerCategorySince", "impl/default_fast_compass.go:Record"]}
{"id": "C24", "title": "FastCompass LastUpdateTime", "statement": "LastUpdateTime is 0 when nothing was recorded and otherwise the largest LastUpdateTime among the tracked categories.", "quantifier": "all histories", "why_tests_cant": "a test exercises a handful of histories; the claim is about every history of every length", "anchors": ["impl/default_fast_compass.go:LastUpdateTime"]}
{"id": "C25", "title": "EWMA conserves events", "statement": "Under every interleaving of Update and Tick on one EWMA the sum of the counts consumed by ticks plus the not yet consumed count equals the (wrapped) sum of all updates: no event is lost or counted twice.", "quantifier": "all goroutine counts, programs and schedules", "why_tests_cant": "tests sample a few schedules chosen by the Go runtime; the claim is about every interleaving of any number of goroutines", "anchors": ["ewma.go:EWMA.Update", "ewma.go:EWMA.Tick"]}
{"id": "C26", "title": "EWMA first tick initialises", "statement": "The first tick sets the rate to exactly count/interval (rounded once); further ticks with that same count leave the rate exactly unchanged, in IEEE double arithmetic.", "quantifier": "all counts, all smoothing factors in [0,1], any number of ticks", "why_tests_cant": "tests sample a few literals; the claim is about every input value; float rounding could accumulate after many ticks", "anchors": ["ewma.go:EWMA.TickN"]}
{"id": "C27", "title": "EWMA stays within the observed rates", "statement": "In IEEE double arithmetic, after any sequence of ticks the rate lies between the smallest and the largest instantaneous rate (count/interval) seen, is finite, and each tick moves it towards the current instantaneous rate without overshooting.", "quantifier": "all count sequences, all smoothing factors in [0,1/2]", "why_tests_cant": "a test exercises a handful of histories; the claim is about every history of every length; rounding behaviour cannot be enumerated", "anchors": ["ewma.go:EWMA.TickN"]}
{"id": "C28", "title": "EWMA decays on idle ticks", "statement": "In IEEE double arithmetic a tick with count 0 never increases a non-negative rate and never makes it negative.", "quantifier": "all states with a non-negative finite rate", "why_tests_cant": "tests sample a few literals; the claim is about every input value", "anchors": ["ewma.go:EWMA.TickN"]}
{"id": "C29", "title": "EWMA follows the exponential recurrence", "statement": "Up to one rounding per operation the rate after k ticks is the exponentially weighted average: in exact arithmetic rate = (1-a)^k r0 + sum a(1-a)^(k-i) c_i/interval.", "quantifier": "all count sequences", "why_tests_cant": "a test exercises a handful of histories; the claim is about every history of every length", "anchors": ["ewma.go:EWMA.TickN"]}
{"id": "C30", "title": "Compass counts", "statement": "GetCount is the number of Update plus UpdateWithError calls and GetSuccessCount the number of UpdateWithError calls with isSuccess, so success count never exceeds count.", "quantifier": "all call histories (that do not panic) and clocks", "why_tests_cant": "a test exercises a handful of histories; the claim is about every history of every length", "anchors": ["impl/default_compass.go:Update", "impl/default_compass.go:UpdateWithError"]}
{"id": "C31", "title": "Compass error-code and addon distribution", "statement": "For every tracked error code (addon) the counter returned by GetErrorCodeCounts (GetAddonCounts) counts exactly the UpdateWithError calls carrying it; there are never more than maxErrorCodeCount (maxAddonCount) of them.", "quantifier": "all call histories", "why_tests_cant": "a test exercises a handful of histories; the claim is about every history of every length", "anchors": ["impl/default_compass.go:UpdateWithError", "impl/default_compass.go:findOrNewCounter"]}
{"id": "C32", "title": "Compass tolerates excess error codes", "statement": "An UpdateWithError with a new error code or addon beyond the configured maximum is dropped without disturbing the caller.", "quantifier": "all call histories with more distinct codes than the maximum", "why_tests_cant": "a test exercises a handful of histories; the claim is about every history of every length", "anchors": ["impl/default_compass.go:findOrNewCounter"]}
{"id": "C33", "title": "Compass moving averages are meaningful", "statement": "GetOneMinuteRate, GetFiveMinuteRate and GetFifteenMinuteRate return finite non-negative rates.", "quantifier": "all call histories and clocks", "why_tests_cant": "a test exercises a handful of histories; the claim is about every history of every length", "anchors": ["impl/default_compass.go:tickIfNecessary", "impl/default_compass.go:NewCompassWithType"]}
{"id": "C34", "title": "Compass mean rate", "statement": "GetMeanRate is GetCount divided by the time elapsed since the compass was created (per second), and 0 when there were no events.", "quantifier": "all clocks and call histories", "why_tests_cant": "tests sample a few literals; the claim is about every input value", "anchors": ["impl/default_compass.go:GetMeanRate", "impl/default_compass.go:NewCompassWithType"]}
{"id": "C35", "title": "Compass ticks once per five seconds", "statement": "The moving averages receive exactly one tick per full 5 seconds of elapsed clock time.", "quantifier": "all bucket intervals, clocks and call histories", "why_tests_cant": "a test exercises a handful of histories; the claim is about every history of every length", "anchors": ["impl/default_compass.go:tickIfNecessary"]}
{"id": "C36", "title": "Compass feeds every event to the averages once", "statement": "Every recorded event is handed to the moving averages exactly once: counts passed to the ticks plus the pending count equal the number of updates, also under every interleaving of concurrent callers.", "quantifier": "all goroutine counts, programs, clocks and schedules", "why_tests_cant": "tests sample a few schedules chosen by the Go runtime; the claim is about every interleaving of any number of goroutines", "anchors": ["impl/default_compass.go:tickIfNecessary"]}
{"id": "C37", "title": "Compass instant counts are exact", "statement": "GetInstantCount/GetInstantCountSince report exactly the number of calls per interval for the most recent non-empty intervals; per bucket the success counter never exceeds it.", "quantifier": "all non-decreasing clock histories", "why_tests_cant": "a test exercises a handful of histories; the claim is about every history of every length", "anchors": ["impl/default_compass.go:GetInstantCount"]}
{"id": "C38", "title": "Uniform reservoir size", "statement": "Size is the smaller of the number of values recorded and the capacity; the snapshot never holds more than capacity values.", "quantifier": "all histories, capacities and random choices", "why_tests_cant": "a test exercises a handful of histories; the claim is about every history of every length", "anchors": ["impl/uniform_reservoir.go:Size", "impl/uniform_reservoir.go:UpdateN"]}
{"id": "C39", "title": "Uniform reservoir snapshot holds recorded values", "statement": "Every value in the snapshot was recorded, and until capacity is exceeded the snapshot is exactly the multiset of the recorded values.", "quantifier": "all histories, capacities and random choices", "why_tests_cant": "a test exercises a handful of histories; the claim is about every history of every length", "anchors": ["impl/uniform_reservoir.go:GetSnapshot"]}
{"id": "C40", "title": "Uniform reservoir random position is unbiased", "statement": "The random position is always in [0,n), the rejection loop accepts a draw exactly when every residue is still reachable, and every position is produced by exactly the same number of accepted raw 63-bit draws.", "quantifier": "all n in [1,2^63)", "why_tests_cant": "tests sample a few literals; the claim is about every input value", "anchors": ["impl/uniform_reservoir.go:nextRandomPos"]}
{"id": "C41", "title": "Uniform reservoir sampling is uniform", "statement": "Over the uniform choices of random positions, each of the m >= capacity recorded values is retained with probability exactly capacity/m.", "quantifier": "all capacities and all numbers of recorded values", "why_tests_cant": "a statistical test cannot distinguish small bias and covers a few sizes only", "anchors": ["impl/uniform_reservoir.go:UpdateN"]}
{"id": "C42", "title": "Uniform snapshot is the sorted sample", "statement": "GetValues is the ascending sort of the values handed in, Size their number, GetMin/GetMax the smallest/largest (0 when empty), and later changes of the source slice do not affect it.", "quantifier": "all value lists", "why_tests_cant": "tests sample a few literals; the claim is about every input value", "anchors": ["impl/uniform_snapshot.go:NewUniformSnapshot"]}
{"id": "C43", "title": "Uniform quantile validity", "statement": "GetValue(q) fails exactly when q is NaN, below 0 or above 1; otherwise it returns 0 for an empty snapshot and else a finite value between min and max, GetValue(0)=min and GetValue(1)=max, in IEEE double arithmetic.", "quantifier": "all doubles q, all value lists with |v| <= 2^52", "why_tests_cant": "tests sample a few literals; the claim is about every input value", "anchors": ["impl/uniform_snapshot.go:GetValue"]}
{"id": "C44", "title": "Uniform quantile is monotone", "statement": "q1 <= q2 implies GetValue(q1) <= GetValue(q2) in IEEE double arithmetic.", "quantifier": "all pairs of doubles in [0,1], all value lists with |v| <= 2^52", "why_tests_cant": "tests sample a few literals; the claim is about every input value", "anchors": ["impl/uniform_snapshot.go:GetValue"]}
{"id": "C45", "title": "Uniform mean", "statement": "GetMean is the correctly rounded arithmetic mean and lies between min and max, as long as the sum of absolute values is at most 2^53; 0 when empty.", "quantifier": "all value lists within the stated magnitude", "why_tests_cant": "tests sample a few literals; the claim is about every input value", "anchors": ["impl/uniform_snapshot.go:GetMean"]}
{"id": "C46", "title": "Uniform standard deviation", "statement": "GetStdDev is never negative and never NaN, is 0 for at most one value and 0 when all values are equal; otherwise it is the square root of the sample variance (squared distances over n-1) up to the rounding of doubles.", "quantifier": "all value lists within the stated magnitude", "why_tests_cant": "tests sample a few literals; the claim is about every input value", "anchors": ["impl/uniform_snapshot.go:GetStdDev"]}
{"id": "C47", "title": "Weighted snapshot is the sorted sample", "statement": "GetValues is an ascending permutation of the sample values, Size their number, GetMin/GetMax smallest/largest; an empty snapshot reports errors for min, max and mean.", "quantifier": "all sample lists, every sorting algorithm", "why_tests_cant": "tests sample a few literals; the claim is about every input value", "anchors": ["impl/weighted_snapshot.go:NewWeightedSnapshot"]}
{"id": "C48", "title": "Weighted quantile validity", "statement": "GetValue(q) fails exactly for q NaN or outside [0,1]; otherwise it returns one of the sample values (0 when empty), never panics, GetValue(0) is the smallest value and GetValue is monotone in q.", "quantifier": "all doubles q, all sample lists with finite positive weights", "why_tests_cant": "tests sample a few literals; the claim is about every input value", "anchors": ["impl/weighted_snapshot.go:GetValue", "impl/weighted_snapshot.go:searchQuantile"]}
{"id": "C49", "title": "Weighted quantile respects exact boundaries", "statement": "When q equals the cumulative weight before the i-th sorted sample, GetValue(q) is that i-th sample's value.", "quantifier": "all sample lists and all boundary quantiles", "why_tests_cant": "tests sample a few literals; the claim is about every input value", "anchors": ["impl/weighted_snapshot.go:searchQuantile"]}
{"id": "C50", "title": "Weighted mean and deviation", "statement": "GetMean is a weighted average of the values lying between min and max, and GetStdDev is its weighted standard deviation.", "quantifier": "all sample lists with positive weights", "why_tests_cant": "tests sample a few literals; the claim is about every input value", "anchors": ["impl/weighted_snapshot.go:GetMean", "impl/weighted_snapshot.go:GetStdDev"]}
{"id": "C51", "title": "Bucket snapshot answers", "statement": "GetMean is value/count (0 for count 0), Size is the count, and every other statistic returns NotAvailable with an error.", "quantifier": "all counts and values", "why_tests_cant": "tests sample a few literals; the claim is about every input value", "anchors": ["impl/bucket_snapshot.go:BucketSnapshot"]}
{"id": "C52", "title": "Decaying reservoir size", "statement": "Size never exceeds the capacity nor the number of recorded values and the snapshot never holds more values than Size reports.", "quantifier": "all histories, clocks, capacities and random priorities", "why_tests_cant": "a test exercises a handful of histories; the claim is about every history of every length", "anchors": ["impl/exponentially_decaying_reservoir.go:Size", "impl/exponentially_decaying_reservoir.go:UpdateN"]}
{"id": "C53", "title": "Decaying reservoir size agrees with snapshot", "statement": "The snapshot holds exactly Size() values.", "quantifier": "all histories, clocks and random priorities", "why_tests_cant": "a test exercises a handful of histories; the claim is about every history of every length", "anchors": ["impl/exponentially_decaying_reservoir.go:UpdateN"]}
{"id": "C54", "title": "Decaying reservoir holds recorded values only", "statement": "Every value in the snapshot was recorded earlier (after the last total decay).", "quantifier": "all histories, clocks and random priorities", "why_tests_cant": "a test exercises a handful of histories; the claim is about every history of every length", "anchors": ["impl/exponentially_decaying_reservoir.go:UpdateN", "impl/exponentially_decaying_reservoir.go:rescale"]}
{"id": "C55", "title": "Decaying reservoir keeps the top priorities", "statement": "Between rescales, with pairwise different priorities, the reservoir holds exactly the capacity-many recorded values with the highest priorities.", "quantifier": "all sequences of values and distinct priorities, all capacities >= 1", "why_tests_cant": "a test exercises a handful of histories; the claim is about every history of every length", "anchors": ["impl/exponentially_decaying_reservoir.go:UpdateN"]}
{"id": "C56", "title": "Decaying reservoir rescale", "statement": "A rescale with a factor in (0,1] keeps every sample's value, multiplies key and weight by the factor, keeps the order, loses samples only when scaled keys become equal, and a factor of 0 empties the reservoir.", "quantifier": "all reservoir contents and factors", "why_tests_cant": "tests sample a few literals; the claim is about every input value", "anchors": ["impl/exponentially_decaying_reservoir.go:rescale"]}
{"id": "C57", "title": "Decaying reservoir never panics", "statement": "With capacity >= 1 no sequence of updates and snapshots panics.", "quantifier": "all histories, clocks and random priorities", "why_tests_cant": "a test exercises a handful of histories; the claim is about every history of every length", "anchors": ["impl/exponentially_decaying_reservoir.go:UpdateN"]}
{"id": "C58", "title": "Bucket reservoir mean", "statement": "The mean reported by a bucket reservoir's snapshot is the mean of the values recorded in the interval it reports.", "quantifier": "all histories and all map iteration orders", "why_tests_cant": "Go randomises map iteration, so a test sees one order", "anchors": ["impl/bucket_reservoir.go:GetSnapshot", "impl/bucket_reservoir.go:fetchValueFromMap"]}
{"id": "C59", "title": "HashKey is stable and ignores the level", "statement": "Repeated HashKey calls on one MetricName return the same string, even if Tags is modified in between, and the level does not influence it.", "quantifier": "all names, tag maps and iteration orders", "why_tests_cant": "tests sample a few literals; the claim is about every input value", "anchors": ["metric_name.go:HashKey"]}
{"id": "C60", "title": "Equal names have equal hash keys", "statement": "Two MetricName objects with equal key and equal tags have the same HashKey.", "quantifier": "all keys, tag maps and map iteration orders", "why_tests_cant": "Go randomises map iteration; a test sees one order per run", "anchors": ["metric_name.go:HashKey"]}
{"id": "C61", "title": "Different names have different hash keys", "statement": "Two MetricName objects that differ in key or tags have different HashKeys.", "quantifier": "all keys and tag maps", "why_tests_cant": "tests sample a few literals; the claim is about every input value", "anchors": ["metric_name.go:HashKey"]}
{"id": "C62", "title": "Registry returns one metric per name", "statement": "Once a name has been looked up, every later lookup of the same kind under the same hash key returns the identical metric, however many other lookups happen in between.", "quantifier": "all lookup histories", "why_tests_cant": "a test exercises a handful of histories; the claim is about every history of every length", "anchors": ["impl/default_registry.go:getMetric"]}
{"id": "C63", "title": "Registry lookup is linearizable", "statement": "Under every interleaving of concurrent lookups, all completed lookups of one hash key return the identical metric, which is the one listed by GetMetrics.", "quantifier": "all goroutine counts, programs and schedules", "why_tests_cant": "tests sample a few schedules chosen by the Go runtime; the claim is about every interleaving of any number of goroutines", "anchors": ["impl/default_registry.go:getMetric"]}
{"id": "C64", "title": "Registry limits live metrics", "statement": "Sequentially, at most maxMetricCount metrics that actually record are created; further names get the no-op metric.", "quantifier": "all lookup histories and limits", "why_tests_cant": "a test exercises a handful of histories; the claim is about every history of every length", "anchors": ["impl/default_registry.go:getMetric"]}
{"id": "C65", "title": "Registry size is bounded", "statement": "The number of entries in the registry never exceeds maxMetricCount.", "quantifier": "all lookup histories", "why_tests_cant": "a test exercises a handful of histories; the claim is about every history of every length", "anchors": ["impl/default_registry.go:getMetric"]}
{"id": "C66", "title": "Registry limit holds under concurrency", "statement": "Under every interleaving at most maxMetricCount recording metrics are created.", "quantifier": "all goroutine counts, programs and schedules", "why_tests_cant": "tests sample a few schedules chosen by the Go runtime; the claim is about every interleaving of any number of goroutines", "anchors": ["impl/default_registry.go:getMetric"]}
{"id": "C67", "title": "Registry lookups do not panic", "statement": "GetCompass and GetFastCompass return a metric for every name.", "quantifier": "all lookup histories", "why_tests_cant": "a test exercises a handful of histories; the claim is about every history of every length", "anchors": ["impl/default_registry.go:GetCompass", "impl/default_registry.go:GetFastCompass"]}
{"id": "C68", "title": "Registry listings partition", "statement": "GetCompasses and GetFastCompasses are disjoint, together equal GetMetrics, and list under each hash key the metric that lookups return.", "quantifier": "all lookup histories", "why_tests_cant": "a test exercises a handful of histories; the claim is about every history of every length", "anchors": ["impl/default_registry.go:getMetrics", "impl/default_registry.go:GetMetrics"]}
{"id": "C69", "title": "Registry LastUpdateTime", "statement": "LastUpdateTime is the maximum of the LastUpdateTime of the registered metrics (0 when there is none).", "quantifier": "all registry contents", "why_tests_cant": "tests sample a few literals; the claim is about every input value", "anchors": ["impl/default_registry.go:LastUpdateTime"]}
{"id": "C70", "title": "Disabled manager is inert", "statement": "While disabled, lookups return the no-op metrics and create nothing; enabling again gives the same metrics as before.", "quantifier": "all call histories", "why_tests_cant": "a test exercises a handful of histories; the claim is about every history of every length", "anchors": ["impl/default_metric_manager.go:GetCompass", "impl/default_metric_manager.go:SetEnable"]}
{"id": "C71", "title": "Manager groups", "statement": "Lookups with the same group and hash key return the identical metric; lookups in different groups never share a metric that records nor influence each other's limit.", "quantifier": "all call histories", "why_tests_cant": "a test exercises a handful of histories; the claim is about every history of every length", "anchors": ["impl/default_metric_manager.go:getMetricRegistry"]}
{"id": "C72", "title": "No-op metrics stay empty", "statement": "Whatever is recorded on a no-op compass, fast compass, bucket counter or snapshot, all their getters keep returning zero or empty results (the no-op fast compass's bucket interval is one second); the no-op manager only hands out no-op metrics.", "quantifier": "all call histories", "why_tests_cant": "a test exercises a handful of histories; the claim is about every history of every length", "anchors": ["impl/nop_compass.go", "impl/nop_fast_compass.go", "impl/nop_bucket_counter.go", "impl/nop_snapshot.go"]}
{"id": "C73", "title": "Config limits are positive and respected", "statement": "GetBucketCount, GetMaxSubCategoryCount, GetMaxMetricCountPerRegistry, GetMaxCompassErrorCodeCount and GetMaxCompassAddonCount return the configured value when positive and their documented default otherwise, hence always a positive number.", "quantifier": "all configurations", "why_tests_cant": "tests sample a few literals; the claim is about every input value", "anchors": ["config/metric_config.go"]}
{"id": "C74", "title": "Level interval configuration is respected", "statement": "A level interval of at least one second configured by the user is what GetLevelInterval returns for that level.", "quantifier": "all configurations and levels", "why_tests_cant": "tests sample a few literals; the claim is about every input value", "anchors": ["config/metric_config.go:GetLevelInterval"]}
{"id": "C75", "title": "Level interval is usable", "statement": "GetLevelInterval always returns at least one second, so counters built from it never divide by zero.", "quantifier": "all configurations and levels", "why_tests_cant": "tests sample a few literals; the claim is about every input value", "anchors": ["config/metric_config.go:GetLevelInterval"]}
{"id": "C76", "title": "Global interval configuration is respected", "statement": "A configured global interval of at least one second is what GetGlobalInterval returns.", "quantifier": "all configurations", "why_tests_cant": "tests sample a few literals; the claim is about every input value", "anchors": ["config/metric_config.go:GetGlobalInterval"]}
{"id": "C77", "title": "Default reservoir type", "statement": "A configuration that does not set the reservoir type yields the documented exponentially decaying reservoir.", "quantifier": "the unset configuration and every configured type", "why_tests_cant": "tests sample a few literals; the claim is about every input value", "anchors": ["config/metric_config.go:GetReservoirType"]}
{"id": "C78", "title": "Enabled metrics", "statement": "GetEnableMetrics returns all metrics when the list contains 'all' in any letter case, the configured list otherwise, and an empty list when nothing is configured.", "quantifier": "all configured lists", "why_tests_cant": "tests sample a few literals; the claim is about every input value", "anchors": ["config/metric_config.go:GetEnableMetrics"]}
{"id": "C79", "title": "Registry compasses use the configured limits", "statement": "A compass obtained from a registry allows the configured (default 100) number of error codes, the configured number of addons and the interval of its level.", "quantifier": "all levels and configurations", "why_tests_cant": "tests sample a few literals; the claim is about every input value", "anchors": ["impl/default_registry.go:GetCompass"]}
{"id": "C80", "title": "Interval constants mean what they say", "statement": "Sec_n denotes n seconds for n in 1, 5, 10, 30, 60.", "quantifier": "the five constants", "why_tests_cant": "no test refers to them", "anchors": ["interval.go"]}
{"id": "C81", "title": "Manual clock", "statement": "GetTick is the (wrapped) sum of all added durations, GetTime the tick in milliseconds rounded towards zero; with non-negative additions and no overflow both never decrease, also under every interleaving of Add calls.", "quantifier": "all sequences and interleavings of Add", "why_tests_cant": "tests sample a few schedules chosen by the Go runtime; the claim is about every interleaving of any number of goroutines", "anchors": ["impl/manual_clock.go"]}
{"id": "C82", "title": "Float comparison helper", "statement": "DeltaCompareFloat64 is symmetric in its first two arguments, true exactly when the rounded distance is at most delta for finite arguments, and false whenever an argument is NaN.", "quantifier": "all doubles", "why_tests_cant": "tests sample a few literals; the claim is about every input value", "anchors": ["compare.go:DeltaCompareFloat64"]}
{"id": "C83", "title": "Concurrent bucket counter updates always finish", "statement": "UpdateN is wait-free: a goroutine's call returns (and never panics) after at most ten of its own memory accesses, whatever the other goroutines and the clock do.", "quantifier": "all goroutine counts, programs, clock behaviours and schedules", "why_tests_cant": "tests sample a few schedules chosen by the Go runtime; the claim is about every interleaving of any number of goroutines", "anchors": ["impl/default_bucket_counter.go:UpdateN", "impl/bucket_queue.go:addLast"]}
{"id": "C84", "title": "FastCompass never deadlocks", "statement": "As long as a Record or getter call on a fast compass is unfinished, some goroutine can make progress: no interleaving of Record calls and getters leads to a deadlock or a panic while the lock is held.", "quantifier": "all goroutine counts, programs, clock behaviours and schedules", "why_tests_cant": "tests sample a few schedules chosen by the Go runtime; the claim is about every interleaving of any number of goroutines", "anchors": ["impl/default_fast_compass.go:Record"]}
{"id": "C85", "title": "Concurrent HashKey", "statement": "However many goroutines call HashKey on one MetricName at the same time, all calls return the same complete string and none deadlocks.", "quantifier": "all goroutine counts and schedules", "why_tests_cant": "tests sample a few schedules chosen by the Go runtime; the claim is about every interleaving of any number of goroutines", "anchors": ["metric_name.go:HashKey"]}
{"id": "C86", "title": "Manager under concurrency", "statement": "Under every interleaving of lookups and SetEnable calls, lookups with the same group and hash key return the identical metric (or the no-op metric if some goroutine disables the manager), and a recording metric is never handed out for two groups or two hash keys.", "quantifier": "all goroutine counts, programs and schedules", "why_tests_cant": "tests sample a few schedules chosen by the Go runtime; the claim is about every interleaving of any number of goroutines", "anchors": ["impl/default_metric_manager.go:getMetricRegistry", "impl/default_registry.go:getMetric"]}
{"id": "C87", "title": "Every sample of the uniform reservoir is equally likely", "statement": "Over the uniform choices of random positions, every set of capacity-many of the m recorded values is the content of the reservoir for the same number, (m-capacity)! out of m!/capacity!, of the choices.", "quantifier": "all capacities, numbers of recorded values and target samples", "why_tests_cant": "a statistical test cannot distinguish small bias and covers a few sizes only", "anchors": ["impl/uniform_reservoir.go:UpdateN"]}
{"id": "C88", "title": "Compass feeds its reservoir", "statement": "Every Update or UpdateWithError passes its duration to the reservoir exactly once, in call order, and nothing else changes the reservoir but its own snapshots.", "quantifier": "all reservoirs, call histories and clocks", "why_tests_cant": "a test exercises a handful of histories; the claim is about every history of every length", "anchors": ["impl/default_compass.go:Update", "impl/default_compass.go:GetSnapshot"]}
{"id": "C89", "title": "Compass snapshots are over the recorded durations", "statement": "With each built-in reservoir type, the values in a compass snapshot are durations that were recorded by Update/UpdateWithError calls (at most the reservoir's capacity of them; for the bucket type the count and sum of the current or previous interval).", "quantifier": "all call histories, clocks and random choices", "why_tests_cant": "a test exercises a handful of histories; the claim is about every history of every length", "anchors": ["impl/default_compass.go:NewCompassWithType", "impl/default_compass.go:GetSnapshot"]}
{"id": "C90", "title": "Compass counts are exact under concurrency", "statement": "Whatever the interleaving of Update and UpdateWithError calls of any number of goroutines, GetCount, GetSuccessCount and the durations given to the reservoir account exactly for the calls that have got that far, and the success count is at no moment above the total count.", "quantifier": "all goroutine counts, programs, clocks and schedules", "why_tests_cant": "tests sample a few schedules chosen by the Go runtime; the claim is about every interleaving of any number of goroutines", "anchors": ["impl/default_compass.go:Update", "impl/default_compass.go:UpdateWithError"]}
{"id": "C91", "title": "Compass codes and addons are exact under concurrency", "statement": "Under every interleaving no more codes (addons) are tracked than configured and only ones that were passed; every code (addon) has one counter and no call is lost or counted twice: each call that carries it is counted once, or panicked for lack of room. If no more different codes and addons are passed than configured, no call panics and at the end each counter equals the number of calls carrying its key.", "quantifier": "all goroutine counts, programs, limits, clocks and schedules", "why_tests_cant": "tests sample a few schedules chosen by the Go runtime; the claim is about every interleaving of any number of goroutines", "anchors": ["impl/default_compass.go:UpdateWithError", "impl/default_compass.go:findOrNewCounter"]}
{"id": "C92", "title": "Compass queries are safe next to updates", "statement": "GetErrorCodeCounts and GetAddonCounts can be called while other goroutines call UpdateWithError.", "quantifier": "all goroutine counts, programs and schedules", "why_tests_cant": "tests sample a few schedules chosen by the Go runtime; the claim is about every interleaving of any number of goroutines", "anchors": ["impl/default_compass.go:GetErrorCodeCounts", "impl/default_compass.go:GetAddonCounts"]}
{"id": "C93", "title": "Compass never deadlocks", "statement": "As long as a call on a compass is unfinished some goroutine can make progress (unless the process was aborted).", "quantifier": "all goroutine counts, programs, clocks and schedules", "why_tests_cant": "tests sample a few schedules chosen by the Go runtime; the claim is about every interleaving of any number of goroutines", "anchors": ["impl/default_compass.go:UpdateWithError", "impl/default_compass.go:tickIfNecessary"]}
{"id": "C94", "title": "Concurrent callers do not repeat a compass tick", "statement": "However many goroutines notice at the same time that a tick is due, the moving averages are ticked at most once per full 5 seconds since the start (bucket interval a divisor of 5 seconds), and lastTick accounts for exactly the ticks committed to if the interval is 5 seconds.", "quantifier": "all goroutine counts, programs, clocks and schedules", "why_tests_cant": "tests sample a few schedules chosen by the Go runtime; the claim is about every interleaving of any number of goroutines", "anchors": ["impl/default_compass.go:tickIfNecessary"]}
{"id": "C95", "title": "Bucket counter reads always finish", "statement": "GetBucketCountsSince called while other goroutines update the counter never panics, never waits, changes nothing, and returns after at most 3N+9 of its own memory accesses.", "quantifier": "all goroutine counts, programs, ring sizes, clock behaviours and schedules", "why_tests_cant": "tests sample a few schedules chosen by the Go runtime; the claim is about every interleaving of any number of goroutines", "anchors": ["impl/default_bucket_counter.go:GetBucketCountsSince", "impl/bucket_queue.go:getBucketList"]}
{"id": "C96", "title": "Bucket counter reads report real sums", "statement": "A GetBucketCountsSince call that overlaps updates returns at most N intervals, all of them requested ones that the clock has shown, and for each the exact sum of the amounts added to it at some moment during the call: no torn, invented or twice counted amounts.", "quantifier": "all goroutine counts, programs, ring sizes, clock behaviours and schedules", "why_tests_cant": "tests sample a few schedules chosen by the Go runtime; the claim is about every interleaving of any number of goroutines", "anchors": ["impl/default_bucket_counter.go:GetBucketCountsSince", "impl/bucket_queue.go:getBucketList"]}
{"id": "C97", "title": "Bucket counter reads are complete", "statement": "A GetBucketCountsSince call that overlaps updates reports every one of the N most recent intervals (and no expired one) that is there throughout the call.", "quantifier": "all goroutine counts, programs, ring sizes, clock behaviours and schedules", "why_tests_cant": "tests sample a few schedules chosen by the Go runtime; the claim is about every interleaving of any number of goroutines", "anchors": ["impl/default_bucket_counter.go:GetBucketCountsSince", "impl/bucket_queue.go:addLast", "impl/bucket_queue.go:getBucketList"]}
{"id": "C98", "title": "The decaying reservoir is atomic under concurrency", "statement": "With any number of goroutines calling Update and GetSnapshot, no call panics, no group of calls deadlocks, the reservoir never holds more than its capacity, every value is offered to the reservoir exactly once, the reservoir holds what its critical sections one after the other lead to, and every snapshot is the (sorted, at most capacity sized) content of the reservoir at one moment between call and return.", "quantifier": "all goroutine counts, programs, random numbers, clocks and schedules", "why_tests_cant": "tests sample a few schedules chosen by the Go runtime; the claim is about every interleaving of any number of goroutines", "anchors": ["impl/exponentially_decaying_reservoir.go:UpdateN", "impl/exponentially_decaying_reservoir.go:GetSnapshot", "impl/exponentially_decaying_reservoir.go:rescale"]}
{"id": "C99", "title": "Concurrent updates are weighted against the reservoir's current landmark", "statement": "With any number of goroutines, the samples and weights in the decaying reservoir are those of some one-at-a-time execution of the same updates, at times the clock has shown, with the rescales in clock order: no sample is weighted against an outdated landmark.", "quantifier": "all goroutine counts, programs, random numbers, clocks and schedules", "why_tests_cant": "tests sample a few schedules chosen by the Go runtime; the claim is about every interleaving of any number of goroutines", "anchors": ["impl/exponentially_decaying_reservoir.go:UpdateN", "impl/exponentially_decaying_reservoir.go:rescale"]}
{"id": "C100", "title": "Concurrent callers do not repeat a rescale", "statement": "However many goroutines use the decaying reservoir, the samples are rescaled at most once per full hour of the tick clock, and not before the first hour is over.", "quantifier": "all goroutine counts, programs, clocks and schedules", "why_tests_cant": "tests sample a few schedules chosen by the Go runtime; the claim is about every interleaving of any number of goroutines", "anchors": ["impl/exponentially_decaying_reservoir.go:rescaleIfNeeded", "impl/exponentially_decaying_reservoir.go:rescale"]}
{"id": "C101", "title": "The uniform reservoir is linearizable", "statement": "With any number of goroutines calling Update, Size and GetSnapshot on one uniform reservoir, every call takes effect and answers as if the calls had been made one after the other, in an order that respects each goroutine's order and the order of calls that do not overlap; whenever no update is under way the reservoir's content is that of a history of the values recorded so far and Size is min(recorded, capacity).", "quantifier": "all goroutine counts, programs, capacities, random draws and schedules", "why_tests_cant": "tests sample a few schedules chosen by the Go runtime; the claim is about every interleaving of any number of goroutines", "anchors": ["impl/uniform_reservoir.go:UpdateN", "impl/uniform_reservoir.go:Size", "impl/uniform_reservoir.go:GetSnapshot"]}
{"id": "C102", "title": "Calls on a uniform reservoir always return", "statement": "No interleaving of Update, Size and GetSnapshot calls deadlocks, and all calls together take at most a fixed number of steps (8 per update, 5 per size, capacity + 4 per snapshot), whatever the schedule.", "quantifier": "all goroutine counts, programs, capacities and schedules", "why_tests_cant": "tests sample a few schedules chosen by the Go runtime; the claim is about every interleaving of any number of goroutines", "anchors": ["impl/uniform_reservoir.go"]}
{"id": "C103", "title": "The uniform reservoir has no data race", "statement": "At no moment of any interleaving are two goroutines about to access the same variable of the reservoir (the count or one element) with one of them writing.", "quantifier": "all goroutine counts, programs, capacities and schedules", "why_tests_cant": "tests sample a few schedules chosen by the Go runtime; the claim is about every interleaving of any number of goroutines", "anchors": ["impl/uniform_reservoir.go"]}
{"id": "C104", "title": "Uniform quantiles interpolate", "statement": "GetValue(q) of a snapshot of n values is the value at position q(n+1) of the sorted values (first value before position 1, last one from position n on, the straight line between the two neighbours in between): it lies between the two neighbours, equals the k-th smallest value when the position is exactly k, and is off by rounding only, at most (2n+5) M 2^-53 for values of magnitude up to M.", "quantifier": "all multisets of up to 2^52 values of magnitude up to 2^52 and all q in [0,1]", "why_tests_cant": "tests sample a few literals; the claim is about every input value", "anchors": ["impl/uniform_snapshot.go:GetValue"]}
{"id": "C105", "title": "Named percentiles", "statement": "GetMedian, Get75thPercentile, Get95th..., Get98th..., Get99th... and Get999thPercentile of a snapshot are its 0.5, 0.75, 0.95, 0.98, 0.99 and 0.999 quantiles and never decrease in that order.", "quantifier": "all snapshots", "why_tests_cant": "tests sample a few literals; the claim is about every input value", "anchors": ["impl/uniform_snapshot.go:Get999thPercentile", "impl/weighted_snapshot.go:Get999thPercentile"]}
{"id": "C106", "title": "An EWMA has no data race", "statement": "No interleaving of Update, Tick, TickN and GetRate calls has a data race in the sense of the Go memory model (two conflicting accesses that can come next, not both of them atomic).", "quantifier": "all goroutine counts, programs and schedules", "why_tests_cant": "tests sample a few schedules chosen by the Go runtime; the claim is about every interleaving of any number of goroutines", "anchors": ["ewma.go"]}
{"id": "C107", "title": "The decaying reservoir has no data race", "statement": "No interleaving of Update and GetSnapshot calls on one exponentially decaying reservoir has a data race.", "quantifier": "all goroutine counts, programs, random numbers, clocks and schedules", "why_tests_cant": "tests sample a few schedules chosen by the Go runtime; the claim is about every interleaving of any number of goroutines", "anchors": ["impl/exponentially_decaying_reservoir.go"]}
{"id": "C108", "title": "Registry and manager have no data race", "statement": "No interleaving of metric lookups and SetEnable calls on a registry or manager has a data race.", "quantifier": "all goroutine counts, programs and schedules", "why_tests_cant": "tests sample a few schedules chosen by the Go runtime; the claim is about every interleaving of any number of goroutines", "anchors": ["impl/default_registry.go:getMetric", "impl/default_metric_manager.go:SetEnable"]}
{"id": "C109", "title": "The bucket counter has no data race", "statement": "No interleaving of UpdateN and GetBucketCountsSince calls on one bucket counter has a data race.", "quantifier": "all goroutine counts, programs, clocks and schedules", "why_tests_cant": "tests sample a few schedules chosen by the Go runtime; the claim is about every interleaving of any number of goroutines", "anchors": ["impl/default_bucket_counter.go", "impl/bucket_queue.go"]}
{"id": "C110", "title": "A compass has no data race", "statement": "No interleaving of Update, UpdateWithError, rate and map getter calls has a data race on the compass's own variables (last tick, pending count, maps of codes and addons).", "quantifier": "all goroutine counts, programs, clocks and schedules", "why_tests_cant": "tests sample a few schedules chosen by the Go runtime; the claim is about every interleaving of any number of goroutines", "anchors": ["impl/default_compass.go:tickIfNecessary", "impl/default_compass.go:GetErrorCodeCounts"]}
{"id": "C111", "title": "A fast compass has no data race", "statement": "No interleaving of Record and getter calls on one fast compass has a data race.", "quantifier": "all goroutine counts, programs, clocks and schedules", "why_tests_cant": "tests sample a few schedules chosen by the Go runtime; the claim is about every interleaving of any number of goroutines", "anchors": ["impl/default_fast_compass.go:Record", "impl/default_fast_compass.go:GetCountAndRtPerCategory"]}
{"id": "C112", "title": "Size of a decaying reservoir under concurrency", "statement": "Size called while other goroutines update the decaying reservoir returns a number between 0 and the capacity.", "quantifier": "all goroutine counts, programs, clocks and schedules", "why_tests_cant": "tests sample a few schedules chosen by the Go runtime; the claim is about every interleaving of any number of goroutines", "anchors": ["impl/exponentially_decaying_reservoir.go:Size"]}
{"id": "C113", "title": "Every setting can be configured", "statement": "Each setting of MetricConfig can be set from a JSON or YAML document by the key in its tag: the setting has the value given for its key, and settings whose key does not occur keep their zero value.", "quantifier": "all settings, values and documents", "why_tests_cant": "tests sample a few literals; the claim is about every input value", "anchors": ["config/metric_config.go:MetricConfig"]}
{"id": "C114", "title": "A compass used concurrently ends up with exact counts", "statement": "Whatever the interleaving of all memory accesses of any number of goroutines calling Update and UpdateWithError on a compass: when they have returned, GetCount of the total counter is the number of updates, that of the success counter the number of successful ones, and the counter of each tracked code and addon has counted every call that carried it and did not panic, modulo 2^64.", "quantifier": "all goroutine counts, programs, limits, intervals, clocks and schedules of single memory accesses", "why_tests_cant": "tests sample a few schedules chosen by the Go runtime; the claim is about every interleaving of any number of goroutines", "anchors": ["impl/default_compass.go:Update", "impl/default_compass.go:UpdateWithError", "impl/default_bucket_counter.go:UpdateN"]}
{"id": "C115", "title": "A compass used concurrently ends up with exact rates", "statement": "When all goroutines have returned, the 1, 5 and 15 minute averages have received the same counts, these and the pending count add up to the number of updates, and each rate is the result of applying its counts one after the other.", "quantifier": "all goroutine counts, programs, clocks and schedules of single memory accesses", "why_tests_cant": "tests sample a few schedules chosen by the Go runtime; the claim is about every interleaving of any number of goroutines", "anchors": ["impl/default_compass.go:tickIfNecessary", "ewma.go:TickN"]}
{"id": "C116", "title": "A compass used concurrently has sampled every duration", "statement": "At every moment the compass's reservoir holds at most its capacity of the recorded durations, is what its critical sections lead to one after the other, and nobody panics in it; when all goroutines have returned each duration has been offered to it exactly once.", "quantifier": "all goroutine counts, programs, random numbers, clocks and schedules of single memory accesses", "why_tests_cant": "tests sample a few schedules chosen by the Go runtime; the claim is about every interleaving of any number of goroutines", "anchors": ["impl/default_compass.go:Update", "impl/exponentially_decaying_reservoir.go:UpdateN"]}
{"id": "C117", "title": "A compass with its objects never deadlocks", "statement": "As long as a call on a compass is unfinished, in the compass or inside one of its counters, averages or reservoir, somebody with an unfinished call can make progress (unless the process was aborted).", "quantifier": "all goroutine counts, programs, clocks and schedules of single memory accesses", "why_tests_cant": "tests sample a few schedules chosen by the Go runtime; the claim is about every interleaving of any number of goroutines", "anchors": ["impl/default_compass.go", "impl/exponentially_decaying_reservoir.go"]}
{"id": "C118", "title": "The parts of a compass do not interfere", "statement": "Inside a compass used by any number of goroutines each counter, average and reservoir behaves as if it were used on its own by that many goroutines, and the compass behaves as if each of its calls to them were a single step.", "quantifier": "all goroutine counts, programs, clocks and schedules of single memory accesses", "why_tests_cant": "tests sample a few schedules chosen by the Go runtime; the claim is about every interleaving of any number of goroutines", "anchors": ["impl/default_compass.go", "impl/default_bucket_counter.go", "ewma.go", "impl/exponentially_decaying_reservoir.go"]}
{"id": "C119", "title": "Bucket counts of a compass used concurrently", "statement": "When all goroutines have returned, the bucket counts of each counter of the compass report, for each interval, exactly the updates made in it.", "quantifier": "all goroutine counts, programs, clocks and schedules of single memory accesses", "why_tests_cant": "tests sample a few schedules chosen by the Go runtime; the claim is about every interleaving of any number of goroutines", "anchors": ["impl/default_compass.go", "impl/default_bucket_counter.go:UpdateN"]}
{"id": "C120", "title": "A compass with a bucket reservoir used concurrently has added up every duration", "statement": "With the bucket reservoir (what the manager's compasses have): when all goroutines have returned, its counter of values has counted the duration of every update exactly once (modulo 2^64); and if the clock showed times of one interval only, a snapshot taken in that interval or the next has the number of the updates as its size and the sum of their durations as its value.", "quantifier": "all goroutine counts, programs, clocks and schedules of single memory accesses", "why_tests_cant": "tests sample a few schedules chosen by the Go runtime; the claim is about every interleaving of any number of goroutines", "anchors": ["impl/bucket_reservoir.go:UpdateN", "impl/bucket_reservoir.go:GetSnapshot", "impl/default_compass.go:Update"]}
{"id": "C121", "title": "Below the limit, every lookup gives a recording metric", "statement": "If no more different names are looked up in a registry (or in a group of a manager that nobody disables) than its limit (5000 for a group), and everyone who looks a name up asks for the same kind of metric, then every lookup that has returned gave a metric that records, of the kind asked for, and it is the metric GetMetrics lists under that name.", "quantifier": "all programs of any number of goroutines, all schedules, all limits below 2^31", "why_tests_cant": "whether a racing lookup sees the counter at the limit depends on the interleaving of the load, the store and the counter's increment", "anchors": ["impl/default_registry.go:getMetric", "impl/default_registry.go:GetMetrics", "impl/default_metric_manager.go:GetCompass"]}
{"id": "C122", "title": "Registries and metrics work together as they work alone", "statement": "In a program in which goroutines look metrics up and call methods of the metrics they have been given, all at the same time, the registries and the manager behave as they do without calls of the metrics; each compass (fast compass) somebody has been given behaves like a single compass (fast compass), created with 10 buckets of 1 or 60 seconds and limits of 20, at a time the clock showed, that exactly the goroutines that have been given it call, with the calls they have made of it.", "quantifier": "all goroutine counts, programs, clocks, limits and schedules of single memory accesses", "why_tests_cant": "an interference between two metrics, or between a metric and the registries, shows up only under some schedules", "anchors": ["impl/default_registry.go:getMetric", "impl/default_compass.go:NewCompassWithType", "impl/default_fast_compass.go:newFastCompass"]}
{"id": "C123", "title": "A compass from a registry counts the calls of everyone who has it", "statement": "When all goroutines have finished, the counters of each compass that some goroutine was given by a lookup count the calls all goroutines have made through references to this compass: GetCount of the total is the number of updates, that of the success counter the number of successful ones, that of each code or addon counter the number of calls that carried it (all codes and addons if there are at most 20); the moving averages have received these counts, but for those pending; a snapshot taken while the clock is in the same interval as all updates, or the next, has their number and the sum of their durations.", "quantifier": "all goroutine counts, programs, clocks, limits and schedules of single memory accesses", "why_tests_cant": "the counts depend on the interleaving of all goroutines' accesses to the registry, the compass and its parts", "anchors": ["impl/default_registry.go:getMetric", "impl/default_compass.go:Update", "impl/default_compass.go:UpdateWithError", "impl/default_bucket_counter.go:UpdateN", "impl/bucket_reservoir.go:GetSnapshot"]}
{"id": "C124", "title": "Everyone who asks for a name below the limit shares one metric", "statement": "If no more different names are looked up in a registry (or group) than its limit and everyone who looks a certain name up there asks for the same kind of metric, then, when all goroutines have finished, all lookups of that name there have given one and the same recording metric, the one GetMetrics lists, and no lookup of another name or elsewhere has given it.", "quantifier": "all goroutine counts, programs, clocks, limits and schedules of single memory accesses", "why_tests_cant": "two racing first lookups could create two metrics under some schedules", "anchors": ["impl/default_registry.go:getMetric", "impl/default_metric_manager.go:getMetricRegistry"]}
{"id": "C125", "title": "Updates made through a registry name are counted, whatever the schedule", "statement": "Under the same condition, the compass listed under the name has counted the updates through all references looked up under that name: its total, success, code and addon counts, moving averages and snapshot are determined by the programs of the goroutines alone.", "quantifier": "all goroutine counts, programs, clocks, limits and schedules of single memory accesses", "why_tests_cant": "an update lost because two goroutines got different metrics, or in a race inside the metric, needs the right schedule", "anchors": ["impl/default_registry.go:getMetric", "impl/default_compass.go:Update", "impl/default_compass.go:UpdateWithError"]}
{"id": "C126", "title": "Records made through a registry name are applied, whatever the schedule", "statement": "Under the same condition for a fast compass, if no getter has aborted the process (none does if only Record is called): when all goroutines have finished, the fast compass listed under the name is in the state that the Record calls through all references looked up under that name lead to, one after the other in some order, each goroutine's in its own order, at times the clock showed.", "quantifier": "all goroutine counts, programs, clocks, limits and schedules of single memory accesses", "why_tests_cant": "an interleaving of the registry's and the fast compass's accesses could lose a Record", "anchors": ["impl/default_registry.go:getMetric", "impl/default_fast_compass.go:Record"]}
{"id": "C127", "title": "The library as a whole does not deadlock", "statement": "Goroutines that look up metrics, and call methods (other than the four getters that read maps unprotected) of metrics they have looked up before, or that goroutines started before them look up, never block each other for good: as long as not all have finished, some goroutine can make a step. The same holds with these getters as long as the runtime has not aborted the process because of one of them.", "quantifier": "all goroutine counts, programs, clocks, limits and schedules of single memory accesses", "why_tests_cant": "a deadlock may need a particular schedule of accesses to several locks", "anchors": ["impl/default_registry.go:getMetric", "impl/default_compass.go:tickIfNecessary", "impl/default_bucket_counter.go:UpdateN", "impl/default_fast_compass.go:Record"]}
{"id": "C128", "title": "Fast compass getters report real numbers", "statement": "A getter of a fast compass that overlaps Record calls (and does not abort the process) answers for every category that was there when it was called and for none that is not there when it returns; per category it reports at most N intervals, between the time asked for and the interval of a clock value shown during the call, and for each exactly the invocations, the milliseconds or both that had been recorded for it at some moment during the call (exact numbers below 2^26 invocations and 2^38 ms); if nobody records during the call the answer is the one the getter gives alone.", "quantifier": "all goroutine counts, programs, clocks, map iteration orders and schedules of single memory accesses", "why_tests_cant": "tests sample a few schedules chosen by the Go runtime; the claim is about every interleaving of any number of goroutines", "anchors": ["impl/default_fast_compass.go:GetMethodCountPerCategorySince", "impl/default_fast_compass.go:GetMethodRtPerCategorySince", "impl/default_fast_compass.go:GetCountAndRtPerCategorySince"]}
{"id": "C129", "title": "Fast compass getters never wait", "statement": "A getter or LastUpdateTime call on a fast compass returns after at most (3N+10)(categories visited)+3 of its own steps, whatever the other goroutines do, even if one has stopped inside Record (unless the process was aborted).", "quantifier": "all goroutine counts, programs, clocks and schedules of single memory accesses", "why_tests_cant": "tests sample a few schedules chosen by the Go runtime; the claim is about every interleaving of any number of goroutines", "anchors": ["impl/default_fast_compass.go:LastUpdateTime", "impl/default_fast_compass.go:GetCountAndRtPerCategorySince"]}
{"id": "C130", "title": "LastUpdateTime next to Records", "statement": "LastUpdateTime of a fast compass called while others Record returns 0 or what LastUpdateTime of the counter of some category was at some moment during the call, and no less than the latest interval any category had when it was called. On a compass that started empty it is no less than the interval of any Record of a tracked category that had taken effect by then, and is 0, the start of the interval of a time the clock has shown, or (the creation time of a category) such a time itself.", "quantifier": "all goroutine counts, programs, clocks and schedules of single memory accesses", "why_tests_cant": "tests sample a few schedules chosen by the Go runtime; the claim is about every interleaving of any number of goroutines", "anchors": ["impl/default_fast_compass.go:LastUpdateTime", "impl/default_bucket_counter.go:LastUpdateTime"]}
{"id": "C131", "title": "LastUpdateTime never decreases", "statement": "A LastUpdateTime call on a fast compass that begins after another one has returned does not report less.", "quantifier": "all goroutine counts, programs, clocks and schedules of single memory accesses", "why_tests_cant": "tests sample a few schedules chosen by the Go runtime; the claim is about every interleaving of any number of goroutines", "anchors": ["impl/default_fast_compass.go:LastUpdateTime", "impl/default_bucket_counter.go:LastUpdateTime"]}
{"id": "C132", "title": "Everyone sees real numbers in a fast compass from a registry", "statement": "If no more different names are looked up in a registry (or group) than its limit and everyone who looks a certain name up there asks for a fast compass: when all goroutines have finished (no getter having aborted the process), one order of the Records made through the name leads to the state of the fast compass and explains all results its getters gave to anybody: the results answer the calls in order, and each value in them is what had been recorded for the category in the interval when a first part of the Records, with all earlier ones of the same goroutine, had taken effect.", "quantifier": "all goroutine counts, programs, clocks, limits and schedules of single memory accesses", "why_tests_cant": "tests sample a few schedules chosen by the Go runtime; the claim is about every interleaving of any number of goroutines", "anchors": ["impl/default_registry.go:getMetric", "impl/default_fast_compass.go:Record", "impl/default_fast_compass.go:GetCountAndRtPerCategorySince"]}
{"id": "C133", "title": "Reading a compass disturbs nothing", "statement": "The reading methods of a compass (GetCount, GetSuccessCount, GetInstantCount and -Since, LastUpdateTime, GetMeanRate, the rate getters' reads, GetSnapshot of the bucket reservoir) change nothing that anyone else can see: take them out of an execution and an execution of the updating calls remains, and when all goroutines have returned every update is counted exactly once.", "quantifier": "all goroutine counts, programs of updating and reading calls, clocks, reservoirs and schedules of single memory accesses", "why_tests_cant": "tests sample a few schedules chosen by the Go runtime; the claim is about every interleaving of any number of goroutines", "anchors": ["impl/default_compass.go:GetCount", "impl/default_compass.go:GetMeanRate", "impl/default_compass.go:GetSnapshot", "impl/bucket_reservoir.go:GetSnapshot"]}
{"id": "C134", "title": "Compass counts read while others update", "statement": "GetCount (GetSuccessCount) called while others call Update and UpdateWithError returns what had been counted at some moment during the call, in one order of all updates: at least the (successful) updates that had returned when it was called, at most those begun when it returned; and a call that begins after another has returned never reports less (fewer than 2^63 updates).", "quantifier": "all goroutine counts, programs of updating and reading calls, clocks, reservoirs and schedules of single memory accesses", "why_tests_cant": "tests sample a few schedules chosen by the Go runtime; the claim is about every interleaving of any number of goroutines", "anchors": ["impl/default_compass.go:GetCount", "impl/default_compass.go:GetSuccessCount", "impl/default_bucket_counter.go:GetCount"]}
{"id": "C135", "title": "GetInstantCount while others update", "statement": "GetInstantCount and GetInstantCountSince called while others update report at most N intervals, none before the start asked for and none after the interval of a clock value shown during the call, each with exactly what had been counted for it at some moment during the call.", "quantifier": "all goroutine counts, programs of updating and reading calls, clocks, reservoirs and schedules of single memory accesses", "why_tests_cant": "tests sample a few schedules chosen by the Go runtime; the claim is about every interleaving of any number of goroutines", "anchors": ["impl/default_compass.go:GetInstantCount", "impl/default_compass.go:GetInstantCountSince", "impl/default_bucket_counter.go:GetBucketCountsSince"]}
{"id": "C136", "title": "GetMeanRate while others update", "statement": "GetMeanRate called while others update returns 0 if nothing is counted or no time has passed, and otherwise, up to a relative error of 2^-50, a number of updates counted at a moment of the call divided by the time from creation to a later moment of the call, times a second.", "quantifier": "all goroutine counts, programs of updating and reading calls, clocks, reservoirs and schedules of single memory accesses", "why_tests_cant": "tests sample a few schedules chosen by the Go runtime; the claim is about every interleaving of any number of goroutines", "anchors": ["impl/default_compass.go:GetMeanRate"]}
{"id": "C137", "title": "LastUpdateTime of a compass while others update", "statement": "LastUpdateTime of a compass called while others update returns the latest interval (one the clock showed, never before one already counted in, never going back) at a moment of the call, or the creation time while no interval after second 0 has been entered.", "quantifier": "all goroutine counts, programs of updating and reading calls, clocks, reservoirs and schedules of single memory accesses", "why_tests_cant": "tests sample a few schedules chosen by the Go runtime; the claim is about every interleaving of any number of goroutines", "anchors": ["impl/default_compass.go:LastUpdateTime", "impl/default_bucket_counter.go:LastUpdateTime"]}
{"id": "C138", "title": "Rate getters while others update", "statement": "What the rate getters of a compass read while others update is the average after the ticks it had received at a moment of the call, ticks that hand on no more than the updates begun; and it is 0, infinite or not a number, never negative.", "quantifier": "all goroutine counts, programs of updating and reading calls, clocks, reservoirs and schedules of single memory accesses", "why_tests_cant": "tests sample a few schedules chosen by the Go runtime; the claim is about every interleaving of any number of goroutines", "anchors": ["impl/default_compass.go:GetOneMinuteRate", "impl/default_compass.go:GetFiveMinuteRate", "impl/default_compass.go:GetFifteenMinuteRate", "impl/ewma.go:GetRate"]}
{"id": "C139", "title": "GetSnapshot of a bucket reservoir while others update", "statement": "GetSnapshot of a compass with a bucket reservoir called while others update reports a value and a count that are each 0 or exactly what had been added, until a moment of the call, to an interval not before the one preceding the interval of a time shown during the call (after the first second of the clock); the two need not be of the same updates.", "quantifier": "all goroutine counts, programs of updating and reading calls, clocks, reservoirs and schedules of single memory accesses", "why_tests_cant": "tests sample a few schedules chosen by the Go runtime; the claim is about every interleaving of any number of goroutines", "anchors": ["impl/bucket_reservoir.go:GetSnapshot", "impl/default_compass.go:GetSnapshot"]}
{"id": "C140", "title": "Reading calls of a compass never wait", "statement": "Every reading call of a compass returns after a fixed number of its own steps (2 for the counts, LastUpdateTime and a rate, 3 for GetMeanRate, 3N+10 for GetInstantCount, 6N+18 for GetSnapshot with a bucket reservoir), whatever the other goroutines do, unless the process was aborted; and goroutines that update and read a compass never deadlock.", "quantifier": "all goroutine counts, programs of updating and reading calls, clocks, reservoirs and schedules of single memory accesses", "why_tests_cant": "tests sample a few schedules chosen by the Go runtime; the claim is about every interleaving of any number of goroutines", "anchors": ["impl/default_compass.go:GetCount", "impl/default_compass.go:GetInstantCount", "impl/bucket_reservoir.go:GetSnapshot"]}
{"id": "C141", "title": "The success rate is at most one", "statement": "If GetSuccessCount has returned before GetCount is called, it did not return more, whatever updates run in between or at the same time (fewer than 2^63 updates); called in the other order it may.", "quantifier": "all goroutine counts, programs of updating and reading calls, clocks, reservoirs and schedules of single memory accesses", "why_tests_cant": "tests sample a few schedules chosen by the Go runtime; the claim is about every interleaving of any number of goroutines", "anchors": ["impl/default_compass.go:UpdateWithError", "impl/default_compass.go:GetSuccessCount", "impl/default_compass.go:GetCount"]}
{"id": "C142", "title": "Every duration reaches the uniform reservoir exactly once", "statement": "A compass with a uniform reservoir used by any number of goroutines: no update panics in the reservoir; whenever no goroutine is inside it, it is the reservoir that some of the durations, each recorded at most once and one after the other with random positions in range, lead to (so the sampling results C38-C41 apply); when all calls have returned, each duration has been recorded exactly once and Size is the smaller of their number and the capacity.", "quantifier": "all goroutine counts, programs of updating and reading calls, clocks, reservoirs and schedules of single memory accesses", "why_tests_cant": "tests sample a few schedules chosen by the Go runtime; the claim is about every interleaving of any number of goroutines", "anchors": ["impl/default_compass.go:Update", "impl/uniform_reservoir.go:UpdateN", "impl/default_compass.go:NewCompassWithType"]}
{"id": "C143", "title": "Compasses read through handles while others update", "statement": "In the whole library: a goroutine calls a reading method of a compass that a lookup has returned, while others look metrics up and update this and other metrics. GetCount (GetSuccessCount) returns at least the number of (successful) updates made through handles of this compass that had returned when it was called and at most the number of those begun when it returned; GetMeanRate divides such a number by the time since a moment the clock had shown; GetInstantCount reports at most 10 intervals, of times the clock had shown, with no more updates in total than were begun; and every fact about the methods of a single compass carries over (fewer than 2^63 updates).", "quantifier": "every number of goroutines, every program of lookups, updates and reads, every schedule and clock, every moment of the call", "why_tests_cant": "tests sample a few schedules chosen by the Go runtime; the claim is about every interleaving of any number of goroutines", "anchors": ["impl/default_registry.go:GetCompass", "impl/default_metric_manager.go:GetCompass", "impl/default_compass.go:GetCount", "impl/default_compass.go:GetSuccessCount", "impl/default_compass.go:GetMeanRate", "impl/default_compass.go:GetInstantCount"]}
{"id": "C144", "title": "Every call of an EWMA returns", "statement": "The retry loop of Tick ends: whatever the schedule, goroutines that make any given calls of one EWMA (Update, Tick, Rate) make, all together, at most a number of steps that depends only on the calls they make; while some call has not returned, some goroutine can make a step; so every schedule that gives each goroutine enough turns completes all calls.", "quantifier": "every number of goroutines, every program, every schedule, every alpha and interval", "why_tests_cant": "tests sample a few schedules chosen by the Go runtime; the claim is about every interleaving of any number of goroutines", "anchors": ["ewma.go:EWMA.Update", "ewma.go:EWMA.Tick", "ewma.go:EWMA.TickN", "ewma.go:EWMA.GetRate"]}
{"id": "C145", "title": "Every call of a compass returns", "statement": "However many goroutines update a compass and call its reading methods, all together they make at most a number of steps that depends only on the number of buckets and the calls they make, under every schedule and every clock: no loop of a call (the retries of tickIfNecessary, the walk over the buckets) goes on for ever. So every schedule that gives each goroutine enough turns completes all calls, unless the runtime aborts the process because of an unprotected map getter; without map getters there is no abort.", "quantifier": "every number of goroutines, every program of updates and reads, every schedule and clock, every reservoir, limit, interval and number of buckets", "why_tests_cant": "tests sample a few schedules chosen by the Go runtime; the claim is about every interleaving of any number of goroutines", "anchors": ["impl/default_compass.go:tickIfNecessary", "impl/default_compass.go:Update", "impl/default_compass.go:UpdateWithError", "impl/default_compass.go:GetInstantCount", "impl/bucket_queue.go:getBucketList"]}
{"id": "C146", "title": "Every call of a fast compass returns", "statement": "However many goroutines record into a fast compass and call its map getters and LastUpdateTime, all together they make at most a number of steps that depends only on the number of buckets, the category limit and the calls they make, under every schedule and every clock: no call waits or loops for ever. So every schedule that gives each goroutine enough turns completes all calls, unless the runtime aborts the process because of an unprotected map getter; among Record calls only there is no abort.", "quantifier": "every number of goroutines, every program of records and reads, every schedule and clock, every interval of at least a second, every number of buckets and category limit", "why_tests_cant": "tests sample a few schedules chosen by the Go runtime; the claim is about every interleaving of any number of goroutines", "anchors": ["impl/default_fast_compass.go:Record", "impl/default_fast_compass.go:GetMethodCountPerCategorySince", "impl/default_fast_compass.go:LastUpdateTime", "impl/default_bucket_counter.go:UpdateN"]}
{"id": "C147", "title": "Every call returns, in the whole library", "statement": "Goroutines that look metrics up in registries and through the manager and call methods of them make, all together, at most a number of steps that depends only on which lookups and calls they have to make, not on the schedule, the clock, the limits or who is given which metric: no lookup and no call goes on for ever. If nobody waits for a metric in a circle and nobody calls a getter that reads a map unprotected, every schedule that gives each goroutine enough turns completes everything; with these getters too, unless the runtime aborts the process because of one of them.", "quantifier": "every number of goroutines, every plan of lookups and calls, every schedule, clock and registry limit", "why_tests_cant": "tests sample a few schedules chosen by the Go runtime; the claim is about every interleaving of any number of goroutines", "anchors": ["impl/default_registry.go:GetCompass", "impl/default_metric_manager.go:GetFastCompass", "impl/default_compass.go:Update", "impl/default_compass.go:tickIfNecessary", "impl/default_fast_compass.go:Record"]}
{"id": "C148", "title": "Fast compasses read through handles while others record", "statement": "In the whole library: a goroutine calls a map getter of a fast compass that a lookup has returned, while others look metrics up and record into this and other metrics. There are two moments of the call, the Records that had taken effect at the first including all that had returned when it was called and those at the second being among those begun when it returned, such that every category tracked at the first is reported; every reported category is one of a Record begun, with at most 10 intervals, none before the one asked for and none after that of a time shown during the call; each value is what had been recorded there at some moment in between. So, while the Records of a category fit the bits, its counts (times) are not negative and together no more than its Records begun (their milliseconds); and while the clock stays in one interval, its count and time there are at least those of its Records returned before the call and at most those of its Records begun. LastUpdateTime returns no less than the interval of any Record of a tracked category that had returned when it was called. (Start times after -1000; the process has not been aborted.)", "quantifier": "every number of goroutines, every program of lookups, records and reads, every schedule and clock, every moment of the call", "why_tests_cant": "tests sample a few schedules chosen by the Go runtime; the claim is about every interleaving of any number of goroutines", "anchors": ["impl/default_registry.go:GetFastCompass", "impl/default_metric_manager.go:GetFastCompass", "impl/default_fast_compass.go:Record", "impl/default_fast_compass.go:GetMethodCountPerCategorySince", "impl/default_fast_compass.go:GetMethodRtPerCategorySince"]}
{"id": "C149", "title": "A counter has no data race", "statement": "No interleaving of Inc, IncN, Dec, DecN and GetCount calls on one counter has a data race in the sense of the Go memory model (two conflicting accesses that can come next, not both of them atomic).", "quantifier": "all goroutine counts, programs and schedules", "why_tests_cant": "tests sample a few schedules chosen by the Go runtime; the claim is about every interleaving of any number of goroutines", "anchors": ["impl/counter_impl.go:GetCount", "impl/counter_impl.go:IncN"]}
{"id": "C150", "title": "A manual clock has no data race", "statement": "No interleaving of Add, GetTick and GetTime calls on one manual clock has a data race: a test can advance the clock while other goroutines use metrics that read it.", "quantifier": "all goroutine counts, programs and schedules", "why_tests_cant": "tests sample a few schedules chosen by the Go runtime; the claim is about every interleaving of any number of goroutines", "anchors": ["impl/manual_clock.go:GetTick", "impl/manual_clock.go:GetTime", "impl/manual_clock.go:Add"]}
{"id": "C151", "title": "Counts of a compass read through handles never fall", "statement": "In the whole library, with fewer than 2^63 updates: a GetCount (GetSuccessCount) of a compass that begins after another GetCount (GetSuccessCount) of the same compass has returned, made by the same or another goroutine through the same or another handle, does not report less; and a GetCount that begins after a GetSuccessCount has returned does not report less than that, so the success rate computed from them is at most one, whatever the others look up, update and read in between.", "quantifier": "every number of goroutines, every program of lookups, updates and reads, every schedule and clock, every pair of calls one after the other", "why_tests_cant": "tests sample a few schedules chosen by the Go runtime; the claim is about every interleaving of any number of goroutines", "anchors": ["impl/default_compass.go:GetCount", "impl/default_compass.go:GetSuccessCount", "impl/default_compass.go:UpdateWithError", "impl/default_registry.go:GetCompass"]}
{"id": "C152", "title": "The uniform mean is accurate for all values", "statement": "GetMean of a uniform snapshot of any 64-bit values (not empty) is their mean, up to a relative error of 2^-50 for the roundings.", "quantifier": "every number of values, every value", "why_tests_cant": "tests sample a few literals; the claim is about every input value", "anchors": ["impl/uniform_snapshot.go:GetMean", "impl/bucket_snapshot.go:GetMean"]}
{"id": "C153", "title": "Mean and deviation are always numbers", "statement": "Whatever 64-bit values a uniform snapshot holds, however large their sum (it may wrap), GetMean and GetStdDev return a finite double and no error, and GetStdDev is not negative.", "quantifier": "every number of values up to 2^53, every value", "why_tests_cant": "tests sample a few literals; the claim is about every input value", "anchors": ["impl/uniform_snapshot.go:GetMean", "impl/uniform_snapshot.go:GetStdDev"]}
{"id": "C154", "title": "Concurrent HashKey calls have no data race", "statement": "However many goroutines call HashKey on one MetricName, first calls included, no interleaving has a data race in the sense of the Go memory model (two conflicting accesses that can come next, not both of them atomic), as long as nobody assigns to the name's fields meanwhile.", "quantifier": "every number of goroutines, every name, every order of iteration over its tags, every schedule", "why_tests_cant": "tests sample a few schedules chosen by the Go runtime; the claim is about every interleaving of any number of goroutines", "anchors": ["metric_name.go:HashKey"]}
{"id": "C155", "title": "Metric names are independent of each other", "statement": "What HashKey returns of a MetricName depends only on how it was made and what was done to it (and to the map it was given): creating other names, adding or deleting tags of theirs, assigning to their fields or calling HashKey on them makes no difference.", "quantifier": "every number of names, maps shared among them or not, every history of creations, writes to tags, assignments and HashKey calls", "why_tests_cant": "a test exercises a handful of histories; the claim is about every history of every length", "anchors": ["metric_name.go:NewMetricName", "metric_name.go:emptyTags", "metric_name.go:HashKey"]}
{"id": "C156", "title": "LastUpdateTime of a compass read through handles never decreases", "statement": "In the whole library: a LastUpdateTime of a compass that begins after another LastUpdateTime of the same compass has returned, made by the same or another goroutine through the same or another handle, does not report less, whatever the others look up, update and read in between; what it reports is when the compass was created or when it was last updated.", "quantifier": "every number of goroutines, every program of lookups, updates and reads, every schedule and clock, every pair of calls one after the other", "why_tests_cant": "tests sample a few schedules chosen by the Go runtime; the claim is about every interleaving of any number of goroutines", "anchors": ["impl/default_compass.go:LastUpdateTime", "impl/default_bucket_counter.go:LastUpdateTime", "impl/default_registry.go:GetCompass"]}
{"id": "C157", "title": "Every HashKey call returns", "statement": "However many goroutines call HashKey on one MetricName, each any number of times: whatever the schedule, all of them together make at most nine steps per call and one per tag; while some call has not returned, some goroutine can make a step; so every schedule that gives each goroutine enough turns completes all calls, and all return the same complete hash key.", "quantifier": "every number of goroutines and calls, every name, every order of iteration over its tags, every schedule", "why_tests_cant": "tests sample a few schedules chosen by the Go runtime; the claim is about every interleaving of any number of goroutines", "anchors": ["metric_name.go:HashKey"]}
{"id": "C158", "title": "Every call of a decaying reservoir returns", "statement": "However many goroutines use one exponentially decaying reservoir (updates and snapshots): whatever the schedule and the clock, all of them together make at most 13 steps per call, rescales included; while some call has not returned, some goroutine can make a step; so every schedule that gives each goroutine enough turns completes all calls.", "quantifier": "every number of goroutines, every program of updates and snapshots, every schedule, clock and random numbers", "why_tests_cant": "tests sample a few schedules chosen by the Go runtime; the claim is about every interleaving of any number of goroutines", "anchors": ["impl/exponentially_decaying_reservoir.go:UpdateN", "impl/exponentially_decaying_reservoir.go:GetSnapshot", "impl/exponentially_decaying_reservoir.go:rescaleIfNeeded"]}
{"id": "C159", "title": "Lookups in registries and managers are wait-free", "statement": "However many goroutines look metrics up in registries and through the manager (known or new names and groups, registries full or not) and switch the manager on and off: whatever the others do, each lookup returns after at most eight of its own steps; a schedule that gives every goroutine eight turns per call completes all calls.", "quantifier": "every number of goroutines, every program of lookups, every schedule", "why_tests_cant": "tests sample a few schedules chosen by the Go runtime; the claim is about every interleaving of any number of goroutines", "anchors": ["impl/default_registry.go:getMetric", "impl/default_metric_manager.go:getMetricRegistry", "impl/default_metric_manager.go:SetEnable"]}
