{"id": "C01", "title": "Classification is monotone in the second pass' usage", "statement": "For fixed first-pass usage u1 > 0 and fixed set sizes, if the (non-negative) second-pass usage grows, analyse_complexity never returns a better (smaller) complexity. This holds bit-for-bit in f64, whatever values log2, powi and powf return; consequently the same holds for the public time and space analyses on durations and byte counts.", "quantifier": "all finite u1 > 0, all u2 <= u2' (including +inf), all n1, n2, all implementations of log2/powi/powf", "why_tests_cant": "the existing smooth_transitions test walks one line (u1=10, n=2..14) of a 4-dimensional f64 space", "anchors": ["src/low_level_analysis/low_level_analysis.rs:analyse_complexity"]}
{"id": "C02", "title": "Identical usage in both passes is O(1)", "statement": "If both passes use exactly the same non-zero finite amount of the resource, analyse_complexity returns O1 regardless of the set sizes and of log2/powi/powf (f64); likewise the six public analyses of equal positive durations or memory growths.", "quantifier": "all finite non-zero f64 usages, all n1, n2", "why_tests_cant": "all f64 values and all set sizes", "anchors": ["src/low_level_analysis/low_level_analysis.rs:analyse_complexity"]}
{"id": "C03", "title": "No false alarm: a cost that is c*f(n) up to the tolerance is never reported worse than f", "statement": "If the measured ratio u2/u1 is at most (1+tolerance) times f(n2)/f(n1), where f is any of 1, log n, n, n log n, n^2, n^3, n^4, then the reported complexity is f's own class or a better one. The same holds of the six public binary64 analyses of durations and memory (general and constant-set), for every math library accurate to 2^-49, when the ratio stays a relative 2^-40 below that bound.", "quantifier": "all usages with a ratio, all set sizes > 1, all seven reference growth functions (real arithmetic)", "why_tests_cant": "continuum of usages and set sizes", "anchors": ["src/low_level_analysis/low_level_analysis.rs:analyse_complexity"]}
{"id": "C04", "title": "No missed regression: growing faster than the tolerance allows is reported worse", "statement": "If u2/u1 exceeds (1+tolerance) times f(n2)/f(n1) then the reported complexity is strictly worse than f's class, for all set sizes 2 <= n1 <= n2 except (2,3). For n1 = 2, n2 = 3 the claim is false: growth beyond linear is reported as O(log n). The same holds of the public binary64 analyses for every math library accurate to 2^-49, when the ratio is a relative 2^-40 above that bound.", "quantifier": "all usages, all integer sizes 2 <= n1 <= n2 other than (2,3), all seven reference growth functions (real arithmetic)", "why_tests_cant": "continuum; needs the ordering of the growth ratios for every pair of sizes", "anchors": ["src/low_level_analysis/low_level_analysis.rs:analyse_complexity"]}
{"id": "C05", "title": "Exact recognition of the reference growth laws", "statement": "For 4 <= n1 and n2 >= 2 n1 (and, for the two logarithmic laws, log n2/log n1 > 1+tolerance), a cost of exactly c*f(n) is reported as exactly f's class. With n2 = 2 n1 and n1 >= 1024 the logarithmic factor is provably invisible: log n is reported O(1) and n log n is reported O(n). In binary64, with an accurate math library, durations or memory growths within 5% of the law's ratio are still given exactly the law's class.", "quantifier": "all c > 0, all sizes in the stated ranges (real arithmetic)", "why_tests_cant": "unbounded sizes and costs", "anchors": ["src/low_level_analysis/low_level_analysis.rs:analyse_complexity"]}
{"id": "C06", "title": "Unit independence up to O(n^4), and its failure for the exponential classes", "statement": "Multiplying both usages by the same positive constant (seconds to milliseconds, bytes to KiB) does not change the result as long as it is at most O(n^4); for the exponential classes it can: the same exponential algorithm is OkN in one unit and WorseThanExponential in another. The same holds of the shipped binary64 analyses, for any two pairs of proportional measurements outside the 2^-40 bands around the decision boundaries (any accurate math library), and, for space figures scaled by a power of two (bytes, KiB, pages), exactly: no excluded bands, any math library, all three space analyses.", "quantifier": "all positive scale factors, usages and sizes (real arithmetic); all proportional measurements away from the boundaries, all power-of-two factors (binary64)", "why_tests_cant": "a universally quantified scale factor", "anchors": ["src/low_level_analysis/low_level_analysis.rs:analyse_complexity"]}
{"id": "C07", "title": "An algorithm that uses none of the resource is not O(1)", "statement": "The documentation says functions that do not use RAM at all are O(1); with zero usage in both passes the analyses return WorseThanExponential (BetweenOLogNAndON for the set-resizing one) for every set size; zero usage in pass 1 only is reported as the worst class each analysis has.", "quantifier": "all non-zero u32 set sizes; all second-pass measurements; all IEEE-conforming powf/log2/powi (signs and zero base)", "why_tests_cant": "NaN propagation through 16 comparisons for all sizes; no test has zero usage", "anchors": ["src/low_level_analysis/low_level_analysis.rs:analyse_complexity", "src/low_level_analysis/space_analysis.rs:analyse_space_complexity"]}
{"id": "C08", "title": "Degenerate first-pass size 1 hides every regression", "statement": "With a first-pass set size of 1, no growth whatsoever is reported worse than BetweenO1AndOLogN, so any expected bound of O(log n) or more accepts arbitrary growth; the same holds for the set-resizing analysis with n = 1.", "quantifier": "all non-zero first-pass measurements, all second-pass measurements, all n2 >= 2; any log2 with log2(1)=0 that is positive above 1", "why_tests_cant": "all usages", "anchors": ["src/low_level_analysis/low_level_analysis.rs"]}
{"id": "C09", "title": "Set-resizing classification is monotone in the second pass' usage", "statement": "For fixed u1 > 0 and n, a larger u2 never yields a better complexity from analyse_set_resizing_iterator_complexity (f64, any log2).", "quantifier": "all finite u1>0, all u2<=u2' with clear sign bit (including +inf), all n, all log2", "why_tests_cant": "the existing test walks u1=100,n=1000 only", "anchors": ["src/low_level_analysis/low_level_analysis.rs:analyse_set_resizing_iterator_complexity"]}
{"id": "C10", "title": "Set-resizing analysis saturates", "statement": "analyse_set_resizing_iterator_complexity never returns anything worse than BetweenONAndONLogN, so a create/delete bound of that class or above accepts every measurement, e.g. quadratic inserts.", "quantifier": "all f64 inputs including NaN and infinities", "why_tests_cant": "all f64 inputs", "anchors": ["src/low_level_analysis/low_level_analysis.rs:analyse_set_resizing_iterator_complexity"]}
{"id": "C11", "title": "Set-resizing analysis recognises the textbook per-operation costs", "statement": "Pass 1 performs the operations on set sizes 0..n-1 and pass 2 on n..2n-1. If each operation costs a constant, the analysis returns O1 for every n >= 1; if the operation on the i-th element costs c*(i+1), it returns ON for every n >= 6 (and no longer at n = 5 with the 10% tolerance). A logarithmic cost per operation is reported between O1 and OLogN for n >= 32768. In binary64 the constant and (n >= 12) linear verdicts survive 5% of measurement noise.", "quantifier": "all n in range, all c>0 (real arithmetic)", "why_tests_cant": "sums over unboundedly many operations", "anchors": ["src/low_level_analysis/low_level_analysis.rs:analyse_set_resizing_iterator_complexity"]}
{"id": "C12", "title": "Ring buffer: sequential FIFO refinement", "statement": "For any sequence of enqueue, consumer, dequeue and peek_all calls, every consumer behaves like an index into the list of everything ever enqueued: dequeue returns the next unseen element in order, None exactly when there is none, and an overflow error exactly when more than RING_BUFFER_SIZE elements are pending; peek_all returns exactly the pending elements, in order, and the same error condition. Consumers do not affect each other.", "quantifier": "all operation sequences, all sizes 1..2^32-1, fewer than 2^32 enqueues", "why_tests_cant": "all histories and sizes", "anchors": ["src/metrics_allocator/ring_buffer.rs"]}
{"id": "C13", "title": "Ring buffer: an overflowed consumer recovers by losing elements silently", "statement": "The documentation promises that after an overflow error any further operation on the consumer yields the same error. This is false: each failing dequeue still advances the consumer, so a consumer with k more elements pending than the buffer holds gets exactly k errors and then dequeues elements again, having silently skipped k of them.", "quantifier": "all sizes and all excess amounts", "why_tests_cant": "the existing test performs a single dequeue after the overflow", "anchors": ["src/metrics_allocator/ring_buffer.rs:RingBufferOverflowError", "src/metrics_allocator/ring_buffer.rs:dequeue"]}
{"id": "C14", "title": "Ring buffer: concurrent enqueues publish every element exactly once, in reservation order", "statement": "Under every interleaving of any number of producer and consumer threads, the published elements are a prefix of the reserved ones, each enqueue gets its own position, and the internal 'BUG: Infinite loop' panic never fires (fewer than 2^32 enqueues).", "quantifier": "all thread counts, all schedules including spurious CAS failures", "why_tests_cant": "schedules cannot be enumerated by tests", "anchors": ["src/metrics_allocator/ring_buffer.rs:enqueue"]}
{"id": "C15", "title": "Ring buffer: concurrent dequeues claim each position exactly once", "statement": "Under every interleaving, the positions claimed by the threads sharing a consumer are exactly consecutive, starting from the consumer's creation point: no element is handed out twice by one consumer and none is skipped, apart from those reported as overflow errors.", "quantifier": "all thread counts, all schedules", "why_tests_cant": "all schedules", "anchors": ["src/metrics_allocator/ring_buffer.rs:dequeue"]}
{"id": "C16", "title": "Ring buffer: a successful concurrent dequeue refers to the right element", "statement": "If at most RING_BUFFER_SIZE threads use the buffer, then under every interleaving the reference returned by dequeue designates, when dequeue returns, the element enqueued at the claimed position (never an uninitialised or foreign one), and it keeps doing so until RING_BUFFER_SIZE later enqueues have begun. With more producers than slots the claim is false (witness).", "quantifier": "all schedules with threads <= size", "why_tests_cant": "a torn schedule needs an adversarial scheduler", "anchors": ["src/metrics_allocator/ring_buffer.rs:dequeue", "src/metrics_allocator/ring_buffer.rs:enqueue"]}
{"id": "C17", "title": "Ring buffer: concurrent peek_all is only safe while no enqueue is in flight over it", "statement": "When peek_all returns Ok and no position beyond head+RING_BUFFER_SIZE has been reserved, its slices are exactly the published pending elements; but its overflow check looks at the published tail only, so with an enqueue in flight it can return Ok with an overwritten element, in a schedule where dequeue would have reported the overflow.", "quantifier": "all schedules", "why_tests_cant": "needs one specific schedule", "anchors": ["src/metrics_allocator/ring_buffer.rs:peek_all"]}
{"id": "C18", "title": "Ring buffer: progress of enqueue and dequeue", "statement": "In every reachable state with an enqueue in flight there is a thread that completes its enqueue within three of its own steps (no deadlock among the spinning producers), and a thread inside dequeue that runs alone returns within five of its own steps. Enqueue is not lock-free: it spins for ever behind an earlier enqueue that is stalled.", "quantifier": "all reachable states, all schedules", "why_tests_cant": "absence of deadlock over all schedules", "anchors": ["src/metrics_allocator/ring_buffer.rs:enqueue"]}
{"id": "C19", "title": "Ring buffer: behaviour at the 2^32 wrap-around", "statement": "The 2^32-th enqueue panics in a debug build; in a release build a consumer created before the wrap then spins forever in dequeue, and a concurrent pair of enqueues at the wrap triggers the BUG panic.", "quantifier": "the wrap state (reached after 2^32-1 enqueues), for every size", "why_tests_cant": "2^32 operations are not run by tests", "anchors": ["src/metrics_allocator/ring_buffer.rs"]}
{"id": "C20", "title": "Ring buffer: no uninitialised slot is ever exposed, but enqueue drops one", "statement": "No dequeue or peek_all ever returns a slot that was never written. However each of the first RING_BUFFER_SIZE enqueues assigns over (and hence drops) an uninitialised slot, which is undefined behaviour for slot types with drop glue.", "quantifier": "all operation sequences", "why_tests_cant": "memory-safety over all histories", "anchors": ["src/metrics_allocator/ring_buffer.rs:enqueue"]}
{"id": "C21", "title": "Allocator metrics: delta_statistics is exact", "statement": "For any allocation history before and after save_point(), delta_statistics() returns the number and bytes of each kind of operation performed since the save point, the memory in use now, and the exact minimum and maximum of the memory in use over the whole interval, including its two ends.", "quantifier": "all histories of alloc/dealloc/alloc_zeroed/realloc/save_point with at most RING_BUFFER_SIZE later save points, in both build profiles", "why_tests_cant": "all histories", "anchors": ["src/metrics_allocator/metrics_allocator.rs:save_point", "src/metrics_allocator/metrics_allocator.rs:delta_statistics", "src/metrics_allocator/metrics_allocator.rs:compute_min_and_max_used_memories"]}
{"id": "C22", "title": "Allocator metrics: save points do not disturb each other", "statement": "Taking additional save points at any moments does not change what delta_statistics() reports for an earlier save point, as long as it does not fail; delta_statistics() itself changes nothing and can be repeated.", "quantifier": "all histories, all insertion points", "why_tests_cant": "all histories", "anchors": ["src/metrics_allocator/metrics_allocator.rs"]}
{"id": "C23", "title": "Allocator metrics: overflow is reported exactly when it happened", "statement": "delta_statistics() fails if and only if more than RING_BUFFER_SIZE save points were taken after the given one.", "quantifier": "all histories, all ring sizes", "why_tests_cant": "needs >1024 nested save points", "anchors": ["src/metrics_allocator/metrics_allocator.rs:delta_statistics"]}
{"id": "C24", "title": "Allocator metrics: used memory equals live heap bytes", "statement": "After any client history that follows the GlobalAlloc contract and in which no allocation fails, current_used_memory equals the total size of the live blocks and never underflows; a failed alloc or realloc makes it wrong forever (witness).", "quantifier": "all contract-abiding client histories", "why_tests_cant": "all histories; allocation failure is not exercised", "anchors": ["src/metrics_allocator/metrics_allocator.rs"]}
{"id": "C25", "title": "Allocator metrics: concurrent counters are exact", "statement": "Under every interleaving of any number of threads allocating, freeing and taking save points, once all operations are complete each counter and current_used_memory equals the sum over all performed operations (no lost update).", "quantifier": "all thread counts, all schedules", "why_tests_cant": "all schedules", "anchors": ["src/metrics_allocator/metrics_allocator.rs"]}
{"id": "C26", "title": "Allocator metrics: concurrent min/max are sandwiched", "statement": "Under every interleaving, max_used_memory and min_used_memory only ever hold values that current_used_memory really had; and if no save point is being taken concurrently, then once all operations are complete min <= current <= max. Neither survives a racing save_point: a schedule leaves max < current, and a transient peak can be missed entirely (witnesses).", "quantifier": "all thread counts, all schedules", "why_tests_cant": "all schedules", "anchors": ["src/metrics_allocator/metrics_allocator.rs:compute_min_and_max_used_memories", "src/metrics_allocator/metrics_allocator.rs:save_point"]}
{"id": "C27", "title": "Space measurements never underflow in sequential use", "statement": "For every algorithm executed between save_point and delta_statistics without concurrent save points, the pass measurement satisfies min <= before <= max and min <= after <= max, so the space analyses and reports never panic on subtraction, in either build profile.", "quantifier": "all allocation histories", "why_tests_cant": "all histories", "anchors": ["src/runners/common.rs:run_sync_pass", "src/low_level_analysis/space_analysis.rs", "src/low_level_analysis/types/types_impl.rs:fmt_over_n"]}
{"id": "C28", "title": "Save-point exhaustion in both passes is reported as O(1)", "statement": "When the save-point ring overflowed during a pass, the sentinel measurement is meant to make it clear that the statistics are messed up; but if it happened in both passes every space analysis returns O1, which any bound except BetterThanO1 accepts, and if only in pass 1, BetterThanO1, which every bound accepts. If only in pass 2, the result is at least as bad as for any genuine second-pass measurement.", "quantifier": "all set sizes, all genuine other-pass measurements (growth below 2^63 for the pass-1 case, non-zero first-pass growth for the pass-2 case)", "why_tests_cant": "needs ring exhaustion inside measured code", "anchors": ["src/runners/common.rs", "src/low_level_analysis/space_analysis.rs"]}
{"id": "C29", "title": "Iterator pass: every index exactly once when threads divide the range", "statement": "For every range and thread count dividing its length, under every thread interleaving, the closure is called exactly once with every index in the range and with nothing else; each thread gets a contiguous block.", "quantifier": "all ranges below 2^31, all thread counts, all schedules", "why_tests_cant": "all ranges and schedules", "anchors": ["src/runners/common.rs:run_iterator_pass"]}
{"id": "C30", "title": "Iterator pass: a non-dividing thread count silently drops iterations", "statement": "In general exactly threads*(len/threads) distinct indices of the range are visited; the remaining len mod threads indices (the lowest for ascending ranges, the highest for descending ones) are never visited, although the reported iteration count is unchanged; with more threads than iterations nothing runs.", "quantifier": "all ranges below 2^31, all thread counts", "why_tests_cant": "all pairs", "anchors": ["src/runners/common.rs:run_iterator_pass", "src/runners/crud.rs"]}
{"id": "C31", "title": "Iterator pass: order of iteration is the reverse of the range's direction", "statement": "An ascending range a..b is visited by each thread in strictly descending order and a descending range in ascending order, for every thread count; with one thread the sequence is exactly b-1, b-2, ..., a (resp. ascending). The documented order is therefore swapped.", "quantifier": "all ranges below 2^31, all thread counts", "why_tests_cant": "all ranges", "anchors": ["src/runners/common.rs:run_iterator_pass"]}
{"id": "C32", "title": "Iterator pass: the computed number does not depend on the schedule", "statement": "For a pure closure the u32 returned by a pass is a function of range and threads only, not of the thread interleaving, and the algorithm type (SetResizing or ConstantSet) has no effect on the calls made.", "quantifier": "all pure closures, all schedules", "why_tests_cant": "all schedules", "anchors": ["src/runners/common.rs:run_iterator_pass"]}
{"id": "C33", "title": "Iterator pass: zero threads panic", "statement": "run with zero threads panics (division by zero) whatever the range, so analyse_crud_algorithms panics instead of returning None for an operation with 0 threads and non-zero iterations, contrary to its documentation.", "quantifier": "all ranges, both build profiles", "why_tests_cant": "all ranges", "anchors": ["src/runners/common.rs:run_iterator_pass", "src/runners/crud.rs:analyse_crud_algorithms"]}
{"id": "C34", "title": "CRUD: call sequence", "statement": "Every complete CRUD analysis performs, in this order and nothing else: the warm-up passes of the enabled operations followed by one reset (only if the warm-up percentage is non-zero), then create/read/update on the first block, create/read/update on the second block, then delete on the second block and delete on the first block.", "quantifier": "all configurations, all measurement outcomes, in both build profiles", "why_tests_cant": "all configurations and measurement outcomes", "anchors": ["src/runners/crud.rs:internal_analyse_crud_algorithms"]}
{"id": "C35", "title": "CRUD: deletes exactly what was created", "statement": "With equal create and delete iteration counts and dividing thread counts, over a complete run without warm-up the indices passed to create_fn are exactly 0..2N-1, once each, the same for delete_fn, and every create call precedes every delete call; under every schedule.", "quantifier": "all N < 2^30, all dividing thread counts, all schedules", "why_tests_cant": "all schedules and sizes", "anchors": ["src/runners/crud.rs", "src/runners/common.rs"]}
{"id": "C36", "title": "CRUD: outcome is exactly the comparison with the maxima", "statement": "The analysis succeeds iff every enabled operation's observed time and space complexity is at most the expected one; otherwise the error names the first offending operation in create, read, update, delete order, and within it time before space. After an error no further closure is called.", "quantifier": "all configurations and measurements", "why_tests_cant": "all measurement outcomes", "anchors": ["src/runners/crud.rs:internal_analyse_crud_algorithms"]}
{"id": "C37", "title": "CRUD: disabled operations are never called and yield None", "statement": "If an operation's iterations-per-pass is 0 its closure is never called in any pass or warm-up, and a successful analysis reports None for it and Some for every enabled one.", "quantifier": "all configurations", "why_tests_cant": "all configurations", "anchors": ["src/runners/crud.rs"]}
{"id": "C38", "title": "CRUD: analyse_crud_algorithms never fails on complexity", "statement": "analyse_crud_algorithms (no maxima) always returns the four analyses, whatever the measurements; its unwrap never panics. Whatever the closures do, a panic of the analysis is one of a closure or of reset_fn, and nothing happens after it.", "quantifier": "all configurations without overflow, all measurements", "why_tests_cant": "all measurements", "anchors": ["src/runners/crud.rs:analyse_crud_algorithms"]}
{"id": "C39", "title": "CRUD: what reset_fn receives", "statement": "Without warm-up and retries reset_fn is never called; the warm-up calls it exactly once with create_iterations*percentage/100; before a retry it is called with the literal 100, not with the number of created elements as documented.", "quantifier": "all configurations", "why_tests_cant": "all configurations", "anchors": ["src/runners/crud.rs:test_crud_algorithms"]}
{"id": "C40", "title": "CRUD: retry policy", "statement": "test_crud_algorithms runs the analysis again exactly while it fails on time and attempts remain; it panics iff an attempt fails on space or all attempts fail on time; otherwise it returns after the first success. It performs at most max_retry_attempts analyses.", "quantifier": "all attempt budgets, all outcome sequences", "why_tests_cant": "all outcome sequences", "anchors": ["src/runners/crud.rs:test_crud_algorithms"]}
{"id": "C41", "title": "CRUD: zero attempts accept anything", "statement": "With max_retry_attempts = 0 test_crud_algorithms returns normally without calling any closure.", "quantifier": "all configurations", "why_tests_cant": "degenerate parameter", "anchors": ["src/runners/crud.rs:test_crud_algorithms"]}
{"id": "C42", "title": "CRUD: adaptation of the iterations per pass", "statement": "On attempt k the iteration count is adapted with a divisor that is always 10, 8, 6, 4 or 2 (never 0, never panicking below the overflow limit) and stays between N/10 and 3N/2; but for N < 10 it becomes 0 on some retry, so the operation is silently skipped and the test can pass without ever having met its bound.", "quantifier": "all attempts, all N", "why_tests_cant": "all attempts and N", "anchors": ["src/runners/crud.rs:adapt"]}
{"id": "C43", "title": "CRUD: a simultaneous time and space mismatch is retried", "statement": "The comments promise that only time mismatches are retried because space is deterministic; an operation violating both bounds is reported as a time failure and retried, whereas test_algorithm reports space first and never retries it.", "quantifier": "all measurements", "why_tests_cant": "all outcomes", "anchors": ["src/runners/crud.rs", "src/runners/standard.rs"]}
{"id": "C44", "title": "CRUD: reads/updates without creates are only ever BetterThanO1, O1 or WorseThanExponential", "statement": "With create_iterations_per_pass = 0 the read and update analyses receive set sizes 0 and 0; for non-zero finite usage the outcome is one of these three classes only, hence read-only analyses reject any growth above tolerance as worse than exponential.", "quantifier": "all measurements with non-zero first pass; any powf/log2/powi following IEEE on NaN and zero", "why_tests_cant": "all measurements", "anchors": ["src/runners/crud.rs", "src/low_level_analysis/time_analysis.rs"]}
{"id": "C45", "title": "test_algorithm: outcome and number of runs", "statement": "test_algorithm returns normally iff, among its first 1+max_retry_attempts runs, the first run that is not a pure time mismatch is a success; it panics otherwise; a space mismatch stops immediately. Each run is reset, pass 1, pass 2, in this order.", "quantifier": "all budgets, all outcome sequences", "why_tests_cant": "all outcome sequences", "anchors": ["src/runners/standard.rs:test_algorithm", "src/runners/standard.rs:analyse_algorithm"]}
{"id": "C46", "title": "test_algorithm: a zero set size always panics in the report", "statement": "With pass1_set_size = 0 or pass2_set_size = 0 every run panics while formatting the report (Duration::from_secs_f64 of infinity or NaN), whatever the measurements; with non-zero sizes the report never panics there. Likewise a constant-set report panics exactly with 0 repetitions, and a set-resizing report exactly with an empty pass or, with overflow checks, when twice the number of elements per pass does not fit a u32 (without checks that size is shown modulo 2^32).", "quantifier": "all measurements", "why_tests_cant": "all durations", "anchors": ["src/low_level_analysis/types/types_impl.rs", "src/runners/standard.rs"]}
{"id": "C47", "title": "Async builder: order of execution and data flow", "statement": "raw_analyse_algorithm calls reset (with the previous attempt's data), warm-up (with the reset's data), reset again (with nothing), pass 1, assertion 1, reset (with pass 1's data), pass 2, assertion 2 -- skipping exactly the absent ones -- and each pass receives the data returned by the immediately preceding reset, warm-up or pass; the second pass always receives data.", "quantifier": "all subsets of optional functions, all data types and functions", "why_tests_cant": "all configurations and functions", "anchors": ["src/api/builders/regular_async_builder.rs:raw_analyse_algorithm"]}
{"id": "C48", "title": "Async builder: without a reset function the previous attempt's data is lost", "statement": "On a retry the data of the failed attempt reaches reset_fn if there is one; otherwise it is dropped and the warm-up or first pass is called with None.", "quantifier": "all configurations", "why_tests_cant": "all configurations", "anchors": ["src/api/builders/regular_async_builder.rs"]}
{"id": "C49", "title": "Async builder: outcome, retries and ignored options", "statement": "test_algorithm panics iff some attempt before the first success fails on space or all 1+max_reattempts attempts fail on time (only for the complexities that were set); auxiliary-space expectations and custom measurements have no influence on the outcome; with no expectation set it always succeeds after one attempt.", "quantifier": "all configurations, all outcome sequences", "why_tests_cant": "all outcome sequences", "anchors": ["src/api/builders/regular_async_builder.rs"]}
{"id": "C50", "title": "Async builder: setters are independent and last-write-wins", "statement": "Each builder method changes only its own setting; repeated calls keep the last one; the order in which different methods are called does not matter (custom measurements keep declaration order).", "quantifier": "all call sequences", "why_tests_cant": "all call sequences", "anchors": ["src/api/builders/regular_async_builder.rs"]}
{"id": "C51", "title": "Custom measurers: properly nested and paired", "statement": "measure_all_before_event followed by measure_all_after_event never panics, calls the before functions in reverse declaration order and the after functions in declaration order, gives each after function the value produced by its own before function, and returns the results in declaration order under the declared names; calling after without before panics.", "quantifier": "all lists of measurers and outputs", "why_tests_cant": "all lists", "anchors": ["src/utils/measurements/measurer.rs"]}
{"id": "C52", "title": "Auto-scaling picks the right unit", "statement": "For every non-negative value a byte or byte-rate measurement is shown in the largest unit not exceeding it (so the scaled value is in [1,1024) below the top unit); the 'missing unit' fallback appears exactly for negative or NaN values; no built-in table contains an unknown format. For any table at all, the first row whose threshold the value reaches decides, its format shows 0 to 3 decimals or the exponent form as it says, and an unknown format panics.", "quantifier": "all f64 values", "why_tests_cant": "all f64 values", "anchors": ["src/utils/measurements/presentable_measurements.rs"]}
{"id": "C53", "title": "Auto-scaling: the per-unit caches are transparent", "statement": "custom_unit_measurement and its per-second variant display the same text for a given value and unit whatever calls were made before.", "quantifier": "all call histories", "why_tests_cant": "all call histories", "anchors": ["src/utils/measurements/presentable_measurements.rs"]}
{"id": "C54", "title": "Report: memory sign", "statement": "The per-pass report shows '+' only if memory grew and '-' only if it shrank; the converse fails: growth below f32 precision is shown without a sign.", "quantifier": "all usize pairs, all n", "why_tests_cant": "all 64-bit values", "anchors": ["src/low_level_analysis/types/types_impl.rs:fmt_over_n"]}
{"id": "C55", "title": "Report: totals", "statement": "used_memory_delta equals the sum over both passes of after-before, used_auxiliary_space the sum of max - max(before, after), with no overflow panic for well-formed measurements below 2^62 bytes. The summary line says \"allocated\" or \"freed\" after the sign of the total and shows its absolute value and the auxiliary space, rounded to f32, in the unit that keeps the number between 1 and 1024.", "quantifier": "all well-formed measurements", "why_tests_cant": "all 64-bit values", "anchors": ["src/low_level_analysis/types/types_impl.rs"]}
{"id": "C56", "title": "Complexity labels are unambiguous", "statement": "The 17 complexities are totally ordered by their discriminant in the documented order and the general, time and space labels of different complexities are different texts. A class that is a law is labelled by the law, a class between two laws names both, the two ends say \"Better than O(1)\" and \"Worse than\" the last law; time and space labels only add advice at the two ends.", "quantifier": "all pairs of complexities", "why_tests_cant": "finite but never checked by the tests", "anchors": ["src/low_level_analysis/types/types_impl.rs", "src/low_level_analysis/types/types.rs"]}
{"id": "C57", "title": "Cargo features select exactly one tolerance and one output", "statement": "The tolerance constant has exactly one definition iff the 10% and 25% features are not both on (10% when neither is), and OUTPUT exactly one iff stdout and stderr are not both on; hence adding tolerance_25_percent to the default features does not compile. The no_report feature has no influence on where reports go.", "quantifier": "all feature sets", "why_tests_cant": "feature sets are not built by the tests", "anchors": ["src/features.rs", "Cargo.toml"]}
{"id": "C58", "title": "Allocator metrics: no concurrent call panics", "statement": "Whatever number of threads allocate, free, take save points and ask for delta_statistics concurrently, no call ever panics (in particular no counter difference underflows in a debug build, although the snapshot of a save point is not atomic), as long as byte totals stay below 2^64 and save points below 2^32.", "quantifier": "all thread counts, all schedules, both build profiles", "why_tests_cant": "tests observe a few schedules; the snapshot/delta race needs an argument over all interleavings", "anchors": ["src/metrics_allocator/metrics_allocator.rs: save_point, delta_statistics, compute_*_metrics"]}
{"id": "C59", "title": "Allocator metrics: a measured region with concurrent work inside", "statement": "If a save point is taken while nothing else runs, then any number of threads allocate and free concurrently (no other save point), and delta_statistics is called once all are done, then it succeeds, its nine counters are exactly the totals of the calls made in between, the memory in use is exact, and min <= before <= max and min <= after <= max. The min and max reported are values the usage really had in the region.", "quantifier": "all earlier histories, all thread counts, all schedules of the measured region, both build profiles", "why_tests_cant": "quantifies over all interleavings of the measured threads", "anchors": ["src/metrics_allocator/metrics_allocator.rs: save_point, delta_statistics, compute_min_and_max_used_memories", "src/runners/common.rs: run_iterator_pass"]}
{"id": "C60", "title": "Iterator pass: debug builds panic on ranges across 2^31", "statement": "For every range of fewer than 2^31 elements, a pass in a build with overflow checks panics before the first call of the closure exactly when one end of the range is below 2^31 and the other is not; otherwise it completes.", "quantifier": "all u32 ranges shorter than 2^31, all thread counts below 2^31, all closures that return, all schedules", "why_tests_cant": "needs all range/thread combinations near the i32 boundary", "anchors": ["src/runners/common.rs:run_iterator_pass"]}
{"id": "C61", "title": "Iterator pass: a panic in any call panics the pass", "statement": "A pass returns a measurement iff the closure returned from every call made; if it panics for some index of the range (dividing thread count) the pass panics under every schedule, on whichever thread the call ran.", "quantifier": "all partial closures, ranges, thread counts, schedules", "why_tests_cant": "all schedules and all sets of panicking indices", "anchors": ["src/runners/common.rs:run_iterator_pass"]}
{"id": "C62", "title": "Report: a ring-buffer overflow in the first pass breaks debug reports", "statement": "If the first pass could not be measured (the allocator reported the ring-buffer overflow, so the runner substitutes the all-ones measurement) and the second pass used auxiliary memory, then formatting the report panics in a build with overflow checks; without checks the auxiliary memory shown is the second pass's.", "quantifier": "all well-formed second-pass measurements", "why_tests_cant": "all 64-bit values", "anchors": ["src/low_level_analysis/types/types_impl.rs:used_auxiliary_space", "src/runners/common.rs:run_iterator_pass"]}
{"id": "C63", "title": "Report: memory units", "statement": "An amount of memory in a report is shown as at most 1024 b, or more than 1 and at most 1024 KiB or MiB, or more than 1 GiB, and value times unit is the amount (rounded to f32).", "quantifier": "all u64 amounts", "why_tests_cant": "all 64-bit values", "anchors": ["src/low_level_analysis/types/types_impl.rs"]}
{"id": "C64", "title": "CRUD: an enabled operation with zero threads panics", "statement": "If any operation has a non-zero number of iterations per pass but a number of threads of 0, analyse_crud_algorithms panics (division by zero inside the first pass of that operation), whatever the closures, schedules and measurements; it does not yield None for that operation as the documentation of the parameters suggests.", "quantifier": "every configuration, closure state, schedule and measurement", "why_tests_cant": "an example test shows one configuration; the claim covers every operation, count and schedule", "anchors": ["src/runners/crud.rs: analyse_crud_algorithms", "src/runners/common.rs: run_iterator_pass"]}
{"id": "C65", "title": "CRUD: reads and updates only touch created indices iff they are no more numerous than creates", "statement": "Without warm-up, in every complete analysis every index given to read_fn (update_fn) was given to create_fn before, provided read (update) iterations per pass <= create iterations per pass and the create threads divide the create iterations; with more reads (updates) than creates per pass, some index is read that was not created.", "quantifier": "every configuration, schedule, closure behaviour and measurement", "why_tests_cant": "depends on the interleaving of threads and on all iteration counts", "anchors": ["src/runners/crud.rs: internal_analyse_crud_algorithms, calc_regular_cru_range"]}
{"id": "C66", "title": "A duration measurement shows the duration", "statement": "duration_measurement(d) followed by display shows d exactly when d < 2^50 ns (13 days) and within half a nanosecond plus 2^-51 of d otherwise (up to 2^53 s); Duration::MAX makes the display panic.", "quantifier": "all durations", "why_tests_cant": "all 2^94 durations; double rounding through f64 seconds", "anchors": ["src/utils/measurements/presentable_measurements.rs:duration_measurement"]}
{"id": "C67", "title": "Per-element times in reports are accurate", "statement": "The time per element shown in a report is elapsed/n to within half a nanosecond plus 2^-50 of it, for every duration below 2^53 s and every non-zero u32 n; it does not panic. Seconds are converted to the nearest nanosecond, ties to the even one.", "quantifier": "all durations and set sizes", "why_tests_cant": "all inputs; double rounding", "anchors": ["src/low_level_analysis/types/types_impl.rs"]}
{"id": "C68", "title": "The time of an iterator pass is the mean of its threads' times", "statement": "The time measured for an iterator pass is the arithmetic mean of the durations measured by its threads, to within half a nanosecond plus (threads+3)*2^-52 of it, so up to that error it lies between the fastest and the slowest thread; with one thread it is that thread's duration exactly (below 2^49 ns); it never panics.", "quantifier": "all thread counts below 2^31 and all per-thread durations", "why_tests_cant": "all durations and thread counts; accumulated floating-point error", "anchors": ["src/runners/common.rs:run_iterator_pass"]}
{"id": "C69", "title": "Async builder dry run: measurers nest around each pass; without reset the passes get nothing", "statement": "test_run calls reset(None), warm-up(reset's data), reset(warm-up's data), then for each pass: the measurers' before functions in reverse order, the pass, the after functions in order on their own before values, the assertion (with a reset of pass 1's data in between); absent functions are skipped and yield no data, so without a reset function both passes are called with None, unlike in test_algorithm. It panics only if a user function or the display of a measurement panics or a pass function is missing.", "quantifier": "all configurations, data and functions", "why_tests_cant": "all configurations and functions", "anchors": ["src/api/builders/regular_async_builder.rs:test_run", "src/utils/measurements/measurer.rs"]}
{"id": "C70", "title": "Floating-point rounding never changes a verdict that is not on a boundary", "statement": "For every math library whose log2 and powi are accurate to a relative 2^-49, the general time and space analyses return exactly what the same rules give in exact real arithmetic, unless the measured ratio is within a relative 2^-40 of one of the 14 window boundaries (or both answers are among the exponential classes).", "quantifier": "all set sizes 2..2^32-1, all durations below 2^53 s, all memory growths below 2^64, all accurate math libraries, both tolerances", "why_tests_cant": "a test samples a few inputs of one math library; rounding errors depend on every input bit", "anchors": ["src/low_level_analysis/low_level_analysis.rs:analyse_complexity", "src/low_level_analysis/time_analysis.rs:analyse_time_complexity", "src/low_level_analysis/space_analysis.rs:analyse_space_complexity"]}
{"id": "C71", "title": "Complete decision table of the general analysis", "statement": "The answer is exactly the class of law f if and only if the ratio exceeds (1+tolerance) times the expected ratio of every smaller law and lies in [1-tolerance, 1+tolerance] times the expected ratio of f; it is the class just below f iff it exceeds every smaller law that way and is under (1-tolerance) times the expected ratio of f; it is worse than O(n^4) iff it exceeds every law; then the exponential windows decide by u2 against u1^(n2/n1).", "quantifier": "all usages, all sizes > 1, both tolerances (real arithmetic)", "why_tests_cant": "continuum of inputs, both directions of an equivalence", "anchors": ["src/low_level_analysis/low_level_analysis.rs:analyse_complexity"]}
{"id": "C72", "title": "Complete decision table of the set-resizing analysis", "statement": "With X the ratio of the two passes and L = log(3n)/log(n): the answer is BetterThanO1, O1, BetweenO1AndOLogN, OLogN, BetweenOLogNAndON, ON or BetweenONAndONLogN according to the interval X falls in (thresholds 1/(1+tol), 1+tol, L, (1+tol)L, 3(1-tol), 3(1+tol)); the binary64 code gives the same answers outside 2^-40 bands around the thresholds.", "quantifier": "all positive usages, all n >= 2 (reals); all durations/growths, sizes 2..2^32-1 and accurate math libraries (binary64)", "why_tests_cant": "continuum of inputs", "anchors": ["src/low_level_analysis/low_level_analysis.rs:analyse_set_resizing_iterator_complexity", "src/low_level_analysis/time_analysis.rs:analyse_time_complexity_for_set_resizing_iterator_algorithm", "src/low_level_analysis/space_analysis.rs:analyse_space_complexity_for_set_resizing_iterator_algorithm"]}
{"id": "C73", "title": "Report: a memory cell shows the largest swing of the pass", "statement": "The memory cell of a pass (absolute, or divided by n) shows max(peak - before, before - trough) / n to within 2^-22 of it, in b, KiB, MiB or GiB so that the number is in (1,1024] (bytes: [0,1024]); decimals are omitted exactly for bytes within 0.001 of an integer; an absolute amount of at most 1 KiB is exact and has no decimals.", "quantifier": "all well-formed measurements, all non-zero u32 n, both builds", "why_tests_cant": "all 64-bit values, f32 rounding", "anchors": ["src/low_level_analysis/types/types_impl.rs:BigOSpacePassMeasurements::fmt_over_n"]}
{"id": "C74", "title": "Report: the rows of the three kinds of measurements", "statement": "Each report has one row per pass, in order, with that pass' own time, memory cell and size (n; the set sizes; delta and 2*delta) and its time per element (per n; per repetition; per delta) to within half a nanosecond plus 2^-50; constant-set rows also show the repetitions, regular rows the memory per element.", "quantifier": "all durations below 2^53 s, all measurements, all sizes", "why_tests_cant": "all inputs", "anchors": ["src/low_level_analysis/types/types_impl.rs:Display"]}
{"id": "C75", "title": "Report: the verdicts shown are those of the analysis", "statement": "The report of an analysis shows the time label of its time complexity and the space label of its space complexity (and of no other complexity), its own rows and the space summary of its own two passes.", "quantifier": "all analyses", "why_tests_cant": "all inputs", "anchors": ["src/low_level_analysis/types/types_impl.rs:BigOAlgorithmAnalysis Display"]}
{"id": "C76", "title": "CRUD: the computed number covers every pass", "statement": "When deletes are analysed, a successful CRUD analysis reports one computed number, after its last pass; it is the xor of the numbers returned by every pass of the analysis, including the warm-up passes. Without deletes no number is reported.", "quantifier": "all closures (stateful, any return values), configurations, schedules and measurements", "why_tests_cant": "all schedules and closures", "anchors": ["src/runners/crud.rs:internal_analyse_crud_algorithms"]}
{"id": "C77", "title": "End to end: test_algorithm accepts exactly the algorithms whose growth is within the limits", "statement": "When test_algorithm runs on the installed metrics allocator, each pass' space measurement is the truth about that pass: memory in use before and after, and the lowest and highest amounts at any moment of the pass, whatever was allocated before, between the passes or while printing. Consequently, if the time and the peak memory of the two passes follow c*f(n) within 2% for reference laws f (sizes at least 4, second at least twice the first, and far enough apart for logarithms), the test panics after one run blaming space iff the space law is worse than the allowed class; otherwise runs 1+max_retry_attempts times and panics blaming time iff the time law is worse than allowed; otherwise passes at the first run.", "quantifier": "every closure behaviour, every allocation history before and during the test, every set sizes, limits, retries, build profile, tolerance and accurate math library", "why_tests_cant": "the verdict composes allocator, save-point ring, floating-point decision chain and retry loop; a test observes one program on one machine", "anchors": ["src/runners/standard.rs:test_algorithm", "src/runners/common.rs:run_sync_pass", "src/metrics_allocator/metrics_allocator.rs:delta_statistics", "src/low_level_analysis/low_level_analysis.rs:analyse_complexity"]}
{"id": "C78", "title": "End to end: an algorithm whose memory never grows fails every test_algorithm limit but the worst", "statement": "If neither pass ever holds more heap memory than when it was called (searching, sorting in place, or any program when the metrics allocator is not installed: feature no_allocator_metrics), test_algorithm panics after its first run with space complexity WorseThanExponential, unless WorseThanExponential is the allowed space complexity.", "quantifier": "every such closure behaviour, history, set sizes >= 1, limits, retries", "why_tests_cant": "depends on NaN propagation through the whole decision chain for all sizes and on the exactness of the measurements", "anchors": ["src/runners/standard.rs:test_algorithm", "src/features.rs:ALLOC", "src/low_level_analysis/low_level_analysis.rs:analyse_complexity"]}
{"id": "C79", "title": "End to end: a CRUD test of a container whose operations follow growth laws passes exactly when the laws comply", "statement": "If in every measured pass each operation's time and peak memory are, within 2%, a constant times what its growth law says for the number of elements the container holds at each call (creates add one element per call, deletes remove one, reset empties it), then test_crud_algorithms passes at its first attempt when every enabled operation's class is within the user's limits; otherwise it fails naming the first operation, in the order create, read, update, delete, whose class exceeds its limit, with that operation's true class and the limit: after max attempts, every one naming it, if the time is at fault; at the first attempt if the time is within its limit and the space is not.", "quantifier": "every container state and closures that return, every growth law the analyses can tell apart (reads and updates: all but the logarithmic ones for the failing direction; creates and deletes: constant or linear per call, or constant peak), every unit cost, every set size of at least 120 whose retries drop no iteration, every thread count, every libm within 2^-49, both tolerances, debug and release, and all noise within 2%", "why_tests_cant": "the guarantee composes the order of the passes, the numbers of elements each pass meets, the reversed delete ranges, the retry policy with its adapted counts and the floating-point classification, for all sizes and all noise; a test can only try some", "anchors": ["src/runners/crud.rs:test_crud_algorithms", "src/runners/crud.rs:analyse_crud_algorithms", "src/low_level_analysis/low_level_analysis.rs:analyse_complexity", "src/low_level_analysis/low_level_analysis.rs:analyse_set_resizing_iterator_complexity"]}
{"id": "C80", "title": "Ring buffer guarantees that survive relaxed memory orderings", "statement": "Under the relaxed/acquire/release orderings the ring asks for, with no outside synchronisation: completed enqueues get the positions 0,1,2,... in order, each element passed to enqueue exactly once; enqueue and consumer() never panic, and nothing panics in release builds; each consumer's dequeues return (or lose in a panic) each position at most once, only published positions from the consumer's start on, without gaps when nobody is inside; if dequeue says 'nothing' although an enqueue that happens before it put an element at p >= the consumer's start, then p has been returned, lost in a panic, or claimed by a dequeue in flight.", "quantifier": "every execution of any number of threads, every choice of stale values the orderings allow, every spurious compare-exchange failure, every ring size in 1..2^32-1, fewer than 2^32 enqueues, debug and release", "why_tests_cant": "tests run on one machine (usually strongly ordered x86) and one schedule; stale reads allowed by the memory model need not show up there", "anchors": ["src/metrics_allocator/ring_buffer.rs:enqueue", "src/metrics_allocator/ring_buffer.rs:dequeue", "src/metrics_allocator/ring_buffer.rs:peek_all", "src/metrics_allocator/ring_buffer.rs:consumer"]}
{"id": "C81", "title": "Without outside synchronisation dequeue can return garbage, panic or miss elements under the orderings used", "statement": "(Refutations.) With one producer and one consumer thread that share nothing but the reference to the consumer, the orderings in the source allow: a dequeue that returns an uninitialised slot, or the element of the previous lap, in a data race; a data race even when the right element is returned; a data race of two enqueues one lap apart; a panic of dequeue (debug) that loses an element, or a spurious overflow error (release); a panic of peek_all or a spurious overflow; 'nothing' and a consumer that starts too early after a completed enqueue. peek_all likewise can show an uninitialised slot in a data race.", "quantifier": "existence of executions of the memory model, for the ring of 1024 slots", "why_tests_cant": "these executions need not be produced by any given hardware and compiler, so a test cannot establish or exclude them", "anchors": ["src/metrics_allocator/ring_buffer.rs:enqueue", "src/metrics_allocator/ring_buffer.rs:dequeue", "src/metrics_allocator/ring_buffer.rs:peek_all", "src/metrics_allocator/ring_buffer.rs:consumer"]}
{"id": "C82", "title": "A dequeue ordered after its element's enqueue is right", "statement": "If the enqueue of an element happens before the dequeue of its position (by program order or outside synchronisation such as a lock, channel or join), and there are at most as many threads as slots: the dequeue does not panic; if it returns an element while no more than RING_BUFFER_SIZE positions beyond it are reserved, it is the enqueued element and the access is not a data race; if it reports an overflow, more than RING_BUFFER_SIZE positions beyond it were reserved. All this with any amount of unsynchronised activity by other threads.", "quantifier": "every execution under the memory orderings, any other producers and consumers, every ring size and build profile, fewer than 2^32 enqueues", "why_tests_cant": "quantifies over all weak-memory executions and all happens-before orders", "anchors": ["src/metrics_allocator/ring_buffer.rs:enqueue", "src/metrics_allocator/ring_buffer.rs:dequeue", "src/metrics_allocator/ring_buffer.rs:peek_all", "src/metrics_allocator/ring_buffer.rs:consumer"]}
{"id": "C83", "title": "A ring used under a lock behaves sequentially consistently and without data races", "statement": "If any two accesses to the ring are ordered by happens-before, every weakly ordered execution returns the same results as the interleaving of its steps and has no data race, so everything C12-C18 say applies; holding one lock around every call is enough.", "quantifier": "every synchronised execution, every list of critical sections, every ring size >= 1", "why_tests_cant": "quantifies over all executions of the memory model", "anchors": ["src/metrics_allocator/ring_buffer.rs:enqueue", "src/metrics_allocator/ring_buffer.rs:dequeue", "src/metrics_allocator/ring_buffer.rs:peek_all", "src/metrics_allocator/ring_buffer.rs:consumer"]}
{"id": "C84", "title": "No allocation is lost from the statistics under the relaxed orderings, and counters only rise", "statement": "Whatever the relaxed orderings of the source let threads see of each other: once all calls are over, each counter and the current memory usage equal the exact sum over all calls (modulo 2^64); and the values a counter takes, in the order all threads agree on, never decrease.", "quantifier": "every execution under the memory orderings, any number of threads (up to the ring size for the second part), allocations, deallocations, reallocations, save points and delta requests in any order, both build profiles", "why_tests_cant": "quantifies over all weak-memory executions, which no given hardware and compiler needs to show", "anchors": ["src/metrics_allocator/metrics_allocator.rs:save_point", "src/metrics_allocator/metrics_allocator.rs:delta_statistics", "src/metrics_allocator/metrics_allocator.rs:alloc", "src/metrics_allocator/metrics_allocator.rs:dealloc", "src/metrics_allocator/metrics_allocator.rs:realloc"]}
{"id": "C85", "title": "Calls into the metrics allocator panic only after a data race on the save point ring", "statement": "Under the relaxed orderings no call of alloc, dealloc, realloc, save_point or delta_statistics panics, even with debug overflow checks on the subtraction of counters that other threads change, unless the program has a data race on a slot of the save point ring. If the calls of save_point and delta_statistics by different threads are ordered (each is over before, and happens before, the next), there is no such race and nothing panics, whatever allocations other threads make meanwhile; without that order, save_point in two threads and a delta can race and panic.", "quantifier": "every execution under the memory orderings, at most as many threads as ring slots, totals below 2^64 and fewer than 2^32 save points", "why_tests_cant": "quantifies over all weak-memory executions", "anchors": ["src/metrics_allocator/metrics_allocator.rs:save_point", "src/metrics_allocator/metrics_allocator.rs:delta_statistics", "src/metrics_allocator/metrics_allocator.rs:alloc", "src/metrics_allocator/metrics_allocator.rs:dealloc", "src/metrics_allocator/metrics_allocator.rs:realloc"]}
{"id": "C86", "title": "What delta_statistics counts under the relaxed orderings", "statement": "Each counter reported by delta_statistics is at least what the calls begun after save_point returned and ordered (happens-before) before delta_statistics add, and at most what all calls not ordered before save_point add. If every call is ordered before the save point, or begins after it and is ordered before the delta (threads spawned after the one and joined before the other), the counters are exactly the sums over the calls in between. A call of a thread that was not joined may be missed even though it was over.", "quantifier": "every execution under the memory orderings, every pair of a save point and a delta on it, whatever other threads do; at most as many threads as ring slots, totals below 2^64", "why_tests_cant": "quantifies over all weak-memory executions and happens-before orders", "anchors": ["src/metrics_allocator/metrics_allocator.rs:save_point", "src/metrics_allocator/metrics_allocator.rs:delta_statistics", "src/metrics_allocator/metrics_allocator.rs:alloc", "src/metrics_allocator/metrics_allocator.rs:dealloc", "src/metrics_allocator/metrics_allocator.rs:realloc"]}
{"id": "C87", "title": "Min and max usage between a save point and a delta under the relaxed orderings", "statement": "If every call is ordered before save_point, or is an allocator call or delta_statistics that begins after it (happens-before) and is ordered before the delta, then the current usage delta_statistics reports is the usage at that moment, and the reported minimum and maximum are values the usage really had from the save point on, with the usage at the save point and the reported usage between them. An allocation that is joined before the delta but not ordered after save_point can be missing from the maximum: the reported maximum may be below the reported current usage.", "quantifier": "every execution under the memory orderings, every pair of a save point and a delta on it; at most as many threads as ring slots, totals below 2^64", "why_tests_cant": "quantifies over all weak-memory executions and happens-before orders", "anchors": ["src/metrics_allocator/metrics_allocator.rs:save_point", "src/metrics_allocator/metrics_allocator.rs:delta_statistics", "src/metrics_allocator/metrics_allocator.rs:alloc", "src/metrics_allocator/metrics_allocator.rs:dealloc", "src/metrics_allocator/metrics_allocator.rs:realloc", "src/metrics_allocator/metrics_allocator.rs:compute_min_and_max_used_memories"]}
{"id": "C88", "title": "Calls that do not overlap see a sequential allocator, whatever the memory orderings", "statement": "When no two calls into the metrics allocator overlap and the end of each one happens before the beginning of every later one (one calling thread, or several under a lock), save_point and delta_statistics answer exactly what the sequential allocator answers for the same calls in the same order, and the twelve statistics are the same at the end; in particular delta_statistics is exact, minimum and maximum included, with any number of save points in between that the ring can hold. One calling thread is always such an execution.", "quantifier": "every ring size, number of threads, serial schedule with its sends and receives, every choice of the messages loads return that the orderings allow, spurious compare-exchange failures, debug and release", "why_tests_cant": "relaxed loads may return old values on some machines; tests on x86 never show it, and cannot enumerate the choices", "anchors": ["src/metrics_allocator/metrics_allocator.rs: save_point, delta_statistics, compute_*", "src/metrics_allocator/ring_buffer.rs: enqueue, consumer, peek_all"]}
{"id": "C89", "title": "The panic messages of test_crud_algorithms tell what happened", "statement": "When test_crud_algorithms gives up, its panic message says how many attempts were made, names the operation, the maximum and the measured TIME complexity of the last failure, and lists every kind of failure (operation, measured complexity) of the previous attempts exactly once, with the number of times it happened (numbers adding up to attempts - 1), in descending alphabetical order. When a space mismatch ends the test, the message names the number of the attempt that failed and the operation with its SPACE complexities. Two give-up messages with the same text mean the same number of attempts, the same last failure and the same counts.", "quantifier": "all builds, tolerances, libm implementations, user closures and states, configurations, numbers of attempts (0 < n < 2^32) and executions", "why_tests_cant": "the lists of failures that can come up, and the orders they come in, are unbounded, and unit tests only look at the existence of a panic", "anchors": ["src/runners/crud.rs: test_crud_algorithms, AssertionError", "src/runners/crud.rs:84-117,191-195,362-378"]}
{"id": "C90", "title": "The text of the allocator's statistics shows every statistic under its own name", "statement": "The Display and Debug texts of MetricsAllocatorStatistics (both the plain and the atomic variant) contain each of the twelve statistics in decimal right after its own label, even though some labels are suffixes of others ('allocations: ' also ends 'deallocations: '), and statistics with the same text are equal.", "quantifier": "all values of the twelve statistics", "why_tests_cant": "swapping two arguments of a twelve-argument format string is invisible to a test with repeated values, and the labels overlap", "anchors": ["src/metrics_allocator/metrics_allocator.rs:24-67"]}
{"id": "C91", "title": "Concurrent calls that all grow (or all shrink) the memory are measured exactly, whatever the schedule", "statement": "Take a save point when everything before it is over and known; let any number of threads, started after it and joined before the request, make allocator calls that overlap in any way and all of which leave the memory in use larger or equal (inserts), or all smaller or equal (deletes). Under the memory orderings of the source, the measured pass then has exactly: usage before = the usage at the save point (also in the save point's record), usage after = before + the sum of the calls, and, growing: max = after and min = before; shrinking: max = before and min = after. So the growth the space analysis works with is the sum of what the calls asked for (respectively 0), independent of the schedule. This fails for mixed calls: the same calls of the same threads in another order give another maximum.", "quantifier": "all builds, ring sizes, numbers of threads (at most the ring size), schedules and choices of the memory model, call sizes (as long as the totals fit 64 bits)", "why_tests_cant": "an unbounded number of interleavings and weak-memory outcomes; a test sees a few of them", "anchors": ["src/metrics_allocator/metrics_allocator.rs:142-264", "src/runners/common.rs:115-175", "src/low_level_analysis/space_analysis.rs"]}
{"id": "C92", "title": "End to end: a CRUD test on the metrics allocator measures the truth and judges the container's real laws", "statement": "Run test_crud_algorithms with the crate's allocator, after any history of allocations, with any allocations made by the closures, by spawning and joining the threads, by reset_fn and by printing the reports. Every pass' space measurement is the truth about that pass: memory in use before and after, smallest and largest use during it (or the documented sentinel exactly when the pass itself took more than 1024 save points); the metrics never panic. So if every pass takes the time and, at the peak of its allocator calls, holds the memory its growth law says (2% slack), the test passes at the first attempt when all laws comply with the maxima, and otherwise fails naming the first operation that does not comply, with its true class and its maximum.", "quantifier": "All containers and closures, all allocation patterns and histories with less than 2^62 bytes in use, all configurations of C79, tolerances, builds, all maxima and attempts. Allocator calls are atomic (overlapping calls: C59, C87, C91).", "why_tests_cant": "The number of allocation patterns, histories and containers is unbounded; a test runs one.", "anchors": ["src/runners/crud.rs: test_crud_algorithms, internal_analyse_crud_algorithms", "src/runners/common.rs: run_iterator_pass", "src/metrics_allocator/metrics_allocator.rs: save_point, delta_statistics"]}
{"id": "C93", "title": "End to end: a CRUD operation that never grows memory is not O(1) in space; without allocator metrics CRUD tests cannot pass with ordinary limits", "statement": "If the measured passes of an enabled operation never hold more memory than at their start, test_crud_algorithms can pass only if the operation's space maximum is WorseThanExponential (read, update) or at least BetweenOLogNAndON (create, delete); when the test fails on that operation's memory, the message names that class. In particular with the feature no_allocator_metrics (only the runner's own save points reach the allocator) every test with an enabled operation whose space maximum is lower panics -- giving up on time or on the space mismatch -- however good the container is.", "quantifier": "All containers, closures, limits, tolerances, builds, numbers of attempts; all retries. Counts of at least 10 per pass, creates enabled if reads or updates are; libm's powf with base 0 as documented.", "why_tests_cant": "It concerns every execution with a build feature off, including retried attempts with adapted iteration counts.", "anchors": ["src/runners/crud.rs: test_crud_algorithms", "src/features.rs: no_allocator_metrics", "src/low_level_analysis/space_analysis.rs"]}
{"id": "C94", "title": "End to end: the async builder on the metrics allocator measures the truth and judges the passes' real laws", "statement": "Run test_algorithm of the async builder with the crate's allocator, after any history of allocations, with any allocations made by the user's async functions, the assertions and the printing. Every measured call (reset, warm-up, passes) reports the truth about the memory in use while its future was awaited: before, after, smallest, largest (or the documented sentinel exactly when the function itself took more than 1024 save points), together with the time and the data of that very call. So if the time and the peak memory of the two passes follow growth laws within 2%: with a space limit set and the memory law worse, the test panics after exactly one attempt naming both space classes; otherwise, with a time limit set and the time law worse, it panics after exactly 1 + max_reattempts attempts, every one of them listed; otherwise it passes at the first attempt. Each attempt calls exactly the functions that were given.", "quantifier": "All user functions and data, allocation patterns and histories with less than 2^62 bytes in use, set sizes n1 >= 4, 2*n1 <= n2 < 2^32, growth laws, limits or their absence, tolerances, builds, numbers of reattempts. Allocator calls are atomic.", "why_tests_cant": "The number of allocation patterns, histories and programs is unbounded; a test runs one of them.", "anchors": ["src/api/builders/regular_async_builder.rs: test_algorithm, raw_analyse", "src/runners/common.rs: run_async_pass", "src/metrics_allocator/metrics_allocator.rs: save_point, delta_statistics"]}
{"id": "C95", "title": "End to end: async passes that never grow memory fail every space limit but the worst", "statement": "If neither pass function ever holds more memory than was in use when it was called (in-place work, or the feature no_allocator_metrics), a builder test with any space limit other than WorseThanExponential panics after exactly one attempt, saying that WorseThanExponential was measured -- even for limit O(1). (Without a space limit memory is not judged.)", "quantifier": "All user functions, data, histories, set sizes below 2^32, limits, tolerances, builds, reattempts; libm's powf with base 0 as documented.", "why_tests_cant": "It concerns every execution; a unit test shows single ones.", "anchors": ["src/api/builders/regular_async_builder.rs: test_algorithm, raw_analyse", "src/runners/common.rs: run_async_pass", "src/low_level_analysis/space_analysis.rs", "src/features.rs: no_allocator_metrics"]}
{"id": "C96", "title": "What a failing test_algorithm says, word for word", "statement": "test_algorithm panics with one of three texts and no other (user panics and absurd measurements aside, C45). Its text tells what happened: the first run had a space mismatch: the SPACE text with the test's name, the space limit and the measured space class; a retried run had one: \"Stopped after retrying for N attempts due to the fatal outcome '<SPACE text>'. Previous transient errors: ...\"; all 1 + N runs had time mismatches: \"Given up with '<TIME text>' after N attempts. Previous transient errors: ...\"; the earlier errors are the TIME texts of the earlier runs in order, with the classes measured in those very runs. If the name contains no apostrophe the text can be read back: name, kind, limit, class, N. N is the number of retries allowed, not made: with N = 5 and one retry made it says 5, and \"Given up ... after 0 attempts\" follows one run.", "quantifier": "All closures, limits, set sizes, names, numbers of retries, measurements, tolerances, builds; any way keen_retry joins the texts of the earlier errors.", "why_tests_cant": "The texts depend on unboundedly many measured histories; tests look at a few.", "anchors": ["src/runners/standard.rs: test_algorithm, analyse_algorithm"]}
{"id": "C97", "title": "What a failing async builder test says, word for word", "statement": "The same for test_algorithm of the async builder: no panic text when an attempt met the expectations that were set; the SPACE text at the first attempt; \"Stopped after retrying for N attempts ...\" at a later one; \"Given up with ... after N attempts\" after 1 + N time mismatches (N = 0 when max_reattempts was not set). The earlier errors are the TIME texts of the earlier attempts in order, all with the builder's name and time limit.", "quantifier": "All builders, user functions and data, measurements, tolerances, builds.", "why_tests_cant": "The texts depend on unboundedly many measured histories; tests look at a few.", "anchors": ["src/api/builders/regular_async_builder.rs: test_algorithm, raw_analyse"]}
{"id": "C98", "title": "What the ring buffer's overflow errors say", "statement": "The displayed RingBufferOverflowError is \"RingBufferOverflowError: Ring-Buffer overflow: published_tail=T, head=H -- tail could not be farther from head than the ring buffer size of N\". In use by one thread the calls that fail are exactly those of consumers more than N elements behind, with T the number of elements enqueued, H the consumer's position, and N the size; T, H and N can be read back. With any number of threads every failed call has such a text: of peek_all with H + N < T <= elements published; of dequeue with H the position lost, H < T <= elements published, and more than H + N enqueues begun. But T - H <= N is possible in a dequeue's text: it prints a tail read before the elements that overran it were enqueued, so the text contradicts itself (published_tail=1, head=0, size 2).", "quantifier": "All histories of calls of one thread, all schedules of any number of threads up to the ring's size, all sizes, fewer than 2^32 enqueues, both builds. Sequentially consistent interleavings.", "why_tests_cant": "Unboundedly many histories and interleavings.", "anchors": ["src/metrics_allocator/ring_buffer.rs: dequeue, peek_all, RingBufferOverflowError"]}
{"id": "C99", "title": "The displayed measurement can be read back", "statement": "The string a presentable measurement displays, read by a reader that knows only decimal notation and the unit names: for a non-negative byte amount v it reads back as x with |x - v| <= max(1/2, v/200); for a byte rate it reads back within 1/199 from one byte per hour up, and as 0 below; for custom units and rates the number shown is scientific with 1/2000 precision from 100000 up, two decimals below, none below 1 (rates: within 1/199 through min and hr, \"0\" below one per hour). (-0.0 shows as \"-0b\".)", "quantifier": "All finite non-negative f64 values, all unit names, all cache states.", "why_tests_cant": "Quantifies over all 2^64 floats, all durations and all memory counters.", "anchors": ["src/utils/measurements/presentable_measurements.rs: Display for PresentableMeasurement"]}
{"id": "C100", "title": "Displayed durations can be read back", "statement": "The Debug text of a Duration (reports, pass lines) reads back to exactly that number of nanoseconds, so different durations have different texts. The text of a duration measurement reads back exactly below 2^50 ns and within 1/2 ns + 2^-51 of it above.", "quantifier": "All durations (measurements: up to 2^53 seconds).", "why_tests_cant": "Quantifies over all 2^64 floats, all durations and all memory counters.", "anchors": ["src/utils/measurements/presentable_measurements.rs: Display", "src/low_level_analysis/types/types_impl.rs: Display"]}
{"id": "C101", "title": "What the memory texts of a report say", "statement": "The text of a pass's memory, total or per element, reads back (sign, amount) to within max(0.006 bytes, 1/199) of the largest distance usage got from where it started, with '+' only if memory grew and '-' only if it shrank. The summary text of two passes is \"allocated: A; auxiliary used space: X\" or \"freed: A; ...\" according to the net change, where A and X read back to the net change and to the memory used only during the passes, with the same precision.", "quantifier": "All coherent memory counters (summary: below 2^62 bytes), all n in 1..2^32, both builds.", "why_tests_cant": "Quantifies over all 2^64 floats, all durations and all memory counters.", "anchors": ["src/low_level_analysis/types/types_impl.rs: fmt_over_n, Display for BigOSpaceMeasurements"]}
{"id": "C102", "title": "What the line of a pass says", "statement": "The text output after each pass is the prefix, T, \"/\", M, the suffix, where T reads back to exactly the measured time and M to the measured memory (C101); T and M contain no other \"/\".", "quantifier": "All prefixes, suffixes, times and coherent memory counters, both builds.", "why_tests_cant": "Quantifies over all 2^64 floats, all durations and all memory counters.", "anchors": ["src/runners/common.rs: run_iterator_pass_verbosely, run_sync_pass_verbosely, run_async_pass_verbosely"]}
{"id": "C103", "title": "What the text of a report says", "statement": "The text of an analysis of each of the three kinds consists of seven lines: a heading with the name and kind; the column names; a row for each pass, in order, whose blank-separated cells are the label, the time (reads back exactly), the memory (C101), the size, the further columns of the kind (memory per element; repetitions; none) and the time per element (within 0.51 ns + 1/1999); the time verdict; the space verdict with the summary (C101); nothing after the last newline. Padding never joins or cuts cells.", "quantifier": "All names without line breaks, all durations up to 2^53 s, all sizes in range, all coherent memory counters below 2^62 bytes, all verdicts, both builds.", "why_tests_cant": "Quantifies over all 2^64 floats, all durations and all memory counters.", "anchors": ["src/low_level_analysis/types/types_impl.rs: Display for BigOAlgorithmAnalysis, AlgorithmMeasurements, ConstantSetIteratorAlgorithmMeasurements, SetResizingIteratorAlgorithmMeasurements"]}
{"id": "C104", "title": "Everything the regular test prints", "statement": "Each run of a test prints, word for word and nothing else: \"Running 'NAME' algorithm:\\n\", \"  Resetting: \" and what the reset measured, \"; Pass 1: \" and \"; Pass 2: \" with what each pass measured (C102), an empty line, the report of these very measurements and verdicts (C103), and, iff a limit is exceeded, the message naming the operation, the limit and the class measured (space first, else time), or no message. A test prints the texts of its runs one after another. If a user function panics, the text ends with the measurement of the last function that completed.", "quantifier": "All names without line breaks, all set sizes 1..2^32-1, all limits, all outcomes and coherent measurements of the user's functions, all numbers of reattempts, both builds.", "why_tests_cant": "Quantifies over all outcomes of the user's functions, all measurements and all names, and speaks about the whole text.", "anchors": ["src/runners/standard.rs: test_algorithm, analyse_algorithm", "src/runners/common.rs: run_sync_pass_verbosely", "src/low_level_analysis/types/types_impl.rs: Display"]}
{"id": "C105", "title": "Everything the async builder's test prints", "statement": "Each attempt prints, word for word and nothing else: \"Running 'NAME' async algorithm:\\n\", then for each function run (\"Resetting\", \"Warming up\", \"Resetting again\", \"Pass 1\", \"In-between-passes Reset\", \"Pass 2\", exactly those that are configured, in this order) two blanks, its label, \": \" and what was measured around it, separated by \";\", an empty line, the report of the two passes, and the mismatch message iff a configured limit is exceeded (space first). A test prints the texts of its attempts with \"retrying...\\n\" before every reattempt. If a user function panics, the attempt has printed its heading and one section for every function that had finished, in order, and nothing else.", "quantifier": "All builders with both passes configured and sizes 1..2^32-1, all names without line breaks, all outcomes and coherent measurements, all histories of reattempts, both builds.", "why_tests_cant": "Quantifies over all outcomes of the user's functions, all measurements and all names, and speaks about the whole text.", "anchors": ["src/api/builders/regular_async_builder.rs: test_algorithm, raw_analyse_algorithm", "src/runners/common.rs: run_async_pass_verbosely"]}
{"id": "C106", "title": "Everything the CRUD test prints, and the report it returns", "statement": "An analysis prints, word for word and nothing else: \"NAME CRUD Algorithm Complexity Analysis:\\n  \", the warm-up (\"warming up [\", a letter C, R, U, D for each operation that has iterations, \"] \" and the time it took, \", \") iff a warm-up is configured, \"First Pass (\" and what was measured for the creates, reads and updates that have iterations (\"create: \", \"read: \", \"update: \", comma separated), \"); Second Pass (\" the same for the second passes, \"):\\n\\n\", the report of these measurements and verdicts for each operation, and, if there are deletes, \"Delete Passes (2nd: \", \"; 1st: \" with their measurements, \") r=\" the xor of what the passes returned, and their report. If a limit is exceeded, the text has all that was measured up to there followed by \" ** Aborted due to TIME|SPACE complexity mismatch on 'OP' operation: maximum: M, measured: C\". The report returned, in the result or in the error, is exactly the text printed. A test prints the texts of its attempts, with \"\\nAttempt k failed. Resetting before retrying...\\n\" after the k-th one if there is another. If a closure panics in a pass, the analysis has printed the heading, the warm-up, every measurement and report finished before that pass, in order, and nothing else (during the warm-up: the letters up to the operation that panicked); likewise if the reset function of the warm-up panics. A whole test that panics was cut short by a closure or by reset_fn; it has printed the texts of all earlier attempts, the retry messages, and the text of the attempt that was interrupted.", "quantifier": "All configurations whose products fit in u32, all closures that may fail or keep state, all interleavings, all measurements, all numbers of attempts, both builds.", "why_tests_cant": "Quantifies over all outcomes of the user's closures, all measurements and schedules, and speaks about the whole text.", "anchors": ["src/runners/crud.rs: test_crud_algorithms, internal_analyse_crud_algorithms", "src/runners/common.rs: run_iterator_pass_verbosely", "src/low_level_analysis/types/types_impl.rs: Display"]}
{"id": "C107", "title": "Measurements in custom units when several threads make them", "statement": "If calls of the custom-unit measurement functions never overlap, then whichever threads make them, every measurement ever returned displays at any later time exactly as the very first one in its unit would (its table is never freed or changed by later calls), measurements in the same unit share one table, and a call always completes. Without that proviso it is false: two overlapping first calls can leave one of the returned measurements displaying from freed memory, for any units, values and number of threads.", "quantifier": "All numbers of threads, all sequences of calls, all values and units, all moments of display; all interleavings for the refutation.", "why_tests_cant": "The failure needs a particular interleaving of the first two calls; the guarantee speaks about all histories.", "anchors": ["src/utils/measurements/presentable_measurements.rs: custom_unit_measurement, custom_unit_per_second_measurement, AUTO_SCALE_DATA"]}
{"id": "C108", "title": "The ring buffer as a linearizable object", "statement": "If at most RING_BUFFER_SIZE threads use the buffer and no peek_all overlaps an enqueue or a dequeue on its own consumer, then under every interleaving each call of enqueue, consumer, dequeue and peek_all can be given one instant between its call and its return at which it acts alone on the list-of-everything-enqueued specification, with exactly the answers returned -- except that a dequeue may report an overflow that enqueues still under way at its return are about to cause. As long as no call reports an overflow the history is linearizable in the ordinary sense. None of the provisos can be dropped: an early overflow followed by an empty dequeue, a peek_all overlapping a dequeue, and a peek_all overlapping an enqueue give histories that no choice of instants explains.", "quantifier": "All element types, sizes 1..2^32-1, numbers of threads up to the size, schedules (including spurious compare-exchange failures and calls that never return), fewer than 2^32 enqueues; sequentially consistent interleavings.", "why_tests_cant": "Linearizability quantifies over all interleavings, and its failure over all choices of instants.", "anchors": ["src/metrics_allocator/ring_buffer.rs: enqueue, consumer, RingBufferConsumer::dequeue, RingBufferConsumer::peek_all"]}
{"id": "C109", "title": "Allocator metrics when totals reach 2^64", "statement": "The allocator's counters are machine words that wrap, and refused requests count like granted ones. Whatever sizes are requested, no allocation call and no save point fails; every counter is its true total, and the memory in use the true level, modulo 2^64. A query of a save point in a release build always answers with the true differences modulo 2^64, and with the least and greatest level (modulo 2^64) since the save point; in a debug build it panics with an arithmetic overflow exactly if one of the nine counters came out smaller than it was at the save point, and otherwise answers the same. In particular two refused requests that take a total past 2^64 make the next query of an earlier save point panic in a debug build, and in a release build report less memory in use than before.", "quantifier": "every build profile, ring size, history of allocator calls with any sizes, and position of the save point", "why_tests_cant": "no test asks for 2^64 bytes in total, and the outcome depends on the whole history of sizes", "anchors": ["src/metrics_allocator/metrics_allocator.rs: save_point, delta_statistics, compute_alloc_metrics, compute_dealloc_metrics, compute_alloc_zeroed_metrics, compute_realloc_metrics"]}
{"id": "C110", "title": "Space verdicts for a vector that doubles its capacity", "statement": "Elements are pushed one by one onto a growable array (initial capacity c0, doubled when full). Whatever the program allocated before, a pass measures exactly the bytes of the room added. Hence the creates of a CRUD test are reported O(1) in space for every number n of creates per pass with c0 < 2n; filling a fresh vector with 2, 4, 8, ... times as many elements in the second pass is reported O(n), whether or not the vector is dropped within the pass. For other sizes the verdict is luck: with c a capacity the vector can have, sizes (c+1, 2c) are reported O(1), and sizes (c, 2c+1) with c >= 32 are reported O(n^2).", "quantifier": "every build profile, tolerance, accurate libm, initial capacity, element size, number of elements, and allocation history before each pass", "why_tests_cant": "the verdict depends on where the sizes lie relative to the capacities and on all earlier allocations; a test tries one pair of sizes", "anchors": ["src/low_level_analysis/space_analysis.rs: analyse_space_complexity, analyse_space_complexity_for_set_resizing_iterator_algorithm", "src/metrics_allocator/metrics_allocator.rs: save_point, delta_statistics", "src/runners/common.rs: run_sync_pass"]}
