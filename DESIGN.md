# Formal model of zertyz/big-O in Rocq (Coq 8.16.1)

`properties.jsonl` states the properties in English, `MANIFEST.json` says which theorem proves which
property, and this file says what is modelled, how, and what is trusted. The theorems are about the
model in `rocq/theories`; the tie to the code is the citation (file and lines of /repo) on every model
definition. /repo is never run.

Build: `cd rocq && coq_makefile -f _CoqProject -o Makefile && make -j4` (about 6 minutes on 4 cores).

## 1. Layout of rocq/theories

Four kinds of files. *Model* files contain the transcription and no proofs beyond what definitions
need. *Spec* files contain the vocabulary the theorems are stated in; they use no helper of the model
that could hide a mistake in it. *Proof* files contain lemmas. *Props* files contain the property theorems,
each with a satisfiability example next to it and `Print Assumptions` below it.

| area | model | spec | proofs | property theorems |
|---|---|---|---|---|
| Rust integers, panics, IEEE floats | `Machine`, `Floats` (on Flocq) | | | |
| complexities, order, labels | `Complexity` | `GrowthSpec` | | `PropsReport`, `PropsReport2` |
| analyses | `Analysis` (one transcription, two number systems: binary64 and reals) | `GrowthSpec` | `AnalysisF64`,`b`,`c`,`d`,`e` (binary64), `AnalysisR`, `AnalysisTable` (reals), `Bridge`, `Bridge2`, `Bridge3`, `Bridge4` (from reals to binary64), `Demo` (a concrete libm for examples) | `PropsAnalysis`, `PropsBridge`, `PropsUnits` |
| ring buffer | `Ring` (sequential and small-step concurrent) | `RingSpec` | `RingSeq`, `RingConc`, `RingConc2`, `RingConc3`, `RingInit`, `RingWrap` | `PropsRing` |
| metrics allocator | `Alloc` (sequential), `AllocConc` (small-step) | `AllocSpec`, `AllocConcSpec` | `AllocProofs`, `AllocConcProofs`, `2`, `3` | `PropsAlloc` |
| iterator pass | `IterPass`, `PassTime` | `IterSpec` | `IterPassProofs`, `DurationProofs` | `PropsIter`, `PropsDuration` |
| reports | `Report` | | `ReportProofs` | `PropsReport`, `PropsReport2` |
| Cargo features | `Features` | | | `PropsFeatures` |
| CRUD runner | `Crud` | `CrudSpec` | `CrudProofs`, `CrudMain`, `CrudRetry` | `PropsCrud`, `CrudNumber` |
| test_algorithm | `Free` (programs, retry loop), `Standard` | `StandardSpec` | | `PropsStandard` |
| async builder, measurers | `Builder` | `BuilderSpec` | `BuilderProofs` | `PropsBuilder` |
| presentable measurements | `Present` | | | `PropsPresent`, `PropsDuration` |
| end to end | `EndToEnd` | `EndToEndSpec` | `EndToEndProofs`, `EndToEndDemo` (examples) | `PropsEndToEnd` |
| containers with growth laws | (Crud) | `CrudLawsSpec` | `CrudLawsProofs`, `CrudLawsDemo` (examples) | `PropsCrudLaws` |
| ring buffer, linearizability | `Ring` | `RingLinSpec` | `RingLin` | `PropsRingLin` |
| ring buffer, weak memory | `RingWeak` | `RingWeakSpec` | `RingWeakProofs`, `2`-`6`, `RingWeakDrf` | `PropsRingWeak` |
| allocator, wrapping totals | `Alloc` | first section of `PropsAllocWrap` | (in Props) | `PropsAllocWrap` |
| allocator, weak memory | `AllocWeak` | `AllocWeakSpec` | `AllocWeakProofs`, `2`-`5`, `RingWeakPeek`, `AllocWeakCalls`, `AllocWeakRegion`, `AllocWeakRaces`, `AllocWeakMinMax`, `2`, `3`, `AllocWeakSerial`, `2`-`5`, `AllocWeakMono`, `AllocWeakDemo` (schedules for examples) | `PropsAllocWeak`, `PropsAllocMono` |
| numbers and reports as text | `Format`, `PresentText`, `ReportText` | `ReadSpec`, `ReportTextSpec` | `FormatProofs`, `ReportTextProofs` | `PropsPresentText`, `PropsReportText` |
| shared caches | `CacheConc` | `apart` in Props | (in Props) | `PropsCacheConc` |
| everything printed | `StdText`, `BuilderText`, `CrudText` | `RunTextSpec`, first section of `PropsCrudText` | (in Props) | `PropsStdText`, `PropsBuilderText`, `PropsBuilderStops`, `PropsCrudText`, `PropsCrudStops` |
| texts | `CrudMsg`, `RunnerMsg` (panic messages), `StatsText` (statistics), `RingText` (ring errors) | (in Props) | `TextProofs` | `PropsCrudMsg`, `PropsRunnerMsg`, `PropsStatsText`, `PropsRingText` |
| CRUD on the allocator | `CrudAlloc` | `CrudAllocSpec` | `CrudAllocProofs`, `CrudAllocDemo` (examples) | `PropsCrudAlloc` |
| async builder on the allocator | `BuilderAlloc` | `BuilderAllocSpec` | `BuilderAllocProofs`, `BuilderAllocDemo` (examples) | `PropsBuilderAlloc` |
| a growing vector | (`EndToEnd`) | first section of Props | (in Props) | `PropsVec` |

## 2. Trusted base

1. Coq's kernel (8.16.1) and `coqc`. No `Admitted`, no `Axiom`/`Parameter`, no functor or module type,
   no kernel check switched off, no plugin.
2. The axioms `Print Assumptions` lists. Only axioms of Coq's standard library appear, all of them
   through the real numbers (`Coq.Reals`) or Flocq's use of them:
   `ClassicalDedekindReals.sig_forall_dec`, `ClassicalDedekindReals.sig_not_dec`,
   `Classical_Prop.classic`, `FunctionalExtensionality.functional_extensionality_dep`.
   Section 6 lists, theorem by theorem, which ones. A theorem about programs that merely *contain* an
   f64 computation inherits them because Flocq's float operations are defined with proofs over the reals.
   `coqchk`/`vcheck` also list names that are not assumptions of any theorem: the standard library's
   sealed definitions of the reals (`Coq.Reals.Rdefinitions.*`, opaque by a library module) and ssreflect's
   `Under_rel` seal, which come with the libraries that are loaded.
3. The reading of /repo: every model definition cites its lines.
4. What the models assume about things outside /repo:
   * `usize`/`isize`/pointers have 64 bits. `Debug` means overflow checks on (the profile of
     `cargo test`), `Release` means wrapping.
   * f64/f32 `+ - * /`, comparisons, `abs`, `round`, and casts from and to integers are IEEE-754
     round-to-nearest-even, casts to integers saturate (Rust semantics). NaN payloads are not
     distinguished.
   * `log2`, `powi`, `powf`: *arbitrary functions* in the binary64 theorems of C01, C02, C07-C10, C28,
     C44 (conditions, if any, are hypotheses in the statement); *any library with relative error at
     most 2^-49* on log2 and powi in the Bridge theorems (C03-C05, C11, C70, C72 in binary64); the
     mathematical functions in the real-number theorems (C03-C06, C11, C71).
   * Atomics: in `Ring` and `AllocConc` they interleave sequentially consistently, so C14-C18 and the
     allocator's concurrency theorems C56-C59 say nothing about the extra behaviours the relaxed orderings
     of the source allow. `RingWeak` (C80-C83) models the ring, and `AllocWeak` (C84 on) the
     allocator on top of it, under these orderings, with the
     view-based operational semantics of the C++20 model (relaxed, acquire, release, release
     sequences, non-atomic data races), without load buffering (as in RC11; its positive theorems
     rest on that, the refutations C81 do not). C83 says for which clients C14-C18 carry over.
     `compare_exchange_weak` may fail spuriously (the schedule decides).
   * `std::time::Duration` is an integer number of nanoseconds; `from_secs_f64` rounds to the nearest
     nanosecond, ties to even, and panics on negative, NaN, infinite or >= 2^64 s values; `as_secs_f64`
     is seconds + nanoseconds/1e9 in f64 as in std.
   * `keen_retry` behaves as documented: run once, then once more per configured delay while the
     outcome is `Transient`; stop at `Ok` or `Fatal`.
   * `crossbeam::scope` starts every thread, all terminate, all are joined; a panicking thread makes
     the join fail.
   * The system allocator is an oracle giving success or failure for each call, subject to the
     `GlobalAlloc` contract where C24 says so.
   * std's formatting of numbers (`Format`): `{:.k}` and `{:.ke}` print the exact value rounded half to even to
     k decimals, `{:?}` of a `Duration` as core::time's `fmt_decimal`, padding counts characters.
     Checked against every expected string in the repository's own tests (C99_tests_*, C100_tests_duration).
   * User closures are arbitrary: any result, any panic, any state, any measured time and memory.

## 3. What is modelled, file by file

| /repo/src | modelled | not modelled |
|---|---|---|
| `low_level_analysis/low_level_analysis.rs` | all | - |
| `low_level_analysis/time_analysis.rs`, `space_analysis.rs` | all six public analyses | - |
| `low_level_analysis/types/types.rs`, `types_impl.rs` | complexities, order, labels, measurements, the rows, cells and texts of all reports (`Report`, `ReportText`), when a report panics | - |
| `features.rs`, `Cargo.toml [features]` | which constants and statics each feature set defines, and whether it compiles | the bodies of third-party crates |
| `metrics_allocator/ring_buffer.rs` | all methods, three times: run to completion, and one atomic access per step for any number of threads, interleaved (`Ring`) or weakly ordered (`RingWeak`) | that dropping uninitialised memory is UB (only that it happens: C20) |
| `metrics_allocator/metrics_allocator.rs` | `alloc`, `dealloc`, `alloc_zeroed`, `realloc`, `save_point`, `delta_statistics`, three times: sequentially with the ring inside, and one atomic access per step with ring operations as single steps (`AllocConc`), and weakly ordered, ring operations included (`AllocWeak`); the text of the statistics (`StatsText`) | allocations made by `format!` on the error path; `realloc`'s data copy |
| `runners/common.rs` | the pass splitting, the threads' loops, the accumulation of results and of durations, the split of results by resource | reading the clock; `thread::spawn` failing |
| `runners/crud.rs` | everything that decides calls, resets, verdicts, retries, adaptation, the computed number, every text printed, reported or panicked with (`CrudText`, `CrudMsg`) | stdout flush; the warm-up's clock is one question for the elapsed time |
| `runners/standard.rs` | `test_algorithm` completely, with every text printed | delays |
| `api/builders/regular_async_builder.rs` | all setters, `test_algorithm` with every text printed, `test_run` | the `println!`s of `test_run` (Debug of user data), cancellation of the returned future, real delays |
| `api/builders/crud_async_builder.rs`, `dynamic_async_builder.rs` | - (contain only TODO comments) | |
| `utils/measurements/measurer.rs` | all | |
| `utils/measurements/presentable_measurements.rs` | all constructors, units, caches, Display's texts; the `static mut` caches also as shared memory with freed and live buffers (`CacheConc`) | the inside of `HashMap` |
| `lib.rs`, `configs.rs`, `api/types.rs`, `mod.rs` files | - (re-exports and aliases) | |

Simplifications are repeated in the comment of each definition.

## 4. Findings: where the code does not do what its documentation or a user would expect

Each is a theorem (not an informal remark).

* C04/C08 (`C04_refuted_at_2_3`, `C08_*`): with first-pass size 1, and at sizes (2,3), regressions are invisible.
* C06: the two exponential classes depend on the unit of measurement.
* C07: an algorithm using no memory at all is not reported as O(1) in general.
* C11: a linear per-operation cost is missed by the set-resizing analysis at size 5.
* C13: a consumer that fell behind does not get an error forever/its data, it silently loses elements.
* C16, C17 (refutations): with more threads than ring slots, or with a peek overlapping an enqueue, a wrong element can be seen.
* C18: a stalled enqueuer blocks all others (the ring is not lock free).
* C19: at 2^32 elements debug builds panic, release consumers hang or panic.
* C20: `enqueue` drops uninitialised slots.
* C24: failed allocator calls are counted as memory in use, forever.
* C26: a concurrent save point can make min/max miss a real peak.
* C28/C62: an overflow of the save-point ring in both passes is reported as O(1); in the first pass it makes debug reports panic.
* C30/C33/C64: thread counts not dividing the range silently drop iterations; zero threads panic.
* C41: zero attempts accept anything. C42: small counts never fail on time. C43: a time mismatch hides a space mismatch.
* C46: a zero set size always panics, but only while printing the report.
* C48/C69: without a reset function the builder loses the previous attempt's data; `test_run` passes get nothing.
* C49: several builder options are ignored.
* C54: memory deltas are divided by the previous usage in f32: 100 bytes leaked on top of 2 GiB are shown without a sign, as if nothing had changed.
* C57: two tolerance features or two output features at once do not compile.
* C78: an algorithm whose memory never grows (or any algorithm under `no_allocator_metrics`) is classified WorseThanExponential in space, so `test_algorithm` panics for every other allowed class.
* `test_constant_set_iterator_algorithm` and `test_set_resizing_iterator_algorithm` (exported from lib.rs) have empty bodies (standard.rs:24-27): they accept anything. Not worth a theorem.
* C81: every load of the ring is `Relaxed` and the consumer's only acquire operation is on `head`, which producers never write, so a dequeue never synchronises with the enqueue of its element: in the memory model it may return an uninitialised slot or the previous lap's element, is a data race even when right, may panic (debug) or report a spurious overflow (release), and may miss completed enqueues. (On x86 the hardware orders these accesses; the compiler need not.)
* C85: save points taken by two threads without synchronisation race on the ring, and `delta_statistics` can then panic (ring index out of bounds in the memory model).
* C87: an allocation of a thread that was not synchronised with `save_point` can be lost from max: `delta_statistics` reports a maximum of 100 with a current usage of 120 in a program without data races.
* C93: with `no_allocator_metrics` a CRUD test fails for every space limit below WorseThanExponential on reads/updates and below BetweenOLogNAndON on creates/deletes, whatever the container does.
* C96, C97: the panic messages print the number of retries allowed, not made: "Given up ... after 0 attempts" follows one run, and "Stopped after retrying for 5 attempts" may follow a single retry.
* C98: the error of a dequeue may print numbers that do not show an overflow (published_tail=1, head=0, size 2): the check uses reserved_tail, the text an earlier published_tail. The documentation of the error (ring_buffer.rs:190-194) says that further operations on the consumer yield the same error; they do not (C13: the consumer recovers).
* C99: rates below one per hour are displayed as 0 ("0b/s"), amounts of bytes lose their fraction, and -0.0 shows as "-0b".
* C107: two overlapping first measurements in custom units free the table of one of them (the `static mut` caches are unsynchronised; nothing in the crate prevents two threads, e.g. of `cargo test`, from getting there).
* C108: the ring buffer is not linearizable once an overflow is reported: a dequeue can report an overflow and the next one find the buffer empty; and a peek_all overlapping a dequeue on its consumer can show two elements that were never pending together.
* C109: since refused requests are counted, two refused requests of nearly 2^63 bytes wrap the byte counters: the next delta_statistics panics in debug builds and reports less memory in use than before in release builds.
* C110: the space verdict for filling a `Vec` depends on the sizes chosen: sizes (c+1, 2c) around a capacity c are reported O(1), sizes (c, 2c+1) O(n^2), with no noise at all.

## 5. Property by property: what is modelled and how it is proved

* **C01** binary64 analysis with arbitrary log2/powi/powf; monotonicity of IEEE division, then case analysis along the decision chain; lifted to durations and byte counts.
* **C02** binary64; x/x = 1 exactly, so the O(1) test holds.
* **C03** real instance: inequality between measured ratio and law ratio, chain stops at or before the law's class; binary64 via Bridge (error analysis of every intermediate value, relative margin 2^-40).
* **C04** same, other direction; `C04_refuted_at_2_3` is a witness that the size exception is needed.
* **C05** real instance plus Bridge: ratio within 5% of the law's, neighbours excluded by the sizes.
* **C06** real instance: the chain up to O(n^4) depends on u2/u1 only; witness for the exponential classes.
* **C07** binary64: 0/0 = NaN and x/0 = inf followed through the chain; conditions on powf/log2/powi at special values are hypotheses.
* **C08** binary64: log2 1 = 0 and n2/1 evaluated through the chain.
* **C09** as C01 for the set-resizing analysis.
* **C10** case analysis: the result never exceeds BetweenONAndONLogN.
* **C11** real instance: sums of per-operation costs (`total_cost`) bounded by integrals/telescoping; binary64 through Bridge3/4; the miss at 5 is a witness.
* **C12** sequential ring refined to (list of everything enqueued, index per consumer); induction over the operation list.
* **C13** corollary of the refinement for a consumer more than SIZE behind.
* **C14-C17** small-step machine, one atomic access per step, spurious CAS failures; inductive invariants (reservation/publication order, slot contents, claimed positions) over all schedules; refutations are concrete schedules evaluated by vm_compute.
* **C18** progress: from any reachable state some thread's enqueue completes when scheduled; blocked schedule as witness.
* **C19** arithmetic at 2^32 in debug/release; symbolic execution, no enumeration.
* **C20** invariant "every position handed out was written"; plus the dropped uninitialised slots.
* **C21-C23** sequential allocator + ring against a specification looking only at the trajectory of used memory; induction over histories (`ainv`).
* **C24** client heap with the GlobalAlloc contract; induction over client actions.
* **C25, C26, C58, C59** small-step allocator machine, invariants over all schedules (counters = completed + in-flight contributions); witnesses for the refutations.
* **C27** consequence of C21 plus range arithmetic.
* **C28, C62** the sentinel measurement followed through analysis and report.
* **C29-C33, C60, C61** the pass with i32 arithmetic and per-thread loops as a small-step machine (one closure call per step, stateful closures), against "each index of the range once"; chunk arithmetic by nia/lia, schedules by induction.
* **C34-C43, C64, C65** CRUD analysis as a program over an event log; a small Hoare logic (CrudProofs) gives the exact call sequence, deletes, verdict; the retry loop by recursion on attempts (CrudRetry).
* **C44** binary64: set size 0 gives log2 0 and divisions by 0; every outcome enumerated.
* **C45, C46** test_algorithm as a program of queries (Free) and keen_retry's loop; the world is arbitrary.
* **C47-C51, C69** same technique for the async builder; data flow is explicit in the spec; setters are record updates.
* **C52, C53, C66** unit tables transcribed; exact IEEE comparisons; caches as association lists, transparency by induction over call histories.
* **C54, C55, C63, C73-C75** report cells as (float, decimals, unit); f32/f64 conversions with Flocq.
* **C56** finite domain, exhaustive.
* **C57** all feature sets (finite), by case analysis on the features involved.
* **C67, C68** error analysis of as_secs_f64/from_secs_f64 and of the running average.
* **C70** Bridge: away from the boundaries binary64 and real arithmetic take the same branch.
* **C71, C72** complete decision tables (iff) over the reals and, for set resizing, in binary64.
* **C76** computed number: xor over all passes, tracked through the Hoare logic.
* **C77, C78** composition: `EndToEnd.alloc_world` makes the runner's queries run on the allocator model; the measurements in any trace are exact (induction over the program), then C05/C07 and C45 give the outcome.
* **C79** composition for containers: number of elements at every pass (induction over the act list), sums of the law over the calls, ratio interval, Bridge, then the retry policy C40/C42.
* **C80-C82** RingWeak: messages with views per location; the invariant couples every weak execution with a ghost state of the interleaving model (counters agree in modification order, loads are explained by older states), plus a per-slot invariant tying the writes seen to the lap; hb -> views by induction over happens-before.
* **C81** concrete schedules, evaluated by the kernel.
* **C83** simulation: in a synchronised execution every thread knows every message when it steps, so each load can only return the newest; locks give such executions by induction over the sections.
* **C84-C86** AllocWeak: per field the messages in modification order (plain stores of min/max may land in the middle), per thread the newest position known; invariants: counters in modification order are running sums of the additions done, so they rise; save points' snapshots are values known to whoever holds the reference; happens-before transfers positions; a ledger of the additions of each call gives the bounds on delta_statistics.
* **C85** (ordered statistics): slots are only accessed inside statistics calls, so the order makes every earlier access known to the thread that accesses a slot.
* **C87** AllocWeakMinMax: within the region every write of min/max is a read-modify-write at the end, so min falls and max rises; invariant: the usage is between them or some thread knows it and will update them. 2, 3: save_point and delta_statistics run alone, with everything known.
* **C88** AllocWeakSerial (ring operations), 2, 3 (one step of each call, against Alloc.v), 4 (sends and receives), 5 (the path): between calls every thread, and every message, after the end of the last call knows the newest of everything; a call is made by such a thread, hence runs like the sequential one.
* **C89** CrudMsg: the texts are concatenations; the map of counts is a sorted association list; proof: counting by key = counting by (operation, complexity) because the keys are injective; reading back by splitting at separators that do not occur in the parts.
* **C90** StatsText: a format string as a list of literals and arguments; proof: the first occurrence of each label is computed symbolically past the numbers, which contain no letters.
* **C91** AllocWeakMono: in a region where all pending additions have the same sign the modification order of the usage is monotone, so min and max (C87: values of the usage in the region, around both ends) are its ends; the save point's record by following save_point with everything known.
* **C92, C93** composition: `CrudAlloc.on_allocator` pairs each event of a CRUD execution with the allocator calls made during it; by induction over the events every measurement is exact (ainv); then C79 respectively C07, C36, C40.
* **C94, C95** composition: `BuilderAlloc.async_world` answers the builder's questions with the allocator model; exactness of every measurement by induction over the program (ainv), then C47, C49 with C05 (binary64, noisy) respectively C07; the number of calls by counting along `attempt`.
* **C96, C97** RunnerMsg: the texts as concatenations over the values Standard.v and Builder.v keep; proof: the tries of C45 / attempts of C49, then reading back by splitting at separators.
* **C104, C105** the items output by Standard.v and Builder.v carry their strings; proof: the exact trace of a completed run (C43, C47), then C102 and C103 for each part; induction over the tries for whole tests.
* **C106** the items output by Crud.v carry their strings; proof: a program logic for what a statement prints, the measurements named through the uniqueness of the passes of an analysis (C34), C102 and C103 for each part, induction over the attempts.
* **C107** CacheConc: threads, the static and the heap buffers; proof: invariant (whoever is inside a call knows whether the cache exists; every returned table is in the map and live); the refutation is a parametrised run.
* **C108** RingLinSpec: histories of calls and returns of Ring.v's concurrent model, and linearizability as an automaton with explicit instants; proof: forward simulation (instants: publication for enqueue, the claim or the tail read for dequeue, the tail read for peek_all); the refutations search all explanations with a checker proved complete.
* **C98** RingText: the machine of Ring.v with each thread's local published_tail and the errors returned; invariant: a thread past the read has head < tail read <= published; one thread: the refinement of C12.
* **C99-C103** texts as strings: Format (std's number formatting), PresentText, ReportText; the specification is a set of readers (ReadSpec) that know decimal notation and unit names only; proof: rounding is within half a unit of the last decimal, digits read back, cells contain no blanks, newlines or slashes, hence splitting recovers them.
* **C109** the model of C21 (every fetch_add/fetch_sub wraps; delta_statistics' subtractions are checked or wrap by profile); proof: the invariant of C21 with every total and level modulo 2^64, without feasibility.
* **C110** workload over C77's pass on the allocator; proof: the room is the least c0*2^k that holds the elements (invariant over pushes), the calls keep the level between 0 and the room, so a pass measures the room added; then C02 and C05.

| property | theorems (file) |
|---|---|
| C01 | `C01_monotone` (PropsAnalysis), `C01_monotone_time` (PropsAnalysis), `C01_monotone_space` (PropsAnalysis) |
| C02 | `C02_equal_usage` (PropsAnalysis), `C02_equal_usage_space` (PropsAnalysis), `C02_equal_usage_time` (PropsAnalysis) |
| C03 | `C03_no_false_alarm` (PropsAnalysis), `C03_binary64_time` (PropsBridge), `C03_binary64_space` (PropsBridge) |
| C04 | `C04_no_missed_regression` (PropsAnalysis), `C04_refuted_at_2_3` (PropsAnalysis), `C04_binary64_time` (PropsBridge), `C04_binary64_space` (PropsBridge) |
| C05 | `C05_exact_recognition` (PropsAnalysis), `C05_logarithms_invisible` (PropsAnalysis), `C05_binary64_noisy_time` (PropsBridge), `C05_binary64_noisy_space` (PropsBridge) |
| C06 | `C06_unit_independent` (PropsAnalysis), `C06_exponential_classes_depend_on_units` (PropsAnalysis), `C06_binary64_time` (PropsUnits), `C06_binary64_space` (PropsUnits), `C06_powers_of_two_space` (PropsUnits) |
| C07 | `C07_zero_usage` (PropsAnalysis), `C07_zero_first_pass` (PropsAnalysis), `C07_zero_time` (PropsAnalysis) |
| C08 | `C08_size_one_time` (PropsAnalysis), `C08_size_one_space` (PropsAnalysis) |
| C09 | `C09_resizing_monotone` (PropsAnalysis), `C09_resizing_monotone_time` (PropsAnalysis) |
| C10 | `C10_saturates` (PropsAnalysis) |
| C11 | `C11_constant_cost` (PropsAnalysis), `C11_linear_cost` (PropsAnalysis), `C11_linear_cost_missed_at_5` (PropsAnalysis), `C11_log_cost` (PropsBridge), `C11_binary64_noisy_time` (PropsBridge), `C11_binary64_noisy_space` (PropsBridge) |
| C12 | `C12_fifo_refinement` (PropsRing) |
| C13 | `C13_overflowed_consumer_recovers` (PropsRing) |
| C14 | `C14_enqueues_exactly_once` (PropsRing), `C14_real_time_order` (PropsRing) |
| C15 | `C15_positions_claimed_once` (PropsRing), `C15_nothing_means_caught_up` (PropsRing) |
| C16 | `C16_dequeued_element_is_right` (PropsRing), `C16_overflow_is_genuine` (PropsRing), `C16_refuted_with_more_threads_than_slots` (PropsRing) |
| C17 | `C17_peek_is_exact_when_not_overrun` (PropsRing), `C17_peek_overflow_is_genuine` (PropsRing), `C17_refuted_while_an_enqueue_is_in_flight` (PropsRing) |
| C18 | `C18_some_enqueue_completes` (PropsRing), `C18_dequeue_returns_when_alone` (PropsRing), `C18_enqueue_blocks_behind_a_stalled_one` (PropsRing) |
| C19 | `C19_debug_panics_at_the_wrap` (PropsRing), `C19_release_consumers_hang_at_the_wrap` (PropsRing), `C19_release_concurrent_wrap_panics` (PropsRing) |
| C20 | `C20_no_uninitialised_slot_is_returned` (PropsRing), `C20_enqueue_drops_uninitialised_slots` (PropsRing) |
| C21 | `C21_delta_statistics_exact` (PropsAlloc) |
| C22 | `C22_save_points_independent` (PropsAlloc), `C22_delta_statistics_changes_nothing` (PropsAlloc) |
| C23 | `C23_overflow_reported_exactly` (PropsAlloc) |
| C24 | `C24_used_memory_is_live_heap` (PropsAlloc), `C24_failed_calls_are_counted_forever` (PropsAlloc) |
| C25 | `C25_concurrent_counters_exact` (PropsAlloc) |
| C26 | `C26_min_max_are_real` (PropsAlloc), `C26_sandwich_without_racing_save_points` (PropsAlloc), `C26_racing_save_point_refuted` (PropsAlloc), `C26_missed_peak_refuted` (PropsAlloc) |
| C27 | `C27_measurement_well_formed` (PropsAlloc), `C27_space_analyses_never_panic` (PropsAlloc) |
| C28 | `C28_sentinel_both` (PropsAnalysis), `C28_sentinel_first` (PropsAnalysis), `C28_sentinel_second` (PropsAnalysis) |
| C29 | `C29_every_index_exactly_once` (PropsIter), `C29_every_pass_completes` (PropsIter) |
| C30 | `C30_skipped_indices` (PropsIter), `C30_more_threads_than_iterations` (PropsIter), `C30_no_other_call` (PropsIter) |
| C31 | `C31_order_of_each_thread` (PropsIter), `C31_single_thread` (PropsIter) |
| C32 | `C32_computed_number` (PropsIter), `C32_schedule_independent` (PropsIter), `C32_algorithm_type_is_ignored` (PropsIter) |
| C33 | `C33_zero_threads_panic` (PropsIter), `C64_zero_threads_panic` (PropsCrud) |
| C34 | `C34_call_sequence` (PropsCrud), `C34_analyse_call_sequence` (PropsCrud) |
| C35 | `C35_deletes_what_was_created` (PropsCrud) |
| C36 | `C36_error` (PropsCrud), `C36_success_iff_all_met` (PropsCrud) |
| C37 | `C37_disabled_operations` (PropsCrud), `C37_enabled_operations` (PropsCrud) |
| C38 | `C38_unwrap_never_panics` (PropsCrud), `C38_always_returns_the_analyses` (PropsCrud), `C38_runs_exist` (PropsCrud), `C38_only_closures_panic` (PropsCrud) |
| C39 | `C39_resets_of_an_analysis` (PropsCrud), `C39_resets_between_attempts` (PropsCrud) |
| C40 | `C40_retry_policy` (PropsCrud), `C40_no_other_end` (PropsCrud), `C40_runs_exist` (PropsCrud) |
| C41 | `C41_zero_attempts` (PropsCrud) |
| C42 | `C42_adaptation` (PropsCrud), `C42_bounds` (PropsCrud), `C42_small_counts_never_fail_on_time` (PropsCrud) |
| C43 | `C43_time_hides_space` (PropsCrud), `C43_space_panic_only_if_time_met` (PropsCrud), `C43_test_algorithm_reports_space_first` (PropsStandard), `C43_test_algorithm_never_retries_space` (PropsStandard) |
| C44 | `C44_no_creates_time` (PropsAnalysis), `C44_no_creates_space` (PropsAnalysis), `C44_reads_without_creates` (PropsCrud) |
| C45 | `C45_each_run` (PropsStandard), `C45_outcome` (PropsStandard), `C45_classification` (PropsStandard), `C45_no_other_end` (PropsStandard) |
| C46 | `C46_zero_set_size_panics` (PropsReport), `C46_nonzero_set_sizes_do_not_panic` (PropsReport), `C46_test_algorithm_zero_set_size` (PropsStandard), `C46_constant_set_reports` (PropsReport), `C46_set_resizing_reports` (PropsReport) |
| C47 | `C47_attempt` (PropsBuilder), `C47_missing_pass` (PropsBuilder) |
| C48 | `C48_reset_gets_the_data` (PropsBuilder), `C48_without_reset_the_data_is_lost` (PropsBuilder) |
| C49 | `C49_outcome` (PropsBuilder), `C49_no_other_end` (PropsBuilder), `C49_no_expectation_always_passes` (PropsBuilder), `C49_ignored_options` (PropsBuilder) |
| C50 | `C50_last_value_wins` (PropsBuilder), `C50_methods_commute` (PropsBuilder), `C50_only_its_own` (PropsBuilder) |
| C51 | `C51_paired` (PropsBuilder), `C51_no_panic` (PropsBuilder), `C51_after_without_before_panics` (PropsBuilder), `C51_new_measurers_are_idle` (PropsBuilder) |
| C52 | `C52_bytes` (PropsPresent), `C52_thresholds` (PropsPresent), `C52_byte_rates` (PropsPresent), `C52_custom_units` (PropsPresent), `C52_custom_unit_rates` (PropsPresent), `C52_fallback_exactly_negative_or_nan` (PropsPresent), `C52_bytes_fallback_text` (PropsPresent), `C52_infinity` (PropsPresent), `C52_any_table` (PropsPresent) |
| C53 | `C53_caches_are_transparent` (PropsPresent) |
| C54 | `C54_sign_is_sound` (PropsReport), `C54_sign_is_exact_below_16MiB` (PropsReport), `C54_converse_refuted` (PropsReport) |
| C55 | `C55_totals` (PropsReport), `C55_summary_amounts` (PropsReport2) |
| C56 | `C56_order_is_the_documented_one` (PropsReport), `C56_labels_are_unambiguous` (PropsReport), `C56_label_texts` (PropsReport2), `C56_time_and_space_labels` (PropsReport2) |
| C57 | `C57_when_it_compiles` (PropsFeatures), `C57_selected_constants` (PropsFeatures) |
| C58 | `C58_no_concurrent_panic` (PropsAlloc) |
| C59 | `C59_measured_concurrent_region` (PropsAlloc) |
| C60 | `C60_debug_panics_across_2_31` (PropsIter) |
| C61 | `C61_a_panicking_call_panics_the_pass` (PropsIter) |
| C62 | `C62_sentinel_in_first_pass` (PropsReport) |
| C63 | `C63_memory_units` (PropsReport) |
| C64 | `C64_zero_threads_panic` (PropsCrud) |
| C65 | `C65_reads_only_what_was_created` (PropsCrud), `C65_more_reads_than_creates` (PropsCrud) |
| C66 | `C66_duration_measurement` (PropsDuration), `C66_longest_duration_panics` (PropsDuration) |
| C67 | `C67_time_per_element` (PropsDuration), `C67_seconds_to_nanoseconds` (PropsReport2) |
| C68 | `C68_pass_time_is_the_average` (PropsDuration), `C68_single_thread` (PropsDuration), `C68_between_extremes` (PropsDuration) |
| C69 | `C69_dry_run` (PropsBuilder), `C69_without_reset_passes_get_nothing` (PropsBuilder) |
| C70 | `C70_agrees_time` (PropsBridge), `C70_agrees_space` (PropsBridge) |
| C71 | `C71_decision_table` (PropsBridge), `C71_exponential_levels` (PropsBridge) |
| C72 | `C72_resizing_table` (PropsBridge), `C72_resizing_table_binary64_time` (PropsBridge), `C72_resizing_table_binary64_space` (PropsBridge) |
| C73 | `C73_memory_cell` (PropsReport2), `C73_small_amounts_are_exact` (PropsReport2) |
| C74 | `C74_regular_rows` (PropsReport2), `C74_constant_set_rows` (PropsReport2), `C74_set_resizing_rows` (PropsReport2) |
| C75 | `C75_report_contents` (PropsReport2) |
| C76 | `C76_computed_number` (CrudNumber), `C76_reported_once_after_every_pass` (CrudNumber) |
| C77 | `C77_measurements_are_true` (PropsEndToEnd), `C77_end_to_end` (PropsEndToEnd) |
| C78 | `C78_no_growth_fails` (PropsEndToEnd), `C78_no_allocator_metrics` (PropsEndToEnd) |
| C79 | `C79_compliant_containers_pass` (PropsCrudLaws), `C79_violations_fail` (PropsCrudLaws) |
| C80 | `C80_enqueues_exactly_once` (PropsRingWeak), `C80_enqueues_do_not_panic` (PropsRingWeak), `C80_positions_claimed_once` (PropsRingWeak), `C80_nothing_means_claimed` (PropsRingWeak) |
| C81 | `C81_dequeue_may_return_an_uninitialised_slot` (PropsRingWeak), `C81_dequeue_races` (PropsRingWeak), `C81_dequeue_may_panic` (PropsRingWeak), `C81_spurious_overflow` (PropsRingWeak), `C81_completed_enqueue_not_seen` (PropsRingWeak), `C81_peek_may_panic` (PropsRingWeak), `C81_peek_races` (PropsRingWeak), `C81_element_of_the_previous_lap` (PropsRingWeak), `C81_enqueue_races` (PropsRingWeak) |
| C82 | `C82_synchronised_dequeue_is_right` (PropsRingWeak), `C82_synchronised_overflow_is_genuine` (PropsRingWeak), `C82_synchronised_dequeue_does_not_panic` (PropsRingWeak) |
| C83 | `C83_synchronised_executions_are_interleavings` (PropsRingWeak), `C83_a_lock_synchronises` (PropsRingWeak) |
| C84 | `C84_no_update_lost` (PropsAllocWeak), `C84_counters_only_rise` (PropsAllocWeak) |
| C85 | `C85_no_panic_without_a_data_race` (PropsAllocWeak), `C85_ordered_statistics_never_panic` (PropsAllocWeak), `C85_unordered_statistics_race` (PropsAllocWeak) |
| C86 | `C86_delta_counts_calls` (PropsAllocWeak), `C86_region_exact` (PropsAllocWeak), `C86_unjoined_call_not_counted` (PropsAllocWeak) |
| C87 | `C87_region_min_max` (PropsAllocWeak), `C87_unsynchronised_allocation_lost_from_max` (PropsAllocWeak) |
| C88 | `C88_serial_is_sequential` (PropsAllocWeak), `C88_one_caller_is_serial` (PropsAllocWeak), `C88_serial_delta_exact` (PropsAllocWeak) |
| C89 | `C89_give_up_message` (PropsCrudMsg), `C89_space_message` (PropsCrudMsg), `C89_message_unambiguous` (PropsCrudMsg) |
| C90 | `C90_every_statistic_is_shown` (PropsStatsText), `C90_text_unambiguous` (PropsStatsText) |
| C91 | `C91_growing_region` (PropsAllocMono), `C91_shrinking_region` (PropsAllocMono), `C91_growth_is_what_the_calls_ask` (PropsAllocMono), `C91_mixed_region_depends_on_the_schedule` (PropsAllocMono) |
| C92 | `C92_measurements_are_true` (PropsCrudAlloc), `C92_metrics_never_panic` (PropsCrudAlloc), `C92_compliant_containers_pass` (PropsCrudAlloc), `C92_violations_fail` (PropsCrudAlloc) |
| C93 | `C93_no_growth` (PropsCrudAlloc), `C93_no_allocator_metrics` (PropsCrudAlloc) |
| C94 | `C94_measurements_are_true` (PropsBuilderAlloc), `C94_end_to_end` (PropsBuilderAlloc) |
| C95 | `C95_no_growth_fails` (PropsBuilderAlloc) |
| C96 | `C96_messages` (PropsRunnerMsg), `C96_text_iff_panic` (PropsRunnerMsg), `C96_unambiguous` (PropsRunnerMsg) |
| C97 | `C97_messages` (PropsRunnerMsg), `C97_text_iff_panic` (PropsRunnerMsg) |
| C98 | `C98_errors_of_one_thread` (PropsRingText), `C98_error_iff_overflow` (PropsRingText), `C98_unambiguous` (PropsRingText), `C98_errors_of_many_threads` (PropsRingText), `C98_refuted_consistent_numbers` (PropsRingText) |
| C99 | `C99_bytes` (PropsPresentText), `C99_byte_rates` (PropsPresentText), `C99_custom_units` (PropsPresentText), `C99_custom_unit_rates` (PropsPresentText) |
| C100 | `C100_duration_text` (PropsPresentText), `C100_duration_texts_differ` (PropsPresentText), `C100_duration_measurement` (PropsPresentText) |
| C101 | `C101_memory_cell` (PropsReportText), `C101_summary` (PropsReportText) |
| C102 | `C102_pass_text` (PropsReportText) |
| C103 | `C103_regular_report` (PropsReportText), `C103_constant_set_report` (PropsReportText), `C103_set_resizing_report` (PropsReportText) |
| C104 | `C104_run` (PropsStdText), `C104_test` (PropsStdText), `C104_interrupted` (PropsStdText) |
| C105 | `C105_attempt` (PropsBuilderText), `C105_test` (PropsBuilderText), `C105_interrupted` (PropsBuilderStops) |
| C106 | `C106_analysis` (PropsCrudText), `C106_test` (PropsCrudText), `C106_interrupted` (PropsCrudStops), `C106_reset_interrupted` (PropsCrudStops), `C106_a_panic` (PropsCrudStops), `C106_test_interrupted` (PropsCrudStops) |
| C107 | `C107_calls_apart` (PropsCacheConc), `C107_units` (PropsCacheConc), `C107_completes` (PropsCacheConc), `C107_refuted_for_overlapping_calls` (PropsCacheConc) |
| C108 | `C108_linearizable_but_for_early_overflows` (PropsRingLin), `C108_linearizable` (PropsRingLin), `C108_early_overflows_are_not_linearizable` (PropsRingLin), `C108_peeks_over_dequeues_are_not_linearizable` (PropsRingLin), `C108_peeks_over_enqueues_are_not_linearizable` (PropsRingLin) |
| C109 | `C109_counters_modulo` (PropsAllocWrap), `C109_delta_modulo` (PropsAllocWrap), `C109_refused_requests` (PropsAllocWrap) |
| C110 | `C110_what_is_measured` (PropsVec), `C110_pushes_are_constant` (PropsVec), `C110_filling_is_linear` (PropsVec), `C110_constant_by_luck` (PropsVec), `C110_quadratic_by_luck` (PropsVec), `C110_measured_exists` (PropsVec) |

## 6. Axioms per theorem (output of `Print Assumptions`)

**`ClassicalDedekindReals.sig_forall_dec`, `ClassicalDedekindReals.sig_not_dec`, `Classical_Prop.classic`, `FunctionalExtensionality.functional_extensionality_dep`** -- 175 theorems:
`C01_monotone`, `C01_monotone_time`, `C01_monotone_space`, `C02_equal_usage`, `C02_equal_usage_space`, `C02_equal_usage_time`, `C03_no_false_alarm`, `C03_binary64_time`, `C03_binary64_space`, `C04_no_missed_regression`, `C04_refuted_at_2_3`, `C04_binary64_time`, `C04_binary64_space`, `C05_exact_recognition`, `C05_logarithms_invisible`, `C05_binary64_noisy_time`, `C05_binary64_noisy_space`, `C06_unit_independent`, `C06_exponential_classes_depend_on_units`, `C06_binary64_time`, `C06_binary64_space`, `C06_powers_of_two_space`, `C07_zero_usage`, `C07_zero_first_pass`, `C07_zero_time`, `C08_size_one_time`, `C08_size_one_space`, `C09_resizing_monotone`, `C09_resizing_monotone_time`, `C10_saturates`, `C11_constant_cost`, `C11_linear_cost`, `C11_linear_cost_missed_at_5`, `C11_log_cost`, `C11_binary64_noisy_time`, `C11_binary64_noisy_space`, `C26_racing_save_point_refuted`, `C27_space_analyses_never_panic`, `C28_sentinel_both`, `C28_sentinel_first`, `C28_sentinel_second`, `C64_zero_threads_panic`, `C34_call_sequence`, `C34_analyse_call_sequence`, `C35_deletes_what_was_created`, `C36_error`, `C36_success_iff_all_met`, `C37_disabled_operations`, `C37_enabled_operations`, `C38_unwrap_never_panics`, `C38_always_returns_the_analyses`, `C38_runs_exist`, `C38_only_closures_panic`, `C39_resets_of_an_analysis`, `C39_resets_between_attempts`, `C40_retry_policy`, `C40_no_other_end`, `C40_runs_exist`, `C41_zero_attempts`, `C42_small_counts_never_fail_on_time`, `C43_time_hides_space`, `C43_space_panic_only_if_time_met`, `C43_test_algorithm_reports_space_first`, `C43_test_algorithm_never_retries_space`, `C44_no_creates_time`, `C44_no_creates_space`, `C44_reads_without_creates`, `C45_each_run`, `C45_outcome`, `C45_classification`, `C45_no_other_end`, `C46_zero_set_size_panics`, `C46_nonzero_set_sizes_do_not_panic`, `C46_test_algorithm_zero_set_size`, `C46_constant_set_reports`, `C46_set_resizing_reports`, `C47_attempt`, `C47_missing_pass`, `C48_reset_gets_the_data`, `C48_without_reset_the_data_is_lost`, `C49_outcome`, `C49_no_other_end`, `C49_no_expectation_always_passes`, `C49_ignored_options`, `C52_bytes`, `C52_thresholds`, `C52_byte_rates`, `C52_custom_units`, `C52_custom_unit_rates`, `C52_fallback_exactly_negative_or_nan`, `C52_bytes_fallback_text`, `C52_infinity`, `C52_any_table`, `C53_caches_are_transparent`, `C54_sign_is_sound`, `C54_sign_is_exact_below_16MiB`, `C54_converse_refuted`, `C55_totals`, `C55_summary_amounts`, `C62_sentinel_in_first_pass`, `C63_memory_units`, `C65_reads_only_what_was_created`, `C65_more_reads_than_creates`, `C66_duration_measurement`, `C66_longest_duration_panics`, `C67_time_per_element`, `C68_pass_time_is_the_average`, `C68_single_thread`, `C68_between_extremes`, `C70_agrees_time`, `C70_agrees_space`, `C71_decision_table`, `C71_exponential_levels`, `C72_resizing_table`, `C72_resizing_table_binary64_time`, `C72_resizing_table_binary64_space`, `C73_memory_cell`, `C73_small_amounts_are_exact`, `C74_regular_rows`, `C74_constant_set_rows`, `C74_set_resizing_rows`, `C75_report_contents`, `C76_computed_number`, `C76_reported_once_after_every_pass`, `C77_measurements_are_true`, `C77_end_to_end`, `C78_no_growth_fails`, `C78_no_allocator_metrics`, `C79_compliant_containers_pass`, `C79_violations_fail`, `C89_give_up_message`, `C89_space_message`, `C91_growth_is_what_the_calls_ask`, `C92_measurements_are_true`, `C92_compliant_containers_pass`, `C92_violations_fail`, `C93_no_growth`, `C93_no_allocator_metrics`, `C94_measurements_are_true`, `C94_end_to_end`, `C95_no_growth_fails`, `C96_messages`, `C96_text_iff_panic`, `C97_messages`, `C97_text_iff_panic`, `C99_bytes`, `C99_byte_rates`, `C99_custom_units`, `C99_custom_unit_rates`, `C100_duration_measurement`, `C101_memory_cell`, `C101_summary`, `C102_pass_text`, `C103_regular_report`, `C103_constant_set_report`, `C103_set_resizing_report`, `C104_run`, `C104_test`, `C104_interrupted`, `C105_attempt`, `C105_test`, `C105_interrupted`, `C106_analysis`, `C106_test`, `C106_interrupted`, `C106_reset_interrupted`, `C106_a_panic`, `C106_test_interrupted`, `C107_calls_apart`, `C107_units`, `C107_refuted_for_overlapping_calls`, `C110_pushes_are_constant`, `C110_filling_is_linear`, `C110_constant_by_luck`, `C110_quadratic_by_luck`

**Closed under the global context (no axioms)** -- 118 theorems:
`C12_fifo_refinement`, `C13_overflowed_consumer_recovers`, `C14_enqueues_exactly_once`, `C14_real_time_order`, `C15_positions_claimed_once`, `C15_nothing_means_caught_up`, `C16_dequeued_element_is_right`, `C16_overflow_is_genuine`, `C16_refuted_with_more_threads_than_slots`, `C17_peek_is_exact_when_not_overrun`, `C17_peek_overflow_is_genuine`, `C17_refuted_while_an_enqueue_is_in_flight`, `C18_some_enqueue_completes`, `C18_dequeue_returns_when_alone`, `C18_enqueue_blocks_behind_a_stalled_one`, `C19_debug_panics_at_the_wrap`, `C19_release_consumers_hang_at_the_wrap`, `C19_release_concurrent_wrap_panics`, `C20_no_uninitialised_slot_is_returned`, `C20_enqueue_drops_uninitialised_slots`, `C21_delta_statistics_exact`, `C22_save_points_independent`, `C22_delta_statistics_changes_nothing`, `C23_overflow_reported_exactly`, `C24_used_memory_is_live_heap`, `C24_failed_calls_are_counted_forever`, `C25_concurrent_counters_exact`, `C26_min_max_are_real`, `C26_sandwich_without_racing_save_points`, `C26_missed_peak_refuted`, `C27_measurement_well_formed`, `C29_every_index_exactly_once`, `C29_every_pass_completes`, `C30_skipped_indices`, `C30_more_threads_than_iterations`, `C30_no_other_call`, `C31_order_of_each_thread`, `C31_single_thread`, `C32_computed_number`, `C32_schedule_independent`, `C32_algorithm_type_is_ignored`, `C33_zero_threads_panic`, `C42_adaptation`, `C42_bounds`, `C50_last_value_wins`, `C50_methods_commute`, `C50_only_its_own`, `C51_paired`, `C51_no_panic`, `C51_after_without_before_panics`, `C51_new_measurers_are_idle`, `C56_order_is_the_documented_one`, `C56_labels_are_unambiguous`, `C56_label_texts`, `C56_time_and_space_labels`, `C57_when_it_compiles`, `C57_selected_constants`, `C58_no_concurrent_panic`, `C59_measured_concurrent_region`, `C60_debug_panics_across_2_31`, `C61_a_panicking_call_panics_the_pass`, `C69_dry_run`, `C69_without_reset_passes_get_nothing`, `C80_enqueues_exactly_once`, `C80_enqueues_do_not_panic`, `C80_positions_claimed_once`, `C80_nothing_means_claimed`, `C81_dequeue_may_return_an_uninitialised_slot`, `C81_dequeue_races`, `C81_dequeue_may_panic`, `C81_spurious_overflow`, `C81_completed_enqueue_not_seen`, `C81_peek_may_panic`, `C81_peek_races`, `C81_element_of_the_previous_lap`, `C81_enqueue_races`, `C82_synchronised_dequeue_is_right`, `C82_synchronised_overflow_is_genuine`, `C82_synchronised_dequeue_does_not_panic`, `C83_synchronised_executions_are_interleavings`, `C83_a_lock_synchronises`, `C84_no_update_lost`, `C84_counters_only_rise`, `C85_no_panic_without_a_data_race`, `C85_ordered_statistics_never_panic`, `C85_unordered_statistics_race`, `C86_delta_counts_calls`, `C86_region_exact`, `C86_unjoined_call_not_counted`, `C87_region_min_max`, `C87_unsynchronised_allocation_lost_from_max`, `C88_serial_is_sequential`, `C88_one_caller_is_serial`, `C88_serial_delta_exact`, `C89_message_unambiguous`, `C90_every_statistic_is_shown`, `C90_text_unambiguous`, `C91_growing_region`, `C91_shrinking_region`, `C91_mixed_region_depends_on_the_schedule`, `C92_metrics_never_panic`, `C96_unambiguous`, `C98_errors_of_one_thread`, `C98_error_iff_overflow`, `C98_unambiguous`, `C98_errors_of_many_threads`, `C98_refuted_consistent_numbers`, `C107_completes`, `C108_linearizable_but_for_early_overflows`, `C108_linearizable`, `C108_early_overflows_are_not_linearizable`, `C108_peeks_over_dequeues_are_not_linearizable`, `C108_peeks_over_enqueues_are_not_linearizable`, `C109_counters_modulo`, `C109_delta_modulo`, `C109_refused_requests`, `C110_what_is_measured`, `C110_measured_exists`

**`ClassicalDedekindReals.sig_forall_dec`, `FunctionalExtensionality.functional_extensionality_dep`** -- 3 theorems:
`C67_seconds_to_nanoseconds`, `C100_duration_text`, `C100_duration_texts_differ`

## 7. Mutation testing

`seeded/LOG.jsonl` has one line per seeded bug: the definition of the model edited, the edit, the claim
that becomes false, the lemmas/theorems whose proof then fails, and what was tightened when nothing
failed. `survived` lines with `equivalent` explain why the edit does not change behaviour.
