{
 "claims": [
  {
   "property": "C01",
   "status": "proved",
   "theorems": [
    "C01_monotone",
    "C01_monotone_time",
    "C01_monotone_space"
   ],
   "note": "binary64, any libm"
  },
  {
   "property": "C02",
   "status": "proved",
   "theorems": [
    "C02_equal_usage",
    "C02_equal_usage_space",
    "C02_equal_usage_time"
   ],
   "note": "binary64, any libm"
  },
  {
   "property": "C03",
   "status": "proved",
   "theorems": [
    "C03_no_false_alarm",
    "C03_binary64_time",
    "C03_binary64_space"
   ],
   "note": "exact real arithmetic, and the shipped binary64 code for every libm with relative error <= 2^-49, with a 2^-40 margin at the boundary"
  },
  {
   "property": "C04",
   "status": "proved",
   "theorems": [
    "C04_no_missed_regression",
    "C04_refuted_at_2_3",
    "C04_binary64_time",
    "C04_binary64_space"
   ],
   "note": "exact real arithmetic, and binary64 with a 2^-40 margin for every accurate libm; the exception (2,3) is shown to be necessary"
  },
  {
   "property": "C05",
   "status": "proved",
   "theorems": [
    "C05_exact_recognition",
    "C05_logarithms_invisible",
    "C05_binary64_noisy_time",
    "C05_binary64_noisy_space"
   ],
   "note": "exact real arithmetic; binary64 for every accurate libm with up to 5% of measurement noise"
  },
  {
   "property": "C06",
   "status": "proved",
   "theorems": [
    "C06_unit_independent",
    "C06_exponential_classes_depend_on_units",
    "C06_binary64_time",
    "C06_binary64_space",
    "C06_powers_of_two_space"
   ],
   "note": "exact real arithmetic for every factor; binary64 for proportional measurements away from the boundaries, and without exclusions for powers of two (PropsUnits.v)"
  },
  {
   "property": "C07",
   "status": "proved",
   "theorems": [
    "C07_zero_usage",
    "C07_zero_first_pass",
    "C07_zero_time"
   ],
   "note": "binary64; libm conditions are explicit hypotheses"
  },
  {
   "property": "C08",
   "status": "proved",
   "theorems": [
    "C08_size_one_time",
    "C08_size_one_space"
   ],
   "note": "binary64; libm conditions are explicit hypotheses"
  },
  {
   "property": "C09",
   "status": "proved",
   "theorems": [
    "C09_resizing_monotone",
    "C09_resizing_monotone_time"
   ],
   "note": "binary64, any libm"
  },
  {
   "property": "C10",
   "status": "proved",
   "theorems": [
    "C10_saturates"
   ],
   "note": "binary64, any libm, all inputs"
  },
  {
   "property": "C11",
   "status": "proved",
   "theorems": [
    "C11_constant_cost",
    "C11_linear_cost",
    "C11_linear_cost_missed_at_5",
    "C11_log_cost",
    "C11_binary64_noisy_time",
    "C11_binary64_noisy_space"
   ],
   "note": "exact real arithmetic; binary64 with 5% noise (linear: n >= 12)"
  },
  {
   "property": "C12",
   "status": "proved",
   "theorems": [
    "C12_fifo_refinement"
   ],
   "note": ""
  },
  {
   "property": "C13",
   "status": "proved",
   "theorems": [
    "C13_overflowed_consumer_recovers"
   ],
   "note": "the documented promise is refuted by this theorem"
  },
  {
   "property": "C14",
   "status": "proved",
   "theorems": [
    "C14_enqueues_exactly_once",
    "C14_real_time_order"
   ],
   "note": "sequentially consistent interleavings; fewer than 2^32 enqueues"
  },
  {
   "property": "C15",
   "status": "proved",
   "theorems": [
    "C15_positions_claimed_once",
    "C15_nothing_means_caught_up"
   ],
   "note": ""
  },
  {
   "property": "C16",
   "status": "proved",
   "theorems": [
    "C16_dequeued_element_is_right",
    "C16_overflow_is_genuine",
    "C16_refuted_with_more_threads_than_slots"
   ],
   "note": ""
  },
  {
   "property": "C17",
   "status": "proved",
   "theorems": [
    "C17_peek_is_exact_when_not_overrun",
    "C17_peek_overflow_is_genuine",
    "C17_refuted_while_an_enqueue_is_in_flight"
   ],
   "note": ""
  },
  {
   "property": "C18",
   "status": "proved",
   "theorems": [
    "C18_some_enqueue_completes",
    "C18_dequeue_returns_when_alone",
    "C18_enqueue_blocks_behind_a_stalled_one"
   ],
   "note": ""
  },
  {
   "property": "C19",
   "status": "proved",
   "theorems": [
    "C19_debug_panics_at_the_wrap",
    "C19_release_consumers_hang_at_the_wrap",
    "C19_release_concurrent_wrap_panics"
   ],
   "note": ""
  },
  {
   "property": "C20",
   "status": "proved",
   "theorems": [
    "C20_no_uninitialised_slot_is_returned",
    "C20_enqueue_drops_uninitialised_slots"
   ],
   "note": "that dropping uninitialised memory is UB is Rust semantics, not modelled"
  },
  {
   "property": "C21",
   "status": "proved",
   "theorems": [
    "C21_delta_statistics_exact"
   ],
   "note": "Sequential model, any history before and after the save point; limits: totals < 2^64, save points < 2^32."
  },
  {
   "property": "C22",
   "status": "proved",
   "theorems": [
    "C22_save_points_independent",
    "C22_delta_statistics_changes_nothing"
   ],
   "note": "Same allocations, any other save points and queries: same answer; repeating the query changes nothing."
  },
  {
   "property": "C23",
   "status": "proved",
   "theorems": [
    "C23_overflow_reported_exactly"
   ],
   "note": "iff, for every ring size."
  },
  {
   "property": "C24",
   "status": "proved",
   "theorems": [
    "C24_used_memory_is_live_heap",
    "C24_failed_calls_are_counted_forever"
   ],
   "note": "Client heap model following the GlobalAlloc contract; the second theorem gives the exact error left by failed calls."
  },
  {
   "property": "C25",
   "status": "proved",
   "theorems": [
    "C25_concurrent_counters_exact"
   ],
   "note": "SC interleaving of single atomic accesses; counters are exact modulo 2^64 without any bound."
  },
  {
   "property": "C26",
   "status": "proved",
   "theorems": [
    "C26_min_max_are_real",
    "C26_sandwich_without_racing_save_points",
    "C26_racing_save_point_refuted",
    "C26_missed_peak_refuted"
   ],
   "note": "Two theorems for all schedules and the two refuting schedules."
  },
  {
   "property": "C27",
   "status": "proved",
   "theorems": [
    "C27_measurement_well_formed",
    "C27_space_analyses_never_panic"
   ],
   "note": "Every sequential measurement is well formed and no space analysis panics on well-formed measurements."
  },
  {
   "property": "C28",
   "status": "proved",
   "theorems": [
    "C28_sentinel_both",
    "C28_sentinel_first",
    "C28_sentinel_second"
   ],
   "note": "binary64, any libm"
  },
  {
   "property": "C29",
   "status": "proved",
   "theorems": [
    "C29_every_index_exactly_once",
    "C29_every_pass_completes"
   ],
   "note": "PropsIter.v; small-step model, one closure call per step, any interleaving, stateful closures"
  },
  {
   "property": "C30",
   "status": "proved",
   "theorems": [
    "C30_skipped_indices",
    "C30_more_threads_than_iterations",
    "C30_no_other_call"
   ],
   "note": "PropsIter.v"
  },
  {
   "property": "C31",
   "status": "proved",
   "theorems": [
    "C31_order_of_each_thread",
    "C31_single_thread"
   ],
   "note": "PropsIter.v"
  },
  {
   "property": "C32",
   "status": "proved",
   "theorems": [
    "C32_computed_number",
    "C32_schedule_independent",
    "C32_algorithm_type_is_ignored"
   ],
   "note": "PropsIter.v"
  },
  {
   "property": "C33",
   "status": "proved",
   "theorems": [
    "C33_zero_threads_panic",
    "C64_zero_threads_panic"
   ],
   "note": "PropsIter.v; the consequence for CRUD analyses is C64_zero_threads_panic"
  },
  {
   "property": "C34",
   "status": "proved",
   "theorems": [
    "C34_call_sequence",
    "C34_analyse_call_sequence"
   ],
   "note": "Premise: u32 parameters and, in release builds, no u32 overflow of the runner products. Early returns and panics perform a prefix of the sequence."
  },
  {
   "property": "C35",
   "status": "proved",
   "theorems": [
    "C35_deletes_what_was_created"
   ],
   "note": ""
  },
  {
   "property": "C36",
   "status": "proved",
   "theorems": [
    "C36_error",
    "C36_success_iff_all_met"
   ],
   "note": ""
  },
  {
   "property": "C37",
   "status": "proved",
   "theorems": [
    "C37_disabled_operations",
    "C37_enabled_operations"
   ],
   "note": ""
  },
  {
   "property": "C38",
   "status": "proved",
   "theorems": [
    "C38_unwrap_never_panics",
    "C38_always_returns_the_analyses",
    "C38_runs_exist",
    "C38_only_closures_panic"
   ],
   "note": "Measurements range over everything the clock and allocator can measure (less than 2^53 s, well-formed byte counts below 2^62); pass time computation from thread durations is the environment."
  },
  {
   "property": "C39",
   "status": "proved",
   "theorems": [
    "C39_resets_of_an_analysis",
    "C39_resets_between_attempts"
   ],
   "note": ""
  },
  {
   "property": "C40",
   "status": "proved",
   "theorems": [
    "C40_retry_policy",
    "C40_no_other_end",
    "C40_runs_exist"
   ],
   "note": ""
  },
  {
   "property": "C41",
   "status": "proved",
   "theorems": [
    "C41_zero_attempts"
   ],
   "note": ""
  },
  {
   "property": "C42",
   "status": "proved",
   "theorems": [
    "C42_adaptation",
    "C42_bounds",
    "C42_small_counts_never_fail_on_time"
   ],
   "note": ""
  },
  {
   "property": "C43",
   "status": "proved",
   "theorems": [
    "C43_time_hides_space",
    "C43_space_panic_only_if_time_met",
    "C43_test_algorithm_reports_space_first",
    "C43_test_algorithm_never_retries_space"
   ],
   "note": "CRUD part in PropsCrud.v (C43_example: a run violating both maxima that passes after one retry), test_algorithm part in PropsStandard.v."
  },
  {
   "property": "C44",
   "status": "proved",
   "theorems": [
    "C44_no_creates_time",
    "C44_no_creates_space",
    "C44_reads_without_creates"
   ],
   "note": ""
  },
  {
   "property": "C45",
   "status": "proved",
   "theorems": [
    "C45_each_run",
    "C45_outcome",
    "C45_classification",
    "C45_no_other_end"
   ],
   "note": ""
  },
  {
   "property": "C46",
   "status": "proved",
   "theorems": [
    "C46_zero_set_size_panics",
    "C46_nonzero_set_sizes_do_not_panic",
    "C46_test_algorithm_zero_set_size",
    "C46_constant_set_reports",
    "C46_set_resizing_reports"
   ],
   "note": "for durations a clock can measure (< 2^53 s)"
  },
  {
   "property": "C47",
   "status": "proved",
   "theorems": [
    "C47_attempt",
    "C47_missing_pass"
   ],
   "note": "BuilderSpec.attempt lists the calls and the data flow; a missing pass function panics before any pass or assertion is run."
  },
  {
   "property": "C48",
   "status": "proved",
   "theorems": [
    "C48_reset_gets_the_data",
    "C48_without_reset_the_data_is_lost"
   ],
   "note": ""
  },
  {
   "property": "C49",
   "status": "proved",
   "theorems": [
    "C49_outcome",
    "C49_no_other_end",
    "C49_no_expectation_always_passes",
    "C49_ignored_options"
   ],
   "note": "keen_retry assumed to work as documented; C49_outcome also gives the calls of all attempts and the data passed between them."
  },
  {
   "property": "C50",
   "status": "proved",
   "theorems": [
    "C50_last_value_wins",
    "C50_methods_commute",
    "C50_only_its_own"
   ],
   "note": ""
  },
  {
   "property": "C51",
   "status": "proved",
   "theorems": [
    "C51_paired",
    "C51_no_panic",
    "C51_after_without_before_panics",
    "C51_new_measurers_are_idle"
   ],
   "note": "Any other event may happen between before and after."
  },
  {
   "property": "C52",
   "status": "proved",
   "theorems": [
    "C52_bytes",
    "C52_thresholds",
    "C52_byte_rates",
    "C52_custom_units",
    "C52_custom_unit_rates",
    "C52_fallback_exactly_negative_or_nan",
    "C52_bytes_fallback_text",
    "C52_infinity",
    "C52_any_table"
   ],
   "note": "Model of presentable_measurements.rs: exact IEEE doubles; here a text is the triple format/value/unit. Its digits: C99."
  },
  {
   "property": "C53",
   "status": "proved",
   "theorems": [
    "C53_caches_are_transparent"
   ],
   "note": "Arbitrary call histories before the measurement is made and between making and display."
  },
  {
   "property": "C54",
   "status": "proved",
   "theorems": [
    "C54_sign_is_sound",
    "C54_sign_is_exact_below_16MiB",
    "C54_converse_refuted"
   ],
   "note": "PropsReport.v"
  },
  {
   "property": "C55",
   "status": "proved",
   "theorems": [
    "C55_totals",
    "C55_summary_amounts"
   ],
   "note": "PropsReport.v The summary line: operation word, both amounts, units, decimals."
  },
  {
   "property": "C56",
   "status": "proved",
   "theorems": [
    "C56_order_is_the_documented_one",
    "C56_labels_are_unambiguous",
    "C56_label_texts",
    "C56_time_and_space_labels"
   ],
   "note": "PropsReport.v Exact texts."
  },
  {
   "property": "C57",
   "status": "proved",
   "theorems": [
    "C57_when_it_compiles",
    "C57_selected_constants"
   ],
   "note": "PropsFeatures.v"
  },
  {
   "property": "C58",
   "status": "proved",
   "theorems": [
    "C58_no_concurrent_panic"
   ],
   "note": "Ring operations are single steps of this model."
  },
  {
   "property": "C59",
   "status": "proved",
   "theorems": [
    "C59_measured_concurrent_region"
   ],
   "note": "Save point and query run alone; the measured part is any interleaving without save points. Exact peaks cannot be had: C26_missed_peak_refuted."
  },
  {
   "property": "C60",
   "status": "proved",
   "theorems": [
    "C60_debug_panics_across_2_31"
   ],
   "note": "PropsIter.v"
  },
  {
   "property": "C61",
   "status": "proved",
   "theorems": [
    "C61_a_panicking_call_panics_the_pass"
   ],
   "note": "PropsIter.v"
  },
  {
   "property": "C62",
   "status": "proved",
   "theorems": [
    "C62_sentinel_in_first_pass"
   ],
   "note": "PropsReport.v"
  },
  {
   "property": "C63",
   "status": "proved",
   "theorems": [
    "C63_memory_units"
   ],
   "note": "PropsReport.v"
  },
  {
   "property": "C64",
   "status": "proved",
   "theorems": [
    "C64_zero_threads_panic"
   ],
   "note": ""
  },
  {
   "property": "C65",
   "status": "proved",
   "theorems": [
    "C65_reads_only_what_was_created",
    "C65_more_reads_than_creates"
   ],
   "note": ""
  },
  {
   "property": "C66",
   "status": "proved",
   "theorems": [
    "C66_duration_measurement",
    "C66_longest_duration_panics"
   ],
   "note": "duration_sane: below 2^53 s."
  },
  {
   "property": "C67",
   "status": "proved",
   "theorems": [
    "C67_time_per_element",
    "C67_seconds_to_nanoseconds"
   ],
   "note": " Nearest nanosecond, ties to even."
  },
  {
   "property": "C68",
   "status": "proved",
   "theorems": [
    "C68_pass_time_is_the_average",
    "C68_single_thread",
    "C68_between_extremes"
   ],
   "note": ""
  },
  {
   "property": "C69",
   "status": "proved",
   "theorems": [
    "C69_dry_run",
    "C69_without_reset_passes_get_nothing"
   ],
   "note": "test_run is private to the crate (called by its tests)."
  },
  {
   "property": "C70",
   "status": "proved",
   "theorems": [
    "C70_agrees_time",
    "C70_agrees_space"
   ],
   "note": "both exponential classes are excluded because powf accuracy is not assumed"
  },
  {
   "property": "C71",
   "status": "proved",
   "theorems": [
    "C71_decision_table",
    "C71_exponential_levels"
   ],
   "note": "exact real arithmetic"
  },
  {
   "property": "C72",
   "status": "proved",
   "theorems": [
    "C72_resizing_table",
    "C72_resizing_table_binary64_time",
    "C72_resizing_table_binary64_space"
   ],
   "note": ""
  },
  {
   "property": "C73",
   "status": "proved",
   "theorems": [
    "C73_memory_cell",
    "C73_small_amounts_are_exact"
   ],
   "note": "Here a cell is the float rendered, its decimals and its unit. Its digits: C101."
  },
  {
   "property": "C74",
   "status": "proved",
   "theorems": [
    "C74_regular_rows",
    "C74_constant_set_rows",
    "C74_set_resizing_rows"
   ],
   "note": ""
  },
  {
   "property": "C75",
   "status": "proved",
   "theorems": [
    "C75_report_contents"
   ],
   "note": ""
  },
  {
   "property": "C76",
   "status": "proved",
   "theorems": [
    "C76_computed_number",
    "C76_reported_once_after_every_pass"
   ],
   "note": "The number a single pass returns is C32."
  },
  {
   "property": "C77",
   "status": "proved",
   "theorems": [
    "C77_measurements_are_true",
    "C77_end_to_end"
   ],
   "note": "Composition of the allocator, runner and analysis models; single thread; histories below 2^62 bytes in use, totals < 2^64, < 2^32 save points."
  },
  {
   "property": "C78",
   "status": "proved",
   "theorems": [
    "C78_no_growth_fails",
    "C78_no_allocator_metrics"
   ],
   "note": "powf's behaviour at 0 and NaN is an explicit hypothesis (powf_zero_ok)."
  },
  {
   "property": "C79",
   "status": "proved",
   "theorems": [
    "C79_compliant_containers_pass",
    "C79_violations_fail"
   ],
   "note": "Stated over CrudLawsSpec (elements, sizes, costs, laws). Example: C79_example (a vector: passes with linear reads allowed; all 3 attempts fail on the reads' time with O(1) reads; fails at once on the creates' memory when that is limited to better than O(1)). Excluded, because a doubling cannot tell them apart within the tolerance: logarithmic laws for the failing direction; create/delete laws other than constant, linear."
  },
  {
   "property": "C80",
   "status": "proved",
   "theorems": [
    "C80_enqueues_exactly_once",
    "C80_enqueues_do_not_panic",
    "C80_positions_claimed_once",
    "C80_nothing_means_claimed"
   ],
   "note": "view-based weak memory model without load buffering"
  },
  {
   "property": "C81",
   "status": "proved",
   "theorems": [
    "C81_dequeue_may_return_an_uninitialised_slot",
    "C81_dequeue_races",
    "C81_dequeue_may_panic",
    "C81_spurious_overflow",
    "C81_completed_enqueue_not_seen",
    "C81_peek_may_panic",
    "C81_peek_races",
    "C81_element_of_the_previous_lap",
    "C81_enqueue_races"
   ],
   "note": "refutations: witnessing executions"
  },
  {
   "property": "C82",
   "status": "proved",
   "theorems": [
    "C82_synchronised_dequeue_is_right",
    "C82_synchronised_overflow_is_genuine",
    "C82_synchronised_dequeue_does_not_panic"
   ],
   "note": ""
  },
  {
   "property": "C83",
   "status": "proved",
   "theorems": [
    "C83_synchronised_executions_are_interleavings",
    "C83_a_lock_synchronises"
   ],
   "note": ""
  },
  {
   "property": "C84",
   "status": "proved",
   "theorems": [
    "C84_no_update_lost",
    "C84_counters_only_rise"
   ],
   "note": "Example: C84_C86_example."
  },
  {
   "property": "C85",
   "status": "proved",
   "theorems": [
    "C85_no_panic_without_a_data_race",
    "C85_ordered_statistics_never_panic",
    "C85_unordered_statistics_race"
   ],
   "note": "Examples: C85_example meets the hypotheses of C85_ordered_statistics_never_panic; C85_unordered_statistics_race those of C85_no_panic_without_a_data_race (a panicked thread, and a race)."
  },
  {
   "property": "C86",
   "status": "proved",
   "theorems": [
    "C86_delta_counts_calls",
    "C86_region_exact",
    "C86_unjoined_call_not_counted"
   ],
   "note": "Example: C84_C86_example; C86_unjoined_call_not_counted is a concrete execution that also meets the hypotheses of C86_delta_counts_calls with the two bounds apart."
  },
  {
   "property": "C87",
   "status": "proved",
   "theorems": [
    "C87_region_min_max",
    "C87_unsynchronised_allocation_lost_from_max"
   ],
   "note": "Example: C87_example (with C84_C86_example for the remaining hypotheses)."
  },
  {
   "property": "C88",
   "status": "proved",
   "theorems": [
    "C88_serial_is_sequential",
    "C88_one_caller_is_serial",
    "C88_serial_delta_exact"
   ],
   "note": "Model AllocWeak.v (view-based relaxed memory) against Alloc.v (sequential); AllocWeakSerial*.v: a thread that knows the newest message of everything can only read and write the newest, and each step of a call is matched with the sequential one. No size hypotheses except in the exactness corollary. Example: two threads taking turns."
  },
  {
   "property": "C89",
   "status": "proved",
   "theorems": [
    "C89_give_up_message",
    "C89_space_message",
    "C89_message_unambiguous"
   ],
   "note": "CrudMsg.v models the texts (decimal numbers, Debug names of the complexities, the BTreeMap of counts) byte for byte; examples: C89_example (a whole run), C89_example_mixed."
  },
  {
   "property": "C90",
   "status": "proved",
   "theorems": [
    "C90_every_statistic_is_shown",
    "C90_text_unambiguous"
   ],
   "note": "StatsText.v models the format string and its arguments; example: C90_example."
  },
  {
   "property": "C91",
   "status": "proved",
   "theorems": [
    "C91_growing_region",
    "C91_shrinking_region",
    "C91_growth_is_what_the_calls_ask",
    "C91_mixed_region_depends_on_the_schedule"
   ],
   "note": "Setting (measured_region) as in C87; the pass is computed from the save point's record and the answer as in common.rs. Example: C91_example."
  },
  {
   "property": "C92",
   "status": "proved",
   "theorems": [
    "C92_measurements_are_true",
    "C92_metrics_never_panic",
    "C92_compliant_containers_pass",
    "C92_violations_fail"
   ],
   "note": "Crud.v's executions are tied to Alloc.v by on_allocator (CrudAlloc.v): each event carries the allocator calls made during it, and a measured pass' measurement is the one the allocator model answers. C92_example (CrudAllocDemo.v): a vector of 64-byte elements after 777 allocated bytes, all hypotheses checked, passes."
  },
  {
   "property": "C93",
   "status": "proved",
   "theorems": [
    "C93_no_growth",
    "C93_no_allocator_metrics"
   ],
   "note": "C07 carried through C36/C40 and C92. C93_example (CrudAllocDemo.v): the vector test of C79 with limits O(1) without allocator metrics fails."
  },
  {
   "property": "C94",
   "status": "proved",
   "theorems": [
    "C94_measurements_are_true",
    "C94_end_to_end"
   ],
   "note": "PropsBuilderAlloc.v; example C94_example in BuilderAllocDemo.v (passes, no limits, space panic, time panic after 3 attempts)."
  },
  {
   "property": "C95",
   "status": "proved",
   "theorems": [
    "C95_no_growth_fails"
   ],
   "note": "PropsBuilderAlloc.v; example C95_example in BuilderAllocDemo.v."
  },
  {
   "property": "C96",
   "status": "proved",
   "theorems": [
    "C96_messages",
    "C96_text_iff_panic",
    "C96_unambiguous"
   ],
   "note": "PropsRunnerMsg.v; examples C96_example, C96_example_given_up."
  },
  {
   "property": "C97",
   "status": "proved",
   "theorems": [
    "C97_messages",
    "C97_text_iff_panic"
   ],
   "note": "PropsRunnerMsg.v; example C97_example."
  },
  {
   "property": "C98",
   "status": "proved",
   "theorems": [
    "C98_errors_of_one_thread",
    "C98_error_iff_overflow",
    "C98_unambiguous",
    "C98_errors_of_many_threads",
    "C98_refuted_consistent_numbers"
   ],
   "note": "PropsRingText.v; example C98_example."
  },
  {
   "property": "C99",
   "status": "proved",
   "theorems": [
    "C99_bytes",
    "C99_byte_rates",
    "C99_custom_units",
    "C99_custom_unit_rates"
   ],
   "note": "PropsPresentText.v over Format.v, a model of std's number formatting (exact value, rounded half to even). C99_tests_* reproduce every expected string of the repository's own tests; C99_example, C99_negative_zero."
  },
  {
   "property": "C100",
   "status": "proved",
   "theorems": [
    "C100_duration_text",
    "C100_duration_texts_differ",
    "C100_duration_measurement"
   ],
   "note": "PropsPresentText.v; C100_tests_duration reproduces the repository's tests."
  },
  {
   "property": "C101",
   "status": "proved",
   "theorems": [
    "C101_memory_cell",
    "C101_summary"
   ],
   "note": "PropsReportText.v; specification ReportTextSpec.v, readers ReadSpec.v; C101_example."
  },
  {
   "property": "C102",
   "status": "proved",
   "theorems": [
    "C102_pass_text"
   ],
   "note": "PropsReportText.v; C102_example."
  },
  {
   "property": "C103",
   "status": "proved",
   "theorems": [
    "C103_regular_report",
    "C103_constant_set_report",
    "C103_set_resizing_report"
   ],
   "note": "PropsReportText.v; C103_regular_example and C103_set_example are whole reports."
  },
  {
   "property": "C104",
   "status": "proved",
   "theorems": [
    "C104_run",
    "C104_test",
    "C104_interrupted"
   ],
   "note": "PropsStdText.v; the model's items carry every string given to OUTPUT (Standard.v, StdText.v); specification RunTextSpec.v. C104_example is a complete two-run session."
  },
  {
   "property": "C105",
   "status": "proved",
   "theorems": [
    "C105_attempt",
    "C105_test",
    "C105_interrupted"
   ],
   "note": "PropsBuilderText.v over Builder.v and BuilderText.v; C105_example is a complete two-attempt session."
  },
  {
   "property": "C106",
   "status": "proved",
   "theorems": [
    "C106_analysis",
    "C106_test",
    "C106_interrupted",
    "C106_reset_interrupted",
    "C106_a_panic",
    "C106_test_interrupted"
   ],
   "note": "PropsCrudText.v over Crud.v and CrudText.v. The hypothesis is that the analysis (the test) returned: every returning execution is covered, whether it passed or failed; runs ended by a panic of a user closure are not. C106_example is a complete passing session and a retried, failing one."
  },
  {
   "property": "C107",
   "status": "proved",
   "theorems": [
    "C107_calls_apart",
    "C107_units",
    "C107_completes",
    "C107_refuted_for_overlapping_calls"
   ],
   "note": "CacheConc.v: the static, the heap buffers and one thread step per access. Overlapping calls are data races in Rust whatever happens afterwards; the refutation shows a concrete consequence in the mildest (sequentially consistent) semantics. The functions are reachable only inside the crate at this commit."
  },
  {
   "property": "C108",
   "status": "proved",
   "theorems": [
    "C108_linearizable_but_for_early_overflows",
    "C108_linearizable",
    "C108_early_overflows_are_not_linearizable",
    "C108_peeks_over_dequeues_are_not_linearizable",
    "C108_peeks_over_enqueues_are_not_linearizable"
   ],
   "note": "RingLinSpec.v defines histories and linearizability on their own (an automaton with explicit instants over the specification of C12); proof by forward simulation; the refutations enumerate all explanations of a concrete history with a checker proved complete."
  },
  {
   "property": "C109",
   "status": "proved",
   "theorems": [
    "C109_counters_modulo",
    "C109_delta_modulo",
    "C109_refused_requests"
   ],
   "note": "Unlike C21-C24, no bound on sizes or totals; only the number of save points stays below 2^32 (C19). In debug builds the history before the query contains no other query (which could itself panic)."
  },
  {
   "property": "C110",
   "status": "proved",
   "theorems": [
    "C110_what_is_measured",
    "C110_pushes_are_constant",
    "C110_filling_is_linear",
    "C110_constant_by_luck",
    "C110_quadratic_by_luck",
    "C110_measured_exists"
   ],
   "note": "The vector is a workload over the modelled allocator (its growth policy is Vec's amortised doubling, written in PropsVec.v); 'measured' is a run of the modelled allocator and run_sync_pass, with sizes that stay below 2^64."
  }
 ]
}