{
 "claims": [
  {
   "property": "C01",
   "status": "proved",
   "theorems": [
    "C01_ringbuf_is_bounded_list"
   ],
   "note": ""
  },
  {
   "property": "C02",
   "status": "proved",
   "theorems": [
    "C02_walk_visits_newest_first"
   ],
   "note": ""
  },
  {
   "property": "C03",
   "status": "proved",
   "theorems": [
    "C03_nothing_lost_nothing_twice"
   ],
   "note": "Capacity 0 is excluded by hypothesis and covered by C03_capacity_zero_discards."
  },
  {
   "property": "C04",
   "status": "proved",
   "theorems": [
    "C04_categories_hold_most_recent"
   ],
   "note": ""
  },
  {
   "property": "C05",
   "status": "proved",
   "theorems": [
    "C05_created_is_held_plus_freed",
    "C05_each_step_frees_what_left",
    "C05_held_never_freed"
   ],
   "note": ""
  },
  {
   "property": "C06",
   "status": "proved",
   "theorems": [
    "C06_writes_after_finish_change_nothing",
    "C06_observers_frozen",
    "C06_events_frozen",
    "C06_marker_time_refuted"
   ],
   "note": "Frozen for all observers and for texts, stacks and flags; finding: the time of the truncation marker is the time of the read (C06_marker_time_refuted)."
  },
  {
   "property": "C07",
   "status": "proved",
   "theorems": [
    "C07_errored_iff_error_call_before_finish",
    "C07_finished_iff_finish_called"
   ],
   "note": ""
  },
  {
   "property": "C08",
   "status": "proved",
   "theorems": [
    "C08_first_M_events_stored",
    "C08_stored_with_changing_limit"
   ],
   "note": ""
  },
  {
   "property": "C09",
   "status": "proved",
   "theorems": [
    "C09_events_of_truncated_trace",
    "C09_events_of_any_history",
    "C09_marker_counts_all_hidden_events_refuted",
    "C09_marker_after_truncation_point_refuted"
   ],
   "note": "Positive characterisation plus two findings: the marker under-counts by one, and it can follow later events."
  },
  {
   "property": "C10",
   "status": "proved",
   "theorems": [
    "C10_duration",
    "C10_durations_grow"
   ],
   "note": ""
  },
  {
   "property": "C11",
   "status": "proved",
   "theorems": [
    "C11_eager_text_fixed_at_call",
    "C11_lazy_text_fixed_at_first_read"
   ],
   "note": "Sequential reads; concurrent reads are C12."
  },
  {
   "property": "C12",
   "status": "proved",
   "theorems": [
    "C12_concurrent_readers_agree",
    "C12_later_readers_agree",
    "C12_readers_never_wait"
   ],
   "note": ""
  },
  {
   "property": "C13",
   "status": "proved",
   "theorems": [
    "C13_settings_in_force",
    "C13_limits",
    "C13_other_traces_untouched"
   ],
   "note": ""
  },
  {
   "property": "C14",
   "status": "proved",
   "theorems": [
    "C14_stacks_in_force",
    "C14_reported_stack",
    "C14_own_frames",
    "C14_last_frame_reported_refuted"
   ],
   "note": "Finding: the last captured frame is never reported."
  },
  {
   "property": "C15",
   "status": "proved",
   "theorems": [
    "C15_new_trace_is_pristine",
    "C15_pooled_objects_do_not_matter"
   ],
   "note": ""
  },
  {
   "property": "C16",
   "status": "proved",
   "theorems": [
    "C16_one_place",
    "C16_new_trace_is_private",
    "C16_not_reused_before_freed",
    "C16_unfinished_never_recycled",
    "C16_recycling_is_invisible"
   ],
   "note": "Machine of goroutines that create traces, call methods on any trace ever created, change category sizes and free what was pushed out, one mutex-held body per step, with sync.Pool choices and garbage collection of pools as inputs. newCoreTrace's unlocked writes to the fresh object are one step. Also proved: recycling is invisible (every trace equals the value it would have with memory of its own), no reuse before Free, nothing panics."
  },
  {
   "property": "C17",
   "status": "proved",
   "theorems": [
    "C17_unchanged_until_evicted",
    "C17_unchanged_until_freed",
    "C17_stale_handle_refuted"
   ],
   "note": "Until evicted (and until freed) a trace is exactly what the calls on it make of it, in every interleaving; the refuted theorem is the legal history in which Tracef on a finished, evicted trace adds an event to another live trace."
  },
  {
   "property": "C18",
   "status": "proved",
   "theorems": [
    "C18_texts_never_change",
    "C18_stacks_until_freed",
    "C18_stack_rewritten_refuted"
   ],
   "note": "Events as returned by Events/EventsDetail, which searches copy from. Texts, times and flags never change; stacks not before the trace is freed; the refuted theorem rewrites the stack of an already returned event after eviction and reuse."
  },
  {
   "property": "C19",
   "status": "proved",
   "theorems": [
    "C19_allow_is_conjunction",
    "C19_fewer_conditions_accept_more",
    "C19_contradictions_accept_nothing"
   ],
   "note": ""
  },
  {
   "property": "C20",
   "status": "proved",
   "theorems": [
    "C20_verdict_depends_on_public_fields",
    "C20_invalid_query_reported_once",
    "C20_valid_query_compiled_once",
    "C20_changed_query_used_refuted",
    "C20_changed_query_is_ignored"
   ],
   "note": ""
  },
  {
   "property": "C21",
   "status": "proved",
   "theorems": [
    "C21_negative_bucket_every_call",
    "C21_normalize",
    "C21_normalize_again_changes_nothing",
    "C21_negative_bucket_refuted"
   ],
   "note": ""
  },
  {
   "property": "C22",
   "status": "proved",
   "theorems": [
    "C22_search_sound"
   ],
   "note": ""
  },
  {
   "property": "C23",
   "status": "proved",
   "theorems": [
    "C23_search_returns_newest",
    "C23_search_returns_newest_by_key",
    "C23_search_is_deterministic",
    "C23_out_of_order_refuted"
   ],
   "note": ""
  },
  {
   "property": "C24",
   "status": "proved",
   "theorems": [
    "C24_match_count_too_small",
    "C24_search_counts",
    "C24_match_count_exact",
    "C24_stats_cover_everything",
    "C24_match_count_refuted"
   ],
   "note": ""
  },
  {
   "property": "C25",
   "status": "proved",
   "theorems": [
    "C25_strict_order",
    "C25_sorting_is_deterministic"
   ],
   "note": ""
  },
  {
   "property": "C26",
   "status": "proved",
   "theorems": [
    "C26_observe_counts_every_trace_once",
    "C26_bucket_is_minimum_duration",
    "C26_buckets_non_increasing",
    "C26_total_is_number_of_traces",
    "C26_oldest_and_newest"
   ],
   "note": ""
  },
  {
   "property": "C27",
   "status": "proved",
   "theorems": [
    "C27_events_of_the_first_group_only",
    "C27_merging_equals_observing_everything",
    "C27_empty_stats_are_neutral",
    "C27_overall_counts_all_traces_but_no_events",
    "C27_inconsistent_buckets_panic",
    "C27_event_counts_refuted"
   ],
   "note": ""
  },
  {
   "property": "C28",
   "status": "proved",
   "theorems": [
    "C28_merging_separate_sources",
    "C28_source_changed_refuted",
    "C28_repeated_merge_refuted",
    "C28_same_source_again"
   ],
   "note": ""
  },
  {
   "property": "C29",
   "status": "proved",
   "theorems": [
    "C29_multi_search_merges_everything",
    "C29_multi_search_answers",
    "C29_arrival_order_is_irrelevant"
   ],
   "note": ""
  },
  {
   "property": "C30",
   "status": "proved",
   "theorems": [
    "C30_multi_equals_single",
    "C30_match_count_refuted"
   ],
   "note": ""
  },
  {
   "property": "C31",
   "status": "proved",
   "theorems": [
    "C31_one_bad_answer_panics",
    "C31_multi_search_of_collectors_answers",
    "C31_negative_bucket_refuted",
    "C31_different_buckets_refuted"
   ],
   "note": ""
  },
  {
   "property": "C32",
   "status": "proved",
   "theorems": [
    "C32_trim_stacks"
   ],
   "note": ""
  },
  {
   "property": "C33",
   "status": "proved",
   "theorems": [
    "C33_C39_snapshots_of_every_schedule",
    "C33_finished_snapshot_is_complete",
    "C33_errored_snapshot_is_right",
    "C33_C39_events_are_events_of_the_trace",
    "C33_finished_duration_refuted",
    "C33_not_errored_with_error_event_refuted"
   ],
   "note": ""
  },
  {
   "property": "C34",
   "status": "proved",
   "theorems": [
    "C34_statistics_account_for_every_publish"
   ],
   "note": ""
  },
  {
   "property": "C35",
   "status": "proved",
   "theorems": [
    "C35_matching_traces_in_order",
    "C35_everything_if_there_is_room"
   ],
   "note": ""
  },
  {
   "property": "C36",
   "status": "proved",
   "theorems": [
    "C36_publish_completes",
    "C36_subscribers_are_independent"
   ],
   "note": ""
  },
  {
   "property": "C37",
   "status": "proved",
   "theorems": [
    "C37_second_stream_fails",
    "C37_stats_while_subscribed",
    "C37_stream_ends",
    "C37_programmer_error_unreachable"
   ],
   "note": ""
  },
  {
   "property": "C38",
   "status": "proved",
   "theorems": [
    "C38_streamed_exactly",
    "C38_one_event_at_a_time_then_everything",
    "C38_filters",
    "C38_finished_only"
   ],
   "note": ""
  },
  {
   "property": "C39",
   "status": "proved",
   "theorems": [
    "C33_C39_snapshots_of_every_schedule",
    "C33_C39_events_are_events_of_the_trace",
    "C39_streamed_without_stacks",
    "C39_every_call_is_followed_by_a_snapshot",
    "C39_finished_trace_is_streamed_completely",
    "C39_latest_event_is_streamed",
    "C39_each_event_once_refuted",
    "C39_finished_means_complete_refuted"
   ],
   "note": ""
  },
  {
   "property": "C40",
   "status": "proved",
   "theorems": [
    "C40_one_copy_per_call_from_finish",
    "C40_exactly_once_iff",
    "C40_copies_are_equal",
    "C40_finished_once_refuted"
   ],
   "note": ""
  },
  {
   "property": "C41",
   "status": "proved",
   "theorems": [
    "C41_active_subscribers_get_no_finished_trace"
   ],
   "note": ""
  },
  {
   "property": "C42",
   "status": "proved",
   "theorems": [
    "C42_stream_trace_of_foreign_trace",
    "C42_publishing_a_new_foreign_trace_panics",
    "C42_original_loses_stacks_refuted",
    "C42_streamed_trace_again",
    "C42_relay",
    "C42_relayed_announcement_refuted"
   ],
   "note": "Relay theorems: P_Relay.v, for every decorated or plain core trace"
  },
  {
   "property": "C43",
   "status": "proved",
   "theorems": [
    "C43_innermost_trace_wins",
    "C43_earlier_contexts_unaffected",
    "C43_get"
   ],
   "note": ""
  },
  {
   "property": "C44",
   "status": "proved",
   "theorems": [
    "C44_adds_an_event",
    "C44_new_trace"
   ],
   "note": ""
  },
  {
   "property": "C45",
   "status": "proved",
   "theorems": [
    "C45_prefixes_compose",
    "C45_stored_event",
    "C45_text",
    "C45_prefix_with_wrong_arguments_refuted",
    "C45_what_a_format_takes"
   ],
   "note": ""
  },
  {
   "property": "C46",
   "status": "proved",
   "theorems": [
    "C46_no_spare_capacity",
    "C46_texts",
    "C46_spare_capacity_overwrites",
    "C46_spare_capacity_refuted",
    "C46_shared_array_refuted"
   ],
   "note": ""
  },
  {
   "property": "C47",
   "status": "proved",
   "theorems": [
    "C47_regions_nest",
    "C47_regions_complete",
    "C47_percent_in_name_refuted",
    "C47_without_a_trace_refuted"
   ],
   "note": ""
  },
  {
   "property": "C48",
   "status": "proved",
   "theorems": [
    "C48_decorators_preserve_the_trace",
    "C48_never_panics",
    "C48_order_of_decorators",
    "C48_free",
    "C48_SetMaxEvents_refuted"
   ],
   "note": ""
  },
  {
   "property": "C49",
   "status": "proved",
   "theorems": [
    "C49_one_line_per_call",
    "C49_line_at_creation",
    "C49_number_of_lines",
    "C49_late_call_is_logged_refuted",
    "C49_extra_argument_refuted"
   ],
   "note": ""
  },
  {
   "property": "C50",
   "status": "proved",
   "theorems": [
    "C50_atomic",
    "C50_atomic_to_the_end",
    "C50_somebody_can_go_on",
    "C50_ring_buffer_linearizable",
    "C50_core_trace_linearizable"
   ],
   "note": "Generic theorem for bodies made of statements under one mutex, applied to every statement of the ring buffer's and core trace's methods. The order of Unlocks is the order of Locks. An example shows the same schedule losing a value without the mutex."
  },
  {
   "property": "C51",
   "status": "proved",
   "theorems": [
    "C51_no_deadlock",
    "C51_steps_are_progress",
    "C51_everything_can_complete",
    "C51_string_method_that_logs_refuted",
    "C51_string_method_that_logs_elsewhere_refuted",
    "C51_string_method_that_creates_refuted"
   ],
   "note": "Lock acquisition sequences of every operation, with all data-dependent repetition counts as parameters. User callbacks (String methods) are excluded from the positive theorem; three findings about them."
  },
  {
   "property": "C52",
   "status": "proved",
   "theorems": [
    "C52_middleware_records",
    "C52_trace_is_finished"
   ],
   "note": ""
  },
  {
   "property": "C53",
   "status": "proved",
   "theorems": [
    "C53_late_header_every_time",
    "C53_informational_every_time",
    "C53_recorded_and_received",
    "C53_recorded_code_is_received",
    "C53_late_header_refuted",
    "C53_header_after_flush_refuted",
    "C53_informational_refuted"
   ],
   "note": ""
  },
  {
   "property": "C54",
   "status": "proved",
   "theorems": [
    "C54_other_parameters_kept",
    "C54_filter_added_to_parameters",
    "C54_filter_roundtrip",
    "C54_stream_client_filter",
    "C54_parameters_roundtrip",
    "C54_duration_roundtrip",
    "C54_flag_false_refuted"
   ],
   "note": ""
  },
  {
   "property": "C55",
   "status": "proved",
   "theorems": [
    "C55_client_configuration_reaches_server",
    "C55_limit_in_range",
    "C55_send_buffer_in_range",
    "C55_bucketing",
    "C55_negative_bucket_refuted",
    "C55_zero_send_buffer_refuted",
    "C55_stats_interval_panics",
    "C55_stats_interval_refuted"
   ],
   "note": ""
  },
  {
   "property": "C56",
   "status": "proved",
   "theorems": [
    "C56_request_roundtrip",
    "C56_trace_roundtrip",
    "C56_response_roundtrip",
    "C56_remote_equals_local",
    "C56_problems_lost_refuted",
    "C56_invalid_text_refuted",
    "C56_negative_bucket_refuted",
    "C56_stale_query_refuted"
   ],
   "note": "JSON values, not JSON text; the time package's text format is a parameter assumed to read back what it wrote; HTTP transport, the 1 MB body limit and duration_sec (a float nothing reads back) are not modelled. A response's Request and Duration fields are covered by the round trip."
  },
  {
   "property": "C57",
   "status": "proved",
   "theorems": [
    "C57_answer_is_rendered",
    "C57_bad_request",
    "C57_searcher_error_panics",
    "C57_collector_answers"
   ],
   "note": ""
  },
  {
   "property": "C58",
   "status": "proved",
   "theorems": [
    "C58_rows",
    "C58_deltas_add_up"
   ],
   "note": ""
  },
  {
   "property": "C59",
   "status": "proved",
   "theorems": [
    "C59_content_negotiation"
   ],
   "note": ""
  },
  {
   "property": "C60",
   "status": "proved",
   "theorems": [
    "C60_initialized_configuration",
    "C60_initializing_again_changes_nothing"
   ],
   "note": ""
  },
  {
   "property": "C61",
   "status": "proved",
   "theorems": [
    "C61_truncated_to_the_precision",
    "C61_monotone",
    "C61_idempotent",
    "C61_small_and_negative_unchanged"
   ],
   "note": ""
  },
  {
   "property": "C62",
   "status": "proved",
   "theorems": [
    "C62_cut_at_first_colon",
    "C62_compact_file_line",
    "C62_never_panics",
    "C62_file_with_colon_refuted"
   ],
   "note": ""
  },
  {
   "property": "C63",
   "status": "proved",
   "theorems": [
    "C63_ids_increase",
    "C63_panics",
    "C63_zero_entropy_refuted",
    "C63_clock_back_refuted",
    "C63_after_overflow_refuted"
   ],
   "note": "The oklog/ulid package is not in /repo; its Timestamp, New, monotonic entropy and String are modelled from their documented behaviour. Traces created concurrently are ordered by their reading of the entropy source, which is under a lock; the clock is read before that."
  },
  {
   "property": "C64",
   "status": "proved",
   "theorems": [
    "C64_stream_filter",
    "C64_search_filter",
    "C64_duration_needs_finished_refuted"
   ],
   "note": ""
  },
  {
   "property": "C65",
   "status": "proved",
   "theorems": [
    "C65_rate_is_traces_per_second",
    "C65_rate_is_remembered",
    "C65_event_rate_is_remembered",
    "C65_merged_rate",
    "C65_merged_rate_refuted",
    "C65_overall_rate",
    "C65_merge_with_nothing",
    "C65_merged_event_rate",
    "C65_overall_event_rate"
   ],
   "note": "Rates as exact rationals, so rounding of float64 is not covered."
  },
  {
   "property": "C66",
   "status": "proved",
   "theorems": [
    "C66_hours_and_minutes",
    "C66_text_is_the_truncated_duration"
   ],
   "note": "For the text HumanizeDuration returns, over all of int64."
  },
  {
   "property": "C67",
   "status": "proved",
   "theorems": [
    "C67_remote_traces_in_order",
    "C67_accounting",
    "C67_everything_arrives",
    "C67_events",
    "C67_returned",
    "C67_bad_interval_holds_subscription_refuted",
    "C67_everything_can_arrive",
    "C67_can_return"
   ],
   "note": "Transition system for one connection: handler, goroutine, wire, client and an arbitrary environment on the broker; invariant proofs over all reachable states, plus two theorems that a good end can always be reached. Reconnects of the event source client are separate connections. Includes a finding (_refuted)."
  },
  {
   "property": "C68",
   "status": "proved",
   "theorems": [
    "C68_marks_in_the_text_refuted",
    "C68_event_text_is_shown",
    "C68_event_text_is_kept",
    "C68_highlighting_plain_text",
    "C68_highlighting_makes_text_html_refuted"
   ],
   "note": "The browser's side is a small reader of HTML text in S_Page.v. Includes a finding (_refuted) about highlightQuery: event text is assigned to innerHTML."
  },
  {
   "property": "C69",
   "status": "proved",
   "theorems": [
    "C69_links_select",
    "C69_overall_links_select",
    "C69_trace_links",
    "C69_plus_refuted",
    "C69_ampersand_refuted",
    "C69_hash_refuted"
   ],
   "note": "html/template's URL normalisation and escaping are modelled from the library's documentation. Includes findings (_refuted)."
  },
  {
   "property": "C70",
   "status": "proved",
   "theorems": [
    "C70_form_submits",
    "C70_form_repeats_search",
    "C70_form_forgets_refuted"
   ],
   "note": "The form as loaded, submitted without changes; the browser's form encoding is url.QueryEscape up to bytes that decode alike. Includes findings (_refuted)."
  },
  {
   "property": "C71",
   "status": "proved",
   "theorems": [
    "C71_traces_are_accounted_for",
    "C71_events_are_accounted_for",
    "C71_at_rest",
    "C71_reuse",
    "C71_lost_events_not_counted",
    "C71_lost_events_refuted",
    "C71_row_refuted",
    "C71_reuse_column",
    "C71_reuse_column_refuted",
    "C71_reuse_column_at_first"
   ],
   "note": "Counters run beside the memory machine of C16-C18. Two findings: event/text LOST counters never move (proved for all runs, with a witness); a debug row is not a snapshot (witness)."
  },
  {
   "property": "C72",
   "status": "proved",
   "theorems": [
    "C72_servers_answer",
    "C72_search_prints",
    "C72_equals_one_collector",
    "C72_addresses",
    "C72_asked",
    "C72_blank_address_refuted",
    "C72_surrounding_space"
   ],
   "note": "Composes C21, C23, C29, C31, C56 and C64: cli_search over servers reached through the JSON exchange of M_Json. url.ParseRequestURI, URL.String and replacing the path are parameters; HTTP and flag parsing are not modelled (an exchange that fails in any way is an error of the client)."
  },
  {
   "property": "C73",
   "status": "proved",
   "theorems": [
    "C73_prints_what_is_received",
    "C73_prints_nothing_else",
    "C73_output_grows",
    "C73_everything_can_be_printed",
    "C73_goes_on",
    "C73_ends",
    "C73_end_is_final",
    "C73_buffered_traces_refuted",
    "C73_gap_refuted",
    "C73_start_refuted"
   ],
   "note": "Transition system with one step per goroutine action. The reporter goroutine only writes debug output and is left out except for its NewTicker; retry timing and the connection (C67) are left out; ending is shown to be possible from every state (that it happens needs a fair scheduler)."
  },
  {
   "property": "C74",
   "status": "proved",
   "theorems": [
    "C74_table",
    "C74_links_find",
    "C74_category_overall_refuted",
    "C74_empty_refuted",
    "C74_errored_link_refuted",
    "C74_duration_link_refuted"
   ],
   "note": "Floats exact (true below 2^46); ages and rates of the row not modelled here (C65 has the rates)."
  },
  {
   "property": "C75",
   "status": "proved",
   "theorems": [
    "C75_held_traces",
    "C75_unfinished_traces",
    "C75_reads",
    "C75_walk",
    "C75_search",
    "C75_late_call_refuted"
   ],
   "note": "All in P_System.v over the heap machine of C16-C18 (pools, recycled objects, goroutines in any order) combined with the search theorems C22. C75_late_call_refuted shows the condition is needed (see C17)."
  },
  {
   "property": "C76",
   "status": "proved",
   "theorems": [
    "C76_message",
    "C76_owner_until_freed",
    "C76_recycled_refuted"
   ],
   "note": "A message is the trace as read at one moment; the real reads are several (see C33, C39), each at a moment the theorem covers."
  },
  {
   "property": "C77",
   "status": "proved",
   "theorems": [
    "C77_runs",
    "C77_no_race",
    "C77_look_refuted",
    "C77_late_use_refuted",
    "C77_frames_refuted"
   ],
   "note": "Happens-before as in the Go memory model (program order, mutexes, pool put/get, the program's own channels). C77_no_race: any orderly program, any schedule. Excluded from the theorem by hypothesis: reading the stack frames of a result after the fact, which C77_frames_refuted shows to race. The two other refutations show that the hypotheses looked_first and used_first are needed."
  },
  {
   "property": "C78",
   "status": "proved",
   "theorems": [
    "C78_shared_request_is_only_read",
    "C78_finishes",
    "C78_default_bucketing_is_never_written",
    "C78_negative_bucket_refuted",
    "C78_unnormalized_refuted"
   ],
   "note": "Every load and store of the request is a step. sort.Slice is any algorithm of comparisons and swaps that sorts and swaps nothing in a sorted slice; Go's insertion sort (used up to 12 elements) is shown to be one. The write of FRest fields does not occur in the code. A slice covers its array from the beginning. The findings are the _refuted theorems."
  },
  {
   "property": "C79",
   "status": "proved",
   "theorems": [
    "C79_bytes",
    "C79_bytes_monotone",
    "C79_rates",
    "C79_rates_monotone",
    "C79_zero",
    "C79_widths",
    "C79_four_characters_refuted",
    "C79_units_refuted"
   ],
   "note": "Floats are the rationals they are; rounding of the division by 1000 is a universally quantified function; NaN, infinities and negative zero are left out. Division by 1024 and 1048576 is exact. The findings are the _refuted theorems."
  },
  {
   "property": "C80",
   "status": "proved",
   "theorems": [
    "C80_allow_all",
    "C80_allow_all_allows_all",
    "C80_filter_text_tells",
    "C80_same_filters_look_the_same",
    "C80_request_text_tells",
    "C80_same_requests_look_the_same",
    "C80_ids_refuted",
    "C80_quotes_refuted",
    "C80_leftover_expression_refuted"
   ],
   "note": "Closed under the global context. Findings: C80_ids_refuted, C80_quotes_refuted, C80_leftover_expression_refuted."
  },
  {
   "property": "C81",
   "status": "proved",
   "theorems": [
    "C81_the_books_are_right",
    "C81_events_without_a_trace_are_lost",
    "C81_new_traces_are_collected",
    "C81_prefix_before_new_refuted",
    "C81_region_before_new_refuted",
    "C81_setters_have_no_defaults_refuted"
   ],
   "note": "Closed under the global context. A refinement of S_Easy's books (traces, calls received, views of contexts). One goroutine; the NewTrace function is trc.New or nil; decorators are log decorators. Findings: C81_prefix_before_new_refuted, C81_region_before_new_refuted, C81_setters_have_no_defaults_refuted."
  },
  {
   "property": "C82",
   "status": "proved",
   "theorems": [
    "C82_publishing_panics_exactly_if",
    "C82_closing_panics_exactly_if",
    "C82_closing_after_Stream_is_safe",
    "C82_closing_before_takes_from_others_refuted"
   ],
   "note": "exact condition for panicking publishes; simulation for polite closers; finding: others lose traces"
  },
  {
   "property": "C83",
   "status": "proved",
   "theorems": [
    "C83_highlighted",
    "C83_fractions_are_not_shown_refuted",
    "C83_links_highlight",
    "C83_overall_links_highlight"
   ],
   "note": "Exact set of highlighted cells for every search and table; composed with C69 for the links. _refuted: durations with a fraction break the rule."
  },
  {
   "property": "C84",
   "status": "proved",
   "theorems": [
    "C84_bounded",
    "C84_ten_thousand_events",
    "C84_categories_refuted"
   ],
   "note": "Invariant over every schedule of the heap machine; the bounds count traces and events, not bytes. _refuted: the number of categories grows without bound."
  },
  {
   "property": "C85",
   "status": "proved",
   "theorems": [
    "C85_provided",
    "C85_new",
    "C85_later_collector_is_ignored",
    "C85_any_schedule",
    "C85_from_then_on",
    "C85_as_a_whole",
    "C85_race_refuted",
    "C85_nil_collector_refuted"
   ],
   "note": "Invariants over every word-level schedule; _refuted: the race and the nil collector for servers with a field that is not provided."
  },
  {
   "property": "C86",
   "status": "proved",
   "theorems": [
    "C86_old_handler",
    "C86_in_order_at_most_once",
    "C86_no_duplicates",
    "C86_only_gaps_are_lost",
    "C86_gap_refuted"
   ],
   "note": "Built on the connection of C67. A session is a list of connections of one Stream; each has its own channel and handler, its broker past extends the history at which the previous one was left. C86_old_handler shows that the abandoned handler's operations are operations elsewhere for the new connection. C86_gap_refuted is a finding: what is published between two subscriptions is lost silently."
  },
  {
   "property": "C87",
   "status": "proved",
   "theorems": [
    "C87_remote_view",
    "C87_event_by_event"
   ],
   "note": "Composition of C38 (what a trace used by one goroutine publishes) and C67 (what a remote client gets of what is published)."
  },
  {
   "property": "C88",
   "status": "proved",
   "theorems": [
    "C88_calls_back_and_ends",
    "C88_traces",
    "C88_own_trace",
    "C88_unknown_events",
    "C88_goes_on",
    "C88_until_cancelled",
    "C88_connection_refuted",
    "C88_trc_server"
   ],
   "note": "The event source library is outside the model; of it is assumed that Read reports ErrClosed only after Close. C88_trc_server composes with the JSON round trip of C56. C88_connection_refuted is the finding."
  },
  {
   "property": "C89",
   "status": "proved",
   "theorems": [
    "C89_search_beside_others",
    "C89_alone",
    "C89_no_single_moment_refuted"
   ],
   "note": "Search with arbitrary steps of other goroutines between its Walks and an arbitrary look at each trace; equals M_Search when undisturbed; the finding is C89_no_single_moment_refuted."
  },
  {
   "property": "C90",
   "status": "proved",
   "theorems": [
    "C90_reads_the_grammar",
    "C90_written_reads_back",
    "C90_cut_off_is_an_error",
    "C90_outputs_read_back",
    "C90_one_value_per_line",
    "C90_request_text",
    "C90_trace_text",
    "C90_search_text",
    "C90_garbage_after_request_refuted"
   ],
   "note": "Reading is sound and complete for the grammar; writing is in the grammar; cut-off text is an error; lines; the texts of requests, traces and searches. Finding: garbage after a request."
  },
  {
   "property": "C91",
   "status": "proved",
   "theorems": [
    "C91_messages_arrive",
    "C91_any_text",
    "C91_cut_off",
    "C91_any_trace_can_be_sent",
    "C91_connection"
   ],
   "note": "The event source package is a dependency and is modelled from its documentation and source; the client's automatic reconnection is C86."
  },
  {
   "property": "C92",
   "status": "proved",
   "theorems": [
    "C92_calendar",
    "C92_read",
    "C92_written",
    "C92_times_read_back",
    "C92_trace_text",
    "C92_remote_equals_local",
    "C92_order_of_texts_refuted"
   ],
   "note": "The functions of the time package are modelled from its source, which is not in the repository. Times are instants: trc's are all in UTC, a location that is read is not kept. What the fast reader does not accept goes to the time package's general parser, an arbitrary function."
  },
  {
   "property": "C93",
   "status": "proved",
   "theorems": [
    "C93_one_line_per_call",
    "C93_line_of_an_event",
    "C93_done_is_final",
    "C93_calls_reach_the_trace",
    "C93_events_are_logged_before_done",
    "C93_started_is_first",
    "C93_log_is_lines",
    "C93_logger_entries_are_separate",
    "C93_forged_line_refuted",
    "C93_order_refuted",
    "C93_logged_but_not_stored_refuted"
   ],
   "note": "One trace with a log decorator under every interleaving of goroutines; see DESIGN.md for what a step is."
  },
  {
   "property": "C94",
   "status": "proved",
   "theorems": [
    "C94_table_percentages",
    "C94_rows",
    "C94_rows_make_up_the_whole",
    "C94_elements_in_range",
    "C94_longer_is_not_narrower",
    "C94_larger_share_is_not_narrower",
    "C94_traces_are_well_timed",
    "C94_truncated_traces_refuted",
    "C94_no_duration_refuted"
   ],
   "note": "float64 arithmetic modelled as rounding of rationals; two findings stated as general theorems"
  },
  {
   "property": "C95",
   "status": "proved",
   "theorems": [
    "C95_panics_exactly_if",
    "C95_otherwise_adds_up",
    "C95_without_null",
    "C95_client",
    "C95_client_returns_maps",
    "C95_trc_servers",
    "C95_unrelated_answer_refuted",
    "C95_arrival_decides_refuted"
   ],
   "note": "Findings: C95_unrelated_answer_refuted, C95_arrival_decides_refuted."
  },
  {
   "property": "C96",
   "status": "proved",
   "theorems": [
    "C96_one_rate",
    "C96_rate_is_per_second",
    "C96_merged_rates",
    "C96_overall_rates",
    "C96_more_is_not_lower",
    "C96_longer_is_not_higher"
   ],
   "note": "Closed under the global context. Simulation between the float64 program and the exact model of C65; monotone in the count and in the time."
  },
  {
   "property": "C97",
   "status": "proved",
   "theorems": [
    "C97_whole_page_or_error",
    "C97_nothing_of_a_failed_page",
    "C97_the_trace_tells_the_steps",
    "C97_root_breaks_every_page_refuted",
    "C97_which_template",
    "C97_local_files_told",
    "C97_json",
    "C97_json_panic_sends_nothing",
    "C97_unset_directory_refuted"
   ],
   "note": "Closed under the global context. Findings: C97_unset_directory_refuted, C97_root_breaks_every_page_refuted."
  },
  {
   "property": "C98",
   "status": "proved",
   "theorems": [
    "C98_command_runs",
    "C98_command_does_not_run",
    "C98_levels_only_add_lines",
    "C98_no_server_answers_refuted",
    "C98_search_prints_its_result"
   ],
   "note": "Closed under the global context. Finding: C98_no_server_answers_refuted."
  },
  {
   "property": "C99",
   "status": "proved",
   "theorems": [
    "C99_at_most_one_answer_each",
    "C99_one_broken_connection",
    "C99_streams_of_finished_traces",
    "C99_two_broken_connections_refuted"
   ],
   "note": ""
  },
  {
   "property": "C100",
   "status": "proved",
   "theorems": [
    "C100_search_leaves_nothing",
    "C100_search_results_never_wait",
    "C100_search_waits_for_searchers_only",
    "C100_cancelled_search_still_waits_refuted",
    "C100_client_keeps_its_goroutine",
    "C100_client_ends",
    "C100_client_left_running_refuted",
    "C100_stream_leaves_nothing",
    "C100_stream_one_call_at_a_time",
    "C100_stream_goes_on",
    "C100_stream_ends"
   ],
   "note": "Transition systems for the scatter and gather of a multi-search, for any number of calls of the stream client in one context, and for trc stream with its reporters; invariants over all reachable states, and constructed runs to the end."
  },
  {
   "property": "C101",
   "status": "proved",
   "theorems": [
    "C101_a_collector_names_its_sources",
    "C101_so_does_a_multi_search",
    "C101_renamed_refuted"
   ],
   "note": "On the easy-interface model of C81, the search model of C22 and the merging of C29; the books give every stored trace the source name, by induction over the program."
  },
  {
   "property": "C102",
   "status": "proved",
   "theorems": [
    "C102_stacks_are_shown",
    "C102_no_stack_at_start_and_end",
    "C102_no_links_unless_asked",
    "C102_editor_links",
    "C102_other_file_opened_refuted"
   ],
   "note": "Model of the page's stacks with html/template's escaping; the reader of HTML in S_Stacks is the specification."
  },
  {
   "property": "C103",
   "status": "proved",
   "theorems": [
    "C103_what_is_said_about_silence",
    "C103_connections_are_reported",
    "C103_no_false_alarm",
    "C103_false_alarm_refuted",
    "C103_interval_crashes_refuted"
   ],
   "note": "Includes two findings, proved for all intervals concerned."
  },
  {
   "property": "C104",
   "status": "proved",
   "theorems": [
    "C104_attempts_are_spaced",
    "C104_wait_after_a_failure",
    "C104_cancelled",
    "C104_never_gives_up",
    "C104_hammering_refuted"
   ],
   "note": "Includes a finding, proved for every number of attempts."
  },
  {
   "property": "C105",
   "status": "proved",
   "theorems": [
    "C105_search_flags",
    "C105_stream_flags",
    "C105_common_flags",
    "C105_refused",
    "C105_all_frames_refuted"
   ],
   "note": "Includes a finding."
  },
  {
   "property": "C106",
   "status": "proved",
   "theorems": [
    "C106_no_race",
    "C106_nobody_races",
    "C106_shared_trace_refuted",
    "C106_shared_filter_refuted",
    "C106_relay_refuted"
   ],
   "note": "Careful programs only; the two ways to be careless are refuted by witnesses."
  },
  {
   "property": "C107",
   "status": "proved",
   "theorems": [
    "C107_settled",
    "C107_no_panic",
    "C107_late_setter_refuted",
    "C107_example_refuted",
    "C107_torn_refuted",
    "C107_empty_name_refuted",
    "C107_nil_refuted"
   ],
   "note": "Includes findings."
  },
  {
   "property": "C108",
   "status": "proved",
   "theorems": [
    "C108_read",
    "C108_delete",
    "C108_write",
    "C108_errors_are_traced",
    "C108_refused_writes_refuted",
    "C108_served_api_refuted",
    "C108_categories"
   ],
   "note": "Includes findings."
  },
  {
   "property": "C109",
   "status": "proved",
   "theorems": [
    "C109_same_era",
    "C109_well_timed",
    "C109_nearest",
    "C109_same_number_of_rows",
    "C109_no_time_refuted",
    "C109_rates",
    "C109_old_rates_refuted"
   ],
   "note": "M_Saturate.v has renderEvents and the rates with the saturating subtraction of package time; C109_same_era and C109_rates reduce them to the exact models of M_Web.v and M_Rates.v; the refuted theorems are general (every trace whose only event has the zero time, every category older than 2^63 ns)."
  },
  {
   "property": "C110",
   "status": "proved",
   "theorems": [
    "C110_no_deadlock",
    "C110_nothing_stays_locked",
    "C110_Tracef",
    "C110_Errorf_refuted"
   ],
   "note": "M_Panic.v adds panics at any action to the lock machine of C51: a panicking call runs its deferred Unlocks. C110_Errorf_refuted is general: every panicking Errorf marks the trace."
  },
  {
   "property": "C111",
   "status": "proved",
   "theorems": [
    "C111_ring_buffer",
    "C111_any_sizes",
    "C111_sizes_that_can_be_had",
    "C111_size_sticks_refuted"
   ],
   "note": "Refinement of the unbounded model by the 64-bit one, for every history; the finding holds for every history."
  },
  {
   "property": "C112",
   "status": "proved",
   "theorems": [
    "C112_counts_are_those_of_the_responses",
    "C112_order",
    "C112_lines",
    "C112_errored",
    "C112_searches_end"
   ],
   "note": "For every tree of searchers and every schedule; C112_searches_end shows that the hypotheses are met for every tree."
  },
  {
   "property": "C113",
   "status": "proved",
   "theorems": [
    "C113_request_trace",
    "C113_long_request_refuted"
   ],
   "note": "C113_long_request_refuted is the finding, for every handler that logs too much."
  },
  {
   "property": "C114",
   "status": "proved",
   "theorems": [
    "C114_members",
    "C114_same_as_search",
    "C114_not_an_object",
    "C114_refused",
    "C114_default_is_used_refuted",
    "C114_told",
    "C114_told_accepts",
    "C114_told_bytes_refuted"
   ],
   "note": "Model of decoding into struct fields on top of the JSON grammar of C90; the first event of the stream is M_EventSource.init_data, read back as text (P_Told.v). Findings in C114_default_is_used_refuted, C114_members and C114_told_bytes_refuted."
  },
  {
   "property": "C115",
   "status": "proved",
   "theorems": [
    "C115_log_is_a_log",
    "C115_lines",
    "C115_reports",
    "C115_final",
    "C115_no_stats",
    "C115_long_stream_refuted",
    "C115_clean_end_refuted"
   ],
   "note": "The log runs beside the connection of C67; C115_log_is_a_log shows that it restricts nothing. Findings: C115_clean_end_refuted, C115_long_stream_refuted."
  },
  {
   "property": "C116",
   "status": "proved",
   "theorems": [
    "C116_timestamp",
    "C116_order",
    "C116_date_refuted",
    "C116_title",
    "C116_age",
    "C116_one_meaning",
    "C116_grows",
    "C116_one_second_refuted"
   ],
   "note": "Times are in UTC; Date.parse of the browser is an input that reads RFC 3339; subtraction and multiplication of integers below 2^53 are exact, the quotients are rounded as in IEEE 754."
  },
  {
   "property": "C117",
   "status": "proved",
   "theorems": [
    "C117_what_arrives",
    "C117_too_long",
    "C117_search",
    "C117_sent_request",
    "C117_long_request_refuted",
    "C117_one_megabyte",
    "C117_stream_filter",
    "C117_long_filter_refuted"
   ],
   "note": "The text of the error is an input. How the decoder fills its buffer does not matter and is left out."
  },
  {
   "property": "C118",
   "status": "proved",
   "theorems": [
    "C118_transparent",
    "C118_offers",
    "C118_hidden_refuted",
    "C118_flush_refuted",
    "C118_same_as_C52"
   ],
   "note": "General writers and handlers (M_Wrap.v); C118_same_as_C52 links the model to that of C52. Findings in C118_hidden_refuted and C118_flush_refuted, both for every such writer. Arguments and results of optional methods are texts."
  },
  {
   "property": "C119",
   "status": "proved",
   "theorems": [
    "C119_kept",
    "C119_kept_of_said",
    "C119_nothing_lost",
    "C119_finished_early_refuted",
    "C119_lost_refuted"
   ],
   "note": "C119_finished_early_refuted and C119_lost_refuted are the finding; C119_kept is the exact behaviour, C119_kept_of_said compares it with what was said."
  },
  {
   "property": "C120",
   "status": "proved",
   "theorems": [
    "C120_debug_info",
    "C120_typing",
    "C120_stacks",
    "C120_pointer",
    "C120_shown_twice_refuted",
    "C120_modifiers_refuted"
   ],
   "note": ""
  },
  {
   "property": "C121",
   "status": "proved",
   "theorems": [
    "C121_trace_of_the_command"
   ],
   "note": ""
  }
 ]
}