{"claims": [
{"property": "C01", "status": "proved", "theorems": ["C01_array_is_sequence", "C01_contents_are_observable", "C01_new_array_is_empty", "C01_copy_is_equal"], "note": "Every operation list refines the sequence specification, with size and every index observable."},
{"property": "C02", "status": "proved", "theorems": ["C02_append_stays_in_block", "C02_zero_capacity_append_refuted", "C02_copy_of_empty_then_append_refuted"], "note": "Appends stay in the block for non-zero capacity; the zero-capacity out-of-bounds store is exhibited, also through copy of an empty array."},
{"property": "C03", "status": "partial", "theorems": ["C03_handle_in_place", "C03_handle_survives_growth_refuted"], "note": "False of the code as titled: proved when growth is in place, refuted when the allocator moves the block (finding F1)."},
{"property": "C04", "status": "proved", "theorems": ["C04_foreach_visits_all_in_order", "C04_foreach_back_visits_all_in_reverse", "C04_foreach_with_remove_skips", "C04_foreach_with_remove_visits_all_refuted"], "note": "Forward and backward iteration visit exactly the elements; the skip caused by removal is characterised exactly."},
{"property": "C05", "status": "proved", "theorems": ["C05_tuple_is_immutable", "C05_freezing_keeps_contents"], "note": "All mutators raise on a frozen array and change nothing."},
{"property": "C06", "status": "proved", "theorems": ["C06_search_finds_first_occurrence", "C06_empty_pattern_is_found_at_zero", "C06_has_iff_occurs", "C06_pointer_search_finds_next_occurrence"], "note": "Position is the leftmost occurrence for texts below 2^31 bytes (the result is an int); pointer search proved to return the next occurrence with all reads in bounds."},
{"property": "C07", "status": "proved", "theorems": ["C07_split_parts_and_count", "C07_split_is_unique"], "note": "NUL-free non-empty strings, non-empty delimiter; cutting is modelled on the byte buffer with stored NULs."},
{"property": "C08", "status": "proved", "theorems": ["C08_replace_leftmost_nonoverlapping", "C08_decomposition_exists"], "note": "Result is the join of the unique leftmost non-overlapping decomposition with the replacement, and fits the allocation."},
{"property": "C09", "status": "proved", "theorems": ["C09_repeat_is_n_copies", "C09_negative_count_panics"], "note": "Doubling copy equals n-fold concatenation with checked writes; negative count panics."},
{"property": "C10", "status": "proved", "theorems": ["C10_pad_reaches_width", "C10_wide_enough_is_unchanged"], "note": "Width, position of the original text and every pad byte."},
{"property": "C11", "status": "proved", "theorems": ["C11_sort_is_ordered_permutation", "C11_sort_never_loses_elements", "C11_short_arrays_untouched"], "note": "Any length, any element type, any total preorder; permutation and memory safety even for inconsistent comparisons."},
{"property": "C12", "status": "partial", "theorems": ["C12_nonnegative_is_decimal_partial", "C12_sign_is_kept_refuted", "C12_wide_values_are_exact_refuted", "C12_copy_stays_inside_scratch_refuted"], "note": "Proved for 0 <= x < 2^31 up to the over-long copy; sign loss, 32-bit truncation and the out-of-bounds read are exhibited (findings)."},
{"property": "C13", "status": "proved", "theorems": ["C13_encode_then_decode", "C13_encoding_shape"], "note": "Sources up to 3*(2^30-1) bytes; the encoder is shown equal to RFC 4648 arithmetic and the decoder to invert it."},
{"property": "C14", "status": "partial", "theorems": ["C14_encode_fits", "C14_empty_source_is_refused", "C14_decode_fits_or_refuses", "C14_huge_source_overruns_refuted"], "note": "Proved for sources up to 3*(2^30-1) bytes and for all decoding; the 32-bit mask overrun is exhibited for longer sources."},
{"property": "C15", "status": "proved", "theorems": ["C15_bounded_copy", "C15_zero_length_writes_nothing"], "note": "Exact final buffer, terminator, and untouched tail."},
{"property": "C16", "status": "proved", "theorems": ["C16_casecmp_decides_ascii_equality"], "note": "Zero exactly on equality up to ASCII case; sign is the lexicographic order of the lower-cased strings (hence antisymmetric)."},
{"property": "C17", "status": "proved", "theorems": ["C17_queue_is_a_sequence", "C17_pool_thread_receives_all", "C17_enqueue_appends"], "note": "Operation outputs equal a double-ended sequence for every initial size and history (indices below 2^63); the pool thread's task_take receives exactly the queued tasks in order."},
{"property": "C18", "status": "partial", "theorems": ["C18_push_and_steal_are_linearizable_partial", "C18_each_task_once_partial", "C18_with_whole_takes_partial", "C18_take_gives_newest_partial", "C18_with_published_takes_partial", "C18_take_against_two_stealers_refuted"], "note": "Linearizable for one pusher and any number of stealers under every schedule (sequential consistency), also with takes that are not interrupted; takes interrupted only after publishing the bottom lose and double nothing; a take interrupted earlier can hand a task out twice (witness schedule)."},
{"property": "C19", "status": "partial", "theorems": ["C19_steal_reads_freed_block_refuted", "C19_only_stale_blocks_are_unsafe", "C19_no_growth_no_ub_partial"], "note": "False: use after free exhibited; proved that this is the only undefined behaviour and that a queue that never grows is safe."},
{"property": "C20", "status": "partial", "theorems": ["C20_take_on_drained_queue", "C20_take_on_fresh_queue_refuted"], "note": "Proved after any history with at least one push; refuted for a fresh queue of any size."},
{"property": "C21", "status": "proved", "theorems": ["C21_timer_list_refines_sorted_list", "C21_sorted_and_fired_once_per_request", "C21_one_iteration_fires_the_earliest_due_timer", "C21_one_shot_fires_at_most_once"], "note": "Refinement of the linked timer list to a sorted list for every program that repeats only from the timer's own callback; one firing per creation or repeat; never early; at most one per iteration."},
{"property": "C22", "status": "partial", "theorems": ["C22_delay_honoured_when_small", "C22_long_delay_overflows_refuted"], "note": "Proved for 0 <= ms < 2148; signed overflow exhibited for every larger delay."},
{"property": "C23", "status": "partial", "theorems": ["C23_wheel_refines_reference", "C23_reported_exactly_once_in_time", "C23_cleared_is_silent", "C23_iteration_completes", "C23_clear_in_callback_refuted", "C23_add_twice_refuted"], "note": "Refinement, timing and clearing proved for every program that obeys the rules; false when a callback touches another timeout of its group of 16, or a descriptor is registered twice."},
{"property": "C24", "status": "partial", "theorems": ["C24_long_timeout_refuted", "C24_configured_maximum_fits"], "note": "False: every timeout of more than 128 slots is reported after 128 slots. The configured maximum fits in the span."},
{"property": "C25", "status": "proved", "theorems": ["C25_summary_bits_exact", "C25_tables_fit_one_block"], "note": "Summary and descriptor bits exact after every rule-obeying program; both tables fit their block without overlap."},
{"property": "C26", "status": "partial", "theorems": ["C26_kernel_watches_registered_interest", "C26_refused_descriptor_refuted", "C26_path_watch_refuted", "C26_path_with_interest_refuted"], "note": "Proved for pollable descriptors and any program; false for descriptors the kernel refuses (no error returned) and for path watches (never passed to the kernel, or with the wrong interest)."},
{"property": "C27", "status": "proved", "theorems": ["C27_callbacks_only_for_registered", "C27_stale_event_silent_and_removed"], "note": "Every batch and callback behaviour; stale events are silent and removed."},
{"property": "C28", "status": "partial", "theorems": ["C28_count_is_number_registered", "C28_registered_twice_refuted"], "note": "Exact for programs that never register a registered descriptor; otherwise false for every number of registrations."},
{"property": "C29", "status": "proved", "theorems": ["C29_run_queue_refines_fifo"], "note": "Every list of valid queue operations refines a sequence, with both link directions."},
{"property": "C30", "status": "partial", "theorems": ["C30_enqueue_queued_task_loses_the_rest_refuted", "C30_enqueue_only_task_again_sticks_refuted"], "note": "False: everything queued behind the task is lost, and a lone task is handed out for ever (both for every queue)."},
{"property": "C31", "status": "proved", "theorems": ["C31_sleep_and_run_queue_refine_lists", "C31_sleepers_ordered_by_wake_time", "C31_wake_pass_is_exact"], "note": "Sleep and run queues modelled over shared link fields; pass removes exactly the due or halted prefix."},
{"property": "C32", "status": "partial", "theorems": ["C32_elapsed_exact_below_four_seconds", "C32_elapsed_wrong_for_longer_sleeps_refuted"], "note": "Exact below 2^32 ns; wrong for every elapsed time of at least 4.295 s."},
{"property": "C33", "status": "proved", "theorems": ["C33_every_queued_task_runs_once_per_round", "C33_tasks_run_to_completion_exactly", "C33_loop_ends_with_everything_done", "C33_loop_ends"], "note": "Tasks that spawn, yield and finish: every round runs exactly the queued tasks in order; each task runs exactly as often as it has segments; the loop ends exactly when all are finished."},
{"property": "C34", "status": "partial", "theorems": ["C34_results_refine", "C34_value_from_then_on", "C34_first_cancel_refuted", "C34_canceled_without_result_refuted"], "note": "Ids, values, growth and memory safety proved for every sequence; the first result cannot be cancelled and a task without a result asks about someone else's (refuted)."},
{"property": "C35", "status": "partial", "theorems": ["C35_distinct_ids", "C35_within_block_partial", "C35_alone_partial", "C35_use_after_free_refuted", "C35_past_end_refuted", "C35_lost_refuted"], "note": "Distinct ids always; nothing lost inside a block or with one creator; at every block boundary two threads corrupt memory or lose all results (refuted)."},
{"property": "C36", "status": "partial", "theorems": ["C36_even_distribution", "C36_futures_even", "C36_crowded_futures_refuted", "C36_growing_pool_refuted", "C36_grown_pool"], "note": "Proved for a fixed pool and any number of starts, and for one submitter of jobs; even again after a growth; false across a growth and for concurrent submitters."},
{"property": "C37", "status": "partial", "theorems": ["C37_posting", "C37_too_few_refuted"], "note": "Proved whenever at least the declared number of tasks was added; the exact condition for the crash is proved as well."},
{"property": "C38", "status": "proved", "theorems": ["C38_collects", "C38_ends", "C38_blocks"], "note": "Every group, every pattern of completion: each member collected once, after it ended; the loop ends exactly if all members end."},
{"property": "C39", "status": "partial", "theorems": ["C39_values_in_order_once_partial", "C39_open_generator_is_safe_under_every_schedule", "C39_every_value_is_delivered", "C39_only_a_returned_producer_makes_it_fail", "C39_empty_value_at_the_end_refuted", "C39_last_value_refuted"], "note": "Every schedule and any number of consumers while the producer has not returned; the call after the end uses the freed generator, and an uncollected last value is lost (both refuted, for every value list)."},
{"property": "C40", "status": "proved", "theorems": ["C40_programs_follow_structured_exceptions", "C40_every_nesting_is_covered"], "note": ""},
{"property": "C41", "status": "partial", "theorems": ["C41_conditional_handler_runs_twice_without_finally_refuted", "C41_handler_of_the_same_block_takes_it_refuted"], "note": "Accepting handlers are covered by C40_programs_follow_structured_exceptions; a handler that does not accept runs twice and finally is skipped, for every block (refuted)."},
{"property": "C42", "status": "partial", "theorems": ["C42_reverse_order_exactly_once_partial", "C42_deferred_while_unwinding_never_runs_refuted", "C42_deferred_while_unwinding_a_task_refuted", "C42_throwing_function_then_again_refuted"], "note": "Holds for every list of functions that neither throw nor (in a task) defer further; functions deferred during unwinding are lost or move the array, and unwinding after a throwing function reads freed records (refuted)."},
{"property": "C43", "status": "partial", "theorems": ["C43_released_innermost_first_partial", "C43_released_exactly", "C43_null_variable_stops_release_refuted", "C43_same_pointer_twice_stops_release_refuted", "C43_removal_across_blocks_refuted"], "note": "Exact release order for any number of usable, neighbour-wise different pointers, in any nesting (with C40); a NULL variable or repeated pointer stops the releases and removal across blocks releases the wrong ones (refuted)."},
{"property": "C44", "status": "partial", "theorems": ["C44_promise_delivers_partial", "C44_waiter_completes", "C44_wild_word_refuted"], "note": "One setter, any waiters, any schedule; sequentially consistent memory. Words above 0x20000000 that are not library arrays are dereferenced (refuted)."},
{"property": "C45", "status": "partial", "theorems": ["C45_jobs_in_order_partial", "C45_worker_drains", "C45_burst_refuted"], "note": "Order and completeness for any submitters and schedule while the job array is not moved by growth; a burst beyond its capacity can leave a freed array in use (refuted)."},
{"property": "C46", "status": "partial", "theorems": ["C46_each_once", "C46_returns", "C46_named_twice_refuted"], "note": "Every completion order, jobs pairwise different; a job named twice is freed twice (refuted)."},
{"property": "C47", "status": "partial", "theorems": ["C47_collected_once", "C47_gets_safe", "C47_get_then_wait_refuted"], "note": "Any number of collections by queue_get; queue_wait after queue_get frees the job twice (refuted)."},
{"property": "C48", "status": "partial", "theorems": ["C48_handles_unique_partial", "C48_refused_only_when_full", "C48_growth_ends", "C48_growth_keeps", "C48_child_process_number_closed_refuted", "C48_unattached_never_freed_refuted", "C48_closed_twice_refuted", "C48_full_table_not_grown_refuted"], "note": "Uniqueness, completeness, growth and the exact closes for every sequence; child close, unattached handles, self-handles and full tables are refuted."},
{"property": "C49", "status": "partial", "theorems": ["C49_last_registered_is_called_partial", "C49_removal_elsewhere_is_ignored_refuted", "C49_removed_twice_refuted", "C49_throwing_callback_refuted", "C49_registered_twice_count_refuted", "C49_table_fills_with_dead_entries_refuted"], "note": "Every delivery calls the last registered callback, for all programs removing signals from their own callbacks; removal from anywhere else, throwing callbacks and double registration break it (refutations)."},
{"property": "C50", "status": "partial", "theorems": ["C50_each_record_delivered_partial", "C50_self_changes_lost_refuted", "C50_next_never_follows_refuted", "C50_long_path_cut_refuted"], "note": "Every buffer of well-formed records; self-changes are lost and inotify_next is broken (refuted)."},
{"property": "C51", "status": "partial", "theorems": ["C51_in_order_partial", "C51_all_sent", "C51_count_lost_refuted", "C51_beyond_buffer"], "note": "Order and completeness proved for every pattern of partial writes; the returned count is lost when an error follows a partial transfer."},
{"property": "C52", "status": "proved", "theorems": ["C52_success_equal", "C52_failure_prefix", "C52_completes"], "note": "Equal contents on success for every pattern of short reads, short writes and interruptions; failure leaves a prefix; no overwrite."},
{"property": "C53", "status": "proved", "theorems": ["C53_deadline_exact", "C53_sleep_exact"], "note": "Every time up to 2^62 seconds, every size_t millisecond count; every 32-bit sleep."},
{"property": "C54", "status": "partial", "theorems": ["C54_found_partial", "C54_not_found", "C54_cases_exhaustive", "C54_positional", "C54_last_flag_refuted", "C54_value_cut_refuted", "C54_fragment_hides_refuted", "C54_first_setting", "C54_help_words"], "note": "Exact characterisation for every argument vector (found and not found, exhaustive); false as wished: flag in last place gives NULL, text after a second = is cut, any fragment of the help text hides later flags."},
{"property": "C55", "status": "partial", "theorems": ["C55_stays_inside", "C55_components", "C55_public_call_partial", "C55_dotless_host_refuted", "C55_scheme_fragment_refuted", "C55_port_junk_refuted"], "note": "Memory safety for every text and exact components for every well-formed URI, any lengths; the public call refuses dotless hosts, accepts scheme fragments and ignores text after a port (refuted)."},
{"property": "C56", "status": "partial", "theorems": ["C56_quad_and_port_partial", "C56_name_and_port_partial", "C56_bare_port_refuted", "C56_address_lost_refuted", "C56_number_first_refuted", "C56_big_port_refuted", "C56_big_octet_refuted", "C56_quad_in_general_partial", "C56_huge_number_is_undefined", "C56_v6_and_port_partial", "C56_long_v6_is_refused", "C56_name_in_general_partial", "C56_name_without_port_fails", "C56_name_with_junk_port_fails", "C56_unix_path", "C56_other_text_fails", "C56_number_text_refuted", "C56_zero_text_partial"], "note": "Every form (quad, bracketed v6, name, unix path, junk) characterised for all texts and resolver answers; false for bare ports, addresses without port, octets above 255, ports above 65535; signs are accepted and huge numbers undefined."},
{"property": "C57", "status": "partial", "theorems": ["C57_reads_back_partial", "C57_effect", "C57_old_tail_refuted", "C57_empty_refuted", "C57_fd0_refuted", "C57_close_failure_reported"], "note": "Exact effect proved; false for longer old contents, the empty text (reads back as NULL) and descriptor 0."},
{"property": "C58", "status": "partial", "theorems": ["C58_all_or_nothing", "C58_calls_installed_partial", "C58_free_keeps_errno", "C58_startup_replaces_refuted"], "note": "All-or-nothing, routing and errno proved for any history; false across start-up, which silently installs the built-in allocator."},
{"property": "C59", "status": "partial", "theorems": ["C59_history_balanced_partial", "C59_init_twice", "C59_deinit_twice", "C59_platform_init_twice", "C59_failed_start_refuted", "C59_failed_table_refuted"], "note": "Idempotence proved from any state, balance proved for all histories without an allocation failure inside the operating-system layer; false after failed start-ups."},
{"property": "C60", "status": "partial", "theorems": ["C60_inside", "C60_huge_size_refuted"], "note": "Proved for every block that fits the address space; false when size + page + line wraps round 2^64."},
{"property": "C61", "status": "partial", "theorems": ["C61_trim_strips_both_ends", "C61_every_string_is_blank_or_has_core", "C61_trim_of_blank_reads_before_buffer_refuted"], "note": "Proved for strings with a non-blank; blank strings are shown to read before the buffer (finding)."},
{"property": "C62", "status": "partial", "theorems": ["C62_either_mixes_positions", "C62_either_means_one_of_them_refuted"], "note": "False of the code: exact behaviour proved, intended meaning refuted."},
{"property": "C63", "status": "partial", "theorems": ["C63_argv_join_with_history", "C63_first_join_is_right", "C63_second_join_is_right_refuted"], "note": "First call proved; exact result for any buffer history proved; independence of history refuted."},
{"property": "C64", "status": "proved", "theorems": ["C64_bounded_case_equality"], "note": "Exact characterisation for every len."},
{"property": "C65", "status": "partial", "theorems": ["C65_two_spawners_lose_a_task_refuted"], "note": "False of the code: two concurrent spawners lose a task (witness schedule); one spawner is covered by C18."},
{"property": "C66", "status": "partial", "theorems": ["C66_equal_due_times_fire_newest_first_refuted"], "note": "False: a new timer fires before every pending one with the same due time."},
{"property": "C67", "status": "partial", "theorems": ["C67_repeat_then_clear_in_callback_uses_freed_timer_refuted", "C67_repeat_of_a_pending_timer_loses_timers_refuted", "C67_forgotten_repeat_keeps_loop_counted_refuted"], "note": "False without the rules of C21: use after free, lost timers and a permanently counted timer are exhibited; C21 proves safety under the rules."},
{"property": "C68", "status": "partial", "theorems": ["C68_attached_waiter_is_woken_again_refuted", "C68_stale_attachment_corrupts_sleep_queue_refuted"], "note": "False: the sleeping task's attachment is never cleared (the waiter's own field is), so the waiter is re-queued on each later wake."},
{"property": "C69", "status": "partial", "theorems": ["C69_zero_maximum_means_zero_slots", "C69_timeout_divides_by_zero_refuted", "C69_loop_never_returns_refuted"], "note": "False: with a maximum of 0 every timeout divides by zero and timeout handling never ends."},
{"property": "C70", "status": "partial", "theorems": ["C70_hangup_shows_read_and_timeout_refuted", "C70_error_only_spins_refuted", "C70_path_event_drops_batch_refuted"], "note": "False: hangup shows the read and timeout bits; an error-only event is swallowed and repeats for ever; a path event drops the rest of the batch."},
{"property": "C71", "status": "partial", "theorems": ["C71_socket_timeout_exact_partial", "C71_socket_timeout_refuted"], "note": "Exact up to 2147483 ms either way; signed overflow for every larger timeout."},
{"property": "C72", "status": "partial", "theorems": ["C72_single_pool_partial", "C72_legal_program", "C72_leaks_refuted", "C72_other_source_refuted"], "note": "Proved for one worker and descriptors from the library's own open; false for every larger pool and for descriptors from elsewhere."},
{"property": "C73", "status": "partial", "theorems": ["C73_one_watch", "C73_full_table_refuted", "C73_own_number_partial", "C73_directory_known_partial", "C73_watch_number_collides_refuted"], "note": "Proved for watch numbers free in the table; refuted on collision with the notification descriptor and for a full table."},
{"property": "C74", "status": "partial", "theorems": ["C74_one_task_partial", "C74_never_completes_refuted", "C74_use_after_free_refuted"], "note": "Holds for one posted task; with two or more the thread never completes its wait and reads freed memory (a stale loop variable)."},
{"property": "C75", "status": "partial", "theorems": ["C75_go_partial", "C75_go_in_group_refuted"], "note": "Holds outside wait groups; inside one an unwritten thread number is used as an index."},
{"property": "C76", "status": "partial", "theorems": ["C76_worker_first_partial", "C76_freed_early_refuted"], "note": "Holds when the worker ends first; the owner may free the job before the worker's last use (refuted)."},
{"property": "C77", "status": "partial", "theorems": ["C77_first_collection_drops_tasks_refuted", "C77_first_collection_starves_the_collector_refuted"], "note": "False: tasks queued after the generator are lost, and a lone generator starves its collector (both for every queue)."},
{"property": "C78", "status": "partial", "theorems": ["C78_break_skips_finally_refuted", "C78_next_throw_jumps_to_a_dead_block_refuted"], "note": "False for every block: finally is skipped and the next throw jumps to a dead block."},
{"property": "C79", "status": "partial", "theorems": ["C79_normal_end_runs_deferred", "C79_recovered_exception_ends_the_block_partial", "C79_escaping_exception_refuted", "C79_recovery_with_fenced_memory_refuted"], "note": "Holds on normal end and for recovered exceptions; an escaping exception uses the freed guard, and fenced memory defeats recovery (refuted)."},
{"property": "C80", "status": "partial", "theorems": ["C80_fenced_memory_in_a_try_block_refuted"], "note": "False: the first word of the memory is released instead."},
{"property": "C81", "status": "partial", "theorems": ["C81_range_partial", "C81_backwards_refuted", "C81_wide_range_overflows_refuted", "C81_characters", "C81_steps_count", "C81_steps_partial", "C81_long_steps_refuted", "C81_zero_step_refuted", "C81_downward_step_refuted", "C81_last_step_overflows_refuted", "C81_append_partial", "C81_append_moved_refuted"], "note": "Exact contents for every upward range and every text, and for stepped ranges that fit the first block; backward, very wide, zero-step, downward and long moved ranges are refuted."},
{"property": "C82", "status": "partial", "theorems": ["C82_explode_partial", "C82_single_part_refuted", "C82_many_parts_refuted", "C82_empty_delimiter_refuted"], "note": "Exact for two or more parts that fit the first block (or grow in place); one part, moved growth and empty delimiters are refuted."},
{"property": "C83", "status": "partial", "theorems": ["C83_binary_split", "C83_binary_split_strings", "C83_empty_delimiter_refuted"], "note": "Exact for every byte sequence and non-empty delimiter; an empty delimiter never ends (refuted)."},
{"property": "C84", "status": "proved", "theorems": ["C84_concatenation", "C84_upper", "C84_lower"], "note": ""},
{"property": "C85", "status": "partial", "theorems": ["C85_host_port_partial", "C85_scheme_host_port_partial", "C85_quad_is_long_enough", "C85_name_port_partial", "C85_scheme_name_partial", "C85_bare_address_partial", "C85_too_few_parts", "C85_not_autofree_refuted", "C85_scheme_not_autofree_refuted", "C85_bare_not_autofree_refuted", "C85_short_host_refuted", "C85_short_name_refuted", "C85_wild_pointer_refuted", "C85_wild_short_refuted", "C85_bracket_cuts_caller_refuted", "C85_trailing_text_refuted", "C85_unwritten_bytes_refuted", "C85_empty_text_refuted", "C85_bad_part_refused", "C85_negative_port_refuted"], "note": "Exact results for every accepted and refused form with autofree; the use after free, lost ports, wild pointers, cut caller texts, unwritten bytes and accepted junk are refuted."},
{"property": "C86", "status": "partial", "theorems": ["C86_path_partial", "C86_two_components", "C86_in_root", "C86_no_directory_refuted", "C86_trailing_slash_refuted"], "note": "Exact for every path with a directory and a plain file name; lone files and trailing slashes are refuted."},
{"property": "C87", "status": "partial", "theorems": ["C87_peek_partial", "C87_outside", "C87_removed_refuted", "C87_past_end_refuted"], "note": "Exact while nothing was removed and for indices outside; removed tasks and the index one past the end are refuted."},
{"property": "C88", "status": "partial", "theorems": ["C88_kernel_follows_partial", "C88_change_list_in_bounds", "C88_both_directions_refuted", "C88_widening_stops_writing_refuted", "C88_deleted_stays_watched_refuted", "C88_registered_again_refuted", "C88_path_watch_refuted", "C88_twice_loses_another_refuted"], "note": "Exact for every lawful program (one direction at a time, no path watch, descriptors new when registered); the excluded cases are refuted; the change list is in bounds from any state."},
{"property": "C89", "status": "partial", "theorems": ["C89_callbacks_partial", "C89_hangup_never_told_refuted", "C89_writer_told_nothing_refuted"], "note": "Exact callbacks for every lawful program; the end of a stream is never told (refuted for every program)."},
{"property": "C90", "status": "partial", "theorems": ["C90_block_holds_request", "C90_calloc_holds_request", "C90_stays_large_enough", "C90_usable_is_own", "C90_wraps_refuted", "C90_calloc_refuted", "C90_pages_refuted"], "note": "Every block of up to 8 TiB holds its request after any history; wrapping sizes, wrapping products and page counts above 32 bits are refuted. Calls are atomic."},
{"property": "C91", "status": "proved", "theorems": ["C91_live_blocks_apart", "C91_free_blocks_apart"], "note": "Blocks in use and free-list links are pairwise disjoint after any sequence of allocations, reallocations and frees by any thread. Calls are atomic."},
{"property": "C92", "status": "partial", "theorems": ["C92_aligned_up_to_page", "C92_aligned_above_page", "C92_above_page_succeeds", "C92_bad_alignment_refused", "C92_odd_alignment_refuted"], "note": "Alignments that are powers of two are honoured up to 32 KiB and larger ones refused; other alignments up to a page are refuted."},
{"property": "C93", "status": "proved", "theorems": ["C93_realloc_keeps_bytes", "C93_alloc_keeps_others", "C93_free_keeps_others"], "note": "For sizes up to 2^62 and blocks of up to 8 TiB, after any history; calls are atomic."},
{"property": "C94", "status": "partial", "theorems": ["C94_arguments", "C94_arguments_any", "C94_no_arguments_refuted", "C94_environment", "C94_environment_alone_refuted", "C94_addenv", "C94_addenv_long_refuted", "C94_addenv_end_refuted", "C94_addenv_pieces"], "note": "Arguments and environments are the pieces of their texts; the extra empty argument, the dropped environments, long pairs and the missing end of exec_addenv's text are refuted."},
{"property": "C95", "status": "partial", "theorems": ["C95_wait_partial", "C95_handles_differ", "C95_wait_others", "C95_closes_pid_refuted", "C95_failed_start_refuted", "C95_timeout_refuted"], "note": "Exact answers for every handle after any history; timeouts, failed starts and the closed process id are refuted. vfork and waitid are oracles."},
{"property": "C96", "status": "partial", "theorems": ["C96_spawn_end_partial", "C96_error_pipe_refuted", "C96_unwatched_refuted", "C96_unstarted_refuted"], "note": "One callback with the way of ending and closed pipes; the error pipe, failed watching and failed starts are refuted."},
{"property": "C97", "status": "partial", "theorems": ["C97_redirect_partial", "C97_spawn_pipes", "C97_crossed_refuted"], "note": "Streams above descriptor 2 as asked; errors to the starter's output are refuted."},
{"property": "C98", "status": "partial", "theorems": ["C98_output_partial", "C98_last_output_refuted", "C98_full_pipe_refuted"], "note": "In order and once; the last output and a full pipe are refuted. Capacity counted in bytes."},
{"property": "C99", "status": "partial", "theorems": ["C99_socket_failed_partial", "C99_socket_failed_refuted", "C99_socket_ready", "C99_bind_failed", "C99_bind_ready_partial", "C99_bind_listens_refuted", "C99_bind_six_refuted", "C99_connect_failed", "C99_connect_ready"], "note": "Every combination of results; the leak, the ignored listen and IPv6 binding are refuted."},
{"property": "C100", "status": "partial", "theorems": ["C100_names_partial", "C100_names_refuted"], "note": "Paths up to 106 bytes; longer ones refuted."},
{"property": "C101", "status": "partial", "theorems": ["C101_packets_partial", "C101_sendto", "C101_sender_refuted", "C101_server_refuted", "C101_message_refuted", "C101_message_once", "C101_empty_refuted", "C101_long_refuted"], "note": "Every use that keeps to the last packet of each descriptor; use of earlier packets, handlers that end early, empty and long datagrams are refuted."},
{"property": "C102", "status": "partial", "theorems": ["C102_kind_partial", "C102_stale_refuted", "C102_freed_refuted"], "note": "While opening tasks go on and accepted numbers were no local sockets; both exceptions refuted."},
{"property": "C103", "status": "proved", "theorems": ["C103_clean", "C103_bad_port", "C103_two_slashes", "C103_host_port", "C103_scheme_only", "C103_file", "C103_file_drive", "C103_path_alone", "C103_transport"], "note": "Clean components and a 16-bit port for every text; refused ports; the forms without a scheme with a port, the two file forms, a scheme alone, and the exact choice of the transport, any lengths."},
{"property": "C104", "status": "partial", "theorems": ["C104_refines", "C104_woken_task_runs", "C104_quiet_task_waits", "C104_loop_goes_on", "C104_report_kept", "C104_second_waiter_refuted", "C104_bad_wait_refuted", "C104_closed_refuted", "C104_error_refuted"], "note": "All programs and reports where each descriptor has one waiter; two waiters for one descriptor, bad arguments, closed descriptors and bare errors are refuted."},
{"property": "C105", "status": "partial", "theorems": ["C105_accept_partial", "C105_accept_fails_partial", "C105_accept_no_session_partial", "C105_dial_partial", "C105_dial_refused_partial", "C105_bind_partial", "C105_accept_error_refuted", "C105_dial_error_refuted", "C105_dial_no_context_refuted", "C105_dial_not_configured_refuted", "C105_hangup_refuted", "C105_stale_refuted", "C105_plain_listener_refuted"], "note": "All handshakes whose waits end in plain readiness or in failure; error paths that read a freed session or entry -1, hang-ups with data, stale readiness and listeners without TLS are refuted. libtls is given by its answers."},
{"property": "C106", "status": "partial", "theorems": ["C106_reads_partial", "C106_read_partial", "C106_read_end_partial", "C106_read_fails_partial", "C106_writes_partial", "C106_send_all_partial", "C106_write_partial", "C106_write_fails_partial", "C106_write_text_partial", "C106_hangup_refuted"], "note": "All sequences of reads and writes and all answers; data arriving together with a hang-up is refuted. Plain descriptors are covered by C51."},
{"property": "C107", "status": "partial", "theorems": ["C107_owned_partial", "C107_step_partial", "C107_accept_partial", "C107_dial_partial", "C107_bind_partial", "C107_secure_partial", "C107_close_all_partial", "C107_closer_partial", "C107_plain_close_refuted", "C107_double_close_refuted", "C107_bind_twice_refuted", "C107_dial_leak_refuted", "C107_bind_leak_refuted"], "note": "All histories without plain closes of secure descriptors and without the failing dials whose message reads a freed session; those, double closes and leaks on failed configuration are refuted. Other tasks do not touch a descriptor while one waits for it."},
{"property": "C108", "status": "proved", "theorems": ["C108_exclusion", "C108_serial", "C108_serial_inside", "C108_safe", "C108_wrong", "C108_progress", "C108_starvation_refuted", "C108_held_refuted"], "note": "Any number of threads and any sections under one lock, sequentially consistent; unfairness towards a single thread and locks that stay held are shown separately."},
{"property": "C109", "status": "partial", "theorems": ["C109_appends_partial", "C109_appends_all_partial", "C109_moved_refuted", "C109_two_locks_refuted"], "note": "All interleavings when the array has room or grows in place; a block that moves and an array under two locks are refuted."},
{"property": "C110", "status": "proved", "theorems": ["C110_safe", "C110_callers", "C110_lock", "C110_lock_ends", "C110_accounted", "C110_handed_back_once"], "note": "One span with any number of blocks, threads and calls; sequentially consistent accesses, fixed owner, the end of the owner's thread left out."},
{"property": "C111", "status": "partial", "theorems": ["C111_found_again_partial", "C111_given_back_refuted"], "note": "The run can always be found again; that it is handed back once empty is refuted with a run of two blocks."},
{"property": "C112", "status": "proved", "theorems": ["C112_map", "C112_balanced"], "note": "All programs over the tree; the loops of the code run within twice the logarithm of the number of operations."},
{"property": "C113", "status": "proved", "theorems": ["C113_port"], "note": "All histories; sections under the port's lock are single steps, the device and kernel are arbitrary but honest about events and closing."},
{"property": "C114", "status": "partial", "theorems": ["C114_no_lost_event_partial", "C114_time_out_partial", "C114_lost_event_refuted", "C114_one_socket_blocks_refuted", "C114_time_out_refuted"], "note": "Proved while the device accepts every poll and cancellation; with a refusing device refuted three times (event lost after a successful registration, one socket blocks all waits, time-out reported as error)."},
{"property": "C115", "status": "proved", "theorems": ["C115_groups"], "note": "Counts, limit and number of handles over all histories."},
{"property": "C116", "status": "partial", "theorems": ["C116_delete_partial", "C116_kernel_still_writes_refuted"], "note": "Everything is freed once and the assertions hold; that the kernel is done with the memory is refuted."},
{"property": "C117", "status": "partial", "theorems": ["C117_lifetime_partial", "C117_close_ends_partial", "C117_signal_met_partial", "C117_nothing_left_partial", "C117_device_refuted", "C117_other_port_refuted"], "note": "Proved for all interleavings in which no device is opened for a port being closed and the handle a wait has read was not given to another port before it is used; both exceptions refuted by runs."},
{"property": "C118", "status": "partial", "theorems": ["C118_wait_partial", "C118_no_wait_partial", "C118_told_partial", "C118_endless_partial", "C118_no_time_partial", "C118_nanoseconds_refuted", "C118_seconds_refuted"], "note": "The waiting loop is proved; the conversion of seconds and nanoseconds is refuted, with the exact set of values for which it is right."},
{"property": "C119", "status": "partial", "theorems": ["C119_history", "C119_answer", "C119_heap", "C119_no_heap_refuted"], "note": "Proved for all histories in which requests come from threads that have a heap; a first request without memory for the heap is refuted (null pointer read). Calls run one after another."},
{"property": "C120", "status": "proved", "theorems": ["C120_all_returned"], "note": ""},
{"property": "C121", "status": "proved", "theorems": ["C121_again"], "note": ""},
{"property": "C122", "status": "partial", "theorems": ["C122_read_at", "C122_read_works", "C122_read_changes_nothing", "C122_write_at", "C122_write_works", "C122_failed_read_moves_refuted", "C122_failed_write_moves_refuted", "C122_failed_write_wrote_refuted", "C122_far_descriptor_refuted"], "note": "Successful calls are proved in full; failed calls that move the position or that wrote, and positions beyond 32 bits, are refuted."},
{"property": "C123", "status": "partial", "theorems": ["C123_sent", "C123_any_answers", "C123_returns", "C123_offset_not_moved_refuted", "C123_short_write_loses_refuted", "C123_late_failure_refuted", "C123_null_offset_refuted"], "note": "What is delivered is proved for whole writes and described exactly for all answers; the offset variable, short writes, late failures and a null offset are refuted."},
{"property": "C124", "status": "partial", "theorems": ["C124_directory", "C124_every_path_has_parts", "C124_drive", "C124_leading_backslash_refuted", "C124_drive_alone_refuted", "C124_empty"], "note": "Proved for all paths except those that start with a backslash and have the root as answer (out-of-bounds read, refuted) and a drive alone (refuted)."},
{"property": "C125", "status": "partial", "theorems": ["C125_last_name", "C125_has_a_last_name", "C125_characters", "C125_drive", "C125_returns", "C125_stream_cut_refuted"], "note": "Exact for single-byte encodings and paths without a colon in the second place of a component (those are refuted); termination for all encodings."},
{"property": "C126", "status": "partial", "theorems": ["C126_pair", "C126_failure_leaves_nothing", "C126_listener_closed_twice_refuted", "C126_error_hidden_refuted", "C126_pipe_outside_array_refuted", "C126_pipe_narrow"], "note": "Success and absence of leaks proved; the double close, the hidden error and the pipe outside its array are refuted."},
{"property": "C127", "status": "partial", "theorems": ["C127_access", "C127_read_write", "C127_read_only_refuted", "C127_disposition", "C127_create_truncates_refuted", "C127_truncate_fails_refuted", "C127_exclusive_truncates_refuted", "C127_which_call", "C127_crt_flags"], "note": "The translation is described exactly; reading, creating and truncating are refuted, with the exact set of flags that work."},
{"property": "C128", "status": "partial", "theorems": ["C128_numbers_reach_their_objects", "C128_files_apart", "C128_defined_in_reach", "C128_growth_ends", "C128_standard_output_taken_refuted", "C128_far_number_refuted", "C128_failed_open_refuted", "C128_far_handle_refuted", "C128_idle_write_refuted", "C128_same_number_refuted", "C128_without_table_refuted", "C128_after_shutdown_refuted"], "note": "Proved for all runs in which no number in use is handed out again by another source; the collisions, out-of-bounds lookups, failed opens, idle writes and calls without a table are refuted."},
{"property": "C129", "status": "partial", "theorems": ["C129_closed_once", "C129_client_never_closed_refuted", "C129_accepted_closed_twice_refuted", "C129_pipe_lost_refuted", "C129_events_left_refuted", "C129_shutdown_closes_nothing_refuted"], "note": "Proved for files and pipes as long as no process opens its own pipe; event objects, clients' ends, own pipes, a full table and the shutdown are refuted."},
{"property": "C130", "status": "partial", "theorems": ["C130_first_notice", "C130_single_walk", "C130_rest_lost_refuted", "C130_next_misplaced_refuted", "C130_walk_outside_refuted", "C130_longer_name_before_refuted"], "note": "The first notice of a buffer is proved; the following ones, the step to the next one and names after longer names are refuted."},
{"property": "C131", "status": "partial", "theorems": ["C131_added", "C131_counted", "C131_entry_removed", "C131_taken_from_loop", "C131_still_watched_refuted", "C131_all_removed_refuted", "C131_freed_buffer_read_into_refuted", "C131_directory_of_last_watch_refuted"], "note": "Additions, counts and the list are proved; removals and the reported directory are refuted."},
{"property": "C132", "status": "partial", "theorems": ["C132_as_asked_partial", "C132_large_read_refuted", "C132_large_send_refuted", "C132_bytes_before_refuted", "C132_many_items_refuted", "C132_mkdir_mode_refuted"], "note": "Proved for results that are small or have no array in front of them and counts that fit an int; refuted beyond."},
{"property": "C133", "status": "partial", "theorems": ["C133_numbers_partial", "C133_pointers_partial", "C133_end_of_file_refuted", "C133_freed_arguments_refuted", "C133_closing_refuted"], "note": "Numbers are right if freed memory stays as it was; NULL and the use of freed arguments are refuted."},
{"property": "C134", "status": "partial", "theorems": ["C134_handler_first_partial", "C134_caller_first_refuted", "C134_other_failures_refuted", "C134_ended_refuted", "C134_success_keeps"], "note": "Holds when the handler looks first; refuted otherwise, for failures other than -1 and after the end of the caller."},
{"property": "C135", "status": "partial", "theorems": ["C135_latest_partial", "C135_start", "C135_default_partial", "C135_default_pipe_refuted", "C135_full_refuted", "C135_setup_late_refuted", "C135_setup_again_refuted"], "note": "Proved for up to 32 different signals with the set-up counted only at the start and after a reset; SIGPIPE, the full table and the set-up flag are refuted."},
{"property": "C136", "status": "proved", "theorems": ["C136_lists", "C136_step"], "note": "Full refinement to lists."},
{"property": "C137", "status": "partial", "theorems": ["C137_values", "C137_defined", "C137_answers_partial", "C137_error_partial", "C137_errno_partial", "C137_error_missed_refuted", "C137_error_once_refuted", "C137_error_of_another_refuted", "C137_error_wiped_refuted", "C137_done_partial", "C137_wait_never_ends_refuted", "C137_rest_of_array_lost_refuted", "C137_empty_array_refuted"], "note": "Values are right in all interleavings; errors only when the thread has exited and the scope was quiet since. The other cases are refuted."},
{"property": "C138", "status": "partial", "theorems": ["C138_stop", "C138_counted", "C138_goes_on_partial", "C138_stopped_ends", "C138_others_end_refuted", "C138_newer_closed_refuted", "C138_last_handler_refuted", "C138_cannot_watch_refuted", "C138_loop_never_ends_refuted"], "note": "Ids, counts and the end of a stopped task are proved; independence of watches, end of the loop and refusal are refuted."},
{"property": "C139", "status": "partial", "theorems": ["C139_entered_partial", "C139_single_freed_partial", "C139_every_second_kept_refuted", "C139_old_directory_reported_refuted", "C139_removed", "C139_not_a_watch"], "note": "Entering, removing one watch and closing with a single directory are proved; closing with several is refuted."},
{"property": "C140", "status": "partial", "theorems": ["C140_line_partial", "C140_line_with_extension_partial", "C140_no_arguments", "C140_commas_in_name_refuted", "C140_spaces_in_argument_refuted", "C140_long_name_refuted", "C140_environment_partial", "C140_environment_empty_place", "C140_environment_odd_refuted", "C140_single_variable_refuted"], "note": "Names without commas, short, and environments of even length or closed by a semicolon are proved; the other cases are refuted."},
{"property": "C141", "status": "partial", "theorems": ["C141_output_partial", "C141_lengths", "C141_overwritten_refuted", "C141_end_told_once", "C141_end_noticed", "C141_last_output_refuted", "C141_read_after_end_refuted", "C141_unstarted_refuted"], "note": "Order and lengths are proved, contents while the loop keeps step; the other cases are refuted."},
{"property": "C142", "status": "proved", "theorems": ["C142_runs_never_overlap", "C142_every_step_is_safe", "C142_unmapped_is_mapped"], "note": "All settings, all sequences of operations; each call is one step."},
{"property": "C143", "status": "partial", "theorems": ["C143_caches_fit", "C143_exit_hands_over", "C143_nothing_forgotten_partial", "C143_finalize_gives_all_back_partial", "C143_finalize_gives_all_back_refuted"], "note": "Bounds and thread ends for all settings; nothing forgotten and all given back with at most 64 spans mapped at once or without a small global reserve left; the rest is refuted."},
{"property": "C144", "status": "partial", "theorems": ["C144_recorded_partial", "C144_kind", "C144_paths", "C144_course_partial", "C144_added_refuted", "C144_no_file_refuted", "C144_last_removed_refuted", "C144_unopened_refuted", "C144_short_lived_refuted", "C144_reordered_refuted", "C144_long_name_refuted"], "note": "Changes and removals told in order for any course; additions, events without a changed file, the last file after a removal and names of 255 bytes are refuted."},
{"property": "C145", "status": "partial", "theorems": ["C145_changed_partial", "C145_removed_partial", "C145_always_modified_refuted", "C145_added_refuted", "C145_last_removed_refuted", "C145_buffer_overrun_refuted"], "note": "Changes and removals; the kind modified, additions, the last file after an earlier change and the buffer bound are refuted."},
{"property": "C146", "status": "partial", "theorems": ["C146_made", "C146_remove_one", "C146_remove_unknown", "C146_close_one_partial", "C146_close_leaves_refuted", "C146_close_every_second_refuted", "C146_loop_queue_closed_refuted", "C146_queue_is_the_loops", "C146_blocking_close_refuted"], "note": "Removing one watch of a loop proved; closing is right for one watch only and closes the loop's queue (refuted)."},
{"property": "C147", "status": "proved", "theorems": ["C147_sysv_tasks_resume_where_they_left", "C147_i386_tasks_resume_where_they_left", "C147_win64_tasks_resume_where_they_left", "C147_aarch64_tasks_resume_where_they_left"], "note": ""},
{"property": "C148", "status": "partial", "theorems": ["C148_sysv_writes_only_the_register_area", "C148_i386_writes_only_the_register_area", "C148_win64_writes_only_the_register_area", "C148_aarch64_writes_only_the_register_area", "C148_windows_aarch64_overwrites_fields_refuted", "C148_windows_aarch64_loses_the_magic_number_refuted", "C148_a_switch_to_oneself_is_a_return"], "note": "Windows AArch64 writes two fields past the area (refuted)."},
{"property": "C149", "status": "partial", "theorems": ["C149_sysv_start", "C149_i386_start", "C149_win64_start", "C149_end_of_a_task_misaligned_refuted", "C149_aarch64_start"], "note": "The start is proved; the frame of the finishing function is refuted on amd64 and i386."},
{"property": "C150", "status": "partial", "theorems": ["C150_room", "C150_room_other_ways", "C150_within", "C150_room_other_ways_refuted", "C150_huge_request_refuted", "C150_monotone_refuted"], "note": "Proved for assembly builds and sizes that do not wrap; the other builds, huge sizes and monotony are refuted."},
{"property": "C151", "status": "partial", "theorems": ["C151_within", "C151_passed", "C151_stopped", "C151_overrun_seen_refuted", "C151_stays_in_block_refuted"], "note": "What a passed check means is proved; overruns that stay short of the mark are refuted."},
{"property": "C152", "status": "partial", "theorems": ["C152_in_turn", "C152_any_order", "C152_two_threads_killed_refuted", "C152_two_threads_handler_refuted", "C152_two_threads_user_refuted", "C152_blocked_refuted", "C152_alternate_stack_refuted"], "note": "Proved for tasks made one after the other; overlapping creations, blocked signal and failing sigaction refuted."},
{"property": "C153", "status": "proved", "theorems": ["C153_one_place", "C153_returns_when_all_ended"], "note": ""},
{"property": "C154", "status": "proved", "theorems": ["C154_turn", "C154_code_runs", "C154_waiters"], "note": ""},
{"property": "C155", "status": "partial", "theorems": ["C155_not_early", "C155_delay", "C155_woken_if_idle", "C155_woken_beside_main", "C155_woken_refuted", "C155_woken_program_refuted"], "note": "Never early, never lost, woken when idle or beside a yielding main task: proved.  Beside another task that keeps yielding: refuted."},
{"property": "C156", "status": "proved", "theorems": ["C156_one_thread_in_a_heap", "C156_one_place", "C156_free", "C156_lock", "C156_reuse"], "note": ""},
{"property": "C157", "status": "partial", "theorems": ["C157_main_refuted", "C157_same_run_unnamed", "C157_first_use_refuted", "C157_two_set_ups_refuted"], "note": "Refuted: the first use by two threads at once, and the giving back of a heap by the named main thread.  Without these: C156."},
{"property": "C158", "status": "proved", "theorems": ["C158_overdue_timers_fire_one_by_one", "C158_pending_timer_keeps_the_loop_running", "C158_loop_ends_with_its_last_timer", "C158_no_waiting_while_there_are_tasks"], "note": ""},
{"property": "C159", "status": "partial", "theorems": ["C159_wait_ignores_due_timers_refuted", "C159_negative_wait_with_timers_alone_never_returns_refuted", "C159_signals_keep_timers_and_tasks_waiting_refuted", "C159_signals_passes_exist"], "note": "Refuted: the wait ignores timers, a negative wait with timers alone never returns, and a signal that ends the wait skips timers and tasks.  How late a timer can be: C158."},
{"property": "C160", "status": "proved", "theorems": ["C160_accepted_uri_is_freed_whole", "C160_parts_in_blocks_of_their_own"], "note": ""},
{"property": "C161", "status": "partial", "theorems": ["C161_unknown_scheme_is_never_freed_refuted", "C161_refused_uri_is_lost_refuted", "C161_no_memory_is_undefined_refuted"], "note": "Refuted: refused URIs and URIs with an unknown scheme are never freed, and any failing allocation is undefined."},
{"property": "C162", "status": "proved", "theorems": ["C162_destructors_once_when_a_thread_ends", "C162_destructors_at_no_other_time", "C162_creation_succeeds_while_slots_last", "C162_value_is_the_one_stored_since", "C162_keys_held"], "note": ""},
{"property": "C163", "status": "partial", "theorems": ["C163_destructor_called_again_refuted", "C163_destructor_of_a_deleted_key_refuted", "C163_slots_used_up_by_deleted_keys_refuted", "C163_slots_used_up_by_failures_refuted", "C163_value_taken_for_a_heap_refuted", "C163_heap_taken_for_a_value_refuted"], "note": "Refuted: destructors of deleted keys are called again, slots run out, and the allocator uses key 0 without owning it.  Without deletions: C162."},
{"property": "C164", "status": "proved", "theorems": ["C164_threads", "C164_tables"], "note": ""},
{"property": "C165", "status": "partial", "theorems": ["C165_init_pool", "C165_two_loops_refuted", "C165_first_connection_refuted"], "note": "Refuted after two loops of the program's own, and for connections when all cores are futures.  Proved from the start and after one loop."},
{"property": "C166", "status": "partial", "theorems": ["C166_end_partial", "C166_stop_partial", "C166_usual_end_refuted", "C166_stop_refuted", "C166_not_started_refuted"], "note": "Refuted for the usual ending (loop destroyed twice), threads that did not start, and thrd_pool_shutdown with more loops than cores."},
{"property": "C167", "status": "partial", "theorems": ["C167_pool_partial", "C167_future_partial", "C167_own_loop_refuted", "C167_again_refuted", "C167_no_poller_refuted", "C167_connection_refuted"], "note": "Refuted: own loop, second attempt, no poller, no memory for a connection's loop.  Proved for free places."},
{"property": "C168", "status": "proved", "theorems": ["C168_names"], "note": ""},
{"property": "C169", "status": "partial", "theorems": ["C169_stay_partial", "C169_ca_partial", "C169_path_first_refuted", "C169_changed_refuted"], "note": "the directory asked for last is refuted: default_cert_path first, names asked for before"},
{"property": "C170", "status": "partial", "theorems": ["C170_servers_partial", "C170_clients_partial", "C170_untouched_partial", "C170_client_then_server_refuted", "C170_server_then_client_refuted", "C170_second_run_refuted", "C170_overwritten_refuted", "C170_replaced_refuted", "C170_torn_refuted", "C170_retry_partial", "C170_cut_refuted"], "note": "mixed use as client and server, and loss of other pairs, are refuted"},
{"property": "C171", "status": "partial", "theorems": ["C171_unix_partial", "C171_unix_value_partial", "C171_fallback_partial", "C171_fallback_refuted", "C171_unix32_refuted", "C171_windows_partial", "C171_windows_value_partial", "C171_windows_refuted", "C171_windows_init_refuted", "C171_windows_fallback_refuted"], "note": "refuted for a 32-bit time_t, on Windows late, before events_init and in the fallback"},
{"property": "C172", "status": "partial", "theorems": ["C172_timeofday_partial", "C172_timeofday_refuted", "C172_nsec_partial"], "note": "refuted from 2038 on (Windows)"},
{"property": "C173", "status": "partial", "theorems": ["C173_own_guard_partial", "C173_foreign_refuted", "C173_inner_refuted", "C173_null_refuted", "C173_dangling_refuted"], "note": "refuted for tasks that switch inside guards"},
{"property": "C174", "status": "partial", "theorems": ["C174_heard_partial", "C174_hushed_refuted", "C174_deaf_refuted", "C174_mute_refuted"], "note": "refuted for overlapping guards of two threads"},
{"property": "C175", "status": "partial", "theorems": ["C175_own_block_partial", "C175_where_partial", "C175_foreign_refuted", "C175_inner_refuted", "C175_dangling_refuted", "C175_dangling_protect_refuted", "C175_ended_refuted"], "note": "refuted for tasks that switch inside try blocks"},
{"property": "C176", "status": "partial", "theorems": ["C176_released_partial", "C176_forged_refuted", "C176_percent_refuted", "C176_hash_refuted", "C176_space_refuted"], "note": "refuted for contents that look like a type number, and for neighbours"},
{"property": "C177", "status": "partial", "theorems": ["C177_text_partial", "C177_empty_refuted", "C177_foreign_refuted"], "note": "refuted for empty texts, and for memory of the C library's vasprintf"},
{"property": "C178", "status": "partial", "theorems": ["C178_address_of_the_name_asked_for_partial", "C178_served_once", "C178_waits", "C178_address_of_another_name_refuted", "C178_text_of_another_task_refuted", "C178_unknown_name_refuted"], "note": "refuted when two tasks ask at the same time, and for unknown names"},
{"property": "C179", "status": "partial", "theorems": ["C179_result_partial", "C179_nothing_behind_the_destination_is_written", "C179_last_address_refuted", "C179_name_asked_for_refuted", "C179_wrong_length_refuted"], "note": "refuted: the last address is taken, and names are always looked up"},
{"property": "C180", "status": "partial", "theorems": ["C180_what_is_reported_partial", "C180_failures_add_up", "C180_first_error_refuted", "C180_text_too_long_refuted"], "note": "refuted: every first error is dropped; texts may not fit"},
{"property": "C181", "status": "partial", "theorems": ["C181_text_partial", "C181_begins_with_the_text_partial", "C181_null_if_a_call_fails", "C181_block_full_refuted", "C181_two_pieces_refuted", "C181_longer_refuted"], "note": "refuted unless the byte behind the text happens to be zero"},
{"property": "C182", "status": "partial", "theorems": ["C182_all_released_partial", "C182_what_is_released_partial", "C182_two_fences_refuted"], "note": "refuted for two fences in a scope"},
{"property": "C183", "status": "partial", "theorems": ["C183_trying_partial", "C183_in_a_guard_refuted", "C183_returned_value_released_refuted"], "note": "refuted in guards, and when an exception leaves the enclosing block later"},
{"property": "C184", "status": "partial", "theorems": ["C184_exit", "C184_exit_nothing", "C184_uncaught", "C184_signal_refuted", "C184_after_signal_refuted", "C184_foreign_refuted", "C184_first_throws", "C184_later_throws_refuted", "C184_rest_refuted", "C184_rest_partial", "C184_rest_undefined_refuted", "C184_both_throw_refuted", "C184_within_try"], "note": "refuted after signals, for other threads, and for functions that throw"},
{"property": "C185", "status": "partial", "theorems": ["C185_once", "C185_told", "C185_within_refuted"], "note": "refuted for the text of an exception thrown during unwinding"},
{"property": "C186", "status": "partial", "theorems": ["C186_at_once_partial", "C186_whole_partial", "C186_cut_refuted", "C186_every_second_refuted", "C186_ends_partial", "C186_endless_refuted"], "note": "refuted for files that one transfer does not move, and for sources shortened meanwhile"},
{"property": "C187", "status": "partial", "theorems": ["C187_closed", "C187_told_partial", "C187_unopened_partial", "C187_source_partial", "C187_same_refuted", "C187_lost_refuted", "C187_close_refuted"], "note": "refuted for a file copied onto itself, for former destinations and for close"},
{"property": "C188", "status": "partial", "theorems": ["C188_thread_partial", "C188_one_partial", "C188_arguments_partial", "C188_no_arguments", "C188_job", "C188_two_refuted", "C188_overwritten_refuted", "C188_many_refuted"], "note": "refuted for a second $ in a thread with arguments, for arguments read after $ and for many values"},
{"property": "C189", "status": "partial", "theorems": ["C189_worker_partial", "C189_never_runs_refuted", "C189_piled_refuted", "C189_own_arguments_refuted", "C189_no_scope_refuted"], "note": "refuted for arrays not returned, for deferred functions, and for arguments or other arrays returned"},
{"property": "C190", "status": "partial", "theorems": ["C190_accounts_partial", "C190_nothing_left_partial", "C190_key", "C190_short", "C190_twice_refuted", "C190_leak_refuted", "C190_write_null_refuted", "C190_gone"], "note": "refuted with OpenSSL 1.1.1 when making a key fails or the key NULL is written, and for x509_self_export without memory"},
{"property": "C191", "status": "partial", "theorems": ["C191_self", "C191_request_refuted", "C191_long_domain_refuted", "C191_no_key"], "note": "refuted for refused extensions and for long domains"},
{"property": "C192", "status": "partial", "theorems": ["C192_in_time", "C192_late", "C192_no_limit", "C192_again", "C192_once_refuted", "C192_ignored_refuted", "C192_detached_refuted", "C192_later"], "note": "refuted where the system has no timed joins, and for calls after the thread was joined or detached"},
{"property": "C193", "status": "partial", "theorems": ["C193_kind", "C193_unknown", "C193_error_refuted", "C193_windows_refuted", "C193_attributes_refuted", "C193_handle"], "note": "refuted on Windows, and for the sign of the error with gcc and clang"},
{"property": "C194", "status": "partial", "theorems": ["C194_linux", "C194_windows", "C194_windows_big_refuted", "C194_mac_first_refuted", "C194_mac_none_refuted", "C194_mac_big_refuted", "C194_mac_cores", "C194_mac_many_refuted"], "note": "refuted on macOS, and on Windows for processors beyond the width of size_t"},
{"property": "C195", "status": "partial", "theorems": ["C195_limit_partial", "C195_long_refuted", "C195_negative_refuted", "C195_windows"], "note": "refuted beyond 2147483 milliseconds and for negative times"},
{"property": "C196", "status": "partial", "theorems": ["C196_sleeps", "C196_signal_refuted"], "note": "refuted when a signal is handled meanwhile"},
{"property": "C197", "status": "proved", "theorems": ["C197_nonblocking", "C197_blocking", "C197_bad"], "note": "For Unix, with sharing of open files between descriptors."},
{"property": "C198", "status": "partial", "theorems": ["C198_found_partial", "C198_other", "C198_made", "C198_full_refuted", "C198_failed_refuted", "C198_long_refuted"], "note": "refuted for a full table, a failing mkfifo and long names"},
{"property": "C199", "status": "partial", "theorems": ["C199_kept", "C199_gone", "C199_normal_refuted", "C199_twice_refuted", "C199_unwound", "C199_interrupted_refuted"], "note": "refuted for tasks that gave way, for deleting twice and for running tasks"}
]}
