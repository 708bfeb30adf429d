{
 "claims": [
  {
   "property": "C01",
   "status": "proved",
   "theorems": [
    "C01_unpacker_delivers_exactly"
   ],
   "note": "every configuration, stream, chunking"
  },
  {
   "property": "C02",
   "status": "proved",
   "theorems": [
    "C02_unpacker_never_stops"
   ],
   "note": "for arbitrary, also malformed bytes"
  },
  {
   "property": "C03",
   "status": "proved",
   "theorems": [
    "C03_unpacker_rejects_bad_header"
   ],
   "note": ""
  },
  {
   "property": "C04",
   "status": "proved",
   "theorems": [
    "C04_flexible_unpacker",
    "C04_flexible_unpacker_4000"
   ],
   "note": "for every size of the fixed buffer"
  },
  {
   "property": "C05",
   "status": "proved",
   "theorems": [
    "C05_non_copy_unpacker"
   ],
   "note": ""
  },
  {
   "property": "C06",
   "status": "proved",
   "theorems": [
    "C06_prefix_suffix_delivers_exactly"
   ],
   "note": ""
  },
  {
   "property": "C07",
   "status": "partial",
   "theorems": [
    "C07_refuted",
    "C07_statement_refuted",
    "C07_wrong_prefix_reported_partial"
   ],
   "note": "the wanted statement is false of the code (witness); the part that holds is proved"
  },
  {
   "property": "C08",
   "status": "partial",
   "theorems": [
    "C08_refuted",
    "C08_statement_refuted",
    "C08_noticed_with_next_byte_partial"
   ],
   "note": "the wanted statement is false of the code (witness); proved: a heartbeat is noticed with the first byte behind it, whatever came before"
  },
  {
   "property": "C09",
   "status": "proved",
   "theorems": [
    "C09_fixed_length_cuts_exactly",
    "C09_stream_delivers_every_read"
   ],
   "note": ""
  },
  {
   "property": "C10",
   "status": "proved",
   "theorems": [
    "C10_datagram_boundaries",
    "C10_long_datagrams_are_cut"
   ],
   "note": "datagrams longer than the buffer are cut by the operating system; stated separately"
  },
  {
   "property": "C11",
   "status": "proved",
   "theorems": [
    "C11_pack_array_exact",
    "C11_ps_pack_array_exact"
   ],
   "note": ""
  },
  {
   "property": "C12",
   "status": "proved",
   "theorems": [
    "C12_overloads_agree"
   ],
   "note": ""
  },
  {
   "property": "C13",
   "status": "partial",
   "theorems": [
    "C13_refuted",
    "C13_statement_refuted",
    "C13_header_exact_partial",
    "C13_debug_never_truncates"
   ],
   "note": "false with ST_ASIO_MSG_BUFFER_SIZE > 65535, no ST_ASIO_HUGE_MSG and NDEBUG (witness); proved for all other configurations, for the array form and for builds with assertions"
  },
  {
   "property": "C14",
   "status": "proved",
   "theorems": [
    "C14_size_check_exact"
   ],
   "note": ""
  },
  {
   "property": "C15",
   "status": "proved",
   "theorems": [
    "C15_heartbeats_invisible",
    "C15_prefix_suffix_heartbeats_invisible"
   ],
   "note": "generic in the length-prefixed receiver; instances by C01, C04, C05"
  },
  {
   "property": "C16",
   "status": "proved",
   "theorems": [
    "C16_end_to_end",
    "C16_sending_safe",
    "C16_end_to_end_unpacker",
    "C16_end_to_end_flexible",
    "C16_end_to_end_non_copy",
    "C16_end_to_end_prefix_suffix",
    "C16_end_to_end_fixed_length"
   ],
   "note": "for configurations whose buffer size fits the header"
  },
  {
   "property": "C17",
   "status": "proved",
   "theorems": [
    "C17_buffer_is_a_string",
    "C17_throws_only_when_illegal"
   ],
   "note": "all histories on two objects"
  },
  {
   "property": "C18",
   "status": "partial",
   "theorems": [
    "C18_self_assign_refuted",
    "C18_self_append_refuted",
    "C18_append2_refuted",
    "C18_substring_refuted",
    "C18_statements_refuted",
    "C18_self_append_partial",
    "C18_substring_partial"
   ],
   "note": "all four parts are false of the code (witnesses); self-append without growth proved"
  },
  {
   "property": "C19",
   "status": "proved",
   "theorems": [
    "C19_queue_is_a_deque"
   ],
   "note": "while the content fits the address space"
  },
  {
   "property": "C20",
   "status": "proved",
   "theorems": [
    "C20_batches"
   ],
   "note": ""
  },
  {
   "property": "C21",
   "status": "proved",
   "theorems": [
    "C21_one_write_at_a_time"
   ],
   "note": "any number of threads, any interleaving of atomic operations"
  },
  {
   "property": "C22",
   "status": "proved",
   "theorems": [
    "C22_fifo_exactly_once"
   ],
   "note": ""
  },
  {
   "property": "C23",
   "status": "proved",
   "theorems": [
    "C23_no_lost_wakeup",
    "C23_everything_is_sent"
   ],
   "note": "safety (quiet implies empty) and termination of the started work"
  },
  {
   "property": "C24",
   "status": "proved",
   "theorems": [
    "C24_buffer_limit",
    "C24_refused_iff_full"
   ],
   "note": ""
  },
  {
   "property": "C25",
   "status": "partial",
   "theorems": [
    "C25_refuted",
    "C25_statement_refuted",
    "C25_framed_partial",
    "C25_prior_goes_first"
   ],
   "note": "false of the code: header and body are separate items; holds for one-item messages or without prior"
  },
  {
   "property": "C26",
   "status": "partial",
   "theorems": [
    "C26_refuted",
    "C26_statement_refuted",
    "C26_shrink_partial"
   ],
   "note": "framing part false of the code; byte counts proved"
  },
  {
   "property": "C27",
   "status": "partial",
   "theorems": [
    "C27_returns_once",
    "C27_close_refuted",
    "C27_shrink_refuted",
    "C27_returns_statement_refuted",
    "C27_returns_partial",
    "C27_empty_refuted",
    "C27_container_refuted",
    "C27_success_statement_refuted",
    "C27_last_handed_partial",
    "C27_all_handed_partial"
   ],
   "note": "false of the code: messages waiting in the send buffer are not answered when the link closes, is reused or when they are discarded; SUCCESS is returned for unpackable messages and for containers whose first messages were lost; proved when these are excluded"
  },
  {
   "property": "C28",
   "status": "proved",
   "theorems": [
    "C28_in_order"
   ],
   "note": ""
  },
  {
   "property": "C29",
   "status": "partial",
   "theorems": [
    "C29_refuted",
    "C29_statement_refuted",
    "C29_not_stranded_partial"
   ],
   "note": "false of the code with several service threads: the retry timer is started from the dispatch strand while its last handler may still be running, which then cancels it; proved when the timer is used by one thread at a time"
  },
  {
   "property": "C30",
   "status": "partial",
   "theorems": [
    "C30_refuted",
    "C30_statement_refuted",
    "C30_survives_partial"
   ],
   "note": "false of the code when a refused message waits for its retry while the link closes; proved otherwise"
  },
  {
   "property": "C31",
   "status": "partial",
   "theorems": [
    "C31_resume_refuted",
    "C31_statement_refuted",
    "C31_resumes_partial"
   ],
   "note": "false of the code with several service threads: the receive timer is started from the strand while its last handler may still be running, which then cancels it; proved when the timer is used by one thread at a time"
  },
  {
   "property": "C32",
   "status": "partial",
   "theorems": [
    "C32_empty_success_refuted",
    "C32_nonempty_statement_refuted",
    "C32_nonempty_partial",
    "C32_lost_wakeup_refuted",
    "C32_awake_statement_refuted",
    "C32_awake_partial",
    "C32_timeout",
    "C32_timeout_only"
   ],
   "note": "false of the code: an empty success is returned when a read yields no complete message, and a caller can miss the notification of closing and sleep forever; both proved when these two situations are excluded"
  },
  {
   "property": "C33",
   "status": "partial",
   "theorems": [
    "C33_two_starts_refuted",
    "C33_start_in_close_refuted",
    "C33_order_statement_refuted",
    "C33_lost_refuted",
    "C33_pending_refuted",
    "C33_obsolete_refuted",
    "C33_order_partial",
    "C33_quiet_partial",
    "C33_obsolete_partial",
    "C33_obsolete_told",
    "C33_eventually_partial"
   ],
   "note": "false of the code: start() racing with close() or another start() is accepted before on_close, the handler of the former closing can cancel the timer of the next one so on_close is never called, the application can begin a call between the last check and on_close, a reconnected client without operation in progress is reported obsolete; all proved when these overlaps are excluded"
  },
  {
   "property": "C34",
   "status": "partial",
   "theorems": [
    "C34_deadlock_refuted",
    "C34_statement_refuted",
    "C34_released_partial"
   ],
   "note": "false of the code: a shutdown called in on_connect of a server socket may wait for the lock its own thread holds; otherwise the lock is always released"
  },
  {
   "property": "C35",
   "status": "partial",
   "theorems": [
    "C35_ready_refuted",
    "C35_ready_statement_refuted",
    "C35_ready_partial"
   ],
   "note": "false of the code when connecting succeeds at the same time as a shutdown; proved without that coincidence"
  },
  {
   "property": "C36",
   "status": "proved",
   "theorems": [
    "C36_bounded",
    "C36_ends"
   ],
   "note": "for links that are in use (started) when the graceful shutdown begins, with ST_ASIO_GRACEFUL_SHUTDOWN_MAX_DURATION >= 1 as config.h demands; counted in timer ticks of 10 ms"
  },
  {
   "property": "C37",
   "status": "partial",
   "theorems": [
    "C37_attempts_refuted",
    "C37_attempts_statement_refuted",
    "C37_ghost_refuted",
    "C37_attempts_partial",
    "C37_wish_refuted",
    "C37_wish_statement_refuted",
    "C37_wish_partial",
    "C37_bind_refuted",
    "C37_trying_statement_refuted",
    "C37_trying_partial"
   ],
   "note": "false of the code: a timer handler that is about to connect connects after the shutdown and leaves a connection nobody can close; the library's own force_shutdown(need_reconnect) may undo a simultaneous force_shutdown(false); a failing bind() ends the trying silently. Each is proved without its coincidence"
  },
  {
   "property": "C38",
   "status": "partial",
   "theorems": [
    "C38_live_refuted",
    "C38_live_statement_refuted",
    "C38_clock_refuted",
    "C38_live_partial"
   ],
   "note": "false of the code by up to one second because times are truncated, and arbitrarily when the wall clock is set; proved with one second less and a steady clock"
  },
  {
   "property": "C39",
   "status": "proved",
   "theorems": [
    "C39_stopped_is_silent",
    "C39_false_ends",
    "C39_true_keeps_running",
    "C39_running_fires",
    "C39_stop_all"
   ],
   "note": "all histories, any order of queued handlers"
  },
  {
   "property": "C40",
   "status": "partial",
   "theorems": [
    "C40_refuted",
    "C40_statement_refuted",
    "C40_partial"
   ],
   "note": "false of the code: the 8-bit sequence number wraps; proved when fewer than 256 starts happen between a wait's start and the end of its handler"
  },
  {
   "property": "C41",
   "status": "proved",
   "theorems": [
    "C41_find_exact",
    "C41_ids_unique"
   ],
   "note": "all histories and interleavings of critical sections"
  },
  {
   "property": "C42",
   "status": "proved",
   "theorems": [
    "C42_freed_when_unused",
    "C42_not_in_hands"
   ],
   "note": ""
  },
  {
   "property": "C43",
   "status": "proved",
   "theorems": [
    "C43_ids_count_up",
    "C43_ids_distinct"
   ],
   "note": ""
  },
  {
   "property": "C44",
   "status": "proved",
   "theorems": [
    "C44_restored",
    "C44_refused",
    "C44_init",
    "C44_absent"
   ],
   "note": ""
  },
  {
   "property": "C45",
   "status": "proved",
   "theorems": [
    "C45_least_loaded",
    "C45_spread"
   ],
   "note": ""
  },
  {
   "property": "C46",
   "status": "partial",
   "theorems": [
    "C46_refuted",
    "C46_statement_refuted",
    "C46_balanced_partial",
    "C46_back_to_zero_partial"
   ],
   "note": "false of the code when io_contexts are added after objects were created (the unsigned counter wraps); proved when all io_contexts exist before the first object"
  },
  {
   "property": "C47",
   "status": "partial",
   "theorems": [
    "C47_refuted",
    "C47_statement_refuted",
    "C47_spread_partial"
   ],
   "note": "false of the code: a thread blocked in run_service is not counted; proved when only the last call blocks"
  },
  {
   "property": "C48",
   "status": "partial",
   "theorems": [
    "C48_refuted",
    "C48_statement_refuted",
    "C48_stop_refuted",
    "C48_never_the_last_partial",
    "C48_thread_num_partial"
   ],
   "note": "false of the code after an exception; proved without exceptions"
  },
  {
   "property": "C49",
   "status": "partial",
   "theorems": [
    "C49_refuted",
    "C49_statement_refuted",
    "C49_truth_partial",
    "C49_stop_recovers"
   ],
   "note": "false of the code when the listen call fails (the flag stays set and retrying is refused); proved when it does not; stop_listen always recovers"
  },
  {
   "property": "C50",
   "status": "proved",
   "theorems": [
    "C50_methods",
    "C50_auth",
    "C50_request",
    "C50_target_accepted",
    "C50_negotiates",
    "C50_socks4"
   ],
   "note": "textual IP addresses are parsed by boost (any parser)"
  },
  {
   "property": "C51",
   "status": "partial",
   "theorems": [
    "C51_refuted",
    "C51_long_reply_refuted",
    "C51_negative_length_refuted",
    "C51_statement_refuted",
    "C51_fragmentation_partial"
   ],
   "note": "false of the code in three ways; proved when the reply fits 64 bytes and shares no read with the peer's bytes"
  },
  {
   "property": "C52",
   "status": "partial",
   "theorems": [
    "C52_refuted",
    "C52_statement_refuted",
    "C52_last_target_partial"
   ],
   "note": "false of the code: an address set after a domain name is ignored; proved otherwise"
  },
  {
   "property": "C53",
   "status": "partial",
   "theorems": [
    "C53_refuted",
    "C53_order_refuted",
    "C53_statement_refuted",
    "C53_sums_partial",
    "C53_minimum_partial"
   ],
   "note": "false of the code for minima when an operand has no sample; everything else proved"
  },
  {
   "property": "C54",
   "status": "proved",
   "theorems": [
    "C54_covered_once",
    "C54_inside",
    "C54_refused"
   ],
   "note": "off_t arithmetic on unbounded integers; results shown to lie within the file"
  },
  {
   "property": "C55",
   "status": "partial",
   "theorems": [
    "C55_refuted",
    "C55_statement_refuted",
    "C55_exact_partial"
   ],
   "note": "false of the code for negative lengths, which a peer can announce; proved for all others"
  },
  {
   "property": "C56",
   "status": "partial",
   "theorems": [
    "C56_windows_receives_on",
    "C56_reported",
    "C56_refuted",
    "C56_statement_refuted"
   ],
   "note": "holds when compiled for Windows, refuted elsewhere"
  },
  {
   "property": "C57",
   "status": "partial",
   "theorems": [
    "C57_resume_refuted",
    "C57_restart_refuted",
    "C57_statement_refuted",
    "C57_goes_on_partial"
   ],
   "note": "false of the code for reliable UDP when the congestion timer is started while its former handler is finishing, and after closing during congestion; proved when these two are excluded"
  },
  {
   "property": "C58",
   "status": "partial",
   "theorems": [
    "C58_spin_refuted",
    "C58_dropped_refuted",
    "C58_statement_refuted",
    "C58_fits_partial",
    "C58_false_means_not_queued"
   ],
   "note": "false of the code for messages that are too long: retried forever or dropped with true, depending on the overload; proved for messages that fit"
  },
  {
   "property": "C59",
   "status": "proved",
   "theorems": [
    "C59_ids_distinct",
    "C59_no_interference"
   ],
   "note": ""
  },
  {
   "property": "C60",
   "status": "proved",
   "theorems": [
    "C60_unpacker_clean_after_break",
    "C60_prefix_suffix_clean_after_break"
   ],
   "note": "also part of C04 and C05 for the other length-prefixed receivers"
  },
  {
   "property": "C61",
   "status": "proved",
   "theorems": [
    "C61_prefix_suffix_memory_safe"
   ],
   "note": "for arbitrary bytes"
  },
  {
   "property": "C62",
   "status": "partial",
   "theorems": [
    "C62_refuted",
    "C62_statement_refuted",
    "C62_true_means_queued_partial"
   ],
   "note": "the array forms ignore the result of pack_msg (witness)"
  },
  {
   "property": "C63",
   "status": "proved",
   "theorems": [
    "C63_raw_data_is_the_body"
   ],
   "note": ""
  },
  {
   "property": "C64",
   "status": "partial",
   "theorems": [
    "C64_refuted",
    "C64_statement_refuted",
    "C64_available_partial"
   ],
   "note": "false of the code; sufficient condition proved"
  },
  {
   "property": "C65",
   "status": "partial",
   "theorems": [
    "C65_aligned",
    "C65_zero_interval_refuted"
   ],
   "note": "interval 0 divides by zero; proved for every positive interval"
  },
  {
   "property": "C66",
   "status": "partial",
   "theorems": [
    "C66_refuted",
    "C66_statement_refuted",
    "C66_partial"
   ],
   "note": "false of the code: an expiration queued before stop and restart fires at once; proved when no expiration is queued at a start"
  },
  {
   "property": "C67",
   "status": "partial",
   "theorems": [
    "C67_refuted",
    "C67_statement_refuted",
    "C67_capacity_partial"
   ],
   "note": "false of the code: renaming an object that was not added inserts it whatever the size; proved when only valid objects are renamed or deleted"
  },
  {
   "property": "C68",
   "status": "partial",
   "theorems": [
    "C68_refuted",
    "C68_statement_refuted",
    "C68_conserved_partial"
   ],
   "note": "false of the code: deleting an already deleted object whose id is in use again drops the live object; proved when only valid objects are renamed or deleted"
  },
  {
   "property": "C69",
   "status": "proved",
   "theorems": [
    "C69_add",
    "C69_delete_by_id",
    "C69_delete",
    "C69_delete_absent",
    "C69_clear",
    "C69_free"
   ],
   "note": ""
  },
  {
   "property": "C70",
   "status": "partial",
   "theorems": [
    "C70_refuted",
    "C70_statement_refuted",
    "C70_single_context_partial",
    "C70_enough_partial"
   ],
   "note": "false of the code with several io_contexts; proved for one, and for each one that has more threads than were asked away in all"
  },
  {
   "property": "C71",
   "status": "partial",
   "theorems": [
    "C71_refuted",
    "C71_late_error_refuted",
    "C71_statement_refuted",
    "C71_constant_partial"
   ],
   "note": "false of the code after stop_listen and a restart; proved when no earlier accept is still on its way"
  },
  {
   "property": "C72",
   "status": "proved",
   "theorems": [
    "C72_only_if_granted"
   ],
   "note": ""
  },
  {
   "property": "C73",
   "status": "partial",
   "theorems": [
    "C73_refuted",
    "C73_rubbish_refuted",
    "C73_statement_refuted",
    "C73_offered_partial"
   ],
   "note": "false of the code: methods, versions and address types are not checked"
  },
  {
   "property": "C74",
   "status": "proved",
   "theorems": [
    "C74_difference",
    "C74_average"
   ],
   "note": ""
  },
  {
   "property": "C75",
   "status": "proved",
   "theorems": [
    "C75_sender_exact",
    "C75_sender_truthful",
    "C75_same_file"
   ],
   "note": "the file does not change during the transfer and reading/writing it succeeds"
  },
  {
   "property": "C77",
   "status": "partial",
   "theorems": [
    "C77_twice_refuted",
    "C77_lost_refuted",
    "C77_statement_refuted",
    "C77_exact_partial"
   ],
   "note": "false of the code: after a time-out the message is sent twice; passed by reference it is consumed by the first attempt and an empty one reported as sent; proved without time-outs for the copying overloads"
  },
  {
   "property": "C78",
   "status": "partial",
   "theorems": [
    "C78_graceful_refuted",
    "C78_statement_refuted",
    "C78_partial"
   ],
   "note": "false of the code: shutdown_handler replaces the callback that is running, which is destroyed before if_then_else_return reads its result from it; proved for callbacks that do not touch themselves after replacing themselves"
  },
  {
   "property": "C79",
   "status": "proved",
   "theorems": [
    "C31_bounded"
   ],
   "note": "every execution"
  },
  {
   "property": "C80",
   "status": "proved",
   "theorems": [
    "C32_once",
    "C32_nothing_kept",
    "C32_duplicate",
    "C32_picked_up"
   ],
   "note": "every execution"
  },
  {
   "property": "C81",
   "status": "proved",
   "theorems": [
    "C27_promise_once",
    "C27_taken_answered"
   ],
   "note": "every execution"
  },
  {
   "property": "C82",
   "status": "proved",
   "theorems": [
    "C33_at_most_once"
   ],
   "note": "every execution"
  },
  {
   "property": "C83",
   "status": "proved",
   "theorems": [
    "C34_exclusive",
    "C34_turns"
   ],
   "note": "every execution"
  },
  {
   "property": "C84",
   "status": "proved",
   "theorems": [
    "C35_legal",
    "C35_forced"
   ],
   "note": "every execution, clients and servers"
  },
  {
   "property": "C85",
   "status": "proved",
   "theorems": [
    "C37_paced",
    "C37_silent",
    "C37_prepared",
    "C37_lives"
   ],
   "note": "every execution"
  },
  {
   "property": "C86",
   "status": "proved",
   "theorems": [
    "C38_silent",
    "C38_detected",
    "C38_beats",
    "C38_kept",
    "C38_goes_on",
    "C38_in_time",
    "C38_ends"
   ],
   "note": "steady wall clock; heartbeat not empty"
  },
  {
   "property": "C87",
   "status": "proved",
   "theorems": [
    "C57_one_in_order",
    "C57_plain_goes_on",
    "C57_waits_for_start"
   ],
   "note": "every execution"
  },
  {
   "property": "C88",
   "status": "proved",
   "theorems": [
    "C51_socks4"
   ],
   "note": ""
  },
  {
   "property": "C89",
   "status": "partial",
   "theorems": [
    "C89_refuted",
    "C89_statement_refuted",
    "C89_partial"
   ],
   "note": "false of the code when init starts its own service again; proved for programs that use the pump only from outside the services' functions and do not destroy running services"
  },
  {
   "property": "C90",
   "status": "partial",
   "theorems": [
    "C90_refuted",
    "C90_statement_refuted",
    "C90_start_partial",
    "C90_stop_partial",
    "C90_too_few"
   ],
   "note": "false of the code when a service's function starts other services; proved for programs as in C89"
  },
  {
   "property": "C91",
   "status": "partial",
   "theorems": [
    "C91_refuted",
    "C91_statement_refuted",
    "C91_partial"
   ],
   "note": "false of the code when init or uninit constructs, destroys or looks up a service while the pump is being started or stopped: the mutex is held; proved for programs as in C89"
  },
  {
   "property": "C92",
   "status": "partial",
   "theorems": [
    "C92_refuted",
    "C92_statement_refuted",
    "C92_partial"
   ],
   "note": "false of the code: destroying a running service calls the pure virtual uninit; proved for programs as in C89"
  },
  {
   "property": "C93",
   "status": "partial",
   "theorems": [
    "C93_refuted",
    "C93_statement_refuted",
    "C93_partial"
   ],
   "note": "false of the code: remove calls free and the destructor calls it again; proved, for every program, if services are not removed other than by destroying them"
  },
  {
   "property": "C94",
   "status": "proved",
   "theorems": [
    "C94"
   ],
   "note": ""
  },
  {
   "property": "C95",
   "status": "proved",
   "theorems": [
    "C95"
   ],
   "note": "every execution"
  },
  {
   "property": "C96",
   "status": "partial",
   "theorems": [
    "C96_refuted",
    "C96_statement_refuted",
    "C96_partial"
   ],
   "note": "false of the code when a connection is accepted or a socket added while the pump is stopped, and for services that were not started: the link is started after the shutdown of all links and the pump waits for the peer; proved when these are excluded"
  },
  {
   "property": "C97",
   "status": "proved",
   "theorems": [
    "C97"
   ],
   "note": "every execution, every configuration"
  },
  {
   "property": "C98",
   "status": "proved",
   "theorems": [
    "C98"
   ],
   "note": "with the condition of include/config.h; C98_sharp shows that it is needed"
  },
  {
   "property": "C99",
   "status": "proved",
   "theorems": [
    "C99"
   ],
   "note": "the race of the retry timer is excluded here, see C29"
  },
  {
   "property": "C100",
   "status": "proved",
   "theorems": [
    "C100"
   ],
   "note": "C100_sharp shows that the condition on on_msg is needed"
  },
  {
   "property": "C101",
   "status": "proved",
   "theorems": [
    "C101"
   ],
   "note": ""
  },
  {
   "property": "C102",
   "status": "proved",
   "theorems": [
    "C102"
   ],
   "note": ""
  },
  {
   "property": "C103",
   "status": "proved",
   "theorems": [
    "C103",
    "C103_over"
   ],
   "note": ""
  },
  {
   "property": "C104",
   "status": "proved",
   "theorems": [
    "C104"
   ],
   "note": ""
  },
  {
   "property": "C105",
   "status": "partial",
   "theorems": [
    "C105_refuted",
    "C105_statement_refuted",
    "C105_partial",
    "C105_closed"
   ],
   "note": "false of the code for a call made before the link is ready: nobody starts a read for it; proved for calls made while the link is ready"
  },
  {
   "property": "C106",
   "status": "partial",
   "theorems": [
    "C106_refuted",
    "C106_statement_refuted",
    "C106_partial"
   ],
   "note": "false of the code after a call with a time limit expired; proved for calls without time limit and reads that do not end with messages and an error at once"
  },
  {
   "property": "C107",
   "status": "proved",
   "theorems": [
    "C107"
   ],
   "note": ""
  },
  {
   "property": "C108",
   "status": "partial",
   "theorems": [
    "C108_refuted",
    "C108_statement_refuted",
    "C108_partial"
   ],
   "note": "false of the code for web sockets with ST_ASIO_PASSIVE_RECV when no read is in progress; proved for TLS, for receiving on its own, and when a read is in progress"
  },
  {
   "property": "C109",
   "status": "partial",
   "theorems": [
    "C109_refuted",
    "C109_statement_refuted",
    "C109_partial",
    "C109_failed_closes"
   ],
   "note": "false of the code for TLS: no timer watches the handshake; proved for web sockets (assuming Beast's timeout), for broken connections, and after a request of the application"
  },
  {
   "property": "C110",
   "status": "partial",
   "theorems": [
    "C110_refuted",
    "C110_statement_refuted",
    "C110_partial",
    "C110_reopens"
   ],
   "note": "false of the code after a failed handshake, which switches reconnecting off; proved for histories without failed handshakes"
  },
  {
   "property": "C111",
   "status": "partial",
   "theorems": [
    "C111_refuted",
    "C111_abort_refuted",
    "C111_statement_refuted",
    "C111_partial"
   ],
   "note": "false of the code: a message longer than the local buffer stays in KCP's queue and blocks all later ones; an empty message fails an assertion; proved for all other messages"
  },
  {
   "property": "C112",
   "status": "partial",
   "theorems": [
    "C112_refuted",
    "C112_statement_refuted",
    "C112_partial"
   ],
   "note": "false of the code: a message that ikcp_send refuses is reported as sent; proved for messages that KCP takes"
  },
  {
   "property": "C113",
   "status": "partial",
   "theorems": [
    "C113_refuted",
    "C113_statement_refuted",
    "C113_unconnected",
    "C113_partial"
   ],
   "note": "false of the code when connect fails and in all cases without connect mode (C113_unconnected: KCP is never used then); proved when connect does not fail and connect mode is set"
  },
  {
   "property": "C114",
   "status": "partial",
   "theorems": [
    "C114_refuted",
    "C114_statement_refuted",
    "C114_partial"
   ],
   "note": "false of the code when bind fails after a control block was created; proved otherwise"
  },
  {
   "property": "C115",
   "status": "partial",
   "theorems": [
    "C115_refuted",
    "C115_closing_refuted",
    "C115_statement_refuted",
    "C115_partial",
    "C115_used_block_exists_partial",
    "C115_gone_after_close"
   ],
   "note": "false of the code after a failed start and while closing; proved when bind does not fail and control blocks are created only after on_close"
  },
  {
   "property": "C116",
   "status": "proved",
   "theorems": [
    "C116"
   ],
   "note": ""
  },
  {
   "property": "C117",
   "status": "partial",
   "theorems": [
    "C117_refuted",
    "C117_array_refuted",
    "C117_two_refuted",
    "C117_statement_refuted",
    "C117_partial",
    "C117_bytes"
   ],
   "note": "false of the code for send_msg (header sent as a message of its own, or in front of the body) and for the two-message form of send_native_msg; proved for send_native_msg with one message; the bytes are right for all forms"
  },
  {
   "property": "C118",
   "status": "partial",
   "theorems": [
    "C118_refuted",
    "C118_abort_refuted",
    "C118_own_refuted",
    "C118_statement_refuted",
    "C118_partial"
   ],
   "note": "false of the code for empty messages; proved for all others"
  },
  {
   "property": "C119",
   "status": "partial",
   "theorems": [
    "C119_refuted",
    "C119_statement_refuted",
    "C119_partial"
   ],
   "note": "false of the code with the default packer, whose heartbeats nobody removes; proved for packers without heartbeats"
  },
  {
   "property": "C120",
   "status": "partial",
   "theorems": [
    "C120_refuted",
    "C120_statement_refuted",
    "C120_partial"
   ],
   "note": "false of the code when a service thread shuts all links down while a link is in an on_connect that asks the server (find, size); proved where the caller is not a service thread or on_connect does not ask, and predicates do not ask either (C120_sharp)"
  },
  {
   "property": "C121",
   "status": "partial",
   "theorems": [
    "C121_refuted",
    "C121_asks_refuted",
    "C121_statement_refuted",
    "C121_partial"
   ],
   "note": "false of the code for every number of service threads: all of them may wait for the mutex that the broadcast holds; proved when one service thread is free and on_connect does not ask the server"
  },
  {
   "property": "C122",
   "status": "proved",
   "theorems": [
    "C122",
    "C122_missed"
   ],
   "note": ""
  },
  {
   "property": "C123",
   "status": "proved",
   "theorems": [
    "C123",
    "C123_reaches",
    "C123_one"
   ],
   "note": ""
  },
  {
   "property": "C124",
   "status": "proved",
   "theorems": [
    "C124_no_undefined",
    "C124_values",
    "C124_memory"
   ],
   "note": "content that the application changes in place: values only for unique_buffer; copies of a shared_buffer share their object (documented, C124_sharp)"
  },
  {
   "property": "C125",
   "status": "proved",
   "theorems": [
    "C125_one",
    "C125_two",
    "C125_many",
    "C125_array",
    "C125_heartbeat",
    "C125_unpack"
   ],
   "note": ""
  },
  {
   "property": "C126",
   "status": "partial",
   "theorems": [
    "C126_refuted",
    "C126_statement_refuted",
    "C126_distinct_partial",
    "C126_many_partial"
   ],
   "note": "false of the code when the same message is passed twice; proved for two different messages and for containers"
  },
  {
   "property": "C127",
   "status": "partial",
   "theorems": [
    "C127_refuted",
    "C127_statement_refuted",
    "C127_partial"
   ],
   "note": "false of the code when two reads complete before the first message is offered; proved if messages arrive only when all former ones have been handled or while one is being offered or held"
  },
  {
   "property": "C128",
   "status": "partial",
   "theorems": [
    "C128_refuted",
    "C128_waiting_refuted",
    "C128_statement_refuted",
    "C128_reported_partial",
    "C128_accounted"
   ],
   "note": "false of the code: the sending half is shut down at once; proved when all messages were reported as sent before; in every case each message was reported as sent or failed, or still waits in the send buffer"
  },
  {
   "property": "C129",
   "status": "partial",
   "theorems": [
    "C129_refuted",
    "C129_split_refuted",
    "C129_statement_refuted",
    "C129_partial",
    "C129_frames_partial"
   ],
   "note": "false of the code if a write fails on a link that goes on working, and for links made again when a message is in several items of the send buffer; proved otherwise: items of the send buffer are always whole, frames are whole on the first link and, with one item per call, on all links"
  },
  {
   "property": "C130",
   "status": "partial",
   "theorems": [
    "C130_refuted",
    "C130_statement_refuted",
    "C130_partial"
   ],
   "note": "false of the code: what setters set (and addresses) survives into the next life of an object; proved if no setters are called and the same overload of add_socket is used with valid addresses"
  },
  {
   "property": "C131",
   "status": "partial",
   "theorems": [
    "C131_reuse_refuted",
    "C131_udp_refuted",
    "C131_invalid_refuted",
    "C131_statement_refuted",
    "C131_partial"
   ],
   "note": "false of the code for objects used again by another overload of add_socket and for invalid addresses, which add_socket ignores; proved otherwise"
  },
  {
   "property": "C132",
   "status": "proved",
   "theorems": [
    "C132",
    "C132_writes_end"
   ],
   "note": ""
  },
  {
   "property": "C133",
   "status": "partial",
   "theorems": [
    "C133_split_refuted",
    "C133_glitch_refuted",
    "C133_prior_refuted",
    "C133_statement_refuted",
    "C133_partial",
    "C133_links_partial",
    "C133_unpackers_partial"
   ],
   "note": "false of the code if a link breaks between header and body of a message, if a write fails on a link that goes on, or with the prior flag: the peer then handles messages nobody sent; proved without these: if no write fails while the link goes on, the prior flag is not used, and former links took whole messages, which holds on the first link and if each call puts one item into the send buffer"
  },
  {
   "property": "C134",
   "status": "proved",
   "theorems": [
    "C134_all_handled_at_rest",
    "C134_unpackers"
   ],
   "note": "without ST_ASIO_DISPATCH_BATCH_MSG"
  },
  {
   "property": "C135",
   "status": "partial",
   "theorems": [
    "C135_split_refuted",
    "C135_statement_refuted",
    "C135_partial",
    "C135_whole_messages_partial"
   ],
   "note": "false of the code for the overloads of the send functions that put header and body into the send buffer as two items: on_msg_send is called once for each of them; proved for the items of the send buffer, and for messages if each call puts one item there"
  },
  {
   "property": "C136",
   "status": "proved",
   "theorems": [
    "C136_all_gone_when_told",
    "C136_which",
    "C136_told_at_rest"
   ],
   "note": ""
  },
  {
   "property": "C137",
   "status": "partial",
   "theorems": [
    "C137_refuted",
    "C137_reuse_refuted",
    "C137_statement_refuted",
    "C137_partial",
    "C137_reconnect_partial",
    "C137_comes"
   ],
   "note": "false of the code for a client that reconnected: obsoleted_ stays set, and once the reconnect flag is cleared the connected socket is reported obsolete; proved for sockets started once per life; order and time of on_close proved for reconnecting ones too"
  },
  {
   "property": "C138",
   "status": "partial",
   "theorems": [
    "C138_number_refuted",
    "C138_heartbeat_refuted",
    "C138_statement_refuted",
    "C138_partial"
   ],
   "note": "false of the code in two points: with pass_on the number a registered function returns is thrown away, and on_heartbeat_error registered with the default pass_on and answering no suppresses the library's own on_heartbeat_error, so the dead TCP link is not shut down; the rest is proved for all sequences"
  },
  {
   "property": "C139",
   "status": "partial",
   "theorems": [
    "C139_label_refuted",
    "C139_left_over_refuted",
    "C139_statement_refuted",
    "C139_partial",
    "C139_one_peer_partial"
   ],
   "note": "false of the code for connected sockets: after set_peer_addr messages of the connected peer are labelled with the new address, and messages left in the send buffer when the socket was closed go to the peer of the next start; proved for all use without connect mode, and for all use, connected or not, with one peer per life of the object"
  },
  {
   "property": "C140",
   "status": "partial",
   "theorems": [
    "C140_refuted",
    "C140_statement_refuted",
    "C140_partial"
   ],
   "note": "false of the code with ST_ASIO_REUSE_OBJECT: reset() does not restore the settings, a new socket packs with the packer of a former one; proved without reuse of objects, and with it if these setters are not called"
  },
  {
   "property": "C141",
   "status": "partial",
   "theorems": [
    "C141_refuted",
    "C141_statement_refuted",
    "C141_refused_partial",
    "C141_accepted",
    "C141_taken"
   ],
   "note": "false of the code with ST_ASIO_SHRINK_SEND_BUFFER: room is made before the message is packed, so messages are discarded in favour of one that is then refused; everything else is proved, the part about refusing for every packer, the part about accepting for the length-prefixed one"
  },
  {
   "property": "C142",
   "status": "partial",
   "theorems": [
    "C142_partial",
    "C142_own",
    "C142_down",
    "C142_lost_refuted",
    "C142_fail_refuted",
    "C142_statement_refuted"
   ],
   "note": "false: the end of a link takes its name from a newer link, and a link whose connection cannot be made keeps its name; proved where names are used again only when their former links are over and connections can be made; what holds always: C142_own"
  },
  {
   "property": "C143",
   "status": "partial",
   "theorems": [
    "C143_partial",
    "C143_refuted",
    "C143_statement_refuted"
   ],
   "note": "false of the code from 2 GiB on: 2 * cap is computed in unsigned and becomes small, so the capacity then grows by what is asked for, rounded up to 16 bytes. Proved for buffers of at most 2 GiB."
  },
  {
   "property": "C144",
   "status": "partial",
   "theorems": [
    "C144_groups",
    "C144_each_link",
    "C144_end",
    "C144_random",
    "C144_refuted",
    "C144_statement_refuted",
    "C144_total_refuted"
   ],
   "note": "false without links: the number of links is divided by the number of groups, 0; and with a 32-bit size_t totals of 4 GiB and more wrap. Everything else is proved for all numbers"
  },
  {
   "property": "C145",
   "status": "partial",
   "theorems": [
    "C145_counted",
    "C145_partial",
    "C145_refuted",
    "C145_statement_refuted",
    "C145_no_loss",
    "C145_ends"
   ],
   "note": "false: bytes of one test that are still on their way are counted in the next one. Proved if nothing is on its way on a link when a test is begun there; the mere number of bytes is proved without this (C145_counted)"
  },
  {
   "property": "C146",
   "status": "partial",
   "theorems": [
    "C146_life",
    "C146_partial",
    "C146_refuted",
    "C146_statement_refuted",
    "C146_reaches"
   ],
   "note": "false with two service threads (or when a service thread calls force_shutdown()): a link that is visited between add_object and start() is not shut down. Proved of links that are connected when visited, and of all links with one service thread"
  },
  {
   "property": "C147",
   "status": "partial",
   "theorems": [
    "C147_partial",
    "C147_first",
    "C147_refuted",
    "C147_statement_refuted"
   ],
   "note": "false: accepts are not renewed while there are few links, also when there were many before; after 1024 connections one after another the server is deaf. Proved while at most ten links have ended, and for the first 1024 connections"
  },
  {
   "property": "C148",
   "status": "partial",
   "theorems": [
    "C148_partial",
    "C148_rare",
    "C148_goes_on",
    "C148_reports",
    "C148_refuted",
    "C148_statement_refuted"
   ],
   "note": "false without connect mode: datagrams of anybody count as signs of life of the peer. Proved with connect mode, or if nobody else sends anything to the socket"
  },
  {
   "property": "C149",
   "status": "partial",
   "theorems": [
    "C149_partial",
    "C149_always",
    "C149_refuted",
    "C149_statement_refuted"
   ],
   "note": "false without connect mode: messages to anybody count, so that the peer may get nothing. Proved with connect mode, or if the application sends to the peer only; the second half is proved in general"
  },
  {
   "property": "C150",
   "status": "proved",
   "theorems": [
    "C150_genuine",
    "C150_once",
    "C150_orderly",
    "C150_in_order",
    "C150_at_rest"
   ],
   "note": "C150_at_rest: one message is handled at a time (no batches); nobody forges addresses; both sides have the same buffer size"
  },
  {
   "property": "C151",
   "status": "partial",
   "theorems": [
    "C151_native_partial",
    "C151_refuted",
    "C151_statement_refuted"
   ],
   "note": "false: send_msg prepends a header, which udp_unpacker does not remove, and heartbeats are handled as messages. Proved for the native send functions without heartbeats"
  },
  {
   "property": "C152",
   "status": "partial",
   "theorems": [
    "C152_refuted",
    "C152_statement_refuted",
    "C152_exact_partial",
    "C152_at_rest_partial",
    "C152_comes_to_rest"
   ],
   "note": "false: an order that reaches the server before the handler of its last write ran is dropped (or fails an assertion), and the client waits for ever. Proved if the server's handlers are not behind when it handles an order; coming to rest is proved always. The link stays up and files do not change meanwhile"
  },
  {
   "property": "C153",
   "status": "partial",
   "theorems": [
    "C153_refuted",
    "C153_statement_refuted",
    "C153_partial"
   ],
   "note": "false: five attacks. Proved for clients that send orders only while the server is not sending, ask for ranges whose end is a number of the system, and upload a positive length"
  },
  {
   "property": "C154",
   "status": "partial",
   "theorems": [
    "C154_window_refuted",
    "C154_open_refuted",
    "C154_down_refuted",
    "C154_unanswered_refuted",
    "C154_statement_refuted",
    "C154_partial",
    "C154_comes_to_end",
    "C154_next",
    "C154_alone"
   ],
   "note": "false in three ways (a command while links still clean up; a file only some links can open; a link that goes down during a transfer). Proved, with coming to the end of the list whatever the servers answer, if none of these happens; C154_next and C154_alone hold always"
  },
  {
   "property": "C155",
   "status": "partial",
   "theorems": [
    "C155_refuted",
    "C155_statement_refuted",
    "C155_partial"
   ],
   "note": "false: bytes of a file begun in the window of C154 are counted as bytes of the next one (125 % and the end are reported while none of its bytes was sent). Proved if the three things of C154 do not happen"
  },
  {
   "property": "C156",
   "status": "proved",
   "theorems": [
    "C156_exact",
    "C156_finishes",
    "C156_at_rest",
    "C156_bound"
   ],
   "note": "M_Handle and M_Send composed with the callback of the echo server"
  },
  {
   "property": "C157",
   "status": "proved",
   "theorems": [
    "C157_right",
    "C157_in_time",
    "C157_back",
    "C157_goes_on",
    "C157_silent"
   ],
   "note": "one link with its timer; the check and what follows it take no time"
  },
  {
   "property": "C158",
   "status": "proved",
   "theorems": [
    "C158_exact",
    "C158_at_rest",
    "C158_default"
   ],
   "note": "two paths of M_Path joined by the callback of the echo server (the form without batches)"
  },
  {
   "property": "C159",
   "status": "partial",
   "theorems": [
    "C159_twice_refuted",
    "C159_race_refuted",
    "C159_statement_refuted",
    "C159_late",
    "C159_once",
    "C159_partial"
   ],
   "note": "false: add_socket already starts the link, so it may be connected before or during the registration. Proved: all of it if the registration is finished before connecting succeeds; always: at most one connection after the registration, and the message at most once"
  },
  {
   "property": "C160",
   "status": "partial",
   "theorems": [
    "C160_break_refuted",
    "C160_between_refuted",
    "C160_restart_refuted",
    "C160_statement_refuted",
    "C160_gone",
    "C160_partial",
    "C160_join"
   ],
   "note": "false: sync_recv_msg gives up when the link is closed, although it connects again, and when it is called before the service was restarted; the thread ends and is not replaced (C160_gone). Proved if no link is closed and new threads come after start_service. That quit and restart come back holds always"
  },
  {
   "property": "C161",
   "status": "partial",
   "theorems": [
    "C161_get_refuted",
    "C161_put_refuted",
    "C161_statement_refuted",
    "C161_get_partial",
    "C161_put_partial"
   ],
   "note": "false: getting a file the server does not have empties the local file of that name; putting a file that cannot be opened here empties the server's. Proved: a success makes them equal; a failure leaves the destination as it was or a beginning of the source (or empty); it is as it was if it cannot be written; nothing else ever changes"
  }
 ]
}