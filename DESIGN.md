# Formal model of st_asio_wrapper — design

Tool: Coq (Rocq) 8.16.1, plain standard library (no plugins, no other libraries). Sources are in
`rocq/theories`, logical name `Verif`, one group of files per part of the library:

* `M_*.v` — executable model (no proofs); each definition cites file and lines of /repo
* `S_*.v` — small independent specifications (what the user expects); they mention no helper of the model
* `L_*.v` — lemmas
* `P_*.v` — the property theorems, each with an `Example` that its hypotheses can be met by a
  non-trivial case, and `Print Assumptions`

Build: `cd rocq && coq_makefile -f _CoqProject -o Makefile && make -j4` (about three minutes).

## Method

* Sequential code (packers, unpackers, buffers, queues, statistics, SOCKS, file ranges, placing) is
  modelled function by function as total computable functions. Undefined behaviour (access outside a
  block, use after free, signed overflow) and failing assertions are distinct outcomes (`Bad`), never
  silently given a meaning; unsigned arithmetic wraps explicitly.
* Concurrent code (sending, dispatching, receiving, synchronous calls, starting and closing, links,
  UDP, pools, service threads, accepting) is modelled as transition systems
  `step : state -> action -> option (state * events)`; an action is one atomic operation of one of any
  number of threads, of a strand, of a timer or of the environment. Properties quantify over all
  finite lists of actions (all interleavings, any length).
* Safety is proved by inductive invariants. Progress ("will be …") is proved as the existence of a
  continuation made of library steps only. Refutations of progress exhibit a state from which *no*
  continuation does what is wanted.
* If a property does not hold of the code, the full statement is visible as a `Definition
  Cxx_statement : Prop`, its negation is proved (`…_statement_refuted`), a concrete execution is
  exhibited (`…_refuted`, by computation), and what does hold is proved as `…_partial` with the
  excluded situation as an explicit hypothesis.
* Theorems are tested against wrong programs: realistic bugs are seeded into the model and the build
  must fail; the attempts are in `seeded/LOG.jsonl`.

## Properties one by one

Status as in MANIFEST.json. "Disagreement" says where the code does not do what the property asks for; the witness is the theorem ending in `_refuted`.

### C01 — Length-prefixed receive delivers exactly the sent messages (proved)

* Model: M_Rx (reader_writer::async_read, asio's composed async_read with any chunking, recv_handler); M_Unpacker
* Proof: Every single read of the unpacker refines a greedy reader of length-prefixed byte strings (L_Unpacker, L_Frame); L_Rx lifts this to every run, S_Rx.receives_frames states it over bytes and messages only.
* Theorems: `C01_unpacker_delivers_exactly`
* Note: every configuration, stream, chunking.

### C02 — The length-prefixed reader never stalls and never overruns its buffer (proved)

* Model: as C01
* Proof: never_stops of S_Rx: in every reachable state the receiver waits for at least one byte and the area given to the socket lies inside its buffer, for arbitrary bytes. Memory accesses outside the block are the outcome `Bad`, excluded by the theorem.
* Theorems: `C02_unpacker_never_stops`
* Note: for arbitrary, also malformed bytes.

### C03 — A malformed length header is always reported and earlier messages survive (proved)

* Model: as C01
* Proof: rejects_bad_header of S_Rx, by the same refinement: what the greedy reader does with a bad length field.
* Theorems: `C03_unpacker_rejects_bad_header`

### C04 — The flexible unpacker is equivalent to the plain one for all message sizes (proved)

* Model: M_Rx (reader_writer::async_read, asio's composed async_read with any chunking, recv_handler); M_Flex
* Proof: As C01 with the invariant for the small and the big buffer; for every size of the fixed buffer, plus the instance 4000 of the code.
* Theorems: `C04_flexible_unpacker`, `C04_flexible_unpacker_4000`
* Note: for every size of the fixed buffer.

### C05 — The non-copy unpacker delivers exactly the sent messages (proved)

* Model: M_Rx (reader_writer::async_read, asio's composed async_read with any chunking, recv_handler); M_NonCopy
* Proof: As C01; state of the unpacker is either "header expected" or "body of n bytes expected".
* Theorems: `C05_non_copy_unpacker`

### C06 — Prefix/suffix receive delivers exactly the sent messages (proved)

* Model: M_Rx (reader_writer::async_read, asio's composed async_read with any chunking, recv_handler); M_PrefixSuffix (memmem is the search of the first occurrence)
* Proof: Refinement of a greedy reader of prefix/suffix messages (L_Affix); S_Affix states what the application must have after any number of bytes.
* Theorems: `C06_prefix_suffix_delivers_exactly`

### C07 — Prefix/suffix: malformed data never silently stops reception (partial)

* Model: as C06
* Proof: Refuted by a computed run; proved part: a wrong prefix at the beginning of a read is reported, however the bytes are cut.
* Theorems: `C07_refuted`, `C07_statement_refuted`, `C07_wrong_prefix_reported_partial`
* Disagreement: `include/ext/unpacker.h` prefix_suffix_unpacker: after a delivered message followed by a wrong first byte in the same read, the completion condition returns 0 at once, so the next read ends with 0 bytes and recv_handler (include/tcp/socket.h:347-382) silently stops receiving.
* Note: the wanted statement is false of the code (witness); the part that holds is proved.

### C08 — Prefix/suffix heartbeats are noticed on arrival (partial)

* Model: as C06
* Proof: Refuted by a computed run. The part that holds (C08_noticed_with_next_byte_partial): after any reception whatever, the read completes at the latest with the first byte behind the heartbeat, since the suffix is then found behind the prefix of whatever is pending.
* Theorems: `C08_refuted`, `C08_statement_refuted`, `C08_noticed_with_next_byte_partial`
* Disagreement: A complete heartbeat `prefix suffix` does not complete the read (peek_msg skips it), so last_recv_time is not refreshed on arrival.
* Note: the wanted statement is false of the code (witness); proved: a heartbeat is noticed with the first byte behind it, whatever came before.

### C09 — Fixed-length and stream unpackers preserve the byte stream (proved)

* Model: M_Rx (reader_writer::async_read, asio's composed async_read with any chunking, recv_handler); M_Simple
* Proof: Invariant: delivered bytes ++ pending bytes = received bytes; list arithmetic.
* Theorems: `C09_fixed_length_cuts_exactly`, `C09_stream_delivers_every_read`

### C10 — UDP keeps datagram boundaries (proved)

* Model: M_UdpRx
* Proof: Induction over the datagrams.
* Theorems: `C10_datagram_boundaries`, `C10_long_datagrams_are_cut`
* Note: datagrams longer than the buffer are cut by the operating system; stated separately.

### C11 — Packing frames a message with its exact length or refuses it (proved)

* Model: M_Packer (all overloads, sizes with explicit wrapping)
* Proof: Arithmetic of the size check plus list equality; S_Packer.frame is the independent description of a frame.
* Theorems: `C11_pack_array_exact`, `C11_ps_pack_array_exact`

### C12 — All packing overloads put the same bytes on the wire (proved)

* Model: M_Packer
* Proof: All overloads are shown equal to S_Packer.frame.
* Theorems: `C12_overloads_agree`

### C13 — The length header is never truncated (partial)

* Model: M_Packer
* Proof: Refuted by vm_compute for a configuration above 65535 bytes without ST_ASIO_HUGE_MSG; proved for configurations whose buffer fits the header, for the array form, and with assertions.
* Theorems: `C13_refuted`, `C13_statement_refuted`, `C13_header_exact_partial`, `C13_debug_never_truncates`
* Disagreement: include/ext/packer.h pack_header: the length is cast to HEAD_TYPE; with ST_ASIO_MSG_BUFFER_SIZE > 65535, 2-byte headers and NDEBUG a frame of 65536 bytes gets the header 0.
* Note: false with ST_ASIO_MSG_BUFFER_SIZE > 65535, no ST_ASIO_HUGE_MSG and NDEBUG (witness); proved for all other configurations, for the array form and for builds with assertions.

### C14 — Size computation cannot be fooled by integer overflow (proved)

* Model: M_Packer.msg_size_check
* Proof: Case analysis of the wrapped sum; the result equals the mathematical total whenever that is small enough and is an error otherwise.
* Theorems: `C14_size_check_exact`

### C15 — Heartbeats never reach the application (proved)

* Model: as C01/C06
* Proof: Corollary of the delivery theorems: heartbeats contribute no message in the specification.
* Theorems: `C15_heartbeats_invisible`, `C15_prefix_suffix_heartbeats_invisible`
* Note: generic in the length-prefixed receiver; instances by C01, C04, C05.

### C16 — End-to-end: what one side sends the other side handles (proved)

* Model: M_Packer + all receivers
* Proof: Composition of C11/C12 with C01, C04, C05, C06, C09.
* Theorems: `C16_end_to_end`, `C16_sending_safe`, `C16_end_to_end_unpacker`, `C16_end_to_end_flexible`, `C16_end_to_end_non_copy`, `C16_end_to_end_prefix_suffix`, `C16_end_to_end_fixed_length`
* Note: for configurations whose buffer size fits the header.

### C17 — basic_buffer behaves like a byte string and stays inside its allocation (proved)

* Model: M_Buffer (block, length, capacity; realloc may move, fail and leaves new memory unspecified)
* Proof: Refinement of byte strings (S_Buffer) over all histories on two objects; out-of-bounds and use-after-free are distinct outcomes that do not occur.
* Theorems: `C17_buffer_is_a_string`, `C17_throws_only_when_illegal`
* Note: all histories on two objects.

### C18 — basic_buffer self-operations and the derived forms are right (partial)

* Model: M_Buffer
* Proof: Four computed witnesses; self-append without growth and the empty substring from the end on proved.
* Theorems: `C18_self_assign_refuted`, `C18_self_append_refuted`, `C18_append2_refuted`, `C18_substring_refuted`, `C18_statements_refuted`, `C18_self_append_partial`, `C18_substring_partial`
* Disagreement: include/ext/ext.h basic_buffer: self-assignment empties the buffer, self-append reads freed memory when it grows, append2(const char*) keeps the NUL of the former content, the (other,pos,len) constructor calls a different overload.
* Note: all four parts are false of the code (witnesses); self-append without growth proved.

### C19 — Message queues are FIFO and their byte counters exact (proved)

* Model: M_Queue (counter modulo 2^64)
* Proof: Refinement of an ideal deque over all histories (S_Queue).
* Theorems: `C19_queue_is_a_deque`
* Note: while the content fits the address space.

### C20 — Batching takes the shortest non-empty prefix that reaches the limit (proved)

* Model: M_Queue
* Proof: Characterisation of the shortest prefix reaching the limit, by induction.
* Theorems: `C20_batches`

### C21 — At most one write is outstanding per socket (proved)

* Model: M_Send: threads in the send functions, the I/O strand, completions; single atomic operations interleaved; any number of threads
* Proof: Inductive invariant over all reachable states: the sending flag, the program counter of the strand and the batch in flight determine each other.
* Theorems: `C21_one_write_at_a_time`
* Note: any number of threads, any interleaving of atomic operations.

### C22 — Bytes leave in the order messages were queued, each exactly once (proved)

* Model: M_Send: threads in the send functions, the I/O strand, completions; single atomic operations interleaved; any number of threads
* Proof: Invariant: handed items ++ items in flight ++ send buffer = queued items.
* Theorems: `C22_fifo_exactly_once`

### C23 — A queued message is never left behind while the link is up (no lost wake-up) (proved)

* Model: M_Send: threads in the send functions, the I/O strand, completions; single atomic operations interleaved; any number of threads
* Proof: Invariant counting pending wake-ups (safety), and a measure on the library's own steps (termination).
* Theorems: `C23_no_lost_wakeup`, `C23_everything_is_sent`
* Note: safety (quiet implies empty) and termination of the started work.

### C24 — The send buffer respects its limit (proved)

* Model: M_Send: threads in the send functions, the I/O strand, completions; single atomic operations interleaved; any number of threads
* Proof: Invariant with one allowance per concurrent caller that has passed the check.
* Theorems: `C24_buffer_limit`, `C24_refused_iff_full`

### C25 — Priority sending never corrupts framing (partial)

* Model: M_Send: threads in the send functions, the I/O strand, completions; single atomic operations interleaved; any number of threads
* Proof: Refuted by a computed schedule; proved for messages that are one queue item or without prior.
* Theorems: `C25_refuted`, `C25_statement_refuted`, `C25_framed_partial`, `C25_prior_goes_first`
* Disagreement: With two queue items per message (header and body, include/ext/packer.h container overloads) a prior message is put between them at the front of the queue (include/container.h move_items_in_front), so the stream is torn.
* Note: false of the code: header and body are separate items; holds for one-item messages or without prior.

### C26 — Shrinking the send buffer discards whole messages (partial)

* Model: M_Send: threads in the send functions, the I/O strand, completions; single atomic operations interleaved; any number of threads; shrink in M_Send
* Proof: Refuted by computation; byte counts proved.
* Theorems: `C26_refuted`, `C26_statement_refuted`, `C26_shrink_partial`
* Disagreement: include/socket.h:396-416 discards queue items, not messages: a header may go while its body stays.
* Note: framing part false of the code; byte counts proved.

### C27 — Synchronous sends always return, truthfully (partial)

* Model: M_SyncSend: promises, calls, send buffer, closing, discarding, reuse
* Proof: `dead` invariants for the refutations (no continuation ever returns); progress by constructing a continuation; conservation of items for SUCCESS.
* Theorems: `C27_returns_once`, `C27_close_refuted`, `C27_shrink_refuted`, `C27_returns_statement_refuted`, `C27_returns_partial`, `C27_empty_refuted`, `C27_container_refuted`, `C27_success_statement_refuted`, `C27_last_handed_partial`, `C27_all_handed_partial`
* Disagreement: include/tcp/socket.h:273-282: on_close completes only the promises of messages being written, not of those still in the send buffer; shrink_send_buffer (include/socket.h:396-416) and reset drop messages without completing their promises; do_direct_sync_send_msg returns SUCCESS for an empty (unpackable) message; for containers only the last message is tracked.
* Note: false of the code: messages waiting in the send buffer are not answered when the link closes, is reused or when they are discarded; SUCCESS is returned for unpackable messages and for containers whose first messages were lost; proved when these are excluded.

### C28 — Messages are handled in order, each exactly once (proved)

* Model: M_Dispatch (receiving strand, dispatch strand, retry timer, closing, reconnecting) on M_FTimer (a timer used by several threads, atomic steps)
* Proof: Invariant: received = handled ++ in hands, oldest first; the spec S_Dispatch is a function of the trace.
* Theorems: `C28_in_order`

### C29 — Received messages are never stranded (no lost dispatch) (partial)

* Model: M_Dispatch (receiving strand, dispatch strand, retry timer, closing, reconnecting) on M_FTimer (a timer used by several threads, atomic steps)
* Proof: Refuted with a schedule and a dead-state invariant; proved by counting pending activity when the timer is used by one thread at a time.
* Theorems: `C29_refuted`, `C29_statement_refuted`, `C29_not_stranded_partial`
* Disagreement: include/socket.h:767 starts TIMER_DISPATCH_MSG from the dispatch strand while the handler of its previous expiration may still be in timer_handler (include/timer.h:188-194), which compares ti.seq and then marks the new timer as cancelled: test and set are not atomic.
* Note: false of the code with several service threads: the retry timer is started from the dispatch strand while its last handler may still be running, which then cancels it; proved when the timer is used by one thread at a time.

### C30 — Message handling survives a reconnect (partial)

* Model: M_Dispatch (receiving strand, dispatch strand, retry timer, closing, reconnecting) on M_FTimer (a timer used by several threads, atomic steps)
* Proof: Refuted with a schedule and a dead-state invariant; proved when no refused message waits at closing.
* Theorems: `C30_refuted`, `C30_statement_refuted`, `C30_survives_partial`
* Disagreement: close() stops TIMER_DISPATCH_MSG (include/socket.h:444-448) but leaves `dispatching` set; after reconnecting nobody dispatches any more.
* Note: false of the code when a refused message waits for its retry while the link closes; proved otherwise.

### C31 — Paused reading always resumes (partial)

* Model: M_RecvFlow on M_FTimer
* Proof: Dead-state invariant for the refutation; counting invariant for the proved part.
* Theorems: `C31_resume_refuted`, `C31_statement_refuted`, `C31_resumes_partial`
* Disagreement: As C29 for TIMER_CHECK_RECV (include/socket.h:693-726).
* Note: false of the code with several service threads: the receive timer is started from the strand while its last handler may still be running, which then cancels it; proved when the timer is used by one thread at a time.

### C32 — sync_recv_msg never returns an empty success and never sleeps forever (partial)

* Model: M_SyncRecv: any number of callers, receiving strand, closing; mutex, condition variable with spurious wake-ups
* Proof: Refutations by schedules with an absorbing state; the proved parts by invariants.
* Theorems: `C32_empty_success_refuted`, `C32_nonempty_statement_refuted`, `C32_nonempty_partial`, `C32_lost_wakeup_refuted`, `C32_awake_statement_refuted`, `C32_awake_partial`, `C32_timeout`, `C32_timeout_only`
* Disagreement: include/socket.h:282-303, 488-501: handle_msg answers a waiting caller even if nothing was unpacked; close (439-442) clears started_ without holding sync_recv_mutex, so a caller between testing its predicate and sleeping misses the notification.
* Note: false of the code: an empty success is returned when a read yields no complete message, and a caller can miss the notification of closing and sleep forever; both proved when these two situations are excluded.

### C33 — on_close runs exactly once per life, after all asynchronous calls (partial)

* Model: M_Life: start(), close(), TIMER_DELAY_CLOSE's handler step by step, any number of threads in each
* Proof: Schedules for the refutations; for the proved parts an invariant over executions in which starts and closes do not overlap with each other or the closing timer's handlers (`calm`), and a continuation reaching on_close.
* Theorems: `C33_two_starts_refuted`, `C33_start_in_close_refuted`, `C33_order_statement_refuted`, `C33_lost_refuted`, `C33_pending_refuted`, `C33_obsolete_refuted`, `C33_order_partial`, `C33_quiet_partial`, `C33_obsolete_partial`, `C33_obsolete_told`, `C33_eventually_partial`
* Disagreement: include/socket.h:150-162 tests started_ and the timer before taking the lock; 428-467 clears started_ before starting TIMER_DELAY_CLOSE; the handler of the former closing may cancel the timer of the next one (as C29); is_last_async_call (include/tracked_executor.h:58-66) is not rechecked before on_close; obsoleted_ stays set when after_close restarted the client (include/socket.h:810).
* Note: false of the code: start() racing with close() or another start() is accepted before on_close, the handler of the former closing can cancel the timer of the next one so on_close is never called, the application can begin a call between the last check and on_close, a reconnected client without operation in progress is reported obsolete; all proved when these overlaps are excluded.

### C34 — Starting and closing never deadlock (partial)

* Model: M_Life: start(), close(), TIMER_DELAY_CLOSE's handler step by step, any number of threads in each
* Proof: Refuted by a schedule with an absorbing set of states; release proved for executions without inline shutdown.
* Theorems: `C34_deadlock_refuted`, `C34_statement_refuted`, `C34_released_partial`
* Disagreement: A server's do_start calls on_connect() under the start lock (include/socket.h:154-156); force_shutdown in on_connect may run close() in the same thread, which spins on that lock forever (431-435).
* Note: false of the code: a shutdown called in on_connect of a server socket may wait for the lock its own thread holds; otherwise the lock is always released.

### C35 — A link is ready only while the socket is started (partial)

* Model: M_Link: status, requests, strand, connecting, reading, three timers, reconnecting; clients and servers
* Proof: Refuted by a schedule; proved without a connection completing while closing.
* Theorems: `C35_ready_refuted`, `C35_ready_statement_refuted`, `C35_ready_partial`
* Disagreement: _force_shutdown of a client that is still connecting only closes the socket (include/tcp/socket.h:318-327, status BROKEN); a connect handler that completed successfully just before runs afterwards and sets CONNECTED (include/tcp/client_socket.h:131-146).
* Note: false of the code when connecting succeeds at the same time as a shutdown; proved without that coincidence.

### C36 — Graceful shutdown ends in bounded time (proved)

* Model: M_Link: status, requests, strand, connecting, reading, three timers, reconnecting; clients and servers
* Proof: Invariant relating the remaining ticks of the shutdown timer to the trace; a continuation of library steps reaching the forced shutdown.
* Theorems: `C36_bounded`, `C36_ends`
* Note: for links that are in use (started) when the graceful shutdown begins, with ST_ASIO_GRACEFUL_SHUTDOWN_MAX_DURATION >= 1 as config.h demands; counted in timer ticks of 10 ms.

### C37 — Reconnection follows the user's wish (partial)

* Model: M_Link: status, requests, strand, connecting, reading, three timers, reconnecting; clients and servers
* Proof: Schedules with dead-state invariants; the proved parts exclude exactly one coincidence each.
* Theorems: `C37_attempts_refuted`, `C37_attempts_statement_refuted`, `C37_ghost_refuted`, `C37_attempts_partial`, `C37_wish_refuted`, `C37_wish_statement_refuted`, `C37_wish_partial`, `C37_bind_refuted`, `C37_trying_statement_refuted`, `C37_trying_partial`
* Disagreement: connect() (include/tcp/client_socket.h:185-197) does not look at started; force_shutdown(need_reconnect) called by the library (149-172) writes back a wish it read earlier; a failing bind() in connect() ends the chain without any callback.
* Note: false of the code: a timer handler that is about to connect connects after the shutdown and leaves a connection nobody can close; the library's own force_shutdown(need_reconnect) may undo a simultaneous force_shutdown(false); a failing bind() ends the trying silently. Each is proved without its coincidence.

### C38 — Live links are kept (partial)

* Model: M_Heart on a time line
* Proof: Refuted by computed time lines; proved with one second less and a steady clock.
* Theorems: `C38_live_refuted`, `C38_live_statement_refuted`, `C38_clock_refuted`, `C38_live_partial`
* Disagreement: check_heartbeat (include/socket.h:192-210) uses time(NULL): truncation costs up to one second, setting the clock forward drops live links at once.
* Note: false of the code by up to one second because times are truncated, and arbitrarily when the wall clock is set; proved with one second less and a steady clock.

### C39 — A stopped timer stays silent until set again (proved)

* Model: M_Timer (any number of timers, one thread at a time)
* Proof: Trace invariants over all histories and handler orders.
* Theorems: `C39_stopped_is_silent`, `C39_false_ends`, `C39_true_keeps_running`, `C39_running_fires`, `C39_stop_all`
* Note: all histories, any order of queued handlers.

### C40 — A timer that was started and not stopped is running (partial)

* Model: M_Timer
* Proof: Refuted by computation with 256 restarts; proved below that.
* Theorems: `C40_refuted`, `C40_statement_refuted`, `C40_partial`
* Disagreement: ti.seq is an unsigned char (include/timer.h:62): after 256 starts within one callback the handler takes the new wait for its own and marks it cancelled.
* Note: false of the code: the 8-bit sequence number wraps; proved when fewer than 256 starts happen between a wait's start and the end of its handler.

### C41 — Ids of valid objects are unique and lookups exact (proved)

* Model: M_Pool: containers, reference counts, object ids, critical sections interleaved
* Proof: Invariant: the map's keys are the ids of its objects, without duplicates.
* Theorems: `C41_find_exact`, `C41_ids_unique`
* Note: all histories and interleavings of critical sections.

### C42 — Objects are freed or reused only when nobody uses them (proved)

* Model: M_Pool: containers, reference counts, object ids, critical sections interleaved
* Proof: Reference counting invariant.
* Theorems: `C42_freed_when_unused`, `C42_not_in_hands`

### C43 — Automatic object ids do not repeat (proved)

* Model: M_Pool: containers, reference counts, object ids, critical sections interleaved
* Proof: Counter invariant; the arithmetic of distinctness modulo 2^64.
* Theorems: `C43_ids_count_up`, `C43_ids_distinct`

### C44 — Restoring a socket swaps identity without loss (proved)

* Model: M_Pool: containers, reference counts, object ids, critical sections interleaved with generic_server::restore_socket
* Proof: Symbolic execution from any reachable state.
* Theorems: `C44_restored`, `C44_refused`, `C44_init`, `C44_absent`

### C45 — New objects are placed on the least loaded io_context (proved)

* Model: M_Pump.least and assign
* Proof: least is proved to be the first minimum; spread by induction over creations.
* Theorems: `C45_least_loaded`, `C45_spread`

### C46 — io_context reference counts balance (partial)

* Model: M_Pump
* Proof: Refuted by computation; proved when io_contexts are added before objects.
* Theorems: `C46_refuted`, `C46_statement_refuted`, `C46_balanced_partial`, `C46_back_to_zero_partial`
* Disagreement: include/service_pump.h:189-214: references are not counted while single_ctx is set, but returned after it was cleared.
* Note: false of the code when io_contexts are added after objects were created (the unsigned counter wraps); proved when all io_contexts exist before the first object.

### C47 — Service threads are spread evenly (partial)

* Model: M_Pump
* Proof: Refuted by computation; proved without blocking calls before.
* Theorems: `C47_refuted`, `C47_statement_refuted`, `C47_spread_partial`
* Disagreement: run_service/add_service_thread with block=true does not count the calling thread (include/service_pump.h:357-367).
* Note: false of the code: a thread blocked in run_service is not counted; proved when only the last call blocks.

### C48 — Decreasing threads never removes the last one (partial)

* Model: M_Pump.dstep: threads step by step with the two atomic counters
* Proof: Refuted by schedules; counting invariants without exceptions.
* Theorems: `C48_refuted`, `C48_statement_refuted`, `C48_stop_refuted`, `C48_never_the_last_partial`, `C48_thread_num_partial`
* Disagreement: include/service_pump.h:473-483: a thread leaves its loop after any exception; with on_exception returning false it does not decrease real_thread_num.
* Note: false of the code after an exception; proved without exceptions.

### C49 — The server's listening state is the truth (partial)

* Model: M_Listen
* Proof: Refuted by computation; invariant when listen succeeds.
* Theorems: `C49_refuted`, `C49_statement_refuted`, `C49_truth_partial`, `C49_stop_recovers`
* Disagreement: include/tcp/server.h:94-121: `listening` is set before listen() and not reset when listen() fails.
* Note: false of the code when the listen call fails (the flag stays set and retrying is refused); proved when it does not; stop_listen always recovers.

### C50 — SOCKS requests are encoded as the RFCs say (proved)

* Model: M_Socks, decoder of the RFCs in S_Socks
* Proof: Round trip for every accepted setting; bounds of the 64-byte buffer by explicit outcomes.
* Theorems: `C50_methods`, `C50_auth`, `C50_request`, `C50_target_accepted`, `C50_negotiates`, `C50_socks4`
* Note: textual IP addresses are parsed by boost (any parser).

### C51 — SOCKS5 handshakes do not depend on fragmentation (partial)

* Model: M_Socks
* Proof: Refuted by three computed handshakes; induction over fragments for the proved part.
* Theorems: `C51_refuted`, `C51_long_reply_refuted`, `C51_negative_length_refuted`, `C51_statement_refuted`, `C51_fragmentation_partial`
* Disagreement: include/tcp/proxy/socks.h:267-365: reads may take the peer's first bytes together with the reply and then refuse it; replies longer than 64 bytes are refused; the length of a bound domain is read as a signed char.
* Note: false of the code in three ways; proved when the reply fits 64 bytes and shares no read with the peer's bytes.

### C52 — The SOCKS5 target is the last one set (partial)

* Model: M_Socks
* Proof: Refuted by computation; proved when no domain name was set before.
* Theorems: `C52_refuted`, `C52_statement_refuted`, `C52_last_target_partial`
* Disagreement: socks.h:124-145, 210-250: target_domain is not cleared when an address is set.
* Note: false of the code: an address set after a domain name is ignored; proved otherwise.

### C53 — Adding up statistics is exact and order independent (partial)

* Model: M_Stat
* Proof: Refuted by computation; sums and maxima by induction over trees.
* Theorems: `C53_refuted`, `C53_order_refuted`, `C53_statement_refuted`, `C53_sums_partial`, `C53_minimum_partial`
* Disagreement: include/base.h:357-368: a minimum of 0 stands for "none" only in the left operand.
* Note: false of the code for minima when an operand has no sample; everything else proved.

### C54 — A file split over links is covered exactly once (proved)

* Model: M_File.slice
* Proof: Division with remainder.
* Theorems: `C54_covered_once`, `C54_inside`, `C54_refused`
* Note: off_t arithmetic on unbounded integers; results shown to lie within the file.

### C55 — File reception writes exactly the announced bytes (partial)

* Model: M_File
* Proof: Refuted by computation; proved for lengths >= 0.
* Theorems: `C55_refuted`, `C55_statement_refuted`, `C55_exact_partial`
* Disagreement: file_server/file_socket.cpp:209-210 takes the announced length unchecked; a negative one makes prepare_next_recv ask for 2^64-n bytes into a 65536-byte buffer.
* Note: false of the code for negative lengths, which a peer can announce; proved for all others.

### C56 — UDP reception continues after transient errors (partial)

* Model: M_UdpRx
* Proof: Refuted by computation for non-Windows builds.
* Theorems: `C56_windows_receives_on`, `C56_reported`, `C56_refuted`, `C56_statement_refuted`
* Disagreement: include/udp/socket.h:264-328: only on Windows do connection_refused/reset not end reception.
* Note: holds when compiled for Windows, refuted elsewhere.

### C57 — Reliable UDP goes on sending (partial)

* Model: M_UdpSend on M_FTimer: application threads, strand, completions, KCP window, TIMER_CC, closing and starting
* Proof: Schedules with dead-state invariants; counting invariant of pending activity for the proved part.
* Theorems: `C57_resume_refuted`, `C57_restart_refuted`, `C57_statement_refuted`, `C57_goes_on_partial`
* Disagreement: include/udp/reliable_socket.h:113-121, 166-182: TIMER_CC is restarted while its former handler is finishing (as C29); closing during congestion leaves `sending` set.
* Note: false of the code for reliable UDP when the congestion timer is started while its former handler is finishing, and after closing during congestion; proved when these two are excluded.

### C58 — safe_send never gives up or spins without reason (partial)

* Model: M_SafeSend over M_Packer
* Proof: Refuted by computation and induction over the attempts.
* Theorems: `C58_spin_refuted`, `C58_dropped_refuted`, `C58_statement_refuted`, `C58_fits_partial`, `C58_false_means_not_queued`
* Disagreement: include/base.h:784-797 retries whenever send_msg fails, also when packing can never succeed; the array form ignores the result of pack_msg (C62).
* Note: false of the code for messages that are too long: retried forever or dropped with true, depending on the overload; proved for messages that fit.

### C59 — Timer ids of library layers never collide (proved)

* Model: M_TimerIds + M_Timer
* Proof: Induction over class chains; frame property of timer operations.
* Theorems: `C59_ids_distinct`, `C59_no_interference`

### C60 — No bytes of a broken link leak into the next one (proved)

* Model: as C01/C06
* Proof: Corollary of the refinements with reset.
* Theorems: `C60_unpacker_clean_after_break`, `C60_prefix_suffix_clean_after_break`
* Note: also part of C04 and C05 for the other length-prefixed receivers.

### C61 — The prefix/suffix receiver is memory safe for every input (proved)

* Model: as C06
* Proof: Invariant of L_Affix for arbitrary bytes; no `Bad` outcome.
* Theorems: `C61_prefix_suffix_memory_safe`
* Note: for arbitrary bytes.

### C62 — A send function that returns true has queued the message (partial)

* Model: M_Packer.send_msg
* Proof: Refuted by computation; proved for the other overloads.
* Theorems: `C62_refuted`, `C62_statement_refuted`, `C62_true_means_queued_partial`
* Disagreement: include/base.h TCP_SEND_MSG: the array form ignores the result of pack_msg and returns true.
* Note: the array forms ignore the result of pack_msg (witness).

### C63 — raw_data denotes exactly the body (proved)

* Model: M_Packer, M_Unpacker, M_PrefixSuffix
* Proof: List arithmetic.
* Theorems: `C63_raw_data_is_the_body`

### C64 — A successful shrink makes the send buffer available (partial)

* Model: M_Send.shrink
* Proof: Refuted by computation; sufficient condition proved.
* Theorems: `C64_refuted`, `C64_statement_refuted`, `C64_available_partial`
* Disagreement: include/socket.h:390-416 discards a third of the bytes (calc_shrink_size) and reports success, whether or not the rest is below the limit.
* Note: false of the code; sufficient condition proved.

### C65 — Aligned timers stay in phase (partial)

* Model: M_Timer.aligned_delay
* Proof: Arithmetic for every positive interval.
* Theorems: `C65_aligned`, `C65_zero_interval_refuted`
* Disagreement: include/timer.h aligned timers: interval 0 divides by zero once a callback takes a millisecond.
* Note: interval 0 divides by zero; proved for every positive interval.

### C66 — A timer never fires early (partial)

* Model: M_Timer
* Proof: Refuted by computation; proved when nothing is queued at a start.
* Theorems: `C66_refuted`, `C66_statement_refuted`, `C66_partial`
* Disagreement: An expiration queued before stop/start runs the callback at once: timer_handler checks the status, not the sequence number, before the callback.
* Note: false of the code: an expiration queued before stop and restart fires at once; proved when no expiration is queued at a start.

### C67 — The pool never holds more valid objects than allowed (partial)

* Model: M_Pool: containers, reference counts, object ids, critical sections interleaved
* Proof: Refuted by computation; counting invariant otherwise.
* Theorems: `C67_refuted`, `C67_statement_refuted`, `C67_capacity_partial`
* Disagreement: init_object_id / restore_socket insert an object that was not added, without looking at max_size.
* Note: false of the code: renaming an object that was not added inserts it whatever the size; proved when only valid objects are renamed or deleted.

### C68 — The pool keeps every object exactly once (partial)

* Model: M_Pool: containers, reference counts, object ids, critical sections interleaved
* Proof: Refuted by computation; conservation invariant otherwise.
* Theorems: `C68_refuted`, `C68_statement_refuted`, `C68_conserved_partial`
* Disagreement: del_object erases by id, so deleting an old object whose id is in use again drops the live one.
* Note: false of the code: deleting an already deleted object whose id is in use again drops the live object; proved when only valid objects are renamed or deleted.

### C69 — Pool operations do what they report (proved)

* Model: M_Pool: containers, reference counts, object ids, critical sections interleaved
* Proof: Symbolic execution of each operation from any reachable state.
* Theorems: `C69_add`, `C69_delete_by_id`, `C69_delete`, `C69_delete_absent`, `C69_clear`, `C69_free`

### C70 — No io_context loses its last thread (partial)

* Model: M_Pump.dstep
* Proof: Refuted by a schedule; counting invariant for one io_context, and for several the bound of C48 on the number of threads that leave.
* Theorems: `C70_refuted`, `C70_statement_refuted`, `C70_single_context_partial`, `C70_enough_partial`
* Disagreement: Only the total number of threads is kept above zero.
* Note: false of the code with several io_contexts; proved for one, and for each one that has more threads than were asked away in all.

### C71 — The number of outstanding accepts stays constant (partial)

* Model: M_Listen
* Proof: Refuted by two histories; counting invariant otherwise.
* Theorems: `C71_refuted`, `C71_late_error_refuted`, `C71_statement_refuted`, `C71_constant_partial`
* Disagreement: Handlers of accepts from before stop_listen start further accepts after a restart (include/tcp/server.h:251-266), or stop the server because of their error.
* Note: false of the code after stop_listen and a restart; proved when no earlier accept is still on its way.

### C72 — A proxied connection is reported only if the proxy granted it (proved)

* Model: M_Socks
* Proof: Induction over reads: only `Granted` connects; the requests sent decode to the settings.
* Theorems: `C72_only_if_granted`

### C73 — Only answers that follow the RFCs are taken (partial)

* Model: M_Socks
* Proof: Refuted by two computed handshakes.
* Theorems: `C73_refuted`, `C73_rubbish_refuted`, `C73_statement_refuted`, `C73_offered_partial`
* Disagreement: socks.h:277-352 checks neither version bytes, nor whether the method was offered, nor the address type.
* Note: false of the code: methods, versions and address types are not checked.

### C74 — Differences and averages of statistics (proved)

* Model: M_Stat
* Proof: Algebra modulo 2^64; average between minimum and maximum.
* Theorems: `C74_difference`, `C74_average`

### C75 — A file fetched over several links is the same file (proved)

* Model: M_File: several links writing into one file in any interleaving
* Proof: Invariant: every position is either already the server's byte or will be written by its only link.
* Theorems: `C75_sender_exact`, `C75_sender_truthful`, `C75_same_file`
* Note: the file does not change during the transfer and reading/writing it succeeds.

### C77 — A synchronous safe send hands the message over exactly once (partial)

* Model: M_SafeSend
* Proof: Refuted by computation; induction over attempts for the proved part.
* Theorems: `C77_twice_refuted`, `C77_lost_refuted`, `C77_statement_refuted`, `C77_exact_partial`
* Disagreement: include/base.h:905-925 repeats after TIMEOUT although the message is still queued, and with the emptied argument when it was passed by reference.
* Note: false of the code: after a time-out the message is sent twice; passed by reference it is consumed by the first attempt and an empty one reported as sent; proved without time-outs for the copying overloads.

### C78 — Timer callbacks live as long as they run (partial)

* Model: M_Callback: function objects and their life time
* Proof: Refuted by computation; induction for well-behaved callbacks.
* Theorems: `C78_graceful_refuted`, `C78_statement_refuted`, `C78_partial`
* Disagreement: include/tcp/socket.h:469-471: shutdown_handler replaces the callback that is running; include/timer.h:126-132 destroys the old one at once; include/base.h if_then_else_return then reads from it.
* Note: false of the code: shutdown_handler replaces the callback that is running, which is destroyed before if_then_else_return reads its result from it; proved for callbacks that do not touch themselves after replacing themselves.

### C79 — Receive back-pressure bounds the receive buffer (proved)

* Model: M_RecvFlow on M_FTimer
* Proof: Invariant: reads in progress + queued reads + timer activity <= 1 and the bytes were below the limit when a read was started.
* Theorems: `C31_bounded`
* Note: every execution.

### C80 — Synchronous receiving hands over each message exactly once (proved)

* Model: M_SyncRecv
* Proof: Invariant arrived = delivered ++ kept; the hand-over by symbolic execution of the two continuing steps from any reachable state.
* Theorems: `C32_once`, `C32_nothing_kept`, `C32_duplicate`, `C32_picked_up`
* Note: every execution.

### C81 — Promises of synchronous sends are completed once (proved)

* Model: M_SyncSend
* Proof: Invariant zinv: every promise in the library's hands belongs to one waiting call and has not been completed.
* Theorems: `C27_promise_once`, `C27_taken_answered`
* Note: every execution.

### C82 — on_close is called at most once per shutdown (proved)

* Model: M_Life: start(), close(), TIMER_DELAY_CLOSE's handler step by step, any number of threads in each
* Proof: Counting invariant (tokens): on_close calls + tokens able to call it <= shutdowns.
* Theorems: `C33_at_most_once`
* Note: every execution.

### C83 — Starting and closing exclude each other (proved)

* Model: M_Life: start(), close(), TIMER_DELAY_CLOSE's handler step by step, any number of threads in each
* Proof: Counting invariant: holders of the lock = 1 if locked, else 0; started_ is constant while somebody else holds the lock.
* Theorems: `C34_exclusive`, `C34_turns`
* Note: every execution.

### C84 — Link status follows its life cycle (proved)

* Model: M_Link: status, requests, strand, connecting, reading, three timers, reconnecting; clients and servers
* Proof: Case analysis of every step (legal), history invariant (forced).
* Theorems: `C35_legal`, `C35_forced`
* Note: every execution, clients and servers.

### C85 — Connection attempts are paced and stop (proved)

* Model: M_Link: status, requests, strand, connecting, reading, three timers, reconnecting; clients and servers
* Proof: Trace invariants: each attempt is matched with the start or prepare_reconnect result that scheduled it; silence by an invariant of closed states.
* Theorems: `C37_paced`, `C37_silent`, `C37_prepared`, `C37_lives`
* Note: every execution.

### C86 — Dead links are detected in bounded time and idle links send heartbeats (proved)

* Model: M_Heart
* Proof: Linear arithmetic over the invariant of time stamps (due times, last sent, last received); composition of two ends. That time can go on for a link that is up, so that these bounds mean something, is C38_goes_on (P_HeartOn); a drop is never later than the bound (C38_in_time), and left alone the link is dropped (C38_ends).
* Theorems: `C38_silent`, `C38_detected`, `C38_beats`, `C38_kept`, `C38_goes_on`, `C38_in_time`, `C38_ends`
* Note: steady wall clock; heartbeat not empty.

### C87 — UDP sends one datagram at a time, in order (proved)

* Model: M_UdpSend on M_FTimer: application threads, strand, completions, KCP window, TIMER_CC, closing and starting
* Proof: Invariant: at most one datagram in flight, started = queued order.
* Theorems: `C57_one_in_order`, `C57_plain_goes_on`, `C57_waits_for_start`
* Note: every execution.

### C88 — SOCKS4 handshakes do not depend on fragmentation (proved)

* Model: M_Socks.socks4_answer
* Proof: List arithmetic.
* Theorems: `C51_socks4`

### C89 — A service is initialised and uninitialised in turns (partial)

* Model: M_Service: the registered services, their objects, the call stack of the thread that uses the pump (so that virtual functions may call the pump again), service_can_mutex
* Proof: Inductive description of every call stack a tame program can cause (L_Service.shape), preserved by every step; refuted by a computed run.
* Theorems: `C89_refuted`, `C89_statement_refuted`, `C89_partial`
* Disagreement: include/service_pump.h:33: started_ is set after init returned, so start_service(this) in init calls init again.
* Note: false of the code when init starts its own service again; proved for programs that use the pump only from outside the services' functions and do not destroy running services.

### C90 — Starting and stopping the pump reaches every service (partial)

* Model: M_Service: the registered services, their objects, the call stack of the thread that uses the pump (so that virtual functions may call the pump again), service_can_mutex
* Proof: From the same description; the statements speak about the step in which the threads are created, respectively the pump has ended.
* Theorems: `C90_refuted`, `C90_statement_refuted`, `C90_start_partial`, `C90_stop_partial`, `C90_too_few`
* Disagreement: include/service_pump.h:311-321: while stopping, is_service_started() is still true, so a function of one service may start another one that was stopped before; it runs on after the end.
* Note: false of the code when a service's function starts other services; proved for programs as in C89.

### C91 — Calls of the pump return (partial)

* Model: M_Service: the registered services, their objects, the call stack of the thread that uses the pump (so that virtual functions may call the pump again), service_can_mutex
* Proof: A measure of the call stack that every step of the library decreases; in every described state with a non-empty stack a step is possible. Refuted by a computed run.
* Theorems: `C91_refuted`, `C91_statement_refuted`, `C91_partial`
* Disagreement: include/service_pump.h:499: do_something_to_all holds the mutex while init/uninit/finalize run; constructing (add), destroying (remove) or finding a service in them locks it again.
* Note: false of the code when init or uninit constructs, destroys or looks up a service while the pump is being started or stopped: the mutex is held; proved for programs as in C89.

### C92 — Destroyed services are not used (partial)

* Model: M_Service: the registered services, their objects, the call stack of the thread that uses the pump (so that virtual functions may call the pump again), service_can_mutex
* Proof: The description contains which objects exist; refuted by three computed runs.
* Theorems: `C92_refuted`, `C92_statement_refuted`, `C92_partial`
* Disagreement: include/service_pump.h:28, 235, 434: ~i_service removes the service, which calls uninit of the derived class that is already destroyed; 435: free() overridden by deletion destroys a service in its own destructor; 262-264: clear() keeps pointers that uninit of another service may invalidate.
* Note: false of the code: destroying a running service calls the pure virtual uninit; proved for programs as in C89.

### C93 — A service is freed once (partial)

* Model: M_Service: the registered services, their objects, the call stack of the thread that uses the pump (so that virtual functions may call the pump again), service_can_mutex
* Proof: Counting: frees plus existing objects never exceed constructions, for every program that does not remove services; refuted by a computed run.
* Theorems: `C93_refuted`, `C93_statement_refuted`, `C93_partial`
* Disagreement: include/service_pump.h:435 and 28: free() is called by remove and once more by the destructor.
* Note: false of the code: remove calls free and the destructor calls it again; proved, for every program, if services are not removed other than by destroying them.

### C94 — Services are found by their identity (proved)

* Model: M_Service: the registered services, their objects, the call stack of the thread that uses the pump (so that virtual functions may call the pump again), service_can_mutex
* Proof: By the properties of the search; for every reachable state, tame or not.
* Theorems: `C94`

### C95 — Every socket of a running service is started (proved)

* Model: M_Links: the sockets of one service (server or multi client), the thread that starts and stops the pump, any number of threads in add_socket or accept_handler, object_can_mutex
* Proof: Invariant: a socket in the pool was started, or is still ahead of the loop in init, or its adder has still to look at is_service_started.
* Theorems: `C95`
* Note: every execution.

### C96 — Stopping the pump ends all links (partial)

* Model: M_Links: the sockets of one service (server or multi client), the thread that starts and stops the pump, any number of threads in add_socket or accept_handler, object_can_mutex
* Proof: Refuted by three computed runs together with an invariant of every continuation in which the peer is silent; the part that holds by an invariant for calm runs and induction on the number of links in progress.
* Theorems: `C96_refuted`, `C96_statement_refuted`, `C96_partial`
* Disagreement: include/tcp/server.h:228-240, 251-264, include/socket_service.h:79-91: is_service_started() is still true while the pump is being stopped, so a socket that is added after the loop of force_shutdown is started; nobody shuts it down and stop_service waits for the peer. include/service_pump.h:34: a service that was not started is not uninitialised, though add_socket starts its sockets.
* Note: false of the code when a connection is accepted or a socket added while the pump is stopped, and for services that were not started: the link is started after the shutdown of all links and the pump waits for the peer; proved when these are excluded.

### C97 — Every message is handled at most once and none is lost, in every configuration (proved)

* Model: M_Handle: the end of handle_msg, dispatch_msg and do_dispatch_msg for every combination of ST_ASIO_SYNC_DISPATCH, ST_ASIO_DISPATCH_BATCH_MSG and ST_ASIO_PASSIVE_RECV; the receiving and the dispatch strand concurrently, the byte counter of the receive buffer
* Proof: Counting invariant for every message.
* Theorems: `C97`
* Note: every execution, every configuration.

### C98 — Messages are handled in order unless on_msg handles a part of them (proved)

* Model: M_Handle: the end of handle_msg, dispatch_msg and do_dispatch_msg for every combination of ST_ASIO_SYNC_DISPATCH, ST_ASIO_DISPATCH_BATCH_MSG and ST_ASIO_PASSIVE_RECV; the receiving and the dispatch strand concurrently, the byte counter of the receive buffer
* Proof: Invariant: received = handled ++ held ++ buffer ++ what the receiving strand has.
* Theorems: `C98`
* Note: with the condition of include/config.h; C98_sharp shows that it is needed.

### C99 — Waiting messages are offered until they are handled, in every configuration (proved)

* Model: M_Handle: the end of handle_msg, dispatch_msg and do_dispatch_msg for every combination of ST_ASIO_SYNC_DISPATCH, ST_ASIO_DISPATCH_BATCH_MSG and ST_ASIO_PASSIVE_RECV; the receiving and the dispatch strand concurrently, the byte counter of the receive buffer
* Proof: Invariant W: when dispatching is set and the strand is idle, the timer runs or a call is queued; when something waits, somebody will look. The continuation is constructed.
* Theorems: `C99`
* Note: the race of the retry timer is excluded here, see C29.

### C100 — The fill level of the receive buffer is exact (proved)

* Model: M_Handle: the end of handle_msg, dispatch_msg and do_dispatch_msg for every combination of ST_ASIO_SYNC_DISPATCH, ST_ASIO_DISPATCH_BATCH_MSG and ST_ASIO_PASSIVE_RECV; the receiving and the dispatch strand concurrently, the byte counter of the receive buffer
* Proof: Invariant: the counter is exact and the size handed over is exact or 0 (to be computed).
* Theorems: `C100`
* Note: C100_sharp shows that the condition on on_msg is needed.

### C101 — With passive receiving every read gives the application a chance to ask for the next one (proved)

* Model: M_Handle: the end of handle_msg, dispatch_msg and do_dispatch_msg for every combination of ST_ASIO_SYNC_DISPATCH, ST_ASIO_DISPATCH_BATCH_MSG and ST_ASIO_PASSIVE_RECV; the receiving and the dispatch strand concurrently, the byte counter of the receive buffer
* Proof: From C99 and the made-up empty message.
* Theorems: `C101`

### C102 — At most one read is in progress however often receiving is requested (proved)

* Model: M_Passive: one link with ST_ASIO_PASSIVE_RECV, optionally ST_ASIO_SYNC_RECV, TCP or UDP: recv_msg, do_recv_msg, recv_handler, the reading flag, sync_recv_msg, handle_msg and handle_error. The condition variable is abstracted (it is in M_SyncRecv), one life of a link.
* Proof: Invariant: the number of reads in progress is one exactly when the flag is set.
* Theorems: `C102`

### C103 — Nothing is read unless it was asked for (proved)

* Model: M_Passive: one link with ST_ASIO_PASSIVE_RECV, optionally ST_ASIO_SYNC_RECV, TCP or UDP: recv_msg, do_recv_msg, recv_handler, the reading flag, sync_recv_msg, handle_msg and handle_error. The condition variable is abstracted (it is in M_SyncRecv), one life of a link.
* Proof: Reads started plus requests queued never exceed requests made; shown per step, summed over the run. C103_over: a link that is over is not ready (J103), and do_recv_msg over TCP looks at that.
* Theorems: `C103`, `C103_over`

### C104 — With passive receiving every message read is handed over exactly once, in order (proved)

* Model: M_Passive: one link with ST_ASIO_PASSIVE_RECV, optionally ST_ASIO_SYNC_RECV, TCP or UDP: recv_msg, do_recv_msg, recv_handler, the reading flag, sync_recv_msg, handle_msg and handle_error. The condition variable is abstracted (it is in M_SyncRecv), one life of a link.
* Proof: Per step, what is taken in equals what is given out plus the change of what is in hand.
* Theorems: `C104`

### C105 — With passive receiving a call of sync_recv_msg is answered once the peer sends (partial)

* Model: M_Passive: one link with ST_ASIO_PASSIVE_RECV, optionally ST_ASIO_SYNC_RECV, TCP or UDP: recv_msg, do_recv_msg, recv_handler, the reading flag, sync_recv_msg, handle_msg and handle_error. The condition variable is abstracted (it is in M_SyncRecv), one life of a link.
* Proof: Refuted with a call during connecting. Partial: invariant that a waiting call on a ready link has a read in progress, queued or being handled; from each of these a continuation ends the call. C105_closed: invariant that nobody waits on a closed link.
* Theorems: `C105_refuted`, `C105_statement_refuted`, `C105_partial`, `C105_closed`
* Disagreement: include/socket.h:166, 291-295, 329-331: sync_recv_msg asks for a read by recv_msg, which does nothing while the link is not ready, and do_start leaves out the first read when both macros are defined. A call made while connecting (started() is already true) waits for ever, later calls return DUPLICATE, and since nothing is read, the end of the link is not noticed either. (config.h:1352 mentions that the first read is omitted, but not that such a call hangs.)
* Note: false of the code for a call made before the link is ready: nobody starts a read for it; proved for calls made while the link is ready.

### C106 — An application that only receives synchronously gets every message from sync_recv_msg (partial)

* Model: M_Passive: one link with ST_ASIO_PASSIVE_RECV, optionally ST_ASIO_SYNC_RECV, TCP or UDP: recv_msg, do_recv_msg, recv_handler, the reading flag, sync_recv_msg, handle_msg and handle_error. The condition variable is abstracted (it is in M_SyncRecv), one life of a link.
* Proof: Refuted: a call expires, its read stays behind, the message goes to on_msg_handle. Partial: invariant that without a waiting caller nothing is read, queued or in hand. C106_sharp shows why reads ending with messages and an error are excluded.
* Theorems: `C106_refuted`, `C106_statement_refuted`, `C106_partial`
* Disagreement: include/socket.h:291, 686: sync_recv_msg with a time limit leaves its read in progress; the messages of that read are dispatched asynchronously unless another call is made in time.
* Note: false of the code after a call with a time limit expired; proved for calls without time limit and reads that do not end with messages and an error at once.

### C107 — A TLS or web socket link is established only after its handshake (proved)

* Model: M_Secure: one TLS or web socket link, client or server, passive or not: start, connecting, handshake, first read, refilling, requests, async_shutdown/async_close, monitoring timer, closing and starting again. Each handler is one step; OpenSSL and Beast are assumptions named in the file.
* Proof: A phase of the observer and an invariant of the state per phase, preserved by every step.
* Theorems: `C107`

### C108 — A shutdown of a TLS or web socket link comes to an end (partial)

* Model: M_Secure: one TLS or web socket link, client or server, passive or not: start, connecting, handshake, first read, refilling, requests, async_shutdown/async_close, monitoring timer, closing and starting again. Each handler is one step; OpenSSL and Beast are assumptions named in the file.
* Proof: Refuted by a run after which no step of the library is possible. Partial: a closing state reaches on_close (induction on a measure of the calls in progress); a state being shut down has the monitoring timer, a queued request, or a read that will fail.
* Theorems: `C108_refuted`, `C108_statement_refuted`, `C108_partial`
* Disagreement: include/tcp/websocket/websocket.h:113-119: the handler of async_close stops the monitoring timer and relies on the failing read to close the link. With ST_ASIO_PASSIVE_RECV and no recv_msg outstanding there is no read; recv_msg then does nothing because the link is not ready any more, force_shutdown likewise leads to graceful_shutdown -> tcp force_shutdown only when called again. Without a second call the socket stays in GRACEFUL_SHUTTING_DOWN for ever.
* Note: false of the code for web sockets with ST_ASIO_PASSIVE_RECV when no read is in progress; proved for TLS, for receiving on its own, and when a read is in progress.

### C109 — A handshake comes to an end (partial)

* Model: M_Secure: one TLS or web socket link, client or server, passive or not: start, connecting, handshake, first read, refilling, requests, async_shutdown/async_close, monitoring timer, closing and starting again. Each handler is one step; OpenSSL and Beast are assumptions named in the file.
* Proof: Refuted by a server on which nothing can happen after start. Partial: the steps to on_handshake are constructed; after a request, by induction on what is queued. C109_failed_closes: invariant that a failed link has its shutdown queued or is closing.
* Theorems: `C109_refuted`, `C109_statement_refuted`, `C109_partial`, `C109_failed_closes`
* Disagreement: include/tcp/ssl/ssl.h:103-112, 160-166: nothing limits the time of a TLS handshake; a client that connects and says nothing occupies an object of the server's pool (ST_ASIO_MAX_OBJECT_NUM) until it disconnects. The heartbeat of the library starts only with on_connect.
* Note: false of the code for TLS: no timer watches the handshake; proved for web sockets (assuming Beast's timeout), for broken connections, and after a request of the application.

### C110 — Whether a TLS or web socket client connects again is what the application said last (partial)

* Model: M_Secure: one TLS or web socket link, client or server, passive or not: start, connecting, handshake, first read, refilling, requests, async_shutdown/async_close, monitoring timer, closing and starting again. Each handler is one step; OpenSSL and Beast are assumptions named in the file.
* Proof: Refuted by a computed run. Partial: need_reconnect equals the last wish as long as no handshake failed.
* Theorems: `C110_refuted`, `C110_statement_refuted`, `C110_partial`, `C110_reopens`
* Disagreement: include/tcp/ssl/ssl.h:117 and include/tcp/websocket/websocket.h:188: after a failed handshake the library calls force_shutdown() with its default argument false, so a client with reconnecting switched on gives up after one failed handshake (e.g. a server that is just restarting behind a load balancer), while it goes on for ever after failed connects.
* Note: false of the code after a failed handshake, which switches reconnecting off; proved for histories without failed handshakes.

### C111 — Reliable UDP gives every completed message to the application, in order (partial)

* Model: M_Kcp: a reliable UDP socket with its control block: create_kcpcb, start (bind and connect may fail), datagrams, sending, TIMER_KCP_UPDATE, closing; a handler may be inside KCP for any time. KCP itself is an assumption named in the file.
* Proof: Refuted by a computed run; every continuation up to closing delivers nothing (invariant: the message is at the head of the queue). Partial: the loop empties the queue, so the queue is empty between steps.
* Theorems: `C111_refuted`, `C111_abort_refuted`, `C111_statement_refuted`, `C111_partial`
* Disagreement: include/udp/reliable_socket.h:154-159: the local array has ST_ASIO_MSG_BUFFER_SIZE bytes; ikcp_recv returns -3 for a longer message and leaves it, the loop ends, and the same happens for every later datagram: the socket is silent for ever, no error is reported. Such a message is made by direct_send_msg or by a peer with a larger ST_ASIO_MSG_BUFFER_SIZE (KCP takes about 170 KB). include/ext/unpacker.h:375: compose_msg asserts size > 0, though ikcp_recv returns 0 for an empty message, which any peer can send.
* Note: false of the code: a message longer than the local buffer stays in KCP's queue and blocks all later ones; an empty message fails an assertion; proved for all other messages.

### C112 — Reliable UDP reports a message as sent only if it is on its way (partial)

* Model: M_Kcp: a reliable UDP socket with its control block: create_kcpcb, start (bind and connect may fail), datagrams, sending, TIMER_KCP_UPDATE, closing; a handler may be inside KCP for any time. KCP itself is an assumption named in the file.
* Proof: Per step, summed over the run.
* Theorems: `C112_refuted`, `C112_statement_refuted`, `C112_partial`
* Disagreement: include/udp/reliable_socket.h:129-135: do_send_msg returns true although ikcp_send failed; send_handler is then called without an error.
* Note: false of the code: a message that ikcp_send refuses is reported as sent; proved for messages that KCP takes.

### C113 — A reliable UDP socket never falls back to unreliable datagrams (partial)

* Model: M_Kcp: a reliable UDP socket with its control block: create_kcpcb, start (bind and connect may fail), datagrams, sending, TIMER_KCP_UPDATE, closing; a handler may be inside KCP for any time. KCP itself is an assumption named in the file.
* Proof: Refuted by a computed state. Partial: invariant that a started socket is connected.
* Theorems: `C113_refuted`, `C113_statement_refuted`, `C113_unconnected`, `C113_partial`
* Disagreement: include/udp/socket.h:202-203, 306, 341: if connect() fails (e.g. no peer address), start() succeeds with is_connected = false, and both directions bypass KCP: messages are sent as plain datagrams, KCP's own segments from the peer are given to the application as messages.
* Note: false of the code when connect fails and in all cases without connect mode (C113_unconnected: KCP is never used then); proved when connect does not fail and connect mode is set.

### C114 — A socket that could not be started leaves nothing running (partial)

* Model: M_Kcp: a reliable UDP socket with its control block: create_kcpcb, start (bind and connect may fail), datagrams, sending, TIMER_KCP_UPDATE, closing; a handler may be inside KCP for any time. KCP itself is an assumption named in the file.
* Proof: Refuted: invariant of every continuation without a successful start. Partial: invariant that the timer implies started.
* Theorems: `C114_refuted`, `C114_statement_refuted`, `C114_partial`
* Disagreement: include/udp/reliable_socket.h:102-108: TIMER_KCP_UPDATE is started before bind; if bind fails, do_start returns false and the timer runs for ever: close() does nothing because the socket is not started, and stop_service waits for the timer.
* Note: false of the code when bind fails after a control block was created; proved otherwise.

### C115 — KCP's control block is not released while a handler uses it (partial)

* Model: M_Kcp: a reliable UDP socket with its control block: create_kcpcb, start (bind and connect may fail), datagrams, sending, TIMER_KCP_UPDATE, closing; a handler may be inside KCP for any time. KCP itself is an assumption named in the file.
* Proof: Refuted by two computed runs. Partial: invariant that a handler is inside KCP only while started or closing; the block it uses exists. C115_gone_after_close: invariant that no control block comes back on its own.
* Theorems: `C115_refuted`, `C115_closing_refuted`, `C115_statement_refuted`, `C115_partial`, `C115_used_block_exists_partial`, `C115_gone_after_close`
* Disagreement: include/udp/reliable_socket.h:41, 200: create_kcpcb and release_kcp do not lock the mutex; create_kcpcb only tests started(), which is false after a failed start (with the timer running, C114) and between close() and on_close.
* Note: false of the code after a failed start and while closing; proved when bind does not fail and control blocks are created only after on_close.

### C116 — KCP is updated as long as the socket runs (proved)

* Model: M_Kcp: a reliable UDP socket with its control block: create_kcpcb, start (bind and connect may fail), datagrams, sending, TIMER_KCP_UPDATE, closing; a handler may be inside KCP for any time. KCP itself is an assumption named in the file.
* Proof: Invariant that a started socket with a control block has its timer.
* Theorems: `C116`

### C117 — Over a web socket, one call of a send function is one message for the peer's application (partial)

* Model: M_Ws: one direction of a web socket link that stays up, with ext::packer and without unpacker: every form of send_msg and send_native_msg, the send buffer, one async_write per item, heartbeats, recv_handler; a foreign sender may take the place of the library. Beast is an assumption named in the file.
* Proof: Refuted by three computed runs. Partial: what is on its way (peer's side, write in flight, send buffer) grows by the items of a call and shrinks by what is given to the application; the continuation that empties it is constructed.
* Theorems: `C117_refuted`, `C117_array_refuted`, `C117_two_refuted`, `C117_statement_refuted`, `C117_partial`, `C117_bytes`
* Disagreement: include/ext/websocket.h:20-26: the default packer adds a header and no unpacker removes it; include/ext/packer.h:104-140 puts header and body into separate items of the send buffer and batch_msg_send_size() = 0 (websocket.h:88) sends each item as a web socket message of its own. Only send_native_msg with one message is symmetric (the demo uses nothing else).
* Note: false of the code for send_msg (header sent as a message of its own, or in front of the body) and for the two-message form of send_native_msg; proved for send_native_msg with one message; the bytes are right for all forms.

### C118 — No message of the peer stops receiving over a web socket (partial)

* Model: M_Ws: one direction of a web socket link that stays up, with ext::packer and without unpacker: every form of send_msg and send_native_msg, the send buffer, one async_write per item, heartbeats, recv_handler; a foreign sender may take the place of the library. Beast is an assumption named in the file.
* Proof: Refuted: with assertions by a computed run; without, by the invariant that nothing is read any more. Also by the library's own send_msg with an empty message. Partial: invariant that a read is in progress.
* Theorems: `C118_refuted`, `C118_abort_refuted`, `C118_own_refuted`, `C118_statement_refuted`, `C118_partial`
* Disagreement: include/tcp/socket.h:371-375: a web socket message of length 0, which is valid, completes async_read with 0 bytes and no error; recv_handler asserts, or logs and does not read again: the link stays up, deaf, until heartbeats (if any) close it. Any peer can do this to a server. send_msg("") of this library sends such a message.
* Note: false of the code for empty messages; proved for all others.

### C119 — Heartbeats over a web socket are not given to the application (partial)

* Model: M_Ws: one direction of a web socket link that stays up, with ext::packer and without unpacker: every form of send_msg and send_native_msg, the send buffer, one async_write per item, heartbeats, recv_handler; a foreign sender may take the place of the library. Beast is an assumption named in the file.
* Proof: Refuted by a computed run. Partial: from C117_bytes.
* Theorems: `C119_refuted`, `C119_statement_refuted`, `C119_partial`
* Disagreement: include/ext/packer.h:69, 141 with include/ext/websocket.h:25: the heartbeat is a web socket message of 2 (or 4) bytes, which the peer's application is given like any other. (Switching heartbeats on, ST_ASIO_HEARTBEAT_INTERVAL > 0, is documented without this restriction.)
* Note: false of the code with the default packer, whose heartbeats nobody removes; proved for packers without heartbeats.

### C120 — Functions that visit all links return (partial)

* Model: M_Visit: a server with any number of service threads: accepting, add_object, start, on_connect, sending, closing, del_object; one more thread (of the application or a service thread) calls functions that visit all objects under the pool's mutex. Simplifications are listed at the head of the file.
* Proof: Refuted by a state that every step of anybody preserves (dead120). Partial: invariant that a link whose start lock is taken has a thread in on_connect; from there the function goes on object by object (induction on the objects left).
* Theorems: `C120_refuted`, `C120_statement_refuted`, `C120_partial`
* Disagreement: include/object_pool.h:354-355 with include/socket.h:430-435: do_something_to_all holds the pool's mutex while force_shutdown() of a link, called by a service thread, runs at once (dispatch) and spins in close() until do_start has left on_connect; on_connect of that link, in another service thread, waits for the mutex if it calls find(), exist(), size() or the like. Neither ends, and with the mutex every new and closing link stops, too. (With the default non-recursive mutex a predicate that asks the pool waits for itself, C120_sharp.)
* Note: false of the code when a service thread shuts all links down while a link is in an on_connect that asks the server (find, size); proved where the caller is not a service thread or on_connect does not ask, and predicates do not ask either (C120_sharp).

### C121 — A safe broadcast returns once the peers read (partial)

* Model: M_Visit: a server with any number of service threads: accepting, add_object, start, on_connect, sending, closing, del_object; one more thread (of the application or a service thread) calls functions that visit all objects under the pool's mutex. Simplifications are listed at the head of the file.
* Proof: Refuted for every number of threads by induction (occupy_run) and a state that every step preserves (dead121); C121_asks_refuted: also with free threads if on_connect asks the server (dead121b). Partial: invariant J121 says what keeps sending going; a full buffer is emptied by a free thread, induction on the objects left.
* Theorems: `C121_refuted`, `C121_asks_refuted`, `C121_statement_refuted`, `C121_partial`
* Disagreement: include/tcp/server.h:188, include/base.h:799-809, 681-685: safe_broadcast_msg sleeps and retries under the pool's mutex. accept_handler (add_object) and on_close (del_object) need that mutex in service threads; when as many links come or go as there are service threads, none is left to empty the full buffer, so the broadcast never returns and the server stands still. Nothing in the comments warns of it.
* Note: false of the code for every number of service threads: all of them may wait for the mutex that the broadcast holds; proved when one service thread is free and on_connect does not ask the server.

### C122 — A function that visits all links treats each link exactly once (proved)

* Model: M_Visit: a server with any number of service threads: accepting, add_object, start, on_connect, sending, closing, del_object; one more thread (of the application or a service thread) calls functions that visit all objects under the pool's mutex. Simplifications are listed at the head of the file.
* Proof: A monitor over the trace; invariant: its state is the pool and the objects left. C122_missed: invariant that the connected links are those of the trace.
* Theorems: `C122`, `C122_missed`

### C123 — Messages of broadcasts reach each link in the order of the broadcasts (proved)

* Model: M_Visit: a server with any number of service threads: accepting, add_object, start, on_connect, sending, closing, del_object; one more thread (of the application or a service thread) calls functions that visit all objects under the pool's mutex. Simplifications are listed at the head of the file.
* Proof: Invariant: handed over, then buffered, is what was given. C123_reaches: J121 and the emptying of the buffer. C123_one: for a link that is added once, begun writes are the completed ones plus at most one (invariant: a write in progress or its waiting handler accounts for sending = 1).
* Theorems: `C123`, `C123_reaches`, `C123_one`

### C124 — Buffers on the heap behave as values and free each object once (proved)

* Model: M_ObjBuf: a heap of objects with use counts and liveness, buffers that hold a pointer or nothing; every member of object_buffer with unique_ptr/scoped_ptr-like and with shared_ptr ownership; using or freeing a freed object is the outcome Undef, what C++ does not compile (copying a unique_buffer, an index that does not exist) is NoCpp; packer2 and unpacker2 on top, with M_Packer as the real packer. Simplifications: the virtual i_buffer adapter (auto_buffer) is not separate, only one thread uses a set of buffers.
* Proof: Invariant J: an object is live iff a buffer holds it, held at most once if unique, its use count is the number of holders if shared, the freed ones of the trace are the dead ones. exec_ok: each operation keeps it and does to the values what S_ObjBuf.vexec does.
* Theorems: `C124_no_undefined`, `C124_values`, `C124_memory`
* Note: content that the application changes in place: values only for unique_buffer; copies of a shared_buffer share their object (documented, C124_sharp).

### C125 — Packing and unpacking with buffers on the heap gives the same bytes as with strings (proved)

* Model: M_ObjBuf: a heap of objects with use counts and liveness, buffers that hold a pointer or nothing; every member of object_buffer with unique_ptr/scoped_ptr-like and with shared_ptr ownership; using or freeing a freed object is the outcome Undef, what C++ does not compile (copying a unique_buffer, an index that does not exist) is NoCpp; packer2 and unpacker2 on top, with M_Packer as the real packer. Simplifications: the virtual i_buffer adapter (auto_buffer) is not separate, only one thread uses a set of buffers.
* Proof: move_in_ok by induction on the messages; the others from it and from C124's invariant. The specification is M_Packer, whose bytes C12-C16 relate to the wire format.
* Theorems: `C125_one`, `C125_two`, `C125_many`, `C125_array`, `C125_heartbeat`, `C125_unpack`

### C126 — The header announces as many bytes as follow, whichever messages are passed (partial)

* Model: M_ObjBuf: a heap of objects with use counts and liveness, buffers that hold a pointer or nothing; every member of object_buffer with unique_ptr/scoped_ptr-like and with shared_ptr ownership; using or freeing a freed object is the outcome Undef, what C++ does not compile (copying a unique_buffer, an index that does not exist) is NoCpp; packer2 and unpacker2 on top, with M_Packer as the real packer. Simplifications: the virtual i_buffer adapter (auto_buffer) is not separate, only one thread uses a set of buffers.
* Proof: Refuted by a computed run. Partials: C125 and the arithmetic of the header.
* Theorems: `C126_refuted`, `C126_statement_refuted`, `C126_distinct_partial`, `C126_many_partial`
* Disagreement: include/ext/packer.h:116-129 and 190-203: the length is computed from msg1 and msg2 before both are swapped into the container. send_msg(m, m) (base.h:728, non-const references) announces 2n bytes; the second swap finds m empty, so n bytes follow. The receiver takes the first n bytes of the next messages for the rest of this one: the stream is out of step from there on. The const overload (base.h:743, 245) copies both and is not affected.
* Note: false of the code when the same message is passed twice; proved for two different messages and for containers.

### C127 — A refused message is offered again only after the handling interval (partial)

* Model: M_Dispatch (with M_FTimer): do_dispatch_msg and the retry timer. The claim is a monitor over the steps (S_Dispatch.pause_run): refusal, start of the wait, its expiration, next call.
* Proof: Refuted by a computed run. Partial: invariant that at most one thing leads to a call of on_msg_handle (a posted call, a running one, a wait, an expired wait, a decision to post).
* Theorems: `C127_refuted`, `C127_statement_refuted`, `C127_partial`
* Disagreement: include/socket.h:729, 755: dispatch_msg posts do_dispatch_msg whenever dispatching is false at that moment, so two reads (or a read between two messages) leave two posted calls; do_dispatch_msg treats `dispatching` as permission to offer the held message, so the second call offers it again at once although the timer has just been started. config.h:1311 promises a retry after ST_ASIO_MSG_HANDLING_INTERVAL milliseconds. One service thread is enough. The superfluous call does not go away while messages are handled, so every refusal may be followed by one immediate retry.
* Note: false of the code when two reads complete before the first message is offered; proved if messages arrive only when all former ones have been handled or while one is being offered or held.

### C128 — A graceful shutdown delivers what was handed over before it (partial)

* Model: M_Wire: M_Send on top of an operating system that takes the bytes of a write in pieces, with graceful and forced shutdowns, breaking links and any number of links over one socket object. Simplifications are listed at the head of the file.
* Proof: Refuted by computed runs. Partial: invariant of C129 and the lemma that nothing is put on the wire after the shutdown. C128_accounted: the invariant of M_Send carried over.
* Theorems: `C128_refuted`, `C128_waiting_refuted`, `C128_statement_refuted`, `C128_reported_partial`, `C128_accounted`
* Disagreement: include/tcp/socket.h:300-316: graceful_shutdown calls shutdown(shutdown_send) at once, although a write may be in progress and the send buffer may hold messages. The peer gets a part of a message and the end of the stream; the write fails (on_send_error is told about its messages), the messages behind it stay in the send buffer and nobody is told. An application that calls send_msg and then graceful_shutdown loses messages unless it waits for on_all_msg_send.
* Note: false of the code: the sending half is shut down at once; proved when all messages were reported as sent before; in every case each message was reported as sent or failed, or still waits in the send buffer.

### C129 — Every link carries whole messages, one after another (partial)

* Model: M_Wire: M_Send on top of an operating system that takes the bytes of a write in pieces, with graceful and forced shutdowns, breaking links and any number of links over one socket object. Simplifications are listed at the head of the file.
* Proof: Refuted by a computed run. Partial: invariant: the bytes of the current link are those of the messages reported as sent, followed by the part of the write in flight that was taken; after a failure on a link that takes no more bytes, nothing follows. C129_frames_partial: this invariant, the order invariant of M_Send, and: nothing is handed over before the first link; with one item per call each item is a frame, and what is handed over is a permutation of a part of what was queued.
* Theorems: `C129_refuted`, `C129_split_refuted`, `C129_statement_refuted`, `C129_partial`, `C129_frames_partial`
* Disagreement: include/tcp/socket.h:448-459, 268-269: when async_write fails after a part of its bytes was taken, the messages are dropped and sending is allowed again; the link is not closed (on_send_error only logs, the comment says that one need not rewrite it). If the link still works, the next message follows the part of the former one and the peer's unpacker is out of step. Second: send_msg with messages (not arrays of buffers) puts header and body into the send buffer as separate items (include/ext/packer.h:104-140, include/socket.h:564-577), and do_send_msg takes items, not messages (one per write with ST_ASIO_WANT_MSG_SEND_NOTIFY, 64 KB per write otherwise). If the link breaks between the two, the client connects again and the send buffer, which is kept, starts with a body without its header: the new link is out of step from its first byte (C129_split_refuted).
* Note: false of the code if a write fails on a link that goes on working, and for links made again when a message is in several items of the send buffer; proved otherwise: items of the send buffer are always whole, frames are whole on the first link and, with one item per call, on all links.

### C130 — Using socket objects again cannot be seen (partial)

* Model: M_Reuse: the life of socket objects (server, client, UDP) from constructor or reset() over start, connecting, sending, receiving, refusing, closing to the pool of objects that can be used again; settings, addresses, buffers, the unpacker's rest and statistics are members. Simplifications are listed at the head of the file.
* Proof: Refuted by a computed pair of runs. Partial: simulation; an object that can be used again is, after reset(), equal to a new one but for settings and addresses (reset_fresh, from invariant J), and those are untouched or overwritten.
* Theorems: `C130_refuted`, `C130_statement_refuted`, `C130_partial`
* Disagreement: include/socket.h:75-98: reset() (tcp/socket.h:101: "reset all, be ensure that there's no any operations performed on this socket") leaves send_buf_size, recv_buf_size, msg_resuming_interval, msg_handling_interval, packer and unpacker as the former user set them; the next peer that gets the object is served with them.
* Note: false of the code: what setters set (and addresses) survives into the next life of an object; proved if no setters are called and the same overload of add_socket is used with valid addresses.

### C131 — A socket uses the addresses it was added with (partial)

* Model: M_Reuse: the life of socket objects (server, client, UDP) from constructor or reset() over start, connecting, sending, receiving, refusing, closing to the pool of objects that can be used again; settings, addresses, buffers, the unpacker's rest and statistics are members. Simplifications are listed at the head of the file.
* Proof: Refuted by computed runs. Partial: a monitor of what was asked for, invariant that it agrees with the members and that what the overload in use does not set is as in a new object.
* Theorems: `C131_reuse_refuted`, `C131_udp_refuted`, `C131_invalid_refuted`, `C131_statement_refuted`, `C131_partial`
* Disagreement: include/tcp/client.h:53-71, include/udp/socket_service.h:36-55: (1) the results of set_server_addr/set_local_addr/set_peer_addr are ignored, so with an address that cannot be parsed (and NDEBUG) the socket is connected to the default server, or to that of the object's former life, and add_socket reports success; (2) an object used again keeps the local (peer) address and connect mode of its former life if the overload used now does not set them, e.g. add_socket(port, ip) connects from the local port that was given for another link.
* Note: false of the code for objects used again by another overload of add_socket and for invalid addresses, which add_socket ignores; proved otherwise.

### C132 — What belonged to the former peer of a socket object stays there (proved)

* Model: M_Reuse: the life of socket objects (server, client, UDP) from constructor or reset() over start, connecting, sending, receiving, refusing, closing to the pool of objects that can be used again; settings, addresses, buffers, the unpacker's rest and statistics are members. Simplifications are listed at the head of the file.
* Proof: Invariant M between a monitor of the socket's events and the object's members (every message that arrived is handled, held or in the receive buffer, in this order; every message accepted is written or in the send buffer; the rest kept by the unpacker is the rest of the stream); with reset_fresh a reused object starts with nothing. C132_writes_end: a second invariant (a monitor of a socket whose object is not in use knows of no write that has not ended) gives that the object of a started write is still that socket's and the write can end.
* Theorems: `C132`, `C132_writes_end`

### C133 — The receiver handles what was sent, in order, each message once (partial)

* Model: M_Path: M_Packer, M_Send, M_Wire, M_Rx (with any unpacker) and M_Handle put together: send functions on one side, the handling function of the application on the other. The joints are pack-then-queue, bytes taken by the sender's system are delivered in order, a completed read is given to handle_msg, the next read starts when handle_msg is done and the receive buffer has room. Simplifications are listed at the head of the file.
* Proof: Refuted by three computed runs. Partial: invariant Q joins those of M_Send/M_Wire (P_Wire.Z), of the receiving loop (the bytes read so far are what the unpacker was fed) and of M_Handle (I98), and counts each content given to send functions against what waits in threads and in the send buffer; C01/C04/C05 (receives_frames) and C60 (clean_after_break) then give the messages from the bytes.
* Theorems: `C133_split_refuted`, `C133_glitch_refuted`, `C133_prior_refuted`, `C133_statement_refuted`, `C133_partial`, `C133_links_partial`, `C133_unpackers_partial`
* Disagreement: Consequences of C129 and C25 seen by the peer's application: (1) a link that breaks between the header and the body of a message: the next link starts with the body, and a body that looks like a frame is handled as a message that nobody sent (C133_split_refuted); (2) a write that fails after a part of its bytes was taken, on a link that goes on: the next message is taken for the rest (C133_glitch_refuted); (3) a message sent with the prior flag gets between header and body of another one (C133_prior_refuted).
* Note: false of the code if a link breaks between header and body of a message, if a write fails on a link that goes on, or with the prior flag: the peer then handles messages nobody sent; proved without these: if no write fails while the link goes on, the prior flag is not used, and former links took whole messages, which holds on the first link and if each call puts one item into the send buffer.

### C134 — If the applications do nothing more, everything accepted is handled (proved)

* Model: M_Path: M_Packer, M_Send, M_Wire, M_Rx (with any unpacker) and M_Handle put together: send functions on one side, the handling function of the application on the other. The joints are pack-then-queue, bytes taken by the sender's system are delivered in order, a completed read is given to handle_msg, the next read starts when handle_msg is done and the receive buffer has room. Simplifications are listed at the head of the file.
* Proof: Termination: lexicographic measure (what the sending side has to do, bytes of writes in flight that are not taken, bytes not read, what the handling side has to do). At rest: analysis of the states in which no step is possible, with the invariants of C133 and the wake-up invariants of M_Send and M_Handle; never_stops (C02) says that the receiver reads.
* Theorems: `C134_all_handled_at_rest`, `C134_unpackers`
* Note: without ST_ASIO_DISPATCH_BATCH_MSG.

### C135 — on_msg_send is called for every message that was sent, with that message (partial)

* Model: M_Notify: send_handler's callbacks on top of M_Send: on_msg_send for one message or for the container of one write, the look at the send buffer, on_all_msg_send, on_send_error; the callbacks may call send functions, the container may come back changed in any way. Between the completion of the write, each callback and the look at the send buffer all other threads may go on.
* Proof: Refuted by a computed run. Partial: invariant G joins that of M_Send with one-item-per-write (batch_msg_send_size is 0 with ST_ASIO_WANT_MSG_SEND_NOTIFY, so move_items_out stops after the first item, which need not have any bytes) and with the stage of the handler.
* Theorems: `C135_split_refuted`, `C135_statement_refuted`, `C135_partial`, `C135_whole_messages_partial`
* Disagreement: include/config.h:1112 promises a call after every message; TCP_SEND_MSG(in_msg_type& / container) puts header and body into the send buffer as two items and send_handler notifies items, so the application is told of a message nobody sent (the header) and of one without its header. echo_client/echo_client.cpp:107 avoids the overload for this reason ("we need a whole message in on_msg_send"); config.h does not mention it.
* Note: false of the code for the overloads of the send functions that put header and body into the send buffer as two items: on_msg_send is called once for each of them; proved for the items of the send buffer, and for messages if each call puts one item there.

### C136 — on_all_msg_send is called when all messages have been sent, and only then (proved)

* Model: M_Notify: send_handler's callbacks on top of M_Send: on_msg_send for one message or for the container of one write, the look at the send buffer, on_all_msg_send, on_send_error; the callbacks may call send functions, the container may come back changed in any way. Between the completion of the write, each callback and the look at the send buffer all other threads may go on.
* Proof: Invariant G: when the send buffer is found empty in send_handler, no write is in flight and nothing is between buffer and write (shape of M_Send), so the permutation of P_Wire.perm says that all was sent or failed; as long as a success has not been followed by a call, the handler is in front of the look, or what is left to send is on its way to the next write (at_it). The moment meant is the look at the send buffer: another thread may enqueue before the application's function starts.
* Theorems: `C136_all_gone_when_told`, `C136_which`, `C136_told_at_rest`

### C137 — With a delay for closing, a socket is given free only after that delay (partial)

* Model: M_Delay: start, close, TIMER_DELAY_CLOSE and reset() with a clock, for ST_ASIO_DELAY_CLOSE > 0 (the races inside start and close are those of M_Life). The indicator of asynchronous calls is the flag of include/tracked_executor.h:71-85.
* Proof: Refuted by a computed run. Partial: invariant between the life shown by the events and the members.
* Theorems: `C137_refuted`, `C137_reuse_refuted`, `C137_statement_refuted`, `C137_partial`, `C137_reconnect_partial`, `C137_comes`
* Disagreement: include/socket.h:808-810 sets obsoleted_ after after_close() has started the socket again, and start() never clears it. With ST_ASIO_DELAY_CLOSE = 0 the count of asynchronous calls hides this for active receiving (C33); with a delay the indicator is false on a connected socket, so set_reconnect(false) or force_shutdown(false) on a client that has reconnected before makes it obsolete at once: multi_client::force_shutdown(socket_ptr) puts it among the invalid objects first, and free_object or the next create_object frees or resets it while its reads and writes are in progress.
* Note: false of the code for a client that reconnected: obsoleted_ stays set, and once the reconnect flag is cleared the connected socket is reported obsolete; proved for sockets started once per life; order and time of on_close proved for reconnecting ones too.

### C138 — Functions registered in place of virtual functions are called, and the library still does what it must (partial)

* Model: M_Hook: the 26 functions with their kinds and defaults, the pairs (function, do not pass on), registering and calling. The spec looks up the last registration in the list of operations and does not use the pairs. Not modelled: callbacks that register callbacks, and callbacks that change what they get by reference.
* Proof: The pairs after any operations are given by the last registration (after_last), then by cases over the functions.
* Theorems: `C138_number_refuted`, `C138_heartbeat_refuted`, `C138_statement_refuted`, `C138_partial`
* Disagreement: (1) call_cb_return calls super::fun() after the registered function and overwrites its result if pass_on is true (async_accept_num, prepare_reconnect, on_msg, batch on_msg_handle, calc_shrink_size), so registering with pass_on has no effect on the number. (2) on_heartbeat_error is combined like a condition: a registered function that answers false - according to include/socket.h:335 "do not continue the heartbeat function" - ends the evaluation, the library's function that shuts the link down is not called although pass_on is true by default; check_heartbeat then returns false, the heartbeat timer ends, and the dead TCP link stays. (3) By reading only: g_socket is said to be for UDP sockets too (callbacks.h:43), but its on_send_error passes an in_container_type to udp::generic_socket::on_send_error, which takes an in_msg (include/udp/socket.h:212); that cannot compile.
* Note: false of the code in two points: with pass_on the number a registered function returns is thrown away, and on_heartbeat_error registered with the default pass_on and answering no suppresses the library's own on_heartbeat_error, so the dead TCP link is not shut down; the rest is proved for all sequences.

### C139 — UDP messages go where they should and come from whom they are said to come (partial)

* Model: M_UdpAddr: the peer address, connect mode, is_connected, the operating system's connection and the addresses in the send buffer; order and errors of sending are in M_UdpSend. That addresses given with a message are ignored by connected sockets is documented (include/config.h:828-830): a hypothesis (as_documented), shown to be needed by C139_other_address_sharp.
* Proof: Refuted by computed runs. Partial: the state the spec's walk over the events needs (peer address and messages waiting) is that of the members; for connected sockets an invariant: everything in the send buffer and the operating system's connection have the peer address.
* Theorems: `C139_label_refuted`, `C139_left_over_refuted`, `C139_statement_refuted`, `C139_partial`, `C139_one_peer_partial`
* Disagreement: (1) include/udp/socket.h:309 labels what a connected socket receives with the member peer_addr, which set_peer_addr (96-97) changes at any time without connecting again. (2) do_start does not clear the send buffer, and do_send_msg of a connected socket does not look at the message's own address, so messages left over from before a closing go to whichever peer the socket is connected to next.
* Note: false of the code for connected sockets: after set_peer_addr messages of the connected peer are labelled with the new address, and messages left in the send buffer when the socket was closed go to the peer of the next start; proved for all use without connect mode, and for all use, connected or not, with one peer per life of the object.

### C140 — Settings of a socket take effect at once and only on this socket (partial)

* Model: M_Reuse with the monitor of S_Sets, which follows the settings by the events alone.
* Proof: Invariant Z between the monitor and the object through the generic section Mon of P_Reuse.
* Theorems: `C140_refuted`, `C140_statement_refuted`, `C140_partial`
* Disagreement: include/socket.h:75-98 (reset) restores neither packer, limits nor intervals, so with ST_ASIO_REUSE_OBJECT a socket made later works with the settings of an earlier one; computed witness: socket 2 packs with packer 7 although no setter was ever called on it.
* Note: false of the code with ST_ASIO_REUSE_OBJECT: reset() does not restore the settings, a new socket packs with the packer of a former one; proved without reuse of objects, and with it if these setters are not called.

### C141 — A refused message stays with the caller and changes nothing (partial)

* Model: M_Call: one call of a send function in all its forms with the caller's variables and the send buffer (M_Queue, M_Send.shrink, M_Packer). The synchronous forms are in M_SafeSend (C77): there a call refused because the service is stopped does empty the caller's message.
* Proof: By cases over the forms; that packing gives the frame is C11/C62. C141_taken: a call that is not refused for want of room or for its length is accepted.
* Theorems: `C141_refuted`, `C141_statement_refuted`, `C141_refused_partial`, `C141_accepted`, `C141_taken`
* Disagreement: TCP_SEND_MSG calls shrink_send_buffer before pack_msg: with ST_ASIO_SHRINK_SEND_BUFFER a message that is too long makes the socket discard a third of its send buffer and is then refused; safe_send_msg repeats this every 50 ms as long as other threads fill the buffer.
* Note: false of the code with ST_ASIO_SHRINK_SEND_BUFFER: room is made before the message is packed, so messages are discarded in favour of one that is then refused; everything else is proved, the part about refusing for every packer, the part about accepting for the length-prefixed one.

### C142 — A name stands for the link that was added under it (socket_management) (partial)

* Model: M_Names.v: the map of names, the sockets with five phases (connecting, connecting though shut down, up, shut down while its read has not failed, over), cur_id; the commands and the events of links as steps.
* Proof: S_Names.v defines from the trace alone which link a name stands for. C142_partial: invariant IP (the map is this function; under each name at most one socket is not over). C142_own (no hypotheses): a call reaches only the last link that was added under the name and not deleted. C142_down (no hypotheses): the link a deleted name stood for is shut down or over from then on, also if its connection is completed afterwards.
* Theorems: `C142_partial`, `C142_own`, `C142_down`, `C142_lost_refuted`, `C142_fail_refuted`, `C142_statement_refuted`
* Disagreement: on_recv_error calls del_link(_name), which erases whatever link the name stands for now: if a name is deleted and added again before the former link's read has failed, the end of the former link removes the name of the new one. That link is up and can be neither used nor shut down by any later command (C142_lost_refuted, for all continuations). If a connection cannot be made (and ST_ASIO_RECONNECT is false as in this program) on_recv_error is never called: the name stays taken, messages sent to it are accepted and never sent, and adding it again is refused until it is deleted (C142_fail_refuted).
* Note: false: the end of a link takes its name from a newer link, and a link whose connection cannot be made keeps its name; proved where names are used again only when their former links are over and connections can be made; what holds always: C142_own.

### C143 — Filling a basic_buffer piece by piece moves each byte only a few times (partial)

* Model: M_Buffer.v (the model of C17); S_Grow.v adds up the sizes of the blocks that are replaced.
* Proof: C143_partial: invariant over the calls: what was moved so far is at most (factor - 1) times the capacity; each reallocation multiplies the capacity by at least 2 (3/2 with _MSC_VER, where capacities being multiples of 16 is needed). C143_refuted: for all k up to 2^27 - 1 a buffer of 2 GiB to which 16 bytes are added k times is moved k times.
* Theorems: `C143_partial`, `C143_refuted`, `C143_statement_refuted`
* Disagreement: reserve computes 2 * cap in unsigned (include/ext/ext.h:222-224). From 2 GiB on this wraps to a small number, the test capacity < 2 * cap fails, and the buffer grows only by what is asked for: every append of 16 bytes moves the whole buffer. max_size() promises up to 4 GiB - 1. The comment there says that the strategy is the one of std::string.
* Note: false of the code from 2 GiB on: 2 * cap is computed in unsigned and becomes small, so the capacity then grows by what is asked for, rounded up to 16 bytes. Proved for buffers of at most 2 GiB..

### C144 — The performance test of echo_client uses every link alike, and its end is reported when everything came back (partial)

* Model: M_EchoTest.v: group_links, send_msg_concurrently with its thread function, the percentage of start_test, the choice of send_msg_randomly; size_t arithmetic modulo W; division by zero and an index outside a vector are outcomes.
* Proof: C144_groups: invariant over the links (the groups filled so far are full, the current one has g_this places left). C144_each_link: what all threads send, counted per link, for every order in which they run. C144_end: the percentage is 100 exactly when all bytes came back. C144_random: the index is below the number of links also for the greatest random number.
* Theorems: `C144_groups`, `C144_each_link`, `C144_end`, `C144_random`, `C144_refuted`, `C144_statement_refuted`, `C144_total_refuted`
* Disagreement: With no link (all were closed or cleared by commands) send_msg_concurrently computes link_num / group_num with group_num = min(16, 0) = 0 (C144_refuted). send_msg_one_by_one and send_msg_randomly compute the number of bytes in size_t before converting it to uint64_t: on 32 bit 16 links * 262144 messages of 1024 bytes give 0 and then a division by zero, a little more gives a small number and the test is over at once (C144_total_refuted).
* Note: false without links: the number of links is divided by the number of groups, 0; and with a 32-bit size_t totals of 4 GiB and more wrap. Everything else is proved for all numbers.

### C145 — A ping-pong test ends, and not before everything came back (partial)

* Model: M_PingPong.v: both programs, for each link the bytes in the client's send buffer, the network, the server's send buffer, the network back; total_bytes and recv_bytes, completed_session_num as unsigned short; the main thread's start, begin for one link after the other, and its waiting. Simplified: links stay up, echo_socket::begin is one step, uint64_t does not overflow, no clock. The limit to fewer than 65536 links is a hypothesis (the counter is an unsigned short).
* Proof: Invariant J (for any kind of bytes w): links on which begin was called either received total_bytes bytes of kind w or are busy with recv_bytes of them; completed_session_num is the number of links that are busy or still to be begun. C145_counted takes every byte, C145_partial the bytes of this test. Invariant K: exactly msg_len bytes are on their way on a busy link. C145_ends: a measure decreases with every step (a byte costs at most four steps a lap), and in a state where a test is running some step is possible.
* Theorems: `C145_counted`, `C145_partial`, `C145_refuted`, `C145_statement_refuted`, `C145_no_loss`, `C145_ends`
* Disagreement: A session is completed as soon as total_bytes bytes were received. Of the last message less than all may have come back: what a lap is cut to is up to the network, and each piece is sent back separately, so when the total is reached up to msg_len - 1 bytes are still on their way. They are counted by the next test on this link, which then ends that many bytes too early; they also meet recv_bytes while begin (in the main thread) sets it, a data race. The theorem C145_partial needs that nothing is on its way when a test is begun.
* Note: false: bytes of one test that are still on their way are counted in the next one. Proved if nothing is on its way on a link when a test is begun there; the mere number of bytes is proved without this (C145_counted).

### C146 — force_shutdown() of a server ends every link it visits (partial)

* Model: M_Visit.v (see C120). S_VisitShut.v reads the life of each link off the trace.
* Proof: Invariant V: each id in the pool has exactly one token: a thread about to start it, being connected, a waiting or running removal; if it was asked, a shutdown waits or runs. C146_partial covers two cases by one parameter: early = false (asked while connected), and early = true (asked at any time since it was added, one service thread). C146_reaches: the library alone can complete the shutdown.
* Theorems: `C146_life`, `C146_partial`, `C146_refuted`, `C146_statement_refuted`, `C146_reaches`
* Disagreement: add_socket adds the object to the pool and then calls start(). If force_shutdown() of another thread visits the object in between, shutdown() finds status BROKEN and calls close(true), which returns at once as the socket is not started; then start() makes the link ready. The link stays up (C146_refuted: nothing in the library ends it). uninit() is stop_listen() and force_shutdown(), so service_pump::stop_service then waits in wait_service() until the peer closes this link.
* Note: false with two service threads (or when a service thread calls force_shutdown()): a link that is visited between add_object and start() is not shut down. Proved of links that are connected when visited, and of all links with one service thread.

### C147 — concurrent_server goes on accepting connections (partial)

* Model: M_Conc.v: the overridden start_next_accept, with add_socket and it as two steps of each accept_handler.
* Proof: Invariant W: the number of accepts that were not renewed is at most the number of connections, and (where at most d_margin links have ended and the pool was never full) d_margin + 1 accepts are left. C147_first: a server is not deaf before the 1024th connection. C147_refuted: for every number of accepts.
* Theorems: `C147_partial`, `C147_first`, `C147_refuted`, `C147_statement_refuted`
* Disagreement: start_next_accept renews an accept only if size() + 10 >= ST_ASIO_ASYNC_ACCEPT_NUM. size() is the present number of links, so each connection accepted while there are few links uses up one accept for good; nobody starts it again when links end. 1024 clients that connect one after another leave a server without links that never accepts again. The same happens sooner after a peak: all 1014 links end, and ten further clients connect.
* Note: false: accepts are not renewed while there are few links, also when there were many before; after 1024 connections one after another the server is deaf. Proved while at most ten links have ended, and for the first 1024 connections.

### C148 — A UDP peer that falls silent is reported in time, but not too often (partial)

* Model: M_UdpHeart.v: check_heartbeat with the UDP versions of on_heartbeat_error and send_heartbeat, and receiving from the peer or from somebody else, on a time line as in M_Heart.
* Proof: Invariant RI: last_recv_time is the wall clock of the last reception or report. C148_rare: no two reports, and no reception and report, too close to each other. C148_goes_on, C148_reports (P_UdpHeartOn): time can go on, and a silence is in fact reported.
* Theorems: `C148_partial`, `C148_rare`, `C148_goes_on`, `C148_reports`, `C148_refuted`, `C148_statement_refuted`
* Disagreement: Without connect mode recv_handler sets last_recv_time for every datagram, wherever it comes from, but on_heartbeat_error is about the peer address. A third party that sends now and then hides that the peer is gone (C148_refuted). As for TCP (C38) times are truncated to seconds, hence max_absence * interval - 1.
* Note: false without connect mode: datagrams of anybody count as signs of life of the peer. Proved with connect mode, or if nobody else sends anything to the socket.

### C149 — A UDP peer gets something at least every two intervals (partial)

* Model: M_UdpHeart.v: sending one datagram after another, to the peer or to somebody else; ST_ASIO_ALWAYS_SEND_HEARTBEAT is a parameter.
* Proof: Invariant SI, like HI of C38. C149_always: every check queues a heartbeat.
* Theorems: `C149_partial`, `C149_always`, `C149_refuted`, `C149_statement_refuted`
* Disagreement: Without connect mode send_handler sets last_send_time for every datagram, but heartbeats are for the peer address. An application that sends to somebody else at least once an interval keeps heartbeats from being sent, and the peer, which may be told nothing, reports silence (C149_refuted).
* Note: false without connect mode: messages to anybody count, so that the peer may get nothing. Proved with connect mode, or if the application sends to the peer only; the second half is proved in general.

### C150 — What a UDP application handles was sent, whole, by the address it came with; an orderly network loses and reorders nothing (proved)

* Model: M_UdpPath.v composes pack_array (M_Packer), the sending sides of n sockets (M_UdpSend), a network that is a list of datagrams, udp_unpacker and recv_handler (M_UdpRx), and the handling of messages (M_Handle). S_UdpPath.v: which datagram stands for a call, and what was asked for, sent and handled, read off the trace.
* Proof: C150_at_rest (P_UdpPathOn.v): a lexicographic measure (senders, network, handler) shows that everything comes to rest once nobody calls anything, in any order (Acc); at rest the queue of an open sender is empty (the invariant of C57), the handler has nothing left, and the network is empty because a receive would be possible. Invariant QI. snd_step and net_step say what a step does to a sender's line (what is still to leave the host) and to the network; the theorems follow from them by qrun_ind, each with its own condition on the steps.
* Theorems: `C150_genuine`, `C150_once`, `C150_orderly`, `C150_in_order`, `C150_at_rest`
* Note: C150_at_rest: one message is handled at a time (no batches); nobody forges addresses; both sides have the same buffer size.

### C151 — What a UDP application handles is what was given to the send function (partial)

* Model: As C150.
* Proof: C151_native_partial: with native calls only, the datagrams asked for are the contents that are neither empty nor too long (native_run); the rest is C150.
* Theorems: `C151_native_partial`, `C151_refuted`, `C151_statement_refuted`
* Disagreement: include/ext/udp.h combines ST_ASIO_DEFAULT_PACKER (a length header and the content) with udp_unpacker (the whole datagram). So send_msg and safe_send_msg deliver the header to the peer's application as the first bytes of the message, and each heartbeat is delivered as a message of two (four) bytes (C151_refuted). The demo udp_test uses safe_send_native_msg, which is the only form that arrives as given.
* Note: false: send_msg prepends a header, which udp_unpacker does not remove, and heartbeats are handled as messages. Proved for the native send functions without heartbeats.

### C152 — Every file transfer asked for ends, with the right bytes in the right place (partial)

* Model: M_FileLink: both state machines (TRANS_IDLE, TRANS_PREPARE, TRANS_BUSY), the unpackers (default or file_unpacker), the file_buffers, the server's send queue and is_sending(), both directions of the connection as queues of messages and bytes. The server's on_msg_send and the clearing of the flag are steps of their own, because they run in another strand than the handling of messages. Blocks and ranges are those of M_File. The spec (S_FileLink) describes the parts of a file without the model's functions.
* Proof: An invariant (phase) lists the nine ways client and server can stand to each other, with the bytes under way split into received, under way and still to be read; each step is shown to lead from one to another (C152_exact_partial). At rest only the idle one remains (C152_at_rest_partial). C152_comes_to_rest: a measure decreases with every step that is not a call of the user, whatever the order of handlers. The hypothesis of the first two is prompt: the server handles an order (other than the one for contents) when is_sending() is false.
* Theorems: `C152_refuted`, `C152_statement_refuted`, `C152_exact_partial`, `C152_at_rest_partial`, `C152_comes_to_rest`
* Disagreement: file_server/file_socket.cpp:72-82: when the last block has been written, the client may have it, end its transfer and send the next order before the server's on_msg_send runs; the server is still TRANS_BUSY then, so assert(msg.empty()) fails, or without assertions the order is swallowed by trans_end. file_socket.cpp:98, 156, 183: an order that comes while is_sending() is true is ignored without an answer; that also happens after an answer that ends a transfer (no such file, empty part). In both cases the client stays in TRANS_PREPARE and file_client::is_end() never becomes true. The client begins the next transfer up to 50 ms after the end of the last one, so this needs a server that is late, but nothing excludes it.
* Note: false: an order that reaches the server before the handler of its last write ran is dropped (or fails an assertion), and the client waits for ever. Proved if the server's handlers are not behind when it handles an order; coming to rest is proved always. The link stays up and files do not change meanwhile.

### C153 — No client can bring a file server down (partial)

* Model: As C152, with a client of somebody else that sends any orders and bytes at any time.
* Proof: C153_partial: the server is always in one of three shapes (quiet, sending a file, receiving a file); with manners, orders meet it in the first one. C153_refuted: runs that end with a crash, computed.
* Theorems: `C153_refuted`, `C153_statement_refuted`, `C153_partial`
* Disagreement: file_server/file_socket.cpp:74: any message during a download fails the assertion. 78: without assertions it closes the file that the file_buffer in the send queue goes on reading from (fread of a closed FILE in on_msg_send). 131: offset + length overflows. 209-210: the length of an upload is not checked; 0 leads to a read of no bytes (end of reception), a negative one to a read of nearly 2^64 bytes into a buffer of 64 KiB (C55).
* Note: false: five attacks. Proved for clients that send orders only while the server is not sending, ask for ranges whose end is a number of the system, and upload a positive length.

### C154 — The file client works off its list of files one by one and to the end (partial)

* Model: M_FileList: the list of files, the totals, the progress timer and the loop that waits for the links to clean up, and of each link its state (idle, prepared, busy with so many bytes left, stuck). transmit_file tries the files one by one; the events are what the user sees and the orders the links send. S_FileList reads the order of files, the links at work and the counted bytes off the trace.
* Proof: C154_partial: invariant good (at most one file at work, what each link has left, the sum of what is left and counted equals the file's length). C154_comes_to_end: a lexicographic measure (waiting files, phase of the timer, work of the links) decreases in every step of the system that changes more than the display, and a step exists unless everything is idle and nothing waits (step_exists); ends is the inductive form of both. C154_next: in any history, if all links are idle and files wait, a tick, the end of the wait, or both, begin the next. C154_alone: in any history, beginning files leaves every link alone that is at work. together: every link can open what one can; calm: commands do not fall into the clean-up of the file before, links do not go down while at work.
* Theorems: `C154_window_refuted`, `C154_open_refuted`, `C154_down_refuted`, `C154_unanswered_refuted`, `C154_statement_refuted`, `C154_partial`, `C154_comes_to_end`, `C154_next`, `C154_alone`
* Disagreement: file_client/file_client.h:399-403 lets a command through when the timer is not started, but 476-480 reports the end, and the handler has returned the timer before the links are idle: a get or put in that window is tried with some links busy, and fails (C154_window_refuted). 420-434: the links are asked one after the other, and those which could begin have done so when one of them could not; the file is reported as failed, the list goes on, and the next files fail too because some links are busy (C154_open_refuted). reset(), which would make the link idle, is called when the pool reuses an object (include/object_pool.h:186), but not when a client socket reconnects (include/tcp/client_socket.h:170), and closing leaves a file_unpacker without a buffer, so the link never receives again (include/tcp/socket.h:31-37); is_end() stays false, and the client waits for ever (C154_down_refuted).
* Note: false in three ways (a command while links still clean up; a file only some links can open; a link that goes down during a transfer). Proved, with coming to the end of the list whatever the servers answer, if none of these happens; C154_next and C154_alone hold always.

### C155 — The progress the file client shows is right (partial)

* Model: As C154.
* Proof: C155_partial: the fold that compares each percentage and each end with the counted bytes never fails (run_fine, same invariant). C155_refuted: a run of fourteen actions, computed.
* Theorems: `C155_refuted`, `C155_statement_refuted`, `C155_partial`
* Disagreement: A put command asks only the master whether it is idle (file_client.h:66-84, 424), so it starts beside a link that still works on a file reported as failed (C154); transmit_size is shared (on_msg_send, handle_msg), and the percentage exceeds 100. Reported in C155_refuted: 125 % and the end of a file of which nothing has been sent.
* Note: false: bytes of a file begun in the window of C154 are counted as bytes of the next one (125 % and the end are reported while none of its bytes was sent). Proved if the three things of C154 do not happen.

### C156 — An echo server sends every message back, once and in order, in bounded memory (proved)

* Model: M_Echo: one socket as M_Handle (C97-C99) and M_Send (C22-C24) side by side, joined by the callback of echo_server.cpp (both forms), which runs as thread 0 of M_Send while the dispatch strand is in the callback; thread 1 starts the link.
* Proof: C156_exact: invariant R (each component's run is a run of its own model, so the theorems on them apply; coupled: what is queued is the echo of what is handled, up to the call in progress). C156_finishes: out_any (the callback ends), drain (what is queued is sent, by the measure of C23), one (with nothing left to send, a waiting message is offered, by C99, and accepted), induction on the number of messages left. C156_at_rest follows. C156_bound: invariant roomy. The specification (S_Echo) is flat_map of packing over the received messages, and the number of messages a call may add.
* Theorems: `C156_exact`, `C156_finishes`, `C156_at_rest`, `C156_bound`
* Note: M_Handle and M_Send composed with the callback of the echo server.

### C157 — concurrent_client gives up the links that are too slow, only those, and in time (proved)

* Model: M_Watch: one link with the time, the time of the last send, the expiry of the periodic timer; the handler of a timer runs at most w_late after its expiry.
* Proof: Invariant wi: a link that is up has a timer that expires at most 5 s after max_delay has passed. C157_right: judge, a fold over what can be seen of a link, accepts every history. C157_in_time: while the link is up, the time is within the bound. C157_goes_on: time can always go on (so the bound is not met by standing still). C157_silent: from any point with the link up, if the server stays silent the link is given up within the bound. C157_back: what happens when the message comes back, and that a broken link can be connected again.
* Theorems: `C157_right`, `C157_in_time`, `C157_back`, `C157_goes_on`, `C157_silent`
* Note: one link with its timer; the check and what follows it take no time.

### C158 — What comes back from an echo server is what was sent, once and in order (proved)

* Model: M_Talk: two paths of M_Path (client to server, server to client), joined by the callback of echo_server.cpp:152, which takes the message the server's dispatch strand holds and sends it on the second path; one life of the link; the two directions may come up and break independently, which allows more histories than there are.
* Proof: Invariant R: each direction is a run of its own model, so C133 and C134 apply to it; coupled: the frames put into the server's send buffer are those of the messages handled by the server, up to the call in progress. C158_exact: C133 for both directions (the first one continued by the return of the callback if the message at hand was already sent), then frames are compared (a frame determines its body). C158_at_rest: when nothing is possible in the composition, nothing is possible in either direction (rest_callback), then C134 for both. C158_default: ext::unpacker on both sides. The specification (S_Talk) mentions accepted and handled messages only.
* Theorems: `C158_exact`, `C158_at_rest`, `C158_default`
* Note: two paths of M_Path joined by the callback of the echo server (the form without batches).

### C159 — A short link connects once and sends its message at most once (partial)

* Model: M_Short: one link (connecting, up, closing, gone), need_reconnect, whether the function is registered, the send buffer (one message), and the position of the sending thread in short_client::send_msg; registering is two assignments, and calling the function during the first one is a distinct event.
* Proof: C159_partial: invariant K (the position of the thread and how many steps it has to make; connected once means need_reconnect is off). C159_late: left_c bounds the connections that are still possible once the function is registered. C159_once: left_m bounds the messages. The condition (after) looks at the order of actions only.
* Theorems: `C159_twice_refuted`, `C159_race_refuted`, `C159_statement_refuted`, `C159_late`, `C159_once`, `C159_partial`
* Disagreement: add_socket starts the link if the service runs, so the 50 ms before the first connection are all the time there is to register the function. If the thread is delayed for longer, the link connects without it; when the server ends the link, it connects a second time, with nothing to send (C159_twice_refuted). If the connection is established exactly while the function object is assigned, it is called while being written: undefined behaviour (C159_race_refuted). Creating the socket, registering, and only then adding it to the pool would avoid both.
* Note: false: add_socket already starts the link, so it may be connected before or during the registration. Proved: all of it if the registration is finished before connecting succeeds; always: at most one connection after the registration, and the message at most once.

### C160 — The receiving thread of client receives as long as the service works, and quit never waits for it forever (partial)

* Model: M_Client: the main thread (loop, join, start), the receiving thread (before a call, waiting, ended), whether the io_context can be used, whether the link is started.
* Proof: C160_partial: invariant J (in the loop the thread has not ended). C160_gone: a thread that has ended stays ended until a restart, so every message goes to on_msg_handle. C160_join: in t.join() the io_context is stopped and the link closed, so the thread ends with its next step, and it can make that step. receivable (S_Client) is a statement about continuations: the thread calls, the message arrives, the thread gets it.
* Theorems: `C160_break_refuted`, `C160_between_refuted`, `C160_restart_refuted`, `C160_statement_refuted`, `C160_gone`, `C160_partial`, `C160_join`
* Disagreement: sync_recv_waiting stops waiting when the link is not started (include/socket.h:685), which is so from close until the link starts again, about 5 seconds later; the call returns NOT_APPLICABLE, which the loop of client.cpp:132 takes for the end. So the thread ends at the first break of the link, at the command reconnect, and, as client.cpp:187 creates the new thread before start_service, possibly at once after the command restart. Messages are not lost (on_msg_handle gets them), but nothing is received synchronously any more.
* Note: false: sync_recv_msg gives up when the link is closed, although it connects again, and when it is called before the service was restarted; the thread ends and is not replaced (C160_gone). Proved if no link is closed and new threads come after start_service. That quit and restart come back holds always.

### C161 — A file transfer that fails leaves the files as they were (partial)

* Model: M_Keep: the directories of both sides as functions from names to contents, and one transfer over one link, in blocks of any size, with refusals and a link that breaks at any time.
* Proof: Invariants G and P relate the destination to the source as it was when the user named the file: what is written and what is left make up the source. The spec (S_Keep) speaks about directories before and after only.
* Theorems: `C161_get_refuted`, `C161_put_refuted`, `C161_statement_refuted`, `C161_get_partial`, `C161_put_partial`
* Disagreement: file_client.h:47 opens the local file with w+b, which empties it, before the server was asked whether it has the file (C161_get_refuted). file_client.h:66-84 has the server's file emptied (file_socket.cpp:162) before put_file looks whether the local one can be opened (C161_put_refuted): a mistyped name after put destroys a file on the server. A link that breaks leaves a part of the file. Writing to a temporary name and renaming it at the end would avoid all three.
* Note: false: getting a file the server does not have empties the local file of that name; putting a file that cannot be opened here empties the server's. Proved: a success makes them equal; a failure leaves the destination as it was or a beginning of the source (or empty); it is as it was if it cannot be written; nothing else ever changes.

## What is modelled and what is not

| Part of /repo | Modelled in | Left out |
|---|---|---|
| include/ext/unpacker.h | M_Unpacker, M_Flex, M_NonCopy, M_PrefixSuffix, M_Simple | big_endian conversions are be_encode/be_decode (unpacker2 is in M_ObjBuf) |
| include/ext/packer.h, auto_buffer/shared_buffer of include/base.h | M_Packer, M_ObjBuf | |
| include/ext/callbacks.h | M_Hook | callbacks that register callbacks |
| include/ext/ext.h (basic_buffer) | M_Buffer | formatting helpers |
| include/container.h | M_Queue | node allocation failure |
| include/socket.h | M_Send, M_Dispatch, M_Handle, M_RecvFlow, M_Passive, M_SyncRecv, M_SyncSend, M_Life, M_Delay (ST_ASIO_DELAY_CLOSE > 0), M_Heart, M_UdpHeart | |
| include/tcp/socket.h | M_Rx, M_Send, M_SyncSend, M_Wire, M_Path (all of these together, from send_msg to on_msg_handle), M_Notify, M_Link, M_Heart | endpoint queries, logging |
| include/tcp/client_socket.h, server_socket.h | M_Link, M_Life | name resolution |
| include/tcp/server.h | M_Listen, M_Pool, M_Links, M_Visit (broadcasting and the other functions that visit all links) | options of the acceptor |
| include/tcp/proxy/socks.h | M_Socks | |
| include/udp/socket.h, reliable_socket.h | M_UdpRx, M_UdpSend, M_UdpAddr, M_UdpHeart, M_UdpPath (whole path), M_Kcp | the inside of the KCP library, multicast |
| include/object_pool.h, include/socket_service.h | M_Pool, M_Links, M_Reuse (objects used again) | |
| include/tcp/client.h, include/udp/socket_service.h | M_Reuse (add_socket), M_Visit (functions that visit all links) | |
| include/service_pump.h | M_Pump, M_Service | signals |
| include/timer.h | M_Timer, M_FTimer, M_TimerIds, M_Callback | |
| include/tracked_executor.h | M_Life (count of asynchronous calls) | |
| include/base.h | M_Stat, M_SafeSend, M_Packer, M_Call (send macros) | logging |
| echo_server.cpp, on_msg_handle (example program) | M_Echo, M_Talk | on_msg (synchronous dispatching), the console, the other servers of the program |
| client.cpp, short_client, sync_recv_thread, main (example program) | M_Short, M_Client | the SOCKS4 part (M_Socks), method 2 (commented out), the console, statistics |
| concurrent_client.cpp, echo_socket (example program) | M_Watch | the console, statistics, max_delay as a floating-point number |
| file_client, file_server, file_common (example programs) | M_File, M_FileLink, M_FileList, M_Keep | console commands, tallying speed, order 3 (changing ids: C44), links that go down during a transfer (except in M_FileList and M_Keep) |
| socket_management (example program) | M_Names (named links) | console, what the server answers |
| echo_client (example program) | M_EchoTest (the performance test) | console, the unpackers chosen by hand |
| pingpong_client, pingpong_server (example programs) | M_PingPong | console, clock |
| concurrent_server (example program) | M_Conc (accepting) | console |
| include/tcp/ssl, include/tcp/websocket | M_Secure (life of the links), M_Ws (messages over web sockets) | the inside of OpenSSL and Beast |

## Trusted base

* The Coq kernel (8.16.1) including `vm_compute`, `lia` produces kernel-checked proofs.
* No axioms of our own. Every theorem in MANIFEST.json is closed under the global context (table
  below). Loading the standard library's Zify/ssr files puts seven axioms of
  `Coq.ssr.ssrunder.Under_rel` into the environment (Over_rel, over_rel, over_rel_done, Under_rel,
  Under_rel_from_rel, Under_relE, under_rel_done); no theorem depends on them.
* The reading of the C++ code: the model is written by hand from /repo; nothing is extracted.
* Behaviour of boost.asio is assumed as documented: a composed `async_read` calls the completion
  condition first with 0 bytes and then after every partial read, reads at most
  min(condition result, free buffer) bytes per step and ends when the condition gives 0 or the
  buffer is full; handlers of one strand never run concurrently; a cancelled wait whose
  expiration is already queued still completes without error.
* Memory model: sequential consistency; every mutex-protected section and every atomic operation is one step.
* Boost.Function and mutex/condition variable semantics as documented, including spurious wake-ups.
* Not modelled: the inside of OpenSSL, Beast and KCP, OS socket behaviour beyond the results the
  actions offer, logging, allocation failure except in basic_buffer.

## Assumptions of the theorems

| theorem | Print Assumptions |
|---|---|
| `C01_unpacker_delivers_exactly` | Closed under the global context |
| `C02_unpacker_never_stops` | Closed under the global context |
| `C03_unpacker_rejects_bad_header` | Closed under the global context |
| `C04_flexible_unpacker` | Closed under the global context |
| `C04_flexible_unpacker_4000` | Closed under the global context |
| `C05_non_copy_unpacker` | Closed under the global context |
| `C06_prefix_suffix_delivers_exactly` | Closed under the global context |
| `C07_refuted` | Closed under the global context |
| `C07_statement_refuted` | Closed under the global context |
| `C07_wrong_prefix_reported_partial` | Closed under the global context |
| `C08_noticed_with_next_byte_partial` | Closed under the global context |
| `C08_refuted` | Closed under the global context |
| `C08_statement_refuted` | Closed under the global context |
| `C09_fixed_length_cuts_exactly` | Closed under the global context |
| `C09_stream_delivers_every_read` | Closed under the global context |
| `C100` | Closed under the global context |
| `C101` | Closed under the global context |
| `C102` | Closed under the global context |
| `C103` | Closed under the global context |
| `C103_over` | Closed under the global context |
| `C104` | Closed under the global context |
| `C105_closed` | Closed under the global context |
| `C105_partial` | Closed under the global context |
| `C105_refuted` | Closed under the global context |
| `C105_statement_refuted` | Closed under the global context |
| `C106_partial` | Closed under the global context |
| `C106_refuted` | Closed under the global context |
| `C106_statement_refuted` | Closed under the global context |
| `C107` | Closed under the global context |
| `C108_partial` | Closed under the global context |
| `C108_refuted` | Closed under the global context |
| `C108_statement_refuted` | Closed under the global context |
| `C109_failed_closes` | Closed under the global context |
| `C109_partial` | Closed under the global context |
| `C109_refuted` | Closed under the global context |
| `C109_statement_refuted` | Closed under the global context |
| `C10_datagram_boundaries` | Closed under the global context |
| `C10_long_datagrams_are_cut` | Closed under the global context |
| `C110_partial` | Closed under the global context |
| `C110_refuted` | Closed under the global context |
| `C110_reopens` | Closed under the global context |
| `C110_statement_refuted` | Closed under the global context |
| `C111_abort_refuted` | Closed under the global context |
| `C111_partial` | Closed under the global context |
| `C111_refuted` | Closed under the global context |
| `C111_statement_refuted` | Closed under the global context |
| `C112_partial` | Closed under the global context |
| `C112_refuted` | Closed under the global context |
| `C112_statement_refuted` | Closed under the global context |
| `C113_partial` | Closed under the global context |
| `C113_refuted` | Closed under the global context |
| `C113_statement_refuted` | Closed under the global context |
| `C113_unconnected` | Closed under the global context |
| `C114_partial` | Closed under the global context |
| `C114_refuted` | Closed under the global context |
| `C114_statement_refuted` | Closed under the global context |
| `C115_closing_refuted` | Closed under the global context |
| `C115_gone_after_close` | Closed under the global context |
| `C115_partial` | Closed under the global context |
| `C115_refuted` | Closed under the global context |
| `C115_statement_refuted` | Closed under the global context |
| `C115_used_block_exists_partial` | Closed under the global context |
| `C116` | Closed under the global context |
| `C117_array_refuted` | Closed under the global context |
| `C117_bytes` | Closed under the global context |
| `C117_partial` | Closed under the global context |
| `C117_refuted` | Closed under the global context |
| `C117_statement_refuted` | Closed under the global context |
| `C117_two_refuted` | Closed under the global context |
| `C118_abort_refuted` | Closed under the global context |
| `C118_own_refuted` | Closed under the global context |
| `C118_partial` | Closed under the global context |
| `C118_refuted` | Closed under the global context |
| `C118_statement_refuted` | Closed under the global context |
| `C119_partial` | Closed under the global context |
| `C119_refuted` | Closed under the global context |
| `C119_statement_refuted` | Closed under the global context |
| `C11_pack_array_exact` | Closed under the global context |
| `C11_ps_pack_array_exact` | Closed under the global context |
| `C120_partial` | Closed under the global context |
| `C120_refuted` | Closed under the global context |
| `C120_statement_refuted` | Closed under the global context |
| `C121_asks_refuted` | Closed under the global context |
| `C121_partial` | Closed under the global context |
| `C121_refuted` | Closed under the global context |
| `C121_statement_refuted` | Closed under the global context |
| `C122` | Closed under the global context |
| `C122_missed` | Closed under the global context |
| `C123` | Closed under the global context |
| `C123_one` | Closed under the global context |
| `C123_reaches` | Closed under the global context |
| `C124_memory` | Closed under the global context |
| `C124_no_undefined` | Closed under the global context |
| `C124_values` | Closed under the global context |
| `C125_array` | Closed under the global context |
| `C125_heartbeat` | Closed under the global context |
| `C125_many` | Closed under the global context |
| `C125_one` | Closed under the global context |
| `C125_two` | Closed under the global context |
| `C125_unpack` | Closed under the global context |
| `C126_distinct_partial` | Closed under the global context |
| `C126_many_partial` | Closed under the global context |
| `C126_refuted` | Closed under the global context |
| `C126_statement_refuted` | Closed under the global context |
| `C127_partial` | Closed under the global context |
| `C127_refuted` | Closed under the global context |
| `C127_statement_refuted` | Closed under the global context |
| `C128_accounted` | Closed under the global context |
| `C128_refuted` | Closed under the global context |
| `C128_reported_partial` | Closed under the global context |
| `C128_statement_refuted` | Closed under the global context |
| `C128_waiting_refuted` | Closed under the global context |
| `C129_frames_partial` | Closed under the global context |
| `C129_partial` | Closed under the global context |
| `C129_refuted` | Closed under the global context |
| `C129_split_refuted` | Closed under the global context |
| `C129_statement_refuted` | Closed under the global context |
| `C12_overloads_agree` | Closed under the global context |
| `C130_partial` | Closed under the global context |
| `C130_refuted` | Closed under the global context |
| `C130_statement_refuted` | Closed under the global context |
| `C131_invalid_refuted` | Closed under the global context |
| `C131_partial` | Closed under the global context |
| `C131_reuse_refuted` | Closed under the global context |
| `C131_statement_refuted` | Closed under the global context |
| `C131_udp_refuted` | Closed under the global context |
| `C132` | Closed under the global context |
| `C132_writes_end` | Closed under the global context |
| `C133_glitch_refuted` | Closed under the global context |
| `C133_links_partial` | Closed under the global context |
| `C133_partial` | Closed under the global context |
| `C133_prior_refuted` | Closed under the global context |
| `C133_split_refuted` | Closed under the global context |
| `C133_statement_refuted` | Closed under the global context |
| `C133_unpackers_partial` | Closed under the global context |
| `C134_all_handled_at_rest` | Closed under the global context |
| `C134_unpackers` | Closed under the global context |
| `C135_partial` | Closed under the global context |
| `C135_split_refuted` | Closed under the global context |
| `C135_statement_refuted` | Closed under the global context |
| `C135_whole_messages_partial` | Closed under the global context |
| `C136_all_gone_when_told` | Closed under the global context |
| `C136_told_at_rest` | Closed under the global context |
| `C136_which` | Closed under the global context |
| `C137_comes` | Closed under the global context |
| `C137_partial` | Closed under the global context |
| `C137_reconnect_partial` | Closed under the global context |
| `C137_refuted` | Closed under the global context |
| `C137_reuse_refuted` | Closed under the global context |
| `C137_statement_refuted` | Closed under the global context |
| `C138_heartbeat_refuted` | Closed under the global context |
| `C138_number_refuted` | Closed under the global context |
| `C138_partial` | Closed under the global context |
| `C138_statement_refuted` | Closed under the global context |
| `C139_label_refuted` | Closed under the global context |
| `C139_left_over_refuted` | Closed under the global context |
| `C139_one_peer_partial` | Closed under the global context |
| `C139_partial` | Closed under the global context |
| `C139_statement_refuted` | Closed under the global context |
| `C13_debug_never_truncates` | Closed under the global context |
| `C13_header_exact_partial` | Closed under the global context |
| `C13_refuted` | Closed under the global context |
| `C13_statement_refuted` | Closed under the global context |
| `C140_partial` | Closed under the global context |
| `C140_refuted` | Closed under the global context |
| `C140_statement_refuted` | Closed under the global context |
| `C141_accepted` | Closed under the global context |
| `C141_refused_partial` | Closed under the global context |
| `C141_refuted` | Closed under the global context |
| `C141_statement_refuted` | Closed under the global context |
| `C141_taken` | Closed under the global context |
| `C142_down` | Closed under the global context |
| `C142_fail_refuted` | Closed under the global context |
| `C142_lost_refuted` | Closed under the global context |
| `C142_own` | Closed under the global context |
| `C142_partial` | Closed under the global context |
| `C142_statement_refuted` | Closed under the global context |
| `C143_partial` | Closed under the global context |
| `C143_refuted` | Closed under the global context |
| `C143_statement_refuted` | Closed under the global context |
| `C144_each_link` | Closed under the global context |
| `C144_end` | Closed under the global context |
| `C144_groups` | Closed under the global context |
| `C144_random` | Closed under the global context |
| `C144_refuted` | Closed under the global context |
| `C144_statement_refuted` | Closed under the global context |
| `C144_total_refuted` | Closed under the global context |
| `C145_counted` | Closed under the global context |
| `C145_ends` | Closed under the global context |
| `C145_no_loss` | Closed under the global context |
| `C145_partial` | Closed under the global context |
| `C145_refuted` | Closed under the global context |
| `C145_statement_refuted` | Closed under the global context |
| `C146_life` | Closed under the global context |
| `C146_partial` | Closed under the global context |
| `C146_reaches` | Closed under the global context |
| `C146_refuted` | Closed under the global context |
| `C146_statement_refuted` | Closed under the global context |
| `C147_first` | Closed under the global context |
| `C147_partial` | Closed under the global context |
| `C147_refuted` | Closed under the global context |
| `C147_statement_refuted` | Closed under the global context |
| `C148_goes_on` | Closed under the global context |
| `C148_partial` | Closed under the global context |
| `C148_rare` | Closed under the global context |
| `C148_refuted` | Closed under the global context |
| `C148_reports` | Closed under the global context |
| `C148_statement_refuted` | Closed under the global context |
| `C149_always` | Closed under the global context |
| `C149_partial` | Closed under the global context |
| `C149_refuted` | Closed under the global context |
| `C149_statement_refuted` | Closed under the global context |
| `C14_size_check_exact` | Closed under the global context |
| `C150_at_rest` | Closed under the global context |
| `C150_genuine` | Closed under the global context |
| `C150_in_order` | Closed under the global context |
| `C150_once` | Closed under the global context |
| `C150_orderly` | Closed under the global context |
| `C151_native_partial` | Closed under the global context |
| `C151_refuted` | Closed under the global context |
| `C151_statement_refuted` | Closed under the global context |
| `C152_at_rest_partial` | Closed under the global context |
| `C152_comes_to_rest` | Closed under the global context |
| `C152_exact_partial` | Closed under the global context |
| `C152_refuted` | Closed under the global context |
| `C152_statement_refuted` | Closed under the global context |
| `C153_partial` | Closed under the global context |
| `C153_refuted` | Closed under the global context |
| `C153_statement_refuted` | Closed under the global context |
| `C154_alone` | Closed under the global context |
| `C154_comes_to_end` | Closed under the global context |
| `C154_down_refuted` | Closed under the global context |
| `C154_next` | Closed under the global context |
| `C154_open_refuted` | Closed under the global context |
| `C154_partial` | Closed under the global context |
| `C154_statement_refuted` | Closed under the global context |
| `C154_unanswered_refuted` | Closed under the global context |
| `C154_window_refuted` | Closed under the global context |
| `C155_partial` | Closed under the global context |
| `C155_refuted` | Closed under the global context |
| `C155_statement_refuted` | Closed under the global context |
| `C156_at_rest` | Closed under the global context |
| `C156_bound` | Closed under the global context |
| `C156_exact` | Closed under the global context |
| `C156_finishes` | Closed under the global context |
| `C157_back` | Closed under the global context |
| `C157_goes_on` | Closed under the global context |
| `C157_in_time` | Closed under the global context |
| `C157_right` | Closed under the global context |
| `C157_silent` | Closed under the global context |
| `C158_at_rest` | Closed under the global context |
| `C158_default` | Closed under the global context |
| `C158_exact` | Closed under the global context |
| `C159_late` | Closed under the global context |
| `C159_once` | Closed under the global context |
| `C159_partial` | Closed under the global context |
| `C159_race_refuted` | Closed under the global context |
| `C159_statement_refuted` | Closed under the global context |
| `C159_twice_refuted` | Closed under the global context |
| `C15_heartbeats_invisible` | Closed under the global context |
| `C15_prefix_suffix_heartbeats_invisible` | Closed under the global context |
| `C160_between_refuted` | Closed under the global context |
| `C160_break_refuted` | Closed under the global context |
| `C160_gone` | Closed under the global context |
| `C160_join` | Closed under the global context |
| `C160_partial` | Closed under the global context |
| `C160_restart_refuted` | Closed under the global context |
| `C160_statement_refuted` | Closed under the global context |
| `C161_get_partial` | Closed under the global context |
| `C161_get_refuted` | Closed under the global context |
| `C161_put_partial` | Closed under the global context |
| `C161_put_refuted` | Closed under the global context |
| `C161_statement_refuted` | Closed under the global context |
| `C16_end_to_end` | Closed under the global context |
| `C16_end_to_end_fixed_length` | Closed under the global context |
| `C16_end_to_end_flexible` | Closed under the global context |
| `C16_end_to_end_non_copy` | Closed under the global context |
| `C16_end_to_end_prefix_suffix` | Closed under the global context |
| `C16_end_to_end_unpacker` | Closed under the global context |
| `C16_sending_safe` | Closed under the global context |
| `C17_buffer_is_a_string` | Closed under the global context |
| `C17_throws_only_when_illegal` | Closed under the global context |
| `C18_append2_refuted` | Closed under the global context |
| `C18_self_append_partial` | Closed under the global context |
| `C18_self_append_refuted` | Closed under the global context |
| `C18_self_assign_refuted` | Closed under the global context |
| `C18_statements_refuted` | Closed under the global context |
| `C18_substring_partial` | Closed under the global context |
| `C18_substring_refuted` | Closed under the global context |
| `C19_queue_is_a_deque` | Closed under the global context |
| `C20_batches` | Closed under the global context |
| `C21_one_write_at_a_time` | Closed under the global context |
| `C22_fifo_exactly_once` | Closed under the global context |
| `C23_everything_is_sent` | Closed under the global context |
| `C23_no_lost_wakeup` | Closed under the global context |
| `C24_buffer_limit` | Closed under the global context |
| `C24_refused_iff_full` | Closed under the global context |
| `C25_framed_partial` | Closed under the global context |
| `C25_prior_goes_first` | Closed under the global context |
| `C25_refuted` | Closed under the global context |
| `C25_statement_refuted` | Closed under the global context |
| `C26_refuted` | Closed under the global context |
| `C26_shrink_partial` | Closed under the global context |
| `C26_statement_refuted` | Closed under the global context |
| `C27_all_handed_partial` | Closed under the global context |
| `C27_close_refuted` | Closed under the global context |
| `C27_container_refuted` | Closed under the global context |
| `C27_empty_refuted` | Closed under the global context |
| `C27_last_handed_partial` | Closed under the global context |
| `C27_promise_once` | Closed under the global context |
| `C27_returns_once` | Closed under the global context |
| `C27_returns_partial` | Closed under the global context |
| `C27_returns_statement_refuted` | Closed under the global context |
| `C27_shrink_refuted` | Closed under the global context |
| `C27_success_statement_refuted` | Closed under the global context |
| `C27_taken_answered` | Closed under the global context |
| `C28_in_order` | Closed under the global context |
| `C29_not_stranded_partial` | Closed under the global context |
| `C29_refuted` | Closed under the global context |
| `C29_statement_refuted` | Closed under the global context |
| `C30_refuted` | Closed under the global context |
| `C30_statement_refuted` | Closed under the global context |
| `C30_survives_partial` | Closed under the global context |
| `C31_bounded` | Closed under the global context |
| `C31_resume_refuted` | Closed under the global context |
| `C31_resumes_partial` | Closed under the global context |
| `C31_statement_refuted` | Closed under the global context |
| `C32_awake_partial` | Closed under the global context |
| `C32_awake_statement_refuted` | Closed under the global context |
| `C32_duplicate` | Closed under the global context |
| `C32_empty_success_refuted` | Closed under the global context |
| `C32_lost_wakeup_refuted` | Closed under the global context |
| `C32_nonempty_partial` | Closed under the global context |
| `C32_nonempty_statement_refuted` | Closed under the global context |
| `C32_nothing_kept` | Closed under the global context |
| `C32_once` | Closed under the global context |
| `C32_picked_up` | Closed under the global context |
| `C32_timeout` | Closed under the global context |
| `C32_timeout_only` | Closed under the global context |
| `C33_at_most_once` | Closed under the global context |
| `C33_eventually_partial` | Closed under the global context |
| `C33_lost_refuted` | Closed under the global context |
| `C33_obsolete_partial` | Closed under the global context |
| `C33_obsolete_refuted` | Closed under the global context |
| `C33_obsolete_told` | Closed under the global context |
| `C33_order_partial` | Closed under the global context |
| `C33_order_statement_refuted` | Closed under the global context |
| `C33_pending_refuted` | Closed under the global context |
| `C33_quiet_partial` | Closed under the global context |
| `C33_start_in_close_refuted` | Closed under the global context |
| `C33_two_starts_refuted` | Closed under the global context |
| `C34_deadlock_refuted` | Closed under the global context |
| `C34_exclusive` | Closed under the global context |
| `C34_released_partial` | Closed under the global context |
| `C34_statement_refuted` | Closed under the global context |
| `C34_turns` | Closed under the global context |
| `C35_forced` | Closed under the global context |
| `C35_legal` | Closed under the global context |
| `C35_ready_partial` | Closed under the global context |
| `C35_ready_refuted` | Closed under the global context |
| `C35_ready_statement_refuted` | Closed under the global context |
| `C36_bounded` | Closed under the global context |
| `C36_ends` | Closed under the global context |
| `C37_attempts_partial` | Closed under the global context |
| `C37_attempts_refuted` | Closed under the global context |
| `C37_attempts_statement_refuted` | Closed under the global context |
| `C37_bind_refuted` | Closed under the global context |
| `C37_ghost_refuted` | Closed under the global context |
| `C37_lives` | Closed under the global context |
| `C37_paced` | Closed under the global context |
| `C37_prepared` | Closed under the global context |
| `C37_silent` | Closed under the global context |
| `C37_trying_partial` | Closed under the global context |
| `C37_trying_statement_refuted` | Closed under the global context |
| `C37_wish_partial` | Closed under the global context |
| `C37_wish_refuted` | Closed under the global context |
| `C37_wish_statement_refuted` | Closed under the global context |
| `C38_beats` | Closed under the global context |
| `C38_clock_refuted` | Closed under the global context |
| `C38_detected` | Closed under the global context |
| `C38_ends` | Closed under the global context |
| `C38_goes_on` | Closed under the global context |
| `C38_in_time` | Closed under the global context |
| `C38_kept` | Closed under the global context |
| `C38_live_partial` | Closed under the global context |
| `C38_live_refuted` | Closed under the global context |
| `C38_live_statement_refuted` | Closed under the global context |
| `C38_silent` | Closed under the global context |
| `C39_false_ends` | Closed under the global context |
| `C39_running_fires` | Closed under the global context |
| `C39_stop_all` | Closed under the global context |
| `C39_stopped_is_silent` | Closed under the global context |
| `C39_true_keeps_running` | Closed under the global context |
| `C40_partial` | Closed under the global context |
| `C40_refuted` | Closed under the global context |
| `C40_statement_refuted` | Closed under the global context |
| `C41_find_exact` | Closed under the global context |
| `C41_ids_unique` | Closed under the global context |
| `C42_freed_when_unused` | Closed under the global context |
| `C42_not_in_hands` | Closed under the global context |
| `C43_ids_count_up` | Closed under the global context |
| `C43_ids_distinct` | Closed under the global context |
| `C44_absent` | Closed under the global context |
| `C44_init` | Closed under the global context |
| `C44_refused` | Closed under the global context |
| `C44_restored` | Closed under the global context |
| `C45_least_loaded` | Closed under the global context |
| `C45_spread` | Closed under the global context |
| `C46_back_to_zero_partial` | Closed under the global context |
| `C46_balanced_partial` | Closed under the global context |
| `C46_refuted` | Closed under the global context |
| `C46_statement_refuted` | Closed under the global context |
| `C47_refuted` | Closed under the global context |
| `C47_spread_partial` | Closed under the global context |
| `C47_statement_refuted` | Closed under the global context |
| `C48_never_the_last_partial` | Closed under the global context |
| `C48_refuted` | Closed under the global context |
| `C48_statement_refuted` | Closed under the global context |
| `C48_stop_refuted` | Closed under the global context |
| `C48_thread_num_partial` | Closed under the global context |
| `C49_refuted` | Closed under the global context |
| `C49_statement_refuted` | Closed under the global context |
| `C49_stop_recovers` | Closed under the global context |
| `C49_truth_partial` | Closed under the global context |
| `C50_auth` | Closed under the global context |
| `C50_methods` | Closed under the global context |
| `C50_negotiates` | Closed under the global context |
| `C50_request` | Closed under the global context |
| `C50_socks4` | Closed under the global context |
| `C50_target_accepted` | Closed under the global context |
| `C51_fragmentation_partial` | Closed under the global context |
| `C51_long_reply_refuted` | Closed under the global context |
| `C51_negative_length_refuted` | Closed under the global context |
| `C51_refuted` | Closed under the global context |
| `C51_socks4` | Closed under the global context |
| `C51_statement_refuted` | Closed under the global context |
| `C52_last_target_partial` | Closed under the global context |
| `C52_refuted` | Closed under the global context |
| `C52_statement_refuted` | Closed under the global context |
| `C53_minimum_partial` | Closed under the global context |
| `C53_order_refuted` | Closed under the global context |
| `C53_refuted` | Closed under the global context |
| `C53_statement_refuted` | Closed under the global context |
| `C53_sums_partial` | Closed under the global context |
| `C54_covered_once` | Closed under the global context |
| `C54_inside` | Closed under the global context |
| `C54_refused` | Closed under the global context |
| `C55_exact_partial` | Closed under the global context |
| `C55_refuted` | Closed under the global context |
| `C55_statement_refuted` | Closed under the global context |
| `C56_refuted` | Closed under the global context |
| `C56_reported` | Closed under the global context |
| `C56_statement_refuted` | Closed under the global context |
| `C56_windows_receives_on` | Closed under the global context |
| `C57_goes_on_partial` | Closed under the global context |
| `C57_one_in_order` | Closed under the global context |
| `C57_plain_goes_on` | Closed under the global context |
| `C57_restart_refuted` | Closed under the global context |
| `C57_resume_refuted` | Closed under the global context |
| `C57_statement_refuted` | Closed under the global context |
| `C57_waits_for_start` | Closed under the global context |
| `C58_dropped_refuted` | Closed under the global context |
| `C58_false_means_not_queued` | Closed under the global context |
| `C58_fits_partial` | Closed under the global context |
| `C58_spin_refuted` | Closed under the global context |
| `C58_statement_refuted` | Closed under the global context |
| `C59_ids_distinct` | Closed under the global context |
| `C59_no_interference` | Closed under the global context |
| `C60_prefix_suffix_clean_after_break` | Closed under the global context |
| `C60_unpacker_clean_after_break` | Closed under the global context |
| `C61_prefix_suffix_memory_safe` | Closed under the global context |
| `C62_refuted` | Closed under the global context |
| `C62_statement_refuted` | Closed under the global context |
| `C62_true_means_queued_partial` | Closed under the global context |
| `C63_raw_data_is_the_body` | Closed under the global context |
| `C64_available_partial` | Closed under the global context |
| `C64_refuted` | Closed under the global context |
| `C64_statement_refuted` | Closed under the global context |
| `C65_aligned` | Closed under the global context |
| `C65_zero_interval_refuted` | Closed under the global context |
| `C66_partial` | Closed under the global context |
| `C66_refuted` | Closed under the global context |
| `C66_statement_refuted` | Closed under the global context |
| `C67_capacity_partial` | Closed under the global context |
| `C67_refuted` | Closed under the global context |
| `C67_statement_refuted` | Closed under the global context |
| `C68_conserved_partial` | Closed under the global context |
| `C68_refuted` | Closed under the global context |
| `C68_statement_refuted` | Closed under the global context |
| `C69_add` | Closed under the global context |
| `C69_clear` | Closed under the global context |
| `C69_delete` | Closed under the global context |
| `C69_delete_absent` | Closed under the global context |
| `C69_delete_by_id` | Closed under the global context |
| `C69_free` | Closed under the global context |
| `C70_enough_partial` | Closed under the global context |
| `C70_refuted` | Closed under the global context |
| `C70_single_context_partial` | Closed under the global context |
| `C70_statement_refuted` | Closed under the global context |
| `C71_constant_partial` | Closed under the global context |
| `C71_late_error_refuted` | Closed under the global context |
| `C71_refuted` | Closed under the global context |
| `C71_statement_refuted` | Closed under the global context |
| `C72_only_if_granted` | Closed under the global context |
| `C73_offered_partial` | Closed under the global context |
| `C73_refuted` | Closed under the global context |
| `C73_rubbish_refuted` | Closed under the global context |
| `C73_statement_refuted` | Closed under the global context |
| `C74_average` | Closed under the global context |
| `C74_difference` | Closed under the global context |
| `C75_same_file` | Closed under the global context |
| `C75_sender_exact` | Closed under the global context |
| `C75_sender_truthful` | Closed under the global context |
| `C77_exact_partial` | Closed under the global context |
| `C77_lost_refuted` | Closed under the global context |
| `C77_statement_refuted` | Closed under the global context |
| `C77_twice_refuted` | Closed under the global context |
| `C78_graceful_refuted` | Closed under the global context |
| `C78_partial` | Closed under the global context |
| `C78_statement_refuted` | Closed under the global context |
| `C89_partial` | Closed under the global context |
| `C89_refuted` | Closed under the global context |
| `C89_statement_refuted` | Closed under the global context |
| `C90_refuted` | Closed under the global context |
| `C90_start_partial` | Closed under the global context |
| `C90_statement_refuted` | Closed under the global context |
| `C90_stop_partial` | Closed under the global context |
| `C90_too_few` | Closed under the global context |
| `C91_partial` | Closed under the global context |
| `C91_refuted` | Closed under the global context |
| `C91_statement_refuted` | Closed under the global context |
| `C92_partial` | Closed under the global context |
| `C92_refuted` | Closed under the global context |
| `C92_statement_refuted` | Closed under the global context |
| `C93_partial` | Closed under the global context |
| `C93_refuted` | Closed under the global context |
| `C93_statement_refuted` | Closed under the global context |
| `C94` | Closed under the global context |
| `C95` | Closed under the global context |
| `C96_partial` | Closed under the global context |
| `C96_refuted` | Closed under the global context |
| `C96_statement_refuted` | Closed under the global context |
| `C97` | Closed under the global context |
| `C98` | Closed under the global context |
| `C99` | Closed under the global context |
