{"id": "C01", "title": "Length-prefixed receive delivers exactly the sent messages", "statement": "When a TCP peer sends any sequence of length-prefixed frames (each at least a header long and no longer than ST_ASIO_MSG_BUFFER_SIZE), a receiver using ext::unpacker delivers exactly the bodies of the non-empty frames, in order, once each, regardless of how the byte stream is cut into reads; and once the last byte of a frame has been read, that frame's body is delivered by the completion of that very read.", "quantifier": "every configuration (buffer size, 2- or 4-byte header, stripped or not), every sequence of frames, every way the kernel may cut the stream into reads", "why_tests_cant": "the number of chunkings of a stream is exponential; a test picks a few", "anchors": ["include/ext/unpacker.h:unpacker::parse_msg", "include/ext/unpacker.h:unpacker::completion_condition", "include/ext/unpacker.h:unpacker::prepare_next_recv", "include/tcp/socket.h:do_recv_msg", "include/tcp/socket.h:recv_handler"]}
{"id": "C02", "title": "The length-prefixed reader never stalls and never overruns its buffer", "statement": "While frames are well formed, ext::unpacker always asks the socket for at least one more byte into a non-empty free area that lies inside its buffer, so a read never completes with zero bytes (which would end reception) and no byte is ever stored outside the buffer.", "quantifier": "every reachable receiver state after any number of reads of any size", "why_tests_cant": "a stall or overrun may need one specific remainder/length combination; tests cannot enumerate remainders", "anchors": ["include/ext/unpacker.h:unpacker::completion_condition", "include/ext/unpacker.h:unpacker::prepare_next_recv", "include/tcp/socket.h:recv_handler"]}
{"id": "C03", "title": "A malformed length header is always reported and earlier messages survive", "statement": "If the stream contains a frame whose length field is smaller than the header or larger than the buffer, then ext::unpacker reports an unpack error no later than the read that completes that header, all frames before it have been delivered intact and in order, and nothing made of the malformed frame or of the bytes after it is delivered before the error is reported.", "quantifier": "every prefix of good frames, every bad length value, every chunking", "why_tests_cant": "position of the bad header relative to read boundaries matters", "anchors": ["include/ext/unpacker.h:unpacker::parse_msg", "include/tcp/socket.h:recv_handler"]}
{"id": "C04", "title": "The flexible unpacker is equivalent to the plain one for all message sizes", "statement": "ext::flexible_unpacker (small fixed buffer plus on-demand big buffer) delivers, for every stream of valid frames up to ST_ASIO_MSG_BUFFER_SIZE and every chunking, exactly the same bodies in the same order as the frames sent, switching between the small and big buffers without losing, duplicating or corrupting a byte.", "quantifier": "every frame sequence including frames equal to / just above the small buffer size, every chunking, stripped or not", "why_tests_cant": "the switch happens at data-dependent boundaries inside reads", "anchors": ["include/ext/unpacker.h:flexible_unpacker::parse_msg", "include/ext/unpacker.h:flexible_unpacker::completion_condition", "include/ext/unpacker.h:flexible_unpacker::prepare_next_recv", "include/ext/unpacker.h:flexible_unpacker::extend_buffer"]}
{"id": "C05", "title": "The non-copy unpacker delivers exactly the sent messages", "statement": "ext::non_copy_unpacker, which reads header and body in two separate reads, delivers exactly the non-empty bodies in order for every frame stream and every chunking, reports an error for every header whose length is below the header size or above the maximum, and never asks for a zero-length read.", "quantifier": "every frame stream (valid or not), every chunking", "why_tests_cant": "length wrap-around on unsigned subtraction and state carried across reads", "anchors": ["include/ext/unpacker.h:non_copy_unpacker::parse_msg", "include/ext/unpacker.h:non_copy_unpacker::completion_condition", "include/ext/unpacker.h:non_copy_unpacker::prepare_next_recv"]}
{"id": "C06", "title": "Prefix/suffix receive delivers exactly the sent messages", "statement": "With ext::prefix_suffix_unpacker, any sequence of messages prefix+body+suffix that fit the buffer and in which the suffix occurs in body+suffix only at the end is delivered exactly: after any number of received bytes, for every chunking, the application has precisely the non-empty messages whose last byte has arrived, in order, once each, and no error.", "quantifier": "every prefix, every non-empty suffix, every body list, every chunking, every prior content of the buffer", "why_tests_cant": "suffix bytes may be cut anywhere, and partial suffixes may occur inside bodies; chunkings are exponential", "anchors": ["include/ext/unpacker.h:prefix_suffix_unpacker::peek_msg", "include/ext/unpacker.h:prefix_suffix_unpacker::parse_msg", "include/ext/unpacker.h:prefix_suffix_unpacker::completion_condition"]}
{"id": "C07", "title": "Prefix/suffix: malformed data never silently stops reception", "statement": "With ext::prefix_suffix_unpacker, whatever bytes arrive, either an unpack error is reported or the receiver goes on reading; it never silently stops.", "quantifier": "every byte stream and every chunking", "why_tests_cant": "needs a wrong prefix at one particular position relative to the read boundaries", "anchors": ["include/ext/unpacker.h:prefix_suffix_unpacker::peek_msg", "include/ext/unpacker.h:prefix_suffix_unpacker::parse_msg", "include/tcp/socket.h:recv_handler"]}
{"id": "C08", "title": "Prefix/suffix heartbeats are noticed on arrival", "statement": "With ext::prefix_suffix_unpacker the read that brings the last byte of a heartbeat (prefix immediately followed by suffix) completes, so that the time of the last reception is refreshed.", "quantifier": "every prefix/suffix pair, every chunking", "why_tests_cant": "depends on what follows the heartbeat and when", "anchors": ["include/ext/unpacker.h:prefix_suffix_unpacker::peek_msg", "include/tcp/socket.h:recv_handler", "include/socket.h:check_heartbeat"]}
{"id": "C09", "title": "Fixed-length and stream unpackers preserve the byte stream", "statement": "ext::fixed_length_unpacker cuts any stream into consecutive messages of exactly the configured length, delivering each as soon as its last byte is read, with fewer than that many bytes pending; ext::stream_unpacker delivers every read as one message. In both cases the concatenation of the delivered messages and the pending bytes is exactly the received stream, no error is reported and reading goes on.", "quantifier": "every stream, every fixed length, every chunking", "why_tests_cant": "every alignment of reads and message ends has to be right", "anchors": ["include/ext/unpacker.h:fixed_length_unpacker", "include/ext/unpacker.h:stream_unpacker", "include/tcp/socket.h:recv_handler"]}
{"id": "C10", "title": "UDP keeps datagram boundaries", "statement": "Every non-empty datagram that fits ST_ASIO_MSG_BUFFER_SIZE is delivered as exactly one message with the same content, in order of arrival, and the address reported with it is the sender's (or the connected peer's in connect mode); longer datagrams are delivered as one message cut to the buffer size.", "quantifier": "every sequence of datagrams and senders, every prior buffer content", "why_tests_cant": "stale addresses or stale buffer content appear only for particular sequences of lengths and senders", "anchors": ["include/ext/unpacker.h:udp_unpacker", "include/udp/socket.h:recv_handler", "include/udp/socket.h:do_recv_msg"]}
{"id": "C11", "title": "Packing frames a message with its exact length or refuses it", "statement": "For every list of buffers, ext::packer::pack_msg over an array of buffers (not native) succeeds exactly if header plus total body length is at most ST_ASIO_MSG_BUFFER_SIZE and representable in the header; it then yields a big-endian header whose value is header plus body length, followed by exactly the concatenation of the non-null buffers (nothing at all for an empty body); with native it yields exactly the concatenation if that fits; otherwise it fails and yields nothing.", "quantifier": "every list of buffers, including null pointers and lengths near the limits of size_t, every configuration", "why_tests_cant": "boundary lengths and null entries combine", "anchors": ["include/ext/packer.h:packer::pack_msg", "include/ext/packer.h:packer_helper::msg_size_check"]}
{"id": "C12", "title": "All packing overloads put the same bytes on the wire", "statement": "For the same non-empty body that fits, sending it as an array of buffers, as one message, as two messages, or as a container of messages puts byte-for-byte the same frame into the send buffer.", "quantifier": "every body, every way of splitting it over the arguments", "why_tests_cant": "splits and sizes are unbounded", "anchors": ["include/ext/packer.h:packer::pack_msg", "include/base.h:TCP_SEND_MSG"]}
{"id": "C13", "title": "The length header is never truncated", "statement": "Whenever a send function accepts and queues a non-empty message, the value in the header it queues equals the real length of the queued frame.", "quantifier": "every message, every overload, every configuration accepted by the preprocessor checks", "why_tests_cant": "needs a non-default buffer size and a message above 64 KB", "anchors": ["include/ext/packer.h:packer_helper::pack_header", "include/ext/packer.h:packer::pack_msg"]}
{"id": "C14", "title": "Size computation cannot be fooled by integer overflow", "statement": "msg_size_check returns the exact mathematical total of the non-null buffers plus the initial length when that total is within ST_ASIO_MSG_BUFFER_SIZE and an error otherwise, even when lengths are close to 2^64 and the machine sum wraps around.", "quantifier": "every array of size_t lengths", "why_tests_cant": "needs astronomically large lengths", "anchors": ["include/ext/packer.h:packer_helper::msg_size_check"]}
{"id": "C15", "title": "Heartbeats never reach the application", "statement": "For every framing with heartbeats (length-prefixed receivers and prefix/suffix), two streams that differ only in the heartbeats between messages make the application see the same messages.", "quantifier": "every message sequence, every placement of heartbeats, every chunking", "why_tests_cant": "placements and chunkings multiply", "anchors": ["include/ext/unpacker.h:unpacker::parse_msg", "include/ext/unpacker.h:flexible_unpacker::parse_msg", "include/ext/unpacker.h:non_copy_unpacker::parse_msg", "include/ext/unpacker.h:prefix_suffix_unpacker::parse_msg"]}
{"id": "C16", "title": "End-to-end: what one side sends the other side handles", "statement": "For each matching packer/unpacker pair (length-prefixed with each of the three receivers, prefix/suffix, fixed length), sending any list of messages with any mixture of overloads and interleaved heartbeats, transmitting the bytes in any chunking and unpacking them delivers exactly the non-empty messages that fit, in order, without error; and sending never trips an assertion.", "quantifier": "every list of send calls and heartbeats, every chunking", "why_tests_cant": "the product of send forms, sizes and chunkings is unbounded", "anchors": ["include/ext/packer.h:packer", "include/ext/packer.h:prefix_suffix_packer", "include/ext/packer.h:fixed_length_packer", "include/ext/unpacker.h:unpacker", "include/ext/unpacker.h:flexible_unpacker", "include/ext/unpacker.h:non_copy_unpacker", "include/ext/unpacker.h:prefix_suffix_unpacker", "include/ext/unpacker.h:fixed_length_unpacker"]}
{"id": "C17", "title": "basic_buffer behaves like a byte string and stays inside its allocation", "statement": "After any sequence of append, append2(buff,len), assign, resize, erase, reserve, shrink_to_fit, clear, clean, swap, copy and assignment between two ext::basic_buffer objects, whatever the allocator does, every operation leaves the content the same operation leaves on a byte string, size never exceeds capacity, the owned block has exactly capacity bytes, reserve gives at least the requested capacity, an exception is thrown only for a size above UINT_MAX, an illegal position or a failed allocation, and no access leaves the allocated block.", "quantifier": "every history of operations on two objects, every allocator behaviour, 32 and 64 bit size_t", "why_tests_cant": "needs particular sizes relative to capacity, growth rounding and 32-bit wrap-around", "anchors": ["include/ext/ext.h:basic_buffer"]}
{"id": "C18", "title": "basic_buffer self-operations and the derived forms are right", "statement": "Assigning a basic_buffer to itself leaves it unchanged, appending it to itself doubles it, append2 with a C string drops exactly one trailing NUL before appending as documented, and the (other,pos,len) constructor yields that substring.", "quantifier": "every content", "why_tests_cant": "self-operations are rarely exercised and the damage of a use after free is often invisible", "anchors": ["include/ext/ext.h:basic_buffer::operator=", "include/ext/ext.h:basic_buffer::append", "include/ext/ext.h:basic_buffer::append2"]}
{"id": "C19", "title": "Message queues are FIFO and their byte counters exact", "statement": "For every history of enqueue, enqueue_front, move_items_in, move_items_in_front, try_dequeue, move_items_out, swap and clear on a message queue, every operation hands out and leaves the items an ideal deque would, and size_in_byte always equals the sum of the sizes of the items inside (it never drifts).", "quantifier": "every history, every item size", "why_tests_cant": "counter drift shows only after particular combinations of operations", "anchors": ["include/container.h:queue"]}
{"id": "C20", "title": "Batching takes the shortest non-empty prefix that reaches the limit", "statement": "move_items_out(max_size) removes from the queue front the shortest non-empty run of items whose total size reaches max_size (all items if none does, one item if max_size is 0), keeps their order, and leaves the rest.", "quantifier": "every queue content and limit", "why_tests_cant": "boundary relations of sizes", "anchors": ["include/container.h:queue::move_items_out_", "include/tcp/socket.h:batch_msg_send_size"]}
{"id": "C21", "title": "At most one write is outstanding per socket", "statement": "Whatever number of threads call send functions in whatever interleaving with I/O completions, a TCP socket never has two asynchronous writes in flight at the same time, and the batch being written is never modified while in flight.", "quantifier": "every number of sending threads, every interleaving, every completion result", "why_tests_cant": "schedules", "anchors": ["include/socket.h:send_msg", "include/socket.h:sending", "include/tcp/socket.h:do_send_msg", "include/tcp/socket.h:send_handler"]}
{"id": "C22", "title": "Bytes leave in the order messages were queued, each exactly once", "statement": "The sequence of queue items handed to the socket by completed and in-flight writes, followed by the current content of the send buffer, always equals the sequence of items enqueued (without the prior flag): nothing is lost, duplicated or reordered while the link stays up.", "quantifier": "every interleaving of any number of senders with write completions", "why_tests_cant": "schedules", "anchors": ["include/socket.h:do_direct_send_msg", "include/tcp/socket.h:do_send_msg", "include/tcp/socket.h:send_handler"]}
{"id": "C23", "title": "A queued message is never left behind while the link is up (no lost wake-up)", "statement": "In every reachable state in which the link is connected and the send buffer is non-empty, either a write is in flight or some thread / queued handler is bound to start one; so when everything is quiet, the send buffer is empty.", "quantifier": "every interleaving of senders, the I/O strand and write completions", "why_tests_cant": "the dangerous window is a few instructions wide", "anchors": ["include/socket.h:send_msg", "include/tcp/socket.h:do_send_msg", "include/tcp/socket.h:send_handler", "include/socket.h:clear_sending"]}
{"id": "C24", "title": "The send buffer respects its limit", "statement": "A send call with can_overflow=false is refused exactly when the buffered bytes have reached send_buf_size. If all callers pass can_overflow=false and no packed message exceeds M bytes, the send buffer never holds more than send_buf_size-1 plus M bytes per concurrent caller.", "quantifier": "every number of callers, every interleaving, every message size", "why_tests_cant": "the check and the insertion are separate steps; overshoot needs exact timing", "anchors": ["include/socket.h:direct_send_msg", "include/socket.h:shrink_send_buffer", "include/socket.h:is_send_buffer_available"]}
{"id": "C25", "title": "Priority sending never corrupts framing", "statement": "A message sent with prior=true is transmitted ahead of waiting messages but never in the middle of another message, so the receiver still sees whole frames.", "quantifier": "every interleaving of priority sends and writes", "why_tests_cant": "needs a priority send exactly between two writes that split a message", "anchors": ["include/socket.h:do_direct_send_msg", "include/container.h:move_items_in_front_", "include/tcp/socket.h:do_send_msg"]}
{"id": "C26", "title": "Shrinking the send buffer discards whole messages", "statement": "When ST_ASIO_SHRINK_SEND_BUFFER discards old messages, what remains is still a sequence of whole frames, and at least the requested number of bytes is discarded (or all).", "quantifier": "every buffer content and shrink size", "why_tests_cant": "whether a cut falls inside a message depends on exact sizes", "anchors": ["include/socket.h:shrink_send_buffer", "include/container.h:move_items_out_"]}
{"id": "C27", "title": "Synchronous sends always return, truthfully", "statement": "Every sync_send_msg without time limit returns once the link is closed or its message is sent or discarded; and it returns SUCCESS only if all its messages were handed to the OS.", "quantifier": "every interleaving of synchronous and asynchronous senders, completions, closing, discarding and reuse", "why_tests_cant": "schedules", "anchors": ["include/socket.h:do_direct_sync_send_msg", "include/tcp/socket.h:send_handler", "include/tcp/socket.h:on_close"]}
{"id": "C28", "title": "Messages are handled in order, each exactly once", "statement": "For every interleaving of receiving, dispatching, retry timers, closing and reconnecting, the handler is only ever called for the oldest message not yet handled, never twice at a time; a refused message is presented again before any later one; the messages received are exactly the handled ones followed by those still in the socket's hands.", "quantifier": "every interleaving, every sequence of handler results", "why_tests_cant": "schedules and refusal patterns", "anchors": ["include/socket.h:dispatch_msg", "include/socket.h:do_dispatch_msg", "include/socket.h:handle_msg"]}
{"id": "C29", "title": "Received messages are never stranded (no lost dispatch)", "statement": "As long as the link is up and there are received messages not yet handled, the handler is running or will be called again.", "quantifier": "every interleaving of service threads", "why_tests_cant": "schedules", "anchors": ["include/socket.h:dispatch_msg", "include/socket.h:do_dispatch_msg", "include/timer.h:timer_handler"]}
{"id": "C30", "title": "Message handling survives a reconnect", "statement": "After the link of a reconnecting client breaks and is re-established, messages already received and messages received later are still dispatched.", "quantifier": "every close moment", "why_tests_cant": "needs the link to break within the retry interval of a refused message", "anchors": ["include/socket.h:close", "include/socket.h:do_dispatch_msg", "include/tcp/client_socket.h:after_close"]}
{"id": "C31", "title": "Paused reading always resumes", "statement": "Whenever there is room in the receive buffer of a link that is up, a read is in progress or will be started without any further event from outside.", "quantifier": "every interleaving of reading, dispatching and the receive timer's handlers on any number of threads", "why_tests_cant": "schedules", "anchors": ["include/socket.h:check_receiving", "include/socket.h:handled_msg", "include/timer.h:timer_handler"]}
{"id": "C32", "title": "sync_recv_msg never returns an empty success and never sleeps forever", "statement": "With synchronous receiving, a caller never gets SUCCESS without a message, and once the link is closed every waiting caller and the receiving thread wake up; a sleeping call with a time limit returns when its time is up, and TIMEOUT is reported only then.", "quantifier": "every interleaving of callers, arrivals, time-outs, spurious wake-ups and closing", "why_tests_cant": "schedules", "anchors": ["include/socket.h:sync_recv_msg", "include/socket.h:sync_recv_waiting", "include/socket.h:handle_msg", "include/socket.h:close"]}
{"id": "C33", "title": "on_close runs exactly once per life, after all asynchronous calls", "statement": "With ST_ASIO_DELAY_CLOSE=0, a socket is started, shut down and told on_close strictly in turns, so on_close is never called before the shutdown and start is refused until then; it is called eventually; when it is called no other asynchronous call of this socket is in progress; the socket is reported obsolete only afterwards.", "quantifier": "every interleaving of start, shutdown, completions and timer ticks", "why_tests_cant": "schedules", "anchors": ["include/socket.h:start", "include/socket.h:close", "include/socket.h:timer_handler", "include/tracked_executor.h:is_last_async_call"]}
{"id": "C34", "title": "Starting and closing never deadlock", "statement": "However starting and shutdown functions are called, also from callbacks, no thread waits for the start lock forever: the lock becomes free again.", "quantifier": "every interleaving and every callback from which the call is made", "why_tests_cant": "depends on inline dispatch by the strand", "anchors": ["include/socket.h:start", "include/socket.h:close", "include/base.h:scope_atomic_lock", "include/tcp/socket.h:force_shutdown"]}
{"id": "C35", "title": "A link is ready only while the socket is started", "statement": "is_ready() is true only between becoming connected and the first shutdown request or error: a socket that is not started is never reported as connected.", "quantifier": "every interleaving of connecting, shutdown requests, errors and timers", "why_tests_cant": "races", "anchors": ["include/tcp/socket.h:is_ready", "include/tcp/client_socket.h:connect_handler", "include/tcp/socket.h:_force_shutdown"]}
{"id": "C36", "title": "Graceful shutdown ends in bounded time", "statement": "A graceful shutdown of a link that is in use either sees the peer close or, after at most ST_ASIO_GRACEFUL_SHUTDOWN_MAX_DURATION seconds worth of timer ticks, forces the shutdown exactly once; from every situation during a graceful shutdown, the library alone reaches the forced shutdown.", "quantifier": "every number of ticks, every interleaving of requests, and every moment the peer closes", "why_tests_cant": "time-outs and races", "anchors": ["include/tcp/socket.h:shutdown_handler", "include/tcp/socket.h:_graceful_shutdown"]}
{"id": "C37", "title": "Reconnection follows the user's wish", "statement": "A client socket restarts after a closed link exactly when that is the wish expressed last; no connection attempt is made after the link was shut down until it is started again; a started client without a link keeps trying or shuts down.", "quantifier": "every sequence and interleaving of connection results, shutdown calls, errors and user decisions", "why_tests_cant": "histories and races", "anchors": ["include/tcp/client_socket.h:connect_handler", "include/tcp/client_socket.h:prepare_next_reconnect", "include/tcp/client_socket.h:on_close", "include/tcp/client_socket.h:after_close"]}
{"id": "C38", "title": "Live links are kept", "statement": "With heartbeat checking every `interval` seconds, a link that received something within the last interval*max_absence seconds is never dropped by the check.", "quantifier": "every arrival/sending time line, configuration and latency", "why_tests_cant": "all time lines", "anchors": ["include/socket.h:check_heartbeat", "include/socket.h:start_heartbeat"]}
{"id": "C39", "title": "A stopped timer stays silent until set again", "statement": "After stop_timer (or stop_all_timer, or marking it cancelled) returns, the callback of that timer is not invoked before the timer is started again, even if expirations were already queued; after its callback returned false without a restart it is not invoked again before the timer is started; a timer whose callback returned true without stopping it keeps running; and a timer reported as running needs nothing but time for its callback to be invoked.", "quantifier": "every history of set/start/stop/update calls inside and outside callbacks on any number of timers, every order of queued expirations", "why_tests_cant": "the order of queued expirations and calls cannot be forced by a test", "anchors": ["include/timer.h:timer_handler", "include/timer.h:start_timer", "include/timer.h:stop_timer"]}
{"id": "C40", "title": "A timer that was started and not stopped is running", "statement": "If a timer was started and since then neither stopped nor ended by its callback returning false after the last start (in particular if the callback restarted its own timer and returned false), the timer is running, and vice versa.", "quantifier": "every history, every number of restarts from the callback", "why_tests_cant": "needs exactly 256k restarts", "anchors": ["include/timer.h:timer_handler", "include/timer.h:start_timer"]}
{"id": "C41", "title": "Ids of valid objects are unique and lookups exact", "statement": "After any history of creating, adding, deleting, renaming, restoring, clearing, reusing and freeing objects, no two valid objects have the same id, no object is listed among the valid ones twice, and find(id) returns precisely the valid object whose id() is id.", "quantifier": "every operation history, every interleaving of the pool's critical sections among threads", "why_tests_cant": "violations would need particular histories of renames and deletions by several threads", "anchors": ["include/object_pool.h:object_pool"]}
{"id": "C42", "title": "Objects are freed or reused only when nobody uses them", "statement": "Freeing, reusing or taking over the identity of an object happens only if the object was deleted from the valid ones, is obsolete (no asynchronous call left) and neither the application nor any function in progress refers to it; after it was freed nothing refers to it.", "quantifier": "every pool history, every reference pattern, every interleaving", "why_tests_cant": "needs a reference released or taken exactly between check and use", "anchors": ["include/object_pool.h:free_object", "include/object_pool.h:invalid_object_pop", "include/object_pool.h:clear_obsoleted_object", "include/object_pool.h:reuse_object"]}
{"id": "C43", "title": "Automatic object ids do not repeat", "statement": "The ids given to created or reused objects are start, start+1, start+2, ... as 64-bit numbers, whoever creates them, so they are pairwise different for up to 2^64 creations.", "quantifier": "every start id, every number and interleaving of creators", "why_tests_cant": "wrap-around and concurrent creators cannot be exhausted", "anchors": ["include/object_pool.h:init_object", "include/object_pool.h:set_start_object_id"]}
{"id": "C44", "title": "Restoring a socket swaps identity without loss", "statement": "Restoring a valid socket under an id succeeds only if no other valid object has that id and (without init) an invalid, obsolete, unreferenced object with that id exists; afterwards exactly this socket is registered under the id, its previous id is free, the old object left the pool and nothing else changed. If it fails, the valid objects are unchanged and the old object is still kept.", "quantifier": "every pool history and interleaving, including renames by others between the two steps", "why_tests_cant": "the old object is taken out and the socket renamed in two separate critical sections", "anchors": ["include/tcp/server.h:restore_socket", "include/object_pool.h:change_object_id", "include/object_pool.h:init_object_id"]}
{"id": "C45", "title": "New objects are placed on the least loaded io_context", "statement": "With several io_contexts a new object goes to the first one whose reference count is minimal at that moment, so that creating any number of objects never makes the counts differ by more than one (or than they did before).", "quantifier": "every number of io_contexts, every load, every number of objects", "why_tests_cant": "load vectors cannot be enumerated", "anchors": ["include/service_pump.h:assign_io_context"]}
{"id": "C46", "title": "io_context reference counts balance", "statement": "With several io_contexts, the reference count of each always equals the references held by the objects on it, and is zero when they gave them back.", "quantifier": "every history of object creation, adding, giving back and resetting references, and adding io_contexts", "why_tests_cant": "needs io_contexts added after objects were created", "anchors": ["include/service_pump.h:return_io_context", "include/service_pump.h:assign_io_context", "include/timer.h:sub_io_context_refs"]}
{"id": "C47", "title": "Service threads are spread evenly", "statement": "Once the service is started every io_context is served by at least one thread, and as long as no io_context is added the numbers of threads serving two io_contexts differ by at most one; starting with fewer threads than io_contexts is refused.", "quantifier": "every number of threads and io_contexts, every sequence of start_service, run_service and add_service_thread", "why_tests_cant": "combinations of numbers and blocking calls", "anchors": ["include/service_pump.h:assign_thread", "include/service_pump.h:do_service", "include/service_pump.h:add_service_thread"]}
{"id": "C48", "title": "Decreasing threads never removes the last one", "statement": "With ST_ASIO_DECREASE_THREAD_AT_RUNTIME, while there is work and on_exception asks to continue, at least one of the service threads keeps running, no more threads end than were asked to, and service_thread_num() is the number of running threads whenever none is just starting or ending.", "quantifier": "every number of threads, every interleaving of their atomic operations, every requested decrease", "why_tests_cant": "races between threads that decrease the counters at the same time", "anchors": ["include/service_pump.h:run", "include/service_pump.h:del_service_thread"]}
{"id": "C49", "title": "The server's listening state is the truth", "statement": "is_listening() holds exactly while the operating system accepts connections for the server; start_listen() returns true exactly if it made the server listen; a failed start_listen() can be retried.", "quantifier": "every sequence of start_listen, stop_listen, accepts and errors, every result of the operating system", "why_tests_cant": "failures of bind and listen are hard to provoke", "anchors": ["include/tcp/server.h:start_listen", "include/tcp/server.h:stop_listen", "include/tcp/server.h:on_accept_error"]}
{"id": "C50", "title": "SOCKS requests are encoded as the RFCs say", "statement": "For every target (IPv4, IPv6 or domain name), user name and password accepted by the setters, the bytes of the SOCKS5 negotiation, authentication and request and of the SOCKS4 request decode (by an independent RFC 1928/1929 decoder) to exactly that target and these credentials and never exceed the fixed buffer; authentication is offered exactly if credentials were set; a target is accepted exactly if it can be named, and the socket negotiates with a proxy exactly if the last target given was accepted.", "quantifier": "every address, port, domain name, credential and earlier buffer content", "why_tests_cant": "buffer limits and encodings over all inputs", "anchors": ["include/tcp/proxy/socks.h:set_target_addr", "include/tcp/proxy/socks.h:set_auth", "include/tcp/proxy/socks.h:send_method", "include/tcp/proxy/socks.h:send_auth", "include/tcp/proxy/socks.h:send_request"]}
{"id": "C51", "title": "SOCKS5 handshakes do not depend on fragmentation", "statement": "A well-formed positive answer of the proxy leads to success and a negative one to failure however it is fragmented; the handshake consumes precisely the answer and leaves later bytes to the application.", "quantifier": "every answer, fragmentation and following data", "why_tests_cant": "fragmentation", "anchors": ["include/tcp/proxy/socks.h:recv_handler"]}
{"id": "C52", "title": "The SOCKS5 target is the last one set", "statement": "After any sequence of set_target_addr and set_auth calls the request names the most recently accepted target.", "quantifier": "every call sequence", "why_tests_cant": "call histories cannot be enumerated", "anchors": ["include/tcp/proxy/socks.h:set_target_addr", "include/tcp/proxy/socks.h:send_request"]}
{"id": "C53", "title": "Adding up statistics is exact and order independent", "statement": "Adding up the statistics of sockets in any order and grouping gives exactly the counters, sums, numbers, minima and maxima of all samples together; adding the statistics of an idle socket changes nothing.", "quantifier": "every set of sockets with any samples of positive duration, every order and grouping", "why_tests_cant": "orders and groupings cannot be enumerated", "anchors": ["include/base.h:statistic", "include/base.h:duration"]}
{"id": "C54", "title": "A file split over links is covered exactly once", "statement": "When a file of any length is transferred over any number of links, every byte belongs to the range of exactly one link; the requested ranges are not empty, lie within the file, follow each other, and the server accepts every one of them.", "quantifier": "every file length and link number", "why_tests_cant": "all combinations, divisibility cases", "anchors": ["file_client/file_client.h:handle_msg", "file_client/file_client.h:put_file"]}
{"id": "C55", "title": "File reception writes exactly the announced bytes", "statement": "For every announced length, the raw file receiver writes each received byte once and in order and ends precisely after the announced number of bytes, for every chunking, never reading past its buffer.", "quantifier": "every announced length and chunking", "why_tests_cant": "malicious lengths", "anchors": ["file_common/unpacker.h", "file_server/file_socket.cpp"]}
{"id": "C56", "title": "UDP reception continues after transient errors", "statement": "A UDP socket that is still open keeps receiving after a transient receive error such as connection refused or connection reset: datagrams before and after it are all delivered. Another error is reported exactly once and ends reception.", "quantifier": "every sequence of datagrams around such an error", "why_tests_cant": "needs the error between two particular receives", "anchors": ["include/udp/socket.h:recv_handler"]}
{"id": "C57", "title": "Reliable UDP goes on sending", "statement": "Whenever an open UDP socket has a datagram queued and reliable UDP is not congested, the first one will be sent without any further call of the application, whether the sends before it succeed or fail.", "quantifier": "every interleaving of senders, completions, errors, congestion, closing and restarting", "why_tests_cant": "schedules", "anchors": ["include/udp/socket.h:resume_sending", "include/udp/reliable_socket.h:check_send_cc", "include/udp/reliable_socket.h:timer_handler"]}
{"id": "C58", "title": "safe_send never gives up or spins without reason", "statement": "safe_send_msg returns true only when the message was queued, once; false only if it was not and the link was not ready; and a call that meets room in the send buffer does not go on looping.", "quantifier": "every message and every history of the send buffer and the link", "why_tests_cant": "non-termination", "anchors": ["include/base.h:TCP_SAFE_SEND_MSG", "include/base.h:SAFE_SEND_MSG_CHECK", "include/socket.h:do_direct_send_msg"]}
{"id": "C59", "title": "Timer ids of library layers never collide", "statement": "For every chain of classes (socket, TCP, client, reliable UDP, object pool and any application classes) that take distinct ids between their base class's and their own TIMER_END, all timer ids of one object are pairwise different as 16-bit values, and setting, updating, starting or stopping one timer leaves every other timer of the object unchanged.", "quantifier": "every class stack, every timer, every operation", "why_tests_cant": "only visible as rare cross-cancellation", "anchors": ["include/socket.h:TIMER_BEGIN", "include/tcp/socket.h:TIMER_BEGIN", "include/tcp/client_socket.h:TIMER_BEGIN", "include/object_pool.h:TIMER_BEGIN", "include/timer.h:timer"]}
{"id": "C60", "title": "No bytes of a broken link leak into the next one", "statement": "When a link breaks after any received bytes, including in the middle of a frame, no message is made up from the incomplete rest, and after the reset that closing a socket performs, the same unpacker object receives the next link's stream exactly as a new one would.", "quantifier": "every received byte sequence, every break point, every chunking, every following stream", "why_tests_cant": "break points and following streams multiply beyond any test suite; stale bytes show up only in rare combinations", "anchors": ["include/ext/unpacker.h:unpacker::reset", "include/tcp/socket.h:recv_handler", "include/socket.h:close", "include/socket.h:reset"]}
{"id": "C61", "title": "The prefix/suffix receiver is memory safe for every input", "statement": "Whatever bytes a peer sends and however they are cut, ext::prefix_suffix_unpacker never reads or writes outside of its buffer, trips no assertion, and while it receives it always asks for at least one more byte that fits the free part of its buffer.", "quantifier": "every byte stream, every chunking, every prefix/suffix pair", "why_tests_cant": "overruns need particular lengths relative to the buffer size", "anchors": ["include/ext/unpacker.h:prefix_suffix_unpacker::peek_msg", "include/ext/unpacker.h:prefix_suffix_unpacker::memmem", "include/ext/unpacker.h:prefix_suffix_unpacker::prepare_next_recv"]}
{"id": "C62", "title": "A send function that returns true has queued the message", "statement": "When send_msg returns true, the frame of the message has been put into the send buffer; when it returns false, nothing was put there.", "quantifier": "every message, every overload", "why_tests_cant": "callers rarely check both the result and the buffer for messages that cannot be packed", "anchors": ["include/base.h:TCP_SEND_MSG", "include/socket.h:do_direct_send_msg"]}
{"id": "C63", "title": "raw_data denotes exactly the body", "statement": "raw_data/raw_data_len of a packer applied to a packed message, and of an unpacker applied to a received message (stripped or not), denote exactly the body's bytes, for the length-prefixed and the prefix/suffix protocol, and stay inside the message.", "quantifier": "every body that fits, stripped or not", "why_tests_cant": "off-by-one offsets show only with particular prefix/suffix lengths and stripping modes", "anchors": ["include/ext/packer.h:packer::raw_data", "include/ext/unpacker.h:unpacker::raw_data", "include/ext/packer.h:prefix_suffix_packer::raw_data", "include/ext/unpacker.h:prefix_suffix_unpacker::raw_data"]}
{"id": "C64", "title": "A successful shrink makes the send buffer available", "statement": "With ST_ASIO_SHRINK_SEND_BUFFER, when shrinking reports success the send buffer is below its limit again, as its comment says.", "quantifier": "every buffer content and limit", "why_tests_cant": "depends on the sizes of the waiting messages", "anchors": ["include/socket.h:shrink_send_buffer", "include/socket.h:calc_shrink_size"]}
{"id": "C65", "title": "Aligned timers stay in phase", "statement": "With ST_ASIO_ALIGNED_TIMER, after a callback that took any time the next expiration is scheduled at most one interval later and at a multiple of the interval after the previous one, for every interval.", "quantifier": "every interval and callback duration", "why_tests_cant": "needs callbacks that run longer than one or several intervals", "anchors": ["include/timer.h:timer_handler"]}
{"id": "C66", "title": "A timer never fires early", "statement": "A timer's callback is invoked at the earliest one interval after the timer was last started.", "quantifier": "every history of calls and expirations", "why_tests_cant": "needs an expiration queued exactly between a stop and a start", "anchors": ["include/timer.h:timer_handler", "include/timer.h:start_timer", "include/timer.h:stop_timer"]}
{"id": "C67", "title": "The pool never holds more valid objects than allowed", "statement": "The number of valid objects never exceeds max_size.", "quantifier": "every pool history and interleaving", "why_tests_cant": "needs operations on objects that were refused before", "anchors": ["include/object_pool.h:add_object", "include/object_pool.h:init_object_id"]}
{"id": "C68", "title": "The pool keeps every object exactly once", "statement": "Every object added to the pool is kept by it (as valid, as invalid or by a function moving it) exactly once until it is reused, freed or its identity is taken over; it is never dropped and never listed twice.", "quantifier": "every pool history and interleaving", "why_tests_cant": "needs a deleted object and a restored one with the same id and a second deletion", "anchors": ["include/object_pool.h:del_object", "include/object_pool.h:init_object_id", "include/object_pool.h:change_object_id"]}
{"id": "C69", "title": "Pool operations do what they report", "statement": "add succeeds exactly if no valid object has the object's id and the pool is not full, and then registers exactly this object; deleting by id or pointer succeeds exactly if found and removes exactly that object, which is kept as invalid; clearing takes out exactly the obsolete objects and loses none; freeing n takes exactly the first n idle invalid objects and keeps the others.", "quantifier": "every pool history and state", "why_tests_cant": "states of pool, references and obsolete flags cannot be enumerated", "anchors": ["include/object_pool.h:add_object", "include/object_pool.h:del_object", "include/object_pool.h:clear_obsoleted_object", "include/object_pool.h:free_object"]}
{"id": "C70", "title": "No io_context loses its last thread", "statement": "With ST_ASIO_DECREASE_THREAD_AT_RUNTIME, every io_context that has a service thread keeps at least one while there is work.", "quantifier": "every number of threads and io_contexts, every interleaving", "why_tests_cant": "depends on which thread notices the request first", "anchors": ["include/service_pump.h:run", "include/service_pump.h:del_service_thread"]}
{"id": "C71", "title": "The number of outstanding accepts stays constant", "statement": "After start_listen() succeeded with n sockets, and as long as nobody starts or stops listening, no accept fails and every socket can be created, the server listens with exactly n outstanding accepts.", "quantifier": "every history before, every interleaving of completions and handlers", "why_tests_cant": "depends on completions that race with stop_listen", "anchors": ["include/tcp/server.h:accept_handler", "include/tcp/server.h:start_next_accept", "include/tcp/server.h:stop_listen"]}
{"id": "C72", "title": "A proxied connection is reported only if the proxy granted it", "statement": "Whatever bytes arrive and however they are cut, if the SOCKS5 client reports a connection, then the proxy selected no authentication, or authentication and accepted the credentials, and answered the request, which named the target, with reply code 0; and exactly these requests were sent.", "quantifier": "every byte stream, every fragmentation, every read or write error", "why_tests_cant": "arbitrary (hostile) streams", "anchors": ["include/tcp/proxy/socks.h:recv_handler", "include/tcp/proxy/socks.h:connect_handler"]}
{"id": "C73", "title": "Only answers that follow the RFCs are taken", "statement": "The SOCKS5 client reports a connection only after the proxy selected a method that was offered and sent a well-formed positive reply.", "quantifier": "every byte stream, every fragmentation", "why_tests_cant": "arbitrary (hostile) streams", "anchors": ["include/tcp/proxy/socks.h:recv_handler"]}
{"id": "C74", "title": "Differences and averages of statistics", "statement": "The difference of two snapshots of a socket's statistics is exactly what was counted in between (counters modulo 2^64, sums and numbers of samples), and the average lies between minimum and maximum.", "quantifier": "every sequence of samples", "why_tests_cant": "histories", "anchors": ["include/base.h:operator-=", "include/base.h:get_avg"]}
{"id": "C75", "title": "A file fetched over several links is the same file", "statement": "For every file and number of links, however the bytes of the links are cut and interleaved, nothing fails, every unfinished link still gets bytes, and once all links are finished the written file equals the server's; each link's sender sends exactly the requested range.", "quantifier": "every file, every number of links, every chunking and interleaving", "why_tests_cant": "chunkings and interleavings cannot be enumerated", "anchors": ["file_client/file_client.h:get_file", "file_server/file_socket.cpp:handle_msg", "file_common/file_buffer.h", "file_common/unpacker.h"]}
{"id": "C77", "title": "A synchronous safe send hands the message over exactly once", "statement": "When sync_safe_send_msg returns SUCCESS, exactly the given message was handed to the OS, exactly once; when it returns anything else, it was not handed over.", "quantifier": "every message, overload and history of attempts", "why_tests_cant": "needs time-outs or write errors between attempts", "anchors": ["include/base.h:TCP_SYNC_SAFE_SEND_MSG", "include/base.h:TCP_SYNC_SEND_MSG", "include/ext/packer.h:pack_msg"]}
{"id": "C78", "title": "Timer callbacks live as long as they run", "statement": "No timer callback uses its own function object after the timer destroyed it, even if the callback sets or replaces timer callbacks while it runs.", "quantifier": "every program of callbacks and every sequence of setting and firing timers", "why_tests_cant": "undefined behaviour that usually goes unnoticed", "anchors": ["include/timer.h:change_timer_call_back", "include/timer.h:create_or_update_timer", "include/timer.h:timer_handler", "include/tcp/socket.h:shutdown_handler"]}
{"id": "C79", "title": "Receive back-pressure bounds the receive buffer", "statement": "A read is started only when the buffered bytes are below recv_buf_size and only one at a time, so the receive buffer never holds more than recv_buf_size-1 bytes plus what one read can yield.", "quantifier": "every interleaving of reading, dispatching and the receive timer's handlers; every buffer limit and message sizes", "why_tests_cant": "schedules", "anchors": ["include/socket.h:is_recv_buffer_available", "include/socket.h:check_receiving", "include/socket.h:handled_msg", "include/tcp/socket.h:recv_handler"]}
{"id": "C80", "title": "Synchronous receiving hands over each message exactly once", "statement": "With synchronous receiving, every received message goes to exactly one of: a sync_recv_msg caller or asynchronous dispatch, in the order of arrival; a second concurrent caller is refused as DUPLICATE and disturbs nobody; and when the receiving thread waits for the caller to pick up messages, the caller returns with them as soon as it runs and the receiving thread goes on.", "quantifier": "every interleaving of any number of callers, arrivals, errors, time-outs, spurious wake-ups and closing", "why_tests_cant": "schedules", "anchors": ["include/socket.h:sync_recv_msg", "include/socket.h:handle_msg", "include/socket.h:handle_error"]}
{"id": "C81", "title": "Promises of synchronous sends are completed once", "statement": "The promise of a synchronous send is completed at most once (never twice, which would throw inside the library), and whatever becomes of a write - success, error or the link closing - every synchronous call whose last message was being written is answered, with SUCCESS exactly if the write succeeded.", "quantifier": "every interleaving of synchronous and asynchronous senders, completions, closing, discarding and reuse", "why_tests_cant": "schedules", "anchors": ["include/socket.h:do_direct_sync_send_msg", "include/tcp/socket.h:send_handler", "include/tcp/socket.h:on_close", "include/base.h:POP_FIRST_PENDING_MSG_NOTIFY"]}
{"id": "C82", "title": "on_close is called at most once per shutdown", "statement": "However threads starting and closing a socket race with each other, with reconnecting and with the closing timer, on_close has never been called more often than the socket was shut down.", "quantifier": "every interleaving of any number of threads, at the level of individual operations", "why_tests_cant": "schedules", "anchors": ["include/socket.h:close", "include/socket.h:timer_handler", "include/timer.h:timer_handler"]}
{"id": "C83", "title": "Starting and closing exclude each other", "statement": "At any time at most one thread is inside the protected part of starting or closing a socket; so a started socket is never started again and only a started socket is shut down, however many threads do that.", "quantifier": "every interleaving of any number of threads", "why_tests_cant": "schedules", "anchors": ["include/socket.h:start", "include/socket.h:close", "include/base.h:scope_atomic_lock"]}
{"id": "C84", "title": "Link status follows its life cycle", "statement": "The link status of a TCP socket only moves connected -> (graceful or force) shutting down -> broken -> connected (a graceful shutdown may become a forced one); a forced shutdown is never downgraded to a graceful one.", "quantifier": "every interleaving of connecting, shutdown requests, errors and timers, for clients and servers", "why_tests_cant": "races", "anchors": ["include/tcp/socket.h:link_status", "include/tcp/socket.h:_force_shutdown", "include/tcp/socket.h:_graceful_shutdown", "include/tcp/socket.h:on_close"]}
{"id": "C85", "title": "Connection attempts are paced and stop", "statement": "Every connection attempt of a client waits as long as prepare_reconnect said (50 ms after a start), and there are no others; prepare_reconnect is asked only while the client is started; a client closed without reconnecting makes no attempt and reports no connection until the application asks for it again; a started link is shut down at most once, then its closing is told once, and it is not started again before.", "quantifier": "every sequence and interleaving of connection results, shutdown calls, errors and user decisions", "why_tests_cant": "histories and races", "anchors": ["include/tcp/client_socket.h:connect", "include/tcp/client_socket.h:prepare_next_reconnect", "include/tcp/client_socket.h:after_close"]}
{"id": "C86", "title": "Dead links are detected in bounded time and idle links send heartbeats", "statement": "With heartbeat checking every `interval` seconds and a steady clock, a link that stays silent is dropped at the first check after interval*max_absence seconds, i.e. within interval*(max_absence+1) seconds plus timer latency; while a link is up something is sent at least every 2*interval seconds plus latencies; so two such ends with enough room in max_absence never drop a working link.", "quantifier": "every arrival/sending time line, configuration and latency", "why_tests_cant": "all time lines", "anchors": ["include/socket.h:check_heartbeat", "include/socket.h:start_heartbeat", "include/tcp/socket.h:send_heartbeat"]}
{"id": "C87", "title": "UDP sends one datagram at a time, in order", "statement": "A UDP socket, plain or reliable, sends queued datagrams one at a time, in the order of its send buffer and each at most once; an open plain UDP socket with a datagram queued will send it without any further call of the application, whether the sends before it succeed or fail.", "quantifier": "every interleaving of senders, completions, errors, congestion, closing and restarting", "why_tests_cant": "schedules", "anchors": ["include/udp/socket.h:do_send_msg", "include/udp/socket.h:send_handler", "include/udp/reliable_socket.h:do_send_msg"]}
{"id": "C88", "title": "SOCKS4 handshakes do not depend on fragmentation", "statement": "A SOCKS4 handshake waits for exactly the eight bytes of the answer, however they are fragmented, succeeds exactly if the request was granted, and leaves all later bytes to the application.", "quantifier": "every answer and every following data", "why_tests_cant": "fragmentation", "anchors": ["include/tcp/proxy/socks.h:recv_handler"]}
{"id": "C89", "title": "A service is initialised and uninitialised in turns", "statement": "For every service of a pump, init is called only when it is not running and is not being initialised, and uninit only when its last init succeeded and it was not uninitialised since.", "quantifier": "every sequence of pump calls, also from inside the services' own functions, and every result of init", "why_tests_cant": "unbounded histories and nesting", "anchors": ["include/service_pump.h:start_service", "include/service_pump.h:stop_service", "include/service_pump.h:do_service", "include/service_pump.h:stop_and_free"]}
{"id": "C90", "title": "Starting and stopping the pump reaches every service", "statement": "When starting the pump has created its threads, init was called exactly once for every registered service and each of them runs or refused to, and the pump reports that it is started; when stopping it has ended, every registered service is uninitialised and was finalised exactly once, and the pump reports that it is not started.", "quantifier": "every sequence of pump calls, any number of services, also added, removed, started and stopped on their own", "why_tests_cant": "unbounded histories", "anchors": ["include/service_pump.h:do_service", "include/service_pump.h:stop_service", "include/service_pump.h:wait_service", "include/service_pump.h:end_service"]}
{"id": "C91", "title": "Calls of the pump return", "statement": "Every call of the pump returns after a bounded number of its own steps once the service threads have ended and the services' functions return.", "quantifier": "every sequence of pump calls, also from inside the services' functions", "why_tests_cant": "unbounded histories and nesting", "anchors": ["include/service_pump.h:start_service", "include/service_pump.h:stop_service", "include/service_pump.h:remove", "include/service_pump.h:clear", "include/service_pump.h:do_something_to_all"]}
{"id": "C92", "title": "Destroyed services are not used", "statement": "No function of a service is called when the service, or the part of it that defines the function, is destroyed; no service is destroyed twice.", "quantifier": "every sequence of constructing, starting, removing and destroying services", "why_tests_cant": "object lifetimes over unbounded histories", "anchors": ["include/service_pump.h:remove", "include/service_pump.h:clear", "include/service_pump.h:stop_and_free", "include/service_pump.h:~i_service"]}
{"id": "C93", "title": "A service is freed once", "statement": "free() is called at most once for every service that was constructed.", "quantifier": "every sequence of pump calls", "why_tests_cant": "unbounded histories", "anchors": ["include/service_pump.h:stop_and_free", "include/service_pump.h:remove", "include/service_pump.h:~i_service"]}
{"id": "C94", "title": "Services are found by their identity", "statement": "Looking up an identity gives a registered service that has it, and gives nothing only if no registered service has it; it changes nothing.", "quantifier": "every history of the pump and every identity", "why_tests_cant": "unbounded histories", "anchors": ["include/service_pump.h:find"]}
{"id": "C95", "title": "Every socket of a running service is started", "statement": "While a service runs, every socket in it was started, unless the call that adds it is still under way - however starting the pump, adding sockets and accepting connections interleave.", "quantifier": "every interleaving of any number of threads that add sockets or accept connections with the thread that starts and stops the pump", "why_tests_cant": "the window between adding and starting is a few instructions", "anchors": ["include/socket_service.h:add_socket", "include/socket_service.h:init", "include/tcp/server.h:add_socket", "include/tcp/server.h:accept_handler", "include/service_pump.h:do_service"]}
{"id": "C96", "title": "Stopping the pump ends all links", "statement": "When the pump is being stopped, every link is ended by the library itself, so that stopping ends whatever the peers do, and no link is left.", "quantifier": "every interleaving as in C95", "why_tests_cant": "the window between accepting and adding is small; schedules", "anchors": ["include/tcp/server.h:uninit", "include/tcp/client.h:uninit", "include/tcp/server.h:accept_handler", "include/socket_service.h:add_socket", "include/service_pump.h:stop_service", "include/service_pump.h:wait_service"]}
{"id": "C97", "title": "Every message is handled at most once and none is lost, in every configuration", "statement": "With or without on_msg, batch dispatching and passive receiving: every received message is either still with the library or was taken over by the application exactly once.", "quantifier": "every configuration, every interleaving of receiving and dispatching, every behaviour of the application's functions", "why_tests_cant": "schedules and histories", "anchors": ["include/socket.h:handle_msg", "include/socket.h:do_dispatch_msg", "include/socket.h:dispatch_msg"]}
{"id": "C98", "title": "Messages are handled in order unless on_msg handles a part of them", "statement": "Messages are handled in the order they were received, one by one as well as in batches, without on_msg and also with it if it always handles all of its messages or never any.", "quantifier": "every configuration, every interleaving, every behaviour of the application's functions within the condition", "why_tests_cant": "schedules and histories", "anchors": ["include/socket.h:handle_msg", "include/socket.h:on_msg", "include/socket.h:do_dispatch_msg", "include/config.h:ST_ASIO_SYNC_DISPATCH"]}
{"id": "C99", "title": "Waiting messages are offered until they are handled, in every configuration", "statement": "Whenever on_msg_handle is not running, the first message that waits will be offered to it (alone, or at the head of the batch) without anything happening from outside, also after it was refused; the retry timer being used by one thread at a time.", "quantifier": "every configuration, every reachable state", "why_tests_cant": "lost wake-ups are rare", "anchors": ["include/socket.h:dispatch_msg", "include/socket.h:do_dispatch_msg", "include/socket.h:timer_handler"]}
{"id": "C100", "title": "The fill level of the receive buffer is exact", "statement": "The level that decides whether receiving goes on is exactly the number of bytes in the receive buffer, provided on_msg returns a positive value whenever it removed messages.", "quantifier": "every configuration, every interleaving, every sequence of messages", "why_tests_cant": "histories", "anchors": ["include/socket.h:handle_msg", "include/socket.h:is_recv_buffer_available", "include/container.h:move_items_in_"]}
{"id": "C101", "title": "With passive receiving every read gives the application a chance to ask for the next one", "statement": "After every completed read, also one that did not complete a message, the application is called: on_msg at once, or on_msg_handle later without anything else happening.", "quantifier": "every configuration with passive receiving, every reachable state", "why_tests_cant": "partial messages at the right time", "anchors": ["include/socket.h:handle_msg", "include/socket.h:recv_msg", "include/config.h:ST_ASIO_PASSIVE_RECV"]}
{"id": "C102", "title": "At most one read is in progress however often receiving is requested", "statement": "With passive receiving, recv_msg and sync_recv_msg may be called any number of times from any threads: the socket never has more than one asynchronous read in progress, and is_reading() tells exactly whether it has one.", "quantifier": "every interleaving of calls, reads, errors, timeouts and closing, TCP and UDP, with and without synchronous receiving", "why_tests_cant": "needs calls between the test of the reading flag and the start of the read", "anchors": ["include/socket.h:recv_msg", "include/socket.h:test_and_set_reading", "include/tcp/socket.h:do_recv_msg", "include/udp/socket.h:do_recv_msg"]}
{"id": "C103", "title": "Nothing is read unless it was asked for", "statement": "With passive receiving, the number of reads started never exceeds the number of calls of recv_msg and sync_recv_msg (plus the first one of a link, unless synchronous receiving is compiled in), so that an application pauses receiving by not asking. Over TCP no read is started on a link that is down or closed, whenever it was asked for.", "quantifier": "every interleaving of calls, reads, errors, timeouts and closing, TCP and UDP", "why_tests_cant": "unbounded histories", "anchors": ["include/socket.h:recv_msg", "include/socket.h:do_start", "include/socket.h:handled_msg"]}
{"id": "C104", "title": "With passive receiving every message read is handed over exactly once, in order", "statement": "The messages handed over by sync_recv_msg and to asynchronous dispatching, taken together in the order of handing over, are the messages read, in the order read, except for those of a read that is just being handled.", "quantifier": "every interleaving of calls, reads, errors, timeouts and closing, TCP and UDP", "why_tests_cant": "needs timeouts between the end of a read and its handling", "anchors": ["include/socket.h:handle_msg", "include/socket.h:sync_recv_msg", "include/tcp/socket.h:recv_handler"]}
{"id": "C105", "title": "With passive receiving a call of sync_recv_msg is answered once the peer sends", "statement": "While a call of sync_recv_msg waits and the link is ready, a message that the peer sends brings the call to its end; once the link is closed, no call waits any more.", "quantifier": "every interleaving of calls, reads, errors and timeouts", "why_tests_cant": "the wait is endless; a test that calls after the link is established never sees it", "anchors": ["include/socket.h:sync_recv_msg", "include/socket.h:recv_msg", "include/socket.h:do_start"]}
{"id": "C106", "title": "An application that only receives synchronously gets every message from sync_recv_msg", "statement": "With passive and synchronous receiving, if recv_msg is never called, no message of an open link goes to on_msg or on_msg_handle.", "quantifier": "every interleaving of calls, reads, errors and timeouts", "why_tests_cant": "needs a message that arrives right after a timeout", "anchors": ["include/socket.h:sync_recv_msg", "include/socket.h:sync_recv_waiting", "include/socket.h:handle_msg"]}
{"id": "C107", "title": "A TLS or web socket link is established only after its handshake", "statement": "In every life of a TLS or web socket link, client or server: on_handshake is called at most once; on_connect only after a successful handshake, and then at once; nothing is read before on_connect or after a failed handshake; on_close ends the life, and is_connected() is true only after on_connect.", "quantifier": "every interleaving of connecting, handshake, requests, reads, timers and errors, over any number of lives", "why_tests_cant": "needs shutdown requests and failures at every point of a handshake", "anchors": ["include/tcp/ssl/ssl.h", "include/tcp/websocket/websocket.h", "include/tcp/socket.h:do_start"]}
{"id": "C108", "title": "A shutdown of a TLS or web socket link comes to an end", "statement": "Once a TLS or web socket link is being shut down, it reaches on_close even if the peer does not answer, and also if the peer answers at once.", "quantifier": "every reachable state of a link that is being shut down, every configuration", "why_tests_cant": "the wait is endless, and only in one configuration", "anchors": ["include/tcp/ssl/ssl.h:async_shutdown", "include/tcp/websocket/websocket.h:shutdown_websocket", "include/tcp/socket.h:shutdown_handler"]}
{"id": "C109", "title": "A handshake comes to an end", "statement": "Once a TLS or web socket handshake is in progress, on_handshake is called even if the peer stays silent; and it is called after the application asked for the link to be closed. A link whose handshake failed is closed.", "quantifier": "every reachable state with a handshake in progress", "why_tests_cant": "needs a peer that connects and says nothing; the wait is endless", "anchors": ["include/tcp/ssl/ssl.h:do_start", "include/tcp/ssl/ssl.h:connect_handler", "include/tcp/websocket/websocket.h:do_start"]}
{"id": "C110", "title": "Whether a TLS or web socket client connects again is what the application said last", "statement": "Every time a client link is closed, it is started again exactly if the last set_reconnect, disconnect, force_shutdown or graceful_shutdown of the application (at first the configured default) said so.", "quantifier": "every history of a client", "why_tests_cant": "needs a failing handshake", "anchors": ["include/tcp/ssl/ssl.h:handle_handshake", "include/tcp/websocket/websocket.h:handle_handshake", "include/tcp/client_socket.h:after_close"]}
{"id": "C111", "title": "Reliable UDP gives every completed message to the application, in order", "statement": "Each time a datagram has been handled, all messages of the peer that KCP has completed so far have been given to the application, in the order of completion, and no message of the peer can end the program.", "quantifier": "every sequence of datagrams and every way KCP completes messages, over any number of lives", "why_tests_cant": "needs a message longer than ST_ASIO_MSG_BUFFER_SIZE or an empty one, which the library's own packer does not make", "anchors": ["include/udp/reliable_socket.h:pre_handle_msg", "include/ext/unpacker.h:compose_msg"]}
{"id": "C112", "title": "Reliable UDP reports a message as sent only if it is on its way", "statement": "The messages for which on_msg_send is called, or sync_send_msg returns SUCCESS, are exactly those that KCP has taken over (or that were put on the wire as datagrams), in the same order; and all messages sent are among them.", "quantifier": "every sequence of messages", "why_tests_cant": "needs messages of more than KCP's fragment limit", "anchors": ["include/udp/reliable_socket.h:do_send_msg", "include/udp/socket.h:send_handler"]}
{"id": "C113", "title": "A reliable UDP socket never falls back to unreliable datagrams", "statement": "Once a KCP control block was created for a socket, no datagram is given to the application without passing through KCP, and no message is sent without KCP.", "quantifier": "every history of a socket", "why_tests_cant": "needs a failing connect", "anchors": ["include/udp/socket.h:do_start", "include/udp/socket.h:recv_handler", "include/udp/socket.h:do_send_msg"]}
{"id": "C114", "title": "A socket that could not be started leaves nothing running", "statement": "If start() fails, no timer of the library goes on running on the socket, so that the socket can be freed and the service pump can be stopped.", "quantifier": "every history of a reliable UDP socket", "why_tests_cant": "needs an address that is in use; the pump then waits for ever", "anchors": ["include/udp/reliable_socket.h:do_start", "include/udp/socket.h:do_start"]}
{"id": "C115", "title": "KCP's control block is not released while a handler uses it", "statement": "Creating a new control block (which the library accepts whenever started() is false) or closing never releases a control block that a handler of the socket is using at that moment.", "quantifier": "every interleaving of handlers with create_kcpcb, start and shutdown", "why_tests_cant": "a data race", "anchors": ["include/udp/reliable_socket.h:create_kcpcb", "include/udp/reliable_socket.h:release_kcp", "include/udp/reliable_socket.h:timer_handler"]}
{"id": "C116", "title": "KCP is updated as long as the socket runs", "statement": "While a socket with a control block is started, the library calls ikcp_update again after any history, without waiting for a datagram or the application.", "quantifier": "every history of a reliable UDP socket", "why_tests_cant": "unbounded histories", "anchors": ["include/udp/reliable_socket.h:timer_handler", "include/udp/reliable_socket.h:do_start"]}
{"id": "C117", "title": "Over a web socket, one call of a send function is one message for the peer's application", "statement": "With the default packer and unpacker of ext/websocket.h, every successful call of a send function (with valid, non-empty arguments of permitted size) makes the peer's application receive exactly one message, holding exactly the bytes that were passed, in the order of the calls. For all forms of sending the bytes received are, put together, those a stream link would carry.", "quantifier": "every sequence of calls of every overload of send_msg and send_native_msg, every progress of the link", "why_tests_cant": "all overloads, all interleavings of calls and completions", "anchors": ["include/ext/websocket.h", "include/tcp/websocket/websocket.h:reader_writer", "include/base.h:TCP_SEND_MSG", "include/ext/packer.h:packer"]}
{"id": "C118", "title": "No message of the peer stops receiving over a web socket", "statement": "Whatever valid web socket messages a peer sends, the program does not abort, and every message is given to the application in order.", "quantifier": "every sequence of messages of any peer", "why_tests_cant": "the peer need not use this library", "anchors": ["include/tcp/socket.h:recv_handler", "include/tcp/websocket/websocket.h:parse_msg"]}
{"id": "C119", "title": "Heartbeats over a web socket are not given to the application", "statement": "The application at the other end of a web socket link with heartbeats switched on receives only what the application at this end has sent.", "quantifier": "every sequence of calls and heartbeats", "why_tests_cant": "depends on time and idle periods", "anchors": ["include/tcp/socket.h:send_heartbeat", "include/ext/packer.h:pack_heartbeat", "include/ext/websocket.h"]}
{"id": "C120", "title": "Functions that visit all links return", "statement": "force_shutdown(), disconnect(), broadcasts that may be refused and do_something_to_all, called by any thread at any time, return in the end, even if new links are being accepted, started or closed meanwhile.", "quantifier": "every number of service threads, every interleaving of the caller with accepting, starting, sending and closing, callbacks that call the server back", "why_tests_cant": "a deadlock that needs a link in on_connect at the moment of the call", "anchors": ["include/object_pool.h:do_something_to_all", "include/tcp/server.h:force_shutdown", "include/socket.h:close", "include/socket.h:do_start"]}
{"id": "C121", "title": "A safe broadcast returns once the peers read", "statement": "safe_broadcast_msg returns in the end if all peers read what they are sent, whatever other links come and go meanwhile.", "quantifier": "every number of service threads, every interleaving", "why_tests_cant": "needs as many new or closing links at the same time as there are service threads", "anchors": ["include/tcp/server.h:safe_broadcast_msg", "include/base.h:TCP_BROADCAST_MSG", "include/base.h:SAFE_SEND_MSG_CHECK", "include/object_pool.h:do_something_to_all"]}
{"id": "C122", "title": "A function that visits all links treats each link exactly once", "statement": "Between its beginning and its end, the function treats every link that is valid, each exactly once and as asked, and no other; no link is added or removed meanwhile. A safe broadcast leaves a link out only if that link is not connected at that moment.", "quantifier": "every number of service threads, every interleaving", "why_tests_cant": "concurrent additions and removals", "anchors": ["include/object_pool.h:do_something_to_all", "include/object_pool.h:add_object", "include/object_pool.h:del_object", "include/base.h:TCP_BROADCAST_MSG"]}
{"id": "C123", "title": "Messages of broadcasts reach each link in the order of the broadcasts", "statement": "For every link, the messages handed over to the operating system are those that broadcasts gave to that link, in the order of the broadcasts, each once, the next ones only after the former ones were written; everything given to a connected link is handed over in the end when a service thread is free.", "quantifier": "every number of service threads, every interleaving of broadcasts with sending, starting and closing", "why_tests_cant": "unbounded interleavings", "anchors": ["include/tcp/server.h:broadcast_msg", "include/socket.h:send_msg", "include/tcp/socket.h:do_send_msg", "include/tcp/socket.h:send_handler"]}
{"id": "C124", "title": "Buffers on the heap behave as values and free each object once", "statement": "unique_buffer and shared_buffer: after any sequence of creating, copying (shared_buffer), swapping, moving, resetting and clearing buffers, each buffer holds the bytes that plain values would hold under the same operations; no operation uses an object that has been freed; an object is freed exactly once, and it is freed if and only if no buffer holds it any more.", "quantifier": "every sequence of operations on any number of buffers with any content", "why_tests_cant": "aliasing, double deletes and leaks depend on the order of operations", "anchors": ["include/base.h:unique_buffer", "include/base.h:shared_buffer", "include/base.h:object_buffer"]}
{"id": "C125", "title": "Packing and unpacking with buffers on the heap gives the same bytes as with strings", "statement": "The packer with replaceable buffers (packer2) gives exactly the bytes that the default packer gives for the same contents, takes exactly the given messages away from the caller when it succeeds and leaves them unchanged when it refuses; the unpackers with replaceable buffers (unpacker2, udp_unpacker2) give exactly the messages of the unpackers behind them, each in an object of its own.", "quantifier": "every configuration, every state of the buffers, every content", "why_tests_cant": "contents and lengths of unbounded size, objects shared by several buffers", "anchors": ["include/ext/packer.h:packer2", "include/ext/unpacker.h:unpacker2", "include/ext/unpacker.h:udp_unpacker2"]}
{"id": "C126", "title": "The header announces as many bytes as follow, whichever messages are passed", "statement": "When send_msg with two messages is accepted, the length in the header is the number of bytes put into the send buffer, whichever two messages (of which both exist) are passed.", "quantifier": "every configuration, every state of the buffers, every pair of messages", "why_tests_cant": "tests pass two different objects", "anchors": ["include/ext/packer.h:pack_msg", "include/base.h:TCP_SEND_MSG"]}
{"id": "C127", "title": "A refused message is offered again only after the handling interval", "statement": "After on_msg_handle has refused a message (returned false), it is not called again before msg_handling_interval has passed since then.", "quantifier": "every sequence of receptions, refusals, timer expirations, closings and reconnections, every interleaving", "why_tests_cant": "depends on how many reads complete before the first message is offered", "anchors": ["include/socket.h:do_dispatch_msg", "include/socket.h:dispatch_msg", "include/config.h:ST_ASIO_MSG_HANDLING_INTERVAL"]}
{"id": "C128", "title": "A graceful shutdown delivers what was handed over before it", "statement": "On a link that nothing else ends, the messages that were handed over (accepted by the send functions) before graceful_shutdown reach the peer as a whole, in order, before the end of the stream.", "quantifier": "every interleaving of senders, handlers, shutdown and an operating system that takes the bytes of a write in pieces of any size", "why_tests_cant": "depends on how many bytes the operating system has taken when the shutdown runs", "anchors": ["include/tcp/socket.h:graceful_shutdown", "include/tcp/socket.h:_graceful_shutdown", "include/tcp/socket.h:do_send_msg", "include/tcp/socket.h:send_handler"]}
{"id": "C129", "title": "Every link carries whole messages, one after another", "statement": "The bytes a link carries are whole messages in the order in which their writes were started; a new link starts with a whole message (with the first byte of what one call of a send function sent), whatever happened on the former one; only the last message of a link may be cut.", "quantifier": "every number of links over one socket object, every interleaving, every way in which the operating system divides or ends a write", "why_tests_cant": "needs writes that fail in the middle of a message, and links that break between the header and the body of a message", "anchors": ["include/tcp/socket.h:do_send_msg", "include/tcp/socket.h:send_handler", "include/tcp/socket.h:on_send_error", "include/tcp/socket.h:do_start"]}
{"id": "C130", "title": "Using socket objects again cannot be seen", "statement": "With ST_ASIO_REUSE_OBJECT a program behaves as without it: each sequence of calls and network events leads to the same connections, messages, refusals, waits and statistics.", "quantifier": "every sequence of adding, connecting, sending, receiving, refusing, closing and releasing sockets, every choice of the object that is used again", "why_tests_cant": "needs pairs of lives of one object in every combination of what the first one left behind", "anchors": ["include/object_pool.h:create_object", "include/object_pool.h:invalid_object_pop", "include/socket.h:reset", "include/tcp/client_socket.h:reset", "include/udp/socket.h:reset"]}
{"id": "C131", "title": "A socket uses the addresses it was added with", "statement": "A socket connects to the server, from the local address, and binds (and in connect mode connects) to the addresses that were given to add_socket, or to the defaults where add_socket was given none, unless a setter called later with a valid address changes that.", "quantifier": "every sequence of adding sockets by every overload with every address, setters, closing and reconnecting, with and without using objects again", "why_tests_cant": "needs invalid addresses and objects used again by another overload of add_socket", "anchors": ["include/tcp/client.h:add_socket", "include/udp/socket_service.h:add_socket", "include/tcp/client_socket.h:set_addr", "include/tcp/client_socket.h:set_server_addr", "include/udp/socket.h:set_local_addr"]}
{"id": "C132", "title": "What belonged to the former peer of a socket object stays there", "statement": "Whether objects are used again or not: each socket handles only messages that arrived on it, in order; writes only messages that were given to it, in order; its statistics count its own messages; an incomplete message of a former link is not joined with the first bytes of the next one; and an object is not given to a new socket while a write of its former socket has not ended.", "quantifier": "every sequence of events of any number of sockets, objects used again in any order, every content", "why_tests_cant": "left-over messages and half messages of a former life depend on when the former link ended", "anchors": ["include/socket.h:reset", "include/socket.h:clear_buffer", "include/object_pool.h:invalid_object_pop", "include/tcp/socket.h:send_handler", "include/socket.h:do_dispatch_msg"]}
{"id": "C133", "title": "The receiver handles what was sent, in order, each message once", "statement": "Over a TCP link between two sockets of this library with the length-prefix packer and any of its unpackers, the receiving application handles only messages that were given to a send function, consecutive ones, in the order in which the send functions accepted them, each once; on the first link from the first one on, on a later link from the first one that former links did not take.", "quantifier": "every number of sending threads and callbacks, every overload of the send functions, heartbeats, every interleaving, every way in which the systems divide the bytes, messages refused and offered again by the handling function, links that break and are made again, every content", "why_tests_cant": "depends on where writes end, links break and reads end; a wrong division shows only with contents that look like headers", "anchors": ["include/tcp/socket.h:do_send_msg", "include/tcp/socket.h:recv_handler", "include/socket.h:handle_msg", "include/socket.h:do_dispatch_msg", "include/ext/packer.h:pack_msg", "include/ext/unpacker.h:parse_msg"]}
{"id": "C134", "title": "If the applications do nothing more, everything accepted is handled", "statement": "When nobody calls a send function any more and the handling function accepts what it is offered, everything that goes on comes to an end, in every order of events; if the link is up then, none of its writes failed, no message was sent with the prior flag, and the link is the first one (or each call put one item into the send buffer), the receiving application has handled every message that was accepted and not taken by a former link, in order.", "quantifier": "every state that can be reached with every number of sending threads, every interleaving, every way in which the systems divide the bytes; each unpacker of the library, every size of the receive buffer", "why_tests_cant": "a message that is left behind shows only when nothing else comes, in one of many interleavings", "anchors": ["include/socket.h:send_msg", "include/tcp/socket.h:do_send_msg", "include/tcp/socket.h:send_handler", "include/tcp/socket.h:recv_handler", "include/socket.h:dispatch_msg", "include/socket.h:do_dispatch_msg"]}
{"id": "C135", "title": "on_msg_send is called for every message that was sent, with that message", "statement": "With ST_ASIO_WANT_MSG_SEND_NOTIFY (or the batch variant) the application is told of every message whose sending succeeded exactly once, when it was sent, in the order of sending, and with the message as it was sent; on_send_error gets exactly the messages of the write that failed.", "quantifier": "every number of sending threads, callbacks that send or change the container they get, every interleaving, writes that succeed or fail, links made again", "why_tests_cant": "interleavings of the notification with other threads' send calls; overloads that put a message into the send buffer in parts", "anchors": ["include/tcp/socket.h:send_handler", "include/tcp/socket.h:batch_msg_send_size", "include/socket.h:on_msg_send"]}
{"id": "C136", "title": "on_all_msg_send is called when all messages have been sent, and only then", "statement": "With ST_ASIO_WANT_ALL_MSG_SEND_NOTIFY: when the library decides to call on_all_msg_send, everything put into the send buffer so far was sent (or its write failed and was reported); it is called only if a write succeeded since its last call; it gets the message that was sent last (unless on_msg_send(msg_can) changed the container); when no handler of the socket runs and no write is in flight, it has been called since the last write that succeeded.", "quantifier": "every number of sending threads, callbacks that send or change the container they get, every interleaving, writes that succeed or fail", "why_tests_cant": "a call that is missing or too early shows only if another thread sends between two steps of the completion handler", "anchors": ["include/tcp/socket.h:send_handler", "include/tcp/socket.h:do_send_msg", "include/socket.h:on_all_msg_send"]}
{"id": "C137", "title": "With a delay for closing, a socket is given free only after that delay", "statement": "With ST_ASIO_DELAY_CLOSE greater than zero: starting, closing and on_close of a socket come strictly in turns; on_close is called at least that many seconds after the closing (at once if the service does not run), and it is called if the service runs; the socket is reported obsolete (to be used again or freed) only after its on_close, while it is closed.", "quantifier": "every sequence of starting, closing, reconnecting, setting of the reconnect flag, stopping the service and using objects again, at any times", "why_tests_cant": "needs a reconnection and a later change of the reconnect flag within particular times", "anchors": ["include/socket.h:close", "include/socket.h:timer_handler", "include/socket.h:obsoleted", "include/tracked_executor.h:is_async_calling", "include/tcp/client_socket.h:obsoleted"]}
{"id": "C138", "title": "Functions registered in place of virtual functions are called, and the library still does what it must", "statement": "With the classes of ext/callbacks.h: each event calls the function registered last for it exactly once, with the event's argument and before the library's own function; events of other functions are not touched, and without a registration the library behaves as if the classes were not there. If pass_on is not given, the library's own handling of the events it depends on (resetting, closing, reconnecting, broken links, accepting the next link) is still done. The number a registered function returns is the number the library goes by.", "quantifier": "every sequence of registrations and events, all results of the registered and of the library's own functions", "why_tests_cant": "there are 26 functions of three kinds, each with its own default, and what matters is which handling is silently left out", "anchors": ["include/ext/callbacks.h:call_cb_void", "include/ext/callbacks.h:call_cb_combine", "include/ext/callbacks.h:call_cb_return", "include/ext/callbacks.h:register_cb_1"]}
{"id": "C139", "title": "UDP messages go where they should and come from whom they are said to come", "statement": "A UDP message leaves for the address given with the call, or for the peer address that was set when the call was made, in the order of the calls; a received message is handed to the application with the address of its sender. (For connected sockets the address given with a call is documented to be ignored.)", "quantifier": "every sequence of setting the peer address, connect mode, starting (connecting may fail), closing, using the object again, sending and receiving", "why_tests_cant": "wrong addresses show only if the peer address changes at particular moments", "anchors": ["include/udp/socket.h:do_send_msg", "include/udp/socket.h:recv_handler", "include/udp/socket.h:do_start", "include/udp/socket.h:set_peer_addr", "include/base.h:UDP_SEND_MSG"]}
{"id": "C140", "title": "Settings of a socket take effect at once and only on this socket", "statement": "At any time a socket works with the settings made last on it, or with the defaults: send_msg takes a message exactly if less than the send limit waits to be written, every message is packed by the packer that was set when send_msg was called (also if another packer is set before it is written), a refused message is offered again after the interval set last, and the socket reads only if, since the last bytes arrived, less than the receive limit waited for the application; a limit of 0 is ignored.", "quantifier": "every sequence of setting, sending, receiving, handling, refusing, connecting, closing and (with or without reuse of objects) creating sockets, for TCP servers, TCP clients and UDP", "why_tests_cant": "settings are made while messages wait on both sides, and with reuse of objects by a program part that no longer knows the object", "anchors": ["include/socket.h:send_buf_size", "include/socket.h:recv_buf_size", "include/socket.h:msg_handling_interval", "include/socket.h:packer", "include/socket.h:reset", "include/object_pool.h:create_object"]}
{"id": "C141", "title": "A refused message stays with the caller and changes nothing", "statement": "When send_msg, send_native_msg or direct_send_msg returns false, the caller's messages are unchanged, nothing was put into the send buffer and nothing in it was discarded. When it returns true, the bytes of the message have been joined to the send buffer as a whole, at its end or (prior) in front, at most the oldest messages have been discarded, and the caller parts with exactly what it passed by reference.", "quantifier": "every state of the send buffer, every message, every overload, with and without can_overflow, prior and ST_ASIO_SHRINK_SEND_BUFFER", "why_tests_cant": "needs a full buffer together with a message that cannot be packed, and a look at the variables afterwards", "anchors": ["include/base.h:TCP_SEND_MSG", "include/socket.h:direct_send_msg", "include/socket.h:shrink_send_buffer", "include/ext/packer.h:pack_msg"]}
{"id": "C142", "title": "A name stands for the link that was added under it (socket_management)", "statement": "In the program socket_management: as long as a link that was added under a name is neither deleted nor over, sending to the name uses this link, deleting the name shuts this link down, and adding the name again is refused; as soon as it is over or deleted, the name is free.", "quantifier": "every sequence of the commands add, del and send with any names, every order in which connections are made, fail and break, every moment at which reads fail", "why_tests_cant": "needs a link whose end is noticed after its name was used again, or a server that cannot be reached", "anchors": ["socket_management/client.h:add_link", "socket_management/client.h:find_and_remove_link", "socket_management/client.h:del_link", "socket_management/client.h:on_recv_error", "include/tcp/client_socket.h:prepare_next_reconnect"]}
{"id": "C143", "title": "Filling a basic_buffer piece by piece moves each byte only a few times", "statement": "If an empty ext::basic_buffer is filled by append calls (of a string, of a repeated character, of another buffer), the blocks that have to be moved by reallocations have together at most three times the size of the result (twice, except with Microsoft's compiler): the capacity grows as in std::string.", "quantifier": "every number of calls, every sizes of the pieces, every allocator, 32 and 64 bit", "why_tests_cant": "a test of running times sees small buffers only; the bound fails from 2 GiB on", "anchors": ["include/ext/ext.h:basic_buffer::reserve", "include/ext/ext.h:basic_buffer::append"]}
{"id": "C144", "title": "The performance test of echo_client uses every link alike, and its end is reported when everything came back", "statement": "When a test is started, the links are divided among the sending threads: each link goes to exactly one thread, no thread gets two links more than another, no index leaves an array and no division is by zero. If all threads have sent, each link was given msg_num messages. The percentage becomes 100 exactly when as many bytes came back as are to be sent. A random choice hits an existing link.", "quantifier": "every number of links and of threads, every msg_num and msg_len, 32 and 64 bit", "why_tests_cant": "the division depends on the remainder of two numbers, and fails for none at all; totals near 2^32 are not tried", "anchors": ["echo_client/echo_client.cpp:group_links", "echo_client/echo_client.cpp:send_msg_concurrently", "echo_client/echo_client.cpp:send_msg_randomly"]}
{"id": "C145", "title": "A ping-pong test ends, and not before everything came back", "statement": "When pingpong_client reports the end of a test, msg_num * msg_len bytes sent in this test came back over every link. Nothing is dropped by the server for want of room and no message is refused. Every test that is started ends.", "quantifier": "every number of links below 65536, every msg_num, every msg_len up to the size of the receive buffer, every way in which the bytes are cut to pieces by the network and by sending, every interleaving, every number of tests one after the other", "why_tests_cant": "pieces arrive whole on a loopback device; bytes of a former test are left over only if a message came back in pieces", "anchors": ["pingpong_client/pingpong_client.cpp:echo_socket::begin", "pingpong_client/pingpong_client.cpp:handle_msg", "pingpong_server/pingpong_server.cpp:on_msg"]}
{"id": "C146", "title": "force_shutdown() of a server ends every link it visits", "statement": "Every link that is in a server's pool when force_shutdown() or disconnect() visits it is shut down when everything that was started has ended, whatever happens meanwhile. Links live in order: added to the pool, connected, shut down, removed from the pool, each once.", "quantifier": "every number of links and of service threads, every interleaving of the visiting thread with accepting, starting, sending, breaking and closing", "why_tests_cant": "needs a link that is accepted at the very moment at which the server is shut down", "anchors": ["include/tcp/server.h:force_shutdown", "include/tcp/server.h:disconnect", "include/tcp/server.h:uninit", "include/tcp/server.h:add_socket", "include/socket.h:close"]}
{"id": "C147", "title": "concurrent_server goes on accepting connections", "statement": "As long as fewer links than allowed exist, concurrent_server (which lets the number of waiting accepts fall from 1024 to about ten while links arrive) accepts the next connection.", "quantifier": "every sequence of connections and ends of links, every interleaving of accept handlers with each other and with links that end", "why_tests_cant": "needs more than a thousand connections of which some have ended", "anchors": ["concurrent_server/concurrent_server.cpp:start_next_accept", "include/tcp/server.h:accept_handler"]}
{"id": "C148", "title": "A UDP peer that falls silent is reported in time, but not too often", "statement": "With heartbeat checking every `interval` seconds and a steady clock, a UDP socket reports the silence of its peer within interval*(max_absence+1) seconds plus timer latency after the last datagram from the peer or the last report; it reports silence only if nothing was received and nothing was reported for interval*max_absence-1 seconds; the socket goes on.", "quantifier": "every arrival/sending time line, configuration and latency", "why_tests_cant": "all time lines; needs datagrams of third parties", "anchors": ["include/socket.h:check_heartbeat", "include/udp/socket.h:on_heartbeat_error", "include/udp/socket.h:recv_handler"]}
{"id": "C149", "title": "A UDP peer gets something at least every two intervals", "statement": "With heartbeat checking every `interval` seconds and a steady clock, a UDP socket sends its peer something at least every 2*interval seconds plus latencies, whether or not the peer answers; with ST_ASIO_ALWAYS_SEND_HEARTBEAT a heartbeat is queued at least every interval seconds plus timer latency.", "quantifier": "every arrival/sending time line, configuration and latency", "why_tests_cant": "all time lines; needs messages to third parties", "anchors": ["include/socket.h:check_heartbeat", "include/udp/socket.h:send_heartbeat", "include/udp/socket.h:do_send_msg", "include/udp/socket.h:send_handler"]}
{"id": "C150", "title": "What a UDP application handles was sent, whole, by the address it came with; an orderly network loses and reorders nothing", "statement": "Whatever the network loses, duplicates or reorders, every message the receiving application handles is one whole datagram that the sender with that address was asked to send. If the network does not duplicate, nothing is handled more often than it was sent or sent more often than asked for. If the network is orderly, the messages handled are the first of those that left the hosts, in that order, none missing. A sender's datagrams leave in the order of the calls unless a call asks for priority; only failed sends are missing. Once the applications call nothing any more, everything comes to rest in a finite number of steps; if the sockets are up then, the network was orderly and no send failed, everything asked for has been handled.", "quantifier": "every number of senders, every interleaving, every behaviour of the network, every configuration", "why_tests_cant": "all interleavings of senders, network and receiver", "anchors": ["include/base.h:UDP_SEND_MSG", "include/socket.h:do_direct_send_msg", "include/udp/socket.h:do_send_msg", "include/udp/socket.h:send_handler", "include/udp/socket.h:recv_handler", "include/socket.h:handle_msg", "include/socket.h:do_dispatch_msg"]}
{"id": "C151", "title": "What a UDP application handles is what was given to the send function", "statement": "With the packer and unpacker that include/ext/udp.h uses by default, every message the receiving application handles equals a content that was given to a send function of the sender.", "quantifier": "every content, every interleaving, every behaviour of the network", "why_tests_cant": "needs the two sides to be compared byte by byte for all send functions", "anchors": ["include/ext/udp.h:socket", "include/ext/packer.h:packer", "include/ext/unpacker.h:udp_unpacker", "include/udp/socket.h:send_heartbeat"]}
{"id": "C152", "title": "Every file transfer asked for ends, with the right bytes in the right place", "statement": "Over one link between the file client and the file server, for any number of downloads, uploads and talks in a row: nothing is ignored, mistaken or aborted; every download writes exactly this link's part of the server's file at its place, and fails only if there is no such file; every upload stores exactly this link's part of the client's file; once the user asks for nothing more, everything comes to rest in a finite number of steps, and then every transfer has ended, the client is idle and the server has written everything the client has sent.", "quantifier": "every sequence of requests, every contents and size of files, every number of links, every splitting of the data into reads, every order of handlers", "why_tests_cant": "the order in which two strands of the server run its handlers cannot be forced by a test, and the sizes are unbounded", "anchors": ["file_server/file_socket.cpp:handle_msg", "file_server/file_socket.cpp:on_msg_send", "file_server/file_socket.cpp:trans_end", "file_client/file_client.h:get_file", "file_client/file_client.h:truncate_file", "file_client/file_client.h:put_file", "file_client/file_client.h:handle_msg", "file_client/file_client.h:on_msg_send", "file_common/file_buffer.h:read", "file_common/unpacker.h:parse_msg"]}
{"id": "C153", "title": "No client can bring a file server down", "statement": "Whatever orders and bytes a client sends at whatever time, no assertion of the file server fails, it does not use a file it has closed, it does not overflow a number, and it does not read into its buffer with a senseless length.", "quantifier": "every sequence of orders and bytes, every interleaving with the completion of the server's writes", "why_tests_cant": "hostile clients and their timing are unbounded", "anchors": ["file_server/file_socket.cpp:handle_msg", "file_server/file_socket.cpp:on_msg_send", "file_common/file_buffer.h:read", "file_common/unpacker.h:prepare_next_recv"]}
{"id": "C154", "title": "The file client works off its list of files one by one and to the end", "statement": "For any sequence of get and put commands of the file client with any number of links: no link is asked for a file before all links have ended the one before; the files are begun in the order given, each once; a file is reported as failed only if some link cannot open the local file; as long as files wait, whatever happens, all of them can still be begun.", "quantifier": "every sequence of commands, every number of links, every length of files, every order of answers, bytes, timer ticks and lost connections", "why_tests_cant": "the interleavings of the links, the timer and the user are unbounded, and the decisive windows are milliseconds", "anchors": ["file_client/file_client.h:transmit_file", "file_client/file_client.h:update_progress_handler", "file_client/file_client.h:is_end", "file_client/file_client.h:get_file", "file_client/file_client.h:put_file", "file_client/file_client.h:handle_msg"]}
{"id": "C155", "title": "The progress the file client shows is right", "statement": "Whenever the file client shows a percentage, it is the share (rounded down) of the bytes of the current file that its links have received or taken up, hence at most 100; it reports the end of a file only when all bytes of that file have been received or taken up.", "quantifier": "every sequence of commands, every number of links, every length of files, every order of events", "why_tests_cant": "needs all interleavings of several links with the timer", "anchors": ["file_client/file_client.h:update_progress_handler", "file_client/file_client.h:transmit_file", "file_client/file_client.h:handle_msg", "file_client/file_client.h:on_msg_send"]}
{"id": "C156", "title": "An echo server sends every message back, once and in order, in bounded memory", "statement": "What the echo server has handed to the system for writing is at any time a beginning of the messages received on that link, packed, in the order received: none is lost, repeated, altered or reordered, although messages are refused and tried again while the send buffer is full. From any point at which the link is up, everything received can still come back without the peer sending anything more, and when nothing more can happen, everything has. The messages waiting to be sent never exceed the send buffer's limit by more than one message (ten when messages are handled in batches).", "quantifier": "every sequence of received messages, every interleaving of receiving, handling, sending and starting the link, every limit of the send buffer, both forms of on_msg_handle", "why_tests_cant": "needs all interleavings of three activities, and refusals depend on timing", "anchors": ["echo_server/echo_server.cpp:on_msg_handle", "include/socket.h:dispatch_msg", "include/socket.h:send_msg", "include/base.h:send_msg"]}
{"id": "C157", "title": "concurrent_client gives up the links that are too slow, only those, and in time", "statement": "On a link of concurrent_client one message goes back and forth. If it comes back within max_delay, it is sent again at once; otherwise the link is shut down and not connected again, either when the message comes back or, if it does not, at most five seconds (and the lateness of a timer) after max_delay has passed since it was sent. A link is never given up for another reason, and one that the server closed is connected again.", "quantifier": "every sequence of answers, breaks and checks at any times, every max_delay", "why_tests_cant": "needs all relations between the times of answers and of the periodic check", "anchors": ["concurrent_client/concurrent_client.cpp:check_delay", "concurrent_client/concurrent_client.cpp:on_connect", "concurrent_client/concurrent_client.cpp:handle_msg"]}
{"id": "C158", "title": "What comes back from an echo server is what was sent, once and in order", "statement": "A client and the echo server talk over one link with length-prefixed messages whose headers are removed before the application sees them. What the client's application has handled is at any time a beginning of the messages its send functions accepted (heartbeats not counted), in that order, each once and unaltered, whatever the system does with the bytes in either direction and whoever refuses messages for a while. When neither side has anything more to do and the link works, everything has come back. Priority messages and writes that fail on a working link are excluded (C133).", "quantifier": "all messages of all client threads, every interleaving of both sides, every cutting of the byte streams, every unpacker for which C01, C02 and C60 hold, all buffer limits", "why_tests_cant": "the two machines, the byte streams and the refusals on both sides interleave in unboundedly many ways", "anchors": ["echo_server/echo_server.cpp:on_msg_handle", "include/socket.h:dispatch_msg", "include/base.h:send_msg", "include/tcp/socket.h:recv_handler", "include/tcp/socket.h:do_send_msg"]}
{"id": "C159", "title": "A short link connects once and sends its message at most once", "statement": "The example program client sends each line over a link of its own, which is not to connect again when the server ends it: the link is added, then a function that switches reconnecting off is registered to run when the link is connected, then the message is given to the link. Whatever the timing, one connection is made, the message is sent at most once, and registering the function does not collide with calling it.", "quantifier": "every interleaving of the sending thread with connecting, failing to connect, sending and the end of the link; a new and a reused socket object", "why_tests_cant": "needs a thread that is delayed for longer than the fixed 50 ms before the first connection", "anchors": ["client/client.cpp:send_msg", "include/ext/callbacks.h:register_on_connect", "include/socket_service.h:add_socket", "include/tcp/client_socket.h:do_start"]}
{"id": "C160", "title": "The receiving thread of client receives as long as the service works, and quit never waits for it forever", "statement": "The example program client receives messages with sync_recv_msg in a thread of its own, which ends when a call returns something else than success or a timeout. Whenever the service runs and the link is connected or connecting, the next message can be received by that thread. The commands quit and restart, which wait for the thread to end, always come back.", "quantifier": "every interleaving of the main thread, the receiving thread, messages, closed links and reconnections, any number of restarts", "why_tests_cant": "needs many interleavings of two threads with closed links, and a thread that is faster than start_service", "anchors": ["client/client.cpp:sync_recv_thread", "client/client.cpp:main", "include/socket.h:sync_recv_msg", "include/socket.h:sync_recv_waiting", "include/socket.h:close"]}
{"id": "C161", "title": "A file transfer that fails leaves the files as they were", "statement": "A get or a put command of the file client that fails, for whatever reason, leaves every file on both sides as it was. One that succeeds makes the destination equal to the source and changes nothing else.", "quantifier": "all contents of both directories, all rights, every cutting into blocks, a link that breaks at any time", "why_tests_cant": "the point of failure and the former contents vary without bound, and tests seldom look at files that should not change", "anchors": ["file_client/file_client.h:get_file", "file_client/file_client.h:truncate_file", "file_client/file_client.h:put_file", "file_server/file_socket.cpp:handle_msg"]}
