{"id": "C01", "title": "A future's outcome is written once", "statement": "Whatever sequence of set_result / set_result_if_pending / set_exception / set_exception_if_pending / cancel / cancel_with / silence / get_result / add_done_callback / remove_done_callback calls is made on a Future, is_done() never goes back from True to False, and from the first moment it is done every later get_result() gives the same outcome (the same value, the same exception, or CancelledError).", "quantifier": "every finite sequence of API calls on one Future, with arbitrary values and exceptions", "why_tests_cant": "The number of call interleavings is unbounded; tests only try a handful of two-call sequences.", "anchors": ["scarletio/core/traps/future.py: Future.set_result, set_exception, cancel, cancel_with, get_result, is_done", "scarletio/core/traps/future_states.py"]}
{"id": "C02", "title": "Exactly one call wins the race to complete a future", "statement": "In every call history of a Future at most one of the completing calls reports success (set_result/set_exception not raising, the *_if_pending variants returning 1, cancel/cancel_with returning 1); the future is done at the end exactly when there is one, and get_result() reports precisely that call's outcome.", "quantifier": "every finite sequence of API calls on one Future", "why_tests_cant": "A race has as many orders as there are interleavings; a test fixes one.", "anchors": ["scarletio/core/traps/future.py: Future.set_result, set_result_if_pending, set_exception, set_exception_if_pending, cancel, cancel_with"]}
{"id": "C03", "title": "Every done-callback is scheduled exactly once", "statement": "A callback added with add_done_callback is handed to the event loop exactly once for each time it was added and not removed: nothing is scheduled while the future is pending, all outstanding callbacks are scheduled when it completes, later additions are scheduled immediately, and a callback removed before completion is never scheduled.", "quantifier": "every history of add/remove/complete calls on one Future in a running loop", "why_tests_cant": "Lost or duplicated wake-ups only show for particular orders of registration, removal and completion.", "anchors": ["scarletio/core/traps/future.py: Future.add_done_callback, remove_done_callback", "scarletio/core/event_loop/event_loop.py: _schedule_callbacks"]}
{"id": "C04", "title": "A task never resumes its coroutine twice for one suspension", "statement": "At any moment a live task has exactly one pending reason to run: one step queued in the event loop, or one registration on the single future it waits for. So the coroutine receives exactly one resume per suspension, and a finished task is never stepped again.", "quantifier": "every coroutine behaviour, every schedule of loop steps, future completions and cancel calls", "why_tests_cant": "Double resumption needs a specific interleaving of cancellation, completion and loop cycles.", "anchors": ["scarletio/core/traps/task.py: Task._step, Task._wake_up, Task.cancel"]}
{"id": "C05", "title": "Task.cancel() reaches the coroutine", "statement": "If task.cancel() returns 1 then, however the loop is scheduled afterwards, the next time the coroutine is resumed it is resumed with CancelledError, unless it was only waiting for a future that accepted the cancellation, in which case awaiting this future raises CancelledError.", "quantifier": "every state of the task in which cancel() is called, every later schedule", "why_tests_cant": "The window between a future finishing and its waiter waking up is one loop iteration wide and rarely hit by tests.", "anchors": ["scarletio/core/traps/task.py: Task.cancel, Task._step"]}
{"id": "C06", "title": "Task.cancel_with(exception) reaches the coroutine", "statement": "If task.cancel_with(exception) returns 1 the coroutine is interrupted the next time it is resumed, for every state the task can be in.", "quantifier": "every state of the task in which cancel_with() is called, every later schedule", "why_tests_cant": "Same one-iteration wide window as for cancel(); the method tests only cover a freshly created task.", "anchors": ["scarletio/core/traps/task.py: Task.cancel_with, Task._step"]}
{"id": "C07", "title": "call_soon is first in, first out and exactly once", "statement": "Callbacks given to call_soon run in the order of the calls, each exactly once unless its handle is cancelled before its turn, in which case it never runs; callbacks added by running callbacks go after everything already queued.", "quantifier": "every program of callbacks that add, cancel and raise", "why_tests_cant": "Order and exactly-once is about unbounded dynamic spawning of callbacks.", "anchors": ["scarletio/core/event_loop/event_loop.py: EventThread.call_soon, EventThread.runner", "scarletio/core/event_loop/handles.py: Handle"]}
{"id": "C08", "title": "Timers fire in deadline order, never early, never after cancel", "statement": "A callback scheduled with call_at/call_after is never moved to run before its deadline (up to the clock resolution), timers that become due in one cycle run in non-decreasing deadline order, every timer that is due runs in that cycle, each at most once, and a cancelled timer never runs.", "quantifier": "every multiset of timers, every sequence of clock readings and cancellations", "why_tests_cant": "Depends on arbitrary sets of deadlines and clock jumps.", "anchors": ["scarletio/core/event_loop/event_loop.py: EventThread.call_at, call_after, runner", "scarletio/core/event_loop/handles.py: TimerHandle"]}
{"id": "C09", "title": "A busy callback cannot starve timers and sockets", "statement": "The event loop keeps polling timers and I/O even if a callback reschedules itself with call_soon every time it runs.", "quantifier": "every program of callbacks", "why_tests_cant": "Starvation is a liveness property: no finite test shows that something never happens.", "anchors": ["scarletio/core/event_loop/event_loop.py: EventThread.runner"]}
{"id": "C10", "title": "Lock gives mutual exclusion", "statement": "At most one task (for ScarletLock(size): at most size tasks) holds the lock at any time, whatever the order of acquire, release, wake-up and cancellation of waiting tasks.", "quantifier": "every interleaving of acquire / release / wake-up / cancellation by any number of tasks", "why_tests_cant": "Violations need particular interleavings with cancellation; tests run a few.", "anchors": ["scarletio/core/traps/locks.py: Lock.acquire, Lock.release, ScarletLock"]}
{"id": "C11", "title": "Lock is granted in arrival order", "statement": "Tasks waiting for a Lock are granted it in the order in which they started to wait; a cancelled waiter only leaves the queue and does not change the order of the others.", "quantifier": "every interleaving of acquire / release / wake-up / cancellation", "why_tests_cant": "Fairness is about all schedules.", "anchors": ["scarletio/core/traps/locks.py: Lock.acquire, Lock.release"]}
{"id": "C12", "title": "Cancelling a waiter never leaks the lock", "statement": "Whenever a task waiting in acquire() is cancelled, the lock does not get stuck: when every holder has released, is_locked() is False and waiting tasks get the lock.", "quantifier": "every point at which a waiting task can be cancelled, including after the wake-up was queued", "why_tests_cant": "The leak needs cancellation in the one loop iteration between release and resumption.", "anchors": ["scarletio/core/traps/locks.py: Lock.acquire, Lock.release"]}
{"id": "C13", "title": "AsyncQueue delivers every element once, in order", "statement": "With one consumer task at a time and no cancellation, the elements taken from an AsyncQueue (by await or get_result_no_wait) followed by those still in the queue are exactly the elements successfully put, in the same order, and no element is taken twice.", "quantifier": "every interleaving of put and take by one consumer and any number of producers on an unbounded queue", "why_tests_cant": "Loss or duplication depends on whether the consumer is waiting at the put.", "anchors": ["scarletio/core/traps/queues.py: AsyncQueue.set_result, get_result, get_result_no_wait, __await__"]}
{"id": "C14", "title": "AsyncQueue with several consumers delivers each element once", "statement": "When several tasks wait on the same AsyncQueue each element is delivered to exactly one of them.", "quantifier": "every number of waiting consumers and every schedule", "why_tests_cant": "Only visible with concurrent waiters.", "anchors": ["scarletio/core/traps/queues.py: AsyncQueue.__await__, set_result"]}
{"id": "C15", "title": "Cancelling a waiting consumer loses no element", "statement": "If a task waiting on an AsyncQueue is cancelled, elements put later are still delivered to later consumers.", "quantifier": "every cancellation point of a consumer", "why_tests_cant": "Needs a cancellation at one particular point.", "anchors": ["scarletio/core/traps/queues.py: AsyncQueue.__await__, set_result"]}
{"id": "C16", "title": "Blocked producers of a bounded AsyncQueue make progress", "statement": "If a producer is blocked in set_result_wait on a full queue, then taking an element frees a place for it.", "quantifier": "every way of taking elements and every queue bound", "why_tests_cant": "Liveness: the blocked producer is never woken, which no finite run shows.", "anchors": ["scarletio/core/traps/queues.py: AsyncQueue.set_result_wait, __await__, _poll_from_set_result_waiters"]}
{"id": "C17", "title": "A bounded queue never exceeds its bound", "statement": "set_result on an AsyncQueue / AsyncLifoQueue with max_length=n returns 1 and changes nothing when n elements are stored and nobody waits; otherwise it returns 0 and the element is stored behind the others or handed to the waiting consumer. The number of stored elements never exceeds n.", "quantifier": "every sequence of puts and takes", "why_tests_cant": "About all histories.", "anchors": ["scarletio/core/traps/queues.py: AsyncQueue.set_result, AsyncLifoQueue"]}
{"id": "C18", "title": "Exact reads do not depend on how the network chunks the data", "statement": "For any way the received byte stream is cut into chunks and for any sequence of read(n)/read_exactly requests, the concatenation of the returned byte strings is exactly the received prefix: request k returns the next n_k bytes, nothing is lost, duplicated or reordered; at end of stream with fewer than n bytes EOFError is raised.", "quantifier": "every byte stream, every segmentation of it into non-empty chunks, every sequence of requested lengths", "why_tests_cant": "There are exponentially many segmentations per stream.", "anchors": ["scarletio/core/protocols_and_transports/protocol.py: ReadProtocolBase.read_exactly, _read_exactly_by_chunk, data_received, eof_received"]}
{"id": "C19", "title": "read_until finds the delimiter wherever the chunk borders are", "statement": "read_until(boundary) returns exactly the bytes before the first occurrence of boundary and leaves exactly the bytes after it, for every segmentation of the stream into chunks.", "quantifier": "every byte stream, delimiter, segmentation and start offset in the first chunk", "why_tests_cant": "A delimiter split over chunk borders can be split in many ways; partial matches that fail have to be replayed.", "anchors": ["scarletio/core/protocols_and_transports/protocol.py: ReadProtocolBase.read_until, _read_until_by_chunk, _get_end_intersection_sizes, _continue_intersection_sizes, _finish_intersection_sizes, _get_released_from_held_back, _merge_intersection_sizes"]}
{"id": "C20", "title": "Web socket frames survive the wire", "statement": "Reading a frame written by write_web_socket_frame gives back the same final flag, opcode and payload, for every payload length (7, 16 and 64 bit length forms) and either masking choice, and consumes exactly the bytes written so that the following frame starts right after it.", "quantifier": "every opcode, final flag, payload up to 2^63-1 bytes, masking key and following data", "why_tests_cant": "Boundary lengths and all payloads cannot be enumerated.", "anchors": ["scarletio/web_common/http_protocol.py: write_web_socket_frame, read_web_socket_frame", "scarletio/web_common/web_socket_frame.py: WebSocketFrame, apply_web_socket_mask"]}
{"id": "C21", "title": "Web socket masking is an involution of the same length", "statement": "Masking a payload twice with the same 4 byte key gives the payload back, keeps its length, and each output byte depends only on the input byte and the key byte at index modulo 4.", "quantifier": "every payload and every key", "why_tests_cant": "All payload lengths modulo 4 and all values.", "anchors": ["scarletio/web_common/web_socket_frame.py: apply_web_socket_mask"]}
{"id": "C22", "title": "Invalid web socket frames are rejected", "statement": "A frame is accepted only if its opcode is defined, no reserved bit is set and, for control frames, the payload is at most 125 bytes and the frame is final; every such frame is accepted; a frame longer than the max_size limit or with the wrong masking is rejected before its payload is returned.", "quantifier": "every two header bytes, every length field, every limit", "why_tests_cant": "65536 header combinations times lengths.", "anchors": ["scarletio/web_common/web_socket_frame.py: WebSocketFrame.check", "scarletio/web_common/http_protocol.py: read_web_socket_frame"]}
{"id": "C23", "title": "Chunked transfer coding round-trips", "statement": "The body decoded by the chunked reader from the bytes produced by the chunked HTTP writer is the concatenation of the written chunks, for every list of non-empty chunks, and reading stops right after the terminator.", "quantifier": "every list of writes of arbitrary bytes and sizes", "why_tests_cant": "Chunk contents may contain delimiters and any length.", "anchors": ["scarletio/web_common/http_stream_writer.py: HTTPStreamWriter.write, write_eof", "scarletio/web_common/http_protocol.py: _read_chunked_by_chunk"]}
{"id": "C24", "title": "Chunked decoding does not depend on network segmentation", "statement": "The decoded body is the same for every way the encoded message is cut into network chunks.", "quantifier": "every message and every segmentation", "why_tests_cant": "Exponentially many segmentations.", "anchors": ["scarletio/web_common/http_protocol.py: _read_chunked_by_chunk", "scarletio/core/protocols_and_transports/protocol.py: _read_until_by_chunk"]}
{"id": "C25", "title": "HTTP headers round-trip", "statement": "Parsing the header block that the library writes for a header dictionary gives back the same names with the same values in the same order, for all valid header names and values.", "quantifier": "every dictionary of valid header names and values", "why_tests_cant": "Arbitrary strings and repeated names.", "anchors": ["scarletio/web_common/helpers.py: parse_http_headers", "scarletio/web_common/http_protocol.py: write_http_request"]}
{"id": "C26", "title": "Parsing a DNS message terminates", "statement": "For every received byte string the DNS answer parser terminates and either returns a result or reports a parsing error.", "quantifier": "every byte string", "why_tests_cant": "Non-termination needs hostile compression pointers; the input space is infinite.", "anchors": ["scarletio/dns_query/building_and_parsing.py: _parse_labels, parse_result_data"]}
{"id": "C27", "title": "DNS queries round-trip", "statement": "Parsing the question section that build_query_data produces gives back the same labels, type and class and ends exactly at the end of the data, for all labels of 1 to 63 bytes.", "quantifier": "every list of questions with valid labels", "why_tests_cant": "Arbitrary labels and numbers of questions.", "anchors": ["scarletio/dns_query/building_and_parsing.py: build_query_data, parse_questions, _parse_labels"]}
{"id": "C28", "title": "IPv4 text form round-trips", "statement": "parse_ip_v4_string(produce_ip_v4_string(v)) is v for every 32 bit address, and every accepted string denotes an address below 2^32.", "quantifier": "all 2^32 addresses and all strings", "why_tests_cant": "2^32 addresses; and all strings for the second part.", "anchors": ["scarletio/dns_query/helpers.py: parse_ip_v4_string, produce_ip_v4_string"]}
{"id": "C29", "title": "IPv6 text form round-trips", "statement": "parse_ip_v6_string(produce_ip_v6_string(v)) is v for every 128 bit address, i.e. the zero run compression is unambiguous.", "quantifier": "all 2^128 addresses", "why_tests_cant": "2^128 addresses.", "anchors": ["scarletio/dns_query/helpers.py: parse_ip_v6_string, produce_ip_v6_string", "scarletio/dns_query/constants.py"]}
{"id": "C30", "title": "Percent-encoding round-trips", "statement": "unquote(quote(s)) == s for every string s.", "quantifier": "every unicode string", "why_tests_cant": "Every character and combination.", "anchors": ["scarletio/web_common/quoting.py: quote, unquote, _base_16_char_to_int, _int_to_base_16_char"]}
{"id": "C31", "title": "quote() output is always URL safe", "statement": "Every character of quote(s) is an unreserved or explicitly allowed ASCII character, or belongs to a %XX escape with two upper case hexadecimal digits.", "quantifier": "every string and every safe/protected set", "why_tests_cant": "Every character and combination.", "anchors": ["scarletio/web_common/quoting.py: quote"]}
{"id": "C32", "title": "URL path normalisation removes all dot segments", "statement": "The normalised path has no '.' or '..' segment, equals the path obtained by walking the segments with a stack (push a name, '..' pops, popping the empty stack does nothing), and normalising twice changes nothing more.", "quantifier": "every list of path segments", "why_tests_cant": "Arbitrarily nested '..' sequences.", "anchors": ["scarletio/web_common/url/url_path.py: normalize_path_parts"]}
{"id": "C33", "title": "Host comparison is an equivalence that separates hosts", "statement": "Two URL host infos compare equal only if they denote the same kind of host with the same domain parts.", "quantifier": "every pair of host infos", "why_tests_cant": "All pairs.", "anchors": ["scarletio/web_common/url/url_host_info.py: URLHostInfo.__eq__"]}
{"id": "C34", "title": "MultiValueDictionary is a map to non-empty duplicate free lists", "statement": "After any sequence of operations a key is present exactly if it has at least one value, get_all gives the values in insertion order without duplicates, get/[] gives the first one, pop/del removes the first one and removes the key with its last value.", "quantifier": "every sequence of dictionary operations", "why_tests_cant": "All histories.", "anchors": ["scarletio/utils/multi_value_dictionary.py: MultiValueDictionary"]}
{"id": "C35", "title": "Headers are looked up ignoring case", "statement": "In an IgnoreCaseMultiValueDictionary all operations treat keys that differ only in case as the same key; in particular `key in d` holds exactly if d[key] succeeds.", "quantifier": "every sequence of operations and every spelling of the keys", "why_tests_cant": "All spellings and histories.", "anchors": ["scarletio/utils/ignore_case_multi_value_dictionary.py", "scarletio/utils/ignore_case_string.py"]}
{"id": "C36", "title": "SortedList stays sorted and finds its elements", "statement": "After any sequence of add / remove / extend / reverse / pop calls the list is ordered (ascending or descending as configured), `in`, index and relative_index agree with a linear search, and the multiset of elements is what the operations prescribe.", "quantifier": "every sequence of operations over a totally ordered element type", "why_tests_cant": "All histories; binary search corner cases.", "anchors": ["scarletio/utils/sorted_list.py: SortedList"]}
{"id": "C37", "title": "A pooled connection is never used by two requests", "statement": "A connection handed out by the connector is not handed out again until it is released, whatever the sequence of connects, releases, closes and clean-ups.", "quantifier": "every history of a connector with any number of hosts and connections", "why_tests_cant": "All histories and clock readings.", "anchors": ["scarletio/http_client/protocol_basket.py: ProtocolBasket", "scarletio/http_client/connector_base.py: ConnectorBase", "scarletio/http_client/connection.py: Connection"]}
{"id": "C38", "title": "An expired or dead pooled connection is never reused", "statement": "A connection taken from the pool has a live transport, its keep-alive deadline has not passed and the peer has not asked to close it; among the usable ones, the one expiring first is taken.", "quantifier": "every pool content and clock reading", "why_tests_cant": "All pool contents.", "anchors": ["scarletio/http_client/protocol_basket.py: ProtocolBasket.pop_available_protocol"]}
{"id": "C39", "title": "Connections dropped from the pool are closed", "statement": "A connection removed from the pool without being handed out is closed.", "quantifier": "every pool content, every clock reading, secure and plain connections", "why_tests_cant": "Socket leaks are only visible over long histories.", "anchors": ["scarletio/http_client/protocol_basket.py: ProtocolBasket.clean_up_expired_protocols"]}
{"id": "C40", "title": "run_in_executor runs each function at most once and delivers its result", "statement": "Each function passed to run_in_executor is executed at most once; it is executed unless its future was cancelled before a worker picked it up; the future's result is that of its own function.", "quantifier": "every interleaving of submissions, worker progress and cancellations", "why_tests_cant": "Thread interleavings.", "anchors": ["scarletio/core/event_loop/executor.py: Executor.run_in_executor, ExecutorThread.run, SyncQueue"]}
{"id": "C41", "title": "An idle worker is really idle", "statement": "A worker thread that the executor considers free is not executing a function, so a new function starts immediately.", "quantifier": "every interleaving of submissions, completions and cancellations", "why_tests_cant": "Needs cancellation while the function is running.", "anchors": ["scarletio/core/event_loop/executor.py: Executor.run_in_executor, _execution_ended, ExecutionEndedCallback"]}
{"id": "C42", "title": "Socket transport writes every byte once, in order", "statement": "The bytes accepted by the socket followed by those still buffered are always exactly the bytes passed to write() so far in order, however many bytes each send() accepts; after close() buffered bytes are still sent before connection_lost is called.", "quantifier": "every sequence of writes, partial sends, would-block results and close calls", "why_tests_cant": "All partial send patterns.", "anchors": ["scarletio/core/protocols_and_transports/transport_layer.py: SocketTransportLayer.write, _write_ready, close"]}
{"id": "C43", "title": "Write flow control alternates and follows the water marks", "statement": "pause_writing and resume_writing calls strictly alternate starting with pause; whenever the transport's buffer exceeds the high water mark after a write the protocol is paused, and it is resumed once the buffer drains to the low water mark.", "quantifier": "every sequence of writes, sends and limits", "why_tests_cant": "All histories.", "anchors": ["scarletio/core/protocols_and_transports/transport_layer.py: _maybe_pause_protocol, _maybe_resume_protocol, _set_write_buffer_limits"]}
{"id": "C44", "title": "A payload stream delivers the whole payload or one definite failure", "statement": "Chunks come out of a PayloadStream in the order they were added, each exactly once; once it is set done / exception / aborted / cancelled this outcome never changes, and done-callbacks run exactly once.", "quantifier": "every interleaving of producer and consumer operations", "why_tests_cant": "All interleavings.", "anchors": ["scarletio/core/protocols_and_transports/payload_stream.py: PayloadStream"]}
{"id": "C45", "title": "Zip directory offsets point at the files", "statement": "In the archive produced by stream_zip every central directory entry's offset is the position of the corresponding local header, sizes and names in it are those of the streamed file, and the end records locate the central directory exactly.", "quantifier": "every list of files with arbitrary names and chunks", "why_tests_cant": "All file lists.", "anchors": ["scarletio/streaming/zip_streaming/zip_stream.py: stream_zip", "scarletio/streaming/zip_streaming/compression.py"]}
{"id": "C46", "title": "Zip entry names are unique", "statement": "The default name deduplicator never returns the same name twice.", "quantifier": "every sequence of names", "why_tests_cant": "Collisions need particular combinations of numbered names.", "anchors": ["scarletio/streaming/zip_streaming/name_deduplication.py: name_deduplicator_default"]}
{"id": "C47", "title": "Cookies are only sent to matching hosts and paths", "statement": "filter_cookies only returns cookies whose domain equals the request host or (if not host-only) is a parent domain of it, whose path is a prefix of the request path at a segment border, and secure cookies only for secure schemes.", "quantifier": "every jar content and request URL", "why_tests_cant": "All jars and URLs.", "anchors": ["scarletio/web_common/cookiejar.py: CookieJar.filter_cookies, do_domains_match, do_paths_match"]}
{"id": "C48", "title": "Resetting a cookie replaces its lifetime", "statement": "A cookie that is set again without an expiration is a session cookie: it does not disappear when the previous value would have expired.", "quantifier": "every history of cookie updates and clock readings", "why_tests_cant": "Needs a history of two updates and the passing of time.", "anchors": ["scarletio/web_common/cookiejar.py: CookieJar.update_cookies, _expire_cookie, _do_expiration"]}
{"id": "C49", "title": "Content type headers parse totally and faithfully", "statement": "parse_content_type terminates without an index error on every string, and parsing the canonical text of a type, sub-type, suffix and quoted parameters gives them back (case folded).", "quantifier": "every string; every tuple of tokens and parameter values", "why_tests_cant": "All strings.", "anchors": ["scarletio/web_common/content_type.py: parse_content_type, _parse_head, _parse_parameter, _parse_quoted"]}
{"id": "C50", "title": "Events wake exactly the tasks that wait", "statement": "After Event.set() every waiting task is woken exactly once and later waiters pass without waiting until clear(); before set() no waiter passes.", "quantifier": "every interleaving of wait / set / clear / cancellation", "why_tests_cant": "All interleavings.", "anchors": ["scarletio/core/traps/event.py: Event"]}
{"id": "C51", "title": "TaskGroup tracks each future exactly once", "statement": "Every future added to a TaskGroup is at all times in exactly one of the sets pending and done (until popped), it moves to done exactly when it finishes, and wait_all resolves exactly when nothing is pending.", "quantifier": "every interleaving of additions, completions and waits", "why_tests_cant": "All interleavings.", "anchors": ["scarletio/core/traps/task_group.py: TaskGroup"]}
{"id": "C52", "title": "Host rotation is fair", "statement": "Each iteration over a cached host info basket yields every address exactly once, and successive iterations start at successive addresses cyclically.", "quantifier": "every number of addresses and iterations", "why_tests_cant": "All sizes and counts.", "anchors": ["scarletio/http_client/host_info_basket.py: HostInfoBasket.iter_next_rotation"]}
{"id": "C53", "title": "Server.wait_closed waiters are all woken", "statement": "When the last connection of a closed server ends, every task waiting in wait_closed() continues, even if some of the waiting tasks were cancelled meanwhile.", "quantifier": "every interleaving of attach / detach / close / wait / cancel", "why_tests_cant": "Needs cancellation of one of several waiters.", "anchors": ["scarletio/core/event_loop/server.py: Server._wake_up_close_waiters, close, wait_closed"]}
{"id": "C54", "title": "Weak value dictionaries never show a dead value", "statement": "Lookups, iteration and pop on a WeakValueDictionary only give live values last stored for the key, and len() is the number of keys iteration yields once dead values were noticed.", "quantifier": "every interleaving of operations, iteration and garbage collection", "why_tests_cant": "Garbage collection can happen at any point.", "anchors": ["scarletio/utils/weak_value_dictionary.py: WeakValueDictionary"]}
{"id": "C55", "title": "pop with a default does not raise", "statement": "HybridValueDictionary.pop(key, default) returns the stored value or the default and never raises, as for dict.", "quantifier": "every dictionary, key and default", "why_tests_cant": "All dictionaries.", "anchors": ["scarletio/utils/hybrid_value_dictionary.py: HybridValueDictionary.pop"]}
{"id": "C56", "title": "Cycler keeps its order and stops when cancelled", "statement": "Functions of a Cycler run in priority order (insertion order among equals) every cycle, and after cancel() they are not run any more.", "quantifier": "every sequence of append / remove / cancel / tick, including cancel from a cycled function", "why_tests_cant": "All histories.", "anchors": ["scarletio/core/event_loop/cycler.py: Cycler"]}
{"id": "C57", "title": "Web socket extension headers round-trip", "statement": "parse_extensions(build_extensions(e)) == e, and likewise for sub-protocol lists, for all token strings.", "quantifier": "every list of extensions with parameters made of token characters", "why_tests_cant": "All token strings.", "anchors": ["scarletio/web_common/header_building_and_parsing.py: build_extensions, parse_extensions, build_subprotocols, parse_subprotocols"]}
{"id": "C58", "title": "A fragmented web socket message is reassembled", "statement": "Receiving the fragments of a message, with control frames interleaved anywhere, gives the concatenation of the fragment payloads; the max_size limit applies to the whole message.", "quantifier": "every fragmentation and interleaving of control frames", "why_tests_cant": "All fragmentations.", "anchors": ["scarletio/web_socket/web_socket_common_protocol.py: read_message, read_data_frame"]}
{"id": "C59", "title": "Host names survive label splitting", "statement": "Splitting a host name built from labels gives the labels back, for every list of non-empty labels with arbitrary bytes (escaped as needed).", "quantifier": "every list of labels", "why_tests_cant": "All byte strings.", "anchors": ["scarletio/dns_query/helpers.py: parse_labels_from_name, build_name_from_labels"]}
{"id": "C60", "title": "Shielding isolates the inner future", "statement": "Cancelling the future returned by shield never cancels the inner future, and otherwise the outer future gets exactly the inner future's outcome.", "quantifier": "every interleaving of completion and cancellation", "why_tests_cant": "All interleavings.", "anchors": ["scarletio/core/traps/future_chaining.py: shield"]}
{"id": "C61", "title": "AsyncLifoQueue delivers every element once, newest first", "statement": "With one consumer task at a time and no cancellation, the elements taken from an AsyncLifoQueue together with those still in it are the elements put, each once; a take from a non-empty queue gives the newest stored element.", "quantifier": "every interleaving of puts and takes", "why_tests_cant": "All histories, in particular puts while the consumer waits.", "anchors": ["scarletio/core/traps/queues.py: AsyncLifoQueue"]}
{"id": "C62", "title": "A bounded AsyncQueue never throws an accepted element away", "statement": "An element for which set_result returned 0 or set_result_wait returned 0 or 2 stays in the queue until a consumer takes it.", "quantifier": "every interleaving of blocking and non-blocking puts with takes", "why_tests_cant": "The loss needs a put between the wake-up of a blocked producer and its next step.", "anchors": ["scarletio/core/traps/queues.py: AsyncQueue.set_result_wait"]}
{"id": "C63", "title": "Cancelling a read does not skip bytes that arrive later", "statement": "After cancel_current_reader, a read returns the bytes that are received afterwards, starting with the first one.", "quantifier": "every history of data, reads and cancellations", "why_tests_cant": "Depends on how much of which chunk was consumed when the read was cancelled.", "anchors": ["scarletio/core/protocols_and_transports/protocol.py: ReadProtocolBase.cancel_current_reader, _read_exactly_by_chunk"]}
{"id": "C64", "title": "A connection stays readable after a read timed out", "statement": "When the task that awaits a read is cancelled, a later read on the same connection works and gets the bytes received after the cancellation.", "quantifier": "every history", "why_tests_cant": "Needs a cancellation in the middle of a read and all continuations.", "anchors": ["scarletio/core/protocols_and_transports/payload_stream.py: PayloadStream.__await__, _abort", "scarletio/core/protocols_and_transports/protocol.py: set_payload_reader"]}
{"id": "C65", "title": "Only well-formed chunk sizes are accepted", "statement": "While decoding a chunked body, a size line is accepted exactly when it is a non-empty run of hexadecimal digits (optionally followed by ';' and an extension), and then it means that number; any other size line is reported as malformed.", "quantifier": "every size line", "why_tests_cant": "Infinitely many malformed lines; a lenient number parser accepts signs, prefixes, blanks and underscores nobody lists.", "anchors": ["scarletio/web_common/http_protocol.py: _read_chunked_by_chunk"]}
{"id": "C66", "title": "A pong answers its ping", "statement": "When the peer answers an outstanding ping with a pong carrying its payload, the ping() call waiting for it finishes and the connection stays usable.", "quantifier": "every ping payload and every set of outstanding pings", "why_tests_cant": "Needs a peer and the outstanding pings; every payload.", "anchors": ["scarletio/web_socket/web_socket_common_protocol.py: ping, _process_control_frame"]}
{"id": "C67", "title": "A close tells the peer code and reason", "statement": "If close(code, reason) accepts its arguments, the peer's reader gets exactly this code and this reason.", "quantifier": "every code and every reason, every segmentation", "why_tests_cant": "All reasons of all lengths.", "anchors": ["scarletio/web_socket/web_socket_common_protocol.py: close, _serialize_close, write_frame, _process_control_frame"]}
{"id": "C68", "title": "Query parameters round-trip", "statement": "Parsing the query string which a url gives for a set of key/value string pairs yields the same keys and values in the same order.", "quantifier": "every list of string pairs", "why_tests_cant": "Every combination of characters, including the separators of the format inside keys and values.", "anchors": ["scarletio/web_common/url/url_query.py: parse_query, serialize_query", "scarletio/web_common/quoting.py: quote, unquote"]}
{"id": "C69", "title": "Response bodies are delimited as http requires", "statement": "The part of the stream which is read as the body of a response is the one RFC 7230 3.3.3 gives: none for HEAD, 1xx, 204, 304 and accepted CONNECT, else chunked, else Content-Length octets, else until the connection is closed.", "quantifier": "every request method, status, upgrade, chunked flag and content length", "why_tests_cant": "Combinations of headers and status codes, and a wrong answer shows only in the next message of the connection.", "anchors": ["scarletio/web_common/http_protocol.py: get_payload_reader_task", "scarletio/http_client/client_response.py: start_processing"]}
{"id": "C70", "title": "A header value cannot add headers", "statement": "Whatever string is given as a header value of a request, the peer does not see more headers than were given.", "quantifier": "every header value", "why_tests_cant": "All strings.", "anchors": ["scarletio/web_common/http_protocol.py: write_http_request"]}
{"id": "C71", "title": "Request lines round-trip", "statement": "Parsing a written request gives back its method, path and http version.", "quantifier": "every method, path, version and header list", "why_tests_cant": "All strings and versions.", "anchors": ["scarletio/web_common/http_protocol.py: write_http_request", "scarletio/web_common/helpers.py: parse_http_request"]}
{"id": "C72", "title": "URL path parts survive writing and parsing", "statement": "Writing the normalised parts of a path, with or without percent encoding, and parsing the text gives the same parts.", "quantifier": "every list of path parts without dot segments", "why_tests_cant": "All strings and all lists of them.", "anchors": ["scarletio/web_common/url/url_path.py: URLPath._parse, _serialize"]}
{"id": "C73", "title": "Compressed DNS names are read as RFC 1035 says", "statement": "The labels read at an index are those of the RFC 1035 name there, pointers followed, and parsing continues right after the name (or its first pointer).", "quantifier": "every byte string and index", "why_tests_cant": "Arbitrary nesting of pointers and labels.", "anchors": ["scarletio/dns_query/building_and_parsing.py: _parse_labels"]}
{"id": "C74", "title": "Pointer records give the name they hold", "statement": "The name in the data of a pointer record of a well-formed answer is returned; malformed data never raises out of the parser.", "quantifier": "every message with pointer records", "why_tests_cant": "Needs messages with compressed names in record data.", "anchors": ["scarletio/dns_query/building_and_parsing.py: parse_domain_name_pointer_data"]}
{"id": "C75", "title": "Search domains are appended to short names", "statement": "A name with fewer dots than required is tried with each search domain after it, in order, and then by itself; any other name only by itself.", "quantifier": "every configuration and name", "why_tests_cant": "All lists of labels and domains.", "anchors": ["scarletio/dns_query/helpers.py: iter_labels_with_searches"]}
{"id": "C76", "title": "The sort list orders addresses stably", "statement": "Resolved addresses come ordered by the first matching entry of the sort list, unmatched last, keeping their order inside of an entry; none is lost or repeated.", "quantifier": "every sort list and list of addresses", "why_tests_cant": "All lists and overlapping masks.", "anchors": ["scarletio/dns_query/helpers.py: iter_intermediate_intermediate_addresses_ordered"]}
{"id": "C77", "title": "Every text form of an IPv6 address is accepted", "statement": "A string which denotes an IPv6 address by RFC 4291 (any letter case, optionally with a %zone) is accepted as that address by parse_ip_v6_string.", "quantifier": "all strings", "why_tests_cant": "There are unboundedly many text forms of 2^128 addresses: leading zeros, place of the two colons, letter case, zone.", "anchors": ["scarletio/dns_query/helpers.py: parse_ip_v6_string", "scarletio/dns_query/constants.py: IP_V6_RP"]}
{"id": "C78", "title": "Comparing strings ignoring case is consistent", "statement": "For IgnoreCaseString values == is an equivalence, equal strings have equal hashes, and a != b is the opposite of a == b.", "quantifier": "all pairs of strings", "why_tests_cant": "All strings and spellings.", "anchors": ["scarletio/utils/ignore_case_string.py: IgnoreCaseString.__eq__, __hash__"]}
{"id": "C79", "title": "Extending a SortedList ends", "statement": "SortedList.extend returns after adding each element of the iterable once, for every iterable including the list itself.", "quantifier": "all lists and iterables", "why_tests_cant": "A test can not tell a slow call from one which never ends, nor cover all iterables.", "anchors": ["scarletio/utils/sorted_list.py: SortedList.extend"]}
{"id": "C80", "title": "Idle pooled connections are cleaned up in time", "statement": "While the connector keeps any idle connection, a clean-up is scheduled; when a clean-up runs, no idle connection whose keep-alive time passed remains, and the next clean-up comes no later than the first remaining one expires. (That the clean-up is always scheduled for the first expiring one is also checked.)", "quantifier": "For all interleavings of connecting, releasing, closing, detaching, losing and cleaning up connections, with any keep-alive times.", "why_tests_cant": "Depends on the order in which connections of different keep-alive times are released relative to the scheduled clean-up.", "anchors": ["scarletio/http_client/connector_base.py:73-106", "scarletio/http_client/connector_base.py:270-333", "scarletio/http_client/protocol_basket.py:90-115"]}
{"id": "C81", "title": "A server's request limit per connection is kept", "statement": "The number of performed requests which the pool attributes to a connection equals the number of times the connection was given to a request before, and a connection released after as many requests as the server's keep-alive header allows is not kept for another one.", "quantifier": "For all histories of the connector, connections and limits.", "why_tests_cant": "The counter travels through connection objects and pool entries over arbitrarily many reuses interleaved with other connections.", "anchors": ["scarletio/http_client/connection.py:171-207", "scarletio/http_client/connector_base.py:130-161", "scarletio/http_client/protocol_basket.py:135-194"]}
{"id": "C82", "title": "drain waits exactly while writing is paused", "statement": "drain() returns at once when the transport did not pause writing, otherwise it waits and every waiting task continues once the transport resumes writing or the connection is lost.", "quantifier": "every interleaving of pause / resume / connection loss, drains and cancellations", "why_tests_cant": "Needs several waiting tasks, or reading and writing paused at the same time.", "anchors": ["scarletio/core/protocols_and_transports/protocol.py: ReadWriteProtocolBase.drain, _drain_helper, pause_writing, resume_writing, connection_lost"]}
{"id": "C83", "title": "Reading is paused by too much data and resumed by a waiting reader", "statement": "When more than the limit was received and not read, the protocol pauses the reading of its transport; when a reader then waits for data, the reading is resumed.", "quantifier": "every interleaving of received data, readers and write flow control", "why_tests_cant": "Needs both directions paused in particular orders.", "anchors": ["scarletio/core/protocols_and_transports/protocol.py: ReadProtocolBase._pause_reading, _resume_reading, ReadWriteProtocolBase.pause_writing, resume_writing"]}
{"id": "C84", "title": "Number of files in a zip archive", "statement": "stream_zip produces an archive whatever the number of files is, as long as names and sizes fit the fields of the zip64 format.", "quantifier": "every list of files", "why_tests_cant": "Only lists of more than 65535 files behave differently; all sizes are quantified.", "anchors": ["scarletio/streaming/zip_streaming/zip_stream.py: stream_zip, _create_end_of_central_directory_record"]}
{"id": "C85", "title": "Modification dates in zip archives", "statement": "The date and time read from an entry of the archive are those the file was created with (seconds rounded down to even ones).", "quantifier": "every date and time", "why_tests_cant": "All dates; those outside of the range of the format wrap around.", "anchors": ["scarletio/streaming/zip_streaming/file_state.py: ZipStreamFileState.__new__"]}
{"id": "C86", "title": "A cookie set again with a Domain attribute reaches subdomains", "statement": "A cookie which is set with a Domain attribute is sent to the subdomains of this domain, whatever was set under the same name before.", "quantifier": "every history of cookie updates", "why_tests_cant": "Needs the interplay of two updates with different attributes.", "anchors": ["scarletio/web_common/cookiejar.py: CookieJar.update_cookies, host_only_cookies"]}
{"id": "C87", "title": "An Expires date in the past removes a cookie", "statement": "A cookie whose Expires date has passed is not sent any more; a server removes a cookie by setting it with such a date.", "quantifier": "every date and every uptime of the system", "why_tests_cant": "Depends on the origin of the monotonic clock of the machine.", "anchors": ["scarletio/web_common/cookiejar.py: CookieJar.update_cookies, parse_cookie_date, _do_expiration"]}
{"id": "C88", "title": "A cookie is not sent after its Max-Age is over", "statement": "A cookie with a Max-Age attribute is not sent once this time has passed since it was set.", "quantifier": "every history of updates, requests and clears, and every clock reading", "why_tests_cant": "Expiration is checked lazily, at a time computed over all cookies of the jar.", "anchors": ["scarletio/web_common/cookiejar.py: CookieJar._do_expiration, _expire_cookie"]}
{"id": "C89", "title": "Cookies of different paths are kept apart", "statement": "Two cookies with the same name and domain but different paths are both stored, and each is sent to the requests of its own path.", "quantifier": "every pair of cookies", "why_tests_cant": "All names, domains and paths.", "anchors": ["scarletio/web_common/cookiejar.py: CookieJar.update_cookies"]}
{"id": "C90", "title": "Cookie dates are understood in the formats of HTTP", "statement": "An Expires date written as IMF-fixdate, RFC 850 date, asctime date or Netscape date is read as this very date.", "quantifier": "every date of the calendar from 1601 to 9999 (1970 to 2069 for two digit years), every time of the day, every day name", "why_tests_cant": "All dates and formats.", "anchors": ["scarletio/web_common/cookiejar.py: parse_cookie_date"]}
{"id": "C91", "title": "A malformed Expires date is ignored", "statement": "Reading an Expires attribute gives a date of the calendar or nothing; it does not raise, whatever a server sends.", "quantifier": "every text", "why_tests_cant": "The texts come from the network.", "anchors": ["scarletio/web_common/cookiejar.py: parse_cookie_date"]}
{"id": "C92", "title": "Cookie dates follow the algorithm of RFC 6265", "statement": "A date in another order or with a long month name is read as section 5.1.1 of RFC 6265 says.", "quantifier": "every text", "why_tests_cant": "All texts.", "anchors": ["scarletio/web_common/cookiejar.py: parse_cookie_date, DATE_DAY_OF_MONTH_RP, MONTHS"]}
{"id": "C93", "title": "A content type parsing error points at the fault", "statement": "When parse_content_type reports an error, its index is the end of the header with a missing closing quote, or the position of a character which is none of the expected ones.", "quantifier": "every header text", "why_tests_cant": "All texts.", "anchors": ["scarletio/web_common/content_type.py: ContentTypeParsingError, _parse_content_type"]}
{"id": "C94", "title": "A cycler has at most one timer", "statement": "A cycler which is on is called once per cycle time: it never has more than one timer, and none after cancel.", "quantifier": "every sequence of append / remove / cancel / reschedule / call_now / tick, also from the cycled functions", "why_tests_cant": "Needs re-entrant calls from cycled functions.", "anchors": ["scarletio/core/event_loop/cycler.py: Cycler._run, _reschedule, _call_now, _cancel"]}
{"id": "C95", "title": "Every registered function is called once per cycle", "statement": "In each cycle every registered function is called exactly once, also if cycled functions append or remove functions.", "quantifier": "every behaviour of the cycled functions", "why_tests_cant": "The list is changed while it is iterated.", "anchors": ["scarletio/core/event_loop/cycler.py: Cycler._run, _append, _remove"]}
{"id": "C96", "title": "wait_closed returns only when nothing is connected", "statement": "Server.wait_closed() returns only once the server was closed and its last connection ended, also when it is called after close().", "quantifier": "every interleaving of attach / detach / close / wait / cancel", "why_tests_cant": "Depends on the order of close, wait and the end of connections.", "anchors": ["scarletio/core/event_loop/server.py: Server.wait_closed"]}
{"id": "C97", "title": "Waits on a task group end exactly when what they wait for happens", "statement": "wait_first, wait_first_and_pop, the wait_exception methods, wait_first_n and wait_all go on only while nothing they wait for has happened, and end only with it: with a done (failed) member of the group, with None when nothing is pending (and nothing failed) any more, with a count at least the one asked for.", "quantifier": "every interleaving of additions, completions, event loop steps, waits, cancellations and pops", "why_tests_cant": "Handlers are woken by callbacks in an order set by the event loop; a missed wake-up shows only in particular interleavings.", "anchors": ["scarletio/core/traps/task_group.py: _handler_wait_first, _handler_wait_exception, _handler_wait_first_n, _handler_wait_all, TaskGroup._waited_done_callback"]}
{"id": "C98", "title": "wait_next gives the next future which completes", "statement": "TaskGroup.wait_next() ends when a pending future of the group completes, and gives that future.", "quantifier": "every history of a group", "why_tests_cant": "A test which only awaits the waiter does not look at its result.", "anchors": ["scarletio/core/traps/task_group.py: TaskGroup.wait_next, _handler_wait_next"]}
{"id": "C99", "title": "Shields leave the inner future's callbacks alone", "statement": "A shield which is done (cancelled, or resolved) leaves no callback behind on the inner future, and every other callback added to any of the futures is run exactly once after the future is done.", "quantifier": "every number and nesting of shields, every interleaving of completions, cancellations and event loop steps", "why_tests_cant": "Callbacks are removed by position while others are registered; the wrong one could go only in particular orders.", "anchors": ["scarletio/core/traps/future_chaining.py: _FutureChainer.__call__, _ChainRemover.__call__"]}
{"id": "C100", "title": "A claimed executor runs its functions in order until it is released", "statement": "The functions passed to execute of one claimed executor start in the order they were passed; after release, execute raises RuntimeError; release gives the executor back even while functions are waiting; a function accepted by execute is executed.", "quantifier": "every interleaving of claims, executions, releases, cancellations and worker progress", "why_tests_cant": "Needs release at arbitrary points of the worker's progress, and claims which outlive release_executors.", "anchors": ["scarletio/core/event_loop/executor.py: ClaimedExecutor.execute, ClaimedExecutor.release, Executor.claim_executor, ExecutorThread._shrink_queue, Executor.release_executors"]}
{"id": "C101", "title": "A request timeout cancels exactly the block it guards", "statement": "A block guarded by the http client's timeout ends as its body does when the time was not over; once the event loop saw that the time is over it cancels the task running the block, once, and never after the block was left or the timeout was cancelled; the resulting CancelledError is turned into TimeoutError, and other exceptions and normal results of the body are kept.", "quantifier": "every timeout length, every interleaving of clock, event loop cycles, entering, cancelling and leaving the block, every way the body ends", "why_tests_cant": "A test waits out one timing; a stray cancellation needs the timer to be queued at the moment the block is left.", "anchors": ["scarletio/web_common/helpers.py:173", "scarletio/http_client/http_client.py:218"]}
{"id": "C102", "title": "repeat_timeout limits each iteration", "statement": "Inside a repeat_timeout block the task is cancelled only when the current iteration has lasted at least the timeout, and it is cancelled within two cycles of the event loop after that; the block then raises TimeoutError. This holds for every iteration, also after one that timed out was continued.", "quantifier": "every timeout, every schedule of iterations, clock readings and event loop cycles", "why_tests_cant": "The timer is re-armed lazily: being too early or too late depends on how iterations fall between timer runs.", "anchors": ["scarletio/core/traps/timeouting.py:16"]}
{"id": "C103", "title": "Sleeping and future timeouts are neither early nor lost", "statement": "sleep(d) does not wake before d has passed (up to the clock resolution), a future with apply_timeout(d) does not time out earlier, neither stays pending after the event loop ran the timers due at that time, the first outcome stays, apply_timeout tells whether the future was pending, and a future that is done leaves no timer behind.", "quantifier": "every number of timeouts on one future, every interleaving with other outcomes, every order of running due timers", "why_tests_cant": "Timing tests use tolerances and one timer; the races of several timers and an external outcome in the same cycle are not exercised.", "anchors": ["scarletio/core/traps/task_suppression.py:42", "scarletio/core/traps/handle_cancellers.py:78", "scarletio/core/traps/future.py:603"]}
{"id": "C104", "title": "Redirects are followed up to the limit and as RFC 9110 says", "statement": "A request follows up to `redirects` redirects and raises only if there are more; each further request goes where the last response pointed to, keeping method and body except after 303 (not HEAD) and 301/302 (POST), which give GET without a body; the returned response is the answer to the last request and its history are the earlier answers; the number of requests is bounded.", "quantifier": "every sequence of server responses, every limit, method, body and header set", "why_tests_cant": "Depends on arbitrary chains of responses chosen by servers; the repository has no tests of redirects at all.", "anchors": ["scarletio/http_client/http_client.py:141", "scarletio/http_client/http_client.py:306"]}
{"id": "C105", "title": "Credentials stay with the origin they were given for", "statement": "An Authorization header or credentials given with a request are not sent to another origin the request is redirected to.", "quantifier": "every sequence of redirects, every combination of header, parameter and url credentials", "why_tests_cant": "Needs chains across origins with every way of giving credentials.", "anchors": ["scarletio/http_client/http_client.py:289", "scarletio/http_client/http_client.py:551", "scarletio/http_client/client_request.py:160"]}
{"id": "C106", "title": "The Host header names the host the request goes to", "statement": "Unless a Host header was given, every request, also a redirected one, carries exactly one Host header with the host and the port (if it is not the default one) of the url it is sent to.", "quantifier": "every url and every sequence of redirects", "why_tests_cant": "A test of one request sees the right header; the redirected one needs a second server.", "anchors": ["scarletio/http_client/client_request.py:182"]}
{"id": "C107", "title": "Cookies go only to the urls they are for", "statement": "Every request, also a redirected one, carries the cookies the jar has for its url and those of a given Cookie header, and no others.", "quantifier": "every cookie jar, every sequence of redirects", "why_tests_cant": "Depends on chains of urls and the jar's content for each.", "anchors": ["scarletio/http_client/client_request.py:192", "scarletio/http_client/http_client.py:220"]}
{"id": "C108", "title": "The headers describe the body that is sent", "statement": "Every request with a body is sent either chunked, with Transfer-Encoding: chunked and without Content-Length, or with a Content-Length, which is the size of the body unless given by the caller; a request without a body carries no Content-Length, Content-Type, Content-Encoding or Transfer-Encoding.", "quantifier": "every payload, every given header set, every sequence of redirects that keep or drop the body", "why_tests_cant": "The header dictionary is shared and changed by each request of a chain, so the outcome depends on the whole history.", "anchors": ["scarletio/http_client/client_request.py:214"]}
{"id": "C109", "title": "A written url reads back as its components", "statement": "The encoded value of an url, taken apart as RFC 3986 (appendix B, section 3.2) says, has the scheme, user, password, host, port, path segments, query items and fragment of the url, each spelled so that percent-decoding gives the given text.", "quantifier": "every url with a scheme and every combination of components and characters", "why_tests_cant": "Every combination of components and every character in each of them can confuse the delimiters.", "anchors": ["scarletio/web_common/url/url.py:293", "scarletio/web_common/url/url_query.py:272", "scarletio/web_common/url/url_path.py:129"]}
{"id": "C110", "title": "Joining resolves a reference against a base", "statement": "base.join(ref) is the url RFC 3986, 5.2.2 gives for the reference ref against the base: components missing in the reference come from the base, those it has come from it.", "quantifier": "every base and every reference", "why_tests_cant": "All combinations of present and absent components on both sides matter.", "anchors": ["scarletio/web_common/url/url.py:1567"]}
{"id": "C111", "title": "Appending, parent and name fit together", "statement": "(url / name).name is name, (url / name).parent is url without query and fragment, and url.with_name(name) has this name, the parent of url and neither query nor fragment, as documented.", "quantifier": "every url and every name", "why_tests_cant": "Holds or fails by the shape of the path and the characters of the name.", "anchors": ["scarletio/web_common/url/url.py:541", "scarletio/web_common/url/url.py:1038", "scarletio/web_common/url/url.py:1089", "scarletio/web_common/url/url.py:1501"]}
{"id": "C112", "title": "with_... methods replace their component and nothing else", "statement": "After any sequence of with_scheme, with_user, with_password, with_host, with_port and with_fragment calls on an absolute url, each component is the one given last, or else the one of the first url, and all components not replaced are written as before; relative urls refuse all but with_fragment.", "quantifier": "every absolute url and every sequence of calls", "why_tests_cant": "Sequences of calls and already encoded components are unbounded.", "anchors": ["scarletio/web_common/url/url.py:1107", "scarletio/web_common/url/url.py:1161", "scarletio/web_common/url/url.py:1222", "scarletio/web_common/url/url.py:1286", "scarletio/web_common/url/url.py:1349", "scarletio/web_common/url/url.py:1451"]}
{"id": "C113", "title": "Query values given are the query values written", "statement": "with_query(query) has for every key exactly the values given for it, in order, and extend_query(query) those after the ones already there; a value which is no documented type, and an infinite or not-a-number float, raise, and so does a key which is no string.", "quantifier": "every nested list of keys and values", "why_tests_cant": "Values nest arbitrarily and repeat arbitrarily.", "anchors": ["scarletio/web_common/url/url_query.py:76", "scarletio/web_common/url/url.py:1406", "scarletio/web_common/url/url.py:1633"]}
{"id": "C114", "title": "Urls compare consistently", "statement": "Equality of urls is an equivalence, equal urls have equal hashes, equal truth values and equal components, and the ordering is total and agrees with equality.", "quantifier": "all urls", "why_tests_cant": "Laws over pairs and triples of arbitrary urls.", "anchors": ["scarletio/web_common/url/url.py:455", "scarletio/web_common/url/url.py:460", "scarletio/web_common/url/url.py:493"]}
{"id": "C115", "title": "A web socket writes at most one close frame", "statement": "Whatever tasks call send, ping, pong and close, whatever the peer sends and whenever the connection fails, at most one close frame is written to the connection.", "quantifier": "for all interleavings of calls, suspensions, cancellations, failures and closing frames of the peer", "why_tests_cant": "The close frame may come from close(), from the answer to the peer and from fail_connection, with arbitrary suspensions in between; tests run a few of the orders.", "anchors": ["scarletio/web_socket/web_socket_common_protocol.py:892-945", "scarletio/web_socket/web_socket_common_protocol.py:1067-1083"]}
{"id": "C116", "title": "Nothing is written after the close frame", "statement": "After a close frame was written no further frame is written, and send raises instead of writing.", "quantifier": "for all interleavings of calls, suspensions, cancellations, failures and closing frames of the peer", "why_tests_cant": "A violation needs a writer waiting for the drain lock while the connection fails.", "anchors": ["scarletio/web_socket/web_socket_common_protocol.py:344-356", "scarletio/web_socket/web_socket_common_protocol.py:537-556", "scarletio/web_socket/web_socket_common_protocol.py:892-945", "scarletio/web_socket/web_socket_common_protocol.py:1067-1083"]}
{"id": "C117", "title": "Frames are written in the order of the calls", "statement": "The frames of send, ping, pong and close are written in the order of the calls, each once and with what the call asked for; when a call has returned its frame was written, unless the transport stopped writing.", "quantifier": "for all interleavings of calls, suspensions, cancellations and failures", "why_tests_cant": "The order depends on how the lock passes between arbitrarily many suspended and cancelled tasks.", "anchors": ["scarletio/web_socket/web_socket_common_protocol.py:892-945", "scarletio/core/traps/lock.py"]}
{"id": "C118", "title": "close() closes the connection", "statement": "When close() of a web socket has returned, the underlying transport is closing, and the connection gets closed once the transport has written everything.", "quantifier": "for all histories of the closing handshake, failures, end of file, and transport events, for clients and servers, with and without ssl", "why_tests_cant": "Whether the socket gets closed depends on all orders of the closing handshake and the transport events; a leaked socket does not fail a test.", "anchors": ["scarletio/web_socket/web_socket_common_protocol.py:377-410", "scarletio/web_socket/web_socket_common_protocol.py:622-634", "scarletio/web_socket/web_socket_common_protocol.py:947-1033", "scarletio/web_socket/web_socket_common_protocol.py:1132-1133"]}
{"id": "C119", "title": "A peer which takes nothing anymore cannot keep a connection", "statement": "When the transport cannot write its buffered data, closing a web socket aborts the transport after the close timeout, so that the connection ends.", "quantifier": "for all histories of an endpoint", "why_tests_cant": "It needs a peer which stops reading at an arbitrary moment of the closing handshake.", "anchors": ["scarletio/web_socket/web_socket_common_protocol.py:986-1033"]}
{"id": "C120", "title": "Received messages are delivered once, in order, before the end", "statement": "The messages which arrive are given to receive and receive_no_wait once and in the order of their arrival; the exception telling the end of the connection is raised only after all of them.", "quantifier": "for all histories of arrivals, receiving, cancellations and the end, for every limit of the queue", "why_tests_cant": "Arbitrarily many arrivals interleave with waiting, resumed and cancelled receivers.", "anchors": ["scarletio/web_socket/web_socket_common_protocol.py:292-321", "scarletio/web_socket/web_socket_common_protocol.py:570-575", "scarletio/web_socket/web_socket_common_protocol.py:632-634"]}
{"id": "C121", "title": "send and receive agree on why the connection was closed", "statement": "After the connection was closed, send and receive raise with the same close code and reason; if the peer closed it these are the ones of its close frame.", "quantifier": "for all histories of an endpoint", "why_tests_cant": "The code is stored at several places and which is read depends on the order of the events.", "anchors": ["scarletio/web_socket/web_socket_common_protocol.py:537-634", "scarletio/web_socket/web_socket_common_protocol.py:790-809", "scarletio/web_socket/web_socket_common_protocol.py:1107-1114"]}
{"id": "C122", "title": "A cancelled send does not block the other writers", "statement": "When a task which waits to send is cancelled, other calls of send, ping, pong and close still get to write.", "quantifier": "for all interleavings of calls, suspensions and cancellations", "why_tests_cant": "The cancellation has to fall at one moment of the hand-over of the lock.", "anchors": ["scarletio/web_socket/web_socket_common_protocol.py:892-908", "scarletio/core/traps/lock.py"]}
{"id": "C123", "title": "A web socket server opens a connection exactly for a request to open one", "statement": "For every configuration and request: the server answers 101 and opens the connection only if the request is a GET of HTTP/1.1 whose Connection headers list 'upgrade', whose Upgrade names 'websocket', with exactly one key which is base64 of 16 bytes and with version exactly 13, and it does so for every such request when no extension is involved.", "quantifier": "every configuration of the server, every list of request headers, every base64 and sha1 function", "why_tests_cant": "The set of requests is infinite and the header values are arbitrary texts with list syntax; a test tries some well formed request and some missing headers.", "anchors": ["scarletio/web_socket/web_socket_server_protocol.py:257-499", "scarletio/web_common/header_building_and_parsing.py:248-397"]}
{"id": "C124", "title": "A refused opening request is answered with the status which names the fault", "statement": "For every request which is not a good opening request: 426 if it does not ask for the upgrade to websocket, 400 if its headers are malformed or its key or version is bad, never 500.", "quantifier": "every configuration, every list of request headers", "why_tests_cant": "Which exception a header combination ends in depends on the order of all checks and on the parsers; tests sample a few faults one at a time.", "anchors": ["scarletio/web_socket/web_socket_server_protocol.py:296-364", "scarletio/web_socket/web_socket_server_protocol.py:501-580"]}
{"id": "C125", "title": "A web socket server with allowed origins refuses the others", "statement": "For every server which is given its allowed origins, a request whose Origin header is missing, repeated or not one of them is refused with 403.", "quantifier": "every list of allowed origins, every request", "why_tests_cant": "It is about all origins which are not allowed; it also crosses the constructor, the server and the handshake.", "anchors": ["scarletio/web_socket/web_socket_server_protocol.py:163-191", "scarletio/web_socket/web_socket_server_protocol.py:366-387"]}
{"id": "C126", "title": "Extensions are agreed on or declined", "statement": "For every offered extension the server either accepts it (both know it and its parameters are valid; the response names it) or declines it by not naming it; the handshake succeeds in both cases.", "quantifier": "every extension, its parameters and its validation function, every request", "why_tests_cant": "Extensions are user supplied objects; no test can go over all of them.", "anchors": ["scarletio/web_socket/web_socket_server_protocol.py:389-432", "scarletio/web_common/header_building_and_parsing.py:20-57"]}
{"id": "C127", "title": "The selected sub-protocol is a common one of best combined preference", "statement": "Without a selector of the user the selected sub-protocol is offered by the client and supported by the server, no common one has a lower sum of positions, none is selected only if there is no common one, the response names it, and the two lists determine it.", "quantifier": "every pair of lists, every order in which the set of the common ones is iterated", "why_tests_cant": "The iteration order of a set of strings changes from process to process; the lists are arbitrary.", "anchors": ["scarletio/web_socket/web_socket_server_protocol.py:435-486"]}
{"id": "C128", "title": "An early answer of a web socket server reaches the client", "statement": "If the server is shutting down the client receives a whole 503 response; if the request processor returns an early response the client receives this response; the connection is not opened in either case.", "quantifier": "every request, every early response", "why_tests_cant": "An early response is any tuple of the user; whether any of them is sent at all is a statement about all of them.", "anchors": ["scarletio/web_socket/web_socket_server_protocol.py:272-294", "scarletio/web_socket/web_socket_server_protocol.py:516-566", "scarletio/web_common/http_protocol.py:723-766", "scarletio/web_common/exceptions.py:84-110"]}
{"id": "C129", "title": "A web socket client connects only to a server which has answered its own request", "statement": "The client returns a connection only if the response is a 101 of HTTP/1.1 which upgrades to websocket, whose single accept key belongs to the key of the request, and which names only extensions and at most one sub-protocol the client offered; everything else is reported as InvalidHandshake.", "quantifier": "every response, every key, every offered lists", "why_tests_cant": "The response comes from the network and can be anything.", "anchors": ["scarletio/web_socket/web_socket_client.py:259-370"]}
{"id": "C130", "title": "A client and a server of the library connect and agree", "statement": "For every client and server configuration without common extensions, the request of the client is opened by the server, the client accepts the response of the server, and both have the same sub-protocol.", "quantifier": "every key, origin, list of sub-protocols of both sides, additional headers", "why_tests_cant": "It composes the building and the parsing of both sides for all lists of names; tests connect a few fixed pairs.", "anchors": ["scarletio/web_socket/web_socket_client.py:218-370", "scarletio/web_socket/web_socket_server_protocol.py:257-499"]}
{"id": "C131", "title": "Credentials survive the way through a header", "statement": "Credentials which can be created and written as an Authorization header are read back from it unchanged, and the header is a single line of printable ascii whatever the credentials contain.", "quantifier": "every user, password and encoding which can be undone and leaves ascii as it is", "why_tests_cant": "It composes encoding, base64 and two regular expressions over all texts; tests use a few user names.", "anchors": ["scarletio/web_common/basic_authorization.py:32-75", "scarletio/web_common/basic_authorization.py:142-210"]}
{"id": "C132", "title": "Only basic credentials are read from a header", "statement": "Reading an Authorization header accepts exactly the method 'basic', in every case of its letters, followed by the base64 form of 'user:password'; the user read never contains a ':'.", "quantifier": "every header value and encoding", "why_tests_cant": "It is about all texts, also those with unusual white space, case folding and invalid base64.", "anchors": ["scarletio/web_common/basic_authorization.py:10-11", "scarletio/web_common/basic_authorization.py:142-199"]}
{"id": "C133", "title": "The credentials of a url are sent", "statement": "Requesting a url with a user or a password, over http or as a web socket, sends an Authorization header which is read back as these; nothing else is ever sent.", "quantifier": "every user and password of a url", "why_tests_cant": "It is for all texts and both kinds of connection; tests do not connect web sockets with credentials.", "anchors": ["scarletio/http_client/client_request.py:160-175", "scarletio/web_socket/web_socket_client.py:234-237"]}
{"id": "C134", "title": "A response ends where its headers say", "statement": "Whatever header fields a response has, its body is read until where RFC 7230 (3.3.3) says it ends, and a response whose length is not given properly is refused with a payload error.", "quantifier": "every method, status and combination of Transfer-Encoding, Content-Length, Connection and Upgrade fields", "why_tests_cant": "It is for all texts of the fields and all numbers of them; tests use single well formed fields.", "anchors": ["scarletio/web_common/http_protocol.py:394-456", "scarletio/web_common/http_message.py:141-215", "scarletio/http_client/client_response.py:187-205"]}
{"id": "C135", "title": "A body is decoded by its content coding", "statement": "The body of a response is given decoded according to its Content-Encoding; when the coding is not known an error is raised instead of giving the raw body.", "quantifier": "every response", "why_tests_cant": "It is for all codings and all ways a body may end.", "anchors": ["scarletio/web_common/http_protocol.py:415-456", "scarletio/web_common/compressors.py:49-96", "scarletio/web_common/http_message.py:231-256"]}
{"id": "C136", "title": "A connection is reused only when the peer keeps it open", "statement": "After a response the connection counts as kept alive exactly when RFC 7230 (6.3) says it persists.", "quantifier": "every version and every list of Connection fields", "why_tests_cant": "It is for all lists of options in all fields.", "anchors": ["scarletio/web_common/http_message.py:265-293"]}
{"id": "C137", "title": "Keep-alive information is read and written", "statement": "Every list of parameters of a Keep-Alive header gives the last readable value of the timeout and of the maximal number of requests, and information which is written is read back unchanged.", "quantifier": "every header value and every information", "why_tests_cant": "It is for all parameter lists, with any white space and unknown parameters.", "anchors": ["scarletio/web_common/keep_alive_info.py:125-208", "scarletio/web_common/constants.py:6-12"]}
{"id": "C138", "title": "The body of a request is read as its headers say", "statement": "Asking a protocol for the payload reader of a request gives the reader its headers ask for.", "quantifier": "every request message", "why_tests_cant": "It is for all requests; tests ask for the readers of responses.", "anchors": ["scarletio/web_common/http_protocol.py:394-456"]}
{"id": "C139", "title": "A reader or writer is called exactly for the reports made while it is registered", "statement": "After add_reader(fd, callback) the callback is called once for each time the selector reports the descriptor readable, in the order of the reports, and it is called only while it is the registered reader of that descriptor and its handle is not cancelled: a report that is still queued when the callback is removed, replaced or cancelled does not call it. The same holds for add_writer; of one report the reader goes before the writer.", "quantifier": "every history of add, remove, cancel, reports of the selector and turns of the loop, including callbacks which change the registrations", "why_tests_cant": "The queue holds reports made before arbitrary later changes of the registrations; all interleavings matter.", "anchors": ["scarletio/core/event_loop/event_loop.py: EventThread.runner, add_reader, add_writer, remove_reader, remove_writer"]}
{"id": "C140", "title": "Readers and writers are registered per side of a descriptor", "statement": "remove_reader returns True exactly if a reader was registered for that descriptor and not removed since, whatever was done to its writer or to other descriptors, and the same for remove_writer; each registration gives a new handle, and a callback which was replaced, removed or cancelled is never called again.", "quantifier": "every history of calls", "why_tests_cant": "Depends on all mixtures of calls on both sides of many descriptors, the mask of events and the stored handles have to agree after all of them.", "anchors": ["scarletio/core/event_loop/event_loop.py: EventThread.add_reader, add_writer, remove_reader, remove_writer"]}
{"id": "C141", "title": "A socket operation which ended does nothing more", "statement": "After socket_receive or socket_send_all ended, with a result, an exception or by cancellation, it does not touch the socket any more (so a cancelled receive takes no data), it ends only once, when its callbacks have run nothing of it stays registered, and it never removes a reader or writer which somebody else registered on the same descriptor meanwhile.", "quantifier": "every history of operations, cancellations and reports", "why_tests_cant": "The window between cancellation, the queued report and the callback of the future is only hit by certain interleavings.", "anchors": ["scarletio/core/event_loop/event_loop.py: EventThread.socket_receive, socket_send_all, _socket_receive, _socket_send_all, _socket_read_done_callback, _socket_write_done_callback"]}
{"id": "C142", "title": "socket_send_all gives the socket exactly its data", "statement": "For bytes, however the socket takes them and whatever happens to other operations, what socket_send_all gave to the socket so far is a prefix of the data, and the operation ends successfully exactly when that is all of the data.", "quantifier": "all data, all sequences of partial sends and refusals", "why_tests_cant": "Kernels split sends at arbitrary positions.", "anchors": ["scarletio/core/event_loop/event_loop.py: EventThread.socket_send_all, _socket_send_all"]}
{"id": "C143", "title": "socket_send_all sends any bytes-like object", "statement": "socket_send_all accepts a bytes-like object of any item size and returns exactly when all bytes of it were sent.", "quantifier": "all views, all partial sends", "why_tests_cant": "Only views with items wider than a byte and certain partial sends show the difference.", "anchors": ["scarletio/core/event_loop/event_loop.py: EventThread.socket_send_all, _socket_send_all"]}
{"id": "C144", "title": "Receives which wait on one socket all end when data arrives", "statement": "A waiting socket_receive ends with the data when its turn comes; when several receives wait on the same socket, each of them ends when enough data arrives.", "quantifier": "every history of operations and reports", "why_tests_cant": "That an operation never ends is a statement about all continuations.", "anchors": ["scarletio/core/event_loop/event_loop.py: EventThread.socket_receive, _socket_receive, add_reader"]}
{"id": "C145", "title": "Every accepted connection is served", "statement": "When a listening socket is readable, each connection which accept returns gets exactly one task, in order; accept is called at most as many times as the backlog; if no more connections wait than the backlog all of them are served.", "quantifier": "all backlogs, all sequences of answers of accept", "why_tests_cant": "Depends on arbitrary mixtures of connections and errors.", "anchors": ["scarletio/core/event_loop/event_loop.py: EventThread._accept_connection"]}
{"id": "C146", "title": "Accepting pauses when resources are exhausted", "statement": "When accept fails because there are no more file descriptors or memory, the server stops accepting and schedules to start again once, after a second.", "quantifier": "all backlogs, all sequences of answers of accept", "why_tests_cant": "Exhaustion of file descriptors in the middle of a burst of connections is hardly reproduced by tests.", "anchors": ["scarletio/core/event_loop/event_loop.py: EventThread._accept_connection"]}
{"id": "C147", "title": "A content disposition header says exactly what it was built from", "statement": "The header built from a disposition type and parameters is one line, and a reader which follows the RFCs gets exactly the given type, names and values from it; nothing in a value (file names come from users) can add parameters or headers; names and types which are not tokens are refused.", "quantifier": "all types, all parameters, quoting of fields on and off", "why_tests_cant": "It is about every possible value, with separators, quotes, line ends and non ascii characters.", "anchors": ["scarletio/web_common/header_building_and_parsing.py: build_content_disposition_header"]}
{"id": "C148", "title": "Content disposition headers which are built can be parsed", "statement": "parse_content_disposition gives back the type and the parameters which build_content_disposition_header was given, and reads quoted, extended and plain parameters of other senders.", "quantifier": "all types and parameters", "why_tests_cant": "A round trip over all values; examples show a few of them.", "anchors": ["scarletio/web_common/multipart.py: parse_content_disposition", "scarletio/web_common/header_building_and_parsing.py: build_content_disposition_header"]}
{"id": "C149", "title": "A file name which comes in pieces is put together", "statement": "get_content_disposition_file_name joins the continuations filename*0, filename*1, ... in the order of their numbers, for any number of pieces, in whichever order the parameters are, and whatever characters the name has; it gives the parameter of the asked name.", "quantifier": "all numbers of pieces, all values, all orders of parameters", "why_tests_cant": "The number and order of the pieces is not bounded.", "anchors": ["scarletio/web_common/multipart.py: get_content_disposition_file_name"]}
{"id": "C150", "title": "The size a multipart body announces is the number of bytes it writes", "statement": "When a MultipartWriter has a size, writing it (with its closing boundary) writes exactly that many bytes, for every boundary and every list of parts; the size is known whenever the sizes of all parts are known and none of them is encoded.", "quantifier": "all boundaries, all lists of parts with all headers and contents, all ways the contents are cut into chunks", "why_tests_cant": "The size is added up part by part from lengths of rendered headers and contents; the lists and lengths are not bounded, and the content is only fixed when it is written.", "anchors": ["scarletio/web_common/multipart.py: MultipartWriter.append_payload, MultipartWriter.write, BytesPayload, TextIOPayload"]}
{"id": "C151", "title": "A multipart body can be taken apart again", "statement": "A reader which follows RFC 2046 and knows the boundary gets from what a MultipartWriter wrote exactly the parts which were appended, in their order, each with its headers and its content. Boundaries are accepted exactly when RFC 2046 allows them.", "quantifier": "all boundaries, all lists of parts, all headers and contents", "why_tests_cant": "Whether a body can be read back depends on every character of boundaries, headers and contents; there are infinitely many of them.", "anchors": ["scarletio/web_common/multipart.py: MultipartWriter.__init__, MultipartWriter.append_payload, MultipartWriter.write"]}
{"id": "C152", "title": "A part has one content type and one content length", "statement": "Each part of a multipart body has exactly one Content-Type line and at most one Content-Length line; a value given by the user replaces the default.", "quantifier": "all headers given by the user", "why_tests_cant": "Headers are arbitrary lists of names and values compared without case.", "anchors": ["scarletio/web_common/multipart.py: PayloadBase.__init__, MultipartWriter.append, MultipartWriter.append_payload"]}
{"id": "C153", "title": "Base64 parts do not depend on how the content was cut", "statement": "A part with the base64 transfer encoding is written as the base64 text of its content (of the compressed content, if it has a content encoding), however the content is cut into chunks, in lines of at most 76 characters.", "quantifier": "all contents, all ways to cut them into chunks, all compressors", "why_tests_cant": "Three bytes are encoded together while chunks can end anywhere, so the rest has to be kept over any number of chunks.", "anchors": ["scarletio/web_common/multipart.py: MultipartPayloadWriter.write, MultipartPayloadWriter.write_eof"]}
{"id": "C154", "title": "The fields of a form arrive as they were added", "statement": "A form with files or typed fields is sent as a multipart body from which an RFC 2046 reader gets one part for each field, in the order they were added, with the disposition built from the name and file name of the field, its content type, and the bytes of its value, in the charset of that type; every value which a form accepts without files is accepted with files too.", "quantifier": "all sequences of added fields, all names, values, content types, file names and transfer encodings", "why_tests_cant": "The number of fields and their contents are not bounded, and the headers of a field are assembled by several steps which overwrite or extend each other.", "anchors": ["scarletio/web_common/form_data.py: FormData.add_field, FormData.add_json, FormData.generate_form", "scarletio/web_common/multipart.py: MultipartWriter"]}
{"id": "C155", "title": "A weak set behaves as a set from which dying objects disappear", "statement": "For every sequence of additions, removals, membership tests, pops, iterations, copies, unions, intersections, differences and symmetric differences of weak sets, in new sets or in place with another weak set, mixed with objects dying at any time, also while iterations are running, every result is the one which plain sets give from which each object is taken when it dies. Each live element is given once by an iteration, and a dead one never.", "quantifier": "all sequences of operations on any number of weak sets, all moments at which objects die, all choices of pop, all numbers of running iterations", "why_tests_cant": "Removals are delayed while iterations are running, and equality of references changes when their object dies; a test fixes one order of deaths, iterations and operations.", "anchors": ["scarletio/utils/weak_set.py:36-1199", "scarletio/utils/weak_core.py:93-113"]}
{"id": "C156", "title": "The length of a weak set is the number of its live elements", "statement": "At every moment len(s) of a weak set is the number of objects which an iteration over it would give, and it never raises.", "quantifier": "all sequences of operations and deaths before", "why_tests_cant": "The length is the size of the table less the number of pending removals; it is right only if the pending removals are exactly the dead entries of the table after every sequence of operations.", "anchors": ["scarletio/utils/weak_set.py:423-431", "scarletio/utils/weak_set.py:358-373", "scarletio/utils/weak_set.py:992-1012"]}
{"id": "C157", "title": "Comparisons of weak sets compare their live elements", "statement": "s == t holds exactly if the two weak sets have the same live elements, and s <= t exactly if every live element of s is one of t.", "quantifier": "all sequences of operations and deaths before, all pairs of sets", "why_tests_cant": "The underlying sets are compared, which have references of dead objects while an iteration is running.", "anchors": ["scarletio/utils/weak_set.py:151-153", "scarletio/utils/weak_set.py:403-407"]}
{"id": "C158", "title": "A weak set may be changed by itself", "statement": "s -= s and s ^= s leave s empty.", "quantifier": "all sequences of operations and deaths before", "why_tests_cant": "Whether the set is changed while its own table is iterated depends on its contents; sets with no elements behave well.", "anchors": ["scarletio/utils/weak_set.py:309-316", "scarletio/utils/weak_set.py:358-373"]}
{"id": "C159", "title": "A copy of a weak set can be made while its elements die", "statement": "copy() of a weak set gives a set of its elements, whatever the garbage collector does meanwhile.", "quantifier": "all sequences of operations before, all moments within the copy at which objects die", "why_tests_cant": "Objects die within the loop only when the garbage collector or another thread happens to run there.", "anchors": ["scarletio/utils/weak_set.py:684-696"]}
{"id": "C160", "title": "A thread which waits for a future gets a result only when there is one", "statement": "future.sync_wrap().wait() returns the result, and wait_for_completion() returns True, only after the future is done.", "quantifier": "all interleavings of any number of waiting threads, timeouts and the thread of the event loop", "why_tests_cant": "The interleavings of threads are not under the control of a test.", "anchors": ["scarletio/core/traps/future_wrapper_sync.py:100-220"]}
{"id": "C161", "title": "A thread which waits for a future goes on when the future is done", "statement": "When a future is completed and its event loop has run what it scheduled, every thread which is in wait() or wait_for_completion() of a wrapper of it goes on, whatever other threads did.", "quantifier": "all interleavings of any number of waiting threads, timeouts and the thread of the event loop", "why_tests_cant": "A lost wake up needs a completion or another timeout between two accesses of the waiting thread.", "anchors": ["scarletio/core/traps/future_wrapper_sync.py:100-220", "scarletio/core/traps/future.py:343-410", "scarletio/core/event_loop/event_loop.py:469-490"]}
{"id": "C162", "title": "Waiting with a timeout ends with the result or with a timeout", "statement": "wait(timeout) of a wrapped future returns the result or raises TimeoutError, takes away its own callback only, and never makes the completion of the future fail.", "quantifier": "all interleavings of any number of waiting threads, timeouts and the thread of the event loop", "why_tests_cant": "The callback list is changed by two threads at the same time only if they are interrupted at particular places.", "anchors": ["scarletio/core/traps/future_wrapper_sync.py:158-169", "scarletio/core/traps/future.py:364-387"]}
{"id": "C163", "title": "An event loop stands still while another thread suspends it", "statement": "In a with block of the suspender of an event loop, entered by another thread, the loop runs nothing; only one thread at a time is in such a block; after the block the loop goes on.", "quantifier": "all interleavings of any number of threads and suspenders with the event loop, starts and stops of the loop", "why_tests_cant": "That nothing runs in the block is about all continuations, and depends on whether the loop is started, stopped or suspended by others at the same time.", "anchors": ["scarletio/core/event_loop/event_thread_suspender.py:8-76"]}
{"id": "C164", "title": "Datagrams go out whole, in order, once, to where they should", "statement": "What is given to the send_to of a datagram transport is sent to the address it was given (or the one address of the transport), each datagram at most once and in the order of the calls; nothing is left out unless the socket refuses it, which is reported to the protocol's error_received; closing first sends what is left. What is given to writelines, and an empty datagram, is sent too; a call which cannot be carried out harms no other datagram.", "quantifier": "for every sequence of send_to, writelines, close and abort calls with any data and addresses, and everything the socket may answer to each attempt", "why_tests_cant": "Tests use a loopback socket which never blocks; the order of buffered datagrams, refusals in between and closing with a full buffer depend on the answers of the socket.", "anchors": ["scarletio/core/protocols_and_transports/transport_layer.py:903-904", "scarletio/core/protocols_and_transports/transport_layer.py:972-1067"]}
{"id": "C165", "title": "A lost datagram transport is silent", "statement": "The protocol's connection_lost is called at most once, and after it nothing is sent any more; calling send_to then does nothing.", "quantifier": "for every sequence of calls and answers of the socket", "why_tests_cant": "Depends on whether something waited to be sent when the transport was closed, and on the order of close, abort and the socket becoming writable.", "anchors": ["scarletio/core/protocols_and_transports/transport_layer.py:314-360", "scarletio/core/protocols_and_transports/transport_layer.py:434-461", "scarletio/core/protocols_and_transports/transport_layer.py:972-1067"]}
{"id": "C166", "title": "Each address has its own reader", "statement": "The reader protocol of an address is given exactly the datagrams received from this address, in their order.", "quantifier": "for every sequence of datagrams from any addresses, interleaved with calls waiting for them, timeouts and the loss of the connection", "why_tests_cant": "The interleavings of senders are unbounded.", "anchors": ["scarletio/core/protocols_and_transports/protocol.py:1399-1415"]}
{"id": "C167", "title": "Waiting for the first datagram of an address", "statement": "wait_for_receive returns at once when something has been received already, else with the next datagram; with an address it returns the reader of this address, without one a pair of an address which has sent and its reader, None only after the timeout. When the connection is lost no call keeps waiting.", "quantifier": "for every sequence of datagrams, waiting calls, timeouts and the loss of the connection", "why_tests_cant": "Tests wait for one peer; what happens when another one sends first, or nobody ever does, depends on the interleaving.", "anchors": ["scarletio/core/protocols_and_transports/protocol.py:1390-1487"]}
{"id": "C168", "title": "The block is done in the executor, what follows in the loop", "statement": "When a task uses `async with enter_executor()`, everything in the block is done in a thread of the executor, and everything after it in the thread of the event loop again; all of it is done, in order.", "quantifier": "for every block of blocking work and awaits, and every interleaving of the loop, the executor, the completion of what is awaited and cancellations", "why_tests_cant": "Which thread runs what depends on the interleaving of two threads, and on when the task is cancelled.", "anchors": ["scarletio/core/traps/task_thread_switcher.py:26-232"]}
{"id": "C169", "title": "A task cancelled in the executor ends, and who waits for it is woken", "statement": "When a task is cancelled while it uses `async with enter_executor()` it ends with CancelledError as soon as its block gives back control, and who waits for the task is woken.", "quantifier": "for every block of blocking work and awaits, every moment of the cancellation, and every interleaving of the loop and the executor", "why_tests_cant": "The moments at which a cancellation can come, between any two actions of two threads, cannot be enumerated by tests.", "anchors": ["scarletio/core/traps/task_thread_switcher.py:26-232", "scarletio/core/traps/task.py:116-130"]}
{"id": "C170", "title": "A connection is kept for another request only after both bodies were transferred", "statement": "A connection given back by a response is kept for another request only when the whole body of the response was received and the whole body of the request was sent. When the user closes a response which still has its connection, the connection is closed.", "quantifier": "for every order of arriving data, ends and failures of the connection, progress of sending, and calls of read, close and release, cancelled or not", "why_tests_cant": "A connection kept in the middle of a body harms a later, unrelated request; the orders of arrival, sending, reading and cancellation cannot be enumerated.", "anchors": ["scarletio/http_client/client_response.py:222-291", "scarletio/http_client/client_response.py:453-486", "scarletio/http_client/connection.py:159-207", "scarletio/web_common/http_protocol.py:73-90", "scarletio/core/protocols_and_transports/protocol.py:648-659"]}
{"id": "C171", "title": "A connection which can be used again is kept", "statement": "When the whole request was sent, the whole response was received with nothing left over, and the response allows the connection to be kept, the connection is kept for another request.", "quantifier": "for every body and every way in which it is split into pieces of arriving data", "why_tests_cant": "Whether the body arrives together with the head depends on the network; a test on one machine sees mostly one way of it, and a closed connection only costs time.", "anchors": ["scarletio/http_client/client_response.py:179-264", "scarletio/core/protocols_and_transports/protocol.py:487-531", "scarletio/core/protocols_and_transports/protocol.py:577-660", "scarletio/web_common/http_protocol.py:73-90"]}
{"id": "C172", "title": "Reading a response gives the whole body, each time", "statement": "Each read of a response which gives a body gives the whole body that was received, also when it is read again, or by several tasks; when the body could not be received whole, reading fails.", "quantifier": "for every order of arriving data, ends and failures of the connection, and reads by any tasks, cancelled or not", "why_tests_cant": "Reads can overlap with each other and with arriving data in unboundedly many orders.", "anchors": ["scarletio/http_client/client_response.py:294-313", "scarletio/core/protocols_and_transports/payload_stream.py:165-450"]}
