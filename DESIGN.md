# Formal model of scarletio in Rocq

Source: `/repo` (python, read as text, never executed). Prover: Coq 8.16.1. All Coq files are in
`rocq/theories` (logical name `Verif`). Build: `cd rocq && coq_makefile -f _CoqProject -o Makefile && make -j4`.

## File layout

For each area `X` of the library:

* `XModel.v` – total computable Gallina functions that mirror the python functions branch by branch. Every
  definition cites file and lines and states what is simplified. No proofs.
* `XSpec.v` – the independent specification: plain lists, counting, orderings, grammars, a small reference machine.
* `XProofs.v` – lemmas.
* `XProps.v` – only the property theorems (`Theorem Cnn_… . Proof. exact lemma. Qed.`), the non-vacuity examples
  (`Example Cnn_nonvacuous…`) and `Print Assumptions`.

`Bytes.v` and `Text.v` are shared helpers. Theorem names start with the property id. A property that is false for the
faithful model gets `Cnn_…_refuted` (existence of a concrete counter example, checked by computation) and the
strongest true part as `Cnn_…_partial`; `_partial` theorems say in their comment what is missing.

## Modelling conventions

* Bytes and characters are `N` (or an abstract type with decidable equality where the values do not matter); a
  byte string / string is a `list`. Statements that need it assume the elements are `< 256`.
* Python objects that are only compared by identity (futures, callbacks, tasks, protocols, handles) are natural
  number names.
* Exceptions are values of an inductive type or of `option`/`sum`.
* An asynchronous API is a state machine: `step : state -> op -> state * output`; a schedule/history is an arbitrary
  list of operations, so "for all histories" is a universally quantified list. One operation is what runs between
  two suspension points of the python code (the event loop is single threaded, so this is the true granularity);
  thread-crossing code (executor) uses one operation per lock-protected section.
* Loops are structural recursion or recursion on fuel; exhausted fuel is a separate result, and the theorems prove
  that enough fuel always exists (or, for the loops which do not end, that none is enough).
* Time and clock readings are arbitrary integers supplied by the schedule.
* Functions of python's standard library are either written out or are universally quantified functions (`Variable`s
  of a `Section`, discharged into every theorem) with their documented behaviour as an explicit hypothesis. Choices
  which python leaves open (the order of a set, the positions of a dict which changed during its iteration, the moment
  of garbage collection) are numbers carried by the operations.

## Plan per property (written before the proofs)

| id | model | proof |
|----|-------|-------|
| C01–C03 | `Future`: state bits, result, callbacks list, loop ready queue | invariants by induction on the call list; spec = first successful completing call of the history, multiset counting of callbacks |
| C04–C06 | `Task`: coroutine as an arbitrary transition function (resume input → yield future / return / raise), loop queue of steps and wake-ups, futures it waits on | invariant "exactly one reason to run" over all schedules; C06 refuted by a schedule |
| C07, C09 | `Loop`: ready queue, handles, callbacks as arbitrary programs that add/cancel | induction on the drain loop; C09 refuted: a program for which the drain never ends, for every fuel |
| C08 | `Timer`: scheduled collection, runner's due loop, clock readings | invariants; order of the batch |
| C10–C12 | `Lock`: the deque of futures, per task program counter | invariant relating deque suffix and waiting tasks; C12 refuted by a schedule, plus the true part |
| C13–C17 | `Queue` | ghost history of puts/takes; C14–C16 refuted by schedules |
| C18 | `ReadProtocol` with chunk deque and offset | refinement to a flat byte stream |
| C19 | `ReadUntil` with intersection sizes | refuted twice (lost bytes, missed delimiter); true part: delimiter inside one chunk, one byte delimiters, and never losing bytes where no partial match fails |
| C20–C22 | `Frame` | round trip, involution, finite check of the two header bytes |
| C23–C24 | `Chunked` on a flat stream / on the chunk deque | round trip; C24 refuted with the real segmentation-dependent reader |
| C25 | `Headers` | round trip |
| C26–C27, C59 | `Dns` | round trip by induction; C26 refuted (self pointing label), true part: terminates when there are no compression pointers / pointers strictly decrease |
| C28–C29 | `Ip` | round trip; the zero-run choice depends only on the 256 zero patterns, solved by computation and lifted |
| C30–C31 | `Quoting` | C30 refuted; round trip for strings whose encoding does not use digits 8 and 9 and no plus sign |
| C32–C33 | `UrlPath`, `UrlHost` | equality with a stack machine; C33 refuted |
| C34–C35 | `MultiDict` | refinement to a finite map; membership refuted for ignore-case |
| C36 | `SortedList` | binary search correctness, sortedness invariant, multiset spec |
| C37–C39 | `Pool` | invariants over all histories; C39 refuted |
| C40–C41 | `Executor` | invariants over thread interleavings; C41 refuted |
| C42–C43 | `Transport` | ghost history; alternation automaton |
| C44 | `Payload` | ghost history |
| C45–C46 | `Zip`, `ZipName` | offsets computed from the produced byte stream; C46 refuted, uniqueness per (path, extension) key proved |
| C47–C48 | `Cookie` | spec by string prefixes/suffixes; C48 refuted |
| C49 | `ContentType` | totality by construction with enough fuel; round trip |
| C50–C53 | `Event`, `TaskGroup`, `Rotation`, `Server` | invariants; C53 refuted |
| C54–C55 | `WeakDict`, `HybridPop` | invariants; len and pop refuted |
| C56 | `Cycler` | sorted invariant; cancel from inside refuted |
| C57 | `ExtHeader` | round trip |
| C58 | `Message` | induction on fragments |
| C60 | `Shield` | invariant |
| C61–C100 | the areas above, and others met while modelling them | found while writing the models; same methods |

## What is modelled, what is simplified

The comment at the head of each model file, and what each definition cites:

* **Future** (C01, C02, C03). Model of `scarletio.core.traps.future.Future` on a running event loop. Files modelled: - core/traps/future_states.py lines 6-35 - core/traps/future.py lines 85-506 - core/event_loop/event_loop.py lines 376-382 (`call_soon`) and 482-490 (`_schedule_callbacks`).
* **Lock** (C10, C11, C12). Model of `Lock` and `ScarletLock`, core/traps/locks.py. `Lock` (lines 57-88, 118-123) is the case `size = 1` of `ScarletLock` (lines 201-224): `len(waiters) > 1` and [waiters`1`] against `len(waiters) > size` and [waiters`size`]. One call of `acquire` is a record with a ticket (the number of the call). The future created by the call (locks.py:207) is named by the same number. Every atomic section between two suspension points of the python code is one operation: - `OpAcquire`: the part of `__aenter__` up to `await waiter`; - `OpResume`: the event loop resumes a task whose awaited future is done (task.py:334-346), running the part of `__aenter__` after `await waiter`; - `OpRelease`: `release` / `__aexit__` called by a call that holds the lock; - `OpCancel`: `Task.cancel` (task.py:116-130) on a task that waits in `acquire`. Not modelled: `await lock` (locks.py:105-116) and `release` by somebody who does not hold the lock.
* **Loop** (C07, C08, C09). Model of the callback scheduling of `EventThread`, core/event_loop/event_loop.py, and of `Handle`/`TimerHandle`, core/event_loop/handles.py. Handles are numbered in the order of their creation. Time is an integer number of clock ticks (python uses floats). What a callback does when it runs is not fixed: after the operation `ORun` any operations may follow, so every program of callbacks (and of other threads) is some history of operations. An exception raised by a callback is caught by `Handle._run` (handles.py:145-157) and changes nothing here. `heapq` is not part of the repository: the model takes any function `pick` that removes one element of the heap (see `heap_pick` in LoopSpec.v for what is assumed of it). Not modelled: starting and stopping of the loop (`running`, `_maybe_start`, `should_run`), the timeout given to the selector, weak handles.
* **Task** (C04, C05, C06). Model of `Task`, core/traps/task.py, running on the event loop together with plain futures (core/traps/future.py). Futures and tasks are numbered in the order of their creation. What a coroutine does is not fixed: a history says what the running coroutine does next (`OEnd`), and between its start (`OBegin`) and its end it (or anybody else) may do any other operation. Simplified: only the callbacks tasks register on what they wait for are modelled (task.py:318); results are not represented, only how a future ended; destroyed tasks (task.py:261) are left out.
* **Queue** (C13, C14, C15, C16, C17, C61, C62). Model of `AsyncQueue` and `AsyncLifoQueue`, core/traps/queues.py. Elements, futures and calls are numbers. A call that can suspend is cut into atomic sections: its first part (`OPutWait`, `OGet`, `ONext`) and the part after the suspension (`OResumePut`, `OResumeGet`), which the event loop runs once the awaited future is done (task.py:334-346). `OCancelPut` / `OCancelGet` are `Task.cancel` (task.py:116-130) on the task suspended in the call. Not modelled: `clear`, `reverse`, `copy`, `__del__`; creation with an exception is `OSetException` as first operation.
* **Read** (C18, C19, C63, C64). Model of the reading half of `ReadProtocolBase`, core/protocols_and_transports/protocol.py, together with the part of `PayloadStream` (payload_stream.py) that an `await`ed read uses. A read starts a generator (the payload reader) which consumes the buffered chunks and then suspends in `_wait_for_data`; `data_received` resumes it with the new chunk. One operation of the model is one call of the transport or one call of the user; everything a resumed generator does before it suspends again is one step, as in the source (the generators yield their chunks to `PayloadStream.add_received_chunk` synchronously). Simplifications: a consumer that awaits the payload stream collects `b''.join` of its chunks (payload_stream.py:416-454), so the stream's chunk list is represented by its concatenation `acc`; `held_back` lists are represented by their concatenation; pausing and resuming the transport (552-557, 540-550) is not modelled here.
* **Chunk** (C23, C24, C65). Model of the chunked transfer coding: `HTTPStreamWriter` (web_common/http_stream_writer.py) without compressor, and `_read_chunked_by_chunk` (web_common/http_protocol.py:459-506) on top of the readers of ReadModel.v. The reader is given the list of all segments that are ever received; a reader that would suspend with no segment left is `CWait`. Resuming a suspended reader with a segment is running it with that segment buffered behind the others: `exact_resume` and `until_resume` in ChunkProofs.v.
* **Frame** (C20, C21, C22, C58, C66, C67). Model of web socket frames: web_common/web_socket_frame.py, `read_web_socket_frame` and `write_web_socket_frame` of web_common/http_protocol.py (on top of the readers of ReadModel.v) and the message level of web_socket/web_socket_common_protocol.py without extensions. As in ChunkModel.v the reader is given all segments that are ever received (`C24_exact_resume`). Decoding text messages as utf-8 is left out: a text message is its bytes.
* **Event** (C50). Model of `Event`, core/traps/event.py. A waiter is the future made by one `await event`; futures and tasks as in FutureModel.v and TaskModel.v, reduced to what `Event` uses.
* **Quote** (C30, C31, C68). Model of web_common/quoting.py and of `parse_query` / `serialize_query` of web_common/url/url_query.py. Strings are lists of code points.
* **Head** (C25, C69, C70, C71). Model of writing and parsing http heads: `write_http_request`, `write_http_response` of web_common/http_protocol.py, `parse_http_request`, `parse_http_response`, `parse_http_headers` of web_common/helpers.py, and of the choice of the payload reader. Simplified: `decode('utf-8', 'surrogateescape')` is strict here (`None` where it would escape octets), the header dictionary is the list of the pairs assigned to it, `str.upper` is that of ascii.
* **Ext** (C57). Model of web_common/header_building_and_parsing.py: the lists of extensions, sub-protocols, connection and upgrade names. Strings are lists of code points; an index into the header value is the rest of the value.
* **Url** (C32, C33, C72). Model of the paths of urls (web_common/url/url_path.py) and of the comparison of hosts (web_common/url/url_host_info.py).
* **Dns** (C26, C27, C73, C74). Model of dns_query/building_and_parsing.py. An absent tuple is the empty list.
* **Name** (C59, C75, C76). Model of the names of dns_query/helpers.py: 11-127, 170-215, 493-580. The methods of python's `str` and the 'idna' codec are parameters.
* **Ip** (C28, C29, C77). Model of the ip addresses as text: dns_query/helpers.py:218-318, 351-462 and the expressions of dns_query/constants.py.
* **Multi** (C34, C35, C78). Model of MultiValueDictionary and IgnoreCaseMultiValueDictionary: utils/multi_value_dictionary.py:8-486, utils/ignore_case_multi_value_dictionary.py:8-127, utils/ignore_case_string.py:8-86. A `dict` is the list of its items in the order of insertion. Keys are compared by `norm`: the key itself for the plain dictionary, its case fold for the one ignoring the case (which wraps each key in an IgnoreCaseString). The lists of values are not shared between dictionaries (each constructor and `copy` copies them).
* **Sorted** (C36, C79). Model of SortedList: utils/sorted_list.py:7-392. `lt` and `eqb` are the comparisons of the elements, `ltU` and `eqU` those of the keys of `keyed_relative_index`, `get` and `pop`. `sorted` is modelled by insertion; only that its result is a sorted permutation is used.
* **Pool** (C37, C38, C39, C80, C81). Model of the connection pool: http_client/protocol_basket.py:7-275, connector_base.py:12-333, connection.py:8-240. Of a protocol the parts are kept which `get_transport` and `should_close` read; `closing` and `lost` tell what happened to its transport. `LOOP_TIME()` is an argument of the operations, `create_connection` gives a new protocol each time. The callbacks of a connection are operations which come before the one that runs them. `detached` is a record of the proof only.
* **Trans** (C42, C43). Model of the write half of a socket transport: core/protocols_and_transports/transport_layer.py:120-494 (SocketTransportLayerBase), :497-812 (SocketTransportLayer). The socket is the other party: each `send` is given an answer. `sent` is what the socket took, `shut` that it was shut down for writing, `calls` what was called on the protocol (latest first), `soon` the scheduled `_call_connection_lost` calls. Data is a bytes-like of `width` bytes per item (`bytes` and `bytearray` have 1; a `memoryview` may have more), its content does not change after it is passed. Not here: the read half beyond what closes the transport, the reading pause, the server's count, exceptions raised by the protocol.
* **Drain** (C82, C83). Model of the flow control of a protocol: core/protocols_and_transports/protocol.py:534-556 (_pause_reading, _resume_reading), :1233-1285 (pause_writing, resume_writing, _drain_helper, connection_lost), :1324-1336 (drain), with transport_layer.py:660-678 (pause_reading, resume_reading). `told`: the transport's last word about writing. It calls `pause_writing` and `resume_writing` by turns and nothing after `connection_lost` (C43_flow), so the other calls do nothing here. `waiters` are the futures on which `drain` waits, in order of creation. The size of the received data comes with each arrival. Not here: the payload reader, transports which cannot be paused.
* **Payload** (C44). Model of a payload stream: core/protocols_and_transports/payload_stream.py:102-511. `waiters` are the futures which were ever in `_waiter`, by number; `consumers` the coroutines which await or iterate the stream. A coroutine which waits goes on (`Wake`) after its future is done, with `thrown` also when its task is cancelled after that. Callbacks are numbers, `ran` those which were run, in order; they raise or return, but do not use the stream. Not here: the resuming of the protocol (C83), the values of the exceptions.
* **Dedup** (C46). Model of the default deduplication of the names in a zip archive: streaming/zip_streaming/name_deduplication.py:6-110. Names are lists of code points. `\d` and `int` are those of the ascii digits. Not here: other patterns and reconstructors.
* **Zip** (C45, C84, C85). Model of the zip streaming: streaming/zip_streaming/zip_stream.py, compression.py, constants.py and file_state.py. The output is the concatenation of the yielded chunks; `None` is an exception. The deflate compressor of zlib is a parameter, its crc32 is written out. Not here: generators which raise, and generators shared by two files.
* **Cookie** (C47, C48, C86, C87, C88, C89). Model of the cookie jar: web_common/cookiejar.py:105-429. Texts are lists of code points. Times are milliseconds of `LOOP_TIME()`, read once by an operation. Of a url the raw host, the path and whether its scheme is secure are kept. `int` of max-age, `parse_cookie_date` and `is_ip_address` are parameters; the names of the cookies are those of their morsels. Not here: pickling, morsels which are added twice.
* **CookieDate** (C90, C91, C92). Model of the dates of cookies: parse_cookie_date, web_common/cookiejar.py:14-103. Texts are lists of code points below 256: there `\d` matches the ASCII digits only. A `DateTime` is its six fields.
* **ContentType** (C49, C93). Model of content type headers: web_common/content_type.py:6-425. Texts are lists of code points. An index is a number, reading a character is `nth_error`: `None` is an IndexError, or a loop which does not end within one more round than the text has characters. `str.casefold` is a parameter. The parameters of a content type are listed as they are set.
* **Rotation** (C52). Model of the rotation of host infos: http_client/host_info_basket.py:12-135. A generator is run to its end.
* **Cycler** (C56, C94, C95). Model of Cycler: core/event_loop/cycler.py:149-572, within the thread of its loop. A function is a number; `acts` tells what it does to its cycler when it is called. A timer is the handle of `loop.call_after`; times are left out: the loop may fire any timer which is set. Not here: asynchronous functions (their task is started and forgotten), exceptions (caught and written), `call_now` within a function, the calls from other threads (they are passed to the loop).
* **Server** (C53, C96). Model of `Server`, the object behind `create_server` (core/event_loop/server.py). Simplified: the sockets are only "given" or "None"; `start` and the listening itself are not modelled. A task awaiting `wait_closed` is represented by the future it waits for; cancelling the task cancels that future (core/traps/task.py 116-130).
* **WeakDict** (C54, C55). Model of `WeakValueDictionary` (utils/weak_value_dictionary.py) and `HybridValueDictionary` (utils/hybrid_value_dictionary.py), with the helpers of utils/weak_core.py. Keys and objects are numbers. `weakable o` tells whether an object is stored weakly (`is_weakreferable`, weak_core.py 14-34); in a `WeakValueDictionary` it is true of every object which can be stored at all. `hybrid` tells which of the two classes is meant, they differ in `pop` only. A running iteration is a suspended generator; its local variable keeps the last yielded reference alive. Garbage collection is the operation `WDie l`: the weak references to the objects `l` are cleared at once and then their callbacks are called. An object which is stored strongly never dies. Simplified: when keys were both removed and added between two steps of an iteration without changing the size, CPython continues at a position of its own choice; that position is a parameter of the step. `update`, `repr` and comparison are not modelled. Values are compared by identity.
* **Group** (C51, C97, C98). Model of `TaskGroup` (core/traps/task_group.py). Futures and tasks are numbers; each is pending with some number of callbacks of the group registered, or done. A done future's callbacks are put into the event loop's queue (core/event_loop/event_loop.py 469-490, `_schedule_callbacks`) and run later; the queue here holds the callbacks of the group only, everything else which runs between them is a step of its own. `set.pop` and the iteration over a set take the members in an order of their own; the operations carry a number which selects the member. Simplified: a handler is a state of its generator; the waiters' futures are given by their results. `exhaust`, `cancel_*` and the context manager are not modelled: they are made of the operations here.
* **Shield** (C60, C99). Model of `shield` (core/traps/future_chaining.py) on futures of a running event loop. A future is its outcome, its callbacks and whether it is silenced (core/traps/future.py 85-100; the state bits are modelled in FutureModel.v, here the bits RESULT_RETURN, RESULT_RAISE and CANCELLED together with `_result` are the outcome). A task which is shielded is a future which gets its outcome some time.
* **Executor** (C40, C41, C100). Model of the executor (core/event_loop/executor.py): `Executor`, `ExecutorThread`, `SyncQueue` as the queue of a thread, `ClaimedExecutor`. The event loop's thread and the worker threads interleave at the granularity of the steps below: each step of a worker does one access to its queue (under the queue's lock) or starts or ends one function. The futures are used in the event loop's thread only, but for `is_done` (382). Functions and their futures are numbered by submission; the result (or the exception, 391-399) of the function `j` is the number `j`. Simplified: when an idle executor is released by the timer (1147-1232) is not modelled, only that it may be: `EShrink`. ExecutorThread.cancel (460-470) is one step: the queue does not change within its loop.
* **Timeout** (C101, C102, C103). Model of the timeouts: the context manager `Timeout` of the http client (web_common/helpers.py 173-315, used by http_client.py:218 and 480), `repeat_timeout` (core/traps/timeouting.py), `sleep` (core/traps/task_suppression.py:42-81 with `_SleepHandleCanceller`, handle_cancellers.py:78-108) and `Future.apply_timeout` (core/traps/future.py:29-53, 603-627). Time is counted in ticks from the start of the clock (python has floats). A timer is the time it is due at and whether the event loop has already moved it into its ready queue; the loop does that in a cycle when `when < now + resolution` and runs it some time later, unless it gets cancelled first. That is what LoopModel.v does with timers (proved there: C07, C08). Anything may happen between two operations. `call_after` and `call_at` return None when the event loop is stopped; here it is running. The body of a with block is arbitrary: it may finish, raise, or catch the cancellation and go on. How `task.cancel()` gets a CancelledError into the body is C05.
* **Redirect** (C104, C105, C106, C107, C108). Model of how the http client sends a request and follows redirects: `HTTPClient._request` and `HTTPClient._request2` (http_client/http_client.py:141-303 and 306-558), with the headers made by `ClientRequest.__new__` (http_client/client_request.py:144-295) and the few dictionary methods they use (utils/multi_value_dictionary.py, through ignore_case_multi_value_dictionary.py). One and the same header dictionary is given to each of the requests, and `ClientRequest.__new__` changes it. It is modelled as a function from names to the values the name has; the order of different names is left out. The values made by the code are kept as what they are made of: the rendering of cookies, sizes and credentials is not modelled here. An url is its scheme, host, port and credentials (and a number for the rest); `jar` (CookieJar.filter_cookies for the n-th request, see CookieModel.v), `load` (SimpleCookie.load) and `says_chunked` ("chunked" in the casefolded text) are any functions. A payload is its size, type and extra headers. Not modelled: the method CONNECT (proxies), compression, the connection, what is done with the response but its status and target; negative numbers of redirects; dots at the end of a host name; targets with a scheme but no host. `URL.scheme` of a target without a scheme is None (url.py:719-727), not '', so http_client.py:277 and 540 refuse it: the lines which would join it to the url (286-287, 548-549) are never reached.
* **UrlOps** (C109, C110, C111, C112, C113, C114). Model of whole urls: web_common/url/url.py (writing, comparing, joining, the `with_...` methods, names and parents), `normalize_query` of web_common/url/url_query.py:76-311 and the parts (web_common/url/url_part_base.py, url_part_base_parsed.py, url_user_info.py, url_fragment.py, url_host_part.py). Not modelled: the regular expression which takes a text apart (constants.py:6-92; the operations start from the fields of an url), caching (the parts are immutable but for their caches; the dictionary of a query can be changed by its holder), and types other than those which are documented. `'idna'`, `str(int)`, `str(float)` and `DateTime.isoformat` are arbitrary functions.
* **Ws** (C115, C116, C117, C118, C119, C120, C121, C122). Model of an open web socket connection: web_socket/web_socket_common_protocol.py without extensions. Three parts: the writers (`send`, `ping`, `pong`, `write_close_frame`, `fail_connection`) on the lock of LockModel.v, the end of the connection (`transfer_data` from the point where reading ends, `close_connection`, `connection_lost`) with the transport (core/protocols_and_transports/transport_layer.py; for `ssl` the SSL layer is taken to close like it), and the queue of received messages (QueueModel.v). Every part between two suspensions is one operation; any operation may come next. Frames are labels; how they are written and read is FrameModel.v. Not here: the opening handshake, extensions, destroyed generators, `ping` waiters.
* **Handshake** (C123, C124, C125, C126, C127, C128, C129, C130). Model of the opening handshake of web sockets: web_socket/web_socket_client.py:218-383 and web_socket/web_socket_server_protocol.py:163-208, 257-582, with the header lists of web_common/header_building_and_parsing.py (ExtModel.v). Modelled: the headers which the client sends, what the server looks at, which response or error follows, what the client checks in the response. Strings are lists of code points. A header dictionary is the list of its (name, value) pairs in the order of their insertion; setting a pair which is there already changes nothing (C34), the names are compared without their case, so the names used here are constructors. The base64 functions, sha1, `are_valid_parameters` of the extensions, the request processor, the sub-protocol selector and the order in which a set is iterated are arbitrary functions. Not modelled: reading the request and the response from the socket (HeadModel.v; here its result or its exception is an input), user supplied functions which raise, the Host and Authorization headers, a transport which is gone before the response is written, the Date and Server headers (they are set only if missing and nobody looks at them here), closing the connection after a refusal (WsModel.v).
* **Auth** (C131, C132, C133). Model of web_common/basic_authorization.py, of the places which make credentials out of a url (http_client/client_request.py:160-175, web_socket/web_socket_client.py:234-237), and of base64 (python's `binascii`). Texts are lists of code points, bytes are numbers. The two regular expressions are read as what they accept: `AUTHORIZATION_HEADER_RP` takes leading white space, a method up to the next white space, and the rest without the white space around it, which may not contain a line feed. (Backtracking can also give a method which contains white space; it is not 'basic', and both ways end in a ValueError.) `USER_ID_PASSWORD_JOIN_RP` splits at the first ':' a text without a line feed. An encoding is a pair of arbitrary functions; latin1 is given as such a pair.
* **Message** (C134, C135, C136, C137, C138). Model of the properties of raw http messages (web_common/http_message.py), of the choice of the payload reader out of the headers (web_common/http_protocol.py:394-456, web_common/compressors.py:49-96), and of the keep-alive information (web_common/keep_alive_info.py, web_common/constants.py:6-12). A header dictionary is the list of the values of each of the fields which are looked at; [headers`name`] and `headers.get(name)` give the first one. Texts are lists of code points. `str.casefold`, `str.isdigit`, `int` and `float` are arbitrary functions; what is assumed of them is in MessageSpec. The caches of the properties are not modelled (they hold what was computed first; the headers are not changed). The regular expression of the keep-alive header is modelled for values whose only white space is the space and the tab.
* **Io** (C139, C140, C141, C142, C143, C144, C145, C146). Model of the readers and writers of `EventThread` and of the socket operations built on them, core/event_loop/event_loop.py: `add_reader`, `remove_reader`, `add_writer`, `remove_writer` (1128-1280), the part of `runner` which turns what the selector reports into callbacks (682-710), `socket_receive`, `socket_send_all` and their callbacks (2315-2373, 2438-2554), and `_accept_connection` (1006-1057). The selector is a map from file descriptors to keys; a key has the mask of events and, separately, the pair of handles the loop stores in `key.data`. What the selector reports is an input of the operation `OPoll` and what a socket answers is an input of the operations which touch it: both are arbitrary. What the callback of a user does is not fixed: after `ORun` any operations may follow. `socket_receive_into` and `socket_accept` have the same shape as `socket_receive` (2170-2234, 2376-2435): what is read is then a number of bytes or a connection. The data given to `socket_send_all` is a `memoryview`: a list of items which all have the same number of bytes. `len` and slicing count items, `socket.send` counts bytes. Not modelled: a loop which is not running, closing of sockets and the reuse of their descriptors, the tasks which wait for the futures, connecting (2237-2312).
* **Dispo** (C147, C148, C149). Model of the Content-Disposition header: `build_content_disposition_header` of web_common/header_building_and_parsing.py (13-18, 400-492), `parse_content_disposition` and `get_content_disposition_file_name` of web_common/multipart.py (802-1067). Strings are lists of code points, a `dict` is the list of its items. `str.lower`, `str.casefold`, `str.isspace` (what `strip` takes away) and `str.isdigit` are parameters. `quote` and `unquote` are those of QuoteModel. A set of characters is a list of strings of one character; `TOKENS` also has the string of two characters ', '.
* **Part** (C150, C151, C152, C153, C154). Model of multipart bodies and forms: web_common/multipart.py: `PayloadBase.__init__` (101-139), `set_content_disposition_header` (142-157), `BytesPayload` (227-255), `StringPayload` (279-311), `IOBasePayload`, `TextIOPayload`, `BytesIOPayload`, `BufferedReaderPayload` (370-583), `MultipartWriter` (1093-1400), `MultipartPayloadWriter` (1435-1602), and web_common/form_data.py: `add_json`, `add_field`, `_generate_form_data`, `generate_form` (226-424). Headers are the dictionaries of MultiModel, with names compared by their `casefold`, a parameter. A payload has the chunks it writes, which are fixed when it is written and not when it is appended: `contents` gives them. Compressors (`compress`, `flush`), quoted-printable (`qp`), `guess_type` of `mimetypes` and the numbers as text (`show`) are parameters. Errors are `None`. Texts have no surrogates, which `encode` refuses; brotli is installed; the name of a file is a text. Asynchronous readers and iterables are not modelled.
* **WeakSet** (C155, C156, C157, C158, C159). Model of `WeakSet` (utils/weak_set.py), with `add_to_pending_removals` of utils/weak_core.py 93-113. Objects are numbers and are compared by identity. Variables, which are numbers too, hold weak sets. A running iteration over a set is a suspended generator; only their number is kept, not where they are. Garbage collection is the operation `WDie l`, between two operations; only `copy_loop` lets objects die within an operation. The order of the underlying `set` is that of a list. Not modelled: operands which are not weak sets, objects which can not be referred to weakly, `__repr__` and `__reduce__`. When a variable gets a new set the iterations over the earlier one are forgotten.
* **Wrap** (C160, C161, C162). Model of waiting for a future from other threads: `FutureWrapperSync.wait` and `wait_for_completion` (core/traps/future_wrapper_sync.py 100-220), with `Future.add_done_callback`, `remove_done_callback` and `set_result` (core/traps/future.py 343-410) and `EventLoop._schedule_callbacks` (core/event_loop/event_loop.py 469-490). One future, the thread of its event loop, and any number of threads which wait, each once. A thread may be interrupted between any two accesses to what is shared, which the language allows. CPython 3.10 and later, with its global lock, is interrupted at calls and at the ends of loops only: see `coarse` in WrapSpec.v. Simplified: the loop is running and is awake (`wake_up` is not modelled), only waiting threads add callbacks, the future is completed by the thread of the loop, which is any of `set_result`, `set_exception` and their like. What is done to the future after a timeout (`propagate_cancellation`) and exceptions which interrupt the waiting are not modelled.
* **Suspend** (C163). Model of `ThreadSuspenderContext` (core/event_loop/event_thread_suspender.py 8-76), by which another thread makes an event loop stand still for the time of a `with` block. The loop has a queue of handles; a context is a number, and is used by one thread at a time. An event is a flag which stays set. Simplified: the loop is woken up (`wake_up` is not modelled); a loop which stops leaves its handles where they are.
* **Dgram** (C164, C165, C166, C167). Model of datagram sockets: `DatagramSocketTransportLayer` (core/protocols_and_transports/transport_layer.py 815-1067, with 314-360 and 434-461 of its base) and `DatagramAddressedReadProtocol` (core/protocols_and_transports/protocol.py 1339-1499). Data are numbers, 0 is the empty one; addresses are numbers. The socket answers each attempt to send. Not modelled: pausing of the protocol, the reading half of the transport (952-969 hands on what the socket gives), exceptions out of the protocol. Timeouts of waiting tasks are an operation.
* **Switch** (C168, C169). Model of `enter_executor` (core/traps/task_thread_switcher.py 26-232) with a task which runs `try: async with enter_executor(): <block> finally: <rest>` (core/traps/task.py 116-130, 249-350; future.py 116-136, 509-519). Blocking work is one item: other threads do what they do between any two items. Simplifications: `Task.cancel` is called in the thread of the loop; the futures awaited in the block are pending when they are awaited and end with a result or by the cancellation of the task; the block and the rest do not handle CancelledError and raise nothing of their own; the rest does not await. Not modelled: `_cancel_callback`, which runs when the task is done already.
* **Response** (C170, C171, C172). Model of a response and its connection: `ClientResponse` (http_client/client_response.py 179-313, 453-486), `Connection.release` and `close` (http_client/connection.py), `write_body` of the request (http_client/client_request.py 451-488), `should_close` (web_common/http_protocol.py 73-90), and what they use of the protocol (core/protocols_and_transports/protocol.py 426-531, 577-660) and of the payload stream (payload_stream.py 165-450). One request and its response on one connection. Bodies are lists of numbers. Not modelled: iteration over the body (C44), cookies, detaching, `__del__`, the limit of requests of a connection, and what a payload reader does with the bytes (C23, C24): data come with whether they end the body and whether bytes are left over. Nor a cancellation of a reading task after the waiter is done.

## Not modelled

Operating system sockets, TLS, zlib/brotli, `heapq`, `re`, `json`, UTF-8 codecs and other standard library internals
(they are replaced by their documented behaviour where needed), garbage collection beyond "a weakly referenced value
may die at any moment", the interactive console, tracing and highlighting, and the asyncio compatibility layer.

## Properties, theorems, status

Statements are in `properties.jsonl`, exact names and status also in `MANIFEST.json`.

| id | area | status | theorems | what is proved, what is missing |
|----|------|--------|----------|---------------------------------|
| C01 | Future | proved | `C01_write_once`, `C01_outcome_final` | A future's outcome is written once. all histories |
| C02 | Future | proved | `C02_one_winner`, `C02_pending_call_wins` | Exactly one call wins the race to complete a future.  |
| C03 | Future | proved | `C03_callbacks_exactly_once`, `C03_callbacks_refine` | Every done-callback is scheduled exactly once.  |
| C04 | Task | proved | `C04_one_resumption`, `C04_never_stepped_when_done`, `C04_resumed_only_when_suspended` | A task never resumes its coroutine twice for one suspension. all histories of tasks, futures and the loop |
| C05 | Task | proved | `C05_cancel_reaches`, `C05_cancel_reaches_chain`, `C05_cancel_beats_return` | Task.cancel() reaches the coroutine. for the cancellation handed on to another task, the chain theorem |
| C06 | Task | partial | `C06_cancel_with_reaches_refuted`, `C06_cancel_with_reaches_partial` | Task.cancel_with(exception) reaches the coroutine. false of the code: cancel_with on a task whose awaited future is already done is lost; holds otherwise |
| C07 | Loop | proved | `C07_fifo`, `C07_at_most_once`, `C07_cancelled_never_runs`, `C07_skipped_only_if_cancelled`, `C07_turn_comes` | call_soon is first in, first out and exactly once.  |
| C08 | Loop | proved | `C08_conservation`, `C08_cycle`, `C08_never_early` | Timers fire in deadline order, never early, never after cancel. heapq is a parameter: the theorems hold for every pop that removes one smallest element. |
| C09 | Loop | partial | `C09_busy_callback_starves_refuted`, `C09_gets_back_partial` | A busy callback cannot starve timers and sockets. False as stated: a self-rescheduling call_soon callback keeps the loop from reading timers and sockets for ever. |
| C10 | Lock | proved | `C10_mutual_exclusion`, `C10_release_never_fails` | Lock gives mutual exclusion.  |
| C11 | Lock | proved | `C11_no_overtaking`, `C11_acquired_in_order` | Lock is granted in arrival order.  |
| C12 | Lock | partial | `C12_cancel_never_leaks_refuted`, `C12_cancel_before_release_leaks_refuted`, `C12_no_leak_partial` | Cancelling a waiter never leaks the lock. False as stated: two interleavings of cancel and release lose the lock for ever. The partial theorem covers histories where a cancelled waiter runs before the lock is used again. |
| C13 | Queue | proved | `C13_once_in_order`, `C13_no_idle_element` | AsyncQueue delivers every element once, in order. any bound; blocking puts on unbounded queues (see C16, C62 for bounded ones) |
| C14 | Queue | partial | `C14_several_consumers_refuted`, `C14_cancellation_spreads_refuted`, `C13_once_in_order` | AsyncQueue with several consumers delivers each element once. false of the code: waiting consumers share one future; the single-consumer case is C13 |
| C15 | Queue | partial | `C15_cancel_loses_element_refuted`, `C15_later_consumer_raises_refuted`, `C15_loses_at_most_one_partial` | Cancelling a waiting consumer loses no element. false of the code: the next element put after a cancelled wait is lost; at most one element per cancellation |
| C16 | Queue | partial | `C16_blocked_producer_refuted`, `C16_blocked_consumer_refuted`, `C16_take_wakes_partial` | Blocked producers of a bounded AsyncQueue make progress. false of the code for await; get_result_no_wait and async for wake the longest waiting producer |
| C17 | Queue | proved | `C17_never_exceeds`, `C17_set_result` | A bounded queue never exceeds its bound. both queue classes |
| C18 | Read | proved | `C18_reads_serve_stream`, `C18_segmentation_independent`, `C18_no_needless_wait` | Exact reads do not depend on how the network chunks the data. all segmentations and interleavings of data, end of stream and reads |
| C19 | Read | partial | `C19_loses_bytes_refuted`, `C19_overlap_refuted`, `C19_misses_delimiter_refuted`, `C19_read_until_partial` | read_until finds the delimiter wherever the chunk borders are. false as stated (three witnesses); true part: right stop position for every segmentation, exact data for segments at least as long as the delimiter |
| C20 | Frame | proved | `C20_written_frame`, `C20_round_trip`, `C20_fields` | Web socket frames survive the wire. lengths below 2^64 |
| C21 | Frame | proved | `C21_mask`, `C21_involution` | Web socket masking is an involution of the same length.  |
| C22 | Frame | proved | `C22_check`, `C22_read` | Invalid web socket frames are rejected.  |
| C23 | Chunk | proved | `C23_writer_output`, `C23_size_line`, `C23_round_trip` | Chunked transfer coding round-trips. without compressor |
| C24 | Chunk | partial | `C24_segmentation_refuted`, `C24_segmentation_partial`, `C24_exact_resume`, `C24_until_resume` | Chunked decoding does not depend on network segmentation. false: a cut between CR and LF of a later size line breaks decoding; every other segmentation proved |
| C25 | Head | proved | `C25_request_headers`, `C25_response_round_trip` | HTTP headers round-trip. Both directions: a head is written, cut at its first empty line, parsed; headers (as the list of assigned pairs), method, path, status and reason come back. |
| C26 | Dns | partial | `C26_terminates_refuted`, `C26_terminates_partial` | Parsing a DNS message terminates. False: a pointer to itself (or back to labels before it) makes the parser loop forever. Proved: it ends within length+1 steps per name if following labels and pointers has no cycle. |
| C27 | Dns | proved | `C27_query_round_trip` | DNS queries round-trip. Whole messages, with any number of questions and additional records, and the flags. |
| C28 | Ip | proved | `C28_round_trip`, `C28_accepted`, `C28_canonical` | IPv4 text form round-trips. All 32 bit addresses; exactly the canonical texts are accepted. |
| C29 | Ip | proved | `C29_round_trip`, `C29_written`, `C29_accepted`, `C29_bound` | IPv6 text form round-trips. All 128 bit addresses; the accepted texts (without a zone) are exactly those which denote the address in lower case. |
| C30 | Quote | partial | `C30_round_trip_refuted`, `C30_round_trip_partial` | Percent-encoding round-trips. False as stated: _base_16_char_to_int maps the digits 8 and 9 to 0 and 1, '+' is kept by quote and turned to a space by unquote. Proved for every string all of whose characters avoid these. |
| C31 | Quote | proved | `C31_output_safe`, `C31_decodes` | quote() output is always URL safe. Output is allowed characters and %XX escapes; RFC 3986 decoding gives the utf-8 octets back. |
| C32 | Url | proved | `C32_walk`, `C32_no_dots`, `C32_idempotent`, `C32_unchanged`, `C32_parsed` | URL path normalisation removes all dot segments. The result equals the stack walk for every list of segments; a trailing '.' stands for an empty name, a lone empty name left over is dropped. The path of every parsed url is normalised too (C32_parsed). |
| C33 | Url | partial | `C33_equal_refuted`, `C33_equal_partial` | Host comparison is an equivalence that separates hosts. False: hosts with different flags always compare equal (url_host_info.py:87-88 returns True). With equal flags, equal iff all parts are. |
| C34 | Multi | proved | `C34_history`, `C34_copy` | MultiValueDictionary is a map to non-empty duplicate free lists. All histories, any key and value type with decidable equality. |
| C35 | Multi | partial | `C35_history`, `C35_spelling`, `C35_contains_refuted`, `C35_contains_partial`, `C35_construct_refuted`, `C35_construct_partial` | Headers are looked up ignoring case. Proved for all operations which wrap the key. Refuted: 'key in d' looks up the plain string; the constructor of another dictionary loses values of keys that differ only in case. |
| C36 | Sorted | proved | `C36_history`, `C36_init` | SortedList stays sorted and finds its elements. All histories over any element type ordered up to ==; the iterables given to extend are not the list itself (see C79). |
| C37 | Pool | proved | `C37_exclusive` | A pooled connection is never used by two requests. All histories of connect/create/release/close/detach/drop/clean-up and transport events. |
| C38 | Pool | partial | `C38_connect_partial`, `C38_quiet_partial`, `C38_expires`, `C38_dead_refuted`, `C38_buffered_refuted` | An expired or dead pooled connection is never reused. Expired or failed connections are never reused, the first expiring usable one is taken, and one expires exactly the allowed time after its release; refuted for a connection the peer closed without error: connection_lost(None)/eof_received leave the transport set and should_close() false, so it is reused. |
| C39 | Pool | partial | `C39_no_leak_partial`, `C39_plain_refuted` | Connections dropped from the pool are closed. Holds for secure hosts while the loop runs; refuted for plain hosts: the clean-up drops an expired connection without closing it. |
| C40 | Executor | proved | `C40_once`, `C40_own_result`, `C40_stable`, `C40_skipped`, `C40_settled`, `C40_executed`, `C40_fresh` | run_in_executor runs each function at most once and delivers its result. Every interleaving of the event loop's thread and the worker threads at the granularity of queue accesses; execute on a claim made stale by release_executors is excluded (see C100_stale_refuted). |
| C41 | Executor | partial | `C41_free_idle_partial`, `C41_free_idle_refuted`, `C41_claim_refuted` | An idle worker is really idle. Refuted: cancelling a running function's future, or releasing a claim while its function runs, makes a busy thread free, and the next function waits behind it. Proved for histories without these two. |
| C42 | Trans | partial | `C42_order`, `C42_flushed`, `C42_progress`, `C42_eof`, `C42_wide_refuted` | Socket transport writes every byte once, in order. Proved for bytes-likes of one byte items over arbitrary histories of writes, socket answers, close, abort, eof, limits; refuted for a memoryview of wider items (len counts items, send counts bytes: the unsent rest is lost). |
| C43 | Trans | partial | `C43_flow`, `C43_resumes`, `C43_raise_refuted` | Write flow control alternates and follows the water marks. Alternation, the high mark bound, no pause without progress pending, resumption at the low mark; refuted that raising the marks resumes a paused protocol at once. |
| C44 | Payload | partial | `C44_order_partial`, `C44_complete_partial`, `C44_waits_partial`, `C44_first`, `C44_final`, `C44_woken`, `C44_callbacks`, `C44_two_refuted`, `C44_await_refuted`, `C44_lost_refuted` | A payload stream delivers the whole payload or one definite failure. Outcome finality, callbacks, and wake-ups hold without restriction; order, exactly-once and completeness hold while one consumer waits at a time and none is cancelled after its wake-up; refuted otherwise (duplicate chunk, empty second await, chunk lost though the next iteration ends normally). |
| C45 | Zip | proved | `C45_archive`, `C45_fields`, `C45_names` | Zip directory offsets point at the files. An independent strict zip64 reader reads every produced archive back; the deflate compressor is a parameter with an inverse, crc32 is written out. |
| C46 | Dedup | partial | `C46_unique_partial`, `C46_renumbered`, `C46_kept`, `C46_refuted`, `C46_newline_refuted` | Zip entry names are unique. Unique for names of one line without two adjacent numbers; refuted for 'a (1) (2)' twice followed by 'a (1)', and for names with newlines. |
| C47 | Cookie | partial | `C47_sent_partial`, `C47_shared_refuted`, `C47_keyerror_refuted` | Cookies are only sent to matching hosts and paths. Proved for every history of updates, requests and clears: what is sent comes from an earlier update and its host, path, scheme and lifetime allow it. Missing: cookies put in without a url and a domain skip the path and scheme checks (refuted), and a domain ending with a dot put in without a url makes every request raise KeyError (refuted). |
| C48 | Cookie | partial | `C48_session_partial`, `C48_refuted` | Resetting a cookie replaces its lifetime. False in general: setting a cookie again without a lifetime keeps the old expiration (refuted). Proved: a cookie whose name is never given a lifetime stays and is sent to its domain until the jar is cleared. |
| C49 | ContentType | proved | `C49_total`, `C49_round_trip` | Content type headers parse totally and faithfully. For every text; the round trip for every way of writing with white space, tokens and quoted values. |
| C50 | Event | proved | `C50_waiter_automaton`, `C50_woken_once`, `C50_no_pass_before_set`, `C50_set_leaves_no_waiter` | Events wake exactly the tasks that wait.  |
| C51 | Group | partial | `C51_tracked_partial`, `C51_moved`, `C51_done`, `C51_given`, `C51_lost_refuted`, `C51_once_refuted`, `C51_twice_refuted` | TaskGroup tracks each future exactly once. Futures added once, and no cancelled and_pop wait, are in exactly one place; a cancelled and_pop wait loses a future, two and_pop waits get the same one, and a future added twice comes back. |
| C52 | Rotation | proved | `C52_fair`, `C52_every_address` | Host rotation is fair. For every number of addresses and iterations. |
| C53 | Server | partial | `C53_woken_partial`, `C53_uncancelled`, `C53_refuted` | Server.wait_closed waiters are all woken. All waiters continue if none was cancelled; in general exactly the waiters after a cancelled one may be left waiting, and C53_refuted is a history in which one waits forever. |
| C54 | WeakDict | partial | `C54_weak`, `C54_hybrid`, `C54_iteration`, `C54_len_partial`, `C54_len_refuted`, `C54_len_low_refuted` | Weak value dictionaries never show a dead value. Lookups, pop, copy and iteration never show a dead value and miss no live one, for every interleaving with iterations and garbage collection. len() is right as long as no iteration was started; in general it is refuted: dead values noticed during an iteration are never removed, since the pending WeakHasher is compared by identity with the reference. |
| C55 | WeakDict | partial | `C55_pop_partial`, `C55_missing`, `C55_refuted` | pop with a default does not raise. pop(key, default) of a HybridValueDictionary raises TypeError exactly when the underlying dict has no such key; otherwise it is right. |
| C56 | Cycler | partial | `C56_order`, `C56_cancel_partial`, `C56_cancel_refuted` | Cycler keeps its order and stops when cancelled. Order proved for every history of functions which leave their cycler alone; silence after cancel proved if the functions do not cancel or reschedule their own cycler; false if a function does (refuted). |
| C57 | Ext | proved | `C57_extensions_round_trip`, `C57_subprotocols_round_trip`, `C57_extensions_grammar`, `C57_subprotocols_grammar`, `C57_upgrades_grammar`, `C57_subprotocols_only`, `C57_upgrades_only` | Web socket extension headers round-trip. Round trips, and every text of the list grammar (spaces, empty elements, quoted values) is parsed as the list it denotes. |
| C58 | Frame | partial | `C58_control_frames_refuted`, `C58_message_partial`, `C58_limit` | A fragmented web socket message is reassembled. false: control frames between fragments are held against the remaining message limit; proved when they fit; utf-8 decoding not modelled |
| C59 | Name | partial | `C59_names_refuted`, `C59_names_partial` | Host names survive label splitting. False: the single label '@' reads back as the root. Proved for ascii labels without 'xn--', for any idna codec which leaves those alone. |
| C60 | Shield | proved | `C60_isolated`, `C60_source`, `C60_follows`, `C60_delivered`, `C60_stable` | Shielding isolates the inner future. Any number and nesting of shields on a running event loop. |
| C61 | Queue | proved | `C61_lifo_once`, `C61_lifo_newest` | AsyncLifoQueue delivers every element once, newest first.  |
| C62 | Queue | partial | `C62_no_overwrite_refuted`, `C62_no_overwrite_partial` | A bounded AsyncQueue never throws an accepted element away. false of the code: a woken producer appends to a deque that was refilled meanwhile |
| C63 | Read | partial | `C63_cancelled_reader_skips_refuted` | Cancelling a read does not skip bytes that arrive later. false: the offset of the consumed chunk survives the cancellation |
| C64 | Read | partial | `C64_abandoned_read_blocks_refuted` | A connection stays readable after a read timed out. false: the abandoned payload reader stays installed |
| C65 | Chunk | partial | `C65_size_lines_refuted`, `C65_negative_size_refuted`, `C65_size_lines_partial` | Only well-formed chunk sizes are accepted. false: signs, 0x, blanks and underscores are accepted; hexadecimal lines proved to mean their number |
| C66 | Frame | partial | `C66_pong_refuted` | A pong answers its ping. false: misspelled method name, the matching pong raises AttributeError in the reader |
| C67 | Frame | partial | `C67_long_reason_refuted`, `C67_close_partial` | A close tells the peer code and reason. false for reasons over 123 bytes; proved otherwise |
| C68 | Quote | partial | `C68_query_refuted`, `C68_query_partial` | Query parameters round-trip. '=' in a key is not escaped, so the key is cut; proved for keys without '=' and octets without the digits 8 and 9. |
| C69 | Head | partial | `C69_framing_refuted`, `C69_framing_partial` | Response bodies are delimited as http requires. An answer with Connection: upgrade and a content length has its body skipped, as has a refused CONNECT; all other combinations are proved. |
| C70 | Head | partial | `C70_injection_refuted`, `C25_request_headers` | A header value cannot add headers. False: line breaks in values are not refused. Values of one line are carried as they are. |
| C71 | Head | partial | `C71_version_refuted`, `C71_request_partial` | Request lines round-trip. write_http_request writes the major version twice, so 1.0 is sent as 1.1; proved for versions with equal numbers. |
| C72 | Url | partial | `C72_path_refuted`, `C72_encoded_partial`, `C72_decoded_partial`, `C72_reparsed_partial` | URL path parts survive writing and parsing. False for parts with '/' (not escaped) and for an empty first part (dropped by the parser); proved for the rest, in encoded mode for the characters which survive quoting. What was parsed unencoded is found again after writing, unless its first part is empty. |
| C73 | Dns | partial | `C73_names_sound`, `C73_names_complete`, `C73_next_refuted` | Compressed DNS names are read as RFC 1035 says. Labels are always right; the place where parsing continues is right for names pointing to names wholly before them, false in general. |
| C74 | Dns | partial | `C74_pointer_refuted`, `C74_pointer_partial` | Pointer records give the name they hold. False: the data is parsed without the message, so a compressed name raises (None is unpacked). Proved for uncompressed names. |
| C75 | Name | partial | `C75_searches_refuted`, `C75_searches_partial` | Search domains are appended to short names. False: the domain is put before the name (helpers.py:571-573). Proved: the name itself comes last, and alone if it has enough dots. |
| C76 | Name | proved | `C76_addresses_ordered` | The sort list orders addresses stably. Stable sort by the position of the first matching entry. |
| C77 | Ip | partial | `C77_forms_refuted`, `C77_zone_refuted`, `C77_forms_partial` | Every text form of an IPv6 address is accepted. Refuted: upper case digits and '::%zone' are not accepted. Proved for lower case texts. |
| C78 | Multi | partial | `C78_ne_refuted`, `C78_ne_partial`, `C78_eq_hash` | Comparing strings ignoring case is consistent. Refuted: != is that of str, so strings differing in case are both == and !=. |
| C79 | Sorted | partial | `C79_extend_self_refuted`, `C79_extend_self_never`, `C79_extend_partial` | Extending a SortedList ends. Refuted: extending a non-empty list with itself never ends. Proved for other iterables. |
| C80 | Pool | partial | `C80_scheduled`, `C80_clean_up`, `C80_late_refuted` | Idle pooled connections are cleaned up in time. The clean-up is always scheduled and thorough; refuted that it is scheduled for the first expiring one: a release does not move an already scheduled clean-up earlier. |
| C81 | Pool | proved | `C81_performed`, `C81_max_requests` | A server's request limit per connection is kept. For all histories. |
| C82 | Drain | partial | `C82_single_partial`, `C82_failed`, `C82_final`, `C82_two_refuted`, `C82_lost_refuted`, `C82_reading_refuted` | drain waits exactly while writing is paused. Holds for one writing task while received data stays small; refuted for two waiting tasks (the waiter is overwritten and never woken), for drain after connection_lost while paused, and when reading is paused too (one flag serves both). |
| C83 | Drain | partial | `C83_reader_partial`, `C83_stuck_refuted`, `C83_unbounded_refuted` | Reading is paused by too much data and resumed by a waiting reader. Holds while writing is never paused; refuted otherwise: resume_writing clears the shared flag so paused reading is never resumed, and no amount of data pauses reading while writing is paused. |
| C84 | Zip | partial | `C84_limits_partial`, `C84_refuted` | Number of files in a zip archive. Below 65536 files; refuted from 65536 files on: the count of the end record is packed into 16 bits and struct.error is raised at the end of the stream. |
| C85 | Zip | partial | `C85_date_partial`, `C85_time`, `C85_refuted` | Modification dates in zip archives. Years 1980 to 2107; refuted for earlier ones, which wrap around. |
| C86 | Cookie | partial | `C86_refuted` | A cookie set again with a Domain attribute reaches subdomains. False: once host-only, a name stays host-only for its domain. |
| C87 | Cookie | partial | `C87_refuted` | An Expires date in the past removes a cookie. False for every date and every uptime smaller than the date: wall clock dates are compared with the monotonic clock of the loop. |
| C88 | Cookie | partial | `C88_expired`, `C88_refuted` | A cookie is not sent after its Max-Age is over. Proved up to one second, for every history; exact expiration is refuted by a witness (the next check is rounded up to a whole second). |
| C89 | Cookie | partial | `C89_refuted` | Cookies of different paths are kept apart. False: cookies are keyed by domain and name only. |
| C90 | CookieDate | proved | `C90_formats` | Cookie dates are understood in the formats of HTTP. All four formats, all dates. |
| C91 | CookieDate | partial | `C91_outcome_partial`, `C91_refuted` | A malformed Expires date is ignored. Proved: what is returned is a real date, and only a day which the month lacks raises. False in general: 31 Feb raises ValueError, which leaves update_cookies. |
| C92 | CookieDate | partial | `C92_year_first_refuted`, `C92_long_month_refuted` | Cookie dates follow the algorithm of RFC 6265. False: a four digit year in front is taken as the day, and June is no month. |
| C93 | ContentType | proved | `C93_error` | A content type parsing error points at the fault. For every text. |
| C94 | Cycler | partial | `C94_one_timer_partial`, `C94_cancel_refuted`, `C94_twice_refuted` | A cycler has at most one timer. Proved if the functions do not cancel or reschedule their cycler; false otherwise (refuted). |
| C95 | Cycler | partial | `C56_order`, `C95_skip_refuted`, `C95_endless_refuted` | Every registered function is called once per cycle. False: a function which removes itself makes the next one be skipped, one which appends a more urgent one makes the cycle endless. Without such functions it is C56_order. |
| C96 | Server | partial | `C96_not_early_partial`, `C96_refuted` | wait_closed returns only when nothing is connected. A task which waits continues only after the server was finished; a call after close() returns at once although connections are open (refuted). |
| C97 | Group | partial | `C97_not_missed`, `C97_not_early`, `C97_count_refuted` | Waits on a task group end exactly when what they wait for happens. All kinds of waits; wait_first_n of more futures than there are never ends (refuted). |
| C98 | Group | partial | `C97_not_missed`, `C97_not_early`, `C98_next_refuted`, `C98_pending_refuted` | wait_next gives the next future which completes. Refuted: wait_next gives None, and also ends for a done future which is added. The waiting itself is C97_not_missed and C97_not_early. |
| C99 | Shield | proved | `C99_no_leak`, `C99_callbacks` | Shields leave the inner future's callbacks alone. Any number and nesting of shields on a running event loop. |
| C100 | Executor | partial | `C100_ordered`, `C100_refused`, `C100_release_refuted`, `C100_stale_refuted` | A claimed executor runs its functions in order until it is released. Order and refusal proved for all histories. Refuted: release with functions waiting raises AttributeError; execute after release_executors takes a function which never runs. |
| C101 | Timeout | partial | `C101_in_time`, `C101_late`, `C101_cancel_only`, `C101_cancel_once`, `C101_prompt`, `C101_enter`, `C101_cancelled`, `C101_late_normal`, `C101_normal_exit_refuted` | A request timeout cancels exactly the block it guards. All of it but one case: a body which finishes normally after the timeout makes the block raise TypeError (refuted). |
| C102 | Timeout | partial | `C102_never_early`, `C102_prompt`, `C102_outcome`, `C102_once`, `C102_each_iteration_refuted` | repeat_timeout limits each iteration. Holds up to the first timeout in the block; refuted for iterations after one which timed out and whose body went on. The clock is assumed not to be 0 (the code takes 0.0 for no iteration). |
| C103 | Timeout | proved | `C103_sleep_not_early`, `C103_timeout_not_early`, `C103_sleep_wakes`, `C103_times_out`, `C103_stable`, `C103_released`, `C103_apply_reply` | Sleeping and future timeouts are neither early nor lost. Futures; what apply_timeout does to a task is C06. |
| C104 | Redirect | partial | `C104_bounded`, `C104_next`, `C104_follows_partial`, `C104_too_many`, `C104_returned`, `C104_limit_refuted`, `C104_308_refuted`, `C104_relative_refuted`, `C104_history_refuted` | Redirects are followed up to the limit and as RFC 9110 says. Proved: the bound, where each next request goes and with which method and body, and that fewer than 'redirects' redirects to whole urls are followed (unless building a request is a ValueError). Refuted: a chain of exactly 'redirects' redirects is an error; 308 is not followed; a redirect to a relative reference is refused as a foreign scheme; a redirect without a target is in its own history. |
| C105 | Redirect | partial | `C105_confined_partial`, `C105_sent`, `C105_request2_refuted`, `C105_request_refuted` | Credentials stay with the origin they were given for. Confinement is proved for _request only, with at most one Authorization header given and no credentials in any url; credentials in an url alone are not covered. C105_sent: credentials do arrive. Refuted for _request2, and for _request with a header and credentials in the url. |
| C106 | Redirect | partial | `C106_host_partial`, `C106_host_refuted` | The Host header names the host the request goes to. Every request has the given Host headers, otherwise the one of the first url; so it is right only while redirects stay on that host and port. Refuted after a redirect to another host. |
| C107 | Redirect | partial | `C107_cookies_partial`, `C107_given`, `C107_leak_refuted` | Cookies go only to the urls they are for. With at most one Cookie header given: the cookies for the url are sent (if the jar gives each name once), the given ones are sent, and all sent ones are from the header or from the jar for this or an earlier url. Refuted: cookies of earlier hosts are sent along. |
| C108 | Redirect | partial | `C108_framed`, `C108_announced_partial`, `C108_no_body_partial`, `C108_transfer_refuted` | The headers describe the body that is sent. C108_framed covers requests with a body for any headers. That chunks are announced exactly when sent, and no leftover headers: only if Transfer-Encoding is absent or 'chunked' (and the others given at most once); refuted for another Transfer-Encoding. Compression is not modelled beyond being sent chunked. |
| C109 | UrlOps | partial | `C109_read_partial`, `C109_read_refuted` | A written url reads back as its components. Proved for urls with a scheme and a host whose text has no delimiters, parts given encoded without delimiters, and strings utf-8 can carry; query items up to order, and unambiguous only for keys without '=' (C68). Refuted: with a host but no scheme the slashes are not written, so the host reads as a path. |
| C110 | UrlOps | partial | `C110_join_partial`, `C110_path`, `C110_authority`, `C110_join_refuted` | Joining resolves a reference against a base. Agrees with the RFC for a base without a path and a reference with a path but no scheme and no authority. C110_path and C110_authority say what is joined for all normalised paths. Refuted: a path is appended, an empty reference drops the query, an absolute reference loses its scheme and host. |
| C111 | UrlOps | partial | `C111_name_partial`, `C111_parent_partial`, `C111_with_name_partial`, `C111_name_refuted` | Appending, parent and name fit together. Proved for urls with normalised paths and names which are no dot segments (names with '/' included, which then are one part but several segments when written); the parent is compared without the query but with the fragment. Refuted: 'a/' / 'b' writes 'a//b'; 'x/../y' stays in the text; parent keeps the fragment, with_name keeps query and fragment, against their documentation. |
| C112 | UrlOps | partial | `C112_last`, `C112_relative`, `C112_text_refuted` | with_... methods replace their component and nothing else. Proved at the level of the decoded components, for urls whose encoded parts can be decoded. Refuted at the level of the text: with_user rewrites an encoded password wrongly (decoding fault of C30). |
| C113 | UrlOps | partial | `C113_with_query`, `C113_extend_query`, `C113_query_refuted` | Query values given are the query values written. Proved: the values of each key are the distinct given ones, in order of first appearance (except an empty value of an empty key), and the error is that of the first value which can not be written. Refuted: a repeated value is lost; a key which is no string is accepted and the url can not be written afterwards. A query given as a string is C68. |
| C114 | UrlOps | partial | `C114_equal`, `C114_hash`, `C114_order`, `C114_components_partial`, `C114_truth_refuted` | Urls compare consistently. Equivalence, hash and total order proved for all urls which can be written. Equal components: scheme, host text and port, for urls with scheme and host. Refuted: URL('/') equals URL('') but differs in truth value. |
| C115 | Ws | proved | `C115_one_close` | A web socket writes at most one close frame. All interleavings of the writers, which share the lock of LockModel.v with one slot; frames are labels. |
| C116 | Ws | partial | `C116_nothing_after_refuted`, `C116_after_close_partial`, `C116_refused` | Nothing is written after the close frame. False for the close frame of fail_connection: a message waiting for the lock is written after it. Proved for the close frame of close and of the answer to the peer, and that send is refused once any close frame was written. |
| C117 | Ws | proved | `C117_order`, `C117_frames`, `C117_written` | Frames are written in the order of the calls. All interleavings. The frame of a call is written whole: how it is encoded is C20-C22. |
| C118 | Ws | partial | `C118_close_refuted`, `C118_close_partial` | close() closes the connection. False for a client without ssl after a complete closing handshake: only a broken connection closes it. Proved for servers, for ssl and when no close frame was read. The ssl transport is taken to close like the socket transport. |
| C119 | Ws | partial | `C119_abort_refuted`, `C119_never_aborted_refuted` | A peer which takes nothing anymore cannot keep a connection. False: wait_for_connection_lost tests the wrong way around, the transport is never aborted. |
| C120 | Ws | partial | `C120_delivered_refuted`, `C120_delivered_partial`, `C120_exception_last_partial` | Received messages are delivered once, in order, before the end. False with a limit for the queue: messages are dropped silently. Proved without a limit for one receiver at a time which is not cancelled. |
| C121 | Ws | partial | `C121_codes_refuted`, `C121_codes_partial` | send and receive agree on why the connection was closed. False after a failure: receive tells 1002, send 0 and later 1006. Proved when the close frame of the peer ended the connection. |
| C122 | Ws | partial | `C122_cancelled_send_refuted`, `C122_progress_partial` | A cancelled send does not block the other writers. False: after one cancellation nothing is ever written again. Proved without cancellations: one of the calls in progress can go on. |
| C123 | Handshake | partial | `C123_upgrade_refuted`, `C123_method_refuted`, `C123_accepts_partial`, `C123_complete` | A web socket server opens a connection exactly for a request to open one. Completeness is proved. Soundness is false: a request with 'Upgrade: h2c', and a POST of HTTP/1.0, are opened. What an opened request does have is proved (C123_accepts_partial). |
| C124 | Handshake | partial | `C124_missing_refuted`, `C124_malformed_refuted`, `C124_key_refuted`, `C124_status_partial` | A refused opening request is answered with the status which names the fault. Without an Upgrade header, and with a malformed Connection header, the answer is 500. For well formed lists with at least one protocol and without extensions, the answer is proved to be 426, 400 or the opened connection under exactly the stated conditions. |
| C125 | Handshake | partial | `C125_origin_refuted`, `C125_ignored` | A web socket server with allowed origins refuses the others. False: a foreign origin is accepted, and neither the allowed origins nor the Origin header have any influence (without a request processor). |
| C126 | Handshake | partial | `C126_negotiated_refuted`, `C126_declined_refuted`, `C126_never` | Extensions are agreed on or declined. False: an extension both sides know ends in 500, an unknown one in 400. No opened connection of a server has an extension. |
| C127 | Handshake | partial | `C127_selected`, `C127_none`, `C127_determined_refuted`, `C127_selector` | The selected sub-protocol is a common one of best combined preference. Proved but for the last part: with equal sums the iteration order of the set decides. |
| C128 | Handshake | partial | `C128_shutdown_refuted`, `C128_early_refuted`, `C128_never_complete` | An early answer of a web socket server reaches the client. False: nothing is sent at shutdown, and no early response is ever sent as a whole. That the connection is not opened is proved. |
| C129 | Handshake | partial | `C129_upgrade_refuted`, `C129_error_refuted`, `C129_accepts_partial` | A web socket client connects only to a server which has answered its own request. False for the Upgrade header, and a missing one is an IndexError. The other conditions are proved. |
| C130 | Handshake | proved | `C130_connect` | A client and a server of the library connect and agree. sha1 and base64 are arbitrary functions with decode (encode raw) = raw; how the headers travel over the socket is not part of it; at most one side has extensions; no request processor, no selector; additional headers are none of those of the handshake. |
| C131 | Auth | partial | `C131_round_trip_refuted`, `C131_round_trip_partial`, `C131_latin1`, `C131_header` | Credentials survive the way through a header. Refuted for a line feed in the password (or user). Without line feeds proved for every undoable encoding which leaves ascii as it is, latin1 is shown to be one; utf-8 is not modelled. The header is always one line of printable ascii, its token is base64 of the encoded text. |
| C132 | Auth | partial | `C132_method_refuted`, `C132_token_refuted`, `C132_read_only`, `C132_reads` | Only basic credentials are read from a header. Refuted: the long s is accepted in the method, and tokens with characters outside of the alphabet are accepted. Proved: what is read comes from a method which casefolds to basic and a token which decodes to it, the user has no ':'; and every proper header (any case, valid base64, no line feed) is read. |
| C133 | Auth | partial | `C133_password_refuted`, `C133_colon_refuted`, `C133_web_socket_refuted`, `C133_http_partial`, `C133_only`, `C133_not_dropped` | The credentials of a url are sent. Refuted for web sockets (always raises), for urls with a password only, and for users with ':'. Proved for http with a latin1 user without ':' and line feeds; a header sent always carries the user and password of the url. Credentials with a user are never left out silently. |
| C134 | Message | partial | `C134_two_fields_refuted`, `C134_substring_refuted`, `C134_length_refuted`, `C134_two_lengths_refuted`, `C134_superscript_refuted`, `C134_framing_partial`, `C134_bad_length` | A response ends where its headers say. Refuted for transfer codings in two fields, codings whose name contains chunked, other transfer codings with a content length, two different content lengths, and a superscript digit. Proved for at most one ascii field of each, ending with chunked, and no Upgrade field; ascii lengths which are no numbers are refused. |
| C135 | Message | partial | `C135_until_eof_refuted`, `C135_two_fields_refuted`, `C135_decoded_partial`, `C135_known` | A body is decoded by its content coding. Refuted for bodies which last until the connection is closed (never decoded), and for codings in two fields. Proved for chunked bodies and bodies with a length with at most one Content-Encoding field; unknown codings never give data then. The decompressors themselves are not modelled. A known coding is never refused. |
| C136 | Message | partial | `C136_old_refuted`, `C136_second_refuted`, `C136_substring_refuted`, `C136_persistent_partial`, `C136_close` | A connection is reused only when the peer keeps it open. Refuted for HTTP/1.0 with another option, for close in a second field, for options which contain close. Proved for one ascii field in which close only occurs as an option (for HTTP/1.0 with close or keep-alive), or none. |
| C137 | Message | partial | `C137_reads`, `C137_hidden_refuted`, `C137_round_trip_partial`, `C137_round_trip_refuted` | Keep-alive information is read and written. Reading every comma separated list of name=value parameters is proved; a parameter without a value hides the next one. The round trip is proved for timeouts which survive being written without a fraction, and refuted for others. int, float and format are arbitrary functions. White space of the header is space and tab. |
| C138 | Message | partial | `C138_request_refuted`, `C138_upgraded` | The body of a request is read as its headers say. False for every request which is not upgraded and whose length is proper: an AttributeError is raised. Upgraded requests without a length are covered. The library itself only asks for the readers of responses. |
| C139 | Io | proved | `C139_runs_live`, `C139_skips_dead`, `C139_report`, `C139_order` | A reader or writer is called exactly for the reports made while it is registered. For every history of calls, reports and turns, with arbitrary interleaving. A callback taken from the queue runs exactly if it is registered and not cancelled by then (runs_live, skips_dead); a poll queues exactly the live callbacks of the reported sides, reader first (report, for reports in which a descriptor occurs once, as selectors give them); the queue is first in first out and serves each entry once (order). Who is registered is computed from the calls alone. |
| C140 | Io | proved | `C140_tells`, `C140_fresh`, `C140_never_again` | Readers and writers are registered per side of a descriptor. tells holds for the calls made by the user, by the loop and by the socket operations; the registration is computed from the calls on the same side of the same descriptor alone, so it says also that the sides and descriptors are independent. Not modelled: closing of sockets and reuse of descriptors, a loop which is not running. |
| C141 | Io | proved | `C141_quiet`, `C141_nothing_left`, `C141_own` | A socket operation which ended does nothing more. For socket_receive and socket_send_all; socket_accept and socket_receive_into have the same shape, they are not modelled separately. nothing_left speaks of states in which the queue of callbacks is empty. own says as well that the loop removes only what the user cancelled. |
| C142 | Io | proved | `C142_sends`, `C142_refused` | socket_send_all gives the socket exactly its data. For views whose items are single bytes (bytes, bytearray, memoryview of them), see C143 for others. Sequences of partial sends, refusals, errors, cancellations and other operations are arbitrary. |
| C143 | Io | partial | `C143_truncated_refuted`, `C143_hangs_refuted`, `C142_sends` | socket_send_all sends any bytes-like object. False: the number of bytes sent is compared with the number of items of the view. With items of two bytes the call can return after a part was sent; with items of four bytes it never returns though all was sent, for every continuation. True for items of one byte (C142). |
| C144 | Io | partial | `C144_both_refuted`, `C144_receives`, `C144_superseded`, `C144_immediate` | Receives which wait on one socket all end when data arrives. False for two receives on one socket: the second one replaces the reader of the first one, which then ends only by cancellation, for every continuation. superseded says the same for every operation whose callback was replaced or removed; receives: a waiting receive whose callback is registered ends with the data when its callback runs and the socket has data. |
| C145 | Io | proved | `C145_tasks`, `C145_bound`, `C145_all`, `C145_raises` | Every accepted connection is served. Of one call of the accept callback. Not modelled: that setblocking of the new connection fails, and what the task does. |
| C146 | Io | partial | `C146_pause_refuted`, `C146_restarts`, `C146_restarts_refuted` | Accepting pauses when resources are exhausted. False: after the failure the loop goes on, so it accepts again at once and schedules a restart for every failure; with n failures n restarts (restarts). |
| C147 | Dispo | partial | `C147_injection_refuted`, `C147_lines_refuted`, `C147_token_refuted`, `C147_says_partial`, `C147_one_line`, `C147_refuses` | A content disposition header says exactly what it was built from. Refuted: a non ascii value with a semicolon adds parameters; without quote_fields any text without quotes and backslashes, line ends included, gets into the header; tabs and commas are let through in names. Proved with quote_fields: always one line; for tokens as names and values which are ascii (without using all 96 ascii characters at once) or free of '()*,;= an independent reader gets what was given. |
| C148 | Dispo | partial | `C148_built_refuted`, `C148_quoted_refuted`, `C148_extended_refuted`, `C148_raw_partial` | Content disposition headers which are built can be parsed. Refuted: every header whose first parameter is quoted gives nothing, so what is built is not read back; extended values come out with letters escaped. Proved for parameters which are not quoted, with lower case names. |
| C149 | Dispo | partial | `C149_eleven_refuted`, `C149_apostrophe_refuted`, `C149_name_refuted`, `C149_joined_partial` | A file name which comes in pieces is put together. Refuted for more than ten pieces, for names with one apostrophe (raises), and for other names than filename. Proved for up to ten pieces without apostrophes. |
| C150 | Part | partial | `C150_size_partial`, `C150_known`, `C150_text_refuted`, `C150_view_refuted`, `C150_nested_refuted` | The size a multipart body announces is the number of bytes it writes. Proved for all boundaries and lists of parts whose payloads write as many bytes as they say. Refuted for files open as text (line ends are translated), for memoryviews whose items are not one byte, and for a nested writer which gets a part after it was appended. |
| C151 | Part | partial | `C151_parts_partial`, `C151_boundary`, `C151_header_refuted`, `C151_content_refuted`, `C151_boundary_refuted` | A multipart body can be taken apart again. Proved for parts without encodings, whose headers are one line each, and in which the delimiter does not occur; every boundary of the RFC is accepted. Refuted for header values with line ends, for contents with the delimiter of a given boundary, and boundaries which the RFC does not allow are accepted. |
| C152 | Part | partial | `C152_type_partial`, `C152_type_refuted`, `C152_length_refuted` | A part has one content type and one content length. Proved that there is one Content-Type when the given headers have none. Refuted when they have one (both are sent), and for Content-Length. |
| C153 | Part | partial | `C153_chunks`, `C153_base64`, `C153_lines_refuted` | Base64 parts do not depend on how the content was cut. Proved: independent of the chunks, and the base64 text of what is written without the transfer encoding, for all compressors. Refuted: the text is not cut into lines of at most 76 characters. |
| C154 | Part | partial | `C154_form_partial`, `C154_kind`, `C154_number_refuted`, `C154_charset_refuted` | The fields of a form arrive as they were added. Proved for fields with no transfer encoding or with base64, when the headers are one line each and the delimiter does not occur; encoding utf-8. kind: when every field is a plain text or number the names and values go to the url encoder in their order, otherwise a multipart body is made or an error is raised. Refuted: a number and a file can not be in the same form, and the charset of a given content type is ignored. Quoted-printable and the url encoding itself (urllib) are not covered. |
| C155 | WeakSet | partial | `C155_set_partial`, `C155_determined` | A weak set behaves as a set from which dying objects disappear. Every history of operations whose in-place differences are with another set gives the results of plain sets with vanishing objects; what the sets have is determined by that. Missing: in-place -= and ^= of a set with itself, see C158; the result of len, see C156; comparisons while one of the sets is iterated, see C157. |
| C156 | WeakSet | partial | `C156_len_partial`, `C156_xor_refuted`, `C156_negative_refuted`, `C156_pop_refuted` | The length of a weak set is the number of its live elements. Right if nothing is popped from a set which is iterated and no set is changed by -= or ^= with another one which is iterated. False otherwise: ^= with an iterated set enters its dead references among the pending removals, the length is too small or negative (ValueError); pop in an iteration leaves dropped references pending. For -= with an iterated set nothing is claimed. |
| C157 | WeakSet | partial | `C157_compare_partial`, `C157_iterated_refuted` | Comparisons of weak sets compare their live elements. Right if neither set is iterated; false while one is iterated and an element has died. |
| C158 | WeakSet | partial | `C158_sub_self`, `C158_self_refuted` | A weak set may be changed by itself. False for non-empty sets: RuntimeError after the removal of one element. C158_sub_self says exactly when -= fails, for sets which are not iterated. |
| C159 | WeakSet | partial | `C159_copy_partial`, `C159_copy_refuted` | A copy of a weak set can be made while its elements die. True while no element of the set dies within the copy and the set is not iterated; false if one dies, which gives a RuntimeError. |
| C160 | Wrap | proved | `C160_returned` | A thread which waits for a future gets a result only when there is one. For every interleaving, also of the finest grain. Exceptions which interrupt the waiting and propagate_cancellation are not modelled. |
| C161 | Wrap | partial | `C161_settled_partial`, `C161_wakes_partial`, `C161_add_refuted`, `C161_timeouts_refuted` | A thread which waits for a future goes on when the future is done. True if a test and what is done because of it are not torn apart (coarse), as in CPython with its global lock from 3.10. False for finer interleavings, which older and other interpreters have: a completion between the test of the state and the addition of the callback, or two timeouts at once, leave a thread waiting for ever. |
| C162 | Wrap | partial | `C162_timeout_partial`, `C162_complete_partial`, `C162_index_refuted`, `C162_complete_refuted` | Waiting with a timeout ends with the result or with a timeout. True for a timeout which is not disturbed. False otherwise: a completion while remove_done_callback walks over the list gives an IndexError out of wait(), also in coarse interleavings; in finer ones the completion itself fails with an IndexError. |
| C163 | Suspend | partial | `C163_suspended_partial`, `C163_one_partial`, `C163_resumes`, `C163_again_refuted`, `C163_started_refuted`, `C163_stopped_refuted` | An event loop stands still while another thread suspends it. True if each suspender is used once and is entered while the loop is running. False if it is used again (its events stay set), or if the loop is started within the block; a loop which stops first leaves the thread waiting. |
| C164 | Dgram | partial | `C164_order`, `C164_all_partial`, `C164_reported_partial`, `C164_flushed_partial`, `C164_empty_refuted`, `C164_writelines_refuted`, `C164_no_address_refuted` | Datagrams go out whole, in order, once, to where they should. Order, at most once and the address for every history. Nothing is left out when the socket never refuses; refusals (OSError) are counted by error_received when there is no other exception, close or abort; closing flushes when the socket then takes all. Refuted: empty datagrams are dropped silently, writelines throws everything away, and a send_to without an address on an unconnected socket closes the transport and drops the datagrams of others. Pausing of the protocol is not modelled. |
| C165 | Dgram | partial | `C165_once`, `C165_silent`, `C165_closed_refuted` | A lost datagram transport is silent. For every history connection_lost is called at most once and nothing is sent after it. Refuted: after a close with something waiting, send_to on the lost transport writes an exception (the socket is gone) instead of doing nothing. |
| C166 | Dgram | proved | `C166_separate` | Each address has its own reader. For every sequence of events the reader of an address has been given exactly what this address has sent, in order. |
| C167 | Dgram | partial | `C167_pair`, `C167_kind`, `C167_at_once`, `C167_at_once_any`, `C167_waits`, `C167_next_partial`, `C167_address_refuted`, `C167_lost_refuted` | Waiting for the first datagram of an address. Calls without an address return what comes next; calls return at once, with the right reader, when something came before. Refuted: a waiting call for an address returns the reader of whichever address sends next (the address is overwritten and compared with itself); calls which wait when the connection is lost wait for ever. next_partial is about calls without an address only. |
| C168 | Switch | partial | `C168_block`, `C168_rest_partial`, `C168_all_partial`, `C168_cancelled_refuted` | The block is done in the executor, what follows in the loop. The block is in the executor for every interleaving, cancelled or not. What follows is in the loop, and all of it is done, when the task is not cancelled. Refuted: cancelled while the block works, what follows the block is done in the executor's thread. The block and the rest raise nothing of their own and the rest does not await. |
| C169 | Switch | partial | `C169_awaiting_partial`, `C169_working_refuted`, `C169_entering_refuted`, `C169_awaited_refuted` | A task cancelled in the executor ends, and who waits for it is woken. Proved for one cancellation while the block awaits a pending future, with any interleaving before and after. Refuted for three other moments: while the block works (the task is done but its callbacks are never scheduled), before a thread has begun with the task, and while the block works after an await (the task is never done). |
| C170 | Response | partial | `C170_response_partial`, `C170_request_partial`, `C170_close_partial`, `C170_cancelled_refuted`, `C170_early_refuted` | A connection is kept for another request only after both bodies were transferred. Proved: without cancelled reads a kept connection had its whole response received; a request sent whole before the rest stays so; without cancelled reads before it, closing a response which has its connection closes the connection. False when a reading task is cancelled (the connection is kept in the middle of the body), and when the response ends before the request was sent (the writer is stopped, the connection kept). |
| C171 | Response | partial | `C171_at_once_partial`, `C171_streamed_refuted` | A connection which can be used again is kept. Proved for responses without a body and for bodies which come together with the head. False for every body whose end comes later: the connection is always closed. |
| C172 | Response | partial | `C172_one_partial`, `C172_again`, `C172_concurrent_refuted`, `C172_failed_refuted` | Reading a response gives the whole body, each time. Proved: with one reading task and no cancellation each body given is all that was received, and the response is complete; once a body is stored each read gives it. False when two tasks read at once (the second and all later reads give an empty body), and after a failed read (the next gives None). |

## Findings

Each refuted theorem is a concrete history or input, evaluated by the kernel, on which the modelled code does not do
what the property says:

* `C06_cancel_with_reaches_refuted`: C06, false: `cancel_with` returned true on a pending task, yet the coroutine goes on as if nothing happened and the task ends with its ordinary result.
* `C09_busy_callback_starves_refuted`: C09 is false: with a callback that calls `call_soon` for itself, a timer of deadline 5 stays scheduled for ever; after any number of turns the loop has not read the clock or polled the selector again.
* `C12_cancel_before_release_leaks_refuted`
* `C12_cancel_never_leaks_refuted`: C12 is false: after the two short histories below no call is in progress and nobody holds the lock, but no later call of `acquire` ever returns, whatever happens next.
* `C14_cancellation_spreads_refuted`: C14, false: cancelling one of them makes the other one raise CancelledError too.
* `C14_several_consumers_refuted`: C14, false: two tasks that wait on the same queue get the same element.
* `C15_cancel_loses_element_refuted`: C15, false: the element put after a waiting consumer was cancelled is accepted and lost.
* `C15_later_consumer_raises_refuted`: C15, false: until then every later consumer raises CancelledError although nobody cancelled it.
* `C16_blocked_consumer_refuted`: C16, false: a woken producer stores its element although a consumer waits, which is not woken.
* `C16_blocked_producer_refuted`: C16, false: a producer blocked on a full queue is not woken by `await queue`; with the only consumer waiting again, the queue is empty and nothing can ever run.
* `C19_loses_bytes_refuted`: C19, false: bytes held back for a possible delimiter are dropped when the match dies in a short segment.
* `C19_misses_delimiter_refuted`: C19, false: a delimiter over a segment border is missed when the first segment is already partly read, and the next delimiter is taken instead.
* `C19_overlap_refuted`: C19, false: a delimiter that overlaps itself and ends exactly at a segment border swallows a byte in front of it.
* `C24_segmentation_refuted`: C24. The same message in another segmentation is rejected: a segment border between CR and LF of the second size line.
* `C26_terminates_refuted`: A name which points at itself: 14 bytes keep the parser busy forever.
* `C30_round_trip_refuted`: C30 does not hold: a character is changed by the round trip, in each mode.
* `C33_equal_refuted`: Hosts of different kinds compare equal.
* `C35_construct_refuted`: Made of a MultiValueDictionary with 'A' and 'a' only the values of one of them stay.
* `C35_contains_refuted`: `key in d` looks the plain string up.
* `C38_buffered_refuted`: ... and one which ended after sending data nobody asked for.
* `C38_dead_refuted`: False: a connection which the other side closed is given to a request.
* `C39_plain_refuted`: False for the others: one which expired is dropped by the clean-up, yet stays open.
* `C41_claim_refuted`: So does the release of a claim, without any cancellation.
* `C41_free_idle_refuted`: A future is cancelled while its function runs: the next function waits behind it, on a "free" thread.
* `C42_wide_refuted`: False for a memoryview of items wider than a byte: what the socket did not take is lost.
* `C43_raise_refuted`: False: that no protocol is paused below the low mark. Raising the marks resumes nothing by itself.
* `C44_await_refuted`: False when the stream is awaited by two: the second gets nothing, as if the payload was empty.
* `C44_lost_refuted`: False when a consumer is cancelled after it was woken: the next one ends without an exception, and without the chunk.
* `C44_two_refuted`: False with two iterations at once: both get the same chunk.
* `C46_newline_refuted`: Names with newlines are not parsed: the number given to the second is the third's.
* `C46_refuted`: `"a (1) (2)"` twice and `"a (1)"`: the second is numbered 0, which is `"a (1)"`.
* `C47_keyerror_refuted`: After a cookie with a domain which ends with a dot was put into a jar without a url, every request fails.
* `C47_shared_refuted`: A secure cookie for one path, which is put into a jar without a url, is sent to every host, every path, in plain text.
* `C48_refuted`: A cookie which is set for five seconds, and then again without a lifetime, is gone after ten.
* `C51_lost_refuted`: The future finishes while a wait_first_and_pop waits, which is cancelled before the callback runs: the future is in neither set and nobody got it.
* `C51_once_refuted`: Two waiters of wait_first_and_pop both get the future.
* `C51_twice_refuted`: A pending future added twice comes back after it was given away.
* `C53_refuted`: In general they do not: the waiters after a cancelled one are left waiting, whatever happens later.
* `C54_len_low_refuted`: And during an iteration `len` may miss keys which were set again, or raise ValueError.
* `C54_len_refuted`: In general it is not: a value which dies during an iteration is counted forever after the iteration ended, although no iteration gives its key.
* `C55_refuted`
* `C56_cancel_refuted`: A function which cancels its cycler is called again.
* `C58_control_frames_refuted`: C58. A ping between the fragments is held against what is left of the limit of the message: the message of 10 bytes is within the limit of 10 and every frame is valid, but the message is rejected.
* `C59_names_refuted`: The single label '@' is taken for the root.
* `C62_no_overwrite_refuted`: C62, false: a producer that was woken and reports success pushes an accepted element out of a bounded queue.
* `C63_cancelled_reader_skips_refuted`: C63, false: after a read is cancelled, bytes that arrive later are skipped.
* `C64_abandoned_read_blocks_refuted`: C64, false: after the task that awaits a read is cancelled (a timeout) the next read fails with an AssertionError, and the bytes that arrive go to the abandoned read.
* `C65_negative_size_refuted`: C65. Even a negative size is not rejected as malformed.
* `C65_size_lines_refuted`: C65. Size lines that are no hexadecimal numbers are taken: a sign, 0x, blanks, underscores.
* `C66_pong_refuted`: C66. The pong that answers an outstanding ping breaks the connection instead of finishing the ping.
* `C67_long_reason_refuted`: C67. A close reason of more than 123 bytes is sent, but the other side rejects the frame and does not see the code.
* `C68_query_refuted`: A key with '=' is cut at it when the query is parsed back.
* `C69_framing_refuted`: An answer which asks for an upgrade loses its body, and so does the answer for a refused CONNECT.
* `C70_injection_refuted`: A header value can bring another header along.
* `C71_version_refuted`: The version is not written as given.
* `C72_path_refuted`: A part with a '/' comes back as two; an empty first part is lost.
* `C73_next_refuted`: If the name pointed at reaches over the pointer, parsing goes on at a wrong place.
* `C74_pointer_refuted`: The data of a pointer record is a name of the message; a compressed one makes its parsing raise.
* `C75_searches_refuted`: The searched domain is put before the name, not after it.
* `C77_forms_refuted`: C77
* `C77_zone_refuted`: The address with a zone, but "::%zone".
* `C78_ne_refuted`: C78: `!=` is not the opposite of `==`
* `C79_extend_self_refuted`: C79: extending a list with itself does not end.
* `C80_late_refuted`: False: that the clean-up always comes when the first one expires.
* `C82_lost_refuted`: False after `connection_lost`: a task which then calls `drain` waits for ever.
* `C82_reading_refuted`: False when reading is paused too: `drain` waits though writing is not paused, and returns though it is.
* `C82_two_refuted`: False with two tasks: the one which waited first is never woken, whatever happens.
* `C83_stuck_refuted`: False otherwise: reading stays paused whatever the reader does, until writing is paused again.
* `C83_unbounded_refuted`: ... and however much arrives while writing is paused, reading is not.
* `C84_refuted`: More files are always refused, after all of them were streamed.
* `C85_refuted`: Earlier dates wrap around: 1979-12-31 is 2107-12-31.
* `C86_refuted`: C86: the second cookie asks for the whole domain; it is not sent to a subdomain. Without the first one it is.
* `C87_refuted`: C87: dates are counted from 1970, the clock of the loop from the start of the system. A cookie whose date has passed, which asks for removal, is kept and sent, as long as the system is up for a shorter time than from 1970 to the date.
* `C88_refuted`: At 5.9 s it is still there, though its five seconds were over at 5.3 s, if the jar has looked before.
* `C89_refuted`: C89: of two cookies with one name for two paths only the last one is kept.
* `C91_refuted`
* `C92_long_month_refuted`
* `C92_year_first_refuted`: RFC 6265 5.1.1: a day has at most two digits, and a month is known by its first three letters.
* `C94_cancel_refuted`: A function which reschedules its cycler is called after the cycler is cancelled from outside.
* `C94_twice_refuted`: A function reschedules once and takes itself away: from then on there are two timers, and the other function is called twice as often.
* `C95_endless_refuted`: A function which appends a more urgent one is called again and again within the same cycle.
* `C95_skip_refuted`: C95: a function which takes itself away makes the cycle skip the next one.
* `C96_refuted`: But called after `close` it returns while connections are still open.
* `C97_count_refuted`: wait_first_n of more futures than there are goes on after all of them finished and were run.
* `C98_next_refuted`: wait_next, which is documented to give the future, never gives one.
* `C98_pending_refuted`: ... and it ends for a future which was never pending in the group.
* `C100_release_refuted`: With a function waiting, release raises; the claim is kept.
* `C100_stale_refuted`: After the executors were released, execute of a claim takes a function, which never runs: its future stays pending.
* `C101_normal_exit_refuted`: "A body which finishes normally lets the block finish normally": if the time was over (the body caught the CancelledError and came to its end), `issubclass(None, CancelledError)` raises TypeError (helpers.py:312).
* `C102_each_iteration_refuted`: "An iteration which takes too long is cancelled": not when an earlier one was and its body went on. The block is not watched any more, and a cancellation by somebody else in a fresh iteration is taken for a timeout.
* `C104_308_refuted`: RFC 9110, 15.4.9: 308 is a redirect as 307 is. It is not followed, whatever the limit: the response is returned (http_client.py:249, 511).
* `C104_history_refuted`: "The history are the earlier responses": a redirect which names no place to go is returned with itself in its history (http_client.py:251, 268-270).
* `C104_limit_refuted`: "`redirects`: the maximal amount of allowed redirects": a chain of exactly that many redirects is not followed to its end; with the default 3 the third redirect is an error, with 1 no redirect is followed (http_client.py:250-254).
* `C104_relative_refuted`: RFC 9110, 10.2.2: a Location can be a relative reference, as '/login'. It is refused as a foreign scheme (http_client.py:277, 540), whatever the limit but 1 (and 0).
* `C105_request2_refuted`: `_request2` sends the Authorization header, and the credentials of its parameter, to any place it is redirected to: it lacks the deletion `_request` has (http_client.py:289-293 against 551).
* `C105_request_refuted`: `_request` deletes one of the values only: with an Authorization header and credentials in the url there are two, and the second goes to the other origin.
* `C106_host_refuted`: "The Host header names the host the request is sent to": after a redirect to another host it still names the first one, since the header dictionary of the first request is used again (client_request.py:183, http_client.py:222-235).
* `C107_leak_refuted`: "A cookie is sent only to urls it is for": after a redirect the cookies of the first host are sent to the second one, with its own cookies or without (client_request.py:193-212 with the dictionary of the first request).
* `C108_transfer_refuted`: With a Transfer-Encoding given as another text which contains 'chunked' ("gzip, chunked", "Chunked"), the body is sent with two such headers, since an assignment adds a value; and after a redirect which drops the body, the GET request announces a chunked body which never comes (client_request.py:223-227 and 271).
* `C109_read_refuted`: An url which has a host but no scheme, as `URL('//orin.mew/x')`, is written without the slashes: 'orin.mew/x' is a path.
* `C110_join_refuted`: A reference which begins with '/' is appended to the path of the base; an empty one drops the query of the base; one with a scheme and a host loses both. The tests of the project expect the latter two (test__URL.py:2293-2313).
* `C111_name_refuted`: Appending to a path which ends with '/' writes two slashes; a name with '/' is written as several segments, of which '..' is not taken away; the parent and the url with another name keep the fragment, and the latter the query, though both are documented to be removed (url.py:1041, 1521).
* `C112_text_refuted`: Setting the user name which is there already writes another password: it is decoded wrongly (C30).
* `C113_query_refuted`: A value given twice is written once; a key which is a number is not refused, but the url can not be written anymore.
* `C114_truth_refuted`: `URL('/')` is equal to `URL('')`, but only the former is true.
* `C116_nothing_after_refuted`: C116, false: a message which waits for another writer when the connection fails is written after the close frame. `write_frame` checks the state of the connection before it waits for the lock, and `fail_connection` writes its frame without it.
* `C118_close_refuted`: C118, false: a client without ssl never closes its connection after a complete closing handshake. `transfer_data` marks the connection as lost itself, `close_connection` then returns without closing the transport, and the transport stays open when the peer closes its side, since `eof_received` says so.
* `C119_abort_refuted`: C119, false: when the peer takes nothing anymore `close` returns at once and the connection stays forever. `wait_for_connection_lost` tests the wrong way around: it returns `True` while the connection is not lost, so that the transport is never aborted.
* `C119_never_aborted_refuted`: C119, false: in fact nothing ever aborts the transport.
* `C120_delivered_refuted`: C120, false: with a limit messages are lost. `transfer_data` ignores that `AsyncQueue.set_result` refused one.
* `C121_codes_refuted`: C121, false: after a protocol error `receive` tells the close code 1002, `send` at first 0 and then 1006: `fail_connection` does not set the close code.
* `C122_cancelled_send_refuted`: C122, false: after a task which waited to send was cancelled no call is in progress, the connection is open and the transport works, but nothing is ever written for any later call, not even the close frame of `close`.
* `C123_method_refuted`: The method and the version of the request are not looked at: a POST of HTTP/1.0 opens a web socket (RFC 6455, 4.2.1 requires a GET of HTTP/1.1 or higher).
* `C123_upgrade_refuted`: C123. The server opens a connection only for a request to open a web socket: false, `Upgrade: h2c` is as good. The test is `len(upgrade) != 1 and ...`, so a single protocol is never looked at.
* `C124_key_refuted`: Nor is a key with octets which are not utf-8 (they are escaped as surrogates): encoding it again fails, which is an internal error (500).
* `C124_malformed_refuted`: Nor is a malformed header the fault of the client (400): the ValueError of the parsers is an internal error (500).
* `C124_missing_refuted`: C124. A client which does not ask for the upgrade is told so (426): false, without an Upgrade header it is told that the server failed (500).
* `C125_origin_refuted`: C125. A server which is given its allowed origins refuses the others: false. The protocol sets `self.origin` to `None` after it has set it from the parameters (and where it is compared, the code is `origin in origin`).
* `C126_declined_refuted`: An extension which the server does not know is declined (RFC 6455, 9.1; the comment in the code says so too): false, the whole handshake is refused.
* `C126_negotiated_refuted`: C126. An extension which both sides know is agreed on: false, the server answers with an internal error, because `build_extensions` is given tuples instead of extensions. The client is this library's own.
* `C127_determined_refuted`: The selection is determined by the two lists: false, among equally good ones the order decides in which python iterates a set of strings, and that differs from process to process.
* `C128_early_refuted`: The response of the request processor is sent: false, a text is joined with bytes, and nothing is sent.
* `C128_shutdown_refuted`: C128. A server which is shutting down says so (503): false. The arguments of `AbortHandshake` are exchanged, and the handler of the exception raises an AttributeError; nothing is sent.
* `C129_error_refuted`: A response which is not good is reported as `InvalidHandshake`: false, without an Upgrade header it is an IndexError.
* `C129_upgrade_refuted`: C129. The client connects only if the server has switched to the web socket protocol: false, `Upgrade: h2c` is accepted.
* `C131_round_trip_refuted`: C131. Credentials which were put into a header are read back from it: false for a password with a line feed, which is accepted and written, but can not be read (the '.' of the regular expression does not match it).
* `C132_method_refuted`: C132. Only the method 'basic' is read: false, 'baſic' with a long s is read too, since the method is casefolded.
* `C132_token_refuted`: A token which is not base64 is refused: false, characters which are not of the alphabet are skipped.
* `C133_colon_refuted`: False for a user with a (quoted) ':', with which the request raises.
* `C133_password_refuted`: C133. The credentials of a url are sent: false for a url with a password only ('http://:secret@host/'), which is requested without credentials.
* `C133_web_socket_refuted`: False for every web socket: connecting to a url with credentials always raises, since the header is built with a method which does not exist.
* `C134_length_refuted`: False for a response with another transfer coding and a content length: the length is used.
* `C134_substring_refuted`: False for every other coding whose name contains "chunked", as `x-chunked`.
* `C134_superscript_refuted`: A content length which is no number is not always refused with a payload error: "²" raises a ValueError.
* `C134_two_fields_refuted`: C134. A response ends where RFC 7230 says it does: false when the transfer codings are given in two fields, of which only the first one is looked at.
* `C134_two_lengths_refuted`: Two different content lengths are not refused: the first one is used.
* `C135_two_fields_refuted`: False for two codings in two fields: only the first one is undone, in the wrong order.
* `C135_until_eof_refuted`: C135. The body of a response is decoded with its content coding: false for a body which lasts until the connection is closed, it is given as it was received.
* `C136_old_refuted`: C136. A connection is kept open after a response exactly when RFC 7230 says so: false for HTTP/1.0 with any Connection field which is not "close".
* `C136_second_refuted`: False for "close" in a second Connection field.
* `C136_substring_refuted`: False for every other option which contains "close".
* `C137_hidden_refuted`: A parameter without a value makes the next one unknown: the timeout of `foo,timeout=5` is not read.
* `C137_round_trip_refuted`: ... but two timeouts which are written in the same way, as 2.25 and 2.0, do not both survive.
* `C138_request_refuted`: C138. The body of a request is read as its headers say: false, asking for the reader of any request which is not upgraded raises, since requests have no status.
* `C143_hangs_refuted`: Of a view of one item of four bytes, which the socket takes at once, the call never returns, whatever happens afterwards: four is not one.
* `C143_truncated_refuted`: `socket_send_all` takes any bytes-like object, but compares the number of bytes `socket.send` took with the number of items of the view. Of a view of two items of two bytes each, of which the socket takes two bytes, the rest is never sent though the call returns as if it was.
* `C144_both_refuted`: When two receives wait on one socket, the second one takes the reader away from the first one, which is not told: whatever arrives afterwards, it ends only if it is cancelled.
* `C146_pause_refuted`: When there are no more file descriptors the server should stop accepting for a second, but the loop over the backlog goes on: it accepts after it removed its reader.
* `C146_restarts_refuted`: It should schedule to start again once, but does it once for each failure, as many times as the backlog is long.
* `C147_injection_refuted`: C147. A header which is built says the type and the parameters which were given: false for a value which is not ascii and has a semicolon. The semicolon is not escaped, and what follows is read as a further parameter: a file named 'é;name=admin' sends a second `name`.
* `C147_lines_refuted`: False without `quote_fields`: nothing but quotes and backslashes is escaped, so any other text, with line ends too, gets into the header.
* `C147_token_refuted`: False for the names: a tab and a comma are let through.
* `C148_built_refuted`: C148. The parser reads what the builder writes: false, whenever the first value is ascii (and has no semicolon) the parser gives nothing: values between quotes are never accepted.
* `C148_extended_refuted`: False for extended values: the name of the encoding is taken for a set of characters to escape, so letters of the file name come out escaped.
* `C148_quoted_refuted`: The same for any header, whoever built it.
* `C149_apostrophe_refuted`: False for a name with one apostrophe: it is taken for the mark after an encoding, and the function raises.
* `C149_eleven_refuted`: C149. The name of a file which comes in pieces is put together: false for more than ten pieces, which are ordered as texts ('filename*10' before 'filename*2'): only the first two are kept.
* `C149_name_refuted`: False for other names than 'filename': the pieces of the file name are given.
* `C150_nested_refuted`: A writer which was appended to another writer can get more parts; the size of the outer writer stays that of before.
* `C150_text_refuted`: The announced size of a file open as text is the number of bytes of the file, but its line ends are translated when it is read: `a CR LF b` is announced with 4 bytes and written with 3.
* `C150_view_refuted`: The size of a memoryview is the number of its items; when an item is not one byte the body is longer than announced.
* `C151_boundary_refuted`: Boundaries which RFC 2046 does not allow are accepted: an empty one, one which ends with a space, one which is longer than 70 characters, one with other characters.
* `C151_content_refuted`: Nothing looks for the delimiter in a content: with a boundary which the user gave, one part is read as two.
* `C151_header_refuted`: The value of a header is written as it is: line ends in it end the head of the part, the rest is read as content.
* `C152_length_refuted`: A Content-Length which was given stays beside the one which is computed.
* `C152_type_refuted`: The Content-Type in the headers given to `append` does not replace the default one, it is sent besides it.
* `C153_lines_refuted`: The encoded text is one line, however long it is; RFC 2045 allows 76 characters.
* `C154_charset_refuted`: The charset of the given content type is sent, but the text is encoded with the encoding of the form.
* `C154_number_refuted`: A number can be a field of a form, and a file too, but not both in the same form.
* `C156_negative_refuted`: For an empty set it becomes negative, so `len` raises a ValueError, as does the use of the set in a condition.
* `C156_pop_refuted`: `pop` within an iteration drops dead references which are pending, and leaves them pending.
* `C156_xor_refuted`: `s ^= t` while `t` is iterated and one of its elements has died enters the dead reference of `t` among the pending removals of `s`, whose length becomes too small: it is 0 although the set has an element.
* `C157_iterated_refuted`: While one of them is iterated, an element which has died since still counts: sets with the same elements are not equal, and the one is not part of the other.
* `C158_self_refuted`: `s -= s` and `s ^= s` should leave an empty set: a RuntimeError comes, after one of the elements is removed.
* `C159_copy_refuted`: If one dies meanwhile, a RuntimeError comes: the set is not marked as iterated.
* `C161_add_refuted`: The future is completed between the test of its state and the addition of the callback: the callback is added to a list which nobody looks at any more, and the thread waits for ever.
* `C161_timeouts_refuted`: Two threads give up at the same time: after one of them has found its callback the other one deletes an earlier one, and the first deletes the callback of a third thread, which waits for ever.
* `C162_complete_refuted`: A thread deletes its callback after the loop has seen that there is one: `set_result` raises an IndexError.
* `C162_index_refuted`: The future is completed after the thread has looked at the number of callbacks: `wait` raises an IndexError, neither a TimeoutError nor the result. Tests and what follows them are not torn apart here.
* `C163_again_refuted`: A context which is used again does not wait for the loop, and the loop does not wait for it.
* `C163_started_refuted`: A loop which is started after the block is entered runs freely in it.
* `C163_stopped_refuted`: A loop which stops before it comes to the handle leaves the thread waiting: nothing which the thread may do, nor other handles, help.
* `C164_empty_refuted`: An empty datagram is a datagram, but is never sent; nobody is told.
* `C164_no_address_refuted`: Without an address, on a socket which is not connected, `send_to` does not raise but closes the whole transport; what waits to be sent to others is thrown away.
* `C164_writelines_refuted`: What is given to `writelines` is thrown away, and nobody is told.
* `C165_closed_refuted`: A transport which was closed while something waited to be sent still takes data when all is over: it looks for its socket, does not find it and writes an exception. One which was closed with nothing waiting does nothing.
* `C167_address_refuted`: A call which waits for an address gets the reader of whichever address sends next: the address asked for is overwritten by the one received, and compared with itself.
* `C167_lost_refuted`: Who waits when the connection is lost waits for ever.
* `C168_cancelled_refuted`: The task is cancelled while the block works: what follows the block is done in the thread of the executor.
* `C169_awaited_refuted`: So it is when it is cancelled while the block works after it has awaited something.
* `C169_entering_refuted`: Cancelled before a thread has begun with it the task is never run again and never done.
* `C169_working_refuted`: Cancelled while the block works the task is done, but its callbacks are never scheduled: who waits for it waits for ever.
* `C170_cancelled_refuted`: C170 fails when a task reading the body is cancelled: the aborted stream makes the protocol believe that the peer sent everything, and the connection, in the middle of the body, is given back to be used again.
* `C170_early_refuted`: C170 fails when the whole response came before the whole request was sent: the task writing the request is stopped, and the connection, in the middle of the request, is given back to be used again.
* `C171_streamed_refuted`: C171 fails for each body whose end did not come together with the head: the response gives the connection back while the protocol still has the stream of the body, for which the connection counts as one in the middle of a response, and is closed.
* `C172_concurrent_refuted`: C172 fails when two tasks read: one gets the body, the other one, and everyone who reads later, nothing.
* `C172_failed_refuted`: C172 fails after a failed read: the next one does not fail, but gives `None`.

## Trusted base

* The Coq 8.16.1 kernel (`vm_compute` is used for the concrete examples and counter examples).
* `Print Assumptions` says "Closed under the global context" for every theorem of every `XProps.v`: no axiom is used,
  not even one of the standard library.
* The correspondence between the python source and the model definitions, documented at each definition, and the
  hypotheses about standard library functions which the theorems state explicitly.

## Testing the theorems

`seeded/LOG.jsonl` lists the wrong programs tried: a definition of a model is edited in a scratch copy, the whole area is
rebuilt with each broken lemma admitted, and the theorems whose proof then rests on an admitted lemma are recorded as
failed. Where all theorems still held though a claim was broken, the theorem was tightened (`theorems_tightened`), or the
entry has a `note` saying why no stated claim is broken.

A theorem recorded as failed is one whose proof script broke, or rests on one which did. That does not show that its
statement is false for the edited program: scripts also break for edits which change nothing observable (about forty
entries have a note calling the edit harmless and still list failures; they carry a `remark`). So a theorem which is too
weak to notice an edit can be recorded as failed. The field `evidence` says what an outcome rests on:

* `false`: the negation of the statement was proved for the edited program;
* `example`: a concrete case (an `Example` or a refutation) broke too. Most often its computed outcome changed, so the
  edit is observable, but the listed theorems were not shown false;
* `script`: only general proofs broke. The weakest kind: the theorems may still be true;
* `survived`: every theorem still holds;
* `ill-typed`, `not applied`, `timeout`: the attempt tested nothing.

Notes were written before the run, as a prediction.
