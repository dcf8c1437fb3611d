{"claims": [
{"property": "C01", "status": "proved", "theorems": ["C01_write_once", "C01_outcome_final"], "note": "all histories"},
{"property": "C02", "status": "proved", "theorems": ["C02_one_winner", "C02_pending_call_wins"], "note": ""},
{"property": "C03", "status": "proved", "theorems": ["C03_callbacks_exactly_once", "C03_callbacks_refine"], "note": ""},
{"property": "C04", "status": "proved", "theorems": ["C04_one_resumption", "C04_never_stepped_when_done", "C04_resumed_only_when_suspended"], "note": "all histories of tasks, futures and the loop"},
{"property": "C05", "status": "proved", "theorems": ["C05_cancel_reaches", "C05_cancel_reaches_chain", "C05_cancel_beats_return"], "note": "for the cancellation handed on to another task, the chain theorem"},
{"property": "C06", "status": "partial", "theorems": ["C06_cancel_with_reaches_refuted", "C06_cancel_with_reaches_partial"], "note": "false of the code: cancel_with on a task whose awaited future is already done is lost; holds otherwise"},
{"property": "C07", "status": "proved", "theorems": ["C07_fifo", "C07_at_most_once", "C07_cancelled_never_runs", "C07_skipped_only_if_cancelled", "C07_turn_comes"], "note": ""},
{"property": "C08", "status": "proved", "theorems": ["C08_conservation", "C08_cycle", "C08_never_early"], "note": "heapq is a parameter: the theorems hold for every pop that removes one smallest element."},
{"property": "C09", "status": "partial", "theorems": ["C09_busy_callback_starves_refuted", "C09_gets_back_partial"], "note": "False as stated: a self-rescheduling call_soon callback keeps the loop from reading timers and sockets for ever."},
{"property": "C10", "status": "proved", "theorems": ["C10_mutual_exclusion", "C10_release_never_fails"], "note": ""},
{"property": "C11", "status": "proved", "theorems": ["C11_no_overtaking", "C11_acquired_in_order"], "note": ""},
{"property": "C12", "status": "partial", "theorems": ["C12_cancel_never_leaks_refuted", "C12_cancel_before_release_leaks_refuted", "C12_no_leak_partial"], "note": "False as stated: two interleavings of cancel and release lose the lock for ever. The partial theorem covers histories where a cancelled waiter runs before the lock is used again."},
{"property": "C13", "status": "proved", "theorems": ["C13_once_in_order", "C13_no_idle_element"], "note": "any bound; blocking puts on unbounded queues (see C16, C62 for bounded ones)"},
{"property": "C14", "status": "partial", "theorems": ["C14_several_consumers_refuted", "C14_cancellation_spreads_refuted", "C13_once_in_order"], "note": "false of the code: waiting consumers share one future; the single-consumer case is C13"},
{"property": "C15", "status": "partial", "theorems": ["C15_cancel_loses_element_refuted", "C15_later_consumer_raises_refuted", "C15_loses_at_most_one_partial"], "note": "false of the code: the next element put after a cancelled wait is lost; at most one element per cancellation"},
{"property": "C16", "status": "partial", "theorems": ["C16_blocked_producer_refuted", "C16_blocked_consumer_refuted", "C16_take_wakes_partial"], "note": "false of the code for await; get_result_no_wait and async for wake the longest waiting producer"},
{"property": "C17", "status": "proved", "theorems": ["C17_never_exceeds", "C17_set_result"], "note": "both queue classes"},
{"property": "C18", "status": "proved", "theorems": ["C18_reads_serve_stream", "C18_segmentation_independent", "C18_no_needless_wait"], "note": "all segmentations and interleavings of data, end of stream and reads"},
{"property": "C19", "status": "partial", "theorems": ["C19_loses_bytes_refuted", "C19_overlap_refuted", "C19_misses_delimiter_refuted", "C19_read_until_partial"], "note": "false as stated (three witnesses); true part: right stop position for every segmentation, exact data for segments at least as long as the delimiter"},
{"property": "C20", "status": "proved", "theorems": ["C20_written_frame", "C20_round_trip", "C20_fields"], "note": "lengths below 2^64"},
{"property": "C21", "status": "proved", "theorems": ["C21_mask", "C21_involution"], "note": ""},
{"property": "C22", "status": "proved", "theorems": ["C22_check", "C22_read"], "note": ""},
{"property": "C23", "status": "proved", "theorems": ["C23_writer_output", "C23_size_line", "C23_round_trip"], "note": "without compressor"},
{"property": "C24", "status": "partial", "theorems": ["C24_segmentation_refuted", "C24_segmentation_partial", "C24_exact_resume", "C24_until_resume"], "note": "false: a cut between CR and LF of a later size line breaks decoding; every other segmentation proved"},
{"property": "C25", "status": "proved", "theorems": ["C25_request_headers", "C25_response_round_trip"], "note": "Both directions: a head is written, cut at its first empty line, parsed; headers (as the list of assigned pairs), method, path, status and reason come back."},
{"property": "C26", "status": "partial", "theorems": ["C26_terminates_refuted", "C26_terminates_partial"], "note": "False: a pointer to itself (or back to labels before it) makes the parser loop forever. Proved: it ends within length+1 steps per name if following labels and pointers has no cycle."},
{"property": "C27", "status": "proved", "theorems": ["C27_query_round_trip"], "note": "Whole messages, with any number of questions and additional records, and the flags."},
{"property": "C28", "status": "proved", "theorems": ["C28_round_trip", "C28_accepted", "C28_canonical"], "note": "All 32 bit addresses; exactly the canonical texts are accepted."},
{"property": "C29", "status": "proved", "theorems": ["C29_round_trip", "C29_written", "C29_accepted", "C29_bound"], "note": "All 128 bit addresses; the accepted texts (without a zone) are exactly those which denote the address in lower case."},
{"property": "C30", "status": "partial", "theorems": ["C30_round_trip_refuted", "C30_round_trip_partial"], "note": "False as stated: _base_16_char_to_int maps the digits 8 and 9 to 0 and 1, '+' is kept by quote and turned to a space by unquote. Proved for every string all of whose characters avoid these."},
{"property": "C31", "status": "proved", "theorems": ["C31_output_safe", "C31_decodes"], "note": "Output is allowed characters and %XX escapes; RFC 3986 decoding gives the utf-8 octets back."},
{"property": "C32", "status": "proved", "theorems": ["C32_walk", "C32_no_dots", "C32_idempotent", "C32_unchanged", "C32_parsed"], "note": "The result equals the stack walk for every list of segments; a trailing '.' stands for an empty name, a lone empty name left over is dropped. The path of every parsed url is normalised too (C32_parsed)."},
{"property": "C33", "status": "partial", "theorems": ["C33_equal_refuted", "C33_equal_partial"], "note": "False: hosts with different flags always compare equal (url_host_info.py:87-88 returns True). With equal flags, equal iff all parts are."},
{"property": "C34", "status": "proved", "theorems": ["C34_history", "C34_copy"], "note": "All histories, any key and value type with decidable equality."},
{"property": "C35", "status": "partial", "theorems": ["C35_history", "C35_spelling", "C35_contains_refuted", "C35_contains_partial", "C35_construct_refuted", "C35_construct_partial"], "note": "Proved for all operations which wrap the key. Refuted: 'key in d' looks up the plain string; the constructor of another dictionary loses values of keys that differ only in case."},
{"property": "C36", "status": "proved", "theorems": ["C36_history", "C36_init"], "note": "All histories over any element type ordered up to ==; the iterables given to extend are not the list itself (see C79)."},
{"property": "C37", "status": "proved", "theorems": ["C37_exclusive"], "note": "All histories of connect/create/release/close/detach/drop/clean-up and transport events."},
{"property": "C38", "status": "partial", "theorems": ["C38_connect_partial", "C38_quiet_partial", "C38_expires", "C38_dead_refuted", "C38_buffered_refuted"], "note": "Expired or failed connections are never reused, the first expiring usable one is taken, and one expires exactly the allowed time after its release; refuted for a connection the peer closed without error: connection_lost(None)/eof_received leave the transport set and should_close() false, so it is reused."},
{"property": "C39", "status": "partial", "theorems": ["C39_no_leak_partial", "C39_plain_refuted"], "note": "Holds for secure hosts while the loop runs; refuted for plain hosts: the clean-up drops an expired connection without closing it."},
{"property": "C40", "status": "proved", "theorems": ["C40_once", "C40_own_result", "C40_stable", "C40_skipped", "C40_settled", "C40_executed", "C40_fresh"], "note": "Every interleaving of the event loop's thread and the worker threads at the granularity of queue accesses; execute on a claim made stale by release_executors is excluded (see C100_stale_refuted)."},
{"property": "C41", "status": "partial", "theorems": ["C41_free_idle_partial", "C41_free_idle_refuted", "C41_claim_refuted"], "note": "Refuted: cancelling a running function's future, or releasing a claim while its function runs, makes a busy thread free, and the next function waits behind it. Proved for histories without these two."},
{"property": "C42", "status": "partial", "theorems": ["C42_order", "C42_flushed", "C42_progress", "C42_eof", "C42_wide_refuted"], "note": "Proved for bytes-likes of one byte items over arbitrary histories of writes, socket answers, close, abort, eof, limits; refuted for a memoryview of wider items (len counts items, send counts bytes: the unsent rest is lost)."},
{"property": "C43", "status": "partial", "theorems": ["C43_flow", "C43_resumes", "C43_raise_refuted"], "note": "Alternation, the high mark bound, no pause without progress pending, resumption at the low mark; refuted that raising the marks resumes a paused protocol at once."},
{"property": "C44", "status": "partial", "theorems": ["C44_order_partial", "C44_complete_partial", "C44_waits_partial", "C44_first", "C44_final", "C44_woken", "C44_callbacks", "C44_two_refuted", "C44_await_refuted", "C44_lost_refuted"], "note": "Outcome finality, callbacks, and wake-ups hold without restriction; order, exactly-once and completeness hold while one consumer waits at a time and none is cancelled after its wake-up; refuted otherwise (duplicate chunk, empty second await, chunk lost though the next iteration ends normally)."},
{"property": "C45", "status": "proved", "theorems": ["C45_archive", "C45_fields", "C45_names"], "note": "An independent strict zip64 reader reads every produced archive back; the deflate compressor is a parameter with an inverse, crc32 is written out."},
{"property": "C46", "status": "partial", "theorems": ["C46_unique_partial", "C46_renumbered", "C46_kept", "C46_refuted", "C46_newline_refuted"], "note": "Unique for names of one line without two adjacent numbers; refuted for 'a (1) (2)' twice followed by 'a (1)', and for names with newlines."},
{"property": "C47", "status": "partial", "theorems": ["C47_sent_partial", "C47_shared_refuted", "C47_keyerror_refuted"], "note": "Proved for every history of updates, requests and clears: what is sent comes from an earlier update and its host, path, scheme and lifetime allow it. Missing: cookies put in without a url and a domain skip the path and scheme checks (refuted), and a domain ending with a dot put in without a url makes every request raise KeyError (refuted)."},
{"property": "C48", "status": "partial", "theorems": ["C48_session_partial", "C48_refuted"], "note": "False in general: setting a cookie again without a lifetime keeps the old expiration (refuted). Proved: a cookie whose name is never given a lifetime stays and is sent to its domain until the jar is cleared."},
{"property": "C49", "status": "proved", "theorems": ["C49_total", "C49_round_trip"], "note": "For every text; the round trip for every way of writing with white space, tokens and quoted values."},
{"property": "C50", "status": "proved", "theorems": ["C50_waiter_automaton", "C50_woken_once", "C50_no_pass_before_set", "C50_set_leaves_no_waiter"], "note": ""},
{"property": "C51", "status": "partial", "theorems": ["C51_tracked_partial", "C51_moved", "C51_done", "C51_given", "C51_lost_refuted", "C51_once_refuted", "C51_twice_refuted"], "note": "Futures added once, and no cancelled and_pop wait, are in exactly one place; a cancelled and_pop wait loses a future, two and_pop waits get the same one, and a future added twice comes back."},
{"property": "C52", "status": "proved", "theorems": ["C52_fair", "C52_every_address"], "note": "For every number of addresses and iterations."},
{"property": "C53", "status": "partial", "theorems": ["C53_woken_partial", "C53_uncancelled", "C53_refuted"], "note": "All waiters continue if none was cancelled; in general exactly the waiters after a cancelled one may be left waiting, and C53_refuted is a history in which one waits forever."},
{"property": "C54", "status": "partial", "theorems": ["C54_weak", "C54_hybrid", "C54_iteration", "C54_len_partial", "C54_len_refuted", "C54_len_low_refuted"], "note": "Lookups, pop, copy and iteration never show a dead value and miss no live one, for every interleaving with iterations and garbage collection. len() is right as long as no iteration was started; in general it is refuted: dead values noticed during an iteration are never removed, since the pending WeakHasher is compared by identity with the reference."},
{"property": "C55", "status": "partial", "theorems": ["C55_pop_partial", "C55_missing", "C55_refuted"], "note": "pop(key, default) of a HybridValueDictionary raises TypeError exactly when the underlying dict has no such key; otherwise it is right."},
{"property": "C56", "status": "partial", "theorems": ["C56_order", "C56_cancel_partial", "C56_cancel_refuted"], "note": "Order proved for every history of functions which leave their cycler alone; silence after cancel proved if the functions do not cancel or reschedule their own cycler; false if a function does (refuted)."},
{"property": "C57", "status": "proved", "theorems": ["C57_extensions_round_trip", "C57_subprotocols_round_trip", "C57_extensions_grammar", "C57_subprotocols_grammar", "C57_upgrades_grammar", "C57_subprotocols_only", "C57_upgrades_only"], "note": "Round trips, and every text of the list grammar (spaces, empty elements, quoted values) is parsed as the list it denotes."},
{"property": "C58", "status": "partial", "theorems": ["C58_control_frames_refuted", "C58_message_partial", "C58_limit"], "note": "false: control frames between fragments are held against the remaining message limit; proved when they fit; utf-8 decoding not modelled"},
{"property": "C59", "status": "partial", "theorems": ["C59_names_refuted", "C59_names_partial"], "note": "False: the single label '@' reads back as the root. Proved for ascii labels without 'xn--', for any idna codec which leaves those alone."},
{"property": "C60", "status": "proved", "theorems": ["C60_isolated", "C60_source", "C60_follows", "C60_delivered", "C60_stable"], "note": "Any number and nesting of shields on a running event loop."},
{"property": "C61", "status": "proved", "theorems": ["C61_lifo_once", "C61_lifo_newest"], "note": ""},
{"property": "C62", "status": "partial", "theorems": ["C62_no_overwrite_refuted", "C62_no_overwrite_partial"], "note": "false of the code: a woken producer appends to a deque that was refilled meanwhile"},
{"property": "C63", "status": "partial", "theorems": ["C63_cancelled_reader_skips_refuted"], "note": "false: the offset of the consumed chunk survives the cancellation"},
{"property": "C64", "status": "partial", "theorems": ["C64_abandoned_read_blocks_refuted"], "note": "false: the abandoned payload reader stays installed"},
{"property": "C65", "status": "partial", "theorems": ["C65_size_lines_refuted", "C65_negative_size_refuted", "C65_size_lines_partial"], "note": "false: signs, 0x, blanks and underscores are accepted; hexadecimal lines proved to mean their number"},
{"property": "C66", "status": "partial", "theorems": ["C66_pong_refuted"], "note": "false: misspelled method name, the matching pong raises AttributeError in the reader"},
{"property": "C67", "status": "partial", "theorems": ["C67_long_reason_refuted", "C67_close_partial"], "note": "false for reasons over 123 bytes; proved otherwise"},
{"property": "C68", "status": "partial", "theorems": ["C68_query_refuted", "C68_query_partial"], "note": "'=' in a key is not escaped, so the key is cut; proved for keys without '=' and octets without the digits 8 and 9."},
{"property": "C69", "status": "partial", "theorems": ["C69_framing_refuted", "C69_framing_partial"], "note": "An answer with Connection: upgrade and a content length has its body skipped, as has a refused CONNECT; all other combinations are proved."},
{"property": "C70", "status": "partial", "theorems": ["C70_injection_refuted", "C25_request_headers"], "note": "False: line breaks in values are not refused. Values of one line are carried as they are."},
{"property": "C71", "status": "partial", "theorems": ["C71_version_refuted", "C71_request_partial"], "note": "write_http_request writes the major version twice, so 1.0 is sent as 1.1; proved for versions with equal numbers."},
{"property": "C72", "status": "partial", "theorems": ["C72_path_refuted", "C72_encoded_partial", "C72_decoded_partial", "C72_reparsed_partial"], "note": "False for parts with '/' (not escaped) and for an empty first part (dropped by the parser); proved for the rest, in encoded mode for the characters which survive quoting. What was parsed unencoded is found again after writing, unless its first part is empty."},
{"property": "C73", "status": "partial", "theorems": ["C73_names_sound", "C73_names_complete", "C73_next_refuted"], "note": "Labels are always right; the place where parsing continues is right for names pointing to names wholly before them, false in general."},
{"property": "C74", "status": "partial", "theorems": ["C74_pointer_refuted", "C74_pointer_partial"], "note": "False: the data is parsed without the message, so a compressed name raises (None is unpacked). Proved for uncompressed names."},
{"property": "C75", "status": "partial", "theorems": ["C75_searches_refuted", "C75_searches_partial"], "note": "False: the domain is put before the name (helpers.py:571-573). Proved: the name itself comes last, and alone if it has enough dots."},
{"property": "C76", "status": "proved", "theorems": ["C76_addresses_ordered"], "note": "Stable sort by the position of the first matching entry."},
{"property": "C77", "status": "partial", "theorems": ["C77_forms_refuted", "C77_zone_refuted", "C77_forms_partial"], "note": "Refuted: upper case digits and '::%zone' are not accepted. Proved for lower case texts."},
{"property": "C78", "status": "partial", "theorems": ["C78_ne_refuted", "C78_ne_partial", "C78_eq_hash"], "note": "Refuted: != is that of str, so strings differing in case are both == and !=."},
{"property": "C79", "status": "partial", "theorems": ["C79_extend_self_refuted", "C79_extend_self_never", "C79_extend_partial"], "note": "Refuted: extending a non-empty list with itself never ends. Proved for other iterables."},
{"property": "C80", "status": "partial", "theorems": ["C80_scheduled", "C80_clean_up", "C80_late_refuted"], "note": "The clean-up is always scheduled and thorough; refuted that it is scheduled for the first expiring one: a release does not move an already scheduled clean-up earlier."},
{"property": "C81", "status": "proved", "theorems": ["C81_performed", "C81_max_requests"], "note": "For all histories."},
{"property": "C82", "status": "partial", "theorems": ["C82_single_partial", "C82_failed", "C82_final", "C82_two_refuted", "C82_lost_refuted", "C82_reading_refuted"], "note": "Holds for one writing task while received data stays small; refuted for two waiting tasks (the waiter is overwritten and never woken), for drain after connection_lost while paused, and when reading is paused too (one flag serves both)."},
{"property": "C83", "status": "partial", "theorems": ["C83_reader_partial", "C83_stuck_refuted", "C83_unbounded_refuted"], "note": "Holds while writing is never paused; refuted otherwise: resume_writing clears the shared flag so paused reading is never resumed, and no amount of data pauses reading while writing is paused."},
{"property": "C84", "status": "partial", "theorems": ["C84_limits_partial", "C84_refuted"], "note": "Below 65536 files; refuted from 65536 files on: the count of the end record is packed into 16 bits and struct.error is raised at the end of the stream."},
{"property": "C85", "status": "partial", "theorems": ["C85_date_partial", "C85_time", "C85_refuted"], "note": "Years 1980 to 2107; refuted for earlier ones, which wrap around."},
{"property": "C86", "status": "partial", "theorems": ["C86_refuted"], "note": "False: once host-only, a name stays host-only for its domain."},
{"property": "C87", "status": "partial", "theorems": ["C87_refuted"], "note": "False for every date and every uptime smaller than the date: wall clock dates are compared with the monotonic clock of the loop."},
{"property": "C88", "status": "partial", "theorems": ["C88_expired", "C88_refuted"], "note": "Proved up to one second, for every history; exact expiration is refuted by a witness (the next check is rounded up to a whole second)."},
{"property": "C89", "status": "partial", "theorems": ["C89_refuted"], "note": "False: cookies are keyed by domain and name only."},
{"property": "C90", "status": "proved", "theorems": ["C90_formats"], "note": "All four formats, all dates."},
{"property": "C91", "status": "partial", "theorems": ["C91_outcome_partial", "C91_refuted"], "note": "Proved: what is returned is a real date, and only a day which the month lacks raises. False in general: 31 Feb raises ValueError, which leaves update_cookies."},
{"property": "C92", "status": "partial", "theorems": ["C92_year_first_refuted", "C92_long_month_refuted"], "note": "False: a four digit year in front is taken as the day, and June is no month."},
{"property": "C93", "status": "proved", "theorems": ["C93_error"], "note": "For every text."},
{"property": "C94", "status": "partial", "theorems": ["C94_one_timer_partial", "C94_cancel_refuted", "C94_twice_refuted"], "note": "Proved if the functions do not cancel or reschedule their cycler; false otherwise (refuted)."},
{"property": "C95", "status": "partial", "theorems": ["C56_order", "C95_skip_refuted", "C95_endless_refuted"], "note": "False: a function which removes itself makes the next one be skipped, one which appends a more urgent one makes the cycle endless. Without such functions it is C56_order."},
{"property": "C96", "status": "partial", "theorems": ["C96_not_early_partial", "C96_refuted"], "note": "A task which waits continues only after the server was finished; a call after close() returns at once although connections are open (refuted)."},
{"property": "C97", "status": "partial", "theorems": ["C97_not_missed", "C97_not_early", "C97_count_refuted"], "note": "All kinds of waits; wait_first_n of more futures than there are never ends (refuted)."},
{"property": "C98", "status": "partial", "theorems": ["C97_not_missed", "C97_not_early", "C98_next_refuted", "C98_pending_refuted"], "note": "Refuted: wait_next gives None, and also ends for a done future which is added. The waiting itself is C97_not_missed and C97_not_early."},
{"property": "C99", "status": "proved", "theorems": ["C99_no_leak", "C99_callbacks"], "note": "Any number and nesting of shields on a running event loop."},
{"property": "C100", "status": "partial", "theorems": ["C100_ordered", "C100_refused", "C100_release_refuted", "C100_stale_refuted"], "note": "Order and refusal proved for all histories. Refuted: release with functions waiting raises AttributeError; execute after release_executors takes a function which never runs."},
{"property": "C101", "status": "partial", "theorems": ["C101_in_time", "C101_late", "C101_cancel_only", "C101_cancel_once", "C101_prompt", "C101_enter", "C101_cancelled", "C101_late_normal", "C101_normal_exit_refuted"], "note": "All of it but one case: a body which finishes normally after the timeout makes the block raise TypeError (refuted)."},
{"property": "C102", "status": "partial", "theorems": ["C102_never_early", "C102_prompt", "C102_outcome", "C102_once", "C102_each_iteration_refuted"], "note": "Holds up to the first timeout in the block; refuted for iterations after one which timed out and whose body went on. The clock is assumed not to be 0 (the code takes 0.0 for no iteration)."},
{"property": "C103", "status": "proved", "theorems": ["C103_sleep_not_early", "C103_timeout_not_early", "C103_sleep_wakes", "C103_times_out", "C103_stable", "C103_released", "C103_apply_reply"], "note": "Futures; what apply_timeout does to a task is C06."},
{"property": "C104", "status": "partial", "theorems": ["C104_bounded", "C104_next", "C104_follows_partial", "C104_too_many", "C104_returned", "C104_limit_refuted", "C104_308_refuted", "C104_relative_refuted", "C104_history_refuted"], "note": "Proved: the bound, where each next request goes and with which method and body, and that fewer than 'redirects' redirects to whole urls are followed (unless building a request is a ValueError). Refuted: a chain of exactly 'redirects' redirects is an error; 308 is not followed; a redirect to a relative reference is refused as a foreign scheme; a redirect without a target is in its own history."},
{"property": "C105", "status": "partial", "theorems": ["C105_confined_partial", "C105_sent", "C105_request2_refuted", "C105_request_refuted"], "note": "Confinement is proved for _request only, with at most one Authorization header given and no credentials in any url; credentials in an url alone are not covered. C105_sent: credentials do arrive. Refuted for _request2, and for _request with a header and credentials in the url."},
{"property": "C106", "status": "partial", "theorems": ["C106_host_partial", "C106_host_refuted"], "note": "Every request has the given Host headers, otherwise the one of the first url; so it is right only while redirects stay on that host and port. Refuted after a redirect to another host."},
{"property": "C107", "status": "partial", "theorems": ["C107_cookies_partial", "C107_given", "C107_leak_refuted"], "note": "With at most one Cookie header given: the cookies for the url are sent (if the jar gives each name once), the given ones are sent, and all sent ones are from the header or from the jar for this or an earlier url. Refuted: cookies of earlier hosts are sent along."},
{"property": "C108", "status": "partial", "theorems": ["C108_framed", "C108_announced_partial", "C108_no_body_partial", "C108_transfer_refuted"], "note": "C108_framed covers requests with a body for any headers. That chunks are announced exactly when sent, and no leftover headers: only if Transfer-Encoding is absent or 'chunked' (and the others given at most once); refuted for another Transfer-Encoding. Compression is not modelled beyond being sent chunked."},
{"property": "C109", "status": "partial", "theorems": ["C109_read_partial", "C109_read_refuted"], "note": "Proved for urls with a scheme and a host whose text has no delimiters, parts given encoded without delimiters, and strings utf-8 can carry; query items up to order, and unambiguous only for keys without '=' (C68). Refuted: with a host but no scheme the slashes are not written, so the host reads as a path."},
{"property": "C110", "status": "partial", "theorems": ["C110_join_partial", "C110_path", "C110_authority", "C110_join_refuted"], "note": "Agrees with the RFC for a base without a path and a reference with a path but no scheme and no authority. C110_path and C110_authority say what is joined for all normalised paths. Refuted: a path is appended, an empty reference drops the query, an absolute reference loses its scheme and host."},
{"property": "C111", "status": "partial", "theorems": ["C111_name_partial", "C111_parent_partial", "C111_with_name_partial", "C111_name_refuted"], "note": "Proved for urls with normalised paths and names which are no dot segments (names with '/' included, which then are one part but several segments when written); the parent is compared without the query but with the fragment. Refuted: 'a/' / 'b' writes 'a//b'; 'x/../y' stays in the text; parent keeps the fragment, with_name keeps query and fragment, against their documentation."},
{"property": "C112", "status": "partial", "theorems": ["C112_last", "C112_relative", "C112_text_refuted"], "note": "Proved at the level of the decoded components, for urls whose encoded parts can be decoded. Refuted at the level of the text: with_user rewrites an encoded password wrongly (decoding fault of C30)."},
{"property": "C113", "status": "partial", "theorems": ["C113_with_query", "C113_extend_query", "C113_query_refuted"], "note": "Proved: the values of each key are the distinct given ones, in order of first appearance (except an empty value of an empty key), and the error is that of the first value which can not be written. Refuted: a repeated value is lost; a key which is no string is accepted and the url can not be written afterwards. A query given as a string is C68."},
{"property": "C114", "status": "partial", "theorems": ["C114_equal", "C114_hash", "C114_order", "C114_components_partial", "C114_truth_refuted"], "note": "Equivalence, hash and total order proved for all urls which can be written. Equal components: scheme, host text and port, for urls with scheme and host. Refuted: URL('/') equals URL('') but differs in truth value."},
{"property": "C115", "status": "proved", "theorems": ["C115_one_close"], "note": "All interleavings of the writers, which share the lock of LockModel.v with one slot; frames are labels."},
{"property": "C116", "status": "partial", "theorems": ["C116_nothing_after_refuted", "C116_after_close_partial", "C116_refused"], "note": "False for the close frame of fail_connection: a message waiting for the lock is written after it. Proved for the close frame of close and of the answer to the peer, and that send is refused once any close frame was written."},
{"property": "C117", "status": "proved", "theorems": ["C117_order", "C117_frames", "C117_written"], "note": "All interleavings. The frame of a call is written whole: how it is encoded is C20-C22."},
{"property": "C118", "status": "partial", "theorems": ["C118_close_refuted", "C118_close_partial"], "note": "False for a client without ssl after a complete closing handshake: only a broken connection closes it. Proved for servers, for ssl and when no close frame was read. The ssl transport is taken to close like the socket transport."},
{"property": "C119", "status": "partial", "theorems": ["C119_abort_refuted", "C119_never_aborted_refuted"], "note": "False: wait_for_connection_lost tests the wrong way around, the transport is never aborted."},
{"property": "C120", "status": "partial", "theorems": ["C120_delivered_refuted", "C120_delivered_partial", "C120_exception_last_partial"], "note": "False with a limit for the queue: messages are dropped silently. Proved without a limit for one receiver at a time which is not cancelled."},
{"property": "C121", "status": "partial", "theorems": ["C121_codes_refuted", "C121_codes_partial"], "note": "False after a failure: receive tells 1002, send 0 and later 1006. Proved when the close frame of the peer ended the connection."},
{"property": "C122", "status": "partial", "theorems": ["C122_cancelled_send_refuted", "C122_progress_partial"], "note": "False: after one cancellation nothing is ever written again. Proved without cancellations: one of the calls in progress can go on."},
{"property": "C123", "status": "partial", "theorems": ["C123_upgrade_refuted", "C123_method_refuted", "C123_accepts_partial", "C123_complete"], "note": "Completeness is proved. Soundness is false: a request with 'Upgrade: h2c', and a POST of HTTP/1.0, are opened. What an opened request does have is proved (C123_accepts_partial)."},
{"property": "C124", "status": "partial", "theorems": ["C124_missing_refuted", "C124_malformed_refuted", "C124_key_refuted", "C124_status_partial"], "note": "Without an Upgrade header, and with a malformed Connection header, the answer is 500. For well formed lists with at least one protocol and without extensions, the answer is proved to be 426, 400 or the opened connection under exactly the stated conditions."},
{"property": "C125", "status": "partial", "theorems": ["C125_origin_refuted", "C125_ignored"], "note": "False: a foreign origin is accepted, and neither the allowed origins nor the Origin header have any influence (without a request processor)."},
{"property": "C126", "status": "partial", "theorems": ["C126_negotiated_refuted", "C126_declined_refuted", "C126_never"], "note": "False: an extension both sides know ends in 500, an unknown one in 400. No opened connection of a server has an extension."},
{"property": "C127", "status": "partial", "theorems": ["C127_selected", "C127_none", "C127_determined_refuted", "C127_selector"], "note": "Proved but for the last part: with equal sums the iteration order of the set decides."},
{"property": "C128", "status": "partial", "theorems": ["C128_shutdown_refuted", "C128_early_refuted", "C128_never_complete"], "note": "False: nothing is sent at shutdown, and no early response is ever sent as a whole. That the connection is not opened is proved."},
{"property": "C129", "status": "partial", "theorems": ["C129_upgrade_refuted", "C129_error_refuted", "C129_accepts_partial"], "note": "False for the Upgrade header, and a missing one is an IndexError. The other conditions are proved."},
{"property": "C130", "status": "proved", "theorems": ["C130_connect"], "note": "sha1 and base64 are arbitrary functions with decode (encode raw) = raw; how the headers travel over the socket is not part of it; at most one side has extensions; no request processor, no selector; additional headers are none of those of the handshake."},
{"property": "C131", "status": "partial", "theorems": ["C131_round_trip_refuted", "C131_round_trip_partial", "C131_latin1", "C131_header"], "note": "Refuted for a line feed in the password (or user). Without line feeds proved for every undoable encoding which leaves ascii as it is, latin1 is shown to be one; utf-8 is not modelled. The header is always one line of printable ascii, its token is base64 of the encoded text."},
{"property": "C132", "status": "partial", "theorems": ["C132_method_refuted", "C132_token_refuted", "C132_read_only", "C132_reads"], "note": "Refuted: the long s is accepted in the method, and tokens with characters outside of the alphabet are accepted. Proved: what is read comes from a method which casefolds to basic and a token which decodes to it, the user has no ':'; and every proper header (any case, valid base64, no line feed) is read."},
{"property": "C133", "status": "partial", "theorems": ["C133_password_refuted", "C133_colon_refuted", "C133_web_socket_refuted", "C133_http_partial", "C133_only", "C133_not_dropped"], "note": "Refuted for web sockets (always raises), for urls with a password only, and for users with ':'. Proved for http with a latin1 user without ':' and line feeds; a header sent always carries the user and password of the url. Credentials with a user are never left out silently."},
{"property": "C134", "status": "partial", "theorems": ["C134_two_fields_refuted", "C134_substring_refuted", "C134_length_refuted", "C134_two_lengths_refuted", "C134_superscript_refuted", "C134_framing_partial", "C134_bad_length"], "note": "Refuted for transfer codings in two fields, codings whose name contains chunked, other transfer codings with a content length, two different content lengths, and a superscript digit. Proved for at most one ascii field of each, ending with chunked, and no Upgrade field; ascii lengths which are no numbers are refused."},
{"property": "C135", "status": "partial", "theorems": ["C135_until_eof_refuted", "C135_two_fields_refuted", "C135_decoded_partial", "C135_known"], "note": "Refuted for bodies which last until the connection is closed (never decoded), and for codings in two fields. Proved for chunked bodies and bodies with a length with at most one Content-Encoding field; unknown codings never give data then. The decompressors themselves are not modelled. A known coding is never refused."},
{"property": "C136", "status": "partial", "theorems": ["C136_old_refuted", "C136_second_refuted", "C136_substring_refuted", "C136_persistent_partial", "C136_close"], "note": "Refuted for HTTP/1.0 with another option, for close in a second field, for options which contain close. Proved for one ascii field in which close only occurs as an option (for HTTP/1.0 with close or keep-alive), or none."},
{"property": "C137", "status": "partial", "theorems": ["C137_reads", "C137_hidden_refuted", "C137_round_trip_partial", "C137_round_trip_refuted"], "note": "Reading every comma separated list of name=value parameters is proved; a parameter without a value hides the next one. The round trip is proved for timeouts which survive being written without a fraction, and refuted for others. int, float and format are arbitrary functions. White space of the header is space and tab."},
{"property": "C138", "status": "partial", "theorems": ["C138_request_refuted", "C138_upgraded"], "note": "False for every request which is not upgraded and whose length is proper: an AttributeError is raised. Upgraded requests without a length are covered. The library itself only asks for the readers of responses."},
{"property": "C139", "status": "proved", "theorems": ["C139_runs_live", "C139_skips_dead", "C139_report", "C139_order"], "note": "For every history of calls, reports and turns, with arbitrary interleaving. A callback taken from the queue runs exactly if it is registered and not cancelled by then (runs_live, skips_dead); a poll queues exactly the live callbacks of the reported sides, reader first (report, for reports in which a descriptor occurs once, as selectors give them); the queue is first in first out and serves each entry once (order). Who is registered is computed from the calls alone."},
{"property": "C140", "status": "proved", "theorems": ["C140_tells", "C140_fresh", "C140_never_again"], "note": "tells holds for the calls made by the user, by the loop and by the socket operations; the registration is computed from the calls on the same side of the same descriptor alone, so it says also that the sides and descriptors are independent. Not modelled: closing of sockets and reuse of descriptors, a loop which is not running."},
{"property": "C141", "status": "proved", "theorems": ["C141_quiet", "C141_nothing_left", "C141_own"], "note": "For socket_receive and socket_send_all; socket_accept and socket_receive_into have the same shape, they are not modelled separately. nothing_left speaks of states in which the queue of callbacks is empty. own says as well that the loop removes only what the user cancelled."},
{"property": "C142", "status": "proved", "theorems": ["C142_sends", "C142_refused"], "note": "For views whose items are single bytes (bytes, bytearray, memoryview of them), see C143 for others. Sequences of partial sends, refusals, errors, cancellations and other operations are arbitrary."},
{"property": "C143", "status": "partial", "theorems": ["C143_truncated_refuted", "C143_hangs_refuted", "C142_sends"], "note": "False: the number of bytes sent is compared with the number of items of the view. With items of two bytes the call can return after a part was sent; with items of four bytes it never returns though all was sent, for every continuation. True for items of one byte (C142)."},
{"property": "C144", "status": "partial", "theorems": ["C144_both_refuted", "C144_receives", "C144_superseded", "C144_immediate"], "note": "False for two receives on one socket: the second one replaces the reader of the first one, which then ends only by cancellation, for every continuation. superseded says the same for every operation whose callback was replaced or removed; receives: a waiting receive whose callback is registered ends with the data when its callback runs and the socket has data."},
{"property": "C145", "status": "proved", "theorems": ["C145_tasks", "C145_bound", "C145_all", "C145_raises"], "note": "Of one call of the accept callback. Not modelled: that setblocking of the new connection fails, and what the task does."},
{"property": "C146", "status": "partial", "theorems": ["C146_pause_refuted", "C146_restarts", "C146_restarts_refuted"], "note": "False: after the failure the loop goes on, so it accepts again at once and schedules a restart for every failure; with n failures n restarts (restarts)."},
{"property": "C147", "status": "partial", "theorems": ["C147_injection_refuted", "C147_lines_refuted", "C147_token_refuted", "C147_says_partial", "C147_one_line", "C147_refuses"], "note": "Refuted: a non ascii value with a semicolon adds parameters; without quote_fields any text without quotes and backslashes, line ends included, gets into the header; tabs and commas are let through in names. Proved with quote_fields: always one line; for tokens as names and values which are ascii (without using all 96 ascii characters at once) or free of '()*,;= an independent reader gets what was given."},
{"property": "C148", "status": "partial", "theorems": ["C148_built_refuted", "C148_quoted_refuted", "C148_extended_refuted", "C148_raw_partial"], "note": "Refuted: every header whose first parameter is quoted gives nothing, so what is built is not read back; extended values come out with letters escaped. Proved for parameters which are not quoted, with lower case names."},
{"property": "C149", "status": "partial", "theorems": ["C149_eleven_refuted", "C149_apostrophe_refuted", "C149_name_refuted", "C149_joined_partial"], "note": "Refuted for more than ten pieces, for names with one apostrophe (raises), and for other names than filename. Proved for up to ten pieces without apostrophes."},
{"property": "C150", "status": "partial", "theorems": ["C150_size_partial", "C150_known", "C150_text_refuted", "C150_view_refuted", "C150_nested_refuted"], "note": "Proved for all boundaries and lists of parts whose payloads write as many bytes as they say. Refuted for files open as text (line ends are translated), for memoryviews whose items are not one byte, and for a nested writer which gets a part after it was appended."},
{"property": "C151", "status": "partial", "theorems": ["C151_parts_partial", "C151_boundary", "C151_header_refuted", "C151_content_refuted", "C151_boundary_refuted"], "note": "Proved for parts without encodings, whose headers are one line each, and in which the delimiter does not occur; every boundary of the RFC is accepted. Refuted for header values with line ends, for contents with the delimiter of a given boundary, and boundaries which the RFC does not allow are accepted."},
{"property": "C152", "status": "partial", "theorems": ["C152_type_partial", "C152_type_refuted", "C152_length_refuted"], "note": "Proved that there is one Content-Type when the given headers have none. Refuted when they have one (both are sent), and for Content-Length."},
{"property": "C153", "status": "partial", "theorems": ["C153_chunks", "C153_base64", "C153_lines_refuted"], "note": "Proved: independent of the chunks, and the base64 text of what is written without the transfer encoding, for all compressors. Refuted: the text is not cut into lines of at most 76 characters."},
{"property": "C154", "status": "partial", "theorems": ["C154_form_partial", "C154_kind", "C154_number_refuted", "C154_charset_refuted"], "note": "Proved for fields with no transfer encoding or with base64, when the headers are one line each and the delimiter does not occur; encoding utf-8. kind: when every field is a plain text or number the names and values go to the url encoder in their order, otherwise a multipart body is made or an error is raised. Refuted: a number and a file can not be in the same form, and the charset of a given content type is ignored. Quoted-printable and the url encoding itself (urllib) are not covered."},
{"property": "C155", "status": "partial", "theorems": ["C155_set_partial", "C155_determined"], "note": "Every history of operations whose in-place differences are with another set gives the results of plain sets with vanishing objects; what the sets have is determined by that. Missing: in-place -= and ^= of a set with itself, see C158; the result of len, see C156; comparisons while one of the sets is iterated, see C157."},
{"property": "C156", "status": "partial", "theorems": ["C156_len_partial", "C156_xor_refuted", "C156_negative_refuted", "C156_pop_refuted"], "note": "Right if nothing is popped from a set which is iterated and no set is changed by -= or ^= with another one which is iterated. False otherwise: ^= with an iterated set enters its dead references among the pending removals, the length is too small or negative (ValueError); pop in an iteration leaves dropped references pending. For -= with an iterated set nothing is claimed."},
{"property": "C157", "status": "partial", "theorems": ["C157_compare_partial", "C157_iterated_refuted"], "note": "Right if neither set is iterated; false while one is iterated and an element has died."},
{"property": "C158", "status": "partial", "theorems": ["C158_sub_self", "C158_self_refuted"], "note": "False for non-empty sets: RuntimeError after the removal of one element. C158_sub_self says exactly when -= fails, for sets which are not iterated."},
{"property": "C159", "status": "partial", "theorems": ["C159_copy_partial", "C159_copy_refuted"], "note": "True while no element of the set dies within the copy and the set is not iterated; false if one dies, which gives a RuntimeError."},
{"property": "C160", "status": "proved", "theorems": ["C160_returned"], "note": "For every interleaving, also of the finest grain. Exceptions which interrupt the waiting and propagate_cancellation are not modelled."},
{"property": "C161", "status": "partial", "theorems": ["C161_settled_partial", "C161_wakes_partial", "C161_add_refuted", "C161_timeouts_refuted"], "note": "True if a test and what is done because of it are not torn apart (coarse), as in CPython with its global lock from 3.10. False for finer interleavings, which older and other interpreters have: a completion between the test of the state and the addition of the callback, or two timeouts at once, leave a thread waiting for ever."},
{"property": "C162", "status": "partial", "theorems": ["C162_timeout_partial", "C162_complete_partial", "C162_index_refuted", "C162_complete_refuted"], "note": "True for a timeout which is not disturbed. False otherwise: a completion while remove_done_callback walks over the list gives an IndexError out of wait(), also in coarse interleavings; in finer ones the completion itself fails with an IndexError."},
{"property": "C163", "status": "partial", "theorems": ["C163_suspended_partial", "C163_one_partial", "C163_resumes", "C163_again_refuted", "C163_started_refuted", "C163_stopped_refuted"], "note": "True if each suspender is used once and is entered while the loop is running. False if it is used again (its events stay set), or if the loop is started within the block; a loop which stops first leaves the thread waiting."},
{"property": "C164", "status": "partial", "theorems": ["C164_order", "C164_all_partial", "C164_reported_partial", "C164_flushed_partial", "C164_empty_refuted", "C164_writelines_refuted", "C164_no_address_refuted"], "note": "Order, at most once and the address for every history. Nothing is left out when the socket never refuses; refusals (OSError) are counted by error_received when there is no other exception, close or abort; closing flushes when the socket then takes all. Refuted: empty datagrams are dropped silently, writelines throws everything away, and a send_to without an address on an unconnected socket closes the transport and drops the datagrams of others. Pausing of the protocol is not modelled."},
{"property": "C165", "status": "partial", "theorems": ["C165_once", "C165_silent", "C165_closed_refuted"], "note": "For every history connection_lost is called at most once and nothing is sent after it. Refuted: after a close with something waiting, send_to on the lost transport writes an exception (the socket is gone) instead of doing nothing."},
{"property": "C166", "status": "proved", "theorems": ["C166_separate"], "note": "For every sequence of events the reader of an address has been given exactly what this address has sent, in order."},
{"property": "C167", "status": "partial", "theorems": ["C167_pair", "C167_kind", "C167_at_once", "C167_at_once_any", "C167_waits", "C167_next_partial", "C167_address_refuted", "C167_lost_refuted"], "note": "Calls without an address return what comes next; calls return at once, with the right reader, when something came before. Refuted: a waiting call for an address returns the reader of whichever address sends next (the address is overwritten and compared with itself); calls which wait when the connection is lost wait for ever. next_partial is about calls without an address only."},
{"property": "C168", "status": "partial", "theorems": ["C168_block", "C168_rest_partial", "C168_all_partial", "C168_cancelled_refuted"], "note": "The block is in the executor for every interleaving, cancelled or not. What follows is in the loop, and all of it is done, when the task is not cancelled. Refuted: cancelled while the block works, what follows the block is done in the executor's thread. The block and the rest raise nothing of their own and the rest does not await."},
{"property": "C169", "status": "partial", "theorems": ["C169_awaiting_partial", "C169_working_refuted", "C169_entering_refuted", "C169_awaited_refuted"], "note": "Proved for one cancellation while the block awaits a pending future, with any interleaving before and after. Refuted for three other moments: while the block works (the task is done but its callbacks are never scheduled), before a thread has begun with the task, and while the block works after an await (the task is never done)."},
{"property": "C170", "status": "partial", "theorems": ["C170_response_partial", "C170_request_partial", "C170_close_partial", "C170_cancelled_refuted", "C170_early_refuted"], "note": "Proved: without cancelled reads a kept connection had its whole response received; a request sent whole before the rest stays so; without cancelled reads before it, closing a response which has its connection closes the connection. False when a reading task is cancelled (the connection is kept in the middle of the body), and when the response ends before the request was sent (the writer is stopped, the connection kept)."},
{"property": "C171", "status": "partial", "theorems": ["C171_at_once_partial", "C171_streamed_refuted"], "note": "Proved for responses without a body and for bodies which come together with the head. False for every body whose end comes later: the connection is always closed."},
{"property": "C172", "status": "partial", "theorems": ["C172_one_partial", "C172_again", "C172_concurrent_refuted", "C172_failed_refuted"], "note": "Proved: with one reading task and no cancellation each body given is all that was received, and the response is complete; once a body is stored each read gives it. False when two tasks read at once (the second and all later reads give an empty body), and after a failed read (the next gives None)."}
]}
