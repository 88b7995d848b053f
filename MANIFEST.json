{
 "claims": [
  {
   "property": "C01",
   "status": "proved",
   "theorems": [
    "C01_chunked_round_trip"
   ],
   "note": "Sender: dispatch/conn/encode loop over the user's frames; receiver: chunked decoder polled to the end."
  },
  {
   "property": "C02",
   "status": "proved",
   "theorems": [
    "C02_length_exact"
   ],
   "note": ""
  },
  {
   "property": "C03",
   "status": "proved",
   "theorems": [
    "C03_length_truncated",
    "C03_chunked_truncated"
   ],
   "note": ""
  },
  {
   "property": "C04",
   "status": "proved",
   "theorems": [
    "C04_fragmentation_independent"
   ],
   "note": ""
  },
  {
   "property": "C05",
   "status": "proved",
   "theorems": [
    "C05_chunked_sound"
   ],
   "note": "A trailer line is any non-empty CR-free byte string, as in the code; a bare LF is possible inside a trailer line (finding F1 in DESIGN.md) but never ends a chunk-size line."
  },
  {
   "property": "C06",
   "status": "proved",
   "theorems": [
    "C06_chunk_size_overflow",
    "C06_chunk_size_exact"
   ],
   "note": ""
  },
  {
   "property": "C07",
   "status": "proved",
   "theorems": [
    "C07_completed_within_limits",
    "C07_over_limit_fails",
    "C07_memory_bounded"
   ],
   "note": ""
  },
  {
   "property": "C08",
   "status": "proved",
   "theorems": [
    "C08_trailers_round_trip"
   ],
   "note": "With the reference header-block parser M_Httparse standing for httparse on blocks hyper itself writes."
  },
  {
   "property": "C09",
   "status": "proved",
   "theorems": [
    "C09_length_sender"
   ],
   "note": ""
  },
  {
   "property": "C10",
   "status": "proved",
   "theorems": [
    "C10_one_step_or_two"
   ],
   "note": ""
  },
  {
   "property": "C11",
   "status": "proved",
   "theorems": [
    "C11_trailer_filter",
    "C11_names_only",
    "C11_request_announced",
    "C11_response_announced"
   ],
   "note": "Also that the names allowed are those which the Trailer fields of the head announce."
  },
  {
   "property": "C12",
   "status": "proved",
   "theorems": [
    "C12_request_framing"
   ],
   "note": ""
  },
  {
   "property": "C13",
   "status": "proved",
   "theorems": [
    "C13_te_and_cl"
   ],
   "note": "The connection side (no reuse after a message with keep-alive off) is C29/C30."
  },
  {
   "property": "C14",
   "status": "proved",
   "theorems": [
    "C14_content_length_exact",
    "C14_content_length_request"
   ],
   "note": ""
  },
  {
   "property": "C15",
   "status": "proved",
   "theorems": [
    "C15_response_framing"
   ],
   "note": ""
  },
  {
   "property": "C16",
   "status": "proved",
   "theorems": [
    "C16_server_response_framing",
    "C16_server_error",
    "C16_lengths_must_agree",
    "C16_length_not_checked_refuted",
    "C16_bodyless",
    "C16_connect",
    "C16_bodyless_refuted"
   ],
   "note": "A user-supplied Content-Length is trusted as announced length (finding F8). Responses without a body by status carry no length unless the application names one (finding F65)."
  },
  {
   "property": "C17",
   "status": "proved",
   "theorems": [
    "C17_client_request_framing",
    "C17_client_server_agree",
    "C17_message_end",
    "C17_no_body_length_refuted",
    "C17_te_and_bad_length_refuted",
    "C17_added_te_bad_length_refuted",
    "C17_list_length_refuted",
    "C17_body_dropped_refuted"
   ],
   "note": "Proved when the application's own framing headers are sane (Transfer-Encoding is text; Content-Length absent or one number; 0 if no body). Outside it is refuted: findings F11-F14."
  },
  {
   "property": "C18",
   "status": "proved",
   "theorems": [
    "C18_server_client_agree",
    "C18_message_end",
    "C18_te_not_text_refuted",
    "C18_huge_length_refuted"
   ],
   "note": "Under the stated hypotheses on user-supplied Transfer-Encoding/Content-Length; outside them refuted (findings F9, F10)."
  },
  {
   "property": "C19",
   "status": "proved",
   "theorems": [
    "C19_server_close",
    "C19_http11_persists",
    "C19_client_persists",
    "C19_client_close",
    "C19_http10_needs_keep_alive",
    "C19_http10_client",
    "C19_repeated_connection_refuted",
    "C19_http10_both_refuted"
   ],
   "note": "The unconditional reading is false: a later keep-alive line re-enables reuse (refuted with witness, finding F4). Proved whenever the line with close and the lines after it do not also ask for keep-alive."
  },
  {
   "property": "C20",
   "status": "proved",
   "theorems": [
    "C20_write_fifo",
    "C20_flush_complete",
    "C20_flush_reports",
    "C20_flush_progress",
    "C20_default_vectored_refuted",
    "C20_ungated_head_refuted"
   ],
   "note": "Body buffers are assumed to meet the contract of chunks_vectored (F15). A head is only added when can_headers_buf allows it; without that gate the order is lost (C20_ungated_head_refuted)."
  },
  {
   "property": "C21",
   "status": "proved",
   "theorems": [
    "C21_backpressure",
    "C21_backpressure_fresh",
    "C21_pipeline_flush_refuted",
    "C21_default"
   ],
   "note": "Without pipeline_flush. The end of a chunked body is not gated, so it can be the seventeenth buffer; with pipeline_flush there is no bound (refuted)."
  },
  {
   "property": "C22",
   "status": "proved",
   "theorems": [
    "C22_not_refused_early",
    "C22_refused",
    "C22_bound"
   ],
   "note": "For every head parser with the contract head_parser (what httparse promises about where a head ends)."
  },
  {
   "property": "C23",
   "status": "proved",
   "theorems": [
    "C23_bounds",
    "C23_shrink",
    "C23_grow"
   ],
   "note": ""
  },
  {
   "property": "C24",
   "status": "proved",
   "theorems": [
    "C24_scan",
    "C24_split",
    "C24_shortcut",
    "C24_http09_refuted"
   ],
   "note": "For every head parser with the contract head_parser; HTTP/0.9 responses break it (F16)."
  },
  {
   "property": "C25",
   "status": "proved",
   "theorems": [
    "C25_conservation"
   ],
   "note": ""
  },
  {
   "property": "C26",
   "status": "proved",
   "theorems": [
    "C26_stream",
    "C26_no_false_eof",
    "C26_leftover_first",
    "C26_read_fits",
    "C26_upgrade"
   ],
   "note": "Writes are forwarded by one-line methods (rewind.rs 79-109) that are not modelled."
  },
  {
   "property": "C27",
   "status": "proved",
   "theorems": [
    "C27_list_remaining",
    "C27_list_advance",
    "C27_list_copy",
    "C27_list_vectored",
    "C27_list_chunk",
    "C27_list_copy_too_much",
    "C27_buffer",
    "C27_encode",
    "C27_encode_end",
    "C27_default_vectored_refuted"
   ],
   "note": ""
  },
  {
   "property": "C28",
   "status": "proved",
   "theorems": [
    "C28_one_exchange_at_a_time",
    "C28_exchange_complete",
    "C28_client"
   ],
   "note": "Over every execution of the dispatcher model; the rules are the automata of S_Conn."
  },
  {
   "property": "C29",
   "status": "proved",
   "theorems": [
    "C29_incoming_close",
    "C29_response_close",
    "C29_request_close",
    "C29_broken_server",
    "C29_broken_client",
    "C29_ruled_out",
    "C29_graceful"
   ],
   "note": ""
  },
  {
   "property": "C30",
   "status": "proved",
   "theorems": [
    "C30_idle_means_complete"
   ],
   "note": ""
  },
  {
   "property": "C31",
   "status": "proved",
   "theorems": [
    "C31_continue_once"
   ],
   "note": ""
  },
  {
   "property": "C32",
   "status": "proved",
   "theorems": [
    "C32_http10_explicit",
    "C32_any_version_refuted"
   ],
   "note": "For messages with version 1.0 or 1.1; refuted for a response with version HTTP/2 (F17)."
  },
  {
   "property": "C33",
   "status": "proved",
   "theorems": [
    "C33_partial_request",
    "C33_idle_server",
    "C33_busy_server",
    "C33_half_close",
    "C33_body",
    "C33_no_response",
    "C33_upload",
    "C33_idle_client",
    "C33_unused_client_refuted"
   ],
   "note": "Exception found: a client connection that was never used reports an incomplete message when the peer closes it (F31)."
  },
  {
   "property": "C34",
   "status": "proved",
   "theorems": [
    "C34_fresh",
    "C34_reported",
    "C34_race_refuted",
    "C34_race_answered_refuted"
   ],
   "note": "Exception found: with a send that overlaps a poll, a second response sent ahead is taken for the answer to the next request (F32)."
  },
  {
   "property": "C35",
   "status": "proved",
   "theorems": [
    "C35_one_outcome",
    "C35_all_answered",
    "C35_right_request"
   ],
   "note": "For the HTTP/1 client connection, over every execution of the dispatcher model."
  },
  {
   "property": "C36",
   "status": "proved",
   "theorems": [
    "C36_returned_unsent",
    "C36_bytes_have_owner"
   ],
   "note": "For the HTTP/1 client connection."
  },
  {
   "property": "C37",
   "status": "proved",
   "theorems": [
    "C37_in_order",
    "C37_trailers_last",
    "C37_clean_end",
    "C37_remaining",
    "C37_remaining_unknown",
    "C37_all_delivered",
    "C37_not_refused",
    "C37_end_means_complete",
    "C37_every_body_ends",
    "C37_h2_in_order",
    "C37_h2_clean_end",
    "C37_h2_remaining",
    "C37_h2_head_refuted",
    "C37_clean_end_refuted",
    "C37_h2_truncated_refuted"
   ],
   "note": "Channel and connection side; a clean end means a whole message. Exceptions found: a body completed after the response can end with an error (F28); a reset HTTP/2 response can end cleanly (F27)."
  },
  {
   "property": "C38",
   "status": "proved",
   "theorems": [
    "C38_asked_for",
    "C38_one_waiting",
    "C38_one_waiting_refuted",
    "C38_connection",
    "C38_closed"
   ],
   "note": "At most one request beyond those asked for is ever accepted; a send is two steps, and with polls in between up to three requests can wait (F18)."
  },
  {
   "property": "C39",
   "status": "proved",
   "theorems": [
    "C39_one_ahead",
    "C39_asked_first",
    "C39_holds_back",
    "C39_first_chunk_refuted"
   ],
   "note": "Statement amended: one piece may be taken ahead unless 100-continue is expected (F26)."
  },
  {
   "property": "C40",
   "status": "proved",
   "theorems": [
    "C40_answered",
    "C40_no_more",
    "C40_says_close",
    "C40_idle_closes",
    "C40_answered_refuted",
    "C40_answered_always_refuted"
   ],
   "note": "'No further request is started' except the connection's first one when part of it had arrived. Idle closing for a connection without a waiting upgrade. Exception found: a response with a chunked header and no body can lose its last chunk (F30)."
  },
  {
   "property": "C41",
   "status": "proved",
   "theorems": [
    "C41_stripped",
    "C41_single_lines",
    "C41_sent",
    "C41_repeated_lines_refuted"
   ],
   "note": "With at most one Connection and one TE line the full statement; with repeated lines only the first is looked at (F21)."
  },
  {
   "property": "C42",
   "status": "proved",
   "theorems": [
    "C42_sent",
    "C42_whole",
    "C42_finishes"
   ],
   "note": "h2's answers are arbitrary; on the client a cancelled request ends with a reset. C42_whole assumes that is_end_stream tells the truth."
  },
  {
   "property": "C43",
   "status": "proved",
   "theorems": [
    "C43_window",
    "C43_settles",
    "C43_patient",
    "C43_builder",
    "C43_shrink_refuted",
    "C43_spaced"
   ],
   "note": "Floating-point comparisons are arbitrary booleans. The limit of 16 MiB and no shrinking for an initial window within it; the builders only allow 65535 (C43_builder)."
  },
  {
   "property": "C44",
   "status": "proved",
   "theorems": [
    "C44_dead",
    "C44_idle",
    "C44_no_panic",
    "C44_not_silent_refuted"
   ],
   "note": "h2 refuses a ping only while one is outstanding (its contract). The awaited ping may be a window probe already under way. Data received after the ping does not keep the connection alive (F23)."
  },
  {
   "property": "C45",
   "status": "proved",
   "theorems": [
    "C45_in_order",
    "C45_end",
    "C45_complete",
    "C45_failure_reported",
    "C45_shutdown",
    "C45_drains",
    "C45_read",
    "C45_read_end",
    "C45_lost_write_refuted",
    "C45_read_cancel_refuted"
   ],
   "note": "Exception found: a write accepted between two checks of the task is lost (F24). A reset with CANCEL reads as end of stream (F25)."
  },
  {
   "property": "C46",
   "status": "proved",
   "theorems": [
    "C46_refines",
    "C46_observed",
    "C46_fresh",
    "C46_safe",
    "C46_adapter",
    "C46_adapter_refuted",
    "C46_set"
   ],
   "note": "Also the unsafe operations under their documented contracts, and the adapter for tokio buffers (F22)."
  },
  {
   "property": "C47",
   "status": "proved",
   "theorems": [
    "C47_reason_phrase"
   ],
   "note": ""
  },
  {
   "property": "C48",
   "status": "proved",
   "theorems": [
    "C48_server_fields",
    "C48_client_fields",
    "C48_chunked_leaks_refuted"
   ],
   "note": "For Connection on the server the values are joined in one line, and the F7 leak is excluded by hypothesis."
  },
  {
   "property": "C49",
   "status": "proved",
   "theorems": [
    "C49_not_early",
    "C49_in_time",
    "C49_rest_refuted"
   ],
   "note": "Exception found: the timer is not started when the response body ends between the two write attempts of one round (F29)."
  },
  {
   "property": "C50",
   "status": "proved",
   "theorems": [
    "C50_no_lost_wakeup",
    "C50_wake_follows",
    "C50_value",
    "C50_drop_told"
   ],
   "note": "AtomicWaker by its contract; sequentially consistent atomics."
  },
  {
   "property": "C51",
   "status": "proved",
   "theorems": [
    "C51_close_wakes",
    "C51_close_seen"
   ],
   "note": "AtomicWaker by its contract; sequentially consistent atomics."
  },
  {
   "property": "C52",
   "status": "proved",
   "theorems": [
    "C52_obs_fold",
    "C52_unfolded_unchanged"
   ],
   "note": "CR only before LF is what httparse guarantees of the value; it is a hypothesis here."
  },
  {
   "property": "C53",
   "status": "proved",
   "theorems": [
    "C53_date",
    "C53_backwards_refuted"
   ],
   "note": "The formatter is a parameter."
  },
  {
   "property": "C54",
   "status": "proved",
   "theorems": [
    "C54_lengths_never_confused",
    "C54_from_opt"
   ],
   "note": ""
  },
  {
   "property": "C55",
   "status": "proved",
   "theorems": [
    "C55_no_body_bytes",
    "C55_connection"
   ],
   "note": ""
  },
  {
   "property": "C56",
   "status": "proved",
   "theorems": [
    "C56_one_error_response",
    "C56_text",
    "C56_not_http2"
   ],
   "note": ""
  },
  {
   "property": "C57",
   "status": "proved",
   "theorems": [
    "C57_decoder_total"
   ],
   "note": ""
  },
  {
   "property": "C58",
   "status": "proved",
   "theorems": [
    "C58_stream_order",
    "C58_shutdown_complete",
    "C58_order_refuted",
    "C58_continue_order_refuted",
    "C58_pipeline_refuted"
   ],
   "note": "Body buffers are assumed to meet the contract of chunks_vectored (F15). A server with a vectored transport is covered until it writes a 100 Continue or an automatic error response (F19); shutdown without pipeline_flush (F20)."
  },
  {
   "property": "C59",
   "status": "proved",
   "theorems": [
    "C59_one_answer",
    "C59_response",
    "C59_request",
    "C59_sent",
    "C59_bodiless_refuted"
   ],
   "note": "Content-Length not named by Connection. Exception found: HEAD, 204 and 304 get the body the program gives (F34)."
  },
  {
   "property": "C60",
   "status": "proved",
   "theorems": [
    "C60_each_request_served",
    "C60_when_it_ends",
    "C60_no_such_connect",
    "C60_graceful_first",
    "C60_gives_up",
    "C60_ends_early_refuted"
   ],
   "note": "Exception found: a CONNECT that announces a body ends the whole connection with success (F35)."
  },
  {
   "property": "C61",
   "status": "proved",
   "theorems": [
    "C61_one_outcome",
    "C61_all_answered",
    "C61_own_response",
    "C61_handed_back",
    "C61_cancelled_unsent",
    "C61_body",
    "C61_cancel_resets",
    "C61_taken",
    "C61_right_request",
    "C61_when_it_ends",
    "C61_no_body_in_tunnel",
    "C61_error_lost_refuted",
    "C61_tunnel_refuted",
    "C61_connect_body_refuted"
   ],
   "note": "Observations: a request waiting for its stream loses the connection's error (F36); client and server differ on tunnels for 2xx (F37); the body of a CONNECT can be dropped (F38)."
  },
  {
   "property": "C62",
   "status": "proved",
   "theorems": [
    "C62_reported",
    "C62_which",
    "C62_aborted",
    "C62_aborted_refuted",
    "C62_aborted_always_refuted"
   ],
   "note": "Exception found: a body that is too short and announces its last buffer ends the connection without an error (F39)."
  },
  {
   "property": "C63",
   "status": "proved",
   "theorems": [
    "C63_request_parsed",
    "C63_response_parsed",
    "C63_response_encoded",
    "C63_trailers",
    "C63_te"
   ],
   "note": "For a client: as long as no request head failed to be encoded."
  },
  {
   "property": "C64",
   "status": "proved",
   "theorems": [
    "C64_only_asked",
    "C64_last",
    "C64_flushed",
    "C64_declined_refuted",
    "C64_always_flushed_refuted",
    "C64_bodies_flushed_refuted"
   ],
   "note": "Exceptions found: a declined upgrade is still handed over at the end (F40); the switching response can be lost (F41)."
  },
  {
   "property": "C65",
   "status": "proved",
   "theorems": [
    "C65_received",
    "C65_deterministic",
    "C65_same_data",
    "C65_handover",
    "C65_upgraded",
    "C65_handover_always_refuted"
   ],
   "note": "Assumes of the head parser (httparse and role.rs, a parameter of the model): it takes no more than it was given; for the last three, that what it says about a head depends on that head's bytes only. Exception found: the rest of a dropped request body is handed over (F42)."
  },
  {
   "property": "C66",
   "status": "proved",
   "theorems": [
    "C66_request_parser",
    "C66_requests",
    "C66_same_requests",
    "C66_client_call",
    "C66_cut_anywhere",
    "C66_responses",
    "C66_no_panic",
    "C66_no_panic_ever_refuted"
   ],
   "note": "Assumes of httparse: a complete head is not empty and its meaning depends on its own bytes only (hp_ok); for C66_no_panic that it returns no more lines than there is room for. Exception found: max_headers above 24576 lets a peer panic the connection task (F43)."
  },
  {
   "property": "C67",
   "status": "proved",
   "theorems": [
    "C67_verdict",
    "C67_refuses",
    "C67_refused",
    "C67_answered",
    "C67_at_once",
    "C67_at_once_always_refuted"
   ],
   "note": "Assumes of httparse: the contract of C66, at most 24576 lines, no status error for a request. Exceptions found: an unsupported Content-Length gets 431 (F44); a refused head followed by an HTTP/2 preface is not answered (F45)."
  },
  {
   "property": "C68",
   "status": "proved",
   "theorems": [
    "C68_seen",
    "C68_flagged",
    "C68_ready",
    "C68_ready_flat",
    "C68_seen_always_refuted",
    "C68_ready_always_refuted"
   ],
   "note": "Two lost wake-ups found: a response body that ends in the second write of a round leaves a pipelined request unread (F46); a response still queued when the next request arrives leaves the service unpolled (F47). The statements exclude exactly these cases."
  },
  {
   "property": "C69",
   "status": "proved",
   "theorems": [
    "C69_lines",
    "C69_heard",
    "C69_continue",
    "C69_answered",
    "C69_tunnel",
    "C69_connect_alone",
    "C69_connect_refuted"
   ],
   "note": "Assumes of httparse the contract of C66. Exception found: an Upgrade line in an HTTP/1.0 CONNECT request takes the tunnel back (F48)."
  },
  {
   "property": "C70",
   "status": "proved",
   "theorems": [
    "C70_once",
    "C70_says_close",
    "C70_no_promise",
    "C70_no_promise_refuted"
   ],
   "note": "Exception found: to an HTTP/1.0 peer the application's own Connection: keep-alive goes out although the connection is closed (F49)."
  },
  {
   "property": "C71",
   "status": "proved",
   "theorems": [
    "C71_outcome",
    "C71_none",
    "C71_once",
    "C71_transport",
    "C71_no_panic",
    "C71_woken",
    "C71_course",
    "C71_server",
    "C71_all_woken_refuted",
    "C71_never_panics_refuted",
    "C71_declined_refuted"
   ],
   "note": "tokio's oneshot channel is taken by its contract. Exceptions found, all with clones or declined upgrades: two tasks waiting on clones (F50), polling a clone after another got the result (F51), an upgrade that was declined (F40)."
  },
  {
   "property": "C72",
   "status": "proved",
   "theorems": [
    "C72_asked",
    "C72_flagged",
    "C72_seen",
    "C72_ready",
    "C72_asked_always_refuted",
    "C72_flagged_queue_refuted"
   ],
   "note": "The unrestricted claim is false in two cases: the second flush of a round (F52) and queued writes (F53)."
  },
  {
   "property": "C73",
   "status": "proved",
   "theorems": [
    "C73_null",
    "C73_course",
    "C73_place",
    "C73_value",
    "C73_output",
    "C73_type",
    "C73_push",
    "C73_returns",
    "C73_dead_after_panic",
    "C73_returns_refuted",
    "C73_null_after_panic_refuted"
   ],
   "note": "FuturesUnordered is taken by its contract. Without the bound on wakes a call need not return (F54); after a panic of a task NULL is returned although tasks are due (F55)."
  },
  {
   "property": "C74",
   "status": "proved",
   "theorems": [
    "C74_code",
    "C74_foreach",
    "C74_wire",
    "C74_lines",
    "C74_received",
    "C74_received_order",
    "C74_received_plain",
    "C74_set_several_refuted",
    "C74_add_to_received_refuted"
   ],
   "note": "A set on a name with several lines hides later lines from foreach (F56); a header added to a head received without both options hides or mixes up received ones (F57)."
  },
  {
   "property": "C75",
   "status": "proved",
   "theorems": [
    "C75_sent",
    "C75_delivered",
    "C75_end_to_end"
   ],
   "note": "httparse enters by the contracts hp_ok, reads_requests and reads_trailers, which the reference parser is proved to keep. With a Content-Length shorter than the data the server receives only that many bytes (F58)."
  },
  {
   "property": "C76",
   "status": "proved",
   "theorems": [
    "C76_server_records",
    "C76_client_records",
    "C76_request",
    "C76_response",
    "C76_request_passed_on",
    "C76_response_passed_on"
   ],
   "note": "For the fields that hyper does not rewrite itself: all but Content-Length and Transfer-Encoding in requests, all but these and Connection, Trailer and Date in responses."
  },
  {
   "property": "C77",
   "status": "proved",
   "theorems": [
    "C77_eof_after_end",
    "C77_eof_heard",
    "C77_last_reference",
    "C77_last_reference_one_thread",
    "C77_last_reference_refuted",
    "C77_not_cut",
    "C77_ends"
   ],
   "note": "The last part is proved when h2 tells its connection that the SendRequest is gone, or when the tasks share a thread; refuted otherwise (F59)."
  },
  {
   "property": "C78",
   "status": "proved",
   "theorems": [
    "C78_sent",
    "C78_taken",
    "C78_answers_requests"
   ],
   "note": "For services that hand over responses (good_service: no request heads, pieces of data below 2^64 bytes). C78_taken holds where the order of the stream is kept (C58 says where it is not). The automatic error response and what Server::encode leaves of a head it refuses are part of the statement."
  },
  {
   "property": "C79",
   "status": "proved",
   "theorems": [
    "C79_delivered",
    "C79_end_to_end"
   ],
   "note": "Hypotheses: the client reads a beginning of what the server's transport took, in order (C58); no error response of the connection itself and no refused head in the server's log (only_replies); no failed head on the client; HTTP/0.9 responses off; the request methods on both sides agree (C75_end_to_end is about that direction); httparse by contract (hp_ok, reads_responses, reads_trailers), proved of the reference parser."
  },
  {
   "property": "C80",
   "status": "proved",
   "theorems": [
    "C80_conversation"
   ],
   "note": "Both ends are runs of the connection model; each reads a beginning of what the other's transport took. Hypotheses as in C75_end_to_end and C79_end_to_end without the agreement on methods, which is derived. HTTP/0.9 responses off on the client."
  },
  {
   "property": "C81",
   "status": "proved",
   "theorems": [
    "C81_data",
    "C81_foreach",
    "C81_received",
    "C81_user_body",
    "C81_write",
    "C81_read",
    "C81_read_nothing",
    "C81_write_refuted",
    "C81_read_unchecked_refuted",
    "C81_user_buffer_refuted"
   ],
   "note": "The statement restricts the transport part to less than 4 GiB - 2 bytes offered at once; without that it is false (C81_write_refuted). C81_read assumes that the callback tells the truth about how much it wrote; if not, C81_read_unchecked_refuted. The link to the connection (C81_received) is for the HTTP/1 kind of body."
  },
  {
   "property": "C82",
   "status": "proved",
   "theorems": [
    "C82_find",
    "C82_reason_forwarded",
    "C82_reason_from_h2",
    "C82_reason_transport",
    "C82_timeout",
    "C82_keep_alive_timeout",
    "C82_classes",
    "C82_too_large",
    "C82_code",
    "C82_reason_tunnel_refuted",
    "C82_header_timeout_refuted",
    "C82_answers",
    "C82_tunnel_transparent"
   ],
   "note": "h2::Error, std::io::Error and foreign errors are modelled by what reason() and source() return. The reason is not kept by a tunnel's io::Error (C82_reason_tunnel_refuted); the statement is about wrappers that return the wrapped error as their source."
  },
  {
   "property": "C83",
   "status": "proved",
   "theorems": [
    "C83_too_large",
    "C83_accepted",
    "C83_no_failure",
    "C83_conversation"
   ],
   "note": "httparse by contract: in addition to C66/C75, a complete head ends with an empty line and a proper beginning of one is Partial (waits_for_rest, proved of the reference parser). C83_no_failure is about the parse errors that have a response; the others (HTTP/2 preface) are not errors of a head. C83_conversation still assumes that no response of the application is refused by the encoder (no_failed_head)."
  },
  {
   "property": "C84",
   "status": "proved",
   "theorems": [
    "C84_failed",
    "C84_encodes",
    "C84_server",
    "C84_client",
    "C84_conversation",
    "C84_order_refuted",
    "C84_exact",
    "C84_exact_client"
   ],
   "note": "The conditions on a response (reply_writable) are sufficient; C84_order_refuted shows why they cannot be necessary without mentioning the order of the fields (F62); C84_exact states the necessary and sufficient condition (encodable), with the order. C84_conversation still assumes that the bytes go out in order (in_order, C58)."
  },
  {
   "property": "C85",
   "status": "proved",
   "theorems": [
    "C85_server",
    "C85_server_panics",
    "C85_no_later_panic",
    "C85_once",
    "C85_client",
    "C85_client_panics",
    "C85_no_exact_size_refuted",
    "C85_h2",
    "C85_h2_refused",
    "C85_h2_panics",
    "C85_h2_pings",
    "C85_h2_no_later_panic_refuted"
   ],
   "note": "The claim about later panics is made for HTTP/1 only; for HTTP/2 it is false (F64). Settings that hyper only passes on to h2 are not modelled. F63: read_buf_exact_size(None) removes the buffer limit."
  }
 ]
}