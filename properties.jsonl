{"id": "C01", "title": "Chunked bodies survive the wire byte-for-byte", "statement": "Whatever sequence of non-empty data buffers an HTTP/1 sender pushes through a chunked body and then ends, the receiving side delivers data whose concatenation is exactly the concatenation of those buffers, then reports a clean end of body, and leaves every byte that follows the body on the connection unread.", "quantifier": "for every list of non-empty buffers (each shorter than 2^64 bytes), every byte string following the message, and every way the transport fragments or delays the bytes", "why_tests_cant": "The space of chunk sizes times fragmentations times following bytes is infinite; a test fixes a handful of splits.", "anchors": ["src/proto/h1/encode.rs: Encoder::encode, Encoder::end, ChunkSize", "src/proto/h1/decode.rs: Decoder::decode, ChunkedState::step"]}
{"id": "C02", "title": "Content-Length bodies deliver exactly the declared bytes", "statement": "A receiver of a message framed with Content-Length n delivers exactly the first n bytes after the head, reports the end only after all n, and never consumes a byte beyond them.", "quantifier": "for every n below 2^64-2, every byte stream, every fragmentation and every cap the reader puts on one read", "why_tests_cant": "Off-by-one or over-read errors depend on where reads split relative to the boundary; only induction covers all splits.", "anchors": ["src/proto/h1/decode.rs: Decoder::decode (Kind::Length)", "src/proto/h1/io.rs: MemRead::read_mem for Buffered"]}
{"id": "C03", "title": "A truncated body is never reported as complete", "statement": "If the peer closes the connection before the declared Content-Length bytes, or before the terminating chunk and final CRLF of a chunked body have arrived, the body ends with an error and never with a clean end of stream.", "quantifier": "for every proper prefix of every well-formed body, every fragmentation", "why_tests_cant": "Requires every truncation point of every body; truncation attacks pick the untested point.", "anchors": ["src/proto/h1/decode.rs: Decoder::decode, byte! macro, ChunkedState::read_body"]}
{"id": "C04", "title": "Body decoding does not depend on how the network splits the bytes", "statement": "Two transports that deliver the same byte stream and end the same way, but cut into reads differently and with different pauses, lead to the same delivered body bytes, the same trailers, the same success or failure and, when the body completes, the same number of consumed bytes.", "quantifier": "for all byte streams and all pairs of fragmentations", "why_tests_cant": "Relational property over pairs of schedules; tests compare only chosen pairs.", "anchors": ["src/proto/h1/decode.rs: Decoder::decode, ChunkedState::step"]}
{"id": "C05", "title": "Only well-formed chunked bodies are accepted", "statement": "When a chunked body is reported as complete, the consumed bytes are exactly a sequence of chunks (hex size, optional extension without a bare LF, CRLF, that many bytes, CRLF) followed by a zero-size chunk, a trailer section and CRLF, and the delivered data is the concatenation of the chunk contents. No bare LF and no other terminator is ever taken for a chunk-line end.", "quantifier": "for every byte stream whatsoever", "why_tests_cant": "Soundness against an adversarial grammar; request smuggling exploits the one odd string nobody tested.", "anchors": ["src/proto/h1/decode.rs: ChunkedState::{read_start,read_size,read_size_lws,read_extension,read_size_lf,read_body_cr,read_body_lf,read_end_cr,read_end_lf}"]}
{"id": "C06", "title": "Chunk sizes are read exactly or rejected", "statement": "A chunk-size line is interpreted as its mathematical hexadecimal value; if that value does not fit in 64 bits the body fails, it never wraps around to a smaller size.", "quantifier": "for every string of hex digits of any length", "why_tests_cant": "Overflow occurs only at huge inputs; wrap-around classes are infinite.", "anchors": ["src/proto/h1/decode.rs: or_overflow!, ChunkedState::read_start, ChunkedState::read_size"]}
{"id": "C07", "title": "Chunk extensions and trailers cannot grow without bound", "statement": "A completed chunked body contained fewer than 16384 bytes of chunk extensions over its whole length, at most the configured number of trailer lines, and its retained trailer buffer never exceeds the configured size; a body that exceeds one of the limits fails.", "quantifier": "for every byte stream, every number of chunks, every configured limit", "why_tests_cant": "Limits are cumulative over unboundedly many chunks; a test checks one accumulation pattern.", "anchors": ["src/proto/h1/decode.rs: CHUNKED_EXTENSIONS_LIMIT, TRAILER_LIMIT, read_extension, put_u8!, read_trailer_lf, read_end_cr"]}
{"id": "C08", "title": "Trailers survive the wire", "statement": "Trailer fields that the sender is allowed to send after a chunked body are received byte-for-byte as the trailer section of that body, after all data, and exactly once.", "quantifier": "for every list of well-formed trailer fields under the limits, every body before it and every fragmentation", "why_tests_cant": "Composition of encoder, chunk framing and trailer buffering over all inputs.", "anchors": ["src/proto/h1/encode.rs: Encoder::encode_trailers", "src/proto/h1/decode.rs: read_trailer, read_trailer_lf, read_end_cr, read_end_lf, decode_trailers"]}
{"id": "C09", "title": "A length-framed sender never writes more body bytes than it declared", "statement": "For a message sent with Content-Length n, the body bytes put on the wire are exactly the first n bytes of what the application produced; if the application produces fewer than n bytes, the message is not treated as finished: finishing reports an error or the connection is not reused.", "quantifier": "for every n and every sequence of body buffers of any sizes", "why_tests_cant": "Sum of unboundedly many buffer sizes versus n; overrun happens only at particular splits.", "anchors": ["src/proto/h1/encode.rs: Encoder::encode, Encoder::end, Encoder::encode_and_end", "src/proto/h1/conn.rs: Conn::write_body, Conn::write_body_and_end, Conn::end_body"]}
{"id": "C10", "title": "Sending the last buffer in one step or in two gives the same bytes", "statement": "Handing the final body buffer over together with the end-of-body produces the same wire bytes as sending the buffer and then ending the body, for each framing; in the case where the declared length is not reached both refuse to keep the connection for reuse.", "quantifier": "for every encoder state and every buffer", "why_tests_cant": "Equivalence of two code paths over all states.", "anchors": ["src/proto/h1/encode.rs: Encoder::encode_and_end, Encoder::encode, Encoder::end"]}
{"id": "C11", "title": "Forbidden or unannounced trailers are never written", "statement": "No field written in a trailer section is outside the names the application announced in its Trailer header, and none is a framing, routing, authentication or content-description field (content-length, transfer-encoding, host, authorization, ...). Trailers are written only for chunked bodies.", "quantifier": "for every set of announced names, every trailer map", "why_tests_cant": "Universal over field names and maps.", "anchors": ["src/proto/h1/encode.rs: Encoder::encode_trailers, is_valid_trailer_field, into_chunked_with_trailing_fields"]}
{"id": "C12", "title": "Request body framing follows one unambiguous rule", "statement": "For every request the server accepts: if it has Transfer-Encoding then it is HTTP/1.1, the last coding is chunked and the body is read as chunked; otherwise, if it has Content-Length then every value is the same valid number and the body has that length; otherwise the body is empty. Every other combination is rejected.", "quantifier": "for every version and every list of header lines in every order", "why_tests_cant": "Header orders and repetitions are unbounded; smuggling lives in rare combinations.", "anchors": ["src/proto/h1/role.rs: Server::parse (header loop 262-344 and framing checks)"]}
{"id": "C13", "title": "A request with both Transfer-Encoding and Content-Length cannot desynchronise the connection", "statement": "When a request carries both headers, the application never sees a Content-Length header on it, and the connection is closed after the response instead of being reused.", "quantifier": "for every list of header lines in every order", "why_tests_cant": "Depends on ordering and repetition of headers.", "anchors": ["src/proto/h1/role.rs: Server::parse", "src/proto/h1/conn.rs: Conn::poll_read_head"]}
{"id": "C14", "title": "Content-Length values are read exactly or rejected", "statement": "A Content-Length value is accepted only if it consists of one or more ASCII digits, and then it is read as exactly that number; a value of 2^64-2 or more is rejected. Signs, blanks, empty strings and other bytes are never accepted in a request.", "quantifier": "for every byte string", "why_tests_cant": "All strings of all lengths including overflow classes.", "anchors": ["src/headers.rs: from_digits, content_length_parse, content_length_parse_all_values", "src/body/length.rs: DecodedLength::checked_new"]}
{"id": "C15", "title": "Response body framing follows the HTTP/1.1 message-length rules", "statement": "The client determines the body of a response as RFC 9112 6.3 says: no body for 1xx/204/304, for HEAD, and for a successful CONNECT; chunked if the final transfer coding is chunked; until close for another coding; else the Content-Length if valid and consistent, an error if not; until close otherwise.", "quantifier": "for every request method, status, version and response header list", "why_tests_cant": "Large product space; the rule order matters in every combination.", "anchors": ["src/proto/h1/role.rs: Client::decoder"]}
{"id": "C16", "title": "A server response never carries contradictory framing headers", "statement": "Every response head the server writes has at most one of Content-Length and Transfer-Encoding, has no Transfer-Encoding for HTTP/1.0 peers or statuses where it is not allowed, and the body bytes that follow are framed as the head says; if the application supplies a Content-Length of its own, that number is what the head announces, and it agrees with the body only if the application's number does.", "quantifier": "for every request method, peer version, status, application header list and body length", "why_tests_cant": "Product of methods, statuses, user headers in any order and repetition.", "anchors": ["src/proto/h1/role.rs: Server::encode, Server::encode_headers, can_chunked, can_have_body, can_have_content_length"], "first_stated_as": "Every response head the server writes has at most one of Content-Length and Transfer-Encoding, has no Transfer-Encoding for HTTP/1.0 peers or statuses where it is not allowed, and the body bytes that follow are framed as the head says."}
{"id": "C17", "title": "A client request head agrees with the body that is sent", "statement": "When the application's own framing headers are sane (a Transfer-Encoding is text; Content-Length is absent or one number, and 0 for a request without body), the Transfer-Encoding and Content-Length fields the client writes on a request describe exactly the framing of the body bytes it then writes.", "quantifier": "for every method, version, application header list and body length", "why_tests_cant": "Product of methods, versions, user headers and body kinds.", "anchors": ["src/proto/h1/role.rs: Client::encode, Client::set_length, set_content_length"], "first_stated_as": "The Transfer-Encoding and Content-Length fields the client writes on a request describe exactly the framing of the body bytes it then writes."}
{"id": "C18", "title": "hyper's own server and client agree about where a response ends", "statement": "For every response that the hyper server writes whose application-supplied framing headers are sane (Transfer-Encoding is text, Content-Length is the length of a body of known length and below 2^64-2), the framing the hyper client derives from the head is the framing that the server's body writer uses, so both sides agree where the message ends.", "quantifier": "for every request method, version, status, header list and body length", "why_tests_cant": "Two independent decision procedures must agree over the whole product space.", "anchors": ["src/proto/h1/role.rs: Server::encode_headers, Client::decoder"], "first_stated_as": "For every response that the hyper server writes, the framing the hyper client derives from the head is the framing that the server's body writer uses, so both sides agree where the message ends."}
{"id": "C19", "title": "A peer that asks to close is always obeyed", "statement": "If a received message carries the close option in a Connection line, and neither that line nor a later one asks for keep-alive, the connection is not reused after that exchange; an HTTP/1.0 message without keep-alive is treated the same way.", "quantifier": "for every list of Connection values, orders and letter cases", "why_tests_cant": "Arbitrary token lists across arbitrarily many lines.", "anchors": ["src/proto/h1/role.rs: Server::parse, Client::parse", "src/headers.rs: connection_has, connection_close, connection_keep_alive"], "first_stated_as": "If a received message carries the close option in Connection, the connection is not reused after that exchange; an HTTP/1.0 message without keep-alive is treated the same way."}
{"id": "C20", "title": "Outgoing bytes are written exactly once and in order", "statement": "Whatever mixture of heads and body buffers is queued, provided user buffers list all their pieces when asked for vectored slices, and however the transport accepts partial writes or asks to wait, the bytes handed to the transport are at every moment a prefix of the concatenation of what was queued, nothing is lost or repeated, and a completed flush means all of it was accepted.", "quantifier": "for every interleaving of queueing and flushing, both buffering strategies, every pattern of partial writes, pauses and errors", "why_tests_cant": "Unbounded interleavings of partial writes.", "anchors": ["src/proto/h1/io.rs: WriteBuf, Buffered::buffer, Buffered::poll_flush, poll_flush_flattened", "src/common/buf.rs: BufList::advance"], "first_stated_as": "Whatever mixture of heads and body buffers is queued, and however the transport accepts partial writes or asks to wait, the bytes handed to the transport are at every moment a prefix of the concatenation of what was queued, nothing is lost or repeated, and a completed flush means all of it was accepted."}
{"id": "C21", "title": "Write back-pressure bounds buffered bytes", "statement": "Without pipeline_flush, when the connection only queues body data while it says it can, the amount of bytes waiting to be written never exceeds the configured maximum plus one body buffer (and the end of its body), and the number of queued body buffers is at most sixteen, plus one for the end of a body.", "quantifier": "for every interleaving of queueing and partial flushing", "why_tests_cant": "Bound must hold after any history.", "anchors": ["src/proto/h1/io.rs: WriteBuf::can_buffer, WriteBuf::buffer, Buffered::can_buffer_body"], "first_stated_as": "When the connection only queues body data while it says it can, the amount of bytes waiting to be written never exceeds the configured maximum plus one body buffer, and the number of queued buffers is at most sixteen."}
{"id": "C22", "title": "Message heads are limited by the configured buffer size", "statement": "A head that is still incomplete once max_buf_size bytes are buffered is refused as too large, and the connection never holds more than max_buf_size plus one read of unparsed head bytes; a head that completes earlier is not refused for size.", "quantifier": "for every byte stream, fragmentation and limit", "why_tests_cant": "Depends on read sizes and arrival pattern.", "anchors": ["src/proto/h1/io.rs: Buffered::parse, Buffered::poll_read_from_io, set_max_buf_size"]}
{"id": "C23", "title": "The adaptive read size always stays within its bounds", "statement": "With the adaptive strategy the size of the next read is always a power of two (or the configured maximum) between 8192 and the maximum, for every history of read results; it shrinks only after two consecutive small reads.", "quantifier": "for every sequence of read sizes and every maximum of at least 8192", "why_tests_cant": "History-dependent state.", "anchors": ["src/proto/h1/io.rs: ReadStrategy, incr_power_of_two, prev_power_of_two"]}
{"id": "C24", "title": "Waiting for a complete head never misses the end of the head", "statement": "Except for HTTP/0.9 responses, the shortcut that skips parsing while a head looks incomplete never skips a buffer that already contains the end of the head: the head is handed to the parser as soon as its blank line has arrived, however the bytes were split.", "quantifier": "for every byte string and every split point", "why_tests_cant": "A missed terminator straddling a split would hang the connection.", "anchors": ["src/proto/h1/role.rs: is_complete_fast, parse_headers"], "first_stated_as": "The shortcut that skips parsing while a head looks incomplete never skips a buffer that already contains the end of the head: the head is handed to the parser as soon as its blank line has arrived, however the bytes were split."}
{"id": "C25", "title": "Every byte read from the transport is used once and in order", "statement": "Concatenating what the message parser consumes, what the body reader takes and what is handed out on upgrade or into_parts gives exactly the bytes the transport delivered, in order.", "quantifier": "for every interleaving of reads, partial parses and body reads", "why_tests_cant": "Arbitrary interleavings.", "anchors": ["src/proto/h1/io.rs: Buffered::read_mem, poll_read_from_io, into_inner, consume_leading_lines"]}
{"id": "C26", "title": "Upgrades hand over leftover bytes first", "statement": "An upgraded connection yields first the bytes hyper had already read past the HTTP message and then the transport's bytes, in order, without loss or repetition, whatever read sizes the application uses; writes go to the transport unchanged.", "quantifier": "for every leftover prefix, every sequence of read-buffer sizes and transport behaviours", "why_tests_cant": "Arbitrary buffer sizes and transport splits.", "anchors": ["src/common/io/rewind.rs: Rewind::poll_read", "src/upgrade.rs: Upgraded"]}
{"id": "C27", "title": "Buffer lists behave as the concatenation of their buffers", "statement": "Remaining length, advancing, copying out and vectored views of a list of buffers agree with the single byte string obtained by concatenating them.", "quantifier": "for every list of buffers and every amount up to the remaining length", "why_tests_cant": "All lists and amounts.", "anchors": ["src/common/buf.rs: BufList", "src/proto/h1/encode.rs: EncodedBuf", "src/proto/h1/io.rs: WriteBuf, Cursor"]}
{"id": "C28", "title": "Responses are sent strictly in request order, one per request", "statement": "On a server connection, heads of requests and responses alternate: the next request is not read before the previous one has been fully read and its response has been fully written, and no two response heads are written for one request.", "quantifier": "for every schedule of reads, writes, service completions and errors", "why_tests_cant": "Arbitrary schedules of a connection.", "anchors": ["src/proto/h1/conn.rs: Conn::can_read_head, can_write_head, State::try_keep_alive, State::idle, State::busy"]}
{"id": "C29", "title": "Once a connection is to be closed no new message starts on it", "statement": "After keep-alive has been ruled out (close requested, graceful shutdown, error), at most the exchange in progress is finished; no further message head is read or written on that connection.", "quantifier": "for every history of operations", "why_tests_cant": "Absorbing-state property over all histories.", "anchors": ["src/proto/h1/conn.rs: KA, State::close, State::disable_keep_alive, Conn::disable_keep_alive, State::try_keep_alive"]}
{"id": "C30", "title": "A client connection is offered for reuse only when the exchange is really over", "statement": "A connection returns to the idle state only if the whole request was written, the whole response was read, both sides agreed to keep the connection alive and nothing unexpected was received.", "quantifier": "for every history of operations", "why_tests_cant": "Histories of arbitrary length.", "anchors": ["src/proto/h1/conn.rs: State::idle, State::try_keep_alive, Conn::poll_read_body, Conn::end_body, require_empty_read"]}
{"id": "C31", "title": "100-continue is sent at most once per request and never after the response has begun", "statement": "The server sends an automatic 100 Continue only for an HTTP/1.1 request that expects it, at most once, only when the application starts reading the body, and never after it began writing the final response.", "quantifier": "for every schedule of body reads and response writes", "why_tests_cant": "Schedules.", "anchors": ["src/proto/h1/conn.rs: Conn::poll_read_head, poll_read_body, Reading::Continue"]}
{"id": "C32", "title": "Persistence towards HTTP/1.0 peers is always explicit", "statement": "When the peer speaks HTTP/1.0 and the application gives its messages version 1.0 or 1.1, the message is written as HTTP/1.0, and the connection is kept alive only if the message written says keep-alive explicitly; otherwise it is closed after the message.", "quantifier": "for every peer version and every application Connection header list", "why_tests_cant": "Product space of headers and states.", "anchors": ["src/proto/h1/conn.rs: fix_keep_alive, enforce_version"], "first_stated_as": "When the peer speaks HTTP/1.0 the message is written as HTTP/1.0, and the connection is kept alive only if the message written says keep-alive explicitly; otherwise it is closed after the message."}
{"id": "C33", "title": "Early end of the connection inside a message is an error; between messages it is not", "statement": "End of input in the middle of a request or response head, of a body with a declared length or chunked, while a response is awaited or a request body is being sent, is reported as an incomplete message; end of input on an idle connection (a client connection that has completed an exchange, a server connection with nothing of a request received) is a clean shutdown; a client connection that has never been used reports an incomplete message.", "quantifier": "for every connection state reachable by any history", "why_tests_cant": "Reachable states are unbounded histories.", "anchors": ["src/proto/h1/conn.rs: on_read_head_error, should_error_on_eof, mid_message_detect_eof, require_empty_read"], "first_stated_as": "End of input in the middle of a message is reported as an incomplete message, while end of input on an idle connection is a clean shutdown."}
{"id": "C34", "title": "Unsolicited bytes are never taken for a response", "statement": "A client connection at rest that reads bytes while no request is outstanding reports an error (to the connection's caller or with a request that waits) and ends; as long as no send overlaps a poll of the connection, nothing received is left over when a request is begun, so bytes that arrived before never become its response.", "quantifier": "for every history", "why_tests_cant": "Response-splitting depends on arrival timing.", "anchors": ["src/proto/h1/conn.rs: require_empty_read, poll_read_keep_alive", "src/proto/h1/dispatch.rs: Client::recv_msg"], "first_stated_as": "A client connection that receives bytes while no request is outstanding reports an error and closes; those bytes never become the response to a later request."}
{"id": "C35", "title": "Every client request gets exactly one outcome", "statement": "For each request accepted by a client connection, its future resolves exactly once: with the response, or with an error - also if the connection task, the sender, or the callback is dropped at any point.", "quantifier": "for every schedule of sends, receives, cancellations and drops", "why_tests_cant": "Drop points and interleavings.", "anchors": ["src/client/dispatch.rs: Envelope, Callback, Sender, Receiver", "src/proto/h1/dispatch.rs: Client"]}
{"id": "C36", "title": "A request is handed back only if none of it was sent", "statement": "When a failed try_send_request returns the request to the caller, no byte of that request was put on the wire, so it can be retried safely on another connection.", "quantifier": "for every failure point", "why_tests_cant": "Failure points interleave with writing.", "anchors": ["src/client/dispatch.rs: TrySendError, Envelope::drop", "src/proto/h1/dispatch.rs: Client::recv_msg"]}
{"id": "C37", "title": "A received body is delivered in order and an aborted one is not mistaken for a complete one", "statement": "Body data passed from the connection to the application arrives in order, without loss; trailers come after all data; if an HTTP/1 connection stops before the body is complete the application gets an error instead of a clean end, and an HTTP/2 body ends cleanly only when h2 reports its end or a reset with NO_ERROR or CANCEL; the announced remaining size is always the declared length minus the bytes delivered.", "quantifier": "for every interleaving of connection and application steps", "why_tests_cant": "Concurrent interleavings.", "anchors": ["src/body/incoming.rs: Incoming::poll_frame, Sender, size_hint", "src/proto/h1/dispatch.rs: SenderDropGuard, poll_read"], "first_stated_as": "Body data passed from the connection to the application arrives in order, without loss; trailers come after all data; if the connection stops before the body is complete the application gets an error instead of a clean end; the announced remaining size is always the declared length minus the bytes delivered."}
{"id": "C38", "title": "At most one request waits on a client connection that has not asked for it", "statement": "A bounded request sender accepts a request only when the connection has asked for one, apart from a single one beyond those asked for; while no send overlaps a poll of the connection, the queue never holds more than one request that the connection did not ask for.", "quantifier": "for every interleaving of sends and receives", "why_tests_cant": "Interleavings of the want protocol.", "anchors": ["src/client/dispatch.rs: Sender::can_send, Receiver::poll_recv"], "first_stated_as": "A bounded request sender accepts a request only when the connection has asked for one, apart from a single first one; so the queue never holds more than one request that the connection did not ask for."}
{"id": "C39", "title": "Body data is read from the network only when wanted", "statement": "A body that the peer announced with Expect: 100-continue is not asked for before the application first asks for data; otherwise at most one piece is taken ahead of the application, and while the application is not taking data the connection reads none.", "quantifier": "for every interleaving", "why_tests_cant": "Interleavings.", "anchors": ["src/body/incoming.rs: Sender::poll_ready, WANT_PENDING", "src/common/watch.rs"]}
{"id": "C40", "title": "Graceful shutdown finishes the exchange in progress and nothing more", "statement": "After graceful_shutdown is called at any moment, no further request is started, except the connection's first one if part of it has already arrived; an idle connection that has written everything and has no upgrade waiting closes at once; every later response to an HTTP/1.1 peer says close; and whenever a connection ends without an error every request taken in was answered completely, except that a response without body but with a chunked header may lose its last chunk.", "quantifier": "for every moment of the call in every history", "why_tests_cant": "Moment of shutdown is arbitrary.", "anchors": ["src/proto/h1/dispatch.rs: Dispatcher::disable_keep_alive", "src/proto/h1/conn.rs: Conn::disable_keep_alive", "src/server/conn/http1.rs: graceful_shutdown"], "first_stated_as": "After graceful_shutdown is called at any moment, a request already being handled is answered completely, no further request is started, and an idle connection closes at once."}
{"id": "C41", "title": "Connection-specific headers never reach HTTP/2", "statement": "After preparing a message for HTTP/2, none of connection, keep-alive, proxy-connection, transfer-encoding, upgrade remains, and with at most one Connection and one TE line TE remains only in requests and only as trailers, and every header named by the Connection value is gone.", "quantifier": "for every header map", "why_tests_cant": "All header maps, repeated lines included.", "anchors": ["src/proto/h2/mod.rs: strip_connection_headers"], "first_stated_as": "After preparing a message for HTTP/2, none of connection, keep-alive, proxy-connection, transfer-encoding, upgrade remains, TE remains only in requests and only as trailers, and every header named by a Connection value is gone."}
{"id": "C42", "title": "HTTP/2 body sending is faithful and ends the stream exactly once", "statement": "The DATA frames queued for a stream are exactly the application's data frames in order, each at most once, followed by exactly one end-of-stream marker (flag, trailers or empty frame), or by a reset if the application's body failed; nothing is sent after the end.", "quantifier": "for every body, every capacity grant schedule and every reset moment", "why_tests_cant": "Schedules of flow control.", "anchors": ["src/proto/h2/mod.rs: PipeToSendStream::poll"]}
{"id": "C43", "title": "The adaptive HTTP/2 window stays sane", "statement": "With adaptive windows the advertised window never exceeds 16 MiB, never shrinks below an initial window within that limit, and the delay between probes stays between zero and 40 seconds.", "quantifier": "for every sequence of samples, round-trip times and floating-point comparison results", "why_tests_cant": "Feedback loop over unbounded histories.", "anchors": ["src/proto/h2/ping.rs: Bdp::calculate, stabilize_delay"]}
{"id": "C44", "title": "HTTP/2 keep-alive closes only silent connections", "statement": "A connection is declared dead only if a ping was sent after a full interval without received frames, or a window probe was already under way, and its answer did not arrive within the timeout; without while_idle no keep-alive ping is sent while no stream is open.", "quantifier": "for every timeline of frames, polls and pongs", "why_tests_cant": "Real-time schedules.", "anchors": ["src/proto/h2/ping.rs: KeepAlive, Ponger::poll, Recorder"], "first_stated_as": "A connection is declared dead only if a ping was sent after a full interval without received frames and its answer did not arrive within the timeout; without while_idle no keep-alive ping is sent while no stream is open."}
{"id": "C45", "title": "Writes to an HTTP/2 tunnel are never lost or reordered", "statement": "Bytes accepted by a CONNECT tunnel over HTTP/2 are queued as DATA in order before the end of stream, even if the writer is dropped or the peer grants no capacity for a while, unless they were accepted between the task's check of the queue and its check of the close flag; reads return the received bytes in order and never report end of stream for an empty non-final frame.", "quantifier": "for every interleaving of writes, capacity grants, shutdown and drop", "why_tests_cant": "Concurrent interleavings.", "anchors": ["src/proto/h2/upgrade.rs: UpgradedSendStreamTask::tick, H2Upgraded"]}
{"id": "C46", "title": "The safe read-buffer API never exposes uninitialised memory", "statement": "Using only the safe operations, the filled part of a read buffer is always within the initialised part, which is within the capacity, and the filled bytes are exactly those written, in order; misuse panics instead.", "quantifier": "for every sequence of operations", "why_tests_cant": "Memory-safety invariant over all operation sequences.", "anchors": ["src/rt/io.rs: ReadBuf, ReadBufCursor"]}
{"id": "C47", "title": "Reason phrases cannot inject protocol lines", "statement": "Every reason phrase the public constructors accept consists only of tab, space, visible ASCII and bytes 0x80-0xFF, so it contains no CR or LF; every other byte string is refused with the first offending byte.", "quantifier": "for every byte string", "why_tests_cant": "All strings.", "anchors": ["src/ext/h1_reason_phrase.rs: is_valid_byte, find_invalid_byte, ReasonPhrase::try_from"]}
{"id": "C48", "title": "Header case options change only letter case", "statement": "Title-casing or case-preserving output writes, for every header, a name that equals the header name up to ASCII case, with all values in order (the server joins Connection values in one line), when an application-supplied Transfer-Encoding already ends in chunked or is absent.", "quantifier": "for every header map and case map", "why_tests_cant": "All names and maps.", "anchors": ["src/proto/h1/role.rs: title_case, write_headers, write_headers_title_case, write_headers_original_case"], "first_stated_as": "Title-casing or case-preserving output writes, for every header, a name that equals the header name up to ASCII case, with all values in order."}
{"id": "C49", "title": "The header read timeout bounds each head separately", "statement": "With a header read timeout, a connection that has begun reading for a request head is dropped once that much time passes without a complete head, and a head that completes in time is never dropped; the clock restarts for the next message, once the connection reads for it.", "quantifier": "for every timeline of reads and polls", "why_tests_cant": "Real-time schedules.", "anchors": ["src/proto/h1/conn.rs: Conn::poll_read_head (timer part)"], "first_stated_as": "With a header read timeout, a connection that has begun waiting for a request head is dropped once that much time passes without a complete head, and a head that completes in time is never dropped; the clock restarts for the next message."}
{"id": "C50", "title": "A waiting sender is always woken when the receiver asks for data", "statement": "If the sender checked and found no demand, then any later change of the demand (or the receiver's disappearance) wakes the sender's task; no wake-up is lost.", "quantifier": "for every interleaving of the two sides' atomic steps", "why_tests_cant": "Data races cannot be covered by tests.", "anchors": ["src/common/watch.rs: Sender::send, Receiver::load"]}
{"id": "C51", "title": "A closed tunnel always wakes the task that drains it", "statement": "If the tunnel task found the tunnel still open, then the later close wakes it; a close that happened before is always seen.", "quantifier": "for every interleaving of atomic steps", "why_tests_cant": "Data races.", "anchors": ["src/proto/h2/upgrade.rs: UpgradedCloseNotify"]}
{"id": "C52", "title": "Folded header lines are joined with single blanks and carry no line break", "statement": "When obsolete line folding is accepted by the client, the resulting value has no CR or LF, and is the folded lines trimmed and joined by single spaces.", "quantifier": "for every folded value", "why_tests_cant": "All byte strings.", "anchors": ["src/proto/h1/role.rs: obs_fold_line"]}
{"id": "C53", "title": "The cached Date header is at most one second old", "statement": "With a clock that does not go backwards, the Date written is the one of the current second, or at the exact start of a second the one before.", "quantifier": "for every sequence of non-decreasing clock readings", "why_tests_cant": "All clock histories.", "anchors": ["src/common/date.rs: CachedDate::check, update"]}
{"id": "C54", "title": "Declared lengths can never be confused with 'unknown length'", "statement": "No Content-Length accepted from a peer is ever interpreted as chunked or read-until-close, and the remaining-length counter never changes class while data is consumed.", "quantifier": "for every 64-bit length and every sequence of consumed amounts", "why_tests_cant": "Sentinel encoding over the full 64-bit range.", "anchors": ["src/body/length.rs: DecodedLength"]}
{"id": "C55", "title": "A response to a request that forbids a body has no body bytes", "statement": "For HEAD requests, successful CONNECT, and 1xx/204/304 statuses the server writes no body bytes after the head even if the application's response has a body.", "quantifier": "for every method, status, header list and body", "why_tests_cant": "Product space.", "anchors": ["src/proto/h1/role.rs: Server::encode, Server::can_have_body", "src/proto/h1/dispatch.rs: poll_write"]}
{"id": "C56", "title": "Parse errors are answered at most once and then the connection ends", "statement": "A malformed request leads to at most one automatic error response (400, 414 or 431), only when no response head has been written for it, and then the connection is closed.", "quantifier": "for every malformed input and state", "why_tests_cant": "All inputs.", "anchors": ["src/proto/h1/conn.rs: on_parse_error, on_read_head_error", "src/proto/h1/role.rs: Server::on_error"]}
{"id": "C57", "title": "Reading a body never panics and always ends", "statement": "Whatever bytes arrive, polling a body to its end never reaches one of the decoder's unwrap/expect calls, never yields an empty data frame, and comes to a clean end, trailers or an error after finitely many polls.", "quantifier": "for every byte stream, fragmentation and IO failure, and every decoder the connection creates", "why_tests_cant": "absence of a panic over all byte strings and all ways of splitting them is not a finite set of cases", "anchors": ["src/proto/h1/decode.rs:144-238", "src/proto/h1/decode.rs:303-340", "src/proto/h1/decode.rs:520-635", "src/proto/h1/conn.rs:359-423"]}
{"id": "C58", "title": "The bytes on the wire are the messages in order", "statement": "In every execution of an HTTP/1 connection whose body buffers list all their pieces, the bytes the transport has taken, followed by the bytes still buffered, are exactly the heads, body pieces and trailers queued so far in the order of the messages, for a server with vectored writes as long as it writes no 100 Continue or automatic error response; without pipeline_flush the transport is shut down only after it has taken all of them.", "quantifier": "all configurations, peers, applications, transports (any short writes, any blocking), schedules, write strategies; all prefixes of the execution", "why_tests_cant": "The order can break only through an interleaving of a blocked transport, a late request body and the next request; tests fix one interleaving and one amount written per call.", "anchors": ["src/proto/h1/io.rs:135-142", "src/proto/h1/io.rs:271-333", "src/proto/h1/conn.rs:569-578", "src/proto/h1/conn.rs:405-411", "src/proto/h1/conn.rs:819-836", "src/proto/h1/dispatch.rs:143-223"], "first_stated_as": "In every execution of an HTTP/1 connection the bytes the transport has taken, followed by the bytes still buffered, are exactly the heads, body pieces and trailers queued so far in the order of the messages; the transport is shut down only after it has taken all of them."}
{"id": "C59", "title": "An HTTP/2 head announces the body that follows", "statement": "For each request an HTTP/2 server gives h2 nothing, one reset, or one response head followed by a beginning of the frames its body stands for; the head ends the stream exactly if the body says it has ended, carries the program's Content-Length or else the exact size of the body that follows, and a success for CONNECT starts a tunnel without Content-Length or resets the stream if it announces a body; a request head ends the stream exactly if the body has ended and the method is not CONNECT, and a CONNECT that announces a body is refused.", "quantifier": "for every service, response, header map, and every sequence of answers of h2", "why_tests_cant": "All header maps and all interleavings of resets, refusals and capacity.", "anchors": ["src/proto/h2/server.rs:442-540", "src/proto/h2/client.rs:700-735", "src/proto/h2/mod.rs:144-258"]}
{"id": "C60", "title": "An HTTP/2 server serves every accepted request and ends only when h2 does", "statement": "Every request that h2 gives to the server connection is passed to the service once and in order, unless it is a CONNECT that announces a body; without such a request the connection ends with success only after h2 said that no more streams come and keep-alive has not timed out; the future returns once and does nothing afterwards; a graceful shutdown asked for between polls, also before the handshake, is passed to h2 before another request is accepted.", "quantifier": "for every sequence of polls, answers of h2 and calls of graceful_shutdown", "why_tests_cant": "Unbounded sequences of moves and every moment of a shutdown.", "anchors": ["src/proto/h2/server.rs:185-198", "src/proto/h2/server.rs:208-241", "src/proto/h2/server.rs:248-359"]}
{"id": "C61", "title": "Every HTTP/2 request gets exactly one outcome, from its own stream", "statement": "Each request sent to an HTTP/2 client connection gets at most one outcome, and exactly one once the connection and its tasks have ended; a response comes from the stream that was opened for the request; requests are given to h2 at most once, in the order they were sent, each on its own stream; a request handed back was never and will never be given to h2, and neither will one whose future was dropped before; the body is sent as a beginning of its frames on its own stream, with a reset of its own only after the user dropped the future, and then at the body's next poll.", "quantifier": "for every interleaving of sends, dropped futures, connection polls, response and body tasks, drops, and every answer of h2", "why_tests_cant": "Concurrent interleavings of an unbounded number of requests.", "anchors": ["src/proto/h2/client.rs:473-515", "src/proto/h2/client.rs:526-574", "src/proto/h2/client.rs:606-666", "src/proto/h2/client.rs:674-795", "src/client/dispatch.rs:149-164", "src/client/dispatch.rs:209-253", "src/client/dispatch.rs:346-388"]}
{"id": "C62", "title": "An HTTP/1 connection that failed never reports success", "statement": "When a server connection's future completes with success, no automatic error response was written and no response head failed to be encoded before; after an automatic response the error is the parse error that it stands for, or a transport error; and when no response body announces its last buffer, success also means that no response was left incomplete.", "quantifier": "for every configuration, input, service, body and sequence of moves", "why_tests_cant": "The failing exchange and the end of the connection can be arbitrarily far apart, with any interleaving between.", "anchors": ["src/proto/h1/dispatch.rs:117-163", "src/proto/h1/conn.rs:333-357", "src/proto/h1/conn.rs:748-812", "src/proto/h1/conn.rs:836-848"]}
{"id": "C63", "title": "Each message is read and written in the light of the exchange it belongs to", "statement": "A server parses each request without the method of an earlier one, and allows HTTP/0.9 only for the first message; a client parses each response with the method of the last request that it sent; a server encodes each response for the method of the last request that came in, and writes trailers only if that request said TE: trailers.", "quantifier": "for every configuration, input, application and sequence of moves, any number of exchanges on one connection", "why_tests_cant": "What is remembered from one exchange to the next matters only in certain sequences of exchanges; there are unboundedly many.", "anchors": ["src/proto/h1/conn.rs:211-331", "src/proto/h1/conn.rs:608-663", "src/proto/h1/conn.rs:739-762", "src/proto/h1/conn.rs:1114-1144"]}
{"id": "C64", "title": "A transport is handed over only when asked for, after the last HTTP byte", "statement": "A server connection leaves its transport to the application only if a request asked for another protocol; after a 101 response, or a 2xx response to CONNECT, it reads no further request and writes nothing more; and when it hands the transport over, the transport has taken everything that was written, as long as the requests have no body and no graceful shutdown was asked for.", "quantifier": "for every configuration, input, application, transport behaviour and sequence of moves", "why_tests_cant": "The handover depends on how reading, answering, slow writing, graceful shutdown and end of input interleave; there are unboundedly many orders.", "anchors": ["src/proto/h1/dispatch.rs:143-165", "src/proto/h1/dispatch.rs:323-331", "src/proto/h1/conn.rs:664-737", "src/proto/h1/conn.rs:1114-1144"]}
{"id": "C65", "title": "The messages handed out are the messages that the bytes stand for", "statement": "What a connection has received is the bytes of the complete messages that it handed out, in order, each standing for exactly its head, data and trailers, then the beginning of the message that is being read, then bytes not read yet; two servers that receive the same bytes, cut in any way and with any applications, hand out the same messages as far as both have got; and after a response that switches the protocol to a complete request, the application gets exactly the bytes behind that request.", "quantifier": "for every configuration, byte sequence, division into reads, application, transport behaviour and sequence of moves", "why_tests_cant": "The ways to cut a byte sequence and to interleave reading, answering and dropping bodies are unbounded; request smuggling lives in the combinations.", "anchors": ["src/proto/h1/conn.rs:211-331", "src/proto/h1/conn.rs:333-441", "src/proto/h1/io.rs:171-245", "src/proto/h1/decode.rs:128-238", "src/proto/h1/conn.rs:859-875"]}
{"id": "C66", "title": "From the bytes of the heads to the messages: requests and responses are delimited as their lines say", "statement": "With the parsers of hyper on top of httparse, a server hands out exactly the requests that it was sent, in order and without a gap, each consisting of a head and of the body that the lines of that head call for by the rules of HTTP; a client hands out exactly the responses, each consisting of interim responses, a head, and the body that its status, its lines and the method of the request it answers call for; the informational callback is told every interim response once and in order, however the bytes are cut; and with room for at most 24576 header lines the parsers never panic.", "quantifier": "for every byte sequence, division into reads, configuration, application, sequence of moves, and every head parser in place of httparse that keeps two promises: a complete head has at least one byte, and what it says about it depends on the bytes of that head only", "why_tests_cant": "Every combination of heads, framing lines, interim responses, cuts and interleavings with the application would have to be tried.", "anchors": ["src/proto/h1/role.rs:146-380", "src/proto/h1/role.rs:1028-1194", "src/proto/h1/role.rs:1558-1582", "src/proto/h1/io.rs:174-222"]}
{"id": "C67", "title": "A request head that cannot be accepted is refused with the status it calls for; no other head is refused", "statement": "There is exactly one rule for every way in which a request head can be unacceptable (syntax, number of lines, length of the target, method, length of a name, target, lines that contradict each other about the body, unsupported length) and each rule names a status (400, 414 or 431); the server's parser fails exactly when a rule applies, with that status. In every execution each response that the server makes up by itself follows complete requests whose bytes come first, and the bytes after them are a head to which a rule with that status applies, or have filled the read buffer (431). A server that is reading a head answers a refused head in the same step in which it has come in (unless an HTTP/2 preface is among the bytes), and a connection that returns a parse error has sent the response for it.", "quantifier": "for every byte sequence, division into reads, configuration, application, sequence of moves, and every head parser in place of httparse that keeps its promises", "why_tests_cant": "Every combination of malformed heads, earlier requests, cuts and interleavings with the application would have to be tried, and that no other head is refused is a statement about all heads.", "anchors": ["src/proto/h1/role.rs:146-380", "src/proto/h1/role.rs:484-502", "src/proto/h1/conn.rs:333-357", "src/proto/h1/conn.rs:819-836", "src/proto/h1/io.rs:174-222"]}
{"id": "C68", "title": "A server connection goes to rest only when there is something that can wake it", "statement": "When a poll of a server connection ends without the connection being finished, something outside has said that it is not ready. In particular: a round of the loop that ends with the flush never leaves bytes in the buffer that the parser has not been given while the connection waits for a request; whenever such bytes are left, the connection has been told to read again. And if in a poll the transport, the service, the response body and the reader of the request body are all ready, the poll ends only when the connection is done, or (on a transport with vectored writes) with a request whose service has not been asked because bytes of the response before it were still queued.", "quantifier": "for every configuration, head parser, transport, application and sequence of moves, and every reachable state in which the poll begins", "why_tests_cant": "A lost wake-up shows as a connection that hangs for one particular order of readiness of body, transport and service; all orders and all states before them would have to be tried.", "anchors": ["src/proto/h1/dispatch.rs:166-223", "src/proto/h1/conn.rs:487-567", "src/proto/h1/conn.rs:569-578", "src/proto/h1/conn.rs:425-430", "src/proto/h1/io.rs:135-137", "src/proto/h1/io.rs:224-269"]}
{"id": "C69", "title": "A server does for a request what its lines ask for", "statement": "Every request that a server hands to its service is the one that begins in the bytes received right behind the complete requests before it, and its body framing, its wish for 100 Continue and its wish for a tunnel are those that its lines express: the last Expect line is 100-continue in any case; an Upgrade line in HTTP/1.1, or the method CONNECT without an Upgrade line. When the service first asks for the body of a request and no answer has been begun, 100 Continue is put out at once if and only if the request is of HTTP/1.1, its lines ask for it and its body is not known to be empty; at no other time is it sent. The transport is handed over only if one of the requests asked for a tunnel.", "quantifier": "for every configuration, every header tokenizer that keeps httparse's contract, every input however it is cut, every application and every sequence of moves", "why_tests_cant": "A client that waits for 100 Continue hangs when one combination of header lines, cut of the input and order of polls misses it; the combinations are unbounded.", "anchors": ["src/proto/h1/role.rs:236-345", "src/proto/h1/conn.rs:279-331", "src/proto/h1/conn.rs:359-423", "src/proto/h1/conn.rs:859-875", "src/proto/h1/dispatch.rs:225-330"]}
{"id": "C70", "title": "A server built with keep_alive(false) serves one request and says so", "statement": "A server connection built with keep_alive(false) takes in at most one request and writes at most one response head, whatever the client sends and the application does. That head names `close` in its Connection field when the request was of HTTP/1.1 (or none was taken in), and no head names `keep-alive` unless the application's own head does.", "quantifier": "for every configuration, every input however it is cut, every application and every sequence of moves from the new connection on", "why_tests_cant": "Whether a second pipelined request slips through depends on where the bytes are cut and when the body and the response end; the interleavings are unbounded.", "anchors": ["src/server/conn/http1.rs:455-475", "src/proto/h1/conn.rs:664-705", "src/proto/h1/conn.rs:886-894", "src/proto/h1/conn.rs:1079-1105"]}
{"id": "C71", "title": "Each OnUpgrade gives what became of its own message, and the transport goes to one of them", "statement": "Every poll of an OnUpgrade gives what became of the message it came with: pending while that is open, the transport if the connection handed it over while no later message had asked, an error saying that the upgrade is up to the user if the connection was not built with upgrades, cancelled if another message that asked took its place or the connection ended otherwise. The transport is given at most once, is never lost while an OnUpgrade of the last message that asked is alive, the task that polled last is woken when the outcome is known, and an OnUpgrade that is not cloned does not panic before it has given its result. A server's connection ends once and hands over only what was asked for.", "quantifier": "for every sequence of messages that ask, of clones, drops and polls of OnUpgrades by any tasks, every way and time the connection ends, and every history of a server connection", "why_tests_cant": "Senders replaced by later messages, clones sharing one receiver, and drops racing with the hand-over give unboundedly many interleavings; a lost transport or a lost wake-up shows only as a task that never runs.", "anchors": ["src/upgrade.rs:66-130", "src/upgrade.rs:198-273", "src/proto/h1/conn.rs:904-907", "src/proto/h1/conn.rs:1158-1162", "src/proto/h1/dispatch.rs:322-330", "src/server/conn/http1.rs:548-571"]}
{"id": "C72", "title": "A client connection at rest has asked for the next request and overlooks nothing", "statement": "When a poll of a client connection that flattens its write buffers ends, behind the first flush or the second write of a round, and the connection is open with no message under way, then its sender may send: the connection has asked for a request, unless one is on its way or one side is gone. Behind the second flush the same holds or the connection is marked to go round again. A poll that ends behind the first flush leaves no bytes that the parser has not been given. If the transport, the request body and the receiver of the response body never say Pending, a poll ends only if the connection is done.", "quantifier": "for every client configuration, every behaviour of the transport, every sequence of polls, body frames and moves of the sender", "why_tests_cant": "A missing wake-up shows only as a task that never runs, and only for a particular order of response end, body end and flush.", "anchors": ["src/proto/h1/dispatch.rs:163-224", "src/proto/h1/dispatch.rs:361-455", "src/proto/h1/dispatch.rs:663-780", "src/proto/h1/conn.rs:512-578", "src/proto/h1/conn.rs:1082-1148", "src/client/dispatch.rs:75-104"]}
{"id": "C73", "title": "The C interface's executor returns each task once and says NULL only when no task can go on", "statement": "hyper_executor_poll returns NULL only if no task is due, that is, none has been pushed or woken since it was last polled, except tasks that another thread is just waking or has pushed since the spawn queue was last looked at. Every task is polled only between its push and its return, is returned at most once, with the output of the poll that finished it, and is until then in the spawn queue or the driver. A call returns after a number of steps bounded by what is queued and by the spawns and wakes that happen meanwhile. A task whose output is of type EMPTY, and only such a task, has a NULL value, and a value is given once. All this as long as no task panics.", "quantifier": "for every interleaving of calls, polls of tasks (with any wakes and spawns), pushes and two-step wakes by other threads, and every output", "why_tests_cant": "A lost wake-up in the executor needs a wake that lands between the driver's poll and the swap of is_woken; tests of the C interface run one thread and two tasks.", "anchors": ["src/ffi/task.rs:54-73", "src/ffi/task.rs:185-283", "src/ffi/task.rs:294-340", "src/ffi/task.rs:344-437", "src/ffi/task.rs:464-509"]}
{"id": "C74", "title": "Header maps of the C interface: what is shown and written is what was set, added or received", "statement": "hyper_headers_set and hyper_headers_add answer HYPERE_OK exactly for a name that is a token of at most 65535 bytes and a value without control characters other than tab, and otherwise change nothing. After any such calls the header lines written for a request are the expected ones, spelt as given, those of one name in order, and none contains CR, LF or NUL. hyper_headers_foreach shows exactly the expected lines in the order of the calls until the callback says break, if no set met a name with several lines. A received head is shown line by line in order with preserve_header_order, otherwise name by name, each line once; spelt as received exactly with preserve_header_case; with both options it is as if its lines had been added.", "quantifier": "for every sequence of set and add calls with any bytes, every received list of lines, both options, and every callback", "why_tests_cant": "The map, the spellings and the order are three structures that must stay in step over every sequence of sets and adds; tests run one or two such calls and do not look at the three together.", "anchors": ["src/ffi/http_types.rs:66-70", "src/ffi/http_types.rs:391-408", "src/ffi/http_types.rs:445-578", "src/ext/mod.rs:160-298", "src/proto/h1/role.rs:1100-1157"]}
{"id": "C75", "title": "From one application to the other: the server receives the client's requests, in order and unchanged", "statement": "The bytes that a client connection queues are, in the order in which requests were handed to it, one whole message for each request and then at most a beginning of the message of the last one; a whole message is the head that Client::encode gives for that request (with only the Connection field or the version adjusted), then the data of its body framed as that head says, then the sendable trailers. If the other end of such a byte stream, or of a beginning of it, is a server connection of hyper, then the messages that server has received to the end are exactly the first so many requests handed to the client, in order: same method, target and version (or HTTP/1.0), for each field name other than Content-Length, Transfer-Encoding and Connection the same values in order without the blanks around them, the framing the client chose, all the body data, and the sendable trailers; and the message it is receiving is the next request with a beginning of its data.", "quantifier": "for every behaviour of both applications, both transports and the scheduler on both sides, every cutting of the byte stream into reads and writes, every number of requests and every body; for requests whose method is a token, whose target and fields are well formed and which are within the server's limits", "why_tests_cant": "The statement couples two state machines over every way of cutting the stream, and over bodies, trailers and pipelined requests of every size; a test drives one request or two through a socket whose reads and writes are cut in one way.", "anchors": ["src/proto/h1/dispatch.rs:356-448", "src/proto/h1/conn.rs:185-330", "src/proto/h1/conn.rs:336-420", "src/proto/h1/conn.rs:560-812", "src/proto/h1/encode.rs:40-330", "src/proto/h1/role.rs:146-380", "src/proto/h1/role.rs:1187-1479", "src/proto/h1/decode.rs:1-560", "src/proto/h1/io.rs:100-335"]}
{"id": "C76", "title": "The spelling of header names is kept when asked for", "statement": "With the option that preserves the case of header names, a received head records for each field name, in order, how its lines spelt it: for every name (other than Content-Length on a server) the recorded spellings are those of the lines with that name and the values those of these lines, line by line. A head that is sent with recorded spellings writes, for every name that hyper does not rewrite itself (requests: all but Content-Length and Transfer-Encoding; responses: all but these and Connection, Trailer and Date), exactly one line for each value, in order, spelt as recorded while records last and then in the usual spelling (lower case, or title case when that option is set). Hence for a proxy which forwards a head with the values of a field unchanged, the lines of that field that leave are exactly those that arrived, byte for byte in name and value.", "quantifier": "for all heads with any number of lines, names repeated in any order and spelling, all values, methods, statuses and versions, all recorded spellings (also too few or too many for the values), with and without title case", "why_tests_cant": "The recorded spellings are a second map that must stay aligned with the header map for every interleaving of repeated names, and the writer walks both with an iterator per name; tests try two or three lines with one repeated name.", "anchors": ["src/proto/h1/role.rs:262-350", "src/proto/h1/role.rs:549-642", "src/proto/h1/role.rs:653-992", "src/proto/h1/role.rs:1104-1151", "src/proto/h1/role.rs:1198-1245", "src/proto/h1/role.rs:1617-1652", "src/ext/mod.rs:160-298"]}
{"id": "C77", "title": "The ends of an HTTP/2 client: connection, client task and streams learn of each other", "statement": "The task that drives an HTTP/2 client's connection ends exactly when h2's connection has finished, keep-alive gave the peer up, a window was refused, or the executor dropped it; it does not end because the client task is gone or all bodies were sent, so responses in flight are not cut off. The client task learns of the end only after it; a client task that waits for it is woken, and its next poll learns it. No expect on this path panics. When neither a SendRequest nor a stream refers to the connection any more, the connection's task has been polled since or is scheduled to be, for every interleaving if h2 tells its connection that the SendRequest is gone, and otherwise if the tasks share one thread.", "quantifier": "for all interleavings of the atomic steps of the connection task, the client task and its destruction, any number of body tasks and streams, and all results of polling h2 and the ponger", "why_tests_cant": "The question is whether any interleaving of drops, registrations of wakers and polls loses a wake-up; a test runs a few schedules of one runtime.", "anchors": ["src/proto/h2/client.rs:167-205", "src/proto/h2/client.rs:209-362", "src/proto/h2/client.rs:425-438", "src/proto/h2/client.rs:459-517", "src/proto/h2/client.rs:526-574", "src/proto/h2/client.rs:782-796"]}
{"id": "C78", "title": "A server writes exactly the responses it was handed, each for its request", "statement": "The bytes that a server connection queues are, piece by piece: for each response handed over, in order, one whole message, and then at most a beginning of the message of the last one or what was left of a head that was refused; between them only interim 100 Continue responses and the connection's own error responses. The whole message of the response with number n is the head that Server::encode gives for it and for the method of the request with number n (with only the Connection field or the version adjusted), then the data of its body framed as that head says, then the sendable trailers if that request allows trailers. A response whose body goes on to the end of the connection is the last of all. There are never more responses than requests.", "quantifier": "for every behaviour of peer, service, transport and scheduler, every number of requests and responses, every body, every configuration of a server connection", "why_tests_cant": "That no response is ever written for another request's method, no body byte is lost, repeated or moved into another message holds over unbounded sequences of pipelined requests and every interleaving of bodies, flushes and errors; a test writes a few responses in one schedule.", "anchors": ["src/proto/h1/dispatch.rs:143-235", "src/proto/h1/dispatch.rs:356-448", "src/proto/h1/conn.rs:359-423", "src/proto/h1/conn.rs:560-812", "src/proto/h1/role.rs:383-1010", "src/proto/h1/encode.rs:40-330"], "first_stated_as": "The bytes that a server connection queues are, piece by piece: for each response handed over, in order, one whole message, and then at most a beginning of the message of the last one or what was left of a head that was refused; between them only interim 100 Continue responses and the connection's own error responses. The whole message of the response with number n is the head that Server::encode gives for it and for the method of the request with number n (with only the Connection field or the version adjusted), then the data of its body framed as that head says, then the sendable trailers if that request allows trailers. There are never more responses than requests."}
{"id": "C79", "title": "A client receives exactly the responses that the server was handed, each for its own request", "statement": "When what a client connection reads is what a server connection wrote, in whatever pieces it arrives, the n-th message the client hands out is the n-th response the server's application handed over, the one written for the n-th request: the same status, the same fields (values without the blanks around them; all names but Content-Length, Transfer-Encoding, Connection, Trailer and a generated Date), the same body - complete, or, if the body ends with the connection, a beginning of it - and the trailers that were announced, may be sent and that the request allows. Interim 100 Continue responses in between are never taken for the response. What has come of a response that is not complete is a beginning of that response's body. This holds up to and including the first response whose body ends with the connection.", "quantifier": "for every behaviour of service, transport and scheduler on the server side, and of application, transport and scheduler on the client side, every division of the stream into reads, every number of responses, every body", "why_tests_cant": "That no response is ever assigned to another request, cut short, run together with the next or changed is a statement about all pairs of runs of two state machines and every division of the bytes between them; tests run a few pairs.", "anchors": ["src/proto/h1/dispatch.rs:143-448", "src/proto/h1/conn.rs:190-423", "src/proto/h1/conn.rs:560-812", "src/proto/h1/role.rs:383-1010", "src/proto/h1/role.rs:1015-1330", "src/proto/h1/decode.rs:60-400"]}
{"id": "C80", "title": "A client and a server connected to each other never mix up requests and responses", "statement": "Let a client connection and a server connection each read what the other's transport took, in whatever pieces and however far it has arrived. Then whatever the client hands out as the response to its n-th request was handed over by the server's application as its n-th response, written for the n-th request the server was handed, and that request is the n-th request the client's application handed over: the same method, target and fields. Neither side is assumed to agree with the other about anything: that both have the same method in mind when they decide whether a response has a body is a consequence.", "quantifier": "for every behaviour of the client's application, the server's service, both transports and both schedulers, every interleaving of the two, every number of requests", "why_tests_cant": "Request/response mix-ups need a disagreement of the two ends about where a message ends, which comes from rare combinations of methods, framing and timing; the statement is about all pairs of runs of two state machines that feed each other.", "anchors": ["src/proto/h1/dispatch.rs:143-448", "src/proto/h1/conn.rs:190-423", "src/proto/h1/conn.rs:560-812", "src/proto/h1/role.rs:383-1010", "src/proto/h1/role.rs:1015-1330", "src/proto/h1/decode.rs:60-400"]}
{"id": "C81", "title": "Bodies and transports of C applications: nothing is lost, doubled or invented", "statement": "The tasks of hyper_body_data complete with exactly the data of the body, in order, one chunk each, then nothing (the end) or the error; trailers are passed over. hyper_body_foreach calls the callback with exactly the data frames in order, stops at the first answer that is not HYPER_ITER_CONTINUE, and succeeds only when the connection has finished the body without an error and all of its data was given to the callback. A body fed by a data function ends exactly when the function returns HYPER_POLL_READY without a buffer, and carries exactly the buffers returned with HYPER_POLL_READY. What hyper takes for sent over a hyper_io is exactly what the write callback took, and what it reads is exactly what the read callback wrote, as long as less than 4 GiB - 2 bytes are offered at once.", "quantifier": "for every sequence of answers of the body, every callback (any function of what it was given), every number of polls, every buffer content and every sequence of partial writes", "why_tests_cant": "The results depend on the interleaving of Pending answers with data, trailers and errors, on every return code of foreign callbacks, and on byte counts around 2^32 which no test transfers in one call.", "anchors": ["src/ffi/body.rs:83-164", "src/ffi/body.rs:203-244", "src/ffi/io.rs:89-192", "src/ffi/task.rs:22-29", "src/proto/h1/io.rs:311-328"]}
{"id": "C82", "title": "Errors keep what they know through wrapping", "statement": "find_source finds the first error of the wanted type among the sources of an error, and finds one whenever there is one. When a stream is reset by upstream with a reason, and the error a hyper client reports for it is returned by a proxy's service or body in any number of wrappers that return the wrapped error as their source, the downstream stream is reset with the same reason; any other reason than INTERNAL_ERROR comes from an h2 error among the sources. An error is a timeout exactly if it is a header timeout or TimedOut is among its sources; the error of a keep-alive that timed out is one through any wrapping. At most one of is_parse, is_user, is_canceled, is_closed, is_incomplete_message and is_shutdown holds, the finer questions imply the coarser ones, is_parse_too_large is what a server answers with 431 or 414, and the C interface never reports HYPERE_OK for an error.", "quantifier": "for every error: every kind, every depth and every mixture of hyper, h2, io and foreign errors in the chain of sources", "why_tests_cant": "The chains of sources are unbounded and made of foreign types; the existing tests cover a depth of one and two.", "anchors": ["src/error.rs:31-172", "src/error.rs:175-360", "src/error.rs:405-498", "src/error.rs:618-625", "src/ffi/error.rs:15-53", "src/proto/h2/mod.rs:263-278", "src/proto/h2/server.rs:463-468", "src/proto/h2/ping.rs:497-515", "src/proto/h2/upgrade.rs:344-351"]}
{"id": "C83", "title": "A server refuses nothing that it can accept", "statement": "A server connection that is sent requests of a client connection of this code, each of which it can accept (a method and a target it takes for such, header values that are allowed, lengths that can be represented, not more lines than there is room for, heads that fit into the read buffer), never makes up an error response and never gives up with a parse error, however the bytes are cut into reads, however much of the body arrives with the end of a head, and whatever the application does. A response that says that a head is too large is given only if the bytes in the full buffer contain no complete head. So two connections that talk to each other agree on which response answers which request, without assuming that the server refuses nothing.", "quantifier": "for every client run, every server run, every cutting of the bytes into reads and pauses, every pipeline of requests, every body", "why_tests_cant": "Tests send fixed requests in a few fixed pieces; the shortcut that skips the parser while no empty line is seen depends on where every read ended, over the life of the connection.", "anchors": ["src/proto/h1/io.rs:174-222", "src/proto/h1/role.rs:73-118", "src/proto/h1/role.rs:146-330", "src/proto/h1/conn.rs:211-357", "src/proto/h1/conn.rs:819-836"]}
{"id": "C84", "title": "A head that can be written is written", "statement": "The only heads that a connection fails to write are those of messages that the application handed over: on a server, a response that Server::encode refuses as the answer to the request with the same number; on a client, a request with a version that HTTP/1 cannot tell. A response is accepted by Server::encode, with whatever the connection changes in its version and its Connection field, if its version is 1.0, 1.1 or 2, its status is 101 or not 1xx, it does not carry both Content-Length and Transfer-Encoding, carries neither in the success of a CONNECT, the values of Content-Length are one number where the length of the body is taken from them, and there is only one where the response to a HEAD has no body. So if the applications of two connections that talk to each other hand over only such messages, they agree on which response answers which request, with nothing assumed about what happened on the connections except the order of the bytes. Server::encode accepts exactly the heads that meet these conditions when \"not both\" is read as: a Content-Length that counts (there is a body, or the request was a HEAD) is not followed by a Transfer-Encoding, and a Transfer-Encoding that counts (the version is not 1.0 and the response may have a body) is not followed by a Content-Length. Client::encode accepts exactly the heads with version 1.0, 1.1 or 2.", "quantifier": "for every execution of a client and of a server connection, every message, every interleaving of reads, writes, pipelined requests and body frames", "why_tests_cant": "Tests encode single heads; that no other path of the connection (automatic responses, interim responses, graceful shutdown, bodies) can end in a head that fails is a statement about all executions.", "anchors": ["src/proto/h1/conn.rs:596-712", "src/proto/h1/role.rs:382-482", "src/proto/h1/role.rs:653-992", "src/proto/h1/role.rs:1198-1245", "src/proto/h1/dispatch.rs:356-448"], "first_stated_as": "The only heads that a connection fails to write are those of messages that the application handed over: on a server, a response that Server::encode refuses as the answer to the request with the same number; on a client, a request with a version that HTTP/1 cannot tell. A response is accepted by Server::encode, with whatever the connection changes in its version and its Connection field, if its version is 1.0, 1.1 or 2, its status is 101 or not 1xx, it does not carry both Content-Length and Transfer-Encoding, carries neither in the success of a CONNECT, the values of Content-Length are one number where the length of the body is taken from them, and there is only one where the response to a HEAD has no body. So if the applications of two connections that talk to each other hand over only such messages, they agree on which response answers which request, with nothing assumed about what happened on the connections except the order of the bytes."}
{"id": "C85", "title": "A connection has the settings it was asked for, and what cannot be done is refused when it is built", "statement": "After any sequence of calls on a builder (HTTP/1 and HTTP/2, server and client) each setting of the connection is the one that was asked for last, or the default if it was never asked for; where settings meet, the last of them decides (exact read size and buffer limit of a client; fixed and adaptive windows of HTTP/2), pipelined flushing implies flattened writes, and the default header timeout is used only if there is a timer. Building an HTTP/1 server connection panics exactly if a buffer limit below the minimum was asked for at any point, or if the last word on the header timeout is a duration and no timer was given; a connection that was built never panics for want of a timer. An HTTP/1 client connection fails to be built exactly for a limit below the minimum. An HTTP/2 builder panics exactly for a send buffer above 2^32-1; its connection sets up pings exactly if an adaptive window or an interval was asked for, and panics when the handshake is complete exactly if an interval is set and no timer was given.", "quantifier": "for every sequence of builder calls, every transport (with and without vectored writes), every state of the header timer and every time", "why_tests_cant": "Tests set one or two options in one order; interactions between the options, and that no later state can reach the panics of an absent timer, are statements about all sequences of calls and all states.", "anchors": ["src/server/conn/http1.rs:239-501", "src/client/conn/http1.rs:342-610", "src/server/conn/http2.rs:157-323", "src/common/time.rs:32-85", "src/proto/h1/conn.rs:56-162", "src/proto/h1/conn.rs:219-236", "src/proto/h1/io.rs:59-112", "src/proto/h2/server.rs:128-231", "src/proto/h2/ping.rs:41-94", "src/client/conn/http2.rs:308-593", "src/proto/h2/client.rs:83-187"], "first_stated_as": "After any sequence of calls on a builder (HTTP/1 server, HTTP/1 client, HTTP/2 server) each setting of the connection is the one that was asked for last, or the default if it was never asked for; where settings meet, the last of them decides (exact read size and buffer limit of a client; fixed and adaptive windows of HTTP/2), pipelined flushing implies flattened writes, and the default header timeout is used only if there is a timer. Building an HTTP/1 server connection panics exactly if a buffer limit below the minimum was asked for at any point, or if the last word on the header timeout is a duration and no timer was given; a connection that was built never panics for want of a timer. An HTTP/1 client connection fails to be built exactly for a limit below the minimum."}
