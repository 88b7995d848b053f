# Formal model of hyper: design

Source under study: `/repo/src` (hyper 1.x). Prover: Coq 8.16.1, standard library only.
Line numbers in this file and in the Coq comments refer to `/repo`.

## Layout of `rocq/theories`

| prefix | content |
|---|---|
| `Base*.v` | bytes, ASCII, 64-bit arithmetic, list facts |
| `M_*.v`   | models: Gallina functions, one per Rust function, each with a citation. No proofs of properties |
| `S_*.v`   | small specifications, written without looking at the model's helpers (grammars, RFC rules, abstract machines) |
| `L_*.v`   | lemmas and invariants |
| `P_*.v`   | property theorems only, each closed by `exact`, with an `Example` showing its hypotheses are met and `Print Assumptions` |

## Modelling conventions

* A byte is an `N`. Theorems quantify over all `N`, a superset of the real bytes, unless `< 256` is stated.
* `u64`/`usize` are `N` with explicit checked operations where the code checks; the target is assumed 64-bit (`usize = u64`).
* Loops are structural recursion with fuel and an explicit out-of-fuel result that is proved unreachable.
* A panic is an explicit result value.
* Transports, clocks, schedulers, peers and applications are modelled by arbitrary event lists (oracles): theorems quantify over all of them.
* `http::HeaderMap` (external crate) is modelled as a list of groups `(name, values)`; names are lower-case as the crate guarantees.
* `httparse` (external crate) is not modelled: the model of head parsing starts from the list of header lines that it returns.
* The `h2` crate is external: it is modelled by an oracle that answers capacity, reset and send calls.

## Plan per property

| id | what is modelled | how it is proved |
|---|---|---|
| C01 | `Encoder::encode/end`, `Decoder::decode` over a fragmenting transport | round trip: flat-stream run of the decoder, simulation by fragmented run, induction over chunks |
| C02 | `Decoder::decode` for `Length`, `read_mem` | induction over the event list |
| C03 | same, with end of input | prefix induction: no proper prefix of an accepted stream is accepted |
| C04 | same | both runs equal the flat-stream run |
| C05 | chunked states | invariant linking the automaton state to the grammar in `S_Chunked.v` |
| C06 | `read_start/read_size` | induction over digits, value function in the spec |
| C07 | limits | invariant over all steps |
| C08 | `encode_trailers`, trailer states | round trip; parsing of the trailer block itself is `httparse`'s |
| C09, C10 | `Encoder` | invariant over encode calls |
| C11 | `encode_trailers`, `is_valid_trailer_field`, the allowed names collected by `set_length` and `encode_headers` | direct over all maps; the names collected along the head against the list members of its Trailer fields |
| C12, C13 | header loop of `Server::parse` | loop invariant, equivalence with an order-free rule in `S_Framing.v` |
| C14 | `from_digits`, `content_length_parse*`, `checked_new` | equivalence with decimal value |
| C15 | `Client::decoder` | equivalence with RFC rule list |
| C16, C55 | `Server::encode`, `encode_headers` | loop invariant over header groups |
| C43 (P_PingSpaced) | `record_data`, `p_poll` (M_Ping) | `C43_spaced`: arriving data makes hyper probe only once the delay of the estimate has passed since the last answer, if the clock does not run backwards |
| C16 (P_NoLength) | the same model | `C16_bodyless`: a 1xx, 204, 304 or successful CONNECT response carries neither Content-Length nor Transfer-Encoding unless the application names a Content-Length; `C16_connect` without that condition; refuted without it: `C16_bodyless_refuted` (F65) |
| C17 | `Client::set_length` | case analysis; expected findings for user-supplied headers |
| C18 | composition of C16's and C15's models | composition theorem |
| C19 | Connection handling in `parse` | loop invariant; expected finding for repeated lines |
| C20, C21, C27 | `WriteBuf`, `BufList`, `Cursor`, `poll_flush` | refinement to an abstract byte queue |
| C22, C25 | `Buffered::parse`, `read_mem`, `poll_read_from_io` | invariant over events |
| C23 | `ReadStrategy` | invariant |
| C24 | `is_complete_fast` | window lemma on positions of the blank line |
| C26 | `Rewind` | stream equality |
| C28-C34, C40, C49, C56 | `Conn` and `State` as a transition system | invariants over all operation sequences |
| C35, C36, C38 | `client::dispatch` channel, `proto::h1::dispatch::Client` | invariants over all operation sequences |
| C37, C39 | `Incoming`/`Sender` channel with `SenderDropGuard` | refinement to a queue |
| C41 | `strip_connection_headers` | direct; finding F21 for repeated Connection/TE lines |
| C42 | `PipeToSendStream::poll` with an `h2` oracle | invariant over polls |
| C43, C44 | `Bdp`, `KeepAlive`, `Ponger` (floats abstracted to arbitrary comparison results) | invariants |
| C45, C51 | `UpgradedSendStreamTask`, `H2Upgraded`, close notify | invariant over interleavings |
| C46 | `ReadBuf`, `ReadBufCursor` | invariant over operations |
| C47, C48, C52 | reason phrase, title case, obs-fold | direct over all strings |
| C50 | `watch` | interleaving semantics with an atomic waker |
| C53 | `CachedDate` | invariant |
| C54 | `DecodedLength` | arithmetic |
| C57 | `Decoder` | totality: no state panics or loops |
| C59 | `H2Stream::poll2`, `ClientTask` head preparation, with C42's pipe | invariant over polls; round trip of the announced length |
| C60 | `proto::h2::server::Server` as a transition system with an `h2` oracle | invariant over all moves |
| C61 | `ClientTask`, `SendWhen`, `PipeMap` and the request channel as a transition system of tasks and user moves | invariant over all interleavings: every request is in exactly one place |
| C62 | the connection and dispatcher models; what the log says of failures and what the future returned | invariant over all moves |
| C63 | the connection model; its memory of the exchange (method, version, `TE: trailers`, HTTP/0.9) against folds over the log | invariant over all moves |
| C64 | the connection and dispatcher models; when the transport is left to the application | invariants over all moves, with refuted stronger forms |
| C65 | the connection and dispatcher models with the decoders; a separate spec of which bytes stand for which message (S_Inbound) | invariant over all moves relating the bytes read, the decoder state and the messages handed out; unambiguity of the spec; with a refuted stronger form |
| C66 | `Server::parse` and `Client::parse` whole, over httparse as functions with a two-line contract (M_Parse, S_Parse) | C65 instantiated with these parsers, C12/C15 for the framing, C63 for the method; induction over the rounds of the client's loop; a reference parser shows that the contract can be met; with a refuted stronger form |
| C67 | automatic error responses: `Server::parse` on every head that is not accepted, `Server::on_error`, `on_read_head_error`, `on_parse_error` (S_Refuse) | a rule per status; the parser fails iff a rule applies; invariant over all histories that ties each automatic response to the bytes behind the complete requests; with a refuted stronger form |
| C68 | the connection and dispatcher models; when `poll_loop` ends (S_Rest) | invariants over all moves: `notify_read` is set when bytes are left; if nothing outside says Pending a poll ends only when done; with refuted stronger forms |
| C69 | both head parsers, the connection model; what a request asks for, from its lines (S_Wish) | invariants over all moves: every request handed out begins behind complete requests and carries the wishes of its lines; 100 Continue if and only if the request waits for it when its body is first asked for; tunnel only if asked; with a refuted stronger form |
| C70 | the connection model; the builder's `keep_alive(false)` is a move that only a new connection accepts | from "keep-alive is ruled out" as an invariant over all moves: one request, one response, which says close; with a refuted stronger form |
| C71 | the hand-over itself: `Pending`, `OnUpgrade` and its clones, the sender in `State`, the ends of the connection futures (M_Upgrade); the specification reads the outcome off the course of events (S_Upgrade) | one invariant over all courses (fate of every message, content of every channel, whereabouts of the transport); the histories of the server model are such courses; with refuted stronger forms for clones |
| C72 | the connection and dispatcher models with the request channel; when the `poll_loop` of a client ends (S_Idle) | invariants over all moves: an idle connection that flattens its buffers has asked for a request or knows that it has to go round again; nothing unread is left; if nothing outside says Pending a poll ends only when done; with refuted stronger forms |
| C73 | the executor of the C interface, step by step, with wakes of other threads in two steps (M_Exec); the specification reads off the course of events which task is due, being woken, new or over (S_Exec) | one invariant over all moves; NULL only if nothing is due; a measure bounds the steps of a call; what a panic leaves behind; with two refuted stronger forms |
| C74 | the three structures of `hyper_headers` and the operations on them (M_CHeaders); the specification is one list of lines (S_CHeaders) | simulation: maps and order are those of the list; a received head is a list of adds; with two refuted stronger forms |
| C75 | the dispatcher and the connection models on both sides (M_Dispatch, M_Conn), `Client::encode` (M_RoleEncode), `Server::parse` (M_Parse), the body encoder and decoder; the specification (S_Outbound) is the list of requests handed over, each with head, data, trailers | an invariant of the client: what is queued is whole messages and one beginning (`C75_sent`); with C58 (stream order), C65/C66 (what a server receives) and the round trips of bodies and heads, two readings of one byte stream agree (`C75_delivered`, `C75_end_to_end`). httparse by the contracts `hp_ok`, `reads_requests` and `reads_trailers`, all kept by the reference parser |
| C76 | the case maps kept by `Server::parse`, `Client::parse` (M_Role), `write_headers*`, `encode_headers` and the two name writers (M_RoleEncode); the specification (S_Names) filters lines by name | the loop over the lines appends to both maps in step (`C76_server_records`, `C76_client_records`); the writer visits the values of one name with the spellings of that name (`C76_request`, `C76_response`); their composition (`…_passed_on`). `C11_*_announced`: the names of the Trailer fields are those an encoder lets through |
| C77 | `ConnTask`, `Conn`, `ConnMapErr`, the channels between them and `ClientTask`, the order in which `ClientTask` is dropped (M_H2Conn); h2 an oracle, channels and wakers by contract | an invariant over single atomic steps; `C77_last_reference_refuted` gives the two schedules that lose the wake-up (F59) |
| C78 | the server side of the same models (M_Dispatch, M_Conn, `Server::encode` in M_RoleEncode, the body encoder); the specification (S_Reply) is a list of pieces - a response, a 100 Continue, an error response of the connection - each with its bytes | an invariant that pairs the number of the response with the number of the request: what is queued is whole pieces and one beginning (`C78_sent`), and with C58 the same of what the transport took (`C78_taken`) |
| C79 | two runs of the connection model, a server's and a client's, tied by one hypothesis: the bytes the client reads are a beginning of the bytes the server's transport took; httparse by its contracts (`hp_ok`, `reads_responses`, `reads_trailers`, all three proved for the reference parser) | the client's messages by C66, the server's bytes by C78; a counting lemma gives the number of the request a response belongs to, uniqueness of heads and of chunked bodies gives the rest (`C79_delivered`); with the writer's lines and C18 the client's head means what the server's application said (`C79_end_to_end`). Hypotheses that are not about the parser: the responses are representable (`readable`), the server wrote no error response of its own and refused no head, the methods of the requests are those the client wrote (C75 in the other direction), HTTP/0.9 off |
| C80 | two runs of the connection model that feed each other: the bytes the server reads are a beginning of what the client's transport took and the other way round | C75_end_to_end in one direction, C79_end_to_end in the other; its hypothesis that both sides have the same methods in mind is proved here: the heads a client writes are those of the requests it was handed, in order (`asked_handed`, an invariant of all moves), the requests a server was handed are the messages it received (`requests_received`), so `methods_agree`. The remaining hypotheses are those of C75 and C79: representable messages (`acceptable`, `readable`), no refused head, no error response of the server's connection itself, httparse by contract |
| C81 | `hyper_body_data`, `hyper_body_foreach`, `UserBody::poll_data`, `hyper_io` (M_CBody), the flattened flush with a `hyper_io` under it, the channel body of C37 and the read buffer of C46 | induction over the answers of the body; `C81_received` with C37_clean_end; `C81_write_refuted`, `C81_read_unchecked_refuted`, `C81_user_buffer_refuted` (F60) |
| C82 | `hyper::Error` with its kinds and causes, `find_source`, `h2_reason`, `is_*`, `new_h2`, `h2_to_io_error`, `hyper_error::code` (M_Error); foreign errors by what their `source()` returns | induction over the depth of the chain; wrappers as an inductive predicate; `C82_reason_tunnel_refuted`, `C82_header_timeout_refuted` (F61) |
| C83 | the connection model (server) reading what the connection model (client) sent; httparse by contract (`hp_ok`, `reads_requests`, and `waits_for_rest`: a head ends with an empty line, a proper beginning of a head is Partial) | new invariant: while a head is read, the first `partial_len` bytes of the buffer are no head (`L_Accept.PT`); with C24's `fast_sees` the shortcut never overlooks a head; C67's account of refusals, C75's account of the wire, uniqueness of messages. `C83_conversation` is C80 without the assumption that the server refuses nothing. |
| C84 | `server_encode`, `client_encode` (M_RoleEncode); the connection model on both sides | induction over the fields of the map; the first move after which the log contains a failed head, which must have handed a message over (all other moves are equal to moves with nothing to hand over, `step_safe`); C78's pairing of requests and responses. `C84_conversation` is C83 with conditions on the messages in the place of `no_failed_head` and `~ head_failed`; `C84_order_refuted` (F62). `C84_exact` gives the condition under which `Server::encode` succeeds, necessary and sufficient, with the order of the fields in it; `C84_exact_client` the same for `Client::encode` (P_Encodable) |
| C85 | the builders and `Time` (M_Builder): `server_conn`, `client_conn`, `h2_conn`, `header_timer`, `h2_handshaken` | induction over the calls, one projection per setting against `set_to` (S_Builder: the last call that asks decides); panics characterised both ways; `C85_no_later_panic` relates the timer with panics to `start_timer` of the connection model; `C85_once` ties `keep_alive(false)` to C70; refuted: `C85_no_exact_size_refuted` (F63), `C85_h2_no_later_panic_refuted` (F64) |
| C58 | `Conn` with `WriteBuf`, whole connection | invariant: taken ++ buffered = queued |

Where a statement in `properties.jsonl` was narrowed after the model showed the first wording to be false, the first wording is
kept there as `first_stated_as`, and a `_refuted` theorem shows why it fails (see Findings).

## Trusted base

* The Coq 8.16.1 kernel.
* Axioms: none. Every property file ends with `Print Assumptions` for its theorems; each prints `Closed under the global context`.
  The modules loaded through the standard library's `Lia` contain the `Under_*` axioms of `Coq.ssr.ssrunder`; no theorem depends on them.
* Faithfulness of the hand translation of the cited Rust functions.

## What is modelled, what is not

| file | Rust functions modelled | left out / simplified |
|---|---|---|
| `M_Src.v` | `Buffered::poll_read_from_io`, `Buffered::read_mem` (`proto/h1/io.rs`) | buffer capacity and allocation: a read may return any amount the event list says |
| `M_Decode.v` | all of `proto/h1/decode.rs` except logging and the `Debug`/`Display` impls; the body-polling loop of `conn.rs` (`poll_read_body`) | the trailer block is handed to a parser given as a parameter (`httparse` + `HeaderMap`) |
| `M_Encode.v` | all of `proto/h1/encode.rs` except `danger_full_buf` and the `Buf` plumbing (an `EncodedBuf` is the bytes it yields); `write_body`, `write_trailers`, `write_body_and_end`, `end_body` of `conn.rs`; the body part of `dispatch.rs` `poll_write` | flushing back-pressure (see C20, C21) |
| `M_HeaderMap.v` | the operations of `http::HeaderMap` that hyper uses | hashing, capacity |
| `M_Httparse.v` | a reference header-block parser | stands for `httparse::parse_headers` only in theorem C08 |
| `M_Headers.v` | `headers.rs` 12-197, `body/length.rs` | `HeaderValue::to_str`, `HeaderName::from_bytes`, `str::split/trim` (external) by their documentation |
| `M_Role.v` | `Server::parse` after `httparse` (version, header loop, framing checks), `Server::on_error`, `Client::parse` after `httparse`, `Client::decoder` | request target handling, `httparse` itself, cached header maps |
| `M_Parse.v` | all of `Server::parse` and `Client::parse` around `httparse` (limits, errors, the loop over interim responses, unfolding), `record_header_indices`, `From<httparse::Error>` | `httparse`, `Uri` and `Method` validation are functions given as parameters; reason phrase and other extensions left out; header names and values that httparse accepts are accepted by `http` |
| `M_RoleEncode.v` | `Server::encode`, `encode_headers` and its three line writers, `Client::encode`, `set_length`, `set_content_length`, `write_headers*`, `title_case`, `obs_fold_line`, `ReasonPhrase::try_from`, `Decoder::new` | the canonical reason table and the cached `Date` value are parameters |
| `M_Buf.v` | `Chain`, `Take`, `Cursor`-like segments as a tree of buffers; `common/buf.rs` `BufList`; the `EncodedBuf` values built by `encode.rs` | a user `Buf` is a list of pieces plus a choice between a full and the provided `chunks_vectored` |
| `M_WriteBuf.v` | `WriteBuf`, `Cursor`, `buffer`, `can_buffer`, `headers_buf`, `flatten`, `Buffered::poll_flush`, `poll_flush_flattened` (`proto/h1/io.rs`) | allocation; the transport is a list of answers |
| `M_Read.v` | `ReadStrategy`, `Buffered::parse`, `consume_leading_lines`, `read_mem`, `poll_read_from_io`, `into_inner`, `parse_headers` with `is_complete_fast` (`role.rs`), `Rewind` (`common/io/rewind.rs`) | the head parser itself is a parameter; buffer capacity |
| `M_Conn.v` | `Conn` and `State` of `proto/h1/conn.rs`: reading heads and bodies, keep-alive, header timeout, automatic error responses, 100-continue, writing heads and bodies, flushing, shutdown; a ghost log of events that no function reads | informational responses for the client callback, ffi, cached header maps, tracing; whether the last transport read was Pending is an arbitrary input |
| `M_Dispatch.v` | `Dispatcher` (`proto/h1/dispatch.rs`: `poll_loop`, `poll_read`, `poll_write`, `poll_flush`, `poll_inner`, `poll_catch`, drop), `Server` and `Client` dispatch, the request channel of `client/dispatch.rs`; graceful shutdown, the server builder's `keep_alive(false)` | one loop iteration per step; wakers: an execution may take a step at any time, so every schedule of wake-ups is included; errors of the service and of user bodies are one kind |
| `M_H2Headers.v` | `strip_connection_headers` (`proto/h2/mod.rs`), preparation of response heads (`proto/h2/server.rs` 471-527) and request heads (`proto/h2/client.rs` 707-735) | the feature combination with `client` is modelled; h2 itself |
| `M_ReadBuf.v` | `ReadBuf`, `ReadBufCursor` (`rt/io.rs`), the tokio-to-hyper adapter `Compat::poll_read` (`common/io/compat.rs`) | memory as bytes or "uninitialised"; the unsafe operations by the contract in their documentation; tokio's `ReadBuf` by its documentation |
| `M_Date.v` | `CachedDate` (`common/date.rs`) | the date formatter is a parameter that yields 29 bytes; thread-local cell |
| `M_Watch.v` | `common/watch.rs`; `UpgradedCloseNotify` (`proto/h2/upgrade.rs`) | atomics as sequentially consistent steps; `AtomicWaker` by its contract (register and wake are atomic) |
| `M_Ping.v` | all of `proto/h2/ping.rs`; the window choices of the builders | `h2::PingPong` is an oracle; floating-point comparisons have arbitrary results; locks as atomic steps |
| `M_Builder.v` | the setters and `serve_connection`/`handshake` of `server/conn/http1.rs` and `client/conn/http1.rs`; the setters of `server/conn/http2.rs` and `client/conn/http2.rs` on which hyper itself acts, `Server::new` and the end of the handshake (`proto/h2/server.rs` 128-231, `proto/h2/client.rs` 137-187); `common/time.rs`; `Conn`'s setters | timers are numbers, durations seconds; settings that are only passed on to h2 and the ffi-only `preserve_header_order` are left out |
| `M_H2Body.v` | `PipeToSendStream::poll` (`proto/h2/mod.rs`), the cancellation check of `PipeMap::poll` (`proto/h2/client.rs`) | what h2 answers is an arbitrary input per loop iteration |
| `M_H2Tunnel.v` | `proto/h2/upgrade.rs`: `pair`, `UpgradedSendStreamTask::tick/poll`, `H2Upgraded` read, write, shutdown and drop, interleaved at every access to shared state | `mpsc` and `oneshot` by contract; `poll_flush` only polls the channel and is left out; the kind of an error |
| `M_Incoming.v` | `body/incoming.rs`: `Incoming::poll_frame`, `is_end_stream`, `size_hint`, `Sender::poll_ready/send_data/send_trailers/send_error/drop` for the channel kind, interleaved step by step; the HTTP/2 kind of `poll_frame` and `is_end_stream` | `mpsc` and `oneshot` by contract (capacity one slot per sender, in order); `ping` bookkeeping and flow control release of the HTTP/2 kind; the FFI kind |
| `M_H2Server.v` | `proto/h2/server.rs`: `H2Stream` (`poll2`), `Server::poll`, `Serving::poll_server`, `poll_ping`, `graceful_shutdown` | what h2, the service and the ponger return are inputs; the tunnel started by a CONNECT is `M_H2Tunnel.v`; the body of a request is the HTTP/2 kind of `M_Incoming.v`; the executor runs the task of a request at any time |
| `M_H2Client.v` | `proto/h2/client.rs`: `ClientTask::poll`, `poll_pipe`, `ResponseFutMap`, `PipeMap`; `client/dispatch.rs`: `SendWhen`, `UnboundedSender`, drops of `Receiver`, `Envelope` and `Callback` | what h2 returns is an input; the connection's own task (`ConnTask`) only shows as the end `conn_eof` (it is `M_H2Conn.v`); the kind of an error; the tunnel itself is `M_H2Tunnel.v` |
| `M_H2Conn.v` | `proto/h2/client.rs`: `ConnTask`, `Conn`, `ConnMapErr`, `conn_drop_ref`, `conn_eof`, the drop order of `ClientTask` | atomic steps in any order; what h2 and the ponger return are inputs; whether h2 wakes its connection when the `SendRequest` goes away is a parameter; `poll_ready` and the request queue are `M_H2Client.v` |
| `M_Upgrade.v` | `upgrade.rs`: `pending`, `OnUpgrade` (clone, poll, drop), `Pending::fulfill` and `manual`; `Conn::on_upgrade`, `State::prepare_upgrade`; the ends of `UpgradeableConnection` and `Connection` | tokio's `oneshot` by contract, std's mutex poisoning; `Upgraded` itself (read, write, downcast) is `Rewind` of `M_Read.v` around the transport; steps are atomic (the lock is held over a whole poll) |
| `M_Exec.v` | `ffi/task.rs`: `hyper_executor` (`spawn`, `poll_next`, `drain_queue`, the waker), `hyper_executor_push`, `_poll`, `_free`, the panic handling of `ffi/macros.rs`; `TaskFuture::poll`, `hyper_task_value`, `hyper_task_type`, `into_dyn_task_type` | `FuturesUnordered` by contract (stated at the top of the file); what tasks do is an input; memory is sequentially consistent; NULL arguments, user data, `hyper_context` |
| `M_CHeaders.v` | `ffi/http_types.rs`: `hyper_headers` (`_set`, `_add`, `_foreach`, `raw_name_value`), `hyper_response::wrap`; `ext/mod.rs`: `HeaderCaseMap`, `OriginalHeaderOrder`; the appends of a received head (`proto/h1/role.rs` 1119-1146) | `HeaderMap`, `HashMap`, `HeaderValue::from_bytes` by contract; NULL arguments left out; HeaderMap's limit of 32768 entries (a panic) is left out |
| `M_CBody.v` | `ffi/body.rs`: the futures of `hyper_body_data` and `hyper_body_foreach`, `UserBody::poll_data`; `ffi/io.rs`: `poll_read`, `poll_write` of `hyper_io`; `proto/h1/io.rs`: `poll_flush_flattened` over it | a callback is a function of the chunks it was given (foreach), or a list of what it does (write); pointers and ownership of `hyper_buf` except whether a returned buffer is taken; vectored and HTTP/2 writing |
| `M_Error.v` | `error.rs`: `Kind`, `User`, `source`, `find_source`, `h2_reason`, the `is_*` questions, the constructors with a cause; `ffi/error.rs`: `code`; `KeepAliveTimedOut`, `h2_to_io_error` | texts (`description`, `hyper_error_print`); `h2::Error` and `std::io::Error` by contract (an `io::Error` returns the source of the error inside it, not that error); sources do not form a circle |

## Findings

Behaviour of the faithful model that differs from what one may expect.

* **F1 (trailer lines).** Inside a trailer line the chunked decoder only looks for CR, so a bare LF may occur in the
  middle of a line. It does not change how many bytes belong to the body; what the fields mean is up to `httparse`.
* **F2 (trailer byte limit).** The first byte of the trailer buffer is stored without checking the limit, so with a
  configured limit below 2 the buffer may reach 2 bytes (`C07_memory_bounded` states `max 2 limit`).
* **F3 (short length-framed body).** If the last data frame also ends the stream and is too short, the sender reports
  success to its caller and only refuses to reuse the connection, while ending the body separately reports an error.
* **F4 (Connection: close can be undone).** `Server::parse` and `Client::parse` fold over `Connection` lines: once a line
  with `close` was seen, a later line with `keep-alive` turns keep-alive on again; and an HTTP/1.0 message with
  `Connection: close, keep-alive` is kept alive. (`C19_repeated_connection_refuted`, `C19_http10_both_refuted`.)
* **F5 (Content-Length after Transfer-Encoding).** A Content-Length line that follows a Transfer-Encoding line is not
  checked at all, one that precedes it must be valid. `request_framing` in `S_Framing.v` states this exactly; the message is
  chunked and the connection closed either way.
* **F6 (non-ASCII values).** A `Connection` or `Transfer-Encoding` value with a byte outside visible ASCII is ignored as a
  whole (`to_str` fails), e.g. `Connection: close, <0xE9>` does not close.
* **F7 (leaking `, chunked`).** When the response already carries a Transfer-Encoding without `chunked`, `encode_headers`
  appends `, chunked` to the line being written when the loop ends, which is not necessarily the Transfer-Encoding line: it
  can end up on a `Connection` or `Trailer` line. (`C48_chunked_leaks_refuted`.)
* **F8 (Content-Length is trusted).** With a body of known length and a user-supplied Content-Length, only a debug assertion
  compares the two: the head announces the user's number. (`C16_length_not_checked_refuted`.)
* **F9 (Transfer-Encoding that is not text).** A user-supplied Transfer-Encoding with a byte outside visible ASCII makes
  server and client disagree about the framing. (`C18_te_not_text_refuted`.)
* **F10 (huge Content-Length).** A Content-Length of 2^64-2 or more is accepted when sending and refused when reading.
  (`C18_huge_length_refuted`.)
* **F11 (length without body).** A client request without a body keeps the application's Content-Length: the head announces
  bytes that are never written. (`C17_no_body_length_refuted`.)
* **F12 (both framing headers).** `set_length` removes Content-Length beside Transfer-Encoding only if it parses; an invalid
  or contradictory Content-Length is written together with Transfer-Encoding, also when hyper adds the Transfer-Encoding
  itself. (`C17_te_and_bad_length_refuted`, `C17_added_te_bad_length_refuted`.)
* **F13 (list-valued Content-Length).** The client sends `Content-Length: 5, 5` unchanged; hyper's server refuses it.
  (`C17_list_length_refuted`.)
* **F14 (dropped body).** A body of unknown length on GET, HEAD, CONNECT or on a request whose version is not HTTP/1.1 is
  dropped without an error. (`C17_body_dropped_refuted`.)
* **F15 (vectored writes of user buffers).** The queue write strategy concatenates the slices of several buffers. A body
  `Buf` with several pieces that keeps the provided `chunks_vectored` (which returns only the first piece) makes hyper write
  bytes of the next buffer in between. (`C27_default_vectored_refuted`, `C20_default_vectored_refuted`.)
* **F16 (HTTP/0.9 responses in pieces).** With `http09_responses`, a response whose first piece is a prefix of `HTTP/` is
  never handed to the parser again unless an empty line arrives: the same bytes are accepted in one piece and refused in
  two. (`C24_http09_refuted`.)
* **F17 (HTTP/2-versioned response to an HTTP/1.0 peer).** A response whose version is `HTTP_2` (a proxy passing on an
  upstream response; `role.rs` 432 accepts it) sent to an HTTP/1.0 keep-alive peer is written as HTTP/1.0 without
  `Connection: keep-alive`, and the connection stays open: `fix_keep_alive` (`conn.rs` 666-688) looks at the response's
  own version and has no case for it. (`C32_any_version_refuted`; with versions 1.0 and 1.1 only, `C32_http10_explicit`.)
* **F18 (requests waiting in the channel).** `Sender::try_send` (`client/dispatch.rs` 90-120) first takes the permission
  and then pushes the request. If the receiver polls in between it finds the queue empty and asks again. Three requests can
  be in the queue at once although each was asked for (or is the single first one). (`C38_one_waiting_refuted`; the bound of
  three is `C38_connection`, and one with sends that are not interrupted `C38_one_waiting`.)
* **F19 (an automatic head overtakes the previous body).** Ordinary heads are written only when the queue is empty
  (`can_headers_buf`, `io.rs` 135-137), but the head of an automatic error response (`conn.rs` 819-836) and `100 Continue`
  (`conn.rs` 405-411) are appended to the headers buffer without that check, and the headers buffer goes out before the
  queue. If a response body is still queued because the transport blocks, and then the rest of the request body arrives and
  the next request is malformed or expects 100-continue, the new head is written into the previous response's body. Only
  with vectored transports; in debug builds an assertion fires instead (`io.rs` 593-596). (`C58_order_refuted`,
  `C58_continue_order_refuted`.)
* **F20 (`pipeline_flush` loses the last response).** `poll_shutdown` flushes through `poll_flush`, which does nothing with
  `pipeline_flush` while unread bytes are buffered (`io.rs` 271-273, 330-333). When the last exchange ends the connection and
  the peer has sent anything after its last request, the response is never written and the connection reports success.
  (`C58_pipeline_refuted`.)
* **F21 (HTTP/2 header stripping looks at first lines only).** `strip_connection_headers` takes the first Connection value and
  removes all of them, so names listed in a second Connection line stay in the message; a Connection value with bytes outside
  ASCII text is removed without removing what it names; a TE list whose first line is `trailers` is sent whole
  (`C41_repeated_lines_refuted`). Built without the `client` feature, TE is not removed from responses at all.
* **F22 (`Compat::poll_read` counts from the wrong end).** After a read, the adapter calls tokio's `assume_init` with the
  number of newly initialised bytes (`common/io/compat.rs` 52-58), but tokio counts that number from the end of the *filled*
  part. With a buffer that is partly filled or partly initialised but not to its end, a correct read makes `set_filled`
  panic. It works when the initialised part ends with the filled part or with the buffer (`C46_adapter`), which is what the
  h2 crate passes. (`C46_adapter_refuted`.)
* **F23 (keep-alive ignores data received after its ping).** Once the keep-alive ping is out, frames that arrive do not
  postpone the timeout; only the pong does. A connection that is receiving data but whose pong is queued behind it is
  declared dead (`ping.rs` 307-318). (`C44_not_silent_refuted`.)
* **Date.** A wall clock that is set back leaves the old, now future, date in place until the clock has caught up
  (`C53_backwards_refuted`).
* **Adaptive window.** A configured initial window above 16 MiB would be lowered by the first sample
  (`C43_shrink_refuted`); the builders do not allow it, since adaptive mode sets the window to 65535 (`C43_builder`).
* **F24 (tunnel loses a racing write).** Without capacity the task first checks that the queue is empty and then whether
  the tunnel was closed (`upgrade.rs` 177). A write that is accepted between the two checks, followed by dropping the tunnel,
  is neither sent nor reported: the task ends the stream and discards the queue (`C45_lost_write_refuted`). Everything else
  accepted is sent (`C45_end`). Checking the flag first would close the gap.
* **F25 (a cancelled tunnel looks finished).** `poll_read` reports a reset with reason CANCEL or NO_ERROR as a clean end of
  stream (`upgrade.rs` 245-246), so the reader cannot tell a truncated tunnel from a finished one
  (`C45_read_cancel_refuted`).
* **Tunnel shutdown.** `poll_shutdown` reports success when the task has gone away without an error, also when the executor
  dropped it before it had sent anything (`upgrade.rs` 332-335; the `EKilled` case of `C45_shutdown`).
* **F26 (one piece ahead).** Without `Expect: 100-continue` the first piece of a body is read and queued before the application
  has asked for any (`C39_first_chunk_refuted`): the channel has room for one piece and only the wanting watch of an expecting
  body starts closed. C39 is stated accordingly.
* **F27 (an HTTP/2 response can be cut without an error).** A reset with NO_ERROR reads as a clean end of the body,
  also when fewer bytes than declared have arrived (`C37_h2_truncated_refuted`, `incoming.rs`, HTTP/2 kind).
* **F28 (a complete request body that never ends).** A server that has finished its response before the request body is complete
  keeps the body's sender: with the last piece the connection becomes idle, `poll_read` goes on to the next head
  (`dispatch.rs` 229-231) and does not reach the place that drops the sender (287-289). The application waits for the end of
  a body that it has completely received; when the peer closes the connection it gets an incomplete-message error
  (`C37_clean_end_refuted`). The converse is fine: a clean end means that everything was received (`C37_end_means_complete`).
* **F29 (the header timer is not started).** When the response body ends between the two write attempts of one round
  (`dispatch.rs` 199-214), the connection becomes idle during the second flush and the task goes to rest without reading
  again. The timer of the next head is only started by a read, so it does not run until something else wakes the task; a
  silent peer is then held longer than the configured timeout (`C49_rest_refuted`).
* **F30 (response cut off without an error).** A response without a body but with the application's own
  `Transfer-Encoding: chunked` is complete only after the last chunk. If reading is already closed (the service dropped the
  request body, or the peer half-closed) and the head alone fills the write buffer, the connection can end with `Ok` before
  the last chunk is queued: `is_done` (`dispatch.rs` 469-484) does not ask whether a body is still to be ended. It happens
  when the transport is blocked during `poll_write` and takes the bytes during the shutdown of the same poll
  (`C40_answered_refuted`). `C40_answered` shows that this is the only way.
* **F31 (unused client connection).** `should_error_on_eof` (`conn.rs`) exempts a client only when its keep-alive state is
  idle, and that state starts as busy. A client connection that was opened and never used therefore ends with
  `IncompleteMessage` when the peer closes it, though no message was begun (`C33_unused_client_refuted`). After one complete
  exchange the same end is clean (`C33_idle_client`).
* **F32 (response taken for a request that was not yet sent).** `require_empty_read` refuses unsolicited bytes, but it only runs
  in `poll_read`. When a second request is already queued (F18: the first send overlapped a poll), a peer that answers the first
  request before its body is complete, and appends a second response, can have that response accepted for the second request:
  the end of the first body fills the write queue, `poll_write` flushes it (`dispatch.rs` 384-385), the flush makes the connection
  idle, and `poll_write` goes on with the next request without another read (`C34_race_refuted`,
  `C34_race_answered_refuted`). While sends and polls do not overlap this cannot happen (`C34_fresh`). That theorem uses the real value
  of `read_blocked`; its predicate `faithful` follows the flag along the execution.
* **F33 (size hint of a finished HTTP/2 body).** The body of an HTTP/2 response to HEAD has ended and yields no data, but its
  size hint is still the declared Content-Length (`C37_h2_head_refuted`): only an unknown length becomes zero when the stream
  has ended.
* **F34 (bodies where none is allowed, HTTP/2).** The HTTP/2 server looks neither at the method HEAD nor at the statuses 204 and
  304: a body the program gives is announced and sent (`C59_bodiless_refuted`). The HTTP/1 server drops it.
* **F35 (one bad CONNECT ends an HTTP/2 server connection).** A CONNECT whose Content-Length is not zero is answered by a reset,
  and `poll_server` then returns `Ok` for the whole connection (`server.rs` 284-291). Other requests that are being served lose
  their connection, and it is not an error (`C60_ends_early_refuted`). A peer can do this at any time.
* **F36 (connection error lost for one request).** An HTTP/2 request that has been given to h2 and waits for its stream to open is
  kept in `fut_ctx`. When `poll_ready` then fails, the connection future returns the error and the request's callback is merely
  dropped: its caller gets "dispatch gone" instead of the error (`C61_error_lost_refuted`).
* **F37 (CONNECT and 2xx).** The HTTP/2 server starts a tunnel for every 2xx answer to CONNECT, the client only for 200. For 201 the
  client gives a response with a body while the server waits for tunnel data (`C61_tunnel_refuted`).
* **F38 (body of CONNECT).** The HTTP/2 client refuses a CONNECT with a body of known size but silently drops one of unknown size
  (`C61_connect_body_refuted`).
* **F39 (short body, success).** A response body that is shorter than its Content-Length makes the connection end with an error when
  the body ends by itself (`end_body`, conn.rs 784-812), but with success when the body announces its last buffer
  (`write_body_and_end`, conn.rs 764-782): the writer is closed without remembering an error (`C62_aborted_refuted`).
* **F40 (declined upgrade).** A server that answers an upgrade request with an ordinary response keeps the pending upgrade for the
  rest of the connection (nothing but `pending_upgrade` clears it; `idle`, conn.rs 1114-1144, does not). When the connection ends,
  even many exchanges later, the transport is handed over as if the protocol had been switched and is not shut down
  (dispatch.rs 152-155; `C64_declined_refuted`).
* **F41 (switching response lost).** `poll_inner` hands the transport over without flushing (dispatch.rs 152-155). If the transport
  has not yet taken the 101 response, it is lost when a graceful shutdown is asked for, or when the application has dropped the
  body of the upgrade request (`C64_always_flushed_refuted`, `C64_bodies_flushed_refuted`). Otherwise everything has been taken
  (`C64_flushed`).
* **F42 (rest of a request body handed over).** If the application answers an upgrade request that has a body with a switching response
  and drops the body before all of it has arrived, `poll_drain_or_close_read` reads once and then closes the read side
  (conn.rs 859-875), and the transport is handed over (dispatch.rs 152-155). The rest of the body arrives as bytes of the other
  protocol (`C65_handover_always_refuted`). After a complete request exactly the bytes behind it are handed over (`C65_handover`).
* **F43 (large max_headers lets a peer panic the connection).** `Server::parse` and `Client::parse` call `headers.reserve(headers_len)`
  (role.rs 266, 1123) with the number of header lines. `HeaderMap::reserve` panics above 24576 (32768 slots, of which three quarters are
  used). The builders accept any `max_headers` (server/conn/http1.rs 338), and 24577 short lines fit into the default buffer limit, so
  with such a setting a peer can make the connection task panic (`C66_no_panic_ever_refuted`). Up to 24576 there is no panic
  (`C66_no_panic`).
* **F44 (unsupported Content-Length is answered with 431).** `Content-Length: 18446744073709551614` and `...615` are numbers that a u64
  holds but `DecodedLength::checked_new` refuses with `Parse::TooLarge` (role.rs 307), which `Server::on_error` answers with
  431 "Request Header Fields Too Large"; `...616` is answered with 400 (`C67_refuses_ex`, rules `ref_length` and `ref_body` of S_Refuse).
* **F45 (bad head followed by an HTTP/2 preface is not answered).** `on_parse_error` looks for the preface in the buffer after the bad
  head has been taken off it (role.rs 220 `buf.split_to`, conn.rs 339 `consume_leading_lines`, conn.rs 820-823). A complete head that is
  refused and is followed by the bytes of a preface gets no response, and the connection reports `VersionH2`
  (`C67_at_once_always_refuted`).
* **F46 (lost wake-up: pipelined request not read).** A response body that is pending in the first `poll_write` of a round and over in the
  second one (dispatch.rs 199-218) finishes the response there; the flush after it makes the connection idle and sets `notify_read`, but
  `poll_loop` returns without looking at `wants_read_again` (dispatch.rs 213-218). If the next request is already in the read buffer,
  the connection rests: `mid_message_detect_eof` had returned Pending without reading because the buffer was not empty (conn.rs 487-496), so no
  waker is registered with the transport, no timer is armed, and the request is not answered (`C68_seen_always_refuted`).
* **F47 (lost wake-up: service not polled).** With queued (vectored) writes a response may be complete but still queued because the transport
  blocks, while its request's body is still coming in. When that body ends the connection becomes idle with a non-empty queue. The next request
  then arrives; `can_write_head` is false as long as the queue is not empty (conn.rs 569-578, io.rs 135-137), so the service future is not polled;
  the flush of the same round empties the queue, and nothing asks for another round. No waker is left that would poll the service, unless the
  peer sends more or the service wakes the task by itself although it has not been polled (`C68_ready_always_refuted`).
* **F48 (CONNECT with an Upgrade line over HTTP/1.0).** `wants_upgrade` begins as `method == CONNECT`, and an Upgrade line sets it to
  `is_http_11` (`role.rs` 243, 325-328). An Upgrade line in an HTTP/1.0 request is to be ignored; here it takes back what the method asked
  for: the 200 answer is sent, then the transport is shut down instead of handed over (`C69_connect_refuted`, witness `connect_shut`).
* **F49 (keep-alive promised and broken).** When keep-alive is ruled out (`keep_alive(false)` or a graceful shutdown), `enforce_version`
  writes `Connection: close` over the application's header only for an HTTP/1.1 peer. For an HTTP/1.0 peer a response that carries
  `Connection: keep-alive` goes out unchanged, and the connection is shut down behind it (`C70_no_promise_refuted`, witness
  `promise_broken`). Without such a header of the application no keep-alive is promised (`C70_no_promise`).
* **F50 (clones of an OnUpgrade share one waker).** `OnUpgrade` is `Clone`, but all clones share one `oneshot::Receiver` behind a mutex.
  When two tasks wait on two clones, only the one that polled last is woken when the upgrade is decided; the other sleeps for
  ever (`C71_all_woken_refuted`). The last poller is always woken (`C71_woken`).
* **F51 (clones panic after the first result).** Once a clone has given the transport (or the manual-upgrade error), the poll of another clone
  polls a finished receiver, which panics ("called after complete") with the mutex held; every further clone then panics on the poisoned
  mutex (`C71_never_panics_refuted`, `C71_poisoned`). After a cancelled upgrade all clones say so. Without clones there is no panic before the
  result (`C71_no_panic`). The OnUpgrade of a declined upgrade gets the transport when the connection ends (`C71_declined_refuted`, see F40).
* **F52 (lost wake-up: the client's sender is not told that the connection is idle).** The response is complete while the request body is still
  pending; the end of the body shows up in the second `poll_write` of a round (dispatch.rs 199-218). The flush behind it makes the connection
  idle and sets `notify_read` (conn.rs 1114-1144), but `poll_loop` returns without looking at it, as in F46. `poll_recv` has not been called,
  so the `want` signal is not given: `SendRequest::ready` stays pending and `is_ready` says false on a connection that is free, until the
  transport wakes the task for some other reason (`C72_asked_always_refuted`). The flag stays set, so the next poll would put it right
  (`C72_flagged`).
* **F53 (the same with queued writes).** A response that is complete before the transport has taken the request makes the connection idle with a
  non-empty queue. `can_write_head` is false while the queue holds bytes (conn.rs 569-578, io.rs 135-137), so `poll_recv` is not called; the
  flush that empties the queue does not ask for another round, and here not even the flag is left (`C72_flagged_queue_refuted`).
* **F54 (`hyper_executor_poll` need not return).** After each pass the loop goes round again if `is_woken` was set (ffi/task.rs 230-234), also
  when a task has woken itself: one task that does so in every poll keeps the call from returning (`C73_returns_refuted`). The dispatcher does so:
  it yields after 16 rounds by waking itself (dispatch.rs 172-222, common/task.rs 8-11), so the call lasts as long as the peer keeps it busy.
  With finitely many wakes it returns (`C73_returns`).
* **F55 (a panic of one task kills the executor silently).** A panic is caught and turned into NULL (ffi/macros.rs 1-15, task.rs 333-339), but it
  leaves the driver's mutex poisoned: from then on every call returns NULL though tasks are due (`C73_null_after_panic_refuted`) and no task is
  ever polled again (`C73_dead_after_panic`). A call with a task in the spawn queue poisons that mutex as well, and the next
  `hyper_executor_push` aborts the process (`C73_panic_ex`).
* **F56 (hyper_headers_set hides headers).** `OriginalHeaderOrder::insert` does not take away the places of values that the set has removed (ext/mod.rs
  225-234). After `hyper_headers_set` on a name that had several values, `hyper_headers_foreach` meets a place without a value and stops there ("something
  has gone wrong", ffi/http_types.rs 477): all headers after it are not shown (`C74_set_several_refuted`). What is written is right (`C74_wire`).
* **F57 (adding to received headers).** A response received without `preserve_header_order` has an empty order; one `hyper_headers_add` makes it non-empty,
  and `foreach` then shows only what was added, under the received value if the name was there. Without `preserve_header_case` the spelling of an added
  header is shown for the first received value of that name (`C74_add_to_received_refuted`). The order of a request
  (`finalize_request`, ffi/http_types.rs 296) is not used when it is written.

* **F58 (a request body longer than announced).** Data beyond the Content-Length in use is dropped without an error
  (`encode.rs` 143-155): the server receives a complete request whose body is the first bytes of what the application handed
  over. `C75_end_to_end` therefore states the data as the first `n` bytes (`body_of`).

* **F59 (the workaround for dropped SendRequests is racy).** `client.rs` 167-171 adds a channel because h2 "won't notify a
  parked Connection" when its `SendRequest`s are dropped. The channel alone does not wake the connection's task at the right
  time when tasks run on several threads: `conn_drop_ref` is declared, hence dropped, before `h2_tx`, so the task may be woken,
  poll a connection that is still referenced, and park; and `ConnTask::poll` looks at the channel after it polled the
  connection and does not poll it again, so a drop between the two is missed (`C77_last_reference_refuted`). It needs h2 to
  wake its connection itself, under which `C77_last_reference` holds for every interleaving.
* **F60 (`hyper_io` return codes collide with byte counts).** `HYPER_IO_PENDING` is 0xFFFFFFFF and `HYPER_IO_ERROR` 0xFFFFFFFE (ffi/io.rs 11, 14),
  but the callbacks return `size_t`: on 64-bit targets a callback that takes or fills that many bytes at once has no way to say so. hyper takes
  it for Pending and offers the same bytes again (`C81_write_refuted`); below 2^32 - 2 offered bytes everything is exact (`C81_write`, `C81_read`).
  The count of a read callback is not checked against the room there was (`C81_read_unchecked_refuted`; a comment in the source says so). A buffer a
  data function leaves behind together with a code other than `HYPER_POLL_READY` is neither sent nor freed (`C81_user_buffer_refuted`). Trailers are
  invisible to C applications (both body functions pass over them).
* **F61 (reasons and timeouts that get lost in wrappers).** The reason of a reset is forwarded by a proxy through any wrapping that keeps `source()`
  (`C82_reason_forwarded`), but not when the error was read from an HTTP/2 tunnel: `h2_to_io_error` (upgrade.rs 344-351) puts the `h2::Error` inside a
  `std::io::Error`, whose `source()` is the source of the error inside, so `find_source` passes it by and the stream is reset with INTERNAL_ERROR
  (`C82_reason_tunnel_refuted`). `is_timeout` sees a keep-alive timeout through any wrapping, a header read timeout only if it is not wrapped
  (`C82_header_timeout_refuted`): only the kind of the outermost error is looked at.
* **F62 (whether a response is refused depends on the order of its fields).** A response with both Content-Length and Transfer-Encoding is refused
  by `encode_headers` (role.rs 707-711, 806-811), except that a Transfer-Encoding that cannot be sent (an HTTP/1.0 peer, or a status without a chunked
  body) is passed over without a trace if it comes first (813-817): `transfer-encoding, content-length` is written, `content-length,
  transfer-encoding` is refused and the connection closed, for the same fields (`C84_order_refuted`). In the same way a Content-Length that is passed
  over (no body, not HEAD; 790-801) does not count.
* **F63 (asking for no exact read size removes the buffer limit).** `client::conn::http1::Builder::read_buf_exact_size(None)` also resets
  `h1_max_buf_size` (client/conn/http1.rs 520-524): after `max_buf_size(16384)` the limit is back at the default of about 400 KB
  (`C85_no_exact_size_refuted`).
* **F64 (an HTTP/2 connection without a timer panics later).** An HTTP/1 server that lacks a timer for its configured timeout panics in `serve_connection`
  (time.rs 79-80). For HTTP/2 `keep_alive_interval` without a timer is accepted by `serve_connection`; the panic comes from `timer.sleep`
  (ping.rs 67, time.rs 34-41) while the connection is polled, once the peer has completed the handshake; on a client it comes inside the `handshake` future
  (`C85_h2_panics`, `C85_h2_no_later_panic_refuted`).
* **F65 (Content-Length of a 204).** RFC 9110 8.6 forbids Content-Length in a 204 response. hyper adds none of its own (`C16_bodyless`), but
  one named by the application is written (role.rs 706-745 does not look at the status; `C16_bodyless_refuted`). No body bytes follow it.

## Seeded bugs

`seeded/LOG.jsonl` has one line per edited copy of the model. What was observed in the rebuild is `caught` and `theorems_failed`: the
lemma or theorem at which each failing file stopped. The build stops below a failing file, so an entry often names a lemma of an `L_` file and says
nothing about which theorems above it would fail on their own. `caught` therefore means that the edited model no longer builds. That a
statement became false is the usual reason but not the only one: a proof script can break although its lemma is still true, and this was not
examined edit by edit. One such entry was found later (round 4, `record_data`, see its note) and led to `C43_spaced`. `property_files_importing_the_failure` is not observed: it is computed from
the import graph of the present `theories` and, for older rounds, lists files that were written later. `theorems_tightened` names what was
strengthened or added because an edit went unnoticed, and `note` explains the rest, equivalent programs among them.
