(* The HTTP/1 connection state machine.  Models src/proto/h1/conn.rs.

   The connection is used by the dispatcher (M_Dispatch) through the functions
   below.  Whether the last read of the transport was Pending
   (Buffered::read_blocked) is an arbitrary input [blk] of the functions that
   look at it; [room] is the input of [wb_buffer]; [now] is the clock. *)
From Verif Require Import Base M_Src M_Decode M_HeaderMap M_Headers M_Encode M_Role M_RoleEncode M_Buf M_WriteBuf M_Read.

(* What Server::parse / Client::parse return (h1/mod.rs 62-69, ParsedMessage).
   [in_method]: the method of a request (role.rs 366 stores it). *)
Record inmsg := mkIn {
  in_version : version; in_method : option bytes; in_status : N; in_headers : hmap;
  in_decode : dlen; in_expect : bool; in_keep : bool; in_upgrade : bool
}.

(* A head to be written (proto/mod.rs 37-47, MessageHead) *)
Inductive osubject :=
| OResponse (status : N) (reason : option bytes)
| ORequest (method target : bytes).
(* proto/mod.rs 37-47, MessageHead of an outgoing message *)
Record ohead := mkO { o_version : version; o_subject : osubject; o_headers : hmap; o_case : option hmap }.

(* Errors of a connection (error.rs 41-87, Kind), as far as they are told apart here. *)
Inductive cerr :=
| CParse (e : parse_error)     (* Kind::Parse *)
| CIncomplete                  (* Kind::IncompleteMessage *)
| CUnexpected                  (* Kind::UnexpectedMessage *)
| CIo                          (* Kind::Io *)
| CHeaderTimeout               (* Kind::HeaderTimeout *)
| CEncode (e : enc_error)      (* errors of T::encode *)
| CBodyWriteAborted            (* Kind::BodyWriteAborted *)
| CPanic.                      (* a panic of the encoder (unsupported version) *)

(* What a connection is configured with.  [c_server]: T is ServerTransaction
   (is_server, should_read_first; is_client and should_error_on_parse_eof are
   its negation, h1/mod.rs 40-54).  [c_parse method h09] is T::parse; a parse
   error comes with the number of bytes already split off the buffer
   (role.rs 220).  [c_dt] parses trailer blocks. *)
Record cfg := mkCfg {
  c_server : bool;
  c_parse : option bytes -> bool -> bytes -> presult inmsg (parse_error * N);
  c_dt : bytes -> N -> option hmap;
  c_reason : N -> option bytes; c_date : bytes; c_date_header : bool; c_title : bool;
  c_max_headers : option N;
  c_max : N;                   (* read_buf_strategy.max() *)
  c_pipeline : bool;           (* flush_pipeline *)
  c_take_vec : bool;           (* see M_Buf.Take *)
  c_half_close : bool;
  c_timeout : option N         (* h1_header_read_timeout *)
}.

(* conn.rs 973-980 *)
Inductive reading := RInit | RContinue (d : decoder) | RBody (d : decoder) | RKeepAlive | RClosed.
(* conn.rs 1023-1030 *)
Inductive ka := KIdle | KBusy | KDisabled.

(* How the future of a client request was resolved (client/dispatch.rs 230-300):
   with the response; with an error; with an error that hands the request back
   (TrySendError with a message); or because the callback was dropped. *)
Inductive outcome := OResp (m : inmsg) | OError (e : cerr) | OReturned | OGone.

(* What happened on the connection, for the specifications: heads and body parts
   that came in, heads and body parts handed to the write buffer, bytes accepted
   by the transport, and what the two users of the connection saw (M_Dispatch).
   It has no counterpart in the code (conn.rs 922-971 keeps no history): each event
   is logged by the function below that does it, and no function looks at it. *)
Inductive levent :=
| LIn (m : inmsg)                 (* a message head was handed out *)
| LInData (d : bytes)             (* body data was handed out *)
| LInTrailers (t : hmap)
| LInEnd                          (* the incoming message is complete *)
| LInError (e : ioerr)            (* reading the body failed *)
| LWant                           (* the application asked for the body *)
| LContinue                       (* 100 Continue was written *)
| LHead (auto : bool) (h : ohead) (bs : bytes)  (* a head was written; auto: error response *)
| LHeadFail (bs : bytes)          (* the head could not be written; bytes written instead *)
| LBody (bs : bytes)              (* body bytes were written *)
| LEnd                            (* the outgoing message is complete *)
| LAbort                          (* the outgoing message stays incomplete *)
| LSent (bs : bytes)              (* bytes accepted by the transport *)
| LBodyEnd                        (* the application's incoming body ended cleanly *)
| LBodyFail                       (* the application's incoming body ended with an error *)
| LStart (id : N)                 (* client: request id was taken from the channel *)
| LOutcome (id : N) (o : outcome) (* client: request id was answered *)
| LShutdown                       (* the transport was shut down *)
| LReturn (e : option cerr).      (* the connection's future completed: Ok, or an error *)

(* conn.rs 35-42 and 922-971; cached headers, parser configuration and the
   callback for informational responses are left out. *)
Record conn := mkConn {
  k_rd : rstate; k_wb : wbuf;
  k_reading : reading; k_writing : writing; k_ka : ka;
  k_error : option cerr; k_method : option bytes; k_version : version; k_h09 : bool;
  k_notify : bool; k_timer : option N; k_running : bool; k_trailers : bool; k_upgrade : bool;
  k_log : list levent
}.

(* Field updates: assignments to the fields of State, conn.rs 922-971 *)
Definition set_rd k x := mkConn x (k_wb k) (k_reading k) (k_writing k) (k_ka k) (k_error k) (k_method k) (k_version k) (k_h09 k) (k_notify k) (k_timer k) (k_running k) (k_trailers k) (k_upgrade k) (k_log k).
(* assigns a field of State (proto/h1/conn.rs 922-971) *)
Definition set_wb k x := mkConn (k_rd k) x (k_reading k) (k_writing k) (k_ka k) (k_error k) (k_method k) (k_version k) (k_h09 k) (k_notify k) (k_timer k) (k_running k) (k_trailers k) (k_upgrade k) (k_log k).
(* assigns a field of State (proto/h1/conn.rs 922-971) *)
Definition set_reading k x := mkConn (k_rd k) (k_wb k) x (k_writing k) (k_ka k) (k_error k) (k_method k) (k_version k) (k_h09 k) (k_notify k) (k_timer k) (k_running k) (k_trailers k) (k_upgrade k) (k_log k).
(* assigns a field of State (proto/h1/conn.rs 922-971) *)
Definition set_writing k x := mkConn (k_rd k) (k_wb k) (k_reading k) x (k_ka k) (k_error k) (k_method k) (k_version k) (k_h09 k) (k_notify k) (k_timer k) (k_running k) (k_trailers k) (k_upgrade k) (k_log k).
(* assigns a field of State (proto/h1/conn.rs 922-971) *)
Definition set_ka k x := mkConn (k_rd k) (k_wb k) (k_reading k) (k_writing k) x (k_error k) (k_method k) (k_version k) (k_h09 k) (k_notify k) (k_timer k) (k_running k) (k_trailers k) (k_upgrade k) (k_log k).
(* assigns a field of State (proto/h1/conn.rs 922-971) *)
Definition set_error k x := mkConn (k_rd k) (k_wb k) (k_reading k) (k_writing k) (k_ka k) x (k_method k) (k_version k) (k_h09 k) (k_notify k) (k_timer k) (k_running k) (k_trailers k) (k_upgrade k) (k_log k).
(* assigns a field of State (proto/h1/conn.rs 922-971) *)
Definition set_method k x := mkConn (k_rd k) (k_wb k) (k_reading k) (k_writing k) (k_ka k) (k_error k) x (k_version k) (k_h09 k) (k_notify k) (k_timer k) (k_running k) (k_trailers k) (k_upgrade k) (k_log k).
(* assigns a field of State (proto/h1/conn.rs 922-971) *)
Definition set_version k x := mkConn (k_rd k) (k_wb k) (k_reading k) (k_writing k) (k_ka k) (k_error k) (k_method k) x (k_h09 k) (k_notify k) (k_timer k) (k_running k) (k_trailers k) (k_upgrade k) (k_log k).
(* assigns a field of State (proto/h1/conn.rs 922-971) *)
Definition set_h09 k x := mkConn (k_rd k) (k_wb k) (k_reading k) (k_writing k) (k_ka k) (k_error k) (k_method k) (k_version k) x (k_notify k) (k_timer k) (k_running k) (k_trailers k) (k_upgrade k) (k_log k).
(* assigns a field of State (proto/h1/conn.rs 922-971) *)
Definition set_notify k x := mkConn (k_rd k) (k_wb k) (k_reading k) (k_writing k) (k_ka k) (k_error k) (k_method k) (k_version k) (k_h09 k) x (k_timer k) (k_running k) (k_trailers k) (k_upgrade k) (k_log k).
(* assigns a field of State (proto/h1/conn.rs 922-971) *)
Definition set_timer k x r := mkConn (k_rd k) (k_wb k) (k_reading k) (k_writing k) (k_ka k) (k_error k) (k_method k) (k_version k) (k_h09 k) (k_notify k) x r (k_trailers k) (k_upgrade k) (k_log k).
(* assigns a field of State (proto/h1/conn.rs 922-971) *)
Definition set_trailers k x := mkConn (k_rd k) (k_wb k) (k_reading k) (k_writing k) (k_ka k) (k_error k) (k_method k) (k_version k) (k_h09 k) (k_notify k) (k_timer k) (k_running k) x (k_upgrade k) (k_log k).
(* assigns a field of State (proto/h1/conn.rs 922-971) *)
Definition set_upgrade k x := mkConn (k_rd k) (k_wb k) (k_reading k) (k_writing k) (k_ka k) (k_error k) (k_method k) (k_version k) (k_h09 k) (k_notify k) (k_timer k) (k_running k) (k_trailers k) x (k_log k).
(* no counterpart: notes an event in the ghost log of the model of conn.rs 922-971 *)
Definition log k (l : list levent) := mkConn (k_rd k) (k_wb k) (k_reading k) (k_writing k) (k_ka k) (k_error k) (k_method k) (k_version k) (k_h09 k) (k_notify k) (k_timer k) (k_running k) (k_trailers k) (k_upgrade k) (k_log k ++ l).

(* conn.rs 50-89, Conn::new; [h09]: set_h09_responses; [flat], [wmax]: write
   strategy and buffer size *)
Definition conn_new (h09 flat : bool) (wmax : N) (evs : list event) : conn :=
  mkConn (mkR [] None evs) (wb_new flat wmax) RInit WInit KBusy None None HTTP11 h09 false None false false false [].

(* ------------------------------------------------------------------ *)
(* conn.rs 1058-1165, State *)
(* 1059-1064 *)
Definition st_close (k : conn) : conn := set_ka (set_writing (set_reading k RClosed) WClosed) KDisabled.
(* 1066-1070 *)
Definition close_read (k : conn) : conn := set_ka (set_reading k RClosed) KDisabled.
(* 1072-1076 *)
Definition close_write (k : conn) : conn := set_ka (set_writing k WClosed) KDisabled.
(* 1078-1080 *)
Definition wants_keep_alive (k : conn) : bool := match k_ka k with KDisabled => false | _ => true end.
(* 1103-1105 *)
Definition st_disable_keep_alive (k : conn) : conn := set_ka k KDisabled.
(* 1107-1112 *)
Definition busy (k : conn) : conn := match k_ka k with KDisabled => k | _ => set_ka k KBusy end.
(* 1146-1148 *)
Definition is_idle (k : conn) : bool := match k_ka k with KIdle => true | _ => false end.
(* 1150-1156 *)
Definition is_read_closed (k : conn) : bool := match k_reading k with RClosed => true | _ => false end.
(* proto/h1/conn.rs 1154-1156 *)
Definition is_write_closed (k : conn) : bool := match k_writing k with WClosed => true | _ => false end.
(* 1114-1144, idle; the test at 1120 is always false *)
Definition idle (c : cfg) (k : conn) : conn :=
  let k := set_writing (set_reading (set_ka (set_method k None) KIdle) RInit) WInit in
  let k := if c_server c then k else set_notify k true in
  match c_timeout c with Some _ => set_notify k true | None => k end.
(* 1082-1101, State::try_keep_alive *)
Definition st_try_keep_alive (c : cfg) (k : conn) : conn :=
  match k_reading k, k_writing k with
  | RKeepAlive, WKeepAlive => match k_ka k with KBusy => idle c k | _ => st_close k end
  | RClosed, WKeepAlive | RKeepAlive, WClosed => st_close k
  | _, _ => k
  end.

(* io.rs 224-261 on the connection *)
Definition read_io (k : conn) : conn * poll (result N ioerr) :=
  let (rd, r) := r_read_io (k_rd k) in (set_rd k rd, r).

(* conn.rs 517-562, maybe_notify *)
Definition maybe_notify (blk : bool) (k : conn) : conn :=
  match k_reading k with
  | RInit =>
      match k_writing k with
      | WBody _ => k
      | _ =>
          if blk then k
          else match r_buf (k_rd k) with
               | [] =>
                   match read_io k with
                   | (k, Ready (Ok n)) =>
                       if n =? 0 then (if is_idle k then st_close k else close_read k)
                       else set_notify k true
                   | (k, Pending) => k
                   | (k, Ready (Err _)) => set_notify (set_error (st_close k) (Some CIo)) true
                   end
               | _ => set_notify k true
               end
      end
  | _ => k
  end.
(* conn.rs 564-567 *)
Definition try_keep_alive (c : cfg) (blk : bool) (k : conn) : conn :=
  maybe_notify blk (st_try_keep_alive c k).

(* conn.rs 175-185 *)
Definition can_read_head (c : cfg) (k : conn) : bool :=
  match k_reading k with
  | RInit => if c_server c then true else match k_writing k with WInit => false | _ => true end
  | _ => false
  end.
(* 187-192 *)
Definition can_read_body (k : conn) : bool :=
  match k_reading k with RBody _ | RContinue _ => true | _ => false end.
(* 195-199 *)
Definition has_initial_read_write_state (k : conn) : bool :=
  match k_reading k, k_writing k, r_buf (k_rd k) with RInit, WInit, [] => true | _, _, _ => false end.
(* 201-204 *)
Definition should_error_on_eof (c : cfg) (k : conn) : bool := negb (c_server c) && negb (is_idle k).
(* 206-209; "PRI * HTTP/2.0\r\n\r\nSM\r\n\r\n" (proto/h1/conn.rs 29) *)
Definition h2_preface : bytes := B "PRI * HTTP/2.0" ++ CRLF ++ CRLF ++ B "SM" ++ CRLF ++ CRLF.
(* proto/h1/conn.rs 206-209 *)
Definition has_h2_prefix (k : conn) : bool := beq (takeN 24 (r_buf (k_rd k))) h2_preface.
(* 569-578 *)
Definition can_write_head (c : cfg) (k : conn) : bool :=
  if negb (c_server c) && is_read_closed k then false
  else match k_writing k with WInit => can_headers_buf (k_wb k) | _ => false end.
(* 580-585 *)
Definition k_can_write_body (k : conn) : bool := can_write_body (k_writing k).
(* 587-589 *)
Definition can_buffer_body (c : cfg) (k : conn) : bool := can_buffer (c_pipeline c) (k_wb k).
(* 592-594 *)
Definition has_buffered_write (k : conn) : bool := 0 <? wb_rem (k_wb k).

(* ------------------------------------------------------------------ *)
(* conn.rs 666-688, fix_keep_alive *)
Definition o_set_headers (h : ohead) (m : hmap) : ohead := mkO (o_version h) (o_subject h) m (o_case h).
(* proto/h1/conn.rs 666-688: an assignment to head.version *)
Definition o_set_version (h : ohead) (v : version) : ohead := mkO v (o_subject h) (o_headers h) (o_case h).
(* proto/h1/conn.rs 666-688, fix_keep_alive *)
Definition fix_keep_alive (k : conn) (h : ohead) : conn * ohead :=
  let outgoing := match hm_get (o_headers h) (B "connection") with
                  | Some v => connection_keep_alive v | None => false end in
  if outgoing then (k, h)
  else match o_version h with
       | HTTP10 => (st_disable_keep_alive k, h)
       | HTTP11 => if wants_keep_alive k
                   then (k, o_set_headers h (hm_insert (o_headers h) (B "connection") (B "keep-alive")))
                   else (k, h)
       | _ => (k, h)
       end.
(* conn.rs 692-712, enforce_version *)
Definition enforce_version (k : conn) (h : ohead) : conn * ohead :=
  match k_version k with
  | HTTP10 => let (k, h) := fix_keep_alive k h in (k, o_set_version h HTTP10)
  | HTTP11 => match k_ka k with
              | KDisabled => (k, o_set_headers h (hm_insert (o_headers h) (B "connection") (B "close")))
              | _ => (k, h)
              end
  | _ => (k, h)
  end.

(* T::encode through role.rs 120-144: the bytes appended, the new req_method
   (role.rs 1205) and the result *)
Definition t_encode (c : cfg) (k : conn) (h : ohead) (body : option body_length)
  : bytes * option bytes * result encoder cerr :=
  match o_subject h with
  | OResponse status reason =>
      let (out, r) := server_encode (c_reason c) (c_date c)
        (mkSmsg (o_version h) status (k_method k) body (o_headers h) (wants_keep_alive k)
           (c_date_header c) (c_title c) (o_case h) reason) in
      (out, k_method k, match r with Ok e => Ok e | Err e => Err (CEncode e) end)
  | ORequest method target =>
      match client_encode (mkCmsg (o_version h) method target body (o_headers h) (c_title c) (o_case h)) with
      | Some (out, e) => (out, Some method, Ok e)
      | None => ([], Some method, Err CPanic)
      end
  end.

(* conn.rs 608-663, encode_head *)
Definition encode_head (c : cfg) (auto : bool) (k : conn) (h : ohead) (body : option body_length)
  : conn * option encoder :=
  let k := if c_server c then k
           else let k := busy k in
                if connection_any_close (o_headers h) then st_disable_keep_alive k else k in
  let (k, h) := enforce_version k h in
  let '(out, m, r) := t_encode c k h body in
  let k := set_method (set_wb k (wb_head (k_wb k) out)) m in
  match r with
  | Ok e => (log k [LHead auto h out], Some e)
  | Err e => (log (set_writing (set_error k (Some e)) WClosed) [LHeadFail out], None)
  end.
(* conn.rs 596-606, write_head *)
Definition write_head (c : cfg) (auto : bool) (k : conn) (h : ohead) (body : option body_length) : conn :=
  match encode_head c auto k h body with
  | (k, Some e) =>
      let w := after_head e in
      log (set_writing k w) (if enc_is_eof e then [LEnd] else [])
  | (k, None) => k
  end.

(* io.buffer(..): the buffer operations do not fail for well-formed buffers
   (C20), otherwise they would panic; then the state is left as it is. *)
Definition k_buffer (room : bool) (k : conn) (b : buf) : conn :=
  match wb_buffer room (k_wb k) b with Some w => set_wb k w | None => k end.
(* the bytes of a buffer that is queued with io.buffer (proto/h1/io.rs 148, 547) *)
Definition buf_bytes (b : buf) : bytes :=
  match flatten (S (N.to_nat (brem b))) b [] with Some x => x | None => [] end.

(* conn.rs 714-737, write_body *)
Definition k_write_body (c : cfg) (room : bool) (k : conn) (b : buf) : conn :=
  match k_writing k with
  | WBody e =>
      let (e', eb) := encode_buf (c_take_vec c) e b in
      let k := log (k_buffer room k eb) [LBody (buf_bytes eb)] in
      if negb (enc_is_eof e') then set_writing k (WBody e')
      else log (set_writing k (if is_last e' then WClosed else WKeepAlive)) [LEnd]
  | _ => k
  end.
(* conn.rs 739-762, write_trailers *)
Definition k_write_trailers (c : cfg) (room : bool) (k : conn) (t : hmap) : conn :=
  if c_server c && negb (k_trailers k) then k
  else match k_writing k with
       | WBody e =>
           match encode_trailers e t (c_title c) with
           | Some out =>
               let block := takeN (lenN out - 5) (dropN 3 out) in
               let k := log (k_buffer room k (trailers_buf block)) [LBody out; LEnd] in
               set_writing k (if is_last e || is_close_delimited e then WClosed else WKeepAlive)
           | None => k
           end
       | _ => k
       end.
(* conn.rs 764-782, write_body_and_end *)
Definition k_write_body_and_end (c : cfg) (room : bool) (k : conn) (b : buf) : conn :=
  match k_writing k with
  | WBody e =>
      let eb := encode_and_end_buf (c_take_vec c) e b in
      let short := match ekind e with KLength n => brem b <? n | _ => false end in
      let keep := match ekind e with
                  | KChunked _ => negb (is_last e)
                  | KLength n => negb short && negb (is_last e)
                  | KCloseDelimited => false
                  end in
      let k := log (k_buffer room k eb) [LBody (buf_bytes eb); if short then LAbort else LEnd] in
      set_writing k (if keep then WKeepAlive else WClosed)
  | _ => k
  end.
(* conn.rs 784-812, end_body *)
Definition k_end_body (room : bool) (k : conn) : conn * result unit cerr :=
  match k_writing k with
  | WBody e =>
      match enc_end e with
      | Ok out =>
          let k := match out with [] => k | _ => log (k_buffer room k end_buf) [LBody out] end in
          (log (set_writing k (if is_last e || is_close_delimited e then WClosed else WKeepAlive)) [LEnd], Ok tt)
      | Err _ => (log (set_writing k WClosed) [LAbort], Err CBodyWriteAborted)
      end
  | _ => (k, Ok tt)
  end.

(* ------------------------------------------------------------------ *)
(* conn.rs 819-836, on_parse_error; role.rs 484-502, 1247-1250, T::on_error *)
Definition t_on_error (c : cfg) (e : cerr) : option N :=
  if c_server c then match e with CParse p => server_on_error p | _ => None end else None.
(* proto/h1/conn.rs 819-836, on_parse_error *)
Definition on_parse_error (c : cfg) (k : conn) (e : cerr) : conn * result unit cerr :=
  match k_writing k with
  | WInit =>
      if has_h2_prefix k then (k, Err (CParse PVersionH2))
      else match t_on_error c e with
           | Some status =>
               let k := write_head c true k (mkO HTTP11 (OResponse status None) [] None) None in
               (set_error k (Some e), Ok tt)
           | None => (k, Err e)
           end
  | _ => (k, Err e)
  end.
(* error.rs 181-183, as asked at proto/h1/conn.rs 340 *)
Definition is_parse (e : cerr) : bool := match e with CParse _ => true | _ => false end.
(* conn.rs 333-357, on_read_head_error *)
Definition on_read_head_error (c : cfg) (k : conn) (e : cerr)
  : conn * poll (option (result inmsg cerr)) :=
  let must_error := should_error_on_eof c k in
  let k := close_read k in
  let k := set_rd k (consume_leading_lines (k_rd k)) in
  if is_parse e || negb (match r_buf (k_rd k) with [] => true | _ => false end) || must_error then
    match on_parse_error c k e with
    | (k, Ok _) => (k, Pending)
    | (k, Err e) => (k, Ready (Some (Err e)))
    end
  else (close_write k, Ready None).

(* conn.rs 219-236: starting the header read timer *)
Definition start_timer (c : cfg) (now : N) (k : conn) : conn :=
  if k_running k then k
  else match c_timeout c with
       | Some t => set_timer k (Some (now + t)) true
       | None => k
       end.
(* http::Version: Ord, used at conn.rs 311 *)
Definition after_http10 (v : version) : bool :=
  match v with HTTP09 | HTTP10 => false | _ => true end.
(* the error of Buffered::parse as an error of the connection (io.rs 174-222) *)
Definition parse_failure (e : perr (parse_error * N)) : cerr * N :=
  match e with
  | EParse (e, n) => (CParse e, n)
  | ETooLarge => (CParse PTooLarge, 0)
  | EIncomplete => (CIncomplete, 0)
  | EIo => (CIo, 0)
  end.
(* conn.rs 279-330: a head was parsed *)
Definition got_head (c : cfg) (blk : bool) (k : conn) (m : inmsg) : conn :=
  let k := if c_server c then set_method k (in_method m) else k in
  let k := set_h09 (set_timer k None false) false in
  let k := busy k in
  let k := if in_keep m then k else st_disable_keep_alive k in
  let k := set_version k (in_version m) in
  let k := log k [LIn m] in
  let k :=
    if in_decode m =? DL_ZERO then
      let k := log (set_reading k RKeepAlive) [LInEnd] in
      if c_server c then k else try_keep_alive c blk k
    else if in_expect m && after_http10 (in_version m) then
      set_reading k (RContinue (dec_new (in_decode m) (c_max_headers c) None))
    else set_reading k (RBody (dec_new (in_decode m) (c_max_headers c) None)) in
  set_trailers k (te_is_trailers (in_headers m)).
(* conn.rs 211-331, poll_read_head.  Wants::UPGRADE is [in_upgrade].  The timer
   fires when the clock has reached its deadline; the clock does not move
   during the call. *)
Definition k_poll_read_head (c : cfg) (now : N) (blk : bool) (k : conn)
  : conn * poll (option (result inmsg cerr)) :=
  let k := start_timer c now k in
  let (rd, r) := io_parse (c_parse c (k_method k) (k_h09 k)) (c_max c) (k_rd k) in
  let k := set_rd k rd in
  match r with
  | Pending =>
      match k_running k, k_timer k with
      | true, Some t => if t <=? now then (set_timer k (Some t) false, Ready (Some (Err CHeaderTimeout)))
                        else (k, Pending)
      | _, _ => (k, Pending)
      end
  | Ready (Err e) =>
      let (e, n) := parse_failure e in
      on_read_head_error c (set_rd k (mkR (dropN n (r_buf (k_rd k))) (r_partial (k_rd k)) (r_evs (k_rd k)))) e
  | Ready (Ok m) => (got_head c blk k m, Ready (Some (Ok m)))
  end.

(* ------------------------------------------------------------------ *)
(* conn.rs 367: the decoder on the connection's buffer *)
Definition k_decode (c : cfg) (k : conn) (d : decoder)
  : decoder * conn * poll (result (frame hmap) ioerr) :=
  let '(d, s, r) := decode (c_dt c) d (mkSrc (r_buf (k_rd k)) (r_evs (k_rd k))) in
  (d, set_rd k (mkR (rbuf s) (r_partial (k_rd k)) (evs s)), r).

(* conn.rs 365-408: Reading::Body *)
Definition read_body_state (c : cfg) (blk : bool) (k : conn) (d : decoder)
  : conn * poll (option (result (frame hmap) ioerr)) :=
  match k_decode c k d with
  | (d, k, Pending) => (set_reading k (RBody d), Pending)
  | (d, k, Ready (Ok (FData x))) =>
      if is_eof d then
        let (l, ret) := match x with [] => ([], None) | _ => ([LInData x], Some (Ok (FData x))) end in
        (try_keep_alive c blk (log (set_reading k RKeepAlive) (l ++ [LInEnd])), Ready ret)
      else match x with
           | [] => (try_keep_alive c blk (set_reading k RClosed), Ready None)
           | _ => (log (set_reading k (RBody d)) [LInData x], Ready (Some (Ok (FData x))))
           end
  | (d, k, Ready (Ok (FTrailers t))) =>
      (try_keep_alive c blk (log (set_reading k RKeepAlive) [LInTrailers t; LInEnd]), Ready (Some (Ok (FTrailers t))))
  | (d, k, Ready (Err e)) =>
      (try_keep_alive c blk (log (set_reading k RClosed) [LInError e]), Ready (Some (Err e)))
  end.
(* proto/h1/conn.rs 409 *)
Definition continue_bytes : bytes := B "HTTP/1.1 100 Continue" ++ CRLF ++ CRLF.
(* conn.rs 359-423, poll_read_body; other states are unreachable! there *)
Definition k_poll_read_body (c : cfg) (blk : bool) (k : conn)
  : conn * poll (option (result (frame hmap) ioerr)) :=
  match k_reading k with
  | RBody d => read_body_state c blk k d
  | RContinue d =>
      let k := match k_writing k with
               | WInit => log (set_wb k (wb_head (k_wb k) continue_bytes)) [LContinue]
               | _ => k
               end in
      read_body_state c blk (set_reading k (RBody d)) d
  | _ => (k, Ready None)
  end.
(* conn.rs 859-875, poll_drain_or_close_read *)
Definition drain_or_close_read (c : cfg) (blk : bool) (k : conn) : conn :=
  let k := match k_reading k with RContinue d => set_reading k (RBody d) | _ => k end in
  let k := fst (k_poll_read_body c blk k) in
  match k_reading k with RInit | RKeepAlive => k | _ => close_read k end.

(* conn.rs 506-515, force_io_read *)
Definition force_io_read (k : conn) : conn * poll (result N ioerr) :=
  match read_io k with
  | (k, Ready (Err e)) => (st_close k, Ready (Err e))
  | x => x
  end.
(* conn.rs 443-448 *)
Definition is_mid_message (k : conn) : bool :=
  match k_reading k, k_writing k with RInit, WInit => false | _, _ => true end.
(* conn.rs 454-485, require_empty_read *)
Definition require_empty_read (c : cfg) (k : conn) : conn * poll (result unit cerr) :=
  match r_buf (k_rd k) with
  | _ :: _ => (k, Ready (Err CUnexpected))
  | [] =>
      match force_io_read k with
      | (k, Pending) => (k, Pending)
      | (k, Ready (Err _)) => (k, Ready (Err CIo))
      | (k, Ready (Ok n)) =>
          if n =? 0 then
            let ret := if should_error_on_eof c k then Err CIncomplete else Ok tt in
            (close_read k, Ready ret)
          else (k, Ready (Err CUnexpected))
      end
  end.
(* conn.rs 487-504, mid_message_detect_eof *)
Definition mid_message_detect_eof (c : cfg) (k : conn) : conn * poll (result unit cerr) :=
  if c_half_close c || negb (match r_buf (k_rd k) with [] => true | _ => false end) then (k, Pending)
  else match force_io_read k with
       | (k, Pending) => (k, Pending)
       | (k, Ready (Err _)) => (k, Ready (Err CIo))
       | (k, Ready (Ok n)) =>
           if n =? 0 then (close_read k, Ready (Err CIncomplete)) else (k, Ready (Ok tt))
       end.
(* conn.rs 431-441, poll_read_keep_alive *)
Definition k_poll_read_keep_alive (c : cfg) (k : conn) : conn * poll (result unit cerr) :=
  if is_read_closed k then (k, Pending)
  else if is_mid_message k then mid_message_detect_eof c k
  else require_empty_read c k.

(* conn.rs 838-843, poll_flush; errors of the transport *)
Definition k_poll_flush (c : cfg) (blk : bool) (wevs : list wevent) (k : conn) : conn * poll (result unit werr) :=
  let unread := negb (match r_buf (k_rd k) with [] => true | _ => false end) in
  let '(w, _, sent, r) := wb_flush (c_pipeline c) unread (k_wb k) wevs in
  let k := log (set_wb k w) (match sent with [] => [] | _ => [LSent sent] end) in
  match r with
  | Ready (Ok _) => (try_keep_alive c blk k, Ready (Ok tt))
  | x => (k, x)
  end.

(* conn.rs 886-894, disable_keep_alive *)
Definition k_disable_keep_alive (k : conn) : conn :=
  if is_idle k then st_close k else st_disable_keep_alive k.
(* conn.rs 425-429, wants_read_again *)
Definition wants_read_again (k : conn) : conn * bool := (set_notify k false, k_notify k).
(* conn.rs 896-902, take_error *)
Definition take_error (k : conn) : conn * result unit cerr :=
  match k_error k with Some e => (set_error k None, Err e) | None => (k, Ok tt) end.
(* conn.rs 163-165 pending_upgrade, 904-907 on_upgrade and 1158-1162 *)
Definition pending_upgrade (k : conn) : conn * bool := (set_upgrade k false, k_upgrade k).
(* proto/h1/conn.rs 904-907 *)
Definition on_upgrade (k : conn) : conn := set_upgrade k true.
