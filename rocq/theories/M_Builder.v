(* The builders of connections: server/conn/http1.rs, client/conn/http1.rs,
   server/conn/http2.rs, with common/time.rs.  A builder is driven by a list of
   calls; None is a panic.  Durations are seconds, as N. *)
From Verif Require Import Base M_WriteBuf M_Read M_Conn.

(* common/time.rs 12-17: Time; which timer it is, is a number *)
Inductive time := TEmpty | TTimer (t : N).
(* time.rs 19-24 *)
Inductive dur := DDefault (d : option N) | DConfigured (d : option N).
(* time.rs 69-84, Time::check.  None: the panic at 80 *)
Definition t_check (t : time) (d : dur) : option (option N) :=
  match d with
  | DDefault (Some x) => match t with TEmpty => Some None | TTimer _ => Some (Some x) end
  | DConfigured (Some x) => match t with TEmpty => None | TTimer _ => Some (Some x) end
  | DDefault None | DConfigured None => Some None
  end.
(* time.rs 34-41, 44-51, 60-67: sleep, sleep_until and reset.  None: the panic.
   What is set is represented by its deadline. *)
Definition t_sleep_until (t : time) (deadline : N) : option N := match t with TEmpty => None | TTimer _ => Some deadline end.

(* proto/h1/io.rs 15-18: MINIMUM_MAX_BUFFER_SIZE = INIT_BUFFER_SIZE *)
Definition minimum_max_buffer_size : N := 8192.

(* ------------------------------------------------------------------ *)
(* What Conn::new and its setters leave: the fields of State (conn.rs 58-86) and
   of Buffered (io.rs 59-75) that settings can change.  The parser's options are
   one flag each: httparse's allow_multiple_spaces_in_request_line_delimiters,
   ignore_invalid_headers_in_requests, allow_spaces_after_header_name_in_responses,
   allow_obsolete_multiline_headers_in_responses, ignore_invalid_headers_in_responses. *)
Record parser_config := mkPc { pc_spaces : bool; pc_ignore_req : bool; pc_after_name : bool; pc_multiline : bool; pc_ignore_res : bool }.
(* httparse's ParserConfig::default, used at conn.rs 64 *)
Definition parser_default : parser_config := mkPc false false false false false.
(* conn.rs 58-86, io.rs 43-52 *)
Record settings := mkSet {
  st_parser : parser_config; st_timer : time; st_ka : ka; st_half : bool; st_title : bool; st_case : bool;
  st_max_headers : option N; st_timeout : option N; st_flat : bool; st_flush : bool; st_read : rstrategy; st_wmax : N;
  st_date : bool; st_h09 : bool
}.
(* conn.rs 56-89 and io.rs 59-75; [vectored] is io.is_write_vectored() *)
Definition set_new (vectored : bool) : settings :=
  mkSet parser_default TEmpty KBusy false false false None None (negb vectored) false (with_max default_max_buffer_size) default_max_buffer_size true false.
(* io.rs 78-84, set_flush_pipeline: flattens if enabled *)
Definition set_flush_pipeline (s : settings) (on : bool) : settings :=
  mkSet (st_parser s) (st_timer s) (st_ka s) (st_half s) (st_title s) (st_case s) (st_max_headers s) (st_timeout s) (on || st_flat s) on (st_read s) (st_wmax s) (st_date s) (st_h09 s).
(* io.rs 86-93, set_max_buf_size.  None: the assertion *)
Definition set_max_buf (s : settings) (max : N) : option settings :=
  if max <? minimum_max_buffer_size then None
  else Some (mkSet (st_parser s) (st_timer s) (st_ka s) (st_half s) (st_title s) (st_case s) (st_max_headers s) (st_timeout s) (st_flat s) (st_flush s) (with_max max) max (st_date s) (st_h09 s)).
(* io.rs 95-98, set_read_buf_exact_size *)
Definition set_exact (s : settings) (n : N) : settings :=
  mkSet (st_parser s) (st_timer s) (st_ka s) (st_half s) (st_title s) (st_case s) (st_max_headers s) (st_timeout s) (st_flat s) (st_flush s) (Exact n) (st_wmax s) (st_date s) (st_h09 s).
(* io.rs 100-112 by way of conn.rs 101-103, 115-117: the write strategy *)
Definition set_flat (s : settings) (flat : bool) : settings :=
  mkSet (st_parser s) (st_timer s) (st_ka s) (st_half s) (st_title s) (st_case s) (st_max_headers s) (st_timeout s) flat (st_flush s) (st_read s) (st_wmax s) (st_date s) (st_h09 s).
(* conn.rs 145-147, set_http1_header_read_timeout *)
Definition set_timeout (s : settings) (d : N) : settings :=
  mkSet (st_parser s) (st_timer s) (st_ka s) (st_half s) (st_title s) (st_case s) (st_max_headers s) (Some d) (st_flat s) (st_flush s) (st_read s) (st_wmax s) (st_date s) (st_h09 s).

(* ------------------------------------------------------------------ *)
(* server/conn/http1.rs 72-85 *)
Record sbuilder := mkSb {
  b_parser : parser_config; b_timer : time; b_half : bool; b_ka : bool; b_title : bool; b_case : bool; b_max_headers : option N;
  b_timeout : dur; b_writev : option bool; b_max_buf : option N; b_flush : bool; b_date : bool
}.
(* server/conn/http1.rs 241-256, Builder::new *)
Definition sb_new : sbuilder := mkSb parser_default TEmpty false true false false None (DDefault (Some 30)) None None false true.
(* The calls of server/conn/http1.rs 265-417 *)
Inductive scall :=
| SHalfClose (b : bool) | SKeepAlive (b : bool) | STitleCase (b : bool) | SMultipleSpaces (b : bool) | SIgnoreInvalid (b : bool)
| SPreserveCase (b : bool) | SMaxHeaders (n : N) | SReadTimeout (d : option N) | SWritev (b : bool) | SMaxBuf (n : N)
| SDateHeader (b : bool) | SPipelineFlush (b : bool) | STimer (t : N).
(* server/conn/http1.rs 265-417; None: the assertion at 382 *)
Definition s_call (b : sbuilder) (c : scall) : option sbuilder :=
  let '(mkSb p tm hc k ti ca mh rt wv mb fl da) := b in
  match c with
  | SHalfClose x => Some (mkSb p tm x k ti ca mh rt wv mb fl da)
  | SKeepAlive x => Some (mkSb p tm hc x ti ca mh rt wv mb fl da)
  | STitleCase x => Some (mkSb p tm hc k x ca mh rt wv mb fl da)
  | SMultipleSpaces x => Some (mkSb (mkPc x (pc_ignore_req p) (pc_after_name p) (pc_multiline p) (pc_ignore_res p)) tm hc k ti ca mh rt wv mb fl da)
  | SIgnoreInvalid x => Some (mkSb (mkPc (pc_spaces p) x (pc_after_name p) (pc_multiline p) (pc_ignore_res p)) tm hc k ti ca mh rt wv mb fl da)
  | SPreserveCase x => Some (mkSb p tm hc k ti x mh rt wv mb fl da)
  | SMaxHeaders n => Some (mkSb p tm hc k ti ca (Some n) rt wv mb fl da)
  | SReadTimeout d => Some (mkSb p tm hc k ti ca mh (DConfigured d) wv mb fl da)
  | SWritev x => Some (mkSb p tm hc k ti ca mh rt (Some x) mb fl da)
  | SMaxBuf n => if n <? minimum_max_buffer_size then None else Some (mkSb p tm hc k ti ca mh rt wv (Some n) fl da)
  | SDateHeader x => Some (mkSb p tm hc k ti ca mh rt wv mb fl x)
  | SPipelineFlush x => Some (mkSb p tm hc k ti ca mh rt wv mb x da)
  | STimer t => Some (mkSb p (TTimer t) hc k ti ca mh rt wv mb fl da)
  end.
(* A chain of calls on a builder (each method of http1.rs 265-417 returns self) *)
Fixpoint s_calls (b : sbuilder) (cs : list scall) : option sbuilder :=
  match cs with [] => Some b | c :: r => match s_call b c with Some b' => s_calls b' r | None => None end end.
(* server/conn/http1.rs 452-501, serve_connection.  Setters that only store are
   written as the record that results (461-477, 497-499); a connection that is
   new is busy, so that disable_keep_alive (464; conn.rs 886-894) disables. *)
Definition serve_connection (vectored : bool) (b : sbuilder) : option settings :=
  let s0 := set_new vectored in
  let s := mkSet (b_parser b) (b_timer b) (if b_ka b then st_ka s0 else KDisabled) (b_half b || st_half s0) (b_title b || st_title s0) (b_case b || st_case s0)
             (match b_max_headers b with Some n => Some n | None => st_max_headers s0 end) (st_timeout s0) (st_flat s0) (st_flush s0) (st_read s0) (st_wmax s0)
             (b_date b && st_date s0) (st_h09 s0) in
  match t_check (b_timer b) (b_timeout b) with
  | None => None
  | Some t =>
      let s := match t with Some d => set_timeout s d | None => s end in
      let s := match b_writev b with Some w => set_flat s (negb w) | None => s end in
      let s := set_flush_pipeline s (b_flush b) in
      match b_max_buf b with Some max => set_max_buf s max | None => Some s end
  end.
(* A server connection from the calls on its builder (http1.rs 241-501) *)
Definition server_conn (vectored : bool) (cs : list scall) : option settings :=
  match s_calls sb_new cs with Some b => serve_connection vectored b | None => None end.

(* conn.rs 219-236 with the timer's panics: the timer of the header read timeout
   is set (or set again) when a head is waited for.  The state is
   h1_header_read_timeout_running and the deadline of the timer, if there is one;
   [now] is timer.now(), which never panics (time.rs 53-58). *)
Definition header_timer (s : settings) (now : N) (running : bool) (fut : option N) : option (bool * option N) :=
  if running then Some (running, fut)
  else match st_timeout s with
       | None => Some (running, fut)
       | Some d => match t_sleep_until (st_timer s) (now + d) with Some x => Some (true, Some x) | None => None end
       end.

(* ------------------------------------------------------------------ *)
(* client/conn/http1.rs 127-138 (without preserve_header_order, which is ffi only) *)
Record cbuilder := mkCb {
  cb_h09 : bool; cb_writev : option bool; cb_exact : option N; cb_parser : parser_config; cb_title : bool; cb_case : bool;
  cb_max_headers : option N; cb_max_buf : option N
}.
(* client/conn/http1.rs 345-358 *)
Definition cb_new : cbuilder := mkCb false None None parser_default false false None None.
(* The calls of client/conn/http1.rs 363-544 *)
Inductive ccall :=
| CHttp09 (b : bool) | CSpacesAfterName (b : bool) | CMultiline (b : bool) | CIgnoreInvalid (b : bool) | CWritev (b : bool)
| CTitleCase (b : bool) | CPreserveCase (b : bool) | CMaxHeaders (n : N) | CExactSize (n : option N) | CMaxBuf (n : N).
(* client/conn/http1.rs 363-544; None: the assertion at 536 *)
Definition c_call (b : cbuilder) (c : ccall) : option cbuilder :=
  let '(mkCb h9 wv ex p ti ca mh mb) := b in
  match c with
  | CHttp09 x => Some (mkCb x wv ex p ti ca mh mb)
  | CSpacesAfterName x => Some (mkCb h9 wv ex (mkPc (pc_spaces p) (pc_ignore_req p) x (pc_multiline p) (pc_ignore_res p)) ti ca mh mb)
  | CMultiline x => Some (mkCb h9 wv ex (mkPc (pc_spaces p) (pc_ignore_req p) (pc_after_name p) x (pc_ignore_res p)) ti ca mh mb)
  | CIgnoreInvalid x => Some (mkCb h9 wv ex (mkPc (pc_spaces p) (pc_ignore_req p) (pc_after_name p) (pc_multiline p) x) ti ca mh mb)
  | CWritev x => Some (mkCb h9 (Some x) ex p ti ca mh mb)
  | CTitleCase x => Some (mkCb h9 wv ex p x ca mh mb)
  | CPreserveCase x => Some (mkCb h9 wv ex p ti x mh mb)
  | CMaxHeaders n => Some (mkCb h9 wv ex p ti ca (Some n) mb)
  | CExactSize n => Some (mkCb h9 wv n p ti ca mh None)
  | CMaxBuf n => if n <? minimum_max_buffer_size then None else Some (mkCb h9 wv None p ti ca mh (Some n))
  end.
(* A chain of calls (client/conn/http1.rs 363-544) *)
Fixpoint c_calls (b : cbuilder) (cs : list ccall) : option cbuilder :=
  match cs with [] => Some b | c :: r => match c_call b c with Some b' => c_calls b' r | None => None end end.
(* client/conn/http1.rs 555-609, handshake.  Setters that only store are written
   as the record that results (572, 580-588, 594-596). *)
Definition handshake (vectored : bool) (b : cbuilder) : option settings :=
  let s0 := set_new vectored in
  let s := mkSet (cb_parser b) (st_timer s0) (st_ka s0) (st_half s0) (cb_title b || st_title s0) (cb_case b || st_case s0)
             (match cb_max_headers b with Some n => Some n | None => st_max_headers s0 end) (st_timeout s0)
             (match cb_writev b with Some w => negb w | None => st_flat s0 end) (st_flush s0) (st_read s0) (st_wmax s0) (st_date s0) (cb_h09 b || st_h09 s0) in
  let s := match cb_exact b with Some n => set_exact s n | None => s end in
  match cb_max_buf b with Some max => set_max_buf s max | None => Some s end.
(* A client connection from the calls on its builder (client/conn/http1.rs 345-609) *)
Definition client_conn (vectored : bool) (cs : list ccall) : option settings :=
  match c_calls cb_new cs with Some b => handshake vectored b | None => None end.

(* ------------------------------------------------------------------ *)
(* proto/h2/server.rs 43-59, proto/h2/client.rs 63-81: the settings that hyper
   itself acts on, for both sides; keep_alive_while_idle is the client's, the date
   header the server's.  Settings that are only passed on to h2's builder
   (max_frame_size, the limits on streams and resets, header_table_size,
   max_header_list_size, enable_connect_protocol, initial_max_send_streams,
   reset_stream_duration) are left out. *)
Record hbuilder := mkHb {
  h_adaptive : bool; h_conn_window : N; h_stream_window : N; h_interval : option N; h_timeout : N; h_idle : bool; h_send_buf : N; h_date : bool; h_timer : time
}.
(* proto/h2/mod.rs 30 *)
Definition spec_window_size : N := 65535.
(* proto/h2/server.rs 36-40, 61-81; proto/h2/client.rs 48-61, 83-104;
   server/conn/http2.rs 115-121, client/conn/http2.rs 308-314.  On a server
   h_idle is not used. *)
Definition hb_new (server : bool) : hbuilder :=
  if server then mkHb false 1048576 1048576 None 20 false 409600 true TEmpty
  else mkHb false 5242880 2097152 None 20 false 1048576 false TEmpty.
(* Calls of server/conn/http2.rs 157-300 and client/conn/http2.rs 317-502; HIdle
   exists for the client only, HDate for the server only *)
Inductive hcall :=
| HStreamWindow (n : option N) | HConnWindow (n : option N) | HAdaptive (b : bool) | HInterval (d : option N) | HTimeout (d : N)
| HIdle (b : bool) | HSendBuf (n : N) | HDate (b : bool) | HTimer (t : N).
(* server/conn/http2.rs 157-300, client/conn/http2.rs 317-502; None: the
   assertions at 250 and 499 *)
Definition h_call (b : hbuilder) (c : hcall) : option hbuilder :=
  let '(mkHb a cw sw i t id sb da tm) := b in
  match c with
  | HStreamWindow (Some n) => Some (mkHb false cw n i t id sb da tm)
  | HConnWindow (Some n) => Some (mkHb false n sw i t id sb da tm)
  | HStreamWindow None | HConnWindow None => Some b
  | HAdaptive x => Some (if x then mkHb true spec_window_size spec_window_size i t id sb da tm else mkHb false cw sw i t id sb da tm)
  | HInterval d => Some (mkHb a cw sw d t id sb da tm)
  | HTimeout d => Some (mkHb a cw sw i d id sb da tm)
  | HIdle x => Some (mkHb a cw sw i t x sb da tm)
  | HSendBuf n => if 4294967295 <? n then None else Some (mkHb a cw sw i t id n da tm)
  | HDate x => Some (mkHb a cw sw i t id sb x tm)
  | HTimer x => Some (mkHb a cw sw i t id sb da (TTimer x))
  end.
(* A chain of calls (server/conn/http2.rs 157-300, client/conn/http2.rs 317-502) *)
Fixpoint h_calls (b : hbuilder) (cs : list hcall) : option hbuilder :=
  match cs with [] => Some b | c :: r => match h_call b c with Some b' => h_calls b' r | None => None end end.
(* proto/h2/ping.rs 97-107, Config *)
Record ping_config := mkPing { pg_bdp : option N; pg_interval : option N; pg_timeout : N; pg_idle : bool }.
(* proto/h2/server.rs 128-183, Server::new, or the arguments of
   proto/h2/client.rs 150-156, handshake: what is kept until h2's handshake is
   complete.  Nothing here looks at the timer. *)
Record hconn := mkHc { hc_conn_window : N; hc_stream_window : N; hc_send_buf : N; hc_ping : ping_config; hc_date : bool; hc_timer : time }.
(* proto/h2/server.rs 157-170, proto/h2/client.rs 137-148 (new_ping_config) *)
Definition h_new (server : bool) (b : hbuilder) : hconn :=
  mkHc (h_conn_window b) (h_stream_window b) (h_send_buf b)
    (mkPing (if h_adaptive b then Some (h_stream_window b) else None) (h_interval b) (h_timeout b) (if server then true else h_idle b)) (h_date b) (h_timer b).
(* An HTTP/2 connection from the calls on its builder (server/conn/http2.rs
   306-323, client/conn/http2.rs 565-593) *)
Definition h2_conn (server : bool) (cs : list hcall) : option hconn :=
  match h_calls (hb_new server) cs with Some b => Some (h_new server b) | None => None end.
(* proto/h2/ping.rs 185-187, is_enabled *)
Definition ping_enabled (p : ping_config) : bool :=
  match pg_bdp p, pg_interval p with None, None => false | _, _ => true end.
(* proto/h2/server.rs 212-231, proto/h2/client.rs 164-187, with ping.rs 41-94: the
   poll at which h2's handshake is complete.  None: a panic; Some None: no ping;
   Some (Some (bdp, sleep)): the window to begin with and the timer that was set,
   at time [now]. *)
Definition h2_handshaken (h : hconn) (now : N) : option (option (option N * option N)) :=
  if ping_enabled (hc_ping h) then
    match pg_interval (hc_ping h) with
    | None => Some (Some (pg_bdp (hc_ping h), None))
    | Some d => match t_sleep_until (hc_timer h) (now + d) with Some x => Some (Some (pg_bdp (hc_ping h), Some x)) | None => None end
    end
  else Some None.
