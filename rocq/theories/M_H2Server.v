(* Model of the HTTP/2 server: src/proto/h2/server.rs 185-558.  The connection
   task accepts requests from h2 and starts one task per request; the tasks share
   only h2.  What h2's functions return are inputs. *)
From Verif Require Import Base M_HeaderMap M_Headers M_RoleEncode M_H2Headers M_H2Body.

(* ---- One request: H2Stream, server.rs 365-558 ---- *)
(* server.rs 442-527: a response of the service: status, headers, is_end_stream and exact size hint of
   the body before it is polled, and what polling it yields *)
Record answer := mkAns { a_status : N; a_headers : hmap; a_eos : bool; a_exact : option N; a_body : list bev }.
(* proto/h2/server.rs 442-527: what polling the service yields *)
Inductive service := SvPending | SvFailed | SvOk (a : answer).
(* What was handed to h2 for the stream: a response head, the same for a tunnel
   (which then belongs to upgrade::pair, M_H2Tunnel), a reset, and the frames of
   the body (PipeToSendStream) *)
Inductive sout := OHead (h : hmap) (status : N) (eos : bool) | OTunnel (h : hmap) (status : N) | OReset | OFrame (e : hev).
(* server.rs 381-396, H2StreamState; [HsDone]: the future has completed *)
Inductive hstate := HsService | HsBody (p : pipe) | HsDone.
(* server.rs 366-377, H2Stream; [hs_log] is what h2 got, in order *)
Record hstream := mkHs { hs_st : hstate; hs_log : list sout }.
(* server.rs 400-420, new *)
Definition hs_new : hstream := mkHs HsService [].
(* Inputs of one iteration of a loop (server.rs 442-535): what the service's future returns; what
   poll_reset says while it is pending; whether send_response accepts the head; the
   inputs of the pipe *)
Record sin := mkSin { si_service : service; si_reset : hreset; si_sent : bool; si_pipe : hin }.

(* server.rs 422-432, the macro reply!: an error resets the stream *)
Definition hs_reply (o : sout) (sent : bool) (next : hstate) (s : hstream) : hstream :=
  if sent then mkHs next (hs_log s ++ [o]) else mkHs HsDone (hs_log s ++ [OReset]).
(* server.rs 442-540, one iteration of the loop of poll2; an iteration in the state
   Body is one of the loop of the pipe (mod.rs 144-258).  [date]: the value when
   date_header is set; [connect]: the request is a CONNECT. *)
Definition hs_step (date : option bytes) (connect : bool) (i : sin) (s : hstream) : hstream :=
  match hs_st s with
  | HsService =>
      match si_service i with
      | SvPending => match si_reset i with RNone => s | _ => mkHs HsDone (hs_log s) end
      | SvFailed => mkHs HsDone (hs_log s ++ [OReset])
      | SvOk a =>
          match h2_response date connect (a_status a) (a_eos a) (a_exact a) (a_headers a) with
          | M_H2Headers.HReset => mkHs HsDone (hs_log s ++ [OReset])
          | HTunnel h => hs_reply (OTunnel h (a_status a)) (si_sent i) HsDone s
          | HSend h true => hs_reply (OHead h (a_status a) true) (si_sent i) HsDone s
          | HSend h false => hs_reply (OHead h (a_status a) false) (si_sent i) (HsBody (pipe_new (a_body a))) s
          end
      end
  | HsBody p =>
      let (p', o) := pipe_iter (si_pipe i) p in
      let lg := hs_log s ++ map OFrame (dropN (lenN (pp_log p)) (pp_log p')) in
      match o with
      | PoLoop | PoPending => mkHs (HsBody p') lg
      | _ => mkHs HsDone lg
      end
  | HsDone => s
  end.
(* Polls one after the other (server.rs 538-558) *)
Definition hs_run (date : option bytes) (connect : bool) (l : list sin) (s : hstream) : hstream :=
  fold_left (fun s i => hs_step date connect i s) l s.

(* ---- The connection ---- *)
(* A request as h2 gives it *)
Record sreq := mkQ { q_method : bytes; q_headers : hmap }.
(* server.rs 263-330: what poll_accept returns *)
Inductive accept := AcPending | AcRequest (q : sreq) | AcErr | AcNone.
(* server.rs 345-359: what the ponger says (M_Ping) *)
Inductive sping := SpNone | SpWindow (w : N) | SpTimedOut.
(* Where the future is: its handshake; between two polls; in the loop of
   poll_server; completed.  The field closing is never set, so the end of
   poll_server (335-342) is never reached and [closing.is_none()] holds. *)
Inductive cpc := CHandshake | CServing | CLoop | CDone.
(* What happened: a request accepted; the service called and a task started; a
   request refused by a reset; h2 told to shut down gracefully, or at once; a new
   window; the future returned *)
Inductive sev := SAccept (q : sreq) | SCall (q : sreq) | SRefuse (q : sreq) | SGraceful | SAbrupt | SWindow (w : N) | SReturn (ok : bool).
(* server.rs 82-95, Server, and 98-118, State and Serving *)
Record sconn := mkSc { sc_pc : cpc; sc_close_pending : bool; sc_log : list sev }.
(* server.rs 127-183, new *)
Definition sc_new : sconn := mkSc CHandshake false [].
(* proto/h2/server.rs 210-343: the connection goes on to [pc]; [l] is noted in the ghost log *)
Definition sc_to (pc : cpc) (l : list sev) (s : sconn) : sconn := mkSc pc (sc_close_pending s) (sc_log s ++ l).
(* Inputs of one iteration (server.rs 210-343): the handshake; the ponger; poll_accept; whether
   keep-alive has timed out (ensure_not_timed_out) *)
Inductive hsk := HkPending | HkErr | HkOk.
(* proto/h2/server.rs 210-343: the inputs of one iteration *)
Record cin := mkCin { ci_hs : hsk; ci_ping : sping; ci_accept : accept; ci_timed_out : bool }.
(* server.rs 345-359, poll_ping *)
Definition sc_ping (p : sping) : list sev := match p with SpNone => [] | SpWindow w => [SWindow w] | SpTimedOut => [SAbrupt] end.
(* server.rs 284-291 *)
Definition refused (q : sreq) : bool :=
  beq (q_method q) (B "CONNECT") && match content_length_parse_all (q_headers q) with Some n => negb (n =? 0) | None => false end.
(* server.rs 208-241 (poll) and 248-333 (poll_server): one iteration of a loop *)
Definition sc_step (i : cin) (s : sconn) : sconn :=
  match sc_pc s with
  | CHandshake => match ci_hs i with HkPending => s | HkErr => sc_to CDone [SReturn false] s | HkOk => sc_to CServing [] s end
  | CServing => sc_to CLoop (if sc_close_pending s then [SGraceful] else []) s
  | CLoop =>
      let s := sc_to CLoop (sc_ping (ci_ping i)) s in
      match ci_accept i with
      | AcPending => sc_to CServing [] s
      | AcRequest q => if refused q then sc_to CDone [SAccept q; SRefuse q; SReturn true] s else sc_to CLoop [SAccept q; SCall q] s
      | AcErr => sc_to CDone [SReturn false] s
      | AcNone => sc_to CDone [SReturn (negb (ci_timed_out i))] s
      end
  | CDone => s
  end.
(* server.rs 185-198, graceful_shutdown; only between polls *)
Definition sc_graceful (s : sconn) : sconn :=
  match sc_pc s with
  | CHandshake => mkSc CHandshake true (sc_log s)
  | CServing => sc_to CServing [SGraceful] s
  | _ => s
  end.
(* server.rs 185-198, 208: what happens to the future *)
Inductive cmove := CStep (i : cin) | CGraceful.
(* proto/h2/server.rs 185-198, 208: one move *)
Definition sc_move (s : sconn) (m : cmove) : sconn := match m with CStep i => sc_step i s | CGraceful => sc_graceful s end.
(* Polls and calls of graceful_shutdown (server.rs 185-241) one after the other *)
Definition sc_run (l : list cmove) (s : sconn) : sconn := fold_left sc_move l s.
