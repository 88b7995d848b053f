(* The dispatcher that drives an HTTP/1 connection, and the request channel of a
   client connection.  Models src/proto/h1/dispatch.rs and src/client/dispatch.rs.

   The dispatcher is a machine that makes one small step at a time: [dstep]
   does one iteration of one of the loops of poll_loop, chosen by a program
   counter, with everything that comes from outside (the service, the user's
   bodies, the receivers, the clock, the transport) given by an input [inp].
   [estep] are the moves of the world outside.  An execution is any list of
   moves. *)
From Verif Require Import Base M_Src M_Decode M_HeaderMap M_Headers M_Encode M_Role M_RoleEncode M_Buf M_WriteBuf M_Read M_Conn.

(* ------------------------------------------------------------------ *)
(* client/dispatch.rs 31-61 and 158-176: the channel of requests.  The mpsc
   queue holds the ids of the requests (their content is given when they are
   taken out); [ch_want] is the state of want::Giver/Taker: has the receiver
   asked since the last give(); [ch_once]: buffered_once; [ch_tx]: the sender is
   alive; [ch_rx]: the receiver has not been closed or dropped.  Sender and
   receiver run in different threads: a send is two steps, [ch_given] tells that
   the first has been made. *)
Record chan := mkCh { ch_queue : list N; ch_want : bool; ch_once : bool; ch_given : bool; ch_tx : bool; ch_rx : bool; ch_next : N }.
(* client/dispatch.rs 31, channel *)
Definition ch_new : chan := mkCh [] false false false true true 0.
(* client/dispatch.rs 93-104, can_send; want::Giver::give compares-and-swaps Want
   to Idle.  When it is false, the request is given back at once. *)
Definition ch_give (ch : chan) : chan :=
  if ch_want ch || negb (ch_once ch)
  then mkCh (ch_queue ch) false true true (ch_tx ch) (ch_rx ch) (ch_next ch)
  else ch.
(* client/dispatch.rs 107-128, the rest of try_send and send: the request gets the
   next id; or the receiver is gone, and the request is given back at once *)
Definition ch_push (ch : chan) : chan :=
  if ch_rx ch
  then mkCh (ch_queue ch ++ [ch_next ch]) (ch_want ch) (ch_once ch) false (ch_tx ch) (ch_rx ch) (ch_next ch + 1)
  else mkCh (ch_queue ch) (ch_want ch) (ch_once ch) false (ch_tx ch) (ch_rx ch) (ch_next ch).
(* client/dispatch.rs 107-128: the sender is used through &mut: a send must be finished before the next one
   begins and before the sender is dropped *)
Inductive smove := SGive | SPush | SDrop.
(* client/dispatch.rs 107-128: one move of the sender *)
Definition smake (ch : chan) (s : smove) : chan :=
  match s with
  | SGive => if ch_tx ch && negb (ch_given ch) then ch_give ch else ch
  | SPush => if ch_tx ch && ch_given ch then ch_push ch else ch
  | SDrop => if ch_given ch then ch
             else mkCh (ch_queue ch) (ch_want ch) (ch_once ch) false false (ch_rx ch) (ch_next ch)
  end.
(* client/dispatch.rs 182-192, poll_recv: Ready None when the queue is empty and
   no more can come.  [race]: what the sender does between inner.poll_recv and
   taker.want(). *)
Definition ch_ask (ch : chan) : chan :=
  mkCh (ch_queue ch) true (ch_once ch) (ch_given ch) (ch_tx ch) (ch_rx ch) (ch_next ch).
(* client/dispatch.rs 182-192, poll_recv *)
Definition ch_poll_recv (race : list smove) (ch : chan) : chan * poll (option N) :=
  match ch_queue ch with
  | id :: q => (mkCh q (ch_want ch) (ch_once ch) (ch_given ch) (ch_tx ch) (ch_rx ch) (ch_next ch), Ready (Some id))
  | [] => if ch_tx ch && ch_rx ch
          then (ch_ask (fold_left smake race ch), Pending)
          else (ch, Ready None)
  end.
(* client/dispatch.rs 195-198, close *)
Definition ch_close (ch : chan) : chan := mkCh (ch_queue ch) false (ch_once ch) (ch_given ch) (ch_tx ch) false (ch_next ch).
(* client/dispatch.rs 201-206, try_recv *)
Definition ch_try_recv (ch : chan) : chan * option N :=
  match ch_queue ch with
  | id :: q => (mkCh q (ch_want ch) (ch_once ch) (ch_given ch) (ch_tx ch) (ch_rx ch) (ch_next ch), Some id)
  | [] => (ch, None)
  end.
(* client/dispatch.rs 209-228: dropping the receiver drops the envelopes, which
   hand their requests back *)
Definition ch_drop_rx (ch : chan) : chan * list levent :=
  (mkCh [] false (ch_once ch) (ch_given ch) (ch_tx ch) false (ch_next ch), map (fun id => LOutcome id OReturned) (ch_queue ch)).

(* ------------------------------------------------------------------ *)
(* Where poll_loop is (dispatch.rs 143-223).  [PRead n] and so on: n more rounds
   are left of the 16. *)
Inductive pc :=
| PIdle                          (* not being polled *)
| PRead (n : nat) | PWrite (n : nat) | PFlush (n : nat) (write_ready : bool)
| PWrite2 (n : nat) | PFlush2    (* 203-218 *)
| PFinish                          (* 148-163, after poll_loop *)
| PDead.                         (* the future has completed or was dropped *)

(* dispatch.rs 25-62: Dispatcher with Server (in_flight) or Client (callback,
   rx, rx_closed).  The body channel's sender and the user's body are only
   present or absent. *)
Record disp := mkD {
  d_conn : conn; d_body_tx : bool; d_body_rx : bool; d_closing : bool;
  d_in_flight : bool;
  d_callback : option N; d_rx_closed : bool; d_chan : chan;
  d_pc : pc
}.
(* proto/h1/dispatch.rs 25-62: a new Dispatcher *)
Definition d_new (k : conn) : disp := mkD k false false false false None false ch_new PIdle.

(* Field updates: assignments to the fields of Dispatcher, dispatch.rs 25-62 *)
Definition dset_conn d x := mkD x (d_body_tx d) (d_body_rx d) (d_closing d) (d_in_flight d) (d_callback d) (d_rx_closed d) (d_chan d) (d_pc d).
(* assigns a field of Dispatcher (proto/h1/dispatch.rs 25-62) *)
Definition dset_body_tx d x := mkD (d_conn d) x (d_body_rx d) (d_closing d) (d_in_flight d) (d_callback d) (d_rx_closed d) (d_chan d) (d_pc d).
(* assigns a field of Dispatcher (proto/h1/dispatch.rs 25-62) *)
Definition dset_body_rx d x := mkD (d_conn d) (d_body_tx d) x (d_closing d) (d_in_flight d) (d_callback d) (d_rx_closed d) (d_chan d) (d_pc d).
(* assigns a field of Dispatcher (proto/h1/dispatch.rs 25-62) *)
Definition dset_closing d x := mkD (d_conn d) (d_body_tx d) (d_body_rx d) x (d_in_flight d) (d_callback d) (d_rx_closed d) (d_chan d) (d_pc d).
(* assigns a field of Dispatcher (proto/h1/dispatch.rs 25-62) *)
Definition dset_in_flight d x := mkD (d_conn d) (d_body_tx d) (d_body_rx d) (d_closing d) x (d_callback d) (d_rx_closed d) (d_chan d) (d_pc d).
(* assigns a field of Dispatcher (proto/h1/dispatch.rs 25-62) *)
Definition dset_client d cb cl ch := mkD (d_conn d) (d_body_tx d) (d_body_rx d) (d_closing d) (d_in_flight d) cb cl ch (d_pc d).
(* assigns a field of Dispatcher (proto/h1/dispatch.rs 25-62) *)
Definition dset_pc d x := mkD (d_conn d) (d_body_tx d) (d_body_rx d) (d_closing d) (d_in_flight d) (d_callback d) (d_rx_closed d) (d_chan d) x.
(* no counterpart: notes events in the ghost log of the model of proto/h1/dispatch.rs 25-62 *)
Definition dlog d l := dset_conn d (log (d_conn d) l).

(* A frame of the user's body (dispatch.rs 401-437); [UOther]: neither data nor
   trailers *)
Inductive uframe := UData (b : buf) | UTrailers (t : hmap) | UOther.
(* body.poll_ready of the body channel's sender (body/incoming.rs 359-374) *)
Inductive bready := BReady | BPending | BCanceled.

(* Everything from outside that one step can depend on (dispatch.rs 143-484):
   [i_canceled]: poll_canceled of the callback is Ready (the user dropped the
   response future); [i_send]: try_send_data/trailers succeeds; [i_msg]: the
   service's answer: a head, the declared body length (None: is_end_stream), or
   an error; [i_req]: head and body length of the request taken from the
   channel; [i_frame]: what the user's body returns, None its end, and [i_eos]
   its is_end_stream after that; [i_shutdown]: poll_shutdown of the transport;
   [i_race]: see [ch_poll_recv]. *)
Record inp := mkI {
  i_now : N; i_blk : bool; i_room : bool; i_wevs : list wevent;
  i_canceled : bool; i_body : bready; i_send : bool;
  i_msg : poll (result (ohead * option body_length) unit);
  i_req : ohead * option body_length;
  i_frame : poll (option (result uframe unit)); i_eos : bool;
  i_shutdown : poll (result unit unit);
  i_race : list smove
}.

(* dispatch.rs 457-461, close *)
Definition d_close (d : disp) : disp := dset_conn (dset_closing d true) (close_write (close_read (d_conn d))).

(* Dispatch::recv_msg with an error: dispatch.rs 619-622 (Server), 719-747
   (Client).  The result tells whether the error goes to the caller. *)
Definition recv_error (c : cfg) (d : disp) (e : cerr) : disp * bool :=
  if c_server c then (d, true)
  else match d_callback d with
       | Some id => (dlog (dset_client d None (d_rx_closed d) (d_chan d)) [LOutcome id (OError e)], false)
       | None =>
           if d_rx_closed d then (d, true)
           else match ch_try_recv (ch_close (d_chan d)) with
                | (ch, Some id) => (dlog (dset_client d None (d_rx_closed d) ch) [LOutcome id OReturned], false)
                | (ch, None) => (dset_client d None (d_rx_closed d) ch, true)
                end
       end.
(* recv_msg with a message: dispatch.rs 619-632, 710-717; false: the error of
   line 716 *)
Definition recv_ok (c : cfg) (d : disp) (m : inmsg) : disp * bool :=
  if c_server c then (dset_in_flight d true, true)
  else match d_callback d with
       | Some id => (dlog (dset_client d None (d_rx_closed d) (d_chan d)) [LOutcome id (OResp m)], true)
       | None => (d, false)
       end.
(* Dispatch::poll_ready: 634-640, 750-761 *)
Definition d_poll_ready (c : cfg) (i : inp) (d : disp) : poll (result unit unit) :=
  if c_server c then (if d_in_flight d then Pending else Ready (Ok tt))
  else match d_callback d with
       | Some _ => if i_canceled i then Ready (Err tt) else Ready (Ok tt)
       | None => Ready (Err tt)
       end.
(* Dispatch::should_poll: 642-644, 763-765 *)
Definition should_poll (c : cfg) (d : disp) : bool :=
  if c_server c then d_in_flight d else match d_callback d with None => true | _ => false end.

(* The result of one iteration of poll_read or poll_write (dispatch.rs 225-299,
   356-448): go on, or return from the loop *)
Inductive it := Cont | Ret (p : poll (result unit cerr)).

(* dispatch.rs 301-354, poll_read_head.  When the old body sender is replaced it
   is dropped. *)
Definition d_poll_read_head (c : cfg) (i : inp) (d : disp) : disp * it :=
  match d_poll_ready c i d with
  | Pending => (d, Ret Pending)
  | Ready (Err _) => (d_close d, Cont)
  | Ready (Ok _) =>
      let (k, r) := k_poll_read_head c (i_now i) (i_blk i) (d_conn d) in
      let d := dset_conn d k in
      match r with
      | Pending => (d, Ret Pending)
      | Ready (Some (Ok m)) =>
          let d := if in_decode m =? DL_ZERO then d
                   else dset_body_tx (if d_body_tx d then dlog d [LBodyEnd] else d) true in
          let d := if in_upgrade m then dset_conn d (on_upgrade (d_conn d)) else d in
          match recv_ok c d m with
          | (d, true) => (d, Cont)
          | (d, false) => (d, Ret (Ready (Err CUnexpected)))
          end
      | Ready (Some (Err e)) =>
          match recv_error c d e with
          | (d, true) => (d, Ret (Ready (Err e)))
          | (d, false) => (d_close d, Cont)
          end
      | Ready None => (if is_write_closed (d_conn d) then d_close d else d, Cont)
      end
  end.

(* dispatch.rs 225-299, one iteration of poll_read.  A sender that is dropped
   while the receiver is there ends the body (LBodyEnd). *)
Definition poll_read_it (c : cfg) (i : inp) (d : disp) : disp * it :=
  if d_closing d then (d, Ret (Ready (Ok tt)))
  else if can_read_head c (d_conn d) then d_poll_read_head c i d
  else if d_body_tx d then
    if can_read_body (d_conn d) then
      match i_body i with
      | BPending => (d, Ret Pending)
      | BCanceled => (dset_conn (dset_body_tx d false) (drain_or_close_read c (i_blk i) (d_conn d)), Cont)
      | BReady =>
          let (k, r) := k_poll_read_body c (i_blk i) (log (d_conn d) [LWant]) in
          let d := dset_conn d k in
          match r with
          | Ready (Some (Ok _)) =>
              if i_send i then (d, Cont)
              else let d := dset_body_tx d false in
                   (if can_read_body (d_conn d) then dset_conn d (close_read (d_conn d)) else d, Cont)
          | Ready None => (dlog (dset_body_tx d false) [LBodyEnd], Cont)
          | Pending => (d, Ret Pending)
          | Ready (Some (Err _)) => (dlog (dset_body_tx d false) [LBodyFail], Cont)
          end
      end
    else (dlog (dset_body_tx d false) [LBodyEnd], Cont)
  else let (k, r) := k_poll_read_keep_alive c (d_conn d) in (dset_conn d k, Ret r).

(* dispatch.rs 450-455, poll_flush; 'a transport error is new_body_write' *)
Definition d_flush (c : cfg) (i : inp) (d : disp) : disp * poll (result unit cerr) :=
  let (k, r) := k_poll_flush c (i_blk i) (i_wevs i) (d_conn d) in
  (dset_conn d k, match r with Pending => Pending | Ready (Ok _) => Ready (Ok tt) | Ready (Err _) => Ready (Err CIo) end).

(* Dispatch::poll_msg: dispatch.rs 597-617 (Server), 674-707 (Client) *)
Definition d_poll_msg (c : cfg) (i : inp) (d : disp)
  : disp * poll (option (result (ohead * option body_length) unit)) :=
  if c_server c then
    match i_msg i with
    | Pending => (d, Pending)
    | Ready (Ok m) => (dset_in_flight d false, Ready (Some (Ok m)))
    | Ready (Err e) => (d, Ready (Some (Err e)))
    end
  else
    match ch_poll_recv (i_race i) (d_chan d) with
    | (ch, Ready (Some id)) =>
        if i_canceled i
        then (dlog (dset_client d (d_callback d) (d_rx_closed d) ch) [LOutcome id OGone], Ready None)
        else (dlog (dset_client d (Some id) (d_rx_closed d) ch) [LStart id], Ready (Some (Ok (i_req i))))
    | (ch, Ready None) => (dset_client d (d_callback d) true ch, Ready None)
    | (ch, Pending) => (dset_client d (d_callback d) (d_rx_closed d) ch, Pending)
    end.

(* dispatch.rs 356-448, one iteration of poll_write.  Errors of the service and
   of the user's body are not told apart from an aborted body (their kinds do
   not matter here). *)
Definition user_error : cerr := CBodyWriteAborted.
(* proto/h1/dispatch.rs 356-448, end_body in an iteration of poll_write *)
Definition end_body_it (c : cfg) (i : inp) (d : disp) : disp * it :=
  match k_end_body (i_room i) (d_conn d) with
  | (k, Ok _) => (dset_conn d k, Cont)
  | (k, Err e) => (dset_conn d k, Ret (Ready (Err e)))
  end.
(* proto/h1/dispatch.rs 356-448, one iteration of poll_write *)
Definition poll_write_it (c : cfg) (i : inp) (d : disp) : disp * it :=
  if d_closing d then (d, Ret (Ready (Ok tt)))
  else if negb (d_body_rx d) && can_write_head c (d_conn d) && should_poll c d then
    match d_poll_msg c i d with
    | (d, Pending) => (d, Ret Pending)
    | (d, Ready (Some (Ok (h, body)))) =>
        let d := dset_body_rx d (match body with None => false | _ => true end) in
        (dset_conn d (write_head c false (d_conn d) h body), Cont)
    | (d, Ready (Some (Err _))) => (d, Ret (Ready (Err user_error)))
    | (d, Ready None) => (d_close d, Ret (Ready (Ok tt)))
    end
  else if negb (can_buffer_body c (d_conn d)) then
    match d_flush c i d with
    | (d, Ready (Ok _)) => (d, Cont)
    | (d, Pending) => (d, Ret Pending)
    | (d, Ready (Err e)) => (d, Ret (Ready (Err e)))
    end
  else if d_body_rx d then
    if negb (k_can_write_body (d_conn d)) then (dset_body_rx d false, Cont)
    else match i_frame i with
         | Pending => (d, Ret Pending)
         | Ready None => end_body_it c i (dset_body_rx d false)
         | Ready (Some (Err _)) => (dset_body_rx d false, Ret (Ready (Err user_error)))
         | Ready (Some (Ok (UData b))) =>
             if i_eos i then
               let d := dset_body_rx d false in
               if brem b =? 0 then end_body_it c i d
               else (dset_conn d (k_write_body_and_end c (i_room i) (d_conn d) b), Cont)
             else if brem b =? 0 then (d, Cont)
             else (dset_conn d (k_write_body c (i_room i) (d_conn d) b), Cont)
         | Ready (Some (Ok (UTrailers t))) =>
             (dset_conn (dset_body_rx d false) (k_write_trailers c (i_room i) (d_conn d) t), Cont)
         | Ready (Some (Ok UOther)) => (d, Cont)
         end
  else if k_can_write_body (d_conn d) then end_body_it c i d
  else (d, Ret Pending).

(* dispatch.rs 463-467 *)
Definition can_write_again (d : disp) : bool :=
  negb (d_closing d) && d_body_rx d && k_can_write_body (d_conn d).
(* dispatch.rs 469-484 *)
Definition d_is_done (c : cfg) (d : disp) : bool :=
  if d_closing d then true
  else let read_done := is_read_closed (d_conn d) in
       if negb (c_server c) && read_done then true
       else read_done && (is_write_closed (d_conn d) || (negb (should_poll c d) && negb (d_body_rx d))).

(* The future is finished and dropped: dispatch.rs 556-562 (the body sender's
   drop guard), client/dispatch.rs 209-228 and 236-254 (queue and callback).
   The application's own futures and bodies are dropped too.  [d_complete]: the
   future completes first. *)
Definition d_drop (d : disp) : disp :=
  let d := if d_body_tx d then dlog (dset_body_tx d false) [LBodyFail] else d in
  let d := match d_callback d with Some id => dlog (dset_client d None (d_rx_closed d) (d_chan d)) [LOutcome id OGone] | None => d end in
  let (ch, l) := ch_drop_rx (d_chan d) in
  dset_pc (dlog (dset_client d (d_callback d) (d_rx_closed d) ch) l) PDead.
(* the future of proto/h1/dispatch.rs 25-62 completes and is dropped *)
Definition d_complete (d : disp) (r : option cerr) : disp := d_drop (dlog d [LReturn r]).
(* dispatch.rs 123-141, poll_catch with an error of poll_inner; the future then
   completes *)
Definition d_fail (c : cfg) (d : disp) (e : cerr) : disp :=
  let d := if d_body_tx d then dlog (dset_body_tx d false) [LBodyFail] else d in
  let (d, to_caller) := recv_error c d e in
  d_complete d (if to_caller then Some e else None).

(* dispatch.rs 166-172, 220-223: the next round, or yield after the last one *)
Definition next_round (n : nat) : pc := match n with S (S n) => PRead (S n) | _ => PIdle end.

(* dispatch.rs 143-223 (poll_inner, poll_loop): one step.  The transport's
   poll_shutdown comes after a flush (io.rs 330-333). *)
Definition dstep (c : cfg) (i : inp) (d : disp) : disp :=
  match d_pc d with
  | PIdle => dset_pc d (PRead 16)
  | PRead n =>
      match poll_read_it c i d with
      | (d, Cont) => d
      | (d, Ret (Ready (Err e))) => d_fail c d e
      | (d, Ret _) => dset_pc d (PWrite n)
      end
  | PWrite n =>
      match poll_write_it c i d with
      | (d, Cont) => d
      | (d, Ret (Ready (Err e))) => d_fail c d e
      | (d, Ret (Ready (Ok _))) => dset_pc d (PFlush n true)
      | (d, Ret Pending) => dset_pc d (PFlush n false)
      end
  | PFlush n write_ready =>
      match d_flush c i d with
      | (d, Ready (Err e)) => d_fail c d e
      | (d, r) =>
          let flush_ready := match r with Pending => false | _ => true end in
          let write_again := can_write_again d && (write_ready || flush_ready) in
          let (k, read_again) := wants_read_again (d_conn d) in
          let d := dset_conn d k in
          dset_pc d (if read_again then next_round n else if write_again then PWrite2 n else PFinish)
      end
  | PWrite2 n =>
      match poll_write_it c i d with
      | (d, Cont) => d
      | (d, Ret (Ready (Err e))) => d_fail c d e
      | (d, Ret (Ready (Ok _))) => dset_pc d (next_round n)
      | (d, Ret Pending) => dset_pc d (if has_buffered_write (d_conn d) then PFlush2 else PFinish)
      end
  | PFlush2 =>
      match d_flush c i d with
      | (d, Ready (Err e)) => d_fail c d e
      | (d, _) => dset_pc d PFinish
      end
  | PFinish =>
      if d_is_done c d then
        let (k, up) := pending_upgrade (d_conn d) in
        let d := dset_conn d k in
        if up then
          match take_error (d_conn d) with
          | (k, Ok _) => d_complete (dset_conn d k) None
          | (k, Err e) => d_fail c (dset_conn d k) e
          end
        else
          let unread := negb (match r_buf (k_rd (d_conn d)) with [] => true | _ => false end) in
          let '(w, _, sent, r) := wb_flush (c_pipeline c) unread (k_wb (d_conn d)) (i_wevs i) in
          let d := dset_conn d (log (set_wb (d_conn d) w) (match sent with [] => [] | _ => [LSent sent] end)) in
          match r with
          | Pending => dset_pc d PIdle
          | Ready (Err _) => d_fail c d CIo
          | Ready (Ok _) =>
              match i_shutdown i with
              | Pending => dset_pc d PIdle
              | Ready (Err _) => d_fail c d CIo
              | Ready (Ok _) =>
                  let d := dlog d [LShutdown] in
                  match take_error (d_conn d) with
                  | (k, Ok _) => d_complete (dset_conn d k) None
                  | (k, Err e) => d_fail c (dset_conn d k) e
                  end
              end
          end
      else dset_pc d PIdle
  | PDead => d
  end.

(* Moves of the world outside.  [ESender]: the user of a client connection sends
   requests or drops the sender, at any time.  [EGraceful]: graceful_shutdown
   (server/conn/http1.rs 138-140, dispatch.rs 91-100) and [EDrop]: the connection
   future is dropped; both need the future, so they happen only between polls.
   [EOff]: the server was built with keep_alive(false) (server/conn/http1.rs
   463-465, conn.rs 886-894), which happens to a connection nothing has happened on
   yet; its keep-alive state is Busy (conn.rs 57), so the second branch is taken. *)
Inductive emove := ESender (s : smove) | EGraceful | EDrop | EOff.
(* server/conn/http1.rs 138 and 526, graceful_shutdown; proto/h1/dispatch.rs 91, proto/h1/conn.rs 886-894, disable_keep_alive *)
Definition d_graceful (d : disp) : disp :=
  let d := dset_conn d (k_disable_keep_alive (d_conn d)) in
  if is_write_closed (d_conn d) || has_initial_read_write_state (d_conn d) then d_close d else d.
(* what happens around the Dispatcher of proto/h1/dispatch.rs 25-62, one move *)
Definition estep (c : cfg) (e : emove) (d : disp) : disp :=
  match e with
  | ESender s => if c_server c then d else dset_client d (d_callback d) (d_rx_closed d) (smake (d_chan d) s)
  | EGraceful => match d_pc d with
                 | PIdle => if c_server c then d_graceful d else d
                 | _ => d
                 end
  | EDrop => match d_pc d with PIdle => d_drop d | _ => d end
  | EOff => match d_pc d, k_log (d_conn d) with
            | PIdle, [] => if c_server c then dset_conn d (st_disable_keep_alive (d_conn d)) else d
            | _, _ => d
            end
  end.
(* a step of the Dispatcher of proto/h1/dispatch.rs 25-62, or a move around it *)
Inductive move := Step (i : inp) | Env (e : emove).
(* the same, carried out (proto/h1/dispatch.rs 25-62) *)
Definition dmove (c : cfg) (m : move) (d : disp) : disp :=
  match m with Step i => dstep c i d | Env e => estep c e d end.
(* All executions: dispatch.rs 123-141 and 503-511, polled any number of times *)
Definition run (c : cfg) (ms : list move) (d : disp) : disp := fold_left (fun d m => dmove c m d) ms d.
