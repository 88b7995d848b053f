(* Model of the HTTP/2 client: src/proto/h2/client.rs 196-795 and the parts of
   src/client/dispatch.rs that it uses.  The connection future (ClientTask), one
   task per response (SendWhen) and one per request body (PipeMap) run in any
   order; the user sends requests and drops response futures at any time.  What
   h2's functions return are inputs. *)
From Verif Require Import Base M_HeaderMap M_Headers M_RoleEncode M_H2Headers M_H2Body.

(* client.rs 700-733: a request of the user: method, headers, is_end_stream and exact size hint of the
   body before it is polled, and what polling it yields *)
Record creq := mkCreq { c_method : bytes; c_headers : hmap; c_eos : bool; c_exact : option N; c_body : list bev }.
(* What the user's future gets: a response (from which stream; with an upgrade or
   with a body); an error of h2 (or of keep-alive); a refusal of the request; the
   callback dropped ("dispatch gone"); the request handed back; nothing, because
   nobody is waiting *)
Inductive outcome := KResp (stream status : N) (tunnel : bool) | KErr | KInvalid | KGone | KBack | KNobody.
(* no counterpart: the events of the ghost log of the model of ClientTask (proto/h2/client.rs 425) *)
Inductive kev :=
| KSend (id : N)                                    (* the user sends a request *)
| KOpen (id stream : N) (h : hmap) (eos : bool)     (* SendRequest::send_request *)
| KAnswer (id : N) (o : outcome)
| KReset (stream : N)                               (* a tunnel refused: send_reset *)
| KReturn (ok : bool).                              (* the connection future returned *)
(* client.rs 411-421, FutCtx (the request stands for body and is_connect, eos); the
   stream stands for fut and body_tx *)
Record fctx := mkF { f_id : N; f_stream : N; f_req : creq }.
(* client/dispatch.rs 332-343, SendWhen with ResponseFutMap (client.rs 580-604);
   [w_connect]: send_stream is there *)
Record swhen := mkW { w_id : N; w_stream : N; w_connect : bool; w_done : bool }.
(* client.rs 531: the oneshot between SendWhen and PipeMap: open, used, its sender dropped *)
Inductive cancel := PcOpen | PcUsed | PcClosed.
(* client.rs 457-471, PipeMap *)
Record cpipe := mkCp { cp_id : N; cp_stream : N; cp_body : list bev; cp_pipe : pipe; cp_cancel : cancel; cp_done : bool }.
(* client.rs 678, the future: running, completed, dropped *)
Inductive kpc := KRun | KStop | KDropped.
(* client.rs 425-438, ClientTask, with the tasks and what the user did: [k_sent]
   requests sent, [k_cancelled] those whose future was dropped, [k_open] senders
   exist *)
Record kl := mkKl { k_pc : kpc; k_open : bool; k_sent : N; k_cancelled : list N; k_queue : list (N * creq); k_ctx : option fctx;
  k_whens : list swhen; k_pipes : list cpipe; k_next : N; k_log : list kev }.
(* client.rs 196-205 *)
Definition kl_new : kl := mkKl KRun true 0 [] [] None [] [] 0 [].

(* no counterpart: notes events in that log (proto/h2/client.rs 425) *)
Definition kl_log (l : list kev) (s : kl) : kl := mkKl (k_pc s) (k_open s) (k_sent s) (k_cancelled s) (k_queue s) (k_ctx s) (k_whens s) (k_pipes s) (k_next s) (k_log s ++ l).
(* assigns a field of ClientTask (proto/h2/client.rs 425) *)
Definition kl_pc (pc : kpc) (s : kl) : kl := mkKl pc (k_open s) (k_sent s) (k_cancelled s) (k_queue s) (k_ctx s) (k_whens s) (k_pipes s) (k_next s) (k_log s).
(* assigns a field of ClientTask (proto/h2/client.rs 425) *)
Definition kl_queue (q : list (N * creq)) (s : kl) : kl := mkKl (k_pc s) (k_open s) (k_sent s) (k_cancelled s) q (k_ctx s) (k_whens s) (k_pipes s) (k_next s) (k_log s).
(* assigns a field of ClientTask (proto/h2/client.rs 425) *)
Definition kl_ctx (c : option fctx) (s : kl) : kl := mkKl (k_pc s) (k_open s) (k_sent s) (k_cancelled s) (k_queue s) c (k_whens s) (k_pipes s) (k_next s) (k_log s).
(* assigns a field of ClientTask (proto/h2/client.rs 425) *)
Definition kl_tasks (w : list swhen) (p : list cpipe) (s : kl) : kl := mkKl (k_pc s) (k_open s) (k_sent s) (k_cancelled s) (k_queue s) (k_ctx s) w p (k_next s) (k_log s).
(* assigns a field of ClientTask (proto/h2/client.rs 425) *)
Definition kl_next (n : N) (s : kl) : kl := mkKl (k_pc s) (k_open s) (k_sent s) (k_cancelled s) (k_queue s) (k_ctx s) (k_whens s) (k_pipes s) n (k_log s).

(* client.rs 716: Method::CONNECT *)
Definition c_connect (q : creq) : bool := beq (c_method q) (B "CONNECT").
(* client/dispatch.rs 268-274, Callback::is_canceled *)
Definition canceled (s : kl) (id : N) : bool := existsb (N.eqb id) (k_cancelled s).

(* client.rs 526-574, poll_pipe: the body (not of a CONNECT) gets a pipe, whose
   first poll is a move of its own; the response gets a task.  A body whose first
   poll completes does not become a task; here it is a pipe that is done. *)
Definition poll_pipe (f : fctx) (s : kl) : kl :=
  kl_tasks (k_whens s ++ [mkW (f_id f) (f_stream f) (c_connect (f_req f)) false])
    (if negb (c_connect (f_req f)) && negb (c_eos (f_req f))
     then k_pipes s ++ [mkCp (f_id f) (f_stream f) (c_body (f_req f)) (pipe_new (c_body (f_req f))) PcOpen false]
     else k_pipes s) s.

(* client.rs 680-690: what SendRequest::poll_ready returns; an error has the reason NO_ERROR or not *)
Inductive rdy := RdPending | RdOk | RdErr (no_error : bool).
(* Inputs of one iteration of the loop (client.rs 679-793): poll_ready; whether keep-alive has timed
   out; whether send_request succeeds; the second poll_ready; whether the
   connection's task has ended *)
Record tin := mkTin { ti_ready : rdy; ti_timed_out : bool; ti_sent : bool; ti_ready2 : rdy; ti_eof : bool }.
(* client.rs 674-795, one iteration of the loop of ClientTask::poll *)
Definition task_step (i : tin) (s : kl) : kl :=
  match k_pc s with
  | KRun =>
      match ti_ready i with
      | RdPending => s
      | RdErr no_error => kl_log [KReturn (negb (ti_timed_out i) && no_error)] (kl_pc KStop s)
      | RdOk =>
          match k_ctx s with
          | Some f => poll_pipe f (kl_ctx None s)
          | None =>
              match k_queue s with
              | [] => if negb (k_open s) || ti_eof i then kl_log [KReturn true] (kl_pc KStop s) else s
              | (id, q) :: r =>
                  let s := kl_queue r s in
                  if canceled s id then kl_log [KAnswer id KNobody] s
                  else match h2_request (c_method q) (c_eos q) (c_exact q) (c_headers q) with
                       | None => kl_log [KAnswer id KInvalid] s
                       | Some (h, eos) =>
                           if ti_sent i then
                             let f := mkF id (k_next s) q in
                             let s := kl_next (k_next s + 1) (kl_log [KOpen id (k_next s) h eos] s) in
                             match ti_ready2 i with
                             | RdPending => kl_ctx (Some f) s
                             | RdOk => poll_pipe f s
                             | RdErr _ => kl_log [KAnswer id KErr] s
                             end
                           else kl_log [KAnswer id KErr] s
                       end
              end
          end
      end
  | _ => s
  end.
(* The connection future is dropped (also before it has completed): dispatch.rs
   209-228, Receiver and Envelope; 236-253, Callback *)
Definition task_drop (s : kl) : kl :=
  match k_pc s with
  | KDropped => s
  | _ => kl_log (map (fun e => KAnswer (fst e) KBack) (k_queue s) ++ match k_ctx s with Some f => [KAnswer (f_id f) KGone] | None => [] end)
           (kl_pc KDropped (kl_queue [] (kl_ctx None s)))
  end.

(* What h2's ResponseFuture returns: pending, a response (status, whether its
   Content-Length is a number other than 0), an error *)
Inductive rfut := RfPending | RfOk (status : N) (nonzero : bool) | RfErr.
(* Replaces the element number n: the tasks that poll_pipe spawns (client.rs
   526-578) run independently, a move is a move of one of them *)
Fixpoint upd {A} (n : nat) (f : A -> A) (l : list A) : list A :=
  match l, n with [], _ => [] | x :: r, O => f x :: r | x :: r, S n => x :: upd n f r end.
(* a task of proto/h2/client.rs 526-578 is done *)
Definition w_finish (w : swhen) : swhen := mkW (w_id w) (w_stream w) (w_connect w) true.
(* client.rs 531, 566-576: the task's end of the oneshot is used, or dropped, by
   the task of stream [st] *)
Definition tell (c : cancel) (st : N) (p : cpipe) : cpipe :=
  if (cp_stream p =? st) && match cp_cancel p with PcOpen => true | _ => false end
  then mkCp (cp_id p) (cp_stream p) (cp_body p) (cp_pipe p) c (cp_done p) else p.
(* client/dispatch.rs 346-388, SendWhen::poll, with ResponseFutMap::poll (client.rs
   606-666) *)
Definition when_step (n : nat) (r : rfut) (s : kl) : kl :=
  match nth_error (k_whens s) n with
  | None => s
  | Some w =>
      if w_done w then s
      else let fin c l := kl_log l (kl_tasks (upd n w_finish (k_whens s)) (map (tell c (w_stream w)) (k_pipes s)) s) in
           match r with
           | RfPending => if canceled s (w_id w) then fin PcUsed [KAnswer (w_id w) KNobody] else s
           | RfOk st nonzero =>
               if w_connect w && (st =? 200) then
                 if nonzero then fin PcClosed [KReset (w_stream w); KAnswer (w_id w) KErr]
                 else fin PcClosed [KAnswer (w_id w) (KResp (w_stream w) st true)]
               else fin PcClosed [KAnswer (w_id w) (KResp (w_stream w) st false)]
           | RfErr => fin PcClosed [KAnswer (w_id w) KErr]
           end
  end.
(* The executor drops a SendWhen: dispatch.rs 236-253, Callback *)
Definition when_drop (n : nat) (s : kl) : kl :=
  match nth_error (k_whens s) n with
  | None => s
  | Some w => if w_done w then s
              else kl_log [KAnswer (w_id w) KGone] (kl_tasks (upd n w_finish (k_whens s)) (map (tell PcClosed (w_stream w)) (k_pipes s)) s)
  end.
(* client.rs 473-515, one iteration of PipeMap::poll; [start]: the first one of a
   poll of the task, where the cancellation is looked at.  The first poll of a pipe
   is made by poll_pipe (536-541), without looking at it. *)
Definition pipe_step (start : bool) (i : hin) (p : cpipe) : cpipe :=
  if cp_done p then p
  else match start, cp_cancel p with
       | true, PcUsed => mkCp (cp_id p) (cp_stream p) (cp_body p) (mkPipe (pp_buffered (cp_pipe p)) (pp_body (cp_pipe p)) (pp_log (cp_pipe p) ++ [M_H2Body.HReset])) (cp_cancel p) true
       | _, _ => let (p', o) := pipe_iter i (cp_pipe p) in
                 mkCp (cp_id p) (cp_stream p) (cp_body p) p' (cp_cancel p) (match o with PoLoop | PoPending => false | _ => true end)
       end.

(* Everything that can happen: the functions above (client.rs 473-795) *)
Inductive kmove := KmSend (q : creq) | KmCancel (id : N) | KmSendersGone | KmTask (i : tin) | KmDrop
| KmWhen (n : nat) (r : rfut) | KmWhenDrop (n : nat) | KmPipe (n : nat) (start : bool) (i : hin).
(* UnboundedSender::send, dispatch.rs 149-164: a closed channel gives the request
   back at once *)
Definition kl_send (q : creq) (s : kl) : kl :=
  if k_open s then
    let id := k_sent s in
    let s := mkKl (k_pc s) (k_open s) (id + 1) (k_cancelled s) (k_queue s) (k_ctx s) (k_whens s) (k_pipes s) (k_next s) (k_log s ++ [KSend id]) in
    match k_pc s with KDropped => kl_log [KAnswer id KBack] s | _ => kl_queue (k_queue s ++ [(id, q)]) s end
  else s.
(* A move: see the functions above (client.rs 473-795); KmCancel: the user drops the future of a request
   that was sent *)
Definition kl_move (s : kl) (m : kmove) : kl :=
  match m with
  | KmSend q => kl_send q s
  | KmCancel id => if id <? k_sent s then mkKl (k_pc s) (k_open s) (k_sent s) (id :: k_cancelled s) (k_queue s) (k_ctx s) (k_whens s) (k_pipes s) (k_next s) (k_log s) else s
  | KmSendersGone => mkKl (k_pc s) false (k_sent s) (k_cancelled s) (k_queue s) (k_ctx s) (k_whens s) (k_pipes s) (k_next s) (k_log s)
  | KmTask i => task_step i s
  | KmDrop => task_drop s
  | KmWhen n r => when_step n r s
  | KmWhenDrop n => when_drop n s
  | KmPipe n start i => kl_tasks (k_whens s) (upd n (pipe_step start i) (k_pipes s)) s
  end.
(* Moves one after the other: client.rs 678, polled any number of times *)
Definition kl_run (l : list kmove) (s : kl) : kl := fold_left kl_move l s.
