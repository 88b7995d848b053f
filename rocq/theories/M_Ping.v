(* Model of HTTP/2 pings: src/proto/h2/ping.rs, and of the window settings of the
   HTTP/2 builders.  Times and durations are nanoseconds; within one call the
   clock stands still.  Floating-point results are inputs. *)
From Verif Require Import Base.

(* ---- window settings ---- *)
(* proto/h2/mod.rs 30 *)
Definition SPEC_WINDOW_SIZE : N := 65535.
(* server/conn/http2.rs 157-192, client/conn/http2.rs 333-385: the setters *)
Inductive wset := SetStream (n : N) | SetConn (n : N) | SetAdaptive (b : bool).
(* server/conn/http2.rs 157-192, client/conn/http2.rs 333-385: what the setters change *)
Record wconf := mkWC { wc_adaptive : bool; wc_stream : N; wc_conn : N }.
(* server/conn/http2.rs 157-192, client/conn/http2.rs 333-385: one setter *)
Definition wset_apply (c : wconf) (s : wset) : wconf :=
  match s with
  | SetStream n => mkWC false n (wc_conn c)
  | SetConn n => mkWC false (wc_stream c) n
  | SetAdaptive b => if b then mkWC true SPEC_WINDOW_SIZE SPEC_WINDOW_SIZE else mkWC false (wc_stream c) (wc_conn c)
  end.
(* proto/h2/server.rs 157-161, proto/h2/client.rs 139-143 *)
Definition bdp_initial_window (c : wconf) : option N := if wc_adaptive c then Some (wc_stream c) else None.

(* ---- bandwidth estimate ---- *)
(* proto/h2/ping.rs 364 *)
Definition BDP_LIMIT : N := 1024 * 1024 * 16.
(* proto/h2/ping.rs 137-151, Bdp without the floating-point fields *)
Record bdp := mkBdp { bdp_bdp : N; bdp_delay : N; bdp_stable : N }.
(* proto/h2/ping.rs 47-53 *)
Definition bdp_new (wnd : N) : bdp := mkBdp wnd 100000000 0.
(* proto/h2/ping.rs 411-420, stabilize_delay *)
Definition stabilize_delay (b : bdp) : bdp :=
  if bdp_delay b <? 10000000000 then
    if 2 <=? bdp_stable b + 1 then mkBdp (bdp_bdp b) (bdp_delay b * 4) 0
    else mkBdp (bdp_bdp b) (bdp_delay b) (bdp_stable b + 1)
  else b.
(* proto/h2/ping.rs 367-409, calculate: [slower]: the comparison bw < max_bandwidth
   of line 388; the overflow of bytes * 2 is not modelled *)
Definition bdp_calculate (bytes : N) (slower : bool) (b : bdp) : bdp * option N :=
  if bdp_bdp b =? BDP_LIMIT then (stabilize_delay b, None)
  else if slower then (stabilize_delay b, None)
  else if bdp_bdp b * 2 / 3 <=? bytes then
    let n := N.min (bytes * 2) BDP_LIMIT in
    (mkBdp n (bdp_delay b / 2) 0, Some n)
  else (stabilize_delay b, None).

(* ---- keep-alive ---- *)
(* proto/h2/ping.rs 167-171 *)
Inductive ka_state := KaInit | KaScheduled (at_ : N) | KaPingSent.
(* proto/h2/ping.rs 153-165, KeepAlive; [ka_deadline]: of its sleep *)
Record keepalive := mkKa { ka_interval : N; ka_timeout : N; ka_while_idle : bool; ka_st : ka_state; ka_deadline : N }.
(* What happened in proto/h2/ping.rs 193-490, for the theorems: a frame was received; a ping was sent, or
   could not be sent; a pong arrived; keep-alive asked for a ping; the connection
   was declared dead; a new window *)
Inductive pev := PFrame (t : N) | PSend (t : N) (ok : bool) | PPong (t : N) | PAsk (t : N) (idle : bool) | PDead (t : N) | PWindow (t w : N).
(* proto/h2/ping.rs 106-135: Ponger and Shared in one record, and the log *)
Record pinger := mkP {
  p_bdp : option bdp; p_ka : option keepalive;
  p_sent_at : option N; p_bytes : option N; p_next_bdp : option N; p_last_read : option N; p_timed_out : bool;
  p_log : list pev }.
(* proto/h2/ping.rs 93-104, Config *)
Record pconf := mkPC { pc_window : option N; pc_interval : option N; pc_timeout : N; pc_while_idle : bool }.
(* proto/h2/ping.rs 41-91, channel *)
Definition p_channel (c : pconf) (now : N) : pinger :=
  mkP (option_map bdp_new (pc_window c))
      (option_map (fun i => mkKa i (pc_timeout c) (pc_while_idle c) KaInit (now + i)) (pc_interval c))
      None (option_map (fun _ => 0) (pc_window c)) (option_map (fun _ => now) (pc_window c))
      (option_map (fun _ => now) (pc_interval c)) false [].
(* Updating some fields of Shared and Ponger (proto/h2/ping.rs 106-135) *)
Definition set_last_read (t : N) (p : pinger) : pinger :=
  mkP (p_bdp p) (p_ka p) (p_sent_at p) (p_bytes p) (p_next_bdp p) (match p_last_read p with Some _ => Some t | None => None end) (p_timed_out p) (p_log p).
(* assigns a field of Shared or Ponger (proto/h2/ping.rs 106-135) *)
Definition set_ka (k : option keepalive) (p : pinger) : pinger :=
  mkP (p_bdp p) k (p_sent_at p) (p_bytes p) (p_next_bdp p) (p_last_read p) (p_timed_out p) (p_log p).
(* assigns a field of Shared or Ponger (proto/h2/ping.rs 106-135) *)
Definition set_sent (s : option N) (p : pinger) : pinger :=
  mkP (p_bdp p) (p_ka p) s (p_bytes p) (p_next_bdp p) (p_last_read p) (p_timed_out p) (p_log p).
(* no counterpart: notes an event in the ghost log of the model of proto/h2/ping.rs 106-135 *)
Definition p_logs (e : pev) (p : pinger) : pinger :=
  mkP (p_bdp p) (p_ka p) (p_sent_at p) (p_bytes p) (p_next_bdp p) (p_last_read p) (p_timed_out p) (p_log p ++ [e]).
(* proto/h2/ping.rs 334-344, send_ping: [ok]: what h2's send_ping returns *)
Definition send_ping (now : N) (ok : bool) (p : pinger) : pinger :=
  p_logs (PSend now ok) (if ok then set_sent (Some now) p else p).
(* proto/h2/ping.rs 214-224, the second half of record_data *)
Definition record_bytes (now len : N) (ok : bool) (p : pinger) : pinger :=
  match p_bytes p with
  | Some n =>
      let p := mkP (p_bdp p) (p_ka p) (p_sent_at p) (Some (n + len)) (p_next_bdp p) (p_last_read p) (p_timed_out p) (p_log p) in
      match p_sent_at p with Some _ => p | None => send_ping now ok p end
  | None => p
  end.
(* proto/h2/ping.rs 211: next_bdp_at = None *)
Definition clear_next_bdp (p : pinger) : pinger :=
  mkP (p_bdp p) (p_ka p) (p_sent_at p) (p_bytes p) None (p_last_read p) (p_timed_out p) (p_log p).
(* proto/h2/ping.rs 193-225, record_data *)
Definition record_data (now len : N) (ok : bool) (p : pinger) : pinger :=
  let p := p_logs (PFrame now) (set_last_read now p) in
  match p_next_bdp p with
  | Some t => if now <? t then p else record_bytes now len ok (clear_next_bdp p)
  | None => record_bytes now len ok p
  end.
(* proto/h2/ping.rs 227-237, record_non_data *)
Definition record_non_data (now : N) (p : pinger) : pinger := p_logs (PFrame now) (set_last_read now p).
(* proto/h2/ping.rs 451-455, schedule; None: the expect of 356 panics *)
Definition ka_schedule (k : keepalive) (p : pinger) : option pinger :=
  match p_last_read p with
  | Some t => let at_ := t + ka_interval k in
              Some (set_ka (Some (mkKa (ka_interval k) (ka_timeout k) (ka_while_idle k) (KaScheduled at_) at_)) p)
  | None => None
  end.
(* proto/h2/ping.rs 432-449, maybe_schedule *)
Definition ka_maybe_schedule (idle : bool) (p : pinger) : option pinger :=
  match p_ka p with
  | None => Some p
  | Some k =>
      match ka_st k with
      | KaInit => if negb (ka_while_idle k) && idle then Some p else ka_schedule k p
      | KaPingSent => match p_sent_at p with Some _ => Some p | None => ka_schedule k p end
      | KaScheduled _ => Some p
      end
  end.
(* Sleep::poll (external, by its contract; proto/h2/ping.rs 460, 486): never ready before the deadline;
   [fired]: whether it is ready after it *)
Definition sleep_ready (now : N) (fired : bool) (k : keepalive) : bool := (ka_deadline k <=? now) && fired.
(* proto/h2/ping.rs 457-481, maybe_ping *)
Definition ka_maybe_ping (now : N) (idle fired ok : bool) (p : pinger) : option pinger :=
  match p_ka p with
  | None => Some p
  | Some k =>
      match ka_st k with
      | KaScheduled at_ =>
          if negb (sleep_ready now fired k) then Some p
          else match p_last_read p with
               | None => None
               | Some t =>
                   if at_ <? t + ka_interval k
                   then Some (set_ka (Some (mkKa (ka_interval k) (ka_timeout k) (ka_while_idle k) KaInit (ka_deadline k))) p)
                   else if negb (ka_while_idle k) && idle then Some p
                   else Some (set_ka (Some (mkKa (ka_interval k) (ka_timeout k) (ka_while_idle k) KaPingSent (now + ka_timeout k)))
                                     (send_ping now ok (p_logs (PAsk now idle) p)))
               end
      | _ => Some p
      end
  end.
(* What h2's poll_pong returns *)
Inductive pong := PongReady | PongErr | PongPending.
(* proto/h2/ping.rs 174-177, 266-324: what Ponger::poll returns *)
Inductive ponged := PgPending | PgSize (w : N) | PgTimedOut.
(* Inputs of one poll (proto/h2/ping.rs 266-324): the clock, is_idle(), what the three polls of the sleep and
   the two sends would return, the pong, the floating-point comparison *)
Record pin := mkPin { pi_now : N; pi_idle : bool; pi_f1 : bool; pi_ok1 : bool; pi_pong : pong; pi_f2 : bool; pi_ok2 : bool; pi_f3 : bool; pi_slower : bool }.
(* proto/h2/ping.rs 266-324, Ponger::poll; None: an expect panics *)
Definition p_poll (i : pin) (p : pinger) : option (pinger * ponged) :=
  let now := pi_now i in
  match ka_maybe_schedule (pi_idle i) p with
  | None => None
  | Some p =>
  match ka_maybe_ping now (pi_idle i) (pi_f1 i) (pi_ok1 i) p with
  | None => None
  | Some p =>
  match p_sent_at p with
  | None => Some (p, PgPending)
  | Some _ =>
      match pi_pong i with
      | PongReady =>
          let p := p_logs (PPong now) (set_sent None p) in
          let after_ka :=
            match p_ka p with
            | None => Some p
            | Some _ => match ka_maybe_schedule (pi_idle i) (set_last_read now p) with
                        | Some p => ka_maybe_ping now (pi_idle i) (pi_f2 i) (pi_ok2 i) p
                        | None => None
                        end
            end in
          match after_ka with
          | None => None
          | Some p =>
              match p_bdp p with
              | None => Some (p, PgPending)
              | Some b =>
                  match p_bytes p with
                  | None => None
                  | Some n =>
                      let (b', u) := bdp_calculate n (pi_slower i) b in
                      let p := mkP (Some b') (p_ka p) (p_sent_at p) (Some 0) (Some (now + bdp_delay b')) (p_last_read p) (p_timed_out p) (p_log p) in
                      match u with
                      | Some w => Some (p_logs (PWindow now w) p, PgSize w)
                      | None => Some (p, PgPending)
                      end
                  end
              end
          end
      | PongErr => Some (p, PgPending)
      | PongPending =>
          match p_ka p with
          | Some k =>
              (* proto/h2/ping.rs 483-494, maybe_timeout *)
              match ka_st k with
              | KaPingSent =>
                  if sleep_ready now (pi_f3 i) k
                  then Some (p_logs (PDead now) (mkP (p_bdp p) None (p_sent_at p) (p_bytes p) (p_next_bdp p) (p_last_read p) true (p_log p)), PgTimedOut)
                  else Some (p, PgPending)
              | _ => Some (p, PgPending)
              end
          | None => Some (p, PgPending)
          end
      end
  end end end.

(* What happens on a connection over time: proto/h2/ping.rs 193-237, 266-324 *)
Inductive pact := PData (now len : N) (ok : bool) | PNonData (now : N) | PPoll (i : pin).
(* proto/h2/ping.rs 193-237, 266-324 *)
Definition p_act (p : pinger) (a : pact) : option pinger :=
  match a with
  | PData now len ok => Some (record_data now len ok p)
  | PNonData now => Some (record_non_data now p)
  | PPoll i => match p_poll i p with Some (p, _) => Some p | None => None end
  end.
(* a sequence of calls (proto/h2/ping.rs 193-237, 266-324) *)
Fixpoint p_run (p : pinger) (l : list pact) : option pinger :=
  match l with
  | [] => Some p
  | a :: r => match p_act p a with Some p' => p_run p' r | None => None end
  end.
