(* Model of sending a body over HTTP/2: PipeToSendStream of src/proto/h2/mod.rs
   94-285.  h2's SendStream is external: what its functions return are inputs,
   and what they are asked to send is logged. *)
From Verif Require Import Base M_HeaderMap.

(* proto/h2/mod.rs 195-230: what the application's body yields: a data frame (with what is_end_stream says
   afterwards), trailers, a frame of another kind, an error, or nothing yet.  The
   end of the list: None. *)
Inductive bev := BData (d : bytes) (eos : bool) | BTrailers (h : hmap) | BOther | BErr | BPending.
(* What was handed to h2 *)
Inductive hev := HData (d : bytes) (eos : bool) | HTrailers (h : hmap) | HReset.
(* proto/h2/mod.rs 94-109, PipeToSendStream: data_done is never read; body_tx is
   the log *)
Record pipe := mkPipe { pp_buffered : option (bytes * bool); pp_body : list bev; pp_log : list hev }.
(* proto/h2/mod.rs 120-127, new *)
Definition pipe_new (body : list bev) : pipe := mkPipe None body [].
(* What h2 answers in one iteration of the loop: poll_reset; capacity() and
   poll_capacity together (the inner loop 161-174 ends in one of four ways);
   send_data or send_trailers *)
Inductive hreset := RNone | RReset | RErr.
(* proto/h2/mod.rs 161-174: how the inner loop ends *)
Inductive hcap := CapYes | CapPending | CapErr | CapGone.
(* proto/h2/mod.rs 144-258: the answers of h2 in one iteration *)
Record hin := mkHin { hi_reset : hreset; hi_cap : hcap; hi_sent : bool }.
(* How an iteration ends: go on; Pending; Ok; an error of h2 or a reset; an error
   of the body *)
Inductive pout := PoLoop | PoPending | PoOk | PoErr | PoUser.
(* proto/h2/mod.rs 178-183, 209-212, 244-246, 281-284: handing a frame to h2 *)
Definition pp_send (e : hev) (ok : bool) (next : pout) (p : pipe) : pipe * pout :=
  if ok then (mkPipe (pp_buffered p) (pp_body p) (pp_log p ++ [e]), next) else (p, PoErr).
(* proto/h2/mod.rs 144-258, one iteration of the loop of poll *)
Definition pipe_iter (i : hin) (p : pipe) : pipe * pout :=
  match hi_reset i with
  | RReset | RErr => (p, PoErr)
  | RNone =>
      match pp_buffered p with
      | Some (d, eos) =>
          match hi_cap i with
          | CapPending => (p, PoPending)
          | CapErr | CapGone => (p, PoErr)
          | CapYes => pp_send (HData d eos) (hi_sent i) (if eos then PoOk else PoLoop) (mkPipe None (pp_body p) (pp_log p))
          end
      | None =>
          match pp_body p with
          | BPending :: r => (mkPipe None r (pp_log p), PoPending)
          | BData d eos :: r =>
              if lenN d =? 0 then pp_send (HData d eos) (hi_sent i) (if eos then PoOk else PoLoop) (mkPipe None r (pp_log p))
              else (mkPipe (Some (d, eos)) r (pp_log p), PoLoop)
          | BTrailers h :: r => pp_send (HTrailers h) (hi_sent i) PoOk (mkPipe None r (pp_log p))
          | BOther :: r => (mkPipe None r (pp_log p), PoLoop)
          | BErr :: r => (mkPipe None r (pp_log p ++ [HReset]), PoUser)
          | [] => pp_send (HData [] true) (hi_sent i) PoOk p
          end
      end
  end.
(* Polling until it is ready: an iteration after Pending starts the loop again with
   the state kept in the future; [None]: not finished yet.  proto/h2/mod.rs 142-258.
   [cancel]: looked at when a poll starts, proto/h2/client.rs 480-514, PipeMap;
   always false for the server. *)
Fixpoint pipe_run (start : bool) (p : pipe) (l : list (bool * hin)) : pipe * option pout :=
  match l with
  | [] => (p, None)
  | (cancel, i) :: r =>
      if start && cancel then (mkPipe (pp_buffered p) (pp_body p) (pp_log p ++ [HReset]), Some PoErr)
      else let (p', o) := pipe_iter i p in
           match o with
           | PoLoop => pipe_run false p' r
           | PoPending => pipe_run true p' r
           | _ => (p', Some o)
           end
  end.
