(* Model of the body that the application receives: src/body/incoming.rs.

   HTTP/1: the connection holds a Sender, the application an Incoming; they run
   concurrently, each action below is one access to shared state.  Taken by
   contract: futures_channel::mpsc with buffer 0 (FIFO; a sender may have one
   message in the queue: it is parked when it sends and freed when that message is
   taken out; the clone that send_error makes has its own place; poll_next gives None when the queue is
   empty and all senders are gone) and oneshot; common/watch.rs is the value of
   its cell (M_Watch has the wake-ups). *)
From Verif Require Import Base M_HeaderMap M_Headers M_Role M_Dispatch.

(* common/watch.rs 16, body/incoming.rs 98-100 *)
Inductive want := WantClosed | WantPending | WantReady.
(* What happened in body/incoming.rs 190-239, 357-445.  Sender: poll_ready said ready; data sent; trailers sent; an error sent; the data
   sender dropped.  Receiver: asked (poll_frame was called); got data, trailers,
   an error, the end (None); was dropped. *)
Inductive ievent :=
| SReady | SData (d : bytes) | STrailers (t : hmap) | SFail | SEnd
| RAsk | RData (d : bytes) | RTrailers (t : hmap) | RFail | REnd | RDrop.
(* body/incoming.rs 62, 115: what goes through the data channel *)
Inductive item := ItData (d : bytes) | ItFail.
(* Where poll_frame (body/incoming.rs 211-239) is: not running; before data_rx.poll_next; before
   trailers_rx.poll; the Incoming has been dropped *)
Inductive rpc := RIdle | RNext | RTrail | RGone.
(* body/incoming.rs 56-74 (Kind::Chan) and 91-95.  [b_sender]: data_tx is there;
   [b_tsender]: trailers_tx is there and unused; [b_slot]: trailers sent and not
   yet taken; [b_over]: data_rx is terminated; [b_len]: content_length (None: an
   underflow, which panics with overflow checks) *)
Record bchan := mkB {
  b_want : want; b_queue : list item; b_parked : bool; b_sender : bool;
  b_tsender : bool; b_slot : option hmap; b_over : bool; b_len : option dlen; b_pc : rpc; b_log : list ievent
}.
(* body/incoming.rs 114-137, new_channel *)
Definition b_new (len : dlen) (wanter : bool) : bchan :=
  mkB (if wanter then WantPending else WantReady) [] false true true None false (Some len) RIdle [].

(* body/incoming.rs 358-374, poll_ready and poll_want *)
Definition b_poll_ready (b : bchan) : bready :=
  match b_want b with
  | WantClosed => BCanceled
  | WantPending => BPending
  | WantReady => match b_pc b with RGone => BCanceled | _ => if b_parked b then BPending else BReady end
  end.
(* body/incoming.rs 62: the Incoming, and with it data_rx, is still there *)
Definition b_rx (b : bchan) : bool := match b_pc b with RGone => false | _ => true end.

(* Actions of the sender: poll_ready (358-374), try_send_data (413-418), try_send_trailers (420-431),
   send_error (438-444); dropping the Sender drops its fields in order (91-95):
   data_tx, then trailers_tx.  Actions of the receiver: the three parts of
   poll_frame (216-233) and dropping the Incoming (the fields of Kind::Chan in
   order, 59-64: want_tx, then data_rx; here in one step). *)
Inductive iact := AReady | ASendData (d : bytes) | ASendTrailers (t : hmap) | ASendError | ADropData | ADropTrailers
  | AAsk | ANext | ATrail | AGone.

(* body/incoming.rs 216-233 and 358-444; None: the action is not possible here *)
Definition b_step (b : bchan) (a : iact) : option bchan :=
  let '(mkB w q pk s ts sl ov len pc lg) := b in
  match a with
  | AReady => if s then Some (match b_poll_ready b with BReady => mkB w q pk s ts sl ov len pc (lg ++ [SReady]) | _ => b end) else None
  | ASendData d => (* fails when there is no room or the receiver is gone *)
      if s then Some (if b_rx b && negb pk then mkB w (q ++ [ItData d]) true s ts sl ov len pc (lg ++ [SData d]) else b) else None
  | ASendTrailers t =>
      if s then Some (if b_rx b && ts then mkB w q pk s false (Some t) ov len pc (lg ++ [STrailers t])
                      else mkB w q pk s false sl ov len pc lg) else None
  | ASendError =>
      if s then Some (if b_rx b then mkB w (q ++ [ItFail]) pk s ts sl ov len pc (lg ++ [SFail]) else b) else None
  | ADropData => if s then Some (mkB w q pk false ts sl ov len pc (lg ++ [SEnd])) else None
  | ADropTrailers => if s then None else Some (mkB w q pk s false sl ov len pc lg)
  | AAsk => match pc with RIdle => Some (mkB WantReady q pk s ts sl ov len (if ov then RTrail else RNext) (lg ++ [RAsk])) | _ => None end
  | ANext =>
      match pc with
      | RNext =>
          match q with
          | ItData d :: q => Some (mkB w q false s ts sl ov (match len with Some l => dl_sub_if l (lenN d) | None => None end) RIdle (lg ++ [RData d]))
          | ItFail :: q => Some (mkB w q pk s ts sl ov len RIdle (lg ++ [RFail]))
          | [] => if s then Some (mkB w q pk s ts sl ov len RIdle lg) else Some (mkB w q pk s ts sl true len RTrail lg)
          end
      | _ => None
      end
  | ATrail =>
      match pc with
      | RTrail =>
          match sl with
          | Some t => Some (mkB w q pk s ts None ov len RIdle (lg ++ [RTrailers t]))
          | None => if ts then Some (mkB w q pk s ts sl ov len RIdle lg) else Some (mkB w q pk s ts sl ov len RIdle (lg ++ [REnd]))
          end
      | _ => None
      end
  | AGone => match pc with RIdle => Some (mkB WantClosed [] pk s ts None ov len RGone (lg ++ [RDrop])) | _ => None end
  end.
(* The interleaving [l] of actions on one channel (body/incoming.rs 190-444) *)
Fixpoint b_run (b : bchan) (l : list iact) : option bchan :=
  match l with [] => Some b | a :: r => match b_step b a with Some b' => b_run b' r | None => None end end.

(* body/incoming.rs 288-322: is_end_stream and size_hint().exact() *)
Definition b_is_end_stream (b : bchan) : bool := match b_len b with Some l => l =? 0 | None => false end.
(* body/incoming.rs 300-322, size_hint().exact() *)
Definition b_size_hint (b : bchan) : option N := match b_len b with Some l => dl_into_opt l | None => None end.

(* ---- HTTP/2 ---- *)
(* What h2's RecvStream gives, in order (by contract): nothing yet; data;
   trailers; a reset or connection error, sticky ([true]: its reason is NO_ERROR).
   The end of the list is the end of the stream. *)
Inductive h2in := HPending | HChunk (d : bytes) | HTrail (t : hmap) | HReset (no_error : bool).
(* Result of one poll_frame (body/incoming.rs 238-286) *)
Inductive h2res := XPending | XData (d : bytes) | XTrailers (t : hmap) | XErr | XNone | XPanic.
(* body/incoming.rs 66-71, Kind::H2: data_done, content_length, and what is left to come *)
Record h2rx := mkX { x_done : bool; x_len : dlen; x_left : list h2in }.
(* body/incoming.rs 153-170: an unknown length is zero when the stream has already ended *)
Definition x_new (ended : bool) (len : dlen) (l : list h2in) : h2rx :=
  mkX false (if negb (dl_is_exact len) && ended then DL_ZERO else len) l.
(* body/incoming.rs 264-283: after data, poll_trailers *)
Definition x_trailers (x : h2rx) : h2res * h2rx :=
  match x_left x with
  | HTrail t :: r => (XTrailers t, mkX (x_done x) (x_len x) r)
  | HReset no_error :: _ => (if no_error then XNone else XErr, x)
  | HPending :: r => (XPending, mkX (x_done x) (x_len x) r)
  | HChunk _ :: _ => (XPending, x)
  | [] => (XNone, x)
  end.
(* body/incoming.rs 235-283 *)
Definition x_poll_frame (x : h2rx) : h2res * h2rx :=
  if x_done x then x_trailers x
  else match x_left x with
       | HChunk d :: r => match dl_sub_if (x_len x) (lenN d) with
                          | Some l => (XData d, mkX false l r)
                          | None => (XPanic, x)
                          end
       | HReset no_error :: _ => (if no_error then XNone else XErr, x)
       | HPending :: r => (XPending, mkX false (x_len x) r)
       | HTrail _ :: _ | [] => x_trailers (mkX true (x_len x) (x_left x))
       end.
(* Calls of poll_frame (body/incoming.rs 190) one after the other *)
Fixpoint x_polls (n : nat) (x : h2rx) : list h2res * h2rx :=
  match n with
  | O => ([], x)
  | S n => let '(r, x1) := x_poll_frame x in let '(rs, x2) := x_polls n x1 in (r :: rs, x2)
  end.
