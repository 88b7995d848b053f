(* What a connection has to wait for (for C68). *)
From Verif Require Import Base M_Src M_Decode M_HeaderMap M_Headers M_Encode M_Role M_RoleEncode M_Buf M_WriteBuf M_Read M_Conn M_Dispatch.

(* The connection waits for a message, and there are bytes which the message
   parser has not been given (proto/h1/io.rs 174-222: partial_len is how much of
   the buffer the parser has been given without finding a whole head). *)
Definition unread (k : conn) : Prop := k_reading k = RInit /\ r_buf (k_rd k) <> [] /\ r_partial (k_rd k) = None.
(* All bytes in the buffer have been given to the parser *)
Definition seen (k : conn) : Prop := r_buf (k_rd k) = [] \/ r_partial (k_rd k) <> None.

(* The transport never says Pending to a read from here on *)
Definition nowait (evs : list event) : Prop := ~ In EvPending evs.
(* In this step nothing outside says Pending: the service has its response, the
   response body its next frame, the receiver of the request body room, the
   transport takes what is flushed, and the last read was not blocked *)
Definition at_once (c : cfg) (i : inp) (d : disp) : Prop :=
  i_msg i <> Pending /\ i_frame i <> Pending /\ i_body i <> BPending /\ i_blk i = false /\ snd (d_flush c i d) <> Pending.
Fixpoint all_at_once (c : cfg) (is : list inp) (d : disp) : Prop :=
  match is with
  | [] => True
  | i :: r => at_once c i d /\ all_at_once c r (dstep c i d)
  end.
(* A request whose response head has not been written, on a connection that
   queues the buffers of bodies (io.rs 511-517, WriteStrategy::Queue) *)
Definition held (d : disp) : Prop := d_in_flight d = true /\ k_writing (d_conn d) = WInit /\ wflat (k_wb (d_conn d)) = false.
