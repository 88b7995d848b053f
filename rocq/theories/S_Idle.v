(* What an idle client connection owes to its sender (for C72). *)
From Verif Require Import Base M_Src M_Decode M_HeaderMap M_Headers M_Encode M_Role M_RoleEncode M_Buf M_WriteBuf M_Read M_Conn M_Dispatch S_Rest.

(* The connection is open and no message is being sent or received on it; and the
   body of the last request has been let go. *)
Definition vacant (d : disp) : Prop :=
  d_closing d = false /\ k_reading (d_conn d) = RInit /\ k_writing (d_conn d) = WInit.
Definition free (d : disp) : Prop := vacant d /\ d_body_rx d = false.
(* The sender may send: unless one side is gone or a request is on its way, the
   receiver has said that it wants one (client/dispatch.rs 93-104: can_send is what
   SendRequest::ready waits for). *)
Definition may_send (ch : chan) : Prop :=
  ch_tx ch = true -> ch_rx ch = true -> ch_given ch = false -> ch_queue ch = [] -> ch_want ch = true.

(* In this step nothing outside says Pending: the request body has its next frame,
   the receiver of the response body room, the transport takes what is flushed, and
   the last read was not blocked. *)
Definition prompt_step (c : cfg) (i : inp) (d : disp) : Prop :=
  i_frame i <> Pending /\ i_body i <> BPending /\ i_blk i = false /\ snd (d_flush c i d) <> Pending.
Fixpoint all_prompt (c : cfg) (is : list inp) (d : disp) : Prop :=
  match is with
  | [] => True
  | i :: r => prompt_step c i d /\ all_prompt c r (dstep c i d)
  end.
