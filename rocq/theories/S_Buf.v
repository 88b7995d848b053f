(* Spec vocabulary for buffers: the bytes a buffer stands for, and histories of
   queueing and flushing. *)
From Verif Require Import Base M_Encode M_Buf M_WriteBuf.

(* The bytes a buffer stands for. *)
Fixpoint den (b : buf) : bytes :=
  match b with
  | Segs _ l => concat l
  | Chain a b => den a ++ den b
  | Take _ n b => takeN n (den b)
  end.
Definition bl_den (l : buflist) : bytes := concat (map den l).

(* The Buf contract: chunk() is empty only when nothing remains. *)
Fixpoint wf_buf (b : buf) : Prop :=
  match b with
  | Segs _ l => Forall (fun s => s <> []) l
  | Chain a b => wf_buf a /\ wf_buf b
  | Take _ _ b => wf_buf b
  end.

(* The number of contiguous pieces. *)
Fixpoint pieces (b : buf) : nat :=
  match b with
  | Segs _ l => length l
  | Chain a b => (pieces a + pieces b)%nat
  | Take _ _ b => pieces b
  end.

(* The chunks_vectored contract: "if it does not fill every entry of dst, then
   dst contains all remaining slices".  The provided method of the trait meets
   it for buffers in one piece only. *)
Fixpoint vec_contract (b : buf) : Prop :=
  match b with
  | Segs v l => v = true \/ (length l <= 1)%nat
  | Chain a b => vec_contract a /\ vec_contract b
  | Take v _ b => vec_contract b /\ (pieces b <= if v then 16 else 1)%nat
  end.
Definition good_buf (b : buf) : Prop := wf_buf b /\ vec_contract b /\ den b <> [].

(* What a vectored view must look like: a prefix of the bytes, complete unless
   all slots are used, without empty slices. *)
Definition view_of (k : nat) (v : list bytes) (d : bytes) : Prop :=
  (length v <= k)%nat /\
  (exists rest, d = concat v ++ rest) /\
  ((length v < k)%nat -> concat v = d) /\
  Forall (fun s => s <> []) v.

(* Histories of the write side.  [OHead]: append a message head, which the
   connection does only when can_headers_buf() (conn.rs 573-578); [OBody]: queue
   a body buffer if can_buffer() (dispatch.rs 378, 393); [OForce]: queue a body
   buffer regardless (the end of a body, conn.rs 784-812); [OFlush]: poll_flush
   against the given transport answers, with the read buffer empty or not. *)
Inductive wop :=
| OHead (bs : bytes)
| OBody (room : bool) (b : buf)
| OForce (room : bool) (b : buf)
| OFlush (unread : bool) (evs : list wevent).

(* State of a history: the write buffer, everything queued so far, everything
   the transport has accepted so far, the outcome of the last flush (None: the
   last operation was not a flush). *)
Record whist := mkHist {
  h_wb : wbuf;
  h_queued : bytes;
  h_wire : bytes;
  h_flush : option (poll (result unit werr))
}.

Definition step (pipeline : bool) (h : whist) (o : wop) : whist :=
  let force room b :=
    match wb_buffer room (h_wb h) b with
    | Some w => mkHist w (h_queued h ++ den b) (h_wire h) None
    | None => mkHist (h_wb h) (h_queued h) (h_wire h) (Some (Ready (Err EPanicW)))
    end in
  match o with
  | OHead bs =>
      if can_headers_buf (h_wb h)
      then mkHist (wb_head (h_wb h) bs) (h_queued h ++ bs) (h_wire h) None
      else mkHist (h_wb h) (h_queued h) (h_wire h) None
  | OBody room b =>
      if can_buffer pipeline (h_wb h) then force room b
      else mkHist (h_wb h) (h_queued h) (h_wire h) None
  | OForce room b => force room b
  | OFlush unread evs =>
      let '(w, _, sent, r) := wb_flush pipeline unread (h_wb h) evs in
      mkHist w (h_queued h) (h_wire h ++ sent) (Some r)
  end.
Definition history (pipeline flat : bool) (max : N) (ops : list wop) : whist :=
  fold_left (step pipeline) ops (mkHist (wb_new flat max) [] [] None).

Definition good_op (o : wop) : Prop :=
  match o with
  | OBody _ b | OForce _ b => good_buf b
  | _ => True
  end.
