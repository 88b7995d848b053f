(* Model of the bodies and the transport of the C interface: src/ffi/body.rs and
   src/ffi/io.rs. *)
From Coq Require Import ZArith.
From Verif Require Import Base M_HeaderMap M_Headers M_Incoming M_WriteBuf M_ReadBuf.

(* What poll_frame of an Incoming answers (body/incoming.rs 190-286), one answer for
   each call *)
Inductive cframe := CfPending | CfData (d : bytes) | CfTrailers (t : hmap) | CfFail | CfEnd.
(* ffi/body.rs 114-128: what the task of hyper_body_data completes with: a
   hyper_buf, nothing (HYPER_TASK_EMPTY), an error *)
Inductive cdata := CdBuf (d : bytes) | CdNone | CdErr.
(* ffi/body.rs 113-130, the future of hyper_body_data, one poll.  [l]: what the body
   will answer; nothing more to come: Pending. *)
Fixpoint cb_data (l : list cframe) : poll cdata * list cframe :=
  match l with
  | [] => (Pending, [])
  | CfPending :: r => (Pending, r)
  | CfData d :: r => (Ready (CdBuf d), r)
  | CfTrailers _ :: r => cb_data r
  | CfFail :: r => (Ready CdErr, r)
  | CfEnd :: r => (Ready CdNone, r)
  end.
(* An application that pushes one such task after the other and polls them (ffi/body.rs 83-132): [n] polls *)
Fixpoint cb_datas (n : nat) (l : list cframe) : list (poll cdata) * list cframe :=
  match n with
  | O => ([], l)
  | S n => let '(a, l1) := cb_data l in let '(r, l2) := cb_datas n l1 in (a :: r, l2)
  end.

(* ffi/mod.rs 65 *)
Definition ITER_CONTINUE : Z := 0%Z.
(* ffi/body.rs 153-163: what the task of hyper_body_foreach completes with *)
Inductive ceach := CeOk | CeErr | CeAborted.
(* ffi/body.rs 152-164, the future of hyper_body_foreach, one poll.  The callback's
   answer is a function of the chunks it was given before and of this one (its state
   is behind userdata).  [seen]: the chunks given to it so far. *)
Fixpoint cb_each (f : list bytes -> bytes -> Z) (seen : list bytes) (l : list cframe) : poll ceach * list bytes * list cframe :=
  match l with
  | [] => (Pending, seen, [])
  | CfPending :: r => (Pending, seen, r)
  | CfData d :: r => if Z.eqb (f seen d) ITER_CONTINUE then cb_each f (seen ++ [d]) r else (Ready CeAborted, seen ++ [d], r)
  | CfTrailers _ :: r => cb_each f seen r
  | CfFail :: r => (Ready CeErr, seen, r)
  | CfEnd :: r => (Ready CeOk, seen, r)
  end.
(* The task is polled (ffi/body.rs 152) until it completes, at most [n] times *)
Fixpoint cb_eaches (n : nat) (f : list bytes -> bytes -> Z) (seen : list bytes) (l : list cframe) : poll ceach * list bytes * list cframe :=
  match n with
  | O => (Pending, seen, l)
  | S n => match cb_each f seen l with
           | (Pending, seen, l) => cb_eaches n f seen l
           | x => x
           end
  end.

(* ffi/task.rs 22-29 *)
Definition POLL_READY : Z := 0%Z.
(* ffi/task.rs 27 *)
Definition POLL_PENDING : Z := 1%Z.
(* ffi/task.rs 29 *)
Definition POLL_ERROR : Z := 3%Z.
(* ffi/body.rs 211-235, UserBody::poll_data: [code] and [out] are what the callback
   returned and left behind its third argument.  The second component: a buffer that is
   not given back to anybody. *)
Definition ub_poll (code : Z) (out : option bytes) : cframe * option bytes :=
  if Z.eqb code POLL_READY then match out with None => (CfEnd, None) | Some d => (CfData d, None) end
  else if Z.eqb code POLL_PENDING then (CfPending, out)
  else (CfFail, out).
(* ffi/body.rs 203-209 and 238-244: a body for which no function was set *)
Definition ub_noop : cframe * option bytes := ub_poll POLL_READY None.

(* ffi/io.rs 11, 14 *)
Definition IO_PENDING : N := 4294967295.
(* ffi/io.rs 14 *)
Definition IO_ERROR : N := 4294967294.
(* What a callback of the application wants to say (ffi/io.rs 89-122): so many bytes, not now, an
   error *)
Inductive cmeant := CmCount (n : N) | CmPending | CmError.
(* ... and what it returns, as ffi/io.rs 89-122 asks for: no more than it was
   offered *)
Definition cio_return (m : cmeant) (len : N) : N := match m with CmCount n => N.min n len | CmPending => IO_PENDING | CmError => IO_ERROR end.
(* ffi/io.rs 169-186, poll_write of hyper_io *)
Definition cio_write (ret : N) : poll (result N unit) :=
  if ret =? IO_PENDING then Pending else if ret =? IO_ERROR then Ready (Err tt) else Ready (Ok ret).
(* proto/h1/io.rs 311-328, poll_flush_flattened (hyper_io is not vectored), with a
   hyper_io: its poll_flush is Ready(Ok) (ffi/io.rs 188-190).  [ms]: what the
   callback does, call by call; [sent]: what hyper takes for sent; [app]: what the
   callback took. *)
Fixpoint cio_flush (w : wbuf) (sent app : bytes) (ms : list cmeant) : wbuf * bytes * bytes * poll (result unit werr) :=
  match ms with
  | [] => (w, sent, app, Pending)
  | m :: r =>
      let offered := cur_chunk (whead w) in
      let app := app ++ match m with CmCount n => takeN n offered | _ => [] end in
      match cio_write (cio_return m (lenN offered)) with
      | Pending => (w, sent, app, Pending)
      | Ready (Err _) => (w, sent, app, Ready (Err ETransportW))
      | Ready (Ok n) =>
          let sent := sent ++ takeN n offered in
          let h := cur_adv n (whead w) in
          if cur_rem h =? 0 then (mkWb (cur_reset h) (wmax w) (wqueue w) (wflat w), sent, app, Ready (Ok tt))
          else
            let w' := mkWb h (wmax w) (wqueue w) (wflat w) in
            if n =? 0 then (w', sent, app, Ready (Err EWriteZero)) else cio_flush w' sent app r
      end
  end.
(* ffi/io.rs 144-166, poll_read of hyper_io: the callback wrote [s] at the start of
   the unfilled part and returned [ret].  None: panic. *)
Definition cio_read (s : bytes) (ret : N) (b : readbuf) : option (readbuf * rpoll) :=
  match rb_as_mut_write s b with
  | None => None
  | Some b' =>
      if ret =? IO_PENDING then Some (b', RpPending) else if ret =? IO_ERROR then Some (b', RpErr)
      else match rb_advance ret b' with Some b2 => Some (b2, RpOk) | None => None end
  end.
