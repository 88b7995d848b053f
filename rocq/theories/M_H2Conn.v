(* Model of the task that drives an HTTP/2 client's connection and of how it and
   the rest of the client learn of each other's end: src/proto/h2/client.rs
   167-196, 209-362, 425-438, 459-517 and 782-796.  Every operation on something
   shared (a waker, a channel, a reference count) is a step of its own, so that
   tasks may run on different threads.  Channels by their contracts: a receiver
   whose last sender goes away wakes the task that polled it last.  The h2
   connection is an oracle: what polling it returns is an input. *)
From Verif Require Import Base.

(* client.rs 239-249: what the ponger says (M_Ping); disabled is never ready.
   [ok]: whether set_initial_window_size succeeds *)
Inductive cpong := CpNone | CpWindow (w : N) (ok : bool) | CpTimedOut.
(* client.rs 238, 343: the task: between polls; in a poll that found the
   connection pending; completed or dropped by the executor *)
Inductive tpc := TIdle | TMid | TEnd.
(* client.rs 425-438, ClientTask: there; being dropped, with conn_drop_ref gone
   and h2_tx not yet (fields are dropped in the order of their declaration); gone *)
Inductive clpc := ClThere | ClDropping | ClGone.
(* What happens: the connection is polled, with or without references to it (a
   SendRequest or a stream) left; new window sizes; the task ends; the client task
   learns that it did; an expect panics (client.rs 240-252, 347-349, 355, 789) *)
Inductive hcev := HcPolled (referenced : bool) | HcWindow (w : N) | HcEnd | HcEof | HcPanic.
(* client.rs 304-316, ConnTask, with what its wakers and the other tasks hold:
   [hc_wake]: it is scheduled; [hc_conn_w], [hc_drop_w]: its waker is with the h2
   connection, with drop_rx; [hc_rx_term]: drop_rx is terminated; [hc_tx]:
   cancel_tx is there.  [hc_pipes]: body tasks with a conn_drop_ref (459-471);
   [hc_streams]: streams (459-471, 580-597 and bodies of responses) that refer to
   the connection; [hc_eof_w], [hc_cl_wake]: the client task has polled conn_eof,
   has been scheduled since *)
Record hc := mkHc { hc_pc : tpc; hc_wake : bool; hc_conn_w : bool; hc_drop_w : bool; hc_rx_term : bool; hc_tx : bool;
  hc_cl : clpc; hc_pipes : N; hc_streams : N; hc_eof_w : bool; hc_cl_wake : bool; hc_log : list hcev }.
(* client.rs 173-205: the task is spawned, so it is scheduled *)
Definition hc_new : hc := mkHc TIdle true false false false true ClThere 0 0 false false [].
(* client.rs 173, 543: senders of the channel, conn_drop_ref and its clones *)
Definition hc_refs (s : hc) : N := hc_pipes s + match hc_cl s with ClThere => 1 | _ => 0 end.
(* By h2's contract (client.rs 167-171, 351-353): a SendRequest or a stream is left *)
Definition hc_referenced (s : hc) : bool := match hc_cl s with ClGone => negb (hc_streams s =? 0) | _ => true end.
(* no counterpart: notes events in the ghost log of the model of proto/h2/client.rs 304-361 *)
Definition hc_logs (l : list hcev) (s : hc) : hc :=
  mkHc (hc_pc s) (hc_wake s) (hc_conn_w s) (hc_drop_w s) (hc_rx_term s) (hc_tx s) (hc_cl s) (hc_pipes s) (hc_streams s) (hc_eof_w s) (hc_cl_wake s) (hc_log s ++ l).
(* client.rs 355, 347 (the task is dropped): cancel_tx goes away, which wakes the client task if it waits *)
Definition hc_drop_tx (s : hc) : hc :=
  mkHc (hc_pc s) (hc_wake s) (hc_conn_w s) (hc_drop_w s) (hc_rx_term s) false (hc_cl s) (hc_pipes s) (hc_streams s) (hc_eof_w s) (hc_cl_wake s || hc_eof_w s) (hc_log s).
(* The task's waker is called (by the runtime's contract; client.rs 345) *)
Definition hc_wakes (b : bool) (s : hc) : hc :=
  mkHc (hc_pc s) (hc_wake s || b) (hc_conn_w s) (hc_drop_w s) (hc_rx_term s) (hc_tx s) (hc_cl s) (hc_pipes s) (hc_streams s) (hc_eof_w s) (hc_cl_wake s) (hc_log s).
(* Where the task and the client task are (client.rs 304-316, 425-438), and the counts (459-471) *)
Definition hc_to (pc : tpc) (s : hc) : hc :=
  mkHc pc (hc_wake s) (hc_conn_w s) (hc_drop_w s) (hc_rx_term s) (hc_tx s) (hc_cl s) (hc_pipes s) (hc_streams s) (hc_eof_w s) (hc_cl_wake s) (hc_log s).
(* where the client task is (proto/h2/client.rs 425-438) *)
Definition hc_client (c : clpc) (s : hc) : hc :=
  mkHc (hc_pc s) (hc_wake s) (hc_conn_w s) (hc_drop_w s) (hc_rx_term s) (hc_tx s) c (hc_pipes s) (hc_streams s) (hc_eof_w s) (hc_cl_wake s) (hc_log s).
(* the counts of body tasks and streams (proto/h2/client.rs 459-471) *)
Definition hc_counts (p n : N) (s : hc) : hc :=
  mkHc (hc_pc s) (hc_wake s) (hc_conn_w s) (hc_drop_w s) (hc_rx_term s) (hc_tx s) (hc_cl s) p n (hc_eof_w s) (hc_cl_wake s) (hc_log s).
(* client.rs 347-349: Poll::Ready, after which the executor drops the task *)
Definition hc_end (s : hc) : hc := hc_logs [HcEnd] (hc_drop_tx (hc_to TEnd s)).

(* client.rs 343-349 with 237-253 and 277-292 (Conn, ConnMapErr; is_terminated is
   set only by a poll that ends the task): the first half of a poll.  [ready]: what
   polling the h2 connection returns *)
Definition hc_poll_conn (p : cpong) (ready : bool) (s : hc) : hc :=
  let s := mkHc (hc_pc s) false (hc_conn_w s) (hc_drop_w s) (hc_rx_term s) (hc_tx s) (hc_cl s) (hc_pipes s) (hc_streams s) (hc_eof_w s) (hc_cl_wake s) (hc_log s) in
  match p with
  | CpTimedOut => hc_end s
  | CpWindow w false => hc_end (hc_logs [HcWindow w] s)
  | _ =>
      let s := hc_logs (match p with CpWindow w _ => [HcWindow w] | _ => [] end ++ [HcPolled (hc_referenced s)]) s in
      if ready then hc_end s
      else mkHc TMid (hc_wake s) true (hc_drop_w s) (hc_rx_term s) (hc_tx s) (hc_cl s) (hc_pipes s) (hc_streams s) (hc_eof_w s) (hc_cl_wake s) (hc_log s)
  end.
(* client.rs 351-360: the second half: drop_rx is polled *)
Definition hc_poll_drop (s : hc) : hc :=
  let s := hc_to TIdle s in
  if hc_rx_term s then s
  else if hc_refs s =? 0
  then let s := mkHc (hc_pc s) (hc_wake s) (hc_conn_w s) (hc_drop_w s) true (hc_tx s) (hc_cl s) (hc_pipes s) (hc_streams s) (hc_eof_w s) (hc_cl_wake s) (hc_log s) in
       if hc_tx s then hc_drop_tx s else hc_logs [HcPanic] s
  else mkHc (hc_pc s) (hc_wake s) (hc_conn_w s) true (hc_rx_term s) (hc_tx s) (hc_cl s) (hc_pipes s) (hc_streams s) (hc_eof_w s) (hc_cl_wake s) (hc_log s).
(* The last sender of the channel may have gone: drop_rx's waker is called
   (mpsc by its contract; client.rs 492, 511) *)
Definition hc_ref_dropped (s : hc) : hc := hc_wakes ((hc_refs s =? 0) && hc_drop_w s) s.

(* What happens, one after the other: the two halves of a poll (client.rs 343-361);
   the task is woken by I/O or a timer; the executor drops it; a stream is opened
   (with [pipe]: with a body task, 541-556); a body task drops its conn_drop_ref
   (492, 511); a stream goes away, of which h2 tells the connection; the client task
   is dropped, in two steps (425-438); it polls conn_eof (783-792) *)
Inductive hcmove := HPoll (p : cpong) (ready : bool) | HRx | HWoken | HKill | HOpen (pipe : bool) | HPipeRef | HStreamDrop | HDrop1 | HDrop2 | HEof.
(* client.rs 343-361, 425-438, 492, 511, 541-556, 783-792; None: this cannot happen
   now.  [told]: h2 tells the connection when the SendRequest goes away; the comment
   at 167-171 says that it may not *)
Definition hc_step (told : bool) (m : hcmove) (s : hc) : option hc :=
  match m, hc_pc s, hc_cl s with
  | HPoll p ready, TIdle, _ => if hc_wake s then Some (hc_poll_conn p ready s) else None
  | HRx, TMid, _ => Some (hc_poll_drop s)
  | HWoken, _, _ => Some (hc_wakes true s)
  | HKill, TIdle, _ => Some (hc_end s)
  | HOpen pipe, _, ClThere => Some (hc_counts (hc_pipes s + if pipe then 1 else 0) (hc_streams s + 1) s)
  | HPipeRef, _, _ => if hc_pipes s =? 0 then None else Some (hc_ref_dropped (hc_counts (hc_pipes s - 1) (hc_streams s) s))
  | HStreamDrop, _, _ =>
      if hc_streams s <=? hc_pipes s then None
      else Some (hc_wakes (hc_conn_w s) (hc_counts (hc_pipes s) (hc_streams s - 1) s))
  | HDrop1, _, ClThere => Some (hc_ref_dropped (hc_client ClDropping s))
  | HDrop2, _, ClDropping => Some (hc_wakes (told && hc_conn_w s) (hc_client ClGone s))
  | HEof, _, ClThere =>
      if hc_tx s
      then Some (mkHc (hc_pc s) (hc_wake s) (hc_conn_w s) (hc_drop_w s) (hc_rx_term s) (hc_tx s) (hc_cl s) (hc_pipes s) (hc_streams s) true false (hc_log s))
      else Some (hc_logs [HcEof] s)
  | _, _, _ => None
  end.
(* All that happened, in order (client.rs 343-361, 425-438) *)
Fixpoint hc_run (told : bool) (l : list hcmove) (s : hc) : option hc :=
  match l with
  | [] => Some s
  | m :: r => match hc_step told m s with Some s' => hc_run told r s' | None => None end
  end.
