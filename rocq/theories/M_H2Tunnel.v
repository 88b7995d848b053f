(* Model of a CONNECT tunnel over HTTP/2: src/proto/h2/upgrade.rs 19-351.  The
   writer (H2Upgraded, used by the application) and the task that forwards its
   bytes to h2 (UpgradedSendStreamTask) run concurrently; each action below is one
   access to state they share, so every interleaving is a list of actions.
   Taken by contract: futures_channel::mpsc (a FIFO queue; poll_next gives None
   when it is empty and the sender closed or gone; size_hint is the number of
   accepted messages not yet taken), oneshot, sequentially consistent atomics.
   The waker side of the close notification is in M_Watch.v. *)
From Verif Require Import Base M_H2Body.

(* Where the writer is (upgrade.rs 61-65, 264-351): usable; poll_shutdown has closed the channel but not yet
   set the flag; shut down; Drop has set the flag but the sender is not dropped
   yet; gone *)
Inductive wpc := WOpen | WShutting | WShut | WDropping | WGone.
(* Where the task is (upgrade.rs 114-225): not being polled; at the top of the loop of tick; about to
   look at the channel; without capacity, about to read size_hint; about to load
   the flag (first and second load of poll_closed); it has returned (with an
   error or not) but is not yet dropped; dropped *)
Inductive tpc := TIdle | TTop | TNext | TSize | TFlag1 | TFlag2 | TReturned (err : bool) | TDropped.
(* What happened: a write accepted; size_hint found the queue empty; a frame
   handed to h2; the task returned with an error; the task was dropped before it
   returned; poll_shutdown reported success *)
Inductive tev := EWrite (d : bytes) | EEmpty | ESend (e : hev) | EFail | EKilled | EShutOk.
(* proto/h2/upgrade.rs 55-59, 100-110: the channel and the flag are shared, the
   error slot holds what the task sent; the log is a ghost *)
Record tunnel := mkT { t_queue : list bytes; t_w : wpc; t_closed : bool; t_task : tpc; t_error : bool; t_log : list tev }.
(* proto/h2/upgrade.rs 19-46, pair *)
Definition t_pair : tunnel := mkT [] WOpen false TIdle false [].
(* proto/h2/upgrade.rs 67-98, 274, 330: the sender may still send *)
Definition t_open (t : tunnel) : bool := match t_w t with WOpen | WDropping => true | _ => false end.
(* The actions (upgrade.rs 55-98, 114-225, 264-351).  [TaskTop reset cap]: what poll_reset and the capacity calls say
   (Some true: capacity, Some false: none yet, None: an error or the stream is
   gone); [sent]: whether send_data accepts the frame. *)
Inductive tact :=
| AWrite (d : bytes) (ready : bool) (* poll_write; [ready]: poll_ready says there is room *)
| AShutdown      (* poll_shutdown, 330: close_channel *)
| AShutFlag      (* poll_shutdown, 331: the flag *)
| AShutWait      (* poll_shutdown, 332-336: look at the error slot *)
| ADropFlag      (* Drop, 61-65 *)
| ADropChan      (* Drop of the fields, 56 *)
| TPoll          (* the task is polled *)
| TaskTop (reset : bool) (cap : option bool)
| TaskNext (sent : bool)
| TaskSize
| TaskFlag (sent : bool)
| TaskDrop       (* the finished task is dropped *)
| TaskKill.      (* the executor drops an unfinished task *)

(* upgrade.rs 114-225: the task moves on *)
Definition t_with_task (pc : tpc) (evs : list tev) (t : tunnel) : tunnel := mkT (t_queue t) (t_w t) (t_closed t) pc (t_error t) (t_log t ++ evs).
(* proto/h2/upgrade.rs 213-225: an error is put into the slot *)
Definition t_fail (t : tunnel) : tunnel := mkT (t_queue t) (t_w t) (t_closed t) (TReturned true) true (t_log t ++ [EFail]).
(* proto/h2/upgrade.rs 178-181, 194-197: the end of the stream *)
Definition t_eos (sent : bool) (t : tunnel) : tunnel :=
  if sent then t_with_task (TReturned false) [ESend (HData [] true)] t else t_fail t.
(* the send task of proto/h2/upgrade.rs 114-225 is gone *)
Definition is_dropped (p : tpc) : bool := match p with TDropped => true | _ => false end.

(* upgrade.rs 61-98, 114-225, 264-351: one action; [None]: it is not possible in
   this state *)
Definition t_step (t : tunnel) (a : tact) : option tunnel :=
  match a with
  | AWrite d ready =>
      (* 265-305; an empty write returns at once, a write to a closed channel fails *)
      match t_w t with
      | WOpen =>
          if (lenN d =? 0) || is_dropped (t_task t) || negb ready then Some t
          else Some (mkT (t_queue t ++ [d]) (t_w t) (t_closed t) (t_task t) (t_error t) (t_log t ++ [EWrite d]))
      | WShut => Some t
      | _ => None
      end
  | AShutdown => match t_w t with WOpen | WShut => Some (mkT (t_queue t) WShutting (t_closed t) (t_task t) (t_error t) (t_log t)) | _ => None end
  | AShutFlag => match t_w t with WShutting => Some (mkT (t_queue t) WShut true (t_task t) (t_error t) (t_log t)) | _ => None end
  | AShutWait =>
      match t_w t with
      | WShut =>
          if t_error t then Some (mkT (t_queue t) (t_w t) (t_closed t) (t_task t) false (t_log t)) (* reported once *)
          else if is_dropped (t_task t) then Some (t_with_task (t_task t) [EShutOk] t) else Some t
      | _ => None
      end
  | ADropFlag => match t_w t with WOpen | WShut => Some (mkT (t_queue t) WDropping true (t_task t) (t_error t) (t_log t)) | _ => None end
  | ADropChan => match t_w t with WDropping => Some (mkT (t_queue t) WGone (t_closed t) (t_task t) (t_error t) (t_log t)) | _ => None end
  | TPoll => match t_task t with TIdle => Some (t_with_task TTop [] t) | _ => None end
  | TaskTop reset cap =>
      (* 129-174 *)
      match t_task t with
      | TTop =>
          match cap with
          | None => Some (t_fail t)
          | Some c => if reset then Some (t_fail t) else Some (t_with_task (if c then TNext else TSize) [] t)
          end
      | _ => None
      end
  | TaskNext sent =>
      (* 187-202 *)
      match t_task t with
      | TNext =>
          match t_queue t with
          | d :: q => let t' := mkT q (t_w t) (t_closed t) (t_task t) (t_error t) (t_log t) in
                      if sent then Some (t_with_task TTop [ESend (HData d false)] t') else Some (t_fail t')
          | [] => if t_open t then Some (t_with_task TIdle [] t) else Some (t_eos sent t)
          end
      | _ => None
      end
  | TaskSize =>
      (* 177, first half, and 184 *)
      match t_task t with
      | TSize => match t_queue t with [] => Some (t_with_task TFlag1 [EEmpty] t) | _ => Some (t_with_task TIdle [] t) end
      | _ => None
      end
  | TaskFlag sent =>
      (* 85-97, 177 second half, 178-184 *)
      match t_task t with
      | TFlag1 => if t_closed t then Some (t_eos sent t) else Some (t_with_task TFlag2 [] t)
      | TFlag2 => if t_closed t then Some (t_eos sent t) else Some (t_with_task TIdle [] t)
      | _ => None
      end
  | TaskDrop => match t_task t with TReturned _ => Some (mkT [] (t_w t) (t_closed t) TDropped (t_error t) (t_log t)) | _ => None end
  | TaskKill => match t_task t with TIdle => Some (mkT [] (t_w t) (t_closed t) TDropped (t_error t) (t_log t ++ [EKilled])) | _ => None end
  end.
(* An execution: actions of upgrade.rs 61-351 one after the other *)
Fixpoint t_run (t : tunnel) (l : list tact) : option tunnel :=
  match l with [] => Some t | a :: r => match t_step t a with Some t' => t_run t' r | None => None end end.

(* ---- Reading ---- *)
(* What h2's RecvStream yields: a data frame (and what is_end_stream says after
   it), an error with a reason, nothing yet; the end of the list: None *)
Inductive reason := NoError | Cancel | StreamClosed | OtherReason.
(* what RecvStream (external, polled at proto/h2/upgrade.rs 237) yields *)
Inductive xev := XData (d : bytes) (eos : bool) | XErr (r : reason) | XPending.
(* proto/h2/upgrade.rs 48-53: [k_buf] is buf; [k_released]: capacity given back,
   [k_recorded]: reported to the ping recorder *)
Record tread := mkK { k_buf : bytes; k_events : list xev; k_released : N; k_recorded : N }.
(* what poll_read (proto/h2/upgrade.rs 230) returns *)
Inductive kout := KOk (d : bytes) | KPending | KErr.
(* proto/h2/upgrade.rs 256-260 *)
Definition k_copy (room : N) (k : tread) : tread * kout :=
  let cnt := N.min (lenN (k_buf k)) room in
  (mkK (dropN cnt (k_buf k)) (k_events k) (k_released k + cnt) (k_recorded k), KOk (takeN cnt (k_buf k))).
(* proto/h2/upgrade.rs 236-255, the loop *)
Fixpoint k_fetch (room : N) (evs : list xev) (rel rec : N) : tread * kout :=
  match evs with
  | [] => (mkK [] [] rel rec, KOk [])
  | XPending :: r => (mkK [] r rel rec, KPending)
  | XErr NoError :: r | XErr Cancel :: r => (mkK [] r rel rec, KOk [])
  | XErr _ :: r => (mkK [] r rel rec, KErr)
  | XData d eos :: r => if (lenN d =? 0) && negb eos then k_fetch room r rel rec
                        else k_copy room (mkK d r rel (rec + lenN d))
  end.
(* proto/h2/upgrade.rs 230-261, poll_read *)
Definition k_read (room : N) (k : tread) : tread * kout :=
  if lenN (k_buf k) =? 0 then k_fetch room (k_events k) (k_released k) (k_recorded k) else k_copy room k.
(* Reads (upgrade.rs 229-262) one after the other *)
Fixpoint k_reads (rooms : list N) (k : tread) : tread * list kout :=
  match rooms with
  | [] => (k, [])
  | r :: rs => let (k1, o) := k_read r k in let (k2, os) := k_reads rs k1 in (k2, o :: os)
  end.
