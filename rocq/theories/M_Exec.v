(* Model of the executor of the C interface, src/ffi/task.rs 54-340, and of its
   tasks' values, 344-437 and 464-509.

   FuturesUnordered (external, crate futures-util) is taken by its contract: it
   holds futures; a queue of those that are to be polled; push puts the new future
   into the queue; poll_next registers the caller's waker, takes the futures out of
   the queue one after the other and polls each with a waker of its own; it returns
   the output of the first that is ready, Ready(None) if it holds no future, Pending
   if the queue is empty; it gives up its turn (wakes the caller, returns Pending)
   after as many polls as it held futures, or after two futures that were woken
   while they were polled.  Waking a future that is not in the queue puts it there
   and then wakes the registered waker: two atomic steps.  Wakers of futures that
   are gone do nothing.  Memory is sequentially consistent.  The executor is used
   as its documentation demands: hyper_executor_poll is called by one thread at a
   time and not from inside a task. *)
From Verif Require Import Base.

(* What happened (ffi/task.rs 185-340): a task was pushed; the wake of a task began,
   was over; hyper_executor_poll was called; a task was polled; the spawn queue was
   looked at; the call returned a task with an output, returned NULL; a task
   panicked; the executor was freed with these tasks; the process was aborted. *)
Inductive fxev :=
  FPush (id : N) | FWake (id : N) | FWoken (id : N) | FCall | FPoll (id : N) | FDrain | FReturn (id v : N) | FNull
| FPanic (id : N) | FFree (ids : list N) | FAbort.

(* Where the thread that polls is in poll_next (ffi/task.rs 205-238): outside; before
   line 207; in the driver's poll_next (213-221: polls so far, woken ones among
   them, futures at its start); before line 226; before line 232; the executor is
   gone; the process is gone *)
Inductive fxpc := XIdle | XDrain1 | XPoll (polled yielded len : N) | XDrain2 | XSwap | XGone | XAbort.

(* ffi/task.rs 54-73 (spawn_queue, the driver's futures and its queue, is_woken); the
   two mutexes may be poisoned; [fx_half]: futures whose wake has put them into the
   queue and has not yet woken the registered waker.  Tasks are numbered in the order
   of their pushes. *)
Record fx := mkFX { fx_queue : list N; fx_driver : list N; fx_ready : list N; fx_flag : bool; fx_half : list N; fx_pc : fxpc;
  fx_next : N; fx_bad_driver : bool; fx_bad_queue : bool; fx_log : list fxev }.
(* ffi/task.rs 186-192, new *)
Definition fx_new : fx := mkFX [] [] [] false [] XIdle 0 false false [].

(* fields of ffi/task.rs 54-73 *)
Definition fx_set_pc (s : fx) (p : fxpc) : fx :=
  mkFX (fx_queue s) (fx_driver s) (fx_ready s) (fx_flag s) (fx_half s) p (fx_next s) (fx_bad_driver s) (fx_bad_queue s) (fx_log s).
(* ffi/task.rs 54-73, is_woken *)
Definition fx_set_flag (s : fx) (b : bool) : fx :=
  mkFX (fx_queue s) (fx_driver s) (fx_ready s) b (fx_half s) (fx_pc s) (fx_next s) (fx_bad_driver s) (fx_bad_queue s) (fx_log s).
(* ffi/task.rs 54-73, the driver *)
Definition fx_set_driver (s : fx) (d r : list N) : fx :=
  mkFX (fx_queue s) d r (fx_flag s) (fx_half s) (fx_pc s) (fx_next s) (fx_bad_driver s) (fx_bad_queue s) (fx_log s).
(* events, ffi/task.rs 185-340 *)
Definition fx_note (s : fx) (l : list fxev) : fx :=
  mkFX (fx_queue s) (fx_driver s) (fx_ready s) (fx_flag s) (fx_half s) (fx_pc s) (fx_next s) (fx_bad_driver s) (fx_bad_queue s) (fx_log s ++ l).
(* a lookup in the driver or its queue (contract of FuturesUnordered, used at ffi/task.rs 217 and 251) *)
Definition fx_in (id : N) (l : list N) : bool := existsb (N.eqb id) l.
(* the driver lets a future go (ffi/task.rs 217, 378-385) *)
Definition fx_without (id : N) (l : list N) : list N := filter (fun x => negb (x =? id)) l.
(* the same for one occurrence (ffi/task.rs 217, 378-385) *)
Fixpoint fx_drop1 (id : N) (l : list N) : list N :=
  match l with
  | [] => []
  | x :: r => if x =? id then r else x :: fx_drop1 id r
  end.

(* ffi/task.rs 198-203, spawn, from hyper_executor_push (314-319) or from
   WeakExec::execute (277-281).  A poisoned mutex panics: hyper_executor_push then
   aborts the process (macros.rs 1-20; the functions without a value after ?=). *)
Definition fx_push (s : fx) : fx :=
  if fx_bad_queue s then fx_note (fx_set_pc s XAbort) [FAbort]
  else mkFX (fx_queue s ++ [fx_next s]) (fx_driver s) (fx_ready s) (fx_flag s) (fx_half s) (fx_pc s) (fx_next s + 1)
         (fx_bad_driver s) (fx_bad_queue s) (fx_log s ++ [FPush (fx_next s)]).
(* Waker::wake of a task on the polling thread, from beginning to end
   (ffi/task.rs 259-261 wakes the executor) *)
Definition fx_wake (s : fx) (id : N) : fx :=
  if fx_in id (fx_driver s) then
    let s := fx_note s [FWake id; FWoken id] in
    if fx_in id (fx_ready s) then s
    else fx_set_flag (fx_set_driver s (fx_driver s) (fx_ready s ++ [id])) true
  else s.
(* ... and on another thread: the first step (hyper_waker_wake, ffi/task.rs 558-561) *)
Definition fx_wake_begin (s : fx) (id : N) : fx :=
  if fx_in id (fx_driver s) then
    if fx_in id (fx_ready s) then fx_note s [FWake id; FWoken id]
    else
      let s := fx_note (fx_set_driver s (fx_driver s) (fx_ready s ++ [id])) [FWake id] in
      mkFX (fx_queue s) (fx_driver s) (fx_ready s) (fx_flag s) (fx_half s ++ [id]) (fx_pc s) (fx_next s) (fx_bad_driver s) (fx_bad_queue s) (fx_log s)
  else s.
(* the second step: wake_by_ref of the executor (ffi/task.rs 259-261) *)
Definition fx_wake_end (s : fx) (id : N) : fx :=
  if fx_in id (fx_half s) then
    let s := fx_note s [FWoken id] in
    mkFX (fx_queue s) (fx_driver s) (fx_ready s) true (fx_drop1 id (fx_half s)) (fx_pc s) (fx_next s) (fx_bad_driver s) (fx_bad_queue s) (fx_log s)
  else s.

(* What a task does when it is polled (ffi/task.rs 368-389): spawns, wakes, and its
   answer; a panic comes out of poll_next and is turned into NULL (macros.rs 1-20) *)
Inductive tact := TSpawn | TWake (id : N).
(* ffi/task.rs 368-389: the answer of a task *)
Inductive tres := TPending | TDone (v : N) | TPanic.
(* ffi/task.rs 368-389: what a task does and its answer *)
Record tpoll := mkTP { tp_acts : list tact; tp_res : tres }.
(* ffi/task.rs 277-281 (spawn from inside a task), 259-261 *)
Definition fx_act (s : fx) (a : tact) : fx := match a with TSpawn => fx_push s | TWake id => fx_wake s id end.

(* NULL is returned (ffi/task.rs 236, 337) *)
Definition fx_null (s : fx) : fx := fx_note (fx_set_pc s XIdle) [FNull].
(* the driver's poll_next begins (ffi/task.rs 217) *)
Definition fx_begin (s : fx) : fx := fx_set_pc s (XPoll 0 0 (lenN (fx_driver s))).
(* ffi/task.rs 242-255, drain_queue.  None: it panics because the driver's mutex is
   poisoned; then the queue's mutex is poisoned too. *)
Definition fx_drain (s : fx) : option (fx * bool) :=
  match fx_queue s with
  | [] => Some (fx_note s [FDrain], false)
  | q => if fx_bad_driver s then None
         else Some (fx_note (mkFX [] (fx_driver s ++ q) (fx_ready s ++ q) (fx_flag s) (fx_half s) (fx_pc s) (fx_next s) (fx_bad_driver s) (fx_bad_queue s) (fx_log s)) [FDrain], true)
  end.
(* ffi/task.rs 242-255: the mutex of the queue after the panic *)
Definition fx_poison_queue (s : fx) : fx :=
  mkFX (fx_queue s) (fx_driver s) (fx_ready s) (fx_flag s) (fx_half s) (fx_pc s) (fx_next s) (fx_bad_driver s) true (fx_log s).
(* ffi/task.rs 216: the mutex of the driver after a task's panic *)
Definition fx_poison_driver (s : fx) : fx :=
  mkFX (fx_queue s) (fx_driver s) (fx_ready s) (fx_flag s) (fx_half s) (fx_pc s) (fx_next s) true (fx_bad_queue s) (fx_log s).

(* One step of hyper_executor_poll (ffi/task.rs 205-238).  [p]: what the task does
   that is polled in this step, if one is. *)
Definition fx_step (s : fx) (p : tpoll) : fx :=
  match fx_pc s with
  | XDrain1 =>
      if fx_bad_queue s then fx_null s
      else match fx_drain s with
           | None => fx_null (fx_poison_queue s)
           | Some (s, _) => if fx_bad_driver s then fx_null s else fx_begin s
           end
  | XPoll polled yielded len =>
      match fx_ready s with
      | [] => match fx_driver s with
              | [] => fx_null s
              | _ => fx_set_pc s XDrain2
              end
      | id :: r =>
          if fx_in id (fx_driver s) then
            let s := fx_note (fx_set_driver s (fx_driver s) r) [FPoll id] in
            let s := fold_left fx_act (tp_acts p) s in
            match tp_res p with
            | TDone v => fx_note (fx_set_pc (fx_set_driver s (fx_without id (fx_driver s)) (fx_ready s)) XIdle) [FReturn id v]
            | TPanic => fx_null (fx_poison_driver (fx_note (fx_set_driver s (fx_without id (fx_driver s)) (fx_ready s)) [FPanic id]))
            | TPending =>
                let yielded := yielded + (if fx_in id (fx_ready s) then 1 else 0) in
                let polled := polled + 1 in
                if (2 <=? yielded) || (polled =? len) then fx_set_pc (fx_set_flag s true) XDrain2
                else fx_set_pc s (XPoll polled yielded len)
            end
          else fx_set_driver s (fx_driver s) r
      end
  | XDrain2 =>
      match fx_drain s with
      | None => fx_null (fx_poison_queue s)
      | Some (s, true) => fx_begin s
      | Some (s, false) => fx_set_pc s XSwap
      end
  | XSwap => if fx_flag s then fx_begin (fx_set_flag s false) else fx_null s
  | _ => s
  end.

(* Moves: a step of the polling thread; hyper_executor_poll is called (ffi/task.rs
   333-339); a push or a wake by other threads, or by this one outside of the call;
   hyper_executor_free (298-300; WeakExec does nothing after that, 278). *)
Inductive fxmove := XStep (p : tpoll) | XCall | XPush | XWake (id : N) | XWakeDone (id : N) | XFree.
(* ffi/task.rs 185-340 *)
Definition fx_move (m : fxmove) (s : fx) : fx :=
  match fx_pc s with
  | XGone | XAbort => s
  | _ =>
      match m with
      | XStep p => fx_step s p
      | XCall => match fx_pc s with XIdle => fx_note (fx_set_pc s XDrain1) [FCall] | _ => s end
      | XPush => fx_push s
      | XWake id => fx_wake_begin s id
      | XWakeDone id => fx_wake_end s id
      | XFree => match fx_pc s with
                 | XIdle => fx_note (mkFX [] [] [] (fx_flag s) (fx_half s) XGone (fx_next s) (fx_bad_driver s) (fx_bad_queue s) (fx_log s)) [FFree (fx_queue s ++ fx_driver s)]
                 | _ => s
                 end
      end
  end.
(* ffi/task.rs 185-340 *)
Fixpoint fx_run (ms : list fxmove) (s : fx) : fx :=
  match ms with
  | [] => s
  | m :: r => fx_run r (fx_move m s)
  end.

(* ---- Values of tasks ---- *)
(* The types of outputs (ffi/task.rs 162-173) *)
Inductive rtype := TyEmpty | TyError | TyClientconn | TyResponse | TyBuf.
(* What a task's future gives: (), an Error, a hyper_clientconn, a hyper_response, a
   hyper_buf, with their contents; a Result or an Option of such (ffi/task.rs
   464-509; client.rs 172, http_types.rs 423, body.rs 298) *)
Inductive tout := OUnit | OErr (n : N) | OConn (n : N) | OResp (n : N) | OBuf (n : N) | OOk (o : tout) | OFail (n : N) | OSome (o : tout) | ONone.
(* A boxed value (ffi/task.rs 115-119, BoxAny): its type, its content if it has any; () has none *)
Record boxed := mkBx { bx_type : rtype; bx_value : option N }.
(* ffi/task.rs 478-509, into_dyn_task_type *)
Fixpoint into_dyn (o : tout) : boxed :=
  match o with
  | OUnit => mkBx TyEmpty None
  | OErr n => mkBx TyError (Some n)
  | OConn n => mkBx TyClientconn (Some n)
  | OResp n => mkBx TyResponse (Some n)
  | OBuf n => mkBx TyBuf (Some n)
  | OOk o => into_dyn o
  | OFail n => mkBx TyError (Some n)
  | OSome o => into_dyn o
  | ONone => mkBx TyEmpty None
  end.
(* ffi/task.rs 115-119: the output of a task *)
Definition task := option boxed.
(* ffi/task.rs 357-362 and 433-437, output_type *)
Definition task_type (t : task) : rtype := match t with None => TyEmpty | Some b => bx_type b end.
(* ffi/task.rs 414-428, hyper_task_value: the task afterwards, and the pointer (None:
   NULL, which also stands for values without content) *)
Definition task_value (t : task) : task * option N := match t with None => (None, None) | Some b => (None, bx_value b) end.
