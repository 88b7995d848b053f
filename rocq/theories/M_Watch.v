(* Models of the two wake-up cells, at the grain of their atomic operations:
   src/common/watch.rs, and UpgradedCloseNotify of src/proto/h2/upgrade.rs 67-98.
   Memory is sequentially consistent.  AtomicWaker (external) is taken by its
   contract: register and wake are atomic; wake takes the registered waker and
   wakes it. *)
From Verif Require Import Base.

(* What happened in common/watch.rs 50-73: the demand was changed from [old] to [new]; the waker of a task
   was registered; the waker registered (if any) was woken; the receiver read the
   value after registering [w]; it read the value without registering. *)
Inductive wev := WSwap (old new : N) | WReg (w : N) | WWake (w : option N) | WLoad (w v : N) | WPeek (v : N).
(* common/watch.rs 16 *)
Definition CLOSED : N := 0.
(* Where the sender and the receiver are inside their functions (common/watch.rs
   50-73) *)
Inductive spc := SReady | SWaking | SGone.
(* where the receiver is (common/watch.rs 65-73) *)
Inductive rpc := RReady | RLoading (w : N).
(* common/watch.rs 37-48.  [w_dropping]: the sender is being dropped. *)
Record watch := mkW { w_value : N; w_waker : option N; w_spc : spc; w_dropping : bool; w_rpc : rpc; w_log : list wev }.
(* common/watch.rs 18-35, channel *)
Definition w_channel (initial : N) : watch := mkW initial None SReady false RReady [].
(* Atomic steps.  ASend: the swap of send (common/watch.rs 52); ADrop: the same
   for drop (58-62); AWake: line 53; AReg and ALoad: the two lines of load (66-67);
   APeek: line 71. *)
Inductive wact := ASend (v : N) | ADrop | AWake | AReg (w : N) | ALoad | APeek.
(* common/watch.rs 51-72: None: the step is not possible here *)
Definition w_step (s : watch) (a : wact) : option watch :=
  match a, w_spc s, w_rpc s with
  | ASend v, SReady, _ =>
      Some (mkW v (w_waker s) (if w_value s =? v then SReady else SWaking) false (w_rpc s) (w_log s ++ [WSwap (w_value s) v]))
  | ADrop, SReady, _ =>
      Some (mkW CLOSED (w_waker s) (if w_value s =? CLOSED then SGone else SWaking) true (w_rpc s) (w_log s ++ [WSwap (w_value s) CLOSED]))
  | AWake, SWaking, _ =>
      Some (mkW (w_value s) None (if w_dropping s then SGone else SReady) (w_dropping s) (w_rpc s) (w_log s ++ [WWake (w_waker s)]))
  | AReg w, _, RReady => Some (mkW (w_value s) (Some w) (w_spc s) (w_dropping s) (RLoading w) (w_log s ++ [WReg w]))
  | ALoad, _, RLoading w => Some (mkW (w_value s) (w_waker s) (w_spc s) (w_dropping s) RReady (w_log s ++ [WLoad w (w_value s)]))
  | APeek, _, RReady => Some (mkW (w_value s) (w_waker s) (w_spc s) (w_dropping s) RReady (w_log s ++ [WPeek (w_value s)]))
  | _, _, _ => None
  end.
(* a sequence of such steps (common/watch.rs 50-73) *)
Fixpoint w_run (s : watch) (l : list wact) : option watch :=
  match l with
  | [] => Some s
  | a :: r => match w_step s a with Some s' => w_run s' r | None => None end
  end.

(* UpgradedCloseNotify (proto/h2/upgrade.rs 67-98).  What happened: closed was set; a registration; a wake; a
   poll started; a poll returned. *)
Inductive cev := CSet | CReg (w : N) | CWake (w : option N) | CPoll (w : N) | CPolled (w : N) (ready : bool).
(* proto/h2/upgrade.rs 67-78; [cn_closers]: how many close() calls have set the
   flag and not yet woken the task; positions in poll_closed: before the first
   load, before the registration, before the second load *)
Inductive ppc := PIdle | PLoad1 (w : N) | PReg (w : N) | PLoad2 (w : N).
(* proto/h2/upgrade.rs 67-78, UpgradedCloseNotify *)
Record cnotify := mkCN { cn_closed : bool; cn_waker : option N; cn_closers : N; cn_pc : ppc; cn_log : list cev }.
(* proto/h2/upgrade.rs 73-78, new *)
Definition cn_new : cnotify := mkCN false None 0 PIdle [].
(* Atomic steps of close (80-83: AClose, AWakeup) and poll_closed (85-97: AStart,
   then APoll for each of its three atomic operations) *)
Inductive cact := AClose | AWakeup | AStart (w : N) | APoll.
(* proto/h2/upgrade.rs 80-97: one atomic step *)
Definition cn_step (s : cnotify) (a : cact) : option cnotify :=
  match a, cn_pc s with
  | AClose, _ => Some (mkCN true (cn_waker s) (cn_closers s + 1) (cn_pc s) (cn_log s ++ [CSet]))
  | AWakeup, _ => if cn_closers s =? 0 then None
                  else Some (mkCN (cn_closed s) None (cn_closers s - 1) (cn_pc s) (cn_log s ++ [CWake (cn_waker s)]))
  | AStart w, PIdle => Some (mkCN (cn_closed s) (cn_waker s) (cn_closers s) (PLoad1 w) (cn_log s ++ [CPoll w]))
  | APoll, PLoad1 w =>
      if cn_closed s then Some (mkCN true (cn_waker s) (cn_closers s) PIdle (cn_log s ++ [CPolled w true]))
      else Some (mkCN false (cn_waker s) (cn_closers s) (PReg w) (cn_log s))
  | APoll, PReg w => Some (mkCN (cn_closed s) (Some w) (cn_closers s) (PLoad2 w) (cn_log s ++ [CReg w]))
  | APoll, PLoad2 w => Some (mkCN (cn_closed s) (cn_waker s) (cn_closers s) PIdle (cn_log s ++ [CPolled w (cn_closed s)]))
  | _, _ => None
  end.
(* a sequence of such steps (proto/h2/upgrade.rs 80-97) *)
Fixpoint cn_run (s : cnotify) (l : list cact) : option cnotify :=
  match l with
  | [] => Some s
  | a :: r => match cn_step s a with Some s' => cn_run s' r | None => None end
  end.
