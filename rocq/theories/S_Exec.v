(* What is expected of an executor, in terms of what happened (for C73). *)
From Verif Require Import Base M_Exec.

(* The life of one task: not there, there, over *)
Inductive life := LNew | LLive | LOver.
Definition life_step (id : N) (st : life) (e : fxev) : option life :=
  match e with
  | FPush i => if i =? id then match st with LNew => Some LLive | _ => None end else Some st
  | FPoll i => if i =? id then match st with LLive => Some LLive | _ => None end else Some st
  | FReturn i _ | FPanic i => if i =? id then match st with LLive => Some LOver | _ => None end else Some st
  | FWake i => if i =? id then match st with LLive => Some LLive | _ => None end else Some st
  | FFree ids => if fx_in id ids then match st with LLive => Some LOver | _ => None end else Some st
  | _ => Some st
  end.
Fixpoint life_run (id : N) (st : life) (l : list fxev) : option life :=
  match l with
  | [] => Some st
  | e :: r => match life_step id st e with Some st' => life_run id st' r | None => None end
  end.
(* A task is due if it has been pushed or woken and has not been polled since *)
Definition due_step (id : N) (b : bool) (e : fxev) : bool :=
  match e with
  | FPush i | FWake i => if i =? id then true else b
  | FPoll i | FReturn i _ | FPanic i => if i =? id then false else b
  | FFree ids => if fx_in id ids then false else b
  | _ => b
  end.
Definition due (id : N) (l : list fxev) : bool := fold_left (due_step id) l false.
(* A wake of the task has begun and is not over *)
Definition begun (id : N) (e : fxev) : bool := match e with FWake i => i =? id | _ => false end.
Definition ended (id : N) (e : fxev) : bool := match e with FWoken i => i =? id | _ => false end.
Definition count_ev (f : fxev -> bool) (l : list fxev) : nat := length (filter f l).
Definition waking (id : N) (l : list fxev) : Prop := (count_ev (ended id) l < count_ev (begun id) l)%nat.
(* The task has been pushed since the spawn queue was last looked at *)
Definition fresh_step (id : N) (b : bool) (e : fxev) : bool :=
  match e with FPush i => if i =? id then true else b | FDrain => false | _ => b end.
Definition fresh (id : N) (l : list fxev) : bool := fold_left (fresh_step id) l false.
(* No task has panicked *)
Definition calm (l : list fxev) : Prop := forall id, ~ In (FPanic id) l.
(* A poll in which the task neither spawns nor wakes *)
Definition quiet_poll (p : tpoll) : Prop := tp_acts p = [].
(* What the C side is promised for the output of a future: the type, and the value
   unless there is none *)
Inductive gives : tout -> rtype -> option N -> Prop :=
| gives_unit : gives OUnit TyEmpty None
| gives_none : gives ONone TyEmpty None
| gives_err n : gives (OErr n) TyError (Some n)
| gives_fail n : gives (OFail n) TyError (Some n)
| gives_conn n : gives (OConn n) TyClientconn (Some n)
| gives_resp n : gives (OResp n) TyResponse (Some n)
| gives_buf n : gives (OBuf n) TyBuf (Some n)
| gives_ok o t v : gives o t v -> gives (OOk o) t v
| gives_some o t v : gives o t v -> gives (OSome o) t v.
