(* What an application may expect of the OnUpgrade that came with a message
   (C71), in terms of what happened to the connection *)
From Verif Require Import Base M_Role M_Conn M_Upgrade.

(* What becomes of the n-th message that may become an upgrade: the transport is
   handed over, or the application is told to fetch it by itself, before another
   such message takes its place or the connection ends *)
Inductive fate := FUpgraded | FManual | FCanceled.
Fixpoint fate_in (ms : list umove) : option fate :=
  match ms with
  | [] => None
  | (MAsk | MEnd) :: _ => Some FCanceled
  | MFulfil :: _ => Some FUpgraded
  | MManual :: _ => Some FManual
  | _ :: r => fate_in r
  end.
Fixpoint after_ask (n : nat) (ms : list umove) : option (list umove) :=
  match ms with
  | [] => None
  | MAsk :: r => match n with O => Some r | S n => after_ask n r end
  | _ :: r => after_ask n r
  end.
Definition fate_of (n : nat) (ms : list umove) : option fate :=
  match after_ask n ms with Some r => fate_in r | None => None end.

(* A connection ends once, and hands over only what was asked for *)
Definition of_conn (m : umove) : bool := match m with MAsk | MFulfil | MManual | MEnd => true | _ => false end.
Definition ending (m : umove) : bool := match m with MFulfil | MManual | MEnd => true | _ => false end.
Definition proper (ms : list umove) : Prop := forall a m b, ms = a ++ m :: b -> ending m = true ->
  (m = MEnd \/ In MAsk a) /\ forall m', In m' b -> of_conn m' = false.
Definition asks (ms : list umove) : nat := length (filter (fun m => match m with MAsk => true | _ => false end) ms).

(* Someone has been given what was sent for the n-th *)
Definition is_given (r : upoll) : bool := match r with UOk | UManualErr => true | _ => false end.
Definition is_ok (r : upoll) : bool := match r with UOk => true | _ => false end.
Definition taken (n : nat) (seen : list (nat * option nat * upoll)) : bool :=
  existsb (fun e => match e with (_, Some k, r) => (k =? n)%nat && is_given r | _ => false end) seen.
(* What a poll gives *)
Definition expected (f : option fate) (taken : bool) : upoll :=
  match f with
  | None => UPending
  | Some FCanceled => UCanceled
  | Some FUpgraded => if taken then UPanic else UOk
  | Some FManual => if taken then UPanic else UManualErr
  end.

(* What a server's history says about its upgrades: every request that asks for one, and
   the end of the connection's future.  [auto]: it was built with with_upgrades. *)
Fixpoint course (auto shut : bool) (l : list levent) : list umove :=
  match l with
  | [] => []
  | LIn m :: r => (if in_upgrade m then [MAsk] else []) ++ course auto shut r
  | LShutdown :: r => course auto true r
  | LReturn None :: r => (if shut then MEnd else if auto then MFulfil else MManual) :: course auto shut r
  | LReturn (Some _) :: r => MEnd :: course auto shut r
  | _ :: r => course auto shut r
  end.
(* The future may also be dropped before it returns *)
Definition is_return (e : levent) : bool := match e with LReturn _ => true | _ => false end.
Definition of_history (auto : bool) (l : list levent) (us : list umove) : Prop :=
  filter of_conn us = course auto false l \/ (existsb is_return l = false /\ filter of_conn us = course auto false l ++ [MEnd]).
