(* Spec: the requests of a client connection in the log.  Requests are numbered
   in the order in which the connection accepted them. *)
From Verif Require Import Base M_Headers M_Role M_Conn S_Conn.

(* How often request [id] was answered *)
Definition is_outcome (id : N) (e : levent) : bool := match e with LOutcome j _ => j =? id | _ => false end.
Definition outcomes (id : N) (l : list levent) : nat := count (is_outcome id) l.
(* The answers that come from the peer or from the exchange *)
Definition answered (o : outcome) : bool := match o with OResp _ | OError _ => true | _ => false end.
(* The request taken from the channel last *)
Fixpoint last_start (acc : option N) (l : list levent) : option N :=
  match l with
  | [] => acc
  | LStart id :: r => last_start (Some id) r
  | _ :: r => last_start acc r
  end.
(* The bytes that an event puts into the write buffer *)
Definition puts (e : levent) : option bytes :=
  match e with
  | LHead _ _ b | LHeadFail b | LBody b => Some b
  | LContinue => Some (B "HTTP/1.1 100 Continue" ++ [13; 10; 13; 10])
  | _ => None
  end.
(* All that was written for request [id]: after it was taken from the channel
   and before the next one was *)
Fixpoint written_for (id : N) (cur : option N) (l : list levent) : bytes :=
  match l with
  | [] => []
  | LStart j :: r => written_for id (Some j) r
  | e :: r => match puts e, cur with
              | Some b, Some j => (if j =? id then b else []) ++ written_for id cur r
              | _, _ => written_for id cur r
              end
  end.

(* All that was put into the write buffer, and all that the transport took *)
Fixpoint queued (l : list levent) : bytes :=
  match l with
  | [] => []
  | e :: r => match puts e with Some b => b | None => [] end ++ queued r
  end.
Fixpoint taken (l : list levent) : bytes :=
  match l with
  | [] => []
  | LSent b :: r => b ++ taken r
  | _ :: r => taken r
  end.
(* Heads that the connection writes of its own accord: 100 Continue and
   automatic error responses *)
Definition unasked (e : levent) : bool := match e with LHead true _ _ | LContinue => true | _ => false end.
