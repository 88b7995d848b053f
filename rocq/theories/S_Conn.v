(* Spec: what may happen on a connection, in which order.  Two small automata
   over the log of a connection, one for each side, and counting functions. *)
From Verif Require Import Base M_Headers M_Role M_Conn.

(* One message of the exchange that comes in, and one that goes out. *)
Inductive inside := INone | IOpen (m : inmsg) | IDone (m : inmsg) | IBroken (m : inmsg).
Inductive outside := ONone | OStarted | ODone | OBroken.

(* The state of the exchange.  [x_continue]: a 100 Continue has been sent for
   it; [x_want]: the application has asked for the body; [x_over]: an automatic
   error response was written, nothing may follow. *)
Record exch := mkX { x_in : inside; x_out : outside; x_continue : bool; x_want : bool; x_over : bool }.
Definition x_start : exch := mkX INone ONone false false false.

(* Nothing is going on: no message yet, or both messages are complete. *)
Definition at_rest (x : exch) : bool :=
  match x_in x, x_out x with
  | INone, ONone => true
  | IDone _, ODone => true
  | _, _ => false
  end.

(* The parts of the rules that both sides share: the rest of a message follows
   its head. *)
Definition x_common (x : exch) (e : levent) : option exch :=
  let '(mkX i o k w ov) := x in
  match e with
  | LInData _ | LInTrailers _ => match i with IOpen _ => Some x | _ => None end
  | LInEnd => match i with IOpen m => Some (mkX (IDone m) o k w ov) | _ => None end
  | LInError _ => match i with IOpen m => Some (mkX (IBroken m) o k w ov) | _ => None end
  | LWant => match i with IOpen _ => Some (mkX i o k true ov) | _ => None end
  | LBody _ => match o with OStarted => Some x | _ => None end
  | LEnd => match o with OStarted => Some (mkX i ODone k w ov) | _ => None end
  | LAbort => match o with OStarted => Some (mkX i OBroken k w ov) | _ => None end
  | LIn _ | LHead _ _ _ | LHeadFail _ | LContinue => None
  | _ => Some x
  end.

(* A server: a request head may come in when nothing is going on; its response
   head goes out once, after it; a 100 Continue goes out at most once, for an
   HTTP/1.1 request with a body that expects it, after the application has asked
   for the body and before the response head.  An automatic error response
   (LHead true) goes out instead of a request coming in, and ends everything.
   LHeadFail: a head that could not be encoded, in the same places. *)
Definition x_server (x : exch) (e : levent) : option exch :=
  let '(mkX i o k w ov) := x in
  match e with
  | LIn m => if at_rest x && negb ov then Some (mkX (IOpen m) ONone false false false) else None
  | LHead true _ _ => if at_rest x && negb ov then Some (mkX i OStarted k w true) else None
  | LHead false _ _ => match i, o with
                       | INone, _ => None
                       | _, ONone => if ov then None else Some (mkX i OStarted k w ov)
                       | _, _ => None
                       end
  | LHeadFail _ => if at_rest x && negb ov then Some (mkX i OBroken k w true)
                   else match i, o with
                        | INone, _ => None
                        | _, ONone => if ov then None else Some (mkX i OBroken k w ov)
                        | _, _ => None
                        end
  | LContinue => match i, o with
                 | IOpen m, ONone =>
                     if in_expect m && after_http10 (in_version m) && negb k && w
                     then Some (mkX i o true w ov) else None
                 | _, _ => None
                 end
  | _ => x_common x e
  end.

(* A client: a request head may go out when nothing is going on; one response
   head comes in after it. *)
Definition x_client (x : exch) (e : levent) : option exch :=
  let '(mkX i o k w ov) := x in
  match e with
  | LHead false _ _ => if at_rest x then Some (mkX INone OStarted false false false) else None
  | LHeadFail _ => if at_rest x then Some (mkX INone OBroken false false false) else None
  | LIn m => match i, o with
             | INone, ONone => None
             | INone, _ => Some (mkX (IOpen m) o k false ov)
             | _, _ => None
             end
  | LHead true _ _ | LContinue => None
  | _ => x_common x e
  end.

Fixpoint x_run (f : exch -> levent -> option exch) (x : exch) (l : list levent) : option exch :=
  match l with
  | [] => Some x
  | e :: r => match f x e with Some x => x_run f x r | None => None end
  end.

(* The log of a server (client) connection follows the rules. *)
Definition server_ok (l : list levent) : Prop := x_run x_server x_start l <> None.
Definition client_ok (l : list levent) : Prop := x_run x_client x_start l <> None.

(* Counting events *)
Definition is_LIn (e : levent) : bool := match e with LIn _ => true | _ => false end.
Definition is_LHead (e : levent) : bool := match e with LHead _ _ _ | LHeadFail _ => true | _ => false end.
Definition is_LAuto (e : levent) : bool := match e with LHead true _ _ => true | _ => false end.
Definition count (f : levent -> bool) (l : list levent) : nat := length (filter f l).

(* The last message head that came in *)
Fixpoint last_in (acc : option inmsg) (l : list levent) : option inmsg :=
  match l with
  | [] => acc
  | LIn m :: r => last_in (Some m) r
  | _ :: r => last_in acc r
  end.
