(* What a request asks of the server, from its lines (for C69). *)
From Verif Require Import Base S_Framing.

(* It waits for 100 Continue before it sends its body: the last Expect line says
   so (RFC 9110 10.1.1) *)
Definition says_continue (lines : list line) : Prop :=
  exists before v, field_values (B "expect") lines = before ++ [v] /\ lower v = B "100-continue".
(* It asks for the connection to be used for something else: by the method
   CONNECT, or by an Upgrade line, which HTTP/1.0 does not have (RFC 9110 7.8, 9.3.6) *)
Definition asks_tunnel (http11 : bool) (method : bytes) (lines : list line) : Prop :=
  match field_values (B "upgrade") lines with
  | [] => method = B "CONNECT"
  | _ => http11 = true
  end.
