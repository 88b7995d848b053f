(* Spec: what header fields say about message framing and persistence.
   Written from RFC 9110/9112, over raw header lines (name in any case, value). *)
From Verif Require Import Base.

Definition line : Type := (bytes * bytes)%type.

(* The values of the field called [n] (lower case), in order. *)
Definition field_values (n : bytes) (lines : list line) : list bytes :=
  map snd (filter (fun l => beq (lower (fst l)) n) lines).
Definition te_values := field_values (B "transfer-encoding").
Definition cl_lines := field_values (B "content-length").

(* Values made of visible ASCII, blanks and tabs. *)
Definition text (v : bytes) : Prop := Forall (fun b => b = 9 \/ (32 <= b /\ b <= 126)) v.
Definition blanks (v : bytes) : Prop := Forall (fun b => b = 32 \/ b = 9) v.

(* [e] is a member of the comma-separated list [v]: [v] cut at commas, blanks
   around removed, compared without regard to letter case. *)
Definition list_member (v e : bytes) : Prop :=
  exists p w1 t w2 q, v = p ++ w1 ++ t ++ w2 ++ q /\
    (p = [] \/ exists p', p = p' ++ [44]) /\ (q = [] \/ exists q', q = 44 :: q') /\
    blanks w1 /\ blanks w2 /\ ~ In 44 t /\ lower t = e.
(* ... the last member. *)
Definition last_member (v e : bytes) : Prop :=
  exists p w1 t w2, v = p ++ w1 ++ t ++ w2 /\
    (p = [] \/ exists p', p = p' ++ [44]) /\
    blanks w1 /\ blanks w2 /\ ~ In 44 t /\ lower t = e.

(* A Content-Length value: one or more digits, read as a decimal number. *)
Definition digit (b : N) : Prop := 48 <= b /\ b <= 57.
Definition dec_num (ds : bytes) : N := fold_left (fun n d => 10 * n + (d - 48)) ds 0.
Definition cl_means (v : bytes) (n : N) : Prop := v <> [] /\ Forall digit v /\ dec_num v = n.
(* Lengths hyper supports: below 2^64 - 2. *)
Definition supported_length (n : N) : Prop := n < 2 ^ 64 - 2.

(* How a body is delimited. *)
Inductive framing := FLength (n : N) | FChunked | FClose.

(* Is "chunked" the final transfer coding of these Transfer-Encoding values? *)
Definition final_chunked (tes : list bytes) : Prop :=
  exists ini v, tes = ini ++ [v] /\ text v /\ last_member v (B "chunked").

(* The header lines before the first Transfer-Encoding line. *)
Fixpoint before_te (lines : list line) : list line :=
  match lines with
  | [] => []
  | l :: r => if beq (lower (fst l)) (B "transfer-encoding") then [] else l :: before_te r
  end.

(* Content-Length lines that agree on a supported length. *)
Definition cls_agree (cls : list bytes) (n : N) : Prop :=
  supported_length n /\ Forall (fun v => cl_means v n) cls.

(* The body of a request, RFC 9112 6.3, as strict as hyper is:
   Content-Length lines that come after a Transfer-Encoding line are ignored. *)
Definition request_framing (http11 : bool) (lines : list line) (f : framing) : Prop :=
  (te_values lines <> [] /\ http11 = true /\ final_chunked (te_values lines) /\
     (exists n, cls_agree (cl_lines (before_te lines)) n) /\ f = FChunked)
  \/ (te_values lines = [] /\ cl_lines lines <> [] /\ exists n, cls_agree (cl_lines lines) n /\ f = FLength n)
  \/ (te_values lines = [] /\ cl_lines lines = [] /\ f = FLength 0).

(* A response may list several lengths in one line, with blanks: each member
   must be the same supported length. *)
Definition cl_list_means (cls : list bytes) (n : N) : Prop :=
  cls <> [] /\ Forall text cls /\
  forall v p t q, In v cls -> v = p ++ t ++ q -> ~ In 44 t ->
    (p = [] \/ exists p', p = p' ++ [44]) -> (q = [] \/ exists q', q = 44 :: q') ->
    exists w1 d w2, t = w1 ++ d ++ w2 /\ blanks w1 /\ blanks w2 /\ cl_means d n.

(* The body of a response, RFC 9112 6.3.  Tunnels (101, 2xx to CONNECT) have
   an empty body and turn the connection over. *)
Inductive response_outcome :=
| RSkip                                   (* an interim response: another head follows *)
| RBody (f : framing) (upgrade : bool)
| RBad.
Inductive body_framing (http10 : bool) (tes cls : list bytes) : response_outcome -> Prop :=
| bf_te10 : tes <> [] -> http10 = true -> body_framing http10 tes cls RBad
| bf_chunked : tes <> [] -> http10 = false -> final_chunked tes -> body_framing http10 tes cls (RBody FChunked false)
| bf_other : tes <> [] -> http10 = false -> ~ final_chunked tes -> body_framing http10 tes cls (RBody FClose false)
| bf_length n : tes = [] -> supported_length n -> cl_list_means cls n -> body_framing http10 tes cls (RBody (FLength n) false)
| bf_bad : tes = [] -> cls <> [] -> (forall n, supported_length n -> ~ cl_list_means cls n) -> body_framing http10 tes cls RBad
| bf_close : tes = [] -> cls = [] -> body_framing http10 tes cls (RBody FClose false).
Inductive response_framing (http10 : bool) (status : N) (method : option bytes) (tes cls : list bytes)
  : response_outcome -> Prop :=
| rf_switch : status = 101 -> response_framing http10 status method tes cls (RBody (FLength 0) true)
| rf_interim : 100 <= status < 200 -> status <> 101 -> response_framing http10 status method tes cls RSkip
| rf_nobody : status = 204 \/ status = 304 -> response_framing http10 status method tes cls (RBody (FLength 0) false)
| rf_head : ~ 100 <= status < 200 -> method = Some (B "HEAD") ->
    response_framing http10 status method tes cls (RBody (FLength 0) false)
| rf_connect : 200 <= status < 300 -> status <> 204 -> method = Some (B "CONNECT") ->
    response_framing http10 status method tes cls (RBody (FLength 0) true)
| rf_body o :
    ~ 100 <= status < 200 -> status <> 204 -> status <> 304 -> method <> Some (B "HEAD") ->
    ~ (method = Some (B "CONNECT") /\ 200 <= status < 300) ->
    body_framing http10 tes cls o ->
    response_framing http10 status method tes cls o.

(* Persistence.  A message asks to close, or asks to keep alive. *)
Definition asks (opt : bytes) (lines : list line) : Prop :=
  exists v, In v (field_values (B "connection") lines) /\ text v /\ list_member v opt.
