(* Spec vocabulary for C66: what the heads mean that a connection was given. *)
From Verif Require Import Base M_HeaderMap M_Headers M_Role M_RoleEncode M_Read M_Conn M_Parse S_Chunked S_Framing S_Inbound.

(* What httparse promises: a complete head has at least one byte, and what it says
   about it depends on the bytes of that head only. *)
Definition hp_ok (o : hparse) : Prop :=
  (forall x n q, h_request o x = HComplete n q -> 0 < n <= lenN x /\ forall z, h_request o (takeN n x ++ z) = HComplete n q) /\
  (forall x n a, h_response o x = HComplete n a -> 0 < n <= lenN x /\ forall z, h_response o (takeN n x ++ z) = HComplete n a).
(* ... and that it finds no more lines than there is room for. *)
Definition hp_room (o : hparse) (max : N) : Prop :=
  (forall x n q, h_request o x = HComplete n q -> lenN (q_lines q) <= max) /\
  (forall x n a, h_response o x = HComplete n a -> lenN (a_lines a) <= max).

(* The bytes [w] stand for this body, when it is delimited in this way. *)
Definition framed (c : cfg) (f : framing) (w data : bytes) (t : option hmap) : Prop :=
  match f with
  | FChunked => exists b, w = render b /\ valid b /\ within_limits 16384 (max_lines c) 16384 b /\ data = body_data b /\
      match trailer_block (cb_trailers b) with
      | None => t = None
      | Some block => t = c_dt c block (lenN (cb_trailers b)) /\ t <> None
      end
  | FLength n => data = w /\ t = None /\ lenN w = n
  | FClose => data = w /\ t = None
  end.

(* The bytes [w] are exactly one request head, [q] *)
Definition is_request (o : hparse) (w : bytes) (q : hp_request) : Prop := forall z, h_request o (w ++ z) = HComplete (lenN w) q.
Definition is_response (o : hparse) (w : bytes) (a : hp_response) : Prop := forall z, h_response o (w ++ z) = HComplete (lenN w) a.

(* The bytes [w] are one request: head and body, the body as the lines of the head say. *)
Definition request_wire (c : cfg) (o : hparse) (w : bytes) (g : message) : Prop :=
  exists head body q f, w = head ++ body /\ is_request o head q /\
    in_version (msg_head g) = (if q_minor1 q then HTTP11 else HTTP10) /\ in_method (msg_head g) = Some (q_method q) /\
    (forall n, n <> B "content-length" -> hm_get_all (in_headers (msg_head g)) n = field_values n (q_lines q)) /\
    request_framing (q_minor1 q) (q_lines q) f /\ framed c f body (msg_data g) (msg_trailers g).

(* Folded lines are unfolded, if that is allowed. *)
Definition unfolded (o : hparse) (lines lines' : list line) : Prop :=
  if h_fold o then Forall2 (fun l l' => fst l' = fst l /\ obs_fold_line (snd l) = Some (snd l')) lines lines' else lines' = lines.
(* The bytes [w] are one interim response (1xx other than 101) *)
Definition interim_head (o : hparse) (w : bytes) (i : interim) : Prop :=
  exists a lines, is_response o w a /\ 100 <= a_code a < 200 /\ a_code a <> 101 /\ unfolded o (a_lines a) lines /\
    i_status i = a_code a /\ i_version i = (if a_minor1 a then HTTP11 else HTTP10) /\
    (forall n, hm_get_all (i_headers i) n = field_values n lines).
(* The bytes [w] are the head of a response to a request with this method; its
   lines say that the body is delimited as [f]. *)
Definition final_head (o : hparse) (method : option bytes) (w : bytes) (m : inmsg) (f : framing) : Prop :=
  exists a lines, is_response o w a /\ 100 <= a_code a <= 999 /\ unfolded o (a_lines a) lines /\
    in_status m = a_code a /\ in_version m = (if a_minor1 a then HTTP11 else HTTP10) /\
    (forall n, hm_get_all (in_headers m) n = field_values n lines) /\
    response_framing (negb (a_minor1 a)) (a_code a) method (te_values lines) (cl_lines lines) (RBody f (in_upgrade m)).
(* A response of HTTP/0.9 has no head: httparse did not find a version in what
   had come in. *)
Definition bare_head (o : hparse) (method : option bytes) (w : bytes) (m : inmsg) (f : framing) : Prop :=
  w = [] /\ (exists y seen, h_response o y = HError HEVersion seen) /\
    in_status m = 200 /\ in_version m = HTTP09 /\ in_headers m = [] /\
    response_framing false 200 method [] [] (RBody f (in_upgrade m)).
(* What is wrong with the head of a response: its syntax (a missing version is
   allowed if HTTP/0.9 is), its status code, a name, or its lines contradict each
   other about the body. *)
Inductive response_refused (o : hparse) (method : option bytes) (h09 : bool) (x : bytes) : Prop :=
| rr_syntax e seen : h_response o x = HError e seen -> (e = HEVersion -> h09 = false) -> response_refused o method h09 x
| rr_code n a : h_response o x = HComplete n a -> ~ 100 <= a_code a <= 999 -> response_refused o method h09 x
| rr_name n a : h_response o x = HComplete n a -> Exists (fun l => 65536 <= lenN (fst l)) (a_lines a) -> response_refused o method h09 x
| rr_body n a lines : h_response o x = HComplete n a -> unfolded o (a_lines a) lines ->
    response_framing (negb (a_minor1 a)) (a_code a) method (te_values lines) (cl_lines lines) RBad -> response_refused o method h09 x.
(* How the decoder is told about the framing (decode.rs DecodedLength) *)
Definition said_as (d : dlen) (f : framing) : Prop :=
  match f with FChunked => d = DL_CHUNKED | FClose => d = DL_CLOSE_DELIMITED | FLength n => d = n end.
(* The bytes [w] are one response to a request with this method: interim responses,
   then the head, then the body. *)
Definition response_wire (c : cfg) (o : hparse) (h09 : bool) (method : option bytes) (w : bytes) (g : message) : Prop :=
  exists heads is head body f, w = concat heads ++ head ++ body /\ Forall2 (interim_head o) heads is /\
    (final_head o method head (msg_head g) f \/ h09 = true /\ bare_head o method head (msg_head g) f) /\
    said_as (in_decode (msg_head g)) f /\ framed c f body (msg_data g) (msg_trailers g).

(* The connection uses this parser *)
Definition parses_with (c : cfg) (o : hparse) : Prop := forall method h09 x, c_parse c method h09 x = role_parse (c_server c) o method h09 x.
