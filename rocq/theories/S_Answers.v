(* Spec vocabulary for C79: what a client hands out for the responses of a server. *)
From Verif Require Import Base M_HeaderMap M_Headers M_Encode M_Role M_RoleEncode M_Read M_Conn M_Parse S_Framing S_Head S_Inbound S_Send S_Parse S_Outbound S_Reply.

(* The methods of the requests whose heads a client wrote, in order *)
Definition asked (l : list levent) : list (option bytes) :=
  flat_map (fun e => match e with LHead _ h _ => [match o_subject h with ORequest me _ => Some me | OResponse _ _ => None end] | _ => [] end) l.

(* A server's log without error responses of the connection itself and without
   heads that were refused *)
Definition only_replies (l : list levent) : Prop :=
  forall e, In e l -> match e with LHead true _ _ | LHeadFail _ => False | _ => True end.

(* The body of [g] as far as its framing covers it, and whether all of it is there *)
Definition body_sent (k : enc_kind) (g : gmsg) : bytes := match k with KLength n => takeN n (g_data g) | _ => g_data g end.
Definition body_complete (k : enc_kind) (g : gmsg) : Prop := match k with KLength n => n <= lenN (g_data g) | _ => g_over g = true end.
(* What a receiver makes of the trailers that are sent *)
Definition trailers_read (s : cfg) (title : bool) (k : enc_kind) (g : gmsg) : option hmap :=
  match k with
  | KChunked names => let ls := trailers_to_send title names (g_trailers g) in match S_Chunked.trailer_block ls with None => None | Some t => c_dt s t (lenN ls) end
  | _ => None
  end.
Definition to_request (m : inmsg) (g : gmsg) : gmsg := if te_is_trailers (in_headers m) then g else without_trailers g.

(* The message [r] that a client [s] handed out is the response [g] to the
   request [m], with number [n], of the server [c]: its head is the one that was
   written, its body is the body of [g] - or a beginning of it, if the body ends
   with the connection. *)
Definition came (c : cfg) (l : list levent) (s : cfg) (o : hparse) (n : nat) (g : gmsg) (r : message) : Prop :=
  exists m bs e, reply_head c l n m g bs e /\ final_head o (in_method m) bs (msg_head r) (kind_framing (ekind e)) /\
    match ekind e with
    | KCloseDelimited => msg_trailers r = None /\ exists more, g_data g = msg_data r ++ more
    | k => body_complete k g /\ msg_data r = body_sent k g /\ msg_trailers r = trailers_read s (c_title c) k (to_request m g)
    end.
(* ... and the response that has begun *)
Definition coming (c : cfg) (l : list levent) (o : hparse) (n : nat) (g : gmsg) (r : message) : Prop :=
  exists m bs e more, reply_head c l n m g bs e /\ final_head o (in_method m) bs (msg_head r) (kind_framing (ekind e)) /\
    body_sent (ekind e) g = msg_data r ++ more.

(* Trailer lines within the limits of the client, which can parse them *)
Definition lines_fit (s : cfg) (ls : list bytes) : Prop :=
  Forall S_Chunked.valid_trailer ls /\ lenN ls <= S_Inbound.max_lines s /\
  match S_Chunked.trailer_block ls with None => True | Some t => lenN t < 16384 /\ c_dt s t (lenN ls) <> None end.
(* The client takes the head of this response for a head of a response that is
   not an interim one, and for one that announces the body that is sent *)
Definition reads_reply (s c : cfg) (l : list levent) (o : hparse) (g : gmsg) : Prop := forall n m bs e, reply_head c l n m g bs e ->
  (exists a, is_response o bs a /\ ~ (100 <= a_code a < 200 /\ a_code a <> 101)) /\
  (forall r f, final_head o (in_method m) bs r f -> f = kind_framing (ekind e)) /\
  (forall names, ekind e = KChunked names -> lines_fit s (trailers_to_send (c_title c) names (g_trailers (to_request m g)))).

(* A response after which the connection goes on *)
Definition goes_on (r : message) : Prop := in_decode (msg_head r) <> DL_CLOSE_DELIMITED.

(* ---- Heads of responses on the wire ---- *)
(* What httparse promises for well-formed responses: a status line, at most
   [room] lines, an empty line - and nothing of what comes behind - is one head. *)
Definition reads_responses (o : hparse) (room : N) : Prop := forall http10 status phrase lines,
  100 <= status <= 999 -> value_chars phrase -> Forall wire_line lines -> lenN lines <= room ->
  exists lines', reads_lines lines lines' /\
    is_response o (start_line http10 (dec status) phrase ++ render_lines lines ++ CRLF) (mkA (negb http10) status lines').

(* A response that the client can read: a status code and a reason phrase, fields
   as http::HeaderMap guarantees them, Transfer-Encoding values that are text, a
   Content-Length that is the length of the body, no more lines than there is
   room for, trailers within the client's limits. *)
Definition readable (s c : cfg) (room : N) (l : list levent) (g : gmsg) : Prop :=
  let hs := o_headers (g_head g) in
  (exists status reason, o_subject (g_head g) = OResponse status reason /\ 100 <= status <= 999 /\
     match reason with Some r => value_chars r | None => forall r, c_reason c status = Some r -> value_chars r end) /\
  headers_ok hs /\ (forall x, o_case (g_head g) = Some x -> case_ok x) /\ app_te_text hs /\
  (forall n, g_len g = Some (Known n) -> n <= 2 ^ 64 - 1 /\ app_length_is hs n) /\
  (forall t, g_trailers g = Some t -> headers_ok t) /\
  (forall n m bs e, reply_head c l n m g bs e -> line_feeds bs <= room + 2 /\ (forall k, ekind e = KLength k -> supported_length k) /\
    (forall names, ekind e = KChunked names -> let ls := trailers_to_send (c_title c) names (g_trailers (to_request m g)) in
       lenN ls <= S_Inbound.max_lines s /\ match S_Chunked.trailer_block ls with None => True | Some t => lenN t < 16384 end)).
(* The head [r] that the client hands out is that of [g] *)
Definition same_reply_head (g : gmsg) (r : inmsg) : Prop :=
  exists reason, o_subject (g_head g) = OResponse (in_status r) reason /\
    (in_version r = HTTP10 \/ (in_version r = HTTP11 /\ o_version (g_head g) <> HTTP10)) /\
    forall n, n <> B "content-length" -> n <> B "transfer-encoding" -> n <> B "connection" -> n <> B "trailer" ->
      Forall2 trimmed (hm_get_all (o_headers (g_head g)) n) (hm_get_all (in_headers r) n) \/
      n = B "date" /\ hm_get_all (o_headers (g_head g)) n = [].
(* The client is handed the response [g] to the request [m]: all of it, or the
   beginning of it; [k] is how its body is framed *)
Definition same_reply (c : cfg) (l : list levent) (n : nat) (g : gmsg) (r : message) : Prop :=
  exists m bs e, reply_head c l n m g bs e /\ same_reply_head g (msg_head r) /\
    match ekind e with
    | KCloseDelimited => msg_trailers r = None /\ exists more, g_data g = msg_data r ++ more
    | k => body_complete k g /\ msg_data r = body_sent k g /\
        match fields_to_send k (g_trailers (to_request m g)) with
        | [] => msg_trailers r = None
        | fs => exists t, msg_trailers r = Some t /\ forall n, Forall2 trimmed (field_values n fs) (hm_get_all t n)
        end
    end.
Definition begun_reply (c : cfg) (l : list levent) (n : nat) (g : gmsg) (r : message) : Prop :=
  exists m bs e more, reply_head c l n m g bs e /\ same_reply_head g (msg_head r) /\ body_sent (ekind e) g = msg_data r ++ more.
