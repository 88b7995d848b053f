(* Spec vocabulary for C75: what the application of a client connection hands
   over, and which bytes stand for a request that was handed over. *)
From Verif Require Import Base M_HeaderMap M_Headers M_Encode M_Role M_RoleEncode M_Buf M_Read M_Conn M_Dispatch M_Parse S_Buf S_Chunked S_Send S_Framing S_Head S_Parse.

(* What the dispatcher takes from the application in one go: a request, a piece
   of its body, trailers, the news that the body is over. *)
Inductive told := TMsg (h : ohead) (b : option body_length) | TData (x : bytes) | TTrailers (t : hmap) | TOver.

(* What poll_write takes (dispatch.rs 356-448): a request when it asks for one and
   there is one, a frame when it polls the body. *)
Definition offers (c : cfg) (i : inp) (d : disp) : list told :=
  if d_closing d then []
  else if negb (d_body_rx d) && can_write_head c (d_conn d) && should_poll c d then
    match snd (d_poll_msg c i d) with Ready (Some (Ok (h, b))) => [TMsg h b] | _ => [] end
  else if can_buffer_body c (d_conn d) && d_body_rx d && k_can_write_body (d_conn d) then
    match i_frame i with
    | Pending | Ready (Some (Err _)) | Ready (Some (Ok UOther)) => []
    | Ready None => [TOver]
    | Ready (Some (Ok (M_Dispatch.UData b))) => TData (den b) :: if i_eos i then [TOver] else []
    | Ready (Some (Ok (M_Dispatch.UTrailers t))) => [TTrailers t; TOver]
    end
  else [].
Definition tells (c : cfg) (m : move) (d : disp) : list told :=
  match m with
  | Step i => match d_pc d with PWrite _ | PWrite2 _ => offers c i d | _ => [] end
  | Env _ => []
  end.
Fixpoint told_in (c : cfg) (ms : list move) (d : disp) : list told :=
  match ms with [] => [] | m :: r => tells c m d ++ told_in c r (dmove c m d) end.

(* A request as its sender sees it: the head, the length it declares, the data
   handed over so far, the trailers, whether the body is over. *)
Record gmsg := mkG { g_head : ohead; g_len : option body_length; g_data : bytes; g_trailers : option hmap; g_over : bool }.
Definition gupd (t : told) (g : gmsg) : gmsg :=
  match t with
  | TMsg _ _ => g
  | TData x => mkG (g_head g) (g_len g) (g_data g ++ x) (g_trailers g) (g_over g)
  | TTrailers t => mkG (g_head g) (g_len g) (g_data g) (Some t) (g_over g)
  | TOver => mkG (g_head g) (g_len g) (g_data g) (g_trailers g) true
  end.
(* Latest first *)
Definition give (gs : list gmsg) (t : told) : list gmsg :=
  match t with
  | TMsg h b => mkG h b [] None (match b with None => true | _ => false end) :: gs
  | _ => match gs with g :: r => gupd t g :: r | [] => [] end
  end.
Definition given (ts : list told) : list gmsg := rev (fold_left give ts []).

(* The lines of the trailer section of a chunked body: those fields that were
   announced and may be sent there. *)
Definition trailer_line (title : bool) (nv : bytes * bytes) : bytes :=
  (if title then title_case (fst nv) else fst nv) ++ B ": " ++ snd nv.
Definition trailers_to_send (title : bool) (names : option (list bytes)) (t : option hmap) : list bytes :=
  match names, t with
  | Some names, Some t => map (trailer_line title) (sendable_fields names (hm_iter t))
  | _, _ => []
  end.
(* [w] is all of the body of [g] in this framing: as much as was announced; or
   all data, in chunks, after the body was over. *)
Definition whole_body (title : bool) (k : enc_kind) (g : gmsg) (w : bytes) : Prop :=
  match k with
  | KLength n => w = takeN n (g_data g) /\ n <= lenN (g_data g)
  | KChunked names => g_over g = true /\ exists b, w = render b /\ ext_total b = 0 /\ body_data b = g_data g /\
      Forall valid_chunk (cb_chunks b) /\ valid_line (cb_last b) /\ hex_num (sl_digits (cb_last b)) = 0 /\
      cb_trailers b = trailers_to_send title names (g_trailers g)
  | KCloseDelimited => False
  end.
(* [w] is the beginning of the body: everything so far, and it is not all *)
Definition begun_body (k : enc_kind) (g : gmsg) (w : bytes) : Prop :=
  match k with
  | KLength n => w = g_data g /\ lenN (g_data g) < n
  | KChunked _ => exists cs, w = concat (map render_chunk cs) /\ Forall valid_chunk cs /\ Forall (fun x => ext_bytes (ch_line x) = []) cs /\
      concat (map ch_data cs) = g_data g
  | KCloseDelimited => False
  end.

(* The head [h'] that is written for [h]: the same but for the Connection field
   and for the version, which is lowered for an HTTP/1.0 peer. *)
Definition head_for (h h' : ohead) : Prop :=
  o_subject h' = o_subject h /\ o_case h' = o_case h /\ (o_version h' = o_version h \/ o_version h' = HTTP10) /\
  (o_headers h' = o_headers h \/ exists v, (v = B "close" \/ v = B "keep-alive") /\ o_headers h' = hm_insert (o_headers h) (B "connection") v).
(* [bs] is the head written for [g]; the body then goes on with [e] *)
Definition head_written (c : cfg) (l : list levent) (g : gmsg) (bs : bytes) (e : encoder) : Prop :=
  exists h' method target, head_for (g_head g) h' /\ o_subject h' = ORequest method target /\ In (LHead false h' bs) l /\
    client_encode (mkCmsg (o_version h') method target (g_len g) (o_headers h') (c_title c) (o_case h')) = Some (bs, e).
(* All of the request, or a beginning of it, is written *)
Definition sent (c : cfg) (l : list levent) (w : bytes) (g : gmsg) : Prop :=
  exists bs e body, w = bs ++ body /\ head_written c l g bs e /\ whole_body (c_title c) (ekind e) g body.
Definition sent_part (c : cfg) (l : list levent) (w : bytes) (g : gmsg) : Prop :=
  exists bs e body, w = bs ++ body /\ head_written c l g bs e /\ begun_body (ekind e) g body.

(* ---- Heads on the wire ---- *)
(* [t] is [v] without the blanks around it *)
Definition trimmed (v t : bytes) : Prop :=
  exists a b, v = a ++ t ++ b /\ blanks a /\ blanks b /\ (forall x r, t = x :: r -> ~ blank x) /\ (forall x r, t = r ++ [x] -> ~ blank x).
(* [lines'] is what a parser reports for [lines]: the names up to the case of
   letters, the values without the blanks around them *)
Definition reads_lines (lines lines' : list line) : Prop :=
  Forall2 (fun l l' => lower (fst l') = lower (fst l) /\ trimmed (snd l) (snd l')) lines lines'.
(* RFC 9110 token, and a request target without blanks and controls *)
Definition token (n : bytes) : Prop := n <> [] /\ Forall (fun b => token_char (to_lower b) = true) n.
Definition plain_target (t : bytes) : Prop := t <> [] /\ Forall (fun b => 33 <= b <= 126) t.
(* What httparse promises for well-formed requests: METHOD SP TARGET SP VERSION,
   at most [room] lines NAME ":" VALUE, an empty line - and nothing of what comes
   behind - is one head. *)
Definition reads_requests (o : hparse) (room : N) : Prop := forall http10 me ta tight lines,
  token me -> plain_target ta -> Forall wire_line lines -> lenN lines <= room ->
  exists lines', reads_lines lines lines' /\
    is_request o (request_line http10 me ta ++ flat_map (render_line tight) lines ++ CRLF) (mkQ me ta (negb http10) lines').
Definition line_feeds (bs : bytes) : N := lenN (filter (fun b => b =? 10) bs).
(* The trailer fields that are sent *)
Definition fields_to_send (k : enc_kind) (t : option hmap) : list (bytes * bytes) :=
  match k, t with KChunked (Some names), Some t => sendable_fields names (hm_iter t) | _, _ => [] end.
(* What the parser of trailers promises: it reads the lines of well-formed fields *)
Definition reads_trailers (s : cfg) : Prop := forall title fields, fields <> [] -> Forall (fun f => wf_name (fst f) /\ value_chars (snd f)) fields ->
  exists t, c_dt s (trailer_lines (map (trailer_line title) fields) ++ CRLF) (lenN fields) = Some t /\
    forall n, Forall2 trimmed (field_values n fields) (hm_get_all t n).
