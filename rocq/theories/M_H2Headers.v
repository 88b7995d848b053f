(* Model of how hyper prepares message heads for HTTP/2: src/proto/h2/mod.rs
   36-90, src/proto/h2/server.rs 471-527, src/proto/h2/client.rs 707-735. *)
From Verif Require Import Base M_HeaderMap M_Httparse M_Headers M_RoleEncode.

(* proto/h2/mod.rs 36-41 *)
Definition CONNECTION_HEADERS : list bytes := [B "keep-alive"; B "proxy-connection"; B "transfer-encoding"; B "upgrade"].
(* proto/h2/mod.rs 43-48 *)
Inductive message_kind := KRequest | KResponse.
(* HeaderMap::remove with a &str key (external, called at proto/h2/mod.rs 86): the key is normalised; a key
   that is not a header name removes nothing *)
Definition hm_remove_str (h : hmap) (s : bytes) : hmap :=
  match header_name s with Some n => hm_remove h n | None => h end.
(* proto/h2/mod.rs 50-90, strip_connection_headers.  HeaderMap::remove returns
   the first value of the name.  Built with the client feature; without it TE is
   left alone (lines 58-60). *)
Definition strip_connection_headers (h : hmap) (k : message_kind) : hmap :=
  let h := fold_left hm_remove CONNECTION_HEADERS h in
  let h := match k with
           | KRequest => match hm_get h (B "te") with
                         | Some v => if beq v (B "trailers") then h else hm_remove h (B "te")
                         | None => h
                         end
           | KResponse => hm_remove h (B "te")
           end in
  match hm_get h (B "connection") with
  | Some v =>
      let h := hm_remove h (B "connection") in
      match to_str v with
      | Some s => fold_left (fun h name => hm_remove_str h (trim name)) (split_comma s) h
      | None => h
      end
  | None => h
  end.

(* headers.rs 136-141 and proto/h2/server.rs 479-483:
   HeaderMap::entry(..).or_insert_with(..) *)
Definition hm_or_insert (h : hmap) (n v : bytes) : hmap := if hm_contains h n then h else hm_append h n v.

(* What the server does with a response (proto/h2/server.rs 471-527): reset the stream with INTERNAL_ERROR;
   start a tunnel; send the head with or without the end of the stream. *)
Inductive h2_reply := HReset | HTunnel (h : hmap) | HSend (h : hmap) (eos : bool).
(* proto/h2/server.rs 471-527: [date]: the value if date_header is set; [connect]:
   the request was a CONNECT; [eos]: body.is_end_stream(); [exact]:
   body.size_hint().exact() *)
Definition h2_response (date : option bytes) (connect : bool) (status : N) (eos : bool) (exact : option N) (h : hmap) : h2_reply :=
  let h := strip_connection_headers h KResponse in
  let h := match date with Some d => hm_or_insert h (B "date") d | None => h end in
  if connect && is_success status then
    match content_length_parse_all h with
    | Some n => if n =? 0 then HTunnel (hm_remove h (B "content-length")) else HReset
    | None => HTunnel (hm_remove h (B "content-length"))
    end
  else if eos then HSend h true
  else HSend (match exact with Some n => set_content_length_if_missing h n | None => h end) false.
(* proto/h2/client.rs 707-735: None: the request is refused *)
Definition h2_request (method : bytes) (eos : bool) (exact : option N) (h : hmap) : option (hmap * bool) :=
  let h := strip_connection_headers h KRequest in
  let h := match exact with
           | Some n => if negb (n =? 0) || method_has_defined_payload_semantics method
                       then set_content_length_if_missing h n else h
           | None => h
           end in
  let is_connect := beq method (B "CONNECT") in
  if is_connect && match content_length_parse_all h with Some n => negb (n =? 0) | None => false end then None
  else Some (h, negb is_connect && eos).
