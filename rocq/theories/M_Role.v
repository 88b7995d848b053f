(* Interpreting and producing message heads.  Models src/proto/h1/role.rs.
   httparse (external) is not modelled: parsing starts from the request or
   status line and the list of header lines it returns, in order, names in the
   case they were received in. *)
From Verif Require Import Base M_HeaderMap M_Httparse M_Headers M_Encode.

(* http::Version (external, e.g. proto/h1/role.rs 191-203) *)
Inductive version := HTTP09 | HTTP10 | HTTP11 | HTTP2 | HTTP3.
(* http::Version (external): ==, e.g. proto/h1/role.rs 191-203 *)
Definition ver_eqb (a b : version) : bool :=
  match a, b with
  | HTTP09, HTTP09 | HTTP10, HTTP10 | HTTP11, HTTP11 | HTTP2, HTTP2 | HTTP3, HTTP3 => true
  | _, _ => false
  end.

(* error.rs 89-105, Parse *)
Inductive parse_error :=
| PMethod | PVersion | PVersionH2 | PUri | PUriTooLong | PTooLarge | PStatus | PInternal
| PTeUnexpected   (* Header(TransferEncodingUnexpected) *)
| PTeInvalid      (* Header(TransferEncodingInvalid) *)
| PClInvalid      (* Header(ContentLengthInvalid) *)
| PHeaderToken.   (* Header(Token): from httparse *)

(* proto/mod.rs 37-43 and h1/mod.rs ParsedMessage, without the request/status line *)
Record parsed := mkParsed {
  pm_headers : hmap;
  pm_case : hmap;           (* ext HeaderCaseMap: name -> names as received *)
  pm_decode : dlen;
  pm_expect : bool;
  pm_keep : bool;
  pm_upgrade : bool
}.

(* ------------------------------------------------------------------ *)
(* role.rs 238-260: the variables of the header loop of Server::parse *)
Record ploop := mkLoop {
  l_headers : hmap; l_case : hmap; l_decoder : dlen; l_expect : bool; l_con_len : option N;
  l_is_cl : bool; l_is_te : bool; l_te_chunked : bool; l_upgrade : bool; l_keep : bool
}.
(* role.rs 336-350: the end of one iteration *)
Definition l_append (l : ploop) (name raw value : bytes) : ploop :=
  mkLoop (hm_append (l_headers l) name value) (hm_append (l_case l) name raw) (l_decoder l) (l_expect l)
    (l_con_len l) (l_is_cl l) (l_is_te l) (l_te_chunked l) (l_upgrade l) (l_keep l).

(* role.rs 262-344: one iteration for the line (raw, value) *)
Definition server_line (is_http_11 : bool) (l : ploop) (line : bytes * bytes) : result ploop parse_error :=
  let '(raw, value) := line in
  let name := lower raw in
  if beq name (B "transfer-encoding") then
    if negb is_http_11 then Err PTeUnexpected
    else
      let drop_cl := l_is_cl l && match l_con_len l with Some _ => true | None => false end in
      let headers := if drop_cl then hm_remove (l_headers l) (B "content-length") else l_headers l in
      let con_len := if l_is_cl l then None else l_con_len l in
      let chunked := is_chunked_ value in
      Ok (l_append (mkLoop headers (l_case l) (if chunked then DL_CHUNKED else l_decoder l) (l_expect l) con_len
                      (l_is_cl l) true chunked (l_upgrade l) (l_keep l)) name raw value)
  else if beq name (B "content-length") then
    let l := mkLoop (l_headers l) (l_case l) (l_decoder l) (l_expect l) (l_con_len l) true (l_is_te l)
               (l_te_chunked l) (l_upgrade l) (l_keep l) in
    if l_is_te l then Ok l
    else
      match content_length_parse value with
      | None => Err PClInvalid
      | Some len =>
          match l_con_len l with
          | Some prev => if negb (prev =? len) then Err PClInvalid else Ok l
          | None =>
              match dl_checked_new len with
              | None => Err PTooLarge
              | Some d =>
                  Ok (l_append (mkLoop (l_headers l) (l_case l) d (l_expect l) (Some len) true (l_is_te l)
                                  (l_te_chunked l) (l_upgrade l) (l_keep l)) name raw value)
              end
          end
      end
  else if beq name (B "connection") then
    let keep := if l_keep l then negb (connection_close value) else connection_keep_alive value in
    Ok (l_append (mkLoop (l_headers l) (l_case l) (l_decoder l) (l_expect l) (l_con_len l) (l_is_cl l) (l_is_te l)
                    (l_te_chunked l) (l_upgrade l) keep) name raw value)
  else if beq name (B "expect") then
    Ok (l_append (mkLoop (l_headers l) (l_case l) (l_decoder l) (eq_ic value (B "100-continue")) (l_con_len l)
                    (l_is_cl l) (l_is_te l) (l_te_chunked l) (l_upgrade l) (l_keep l)) name raw value)
  else if beq name (B "upgrade") then
    Ok (l_append (mkLoop (l_headers l) (l_case l) (l_decoder l) (l_expect l) (l_con_len l) (l_is_cl l) (l_is_te l)
                    (l_te_chunked l) is_http_11 (l_keep l)) name raw value)
  else Ok (l_append l name raw value).

(* proto/h1/role.rs 262-344: the loop over the lines *)
Fixpoint server_lines (is_http_11 : bool) (l : ploop) (lines : list (bytes * bytes)) : result ploop parse_error :=
  match lines with
  | [] => Ok l
  | x :: r =>
      match server_line is_http_11 l x with
      | Ok l' => server_lines is_http_11 l' r
      | Err e => Err e
      end
  end.

(* role.rs 238-252 *)
Definition loop_start (is_http_11 : bool) (method : bytes) : ploop :=
  mkLoop [] [] DL_ZERO false None false false false (beq method (B "CONNECT")) is_http_11.

(* role.rs 146-380, Server::parse after httparse.  Simplifications: the cached
   header map is empty (conn.rs clears it before caching it); the case map is
   always built (it is only attached when preserve_header_case is set). *)
Definition server_parse (is_http_11 : bool) (method : bytes) (lines : list (bytes * bytes)) : result parsed parse_error :=
  match server_lines is_http_11 (loop_start is_http_11 method) lines with
  | Err e => Err e
  | Ok l =>
      if l_is_te l && negb (l_te_chunked l) then Err PTeInvalid
      else
        let keep := if l_is_te l && l_is_cl l then false else l_keep l in
        Ok (mkParsed (l_headers l) (l_case l) (l_decoder l) (l_expect l) keep (l_upgrade l))
  end.

(* role.rs 484-502, Server::on_error: the status of the automatic response *)
Definition server_on_error (e : parse_error) : option N :=
  match e with
  | PMethod | PTeUnexpected | PTeInvalid | PClInvalid | PHeaderToken | PUri | PVersion => Some 400
  | PTooLarge => Some 431
  | PUriTooLong => Some 414
  | _ => None
  end.

(* ------------------------------------------------------------------ *)
(* role.rs 1262-1324, Client::decoder.  None: skip this (1xx) head. *)
Definition client_decoder (ver : version) (status : N) (headers : hmap) (method : option bytes)
  : result (option (dlen * bool)) parse_error :=
  if status =? 101 then Ok (Some (DL_ZERO, true))
  else if (status =? 100) || ((102 <=? status) && (status <=? 199)) then Ok None
  else if (status =? 204) || (status =? 304) then Ok (Some (DL_ZERO, false))
  else
    let is m := match method with Some x => beq x m | None => false end in
    if is (B "HEAD") then Ok (Some (DL_ZERO, false))
    else if is (B "CONNECT") && ((200 <=? status) && (status <=? 299)) then Ok (Some (DL_ZERO, true))
    else if hm_contains headers (B "transfer-encoding") then
      if ver_eqb ver HTTP10 then Err PTeUnexpected
      else if transfer_encoding_is_chunked headers then Ok (Some (DL_CHUNKED, false))
      else Ok (Some (DL_CLOSE_DELIMITED, false))
    else
      match content_length_parse_all headers with
      | Some len =>
          match dl_checked_new len with
          | Some d => Ok (Some (d, false))
          | None => Err PTooLarge
          end
      | None =>
          if hm_contains headers (B "content-length") then Err PClInvalid
          else Ok (Some (DL_CLOSE_DELIMITED, false))
      end.

(* role.rs 1104-1151: the header loop of Client::parse *)
Definition client_line (acc : hmap * hmap * bool) (line : bytes * bytes) : hmap * hmap * bool :=
  let '(headers, case, keep) := acc in
  let '(raw, value) := line in
  let name := lower raw in
  let keep :=
    if beq name (B "connection") then
      if keep then negb (connection_close value) else connection_keep_alive value
    else keep in
  (hm_append headers name value, hm_append case name raw, keep).
(* proto/h1/role.rs 1104-1151: the loop from its start *)
Definition client_lines (ver : version) (lines : list (bytes * bytes)) : hmap * hmap * bool :=
  fold_left client_line lines ([], [], ver_eqb ver HTTP11).

(* role.rs 1086-1180, one round of the loop of Client::parse, after httparse *)
Definition client_parse_head (ver : version) (status : N) (lines : list (bytes * bytes)) (method : option bytes)
  : result (option parsed) parse_error :=
  let '(headers, case, keep) := client_lines ver lines in
  match client_decoder ver status headers method with
  | Err e => Err e
  | Ok (Some (d, is_upgrade)) => Ok (Some (mkParsed headers case d false (keep && negb is_upgrade) is_upgrade))
  | Ok None => Ok None
  end.
