(* Producing message heads.  Models Server::encode and Client::encode of
   src/proto/h1/role.rs.  Release build: debug assertions are left out. *)
From Verif Require Import Base M_Src M_Decode M_HeaderMap M_Headers M_Encode M_Role.

(* proto/mod.rs 46-52, BodyLength *)
Inductive body_length := Known (n : N) | Unknown.

(* role.rs 398, 403: http::StatusCode::is_success, is_informational *)
Definition is_success (st : N) : bool := (200 <=? st) && (st <=? 299).
(* proto/h1/role.rs 403: http::StatusCode::is_informational (external) *)
Definition is_informational (st : N) : bool := (100 <=? st) && (st <=? 199).
(* proto/h1/role.rs 531, 539: a comparison with Some(&Method) *)
Definition method_is (m : option bytes) (x : bytes) : bool := match m with Some y => beq y x | None => false end.

(* role.rs 519-528, can_chunked *)
Definition can_chunked (method : option bytes) (status : N) : bool :=
  if method_is method (B "HEAD") || (method_is method (B "CONNECT") && is_success status) || is_informational status
  then false else negb ((status =? 204) || (status =? 304)).
(* role.rs 515-517, can_have_body *)
Definition can_have_body (method : option bytes) (status : N) : bool := can_chunked method status.
(* role.rs 530-536, can_have_content_length *)
Definition can_have_content_length (method : option bytes) (status : N) : bool :=
  if is_informational status || (method_is method (B "CONNECT") && is_success status)
  then false else negb ((status =? 204) || (status =? 304)).
(* role.rs 538-540 *)
Definition can_have_implicit_zero_content_length (method : option bytes) (status : N) : bool :=
  can_have_content_length method status && negb (method_is method (B "HEAD")).

(* role.rs 549-577 LowercaseWriter and 591-642 OrigCaseWriter (trait HeaderNameWriter, 1005-1019) *)
Inductive name_writer := WLower | WOrig (map : hmap) (title : bool).
(* role.rs 591-595, OrigCaseWriter.current: the last name and its remaining original spellings *)
Definition wcur := option (bytes * list bytes).
(* write_header_name: role.rs 573-575 and 621-641 *)
Definition write_name (w : name_writer) (cur : wcur) (name : bytes) : bytes * wcur :=
  match w with
  | WLower => (name, cur)
  | WOrig map title =>
      let values := match cur with
        | Some (last, vs) => if beq last name then vs else hm_get_all map name
        | None => hm_get_all map name
        end in
      match values with
      | o :: r => (o, Some (name, r))
      | [] => (if title then title_case name else name, Some (name, []))
      end
  end.
(* write_header_name_with_colon (563-570, 610-618) writes the name and ": ";
   write_full_header_line (553-560, 599-607) the name and the rest: in both
   writers that is [write_name] followed by the rest, since the literals given
   for the lower-case writer are the lower-case names. *)

(* role.rs 653-677: parameters and local variables of encode_headers.
   [s_dst] is what was appended since [orig_len]. *)
Record smsg := mkSmsg {
  m_version : version; m_status : N; m_method : option bytes; m_body : option body_length;
  m_headers : hmap; m_keep_alive : bool; m_date_header : bool; m_title_case : bool;
  m_case : option hmap;        (* extensions: HeaderCaseMap *)
  m_reason : option bytes      (* extensions: ReasonPhrase *)
}.
(* proto/h1/role.rs 653-677: the local variables of encode_headers *)
Record es := mkEs {
  s_dst : bytes; s_enc : encoder; s_allowed : option (list bytes); s_date : bool; s_written : bool;
  s_must : bool; s_prev : option N; s_wrote_len : bool; s_last : bool; s_cur : wcur
}.

(* role.rs 679-696, handle_is_name_written *)
Definition s_flush (s : es) : bytes :=
  if s_written s then s_dst s ++ (if s_must s then B ", chunked" ++ CRLF else CRLF) else s_dst s.
(* role.rs 699-703: a new name begins *)
Definition s_new_name (s : es) : es :=
  mkEs (s_flush s) (s_enc s) (s_allowed s) (s_date s) false (s_must s) (s_prev s) (s_wrote_len s) (s_last s) (s_cur s).

(* role.rs 826-832: begin a line "name: value" that is left open. *)
Definition s_open (w : name_writer) (s : es) (name value : bytes) : es :=
  let (nm, cur) := write_name w (s_cur s) name in
  mkEs (s_dst s ++ nm ++ B ": " ++ value) (s_enc s) (s_allowed s) (s_date s) true (s_must s) (s_prev s) (s_wrote_len s) (s_last s) cur.
(* role.rs 833, 851, 876: continue an open line with ", value". *)
Definition s_more (s : es) (value : bytes) : es :=
  mkEs (s_dst s ++ B ", " ++ value) (s_enc s) (s_allowed s) (s_date s) (s_written s) (s_must s) (s_prev s) (s_wrote_len s) (s_last s) (s_cur s).
(* proto/h1/role.rs 833, 851, 876 *)
Definition s_join (w : name_writer) (s : es) (name value : bytes) : es :=
  if s_written s then s_more s value else s_open w s name value.
(* role.rs 911-914: a complete line *)
Definition s_line (w : name_writer) (s : es) (name value : bytes) : es :=
  let (nm, cur) := write_name w (s_cur s) name in
  mkEs (s_dst s ++ nm ++ B ": " ++ value ++ CRLF) (s_enc s) (s_allowed s) (s_date s) (s_written s) (s_must s) (s_prev s) (s_wrote_len s) (s_last s) cur.
(* assigns encoder (e.g. proto/h1/role.rs 734) *)
Definition s_set_enc (s : es) (e : encoder) : es :=
  mkEs (s_dst s) e (s_allowed s) (s_date s) (s_written s) (s_must s) (s_prev s) (s_wrote_len s) (s_last s) (s_cur s).
(* proto/h1/role.rs 741, 773, 804, 818: wrote_len = true *)
Definition s_set_len (s : es) : es :=
  mkEs (s_dst s) (s_enc s) (s_allowed s) (s_date s) (s_written s) (s_must s) (s_prev s) true (s_last s) (s_cur s).
(* proto/h1/role.rs 775: prev_con_len *)
Definition s_set_prev (s : es) (n : N) : es :=
  mkEs (s_dst s) (s_enc s) (s_allowed s) (s_date s) (s_written s) (s_must s) (Some n) (s_wrote_len s) (s_last s) (s_cur s).
(* proto/h1/role.rs 821: must_write_chunked *)
Definition s_set_must (s : es) (b : bool) : es :=
  mkEs (s_dst s) (s_enc s) (s_allowed s) (s_date s) (s_written s) b (s_prev s) (s_wrote_len s) (s_last s) (s_cur s).
(* proto/h1/role.rs 840: is_last = true *)
Definition s_set_last (s : es) : es :=
  mkEs (s_dst s) (s_enc s) (s_allowed s) (s_date s) (s_written s) (s_must s) (s_prev s) (s_wrote_len s) true (s_cur s).
(* proto/h1/role.rs 857: wrote_date = true *)
Definition s_set_date (s : es) : es :=
  mkEs (s_dst s) (s_enc s) (s_allowed s) true (s_written s) (s_must s) (s_prev s) (s_wrote_len s) (s_last s) (s_cur s).
(* proto/h1/role.rs 894: allowed_trailer_fields *)
Definition s_allow (s : es) (value : bytes) : es :=
  match to_str value with
  | None => s
  | Some v =>
      let names := flat_map (fun x => match header_name (trim x) with Some n => [n] | None => [] end) (split_comma v) in
      mkEs (s_dst s) (s_enc s) (Some (match s_allowed s with Some f => f ++ names | None => names end))
        (s_date s) (s_written s) (s_must s) (s_prev s) (s_wrote_len s) (s_last s) (s_cur s)
  end.

(* role.rs 704-915: the body of the header loop for one value.  None: the
   message is cancelled (rewind, new_user_header). *)
Definition s_value (m : smsg) (w : name_writer) (name value : bytes) (s : es) : option es :=
  if beq name (B "content-length") then
    if s_wrote_len s && negb (s_written s) then None
    else
      match m_body m with
      | Some (Known known_len) =>
          if s_written s then Some s
          else Some (s_set_len (s_open w (s_set_enc s (enc_length known_len)) name value))
      | Some Unknown =>
          match content_length_parse value with
          | None => None
          | Some len =>
              match s_prev s with
              | Some prev => if negb (prev =? len) then None else Some s
              | None => Some (s_set_prev (s_set_len (s_open w (s_set_enc s (enc_length len)) name value)) len)
              end
          end
      | None =>
          if method_is (m_method m) (B "HEAD") then Some (s_line w (s_set_len s) name value)
          else Some s
      end
  else if beq name (B "transfer-encoding") then
    if s_wrote_len s && negb (s_written s) then None
    else if ver_eqb (m_version m) HTTP10 || negb (can_chunked (m_method m) (m_status m)) then Some s
    else
      let s := s_set_must (s_set_len s) (negb (is_chunked_ value)) in
      if s_written s then Some (s_more s value)
      else Some (s_open w (s_set_enc s enc_chunked) name value)
  else if beq name (B "connection") then
    let s := if negb (s_last s) && connection_close value then s_set_last s else s in
    Some (s_join w s name value)
  else if beq name (B "date") then Some (s_line w (s_set_date s) name value)
  else if beq name (B "trailer") then
    if ver_eqb (m_version m) HTTP10 || negb (can_chunked (m_method m) (m_status m)) then Some s
    else Some (s_allow (s_join w s name value) value)
  else Some (s_line w s name value).

(* role.rs 698-917: HeaderMap::drain yields the name with the first value only *)
Fixpoint s_values (m : smsg) (w : name_writer) (name : bytes) (vs : list bytes) (s : es) : option es :=
  match vs with
  | [] => Some s
  | v :: r => match s_value m w name v s with Some s' => s_values m w name r s' | None => None end
  end.
(* proto/h1/role.rs 698-917: the loop over the names *)
Fixpoint s_headers (m : smsg) (w : name_writer) (h : hmap) (s : es) : option es :=
  match h with
  | [] => Some s
  | (name, vs) :: r =>
      match s_values m w name vs (s_new_name s) with Some s' => s_headers m w r s' | None => None end
  end.

(* role.rs 919-963: framing when no header decided it *)
Definition s_default_len (m : smsg) (w : name_writer) (s : es) : es :=
  if s_wrote_len s then s
  else
    match m_body m with
    | Some Unknown =>
        if ver_eqb (m_version m) HTTP10 || negb (can_chunked (m_method m) (m_status m)) then s_set_enc s enc_close_delimited
        else s_set_enc (s_line w s (B "transfer-encoding") (B "chunked")) enc_chunked
    | None | Some (Known 0) =>
        let s := if can_have_implicit_zero_content_length (m_method m) (m_status m)
                 then s_line w s (B "content-length") (B "0") else s in
        s_set_enc s (enc_length 0)
    | Some (Known len) =>
        if negb (can_have_content_length (m_method m) (m_status m)) then s_set_enc s (enc_length 0)
        else s_set_enc (s_line w s (B "content-length") (dec len)) (enc_length len)
    end.

(* role.rs 965-991: the rest of encode_headers.  [date] is what date::extend
   writes. *)
Definition s_finish (m : smsg) (w : name_writer) (date : bytes) (s : es) : bytes * encoder :=
  let s := s_default_len m w s in
  let e := if can_have_body (m_method m) (m_status m) then s_enc s else enc_length 0 in
  let s := if negb (s_date s) && m_date_header m then s_line w s (B "date") date else s in
  let e := if enc_is_chunked e
           then match s_allowed s with Some names => into_chunked_with_trailing_fields e names | None => e end
           else e in
  (s_dst s ++ CRLF, set_last e (s_last s)).

(* role.rs 653-992, encode_headers *)
Definition encode_headers (m : smsg) (w : name_writer) (date : bytes) (dst : bytes) (last wrote_len : bool)
  : option (bytes * encoder) :=
  match s_headers m w (m_headers m) (mkEs dst (enc_length 0) None false false false None wrote_len last None) with
  | None => None
  | Some s => Some (s_finish m w date (s_new_name s))
  end.

(* role.rs 421-457: the status line; None is the panic on other versions.
   [reason] is StatusCode::canonical_reason, external. *)
Definition status_line (reason : N -> option bytes) (m : smsg) : option bytes :=
  match m_version m with
  | HTTP10 | HTTP11 | HTTP2 =>
      Some ((match m_version m with HTTP10 => B "HTTP/1.0 " | _ => B "HTTP/1.1 " end) ++ dec (m_status m) ++ B " " ++
            (match m_reason m with
             | Some r => r
             | None => match reason (m_status m) with Some r => r | None => B "<none>" end
             end) ++ CRLF)
  | _ => None
  end.

(* proto/h1/role.rs 382-457: how Server::encode fails *)
Inductive enc_error := EUserHeader | EUnsupportedStatus | EPanicVersion.

(* role.rs 382-482, Server::encode: the bytes appended to dst and the result.
   Simplification: the shortcut for "HTTP/1.1 200 OK" (423-428) is the general
   case, given that canonical_reason 200 is "OK". *)
Definition server_encode (reason : N -> option bytes) (date : bytes) (m0 : smsg) : bytes * result encoder enc_error :=
  let '(m, err, is_last, wrote_len) :=
    if m_status m0 =? 101 then (m0, false, true, false)
    else if method_is (m_method m0) (B "CONNECT") && is_success (m_status m0) then (m0, false, true, true)
    else if is_informational (m_status m0) then
      (* MessageHead::default(): HTTP/1.1, no headers, no extensions *)
      (mkSmsg HTTP11 500 (m_method m0) None [] (m_keep_alive m0) (m_date_header m0) (m_title_case m0) None None, true, true, false)
    else (m0, false, negb (m_keep_alive m0), false) in
  match status_line reason m with
  | None => ([], Err EPanicVersion)
  | Some line =>
      let w := match m_case m with
               | None => if m_title_case m then WOrig [] true else WLower
               | Some c => WOrig c (m_title_case m)
               end in
      match encode_headers m w date line is_last wrote_len with
      | None => ([], Err EUserHeader)
      | Some (out, e) => (out, if err then Err EUnsupportedStatus else Ok e)
      end
  end.

(* ------------------------------------------------------------------ *)
(* Client *)

(* role.rs 1518-1550, set_content_length: both build modes insert *)
Definition set_content_length (headers : hmap) (len : N) : hmap * encoder :=
  (hm_insert headers (B "content-length") (dec len), enc_length len).

(* role.rs 1416-1435: the names announced in Trailer *)
Definition trailer_names (headers : hmap) : list bytes :=
  flat_map (fun v => match to_str v with
    | Some s => flat_map (fun x => match header_name (trim x) with Some n => [n] | None => [] end) (split_comma s)
    | None => []
    end) (hm_get_all headers (B "trailer")).
(* proto/h1/role.rs 1416-1435: the encoder with them *)
Definition with_trailer_names (headers : hmap) (e : encoder) : encoder :=
  if enc_is_chunked e then
    match trailer_names headers with [] => e | names => into_chunked_with_trailing_fields e names end
  else e.

(* role.rs 1366, 1528: HeaderMap entry, replacing the values of a present name *)
Fixpoint hm_update (m : hmap) (n : bytes) (f : list bytes -> list bytes) : hmap :=
  match m with
  | [] => []
  | (k, vs) :: r => if beq k n then (k, f vs) :: r else (k, vs) :: hm_update r n f
  end.

(* role.rs 1325-1456, Client::set_length *)
Definition set_length (ver : version) (method : bytes) (headers : hmap) (body : option body_length) : hmap * encoder :=
  match body with
  | None => (hm_remove headers (B "transfer-encoding"), enc_length 0)
  | Some body =>
      let existing_con_len := content_length_parse_all headers in
      if negb (ver_eqb ver HTTP11) then
        let headers := hm_remove headers (B "transfer-encoding") in
        match existing_con_len with
        | Some len => (headers, enc_length len)
        | None =>
            match body with
            | Known len => set_content_length headers len
            | Unknown => (headers, enc_length 0)
            end
        end
      else if hm_contains headers (B "transfer-encoding") then
        let headers := if is_chunked (hm_get_all headers (B "transfer-encoding")) then headers
                       else hm_update headers (B "transfer-encoding") add_chunked in
        let e := with_trailer_names headers enc_chunked in
        (match existing_con_len with Some _ => hm_remove headers (B "content-length") | None => headers end, e)
      else
        match existing_con_len with
        | Some len => (headers, enc_length len)
        | None =>
            match body with
            | Unknown =>
                if beq method (B "GET") || beq method (B "HEAD") || beq method (B "CONNECT") then (headers, enc_length 0)
                else
                  let headers := hm_append headers (B "transfer-encoding") (B "chunked") in
                  (headers, with_trailer_names headers enc_chunked)
            | Known len => set_content_length headers len
            end
        end
  end.

(* role.rs 1617-1652, write_headers_original_case *)
Fixpoint write_group_orig (title : bool) (name : bytes) (names vs : list bytes) : bytes :=
  match vs with
  | [] => []
  | v :: r =>
      let nm := match names with o :: _ => o | [] => if title then title_case name else name end in
      nm ++ (match v with [] => B ":" ++ CRLF | _ => B ": " ++ v ++ CRLF end) ++
      write_group_orig title name (match names with _ :: t => t | [] => [] end) r
  end.
(* proto/h1/role.rs 1619-1652, write_headers_original_case *)
Definition write_headers_original_case (headers orig : hmap) (title : bool) : bytes :=
  flat_map (fun g => write_group_orig title (fst g) (hm_get_all orig (fst g)) (snd g)) headers.

(* role.rs 1198-1245, Client::encode.  [target] is the Display of the Uri
   (external).  None is the panic on other versions. *)
Record cmsg := mkCmsg {
  c_version : version; c_method : bytes; c_target : bytes; c_body : option body_length;
  c_headers : hmap; c_title_case : bool; c_case : option hmap
}.
(* proto/h1/role.rs 1198-1245, Client::encode *)
Definition client_encode (m : cmsg) : option (bytes * encoder) :=
  let (headers, e) := set_length (c_version m) (c_method m) (c_headers m) (c_body m) in
  let v := match c_version m with HTTP10 => Some (B "HTTP/1.0") | HTTP11 | HTTP2 => Some (B "HTTP/1.1") | _ => None end in
  match v with
  | None => None
  | Some v =>
      Some (c_method m ++ B " " ++ c_target m ++ B " " ++ v ++ CRLF ++
            (match c_case m with
             | Some orig => write_headers_original_case headers orig (c_title_case m)
             | None => write_headers (c_title_case m) headers
             end) ++ CRLF, e)
  end.

(* ------------------------------------------------------------------ *)
(* role.rs 1458-1515, obs_fold_line, on the bytes of the value.  The result is
   the new value; the bytes after it in the buffer are left as they were. *)
(* u8::is_ascii_whitespace (std): SP, TAB, LF, FF, CR *)
Definition ascii_ws (b : N) : bool := (b =? 32) || (b =? 9) || (b =? 10) || (b =? 12) || (b =? 13).
(* 1480-1489, 1491-1500, 1502-1504 *)
Fixpoint trim_start_ws (s : bytes) : bytes :=
  match s with
  | [] => []
  | b :: r => if ascii_ws b then trim_start_ws r else s
  end.
(* proto/h1/role.rs 1491-1500 *)
Definition trim_end_ws (s : bytes) : bytes := rev (trim_start_ws (rev s)).
(* proto/h1/role.rs 1502-1504 *)
Definition trim_ws (s : bytes) : bytes := trim_start_ws (trim_end_ws s).
(* role.rs 1474, 1509: slice::split on LF (std): never empty *)
Fixpoint split_lf (s : bytes) : list bytes :=
  match s with
  | [] => [[]]
  | b :: r =>
      if b =? 10 then [] :: split_lf r
      else match split_lf r with
           | [] => [[b]]          (* unreachable *)
           | h :: t => (b :: h) :: t
           end
  end.
(* proto/h1/role.rs 1474, 1509: the first piece of that split and the rest *)
Fixpoint cut_lf (s : bytes) : option (bytes * bytes) :=
  match s with
  | [] => None
  | b :: r => if b =? 10 then Some ([], r) else match cut_lf r with Some (x, y) => Some (b :: x, y) | None => None end
  end.
(* role.rs 1458-1524.  None is the slice index panic of copy_from_slice if the unfolded value were longer *)
Definition obs_fold_line (v : bytes) : option bytes :=
  match cut_lf v with
  | None => Some v
  | Some (first, rest) =>
      let unfolded := fold_left (fun acc line => acc ++ [32] ++ trim_ws line) (split_lf rest) (trim_end_ws first) in
      if lenN unfolded <=? lenN v then Some unfolded else None
  end.

(* ------------------------------------------------------------------ *)
(* ext/h1_reason_phrase.rs 141-158, is_valid_byte *)
Definition rp_valid_byte (b : N) : bool :=
  (b =? 9) || (b =? 32) || ((33 <=? b) && (b <=? 126)) || ((128 <=? b) && (b <=? 255)).
(* ext/h1_reason_phrase.rs 160-170, find_invalid_byte *)
Fixpoint find_invalid_byte (s : bytes) : option N :=
  match s with
  | [] => None
  | b :: r => if negb (rp_valid_byte b) then Some b else find_invalid_byte r
  end.
(* ext/h1_reason_phrase.rs 63-110, TryFrom<&[u8]>, <Vec<u8>>, <String>, <Bytes>;
   from_static (44-50) panics on Err *)
Definition reason_try_from (s : bytes) : result bytes N :=
  match find_invalid_byte s with Some b => Err b | None => Ok s end.

(* decode.rs 118-128, Decoder::new *)
Definition dec_new (len : dlen) (h1_max_headers h1_max_header_size : option N) : decoder :=
  if len =? DL_CHUNKED then dec_chunked h1_max_headers h1_max_header_size
  else if len =? DL_CLOSE_DELIMITED then dec_eof
  else dec_length len.

(* conn.rs 580-606, write_head: the Writing state once the head is buffered *)
Definition after_head (e : encoder) : writing :=
  if negb (enc_is_eof e) then WBody e else if is_last e then WClosed else WKeepAlive.
