(* Body encoders and the write half of a message body.
   Models src/proto/h1/encode.rs, the body-writing methods of
   src/proto/h1/conn.rs and the body part of poll_write in
   src/proto/h1/dispatch.rs. *)
From Verif Require Import Base M_HeaderMap.

(* encode.rs 36-50, Kind *)
Inductive enc_kind :=
| KChunked (allowed : option (list bytes))   (* names announced in Trailer *)
| KLength (remaining : N)
| KCloseDelimited.

(* encode.rs 20-25, Encoder *)
Record encoder := mkEnc { ekind : enc_kind; is_last : bool }.

(* encode.rs 62-78 *)
Definition enc_chunked : encoder := mkEnc (KChunked None) false.
(* proto/h1/encode.rs 71-73, length *)
Definition enc_length (n : N) : encoder := mkEnc (KLength n) false.
(* proto/h1/encode.rs 76-78, close_delimited *)
Definition enc_close_delimited : encoder := mkEnc KCloseDelimited false.
(* encode.rs 80-88 *)
Definition into_chunked_with_trailing_fields (e : encoder) (names : list bytes) : encoder :=
  match ekind e with
  | KChunked _ => mkEnc (KChunked (Some names)) (is_last e)
  | _ => e
  end.
(* encode.rs 90-92 *)
Definition enc_is_eof (e : encoder) : bool := match ekind e with KLength 0 => true | _ => false end.
(* encode.rs 94-98 *)
Definition set_last (e : encoder) (b : bool) : encoder := mkEnc (ekind e) b.
(* encode.rs 104-110 *)
Definition is_close_delimited (e : encoder) : bool := match ekind e with KCloseDelimited => true | _ => false end.
(* encode.rs 112-114 *)
Definition enc_is_chunked (e : encoder) : bool := match ekind e with KChunked _ => true | _ => false end.

(* One upper-case hexadecimal digit, as core::fmt::UpperHex writes it
   (encode.rs 355). *)
Definition hex_char (d : N) : N := if d <? 10 then 48 + d else 55 + d.
(* proto/h1/encode.rs 355: UpperHex, with fuel *)
Fixpoint hex_upper_f (fuel : nat) (n : N) : bytes :=
  match fuel with
  | O => []
  | S f => if n <? 16 then [hex_char n] else hex_upper_f f (n / 16) ++ [hex_char (n mod 16)]
  end.
(* "{len:X}": encode.rs 355 *)
Definition hex_upper (n : N) : bytes := hex_upper_f (S (N.size_nat n)) n.

(* encode.rs 331-358, ChunkSize::new: "{len:X}\r\n".  The fixed 18-byte array
   it is written to is large enough; lemma [chunk_size_fits]. *)
Definition chunk_size (len : N) : bytes := hex_upper len ++ CRLF.

(* encode.rs 116-126, Encoder::end: Err = NotEof(n) *)
Definition enc_end (e : encoder) : result bytes N :=
  match ekind e with
  | KLength 0 => Ok []
  | KChunked _ => Ok (B "0" ++ CRLF ++ CRLF)
  | KCloseDelimited => Ok []
  | KLength n => Err n
  end.

(* encode.rs 128-161, Encoder::encode.  The EncodedBuf is given by the bytes it
   will write. *)
Definition encode (e : encoder) (msg : bytes) : encoder * bytes :=
  let len := lenN msg in
  match ekind e with
  | KChunked _ => (e, chunk_size len ++ msg ++ CRLF)
  | KLength remaining =>
      if remaining <? len then (mkEnc (KLength 0) (is_last e), takeN remaining msg)
      else (mkEnc (KLength (remaining - len)) (is_last e), msg)
  | KCloseDelimited => (e, msg)
  end.

(* encode.rs 264-280, is_valid_trailer_field *)
Definition forbidden_trailers : list bytes :=
  [B "authorization"; B "cache-control"; B "content-encoding"; B "content-length";
   B "content-range"; B "content-type"; B "host"; B "max-forwards"; B "set-cookie";
   B "trailer"; B "transfer-encoding"; B "te"].
(* proto/h1/encode.rs 264-280 *)
Definition is_valid_trailer_field (n : bytes) : bool :=
  negb (existsb (beq n) forbidden_trailers).

(* role.rs 1585-1597, title_case: the first byte and every byte after a '-' is
   upper-cased. *)
Fixpoint title_case_from (up : bool) (s : bytes) : bytes :=
  match s with
  | [] => []
  | c :: r => (if up then to_upper c else c) :: title_case_from (c =? 45) r
  end.
(* proto/h1/role.rs 1585-1597, title_case *)
Definition title_case (s : bytes) : bytes := title_case_from true s.

(* role.rs 1599-1615, write_headers and write_headers_title_case *)
Definition write_headers (title : bool) (m : hmap) : bytes :=
  flat_map (fun nv => (if title then title_case (fst nv) else fst nv) ++ B ": " ++ snd nv ++ CRLF) (hm_iter m).

(* encode.rs 163-217, encode_trailers: the loop over the trailers map. *)
Definition filter_trailers (allowed : list bytes) (t : hmap) : hmap :=
  fold_left (fun acc nv =>
    if existsb (beq (fst nv)) allowed then
      if is_valid_trailer_field (fst nv) then hm_append acc (fst nv) (snd nv) else acc
    else acc) (hm_iter t) [].
(* proto/h1/encode.rs 163-217, encode_trailers *)
Definition encode_trailers (e : encoder) (t : hmap) (title : bool) : option bytes :=
  match ekind e with
  | KChunked (Some allowed) =>
      let buf := write_headers title (filter_trailers allowed t) in
      match buf with
      | [] => None
      | _ => Some (B "0" ++ CRLF ++ buf ++ CRLF)
      end
  | KChunked None => None
  | _ => None
  end.

(* encode.rs 219-261, encode_and_end: the bytes buffered and "can keep alive" *)
Definition encode_and_end (e : encoder) (msg : bytes) : bytes * bool :=
  let len := lenN msg in
  match ekind e with
  | KChunked _ => (chunk_size len ++ msg ++ CRLF ++ B "0" ++ CRLF ++ CRLF, negb (is_last e))
  | KLength remaining =>
      match len ?= remaining with
      | Eq => (msg, negb (is_last e))
      | Gt => (takeN remaining msg, negb (is_last e))
      | Lt => (msg, false)
      end
  | KCloseDelimited => (msg, false)
  end.

(* ------------------------------------------------------------------ *)
(* conn.rs 982-987, Writing *)
Inductive writing := WInit | WBody (e : encoder) | WKeepAlive | WClosed.

(* proto/h1/conn.rs 580, can_write_body *)
Definition can_write_body (w : writing) : bool := match w with WBody _ => true | _ => false end.

(* The write functions take the Writing state and yield the new one and the
   bytes handed to the write buffer.  Outside Writing::Body they hit
   unreachable! in the code; callers check can_write_body first, and so does
   [send_body]. *)

(* conn.rs 714-737, write_body *)
Definition write_body (e : encoder) (chunk : bytes) : writing * bytes :=
  let (e', out) := encode e chunk in
  (if negb (enc_is_eof e') then WBody e'
   else if is_last e' then WClosed else WKeepAlive, out).

(* conn.rs 739-762, write_trailers; [allowed]: not (is_server && !allow_trailer_fields) *)
Definition write_trailers (e : encoder) (allowed title : bool) (t : hmap) : writing * bytes :=
  if negb allowed then (WBody e, [])
  else
    match encode_trailers e t title with
    | Some out => (if is_last e || is_close_delimited e then WClosed else WKeepAlive, out)
    | None => (WBody e, [])
    end.

(* conn.rs 764-782, write_body_and_end *)
Definition write_body_and_end (e : encoder) (chunk : bytes) : writing * bytes :=
  let (out, ka) := encode_and_end e chunk in
  (if ka then WKeepAlive else WClosed, out).

(* conn.rs 784-812, end_body *)
Definition end_body (e : encoder) : writing * bytes * option N :=
  match enc_end e with
  | Ok out => (if is_last e || is_close_delimited e then WClosed else WKeepAlive, out, None)
  | Err n => (WClosed, [], Some n)
  end.

(* dispatch.rs 401-437: what the application's body yields: http_body frames.  [eos] is what
   body.is_end_stream() says right after the data frame was polled. *)
Inductive user_frame :=
| UData (d : bytes) (eos : bool)
| UTrailers (t : hmap)
| UError.

(* no counterpart: how the sending of a body (proto/h1/dispatch.rs 401-437) ends *)
Inductive send_result :=
| SDone                     (* the dispatcher is satisfied *)
| SAborted (missing : N)    (* end_body failed: new_body_write_aborted *)
| SUserError.               (* the body stream failed: new_user_body *)

(* dispatch.rs 384-446: the part of poll_write that drains body_rx into the
   connection until the body is over or the connection takes no more body. *)
Fixpoint send_body (allowed title : bool) (w : writing) (fs : list user_frame)
  : writing * bytes * send_result :=
  match w with
  | WBody e =>
      match fs with
      | [] =>
          match end_body e with
          | (w', out, None) => (w', out, SDone)
          | (w', out, Some n) => (w', out, SAborted n)
          end
      | UError :: _ => (w, [], SUserError)
      | UData d eos :: r =>
          if eos then
            match d with
            | [] =>
                match end_body e with
                | (w', out, None) => (w', out, SDone)
                | (w', out, Some n) => (w', out, SAborted n)
                end
            | _ => let (w', out) := write_body_and_end e d in (w', out, SDone)
            end
          else
            match d with
            | [] => send_body allowed title w r
            | _ =>
                let (w', out) := write_body e d in
                match send_body allowed title w' r with
                | (w'', out', res) => (w'', out ++ out', res)
                end
            end
      | UTrailers t :: _ =>
          (* the body is cleared; the next round of the loop ends the body if
             it is still open, dispatch.rs 437-443 *)
          match write_trailers e allowed title t with
          | (WBody e', out) =>
              match end_body e' with
              | (w', out', None) => (w', out ++ out', SDone)
              | (w', out', Some n) => (w', out ++ out', SAborted n)
              end
          | (w', out) => (w', out, SDone)
          end
      end
  | _ => (w, [], SDone)
  end.
