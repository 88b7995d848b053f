(* Body decoders.  Models src/proto/h1/decode.rs. *)
From Verif Require Import Base M_Src.

(* decode.rs 17-20 *)
Definition CHUNKED_EXTENSIONS_LIMIT : N := 1024 * 16.
(* decode.rs 22-25 *)
Definition TRAILER_LIMIT : N := 1024 * 16.
(* role.rs 35: DEFAULT_MAX_HEADERS *)
Definition DEFAULT_MAX_HEADERS : N := 100.

(* decode.rs 69-84, ChunkedState *)
Inductive chunked_state :=
| CStart | CSize | CSizeLws | CExtension | CSizeLf | CBody | CBodyCr | CBodyLf
| CTrailer | CTrailerLf | CEndCr | CEndLf | CEnd.

(* decode.rs 40-49, the fields of Kind::Chunked.  The two optional limits are
   resolved to their defaults when the decoder is made ([dec_chunked]) instead
   of on every decode (decode.rs 180-181); they never change in between. *)
Record cdec := mkC {
  cs : chunked_state;
  chunk_len : N;
  ext_cnt : N;
  tbuf : option bytes;
  tcnt : N;
  max_hdrs : N;
  max_hdr_size : N
}.

(* decode.rs 36-67, Kind *)
Inductive decoder :=
| DLength (remaining : N)
| DChunked (c : cdec)
| DEof (is_eof : bool).

(* assigns a field of Kind::Chunked (proto/h1/decode.rs 36-67) *)
Definition set_cs (c : cdec) (s : chunked_state) : cdec :=
  mkC s (chunk_len c) (ext_cnt c) (tbuf c) (tcnt c) (max_hdrs c) (max_hdr_size c).
(* assigns a field of Kind::Chunked (proto/h1/decode.rs 36-67) *)
Definition set_len (c : cdec) (n : N) : cdec :=
  mkC (cs c) n (ext_cnt c) (tbuf c) (tcnt c) (max_hdrs c) (max_hdr_size c).
(* assigns a field of Kind::Chunked (proto/h1/decode.rs 36-67) *)
Definition set_ext (c : cdec) (n : N) : cdec :=
  mkC (cs c) (chunk_len c) n (tbuf c) (tcnt c) (max_hdrs c) (max_hdr_size c).
(* assigns a field of Kind::Chunked (proto/h1/decode.rs 36-67) *)
Definition set_tbuf (c : cdec) (b : option bytes) : cdec :=
  mkC (cs c) (chunk_len c) (ext_cnt c) b (tcnt c) (max_hdrs c) (max_hdr_size c).
(* assigns a field of Kind::Chunked (proto/h1/decode.rs 36-67) *)
Definition set_tcnt (c : cdec) (n : N) : cdec :=
  mkC (cs c) (chunk_len c) (ext_cnt c) (tbuf c) n (max_hdrs c) (max_hdr_size c).

(* decode.rs 89-116 (constructors), with defaults from decode.rs 180-181 *)
Definition dec_length (n : N) : decoder := DLength n.
(* proto/h1/decode.rs 95-110, chunked *)
Definition dec_chunked (h1_max_headers h1_max_header_size : option N) : decoder :=
  DChunked (mkC CStart 0 0 None 0
    (match h1_max_headers with Some n => n | None => DEFAULT_MAX_HEADERS end)
    (match h1_max_header_size with Some n => n | None => TRAILER_LIMIT end)).
(* proto/h1/decode.rs 112-116, eof *)
Definition dec_eof : decoder := DEof false.

(* decode.rs 132-142, is_eof *)
Definition is_eof (d : decoder) : bool :=
  match d with
  | DLength 0 => true
  | DChunked c => match cs c with CEnd => true | _ => false end
  | DEof true => true
  | _ => false
  end.

(* ------------------------------------------------------------------ *)
(* The byte-consuming states.  Each read_* function of the code begins with
   the byte! macro (decode.rs 252-262); here the byte is an argument and
   [with_byte] below does the reading.  The result carries the decoder fields
   as left behind (also on error) and the error, if any. *)
Definition bres : Type := (cdec * option ioerr)%type.

(* The match arms shared by read_start and read_size, decode.rs 351-362 and
   383-394: the value of a hex digit. *)
Definition hex_digit (b : N) : option N :=
  if (48 <=? b) && (b <=? 57) then Some (b - 48)
  else if (97 <=? b) && (b <=? 102) then Some (b + 10 - 97)
  else if (65 <=? b) && (b <=? 70) then Some (b + 10 - 65)
  else None.

(* decode.rs 351-362: *size = checked_mul(16); *size = checked_add(digit),
   each through or_overflow! (264-274); then state Size. *)
Definition push_digit (c : cdec) (v : N) : bres :=
  match checked_mul (chunk_len c) 16 with
  | None => (c, Some EOverflow)
  | Some m =>
      let c := set_len c m in
      match checked_add m v with
      | None => (c, Some EOverflow)
      | Some m' => (set_cs (set_len c m') CSize, None)
      end
  end.

(* decode.rs 276-287, put_u8! on an existing buffer: push, then check.
   [k] is what follows. *)
Definition put_u8 (c : cdec) (buf : bytes) (b : N) (k : cdec -> bres) : bres :=
  let buf := buf ++ [b] in
  let c := set_tbuf c (Some buf) in
  if max_hdr_size c <=? lenN buf then (c, Some ETrailerBytes) else k c.

(* decode.rs 342-372 *)
Definition read_start (c : cdec) (b : N) : bres :=
  match hex_digit b with
  | Some v => push_digit c v
  | None => (c, Some EMissingDigit)
  end.

(* decode.rs 374-406 *)
Definition read_size (c : cdec) (b : N) : bres :=
  match hex_digit b with
  | Some v => push_digit c v
  | None =>
      if (b =? TAB) || (b =? SP) then (set_cs c CSizeLws, None)
      else if b =? 59 (* ; *) then (set_cs c CExtension, None)
      else if b =? CR then (set_cs c CSizeLf, None)
      else (c, Some EInvalidSize)
  end.

(* decode.rs 407-422 *)
Definition read_size_lws (c : cdec) (b : N) : bres :=
  if (b =? TAB) || (b =? SP) then (set_cs c CSizeLws, None)
  else if b =? 59 then (set_cs c CExtension, None)
  else if b =? CR then (set_cs c CSizeLf, None)
  else (c, Some EInvalidLws).

(* decode.rs 423-453 *)
Definition read_extension (c : cdec) (b : N) : bres :=
  if b =? CR then (set_cs c CSizeLf, None)
  else if b =? LF then (c, Some EExtNewline)
  else
    let c := set_ext c (ext_cnt c + 1) in
    if CHUNKED_EXTENSIONS_LIMIT <=? ext_cnt c then (c, Some EExtLimit)
    else (set_cs c CExtension, None).

(* decode.rs 454-474 *)
Definition read_size_lf (c : cdec) (b : N) : bres :=
  if b =? LF then
    if chunk_len c =? 0 then (set_cs c CEndCr, None) else (set_cs c CBody, None)
  else (c, Some EInvalidSizeLf).

(* decode.rs 505-516 *)
Definition read_body_cr (c : cdec) (b : N) : bres :=
  if b =? CR then (set_cs c CBodyLf, None) else (c, Some EInvalidBodyCr).

(* decode.rs 517-528 *)
Definition read_body_lf (c : cdec) (b : N) : bres :=
  if b =? LF then (set_cs c CStart, None) else (c, Some EInvalidBodyLf).

(* decode.rs 530-549 *)
Definition read_trailer (c : cdec) (b : N) : bres :=
  match tbuf c with
  | None => (c, Some EPanic)
  | Some buf =>
      put_u8 c buf b (fun c =>
        if b =? CR then (set_cs c CTrailerLf, None) else (set_cs c CTrailer, None))
  end.

(* decode.rs 551-583 *)
Definition read_trailer_lf (c : cdec) (b : N) : bres :=
  if b =? LF then
    if max_hdrs c <=? tcnt c then (c, Some ETrailerCount)
    else
      let c := set_tcnt c (tcnt c + 1) in
      match tbuf c with
      | None => (c, Some EPanic)
      | Some buf => put_u8 c buf b (fun c => (set_cs c CEndCr, None))
      end
  else (c, Some EInvalidTrailerLf).

(* decode.rs 585-615 *)
Definition read_end_cr (c : cdec) (b : N) : bres :=
  if b =? CR then
    match tbuf c with
    | Some buf => put_u8 c buf b (fun c => (set_cs c CEndLf, None))
    | None => (set_cs c CEndLf, None)
    end
  else
    match tbuf c with
    | None => (set_cs (set_tbuf c (Some [b])) CTrailer, None)
    | Some buf => put_u8 c buf b (fun c => (set_cs c CTrailer, None))
    end.

(* decode.rs 616-635 *)
Definition read_end_lf (c : cdec) (b : N) : bres :=
  if b =? LF then
    match tbuf c with
    | Some buf => put_u8 c buf b (fun c => (set_cs c CEnd, None))
    | None => (set_cs c CEnd, None)
    end
  else (c, Some EInvalidEndLf).

(* byte! (decode.rs 252-262) followed by [f]. *)
Definition with_byte (c : cdec) (s : src) (f : cdec -> N -> bres)
  : cdec * src * poll (result (option bytes) ioerr) :=
  match read_mem s 1 with
  | (s', Pending) => (c, s', Pending)
  | (s', Ready (Err e)) => (c, s', Ready (Err e))
  | (s', Ready (Ok [])) => (c, s', Ready (Err EUnexpectedEof))
  | (s', Ready (Ok (b :: _))) =>
      match f c b with
      | (c', None) => (c', s', Ready (Ok None))
      | (c', Some e) => (c', s', Ready (Err e))
      end
  end.

(* decode.rs 476-504, read_body: returns the chunk_buf it sets.  The
   subtraction cannot wrap because read_mem returns at most [rem] bytes. *)
Definition read_body (c : cdec) (s : src) : cdec * src * poll (result (option bytes) ioerr) :=
  match read_mem s (chunk_len c) with
  | (s', Pending) => (c, s', Pending)
  | (s', Ready (Err e)) => (c, s', Ready (Err e))
  | (s', Ready (Ok [])) => (set_len c 0, s', Ready (Err EIncompleteBody))
  | (s', Ready (Ok slice)) =>
      let c := set_len c (chunk_len c - lenN slice) in
      let c := if 0 <? chunk_len c then set_cs c CBody else set_cs c CBodyCr in
      (c, s', Ready (Ok (Some slice)))
  end.

(* decode.rs 303-340, ChunkedState::step *)
Definition cstep (c : cdec) (s : src) : cdec * src * poll (result (option bytes) ioerr) :=
  match cs c with
  | CStart => with_byte c s read_start
  | CSize => with_byte c s read_size
  | CSizeLws => with_byte c s read_size_lws
  | CExtension => with_byte c s read_extension
  | CSizeLf => with_byte c s read_size_lf
  | CBody => read_body c s
  | CBodyCr => with_byte c s read_body_cr
  | CBodyLf => with_byte c s read_body_lf
  | CTrailer => with_byte c s read_trailer
  | CTrailerLf => with_byte c s read_trailer_lf
  | CEndCr => with_byte c s read_end_cr
  | CEndLf => with_byte c s read_end_lf
  | CEnd => (c, s, Ready (Ok None))
  end.

(* What a successful decode yields: http_body::Frame (decode.rs 144-238). *)
Inductive frame (H : Type) :=
| FData (d : bytes)
| FTrailers (t : H).
Arguments FData {H} d.
Arguments FTrailers {H} t.

Section Decode.
  (* The header block parser used by decode_trailers (decode.rs 639-678):
     httparse::parse_headers with [count] slots followed by the
     HeaderName/HeaderValue conversions.  External crates; every theorem about
     [decode] is for all such parsers unless it says otherwise. *)
  Variable H : Type.
  Variable decode_trailers : bytes -> N -> option H.

  (* decode.rs 182-222, the loop over step.  [fuel] bounds the iterations. *)
  Fixpoint cdecode (fuel : nat) (c : cdec) (s : src)
    : cdec * src * poll (result (frame H) ioerr) :=
    match fuel with
    | O => (c, s, Ready (Err EOutOfFuel))
    | S fuel =>
        match cstep c s with
        | (c', s', Pending) => (c', s', Pending)
        | (c', s', Ready (Err e)) => (c', s', Ready (Err e))
        | (c', s', Ready (Ok buf)) =>
            match cs c' with
            | CEnd =>
                match tbuf c' with
                | Some t =>
                    let c'' := set_tbuf c' None in
                    match decode_trailers t (tcnt c') with
                    | Some h => (c'', s', Ready (Ok (FTrailers h)))
                    | None => (c'', s', Ready (Err ETrailerParse))
                    end
                | None => (c', s', Ready (Ok (FData [])))
                end
            | _ =>
                match buf with
                | Some d => (c', s', Ready (Ok (FData d)))
                | None => cdecode fuel c' s'
                end
            end
        end
    end.

  (* Everything the source can still deliver, as a bound on loop iterations:
     each iteration consumes a byte or an event. *)
  Fixpoint events_size (l : list event) : nat :=
    match l with
    | [] => O
    | EvData d :: r => (1 + length d + events_size r)%nat
    | _ :: r => (1 + events_size r)%nat
    end.
  Definition src_size (s : src) : nat := (length (rbuf s) + events_size (evs s))%nat.

  (* decode.rs 144-238, Decoder::decode *)
  Definition decode (d : decoder) (s : src) : decoder * src * poll (result (frame H) ioerr) :=
    match d with
    | DLength remaining =>
        if remaining =? 0 then (d, s, Ready (Ok (FData [])))
        else
          match read_mem s remaining with
          | (s', Pending) => (d, s', Pending)
          | (s', Ready (Err e)) => (d, s', Ready (Err e))
          | (s', Ready (Ok buf)) =>
              let num := lenN buf in
              if remaining <? num then (DLength 0, s', Ready (Ok (FData buf)))
              else if num =? 0 then (d, s', Ready (Err EIncompleteBody))
              else (DLength (remaining - num), s', Ready (Ok (FData buf)))
          end
    | DChunked c =>
        match cdecode (S (src_size s)) c s with
        | (c', s', r) => (DChunked c', s', r)
        end
    | DEof true => (d, s, Ready (Ok (FData [])))
    | DEof false =>
        match read_mem s 8192 with
        | (s', Pending) => (d, s', Pending)
        | (s', Ready (Err e)) => (d, s', Ready (Err e))
        | (s', Ready (Ok slice)) =>
            (DEof (match slice with [] => true | _ => false end), s', Ready (Ok (FData slice)))
        end
    end.

  (* What the application has seen of a body once polling it is over. *)
  Inductive body_end :=
  | BEnd                  (* clean end, no trailers; the reader may be reused *)
  | BTrailers (t : H)     (* clean end with trailers *)
  | BError (e : ioerr)    (* the body ended with an error *)
  | BUnexpected           (* conn.rs 383-388: clean end for the application, reader closed *)
  | BOutOfFuel.

  (* conn.rs 359-423, poll_read_body, polled by the application until the body
     is over.  Pending means: polled again later (the transport moves on to
     its next event).  Yields all data frames in order and how it ended.
     conn.rs 375-407: a data frame ends the body if the decoder is_eof
     (delivered if non-empty); an empty data frame without is_eof closes
     reading; otherwise it is delivered.
     [read_body_all] stops there, as Reading::KeepAlive / Reading::Closed do. *)
  Fixpoint read_body_all (fuel : nat) (d : decoder) (s : src)
    : list bytes * body_end * decoder * src :=
    match fuel with
    | O => ([], BOutOfFuel, d, s)
    | S fuel =>
        match decode d s with
        | (d', s', Pending) => read_body_all fuel d' s'
        | (d', s', Ready (Err e)) => ([], BError e, d', s')
        | (d', s', Ready (Ok (FTrailers t))) => ([], BTrailers t, d', s')
        | (d', s', Ready (Ok (FData buf))) =>
            if is_eof d' then
              (match buf with [] => [] | _ => [buf] end, BEnd, d', s')
            else
              match buf with
              | [] => ([], BUnexpected, d', s')
              | _ =>
                  match read_body_all fuel d' s' with
                  | (fs, e, d'', s'') => (buf :: fs, e, d'', s'')
                  end
              end
        end
    end.

  Definition read_body_to_end (d : decoder) (s : src) :=
    read_body_all (S (src_size s)) d s.
End Decode.

Arguments cdecode {H}.
Arguments decode {H}.
Arguments read_body_all {H}.
Arguments read_body_to_end {H}.
Arguments BEnd {H}.
Arguments BTrailers {H} t.
Arguments BError {H} e.
Arguments BUnexpected {H}.
Arguments BOutOfFuel {H}.
