(* Header value helpers.  Models src/headers.rs and src/body/length.rs. *)
From Verif Require Import Base M_HeaderMap M_Httparse.

(* http::HeaderValue::to_str (external): Some iff every byte is a tab or in 32..=126. *)
Definition to_str (v : bytes) : option bytes :=
  if forallb (fun b => (b =? 9) || ((32 <=? b) && (b <=? 126))) v then Some v else None.

(* str::split(',') (std, headers.rs 36, 54, 84): never empty; "" gives [""]. *)
Fixpoint split_comma (s : bytes) : list bytes :=
  match s with
  | [] => [[]]
  | b :: r =>
      if b =? 44 then [] :: split_comma r
      else match split_comma r with
           | [] => [[b]]          (* unreachable *)
           | h :: t => (b :: h) :: t
           end
  end.

(* str::trim (std, headers.rs 37, 55, 85): on the strings to_str accepts, white space is SP and TAB. *)
Definition trim (s : bytes) : bytes := trim_end is_blank (drop_while is_blank s).

(* headers.rs 33-43, connection_has *)
Definition connection_has (value needle : bytes) : bool :=
  match to_str value with
  | Some s => existsb (fun val => eq_ic (trim val) needle) (split_comma s)
  | None => false
  end.
(* headers.rs 12-15, 17-20 *)
Definition connection_keep_alive (value : bytes) : bool := connection_has value (B "keep-alive").
(* headers.rs 18-20 *)
Definition connection_close (value : bytes) : bool := connection_has value (B "close").
(* headers.rs 25-31 *)
Definition connection_any_close (headers : hmap) : bool :=
  existsb connection_close (hm_get_all headers (B "connection")).

(* headers.rs 50-64, header_value_list_has *)
Definition header_value_list_has (values : list bytes) (needle : bytes) : bool :=
  existsb (fun value => match to_str value with
    | Some line => existsb (fun token => eq_ic (trim token) needle) (split_comma line)
    | None => false
    end) values.
(* headers.rs 45-48, te_is_trailers *)
Definition te_is_trailers (headers : hmap) : bool :=
  header_value_list_has (hm_get_all headers (B "te")) (B "trailers").

(* headers.rs 101-126, from_digits *)
Fixpoint from_digits_loop (bs : bytes) (acc : N) : option N :=
  match bs with
  | [] => Some acc
  | b :: r =>
      if (48 <=? b) && (b <=? 57) then
        match checked_mul acc 10 with
        | None => None
        | Some m =>
            match checked_add m (b - 48) with
            | None => None
            | Some a => from_digits_loop r a
            end
        end
      else None
  end.
(* headers.rs 101-126, from_digits *)
Definition from_digits (bs : bytes) : option N :=
  match bs with [] => None | _ => from_digits_loop bs 0 end.

(* headers.rs 66-69 *)
Definition content_length_parse (value : bytes) : option N := from_digits value.

(* headers.rs 76-100, content_length_parse_all_values.  The outer option is the
   early return. *)
Fixpoint cl_tokens (ts : list bytes) (cur : option N) : option (option N) :=
  match ts with
  | [] => Some cur
  | t :: r =>
      match from_digits (trim t) with
      | None => None
      | Some n =>
          match cur with
          | None => cl_tokens r (Some n)
          | Some c => if c =? n then cl_tokens r cur else None
          end
      end
  end.
(* headers.rs 76-100: the loop over the values *)
Fixpoint cl_values (vs : list bytes) (cur : option N) : option N :=
  match vs with
  | [] => cur
  | v :: r =>
      match to_str v with
      | None => None
      | Some line =>
          match cl_tokens (split_comma line) cur with
          | None => None
          | Some cur' => cl_values r cur'
          end
      end
  end.
(* headers.rs 76-100, content_length_parse_all_values *)
Definition content_length_parse_all_values (vs : list bytes) : option N := cl_values vs None.
(* headers.rs 71-74 *)
Definition content_length_parse_all (headers : hmap) : option N :=
  content_length_parse_all_values (hm_get_all headers (B "content-length")).

(* headers.rs 165-175, is_chunked_: rsplit(',').next() is the last element of split *)
Definition is_chunked_ (value : bytes) : bool :=
  match to_str value with
  | Some s => eq_ic (trim (last (split_comma s) [])) (B "chunked")
  | None => false
  end.
(* headers.rs 154-163, is_chunked: only the last line counts *)
Definition is_chunked (values : list bytes) : bool :=
  match values with
  | [] => false
  | _ => is_chunked_ (last values [])
  end.
(* headers.rs 149-152 *)
Definition transfer_encoding_is_chunked (headers : hmap) : bool :=
  is_chunked (hm_get_all headers (B "transfer-encoding")).

(* headers.rs 171-189, add_chunked, on the values of the occupied entry *)
Fixpoint add_chunked (values : list bytes) : list bytes :=
  match values with
  | [] => [B "chunked"]
  | [line] => [line ++ B ", " ++ B "chunked"]
  | v :: r => v :: add_chunked r
  end.

(* headers.rs 129-134, method_has_defined_payload_semantics *)
Definition method_has_defined_payload_semantics (m : bytes) : bool :=
  negb (beq m (B "GET") || beq m (B "HEAD") || beq m (B "DELETE") || beq m (B "CONNECT")).

(* "{n}" for an integer: itoa and HeaderValue::from(u64). *)
Fixpoint dec_f (fuel : nat) (n : N) : bytes :=
  match fuel with
  | O => []
  | S f => if n <? 10 then [48 + n] else dec_f f (n / 10) ++ [48 + n mod 10]
  end.
(* the same with enough fuel: itoa, e.g. proto/h1/role.rs 957 *)
Definition dec (n : N) : bytes := dec_f (S (N.size_nat n)) n.

(* headers.rs 139-144 *)
Definition set_content_length_if_missing (headers : hmap) (len : N) : hmap :=
  if hm_contains headers (B "content-length") then headers
  else hm_append headers (B "content-length") (dec len).

(* http::HeaderName::from_bytes (external): a non-empty token of at most 65535
   bytes, stored lower-case. *)
Definition header_name (s : bytes) : option bytes :=
  match s with
  | [] => None
  | _ => if forallb is_tchar s && (lenN s <=? 65535) then Some (lower s) else None
  end.

(* ------------------------------------------------------------------ *)
(* body/length.rs 4, 18-23: DecodedLength is a u64 with two reserved values *)
Definition dlen := N.
(* body/length.rs 18 *)
Definition MAX_LEN : N := u64_max - 2.
(* body/length.rs 21 *)
Definition DL_CLOSE_DELIMITED : dlen := u64_max.
(* body/length.rs 22 *)
Definition DL_CHUNKED : dlen := u64_max - 1.
(* body/length.rs 23 *)
Definition DL_ZERO : dlen := 0.
(* body/length.rs 47-52 *)
Definition dl_into_opt (d : dlen) : option N :=
  if (d =? DL_CHUNKED) || (d =? DL_CLOSE_DELIMITED) then None else Some d.
(* body/length.rs 56-63 *)
Definition dl_checked_new (len : N) : option dlen := if len <=? MAX_LEN then Some len else None.
(* body/length.rs 7-15 *)
Definition dl_from_opt (o : option N) : dlen :=
  match o with
  | Some len => match dl_checked_new len with Some d => d | None => DL_CHUNKED end
  | None => DL_CHUNKED
  end.
(* body/length.rs 69-76.  None is the arithmetic overflow panic of a debug
   build (release builds wrap); see C54. *)
Definition dl_sub_if (d : dlen) (amt : N) : option dlen :=
  if (d =? DL_CHUNKED) || (d =? DL_CLOSE_DELIMITED) then Some d
  else if amt <=? d then Some (d - amt) else None.
(* body/length.rs 84-86 *)
Definition dl_is_exact (d : dlen) : bool := d <=? MAX_LEN.
