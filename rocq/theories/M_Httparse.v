(* A reference model of the header-block parser hyper takes from outside:
   httparse::parse_headers followed by HeaderName::try_from and
   HeaderValue::from_bytes, as called by decode_trailers (decode.rs 639-678).
   External code, modelled from its documentation; part of the trusted base
   only where a theorem names [parse_block]. *)
From Verif Require Import Base.

(* RFC 9110 tchar: what httparse accepts in a header name. *)
Definition is_tchar (b : N) : bool :=
  ((48 <=? b) && (b <=? 57)) || ((65 <=? b) && (b <=? 90)) || ((97 <=? b) && (b <=? 122)) ||
  existsb (N.eqb b) (B "!#$%&'*+-.^_`|~").
(* What httparse (external, called at proto/h1/decode.rs 642) accepts in a header
   value. *)
Definition is_vchar (b : N) : bool := (b =? 9) || ((32 <=? b) && negb (b =? 127)).
(* httparse (external, called at proto/h1/decode.rs 642): space or tab *)
Definition is_blank (b : N) : bool := (b =? 32) || (b =? 9).

(* httparse::parse_headers (external, proto/h1/decode.rs 642).  Split after the first
   LF; None if there is none (Status::Partial). *)
Fixpoint take_line (s : bytes) : option (bytes * bytes) :=
  match s with
  | [] => None
  | b :: r =>
      if b =? 10 then Some ([], r)
      else match take_line r with Some (l, r') => Some (b :: l, r') | None => None end
  end.

(* httparse (external, called at proto/h1/decode.rs 642): skips bytes *)
Fixpoint drop_while (f : N -> bool) (s : bytes) : bytes :=
  match s with
  | [] => []
  | b :: r => if f b then drop_while f r else s
  end.
(* httparse (external, called at proto/h1/decode.rs 642): takes bytes *)
Fixpoint take_while (f : N -> bool) (s : bytes) : bytes :=
  match s with
  | [] => []
  | b :: r => if f b then b :: take_while f r else []
  end.
(* httparse (external, called at proto/h1/decode.rs 642): drops bytes at the end *)
Definition trim_end (f : N -> bool) (s : bytes) : bytes := rev (drop_while f (rev s)).

(* httparse (proto/h1/decode.rs 642): a line ends in LF, the CR before it is
   dropped; then the names and values. *)
Definition strip_cr (l : bytes) : bytes :=
  match rev l with 13 :: r => rev r | _ => l end.

(* httparse (external, called at proto/h1/decode.rs 642): one line *)
Definition parse_line (l : bytes) : option (bytes * bytes) :=
  let name := take_while is_tchar l in
  match name, drop_while is_tchar l with
  | _ :: _, 58 :: r =>
      let v := trim_end is_blank (drop_while is_blank r) in
      if forallb is_vchar v then Some (lower name, v) else None
  | _, _ => None
  end.

(* httparse (external, called at proto/h1/decode.rs 642): line after line, with fuel *)
Fixpoint parse_block_f (fuel : nat) (s : bytes) (count : N) : option (list (bytes * bytes)) :=
  match fuel with
  | O => None
  | S fuel =>
      match take_line s with
      | None => None
      | Some (l, r) =>
          match strip_cr l with
          | [] => Some []
          | l' =>
              if count =? 0 then None (* Error::TooManyHeaders *)
              else
                match parse_line l', parse_block_f fuel r (count - 1) with
                | Some h, Some hs => Some (h :: hs)
                | _, _ => None
                end
          end
      end
  end.
(* httparse (external, called at proto/h1/decode.rs 642): parse_headers *)
Definition parse_block (s : bytes) (count : N) : option (list (bytes * bytes)) :=
  parse_block_f (S (length s)) s count.
