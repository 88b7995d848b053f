(* Spec: the chunked transfer coding, as a grammar of byte strings.
   RFC 9112 section 7.1, restricted/extended as hyper documents it:
   white space after the size is allowed, extensions are opaque bytes
   without CR or LF, a trailer line is any non-empty byte string without CR. *)
From Verif Require Import Base.

Definition is_hex (b : N) : bool :=
  ((48 <=? b) && (b <=? 57)) || ((65 <=? b) && (b <=? 70)) || ((97 <=? b) && (b <=? 102)).
Definition hex_val (b : N) : N :=
  if b <=? 57 then b - 48 else if b <=? 70 then b - 55 else b - 87.
(* The number written by hexadecimal digits, most significant first; unbounded. *)
Definition hex_num (ds : bytes) : N := fold_left (fun n d => 16 * n + hex_val d) ds 0.

Record size_line := mkLine { sl_digits : bytes; sl_ws : bytes; sl_ext : option bytes }.
Record chunk := mkChunk { ch_line : size_line; ch_data : bytes }.
Record chunked_body := mkBody { cb_chunks : list chunk; cb_last : size_line; cb_trailers : list bytes }.

Definition ext_bytes (l : size_line) : bytes := match sl_ext l with None => [] | Some e => e end.

Definition render_line (l : size_line) : bytes :=
  sl_digits l ++ sl_ws l ++ (match sl_ext l with None => [] | Some e => 59 :: e end) ++ CRLF.
Definition render_chunk (c : chunk) : bytes := render_line (ch_line c) ++ ch_data c ++ CRLF.
Definition trailer_lines (ls : list bytes) : bytes := concat (map (fun l => l ++ CRLF) ls).
Definition render (b : chunked_body) : bytes :=
  concat (map render_chunk (cb_chunks b)) ++ render_line (cb_last b) ++ trailer_lines (cb_trailers b) ++ CRLF.

Definition body_data (b : chunked_body) : bytes := concat (map ch_data (cb_chunks b)).
(* The raw trailer block: the lines and the closing CRLF; empty if there is no trailer. *)
Definition trailer_block (ls : list bytes) : option bytes :=
  match ls with [] => None | _ => Some (trailer_lines ls ++ CRLF) end.

Definition valid_line (l : size_line) : Prop :=
  sl_digits l <> [] /\ Forall (fun b => is_hex b = true) (sl_digits l) /\
  Forall (fun b => b = 32 \/ b = 9) (sl_ws l) /\
  Forall (fun b => b <> 13 /\ b <> 10) (ext_bytes l) /\
  hex_num (sl_digits l) <= u64_max.
Definition valid_chunk (c : chunk) : Prop :=
  valid_line (ch_line c) /\ ch_data c <> [] /\ hex_num (sl_digits (ch_line c)) = lenN (ch_data c).
Definition valid_trailer (l : bytes) : Prop := l <> [] /\ ~ In 13 l.
Definition valid (b : chunked_body) : Prop :=
  Forall valid_chunk (cb_chunks b) /\
  valid_line (cb_last b) /\ hex_num (sl_digits (cb_last b)) = 0 /\
  Forall valid_trailer (cb_trailers b).

(* Total number of extension bytes in the body (the ';' not counted). *)
Definition ext_total (b : chunked_body) : N :=
  fold_right N.add 0 (map (fun c => lenN (ext_bytes (ch_line c))) (cb_chunks b)) + lenN (ext_bytes (cb_last b)).

(* The documented limits: fewer than [ext_limit] extension bytes in the whole
   body, at most [max_lines] trailer lines, and fewer than [max_bytes] bytes
   in the trailer block. *)
Definition within_limits (ext_limit max_lines max_bytes : N) (b : chunked_body) : Prop :=
  ext_total b < ext_limit /\
  lenN (cb_trailers b) <= max_lines /\
  match trailer_block (cb_trailers b) with None => True | Some t => lenN t < max_bytes end.
