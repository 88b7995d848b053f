(* Spec vocabulary for written message heads. *)
From Verif Require Import Base M_HeaderMap M_Encode S_Send S_Framing.

(* A header section on the wire. *)
Definition render_lines (lines : list line) : bytes :=
  flat_map (fun l => fst l ++ B ": " ++ snd l ++ CRLF) lines.

(* RFC 9110: responses that have no content whatever the head says. *)
Definition body_forbidden (method : option bytes) (status : N) : Prop :=
  method = Some (B "HEAD") \/ (method = Some (B "CONNECT") /\ 200 <= status < 300) \/
  100 <= status < 200 \/ status = 204 \/ status = 304.

(* What http::HeaderMap guarantees: distinct lower-case token names with at
   least one value each, values without control characters. *)
Definition value_chars (v : bytes) : Prop := Forall (fun b => b = 9 \/ (32 <= b /\ b <> 127)) v.
Definition headers_ok (h : hmap) : Prop :=
  hm_wf h /\ Forall (fun g => wf_name (fst g) /\ Forall value_chars (snd g)) h.
(* The original spellings recorded for a name differ from it in case only. *)
Definition case_ok (c : hmap) : Prop := Forall (fun g => Forall (fun o => lower o = fst g) (snd g)) c.

(* A line that can stand on the wire: a token (any case), ":", a clean value. *)
Definition wire_name (n : bytes) : Prop := wf_name (lower n) .
Definition wire_line (l : line) : Prop := wire_name (fst l) /\ value_chars (snd l).

(* "a, b, c" *)
Fixpoint comma_join (vs : list bytes) : bytes :=
  match vs with
  | [] => []
  | [v] => v
  | v :: r => v ++ B ", " ++ comma_join r
  end.

(* The status line: version, status, reason phrase. *)
Definition start_line (http10 : bool) (status_digits phrase : bytes) : bytes :=
  (if http10 then B "HTTP/1.0 " else B "HTTP/1.1 ") ++ status_digits ++ B " " ++ phrase ++ CRLF.

(* How a body encoder delimits the body. *)
Definition kind_framing (k : enc_kind) : framing :=
  match k with KChunked _ => FChunked | KLength n => FLength n | KCloseDelimited => FClose end.

(* What the application set: Transfer-Encoding values of visible ASCII;
   Content-Length values that all mean [n]. *)
Definition app_te_text (h : hmap) : Prop := Forall text (hm_get_all h (B "transfer-encoding")).
Definition app_length_is (h : hmap) (n : N) : Prop := Forall (fun v => cl_means v n) (hm_get_all h (B "content-length")).

(* The fields [tes], [cls] of a request head announce the framing [f]. *)
Definition announces (tes cls : list bytes) (f : framing) : Prop :=
  match f with
  | FChunked => final_chunked tes /\ cls = []
  | FLength n => tes = [] /\ (cl_list_means cls n \/ cls = [] /\ n = 0)
  | FClose => False
  end.

(* One written line; some writers leave out the blank before an empty value. *)
Definition render_line (tight : bool) (l : line) : bytes :=
  fst l ++ (match snd l with [] => if tight then B ":" else B ": " | v => B ": " ++ v end) ++ CRLF.

(* The request line. *)
Definition request_line (http10 : bool) (method target : bytes) : bytes :=
  method ++ B " " ++ target ++ B " " ++ (if http10 then B "HTTP/1.0" else B "HTTP/1.1") ++ CRLF.

(* A folded field value: lines separated by LF (the CR, if any, still at the
   end of each line).  White space as in u8::is_ascii_whitespace. *)
Fixpoint join_lf (first : bytes) (rest : list bytes) : bytes :=
  match rest with [] => first | l :: r => first ++ 10 :: join_lf l r end.
Definition white (b : N) : Prop := b = 32 \/ b = 9 \/ b = 10 \/ b = 12 \/ b = 13.
Definition cut_end (s t : bytes) : Prop :=
  exists b, s = t ++ b /\ Forall white b /\ (forall r x, t = r ++ [x] -> ~ white x).
Definition cut_both (s t : bytes) : Prop :=
  exists a b, s = a ++ t ++ b /\ Forall white a /\ Forall white b /\
    (forall r x, t = r ++ [x] -> ~ white x) /\ (forall r x, t = x :: r -> ~ white x).
