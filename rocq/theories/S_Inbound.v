(* Spec vocabulary for C65: which messages a connection handed out, and which
   bytes stand for a message. *)
From Verif Require Import Base M_HeaderMap M_Headers M_Read M_Conn S_Chunked.

(* A message as its receiver sees it: the head, the data of the body in order,
   the trailers. *)
Record message := mkMsg { msg_head : inmsg; msg_data : bytes; msg_trailers : option hmap }.

(* The messages in a log: those that are complete, in order, and the one that has
   begun. *)
Definition inbound_step (s : list message * option message) (e : levent) : list message * option message :=
  match e, s with
  | LIn m, (done, _) => (done, Some (mkMsg m [] None))
  | LInData x, (done, Some g) => (done, Some (mkMsg (msg_head g) (msg_data g ++ x) (msg_trailers g)))
  | LInTrailers t, (done, Some g) => (done, Some (mkMsg (msg_head g) (msg_data g) (Some t)))
  | LInEnd, (done, Some g) => (done ++ [g], None)
  | _, s => s
  end.
Definition inbound (l : list levent) : list message * option message := fold_left inbound_step l ([], None).
Definition received (l : list levent) : list message := fst (inbound l).
Definition receiving (l : list levent) : option message := snd (inbound l).

(* How many trailer lines are allowed: h1_max_headers, 100 if not set *)
Definition max_lines (c : cfg) : N := match c_max_headers c with Some n => n | None => 100 end.

(* The bytes [w] stand for a body with the given data and trailers, when the head
   says that the length is [len]. *)
Definition body_wire (c : cfg) (len : dlen) (w data : bytes) (t : option hmap) : Prop :=
  if len =? DL_CHUNKED then
    exists b, w = render b /\ valid b /\ within_limits 16384 (max_lines c) 16384 b /\ data = body_data b /\
      match trailer_block (cb_trailers b) with
      | None => t = None
      | Some block => t = c_dt c block (lenN (cb_trailers b)) /\ t <> None
      end
  else data = w /\ t = None /\ (len = DL_CLOSE_DELIMITED \/ lenN w = len).

(* [head] is a head that the parser recognized; [z] had come in behind it. *)
Definition head_wire (c : cfg) (head : bytes) (m : inmsg) : Prop :=
  exists method h09 z, c_parse c method h09 (head ++ z) = PDone (lenN head) m.
(* What the parser took off the buffer without a message (a client's parser does
   that with 1xx responses) *)
Inductive skipped (c : cfg) : bytes -> Prop :=
| sk_nil : skipped c []
| sk_more method h09 x n a : skipped c a -> c_parse c method h09 x = PMore n -> n <= lenN x -> skipped c (a ++ takeN n x).

Definition message_wire (c : cfg) (w : bytes) (g : message) : Prop :=
  exists sk head body, w = sk ++ head ++ body /\ skipped c sk /\ head_wire c head (msg_head g) /\
    body_wire c (in_decode (msg_head g)) body (msg_data g) (msg_trailers g).

(* The bytes [part] are the beginning of a body of which [data] has been handed
   out. *)
Definition body_begun (c : cfg) (len : dlen) (part data : bytes) : Prop :=
  if len =? DL_CHUNKED then
    forall rest b rest', part ++ rest = render b ++ rest' -> valid b -> within_limits 16384 (max_lines c) 16384 b ->
      exists more, body_data b = data ++ more
  else data = part /\ (len = DL_CLOSE_DELIMITED \/ lenN part <= len).

(* What the parser promises: it takes no more than it was given; what it says
   about a head depends on the bytes of that head only. *)
Definition parser_bounded (c : cfg) : Prop := forall method h09 x,
  match c_parse c method h09 x with PMore n | PDone n _ => n <= lenN x | PFail _ => True end.
Definition own_bytes (c : cfg) : Prop := forall method h09 x n m,
  c_parse c method h09 x = PDone n m -> n <= lenN x /\ forall z, c_parse c method h09 (takeN n x ++ z) = PDone n m.
