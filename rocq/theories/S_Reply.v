(* Spec vocabulary for C78: which bytes a server connection writes for the
   responses that its application hands over. *)
From Verif Require Import Base M_HeaderMap M_Headers M_Encode M_Role M_RoleEncode M_Conn S_Send S_Outbound.

(* The requests that were handed out, and the heads of the responses that were
   written, in order; error responses of the connection itself are left out. *)
Definition requests (l : list levent) : list inmsg := flat_map (fun e => match e with LIn m => [m] | _ => [] end) l.
Definition answers (l : list levent) : list (ohead * bytes) := flat_map (fun e => match e with LHead false h bs => [(h, bs)] | _ => [] end) l.

(* [w] is all of the body of the response [g]: as for requests, but trailers are
   sent only when the request allows them, and a body may also end with the
   connection *)
Definition without_trailers (g : gmsg) : gmsg := mkG (g_head g) (g_len g) (g_data g) None (g_over g).
Definition reply_body (title allow : bool) (k : enc_kind) (g : gmsg) (w : bytes) : Prop :=
  match k with
  | KCloseDelimited => w = g_data g /\ g_over g = true
  | _ => whole_body title k (if allow then g else without_trailers g) w
  end.
Definition reply_begun (k : enc_kind) (g : gmsg) (w : bytes) : Prop :=
  match k with KCloseDelimited => w = g_data g | _ => begun_body k g w end.

(* What Server::encode makes of the head [h'], for a request with this method *)
Definition encodes (c : cfg) (method : option bytes) (len : option body_length) (h' : ohead) (keep : bool) (out : bytes) (r : result encoder enc_error) : Prop :=
  exists status reason, o_subject h' = OResponse status reason /\
    server_encode (c_reason c) (c_date c)
      (mkSmsg (o_version h') status method len (o_headers h') keep (c_date_header c) (c_title c) (o_case h') reason) = (out, r).

(* [bs] is the head that was written for the response [g] to the request [m],
   the one with number [n]; the body then goes on with [e] *)
Definition reply_head (c : cfg) (l : list levent) (n : nat) (m : inmsg) (g : gmsg) (bs : bytes) (e : encoder) : Prop :=
  exists h' keep, nth_error (requests l) n = Some m /\ nth_error (answers l) n = Some (h', bs) /\
    head_for (g_head g) h' /\ encodes c (in_method m) (g_len g) h' keep bs (Ok e).
(* All of the response with number [n] is written ([alone]: if it goes on to the
   end of the connection), or a beginning of it, or its head was refused by
   Server::encode *)
Definition replied (c : cfg) (l : list levent) (n : nat) (w : bytes) (g : gmsg) (alone : Prop) : Prop :=
  exists m bs e body, w = bs ++ body /\ reply_head c l n m g bs e /\ reply_body (c_title c) (te_is_trailers (in_headers m)) (ekind e) g body /\
    (ekind e = KCloseDelimited -> alone).
Definition replying (c : cfg) (l : list levent) (n : nat) (w : bytes) (g : gmsg) : Prop :=
  exists m bs e body, w = bs ++ body /\ reply_head c l n m g bs e /\ reply_begun (ekind e) g body.
Definition refused (c : cfg) (l : list levent) (n : nat) (w : bytes) (g : gmsg) : Prop :=
  exists m h' keep err, nth_error (requests l) n = Some m /\ head_for (g_head g) h' /\ encodes c (in_method m) (g_len g) h' keep w (Err err) /\
    In (LHeadFail w) l.
(* The connection's own answer to bytes that are no request *)
Definition rebuff (c : cfg) (l : list levent) (w : bytes) : Prop :=
  exists p status method h' keep r, server_on_error p = Some status /\
    head_for (mkO HTTP11 (OResponse status None) [] None) h' /\ encodes c method None h' keep w r /\
    match r with Ok _ => In (LHead true h' w) l | Err _ => In (LHeadFail w) l end.

(* What a server connection writes, piece by piece: responses; interim responses
   to Expect: 100-continue; its own error responses *)
Inductive piece := PReply (g : gmsg) (w : bytes) | PContinue | PRebuff (w : bytes).
Definition wire_of (p : piece) : bytes :=
  match p with PReply _ w | PRebuff w => w | PContinue => B "HTTP/1.1 100 Continue" ++ CRLF ++ CRLF end.
Definition replies (ps : list piece) : list gmsg := flat_map (fun p => match p with PReply g _ => [g] | _ => [] end) ps.
(* [n]: the number of the first response; [alone]: nothing follows.  A response
   that goes on to the end of the connection is the last piece. *)
Fixpoint pieces (c : cfg) (l : list levent) (n : nat) (ps : list piece) (alone : Prop) : Prop :=
  match ps with
  | [] => True
  | PReply g w :: r => replied c l n w g (r = [] /\ alone) /\ pieces c l (S n) r alone
  | PContinue :: r => pieces c l n r alone
  | PRebuff w :: r => rebuff c l w /\ pieces c l n r alone
  end.
