(* Spec vocabulary for C84: messages whose heads can be written. *)
From Verif Require Import Base M_HeaderMap M_Headers M_Encode M_Role M_RoleEncode M_Read M_Conn S_Framing S_Head.

(* The versions that a message of HTTP/1 can be told to have *)
Definition told_version (v : version) : Prop := v = HTTP10 \/ v = HTTP11 \/ v = HTTP2.

(* A request: nothing but its version matters *)
Definition request_writable (h : ohead) : Prop := told_version (o_version h).

(* A response to a request with this method, with a body of the length [len]
   (None: there is no body): not an interim response other than 101; at most one
   of Content-Length and Transfer-Encoding, and none in the success of a CONNECT;
   where the length is taken from the field, its values are one number; there is
   only one line of it in a response to HEAD without a body. *)
Record reply_writable (method : option bytes) (h : ohead) (len : option body_length) : Prop := {
  rw_map : hm_wf (o_headers h);
  rw_version : told_version (o_version h);
  rw_status : exists st reason, o_subject h = OResponse st reason /\ (st = 101 \/ ~ 100 <= st < 200) /\
    (method = Some (B "CONNECT") -> 200 <= st < 300 -> hm_get_all (o_headers h) (B "content-length") = [] /\ hm_get_all (o_headers h) (B "transfer-encoding") = []);
  rw_one : hm_get_all (o_headers h) (B "content-length") = [] \/ hm_get_all (o_headers h) (B "transfer-encoding") = [];
  rw_number : len = Some Unknown -> exists n, n <= u64_max /\ Forall (fun v => cl_means v n) (hm_get_all (o_headers h) (B "content-length"));
  rw_single : len = None -> method = Some (B "HEAD") -> (length (hm_get_all (o_headers h) (B "content-length")) <= 1)%nat
}.

(* The same as a condition that is also necessary, for the head that is given to
   Server::encode.  Of the two fields the one that comes first decides: it is
   passed over if it has no meaning here, else the other one must not follow. *)
Definition length_counts (m : smsg) : Prop := m_body m <> None \/ m_method m = Some (B "HEAD").
Definition coding_counts (m : smsg) : Prop := m_version m <> HTTP10 /\ ~ body_forbidden (m_method m) (m_status m).
Definition precedes (x y : bytes) (h : hmap) : Prop := exists a vs b ws r, h = a ++ (x, vs) :: b ++ (y, ws) :: r.
Record encodable (m : smsg) : Prop := {
  en_version : told_version (m_version m);
  en_status : m_status m = 101 \/ ~ 100 <= m_status m < 200;
  en_connect : m_method m = Some (B "CONNECT") -> 200 <= m_status m < 300 -> hm_get_all (m_headers m) (B "content-length") = [] /\ hm_get_all (m_headers m) (B "transfer-encoding") = [];
  en_length_first : length_counts m -> ~ precedes (B "content-length") (B "transfer-encoding") (m_headers m);
  en_coding_first : coding_counts m -> ~ precedes (B "transfer-encoding") (B "content-length") (m_headers m);
  en_number : m_body m = Some Unknown -> exists n, n <= u64_max /\ Forall (fun v => cl_means v n) (hm_get_all (m_headers m) (B "content-length"));
  en_single : m_body m = None -> m_method m = Some (B "HEAD") -> (length (hm_get_all (m_headers m) (B "content-length")) <= 1)%nat
}.
