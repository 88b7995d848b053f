(* Spec vocabulary for C67: how a server judges the head of a request. *)
From Verif Require Import Base M_HeaderMap M_Headers M_Role M_RoleEncode M_Read M_Conn M_Parse S_Framing.

(* A head with these parts is accepted. *)
Record acceptable (o : hparse) (q : hp_request) : Prop := mkAcceptable {
  ac_target_length : lenN (q_path q) <= 65534;
  ac_method : h_method o (q_method q) = true;
  ac_names : Forall (fun l => lenN (fst l) < 65536) (q_lines q);
  ac_target : h_uri o (q_path q) = true;
  ac_body : exists f, request_framing (q_minor1 q) (q_lines q) f
}.

(* The first line that says something about the body gives a length that a u64
   holds, but that is larger than the lengths that are supported. *)
Definition over_long (lines : list line) : Prop :=
  exists before name v after n, lines = before ++ (name, v) :: after /\ lower name = B "content-length" /\
    te_values before = [] /\ cl_lines before = [] /\ cl_means v n /\ 2 ^ 64 - 2 <= n < 2 ^ 64.

(* The bytes do not begin with a good head: the first thing that is wrong with
   them, in the order of the rules, calls for this status. *)
Inductive refused (o : hparse) (x : bytes) : N -> Prop :=
| ref_many seen : h_request o x = HError HETooMany seen -> refused o x 431
| ref_syntax e seen : h_request o x = HError e seen -> e <> HETooMany -> refused o x 400
| ref_long n q : h_request o x = HComplete n q -> 65534 < lenN (q_path q) -> refused o x 414
| ref_method n q : h_request o x = HComplete n q -> lenN (q_path q) <= 65534 -> h_method o (q_method q) = false -> refused o x 400
| ref_name n q : h_request o x = HComplete n q -> lenN (q_path q) <= 65534 -> h_method o (q_method q) = true ->
    Exists (fun l => 65536 <= lenN (fst l)) (q_lines q) -> refused o x 431
| ref_target n q : h_request o x = HComplete n q -> lenN (q_path q) <= 65534 -> h_method o (q_method q) = true ->
    Forall (fun l => lenN (fst l) < 65536) (q_lines q) -> h_uri o (q_path q) = false -> refused o x 400
| ref_body n q : h_request o x = HComplete n q -> lenN (q_path q) <= 65534 -> h_method o (q_method q) = true ->
    Forall (fun l => lenN (fst l) < 65536) (q_lines q) -> h_uri o (q_path q) = true ->
    (forall f, ~ request_framing (q_minor1 q) (q_lines q) f) -> ~ over_long (q_lines q) -> refused o x 400
| ref_length n q : h_request o x = HComplete n q -> lenN (q_path q) <= 65534 -> h_method o (q_method q) = true ->
    Forall (fun l => lenN (fst l) < 65536) (q_lines q) -> h_uri o (q_path q) = true -> over_long (q_lines q) -> refused o x 431.

(* httparse does not speak of a status when it reads a request. *)
Definition hp_no_status (o : hparse) : Prop := forall x seen, h_request o x <> HError HEStatus seen.

(* The status that tells the client of an error of the parser, if there is one:
   there is none for an HTTP/2 preface, and the others do not arise on a server. *)
Definition reply_to (p : parse_error) : option N :=
  match p with
  | PUriTooLong => Some 414
  | PTooLarge => Some 431
  | PVersionH2 | PStatus | PInternal => None
  | _ => Some 400
  end.
Definition preface : bytes := B "PRI * HTTP/2.0" ++ CRLF ++ CRLF ++ B "SM" ++ CRLF ++ CRLF.
