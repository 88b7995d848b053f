(* From the bytes of a head to the message: Server::parse and Client::parse of
   src/proto/h1/role.rs, whole.  httparse and the validators of the http crate
   are functions given in [hparse]. *)
From Verif Require Import Base M_HeaderMap M_Headers M_Role M_RoleEncode M_Read M_Conn.

(* httparse::Error (external, as matched in error.rs 653-665) *)
Inductive hp_error := HEName | HEValue | HENewLine | HEStatus | HEToken | HETooMany | HEVersion.
(* httparse::Request after Complete (external, as used in role.rs 176-206); [q_minor1]: version == Some(1) *)
Record hp_request := mkQ { q_method : bytes; q_path : bytes; q_minor1 : bool; q_lines : list (bytes * bytes) }.
(* httparse::Response after Complete (external, as used in role.rs 1053-1077) *)
Record hp_response := mkA { a_minor1 : bool; a_code : N; a_lines : list (bytes * bytes) }.
(* What httparse answers (external, as matched in role.rs 171-218 and 1048-1086).
   [HError e seen]: whether the method had been recognized. *)
Inductive hp_result (A : Type) := HComplete (n : N) (a : A) | HPartial | HError (e : hp_error) (seen : bool).
Arguments HComplete {A} n a.
Arguments HPartial {A}.
Arguments HError {A} e seen.
(* The external functions: httparse with the parser configuration and the room
   for h1_max_headers lines (role.rs 163-175, 1034-1052), http::Uri::from_maybe_shared
   (role.rs 224), http::Method::from_bytes (role.rs 188); and whether folded lines
   are allowed in responses (role.rs 1091-1094). *)
Record hparse := mkHP {
  h_request : bytes -> hp_result hp_request;
  h_response : bytes -> hp_result hp_response;
  h_uri : bytes -> bool;
  h_method : bytes -> bool;
  h_fold : bool
}.

(* error.rs 652-666, From<httparse::Error> for Parse *)
Definition hp_into (e : hp_error) : parse_error :=
  match e with
  | HEName | HEValue | HENewLine | HEToken => PHeaderToken
  | HEStatus => PStatus
  | HETooMany => PTooLarge
  | HEVersion => PVersion
  end.
(* role.rs 33 *)
Definition MAX_URI_LEN : N := 65534.
(* role.rs 1558-1582, record_header_indices: whether it returns Ok *)
Definition names_fit (lines : list (bytes * bytes)) : bool := forallb (fun l => lenN (fst l) <? 65536) lines.
(* role.rs 266 and 1123: HeaderMap::reserve of an empty map (external, http: at most 32768
   slots for n + n/3); false is its panic *)
Definition reserves (n : N) : bool := n + n / 3 <=? 32768.

(* How a call of a parser ends: it returns; it panics; the model ran out of fuel
   (role.rs 1032, the loop) *)
Inductive pret (A : Type) := PRet (a : A) | PPanic | PFuel.
Arguments PRet {A} a.
Arguments PPanic {A}.
Arguments PFuel {A}.

(* role.rs 146-380, Server::parse.  Simplification: a header name or value that
   httparse accepted is accepted by header_name!/header_value! (role.rs 36-71). *)
Definition parse_request (o : hparse) (x : bytes) : pret (presult inmsg (parse_error * N)) :=
  match h_request o x with
  | HPartial => PRet (PMore 0)
  | HError HEToken seen => PRet (PFail (if seen then PUri else PMethod, 0))
  | HError e _ => PRet (PFail (hp_into e, 0))
  | HComplete n q =>
      if MAX_URI_LEN <? lenN (q_path q) then PRet (PFail (PUriTooLong, 0))
      else if negb (h_method o (q_method q)) then PRet (PFail (PMethod, 0))
      else if negb (names_fit (q_lines q)) then PRet (PFail (PTooLarge, 0))
      else if negb (h_uri o (q_path q)) then PRet (PFail (PUri, n))
      else if negb (reserves (lenN (q_lines q))) then PPanic
      else match server_parse (q_minor1 q) (q_method q) (q_lines q) with
           | Err e => PRet (PFail (e, n))
           | Ok p => PRet (PDone n (mkIn (if q_minor1 q then HTTP11 else HTTP10) (Some (q_method q)) 0
                                     (pm_headers p) (pm_decode p) (pm_expect p) (pm_keep p) (pm_upgrade p)))
           end
  end.

(* A head that the informational callback is called with (role.rs 1181-1185,
   ext/informational.rs) *)
Record interim := mkInterim { i_version : version; i_status : N; i_headers : hmap }.

(* role.rs 1091-1100: obs_fold_line on every value.  None: its panic. *)
Fixpoint unfold_lines (lines : list (bytes * bytes)) : option (list (bytes * bytes)) :=
  match lines with
  | [] => Some []
  | (n, v) :: r =>
      match obs_fold_line v, unfold_lines r with
      | Some v', Some r' => Some ((n, v') :: r')
      | _, _ => None
      end
  end.
(* role.rs 1091-1100: only if the configuration allows folded lines *)
Definition maybe_unfold (o : hparse) (lines : list (bytes * bytes)) : option (list (bytes * bytes)) :=
  if h_fold o then unfold_lines lines else Some lines.
(* http::StatusCode::from_u16 (external, used in role.rs 1055) *)
Definition status_ok (n : N) : bool := (100 <=? n) && (n <=? 999).

(* One round of the loop of Client::parse (role.rs 1032-1193): it returns, or it
   took k bytes with an interim response. *)
Inductive round := RdStop (r : pret (presult inmsg (parse_error * N))) | RdInterim (k : N) (i : interim).
(* role.rs 1088-1185, a round after httparse: k bytes are a head with these lines *)
Definition response_head (o : hparse) (method : option bytes) (k : N) (ver : version) (status : N) (lines : list (bytes * bytes)) : round :=
  match maybe_unfold o lines with
  | None => RdStop PPanic
  | Some lines =>
      if negb (reserves (lenN lines)) then RdStop PPanic
      else match client_parse_head ver status lines method with
           | Err e => RdStop (PRet (PFail (e, k)))
           | Ok (Some p) =>
               RdStop (PRet (PDone k (mkIn ver None status (pm_headers p) (pm_decode p) (pm_expect p) (pm_keep p) (pm_upgrade p))))
           | Ok None => RdInterim k (mkInterim ver status (fst (fst (client_lines ver lines))))
           end
  end.
(* role.rs 1032-1086 *)
Definition client_round (o : hparse) (method : option bytes) (h09 : bool) (x : bytes) : round :=
  match h_response o x with
  | HPartial => RdStop (PRet (PMore 0))
  | HError HEVersion _ => if h09 then response_head o method 0 HTTP09 200 [] else RdStop (PRet (PFail (PVersion, 0)))
  | HError e _ => RdStop (PRet (PFail (hp_into e, 0)))
  | HComplete k a =>
      if negb (status_ok (a_code a)) then RdStop (PRet (PFail (PStatus, 0)))
      else if negb (names_fit (a_lines a)) then RdStop (PRet (PFail (PTooLarge, 0)))
      else response_head o method k (if a_minor1 a then HTTP11 else HTTP10) (a_code a) (a_lines a)
  end.
(* role.rs 1088: n bytes have been split off the buffer in earlier rounds *)
Definition shift (n : N) (r : pret (presult inmsg (parse_error * N))) : pret (presult inmsg (parse_error * N)) :=
  match r with
  | PRet (PMore k) => PRet (PMore (n + k))
  | PRet (PDone k m) => PRet (PDone (n + k) m)
  | PRet (PFail (e, k)) => PRet (PFail (e, n + k))
  | r => r
  end.
(* role.rs 1028-1194, Client::parse.  [n]: bytes taken off the buffer so far;
   [cb]: the calls of the informational callback so far, latest first.
   Simplifications: the reason phrase and the other extensions are left out;
   header_name!/header_value! as above. *)
Fixpoint parse_response (fuel : nat) (o : hparse) (method : option bytes) (h09 : bool) (n : N) (cb : list interim) (x : bytes)
  : list interim * pret (presult inmsg (parse_error * N)) :=
  match fuel with
  | O => (rev cb, PFuel)
  | S fuel =>
      match client_round o method h09 x with
      | RdStop r => (rev cb, shift n r)
      | RdInterim k i =>
          match dropN k x with
          | [] => (rev (i :: cb), PRet (PMore (n + k)))
          | x' => parse_response fuel o method h09 (n + k) (i :: cb) x'
          end
      end
  end.
(* role.rs 1028: one call; each round takes at least one byte *)
Definition client_call (o : hparse) (method : option bytes) (h09 : bool) (x : bytes) : list interim * pret (presult inmsg (parse_error * N)) :=
  parse_response (S (length x)) o method h09 0 [] x.

(* io.rs 181-196: the parser as the connection calls it.  Simplification: a panic
   takes the task down; here it is an error without a response (Internal), so that
   nothing more is handed out.  [C66_no_panic] says when there is none. *)
Definition settle (r : pret (presult inmsg (parse_error * N))) : presult inmsg (parse_error * N) :=
  match r with PRet a => a | _ => PFail (PInternal, 0) end.
(* h1/mod.rs 40-54 with role.rs 146 and 1028: T::parse *)
Definition role_parse (server : bool) (o : hparse) (method : option bytes) (h09 : bool) (x : bytes) : presult inmsg (parse_error * N) :=
  settle (if server then parse_request o x else snd (client_call o method h09 x)).
