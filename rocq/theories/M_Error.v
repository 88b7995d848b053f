(* Model of hyper::Error, error.rs, and of its use: the reason of the reset with which
   an HTTP/2 stream ends when user code fails, timeouts, the codes of the C interface. *)
From Verif Require Import Base M_HeaderMap M_Headers M_Role.

(* error.rs 119-168, User *)
Inductive user_error :=
| UBody | UBodyWriteAborted | UInvalidConnect | UService | UHeader | UStatus | UNoUpgrade | UManualUpgrade | UDispatchGone | UAborted.
(* error.rs 40-87, Kind *)
Inductive ekind :=
| KParse (p : parse_error) | KUser (u : user_error) | KIncomplete | KUnexpected | KCanceled | KClosed | KIo | KHeaderTimeout
| KBody | KBodyWrite | KShutdown | KHttp2.
(* The errors that can be met on the way from an error to what caused it:
   error.rs 31-38 (a hyper::Error: kind and cause), h2::Error (external; [Some r]: a reset, a GOAWAY or a plain reason;
   None: an error of the user of h2; EH2Io: an error of the transport, is_io), error.rs
   171-172 (TimedOut), proto/h2/ping.rs 180 (KeepAliveTimedOut), std::io::Error
   (external; [Some x]: made by io::Error::new(_, x)), any other error with what its
   source() returns.  An error owns its sources, so there is no circle. *)
Inductive err :=
| EHyper (k : ekind) (cause : option err)
| EH2 (reason : option N)
| EH2Io (inner : option err)
| ETimedOut
| EKeepAlive
| EIo (inner : option err)
| EOther (source : option err).
(* StdError::source of each of them: error.rs 618-625, 699, proto/h2/ping.rs 511-515;
   h2::Error has none; std::io::Error does not return the error inside it but
   that one's source (std, external) *)
Fixpoint source (e : err) : option err :=
  match e with
  | EHyper _ c => c
  | EH2 _ | EH2Io _ | ETimedOut => None
  | EKeepAlive => Some ETimedOut
  | EIo None => None
  | EIo (Some x) => source x
  | EOther s => s
  end.
(* How deep an error goes: bounds the loop of error.rs 339-350 *)
Fixpoint edepth (e : err) : nat :=
  match e with
  | EHyper _ (Some c) | EH2Io (Some c) | EIo (Some c) | EOther (Some c) => S (edepth c)
  | EKeepAlive => 2
  | _ => 1
  end.
(* error.rs 341-346, the loop of find_source; [down]: downcast_ref to the type looked
   for.  None also when the fuel does not suffice. *)
Fixpoint find_loop {A} (down : err -> option A) (fuel : nat) (cause : option err) : option A :=
  match fuel, cause with
  | S fuel, Some e => match down e with Some t => Some t | None => find_loop down fuel (source e) end
  | _, _ => None
  end.
(* error.rs 339-350 *)
Definition find_source {A} (down : err -> option A) (e : err) : option A := find_loop down (edepth e) (source e).
(* error.rs 356: is it an h2::Error, and what is its reason() *)
Definition down_h2 (e : err) : option (option N) := match e with EH2 r => Some r | EH2Io _ => Some None | _ => None end.
(* error.rs 320: is it a TimedOut *)
Definition down_timed_out (e : err) : option unit := match e with ETimedOut => Some tt | _ => None end.
(* h2::Reason::INTERNAL_ERROR, RFC 9113 section 7, as used in error.rs 358 *)
Definition INTERNAL_ERROR : N := 2.
(* error.rs 353-359, h2_reason *)
Definition h2_reason (e : err) : N := match find_source down_h2 e with Some (Some r) => r | _ => INTERNAL_ERROR end.

(* error.rs 492-498, new_h2, of an h2::Error *)
Definition new_h2 (cause : err) : err := match cause with EH2Io io => EHyper KIo (Some (EIo io)) | _ => EHyper KHttp2 (Some cause) end.
(* error.rs 405-407 *)
Definition new_body (cause : err) : err := EHyper KBody (Some cause).
(* error.rs 459-461 *)
Definition new_user_service (cause : err) : err := EHyper (KUser UService) (Some cause).
(* error.rs 467-469 *)
Definition new_user_body (cause : err) : err := EHyper (KUser UBody) (Some cause).
(* proto/h2/ping.rs 500-502 *)
Definition keep_alive_error : err := EHyper KHttp2 (Some EKeepAlive).
(* proto/h2/upgrade.rs 344-351, of an h2::Error *)
Definition h2_to_io_error (e : err) : err := match e with EH2Io io => EIo io | _ => EIo (Some e) end.

(* error.rs 175-322: the questions that can be asked; of another error than a hyper::Error they cannot be *)
Definition kind_of (e : err) : option ekind := match e with EHyper k _ => Some k | _ => None end.
(* error.rs 181-183 *)
Definition is_parse (e : err) : bool := match kind_of e with Some (KParse _) => true | _ => false end.
(* error.rs 193-198 *)
Definition is_parse_too_large (e : err) : bool := match kind_of e with Some (KParse (PTooLarge | PUriTooLong)) => true | _ => false end.
(* error.rs 202-204 *)
Definition is_parse_status (e : err) : bool := match kind_of e with Some (KParse PStatus) => true | _ => false end.
(* error.rs 212-214 *)
Definition is_parse_version_h2 (e : err) : bool := match kind_of e with Some (KParse PVersionH2) => true | _ => false end.
(* error.rs 222-224 *)
Definition is_user (e : err) : bool := match kind_of e with Some (KUser _) => true | _ => false end.
(* error.rs 231-233 *)
Definition is_canceled (e : err) : bool := match kind_of e with Some KCanceled => true | _ => false end.
(* error.rs 240-253 *)
Definition is_closed (e : err) : bool := match kind_of e with Some KClosed => true | _ => false end.
(* error.rs 271-277 *)
Definition is_incomplete_message (e : err) : bool := match kind_of e with Some KIncomplete => true | _ => false end.
(* error.rs 284-297 *)
Definition is_body_write_aborted (e : err) : bool := match kind_of e with Some (KUser UBodyWriteAborted) => true | _ => false end.
(* error.rs 302-308 *)
Definition is_shutdown (e : err) : bool := match kind_of e with Some KShutdown => true | _ => false end.
(* error.rs 315-321 *)
Definition is_timeout (e : err) : bool :=
  match kind_of e with
  | Some KHeaderTimeout => true
  | _ => match find_source down_timed_out e with Some _ => true | None => false end
  end.

(* ffi/error.rs 15-36, hyper_code *)
Inductive hyper_code := HOk | HError | HInvalidArg | HUnexpectedEof | HAborted | HFeature | HInvalidPeer.
(* ffi/error.rs 41-53, hyper_error::code *)
Definition code (e : err) : hyper_code :=
  match kind_of e with
  | Some (KParse _) => HInvalidPeer
  | Some KIncomplete => HUnexpectedEof
  | Some (KUser UAborted) => HAborted
  | _ => HError
  end.
