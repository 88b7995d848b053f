(* The read side of the transport: the source that body decoders read from.
   Models src/proto/h1/io.rs: the part of [Buffered] behind [MemRead].

   The transport is a list of events, one per poll of the underlying IO
   object, in the order the polls happen.  The end of the list is EOF, which
   is sticky. *)
From Verif Require Import Base.

(* what one poll of the transport yields (external; polled at proto/h1/io.rs 224-261) *)
Inductive event :=
| EvPending              (* poll_read returned Pending *)
| EvData (d : bytes)     (* poll_read filled these bytes; see [wf_events] *)
| EvErr.                 (* poll_read returned an error *)

(* Why an operation on the source or a decoder failed.  One constructor per
   error message in src/proto/h1/decode.rs, plus [ETransport] for an error of
   the IO object itself. *)
Inductive ioerr :=
| ETransport
| EIncompleteBody         (* decode.rs 160-163, 491-494: IncompleteBody, UnexpectedEof *)
| EUnexpectedEof          (* decode.rs 258-259: unexpected EOF during chunk size line *)
| EOverflow               (* decode.rs 268-271 *)
| ETrailerBytes           (* decode.rs 281-284 *)
| EMissingDigit           (* decode.rs 364-367 *)
| EInvalidSize            (* decode.rs 399-402 *)
| EInvalidLws             (* decode.rs 417-420 *)
| EExtNewline             (* decode.rs 437-440 *)
| EExtLimit               (* decode.rs 444-447 *)
| EInvalidSizeLf          (* decode.rs 469-472 *)
| EInvalidBodyCr          (* decode.rs 511-514 *)
| EInvalidBodyLf          (* decode.rs 523-526 *)
| ETrailerCount           (* decode.rs 562-565 *)
| EInvalidTrailerLf       (* decode.rs 578-581 *)
| EInvalidEndLf           (* decode.rs 630-633 *)
| ETrailerParse           (* decode.rs 648-675: httparse / HeaderName / HeaderValue refused the block *)
| EPanic                  (* decode.rs 539, 571: expect("trailers_buf is None") *)
| EOutOfFuel.             (* artefact of the model's bounded loops; proved unreachable *)

(* Is the error of kind UnexpectedEof (decode.rs 160, 258, 491)? *)
Definition is_eof_error (e : ioerr) : bool :=
  match e with EIncompleteBody | EUnexpectedEof => true | _ => false end.

(* io.rs 29-39, Buffered: only [read_buf] and the IO object matter here. *)
Record src := mkSrc { rbuf : bytes; evs : list event }.

(* io.rs 224-261, poll_read_from_io.  Simplified: how much capacity is offered
   to the transport (the read strategy, see M_ReadStrategy) is abstracted by
   letting the transport deliver any non-empty amount; the bytes go to the end
   of read_buf. *)
Definition poll_read_from_io (s : src) : src * poll (result N ioerr) :=
  match evs s with
  | [] => (s, Ready (Ok 0))
  | EvPending :: r => (mkSrc (rbuf s) r, Pending)
  | EvData d :: r => (mkSrc (rbuf s ++ d) r, Ready (Ok (lenN d)))
  | EvErr :: r => (mkSrc (rbuf s) r, Ready (Err ETransport))
  end.

(* io.rs 354-362, MemRead::read_mem for Buffered. *)
Definition read_mem (s : src) (len : N) : src * poll (result bytes ioerr) :=
  match rbuf s with
  | _ :: _ =>
      let n := N.min len (lenN (rbuf s)) in
      (mkSrc (dropN n (rbuf s)) (evs s), Ready (Ok (takeN n (rbuf s))))
  | [] =>
      match poll_read_from_io s with
      | (s', Pending) => (s', Pending)
      | (s', Ready (Err e)) => (s', Ready (Err e))
      | (s', Ready (Ok n)) =>
          let m := N.min len n in
          (mkSrc (dropN m (rbuf s')) (evs s'), Ready (Ok (takeN m (rbuf s'))))
      end
  end.
