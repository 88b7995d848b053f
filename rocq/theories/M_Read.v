(* The read side of the connection's IO object: read sizes, head parsing,
   leftover bytes.
   Models the reading half of Buffered and ReadStrategy in src/proto/h1/io.rs,
   parse_headers and is_complete_fast in src/proto/h1/role.rs, and
   src/common/io/rewind.rs. *)
From Verif Require Import Base M_Src.

(* ------------------------------------------------------------------ *)
(* io.rs 365-374, ReadStrategy *)
Inductive rstrategy :=
| Adaptive (decrease_now : bool) (next max : N)
| Exact (n : N).

(* io.rs 14-15 *)
Definition init_buffer_size : N := 8192.

(* io.rs 377-383, with_max *)
Definition with_max (max : N) : rstrategy := Adaptive false init_buffer_size max.
(* io.rs 385-391 *)
Definition rs_next (s : rstrategy) : N := match s with Adaptive _ n _ => n | Exact n => n end.
(* io.rs 393-399 *)
Definition rs_max (s : rstrategy) : N := match s with Adaptive _ _ m => m | Exact n => n end.

(* io.rs 436-438: n.saturating_mul(2) *)
Definition incr_power_of_two (n : N) : N := N.min (n * 2) u64_max.
(* io.rs 444: usize::leading_zeros *)
Definition leading_zeros (n : N) : N := 64 - N.size n.
(* io.rs 440-445: (usize::MAX >> (n.leading_zeros() + 2)) + 1; the shift does not
   overflow because n >= 8192 (C23) *)
Definition prev_power_of_two (n : N) : N := N.shiftr u64_max (leading_zeros n + 2) + 1.

(* io.rs 401-433, record *)
Definition rs_record (s : rstrategy) (bytes_read : N) : rstrategy :=
  match s with
  | Adaptive dec next max =>
      if next <=? bytes_read then Adaptive false (N.min (incr_power_of_two next) max) max
      else
        let decr_to := prev_power_of_two next in
        if bytes_read <? decr_to then
          if dec then Adaptive false (N.max decr_to init_buffer_size) max
          else Adaptive true next max
        else Adaptive false next max
  | Exact n => Exact n
  end.

(* ------------------------------------------------------------------ *)
(* role.rs 100-118, is_complete_fast: the loop over the bytes from [start].
   bytes[i+1..].chunks(k).next() is the slice of the next k bytes (or fewer). *)
Fixpoint scan_end (l : bytes) : bool :=
  match l with
  | [] => false
  | b :: r =>
      if b =? CR then
        if beq (takeN 3 r) [LF; CR; LF] then true else scan_end r
      else if (b =? LF) && (beq (takeN 1 r) [LF] || beq (takeN 2 r) [CR; LF]) then true
      else scan_end r
  end.
(* proto/h1/role.rs 100-118, is_complete_fast *)
Definition is_complete_fast (bs : bytes) (prev_len : N) : bool :=
  scan_end (dropN (prev_len - 3) bs).

(* The answer of a message parser (Server::parse or Client::parse) to a buffer:
   [PMore c]: Ok(None), having consumed c bytes (the client consumes 1xx
   responses before it asks for more, role.rs 1184-1194); [PDone c m]: a message
   of c bytes; [PFail e]: a parse error. *)
Inductive presult (M E : Type) :=
| PMore (c : N)
| PDone (c : N) (m : M)
| PFail (e : E).
Arguments PMore {M E} c.
Arguments PDone {M E} c m.
Arguments PFail {M E} e.

(* role.rs 73-95, parse_headers *)
Definition parse_headers {M E} (P : bytes -> presult M E) (b : bytes) (prev_len : option N) : presult M E :=
  match b with
  | [] => PMore 0
  | _ =>
      match prev_len with
      | Some n => if is_complete_fast b n then P b else PMore 0
      | None => P b
      end
  end.

(* proto/h1/role.rs 73-95: how parse_headers fails *)
Inductive perr (E : Type) :=
| EParse (e : E)       (* the parser's error *)
| ETooLarge            (* io.rs 205-208, new_too_large *)
| EIncomplete          (* io.rs 217-220, new_incomplete *)
| EIo.                 (* io.rs 217, new_io *)
Arguments EParse {E} e.
Arguments ETooLarge {E}.
Arguments EIncomplete {E}.
Arguments EIo {E}.

(* What Buffered keeps for reading (io.rs 32-40): read_buf, partial_len; the
   transport's events follow [M_Src]. *)
Record rstate := mkR { r_buf : bytes; r_partial : option N; r_evs : list event }.

(* io.rs 174-222, Buffered::parse.  poll_read_from_io is unfolded (see
   [M_Src.poll_read_from_io]); [max] is read_buf_strategy.max(). *)
Fixpoint parse_loop {M E} (P : bytes -> presult M E) (max : N) (b : bytes) (partial : option N)
  (evs : list event) : rstate * poll (result M (perr E)) :=
  match parse_headers P b partial with
  | PFail e => (mkR b partial evs, Ready (Err (EParse e)))
  | PDone c m => (mkR (dropN c b) None evs, Ready (Ok m))
  | PMore c =>
      let b := dropN c b in
      if max <=? lenN b then (mkR b partial evs, Ready (Err ETooLarge))
      else
        let partial := if 0 <? lenN b then Some (lenN b) else None in
        match evs with
        | [] => (mkR b partial [], Ready (Err EIncomplete))
        | EvPending :: r => (mkR b partial r, Pending)
        | EvErr :: r => (mkR b partial r, Ready (Err EIo))
        | EvData d :: r =>
            if lenN d =? 0 then (mkR b partial r, Ready (Err EIncomplete))
            else parse_loop P max (b ++ d) partial r
        end
  end.
(* proto/h1/io.rs 174-222, Buffered::parse *)
Definition io_parse {M E} (P : bytes -> presult M E) (max : N) (s : rstate) :
  rstate * poll (result M (perr E)) :=
  parse_loop P max (r_buf s) (r_partial s) (r_evs s).

(* io.rs 161-172, consume_leading_lines *)
Fixpoint skip_lines (b : bytes) : bytes :=
  match b with
  | [] => []
  | x :: r => if (x =? CR) || (x =? LF) then skip_lines r else b
  end.
(* proto/h1/io.rs 161-172, consume_leading_lines *)
Definition consume_leading_lines (s : rstate) : rstate :=
  mkR (skip_lines (r_buf s)) (r_partial s) (r_evs s).

(* io.rs 354-362 and 224-261 on this state *)
Definition r_read_mem (s : rstate) (len : N) : rstate * poll (result bytes ioerr) :=
  let (s', r) := read_mem (mkSrc (r_buf s) (r_evs s)) len in
  (mkR (rbuf s') (r_partial s) (evs s'), r).
(* proto/h1/io.rs 224-261, poll_read_from_io, on this state *)
Definition r_read_io (s : rstate) : rstate * poll (result N ioerr) :=
  let (s', r) := poll_read_from_io (mkSrc (r_buf s) (r_evs s)) in
  (mkR (rbuf s') (r_partial s) (evs s'), r).

(* io.rs 263-265, into_inner: the transport and the leftover bytes *)
Definition into_inner (s : rstate) : list event * bytes := (r_evs s, r_buf s).

(* ------------------------------------------------------------------ *)
(* io.rs 242: the transport's poll_read into a buffer with [cap] bytes of room: a delivery
   that does not fit is cut. *)
Definition io_read (cap : N) (evs : list event) : list event * poll (result bytes ioerr) :=
  match evs with
  | [] => ([], Ready (Ok []))
  | EvPending :: r => (r, Pending)
  | EvErr :: r => (r, Ready (Err ETransport))
  | EvData d :: r =>
      if lenN d <=? cap then (r, Ready (Ok d))
      else (EvData (dropN cap d) :: r, Ready (Ok (takeN cap d)))
  end.

(* common/io/rewind.rs 8-13, Rewind *)
Record rewind := mkRw { rw_pre : option bytes; rw_evs : list event }.
(* rewind.rs 29-34, new_buffered; upgrade.rs 139-147, Upgraded::new *)
Definition new_buffered (x : list event * bytes) : rewind := mkRw (Some (snd x)) (fst x).
(* rewind.rs 55-76, poll_read (upgrade.rs 168-176 forwards to it) *)
Definition rw_read (cap : N) (s : rewind) : rewind * poll (result bytes ioerr) :=
  let inner := let (e, r) := io_read cap (rw_evs s) in (mkRw None e, r) in
  match rw_pre s with
  | Some p =>
      match p with
      | [] => inner
      | _ =>
          let n := N.min (lenN p) cap in
          let rest := dropN n p in
          (mkRw (match rest with [] => None | _ => Some rest end) (rw_evs s), Ready (Ok (takeN n p)))
      end
  | None => inner
  end.
(* rewind.rs 46-48, into_inner (upgrade.rs 154-165, downcast) *)
Definition rw_into_inner (s : rewind) : list event * bytes :=
  (rw_evs s, match rw_pre s with Some p => p | None => [] end).
