(* Model of the read buffer of hyper's I/O traits: src/rt/io.rs 167-420, and of
   the adapter to tokio's traits: src/common/io/compat.rs 27-64. *)
From Verif Require Import Base.

(* rt/io.rs 167-171, ReadBuf.  A cell of the memory is None while it is not
   initialised. *)
Record readbuf := mkRB { rb_raw : list (option N); rb_filled : N; rb_init : N }.
(* rt/io.rs 233-241, ReadBuf::new: the memory is initialised *)
Definition rb_new (raw : bytes) : readbuf := mkRB (map Some raw) 0 (lenN raw).
(* rt/io.rs 243-251, ReadBuf::uninit *)
Definition rb_uninit (raw : list (option N)) : readbuf := mkRB raw 0 0.
(* rt/io.rs 253-258, ReadBuf::filled: None: the slice operation panics *)
Definition rb_get_filled (b : readbuf) : option (list (option N)) :=
  if rb_filled b <=? lenN (rb_raw b) then Some (takeN (rb_filled b) (rb_raw b)) else None.
(* rt/io.rs 273-284, set_init and set_filled *)
Definition rb_set_init (n : N) (b : readbuf) : readbuf := mkRB (rb_raw b) (rb_filled b) (N.max (rb_init b) n).
(* rt/io.rs 286, set_filled *)
Definition rb_set_filled (n : N) (b : readbuf) : readbuf := mkRB (rb_raw b) (N.max (rb_filled b) n) (rb_init b).
(* rt/io.rs 298-306, remaining and capacity.  Underflow is impossible while
   filled <= capacity; N subtraction stops at 0. *)
Definition rb_capacity (b : readbuf) : N := lenN (rb_raw b).
(* rt/io.rs 303, remaining *)
Definition rb_remaining (b : readbuf) : N := rb_capacity b - rb_filled b.

(* rt/io.rs 377, 414: writing [s] into the memory from offset [at_]: what copy_from_nonoverlapping
   and write_bytes do for ranges within the memory *)
Definition overwrite (raw : list (option N)) (at_ : N) (s : bytes) : list (option N) :=
  takeN at_ raw ++ map Some s ++ dropN (at_ + lenN s) raw.

(* rt/io.rs 331-333, ReadBufCursor::as_mut and writes of the caller into the
   slice returned, from its start; None: the slice operation panics, or a write
   out of bounds *)
Definition rb_as_mut_write (s : bytes) (b : readbuf) : option readbuf :=
  if (rb_filled b <=? rb_capacity b) && (lenN s <=? rb_capacity b - rb_filled b)
  then Some (mkRB (overwrite (rb_raw b) (rb_filled b) s) (rb_filled b) (rb_init b)) else None.
(* rt/io.rs 340-344, ReadBufCursor::advance; None: panic *)
Definition rb_advance (n : N) (b : readbuf) : option readbuf :=
  match checked_add (rb_filled b) n with
  | Some f => Some (mkRB (rb_raw b) f (N.max f (rb_init b)))
  | None => None
  end.
(* rt/io.rs 362-384, ReadBufCursor::put_slice; None: panic *)
Definition rb_put_slice (s : bytes) (b : readbuf) : option readbuf :=
  if lenN s <=? rb_remaining b then
    let end_ := rb_filled b + lenN s in
    Some (mkRB (overwrite (rb_raw b) (rb_filled b) s) end_ (if rb_init b <? end_ then end_ else rb_init b))
  else None.
(* rt/io.rs 399-424, initialize_unfilled_to; None: panic *)
Definition rb_initialize (n : N) (b : readbuf) : option readbuf :=
  if n <=? rb_remaining b then
    let end_ := rb_filled b + n in
    if rb_init b <? end_
    then Some (mkRB (overwrite (rb_raw b) (rb_init b) (repeat 0 (N.to_nat (end_ - rb_init b)))) (rb_filled b) end_)
    else Some b
  else None.
(* rt/io.rs 386-390, initialize_unfilled *)
Definition rb_initialize_all (b : readbuf) : option readbuf := rb_initialize (rb_remaining b) b.
(* The slice returned by initialize_unfilled_to, rt/io.rs 419-423 *)
Definition rb_slice (n : N) (b : readbuf) : list (option N) := takeN n (dropN (rb_filled b) (rb_raw b)).

(* rt/io.rs 308-425: what a reader does with the cursor it is given.  [RInitWrite n s]: initialise
   [n] bytes and write [s] into the returned slice.  [RUnsafe s n]: as_mut, write
   [s], advance by [n]. *)
Inductive rop := RPut (s : bytes) | RInitWrite (n : N) (s : bytes) | RUnsafe (s : bytes) (n : N).
(* rt/io.rs 308-425 *)
Definition rstep (b : readbuf) (o : rop) : option readbuf :=
  match o with
  | RPut s => rb_put_slice s b
  | RInitWrite n s => match rb_initialize n b with
                      | Some b' => if lenN s <=? n then rb_as_mut_write s b' else None
                      | None => None
                      end
  | RUnsafe s n => match rb_as_mut_write s b with Some b' => rb_advance n b' | None => None end
  end.
(* a sequence of such calls (rt/io.rs 308-425) *)
Fixpoint rrun (b : readbuf) (l : list rop) : option readbuf :=
  match l with
  | [] => Some b
  | o :: r => match rstep b o with Some b' => rrun b' r | None => None end
  end.

(* tokio::io::ReadBuf (external, by its documentation; common/io/compat.rs 32-61): the same three regions;
   assume_init(n): the first n unfilled bytes are initialised; set_filled panics
   if the filled part would exceed the initialised part. *)
Definition tb_assume_init (n : N) (b : readbuf) : readbuf := mkRB (rb_raw b) (rb_filled b) (N.max (rb_init b) (rb_filled b + n)).
(* set_filled of that buffer (external): panics as said above; used at rt/io.rs 32-61 *)
Definition tb_set_filled (n : N) (b : readbuf) : option readbuf :=
  if n <=? rb_init b then Some (mkRB (rb_raw b) n (rb_init b)) else None.
(* common/io/compat.rs 46-49: what the inner reader's poll_read returns *)
Inductive rpoll := RpOk | RpErr | RpPending.
(* common/io/compat.rs 31-63, Compat::poll_read: [l]: what the inner reader does
   with the cursor, [p]: what it returns; None: panic *)
Definition compat_read (l : list rop) (p : rpoll) (t : readbuf) : option (readbuf * rpoll) :=
  match rrun (rb_set_filled (rb_filled t) (rb_set_init (rb_init t) (rb_uninit (rb_raw t)))) l with
  | None => None
  | Some b =>
      let t' := mkRB (rb_raw b) (rb_filled t) (rb_init t) in
      match p with
      | RpOk => match tb_set_filled (rb_filled b) (tb_assume_init (rb_init b - rb_init t) t') with
                | Some t2 => Some (t2, RpOk)
                | None => None
                end
      | _ => Some (t', p)
      end
  end.
