(* The write side of the connection's IO object.
   Models WriteBuf, Cursor and the flushing half of Buffered in
   src/proto/h1/io.rs. *)
From Verif Require Import Base M_Encode M_Buf.

(* io.rs 453-457, Cursor<Vec<u8>> *)
Record cursor := mkCur { cbytes : bytes; cpos : N }.
(* io.rs 500-517, Buf for Cursor *)
Definition cur_rem (c : cursor) : N := lenN (cbytes c) - cpos c.
(* proto/h1/io.rs 507, chunk *)
Definition cur_chunk (c : cursor) : bytes := dropN (cpos c) (cbytes c).
(* proto/h1/io.rs 512, advance *)
Definition cur_adv (n : N) (c : cursor) : cursor := mkCur (cbytes c) (cpos c + n).
(* io.rs 485-488, reset *)
Definition cur_reset (c : cursor) : cursor := mkCur [] 0.
(* io.rs 470-483, maybe_unshift.  Simplified: whether the vector's spare
   capacity suffices ([room]) is an arbitrary input. *)
Definition maybe_unshift (room : bool) (c : cursor) : cursor :=
  if cpos c =? 0 then c
  else if room then c
  else mkCur (dropN (cpos c) (cbytes c)) 0.

(* io.rs 519-526, WriteBuf; [wflat]: the strategy is Flatten, else Queue *)
Record wbuf := mkWb { whead : cursor; wmax : N; wqueue : buflist; wflat : bool }.

(* io.rs 24-30 *)
Definition max_buf_list_buffers : N := 16.
(* proto/h1/io.rs 23 *)
Definition default_max_buffer_size : N := 8192 + 4096 * 100.

(* io.rs 528-537 *)
Definition wb_new (flat : bool) (max : N) : wbuf := mkWb (mkCur [] 0) max [] flat.

(* io.rs 610-612 *)
Definition wb_rem (w : wbuf) : N := cur_rem (whead w) + bl_rem (wqueue w).

(* io.rs 561-570: the loop that copies a buffer into the headers vector.
   None: a panic or a loop without progress. *)
Fixpoint flatten (fuel : nat) (b : buf) (acc : bytes) : option bytes :=
  match bchunk b with
  | [] => Some acc
  | s =>
      match fuel with
      | O => None
      | S f => match badv (lenN s) b with
               | Some b' => flatten f b' (acc ++ s)
               | None => None
               end
      end
  end.

(* io.rs 547-582, WriteBuf::buffer *)
Definition wb_buffer (room : bool) (w : wbuf) (b : buf) : option wbuf :=
  if wflat w then
    let h := maybe_unshift room (whead w) in
    match flatten (S (N.to_nat (brem b))) b (cbytes h) with
    | Some bs => Some (mkWb (mkCur bs (cpos h)) (wmax w) (wqueue w) (wflat w))
    | None => None
    end
  else Some (mkWb (whead w) (wmax w) (bl_push (wqueue w) b) (wflat w)).

(* io.rs 584-591, WriteBuf::can_buffer; 157-159, Buffered::can_buffer *)
Definition wb_can_buffer (w : wbuf) : bool :=
  if wflat w then wb_rem w <? wmax w
  else (bl_cnt (wqueue w) <? max_buf_list_buffers) && (wb_rem w <? wmax w).
(* proto/h1/io.rs 157-159, Buffered::can_buffer *)
Definition can_buffer (pipeline : bool) (w : wbuf) : bool := pipeline || wb_can_buffer w.

(* io.rs 135-137, can_headers_buf *)
Definition can_headers_buf (w : wbuf) : bool := negb (0 <? bl_rem (wqueue w)).

(* io.rs 139-142, 593-596: appending to the vector that headers_buf() returns.
   The debug_assert there (the queue is empty) is not part of a release build;
   it is the condition [can_headers_buf]. *)
Definition wb_head (w : wbuf) (bs : bytes) : wbuf :=
  mkWb (mkCur (cbytes (whead w) ++ bs) (cpos (whead w))) (wmax w) (wqueue w) (wflat w).

(* io.rs 624-637, WriteBuf::advance *)
Definition wb_adv (n : N) (w : wbuf) : option wbuf :=
  let hrem := cur_rem (whead w) in
  match hrem ?= n with
  | Eq => Some (mkWb (cur_reset (whead w)) (wmax w) (wqueue w) (wflat w))
  | Gt => Some (mkWb (cur_adv n (whead w)) (wmax w) (wqueue w) (wflat w))
  | Lt => match bl_adv (n - hrem) (wqueue w) with
          | Some q => Some (mkWb (cur_reset (whead w)) (wmax w) q (wflat w))
          | None => None
          end
  end.

(* io.rs 639-643; the cursor has the provided chunks_vectored of the Buf trait *)
Definition wb_vec (k : nat) (w : wbuf) : list bytes :=
  let h := if Nat.eqb k 0 then [] else if 0 <? cur_rem (whead w) then [cur_chunk (whead w)] else [] in
  h ++ bl_vec (k - length h) (wqueue w).

(* io.rs 271-328: what the transport answers to one poll of its write half: to poll_write and
   poll_write_vectored, [WAccept n] accepts min(n, offered) bytes; to
   poll_flush, [WAccept _] is success.  An exhausted list answers Pending. *)
Inductive wevent := WPending | WFail | WAccept (n : N).

(* io.rs 286-302, 313-326 *)
Inductive werr :=
| ETransportW            (* error of the transport *)
| EWriteZero             (* io.rs 300, 323 *)
| EPanicW.               (* a panic in a buffer operation; proved unreachable *)

(* The result of a flush (io.rs 271-328): buffer, transport's remaining events, bytes the
   transport accepted, outcome. *)
Definition flush_out : Type := wbuf * list wevent * bytes * poll (result unit werr).

(* The call of poll_flush on the transport (io.rs 275, 304, 327) *)
Definition io_flush (w : wbuf) (sent : bytes) (evs : list wevent) : flush_out :=
  match evs with
  | [] => (w, [], sent, Pending)
  | WPending :: r => (w, r, sent, Pending)
  | WFail :: r => (w, r, sent, Ready (Err ETransportW))
  | WAccept _ :: r => (w, r, sent, Ready (Ok tt))
  end.

(* io.rs 311-328, poll_flush_flattened *)
Fixpoint flush_flat (w : wbuf) (sent : bytes) (evs : list wevent) : flush_out :=
  match evs with
  | [] => (w, [], sent, Pending)
  | WPending :: r => (w, r, sent, Pending)
  | WFail :: r => (w, r, sent, Ready (Err ETransportW))
  | WAccept a :: r =>
      let offered := cur_chunk (whead w) in
      let n := N.min a (lenN offered) in
      let sent' := sent ++ takeN n offered in
      let h := cur_adv n (whead w) in
      if cur_rem h =? 0 then
        io_flush (mkWb (cur_reset h) (wmax w) (wqueue w) (wflat w)) sent' r
      else
        let w' := mkWb h (wmax w) (wqueue w) (wflat w) in
        if n =? 0 then (w', r, sent', Ready (Err EWriteZero))
        else flush_flat w' sent' r
  end.

(* io.rs 281-303: the loop of poll_flush in the Queue strategy; 64 slices *)
Fixpoint flush_queue (w : wbuf) (sent : bytes) (evs : list wevent) : flush_out :=
  match evs with
  | [] => (w, [], sent, Pending)
  | WPending :: r => (w, r, sent, Pending)
  | WFail :: r => (w, r, sent, Ready (Err ETransportW))
  | WAccept a :: r =>
      let offered := concat (wb_vec 64 w) in
      let n := N.min a (lenN offered) in
      let sent' := sent ++ takeN n offered in
      match wb_adv n w with
      | None => (w, r, sent', Ready (Err EPanicW))
      | Some w' =>
          if wb_rem w' =? 0 then io_flush w' sent' r
          else if n =? 0 then (w', r, sent', Ready (Err EWriteZero))
          else flush_queue w' sent' r
      end
  end.

(* io.rs 271-306, poll_flush; [unread]: read_buf is not empty *)
Definition wb_flush (pipeline unread : bool) (w : wbuf) (evs : list wevent) : flush_out :=
  if pipeline && unread then (w, evs, [], Ready (Ok tt))
  else if wb_rem w =? 0 then io_flush w [] evs
  else if wflat w then flush_flat w [] evs
  else flush_queue w [] evs.
