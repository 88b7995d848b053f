(* Buffers of bytes waiting to be written.
   Models src/common/buf.rs, EncodedBuf of src/proto/h1/encode.rs, and the
   parts of the [Buf] trait of the bytes crate that they are built on. *)
From Verif Require Import Base M_Encode.

(* A value of a type implementing bytes::Buf, as hyper composes them
   (encode.rs 50-57, BufKind):
   - [Segs v l]: a user's body buffer, a ChunkSize, a static slice or a Bytes:
     the remaining bytes as the list of contiguous pieces that successive
     chunk() calls return.  [v] tells whether the type overrides
     chunks_vectored to return all its pieces, or has the provided method of
     the trait, which returns only the first piece.
   - [Chain a b]: bytes::buf::Chain.
   - [Take v n b]: bytes::buf::Take with limit n.  [v]: the vectored view of
     bytes 1.10 and later (at most 16 slices of the inner buffer); otherwise the
     provided method (first piece only). *)
Inductive buf :=
| Segs (v : bool) (l : list bytes)
| Chain (a b : buf)
| Take (v : bool) (n : N) (b : buf).

(* Buf::remaining: encode.rs 286-295, 363-366 and the bytes crate.
   Simplified: sums do not overflow usize (the bytes are in memory). *)
Fixpoint brem (b : buf) : N :=
  match b with
  | Segs _ l => lenN (concat l)
  | Chain a b => brem a + brem b
  | Take _ n b => N.min (brem b) n
  end.

(* Buf::chunk: encode.rs 297-306, 368-371 and the bytes crate. *)
Fixpoint bchunk (b : buf) : bytes :=
  match b with
  | Segs _ l => match l with [] => [] | x :: _ => x end
  | Chain a b => if 0 <? brem a then bchunk a else bchunk b
  | Take _ n b => takeN (N.min (lenN (bchunk b)) n) (bchunk b)
  end.

(* Advancing a segmented buffer (called at encode.rs 311 and common/buf.rs 41-57); None: the advance past the end that the Buf
   contract forbids (it panics in every implementation used). *)
Fixpoint segs_adv (n : N) (l : list bytes) : option (list bytes) :=
  match l with
  | [] => if n =? 0 then Some [] else None
  | x :: r => if n <? lenN x then Some (dropN n x :: r) else segs_adv (n - lenN x) r
  end.

(* Buf::advance: encode.rs 308-317, 373-377 and the bytes crate. *)
Fixpoint badv (n : N) (b : buf) : option buf :=
  match b with
  | Segs v l => option_map (Segs v) (segs_adv n l)
  | Chain a b =>
      let ra := brem a in
      if negb (ra =? 0) then
        if n <=? ra then option_map (fun a' => Chain a' b) (badv n a)
        else match badv ra a with
             | Some a' => option_map (Chain a') (badv (n - ra) b)
             | None => None
             end
      else option_map (Chain a) (badv n b)
  | Take v lim b =>
      if lim <? n then None else option_map (Take v (lim - n)) (badv n b)
  end.

(* The slices of Take::chunks_vectored (bytes 1.10 and later) *)
Fixpoint trim (lim : N) (l : list bytes) : list bytes :=
  match l with
  | [] => []
  | s :: r => if lim <=? lenN s then [takeN lim s] else s :: trim (lim - lenN s) r
  end.

(* Buf::chunks_vectored with room for [k] slices: encode.rs 319-328 and the
   bytes crate. *)
Fixpoint bvec (k : nat) (b : buf) : list bytes :=
  match b with
  | Segs v l => if v then firstn k l else firstn (Nat.min k 1) l
  | Chain a b => let va := bvec k a in va ++ bvec (k - length va) b
  | Take v n b' =>
      if n =? 0 then []
      else if v then trim n (bvec (Nat.min k 16) b')
      else match k with
           | O => []
           | S _ => if 0 <? brem b then [bchunk b] else []
           end
  end.

(* bytes crate, the provided Buf::copy_to_bytes and BufMut::put on a Take, as used by
   common/buf.rs 74-93: the
   loop copying chunk after chunk until [n] bytes are copied.  None: a panic,
   or a loop that makes no progress. *)
Fixpoint put_take (fuel : nat) (n : N) (b : buf) (acc : bytes) : option (bytes * buf) :=
  if N.min (brem b) n =? 0 then Some (acc, b)
  else match fuel with
       | O => None
       | S f =>
           let s := takeN n (bchunk b) in
           match badv (lenN s) b with
           | Some b' => put_take f (n - lenN s) b' (acc ++ s)
           | None => None
           end
       end.
(* common/buf.rs 74-93: as much fuel as there are bytes *)
Definition bcopy (n : N) (b : buf) : option (bytes * buf) :=
  if brem b <? n then None else put_take (S (N.to_nat n)) n b [].

(* ------------------------------------------------------------------ *)
(* common/buf.rs 6-8, BufList: the deque, front first. *)
Definition buflist := list buf.

(* buf.rs 17-21 *)
Definition bl_push (l : buflist) (b : buf) : buflist := l ++ [b].
(* buf.rs 23-26 *)
Definition bl_cnt (l : buflist) : N := lenN l.
(* buf.rs 30-33 *)
Fixpoint bl_rem (l : buflist) : N :=
  match l with [] => 0 | b :: r => brem b + bl_rem r end.
(* buf.rs 35-38 *)
Definition bl_chunk (l : buflist) : bytes :=
  match l with [] => [] | b :: _ => bchunk b end.
(* buf.rs 40-56; None: indexing an empty deque, or a panicking advance *)
Fixpoint bl_adv (n : N) (l : buflist) : option buflist :=
  if n =? 0 then Some l
  else match l with
       | [] => None
       | f :: r =>
           let rem := brem f in
           if n <? rem then option_map (fun f' => f' :: r) (badv n f)
           else match badv rem f with
                | Some _ => bl_adv (n - rem) r
                | None => None
                end
       end.
(* buf.rs 58-71 *)
Fixpoint bl_vec (k : nat) (l : buflist) : list bytes :=
  match l with
  | [] => []
  | b :: r =>
      if Nat.eqb k 0 then []
      else let v := bvec k b in
           if Nat.eqb (length v) k then v else v ++ bl_vec (k - length v) r
  end.
(* buf.rs 84-88: bm.put(self.take(len)) *)
Fixpoint bl_put_take (fuel : nat) (n : N) (l : buflist) (acc : bytes) : option (bytes * buflist) :=
  if N.min (bl_rem l) n =? 0 then Some (acc, l)
  else match fuel with
       | O => None
       | S f =>
           let s := takeN n (bl_chunk l) in
           match bl_adv (lenN s) l with
           | Some l' => bl_put_take f (n - lenN s) l' (acc ++ s)
           | None => None
           end
       end.
(* buf.rs 73-91, copy_to_bytes *)
Definition bl_copy (n : N) (l : buflist) : option (bytes * buflist) :=
  let slow := if bl_rem l <? n then None else bl_put_take (S (N.to_nat n)) n l [] in
  match l with
  | f :: r =>
      if brem f =? n then
        match bcopy n f with Some (bs, _) => Some (bs, r) | None => None end
      else if n <? brem f then
        match bcopy n f with Some (bs, f') => Some (bs, f' :: r) | None => None end
      else slow
  | [] => slow
  end.

(* ------------------------------------------------------------------ *)
(* encode.rs 50-57, 128-161: the EncodedBuf that Encoder::encode returns for a
   body buffer [b].  [v]: see [Take]. *)
Definition encode_buf (v : bool) (e : encoder) (b : buf) : encoder * buf :=
  let len := brem b in
  match ekind e with
  | KChunked _ => (e, Chain (Chain (Segs false [chunk_size len]) b) (Segs false [CRLF]))
  | KLength remaining =>
      if remaining <? len then (mkEnc (KLength 0) (is_last e), Take v remaining b)
      else (mkEnc (KLength (remaining - len)) (is_last e), b)
  | KCloseDelimited => (e, b)
  end.
(* encode.rs 219-261, the buffer that encode_and_end queues *)
Definition encode_and_end_buf (v : bool) (e : encoder) (b : buf) : buf :=
  let len := brem b in
  match ekind e with
  | KChunked _ =>
      Chain (Chain (Segs false [chunk_size len]) b)
            (Segs false [CRLF ++ B "0" ++ CRLF ++ CRLF])
  | KLength remaining => if remaining <? len then Take v remaining b else b
  | KCloseDelimited => b
  end.
(* encode.rs 116-126, 204-206: ChunkedEnd and Trailers *)
Definition end_buf : buf := Segs false [B "0" ++ CRLF ++ CRLF].
(* proto/h1/encode.rs 204-206: Trailers *)
Definition trailers_buf (block : bytes) : buf :=
  Chain (Chain (Segs false [B "0" ++ CRLF]) (Segs false [block])) (Segs false [CRLF]).
